(** Euler angles. *)
From Coq Require Import Reals List Arith Bool ZArith Ascii Lia Lra Permutation.
From Verif Require Import Base Quat SpecQuat QuatProofs NdArray Frames Matcher LookupProofs
  Transform SpecArray NdProofs RotProofs ArrProofs ArrStaticProofs Utils UtilsProofs.
Import ListNotations.
Open Scope nat_scope.

(** The rotation by angle a about x (letter r), y (p) or z (y). *)
Definition rot_about (c : ascii) (a : R) : quat :=
  if Ascii.eqb c "r" then Qt (cos (a/2)) (sin (a/2)) 0 0
  else if Ascii.eqb c "p" then Qt (cos (a/2)) 0 (sin (a/2)) 0
  else Qt (cos (a/2)) 0 0 (sin (a/2)).

Lemma half_abs a : (sqrt (a * a) / 2 = Rabs (a / 2))%R.
Proof.
  replace (a * a)%R with (Rsqr a) by reflexivity. rewrite sqrt_Rsqr_abs. unfold Rdiv. rewrite Rabs_mult.
  rewrite (Rabs_right (/2)%R) by lra. reflexivity.
Qed.
Lemma half_cases a : (Req_b (Rabs (a/2)) 0 = true -> cos (a/2) = 1%R /\ sin (a/2) = 0%R) /\
  (Req_b (Rabs (a/2)) 0 = false -> cos (Rabs (a/2)) = cos (a/2) /\ (sin (Rabs (a/2)) / Rabs (a/2) * (a / 2) = sin (a/2))%R).
Proof.
  split; intros H.
  - apply Req_b_true in H. assert (E : (a/2 = 0)%R). { destruct (Req_dec (a/2) 0) as [E|E]; auto. apply Rabs_no_R0 in E. congruence. }
    rewrite E. rewrite cos_0, sin_0. auto.
  - apply Req_b_false in H. destruct (Rle_lt_dec 0 (a/2)) as [L|L].
    + rewrite Rabs_right in * by lra. split; auto. field. lra.
    + rewrite Rabs_left in * by lra. rewrite cos_neg, sin_neg. split; auto. field. lra.
Qed.
Lemma from_rotvec_axis c a : In c [ch_r; ch_p; ch_y] ->
  from_rotvec (match c with _ => if Ascii.eqb c "r" then V3 (1*a) (0*a) (0*a) else if Ascii.eqb c "p" then V3 (0*a) (1*a) (0*a) else V3 (0*a) (0*a) (1*a) end)%R
  = rot_about c a.
Proof.
  intros [<-|[<-|[<-|[]]]]; cbn -[from_rotvec]; unfold from_rotvec, rot_about; cbn [Ascii.eqb];
    (replace (vdot _ _) with (a * a)%R by (vcomp; ring)); rewrite half_abs; destruct (half_cases a) as (H1 & H2);
    (destruct (Req_b (Rabs (a/2)) 0); [destruct (H1 eq_refl) as (E1 & E2); cbn; rewrite E1, E2; reflexivity|]);
    destruct (H2 eq_refl) as (E1 & E2); cbn [vx vy vz]; rewrite E1; cbn; f_equal; rewrite <- ?E2; unfold Rdiv; ring.
Qed.
Lemma rot_about_unit c a : hunit (rot_about c a).
Proof.
  unfold rot_about. pose proof (sin2_cos2 (a/2)) as T. unfold Rsqr in T.
  destruct (Ascii.eqb c "r"); [|destruct (Ascii.eqb c "p")]; vcomp; lra.
Qed.
Lemma hprod_unit l : Forall hunit l -> hunit (hprod l).
Proof. intros H. induction H; simpl; [apply hn2_one|]. unfold hunit in *. rewrite hn2_hmul, H, IHForall. ring. Qed.

Lemma index_nth c s i : index_of c s = Some i -> nth_error s i = Some c.
Proof.
  revert i; induction s as [|d s IH]; intros i; simpl; [discriminate|]. destruct (Ascii.eqb_spec c d) as [->|N].
  - intros H. injection H as <-. reflexivity.
  - destruct (index_of c s); [|discriminate]. intros H. injection H as <-. simpl. auto.
Qed.
(** The first three letters are a permutation of r, p, y. *)
Definition is_order (o : list ascii) : Prop := exists a b c rest, o = a :: b :: c :: rest /\ Permutation [a; b; c] [ch_r; ch_p; ch_y].

Lemma set3_len {A} (l : list A) i x l' : set3 l i x = Some l' -> i < length l /\ length l' = length l.
Proof.
  unfold set3. destruct (Nat.ltb_spec i (length l)) as [H|H]; [|discriminate]. intros E. assert (E' : firstn i l ++ x :: skipn (S i) l = l') by congruence. clear E. subst l'. split; auto.
  rewrite app_length, firstn_length. change (length (x :: skipn (S i) l)) with (S (length (skipn (S i) l))). rewrite skipn_length. lia.
Qed.
Lemma six (a b c : ascii) : Permutation [a; b; c] [ch_r; ch_p; ch_y] ->
  In (a, b, c) [(ch_r,ch_p,ch_y); (ch_r,ch_y,ch_p); (ch_p,ch_r,ch_y); (ch_p,ch_y,ch_r); (ch_y,ch_r,ch_p); (ch_y,ch_p,ch_r)].
Proof.
  intros H. assert (Ia : In a [ch_r; ch_p; ch_y]) by (apply (Permutation_in _ H); simpl; auto).
  assert (Ib : In b [ch_r; ch_p; ch_y]) by (apply (Permutation_in _ H); simpl; auto).
  assert (Ic : In c [ch_r; ch_p; ch_y]) by (apply (Permutation_in _ H); simpl; auto).
  assert (N : NoDup [a; b; c]).
  { apply (Permutation_NoDup (Permutation_sym H)). repeat constructor; simpl; unfold ch_r, ch_p, ch_y; intuition discriminate. }
  inversion N as [|? ? N1 N2]; subst. inversion N2 as [|? ? N3 _]; subst. simpl in N1, N3.
  destruct Ia as [<-|[<-|[<-|[]]]]; destruct Ib as [<-|[<-|[<-|[]]]]; destruct Ic as [<-|[<-|[<-|[]]]]; try tauto; simpl; tauto.
Qed.
Definition pick {A} (r p y : A) (c : ascii) : A := if Ascii.eqb c "r" then r else if Ascii.eqb c "p" then p else y.
Lemma arrange_ok a b c rest r p y : Permutation [a; b; c] [ch_r; ch_p; ch_y] ->
  arrange (a :: b :: c :: rest) r p y = Ok [pick r p y a; pick r p y b; pick r p y c].
Proof.
  intros H. apply six in H. simpl in H. destruct H as [H|[H|[H|[H|[H|[H|[]]]]]]]; injection H as <- <- <-; reflexivity.
Qed.
Lemma arrange_cases o r p y : arrange o r p y = Raise ValueError \/ is_order o.
Proof.
  unfold arrange.
  destruct (index_of ch_r o) as [i|] eqn:Ei; [|left; reflexivity]. destruct (set3 _ i r) as [l1|] eqn:E1; [|left; reflexivity]. cbn [bind].
  destruct (index_of ch_p o) as [j|] eqn:Ej; [|left; reflexivity]. destruct (set3 l1 j p) as [l2|] eqn:E2; [|left; reflexivity]. cbn [bind].
  destruct (index_of ch_y o) as [k|] eqn:Ek; [|left; reflexivity]. destruct (set3 l2 k y) as [l3|] eqn:E3; [|left; reflexivity].
  right. apply set3_len in E1 as (L1 & M1). apply set3_len in E2 as (L2 & M2). apply set3_len in E3 as (L3 & _).
  simpl in L1, M1. apply index_nth in Ei, Ej, Ek.
  assert (Nij : i <> j) by (intros ->; rewrite Ei in Ej; discriminate).
  assert (Nik : i <> k) by (intros ->; rewrite Ei in Ek; discriminate).
  assert (Njk : j <> k) by (intros ->; rewrite Ej in Ek; discriminate).
  destruct o as [|x [|x0 [|x1 rest]]].
  - destruct i; discriminate.
  - destruct i as [|[|i]]; try discriminate. destruct j as [|[|j]]; try discriminate. congruence.
  - destruct i as [|[|[|i]]]; try discriminate; destruct j as [|[|[|j]]]; try discriminate; destruct k as [|[|[|k]]]; try discriminate; lia.
  - exists x, x0, x1, rest. split; auto.
    destruct i as [|[|[|i]]]; try lia; destruct j as [|[|[|j]]]; try lia; destruct k as [|[|[|k]]]; try lia;
      simpl in Ei, Ej, Ek; injection Ei as ->; injection Ej as ->; injection Ek as ->.
    + apply Permutation_refl.
    + apply perm_skip, perm_swap.
    + apply perm_swap.
    + apply (perm_trans (perm_swap _ _ _)). apply perm_skip, perm_swap.
    + apply (perm_trans (perm_skip _ (perm_swap _ _ _))). apply perm_swap.
    + apply (perm_trans (perm_swap _ _ _)). apply (perm_trans (perm_skip _ (perm_swap _ _ _))). apply perm_swap.
Qed.

Lemma arrange_bad o r p y : ~ is_order o -> arrange o r p y = Raise ValueError.
Proof. intros H. destruct (arrange_cases o r p y); tauto. Qed.
Lemma arrange_order o r p y l : arrange o r p y = Ok l -> is_order o.
Proof. intros H. destruct (arrange_cases o r p y) as [E|E]; auto. rewrite H in E; discriminate. Qed.

Definition osome {A} (l : list (option A)) : list A := flat_map (fun o => match o with Some a => [a] | None => [] end) l.
Lemma fold_some l acc : foldM (fun acc r => match r with None => Ok acc | Some q => op2 qmulq acc q end) l acc =
  foldM (fun acc q => op2 qmulq acc q) (osome l) acc.
Proof.
  revert acc; induction l as [|[q|] l IH]; intros acc; simpl; auto. destruct (op2 qmulq acc q); simpl; auto.
Qed.

(** Angles that are present have the shape sh. *)
Definition angle_ok (sh : list nat) (x : option (nd R)) : Prop := match x with Some a => shp a = sh | None => True end.
(** The rotations in the given order, missing angles skipped. *)
Definition chain (o : list ascii) (roll pitch yaw : option (nd R)) (ix : list nat) : list quat :=
  flat_map (fun c => match pick roll pitch yaw c with Some a => [rot_about c (dat a ix)] | None => [] end) o.

Lemma about_rot c roll pitch yaw ix : In c [ch_r; ch_p; ch_y] ->
  match pick (about (V3 1 0 0) roll) (about (V3 0 1 0) pitch) (about (V3 0 0 1) yaw) c with
  | Some q => [dat q ix] | None => [] end =
  match pick roll pitch yaw c with Some a => [rot_about c (dat a ix)] | None => [] end.
Proof.
  intros H. pose proof H as H'. destruct H as [<-|[<-|[<-|[]]]]; unfold pick; cbn [Ascii.eqb].
  - cbn. destruct roll as [a|]; cbn -[from_rotvec rot_about]; auto. exact (f_equal (fun q => [q]) (from_rotvec_axis ch_r (dat a ix) H')).
  - cbn. destruct pitch as [a|]; cbn -[from_rotvec rot_about]; auto. exact (f_equal (fun q => [q]) (from_rotvec_axis ch_p (dat a ix) H')).
  - cbn. destruct yaw as [a|]; cbn -[from_rotvec rot_about]; auto. exact (f_equal (fun q => [q]) (from_rotvec_axis ch_y (dat a ix) H')).
Qed.
Lemma pick_ok sh roll pitch yaw c : angle_ok sh roll -> angle_ok sh pitch -> angle_ok sh yaw ->
  forall q, pick (about (V3 1 0 0) roll) (about (V3 0 1 0) pitch) (about (V3 0 0 1) yaw) c = Some q -> shp q = sh.
Proof.
  intros H1 H2 H3 q. unfold pick. destruct (Ascii.eqb c "r"); [|destruct (Ascii.eqb c "p")].
  - destruct roll; cbn; [|discriminate]. intros E. injection E as <-. auto.
  - destruct pitch; cbn; [|discriminate]. intros E. injection E as <-. auto.
  - destruct yaw; cbn; [|discriminate]. intros E. injection E as <-. auto.
Qed.

Lemma chain_fold a b c rest roll pitch yaw sh : Permutation [a; b; c] [ch_r; ch_p; ch_y] ->
  angle_ok sh roll -> angle_ok sh pitch -> angle_ok sh yaw -> (roll <> None \/ pitch <> None \/ yaw <> None) ->
  exists q, (rotors <- arrange (a :: b :: c :: rest) (about (V3 1 0 0) roll) (about (V3 0 1 0) pitch) (about (V3 0 0 1) yaw) ;;
    foldM (fun acc r => match r with None => Ok acc | Some q => op2 qmulq acc q end) rotors (Nd [] (fun _ => q1))) = Ok q /\
   shp q = sh /\ forall ix, valid sh ix -> dat q ix = hprod (chain [a; b; c] roll pitch yaw ix) /\ hunit (dat q ix).
Proof.
  intros Hp H1 H2 H3 Hn. rewrite (arrange_ok a b c rest _ _ _ Hp). cbn [bind]. rewrite fold_some.
  set (P := pick (about (V3 1 0 0) roll) (about (V3 0 1 0) pitch) (about (V3 0 0 1) yaw)).
  destruct (reduce_ok (osome [P a; P b; P c]) sh) as (m & E & S & D).
  - pose proof (six _ _ _ Hp) as H6. unfold P. 
    destruct roll; destruct pitch; destruct yaw; try (destruct Hn as [?|[?|?]]; congruence);
    simpl in H6; destruct H6 as [H|[H|[H|[H|[H|[H|[]]]]]]]; injection H as <- <- <-; discriminate.
  - unfold osome. apply Forall_forall. intros q Hq. apply in_flat_map in Hq as (o & Ho & Hq).
    destruct o as [q'|]; [|destruct Hq]. destruct Hq as [->|[]].
    assert (exists c', P c' = Some q) as (c' & Hc') by (simpl in Ho; destruct Ho as [?|[?|[?|[]]]]; eauto).
    apply (pick_ok sh roll pitch yaw c'); auto.
  - exists m. split; [exact E|]. split; auto. intros ix Hi.
    assert (Ec : map (fun q => dat q ix) (osome [P a; P b; P c]) = chain [a; b; c] roll pitch yaw ix).
    { assert (Hin : forall x, In x [a; b; c] -> In x [ch_r; ch_p; ch_y]) by (intros x Hx; apply (Permutation_in _ Hp); auto).
      unfold osome, chain. cbn [flat_map]. rewrite !map_app.
      rewrite <- !(about_rot _ roll pitch yaw ix) by (apply Hin; simpl; auto). fold P.
      destruct (P a); destruct (P b); destruct (P c); reflexivity. }
    rewrite D, Ec by auto. split; auto. apply hprod_unit. unfold chain. apply Forall_forall. intros q Hq.
    apply in_flat_map in Hq as (c' & _ & Hq). destruct (pick roll pitch yaw c'); [|destruct Hq]. destruct Hq as [<-|[]]. apply rot_about_unit.
Qed.
Lemma list_nat_eqb_refl l : list_nat_eqb l l = true.
Proof. unfold list_nat_eqb. destruct (list_eq_dec Nat.eq_dec l l); congruence. Qed.
Lemma list_nat_eqb_true l m : list_nat_eqb l m = true -> l = m.
Proof. unfold list_nat_eqb. destruct (list_eq_dec Nat.eq_dec l m); congruence. Qed.
Lemma checks_ok sh roll pitch yaw : angle_ok sh roll -> angle_ok sh pitch -> angle_ok sh yaw ->
  (roll <> None \/ pitch <> None \/ yaw <> None) ->
  (shape <- check_shape (match roll with Some a => Some (shp a) | None => None end) pitch ;; check_shape shape yaw) = Ok (Some sh).
Proof.
  intros H1 H2 H3 Hn. destruct roll as [r|]; destruct pitch as [p|]; destruct yaw as [y|]; cbn in *; subst;
    rewrite ?H2, ?H3, ?list_nat_eqb_refl; cbn; rewrite ?H3, ?list_nat_eqb_refl; auto.
  destruct Hn as [?|[?|?]]; congruence.
Qed.
Lemma checks_inv roll pitch yaw o :
  (shape <- check_shape (match roll with Some a => Some (shp a) | None => None end) pitch ;; check_shape shape yaw) = Ok o ->
  match o with
  | None => roll = None /\ pitch = None /\ yaw = None
  | Some sh => angle_ok sh roll /\ angle_ok sh pitch /\ angle_ok sh yaw /\ (roll <> None \/ pitch <> None \/ yaw <> None)
  end.
Proof.
  destruct roll as [r|]; destruct pitch as [p|]; destruct yaw as [y|]; cbn; intros H;
  repeat match goal with
  | H : context [list_nat_eqb ?a ?b] |- _ => let E := fresh in destruct (list_nat_eqb a b) eqn:E; cbn in H; [apply list_nat_eqb_true in E|]; try discriminate
  end; injection H as <-; cbn; try rewrite <- !H0; repeat split; auto; try congruence; try (left; congruence); try (right; left; congruence); try (right; right; congruence).
Qed.
Lemma checks_raise (roll pitch yaw : option (nd R)) e :
  (shape <- check_shape (match roll with Some a => Some (shp a) | None => None end) pitch ;; check_shape shape yaw) = Raise e -> e = ValueError.
Proof.
  destruct roll as [r|]; destruct pitch as [p|]; destruct yaw as [y|]; cbn; intros H;
  repeat match goal with
  | H : context [list_nat_eqb ?a ?b] |- _ => destruct (list_nat_eqb a b); cbn in H; try discriminate
  end; try discriminate; injection H as <-; reflexivity.
Qed.
