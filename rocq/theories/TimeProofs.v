(** Timestamps chosen by the matcher; sampling of discrete, continuous and
    constant frames. *)
From Coq Require Import Reals List String Arith Bool Lia Lra Sorted.
From Verif Require Import Base Quat SpecQuat QuatProofs NdArray Frames SpecForest
  FrameProofs WalkProofs Matcher SpecLookup LookupProofs RegistryProofs MovingProofs.
Import ListNotations.
Open Scope R_scope.

(* ---- range ---- *)
Lemma maxl_spec a l x : maxl a l <= x <-> a <= x /\ Forall (fun b => b <= x) l.
Proof. unfold maxl. revert a; induction l as [|b l IH]; intros a; simpl.
  - split; [intros; split; auto|tauto].
  - rewrite IH. split.
    + intros (H1 & H2). pose proof (Rmax_l a b). pose proof (Rmax_r a b). split; [lra|]. constructor; auto. lra.
    + intros (H1 & H2). inversion H2; subst. split; auto. apply Rmax_lub; auto. Qed.
Lemma minl_spec a l x : x <= minl a l <-> x <= a /\ Forall (fun b => x <= b) l.
Proof. unfold minl. revert a; induction l as [|b l IH]; intros a; simpl.
  - split; [intros; split; auto|tauto].
  - rewrite IH. split.
    + intros (H1 & H2). pose proof (Rmin_l a b). pose proof (Rmin_r a b). split; [lra|]. constructor; auto. lra.
    + intros (H1 & H2). inversion H2; subst. split; auto. apply Rmin_glb; auto. Qed.

Lemma traverse_first l firsts x : traverse first_of l = Ok firsts ->
  Forall (fun b => b <= x) firsts <-> forall ts, In ts l -> exists a, hd_error ts = Some a /\ a <= x.
Proof.
  unfold traverse. revert firsts; induction l as [|ts l IH]; simpl; intros firsts H.
  - injection H as <-. split; [intros _ ts []|constructor].
  - destruct ts as [|a ts]; simpl in H; [discriminate|]. destruct (sequence (map first_of l)) as [f|]; [|discriminate].
    simpl in H. injection H as <-. specialize (IH f eq_refl). split.
    + intros Hf ts' [<-|Hin]; inversion Hf; subst; [exists a; auto|]. apply IH; auto.
    + intros Hf. constructor.
      * destruct (Hf (a :: ts)) as (a' & Ha & Hle); auto. injection Ha as <-. auto.
      * apply IH. intros; apply Hf; auto. Qed.
Lemma traverse_last l lasts x : traverse last_of l = Ok lasts ->
  Forall (fun b => x <= b) lasts <-> forall ts, In ts l -> exists b, nth_error ts (List.length ts - 1) = Some b /\ x <= b.
Proof.
  unfold traverse. revert lasts; induction l as [|ts l IH]; simpl; intros lasts H.
  - injection H as <-. split; [intros _ ts []|constructor].
  - destruct ts as [|a ts]; [discriminate|]. simpl in H. destruct (sequence (map last_of l)) as [f|]; [|discriminate].
    simpl in H. injection H as <-. specialize (IH f eq_refl).
    assert (E : nth_error (a :: ts) (List.length (a :: ts) - 1) = Some (last ts a)).
    { simpl List.length. rewrite Nat.sub_succ, Nat.sub_0_r. apply nth_last. }
    split.
    + intros Hf ts' [<-|Hin]; inversion Hf; subst; [exists (last ts a); auto|]. apply IH; auto.
    + intros Hf. constructor.
      * destruct (Hf (a :: ts)) as (a' & Ha & Hle); auto. rewrite E in Ha. injection Ha as <-. auto.
      * apply IH. intros; apply Hf; auto. Qed.

Lemma range_spec m lo hi x : get_range m = Ok (lo, hi) ->
  (match lo with Some a => Rle_b a x | None => true end && match hi with Some b => Rle_b x b | None => true end = true
   <-> forall ts, In ts (cont_list m ++ arr_list m) -> in_bounds ts x = true).
Proof.
  unfold get_range. intros H. apply bind_ok in H as (firsts & Hf & H). apply bind_ok in H as (lasts & Hl & H).
  injection H as <- <-.
  assert (E1 : match match firsts with [] => None | a :: l => Some (maxl a l) end with Some a => Rle_b a x | None => true end = true
     <-> Forall (fun b => b <= x) firsts).
  { destruct firsts as [|a l]; [split; auto|]. rewrite Rle_b_true, maxl_spec. split.
    - intros (H1 & H2). constructor; auto.
    - intros H'. inversion H'; auto. }
  assert (E2 : match match lasts with [] => None | a :: l => Some (minl a l) end with Some a => Rle_b x a | None => true end = true
     <-> Forall (fun b => x <= b) lasts).
  { destruct lasts as [|a l]; [split; auto|]. rewrite Rle_b_true, minl_spec. split.
    - intros (H1 & H2). constructor; auto.
    - intros H'. inversion H'; auto. }
  rewrite andb_true_iff, E1, E2, (traverse_first _ _ x Hf), (traverse_last _ _ x Hl). split.
  - intros (H1 & H2) ts Hin. apply in_bounds_spec. destruct (H1 ts Hin) as (a & Ha & La).
    destruct (H2 ts Hin) as (b & Hb & Lb). exists a, b. auto.
  - intros H'. split; intros ts Hin; specialize (H' ts Hin); apply in_bounds_spec in H' as (a & b & Ha & Hb & Hx);
      [exists a|exists b]; split; auto; lra.
Qed.

(* ---- unique ---- *)
Lemma insert_uniq_in x l y : In y (insert_uniq x l) <-> y = x \/ In y l.
Proof. induction l as [|z l IH]; simpl.
  - intuition.
  - destruct (Rlt_b x z); [simpl; intuition|]. destruct (Req_b x z) eqn:E; simpl.
    + apply Req_b_true in E. subst. intuition.
    + rewrite IH. intuition. Qed.
Lemma insert_uniq_sorted x l : StronglySorted Rlt l -> StronglySorted Rlt (insert_uniq x l).
Proof. intros H. induction H as [|z l Hs IH Hz]; simpl.
  - repeat constructor.
  - destruct (Rlt_b x z) eqn:E.
    + apply Rlt_b_true in E. constructor; [constructor; auto|]. constructor; auto.
      eapply Forall_impl; [|exact Hz]. simpl; intros; lra.
    + apply Rlt_b_false in E. destruct (Req_b x z) eqn:E2.
      * constructor; auto.
      * apply Req_b_false in E2. constructor; auto. apply Forall_forall. intros y Hy.
        apply insert_uniq_in in Hy as [->|Hy]; [lra|]. rewrite Forall_forall in Hz. auto. Qed.
Lemma unique_in l y : In y (unique l) <-> In y l.
Proof. unfold unique. induction l as [|x l IH]; simpl; [tauto|]. rewrite insert_uniq_in, IH. intuition. Qed.
Lemma unique_sorted l : StronglySorted Rlt (unique l).
Proof. unfold unique. induction l as [|x l IH]; simpl; [constructor|]. apply insert_uniq_sorted, IH. Qed.

Lemma somes_in {A} (l : list (option A)) a : In a (somes l) <-> In (Some a) l.
Proof. induction l as [|[b|] l IH]; simpl; [tauto| |].
  - rewrite IH. split; intros [H|H]; auto; [left; congruence|left; congruence].
  - rewrite IH. split; auto. intros [H|H]; [discriminate|auto]. Qed.

Lemma timestamps_spec m af o : get_timestamps m af = Ok o ->
  match o with
  | None => cont_list m = [] /\ arr_list m = [] /\ disc_list m = []
  | Some l =>
      (exists ts0 rest, (if af then arr_list m ++ cont_list m else cont_list m ++ arr_list m) = ts0 :: rest /\
        (exists f, l = filter f ts0) /\
        forall x, In x l <-> In x ts0 /\ forall ts, In ts (cont_list m ++ arr_list m) -> in_bounds ts x = true)
      \/ (cont_list m = [] /\ arr_list m = [] /\ disc_list m <> [] /\ StronglySorted Rlt l /\
          forall x, In x l <-> exists ts, In ts (disc_list m) /\ In x ts)
  end.
Proof.
  unfold get_timestamps. intros H. apply bind_ok in H as ([lo hi] & Hr & H).
  destruct (if af then arr_list m ++ cont_list m else cont_list m ++ arr_list m) as [|ts0 rest] eqn:E.
  - assert (E' : cont_list m = [] /\ arr_list m = []).
    { destruct af; apply app_eq_nil in E; tauto. }
    destruct E' as (E1 & E2). destruct (disc_list m) as [|d ds] eqn:Ed.
    + injection H as <-. auto.
    + injection H as <-. right. split; auto. split; auto. split; [congruence|].
      split; [apply unique_sorted|]. intros x. change (In x (unique (List.concat (d :: ds))) <-> exists ts, In ts (d :: ds) /\ In x ts).
      rewrite unique_in, in_concat. tauto.
  - injection H as <-. left. exists ts0, rest. split; auto. split; [eexists; reflexivity|].
    intros x. rewrite filter_In, (range_spec m lo hi x Hr). tauto.
Qed.
Lemma timestamps_raise m af e : get_timestamps m af = Raise e ->
  e = IndexError /\ exists ts, In ts (cont_list m ++ arr_list m) /\ ts = [].
Proof.
  unfold get_timestamps. destruct (get_range m) as [[lo hi]|e'] eqn:Hr; simpl; [discriminate|].
  intros H. injection H as <-. unfold get_range in Hr.
  assert (F : forall (f : list R -> res R) l e, (forall ts e, f ts = Raise e -> e = IndexError /\ ts = []) -> traverse f l = Raise e ->
     e = IndexError /\ exists ts, In ts l /\ ts = []).
  { clear. intros f l e Hf. unfold traverse. induction l as [|ts l IH]; simpl; [discriminate|].
    destruct (f ts) eqn:E; simpl.
    - destruct (sequence (map f l)); simpl; [discriminate|]. intros H. injection H as <-.
      destruct (IH eq_refl) as (H1 & ts' & H2 & H3). split; auto. exists ts'. auto.
    - intros H. injection H as <-. apply Hf in E as (-> & ->). split; auto. exists []. auto. }
  destruct (traverse first_of _) as [fs|e1] eqn:E1; simpl in Hr.
  - destruct (traverse last_of _) as [ls|e2] eqn:E2; simpl in Hr; [discriminate|]. injection Hr as <-.
    apply (F last_of); auto. intros [|] e; simpl; intros H; [split; congruence|discriminate].
  - injection Hr as <-. apply (F first_of); auto. intros [|] e; simpl; intros H; [split; congruence|discriminate].
Qed.

Lemma filter_sorted f (l : list R) : decreasing_somewhere l = false -> decreasing_somewhere (filter f l) = false.
Proof.
  intros H. assert (G : forall x l, (forall y, In y l -> x <= y) -> decreasing_somewhere l = false -> decreasing_somewhere (x :: l) = false).
  { intros x [|y l'] Hx Hd; auto. simpl. apply orb_false_iff. split; auto. apply Rlt_b_false.
    specialize (Hx y (or_introl eq_refl)). lra. }
  induction l as [|x l IH]; simpl; auto.
  assert (Hd : decreasing_somewhere l = false).
  { destruct l as [|y l]; auto. simpl in H. apply orb_false_iff in H. tauto. }
  assert (Hx : forall y, In y l -> x <= y).
  { intros y Hy. apply In_nth_error in Hy as (n & Hn). apply (decreasing_false (x :: l) H 0 (S n)); auto. lia. }
  destruct (f x); auto. apply G; auto. intros y Hy. apply filter_In in Hy as (Hy & _). auto.
Qed.

(* ---- discrete frames ---- *)
Section S.
Variable squad : list R -> list quat -> R -> res quat.

Lemma discrete_rows ts t r l : List.length t = List.length ts -> List.length r = List.length ts -> ts <> [] ->
  exists rows, rows_from_frame squad (TMoving ts t r true) l = Ok rows /\ List.length rows = List.length l /\
  forall k x, nth_error l k = Some x ->
    exists e te re, event_in_force ts x e /\ nth_error t e = Some te /\ nth_error r e = Some re /\
      nth_error rows k = Some (te, re).
Proof.
  intros Ht Hr Hne.
  assert (Nt : t <> []) by (intros ->; destruct ts; [congruence|discriminate]).
  assert (Nr : r <> []) by (intros ->; destruct ts; [congruence|discriminate]).
  destruct (traverse_ok_ex (hold ts t) l) as (tt' & Htt); [intros; apply hold_ok; auto|].
  destruct (traverse_ok_ex (hold ts r) l) as (rr' & Hrr); [intros; apply hold_ok; auto|].
  exists (combine tt' rr'). split.
  - simpl. destruct (hold_ok ts t 0 Nt) as (? & ->). destruct (hold_ok ts r 0 Nr) as (? & ->). simpl.
    rewrite Htt. simpl. rewrite Hrr. reflexivity.
  - pose proof (traverse_length _ _ _ Htt). pose proof (traverse_length _ _ _ Hrr).
    rewrite combine_length. split; [lia|]. intros k x Hx.
    destruct (nth_len tt' k) as (te & Hte); [apply nth_lt in Hx; lia|].
    destruct (nth_len rr' k) as (re & Hre); [apply nth_lt in Hx; lia|].
    pose proof (proj1 (traverse_nth _ _ _ _ _ Htt) Hte) as (x1 & Hx1 & H1).
    pose proof (proj1 (traverse_nth _ _ _ _ _ Hrr) Hre) as (x2 & Hx2 & H2).
    assert (x1 = x) by congruence. assert (x2 = x) by congruence. subst x1 x2.
    apply hold_in_force in H1 as (k1 & F1 & N1); auto. apply hold_in_force in H2 as (k2 & F2 & N2); auto.
    rewrite (event_fun _ _ _ _ F2 F1) in N2. exists k1, te, re. repeat split; auto. apply nth_combine; auto.
Qed.
End S.

(* ---- continuous frames ---- *)
Definition increasing (ts : list R) : Prop :=
  forall i j a b, (i < j)%nat -> nth_error ts i = Some a -> nth_error ts j = Some b -> a < b.

Lemma interp_at_ok {A} (lin : R -> R -> A -> A -> R -> A) ts ys x :
  increasing ts -> (2 <= List.length ts)%nat -> List.length ys = List.length ts ->
  exists k a b u v, interp_idx ts x = (k, S k) /\ nth_error ts k = Some a /\ nth_error ts (S k) = Some b /\ a < b /\
   nth_error ys k = Some u /\ nth_error ys (S k) = Some v /\ interp_at lin ts ys x = Ok (lin a b u v x).
Proof.
  intros Hinc Hlen Hl. unfold interp_at. 
  assert (Hi : exists k, interp_idx ts x = (k, S k) /\ (S k < List.length ts)%nat).
  { unfold interp_idx, clip1. destruct (Nat.min (Nat.max (searchsorted ts x) 1) (List.length ts - 1)) as [|k] eqn:E; [lia|].
    exists k. split; auto. lia. }
  destruct Hi as (k & E & Hk). rewrite E.
  destruct (nth_len ts k) as (a & Ha); [lia|]. destruct (nth_len ts (S k)) as (b & Hb); [lia|].
  destruct (nth_len ys k) as (u & Hu); [lia|]. destruct (nth_len ys (S k)) as (v & Hv); [lia|].
  assert (Hab : a < b) by (apply (Hinc k (S k)); auto).
  exists k, a, b, u, v. rewrite Ha, Hb, Hu, Hv. destruct (Req_b a b) eqn:Ee; [apply Req_b_true in Ee; lra|]. 
  repeat split; auto.
Qed.

Lemma interp1d_ok ts (ys : list vec3) l : increasing ts -> (2 <= List.length ts)%nat -> List.length ys = List.length ts ->
  (forall x, In x l -> in_bounds ts x = true) ->
  exists rows, interp1d lin_vec ts ys l = Ok rows /\ List.length rows = List.length l /\
  (forall k x i u, nth_error l k = Some x -> nth_error ts i = Some x -> nth_error ys i = Some u -> nth_error rows k = Some u) /\
  (forall k x i a b u v, nth_error l k = Some x -> nth_error ts i = Some a -> nth_error ts (S i) = Some b -> a <= x <= b ->
     nth_error ys i = Some u -> nth_error ys (S i) = Some v -> nth_error rows k = Some (between a b u v x)).
Proof.
  intros Hinc Hlen Hl Hin. unfold interp1d.
  assert (Hall : forallb (in_bounds ts) l = true) by (apply forallb_forall; auto). rewrite Hall.
  destruct (traverse_ok_ex (interp_at lin_vec ts ys) l) as (rows & Hr).
  { intros x Hx. destruct (interp_at_ok lin_vec ts ys x Hinc Hlen Hl) as (k & a & b & u & v & _ & _ & _ & _ & _ & _ & E). eauto. }
  exists rows. split; auto. split; [eapply traverse_length; eauto|].
  assert (Hbet : forall k x i a b u v, nth_error l k = Some x -> nth_error ts i = Some a -> nth_error ts (S i) = Some b -> a <= x <= b ->
     nth_error ys i = Some u -> nth_error ys (S i) = Some v -> nth_error rows k = Some (between a b u v x)).
  { intros k x i a b u v Hx Ha Hb Hab Hu Hv.
    destruct (nth_len rows k) as (row & Hrow); [rewrite (traverse_length _ _ _ Hr); eapply nth_lt; eauto|].
    rewrite Hrow. f_equal. apply (traverse_nth _ _ _ _ _ Hr) in Hrow as (x' & Hx' & Hint).
    assert (x' = x) by congruence. subst x'.
    assert (Hbx : in_bounds ts x = true) by (apply Hin; eapply nth_error_In; eauto).
    destruct (interp_at_ok lin_vec ts ys x Hinc Hlen Hl) as (k0 & a0 & b0 & u0 & v0' & E & Ha0 & Hb0 & Hab0 & Hu0 & Hv0 & Eint).
    rewrite Eint in Hint. injection Hint as <-. rewrite lin_vec_between by lra.
    pose proof (interp_idx_spec ts x k0 a0 b0 Hbx E Ha0 Hb0 ltac:(lra) Hab0) as (_ & _ & _ & Hint).
    assert (Hlt : a < b) by (apply (Hinc i (S i)); auto).
    destruct (Nat.lt_trichotomy i k0) as [Hlt'|[->|Hlt']].
    - (* b <= a0 *)
      assert (Hba : b <= a0). { destruct (Nat.eq_dec (S i) k0) as [Heq|Hne]; [subst k0; assert (b = a0) by congruence; lra|].
        left. apply (Hinc (S i) k0); auto. lia. }
      assert (x = a0 /\ b = a0) as (-> & ->) by (destruct Hint as [|[]]; lra).
      assert (S i = k0). { destruct (Nat.eq_dec (S i) k0); auto. pose proof (Hinc (S i) k0 _ _ ltac:(lia) Hb Ha0). lra. }
      subst k0. assert (u0 = v) by congruence. subst u0. unfold between.
      apply vec3_eq; simpl; field; lra.
    - assert (a0 = a) by congruence. assert (b0 = b) by congruence. assert (u0 = u) by congruence. assert (v0' = v) by congruence. subst. reflexivity.
    - assert (Hba : b0 <= a). { destruct (Nat.eq_dec (S k0) i) as [Heq|Hne]; [subst i; assert (b0 = a) by congruence; lra|].
        left. apply (Hinc (S k0) i); auto. lia. }
      assert (x = a /\ b0 = a) as (-> & ->) by (destruct Hint as [|[]]; lra).
      assert (S k0 = i). { destruct (Nat.eq_dec (S k0) i); auto. pose proof (Hinc (S k0) i _ _ ltac:(lia) Hb0 Ha). lra. }
      subst i. assert (v0' = u) by congruence. subst v0'. unfold between.
      apply vec3_eq; simpl; field; lra. }
  split; auto.
  intros k x i u Hx Hi Hu.
  destruct (Nat.lt_ge_cases (S i) (List.length ts)) as [Hlt|Hge].
  - destruct (nth_len ts (S i)) as (b & Hb); auto. destruct (nth_len ys (S i)) as (v & Hv); [lia|].
    assert (x < b) by (apply (Hinc i (S i)); auto).
    rewrite (Hbet k x i x b u v); auto; [|lra]. f_equal. unfold between. apply vec3_eq; simpl; field; lra.
  - destruct i as [|i]; [lia|]. assert (Hi' : (S i < List.length ts)%nat) by (eapply nth_lt; eauto).
    destruct (nth_len ts i) as (a & Ha); [lia|]. destruct (nth_len ys i) as (w & Hw); [lia|].
    assert (a < x) by (apply (Hinc i (S i)); auto).
    rewrite (Hbet k x i a x w u); auto; [|lra]. f_equal. unfold between. apply vec3_eq; simpl; field; lra.
Qed.
Lemma increasing_not_decreasing ts : increasing ts -> decreasing_somewhere ts = false.
Proof. induction ts as [|a ts IH]; intros H; auto. destruct ts as [|b ts]; auto. simpl. apply orb_false_iff. split.
  - apply Rlt_b_false. pose proof (H 0%nat 1%nat a b ltac:(lia) eq_refl eq_refl). lra.
  - apply IH. intros i j x y Hij Hx Hy. apply (H (S i) (S j)); auto. lia. Qed.

(* ---- a moving frame that does not move ---- *)
Section C21.
Variable squad : list R -> list quat -> R -> res quat.
Definition squad_const : Prop := forall ts rr x r r',
  Forall hunit rr -> (forall q, In q rr -> q = r) -> squad ts rr x = Ok r' -> r' = r.

(** d' is d, or the same transform repeated at some timestamps. *)
Definition same_or_const (d d' : tfdata) : Prop :=
  d' = d \/ exists t r ts n m disc, d = TStatic t r /\ d' = TMoving ts (repeat t n) (repeat r m) disc.

Lemma nth_repeat {A} (a : A) n k b : nth_error (repeat a n) k = Some b -> b = a.
Proof. intros H. apply nth_error_In in H. apply repeat_spec in H. auto. Qed.
Lemma own_const d d' x t r t' r' : squad_const -> unit_data d' -> same_or_const d d' -> d = TStatic t r ->
  own_at squad d' x t' r' -> t' = t /\ r' = r.
Proof.
  intros Hsq Hun [->|(t0 & r0 & ts & n & m & disc & -> & ->)] E H.
  - subst d. inversion H; subst; auto.
  - injection E as -> ->. inversion H; subst.
    + split; eapply nth_repeat; eauto.
    + assert (u = t) by (eapply nth_repeat; eauto). assert (v = t) by (eapply nth_repeat; eauto). subst u v.
      split.
      * unfold between. apply vec3_eq; simpl; unfold Rdiv; ring.
      * eapply (Hsq ts); [exact Hun| |eauto]. intros q Hq. apply repeat_spec in Hq. auto.
Qed.

Lemma xclimb_const s s' x i l c g : squad_const -> (forall k d, transform_of s' k = Some d -> unit_data d) ->
  (forall k, parent_of s' k = parent_of s k) ->
  (forall k, In k l -> exists t r d', transform_of s k = Some (TStatic t r) /\ transform_of s' k = Some d' /\
                same_or_const (TStatic t r) d') ->
  xclimb squad s' x i l c g -> gclimb s i l c g.
Proof.
  intros Hsq Hun Hp Ht H. induction H as [i|i k d t r l c g Hpar Htr Ho Hr Hg IH]; [constructor|].
  destruct (Ht i (or_introl eq_refl)) as (t0 & r0 & d' & H1 & H2 & H3).
  assert (d' = d) by congruence. subst d'. destruct (own_const _ _ x t0 r0 t r Hsq (Hun _ _ H2) H3 eq_refl Ho) as (-> & ->).
  apply (gc_cons s i k); auto.
  - rewrite <- Hp; auto.
  - apply hunit_nz, Hr.
  - apply IH. intros; apply Ht; right; auto.
Qed.

Lemma constant_moving s s' i j t r ts rows : Inv s -> Inv s' -> BodyOk s' -> squad_unit squad -> squad_const ->
  size s' = size s -> (i < size s)%nat -> (j < size s)%nat ->
  (forall k, parent_of s' k = parent_of s k) ->
  (forall k d, transform_of s k = Some d -> exists d', transform_of s' k = Some d' /\ same_or_const d d') ->
  (forall k d, transform_of s' k = Some d -> unit_data d) ->
  lookup_transform squad s i (PFrame j) = Ok (TrStatic t r) ->
  lookup_transform squad s' i (PFrame j) = Ok (TrRows ts rows) ->
  forall k row, nth_error rows k = Some row -> row = (t, r).
Proof.
  intros I I' B' Hsu Hsc Hs Hi Hj Hp Hb Hu HL HL' k row Hrow.
  apply (lookup_static_iff squad s i (PFrame j) j) in HL; auto; [|apply resolve_frame; auto].
  destruct HL as (up & down & c & gi & gj & Hw & G1 & G2 & E). pose proof Hw as (C1 & C2 & C3).
  assert (Hst : forall l i0 g, gclimb s i0 l c g -> forall k0, In k0 l -> exists t r d', transform_of s k0 = Some (TStatic t r) /\
     transform_of s' k0 = Some d' /\ same_or_const (TStatic t r) d').
  { clear -Hb. intros l i0 g H. induction H as [|i k t r l c g Hp Ht Hr Hg IH]; simpl; intros k0 [].
    - subst k0. destruct (Hb i _ Ht) as (d' & H1 & H2). exists t, r, d'. auto.
    - auto. }
  apply (lookup_rows_inv squad s' i (PFrame j) j) in HL' as (fs & Hf & _ & _ & Hfold); [|apply resolve_frame; lia].
  destruct (fold_rows squad ts fs _ rows (frames_good s' i j fs B' Hf) ltac:(apply map_length) Hfold) as (Hlen & Hr).
  destruct (nth_len ts k) as (x & Hx); [apply nth_lt in Hrow; lia|].
  assert (Ha : nth_error (map (fun _ : R => (v0, q1)) ts) k = Some (v0, q1)) by (rewrite nth_error_map, Hx; reflexivity).
  specialize (Hr k x _ _ Hx Ha Hrow).
  unfold frames_between in Hf. 
  assert (W' : walk s' i j = Ok (up, down)).
  { apply (walk_unique s' i j up down c); try lia; [apply I'|].
    assert (Ep : forall a b, ancestor (parent_of s') a b <-> ancestor (parent_of s) a b).
    { intros a b. split; intros H; induction H; econstructor; eauto; rewrite <- H, Hp; auto. }
    split; [|split].
    - eapply climb_ext; eauto.
    - eapply climb_ext; eauto.
    - intros a. rewrite !Ep. auto. }
  rewrite W' in Hf. simpl in Hf.
  apply bind_ok in Hf as (fu & Hfu & Hf). apply bind_ok in Hf as (fd & Hfd & Hf). injection Hf as <-.
  apply row_fold_app in Hr as (a1 & R1 & R2).
  assert (D1 : climb (parent_of s') i up c) by (eapply climb_ext; eauto).
  assert (D2 : climb (parent_of s') j (rev down) c) by (eapply climb_ext; eauto).
  destruct (row_up squad s' x i up c fu _ _ Hsu ltac:(intros; eapply Hu; eauto) D1 Hfu R1) as (hi & H1 & ->).
  rewrite <- (rev_involutive down) in Hfd.
  destruct (row_down squad s' x j (rev down) c fd _ _ Hsu ltac:(intros; eapply Hu; eauto) D2 Hfd R2) as (hj & H2 & ->).
  apply (xclimb_const s) in H1; auto; [|eapply Hst; eauto]. apply (xclimb_const s) in H2; auto; [|eapply Hst; eauto].
  destruct (gclimb_fun _ _ _ _ _ _ _ G1 H1) as (_ & <-). destruct (gclimb_fun _ _ _ _ _ _ _ G2 H2) as (_ & <-).
  change (v0, q1) with gone. rewrite gmul_1_r. symmetry; exact E.
Qed.
End C21.
