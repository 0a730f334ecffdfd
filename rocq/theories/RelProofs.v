(** The transform between two frames at one time as an element of the group of rigid
    transforms: unique, inverted by swapping the frames, composed along a third frame. *)
From Coq Require Import Reals List String Arith Bool Lia Lra.
From Verif Require Import Base Quat SpecQuat QuatProofs NdArray Frames SpecForest
  FrameProofs WalkProofs Matcher SpecLookup LookupProofs RegistryProofs MovingProofs TimeProofs
  CtorProofs InverseProofs RouteProofs Examples PropForest PropLookup PropMoving SpecConsist.
Import ListNotations.
Open Scope R_scope.
Open Scope list_scope.

Section S.
Variable squad : list R -> list quat -> R -> res quat.
Definition in_order (d : tfdata) : Prop :=
  match d with TMoving ts _ _ false => decreasing_somewhere ts = false | _ => True end.
Lemma interval_fun ts x k a b k' a' b' : decreasing_somewhere ts = false ->
  in_interval ts x k a b -> in_interval ts x k' a' b' -> k = k'.
Proof.
  intros Hd (A1 & B1 & L1 & X1) (A2 & B2 & L2 & X2). pose proof (decreasing_false ts Hd) as M.
  destruct (Nat.lt_trichotomy k k') as [H|[H|H]]; auto; exfalso.
  - pose proof (M (S k) k' b a' ltac:(lia) B1 A2). destruct X1 as [X1|(-> & X1)]; destruct X2 as [X2|(-> & X2)]; try lia; lra.
  - pose proof (M (S k') k b' a ltac:(lia) B2 A1). destruct X1 as [X1|(-> & X1)]; destruct X2 as [X2|(-> & X2)]; try lia; lra.
Qed.
Lemma own_fun d x t r t' r' : in_order d -> own_at squad d x t r -> own_at squad d x t' r' -> t = t' /\ r = r'.
Proof.
  intros Ho H H'. destruct H as [t r x|ts tt rr x k t r He Ht Hr|ts tt rr x k a b u v r Hi Hu Hv Hs]; inversion H'; subst; auto.
  - assert (k = k0) by (eapply event_fun; eauto). subst. split; congruence.
  - assert (k = k0) by (eapply interval_fun; eauto). subst.
    destruct Hi as (A1 & B1 & _). match goal with H : in_interval _ _ _ _ _ |- _ => destruct H as (A2 & B2 & _) end.
    assert (a = a0) by congruence. assert (b = b0) by congruence. assert (u = u0) by congruence. assert (v = v0) by congruence. subst. split; congruence.
Qed.

(** Product of the edges from i up to c at time x. *)
Inductive oclimb (s : state) (x : R) : nat -> list nat -> nat -> rigid -> Prop :=
| oc_nil i : oclimb s x i [] i gone
| oc_cons i k d t r l c g : parent_of s i = Some k -> transform_of s i = Some d -> in_order d ->
    own_at squad d x t r -> hunit r -> oclimb s x k l c g -> oclimb s x i (i :: l) c (gmul g (t, r)).
Lemma oclimb_x s x i l c g : oclimb s x i l c g -> xclimb squad s x i l c g.
Proof. intros H. induction H; econstructor; eauto. Qed.
Lemma oclimb_nz s x i l c g : oclimb s x i l c g -> gnz g.
Proof. intros H. eapply xclimb_nz. apply oclimb_x. eauto. Qed.
Lemma oclimb_unit s x i l c g : oclimb s x i l c g -> hunit (snd g).
Proof.
  intros H. induction H; [unfold hunit; simpl; apply hn2_one|]. simpl. unfold hunit in *. rewrite hn2_hmul, IHoclimb. simpl. rewrite H3. ring.
Qed.
Lemma oclimb_climb s x i l c g : oclimb s x i l c g -> climb (parent_of s) i l c.
Proof. intros H. induction H; econstructor; eauto. Qed.
Lemma edge_nz t r : hunit r -> gnz (t, r).
Proof. intros H. unfold gnz. simpl. apply hunit_nz. auto. Qed.
Lemma oclimb_app s x i l c g l' d h : oclimb s x i l c g -> oclimb s x c l' d h -> oclimb s x i (l ++ l') d (gmul h g).
Proof.
  intros H. revert h. induction H; intros h Hh; simpl; [rewrite gmul_1_r; auto|].
  rewrite <- gmul_assoc; [econstructor; eauto|eapply oclimb_nz; eauto|eapply oclimb_nz; eauto].
Qed.
Lemma oclimb_fun s x i l c g c' g' : oclimb s x i l c g -> oclimb s x i l c' g' -> c = c' /\ g = g'.
Proof.
  intros H. revert c' g'. induction H as [i|i k d t r l c g Hp Hd Ho Hw Hu H IH]; intros c' g' H'.
  - inversion H'; auto.
  - inversion H'; subst. assert (k = k0) by congruence. assert (d = d0) by congruence. subst.
    destruct (own_fun d0 x t r t0 r0) as (-> & ->); auto. destruct (IH c' g0) as (-> & ->); auto.
Qed.
Lemma oclimb_split s x i l c g l' : oclimb s x i (l ++ l') c g ->
  exists d g1 g2, oclimb s x i l d g1 /\ oclimb s x d l' c g2 /\ g = gmul g2 g1.
Proof.
  revert i g. induction l as [|a l IH]; intros i g H; simpl in H.
  - exists i, gone, g. split; [constructor|]. split; auto. rewrite gmul_1_r. auto.
  - inversion H; subst. match goal with X : oclimb _ _ _ (l ++ l') _ _ |- _ => destruct (IH _ _ X) as (e & g1 & g2 & G1 & G2 & ->) end.
    exists e, (gmul g1 (t, r)), g2. split; [econstructor; eauto|]. split; auto.
    apply gmul_assoc; [eapply oclimb_nz; eauto|eapply oclimb_nz; eauto].
Qed.

(** g is the transform from i to j at time x. *)
Definition rel (s : state) (x : R) (i j : nat) (g : rigid) : Prop :=
  exists li lj c gi gj, oclimb s x i li c gi /\ oclimb s x j lj c gj /\ g = gmul (ginv gj) gi.
Lemma rel_nz s x i j g : rel s x i j g -> gnz g.
Proof. intros (li & lj & c & gi & gj & H1 & H2 & ->). apply gnz_mul; [apply gnz_inv|]; eapply oclimb_nz; eauto. Qed.
Lemma rel_unit s x i j g : rel s x i j g -> hunit (snd g).
Proof.
  intros (li & lj & c & gi & gj & H1 & H2 & ->). simpl. unfold hunit. rewrite hn2_hmul, (oclimb_unit _ _ _ _ _ _ H1), (hunit_inv _ (oclimb_unit _ _ _ _ _ _ H2)). ring.
Qed.
Lemma rel_refl s x i : rel s x i i gone.
Proof. exists [], [], i, gone, gone. split; [constructor|]. split; [constructor|]. rewrite ginv_one, gmul_1_l. auto. Qed.
Lemma rel_sym s x i j g : rel s x i j g -> rel s x j i (ginv g).
Proof.
  intros (li & lj & c & gi & gj & H1 & H2 & ->). exists lj, li, c, gj, gi. split; auto. split; auto.
  rewrite ginv_mul, ginv_ginv; auto using gnz_inv; try apply gnz_inv; eapply oclimb_nz; eauto.
Qed.
(** Replace the common ancestor by a higher one. *)
Lemma lift s x i l c g m d h : oclimb s x i l c g -> oclimb s x c m d h -> oclimb s x i (l ++ m) d (gmul h g).
Proof. apply oclimb_app. Qed.
Lemma cancel h a b : gnz h -> gnz a -> gnz b -> gmul (ginv (gmul h a)) (gmul h b) = gmul (ginv a) b.
Proof.
  intros Hh Ha Hb. rewrite ginv_mul by auto. rewrite gmul_assoc by auto using gnz_inv.
  f_equal. rewrite <- gmul_assoc by auto using gnz_inv. rewrite gmul_inv_l by auto. apply gmul_1_l.
Qed.
Lemma no_cycle par c k : rooted par c -> par c = Some k -> ancestor par k c -> False.
Proof.
  intros Hc. revert k. induction Hc as [i E0|i p E0 Hp IHp]; intros k E C; [congruence|]. assert (p = k) by congruence. subst p.
  inversion C as [|? q ? Eq Cq]; subst; [apply (IHp i); auto; constructor|]. apply (IHp q); auto. eapply ancestor_trans; [exact Cq|]. econstructor; [exact E|]. constructor.
Qed.
Lemma rel_fun s x i j g g' : Inv s -> (i < size s)%nat -> (j < size s)%nat -> rel s x i j g -> rel s x i j g' -> g = g'.
Proof.
  intros I Hi Hj. 
  assert (Hroot : forall k, (k < size s)%nat -> rooted (parent_of s) k) by (intros k Hk; apply wf_root; [apply I|auto]).
  assert (G : forall li lj c gi gj li' lj' c' gi' gj', oclimb s x i li c gi -> oclimb s x j lj c gj ->
     oclimb s x i li' c' gi' -> oclimb s x j lj' c' gj' -> ancestor (parent_of s) c c' -> gmul (ginv gj) gi = gmul (ginv gj') gi').
  { intros li lj c gi gj li' lj' c' gi' gj' H1 H2 H3 H4 Ha.
    destruct (climb_split _ _ _ _ _ _ (Hroot _ Hi) (oclimb_climb _ _ _ _ _ _ H1) Ha (oclimb_climb _ _ _ _ _ _ H3)) as (m & -> & Cm).
    destruct (climb_split _ _ _ _ _ _ (Hroot _ Hj) (oclimb_climb _ _ _ _ _ _ H2) Ha (oclimb_climb _ _ _ _ _ _ H4)) as (m' & -> & Cm').
    destruct (oclimb_split _ _ _ _ _ _ _ H3) as (e & a1 & a2 & A1 & A2 & ->). destruct (oclimb_split _ _ _ _ _ _ _ H4) as (e' & b1 & b2 & B1 & B2 & ->).
    destruct (oclimb_fun _ _ _ _ _ _ _ _ H1 A1) as (<- & <-). destruct (oclimb_fun _ _ _ _ _ _ _ _ H2 B1) as (<- & <-).
    assert (m = m').
    { assert (Hc : rooted (parent_of s) c). 
      { clear - Hi Hroot H1. apply oclimb_climb, climb_ancestor in H1. specialize (Hroot _ Hi). clear Hi. induction H1; auto. apply IHancestor. inversion Hroot as [? E0|? p0 E0 Hp0]; subst; [congruence|]. replace p with p0 by congruence. exact Hp0. }
      destruct (climb_split _ _ _ _ _ _ Hc (climb_nil _ c) (climb_ancestor _ _ _ _ Cm) Cm) as (q & Eq & _).
      clear - Cm Cm' Hc. revert m' Cm'. induction Cm as [c|c k l d E C IH]; intros m' C'.
      - inversion C'; subst; auto. exfalso. eapply no_cycle; [exact Hc|eassumption|]. eapply climb_ancestor; eassumption.
      - inversion C'; subst.
        + exfalso. eapply no_cycle; [exact Hc|eassumption|]. eapply climb_ancestor; eassumption.
        + match goal with E1 : parent_of s c = Some ?q |- _ => assert (k = q) by congruence; subst q end. f_equal. apply IH; auto. inversion Hc as [? E0|? p0 E0 Hp0]; subst; [congruence|]. replace k with p0 by congruence. exact Hp0. }
    subst m'. destruct (oclimb_fun _ _ _ _ _ _ _ _ A2 B2) as (_ & <-). symmetry. apply cancel; eapply oclimb_nz; eauto. }
  intros (li & lj & c & gi & gj & H1 & H2 & ->) (li' & lj' & c' & gi' & gj' & H3 & H4 & ->).
  destruct (ancestor_linear _ _ _ _ (climb_ancestor _ _ _ _ (oclimb_climb _ _ _ _ _ _ H1)) (climb_ancestor _ _ _ _ (oclimb_climb _ _ _ _ _ _ H3))) as [Ha|Ha].
  - eapply G; [exact H1|exact H2|exact H3|exact H4|exact Ha].
  - symmetry. eapply G; [exact H3|exact H4|exact H1|exact H2|exact Ha].
Qed.
Lemma rel_trans s x i j k g h : Inv s -> (j < size s)%nat -> rel s x i j g -> rel s x j k h -> rel s x i k (gmul h g).
Proof.
  intros I Hj (li & lj & c & gi & gj & H1 & H2 & ->) (mj & mk & d & hj & hk & H3 & H4 & ->).
  pose proof (wf_root s (proj1 I) j Hj) as Hroot.
  assert (N1 := oclimb_nz _ _ _ _ _ _ H1). assert (N2 := oclimb_nz _ _ _ _ _ _ H2). assert (N3 := oclimb_nz _ _ _ _ _ _ H3). assert (N4 := oclimb_nz _ _ _ _ _ _ H4).
  destruct (ancestor_linear _ _ _ _ (climb_ancestor _ _ _ _ (oclimb_climb _ _ _ _ _ _ H2)) (climb_ancestor _ _ _ _ (oclimb_climb _ _ _ _ _ _ H3))) as [Ha|Ha].
  - destruct (climb_split _ _ _ _ _ _ Hroot (oclimb_climb _ _ _ _ _ _ H2) Ha (oclimb_climb _ _ _ _ _ _ H3)) as (m & -> & Cm).
    destruct (oclimb_split _ _ _ _ _ _ _ H3) as (e & a1 & a2 & A1 & A2 & ->). destruct (oclimb_fun _ _ _ _ _ _ _ _ H2 A1) as (<- & <-).
    assert (Na := oclimb_nz _ _ _ _ _ _ A2).
    exists (li ++ m), mk, d, (gmul a2 gi), hk. split; [eapply oclimb_app; eauto|]. split; auto.
    rewrite gmul_assoc by auto using gnz_inv, gnz_mul. f_equal.
    rewrite <- gmul_assoc by auto using gnz_inv, gnz_mul. f_equal. rewrite gmul_assoc by auto using gnz_inv. rewrite gmul_inv_r by auto. apply gmul_1_r.
  - destruct (climb_split _ _ _ _ _ _ Hroot (oclimb_climb _ _ _ _ _ _ H3) Ha (oclimb_climb _ _ _ _ _ _ H2)) as (m & -> & Cm).
    destruct (oclimb_split _ _ _ _ _ _ _ H2) as (e & a1 & a2 & A1 & A2 & ->). destruct (oclimb_fun _ _ _ _ _ _ _ _ H3 A1) as (<- & <-).
    assert (Na := oclimb_nz _ _ _ _ _ _ A2).
    exists li, (mk ++ m), c, gi, (gmul a2 hk). split; auto. split; [eapply oclimb_app; eauto|].
    rewrite !ginv_mul by auto. rewrite <- gmul_assoc by auto using gnz_inv, gnz_mul. f_equal.
    rewrite gmul_assoc by auto using gnz_inv. f_equal. rewrite <- gmul_assoc by auto using gnz_inv. rewrite gmul_inv_r by auto. apply gmul_1_l.
Qed.
(** What it means for points. *)
Lemma rel_coords s x i j t r : rel s x i j (t, r) -> hunit r /\
  exists c, ancestor (parent_of s) i c /\ ancestor (parent_of s) j c /\
    forall p, exists P, coords squad s x i p c P /\ coords squad s x j (smove t r p) c P.
Proof.
  intros H. split; [apply (rel_unit _ _ _ _ _ H)|]. destruct H as (li & lj & c & gi & gj & H1 & H2 & E).
  exists c. split; [eapply climb_ancestor, oclimb_climb; eauto|]. split; [eapply climb_ancestor, oclimb_climb; eauto|].
  pose proof (oclimb_nz _ _ _ _ _ _ H1). pose proof (oclimb_nz _ _ _ _ _ _ H2).
  intros p. exists (gact gi p). split; [eapply xclimb_coords, oclimb_x; eauto|].
  replace (gact gi p) with (gact gj (smove t r p)); [eapply xclimb_coords, oclimb_x; eauto|].
  change (smove t r p) with (gact (t, r) p). rewrite E. rewrite <- gact_mul by auto using gnz_mul, gnz_inv.
  rewrite <- gmul_assoc by auto using gnz_inv. rewrite gmul_inv_r by auto. rewrite gmul_1_l. reflexivity.
Qed.

(* ---- lookups ---- *)
Lemma x_oclimb s x i l c g inv fs : xclimb squad s x i l c g ->
  traverse (fun k => add_frame (body_at s k) inv) l = Ok fs -> oclimb s x i l c g.
Proof.
  intros H. revert fs. induction H as [i|i k d t r l c g Hp Hd Hw Hu H IH]; intros fs Hf; [constructor|].
  unfold traverse in Hf. simpl in Hf. apply bind_ok in Hf as (f & Hf1 & Hf). apply bind_ok in Hf as (fs' & Hf2 & _).
  apply add_frame_inv in Hf1 as (d' & Eb & _ & _ & Hdec). apply body_at_transform in Eb. assert (d' = d) by congruence. subst d'.
  econstructor; eauto. destruct d as [|ts t0 r0 []]; simpl; auto. eapply Hdec; reflexivity.
Qed.
Lemma traverse_rev_some {A B} (f : A -> res B) l fs : traverse f (rev l) = Ok fs -> exists fs', traverse f l = Ok fs'.
Proof.
  intros H. apply traverse_ok_ex. intros a Ha. apply in_rev in Ha. revert fs H Ha. generalize (rev l). unfold traverse.
  intros l'. induction l' as [|a' l' IH]; intros fs H Ha; [contradiction|].
  simpl in H. apply bind_ok in H as (b & Hb & H). apply bind_ok in H as (bs & Hbs & _). destruct Ha as [->|Ha]; eauto.
Qed.
Lemma rows_rel s i j fs l rows : Inv s -> BodyOk s -> squad_unit squad -> (i < size s)%nat -> (j < size s)%nat -> unit_way s i j ->
  frames_between s i j = Ok fs ->
  foldM (step_rows squad l) fs (map (fun _ => (v0, q1)) l) = Ok rows ->
  List.length rows = List.length l /\
  forall k x t r, nth_error l k = Some x -> nth_error rows k = Some (t, r) -> rel s x i j (t, r).
Proof.
  intros I B Hsq Hi Hj Hu Hf Hfold. pose proof I as (W & _).
  destruct (fold_rows squad l fs _ rows (frames_good s i j fs B Hf) ltac:(apply map_length) Hfold) as (Hlen & Hrow).
  split; auto. intros k x t r Hx Hr.
  assert (Ha : nth_error (map (fun _ : R => (v0, q1)) l) k = Some (v0, q1)) by (rewrite nth_error_map, Hx; reflexivity).
  specialize (Hrow k x _ _ Hx Ha Hr).
  unfold frames_between in Hf. apply bind_ok in Hf as ([up down] & Hw & Hf).
  apply bind_ok in Hf as (fu & Hfu & Hf). apply bind_ok in Hf as (fd & Hfd & Hf). injection Hf as <-.
  destruct (walk_ok_inv s i j up down W Hi Hj Hw) as (_ & c & C1 & C2 & C3).
  apply row_fold_app in Hrow as (a1 & R1 & R2).
  destruct (row_up squad s x i up c fu _ _ Hsq ltac:(intros k' d Hin; apply Hu; left; split;
     [eapply climb_in_ancestor; eauto|intros Hz; eapply (climb_not_above s i up c k'); eauto; apply C3; auto; eapply climb_in_ancestor; eauto]) C1 Hfu R1) as (gi & G1 & ->).
  rewrite <- (rev_involutive down) in Hfd.
  destruct (row_down squad s x j (rev down) c fd _ _ Hsq ltac:(intros k' d Hin; apply Hu; right; split;
     [eapply climb_in_ancestor; eauto|intros Hz; eapply (climb_not_above s j (rev down) c k'); eauto; apply C3; auto; eapply climb_in_ancestor; eauto]) C2 Hfd R2) as (gj & G2 & E).
  change (v0, q1) with gone in E. rewrite gmul_1_r in E.
  destruct (traverse_rev_some _ _ _ Hfd) as (fd' & Hfd').
  exists up, (rev down), c, gi, gj. split; [eapply x_oclimb; eauto|]. split; [eapply x_oclimb; eauto|]. exact E.
Qed.
Lemma g_oclimb s x i l c g : gclimb s i l c g -> (forall k d, In k l -> transform_of s k = Some d -> unit_data d) -> oclimb s x i l c g.
Proof.
  intros H. induction H as [i|i k t r l c g Hp Hd Hn H IH]; intros Hu; [constructor|].
  econstructor; [exact Hp|exact Hd|exact Logic.I|constructor| |apply IH; intros k' d' Hin; apply Hu; right; auto].
  specialize (Hu i _ (or_introl eq_refl) Hd). exact Hu.
Qed.
Lemma static_rel s x i j g : Inv s -> (i < size s)%nat -> (j < size s)%nat -> unit_way s i j -> static_link s i j g -> rel s x i j g.
Proof.
  intros I Hi Hj Hu (up & down & c & gi & gj & (C1 & C2 & C3) & G1 & G2 & ->). exists up, (rev down), c, gi, gj.
  split; [apply g_oclimb; auto; intros k' d Hin; apply Hu; left; split;
     [eapply climb_in_ancestor; eauto|intros Hz; eapply (climb_not_above s i up c k'); eauto; [apply I|apply C3; auto; eapply climb_in_ancestor; eauto]]|].
  split; [apply g_oclimb; auto; intros k' d Hin; apply Hu; right; split;
     [eapply climb_in_ancestor; eauto|intros Hz; eapply (climb_not_above s j (rev down) c k'); eauto; [apply I|apply C3; auto; eapply climb_in_ancestor; eauto]]|].
  reflexivity.
Qed.
Lemma lookup_rel s i to j tr x t r : reachable s -> squad_unit squad -> frame s i -> denotes s to j -> unit_way s i j ->
  lookup_transform squad s i to = Ok tr -> at_time tr x t r -> rel s x i j (t, r).
Proof.
  intros HR Hsq Hi Hj Hu Hl Ht. pose proof (reachable_Inv s HR) as I. pose proof (denotes_frame s to j HR Hj) as Hjf.
  destruct tr as [t' r'|ts|ts rows]; simpl in Ht; [|contradiction|].
  - destruct Ht as (-> & ->). apply (lookup_static_iff squad s i to j t' r' I Hi (denotes_resolve s to j Hj)) in Hl. apply static_rel; auto.
  - destruct Ht as (k & Hk1 & Hk2). destruct (lookup_rows_inv squad s i to j ts rows (denotes_resolve s to j Hj) Hl) as (fs & Hfs & _ & _ & Hfold).
    destruct (rows_rel s i j fs ts rows I (reachable_BodyOk s HR) Hsq Hi Hjf Hu Hfs Hfold) as (_ & H). apply (H k); auto.
Qed.
End S.
