(** Property C68: lookups through moving frames agree with each other. *)
From Coq Require Import Reals List String Arith Bool Lia Lra Sorted.
From Verif Require Import Base Quat SpecQuat QuatProofs NdArray Frames SpecForest
  FrameProofs WalkProofs Matcher SpecLookup LookupProofs RegistryProofs MovingProofs TimeProofs
  CtorProofs InverseProofs RouteProofs Examples PropForest PropLookup PropMoving SpecConsist RelProofs.
Import ListNotations.
Open Scope R_scope.
Open Scope list_scope.

Lemma unit_way_sym s a b : unit_way s a b -> unit_way s b a.
Proof. intros H k d Hk. apply H. destruct Hk as [Hk|Hk]; [right|left]; exact Hk. Qed.
Lemma climb_elem par i l c k : climb par i l c -> ancestor par i k -> In k l \/ ancestor par c k.
Proof.
  intros H. induction H as [i|i p l c E H IH]; intros A; auto. inversion A as [|? q ? Eq Aq]; subst; [left; left; auto|].
  assert (q = p) by congruence. subst q. destruct (IH Aq) as [X|X]; [left; right|right]; auto.
Qed.
Lemma route_way s a b l : reachable s -> frame s a -> frame s b -> route (parent_of s) a b l -> forall k, In k l <-> on_way s a b k.
Proof.
  intros HR Ha Hb (up & dn & c & C1 & C2 & -> & C3) k. pose proof (proj1 (reachable_Inv s HR)) as W.
  rewrite in_app_iff, <- in_rev. split.
  - intros [Hin|Hin]; [left|right]; (split; [eapply climb_in_ancestor; eauto|]); intros Hz.
    + eapply (climb_not_above s a up c k); eauto. apply C3; auto. eapply climb_in_ancestor; eauto.
    + eapply (climb_not_above s b dn c k); eauto. apply C3; auto. eapply climb_in_ancestor; eauto.
  - intros [(A & B)|(A & B)].
    + destruct (climb_elem _ _ _ _ _ C1 A) as [X|X]; auto. exfalso. apply B. eapply ancestor_trans; [eapply climb_ancestor; exact C2|exact X].
    + destruct (climb_elem _ _ _ _ _ C2 A) as [X|X]; auto. exfalso. apply B. eapply ancestor_trans; [eapply climb_ancestor; exact C1|exact X].
Qed.
Lemma sorted_ext l l' : StronglySorted Rlt l -> StronglySorted Rlt l' -> (forall x, In x l <-> In x l') -> l = l'.
Proof.
  intros H. revert l'. induction H as [|a l S IH F]; intros l' S' E.
  - destruct l' as [|b l']; auto. exfalso. apply (E b). left; auto.
  - destruct l' as [|b l']; [exfalso; apply (E a); left; auto|]. inversion S' as [|? ? S2 F2]; subst.
    rewrite Forall_forall in F, F2. assert (a = b).
    { destruct (proj1 (E a)) as [X|X]; [left; auto|auto|]. destruct (proj2 (E b)) as [Y|Y]; [left; auto|auto|].
      specialize (F _ Y). specialize (F2 _ X). lra. }
    subst b. f_equal. apply IH; auto. intros x. split; intros X.
    + destruct (proj1 (E x)) as [Y|Y]; [right; auto| |auto]. subst x. specialize (F _ X). lra.
    + destruct (proj2 (E x)) as [Y|Y]; [right; auto| |auto]. subst x. specialize (F2 _ X). lra.
Qed.

(* ------------------------------------------------------------------ C68 *)
(** Three lookups that have a value at time x compose there, whether each of them is
    static or moving. *)
Theorem C68_compose : forall squad s a b c tob toc toc' tr1 tr2 tr3 x t1 r1 t2 r2 t3 r3,
  reachable s -> squad_unit squad -> frame s a -> denotes s tob b -> denotes s toc c -> denotes s toc' c ->
  unit_way s a b -> unit_way s b c ->
  lookup_transform squad s a tob = Ok tr1 -> lookup_transform squad s b toc = Ok tr2 -> lookup_transform squad s a toc' = Ok tr3 ->
  at_time tr1 x t1 r1 -> at_time tr2 x t2 r2 -> at_time tr3 x t3 r3 ->
  t3 = smove t2 r2 t1 /\ r3 = hmul r2 r1.
Proof.
  intros squad s a b c tob toc toc' tr1 tr2 tr3 x t1 r1 t2 r2 t3 r3 HR Hsq Ha Hb Hc Hc' U1 U2 L1 L2 L3 A1 A2 A3.
  pose proof (reachable_Inv s HR) as HI. pose proof (denotes_frame s tob b HR Hb) as Fb. pose proof (denotes_frame s toc c HR Hc) as Fc.
  assert (U3 : unit_way s a c).
  { intros k d Hk. assert (dec : ancestor (parent_of s) b k \/ ~ ancestor (parent_of s) b k) by (apply ancestor_dec, wf_root; [apply HI|exact Fb]).
    destruct Hk as [(A & B)|(A & B)]; destruct dec as [D|D];
      [apply U2; left; auto|apply U1; left; auto|apply U1; right; auto|apply U2; right; auto]. }
  pose proof (lookup_rel squad s a tob b tr1 x t1 r1 HR Hsq Ha Hb U1 L1 A1) as R1.
  pose proof (lookup_rel squad s b toc c tr2 x t2 r2 HR Hsq Fb Hc U2 L2 A2) as R2.
  pose proof (lookup_rel squad s a toc' c tr3 x t3 r3 HR Hsq Ha Hc' U3 L3 A3) as R3.
  pose proof (rel_trans squad s x a b c _ _ HI Fb R1 R2) as R12.
  pose proof (rel_fun squad s x a c _ _ HI Ha Fc R3 R12) as E. unfold gmul in E. simpl in E.
  split; [apply (f_equal fst) in E|apply (f_equal snd) in E]; exact E.
Qed.
(** Looking up forth and back gives inverse transforms at every common time. *)
Theorem C68_inverse : forall squad s a b toa tob tr tr' x t r t' r',
  reachable s -> squad_unit squad -> denotes s toa a -> denotes s tob b -> unit_way s a b ->
  lookup_transform squad s a tob = Ok tr -> lookup_transform squad s b toa = Ok tr' ->
  at_time tr x t r -> at_time tr' x t' r' ->
  (forall p, smove t' r' (smove t r p) = p /\ smove t r (smove t' r' p) = p) /\ r' = hconj r.
Proof.
  intros squad s a b toa tob tr tr' x t r t' r' HR Hsq Da Db U L L' A A'.
  pose proof (reachable_Inv s HR) as HI. pose proof (denotes_frame s toa a HR Da) as Fa. pose proof (denotes_frame s tob b HR Db) as Fb.
  pose proof (lookup_rel squad s a tob b tr x t r HR Hsq Fa Db U L A) as R1.
  pose proof (lookup_rel squad s b toa a tr' x t' r' HR Hsq Fb Da (unit_way_sym s a b U) L' A') as R2.
  pose proof (rel_fun squad s x b a _ _ HI Fb Fa R2 (rel_sym squad s x a b _ R1)) as E.
  pose proof (rel_nz squad s x a b _ R1) as N. pose proof (rel_unit squad s x a b _ R1) as Un. simpl in Un.
  split.
  - intros p. change (gact (t', r') (gact (t, r) p) = p /\ gact (t, r) (gact (t', r') p) = p). rewrite E.
    split; rewrite <- gact_mul by auto using gnz_inv.
    + rewrite gmul_inv_l by auto. apply gact_one.
    + rewrite gmul_inv_r by auto. apply gact_one.
  - apply (f_equal snd) in E. simpl in E. rewrite E. unfold hinv. unfold hunit in Un. rewrite Un, Rinv_1.
    destruct (hconj r) as [w x' y z]. unfold qscale. cbn. f_equal; ring.
Qed.
(** A lookup and its reverse have the same timestamps if at most one frame on the way is
    sampled continuously; the reverse of a moving lookup is moving. *)
Definition one_sampled (s : state) (a b : nat) : Prop :=
  forall k m ts tt rr ts' tt' rr', on_way s a b k -> on_way s a b m ->
    transform_of s k = Some (TMoving ts tt rr false) -> transform_of s m = Some (TMoving ts' tt' rr' false) -> k = m.
Theorem C68_same_times : forall squad s a b toa tob ts rows tr',
  reachable s -> denotes s toa a -> denotes s tob b -> one_sampled s a b ->
  lookup_transform squad s a tob = Ok (TrRows ts rows) -> lookup_transform squad s b toa = Ok tr' ->
  exists rows', tr' = TrRows ts rows'.
Proof.
  intros squad s a b toa tob ts rows tr' HR Da Db One L L'.
  pose proof (reachable_Inv s HR) as HI. pose proof (denotes_frame s toa a HR Da) as Fa. pose proof (denotes_frame s tob b HR Db) as Fb.
  destruct tr' as [t r|ts'|ts' rows'].
  - exfalso. apply (lookup_static_iff squad s b toa a t r HI Fb (denotes_resolve s toa a Da)) in L'.
    assert (X : exists g, static_link s a b g).
    { destruct L' as (up & down & c & gi & gj & (C1 & C2 & C3) & G1 & G2 & _). eexists. exists (rev down), (rev up), c, gj, gi.
      split; [split; [exact C2|split; [rewrite rev_involutive; exact C1|intros z Z1 Z2; apply C3; auto]]|].
      split; [exact G2|]. split; [rewrite rev_involutive; exact G1|reflexivity]. }
    destruct X as ((t2 & r2) & X). apply (lookup_static_iff squad s a tob b t2 r2 HI Fa (denotes_resolve s tob b Db)) in X. congruence.
  - exfalso. exact (C17_no_bare squad s b toa ts' HR L').
  - exists rows'. f_equal.
    destruct (C18_lookup_timestamps squad s a tob b ts rows HR Fa Db L) as (l & Hl & H1).
    destruct (C18_lookup_timestamps squad s b toa a ts' rows' HR Fb Da L') as (l' & Hl' & H2).
    assert (M : forall k, In k l <-> on_way s a b k) by (intros k; apply route_way; auto).
    assert (M' : forall k, In k l' <-> on_way s a b k).
    { intros k. rewrite (route_way s b a l'); auto. unfold on_way. tauto. }
    assert (C : forall k ts0, cont_of s k = Some ts0 <-> exists tt rr, transform_of s k = Some (TMoving ts0 tt rr false)).
    { intros k ts0. unfold cont_of. destruct (transform_of s k) as [[t r|ts1 t r []]|]; split; intros H; try discriminate;
        try (destruct H as (? & ? & H); discriminate); [injection H as <-; eauto|destruct H as (? & ? & H); congruence]. }
    destruct H1 as [(l1 & k & l2 & ts0 & E & Ck & _ & (f & Ef) & _ & X)|(N & S & X)];
      destruct H2 as [(l1' & k' & l2' & ts0' & E' & Ck' & _ & (f' & Ef') & _ & X')|(N' & S' & X')].
    + assert (k = k').
      { apply C in Ck as (? & ? & Ck). apply C in Ck' as (? & ? & Ck'). eapply One; [apply M; rewrite E; apply in_or_app; right; left; auto|
          apply M'; rewrite E'; apply in_or_app; right; left; auto|exact Ck|exact Ck']. }
      subst k'. assert (ts0' = ts0) by congruence. subst ts0'. rewrite Ef, Ef'. apply filter_ext_in. intros x Hx.
      assert (Q : In x ts <-> In x ts').
      { rewrite X, X'. split; intros (A & B); split; auto; intros m tm Hm; apply B; [apply M, M'; auto|apply M', M; auto]. }
      rewrite Ef, Ef', !filter_In in Q. destruct (f x), (f' x); auto; destruct Q as (Q1 & Q2); [destruct Q1|destruct Q2]; auto.
    + exfalso. rewrite (N' k) in Ck; [discriminate|]. apply M', M. rewrite E. apply in_or_app; right; left; auto.
    + exfalso. rewrite (N k') in Ck'; [discriminate|]. apply M, M'. rewrite E'. apply in_or_app; right; left; auto.
    + symmetry. apply sorted_ext; auto. intros x. rewrite X, X'. split; intros (m & tm & Hm & R); exists m, tm; (split; [|exact R]); [apply (proj2 (M' m)), (proj1 (M m))|apply (proj2 (M m)), (proj1 (M' m))]; exact Hm.
Qed.

(** mov_lit: world <- m (continuous) <- c (static), world <- d (discrete). *)
Lemma mov_anc m k : (m < 4)%nat -> ancestor (parent_of mov_lit) m k -> (k < 4)%nat.
Proof.
  intros Hm Ha. remember (parent_of mov_lit) as par eqn:E. induction Ha as [|m q a Hp Ha IH]; auto.
  apply IH; auto. subst par. destruct m as [|[|[|[|m]]]]; try lia; simpl in Hp; try discriminate; injection Hp as <-; lia.
Qed.
Lemma mov_cont k ts tt rr : transform_of mov_lit k = Some (TMoving ts tt rr false) -> k = 1%nat.
Proof.
  intros H. destruct k as [|[|[|[|k]]]]; try reflexivity; cbn in H; try discriminate.
  unfold transform_of, get in H. cbn in H. destruct k; discriminate.
Qed.
Lemma mov_at_1 i j : (i < 4)%nat -> (j < 4)%nat -> on_way mov_lit i j 1 ->
  exists tr t r, lookup_transform hold_squad mov_lit i (PFrame j) = Ok tr /\ at_time tr 1 t r.
Proof.
  intros Hi Hj Hw. pose proof mov_lit_reachable as HR. pose proof (reachable_Inv _ HR) as HI.
  assert (Fi : frame mov_lit i) by (unfold frame, size; simpl; lia). assert (Fj : frame mov_lit j) by (unfold frame, size; simpl; lia).
  assert (Dj : denotes mov_lit (PFrame j) j) by (left; auto).
  destruct (C18_lookup_succeeds hold_squad mov_lit i j HR hold_squad_total hold_squad_unit Fi Fj) as (tr & L).
  - exists 0%nat. split; apply mov_root; lia.
  - intros k Hk. assert (Hk4 : (k < 4)%nat) by (destruct Hk as [(Ha & _)|(Ha & _)]; [apply (mov_anc i)|apply (mov_anc j)]; auto).
    destruct k as [|[|[|[|k]]]]; try lia.
    + exfalso. destruct Hk as [(_ & Hb)|(_ & Hb)]; apply Hb; apply mov_root; lia.
    + eexists. split; [reflexivity|]. apply (mov_well 1). reflexivity.
    + eexists. split; [reflexivity|]. apply (mov_well 2). reflexivity.
    + eexists. split; [reflexivity|]. apply (mov_well 3). reflexivity.
  - destruct tr as [t r|ts|ts rows].
    + exists (TrStatic t r), t, r. split; auto. split; auto.
    + exfalso. exact (C17_no_bare _ _ _ _ _ HR L).
    + destruct (C18_lookup_timestamps hold_squad mov_lit i (PFrame j) j ts rows HR Fi Dj L) as (l & Hl & H).
      pose proof (proj2 (route_way mov_lit i j l HR Fi Fj Hl 1%nat) Hw) as In1.
      destruct (C17_moving_lookup hold_squad mov_lit i (PFrame j) j ts rows HR hold_squad_unit Fi Dj ltac:(intros k d _ Hd; apply (mov_unit k d Hd)) L) as (Len & _).
      assert (X : In 1 ts).
      { destruct H as [(l1 & k & l2 & ts0 & E & Ck & _ & _ & _ & X)|(N & _)].
        - assert (Q : forall m tm, cont_of mov_lit m = Some tm -> tm = [0;1;3]).
          { intros m tm Hm. unfold cont_of in Hm. destruct (transform_of mov_lit m) as [[|ts1 a b []]|] eqn:T; try discriminate.
            pose proof (mov_cont _ _ _ _ T). subst m. cbn in T. injection T as <- _ _. congruence. }
          apply X. rewrite (Q _ _ Ck). split; [right; left; auto|]. intros m tm _ Hm. rewrite (Q _ _ Hm). exists 0, 3. split; [reflexivity|]. split; [reflexivity|lra].
        - exfalso. specialize (N 1%nat In1). discriminate. }
      apply In_nth_error in X as (k & Hk). assert (Hk' : (k < List.length rows)%nat) by (rewrite Len; apply nth_error_Some; congruence).
      destruct (nth_error rows k) as [[t r]|] eqn:Er; [|apply nth_error_None in Er; lia].
      exists (TrRows ts rows), t, r. split; auto. exists k. auto.
Qed.
(** The hypotheses hold for c, m and d: with the static step from c to m, and for the way
    from d to c and back; all the lookups have a value at time 1. *)
Example C68_example : squad_unit hold_squad /\ reachable mov_lit /\ (forall i j, unit_way mov_lit i j) /\ one_sampled mov_lit 3 2 /\
  forall i j, In (i, j) [(2,3);(3,2);(1,3);(1,0)]%nat ->
    exists tr t r, lookup_transform hold_squad mov_lit i (PFrame j) = Ok tr /\ at_time tr 1 t r.
Proof.
  split; [apply hold_squad_unit|]. split; [exact mov_lit_reachable|]. split; [intros i j k d _ H; apply (mov_unit k d H)|]. split.
  - intros k m ts tt rr ts' tt' rr' _ _ E1 E2. rewrite (mov_cont _ _ _ _ E1), (mov_cont _ _ _ _ E2). reflexivity.
  - assert (A21 : ancestor (parent_of mov_lit) 2 1) by (econstructor; [reflexivity|constructor]).
    assert (N0 : ~ ancestor (parent_of mov_lit) 0 1) by (intros H; inversion H as [|? ? ? E]; discriminate E).
    assert (N3 : ~ ancestor (parent_of mov_lit) 3 1) by (intros H; inversion H as [|? ? ? E H']; subst; injection E as <-; auto).
    intros i j [E|[E|[E|[E|[]]]]]; injection E as <- <-; apply mov_at_1; try lia;
      [left; split; auto|right; split; auto|left; split; auto; constructor|left; split; auto; constructor].
Qed.
Print Assumptions C68_compose.
Print Assumptions C68_inverse.
Print Assumptions C68_same_times.
