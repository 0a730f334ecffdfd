(** The walk between two frames of a well-formed forest. *)
From Coq Require Import Reals List String Arith Bool Lia.
From Verif Require Import Base Quat NdArray Frames SpecForest FrameProofs.
Import ListNotations.
Open Scope nat_scope.

(** l lists the frames from i upwards to just below c. *)
Inductive climb (par : nat -> option nat) : nat -> list nat -> nat -> Prop :=
| climb_nil i : climb par i [] i
| climb_cons i k l c : par i = Some k -> climb par k l c -> climb par i (i :: l) c.

Lemma chain_climb par i l c rest : chain par i (l ++ c :: rest) -> climb par i l c.
Proof.
  revert i; induction l as [|a l IH]; simpl; intros i H.
  - inversion H; subst; constructor.
  - inversion H; subst.
    + destruct l; discriminate.
    + econstructor; eauto.
Qed.
Lemma climb_ancestor par i l c : climb par i l c -> ancestor par i c.
Proof. intros H. induction H; [constructor|econstructor; eauto]. Qed.
Lemma climb_app par i l c l' d : climb par i l c -> climb par c l' d -> climb par i (l ++ l') d.
Proof. intros H; induction H; simpl; intros; auto. econstructor; eauto. Qed.
Lemma ancestor_climb par i c : ancestor par i c -> exists l, climb par i l c.
Proof. intros H. induction H as [i|i p a H Ha (l & IH)]; [exists []|exists (i :: l)]; econstructor; eauto. Qed.
Lemma climb_chain par i l c m : climb par i l c -> chain par c m -> chain par i (l ++ m).
Proof. intros H; induction H; simpl; intros; auto. econstructor; eauto. Qed.
Lemma climb_split par i l c a l' :
  rooted par i -> climb par i l c -> ancestor par c a -> climb par i l' a ->
  exists m, l' = l ++ m /\ climb par c m a.
Proof.
  intros Hr H Ha Hl'. destruct (ancestor_climb _ _ _ Ha) as (m & Hm).
  exists m. split; auto. pose proof (climb_app _ _ _ _ _ _ H Hm) as H2.
  assert (Hra : rooted par a).
  { clear -Hr Hl'. induction Hl' as [|i k l c H Hl IH]; auto. apply IH.
    inversion Hr; subst; congruence. }
  destruct (rooted_chain _ _ Hra) as (q & Hq).
  pose proof (climb_chain _ _ _ _ _ Hl' Hq) as C1.
  pose proof (climb_chain _ _ _ _ _ H2 Hq) as C2.
  pose proof (chain_fun _ _ _ _ C1 C2) as E. apply app_inv_tail in E. exact E.
Qed.

Lemma ancestor_trans par i j k : ancestor par i j -> ancestor par j k -> ancestor par i k.
Proof. intros H; induction H; auto. intros. econstructor; eauto. Qed.
Lemma ancestor_linear par i a b : ancestor par i a -> ancestor par i b ->
  ancestor par a b \/ ancestor par b a.
Proof.
  intros H; revert b; induction H as [i|i p a H Ha IH]; intros b Hb; auto.
  inversion Hb; subst; auto.
  - right. econstructor; eauto.
  - apply IH. congruence.
Qed.

Lemma common_prefix_spec a b : exists ra rb,
  a = common_prefix a b ++ ra /\ b = common_prefix a b ++ rb.
Proof.
  revert b; induction a as [|x a IH]; intros [|y b]; simpl;
    try (do 2 eexists; split; reflexivity).
  destruct (Nat.eqb_spec x y) as [<-|]; [|do 2 eexists; split; reflexivity].
  destruct (IH b) as (ra & rb & E1 & E2). exists ra, rb. simpl. split; f_equal; auto.
Qed.
Lemma common_prefix_app x u v : common_prefix (x ++ u) (x ++ v) = x ++ common_prefix u v.
Proof. induction x as [|a x IH]; simpl; auto. rewrite Nat.eqb_refl, IH. reflexivity. Qed.

Lemma skipn_app_len {A} (a b : list A) : skipn (List.length a) (a ++ b) = b.
Proof. induction a; simpl; auto. Qed.

Lemma chain_last par i l r d : chain par i l -> root_of par i r <-> last l d = r.
Proof.
  intros H. induction H as [i H|i p l H Hc IH].
  - simpl. split.
    + intros (Ha & Hr). inversion Ha; subst; congruence.
    + intros <-. split; [constructor|auto].
  - destruct (chain_hd _ _ _ Hc) as (l' & ->).
    change (last (i :: p :: l') d) with (last (p :: l') d). rewrite <- IH. split.
    + intros (Ha & Hr). inversion Ha; subst; [congruence|]. split; auto. congruence.
    + intros (Ha & Hr). split; auto. econstructor; eauto.
Qed.
Lemma root_fun par i r r' : rooted par i -> root_of par i r -> root_of par i r' -> r = r'.
Proof. intros Hr H1 H2. destruct (rooted_chain _ _ Hr) as (l & Hl).
  apply (chain_last _ _ _ _ 0 Hl) in H1. apply (chain_last _ _ _ _ 0 Hl) in H2. congruence. Qed.

(** The walk relation: c is the lowest common ancestor. *)
Definition walks (s : state) (i j : nat) (up down : list nat) (c : nat) : Prop :=
  climb (parent_of s) i up c /\ climb (parent_of s) j (rev down) c /\
  forall a, ancestor (parent_of s) i a -> ancestor (parent_of s) j a -> ancestor (parent_of s) c a.

Lemma hd_rev {A} (l : list A) d : l <> [] -> hd_error (rev l) = Some (last l d).
Proof. intros H. destruct (exists_last H) as (l' & a & ->). rewrite rev_app_distr. simpl.
  rewrite last_last. reflexivity. Qed.

Lemma walk_same s i j : WF s -> i < size s -> j < size s -> same_tree (parent_of s) i j ->
  exists up down c, walk s i j = Ok (up, down) /\ walks s i j up down c.
Proof.
  intros W Hi Hj (r & Hri & Hrj). unfold walk.
  destruct (rpath_ok s i W Hi) as (li & -> & Ci). destruct (rpath_ok s j W Hj) as (lj & -> & Cj).
  assert (Hli : li <> []) by (destruct (chain_hd _ _ _ Ci) as (? & ->); discriminate).
  assert (Hlj : lj <> []) by (destruct (chain_hd _ _ _ Cj) as (? & ->); discriminate).
  rewrite (hd_rev li 0 Hli), (hd_rev lj 0 Hlj).
  pose proof (proj1 (chain_last _ _ _ r 0 Ci) Hri) as Li.
  pose proof (proj1 (chain_last _ _ _ r 0 Cj) Hrj) as Lj.
  rewrite Li, Lj. simpl. rewrite Nat.eqb_refl.
  set (cp := common_prefix (rev li) (rev lj)) in *.
  destruct (common_prefix_spec (rev li) (rev lj)) as (ri & rj & Ei & Ej). fold cp in Ei, Ej.
  assert (Eli : li = rev ri ++ rev cp) by (rewrite <- rev_app_distr, <- Ei, rev_involutive; auto).
  assert (Elj : lj = rev rj ++ rev cp) by (rewrite <- rev_app_distr, <- Ej, rev_involutive; auto).
  assert (Hup : skipn (List.length cp) (rev li) = ri) by (rewrite Ei; apply skipn_app_len).
  assert (Hdn : skipn (List.length cp) (rev lj) = rj) by (rewrite Ej; apply skipn_app_len).
  rewrite Hup, Hdn.
  assert (Hcp : exists c rest, rev cp = c :: rest).
  { destruct (rev cp) as [|c rest] eqn:Ec; eauto. exfalso.
    assert (cp = []) by (rewrite <- (rev_involutive cp), Ec; auto).
    destruct (exists_last Hli) as (li' & a & E1). destruct (exists_last Hlj) as (lj' & b & E2).
    rewrite E1, last_last in Li. rewrite E2, last_last in Lj. subst a b.
    unfold cp in H. rewrite E1, E2, !rev_app_distr in H. simpl in H. rewrite Nat.eqb_refl in H. discriminate. }
  destruct Hcp as (c & rest & Ec). exists (rev ri), rj, c. split; auto.
  rewrite Ec in Eli, Elj. rewrite Eli in Ci. rewrite Elj in Cj.
  split; [|split].
  - eapply chain_climb; eauto.
  - eapply chain_climb; eauto.
  - intros a Ha Hb. apply (chain_in _ _ _ a Ci) in Ha. apply (chain_in _ _ _ a Cj) in Hb.
    rewrite <- Eli in Ha, Ci. rewrite <- Elj in Hb, Cj.
    apply in_split in Ha as (l1 & l2 & E1). apply in_split in Hb as (m1 & m2 & E2).
    pose proof (chain_suffix _ _ _ _ _ _ Ci E1) as S1. pose proof (chain_suffix _ _ _ _ _ _ Cj E2) as S2.
    pose proof (chain_fun _ _ _ _ S1 S2) as E. injection E as <-.
    assert (Hin : In a cp).
    { unfold cp. rewrite E1, E2, !rev_app_distr. simpl. rewrite <- !app_assoc. simpl.
      rewrite (common_prefix_app (rev l2)). apply in_or_app. right. simpl. rewrite Nat.eqb_refl. left; auto. }
    apply in_rev in Hin. rewrite Ec in Hin.
    rewrite Eli in Ci. apply chain_suffix with (l1 := rev ri) (j := c) (l2 := rest) in Ci; auto.
    apply (chain_in _ _ _ a Ci). exact Hin.
Qed.

Lemma walk_diff s i j : WF s -> i < size s -> j < size s -> ~ same_tree (parent_of s) i j ->
  walk s i j = Raise WalkError.
Proof.
  intros W Hi Hj Hn. unfold walk.
  destruct (rpath_ok s i W Hi) as (li & -> & Ci). destruct (rpath_ok s j W Hj) as (lj & -> & Cj).
  assert (Hli : li <> []) by (destruct (chain_hd _ _ _ Ci) as (? & ->); discriminate).
  assert (Hlj : lj <> []) by (destruct (chain_hd _ _ _ Cj) as (? & ->); discriminate).
  rewrite (hd_rev li 0 Hli), (hd_rev lj 0 Hlj). simpl.
  destruct (Nat.eqb_spec (last li 0) (last lj 0)) as [E|]; auto.
  exfalso. apply Hn. exists (last li 0). split.
  - apply (chain_last _ _ _ _ 0 Ci); auto.
  - apply (chain_last _ _ _ _ 0 Cj); auto.
Qed.

Lemma same_tree_dec s i j : WF s -> i < size s -> j < size s ->
  same_tree (parent_of s) i j \/ ~ same_tree (parent_of s) i j.
Proof.
  intros W Hi Hj. destruct (rpath_ok s i W Hi) as (li & _ & Ci). destruct (rpath_ok s j W Hj) as (lj & _ & Cj).
  destruct (Nat.eq_dec (last li 0) (last lj 0)) as [E|E].
  - left. exists (last li 0). split; [apply (chain_last _ _ _ _ 0 Ci)|apply (chain_last _ _ _ _ 0 Cj)]; auto.
  - right. intros (r & H1 & H2). apply (chain_last _ _ _ _ 0 Ci) in H1. apply (chain_last _ _ _ _ 0 Cj) in H2. congruence.
Qed.

Lemma walk_ok_inv s i j up down : WF s -> i < size s -> j < size s -> walk s i j = Ok (up, down) ->
  same_tree (parent_of s) i j /\ exists c, walks s i j up down c.
Proof.
  intros W Hi Hj H. destruct (same_tree_dec s i j W Hi Hj) as [Hs|Hs].
  - split; auto. destruct (walk_same s i j W Hi Hj Hs) as (u & d & c & E & Hw). rewrite E in H.
    injection H as <- <-. eauto.
  - rewrite (walk_diff s i j W Hi Hj Hs) in H. discriminate.
Qed.

Lemma same_tree_refl s i : WF s -> i < size s -> same_tree (parent_of s) i i.
Proof. intros W Hi. destruct (rpath_ok s i W Hi) as (l & _ & C). exists (last l 0).
  assert (root_of (parent_of s) i (last l 0)) by (apply (chain_last _ _ _ _ 0 C); auto). split; auto. Qed.
Lemma same_tree_sym par i j : same_tree par i j -> same_tree par j i.
Proof. intros (r & H1 & H2). exists r; auto. Qed.
Lemma same_tree_trans s i j k : WF s -> j < size s -> same_tree (parent_of s) i j ->
  same_tree (parent_of s) j k -> same_tree (parent_of s) i k.
Proof. intros W Hj (r & H1 & H2) (r' & H3 & H4). exists r. split; auto.
  rewrite (root_fun _ _ _ _ (wf_root _ W j Hj) H2 H3). exact H4. Qed.
Lemma climb_ancestor_same s i l c : WF s -> c < size s -> climb (parent_of s) i l c -> same_tree (parent_of s) i c.
Proof. intros W Hc H. destruct (same_tree_refl s c W Hc) as (r & Hr & _). exists r. split; auto.
  destruct Hr as (Ha & Hr). split; auto. eapply ancestor_trans; [eapply climb_ancestor; eauto|auto]. Qed.

(** The walk from i to j is determined: any other pair of climbs to the lowest
    common ancestor is this one. *)
Lemma walk_unique s i j up down c : WF s -> i < size s -> j < size s -> walks s i j up down c ->
  walk s i j = Ok (up, down).
Proof.
  intros W Hi Hj (H1 & H2 & H3).
  assert (Hc : c < size s) by (eapply ancestor_lt; eauto using climb_ancestor).
  assert (Hst : same_tree (parent_of s) i j).
  { eapply same_tree_trans; [exact W|exact Hc| |].
    - eapply climb_ancestor_same; eauto.
    - apply same_tree_sym. eapply climb_ancestor_same; eauto. }
  destruct (walk_same s i j W Hi Hj Hst) as (u & d & c' & E & (U1 & U2 & U3)). rewrite E.
  assert (A1 : ancestor (parent_of s) c c') by (apply H3; eapply climb_ancestor; eauto).
  assert (A2 : ancestor (parent_of s) c' c) by (apply U3; eapply climb_ancestor; eauto).
  pose proof (wf_root _ W i Hi) as Ri. pose proof (wf_root _ W j Hj) as Rj.
  destruct (climb_split _ _ _ _ _ _ Ri H1 A1 U1) as (m1 & E1 & C1).
  destruct (climb_split _ _ _ _ _ _ Ri U1 A2 H1) as (m2 & E2 & C2).
  assert (m1 = []).
  { rewrite E1 in E2. rewrite <- app_assoc in E2. rewrite <- (app_nil_r up) in E2 at 1.
    apply app_inv_head in E2. symmetry in E2. apply app_eq_nil in E2. tauto. }
  subst m1. rewrite app_nil_r in E1. subst u.
  inversion C1; subst c'.
  destruct (climb_split _ _ _ _ _ _ Rj H2 (anc_refl _ c) U2) as (m3 & E3 & C3).
  assert (m3 = []).
  { destruct m3 as [|x m3]; auto. exfalso.
    pose proof (wf_root _ W c Hc) as Rc.
    destruct (climb_split _ _ _ _ _ _ Rc C3 (anc_refl _ c) C3) as (m4 & E4 & _).
    assert (m4 = []). { rewrite <- (app_nil_r (x :: m3)) in E4 at 1. apply app_inv_head in E4. auto. }
    pose proof (climb_app _ _ _ _ _ _ C3 C3) as C4.
    destruct (climb_split _ _ _ _ _ _ Rc (climb_nil _ c) (anc_refl _ c) C3) as (m5 & E5 & _).
    destruct (rooted_chain _ _ Rc) as (q & Hq).
    pose proof (climb_chain _ _ _ _ _ C3 Hq) as K1.
    pose proof (chain_fun _ _ _ _ K1 Hq) as K2. apply (f_equal (@List.length nat)) in K2.
    rewrite app_length in K2. simpl in K2. lia. }
  subst m3. rewrite app_nil_r in E3. apply (f_equal (@rev nat)) in E3. rewrite !rev_involutive in E3. subst d.
  reflexivity.
Qed.
