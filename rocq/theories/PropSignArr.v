(** C90, continued: arrays and velocities. *)
From Coq Require Import Reals List Arith Bool ZArith Lra Lia FunctionalExtensionality.
From Verif Require Import Base Quat NdArray Frames Matcher Transform Squad Velocity VelFrames Spline NdProofs RotProofs PropClock PropClockVel PropSign.
Import ListNotations.
Open Scope R_scope.

(* ------------------------------------------------------------------ arrays entry by entry *)
(** The same shape, related entries. *)
Definition nd_rel {A B} (P : A -> B -> Prop) (a : nd A) (b : nd B) : Prop :=
  shp b = shp a /\ forall ix, valid (shp a) ix -> P (dat a ix) (dat b ix).
Lemma brev_valid_l s : forall t u ix, brev s t = Some u -> valid u ix -> valid s (bixr s ix).
Proof.
  induction s as [|a s IH]; intros t u ix B V; [constructor|]. assert (N : forall l, brev l [] = Some l) by (intros [|? ?]; reflexivity).
  assert (K : forall c u' i ix', brev s (tl t) = Some u' -> valid u' ix' -> (i < c)%nat -> (a = c \/ a = 1%nat) -> valid (a :: s) (bixr (a :: s) (i :: ix'))).
  { intros c u' i ix' B' V' I C. cbn [bixr hd tl]. constructor; [|eapply IH; eassumption]. destruct (Nat.eqb_spec a 1); lia. }
  destruct t as [|b t].
  - cbn [brev] in B. injection B as <-. inversion V as [|i n' jx s' I V']; subst. apply (K a s); auto.
  - cbn [brev] in B. destruct (brev s t) as [u'|] eqn:B'; [|discriminate].
    destruct (Nat.eqb_spec a b); [|destruct (Nat.eqb_spec a 1); [|destruct (Nat.eqb_spec b 1); [|discriminate]]]; injection B as <-; inversion V as [|i n' jx s' I V']; subst; eapply K; eauto.
Qed.
Lemma brev_comm s : forall t, brev s t = brev t s.
Proof.
  induction s as [|a s IH]; intros [|b t]; try reflexivity. cbn [brev]. rewrite IH. destruct (brev t s); [|reflexivity]. rewrite (Nat.eqb_sym b a).
  destruct (Nat.eqb_spec a b) as [->|N]; [reflexivity|]. destruct (Nat.eqb_spec a 1), (Nat.eqb_spec b 1); try reflexivity. subst. contradiction.
Qed.
Lemma valid_rev s ix : valid s ix -> valid (rev s) (rev ix).
Proof. intros V. induction V as [|i n ix s I V IH]; [constructor|]. cbn [rev]. apply Forall2_app; [exact IH|]. repeat constructor. exact I. Qed.
Lemma bix_valid s t u ix : bshape s t = Ok u -> valid u ix -> valid s (bix s ix) /\ valid t (bix t ix).
Proof.
  unfold bshape, bix. destruct (brev (rev s) (rev t)) as [w|] eqn:B; [|discriminate]. intros H V. injection H as <-. apply valid_rev in V. rewrite rev_involutive in V.
  split; [rewrite <- (rev_involutive s) at 1|rewrite <- (rev_involutive t) at 1]; apply valid_rev; eapply brev_valid_l; try exact V; [exact B|rewrite brev_comm; exact B].
Qed.
Lemma op2_rel {A A' B B' C C'} (P : A -> A' -> Prop) (Q : B -> B' -> Prop) (T : C -> C' -> Prop) f f' a a' b b' : nd_rel P a a' -> nd_rel Q b b' ->
  (forall x x' y y', P x x' -> Q y y' -> T (f x y) (f' x' y')) -> rrel (nd_rel T) (op2 f a b) (op2 f' a' b').
Proof.
  intros [S1 D1] [S2 D2] H. unfold op2. rewrite S1, S2. destruct (bshape (shp a) (shp b)) as [u|] eqn:E; [|reflexivity]. cbn [bind rrel]. split; [reflexivity|]. cbn [shp dat]. intros ix V.
  destruct (bix_valid _ _ _ _ E V). apply H; auto.
Qed.
Lemma norm_lt a n k : norm_axis a n = Ok k -> (k < n)%nat.
Proof.
  unfold norm_axis. destruct ((a <? - Z.of_nat n)%Z || (Z.of_nat n <=? a)%Z)%bool eqn:E; [discriminate|]. apply orb_false_iff in E as [E1 E2]. apply Z.ltb_ge in E1. apply Z.leb_gt in E2. intros H. injection H as <-. destruct (Z.ltb_spec a 0); lia.
Qed.
Lemma swapaxes_rel {A B} (P : A -> B -> Prop) a b i j : nd_rel P a b -> rrel (nd_rel P) (swapaxes a i j) (swapaxes b i j).
Proof.
  intros [S D]. unfold swapaxes, ndim. rewrite S. destruct (norm_axis i (length (shp a))) as [i'|] eqn:I; [|reflexivity]. cbn [bind]. destruct (norm_axis j (length (shp a))) as [j'|] eqn:J; [|reflexivity]. cbn [bind rrel].
  apply norm_lt in I, J. split; cbn [swap_nd shp dat]; [rewrite S; reflexivity|]. intros ix V. apply D, valid_swapl_inv; assumption.
Qed.
Lemma undo_rel P (a b : nd R) ta : nd_rel P a b -> rrel (nd_rel P) (undo_swap a ta) (undo_swap b ta).
Proof. intros H. destruct ta; [apply swapaxes_rel, H|exact H]. Qed.
Lemma nd_rel_refl {A} (a : nd A) : nd_rel eq a a.
Proof. split; reflexivity. Qed.
(** Equal up to a sign that may depend on the entry. *)
Definition up_to_sign (q q' : quat) : Prop := exists e, is_sign e /\ q' = qscale e q.
Lemma rotate_rel q q' v : nd_rel up_to_sign q q' -> rrel (nd_rel eq) (rotate_vectors q v (-1)) (rotate_vectors q' v (-1)).
Proof.
  intros [S D]. unfold rotate_vectors. rewrite S. destruct (shp q) as [|n l] eqn:Sq.
  - apply rrel_bind_same. intros k. unfold rv0. destruct (D []) as (e & E & ->); [constructor|]. destruct (Nat.eqb _ 3); [|reflexivity]. rewrite (rv_sign e E). apply rrel_bind_same. intros _. split; cbn [shp dat]; [reflexivity|].
    intros ix _. rewrite (rv_sign e E). reflexivity.
  - destruct (norm_axis (-1) (ndim v)) as [k|] eqn:N; [|reflexivity]. cbn [bind]. pose proof (norm_lt _ _ _ N) as K. apply norm_last in N as [Pos ->].
    destruct (Nat.eqb_spec (nth (ndim v - 1) (shp v) 0%nat) 3) as [H3|]; [|reflexivity]. cbn [negb]. replace (ndim q') with (ndim q) by (unfold ndim; rewrite S, Sq; reflexivity).
    destruct (Nat.eqb_spec (ndim q) (ndim v - 1)) as [Hd|]; [|reflexivity]. cbn [negb orb]. rewrite <- Sq. destruct (axes_match (shp q) (remove_at (ndim v - 1) (shp v))) eqn:Hm; [|reflexivity]. cbn [negb].
    assert (Q : existsb (fun ix => Req_b (qlen (dat q' ix)) 0) (indices (shp q)) = existsb (fun ix => Req_b (qlen (dat q ix)) 0) (indices (shp q))).
    { rewrite Sq. assert (X : forall L, (forall ix, In ix L -> valid (n :: l) ix) -> existsb (fun ix => Req_b (qlen (dat q' ix)) 0) L = existsb (fun ix => Req_b (qlen (dat q ix)) 0) L).
      { induction L as [|ix L IH]; [reflexivity|]. intros F. cbn [existsb]. destruct (D ix) as (e & E & ->); [apply F; left; reflexivity|]. rewrite (len_sign e E), IH by (intros; apply F; right; assumption). reflexivity. }
      apply X. intros ix. apply in_indices. }
    rewrite <- Sq in S, D.
    destruct (existsb (fun ix => Req_b (qlen (dat q ix)) 0) (indices (shp q))) eqn:Z.
    + unfold rot_arrays. rewrite S, Q, Z. reflexivity.
    + assert (NZ : forall p, shp p = shp q -> existsb (fun ix => Req_b (qlen (dat p ix)) 0) (indices (shp q)) = false -> forall ix, valid (shp p) ix -> qlen (dat p ix) <> 0).
      { intros p Sp Zp ix V C. rewrite Sp in V. apply in_indices in V. assert (T : existsb (fun ix => Req_b (qlen (dat p ix)) 0) (indices (shp q)) = true) by (apply existsb_exists; exists ix; split; [exact V|rewrite C; unfold Req_b; destruct (Req_EM_T 0 0); [reflexivity|contradiction]]). congruence. }
      assert (SW : forall p : nd quat, ndim p = (ndim v - 1)%nat -> swap_ok p (ndim v) (ndim v - 1)) by (intros p Hp; apply swap_is_insert_ok; [exact K|exact Hp|apply swap_is_insert_last, Pos]).
      destruct (rot_arrays_ok q v (ndim v - 1) K H3 Hd Hm (SW q Hd) (NZ q eq_refl Z)) as (o & Eo & So & Do).
      assert (Hd' : ndim q' = (ndim v - 1)%nat) by (unfold ndim in *; rewrite S; exact Hd).
      assert (Hm' : axes_match (shp q') (remove_at (ndim v - 1) (shp v)) = true) by (rewrite S; exact Hm).
      destruct (rot_arrays_ok q' v (ndim v - 1) K H3 Hd' Hm' (SW q' Hd') (NZ q' S (eq_trans Q eq_refl))) as (o' & Eo' & So' & Do').
      rewrite Eo, Eo'. cbn [rrel]. rewrite S in So', Do'. split; [congruence|]. intros ix V. rewrite So in V.
      assert (LQ : length (shp q) = length (remove_at (ndim v - 1) (shp v))) by (rewrite length_remove by exact K; exact Hd).
      apply valid_insert_inv in V as (c & pre & -> & Cl & Vp); [|rewrite length_bs by exact LQ; unfold ndim in *; lia].
      specialize (Do pre Vp). specialize (Do' pre Vp). destruct (valid_zb _ _ _ LQ Hm Vp) as [V1 _]. destruct (D _ V1) as (e & E & Ee). rewrite Ee, (rot1_sign e E) in Do'. assert (X : vec_along o' (ndim v - 1) pre = vec_along o (ndim v - 1) pre) by congruence.
      rewrite <- !(vec_along_comp _ _ _ c) by exact Cl. rewrite X. reflexivity.
Qed.

(* ------------------------------------------------------------------ transforms *)
(** One row per time stamp. *)
Definition full_rows (tr : transf) : Prop := match tr with TrRows ts rows => length rows = length ts | _ => True end.
Lemma traverse_length {A B} (f : A -> res B) l r : traverse f l = Ok r -> length r = length l.
Proof.
  unfold traverse. revert r. induction l as [|a l IH]; intros r E; cbn [map sequence] in E; [injection E as <-; reflexivity|].
  destruct (f a); [|discriminate]. cbn [bind] in E. destruct (sequence (map f l)) as [r'|]; [|discriminate]. cbn [bind] in E. injection E as <-. cbn [length]. rewrite (IH r' eq_refl). reflexivity.
Qed.
Lemma rows_length sq d l rows : rows_from_frame sq d l = Ok rows -> length rows = length l.
Proof.
  destruct d as [t r|ts t r [|]]; cbn [rows_from_frame]; intros E.
  - injection E as <-. apply map_length.
  - destruct (hold ts t 0); [|discriminate]. destruct (hold ts r 0); [|discriminate]. cbn [bind] in E. destruct (traverse (hold ts t) l) as [a1|] eqn:A; [|discriminate]. destruct (traverse (hold ts r) l) as [b1|] eqn:B; [|discriminate].
    cbn [bind] in E. injection E as <-. apply traverse_length in A, B. rewrite combine_length. lia.
  - unfold interp1d in E. destruct (forallb _ l); [|discriminate]. destruct (traverse (interp_at lin_vec ts t) l) as [a|] eqn:A; [|discriminate]. cbn [bind] in E. destruct (traverse (sq ts r) l) as [b|] eqn:B; [|discriminate].
    cbn [bind] in E. injection E as <-. apply traverse_length in A, B. rewrite combine_length. lia.
Qed.
Lemma fold_length sq l fs : forall accs rows, length accs = length l -> foldM (step_rows sq l) fs accs = Ok rows -> length rows = length l.
Proof.
  induction fs as [|f fs IH]; intros accs rows L E; cbn [foldM] in E; [injection E as <-; exact L|]. destruct (step_rows sq l accs f) as [accs'|] eqn:K; [|discriminate]. cbn [bind] in E. apply (IH accs' rows); [|exact E].
  unfold step_rows in K. destruct (rows_from_frame sq (mf_data f) l) as [rs|] eqn:R; [|discriminate]. cbn [bind] in K. apply traverse_length in K. apply rows_length in R. rewrite combine_length in K. lia.
Qed.
Lemma transformation_full sq m w tr : transformation_at sq m w = Ok tr -> full_rows tr.
Proof.
  destruct w as [l|]; cbn [transformation_at]; intros E.
  - destruct (m_frames m) as [|f fs]; [injection E as <-; exact I|]. destruct (foldM _ _ _) as [rows|] eqn:F; [|discriminate]. cbn [bind] in E. injection E as <-. apply fold_length in F; [exact F|apply map_length].
  - destruct (foldM _ _ _) as [[t r]|]; [|discriminate]. cbn [bind] in E. injection E as <-. exact I.
Qed.
Lemma get_full sq m af tr : get_transformation sq m af = Ok tr -> full_rows tr.
Proof. unfold get_transformation. destruct (get_timestamps m af); [|discriminate]. apply transformation_full. Qed.
Lemma lookup_full sq s i to tr : lookup_transform sq s i to = Ok tr -> full_rows tr.
Proof. unfold lookup_transform. destruct (resolve_rf s to); [|discriminate]. cbn [bind]. destruct (frames_between _ _ _); [|discriminate]. apply get_full. Qed.
Lemma sg_tr_t e tr : tr_t (tr_sign e tr) = tr_t tr.
Proof.
  destruct tr as [t r|ts|ts rows]; try reflexivity. cbn [tr_sign tr_t]. f_equal. extensionality ix. f_equal. unfold rowv.
  rewrite <- !(map_nth (@fst vec3 quat)), map_map. reflexivity.
Qed.
Lemma sg_tr_ts e tr : tr_ts (tr_sign e tr) = tr_ts tr.
Proof. destruct tr; reflexivity. Qed.
(** One sign for all rotations of a transformation. *)
Lemma sg_tr_r e tr : is_sign e -> full_rows tr -> exists d, is_sign d /\ nd_rel (fun q q' => q' = qscale d q) (tr_r tr) (tr_r (tr_sign e tr)).
Proof.
  intros E F. destruct tr as [t r|ts|ts rows]; cbn [tr_sign tr_r].
  - exists e. split; [exact E|]. split; reflexivity.
  - exists 1. split; [apply sign_one|]. split; [reflexivity|]. intros ix _. symmetry. apply scale1.
  - exists e. split; [exact E|]. split; [reflexivity|]. cbn [shp dat]. intros ix V. inversion V as [|i n jx s' I V']; subst. cbn [hd]. cbn [full_rows] in F.
    unfold rowq. rewrite (nth_indep _ (v0, q1) (fst (v0, q1), qscale e (snd (v0, q1)))) by (rewrite map_length; lia). rewrite (map_nth (fun p : vec3 * quat => (fst p, qscale e (snd p)))). reflexivity.
Qed.
Lemma expand_rel (P : quat -> quat -> Prop) r r' n : nd_rel P r r' -> nd_rel P (expand_r r n) (expand_r r' n).
Proof.
  intros [S D]. unfold expand_r. rewrite S. destruct (shp r) as [|a rest] eqn:Sr; [split; [congruence|rewrite Sr; exact D]|]. split; [reflexivity|]. cbn [shp dat]. intros ix V. inversion V as [|i m jx s' I V']; subst. cbn [hd tl]. apply D. constructor; [exact I|].
  apply Forall2_app_inv_r in V' as (l1 & l2 & V1 & V2 & ->). assert (L : length l1 = (n - 2)%nat) by (apply valid_length in V1; rewrite V1; apply repeat_length).
  rewrite skipn_app, L, Nat.sub_diag, skipn_all2 by lia. exact V2.
Qed.
(** The first part of a transform: the same array, the transformation up to a sign. *)
Lemma sg_prepare s s' i arr to axis n ta ts : state_sign s s' ->
  rrel (fun p p' => full_rows (fst p) /\ snd p' = snd p /\ exists e, is_sign e /\ fst p' = tr_sign e (fst p)) (prepare np_squad s i arr to axis n ta ts) (prepare np_squad s' i arr to axis n ta ts).
Proof.
  intros H. unfold prepare. apply rrel_bind_same. intros [a w]. rewrite (sg_resolve s s' H). apply rrel_bind_same. intros j. eapply rrel_bind; [apply (sg_between s s' i j H)|]. intros fs fs' F. apply rrel_bind_same. intros ma.
  destruct (sg_get_transformation fs fs' [ma] true F) as (e & E & ->). destruct (get_transformation np_squad (Mat fs [ma]) true) as [tr|] eqn:G; [|reflexivity]. cbn [outcome bind]. rewrite sg_tr_ts.
  apply rrel_bind_same. intros b. cbn [rrel fst snd]. split; [eapply get_full, G|]. split; [reflexivity|]. exists e. split; [exact E|reflexivity].
Qed.
(** The same exception, or the same time stamps and arrays with related entries. *)
Definition results (P : R -> R -> Prop) (r r' : res (nd R * option (list R))) : Prop :=
  rrel (fun p p' => nd_rel P (fst p) (fst p') /\ snd p' = snd p) r r'.
Lemma weaken_sign d q q' : is_sign d -> nd_rel (fun q q' => q' = qscale d q) q q' -> nd_rel up_to_sign q q'.
Proof. intros D [S H]. split; [exact S|]. intros ix V. exists d. split; [exact D|apply H, V]. Qed.
Lemma sg_vectors s s' i arr to ta ts : state_sign s s' -> results eq (transform_vectors np_squad s i arr to (-1) ta ts) (transform_vectors np_squad s' i arr to (-1) ta ts).
Proof.
  intros H. unfold transform_vectors, results. eapply rrel_bind; [apply (sg_prepare s s' _ _ _ _ _ _ _ H)|]. intros [tr b] [tr' b'] (F & B & e & E & T). cbn [fst snd] in *. subst b' tr'. rewrite sg_tr_ts.
  destruct (sg_tr_r e tr E F) as (d & D & Rel). eapply rrel_bind; [apply rotate_rel, expand_rel, (weaken_sign d), Rel; exact D|]. intros c c' C. eapply rrel_bind; [apply undo_rel, C|]. intros x x' X. cbn [rrel fst snd]. split; [exact X|reflexivity].
Qed.
Lemma sg_points s s' i arr to ta ts : state_sign s s' -> results eq (transform_points np_squad s i arr to (-1) ta ts) (transform_points np_squad s' i arr to (-1) ta ts).
Proof.
  intros H. unfold transform_points, results. eapply rrel_bind; [apply (sg_prepare s s' _ _ _ _ _ _ _ H)|]. intros [tr b] [tr' b'] (F & B & e & E & T). cbn [fst snd] in *. subst b' tr'. rewrite sg_tr_ts, sg_tr_t.
  destruct (sg_tr_r e tr E F) as (d & D & Rel). eapply rrel_bind; [apply rotate_rel, expand_rel, (weaken_sign d), Rel; exact D|]. intros c c' C.
  eapply rrel_bind; [eapply (op2_rel eq eq eq); [exact C|apply nd_rel_refl|intros; subst; reflexivity]|]. intros x x' X. eapply rrel_bind; [apply undo_rel, X|]. intros y y' Y. cbn [rrel fst snd]. split; [exact Y|reflexivity].
Qed.
Lemma as_float_rel d c c' : nd_rel (fun q q' => q' = qscale d q) c c' -> nd_rel (fun x y => y = d * x) (as_float c) (as_float c').
Proof.
  intros [S D]. unfold as_float. split; cbn [shp dat]; [rewrite S; reflexivity|]. intros ix V. apply Forall2_app_inv_r in V as (l1 & l2 & V1 & V2 & ->). inversion V2 as [|i n jx s' I V']; subst. inversion V'; subst. rewrite removelast_last, last_last.
  rewrite (D l1 V1). destruct i as [|[|[|i]]]; reflexivity.
Qed.
Lemma sg_quaternions s s' i arr to axis ta ts : state_sign s s' -> exists e, is_sign e /\ results (fun x y => y = e * x) (transform_quaternions np_squad s i arr to axis ta ts) (transform_quaternions np_squad s' i arr to axis ta ts).
Proof.
  intros H. unfold transform_quaternions, results. pose proof (sg_prepare s s' i arr to axis 4 ta ts H) as P.
  destruct (prepare np_squad s i arr to axis 4 ta ts) as [[tr b]|], (prepare np_squad s' i arr to axis 4 ta ts) as [[tr' b']|]; cbn [rrel] in P; try contradiction; [|exists 1; split; [apply sign_one|]; subst; reflexivity].
  destruct P as (F & B & e & E & T). cbn [fst snd] in *. subst b' tr'. destruct (sg_tr_r e tr E F) as (d & D & Rel). exists d. split; [exact D|]. cbn [bind]. rewrite sg_tr_ts. apply rrel_bind_same. intros b'. apply rrel_bind_same. intros qa.
  eapply rrel_bind; [eapply (op2_rel (fun q q' => q' = qscale d q) eq (fun q q' => q' = qscale d q)); [apply expand_rel, Rel|apply nd_rel_refl|intros; subst; apply mul_sign_l]|]. intros c c' C.
  eapply rrel_bind; [apply swapaxes_rel, as_float_rel, C|]. intros x x' X. eapply rrel_bind; [apply undo_rel, X|]. intros y y' Y. cbn [rrel fst snd]. split; [exact Y|reflexivity].
Qed.
