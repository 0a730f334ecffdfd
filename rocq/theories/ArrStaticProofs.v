(** Transforms of arrays without timestamps. *)
From Coq Require Import Reals List Arith Bool ZArith Lia Lra.
From Verif Require Import Base Quat SpecQuat QuatProofs NdArray Frames SpecForest FrameProofs WalkProofs
  Matcher SpecLookup LookupProofs RegistryProofs MovingProofs TimeProofs CtorProofs InverseProofs RouteProofs
  Transform SpecArray NdProofs RotProofs ArrProofs ArrTransProofs.
Import ListNotations.
Open Scope nat_scope.

(* ---- moving an axis to the end by a swap ---- *)
Definition mvl (k : nat) (pre : list nat) : list nat := removelast (swapl (length pre) k (insert_at k 0 pre)).
Lemma nth_insert_other t x y pre m : t <= length pre -> m <> t -> nth m (insert_at t x pre) 0 = nth m (insert_at t y pre) 0.
Proof.
  revert m t; induction pre as [|a pre IH]; intros m t H Hm; simpl in H.
  - assert (t = 0) by lia. subst. destruct m as [|m]; [lia|reflexivity].
  - destruct t as [|t]; simpl; [destruct m; [lia|reflexivity]|]. destruct m; auto. apply IH; lia.
Qed.
Lemma nth_removelast (l : list nat) m : m < length l - 1 -> nth m (removelast l) 0 = nth m l 0.
Proof.
  intros H. destruct l as [|z l0]; [simpl in H; lia|].
  destruct (exists_last (l := z :: l0)) as (l' & y & E); [discriminate|]. rewrite E in *. rewrite removelast_snoc.
  rewrite app_length in H. simpl in H. rewrite app_nth1 by lia. reflexivity.
Qed.
Lemma length_removelast (l : list nat) : length (removelast l) = length l - 1.
Proof.
  destruct l as [|z l0]; auto. destruct (exists_last (l := z :: l0)) as (l' & y & E); [discriminate|].
  rewrite E. rewrite removelast_snoc, app_length. simpl. lia.
Qed.
Lemma swapl_insert_end k x pre : k <= length pre -> swapl (length pre) k (insert_at k x pre) = mvl k pre ++ [x].
Proof.
  intros H. unfold mvl.
  assert (Lx : forall y, length (swapl (length pre) k (insert_at k y pre)) = S (length pre)).
  { intros y. rewrite length_swapl, length_insert; auto. }
  apply list_nth_ext.
  - rewrite app_length, length_removelast, !Lx. simpl. lia.
  - rewrite Lx. intros m Hm. destruct (Nat.eq_dec m (length pre)) as [->|Hne].
    + rewrite nth_swapl by (rewrite length_insert; lia). unfold transp. rewrite Nat.eqb_refl, nth_insert by auto.
      rewrite app_nth2 by (rewrite length_removelast, Lx; lia). rewrite length_removelast, Lx.
      replace (length pre - (S (length pre) - 1)) with 0 by lia. reflexivity.
    + rewrite app_nth1 by (rewrite length_removelast, Lx; lia). rewrite nth_removelast by (rewrite Lx; lia).
      rewrite !nth_swapl by (rewrite length_insert; lia). apply nth_insert_other; auto.
      unfold transp. destruct (Nat.eqb_spec m (length pre)); [lia|]. destruct (Nat.eqb_spec m k); lia.
Qed.
Lemma swapl_mvl k x pre : k <= length pre -> swapl k (length pre) (mvl k pre ++ [x]) = insert_at k x pre.
Proof. intros H. rewrite <- (swapl_insert_end k x) by auto. rewrite (swapl_comm k). apply swapl_invol; rewrite length_insert; lia. Qed.
Lemma length_mvl k pre : k <= length pre -> length (mvl k pre) = length pre.
Proof. intros H. unfold mvl. rewrite length_removelast, length_swapl, length_insert by auto. lia. Qed.

Definition quat_along (a : nd R) (k : nat) (pre : list nat) : quat :=
  Qt (dat a (insert_at k 0 pre)) (dat a (insert_at k 1 pre)) (dat a (insert_at k 2 pre)) (dat a (insert_at k 3 pre)).

Lemma op2_scalar_l {A B C} (f : A -> B -> C) q (b : nd B) :
  exists c, op2 f (Nd [] (fun _ => q)) b = Ok c /\ shp c = shp b /\
    forall ix, length ix = length (shp b) -> dat c ix = f q (dat b (zb (shp b) ix)).
Proof.
  unfold op2. cbn [shp dat]. unfold bshape. cbn [rev brev bind]. eexists. split; [reflexivity|]. cbn [shp dat].
  split; [apply rev_involutive|]. intros ix H. rewrite bix_zb by auto. reflexivity.
Qed.

Lemma valid_app_inv s t p u : length p = length s -> valid (s ++ t) (p ++ u) -> valid s p.
Proof.
  revert p; induction s as [|a s IH]; intros [|b p] H V; simpl in *; try discriminate; [constructor|].
  inversion V; subst. constructor; auto. apply IH; auto.
Qed.

Section Squad.
Variable squad : list R -> list quat -> R -> res quat.

(** Without timestamps on the array the transformation is the looked-up one. *)
Lemma prepare_none s i arr to axis nn ta tr k : norm_axis axis (ndim arr) = Ok k -> nth k (shp arr) 0 = nn ->
  lookup_transform squad s i to = Ok tr ->
  prepare squad s i arr to axis nn ta None =
    (b <- resample_array squad (MA arr None) (tr_ts tr) ;; Ok (tr, b)).
Proof.
  intros Hax Hnn H. unfold prepare, validate_input. rewrite Hax. cbn [bind]. rewrite Hnn, Nat.eqb_refl. cbn [negb bind].
  unfold lookup_transform in H. apply bind_ok in H as (j & Hj & H). rewrite Hj. cbn [bind].
  apply bind_ok in H as (fs & Hfs & H). rewrite Hfs. cbn [bind]. unfold add_array, check_timestamps. cbn [bind].
  assert (G : get_transformation squad (Mat fs [MA arr None]) true = Ok tr).
  { rewrite <- H. reflexivity. }
  rewrite G. cbn [bind]. reflexivity.
Qed.
Lemma prepare_none_inv s i arr to axis nn ta tr b : prepare squad s i arr to axis nn ta None = Ok (tr, b) ->
  lookup_transform squad s i to = Ok tr /\ exists k, norm_axis axis (ndim arr) = Ok k /\ nth k (shp arr) 0 = nn.
Proof.
  unfold prepare, validate_input. intros H. apply bind_ok in H as ((a & o) & Hv & H).
  apply bind_ok in Hv as (k & Hk & Hv). destruct (Nat.eqb_spec (nth k (shp arr) 0) nn); [|discriminate].
  cbn [negb] in Hv. injection Hv as <- <-. split; [|eauto].
  apply bind_ok in H as (j & Hj & H). apply bind_ok in H as (fs & Hfs & H).
  cbn [add_array check_timestamps bind] in H. apply bind_ok in H as (tr' & Htr & H). apply bind_ok in H as (b' & Hb & H).
  injection H as <- <-. unfold lookup_transform. rewrite Hj. cbn [bind]. rewrite Hfs. cbn [bind]. rewrite <- Htr. reflexivity.
Qed.

Section Static.
Variables (s : state) (i : nat) (arr : nd R) (to : pref) (axis : Z) (k : nat) (t : vec3) (r : quat).
Hypothesis Hax : norm_axis axis (ndim arr) = Ok k.
Hypothesis Hl : lookup_transform squad s i to = Ok (TrStatic t r).
Hypothesis Hr : hn2 r <> 0%R.

Lemma prepare_static nn ta : nth k (shp arr) 0 = nn -> prepare squad s i arr to axis nn ta None = Ok (TrStatic t r, arr).
Proof. intros H. rewrite (prepare_none _ _ _ _ _ _ _ _ _ Hax H Hl). reflexivity. Qed.

Lemma vectors_static ta : nth k (shp arr) 0 = 3 ->
  exists out, transform_vectors squad s i arr to axis ta None = (d <- undo_swap out ta ;; Ok (d, None)) /\
    shp out = shp arr /\
    forall pre, length pre = ndim arr - 1 -> vec_along out k pre = srot r (vec_along arr k pre).
Proof.
  intros H3. unfold transform_vectors. rewrite (prepare_static 3 ta H3). cbn [bind tr_r tr_ts].
  destruct (rotate_scalar r arr k axis Hax H3 Hr) as (out & E & So & Do). exists out.
  unfold expand_r. cbn [shp]. rewrite E. cbn [bind]. auto.
Qed.

Lemma points_static ta sh : shp arr = sh ++ [3] -> k = length sh ->
  exists out, transform_points squad s i arr to axis ta None = (d <- undo_swap out ta ;; Ok (d, None)) /\
    shp out = shp arr /\
    forall pre, valid sh pre -> vec_at out pre = smove t r (vec_at arr pre).
Proof.
  intros Hsh Hk.
  assert (H3 : nth k (shp arr) 0 = 3).
  { rewrite Hsh, app_nth2 by lia. rewrite Hk, Nat.sub_diag. reflexivity. }
  unfold transform_points. rewrite (prepare_static 3 ta H3). cbn [bind tr_r tr_ts].
  destruct (rotate_scalar r arr k axis Hax H3 Hr) as (c & E & Sc & Dc).
  unfold expand_r. cbn [shp]. rewrite E. cbn [bind]. unfold expand_t. cbn [tr_t shp].
  unfold op2 at 1. cbn [shp dat].
  rewrite Sc, Hsh. rewrite bshape_longer by reflexivity. cbn [bind bs Nat.eqb].
  eexists. split; [reflexivity|]. cbn [shp dat]. split; [reflexivity|]. intros pre Hv. pose proof (valid_length _ _ Hv) as Hp.
  assert (V : vec_at c pre = srot r (vec_at arr pre)).
  { assert (Hn : ndim arr - 1 = length sh) by (unfold ndim; rewrite Hsh, app_length; simpl; lia).
    specialize (Dc pre). rewrite Hn in Dc. specialize (Dc Hp). unfold vec_along in Dc.
    rewrite Hk, <- Hp, !insert_end in Dc. exact Dc. }
  unfold smove. rewrite <- V. unfold vec_at. cbn [dat shp].
  assert (Z : forall j, j < 3 -> dat c (bix (sh ++ [3]) (pre ++ [j])) = dat c (pre ++ [j])).
  { intros j Hj. rewrite bix_zb by (rewrite !app_length; simpl; lia).
    rewrite zb_valid; auto. apply valid_app; auto. constructor; auto. }
  rewrite !Z by lia. rewrite !(bix_suffix [3] pre) by reflexivity. reflexivity.
Qed.

Lemma quats_static ta : nth k (shp arr) 0 = 4 ->
  exists out, transform_quaternions squad s i arr to axis ta None = (d <- undo_swap out ta ;; Ok (d, None)) /\
    shp out = shp arr /\
    forall pre, valid (remove_at k (shp arr)) pre -> quat_along out k pre = hmul r (quat_along arr k pre).
Proof.
  intros H4. pose proof (norm_axis_ok _ _ _ Hax) as (Hk & _).
  set (W := remove_at k (shp arr)).
  assert (LW : length W = ndim arr - 1) by (unfold W; rewrite length_remove; auto).
  assert (KW : k <= length W) by lia.
  assert (Sarr : shp arr = insert_at k 4 W).
  { unfold W. rewrite <- H4 at 1. symmetry. apply insert_remove. exact Hk. }
  unfold transform_quaternions. rewrite (prepare_static 4 ta H4). cbn [bind tr_r tr_ts].
  unfold swapaxes at 1. rewrite Hax, norm_axis_last by lia. cbn [bind].
  replace (ndim arr - 1) with (length W) by lia.
  unfold as_quat. cbn [swap_nd shp dat]. rewrite Sarr. rewrite (swapl_comm k), swapl_insert_end by auto.
  rewrite last_snoc. cbn [Nat.eqb bind]. rewrite removelast_snoc. unfold expand_r. cbn [shp].
  set (qa := Nd (mvl k W) _).
  destruct (op2_scalar_l qmulq r qa) as (c & Ec & Sc & Dc). rewrite Ec. cbn [bind].
  unfold swapaxes at 1.
  assert (Nf : ndim (as_float c) = ndim arr).
  { unfold ndim at 1. unfold as_float. cbn [shp]. rewrite Sc, app_length. unfold qa. cbn [shp].
    rewrite length_mvl by auto. simpl. lia. }
  rewrite Nf, Hax, norm_axis_last by lia. cbn [bind]. replace (ndim arr - 1) with (length W) by lia.
  eexists. split; [reflexivity|]. cbn [swap_nd shp dat as_float]. split.
  - rewrite Sc. unfold qa. cbn [shp]. rewrite swapl_comm. apply swapl_mvl; auto.
  - intros pre Hp. pose proof (valid_length _ _ Hp) as Lp.
    unfold quat_along at 1. cbn [dat swap_nd as_float].
    assert (Lp' : length W = length pre) by lia.
    rewrite Lp' at 1 2 3 4 5 6 7 8. rewrite !swapl_insert_end, !last_snoc, !removelast_snoc by lia. cbn [comp4].
    assert (D : dat c (mvl k pre) = hmul r (quat_along arr k pre)).
    { rewrite Dc by (unfold qa; cbn [shp]; rewrite !length_mvl; lia). rewrite qmulq_hmul. f_equal.
      unfold qa. cbn [shp dat]. rewrite zb_valid.
      2:{ assert (V : valid (mvl k W ++ [4]) (mvl k pre ++ [0])).
          { rewrite <- (swapl_insert_end k 4 W), <- (swapl_insert_end k 0 pre) by lia. rewrite <- Lp'.
            apply valid_swapl; try (rewrite length_insert; lia). apply valid_insert; auto. }
          apply (valid_app_inv _ [4] _ [0]); auto. rewrite !length_mvl; lia. }
      unfold quat_at, quat_along. cbn [dat swap_nd]. rewrite Lp'. rewrite !swapl_mvl by lia. reflexivity. }
    rewrite D. destruct (hmul _ _); reflexivity.
Qed.
End Static.

(* ---- a single point against a moving transformation ---- *)
Section Single.
Variables (s : state) (i : nat) (arr : nd R) (to : pref) (l : list R) (rows : list (vec3 * quat)).
Hypothesis Hl : lookup_transform squad s i to = Ok (TrRows l rows).
Hypothesis L : length rows = length l.
Hypothesis Hu : forall k, k < length l -> hunit (rowq rows k).

Lemma undo0 e : 0 < ndim e -> exists out, undo_swap e (Some 0%Z) = Ok out /\ shp out = shp e /\ forall ix, dat out ix = dat e ix.
Proof.
  intros H. unfold undo_swap, swapaxes. rewrite (norm_axis_pos 0 (ndim e) H : norm_axis 0 (ndim e) = Ok 0). cbn [bind].
  eexists. split; [reflexivity|]. cbn [swap_nd shp dat]. split; [apply swapl_same|]. intros ix. rewrite swapl_same. reflexivity.
Qed.

Lemma prepare_single nn : shp arr = [nn] -> prepare squad s i arr to (-1) nn (Some 0%Z) None =
  Ok (TrRows l rows, Nd [length l; nn] (fun ix => dat arr (tl ix))).
Proof.
  intros Hs. rewrite (prepare_none s i arr to (-1) nn _ (TrRows l rows) 0); auto.
  - cbn [tr_ts resample_array ma_ts ma_data bind]. unfold tile_nd. rewrite Hs. reflexivity.
  - unfold ndim. rewrite Hs. reflexivity.
  - rewrite Hs. reflexivity.
Qed.

Lemma single_post : shp arr = [3] ->
  let b := Nd [length l; 3] (fun ix => dat arr (tl ix)) in
  exists c, rotate_vectors (expand_r (tr_r (TrRows l rows)) (ndim b)) b (-1) = Ok c /\ shp c = [length l; 3] /\
    forall k, k < length l -> vec_at c [k] = srot (rowq rows k) (vec_at arr []).
Proof.
  intros Hs b. destruct (rot_tr (TrRows l rows) l rows b 0 [] (-1)) as (c & E & Sc & Dc); auto.
  - left. reflexivity.
  - exists c. split; [exact E|]. split; [exact Sc|]. intros k Hk. specialize (Dc k [] Hk (Forall2_nil _)).
    change (vec_along c 1 [k]) with (vec_at c [k]) in Dc. rewrite Dc. reflexivity.
Qed.

Lemma vectors_single : shp arr = [3] ->
  exists out, transform_vectors squad s i arr to (-1) (Some 0%Z) None = Ok (out, Some l) /\ shp out = [length l; 3] /\
    forall k, k < length l -> vec_at out [k] = srot (rowq rows k) (vec_at arr []).
Proof.
  intros Hs. unfold transform_vectors. rewrite (prepare_single 3 Hs). cbn [bind].
  destruct (single_post Hs) as (c & E & Sc & Dc). cbv zeta in E. rewrite E. cbn [bind].
  destruct (undo0 c) as (o & Eo & So & Do); [unfold ndim; rewrite Sc; simpl; lia|]. rewrite Eo. cbn [bind tr_ts].
  exists o. split; [reflexivity|]. split; [congruence|]. intros k Hk. rewrite <- Dc by auto. unfold vec_at. rewrite !Do. reflexivity.
Qed.
Lemma points_single : shp arr = [3] ->
  exists out, transform_points squad s i arr to (-1) (Some 0%Z) None = Ok (out, Some l) /\ shp out = [length l; 3] /\
    forall k, k < length l -> vec_at out [k] = smove (rowv rows k) (rowq rows k) (vec_at arr []).
Proof.
  intros Hs. unfold transform_points. rewrite (prepare_single 3 Hs). cbn [bind].
  destruct (single_post Hs) as (c & E & Sc & Dc). cbv zeta in E. rewrite E. cbn [bind].
  destruct (add_tr (TrRows l rows) l rows c []) as (e & Ee & Se & De); auto. { left. reflexivity. }
  replace (ndim c) with 2 in Ee by (unfold ndim; rewrite Sc; reflexivity).
  change (ndim (Nd [length l; 3] (fun ix => dat arr (tl ix)))) with 2. rewrite Ee. cbn [bind].
  destruct (undo0 e) as (o & Eo & So & Do); [unfold ndim; rewrite Se; simpl; lia|]. rewrite Eo. cbn [bind tr_ts].
  exists o. split; [reflexivity|]. split; [rewrite So, Se; reflexivity|]. intros k Hk. unfold smove. rewrite <- Dc by auto.
  rewrite <- (De k [] Hk (Forall2_nil _)). unfold vec_at. rewrite !Do. reflexivity.
Qed.
Lemma quats_single : shp arr = [4] ->
  exists out, transform_quaternions squad s i arr to (-1) (Some 0%Z) None = Ok (out, Some l) /\ shp out = [length l; 4] /\
    forall k, k < length l -> quat_at out [k] = hmul (rowq rows k) (quat_at arr []).
Proof.
  intros Hs. unfold transform_quaternions. rewrite (prepare_single 4 Hs). cbn [bind].
  destruct (quat_tr (TrRows l rows) l rows (Nd [length l; 4] (fun ix => dat arr (tl ix))) []) as (e & Ee & Se & De); auto.
  { left. reflexivity. }
  apply bind_ok in Ee as (b' & Eb' & Ee). rewrite Eb'. cbn [bind].
  apply bind_ok in Ee as (qa & Eqa & Ee). rewrite Eqa. cbn [bind].
  apply bind_ok in Ee as (c & Ec & Ee). rewrite Ec. cbn [bind]. rewrite Ee. cbn [bind].
  destruct (undo0 e) as (o & Eo & So & Do); [unfold ndim; rewrite Se; simpl; lia|]. rewrite Eo. cbn [bind tr_ts].
  exists o. split; [reflexivity|]. split; [rewrite So, Se; reflexivity|]. intros k Hk.
  specialize (De k [] Hk (Forall2_nil _)). unfold quat_at at 1. rewrite !Do. fold (quat_at e [k]). rewrite De. reflexivity.
Qed.
End Single.
End Squad.
