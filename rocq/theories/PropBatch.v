(** Property C84: batches without timestamps between frames that move. *)
From Coq Require Import Reals List Arith Bool ZArith Lia Lra.
From Verif Require Import Base Quat SpecQuat QuatProofs NdArray Frames SpecForest FrameProofs WalkProofs
  Matcher SpecLookup LookupProofs RegistryProofs MovingProofs TimeProofs CtorProofs InverseProofs RouteProofs
  Examples PropForest PropLookup PropMoving
  Transform SpecArray NdProofs RotProofs ArrProofs ArrTransProofs ArrStaticProofs PropTransform PropRotate
  Squad PropSquad PropConverge PropLookVelEx.
Import ListNotations.
Open Scope nat_scope.

(* ------------------------------------------------------------------ broadcasting *)
(** T poses against an array whose first axis has length S0. *)
Definition joint (T S0 : nat) : nat := if Nat.eqb T 1 then S0 else T.
Definition pick (n k : nat) : nat := if Nat.eqb n 1 then 0 else k.
Definition fits (T S0 : nat) : bool := Nat.eqb T S0 || Nat.eqb T 1 || Nat.eqb S0 1.

Lemma fits_true T S0 : fits T S0 = true <-> T = S0 \/ T = 1 \/ S0 = 1.
Proof. unfold fits. rewrite !orb_true_iff, !Nat.eqb_eq. tauto. Qed.
Lemma bshape_false s t : length s = length t -> axes_match s t = false -> bshape s t = Raise ValueError.
Proof.
  intros H Hm. unfold bshape. replace (brev (rev s) (rev t)) with (@None (list nat)); auto. symmetry.
  rewrite <- axes_match_rev in Hm by auto. assert (H' : length (rev s) = length (rev t)) by (rewrite !rev_length; auto).
  revert Hm H'. generalize (rev s) (rev t). clear. intros a. induction a as [|x a IH]; intros [|y b] Hm L; cbn in *; try discriminate.
  destruct (axes_match a b) eqn:E.
  - rewrite brev_eq by (auto; lia). rewrite andb_true_r in Hm. apply orb_false_iff in Hm as (Hm & E3). apply orb_false_iff in Hm as (E1 & E2). rewrite E1, E2, E3. reflexivity.
  - rewrite IH by (auto; lia). reflexivity.
Qed.

Section Rows.
Variables (l : list R) (rows : list (vec3 * quat)).
 
Hypothesis Hu : forall k, k < length l -> hunit (rowq rows k).
Let T := length l.
Let tr := TrRows l rows.

Lemma expand_r_rows mid nn S0 (b : nd R) : shp b = S0 :: mid ++ [nn] ->
  shp (expand_r (tr_r tr) (ndim b)) = T :: repeat 1 (length mid) /\
  forall ix, dat (expand_r (tr_r tr) (ndim b)) ix = rowq rows (hd 0 ix).
Proof.
  intros Hs. assert (Hnd : ndim b = S (S (length mid))) by (unfold ndim; rewrite Hs; simpl; rewrite app_length; simpl; lia).
  rewrite Hnd. unfold expand_r, tr. cbn [tr_r shp Nat.sub]. rewrite Nat.sub_0_r, app_nil_r. cbn [dat hd]. unfold T. split; reflexivity.
Qed.

Lemma rot_rows mid S0 (b : nd R) : shp b = S0 :: mid ++ [3] -> fits T S0 = true ->
  exists c, rotate_vectors (expand_r (tr_r tr) (ndim b)) b (-1) = Ok c /\ shp c = joint T S0 :: mid ++ [3] /\
    forall k pre, k < joint T S0 -> valid mid pre -> vec_at c (k :: pre) = srot (rowq rows (pick T k)) (vec_at b (pick S0 k :: pre)).
Proof.
  intros Hs Hf. destruct (expand_r_rows mid 3 S0 b Hs) as (Sq & Dq).
  destruct (C25_arrays_partial (expand_r (tr_r tr) (ndim b)) b (-1) (S (length mid)) (S0 :: mid)) as (c & E & Sc & Dc).
  - rewrite Sq. discriminate.
  - rewrite Hs, put_insert by (cbn; lia). cbn [insert_at]. rewrite insert_end. reflexivity.
  - cbn. lia.
  - cbn. lia.
  - right. assert (Hn : ndim b = S (S (length mid))) by (unfold ndim; rewrite Hs; simpl; rewrite app_length; simpl; lia). rewrite Hn. lia.
  - rewrite Sq. apply agree_match. cbn. rewrite length_ones, match_ones. split; auto. rewrite andb_true_r. exact Hf.
  - intros ix Hix. rewrite Sq in Hix. inversion Hix; subst. rewrite Dq. cbn. apply Hu. auto.
  - rewrite Sq in Sc, Dc. cbn [bs] in Sc, Dc. rewrite bs_ones in Sc, Dc. fold (joint T S0) in Sc, Dc.
    exists c. split; [exact E|]. split.
    { rewrite Sc, put_insert by (cbn; lia). cbn [insert_at]. rewrite insert_end. reflexivity. }
    intros k pre Hk Hp. specialize (Dc (k :: pre) ltac:(constructor; auto)). cbn [zb] in Dc. rewrite Dq in Dc. cbn [hd] in Dc.
    rewrite (zb_valid mid pre Hp) in Dc. fold (pick T k) (pick S0 k) in Dc. pose proof (valid_length _ _ Hp) as Lp.
    assert (V : forall (a : nd R) x, vec_on a (S (length mid)) (x :: pre) = vec_at a (x :: pre)).
    { intros a x. unfold vec_on, vec_at. rewrite !put_insert by (cbn; lia). cbn [insert_at]. rewrite <- Lp, !insert_end. reflexivity. }
    rewrite !V in Dc. exact Dc.
Qed.
Lemma rot_rows_refused mid S0 (b : nd R) : shp b = S0 :: mid ++ [3] -> fits T S0 = false ->
  rotate_vectors (expand_r (tr_r tr) (ndim b)) b (-1) = Raise ValueError.
Proof.
  intros Hs Hf. destruct (expand_r_rows mid 3 S0 b Hs) as (Sq & Dq).
  assert (Hnd : ndim b = S (S (length mid))) by (unfold ndim; rewrite Hs; simpl; rewrite app_length; simpl; lia).
  unfold rotate_vectors. rewrite Sq. rewrite norm_axis_last by lia. cbn [bind].
  replace (ndim b - 1) with (length (S0 :: mid)) by (cbn; lia). rewrite Hs. change (S0 :: mid ++ [3]) with ((S0 :: mid) ++ [3]).
  rewrite app_nth2, Nat.sub_diag by lia. cbn [nth Nat.eqb negb].
  rewrite <- (insert_end 3 (S0 :: mid)), remove_insert by lia. cbn [axes_match]. rewrite match_ones, andb_true_r. fold (fits T S0). rewrite Hf. cbn [negb]. rewrite orb_true_r. reflexivity.
Qed.
Lemma add_rows mid S0 (c : nd R) : shp c = joint T S0 :: mid ++ [3] -> fits T S0 = true ->
  exists e, op2 Rplus c (expand_t (tr_t tr) (ndim c)) = Ok e /\ shp e = shp c /\
    forall k pre, k < joint T S0 -> valid mid pre -> vec_at e (k :: pre) = vadd (vec_at c (k :: pre)) (rowv rows (pick T k)).
Proof.
  intros Hs Hf. assert (Hnd : ndim c = S (S (length mid))) by (unfold ndim; rewrite Hs; simpl; rewrite app_length; simpl; lia).
  rewrite Hnd. unfold expand_t, tr. cbn [tr_t shp Nat.sub]. rewrite Nat.sub_0_r.
  set (f := fun ix : list nat => _). fold T.
  assert (Hm : axes_match (shp c) (T :: repeat 1 (length mid) ++ [3]) = true).
  { rewrite Hs. cbn [axes_match]. rewrite axes_match_app by (rewrite length_ones; auto). rewrite axes_match_comm, match_ones. simpl. rewrite andb_true_r.
    apply fits_true in Hf. unfold joint. destruct (Nat.eqb_spec T 1) as [E|N]; [rewrite E, orb_true_r; reflexivity|rewrite Nat.eqb_refl; reflexivity]. }
  destruct (op2_ok Rplus c (Nd (T :: repeat 1 (length mid) ++ [3]) f)) as (out & Eo & So & Do).
  { rewrite Hs. simpl. rewrite !app_length, length_ones. reflexivity. }
  { exact Hm. }
  exists out. split; [exact Eo|]. cbn [shp] in So, Do.
  assert (HB : bs (shp c) (T :: repeat 1 (length mid) ++ [3]) = shp c).
  { rewrite bs_comm; auto.
    - rewrite Hs. cbn [bs]. rewrite bs_app by (rewrite length_ones; auto). rewrite bs_ones. simpl. f_equal. unfold joint. destruct (Nat.eqb T 1); reflexivity.
    - rewrite Hs. simpl. rewrite !app_length, length_ones. reflexivity. }
  rewrite HB in So. split; [exact So|]. intros k pre Hk Hp. pose proof (valid_length _ _ Hp) as Lp.
  assert (D : forall j, j < 3 -> dat out ((k :: pre) ++ [j]) = (dat c ((k :: pre) ++ [j]) + comp3 j (rowv rows (pick T k)))%R).
  { intros j Hj. rewrite Do by (rewrite Hs; simpl; rewrite !app_length; simpl; lia). f_equal.
    - rewrite zb_valid; auto. rewrite Hs. constructor; auto. apply valid_app; auto. constructor; auto.
    - cbn [dat app zb]. unfold f. cbn [hd tl dat]. rewrite zb_app by (rewrite length_ones; lia).
      rewrite skipn_app, skipn_all2 by (rewrite length_zb; rewrite length_ones; lia).
      rewrite length_zb by (rewrite length_ones; lia). rewrite length_ones, Nat.sub_diag. cbn [skipn app zb nth hd Nat.eqb]. unfold pick. reflexivity. }
  unfold vec_at at 1. rewrite !D by lia. reflexivity.
Qed.
Lemma swap_last (a : nd R) : 0 < ndim a -> exists a', swapaxes a (-1) (-1) = Ok a' /\ shp a' = shp a /\ forall ix, dat a' ix = dat a ix.
Proof.
  intros Ha. unfold swapaxes. rewrite norm_axis_last by auto. cbn [bind]. eexists. split; [reflexivity|]. cbn [shp dat swap_nd].
  split; [apply swapl_same|]. intros ix. rewrite swapl_same. reflexivity.
Qed.
Lemma quat_rows mid S0 (b : nd R) : shp b = S0 :: mid ++ [4] -> 
  let r := (b' <- swapaxes b (-1) (-1) ;; qa <- as_quat b' ;;
            c <- op2 qmulq (expand_r (tr_r tr) (ndim b)) qa ;; swapaxes (as_float c) (-1) (-1)) in
  (fits T S0 = true -> exists e, r = Ok e /\ shp e = joint T S0 :: mid ++ [4] /\
    forall k pre, k < joint T S0 -> valid mid pre -> quat_at e (k :: pre) = hmul (rowq rows (pick T k)) (quat_at b (pick S0 k :: pre))) /\
  (fits T S0 = false -> r = Raise ValueError).
Proof.
  intros Hs r. destruct (expand_r_rows mid 4 S0 b Hs) as (Sq & Dq).
  assert (Hnd : ndim b = S (S (length mid))) by (unfold ndim; rewrite Hs; simpl; rewrite app_length; simpl; lia).
  destruct (swap_last b) as (b' & Eb & Sb & Db); [lia|]. unfold r. clear r. rewrite Eb. cbn [bind].
  unfold as_quat. rewrite Sb, Hs. rewrite app_comm_cons, last_snoc. cbn [Nat.eqb bind]. rewrite removelast_snoc.
  set (qa := Nd (S0 :: mid) (fun ix => quat_at b' ix)). set (q := expand_r (tr_r tr) (ndim b)) in *.
  assert (Dqa : forall ix, dat qa ix = quat_at b ix) by (intros ix; unfold qa; cbn [dat]; unfold quat_at; rewrite !Db; reflexivity).
  assert (Am : axes_match (shp q) (shp qa) = fits T S0) by (rewrite Sq; unfold qa; cbn [shp axes_match]; rewrite match_ones, andb_true_r; reflexivity).
  assert (Ll : length (shp q) = length (shp qa)) by (rewrite Sq; unfold qa; cbn [shp length]; rewrite length_ones; reflexivity).
  split; intros Hf.
  - rewrite Hf in Am. destruct (op2_ok qmulq q qa Ll Am) as (c & Ec & Sc & Dc). rewrite Ec. cbn [bind].
    rewrite Sq in Sc. unfold qa in Sc. cbn [shp bs] in Sc. rewrite bs_ones in Sc. fold (joint T S0) in Sc.
    destruct (swap_last (as_float c)) as (o & Eo & So & Do). { unfold ndim, as_float. cbn [shp]. rewrite app_length. simpl. lia. }
    exists o. split; [exact Eo|]. split; [rewrite So; unfold as_float; cbn [shp]; rewrite Sc; reflexivity|].
    intros k pre Hk Hp. pose proof (valid_length _ _ Hp) as Lp. unfold quat_at at 1. rewrite !Do. unfold as_float. cbn [dat]. rewrite !last_snoc, !removelast_snoc. cbn [comp4].
    rewrite Dc by (rewrite Sq; cbn [length]; rewrite length_ones; lia). rewrite Dqa, Dq, Sq, qmulq_hmul. unfold qa. cbn [shp zb hd]. rewrite (zb_valid mid pre Hp). fold (pick T k) (pick S0 k).
    destruct (hmul _ _); reflexivity.
  - rewrite Hf in Am. unfold op2. rewrite bshape_false by auto. reflexivity.
Qed.
End Rows.

(* ------------------------------------------------------------------ tiling *)
Lemma tile_deep (a : nd R) pre N nn n : shp a = pre ++ [N; nn] ->
  shp (tile_nd a n) = pre ++ [n * N; nn] /\
  forall p j c, length p = length pre -> dat (tile_nd a n) (p ++ [j; c]) = dat a (p ++ [Nat.modulo j N; c]).
Proof.
  intros Hs. unfold tile_nd. rewrite Hs.
  assert (K : length (pre ++ [N; nn]) - 2 = length pre) by (rewrite app_length; cbn; lia).
  assert (F : forall (p : list nat) x y, length p = length pre -> firstn (length pre) (p ++ [x; y]) = p /\ nth (length pre) (p ++ [x; y]) 0 = x /\ skipn (S (length pre)) (p ++ [x; y]) = [y]).
  { intros p x y Lp. rewrite <- Lp. split; [rewrite firstn_app, firstn_all, Nat.sub_diag; cbn; apply app_nil_r|].
    split; [rewrite app_nth2, Nat.sub_diag by lia; reflexivity|]. rewrite skipn_app, skipn_all2 by lia. replace (S (length p) - length p) with 1 by lia. reflexivity. }
  destruct (F pre N nn eq_refl) as (F1 & F2 & F3).
  destruct (pre ++ [N; nn]) as [|x [|y t]] eqn:E.
  - destruct pre; discriminate.
  - destruct pre as [|? [|? ?]]; discriminate.
  - rewrite K. cbn [shp dat]. rewrite F1, F2, F3. split; [reflexivity|]. intros p j c Lp. destruct (F p j c Lp) as (G1 & G2 & G3). rewrite G1, G2, G3. reflexivity.
Qed.

Section Batch.
Variable squad : list R -> list quat -> R -> res quat.
Variables (s : state) (i : nat) (arr : nd R) (to : pref) (l : list R) (rows : list (vec3 * quat)).
Hypothesis Hl : lookup_transform squad s i to = Ok (TrRows l rows).
 
Hypothesis Hu : forall k, k < length l -> hunit (rowq rows k).

Lemma prepare_batch sh N nn : shp arr = sh ++ [N; nn] -> prepare squad s i arr to (-1) nn (Some 0%Z) None = Ok (TrRows l rows, tile_nd arr (length l)).
Proof.
  intros Hs. rewrite (prepare_none squad s i arr to (-1) nn _ (TrRows l rows) (ndim arr - 1)); auto.
  - apply norm_axis_last. unfold ndim. rewrite Hs, app_length. cbn. lia.
  - unfold ndim. rewrite Hs, app_length. cbn [length]. replace (length sh + 2 - 1) with (S (length sh)) by lia. rewrite app_nth2 by lia. replace (S (length sh) - length sh) with 1 by lia. reflexivity.
Qed.
Lemma undo_eq a : 0 < ndim a -> exists o, undo_swap a (Some 0%Z) = Ok o /\ shp o = shp a /\ forall ix, dat o ix = dat a ix.
Proof. apply undo0. Qed.

Lemma vectors_batch sh N S0 mid : shp arr = sh ++ [N; 3] -> shp (tile_nd arr (length l)) = S0 :: mid ++ [3] ->
  let b := tile_nd arr (length l) in
  (fits (length l) S0 = true -> exists out, transform_vectors squad s i arr to (-1) (Some 0%Z) None = Ok (out, Some l) /\
     shp out = joint (length l) S0 :: mid ++ [3] /\
     forall k pre, k < joint (length l) S0 -> valid mid pre ->
       vec_at out (k :: pre) = srot (rowq rows (pick (length l) k)) (vec_at b (pick S0 k :: pre))) /\
  (fits (length l) S0 = false -> transform_vectors squad s i arr to (-1) (Some 0%Z) None = Raise ValueError).
Proof.
  intros Hs Hb b. unfold transform_vectors. rewrite (prepare_batch sh N 3 Hs). cbn [bind]. fold b. split; intros Hf.
  - destruct (rot_rows l rows Hu mid S0 b Hb Hf) as (c & E & Sc & Dc). rewrite E. cbn [bind].
    destruct (undo_eq c) as (o & Eo & So & Do); [unfold ndim; rewrite Sc; cbn; lia|]. rewrite Eo. cbn [bind tr_ts].
    exists o. split; [reflexivity|]. split; [congruence|]. intros k pre Hk Hp. rewrite <- Dc by auto. unfold vec_at. rewrite !Do. reflexivity.
  - rewrite (rot_rows_refused l rows mid S0 b Hb Hf). reflexivity.
Qed.
Lemma points_batch sh N S0 mid : shp arr = sh ++ [N; 3] -> shp (tile_nd arr (length l)) = S0 :: mid ++ [3] ->
  let b := tile_nd arr (length l) in
  (fits (length l) S0 = true -> exists out, transform_points squad s i arr to (-1) (Some 0%Z) None = Ok (out, Some l) /\
     shp out = joint (length l) S0 :: mid ++ [3] /\
     forall k pre, k < joint (length l) S0 -> valid mid pre ->
       vec_at out (k :: pre) = smove (rowv rows (pick (length l) k)) (rowq rows (pick (length l) k)) (vec_at b (pick S0 k :: pre))) /\
  (fits (length l) S0 = false -> transform_points squad s i arr to (-1) (Some 0%Z) None = Raise ValueError).
Proof.
  intros Hs Hb b. unfold transform_points. rewrite (prepare_batch sh N 3 Hs). cbn [bind]. fold b. split; intros Hf.
  - destruct (rot_rows l rows Hu mid S0 b Hb Hf) as (c & E & Sc & Dc). rewrite E. cbn [bind].
    assert (Nb : ndim b = ndim c) by (unfold ndim; fold b in Hb; rewrite Hb, Sc; reflexivity). rewrite Nb.
    destruct (add_rows l rows mid S0 c Sc Hf) as (e & Ee & Se & De). rewrite Ee. cbn [bind].
    destruct (undo_eq e) as (o & Eo & So & Do); [unfold ndim; rewrite Se, Sc; cbn; lia|]. rewrite Eo. cbn [bind tr_ts].
    exists o. split; [reflexivity|]. split; [congruence|]. intros k pre Hk Hp. unfold smove. rewrite <- Dc by auto. rewrite <- De by auto. unfold vec_at. rewrite !Do. reflexivity.
  - rewrite (rot_rows_refused l rows mid S0 b Hb Hf). reflexivity.
Qed.
Lemma quats_batch sh N S0 mid : shp arr = sh ++ [N; 4] -> shp (tile_nd arr (length l)) = S0 :: mid ++ [4] ->
  let b := tile_nd arr (length l) in
  (fits (length l) S0 = true -> exists out, transform_quaternions squad s i arr to (-1) (Some 0%Z) None = Ok (out, Some l) /\
     shp out = joint (length l) S0 :: mid ++ [4] /\
     forall k pre, k < joint (length l) S0 -> valid mid pre ->
       quat_at out (k :: pre) = hmul (rowq rows (pick (length l) k)) (quat_at b (pick S0 k :: pre))) /\
  (fits (length l) S0 = false -> transform_quaternions squad s i arr to (-1) (Some 0%Z) None = Raise ValueError).
Proof.
  intros Hs Hb b. unfold transform_quaternions. rewrite (prepare_batch sh N 4 Hs). cbn [bind]. fold b.
  destruct (quat_rows l rows mid S0 b Hb) as (Q1 & Q2). cbv zeta in Q1, Q2. split; intros Hf.
  - destruct (Q1 Hf) as (e & Ee & Se & De). clear Q1 Q2. apply bind_ok in Ee as (b' & Eb' & Ee). rewrite Eb'. cbn [bind].
    apply bind_ok in Ee as (qa & Eqa & Ee). rewrite Eqa. cbn [bind]. apply bind_ok in Ee as (c & Ec & Ee). rewrite Ec. cbn [bind]. rewrite Ee. cbn [bind].
    destruct (undo_eq e) as (o & Eo & So & Do); [unfold ndim; rewrite Se; cbn; lia|]. rewrite Eo. cbn [bind tr_ts].
    exists o. split; [reflexivity|]. split; [congruence|]. intros k pre Hk Hp. rewrite <- De by auto. unfold quat_at. rewrite !Do. reflexivity.
  - specialize (Q2 Hf). clear Q1. destruct (swapaxes b (-1) (-1)) as [b'|x]; cbn [bind] in *; [|injection Q2 as ->; reflexivity].
    destruct (as_quat b') as [qa|x]; cbn [bind] in *; [|injection Q2 as ->; reflexivity].
    destruct (op2 _ _ _) as [c|x]; cbn [bind] in *; [|injection Q2 as ->; reflexivity]. rewrite Q2. reflexivity.
Qed.
End Batch.

(* ------------------------------------------------------------------ specification *)
(** The three results op, ov, oq, of shape sho (plus coordinates): entry (k, pre) is the
    image, at the k-th returned time, of item [src k pre] of the input. *)
Definition images_at squad s i j (l : list R) (arr qarr op ov oq : nd R) (sho : list nat) (src : nat -> list nat -> list nat) : Prop :=
  shp op = sho ++ [3] /\ shp ov = sho ++ [3] /\ shp oq = sho ++ [4] /\
  forall k x pre, nth_error l k = Some x -> valid sho (k :: pre) ->
    exists t r, maps_at squad s x i j t r /\
      vec_at op (k :: pre) = smove t r (vec_at arr (src k pre)) /\
      vec_at ov (k :: pre) = srot r (vec_at arr (src k pre)) /\
      quat_at oq (k :: pre) = hmul r (quat_at qarr (src k pre)).
Definition transforms_to squad s i to (arr qarr op ov oq : nd R) (l : list R) : Prop :=
  transform_points squad s i arr to (-1) (Some 0%Z) None = Ok (op, Some l) /\
  transform_vectors squad s i arr to (-1) (Some 0%Z) None = Ok (ov, Some l) /\
  transform_quaternions squad s i qarr to (-1) (Some 0%Z) None = Ok (oq, Some l).
Definition all_refused squad s i to (arr qarr : nd R) : Prop :=
  transform_points squad s i arr to (-1) (Some 0%Z) None = Raise ValueError /\
  transform_vectors squad s i arr to (-1) (Some 0%Z) None = Raise ValueError /\
  transform_quaternions squad s i qarr to (-1) (Some 0%Z) None = Raise ValueError.

(* ------------------------------------------------------------------ theorems *)
Lemma rows_facts squad s i to j l rows : reachable s -> squad_unit squad -> frame s i -> denotes s to j -> unit_way s i j ->
  lookup_transform squad s i to = Ok (TrRows l rows) ->
  (forall k x, nth_error l k = Some x -> maps_at squad s x i j (rowv rows k) (rowq rows k)) /\ forall k, k < length l -> hunit (rowq rows k).
Proof.
  intros HR Hsq Hi Hj Hw H. destruct (C17_moving_lookup squad s i to j l rows HR Hsq Hi Hj Hw H) as (L & HM).
  assert (HM' : forall k x, nth_error l k = Some x -> maps_at squad s x i j (rowv rows k) (rowq rows k)).
  { intros k x Hk. destruct (nth_len rows k) as ((t & r) & E); [rewrite L; apply (nth_lt _ _ _ Hk)|].
    unfold rowv, rowq. rewrite (nth_error_nth _ _ _ E). simpl. apply (HM k x t r Hk E). }
  split; auto. intros k Hk. destruct (nth_len l k Hk) as (x & Hx). apply (HM' k x Hx).
Qed.
Lemma pick_lt n k : k < n -> pick n k = k.
Proof. unfold pick. destruct (Nat.eqb_spec n 1); lia. Qed.
Lemma vec_app (a b : nd R) (p p' : list nat) : (forall c, dat a (p ++ [c]) = dat b (p' ++ [c])) -> vec_at a p = vec_at b p'.
Proof. intros H. unfold vec_at. rewrite !H. reflexivity. Qed.
Lemma quat_app (a b : nd R) (p p' : list nat) : (forall c, dat a (p ++ [c]) = dat b (p' ++ [c])) -> quat_at a p = quat_at b p'.
Proof. intros H. unfold quat_at. rewrite !H. reflexivity. Qed.
Lemma tile_at (a : nd R) pre N nn n p j : shp a = pre ++ [N; nn] -> length p = length pre -> 
  forall c, dat (tile_nd a n) ((p ++ [j]) ++ [c]) = dat a ((p ++ [Nat.modulo j N]) ++ [c]).
Proof. intros Hs Lp c. rewrite <- !app_assoc. cbn [app]. apply (proj2 (tile_deep a pre N nn n Hs)); auto. Qed.

(** An array of one item, shape (1, 3): its image at every time. *)
Theorem C84_row_partial : forall squad s i to j l rows arr qarr, reachable s -> squad_unit squad ->
  frame s i -> denotes s to j -> unit_way s i j -> lookup_transform squad s i to = Ok (TrRows l rows) ->
  shp arr = [1; 3] -> shp qarr = [1; 4] ->
  exists op ov oq, transforms_to squad s i to arr qarr op ov oq l /\
    images_at squad s i j l arr qarr op ov oq [length l] (fun _ _ => [0]).
Proof.
  intros squad s i to j l rows arr qarr HR Hsq Hi Hj Hw H Sa Sq. destruct (rows_facts squad s i to j l rows HR Hsq Hi Hj Hw H) as (HM & Hu).
  assert (Ta : shp (tile_nd arr (length l)) = length l :: [] ++ [3]) by (rewrite (proj1 (tile_deep arr [] 1 3 (length l) Sa)); cbn; f_equal; lia).
  assert (Tq : shp (tile_nd qarr (length l)) = length l :: [] ++ [4]) by (rewrite (proj1 (tile_deep qarr [] 1 4 (length l) Sq)); cbn; f_equal; lia).
  assert (Ff : fits (length l) (length l) = true) by (apply fits_true; auto).
  assert (Jj : joint (length l) (length l) = length l) by (unfold joint; destruct (Nat.eqb _ _); auto).
  destruct (proj1 (points_batch squad s i arr to l rows H Hu [] 1 (length l) [] Sa Ta) Ff) as (op & E1 & S1 & D1).
  destruct (proj1 (vectors_batch squad s i arr to l rows H Hu [] 1 (length l) [] Sa Ta) Ff) as (ov & E2 & S2 & D2).
  destruct (proj1 (quats_batch squad s i qarr to l rows H [] 1 (length l) [] Sq Tq) Ff) as (oq & E3 & S3 & D3).
  rewrite Jj in *. exists op, ov, oq. split; [split; [|split]; auto|]. split; auto. split; auto. split; auto.
  intros k x pre Hk Hv. pose proof (nth_lt _ _ _ Hk) as Lk. inversion Hv as [|? ? ? ? _ Hv']; subst. inversion Hv'; subst. exists (rowv rows k), (rowq rows k). split; [apply HM, Hk|].
  rewrite D1, D2, D3 by (auto; constructor). rewrite !pick_lt by auto.
  assert (Va : vec_at (tile_nd arr (length l)) [k] = vec_at arr [0]) by (apply vec_app; apply (tile_at arr [] 1 3 (length l) [] k Sa eq_refl)).
  assert (Vq : quat_at (tile_nd qarr (length l)) [k] = quat_at qarr [0]) by (apply quat_app; apply (tile_at qarr [] 1 4 (length l) [] k Sq eq_refl)).
  rewrite Va, Vq. auto.
Qed.

(** One returned time: the image of every item of a batch of any shape at that time. *)
Lemma shape_split (sh : list nat) : sh <> [] -> exists S0 mid pre N, sh = S0 :: mid /\ sh = pre ++ [N].
Proof. destruct sh as [|a sh]; [congruence|]. intros _. exists a, sh. destruct (exists_last (l := a :: sh)) as (p & x & E); [discriminate|]. exists p, x. auto. Qed.
Lemma valid_snoc p N : forall pp j, length pp = length p -> valid (p ++ [N]) (pp ++ [j]) -> j < N.
Proof.
  induction p as [|a p IH]; intros [|b pp] j Lp Hv; cbn in *; try discriminate; inversion Hv; subst; auto. apply (IH pp); auto.
Qed.
Theorem C84_once_partial : forall squad s i to j x row arr qarr sh, reachable s -> squad_unit squad ->
  frame s i -> denotes s to j -> unit_way s i j -> lookup_transform squad s i to = Ok (TrRows [x] [row]) ->
  sh <> [] -> shp arr = sh ++ [3] -> shp qarr = sh ++ [4] ->
  exists op ov oq t r, transforms_to squad s i to arr qarr op ov oq [x] /\ maps_at squad s x i j t r /\
    shp op = shp arr /\ shp ov = shp arr /\ shp oq = shp qarr /\
    forall pre, valid sh pre -> vec_at op pre = smove t r (vec_at arr pre) /\ vec_at ov pre = srot r (vec_at arr pre) /\ quat_at oq pre = hmul r (quat_at qarr pre).
Proof.
  intros squad s i to j x row arr qarr sh HR Hsq Hi Hj Hw H Hne Sa Sq. destruct (rows_facts squad s i to j [x] [row] HR Hsq Hi Hj Hw H) as (HM & Hu).
  destruct (shape_split sh Hne) as (S0 & mid & p & N & E1 & E2).
  assert (Sa' : shp arr = p ++ [N; 3]) by (rewrite Sa, E2, <- app_assoc; reflexivity). assert (Sq' : shp qarr = p ++ [N; 4]) by (rewrite Sq, E2, <- app_assoc; reflexivity).
  assert (Ta : shp (tile_nd arr 1) = S0 :: mid ++ [3]).
  { rewrite (proj1 (tile_deep arr p N 3 1 Sa')). rewrite Nat.mul_1_l, <- Sa', Sa, E1. reflexivity. }
  assert (Tq : shp (tile_nd qarr 1) = S0 :: mid ++ [4]).
  { rewrite (proj1 (tile_deep qarr p N 4 1 Sq')). rewrite Nat.mul_1_l, <- Sq', Sq, E1. reflexivity. }
  assert (Ff : fits 1 S0 = true) by (apply fits_true; auto).
  destruct (proj1 (points_batch squad s i arr to [x] [row] H Hu p N S0 mid Sa' Ta) Ff) as (op & O1 & S1 & D1).
  destruct (proj1 (vectors_batch squad s i arr to [x] [row] H Hu p N S0 mid Sa' Ta) Ff) as (ov & O2 & S2 & D2).
  destruct (proj1 (quats_batch squad s i qarr to [x] [row] H p N S0 mid Sq' Tq) Ff) as (oq & O3 & S3 & D3).
  change (joint (length [x]) S0) with S0 in *. exists op, ov, oq, (rowv [row] 0), (rowq [row] 0). split; [split; [|split]; auto|]. split; [apply HM; reflexivity|].
  split; [rewrite S1, Sa, E1; reflexivity|]. split; [rewrite S2, Sa, E1; reflexivity|]. split; [rewrite S3, Sq, E1; reflexivity|].
  intros pre Hv. pose proof Hv as Hv0. rewrite E1 in Hv. inversion Hv as [|k n pre' sh' Hk Hp E3 E4]; subst n sh' pre. change (length [x]) with 1 in *.
  rewrite D1, D2, D3 by auto. change (pick 1 k) with 0. rewrite pick_lt by auto.
  assert (Lp : length (k :: pre') = S (length p)) by (apply valid_length in Hv0; rewrite Hv0, E2, app_length; cbn; lia).
  destruct (exists_last (l := k :: pre')) as (pp & jj & Ep); [discriminate|]. rewrite Ep in *.
  assert (Lpp : length pp = length p) by (rewrite app_length in Lp; cbn in Lp; lia).
  assert (Hj' : jj < N). { rewrite E2 in Hv0. apply (valid_snoc p N pp jj Lpp Hv0). }
  assert (Va : vec_at (tile_nd arr 1) (pp ++ [jj]) = vec_at arr (pp ++ [jj])).
  { apply vec_app. intros c. rewrite (tile_at arr p N 3 1 pp jj Sa' Lpp). rewrite Nat.mod_small by auto. reflexivity. }
  assert (Vq : quat_at (tile_nd qarr 1) (pp ++ [jj]) = quat_at qarr (pp ++ [jj])).
  { apply quat_app. intros c. rewrite (tile_at qarr p N 4 1 pp jj Sq' Lpp). rewrite Nat.mod_small by auto. reflexivity. }
  rewrite Va, Vq. auto.
Qed.

(** Two or more times: a batch (N, 3) of other than one item is refused, and so is a
    deeper one whose first axis is neither 1 nor the number of times. *)
Theorem C84_refused : forall squad s i to j l rows arr qarr sh, reachable s -> squad_unit squad ->
  frame s i -> denotes s to j -> unit_way s i j -> lookup_transform squad s i to = Ok (TrRows l rows) -> 2 <= length l ->
  shp arr = sh ++ [3] -> shp qarr = sh ++ [4] ->
  (exists N, sh = [N] /\ N <> 1) \/ (exists A B mid, sh = A :: B :: mid /\ A <> 1 /\ A <> length l) ->
  all_refused squad s i to arr qarr.
Proof.
  intros squad s i to j l rows arr qarr sh HR Hsq Hi Hj Hw H H2 Sa Sq Hsh. destruct (rows_facts squad s i to j l rows HR Hsq Hi Hj Hw H) as (HM & Hu).
  assert (G : exists p N S0 mid, sh = p ++ [N] /\ p ++ [length l * N] = S0 :: mid /\ fits (length l) S0 = false).
  { destruct Hsh as [(N & -> & HN)|(A & B & mid & -> & H1 & HA)].
    - exists [], N, (length l * N), []. split; auto. split; auto. destruct (fits _ _) eqn:E; auto. apply fits_true in E. exfalso. destruct N as [|[|N]]; nia.
    - destruct (exists_last (l := B :: mid)) as (p & N & E); [discriminate|]. exists (A :: p), N, A, (p ++ [length l * N]). rewrite E. split; auto. split; auto.
      destruct (fits _ _) eqn:F; auto. apply fits_true in F. exfalso. lia. }
  destruct G as (p & N & S0 & mid & E1 & E2 & Hf).
  assert (Sa' : shp arr = p ++ [N; 3]) by (rewrite Sa, E1, <- app_assoc; reflexivity). assert (Sq' : shp qarr = p ++ [N; 4]) by (rewrite Sq, E1, <- app_assoc; reflexivity).
  assert (Ta : shp (tile_nd arr (length l)) = S0 :: mid ++ [3]).
  { rewrite (proj1 (tile_deep arr p N 3 (length l) Sa')). change (S0 :: mid ++ [3]) with ((S0 :: mid) ++ [3]). rewrite <- E2, <- app_assoc. reflexivity. }
  assert (Tq : shp (tile_nd qarr (length l)) = S0 :: mid ++ [4]).
  { rewrite (proj1 (tile_deep qarr p N 4 (length l) Sq')). change (S0 :: mid ++ [4]) with ((S0 :: mid) ++ [4]). rewrite <- E2, <- app_assoc. reflexivity. }
  split; [|split].
  - apply (proj2 (points_batch squad s i arr to l rows H Hu p N S0 mid Sa' Ta) Hf).
  - apply (proj2 (vectors_batch squad s i arr to l rows H Hu p N S0 mid Sa' Ta) Hf).
  - apply (proj2 (quats_batch squad s i qarr to l rows H p N S0 mid Sq' Tq) Hf).
Qed.

(** Deeper batches whose first axis is 1 or the number of times T are accepted: the axis
    before the coordinates, of length N, is repeated T times. *)
Theorem C84_tiled : forall squad s i to j l rows arr qarr A mid N, reachable s -> squad_unit squad ->
  frame s i -> denotes s to j -> unit_way s i j -> lookup_transform squad s i to = Ok (TrRows l rows) -> 2 <= length l ->
  shp arr = A :: mid ++ [N; 3] -> shp qarr = A :: mid ++ [N; 4] -> A = 1 \/ A = length l ->
  exists op ov oq, transforms_to squad s i to arr qarr op ov oq l /\
    images_at squad s i j l arr qarr op ov oq (length l :: mid ++ [length l * N])
      (fun k pre => (if Nat.eqb A 1 then 0 else k) :: removelast pre ++ [Nat.modulo (last pre 0) N]).
Proof.
  intros squad s i to j l rows arr qarr A mid N HR Hsq Hi Hj Hw H H2 Sa Sq HA. destruct (rows_facts squad s i to j l rows HR Hsq Hi Hj Hw H) as (HM & Hu).
  assert (Ta : shp (tile_nd arr (length l)) = A :: (mid ++ [length l * N]) ++ [3]).
  { rewrite (proj1 (tile_deep arr (A :: mid) N 3 (length l) Sa)). rewrite <- app_assoc. reflexivity. }
  assert (Tq : shp (tile_nd qarr (length l)) = A :: (mid ++ [length l * N]) ++ [4]).
  { rewrite (proj1 (tile_deep qarr (A :: mid) N 4 (length l) Sq)). rewrite <- app_assoc. reflexivity. }
  assert (Ff : fits (length l) A = true) by (apply fits_true; intuition congruence).
  assert (Jj : joint (length l) A = length l) by (unfold joint; destruct (Nat.eqb_spec (length l) 1); lia).
  destruct (proj1 (points_batch squad s i arr to l rows H Hu (A :: mid) N A _ Sa Ta) Ff) as (op & O1 & S1 & D1).
  destruct (proj1 (vectors_batch squad s i arr to l rows H Hu (A :: mid) N A _ Sa Ta) Ff) as (ov & O2 & S2 & D2).
  destruct (proj1 (quats_batch squad s i qarr to l rows H (A :: mid) N A _ Sq Tq) Ff) as (oq & O3 & S3 & D3).
  rewrite Jj in *. exists op, ov, oq. split; [split; [|split]; auto|]. split; auto. split; auto. split; auto.
  intros k x pre Hk Hv. pose proof (nth_lt _ _ _ Hk) as Lk. inversion Hv as [|? ? ? ? _ Hv']; subst. exists (rowv rows k), (rowq rows k). split; [apply HM, Hk|].
  rewrite D1, D2, D3 by auto. rewrite (pick_lt (length l) k) by auto. fold (pick A k).
  pose proof (valid_length _ _ Hv') as Lp. rewrite app_length in Lp. cbn in Lp.
  destruct (exists_last (l := pre)) as (pp & jj & ->); [intros ->; cbn in Lp; lia|]. rewrite removelast_snoc, last_snoc.
  rewrite app_length in Lp. cbn in Lp.
  assert (Va : vec_at (tile_nd arr (length l)) (pick A k :: pp ++ [jj]) = vec_at arr (pick A k :: pp ++ [Nat.modulo jj N])).
  { apply vec_app. intros c. apply (tile_at arr (A :: mid) N 3 (length l) (pick A k :: pp) jj Sa). cbn. lia. }
  assert (Vq : quat_at (tile_nd qarr (length l)) (pick A k :: pp ++ [jj]) = quat_at qarr (pick A k :: pp ++ [Nat.modulo jj N])).
  { apply quat_app. intros c. apply (tile_at qarr (A :: mid) N 4 (length l) (pick A k :: pp) jj Sq). cbn. lia. }
  rewrite Va, Vq. auto.
Qed.

(* ------------------------------------------------------------------ violation *)
(** Frame s of the circling recording (five times): two points in one array are refused,
    and two points for each of the five times come back as ten for each. *)
Definition two_points : nd R := Nd [2; 3] (fun ix => INR (nth 0 ix 0)).
Definition two_orients : nd R := Nd [2; 4] (fun ix => INR (nth 0 ix 0)).
Definition two_each : nd R := Nd [5; 2; 3] (fun ix => INR (nth 1 ix 0)).
Definition two_orients_each : nd R := Nd [5; 2; 4] (fun ix => INR (nth 1 ix 0)).
Theorem C84_refuted :
  reachable arc /\ lookup_transform np_squad arc 1 (PFrame 0) = Ok (TrRows eighths (combine (map (on_circle 0) eighths) (map (turn 0) eighths))) /\
  all_refused np_squad arc 1 (PFrame 0) two_points two_orients /\
  exists op ov oq, transforms_to np_squad arc 1 (PFrame 0) two_each two_orients_each op ov oq eighths /\ shp op = [5; 10; 3].
Proof.
  assert (U : squad_unit np_squad) by apply C79_contract.
  assert (D0 : denotes arc (PFrame 0) 0) by (left; split; [reflexivity|cbv; lia]). assert (F1 : frame arc 1) by (cbv; lia).
  assert (W : unit_way arc 1 0) by (apply good_unit, arc_good; lia).
  assert (HR : reachable arc) by apply arc_reachable.
  split; [exact HR|]. split; [exact arc_lookup|]. split.
  - apply (C84_refused np_squad arc 1 (PFrame 0) 0 eighths _ two_points two_orients [2] HR U F1 D0 W arc_lookup); auto; [cbn; lia|].
    left. exists 2. split; auto.
  - destruct (C84_tiled np_squad arc 1 (PFrame 0) 0 eighths _ two_each two_orients_each 5 [] 2 HR U F1 D0 W arc_lookup) as (op & ov & oq & HT & HI); auto; [cbn; lia|].
    exists op, ov, oq. split; auto. apply HI.
Qed.
