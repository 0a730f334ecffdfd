(** Timestamped arrays with the coordinates on any axis but the first. *)
From Coq Require Import Reals List Arith Bool ZArith Lia Lra.
From Verif Require Import Base Quat SpecQuat QuatProofs NdArray Frames SpecForest FrameProofs WalkProofs
  Matcher SpecLookup LookupProofs RegistryProofs MovingProofs TimeProofs CtorProofs InverseProofs RouteProofs
  Transform SpecArray NdProofs RotProofs ArrProofs ArrTransProofs ArrStaticProofs.
Import ListNotations.
Open Scope nat_scope.

Lemma transp_S a b m : transp (S a) (S b) (S m) = S (transp a b m).
Proof. unfold transp. cbn [Nat.eqb]. destruct (Nat.eqb m a), (Nat.eqb m b); reflexivity. Qed.
Lemma swapl_cons a b x l : swapl (S a) (S b) (x :: l) = x :: swapl a b l.
Proof.
  apply list_nth_ext; [cbn [length]; rewrite !length_swapl; reflexivity|].
  intros m Hm. rewrite length_swapl in Hm. rewrite nth_swapl by auto.
  destruct m as [|m].
  - unfold transp. cbn. reflexivity.
  - rewrite transp_S. cbn [nth]. rewrite nth_swapl by (cbn in Hm; lia). reflexivity.
Qed.

(** The position in the whole array of axis tau of the array without axis k. *)
Definition beside (k tau : nat) : nat := if Nat.ltb tau k then tau else S tau.

Lemma nth_insert_lt k x l m : k <= length l -> m < k -> nth m (insert_at k x l) 0 = nth m l 0.
Proof. revert l m; induction k as [|k IH]; intros [|y l] [|m] Hk Hm; simpl in *; auto; try lia. apply IH; lia. Qed.
Lemma nth_insert_gt k x l m : k <= length l -> k <= m -> nth (S m) (insert_at k x l) 0 = nth m l 0.
Proof. revert l m; induction k as [|k IH]; intros [|y l] [|m] Hk Hm; simpl in *; auto; try lia. apply (IH l m); lia. Qed.

(** Exchanging two axes other than k. *)
Lemma swap_beside k tau c l : 0 < k -> k <= length l -> tau < length l ->
  swapl 0 (beside k tau) (insert_at k c l) = insert_at k c (swapl 0 tau l).
Proof.
  intros H0 Hk Ht.
  assert (Hb : beside k tau < S (length l)) by (unfold beside; destruct (Nat.ltb_spec tau k); lia).
  apply list_nth_ext.
  { rewrite length_swapl, !length_insert by (rewrite ?length_swapl; lia). rewrite length_swapl. reflexivity. }
  intros m Hm. rewrite length_swapl, length_insert in Hm by auto.
  rewrite nth_swapl by (rewrite length_insert; auto).
  assert (Hk' : k <= length (swapl 0 tau l)) by (rewrite length_swapl; auto).
  destruct (Nat.lt_trichotomy m k) as [C | [C | C]].
  - rewrite (nth_insert_lt k c (swapl 0 tau l) m), nth_swapl by (auto; lia). unfold transp, beside.
    destruct (Nat.ltb_spec tau k) as [T | T].
    + destruct (Nat.eqb_spec m 0); [apply nth_insert_lt; auto|].
      destruct (Nat.eqb_spec m tau); apply nth_insert_lt; auto.
    + destruct (Nat.eqb_spec m 0) as [-> | N]; [apply nth_insert_gt; auto|].
      destruct (Nat.eqb_spec m (S tau)); [lia|]. destruct (Nat.eqb_spec m tau); [lia|]. apply nth_insert_lt; auto.
  - rewrite C, (nth_insert k c (swapl 0 tau l)) by auto. unfold transp, beside.
    destruct (Nat.eqb_spec k 0); [lia|]. destruct (Nat.ltb_spec tau k) as [T | T].
    + destruct (Nat.eqb_spec k tau); [lia|]. apply nth_insert; auto.
    + destruct (Nat.eqb_spec k (S tau)); [lia|]. apply nth_insert; auto.
  - destruct m as [|m]; [lia|]. rewrite (nth_insert_gt k c (swapl 0 tau l) m), nth_swapl by (auto; lia). unfold transp, beside.
    destruct (Nat.eqb_spec (S m) 0); [lia|]. destruct (Nat.eqb_spec m 0); [lia|].
    destruct (Nat.ltb_spec tau k) as [T | T].
    + destruct (Nat.eqb_spec (S m) tau); [lia|]. destruct (Nat.eqb_spec m tau); [lia|]. apply nth_insert_gt; auto; lia.
    + destruct (Nat.eqb_spec m tau) as [-> | N].
      * rewrite Nat.eqb_refl. apply nth_insert_lt; auto.
      * destruct (Nat.eqb_spec (S m) (S tau)); [lia|]. apply nth_insert_gt; auto; lia.
Qed.

Lemma insert_S k c x l : insert_at (S k) c (x :: l) = x :: insert_at k c l.
Proof. reflexivity. Qed.

(** Time first. *)
Lemma swap_first k tau c m pre : k <= length pre -> tau <= length pre ->
  swapl 0 (beside (S k) tau) (insert_at (S k) c (insert_at tau m pre)) = m :: insert_at k c (mv tau pre).
Proof.
  intros Hk Ht. rewrite swap_beside by (rewrite ?length_insert; lia). rewrite swapl_insert0 by auto. apply insert_S.
Qed.
Lemma swap_back k tau c m pre : k <= length pre -> tau <= length pre ->
  swapl 0 (beside (S k) tau) (m :: insert_at k c (mv tau pre)) = insert_at (S k) c (insert_at tau m pre).
Proof.
  intros Hk Ht. rewrite <- insert_S. pose proof (length_mv tau pre Ht) as L.
  rewrite swap_beside by (cbn [length]; lia). rewrite swapl_mv by auto. reflexivity.
Qed.

(** Left-multiplying the rotations onto an array of quaternions. *)
Lemma mul_tr tr l rows (qa : nd quat) mid N : tr_is tr l rows -> length rows = length l ->
  shp qa = length l :: mid -> N = S (S (length mid)) ->
  exists c, op2 qmulq (expand_r (tr_r tr) N) qa = Ok c /\ shp c = length l :: mid /\
    forall i pre, i < length l -> valid mid pre -> dat c (i :: pre) = hmul (rowq rows i) (dat qa (i :: pre)).
Proof.
  intros Htr L Hs ->. destruct Htr as [-> | (-> & Er)]; unfold expand_r; cbn [tr_r shp].
  - cbn [Nat.sub]. rewrite Nat.sub_0_r, app_nil_r. cbn [dat].
    set (q := Nd (length l :: repeat 1 (length mid)) _).
    destruct (op2_ok qmulq q qa) as (c & Ec & Sc & Dc).
    + unfold q. rewrite Hs. cbn [shp length]. rewrite length_ones. reflexivity.
    + unfold q. rewrite Hs. cbn [shp axes_match]. rewrite Nat.eqb_refl, match_ones. reflexivity.
    + exists c. split; [exact Ec|]. rewrite Hs in Sc. unfold q in Sc. cbn [shp bs] in Sc. rewrite bs_ones in Sc. split.
      * rewrite Sc. destruct (Nat.eqb (length l) 1); reflexivity.
      * intros i pre Hi Hp. pose proof (valid_length _ _ Hp) as Lp.
        rewrite Dc by (unfold q; cbn [shp length]; rewrite length_ones; lia).
        rewrite qmulq_hmul, Hs, (zb_valid (length l :: mid)) by (constructor; auto). f_equal.
        unfold q. cbn [shp zb dat hd]. destruct (Nat.eqb_spec (length l) 1); auto. replace i with 0 by lia. reflexivity.
  - destruct (op2_scalar_l qmulq q1 qa) as (c & Ec & Sc & Dc). exists c. split; [exact Ec|]. split; [rewrite Sc; exact Hs|].
    intros i pre Hi Hp. pose proof (valid_length _ _ Hp) as Lp.
    rewrite Dc by (rewrite Hs; simpl; lia). rewrite Er, rowq_bare by auto.
    rewrite qmulq_hmul, Hs, (zb_valid (length l :: mid)) by (constructor; auto). reflexivity.
Qed.

Lemma valid_mvl k s ix : k <= length s -> valid s ix -> valid (mvl k s) (mvl k ix).
Proof.
  intros Hk Hv. pose proof (valid_length _ _ Hv) as L.
  apply (valid_app_inv _ [1] _ [0]); [rewrite !length_mvl; lia|].
  rewrite <- !swapl_insert_end by lia. rewrite L. apply valid_swapl; try (rewrite length_insert; lia).
  apply valid_insert; auto.
Qed.

(** The components on axis S k. *)
Lemma quat_axis_tr tr l rows (b : nd R) k mid axis : tr_is tr l rows -> length rows = length l ->
  shp b = length l :: insert_at k 4 mid -> k <= length mid -> norm_axis axis (ndim b) = Ok (S k) ->
  exists out, (b' <- swapaxes b axis (-1) ;; qa <- as_quat b' ;;
               c <- op2 qmulq (expand_r (tr_r tr) (ndim b)) qa ;; swapaxes (as_float c) (-1) axis) = Ok out /\
    shp out = length l :: insert_at k 4 mid /\
    forall i pre, i < length l -> valid mid pre ->
      quat_along out (S k) (i :: pre) = hmul (rowq rows i) (quat_along b (S k) (i :: pre)).
Proof.
  intros Htr L Hs Hk Hax.
  assert (Hnd : ndim b = S (S (length mid))).
  { unfold ndim. rewrite Hs. cbn [length]. rewrite length_insert by auto. reflexivity. }
  unfold swapaxes at 1. rewrite Hax, norm_axis_last by lia. cbn [bind].
  replace (ndim b - 1) with (S (length mid)) by lia.
  unfold as_quat. cbn [swap_nd shp dat]. rewrite Hs, swapl_cons, (swapl_comm k), swapl_insert_end by auto.
  rewrite app_comm_cons, last_snoc. cbn [Nat.eqb bind]. rewrite removelast_snoc.
  set (qa := Nd (length l :: mvl k mid) _).
  destruct (mul_tr tr l rows qa (mvl k mid) (ndim b) Htr L eq_refl) as (c & Ec & Sc & Dc).
  { rewrite length_mvl by auto. exact Hnd. }
  rewrite Ec. cbn [bind]. unfold swapaxes.
  assert (Nf : ndim (as_float c) = ndim b).
  { unfold ndim at 1. unfold as_float. cbn [shp]. rewrite Sc, app_length. cbn [length]. rewrite length_mvl by auto. lia. }
  rewrite Nf, Hax, norm_axis_last by lia. cbn [bind]. replace (ndim b - 1) with (S (length mid)) by lia.
  eexists. split; [reflexivity|]. cbn [swap_nd shp dat as_float]. split.
  - rewrite Sc, <- app_comm_cons, swapl_cons, swapl_comm, swapl_mvl by auto. reflexivity.
  - intros i pre Hi Hp. pose proof (valid_length _ _ Hp) as Lp.
    unfold quat_along at 1. cbn [dat swap_nd as_float]. rewrite !insert_S, !swapl_cons.
    rewrite <- Lp, !swapl_insert_end, !app_comm_cons, !last_snoc, !removelast_snoc by lia. cbn [comp4].
    rewrite (Dc i (mvl k pre) Hi) by (apply valid_mvl; auto).
    replace (dat qa (i :: mvl k pre)) with (quat_along b (S k) (i :: pre)).
    + destruct (hmul _ _); reflexivity.
    + unfold qa. cbn [dat]. unfold quat_at, quat_along. cbn [dat swap_nd]. rewrite !insert_S, <- !app_comm_cons, !swapl_cons.
      rewrite <- Lp, !swapl_mvl by lia. reflexivity.
Qed.

Section Squad.
Variable squad : list R -> list quat -> R -> res quat.
Section Final.
Variables (s : state) (i : nat) (arr : nd R) (to : pref) (nn : nat) (axis ta : Z) (tsa : nd R) (n k tau : nat) (sh : list nat).
Hypothesis Hsh : shp arr = insert_at (S k) nn (insert_at tau n sh).
Hypothesis Hk : k <= length sh.
Hypothesis Htau : tau <= length sh.
Hypothesis Hax : norm_axis axis (ndim arr) = Ok (S k).
Hypothesis Hta : norm_axis ta (ndim arr) = Ok (beside (S k) tau).
Hypothesis Hts : shp tsa = [n].
Hypothesis Hinc : increasing (times tsa n).
Hypothesis Hn : 2 <= n.

Lemma nd_arr' : ndim arr = S (S (length sh)).
Proof. unfold ndim. rewrite Hsh, !length_insert by (rewrite ?length_insert; lia). reflexivity. Qed.
Lemma nn_arr' : nth (S k) (shp arr) 0 = nn.
Proof. rewrite Hsh. apply nth_insert. rewrite length_insert; lia. Qed.
Lemma n_arr' : nth (beside (S k) tau) (shp arr) 0 = n.
Proof.
  rewrite Hsh. unfold beside. destruct (Nat.ltb_spec tau (S k)).
  - rewrite nth_insert_lt by (rewrite ?length_insert; lia). apply nth_insert; auto.
  - rewrite nth_insert_gt by (rewrite ?length_insert; lia). apply nth_insert; auto.
Qed.

Let a := swap_nd 0 (beside (S k) tau) arr.
Lemma sh_a' : shp a = n :: insert_at k nn (mv tau sh).
Proof. unfold a. cbn [swap_nd shp]. rewrite Hsh. apply swap_first; auto. Qed.
Lemma dat_a' m pre c : length pre = length sh -> dat a (m :: insert_at k c (mv tau pre)) = dat arr (insert_at (S k) c (insert_at tau m pre)).
Proof. intros L. unfold a. cbn [swap_nd dat]. rewrite swap_back by lia. reflexivity. Qed.
Let ma := MA a (Some (times tsa n)).

(** b is the array resampled to l. *)
Definition resampled_axis (b : nd R) (l : list R) : Prop :=
  shp b = length l :: insert_at k nn (mv tau sh) /\
  forall c x m pre d, nth_error l c = Some x -> nth_error (times tsa n) m = Some x -> valid sh pre -> d < nn ->
    dat b (c :: insert_at k d (mv tau pre)) = dat arr (insert_at (S k) d (insert_at tau m pre)).

Lemma resample_axis l : last (shp a) 0 <> 4 -> (forall x, In x l -> In x (times tsa n)) ->
  exists b, resample_array squad ma (Some l) = Ok b /\ resampled_axis b l.
Proof.
  intros H4 Hin.
  destruct (interp_nd_samples (times tsa n) a l n (insert_at k nn (mv tau sh)) Hinc) as (b & Eb & Sb & Db); auto.
  { rewrite length_times. exact Hn. } { apply sh_a'. } { apply length_times. }
  exists b. split.
  - unfold resample_array, ma. cbn [ma_ts ma_data]. apply Nat.eqb_neq in H4. rewrite H4. exact Eb.
  - split; [exact Sb|]. intros c x m pre d Hc Hm Hv _. rewrite (Db c x m Hc Hm). apply dat_a'; apply (valid_length _ _ Hv).
Qed.

(** Quaternions on the last axis. *)
Lemma resample_last4 l : nn = 4 -> k = length sh -> squad_exact squad ->
  (forall m pre, m < n -> valid sh pre -> hunit (quat_along arr (S k) (insert_at tau m pre))) ->
  (forall x, In x l -> In x (times tsa n)) ->
  exists b, resample_array squad ma (Some l) = Ok b /\ resampled_axis b l.
Proof.
  intros E4 Ek Hex Hu Hin.
  assert (Il : forall c m pre, length pre = length sh -> insert_at (S k) c (insert_at tau m pre) = insert_at tau m pre ++ [c]).
  { intros c m pre Lp. rewrite <- insert_end. f_equal. rewrite length_insert; lia. }
  assert (Is : forall c m pre, length pre = length sh -> m :: insert_at k c (mv tau pre) = m :: mv tau pre ++ [c]).
  { intros c m pre Lp. f_equal. rewrite <- insert_end. f_equal. rewrite length_mv; lia. }
  assert (Bt : beside (S k) tau = tau).
  { unfold beside. destruct (Nat.ltb_spec tau (S k)); lia. }
  assert (Hs' : shp arr = insert_at tau n sh ++ [nn]) by (rewrite Hsh; apply Il; auto).
  unfold ma, a. rewrite Bt.
  destruct (resample4 squad arr nn tsa n tau sh Hs' Htau Hinc Hn l E4 Hex) as (b & Eb & Sb & Db); auto.
  { intros m pre Hm Hv. pose proof (valid_length _ _ Hv) as Lp. specialize (Hu m pre Hm Hv).
    unfold quat_along in Hu. rewrite !Il in Hu by auto. exact Hu. }
  exists b. split; [exact Eb|]. split; [rewrite Sb, <- Is; auto|].
  intros c x m pre d Hc Hm Hv Hd. pose proof (valid_length _ _ Hv) as Lp. rewrite Is, Il by auto. eapply Db; eauto.
Qed.

Lemma undo_axis e N : shp e = N :: insert_at k nn (mv tau sh) ->
  exists out, undo_swap e (Some ta) = Ok out /\ shp out = insert_at (S k) nn (insert_at tau N sh) /\
    forall c pre d, length pre = length sh ->
      dat out (insert_at (S k) d (insert_at tau c pre)) = dat e (c :: insert_at k d (mv tau pre)).
Proof.
  intros He.
  assert (Ne : ndim e = ndim arr).
  { unfold ndim at 1. rewrite He. cbn [length]. rewrite length_insert by (rewrite length_mv; auto). rewrite length_mv by auto.
    symmetry. apply nd_arr'. }
  unfold undo_swap, swapaxes. rewrite Ne, Hta. rewrite (norm_axis_pos 0 (ndim arr) ltac:(rewrite nd_arr'; lia) : norm_axis 0 (ndim arr) = Ok 0).
  cbn [bind]. eexists. split; [reflexivity|]. cbn [swap_nd shp dat]. split.
  - rewrite He. apply swap_back; auto.
  - intros c pre d Lp. rewrite swap_first by lia. reflexivity.
Qed.

Lemma nd_b b l : resampled_axis b l -> ndim b = ndim arr.
Proof.
  intros (Sb & _). unfold ndim at 1. rewrite Sb. cbn [length]. rewrite length_insert by (rewrite length_mv; auto).
  rewrite length_mv by auto. symmetry. apply nd_arr'.
Qed.

Lemma vectors_axis tr l rows b : nn = 3 -> prepare squad s i arr to axis 3 (Some ta) (Some tsa) = Ok (tr, b) ->
  tr_is tr l rows -> length rows = length l -> (forall c, c < length l -> hunit (rowq rows c)) -> resampled_axis b l ->
  exists out, transform_vectors squad s i arr to axis (Some ta) (Some tsa) = Ok (out, Some l) /\
    shp out = insert_at (S k) 3 (insert_at tau (length l) sh) /\
    forall c x m pre, nth_error l c = Some x -> nth_error (times tsa n) m = Some x -> valid sh pre ->
      vec_along out (S k) (insert_at tau c pre) = srot (rowq rows c) (vec_along arr (S k) (insert_at tau m pre)).
Proof.
  intros E3 Hp Htr L Hu Hb. unfold transform_vectors. rewrite Hp. cbn [bind].
  pose proof (nd_b b l Hb) as Nb. pose proof Hb as (Sb & Db). rewrite E3 in Sb.
  destruct (rot_tr tr l rows b k (mv tau sh) axis Htr L Hu Sb) as (c & Ec & Sc & Dc).
  { rewrite length_mv; auto. } { rewrite Nb. exact Hax. }
  rewrite Ec. cbn [bind]. destruct (undo_axis c (length l)) as (out & Eo & So & Do); [rewrite E3; exact Sc|]. rewrite Eo. cbn [bind].
  exists out. split; [destruct Htr as [-> | (-> & _)]; reflexivity|]. split; [rewrite So, E3; reflexivity|].
  intros q x m pre Hq Hm Hv. pose proof (valid_length _ _ Hv) as Lp.
  assert (Hql : q < length l) by (apply nth_error_Some; congruence).
  specialize (Dc q (mv tau pre) Hql (valid_mv tau sh pre Htau Hv)). unfold vec_along in *. rewrite !Do by auto.
  rewrite !insert_S in Dc. rewrite Dc. rewrite !(Db q x m pre _ Hq Hm Hv) by lia. reflexivity.
Qed.

Lemma quats_axis tr l rows b : nn = 4 -> prepare squad s i arr to axis 4 (Some ta) (Some tsa) = Ok (tr, b) ->
  tr_is tr l rows -> length rows = length l -> resampled_axis b l ->
  exists out, transform_quaternions squad s i arr to axis (Some ta) (Some tsa) = Ok (out, Some l) /\
    shp out = insert_at (S k) 4 (insert_at tau (length l) sh) /\
    forall c x m pre, nth_error l c = Some x -> nth_error (times tsa n) m = Some x -> valid sh pre ->
      quat_along out (S k) (insert_at tau c pre) = hmul (rowq rows c) (quat_along arr (S k) (insert_at tau m pre)).
Proof.
  intros E4 Hp Htr L Hb. unfold transform_quaternions. rewrite Hp. cbn [bind].
  pose proof (nd_b b l Hb) as Nb. pose proof Hb as (Sb & Db). rewrite E4 in Sb.
  destruct (quat_axis_tr tr l rows b k (mv tau sh) axis Htr L Sb) as (c & Ec & Sc & Dc).
  { rewrite length_mv; auto. } { rewrite Nb. exact Hax. }
  apply bind_ok in Ec as (b' & E1 & Ec). rewrite E1. cbn [bind].
  apply bind_ok in Ec as (qa & E2 & Ec). rewrite E2. cbn [bind].
  apply bind_ok in Ec as (c1 & E3 & Ec). rewrite E3. cbn [bind]. rewrite Ec. cbn [bind].
  destruct (undo_axis c (length l)) as (out & Eo & So & Do); [rewrite E4; exact Sc|]. rewrite Eo. cbn [bind].
  exists out. split; [destruct Htr as [-> | (-> & _)]; reflexivity|]. split; [rewrite So, E4; reflexivity|].
  intros q x m pre Hq Hm Hv. pose proof (valid_length _ _ Hv) as Lp.
  assert (Hql : q < length l) by (apply nth_error_Some; congruence).
  specialize (Dc q (mv tau pre) Hql (valid_mv tau sh pre Htau Hv)). unfold quat_along in *. rewrite !Do by auto.
  rewrite !insert_S in Dc. rewrite Dc. rewrite !(Db q x m pre _ Hq Hm Hv) by lia. reflexivity.
Qed.
End Final.
End Squad.
