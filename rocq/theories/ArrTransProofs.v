(** transform_vectors / _points / _quaternions of timestamped arrays. *)
From Coq Require Import Reals List Arith Bool ZArith Lia Lra.
From Verif Require Import Base Quat SpecQuat QuatProofs NdArray Frames SpecForest FrameProofs WalkProofs
  Matcher SpecLookup LookupProofs RegistryProofs MovingProofs TimeProofs CtorProofs InverseProofs RouteProofs
  Transform SpecArray NdProofs RotProofs ArrProofs.
Import ListNotations.
Open Scope nat_scope.

Definition tr_is (tr : transf) (l : list R) (rows : list (vec3 * quat)) : Prop :=
  tr = TrRows l rows \/ (tr = TrBare l /\ rows = map (fun _ => (v0, q1)) l).

Lemma rowq_unit (l : list R) rows : length rows = length l ->
  (forall k row, nth_error rows k = Some row -> hunit (snd row)) -> forall k, k < length l -> hunit (rowq rows k).
Proof.
  intros L H k Hk. unfold rowq. destruct (nth_len rows k) as (row & E); [lia|].
  rewrite (nth_error_nth _ _ _ E). apply (H k). exact E.
Qed.
Lemma nth_const {A B} (c : B) (l : list A) k : nth k (map (fun _ => c) l) c = c.
Proof. revert k; induction l as [|a l IH]; intros [|k]; simpl; auto. Qed.
Lemma rowq_bare (l : list R) k : k < length l -> rowq (map (fun _ : R => (v0, q1)) l) k = q1.
Proof. intros H. unfold rowq. rewrite nth_const. reflexivity. Qed.
Lemma rowv_bare (l : list R) k : rowv (map (fun _ : R => (v0, q1)) l) k = v0.
Proof. unfold rowv. rewrite nth_const. reflexivity. Qed.

Lemma hunit_one : hunit q1.
Proof. rewrite q1_hone. apply hn2_one. Qed.

Lemma rot_tr tr l rows (b : nd R) k mid axis : tr_is tr l rows -> length rows = length l ->
  (forall i, i < length l -> hunit (rowq rows i)) ->
  shp b = length l :: insert_at k 3 mid -> k <= length mid ->
  norm_axis axis (ndim b) = Ok (S k) ->
  exists out, rotate_vectors (expand_r (tr_r tr) (ndim b)) b axis = Ok out /\
    shp out = length l :: insert_at k 3 mid /\
    forall i pre, i < length l -> valid mid pre ->
      vec_along out (S k) (i :: pre) = srot (rowq rows i) (vec_along b (S k) (i :: pre)).
Proof.
  intros [-> | (-> & Er)] L Hu Hs Hk Hax.
  - apply (rotate_rows (rowq rows) (length l) b k mid axis); auto.
  - destruct (rotate_scalar q1 b (S k) axis Hax) as (out & E & So & Do).
    + rewrite Hs. cbn [nth]. apply nth_insert; auto.
    + rewrite (hunit_one : hn2 q1 = 1%R). lra.
    + exists out. split; [exact E|]. split; [congruence|]. intros i pre Hi Hp. rewrite Er, rowq_bare by auto.
      apply Do. apply valid_length in Hp. unfold ndim. rewrite Hs. simpl. rewrite length_insert by auto. lia.
Qed.

(** Adding the translation (components on the last axis). *)
Lemma vec_along_last (a : nd R) i mid : vec_along a (S (length mid)) (i :: mid) = vec_at a (i :: mid).
Proof. unfold vec_along, vec_at. cbn [insert_at]. rewrite !insert_end. reflexivity. Qed.

Lemma add_tr tr l rows (c : nd R) mid : tr_is tr l rows -> length rows = length l ->
  shp c = length l :: mid ++ [3] ->
  exists out, op2 Rplus c (expand_t (tr_t tr) (ndim c)) = Ok out /\ shp out = length l :: mid ++ [3] /\
    forall i pre, i < length l -> valid mid pre -> vec_at out (i :: pre) = vadd (vec_at c (i :: pre)) (rowv rows i).
Proof.
  intros Htr L Hs.
  assert (Hnd : ndim c = S (S (length mid))).
  { unfold ndim. rewrite Hs. simpl. rewrite app_length. simpl. lia. }
  assert (G : exists M f, expand_t (tr_t tr) (ndim c) = Nd (M :: repeat 1 (length mid) ++ [3]) f /\
     (M = length l \/ M = 1) /\ 
     forall i pre j, i < length l -> length pre = length mid -> j < 3 ->
       f (zb (M :: repeat 1 (length mid) ++ [3]) (i :: pre ++ [j])) = comp3 j (rowv rows i)).
  { assert (Z : forall pre j, length pre = length mid ->
        skipn (length mid) (zb (repeat 1 (length mid) ++ [3]) (pre ++ [j])) = [j]).
    { intros pre j Hp. rewrite zb_app by (rewrite length_ones; lia).
      rewrite skipn_app, skipn_all2 by (rewrite length_zb; rewrite length_ones; lia).
      rewrite length_zb by (rewrite length_ones; lia). rewrite length_ones, Nat.sub_diag. reflexivity. }
    destruct Htr as [-> | (-> & Er)]; unfold expand_t; cbn [tr_t shp]; rewrite Hnd; cbn [Nat.sub]; rewrite Nat.sub_0_r.
    - exists (length l). eexists. split; [reflexivity|]. split; [auto|]. intros i pre j Hi Hp Hj. cbn [zb hd tl dat].
      rewrite Z by auto. cbn [nth hd]. destruct (Nat.eqb_spec (length l) 1); auto. replace i with 0 by lia. reflexivity.
    - exists 1. eexists. split; [reflexivity|]. split; [auto|]. intros i pre j Hi Hp Hj. cbn [dat].
      rewrite Er, rowv_bare. destruct j as [|[|j]]; reflexivity. }
  destruct G as (M & f & E & HM & Hf). rewrite E.
  assert (Hm : axes_match (shp c) (M :: repeat 1 (length mid) ++ [3]) = true).
  { rewrite Hs. cbn [axes_match]. rewrite axes_match_app by (rewrite length_ones; auto).
    rewrite axes_match_comm, match_ones. simpl. rewrite !andb_true_r.
    destruct HM as [-> | ->]; [rewrite Nat.eqb_refl|rewrite !orb_true_r]; reflexivity. }
  assert (HB : bs (shp c) (M :: repeat 1 (length mid) ++ [3]) = shp c).
  { rewrite bs_comm; auto.
    - rewrite Hs. cbn [bs]. rewrite bs_app by (rewrite length_ones; auto). rewrite bs_ones. simpl.
      f_equal. destruct HM as [-> | ->]; [destruct (Nat.eqb (length l) 1)|]; reflexivity.
    - rewrite Hs. simpl. rewrite !app_length, length_ones. reflexivity. }
  destruct (op2_ok Rplus c (Nd (M :: repeat 1 (length mid) ++ [3]) f)) as (out & Eo & So & Do).
  { rewrite Hs. simpl. rewrite !app_length, length_ones. reflexivity. }
  { exact Hm. }
  exists out. split; [exact Eo|]. cbn [shp] in So, Do. rewrite HB in So. split; [congruence|].
  intros i pre Hi Hp. pose proof (valid_length _ _ Hp) as Lp.
  assert (D : forall j, j < 3 -> dat out ((i :: pre) ++ [j]) = (dat c ((i :: pre) ++ [j]) + comp3 j (rowv rows i))%R).
  { intros j Hj. rewrite Do by (rewrite Hs; simpl; rewrite !app_length; simpl; lia).
    cbn [app] in *. rewrite <- Hf with (pre := pre) (j := j) by auto. cbn [dat]. f_equal.
    rewrite zb_valid; auto. rewrite Hs. constructor; auto. apply valid_app; auto. constructor; auto. }
  unfold vec_at at 1. rewrite !D by lia. reflexivity.
Qed.

(** Left-multiplying the rotation. *)
Lemma quat_tr tr l rows (b : nd R) mid : tr_is tr l rows -> length rows = length l ->
  shp b = length l :: mid ++ [4] ->
  exists out, (b' <- swapaxes b (-1) (-1) ;; qa <- as_quat b' ;;
               c <- op2 qmulq (expand_r (tr_r tr) (ndim b)) qa ;; swapaxes (as_float c) (-1) (-1)) = Ok out /\
    shp out = length l :: mid ++ [4] /\
    forall i pre, i < length l -> valid mid pre -> quat_at out (i :: pre) = hmul (rowq rows i) (quat_at b (i :: pre)).
Proof.
  intros Htr L Hs.
  assert (Hnd : ndim b = S (S (length mid))).
  { unfold ndim. rewrite Hs. simpl. rewrite app_length. simpl. lia. }
  assert (Hsw : forall a : nd R, 0 < ndim a -> exists a', swapaxes a (-1) (-1) = Ok a' /\ shp a' = shp a /\ forall ix, dat a' ix = dat a ix).
  { intros a Ha. unfold swapaxes. rewrite norm_axis_last by auto. cbn [bind]. eexists. split; [reflexivity|]. cbn [shp dat swap_nd].
    split; [apply swapl_same|]. intros ix. rewrite swapl_same. reflexivity. }
  destruct (Hsw b) as (b' & Eb & Sb & Db); [lia|]. rewrite Eb. cbn [bind].
  unfold as_quat. rewrite Sb, Hs. rewrite app_comm_cons, last_snoc. cbn [Nat.eqb]. cbn [bind]. rewrite removelast_snoc.
  set (qa := Nd (length l :: mid) (fun ix => quat_at b' ix)).
  assert (Dqa : forall ix, dat qa ix = quat_at b ix).
  { intros ix. unfold qa. cbn [dat]. unfold quat_at. rewrite !Db. reflexivity. }
  assert (G : exists c, op2 qmulq (expand_r (tr_r tr) (ndim b)) qa = Ok c /\ shp c = length l :: mid /\
     forall i pre, i < length l -> valid mid pre -> dat c (i :: pre) = qmulq (rowq rows i) (quat_at b (i :: pre))).
  { destruct Htr as [-> | (-> & Er)]; unfold expand_r; cbn [tr_r shp].
    - rewrite Hnd. cbn [Nat.sub]. rewrite Nat.sub_0_r, app_nil_r. cbn [dat].
      set (q := Nd (length l :: repeat 1 (length mid)) _).
      destruct (op2_ok qmulq q qa) as (c & Ec & Sc & Dc).
      + unfold q, qa. cbn [shp length]. rewrite length_ones. reflexivity.
      + unfold q, qa. cbn [shp axes_match]. rewrite Nat.eqb_refl, match_ones. reflexivity.
      + exists c. split; [exact Ec|]. unfold q, qa in Sc. cbn [shp bs] in Sc. rewrite bs_ones in Sc. split.
        * rewrite Sc. destruct (Nat.eqb (length l) 1); reflexivity.
        * intros i pre Hi Hp. pose proof (valid_length _ _ Hp) as Lp.
          rewrite Dc by (unfold q; cbn [shp length]; rewrite length_ones; lia).
          rewrite Dqa. unfold qa. cbn [shp]. rewrite (zb_valid (length l :: mid)) by (constructor; auto). f_equal.
          unfold q. cbn [shp zb dat hd]. destruct (Nat.eqb_spec (length l) 1); auto. replace i with 0 by lia. reflexivity.
    - unfold op2. cbn [shp dat]. unfold bshape, qa. cbn [rev brev shp]. cbn [bind].
      eexists. split; [reflexivity|]. cbn [shp dat]. split.
      + destruct (rev mid ++ [length l]) as [|x y] eqn:E.
        * destruct (rev mid); discriminate.
        * cbn [rev]. rewrite <- (rev_involutive (length l :: mid)). cbn [rev]. rewrite E. reflexivity.
      + intros i pre Hi Hp. rewrite Er, rowq_bare by auto. pose proof (valid_length _ _ Hp) as Lp.
        rewrite bix_zb by (simpl; lia). rewrite (zb_valid (length l :: mid)) by (constructor; auto).
        f_equal. apply Dqa. }
  destruct G as (c & Ec & Sc & Dc). rewrite Ec. cbn [bind].
  destruct (Hsw (as_float c)) as (o & Eo & So & Do).
  { unfold ndim, as_float. cbn [shp]. rewrite app_length. simpl. lia. }
  exists o. split; [exact Eo|]. split; [rewrite So; unfold as_float; cbn [shp]; rewrite Sc; reflexivity|].
  intros i pre Hi Hp. unfold quat_at at 1. rewrite !Do. unfold as_float. cbn [dat]. rewrite !last_snoc, !removelast_snoc.
  cbn [comp4]. rewrite (Dc i pre Hi Hp), qmulq_hmul. destruct (hmul _ _); reflexivity.
Qed.

(* ---- preparation ---- *)
Definition times (tsa : nd R) (n : nat) : list R := map (fun i => dat tsa [i]) (seq 0 n).
Lemma length_times tsa n : length (times tsa n) = n.
Proof. unfold times. rewrite map_length, seq_length. reflexivity. Qed.
Lemma nth_times tsa n m x : nth_error (times tsa n) m = Some x <-> m < n /\ dat tsa [m] = x.
Proof.
  unfold times. rewrite nth_error_map. destruct (Nat.lt_ge_cases m n).
  - rewrite (nth_error_nth' (seq 0 n) 0) by (rewrite seq_length; lia). rewrite seq_nth by lia. simpl. split.
    + intros E. injection E as <-. auto.
    + intros (_ & <-). reflexivity.
  - replace (nth_error (seq 0 n) m) with (@None nat) by (symmetry; apply nth_error_None; rewrite seq_length; lia).
    simpl. split; [discriminate|lia].
Qed.

Lemma mv_app t l m : t <= length l -> mv t (l ++ m) = mv t l ++ m.
Proof.
  intros H. unfold mv. rewrite insert_app by auto. rewrite swapl_app by (rewrite length_insert; lia).
  pose proof (swapl_insert0 t 0 l H) as E. rewrite E. reflexivity.
Qed.

Section Squad.
Variable squad : list R -> list quat -> R -> res quat.

Section Prep.
Variables (s : state) (i : nat) (arr : nd R) (to : pref) (axis : Z) (nn : nat) (ta : Z) (tsa : nd R) (n tau k : nat).
Hypothesis Hax : norm_axis axis (ndim arr) = Ok k.
Hypothesis Hnn : nth k (shp arr) 0 = nn.
Hypothesis Hts : shp tsa = [n].
Hypothesis Hta : norm_axis ta (ndim arr) = Ok tau.
Hypothesis Hn : nth tau (shp arr) 0 = n.

Lemma validate_ts : validate_input arr axis nn (Some tsa) (Some ta) = Ok (swap_nd 0 tau arr, Some (times tsa n)).
Proof.
  unfold validate_input. rewrite Hax. cbn [bind]. rewrite Hnn, Nat.eqb_refl. cbn [negb]. rewrite Hts, Hta. cbn [bind].
  rewrite Hn, Nat.eqb_refl. reflexivity.
Qed.
Let ma := MA (swap_nd 0 tau arr) (Some (times tsa n)).

Lemma prepare_inv tr b : prepare squad s i arr to axis nn (Some ta) (Some tsa) = Ok (tr, b) ->
  exists j fs l rows, resolve_rf s to = Ok j /\ frames_between s i j = Ok fs /\
    get_timestamps (Mat fs [ma]) true = Ok (Some l) /\
    foldM (step_rows squad l) fs (map (fun _ => (v0, q1)) l) = Ok rows /\ tr_is tr l rows /\
    resample_array squad ma (Some l) = Ok b.
Proof.
  unfold prepare. rewrite validate_ts. cbn [bind]. intros H.
  apply bind_ok in H as (j & Hj & H). apply bind_ok in H as (fs & Hfs & H).
  apply bind_ok in H as (ma' & Hma & H). unfold add_array in Hma. apply bind_ok in Hma as (u & _ & Hma). injection Hma as <-.
  apply bind_ok in H as (tr' & Htr & H). apply bind_ok in H as (b' & Hb & H). injection H as <- <-.
  fold ma in Htr, Hb. unfold get_transformation in Htr. apply bind_ok in Htr as (o & Ho & Htr).
  pose proof (timestamps_spec _ _ _ Ho) as Hsp. destruct o as [l|].
  2:{ exfalso. destruct Hsp as (_ & A & _). discriminate. }
  unfold transformation_at in Htr. cbn [m_frames] in Htr. destruct fs as [|f fs].
  - injection Htr as <-. exists j, [], l, (map (fun _ => (v0, q1)) l). repeat split; auto. right. auto.
  - apply bind_ok in Htr as (rows & Hr & Htr). injection Htr as <-. exists j, (f :: fs), l, rows. repeat split; auto. left. auto.
Qed.

Lemma prepare_ok j fs l rows b : decreasing_somewhere (times tsa n) = false ->
  resolve_rf s to = Ok j -> frames_between s i j = Ok fs ->
  get_timestamps (Mat fs [ma]) true = Ok (Some l) ->
  foldM (step_rows squad l) fs (map (fun _ => (v0, q1)) l) = Ok rows ->
  resample_array squad ma (Some l) = Ok b ->
  exists tr, prepare squad s i arr to axis nn (Some ta) (Some tsa) = Ok (tr, b).
Proof.
  intros Hd Hj Hfs Hl Hr Hb. unfold prepare. rewrite validate_ts. cbn [bind]. rewrite Hj. cbn [bind]. rewrite Hfs. cbn [bind].
  pose proof (norm_axis_ok _ _ _ Hta) as (Ht & _).
  assert (Hadd : add_array (swap_nd 0 tau arr) (Some (times tsa n)) = Ok ma).
  { unfold add_array, check_timestamps. rewrite Hd. cbn [swap_nd shp].
    destruct (swapl 0 tau (shp arr)) as [|x rest] eqn:E.
    - apply (f_equal (@length nat)) in E. rewrite length_swapl in E. unfold ndim in Ht. simpl in E. lia.
    - replace x with n. { rewrite length_times, Nat.eqb_refl. cbn [bind]. reflexivity. }
      change x with (nth 0 (x :: rest) 0). rewrite <- E, nth_swapl by (unfold ndim in Ht; lia).
      unfold transp. cbn [Nat.eqb]. symmetry. exact Hn. }
  rewrite Hadd. cbn [bind]. unfold get_transformation. rewrite Hl. cbn [bind]. unfold transformation_at. cbn [m_frames].
  destruct fs as [|f fs].
  - cbn [bind tr_ts]. rewrite Hb. cbn [bind]. eauto.
  - rewrite Hr. cbn [bind tr_ts]. rewrite Hb. cbn [bind]. eauto.
Qed.

Lemma prepare_times fs l : get_timestamps (Mat fs [ma]) true = Ok (Some l) ->
  (exists f, l = filter f (times tsa n)) /\ (forall x, In x l -> In x (times tsa n)) /\
  forall x, In x l <-> In x (times tsa n) /\ in_bounds (times tsa n) x = true /\
    forall ts, In ts (cont_list (Mat fs [])) -> in_bounds ts x = true.
Proof.
  intros H. apply timestamps_spec in H. destruct H as [(ts0 & rest & E & Hf & Hin)|(_ & A & _)]; [|discriminate].
  cbn [arr_list m_arrays map ma_ts somes app] in E. injection E as <- <-.
  split; auto. split; [intros x Hx; apply Hin in Hx; tauto|]. intros x. rewrite Hin. apply and_iff_compat_l. split.
  - intros G. split.
    + apply G. apply in_or_app. right. left. reflexivity.
    + intros ts Hc. apply G. apply in_or_app. left. exact Hc.
  - intros (G1 & G2) ts Hc. apply in_app_or in Hc as [Hc|Hc]; [apply G2; exact Hc|].
    destruct Hc as [<-|[]]. exact G1.
Qed.
End Prep.

(* ---- undoing the swap ---- *)
Lemma undo_ok (e : nd R) N sh nn ta tau : shp e = N :: mv tau sh ++ [nn] -> tau <= length sh ->
  norm_axis ta (ndim e) = Ok tau ->
  exists out, undo_swap e (Some ta) = Ok out /\ shp out = insert_at tau N sh ++ [nn] /\
    forall k pre c, length pre = length sh -> dat out (insert_at tau k pre ++ [c]) = dat e (k :: mv tau pre ++ [c]).
Proof.
  intros Hs Ht Hta. unfold undo_swap, swapaxes.
  assert (Hnd : 0 < ndim e) by (unfold ndim; rewrite Hs; simpl; lia).
  rewrite (norm_axis_pos 0 _ Hnd : norm_axis 0 (ndim e) = Ok 0), Hta. cbn [bind]. eexists. split; [reflexivity|].
  cbn [swap_nd shp dat]. split.
  - rewrite Hs. rewrite app_comm_cons, swapl_app by (simpl; rewrite length_mv; lia). rewrite swapl_mv by lia. reflexivity.
  - intros k pre c Hp. f_equal. rewrite swapl_app by (rewrite length_insert; lia). rewrite swapl_insert0 by lia. reflexivity.
Qed.

Lemma mv_surj tau sh pre : tau <= length sh -> valid (mv tau sh) pre -> exists p, pre = mv tau p /\ valid sh p.
Proof.
  intros Ht Hv. pose proof (valid_length _ _ Hv) as L. rewrite length_mv in L by auto.
  assert (G : valid (swapl 0 tau (insert_at tau 1 sh)) (0 :: pre)).
  { rewrite swapl_insert0 by auto. constructor; auto. }
  apply valid_swapl_inv in G; try (rewrite length_insert; lia).
  apply valid_insert_inv in G as (c & p & E & Hc & Hp); auto. exists p. split; auto.
  apply (f_equal (swapl 0 tau)) in E. rewrite swapl_invol in E by (simpl; lia).
  pose proof (valid_length _ _ Hp) as Lp. rewrite swapl_insert0 in E by lia. congruence.
Qed.

(* ---- the transforms of a timestamped array with the coordinates last ---- *)
Section Final.
Variables (s : state) (i : nat) (arr : nd R) (to : pref) (nn : nat) (ta : Z) (tsa : nd R) (n tau : nat) (sh : list nat).
Hypothesis Hsh : shp arr = insert_at tau n sh ++ [nn].
Hypothesis Htau : tau <= length sh.
Hypothesis Hta : norm_axis ta (ndim arr) = Ok tau.
Hypothesis Hts : shp tsa = [n].
Hypothesis Hinc : increasing (times tsa n).
Hypothesis Hn : 2 <= n.

Lemma nd_arr : ndim arr = S (S (length sh)).
Proof. unfold ndim. rewrite Hsh, app_length, length_insert by auto. simpl. lia. Qed.
Lemma ax_arr : norm_axis (-1) (ndim arr) = Ok (S (length sh)).
Proof. rewrite norm_axis_last by (rewrite nd_arr; lia). rewrite nd_arr. reflexivity. Qed.
Lemma nn_arr : nth (S (length sh)) (shp arr) 0 = nn.
Proof. rewrite Hsh, app_nth2; rewrite length_insert; auto. rewrite Nat.sub_diag. reflexivity. Qed.
Lemma n_arr : nth tau (shp arr) 0 = n.
Proof. rewrite Hsh, app_nth1 by (rewrite length_insert; lia). apply nth_insert; auto. Qed.
Let a := swap_nd 0 tau arr.
Lemma sh_a : shp a = n :: mv tau sh ++ [nn].
Proof.
  unfold a. cbn [swap_nd shp]. rewrite Hsh. rewrite swapl_app by (rewrite length_insert; lia).
  rewrite swapl_insert0 by auto. reflexivity.
Qed.
Lemma dat_a m pre c : length pre = length sh -> dat a (m :: mv tau pre ++ [c]) = dat arr (insert_at tau m pre ++ [c]).
Proof.
  intros H. unfold a. cbn [swap_nd dat]. f_equal. rewrite app_comm_cons, swapl_app by (simpl; rewrite length_mv; lia).
  rewrite swapl_mv by lia. reflexivity.
Qed.
Let ma := MA a (Some (times tsa n)).

Lemma nd_first N : length (N :: mv tau sh ++ [nn]) = ndim arr.
Proof. rewrite nd_arr. simpl. rewrite app_length, length_mv by auto. simpl. lia. Qed.

(** b is the array resampled to l, in terms of arr. *)
Definition resampled (b : nd R) (l : list R) : Prop :=
  shp b = length l :: mv tau sh ++ [nn] /\
  forall k x m pre c, nth_error l k = Some x -> nth_error (times tsa n) m = Some x -> valid sh pre -> c < nn ->
    dat b (k :: mv tau pre ++ [c]) = dat arr (insert_at tau m pre ++ [c]).

Lemma resample3 l : nn = 3 -> (forall x, In x l -> In x (times tsa n)) ->
  exists b, resample_array squad ma (Some l) = Ok b /\ resampled b l.
Proof.
  intros E3 Hl. unfold resample_array. cbn [ma ma_ts ma_data]. rewrite sh_a. rewrite app_comm_cons, last_snoc, E3. cbn [Nat.eqb].
  destruct (interp_nd_samples (times tsa n) a l n (mv tau sh ++ [nn]) Hinc) as (b & Eb & Sb & Db); auto.
  { rewrite length_times. auto. } { apply sh_a. } { apply length_times. }
  exists b. split; [exact Eb|]. split; [exact Sb|]. intros k x m pre c Hk Hm Hp Hc.
  rewrite (Db k x m Hk Hm). apply dat_a. apply (valid_length _ _ Hp).
Qed.
Lemma resample4 l : nn = 4 -> squad_exact squad ->
  (forall m pre, m < n -> valid sh pre -> hunit (quat_at arr (insert_at tau m pre))) ->
  (forall x, In x l -> In x (times tsa n)) ->
  exists b, resample_array squad ma (Some l) = Ok b /\ resampled b l.
Proof.
  intros E4 Hex Hu Hl. unfold resample_array. cbn [ma ma_ts ma_data]. rewrite sh_a. rewrite app_comm_cons, last_snoc, E4. cbn [Nat.eqb].
  pose proof sh_a as Sa. rewrite E4 in Sa.
  assert (Q : forall m pre, valid sh pre -> quat_at a (m :: mv tau pre) = quat_at arr (insert_at tau m pre)).
  { intros m pre Hp. unfold quat_at. cbn [app]. rewrite !dat_a by (apply (valid_length _ _ Hp)). reflexivity. }
  destruct (squad_nd_samples squad (times tsa n) a l n (mv tau sh) Hex Hinc) as (b & Eb & Sb & Db); auto.
  { rewrite length_times. auto. } { apply length_times. }
  { intros m pre Hm Hp. apply mv_surj in Hp as (p & -> & Hp); auto. rewrite Q by auto. auto. }
  exists b. split; [exact Eb|]. split; [rewrite E4; exact Sb|]. intros k x m pre c Hk Hm Hp Hc.
  specialize (Db k x m (mv tau pre) Hk Hm (valid_mv _ _ _ Htau Hp)). rewrite Q in Db by auto.
  rewrite E4 in Hc. rewrite <- (quat_at_comp arr) by auto. rewrite app_comm_cons, <- (quat_at_comp b) by auto. rewrite Db. reflexivity.
Qed.

Lemma vec_resampled b l k x m pre : resampled b l -> nn = 3 -> nth_error l k = Some x -> nth_error (times tsa n) m = Some x ->
  valid sh pre -> vec_at b (k :: mv tau pre) = vec_at arr (insert_at tau m pre).
Proof.
  intros (_ & H) E3 Hk Hm Hp. unfold vec_at. cbn [app]. rewrite !(H k x m pre _ Hk Hm Hp) by lia. reflexivity.
Qed.
Lemma quat_resampled b l k x m pre : resampled b l -> nn = 4 -> nth_error l k = Some x -> nth_error (times tsa n) m = Some x ->
  valid sh pre -> quat_at b (k :: mv tau pre) = quat_at arr (insert_at tau m pre).
Proof.
  intros (_ & H) E3 Hk Hm Hp. unfold quat_at. cbn [app]. rewrite !(H k x m pre _ Hk Hm Hp) by lia. reflexivity.
Qed.

Lemma vectors_post tr l rows b : nn = 3 -> tr_is tr l rows -> length rows = length l ->
  (forall k, k < length l -> hunit (rowq rows k)) -> resampled b l ->
  exists c, rotate_vectors (expand_r (tr_r tr) (ndim b)) b (-1) = Ok c /\ shp c = length l :: mv tau sh ++ [3] /\ ndim b = ndim arr /\
    forall k x m pre, nth_error l k = Some x -> nth_error (times tsa n) m = Some x -> valid sh pre ->
      vec_at c (k :: mv tau pre) = srot (rowq rows k) (vec_at arr (insert_at tau m pre)).
Proof.
  intros E3 Htr L Hu Hb. pose proof Hb as (Sb & _).
  assert (Nb : ndim b = ndim arr) by (unfold ndim; rewrite Sb; apply nd_first).
  destruct (rot_tr tr l rows b (length (mv tau sh)) (mv tau sh) (-1) Htr L Hu) as (c & Ec & Sc & Dc).
  - rewrite insert_end. rewrite <- E3. exact Sb.
  - lia.
  - rewrite Nb, ax_arr, length_mv by auto. reflexivity.
  - exists c. split; [exact Ec|]. split; [rewrite Sc, insert_end; reflexivity|]. split; [exact Nb|].
    intros k x m pre Hk Hm Hp. pose proof (nth_lt _ _ _ Hk) as Lk.
    pose proof (length_mv tau pre) as Lp. rewrite (valid_length _ _ Hp) in Lp. specialize (Lp Htau).
    specialize (Dc k (mv tau pre) Lk (valid_mv _ _ _ Htau Hp)).
    assert (Elen : length (mv tau sh) = length (mv tau pre)) by (rewrite Lp, length_mv; auto).
    rewrite Elen, !vec_along_last in Dc. rewrite Dc. f_equal. eapply vec_resampled; eauto.
Qed.

Lemma undo_arr e N : shp e = N :: mv tau sh ++ [nn] ->
  exists out, undo_swap e (Some ta) = Ok out /\ shp out = insert_at tau N sh ++ [nn] /\
    forall k pre c, length pre = length sh -> dat out (insert_at tau k pre ++ [c]) = dat e (k :: mv tau pre ++ [c]).
Proof.
  intros H. apply undo_ok; auto.
  rewrite <- Hta. f_equal. unfold ndim at 1. rewrite H. apply nd_first.
Qed.

Lemma vectors_ok tr l rows b : nn = 3 -> prepare squad s i arr to (-1) 3 (Some ta) (Some tsa) = Ok (tr, b) ->
  tr_is tr l rows -> length rows = length l -> (forall k, k < length l -> hunit (rowq rows k)) -> resampled b l ->
  exists out, transform_vectors squad s i arr to (-1) (Some ta) (Some tsa) = Ok (out, Some l) /\
    shp out = insert_at tau (length l) sh ++ [3] /\
    forall k x m pre, nth_error l k = Some x -> nth_error (times tsa n) m = Some x -> valid sh pre ->
      vec_at out (insert_at tau k pre) = srot (rowq rows k) (vec_at arr (insert_at tau m pre)).
Proof.
  intros E3 Hp Htr L Hu Hb. unfold transform_vectors. rewrite Hp. cbn [bind].
  destruct (vectors_post tr l rows b E3 Htr L Hu Hb) as (c & Ec & Sc & Nb & Dc). rewrite Ec. cbn [bind].
  destruct (undo_arr c (length l)) as (out & Eo & So & Do); [rewrite E3; exact Sc|]. rewrite Eo. cbn [bind].
  exists out. split; [destruct Htr as [-> | (-> & _)]; reflexivity|]. split; [rewrite So, E3; reflexivity|].
  intros k x m pre Hk Hm Hv. rewrite <- (Dc k x m pre Hk Hm Hv). unfold vec_at. cbn [app].
  rewrite !Do by (apply (valid_length _ _ Hv)). reflexivity.
Qed.

Lemma points_ok tr l rows b : nn = 3 -> prepare squad s i arr to (-1) 3 (Some ta) (Some tsa) = Ok (tr, b) ->
  tr_is tr l rows -> length rows = length l -> (forall k, k < length l -> hunit (rowq rows k)) -> resampled b l ->
  exists out, transform_points squad s i arr to (-1) (Some ta) (Some tsa) = Ok (out, Some l) /\
    shp out = insert_at tau (length l) sh ++ [3] /\
    forall k x m pre, nth_error l k = Some x -> nth_error (times tsa n) m = Some x -> valid sh pre ->
      vec_at out (insert_at tau k pre) = smove (rowv rows k) (rowq rows k) (vec_at arr (insert_at tau m pre)).
Proof.
  intros E3 Hp Htr L Hu Hb. unfold transform_points. rewrite Hp. cbn [bind].
  destruct (vectors_post tr l rows b E3 Htr L Hu Hb) as (c & Ec & Sc & Nb & Dc). rewrite Ec. cbn [bind].
  assert (Ncb : ndim b = ndim c).
  { rewrite Nb. unfold ndim at 2. rewrite Sc. rewrite <- E3. symmetry. apply nd_first. }
  rewrite Ncb. destruct (add_tr tr l rows c (mv tau sh) Htr L Sc) as (e & Ee & Se & De). rewrite Ee. cbn [bind].
  destruct (undo_arr e (length l)) as (out & Eo & So & Do); [rewrite E3; exact Se|]. rewrite Eo. cbn [bind].
  exists out. split; [destruct Htr as [-> | (-> & _)]; reflexivity|]. split; [rewrite So, E3; reflexivity|].
  intros k x m pre Hk Hm Hv. unfold smove. rewrite <- (Dc k x m pre Hk Hm Hv).
  rewrite <- (De k (mv tau pre) (nth_lt _ _ _ Hk) (valid_mv _ _ _ Htau Hv)). unfold vec_at. cbn [app].
  rewrite !Do by (apply (valid_length _ _ Hv)). reflexivity.
Qed.

Lemma quats_ok tr l rows b : nn = 4 -> prepare squad s i arr to (-1) 4 (Some ta) (Some tsa) = Ok (tr, b) ->
  tr_is tr l rows -> length rows = length l -> resampled b l ->
  exists out, transform_quaternions squad s i arr to (-1) (Some ta) (Some tsa) = Ok (out, Some l) /\
    shp out = insert_at tau (length l) sh ++ [4] /\
    forall k x m pre, nth_error l k = Some x -> nth_error (times tsa n) m = Some x -> valid sh pre ->
      quat_at out (insert_at tau k pre) = hmul (rowq rows k) (quat_at arr (insert_at tau m pre)).
Proof.
  intros E4 Hp Htr L Hb. unfold transform_quaternions. rewrite Hp. cbn [bind]. pose proof Hb as (Sb & _).
  destruct (quat_tr tr l rows b (mv tau sh) Htr L) as (e & Ee & Se & De); [rewrite <- E4; exact Sb|].
  apply bind_ok in Ee as (b' & Eb' & Ee). rewrite Eb'. cbn [bind].
  apply bind_ok in Ee as (qa & Eqa & Ee). rewrite Eqa. cbn [bind].
  apply bind_ok in Ee as (c & Ec & Ee). rewrite Ec. cbn [bind]. rewrite Ee. cbn [bind].
  destruct (undo_arr e (length l)) as (out & Eo & So & Do); [rewrite E4; exact Se|]. rewrite Eo. cbn [bind].
  exists out. split; [destruct Htr as [-> | (-> & _)]; reflexivity|]. split; [rewrite So, E4; reflexivity|].
  intros k x m pre Hk Hm Hv. rewrite <- (quat_resampled b l k x m pre Hb E4 Hk Hm Hv).
  rewrite <- (De k (mv tau pre) (nth_lt _ _ _ Hk) (valid_mv _ _ _ Htau Hv)). unfold quat_at. cbn [app].
  rewrite !Do by (apply (valid_length _ _ Hv)). reflexivity.
Qed.

End Final.
End Squad.
