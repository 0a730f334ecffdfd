(** Property C75, continued: outlier suppression for angular velocities. *)
From Coq Require Import Reals String List Arith Bool ZArith Lia Lra.
From Verif Require Import Base Quat SpecQuat NdArray Frames Matcher SpecLookup MovingProofs TimeProofs
  Transform SpecArray NdProofs PropRotate Coord UtilsProofs PropCoord Velocity VelProofs VelFrames PropVelocity PropAngular TopStep PropTopEstim RotVec PropRotVec.
Import ListNotations.
Open Scope R_scope.

Section Suppress.
  Variables (thresh : R) (rows : list vec3) (ts : list R) (lin : list vec3) (out : list (option vec3)).
  Hypothesis Hinc : increasing ts.
  Hypothesis Hl : List.length ts = List.length rows.
  Hypothesis HL2 : (2 <= List.length rows)%nat.
  Hypothesis Hll : List.length lin = List.length rows.
  Hypothesis Hout : suppress thresh (flags (diff2 rows)) ts lin = Ok out.
  Lemma sup_inv : let K := kept_idx thresh (flags (diff2 rows)) in
    out = map (interp_keep (map (fun i => nth i ts 0) K) (map (fun i => nth i lin v0) K)) ts.
  Proof.
    pose proof Hout as H. unfold suppress in H.
    assert (HF : List.length (flags (diff2 rows)) = List.length rows) by (rewrite length_flags, length_diff2; lia).
    rewrite (keep_idx thresh _ ts 0) in H by lia. rewrite (keep_idx thresh _ lin v0) in H by lia. cbv zeta.
    destruct (map (fun i => nth i ts 0) (kept_idx thresh (flags (diff2 rows)))) as [|x xs]; [discriminate|].
    apply (f_equal (fun r => match r with Ok l => l | Raise _ => [] end)) in H. auto.
  Qed.
  Lemma sup_kept i i1 i2 : kept rows thresh i1 -> kept rows thresh i2 -> i1 <> i2 -> kept rows thresh i ->
    nth i out None = Some (nth i lin v0).
  Proof.
    intros H1 H2 Hne Hi. pose proof sup_inv as E. cbv zeta in E. apply nth_error_nth.
    rewrite E, nth_error_map. destruct Hi as (Hi & Hf). rewrite (nth_error_nth' ts 0) by lia. cbn [option_map].
    assert (HK : forall j, kept rows thresh j -> In j (kept_idx thresh (flags (diff2 rows)))) by (intros; apply kept_kept; auto).
    destruct (In_nth_error _ _ (HK i (conj Hi Hf))) as (j & Hj).
    f_equal. apply (interp_keep_at _ _ j).
    - apply kept_increasing; auto. rewrite length_flags, length_diff2. lia.
    - rewrite map_length. apply HK, In_nth_error in H1 as (j1 & Hj1). apply HK, In_nth_error in H2 as (j2 & Hj2).
      pose proof (nth_lt _ _ _ Hj1). pose proof (nth_lt _ _ _ Hj2).
      assert (j1 <> j2) by (intros ->; rewrite Hj1 in Hj2; injection Hj2; auto). lia.
    - rewrite !map_length. reflexivity.
    - apply nth_error_map_nth; auto.
    - apply nth_error_map_nth; auto.
  Qed.
  Lemma sup_between l r i : kept rows thresh l -> kept rows thresh r -> (l < i < r)%nat ->
    (forall m, (l < m < r)%nat -> ~ kept rows thresh m) ->
    nth i out None = Some (between (nth l ts 0) (nth r ts 0) (nth l lin v0) (nth r lin v0) (nth i ts 0)).
  Proof.
    intros H1 H2 Hi Hno. pose proof sup_inv as E. cbv zeta in E. apply nth_error_nth.
    rewrite E, nth_error_map. pose proof (proj1 H2) as Hr. rewrite (nth_error_nth' ts 0) by lia. cbn [option_map].
    assert (HK : forall j, kept rows thresh j <-> In j (kept_idx thresh (flags (diff2 rows)))) by (intros; symmetry; apply kept_kept; auto).
    destruct (kept_next thresh (flags (diff2 rows)) l r) as (j & Hj & Hj'); [apply HK; auto|apply HK; auto|lia| |].
    { intros m Hm. rewrite <- HK. auto. }
    f_equal. apply (interp_keep_between _ _ j).
    - apply kept_increasing; auto. rewrite length_flags, length_diff2. lia.
    - rewrite map_length. pose proof (nth_lt _ _ _ Hj'). lia.
    - rewrite !map_length. reflexivity.
    - apply nth_error_map_nth; auto.
    - apply nth_error_map_nth; auto.
    - pose proof (inc_nth ts l i Hinc ltac:(lia)). pose proof (inc_nth ts i r Hinc ltac:(lia)). lra.
    - apply nth_error_map_nth; auto.
    - apply nth_error_map_nth; auto.
  Qed.
  Lemma sup_leading i : (i < List.length rows)%nat -> (forall m, (m <= i)%nat -> ~ kept rows thresh m) -> nth i out None = None.
  Proof.
    intros Hlt Hno. pose proof sup_inv as E. cbv zeta in E. apply nth_error_nth.
    rewrite E, nth_error_map, (nth_error_nth' ts 0) by lia. cbn [option_map]. f_equal. unfold interp_keep.
    assert (HB : in_bounds (map (fun i => nth i ts 0) (kept_idx thresh (flags (diff2 rows)))) (nth i ts 0) = false).
    { destruct (kept_idx thresh (flags (diff2 rows))) as [|k K] eqn:EK; [reflexivity|]. cbn [map in_bounds].
      assert (Hk : kept rows thresh k) by (apply kept_kept; auto; rewrite EK; left; auto).
      assert (Hik : (i < k)%nat) by (destruct (Nat.lt_ge_cases i k); auto; exfalso; apply (Hno k); auto).
      pose proof (inc_nth ts i k Hinc ltac:(destruct Hk; lia)).
      replace (Rle_b (nth k ts 0) (nth i ts 0)) with false by (symmetry; apply Rle_b_false; auto). reflexivity. }
    rewrite HB. reflexivity.
  Qed.
  Lemma length_sup : List.length out = List.length ts.
  Proof. exact (length_suppress _ _ _ _ _ Hout). Qed.
End Suppress.
Lemma suppress_total thresh rows ts lin : 0 <= thresh -> List.length ts = List.length rows -> (2 <= List.length rows)%nat ->
  exists out, suppress thresh (flags (diff2 rows)) ts lin = Ok out.
Proof.
  intros Ht Hl H2. unfold suppress. rewrite (keep_idx thresh _ ts 0) by (rewrite length_flags, length_diff2; lia).
  pose proof (C33_last thresh rows Ht H2) as HL. apply kept_kept in HL; auto.
  destruct (kept_idx thresh (flags (diff2 rows))) as [|k K]; [destruct HL|]. cbn [map]. eauto.
Qed.

(* ------------------------------------------------------------------ specification *)
(** The index of component j of sample m of a two-axis array with the components on axis k. *)
Definition at2 (k m j : nat) : list nat := match k with O => [j; m] | _ => [m; j] end.
(** The rotation vectors of the samples. *)
Definition rot_vectors (a : nd R) (k : nat) (rows : list vec3) : Prop :=
  forall m, (m < List.length rows)%nat ->
    rotation_vector (Qt (dat a (at2 k m 0)) (dat a (at2 k m 1)) (dat a (at2 k m 2)) (dat a (at2 k m 3))) = Ok (nth m rows v0).

Lemma swap_at2 k m j : (k < 2)%nat -> swapl k 1 (at2 k m j) = [m; j].
Proof. destruct k as [|[|]]; [| |lia]; reflexivity. Qed.
Lemma swap_at2' k m j : (k < 2)%nat -> swapl k 1 [m; j] = at2 k m j.
Proof. destruct k as [|[|]]; [| |lia]; reflexivity. Qed.
Lemma mode_shape deriv mode a ts axis time_axis k g : (k < ndim a)%nat -> axis_is axis k (ndim a) ->
  estimate_angular_mode deriv mode a ts axis time_axis = Ok g -> shp g = setn k 3 (shp a).
Proof.
  intros Hk Hax. unfold estimate_angular_mode. destruct (String.eqb mode "quaternion").
  - destruct (estimate_angular _ _ _ _ _) as [est|e] eqn:E; [|discriminate]. cbn [bind]. intros H. unfold no_nan in H.
    destruct (existsb _ _); [discriminate|]. injection H as <-. cbn [shp].
    exact (proj1 (angular_valid deriv a ts axis time_axis k est Hk Hax E)).
  - destruct (String.eqb mode "rotation_vector"); [|discriminate]. unfold estimate_rotvec.
    destruct (ndim a) as [|n1] eqn:En; [lia|]. rewrite (axis_mod axis k) by auto. rewrite Nat2Z.id. cbv zeta.
    destruct (negb _); [discriminate|]. destruct (traverse _ _); [|discriminate]. cbn [bind]. unfold gradient_nd.
    destruct (grad_check _ _); [|discriminate]. cbn [bind]. intros H. injection H as <-. cbn [shp swap_nd].
    assert (Hls : List.length (shp a) = S n1) by exact En. rewrite swapl_setn by (rewrite length_swapl; lia).
    assert (Hkn : transp k n1 n1 = k) by (unfold transp; rewrite Nat.eqb_refl; destruct (Nat.eqb_spec n1 k); auto).
    rewrite Hkn, swapl_invol by lia. reflexivity.
Qed.

(** With a threshold: for arrays with two axes, samples whose rotation vectors have small
    second differences keep their estimate (if there are two of them), those between two
    such samples lie on the line between their estimates, those before the first are lost. *)
Theorem C75_outlier_partial : forall deriv mode thresh a ts axis time_axis k g b rows,
  (k < 2)%nat -> axis_is axis k 2 -> shp a = at2 k (List.length ts) 4 -> increasing ts -> (2 <= List.length ts)%nat ->
  estimate_angular_mode deriv mode a ts axis time_axis = Ok g -> List.length rows = List.length ts -> rot_vectors a k rows ->
  estimate_angular_outlier deriv mode thresh a ts axis time_axis = Ok b ->
  shp b = at2 k (List.length ts) 3 /\
  (forall i i1 i2, kept rows thresh i1 -> kept rows thresh i2 -> i1 <> i2 -> kept rows thresh i ->
     forall j, (j < 3)%nat -> dat b (at2 k i j) = Some (dat g (at2 k i j))) /\
  (forall l r i, kept rows thresh l -> kept rows thresh r -> (l < i < r)%nat -> (forall m, (l < m < r)%nat -> ~ kept rows thresh m) ->
     forall j, (j < 3)%nat -> dat b (at2 k i j) = Some (dat g (at2 k l j) +
       (nth i ts 0 - nth l ts 0) / (nth r ts 0 - nth l ts 0) * (dat g (at2 k r j) - dat g (at2 k l j)))) /\
  (forall i, (i < List.length ts)%nat -> (forall m, (m <= i)%nat -> ~ kept rows thresh m) -> forall j, dat b (at2 k i j) = None).
Proof.
  intros deriv mode thresh a ts axis time_axis k g b rows Hk Hax Hs Hinc H2 Hg Hlr Hrv Hb.
  assert (Hn : ndim a = 2%nat) by (unfold ndim; rewrite Hs; destruct k; reflexivity).
  pose proof (mode_shape deriv mode a ts axis time_axis k g ltac:(lia) ltac:(rewrite Hn; auto) Hg) as Sg.
  assert (Sg' : shp g = at2 k (List.length ts) 3) by (rewrite Sg, Hs; destruct k as [|[|]]; [| |lia]; reflexivity).
  unfold estimate_angular_outlier in Hb. rewrite Hg in Hb. cbn [bind] in Hb. rewrite Hn in Hb.
  change 2%Z with (Z.of_nat 2) in Hb. rewrite (axis_mod axis k) in Hb by auto. rewrite Nat2Z.id in Hb. cbv zeta in Hb.
  cbn [swap_nd shp] in Hb. rewrite Hs, swap_at2 in Hb by auto. cbn [nth] in Hb.
  assert (TR : traverse (fun m => rotation_vector (quat_in (swap_nd k 1 a) 1 [m; 0%nat])) (seq 0 (List.length ts)) = Ok rows).
  { clear Hb. assert (X : forall n s, (forall m, (m < n)%nat -> rotation_vector (quat_in (swap_nd k 1 a) 1 [(s + m)%nat; 0%nat]) = Ok (nth (s + m) rows v0)) ->
      traverse (fun m => rotation_vector (quat_in (swap_nd k 1 a) 1 [m; 0%nat])) (seq s n) = Ok (map (fun m => nth m rows v0) (seq s n))).
    { induction n as [|n IH]; intros s H; [reflexivity|]. cbn [seq map]. unfold traverse in *. cbn [map sequence].
      pose proof (H 0%nat ltac:(lia)) as H0. rewrite Nat.add_0_r in H0. rewrite H0. cbn [bind]. rewrite IH.
      - reflexivity.
      - intros m Hm. replace (S s + m)%nat with (s + S m)%nat by lia. apply H. lia. }
    rewrite X.
    - f_equal. rewrite <- Hlr. apply (nth_ext _ _ v0 v0); [rewrite map_length, seq_length; reflexivity|].
      intros n Hn'. rewrite map_length, seq_length in Hn'. rewrite (nth_indep _ v0 (nth 0 rows v0)) by (rewrite map_length, seq_length; auto).
      rewrite (map_nth (fun m => nth m rows v0)), seq_nth by auto. reflexivity.
    - intros m Hm. cbn [Nat.add]. unfold quat_in. cbn [dat setn swap_nd]. rewrite !swap_at2' by auto. apply Hrv. lia. }
  rewrite TR in Hb. cbn [bind] in Hb.
  set (lin := rows_of (swap_nd k 1 g)) in Hb.
  assert (Ll : List.length lin = List.length rows).
  { unfold lin, rows_of. cbn [shp swap_nd]. rewrite map_length, seq_length, Sg', swap_at2 by auto. cbn [hd]. lia. }
  assert (Nl : forall i, (i < List.length ts)%nat -> nth i lin v0 = V3 (dat g (at2 k i 0)) (dat g (at2 k i 1)) (dat g (at2 k i 2))).
  { intros i Hi. unfold lin, rows_of. cbn [shp swap_nd]. rewrite Sg', swap_at2 by auto. cbn [hd].
    match goal with |- nth i (map ?f (seq 0 ?n)) v0 = _ =>
      rewrite (nth_indep _ v0 (f 0%nat)) by (rewrite map_length, seq_length; lia); rewrite (map_nth f), seq_nth by lia end.
    cbn [Nat.add]. unfold vec_at. cbn [dat app swap_nd]. rewrite !swap_at2' by auto. reflexivity. }
  destruct (suppress thresh (flags (diff2 rows)) ts lin) as [out|e] eqn:ES; [|discriminate]. cbn [bind] in Hb.
  pose proof (length_sup thresh rows ts lin out ES) as Lo.
  assert (Eb : shp b = at2 k (List.length ts) 3 /\ forall i j, dat b (at2 k i j) = option_map (comp3 j) (nth i out None)).
  { injection Hb as <-. split.
    - cbn [shp swap_nd]. rewrite Lo. apply swap_at2'. auto.
    - intros i j. cbn [dat swap_nd]. rewrite swap_at2 by auto. reflexivity. }
  clear Hb. destruct Eb as (Sb & Db). split; [exact Sb|]. clearbody lin.
  assert (C3 : forall i j, (i < List.length ts)%nat -> (j < 3)%nat -> comp3 j (nth i lin v0) = dat g (at2 k i j)).
  { intros i j Hi Hj. rewrite Nl by auto. destruct j as [|[|[|]]]; [| | |lia]; reflexivity. }
  split; [|split].
  - intros i i1 i2 K1 K2 Hne Ki j Hj. rewrite Db, (sup_kept thresh rows ts lin out Hinc ltac:(lia) ltac:(lia) Ll ES i i1 i2) by auto.
    cbn [option_map]. rewrite C3 by (auto; destruct Ki; lia). reflexivity.
  - intros l r i Kl Kr Hi Hno j Hj. rewrite Db, (sup_between thresh rows ts lin out Hinc ltac:(lia) ltac:(lia) Ll ES l r i) by auto.
    cbn [option_map]. f_equal. pose proof (proj1 Kl). pose proof (proj1 Kr).
    rewrite <- (C3 l j), <- (C3 r j) by (auto; lia). generalize (nth l lin v0) (nth r lin v0). intros [x y z] [x' y' z'].
    unfold between, vadd, vscale, vsub. destruct j as [|[|[|]]]; [| | |lia]; reflexivity.
  - intros i Hi Hno j. rewrite Db, (sup_leading thresh rows ts lin out Hinc ltac:(lia) ltac:(lia) Ll ES i) by (auto; lia). reflexivity.
Qed.
(** Arrays with more axes are refused, whatever the data. *)
Theorem C75_outlier_refuted : forall deriv mode thresh a ts axis time_axis g, (2 < ndim a)%nat ->
  estimate_angular_mode deriv mode a ts axis time_axis = Ok g ->
  estimate_angular_outlier deriv mode thresh a ts axis time_axis = Raise ValueError.
Proof.
  intros deriv mode thresh a ts axis time_axis g Hn Hg. unfold estimate_angular_outlier. rewrite Hg. cbn [bind].
  destruct (ndim a) as [|[|[|n]]]; try lia. reflexivity.
Qed.
(** With rotation vectors at every sample and a threshold that is not negative both calls
    succeed. *)
Theorem C75_outlier_succeeds : forall deriv thresh a ts axis time_axis k rows,
  (k < 2)%nat -> axis_is axis k 2 -> axis_is time_axis (1 - k) 2 -> shp a = at2 k (List.length ts) 4 -> increasing ts -> (2 <= List.length ts)%nat ->
  List.length rows = List.length ts -> rot_vectors a k rows -> 0 <= thresh ->
  exists g b, estimate_angular_mode deriv "rotation_vector" a ts axis time_axis = Ok g /\
    estimate_angular_outlier deriv "rotation_vector" thresh a ts axis time_axis = Ok b.
Proof.
  intros deriv thresh a ts axis time_axis k rows Hk Hax Hta Hs Hinc H2 Hlr Hrv Ht.
  assert (Hn : ndim a = 2%nat) by (unfold ndim; rewrite Hs; destruct k; reflexivity).
  assert (Q : forall m j, (m < List.length ts)%nat -> rotation_vector (quat_in (swap_nd k 1 a) 1 [m; j]) = Ok (nth m rows v0)).
  { intros m j Hm. unfold quat_in. cbn [dat setn swap_nd]. rewrite !swap_at2' by auto. apply Hrv. lia. }
  assert (G : exists g, estimate_rotvec a ts axis time_axis = Ok g).
  { unfold estimate_rotvec. rewrite Hn. cbv zeta. rewrite (axis_mod axis k), (axis_mod time_axis (1 - k)) by (auto; lia). rewrite !Nat2Z.id.
    assert (Ss : shp (swap_nd k 1 a) = [List.length ts; 4%nat]) by (cbn [swap_nd shp]; rewrite Hs; apply swap_at2; auto).
    rewrite Ss. change (negb (Nat.eqb (nth 1 [List.length ts; 4%nat] O) 4)) with false. cbv iota.
    destruct (traverse_all_ok (fun ix => rotation_vector (quat_in (swap_nd k 1 a) 1 ix)) (indices [List.length ts; 4%nat])) as (l & El).
    { intros ix Hx. apply in_indices in Hx. pose proof (valid_length _ _ Hx) as L. destruct ix as [|m [|j [|]]]; try discriminate L.
      pose proof (proj2 (proj1 (valid_nth _ _) Hx) 0%nat ltac:(cbn; lia)) as Hm. cbn in Hm. rewrite Q by auto. eauto. }
    rewrite El. cbn [bind]. unfold gradient_nd. cbn [shp]. rewrite nth_setn_other by (destruct k as [|[|]]; cbn; lia).
    replace (nth (if Nat.eqb (1 - k) 1 then k else (1 - k)%nat) [List.length ts; 4%nat] O) with (List.length ts) by (destruct k as [|[|]]; [| |lia]; reflexivity).
    rewrite grad_check_ok by auto. cbn [bind]. eauto. }
  destruct G as (g & G). exists g.
  assert (M : estimate_angular_mode deriv "rotation_vector" a ts axis time_axis = Ok g) by exact G.
  unfold estimate_angular_outlier. rewrite M. cbn [bind]. rewrite Hn. cbv zeta.
  change 2%Z with (Z.of_nat 2). rewrite (axis_mod axis k) by auto. rewrite Nat2Z.id.
  replace (nth 0 (shp (swap_nd k 1 a)) O) with (List.length ts) by (cbn [swap_nd shp]; rewrite Hs, swap_at2 by auto; reflexivity).
  destruct (traverse_all_ok (fun m => rotation_vector (quat_in (swap_nd k 1 a) 1 [m; 0%nat])) (seq 0 (List.length ts))) as (l & El).
  { intros m Hm. apply in_seq in Hm. rewrite Q by lia. eauto. }
  rewrite El. cbn [bind]. assert (Ll : List.length l = List.length ts).
  { apply traverse_length in El. rewrite seq_length in El. auto. }
  destruct (suppress_total thresh l ts (rows_of (swap_nd k 1 g)) Ht ltac:(lia) ltac:(lia)) as (out & ES). rewrite ES. cbn [bind]. eauto.
Qed.
(** Turns about x by 0, 1, 2, 3, 2, 1: the rotation vectors are those of C33's example, with
    two flagged samples between kept ones. *)
Definition back_and_forth : nd R := Nd [6;4]%nat (fun ix => comp4 (nth 1 ix O) (about_axis (V3 1 0 0) (vx (nth (nth 0 ix O) turnback v0)))).
Example C75_outlier_example : shp back_and_forth = at2 1 6 4 /\ axis_is (-1) 1 2 /\ axis_is 0 (1 - 1) 2 /\
  rot_vectors back_and_forth 1 turnback /\ kept turnback 1 1 /\ kept turnback 1 4 /\ (forall m, (1 < m < 4)%nat -> ~ kept turnback 1 m).
Proof.
  split; [reflexivity|]. split; [right; reflexivity|]. split; [left; reflexivity|]. split; [|exact C33_example].
  intros m Hm. cbn [back_and_forth dat at2 nth]. pose proof PI2_1 as P1.
  assert (U : vdot (V3 1 0 0) (V3 1 0 0) = 1) by (unfold vdot; cbn; ring).
  assert (G : forall q, Qt (comp4 0 q) (comp4 1 q) (comp4 2 q) (comp4 3 q) = qscale 1 q) by (intros [x y z w]; unfold qscale; cbn; f_equal; ring).
  rewrite G. assert (X : 0 <= vx (nth m turnback v0) <= 3 /\ nth m turnback v0 = vscale (vx (nth m turnback v0)) (V3 1 0 0)).
  { destruct m as [|[|[|[|[|[|m]]]]]]; cbn in Hm; try lia; unfold turnback, vscale; cbn; (split; [lra|f_equal; ring]). }
  destruct X as (X & E). rewrite rv_about by (auto; lra). rewrite <- E. reflexivity.
Qed.
