(** Property C45: ROS messages. *)
From Coq Require Import Reals List String ZArith Bool Lia Lra.
From Verif Require Import Base RosMsg.
Import ListNotations.
Open Scope R_scope.

Lemma trunc_nonneg x : 0 <= x -> (0 <= trunc x)%Z /\ IZR (trunc x) <= x < IZR (trunc x) + 1.
Proof.
  intros H. unfold trunc. apply Rle_b_true in H as E. rewrite E. destruct (base_Int_part x) as (A & B).
  split; [|lra]. assert (-1 < Int_part x)%Z; [|lia]. apply lt_IZR. lra.
Qed.
Lemma trunc_IZR n : trunc (IZR n) = n.
Proof.
  assert (F : forall k, Int_part (IZR k) = k).
  { intros k. destruct (base_Int_part (IZR k)) as (A & B). apply le_IZR in A. assert (k - 1 < Int_part (IZR k))%Z; [|lia]. apply lt_IZR. rewrite minus_IZR. lra. }
  unfold trunc. destruct (Rle_b 0 (IZR n)); auto. rewrite <- opp_IZR, F. lia.
Qed.
(** from_sec truncates to nanoseconds. *)
Lemma from_sec_spec t : 0 <= t -> exists st, from_sec t = Ok st /\ (0 <= secs st /\ 0 <= nsecs st < giga)%Z /\
  to_sec st <= t < to_sec st + 1 / IZR giga.
Proof.
  intros H. unfold from_sec. destruct (trunc_nonneg t H) as (A & B). set (s := trunc t) in *. assert (G : IZR giga = 1000000000) by reflexivity.
  assert (Hf : 0 <= (t - IZR s) * IZR giga) by (rewrite G; lra).
  destruct (trunc_nonneg _ Hf) as (C & D). set (n := trunc ((t - IZR s) * IZR giga)) in *. cbv zeta.
  assert (Hn : (n < giga)%Z). { apply lt_IZR. rewrite G in *. lra. }
  rewrite Z.div_small, Z.mod_small, Z.add_0_r by lia. destruct (Z.ltb_spec s 0); [lia|].
  exists (Stamp s n). split; auto. split; [cbn; lia|]. unfold to_sec; cbn. rewrite G in *. lra.
Qed.
(** A time that is a whole number of nanoseconds is kept exactly. *)
Lemma from_sec_exact k : (0 <= k)%Z -> exists st, from_sec (IZR k / IZR giga) = Ok st /\ to_sec st = IZR k / IZR giga.
Proof.
  intros H. assert (G : IZR giga = 1000000000) by reflexivity. assert (H0 : 0 <= IZR k) by (apply (IZR_le 0); auto).
  destruct (from_sec_spec (IZR k / IZR giga)) as (st & E & (A & B) & C); [rewrite G; lra|].
  exists st. split; auto. unfold to_sec in *.
  assert (Hk : (secs st * giga + nsecs st = k)%Z).
  { assert (X : IZR (secs st * giga + nsecs st) <= IZR k < IZR (secs st * giga + nsecs st) + 1).
    { rewrite plus_IZR, mult_IZR, G in *. lra. }
    destruct X as (X1 & X2). apply le_IZR in X1. rewrite <- plus_IZR in X2. apply lt_IZR in X2. lia. }
  rewrite <- Hk, plus_IZR, mult_IZR, G. lra.
Qed.
(** The header of a message made at time t: the frame, and t up to less than a nanosecond. *)
Definition header_at (h : header) (frame : option string) (t : R) : Prop :=
  snd h = frame /\ to_sec (fst h) <= t < to_sec (fst h) + 1 / 1000000000.

Theorem C45_transform : forall x y z w i j k frame child time, 0 <= time ->
  exists m, make_transform_msg [x; y; z] [w; i; j; k] frame child time = Ok m /\
    unpack_transform_stamped m = ([x; y; z], [w; i; j; k]) /\ unpack_transform_msg (ts_transform m) = ([x; y; z], [w; i; j; k]) /\
    tm_translation (ts_transform m) = XYZ x y z /\ tm_rotation (ts_transform m) = {| q_x := i; q_y := j; q_z := k; q_w := w |} /\
    header_at (ts_header m) frame time /\ ts_child m = child.
Proof.
  intros x y z w i j k frame child time H. destruct (from_sec_spec time H) as (st & E & _ & T).
  unfold make_transform_msg. rewrite E. eexists. split; [reflexivity|]. repeat (split; [reflexivity|]). split; [split; auto|reflexivity].
Qed.
Theorem C45_pose : forall x y z w i j k frame time, 0 <= time ->
  exists m, make_pose_msg [x; y; z] [w; i; j; k] frame time = Ok m /\
    unpack_pose_stamped m = ([x; y; z], [w; i; j; k]) /\ unpack_pose_msg (ps_pose m) = ([x; y; z], [w; i; j; k]) /\
    pm_position (ps_pose m) = XYZ x y z /\ pm_orientation (ps_pose m) = {| q_x := i; q_y := j; q_z := k; q_w := w |} /\
    header_at (ps_header m) frame time.
Proof.
  intros x y z w i j k frame time H. destruct (from_sec_spec time H) as (st & E & _ & T).
  unfold make_pose_msg. rewrite E. eexists. split; [reflexivity|]. repeat (split; [reflexivity|]). exact T.
Qed.
Theorem C45_twist : forall x y z i j k frame time, 0 <= time ->
  exists m, make_twist_msg [x; y; z] [i; j; k] frame time = Ok m /\
    unpack_twist_stamped m = ([x; y; z], [i; j; k]) /\ unpack_twist_msg (ws_twist m) = ([x; y; z], [i; j; k]) /\
    wm_linear (ws_twist m) = XYZ x y z /\ wm_angular (ws_twist m) = XYZ i j k /\ header_at (ws_header m) frame time.
Proof.
  intros x y z i j k frame time H. destruct (from_sec_spec time H) as (st & E & _ & T).
  unfold make_twist_msg. rewrite E. eexists. split; [reflexivity|]. repeat (split; [reflexivity|]). exact T.
Qed.
Theorem C45_vector : forall x y z frame time, 0 <= time ->
  exists m, make_vector_msg [x; y; z] frame time = Ok m /\ unpack_vector_stamped m = [x; y; z] /\ unpack_xyz (vs_vector m) = [x; y; z] /\
    vs_vector m = XYZ x y z /\ header_at (vs_header m) frame time.
Proof.
  intros x y z frame time H. destruct (from_sec_spec time H) as (st & E & _ & T).
  unfold make_vector_msg. rewrite E. eexists. split; [reflexivity|]. repeat (split; [reflexivity|]). exact T.
Qed.
Theorem C45_point : forall x y z frame time, 0 <= time ->
  exists m, make_point_msg [x; y; z] frame time = Ok m /\ unpack_point_stamped m = [x; y; z] /\ unpack_xyz (vs_vector m) = [x; y; z] /\
    vs_vector m = XYZ x y z /\ header_at (vs_header m) frame time.
Proof. exact C45_vector. Qed.
Theorem C45_quaternion : forall w i j k frame time, 0 <= time ->
  exists m, make_quaternion_msg [w; i; j; k] frame time = Ok m /\ unpack_quaternion_stamped m = [w; i; j; k] /\
    unpack_xyzw (qs_quaternion m) = [w; i; j; k] /\
    qs_quaternion m = {| q_x := i; q_y := j; q_z := k; q_w := w |} /\ header_at (qs_header m) frame time.
Proof.
  intros w i j k frame time H. destruct (from_sec_spec time H) as (st & E & _ & T).
  unfold make_quaternion_msg. rewrite E. eexists. split; [reflexivity|]. repeat (split; [reflexivity|]). exact T.
Qed.
(** Unpacking is the inverse the other way round, too: a message is rebuilt from its parts. *)
Theorem C45_repack : forall (m : transform_msg) frame child time, 0 <= time ->
  exists m', make_transform_msg (fst (unpack_transform_msg m)) (snd (unpack_transform_msg m)) frame child time = Ok m' /\ ts_transform m' = m.
Proof.
  intros [[x y z] [a b c d]] frame child time H. destruct (from_sec_spec time H) as (st & E & _ & T).
  unfold make_transform_msg. rewrite E. eexists. split; reflexivity.
Qed.
(** A nonempty translation of another length and a short rotation are refused. *)
Theorem C45_refused : forall t r frame child time,
  (t <> [] /\ List.length t <> 3%nat) \/ (List.length r < 4)%nat -> exists e, make_transform_msg t r frame child time = Raise e.
Proof.
  intros t r frame child time H. unfold make_transform_msg. destruct (from_sec time) as [st|e]; cbn [bind]; [|eauto].
  destruct H as [(H1 & H2)|H].
  - destruct t as [|a [|b [|c [|d t]]]]; cbn in *; try congruence; eauto; try lia.
  - destruct (mk_xyz t) as [x|e]; cbn [bind]; [|eauto]. destruct r as [|a [|b [|c [|d r]]]]; cbn in *; eauto. lia.
Qed.
Example C45_example : exists m, make_transform_msg [1; 2; 3] [4; 5; 6; 7] (Some "a"%string) (Some "b"%string) (3/2) = Ok m /\
  tm_rotation (ts_transform m) = {| q_x := 5; q_y := 6; q_z := 7; q_w := 4 |} /\ header_at (ts_header m) (Some "a"%string) (3/2).
Proof. destruct (C45_transform 1 2 3 4 5 6 7 (Some "a"%string) (Some "b"%string) (3/2)) as (m & A & B & C & D & E & F & G); [lra|]. exists m. auto. Qed.
