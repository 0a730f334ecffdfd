(** Property C67: datasets of topics. *)
From Coq Require Import Reals List String ZArith Bool Arith Lia Lra.
From Verif Require Import Base NdArray Frames RosMsg Rosbag PropRosMsg PropRosbag PropCache Export.
Import ListNotations.
Open Scope R_scope.

(* ------------------------------------------------------------------ specification *)
(** The messages of a topic in the order of recording, when the bag is recorded in order. *)
Definition recorded_in_order (b : bag) : Prop :=
  forall i j x y, (i < j)%nat -> nth_error b i = Some x -> nth_error b j = Some y -> (e_time x <= e_time y)%Z.
Definition messages_of (b : bag) (T : string) : list message := map e_msg (filter (fun e => String.eqb (e_topic e) T) b).
(** A stamp in nanoseconds. *)
Definition nanoseconds (s : stamp) : Z := (secs s * 1000000000 + nsecs s)%Z.
Definition var (d : dataset) (name : string) : option (list (list (option R))) := lookup name (ds_vars d).
Definition triple_of (v : xyz) : list (option R) := [Some (m_x v); Some (m_y v); Some (m_z v)].
(** Scalar first. *)
Definition wxyz (q : xyzw) : list (option R) := [Some (q_w q); Some (q_x q); Some (q_y q); Some (q_z q)].
(** The dataset of odometry messages, of transforms. *)
Definition odometry_dataset (l : list odometry) (d : dataset) : Prop :=
  ds_time d = map (fun m => nanoseconds (fst (od_header m))) l /\
  var d "position" = Some (map (fun m => triple_of (pm_position (od_pose m))) l) /\
  var d "orientation" = Some (map (fun m => wxyz (pm_orientation (od_pose m))) l) /\
  var d "linear_velocity" = Some (map (fun m => triple_of (wm_linear (od_twist m))) l) /\
  var d "angular_velocity" = Some (map (fun m => triple_of (wm_angular (od_twist m))) l).
Definition transform_dataset (l : list transform_stamped) (d : dataset) : Prop :=
  ds_time d = map (fun m => nanoseconds (fst (ts_header m))) l /\
  var d "position" = Some (map (fun m => triple_of (tm_translation (ts_transform m))) l) /\
  var d "orientation" = Some (map (fun m => wxyz (tm_rotation (ts_transform m))) l) /\
  var d "linear_velocity" = None /\ var d "angular_velocity" = None.

(* ------------------------------------------------------------------ proofs *)
Lemma to_datetime_stamp s : to_datetime (to_sec s) = nanoseconds s.
Proof.
  unfold to_datetime, to_sec, nanoseconds. replace ((IZR (secs s) + IZR (nsecs s) / IZR giga) * 1000000000) with (IZR (secs s * 1000000000 + nsecs s)).
  - apply rint_IZR.
  - rewrite plus_IZR, mult_IZR. unfold giga. field.
Qed.
Lemma in_order_ordered b : recorded_in_order b -> ordered b.
Proof.
  intros H l1 e l2 f l3 ->. apply (H (List.length l1) (List.length l1 + S (List.length l2))%nat); [lia| |].
  - rewrite nth_error_app2, Nat.sub_diag by lia. reflexivity.
  - rewrite nth_error_app2 by lia. replace (List.length l1 + S (List.length l2) - List.length l1)%nat with (S (List.length l2)) by lia. cbn.
    rewrite nth_error_app2, Nat.sub_diag by lia. reflexivity.
Qed.
Lemma find_filter {A} (p : A -> bool) l : find p l = match filter p l with [] => None | x :: _ => Some x end.
Proof. induction l as [|a l IH]; cbn; auto. destruct (p a); auto. Qed.

(* ------------------------------------------------------------------ C67 *)
(** A topic with odometry messages: its dataset contains their fields, at the times of
    their headers. *)
Theorem C67_odometry : forall b T l f, recorded_in_order b -> l <> [] -> messages_of b T = map MOdom l ->
  exists d, load_dataset (Some b) f T false false = (f, Ok d) /\ odometry_dataset l d.
Proof.
  intros b T l f Ho Hl Hm. unfold load_dataset, load_messages, topic_type. rewrite find_filter, read_ordered by (apply in_order_ordered; auto).
  unfold messages_of in Hm. change (fun e => String.eqb (e_topic e) T) with (on_topic T) in Hm. set (es := filter (on_topic T) b) in *.
  assert (E : traverse odom_row es = Ok (map (fun m => (to_sec (fst (od_header m)), unpack_xyz (pm_position (od_pose m)), unpack_xyzw (pm_orientation (od_pose m)),
                   (unpack_xyz (wm_linear (od_twist m)), unpack_xyz (wm_angular (od_twist m))))) l)).
  { clearbody es. clear Hl. revert l Hm. induction es as [|e es IH]; intros [|m l] Hm; try discriminate; [reflexivity|]. cbn in Hm. injection Hm as H1 H2.
    unfold traverse in *. cbn [map sequence]. unfold odom_row at 1. rewrite H1. cbn [bind]. rewrite (IH l H2). reflexivity. }
  destruct es as [|e es]; [destruct l; [congruence|discriminate]|]. destruct l as [|m0 l0] eqn:El; [congruence|]. rewrite <- El in *. cbn [bind].
  assert (H0 : e_msg e = MOdom m0) by (rewrite El in Hm; cbn in Hm; congruence). rewrite H0, E. cbn [bind]. eexists. split; [reflexivity|].
  unfold odometry_dataset, var, dataset_of. cbn [ds_time ds_vars mo_time mo_position mo_orientation mo_velocity app lookup]. cbn.
  unfold somes. rewrite !map_map. cbn [fst snd].
  split; [apply map_ext; intros m; apply to_datetime_stamp|]. repeat split; f_equal.
Qed.
Theorem C67_transforms : forall b T l f, recorded_in_order b -> l <> [] -> messages_of b T = map MTransform l ->
  exists d, load_dataset (Some b) f T false false = (f, Ok d) /\ transform_dataset l d.
Proof.
  intros b T l f Ho Hl Hm. unfold load_dataset, load_messages, topic_type. rewrite find_filter, read_ordered by (apply in_order_ordered; auto).
  unfold messages_of in Hm. change (fun e => String.eqb (e_topic e) T) with (on_topic T) in Hm. set (es := filter (on_topic T) b) in *.
  assert (E : traverse transform_row es = Ok (map (fun m => (to_sec (fst (ts_header m)), unpack_xyz (tm_translation (ts_transform m)), unpack_xyzw (tm_rotation (ts_transform m)))) l)).
  { clearbody es. clear Hl. revert l Hm. induction es as [|e es IH]; intros [|m l] Hm; try discriminate; [reflexivity|]. cbn in Hm. injection Hm as H1 H2.
    unfold traverse in *. cbn [map sequence]. unfold transform_row at 1. rewrite H1. cbn [bind]. rewrite (IH l H2). reflexivity. }
  destruct es as [|e es]; [destruct l; [congruence|discriminate]|]. destruct l as [|m0 l0] eqn:El; [congruence|]. rewrite <- El in *. cbn [bind].
  assert (H0 : e_msg e = MTransform m0) by (rewrite El in Hm; cbn in Hm; congruence). rewrite H0, E. cbn [bind]. eexists. split; [reflexivity|].
  unfold transform_dataset, var, dataset_of. cbn [ds_time ds_vars mo_time mo_position mo_orientation mo_velocity app lookup]. cbn.
  unfold somes. rewrite !map_map. cbn [fst snd].
  split; [apply map_ext; intros m; apply to_datetime_stamp|]. repeat split; f_equal.
Qed.
Lemma loaded_times opened T m : load_messages opened T = Ok m -> Forall (fun t => exists s, t = to_sec s) (mo_time m).
Proof.
  unfold load_messages. destruct opened as [b|]; [|discriminate]. destruct (topic_type b T) as [ty|e]; [|discriminate]. cbn [bind].
  destruct ty as [x|x|]; [| |discriminate].
  - destruct (traverse transform_row (read_messages b T)) as [rows|e] eqn:E; [|discriminate]. cbn [bind]. intros [= <-]. cbn [mo_time].
    revert rows E. generalize (read_messages b T). intros l. unfold traverse. induction l as [|e l IH]; intros rows E; cbn in E; [injection E as <-; constructor|].
    unfold transform_row at 1 in E. destruct (e_msg e); try discriminate. cbn [bind] in E. destruct (sequence (map transform_row l)) as [rs|]; [|discriminate]. injection E as <-.
    constructor; [eexists; reflexivity|apply IH; reflexivity].
  - destruct (traverse odom_row (read_messages b T)) as [rows|e] eqn:E; [|discriminate]. cbn [bind]. intros [= <-]. cbn [mo_time].
    revert rows E. generalize (read_messages b T). intros l. unfold traverse. induction l as [|e l IH]; intros rows E; cbn in E; [injection E as <-; constructor|].
    unfold odom_row at 1 in E. destruct (e_msg e); try discriminate. cbn [bind] in E. destruct (sequence (map odom_row l)) as [rs|]; [|discriminate]. injection E as <-.
    constructor; [eexists; reflexivity|apply IH; reflexivity].
Qed.
(** A dataset with whole nanoseconds as times, as written: n samples. *)
Record wdataset := WDataset { d_time : list Z; d_position : list (vec3); d_orientation : list quat }.
Definition times_nd (l : list Z) : nd R := Nd [List.length l] (fun ix => IZR (nth (hd O ix) l 0%Z)).
Definition positions_nd (l : list vec3) : nd R := Nd [List.length l; 3%nat] (fun ix => match ix with [i; k] => nth k [vx (nth i l v0); vy (nth i l v0); vz (nth i l v0)] 0 | _ => 0 end).
Definition orientations_nd (l : list quat) : nd R :=
  Nd [List.length l; 4%nat] (fun ix => match ix with [i; k] => nth k [qw (nth i l (Qt 1 0 0 0)); qx (nth i l (Qt 1 0 0 0)); qy (nth i l (Qt 1 0 0 0)); qz (nth i l (Qt 1 0 0 0))] 0 | _ => 0 end).
Definition write_wdataset clock (b : bag) (d : wdataset) (topic : string) (frame child : option string) :=
  write_dataset clock b true (times_nd (d_time d)) (positions_nd (d_position d)) (orientations_nd (d_orientation d)) topic frame child.
Lemma nth_map_seq {A B} (g : A -> B) (l : list A) d n : List.length l = n -> map (fun i => g (nth i l d)) (seq 0 n) = map g l.
Proof.
  intros <-. induction l as [|a l IH]; [reflexivity|]. cbn [List.length seq map nth]. f_equal. rewrite <- seq_shift, map_map. exact IH.
Qed.
(** Written with write_transform_stamped_dataset and loaded with load_dataset: the same
    dataset, for times from 1970 to 2106 in whole nanoseconds and a clock that does not
    step back. *)
Theorem C67_roundtrip : forall clock d topic frame child f, monotone clock -> topic <> ""%string -> d_time d <> [] ->
  List.length (d_position d) = List.length (d_time d) -> List.length (d_orientation d) = List.length (d_time d) ->
  (forall t, In t (d_time d) -> (0 <= t < 2 ^ 32 * 1000000000)%Z) ->
  exists b r, write_wdataset clock [] d topic frame child = (b, Ok tt) /\ load_dataset (Some b) f topic false false = (f, Ok r) /\
    ds_time r = d_time d /\
    var r "position" = Some (map (fun p => [Some (vx p); Some (vy p); Some (vz p)]) (d_position d)) /\
    var r "orientation" = Some (map (fun q => [Some (qw q); Some (qx q); Some (qy q); Some (qz q)]) (d_orientation d)) /\
    var r "linear_velocity" = None.
Proof.
  intros clock d topic frame child f Hm Ht Hn Hp Hq Htime.
  pose (c := WCall (Nd [List.length (d_time d)] (fun ix => IZR (nth (hd O ix) (d_time d) 0%Z) / 1000000000)) (positions_nd (d_position d)) (orientations_nd (d_orientation d)) topic frame child).
  assert (V : valid_call c).
  { split; [|exact Ht]. exists (List.length (d_time d)). split; [split; [reflexivity|split; cbn; congruence]|]. intros i Hi. cbn [w_ts c dat hd].
    pose proof (Htime _ (nth_In (d_time d) 0%Z Hi)) as (T1 & T2). apply IZR_le in T1. apply IZR_lt in T2. rewrite mult_IZR in T2.
    change (IZR (2 ^ 32)) with (IZR 4294967296) in T2. replace (2 ^ 32) with 4294967296 by ring. split; [|lra]. lra. }
  assert (S1 : flat_map samples (filter (fun c => String.eqb (w_topic c) topic) [c]) = samples c) by (cbn [filter w_topic c]; rewrite String.eqb_refl; cbn [flat_map]; apply app_nil_r).
  assert (Ls : List.length (samples c) = List.length (d_time d)) by (unfold samples; rewrite map_length, seq_length; reflexivity).
  destruct (C46_partial clock [c] topic Hm (Forall_cons _ V (Forall_nil _))) as (b & m & E1 & E2 & E3 & E4 & E5 & E6).
  { rewrite S1. destruct (samples c); [|discriminate]. destruct (d_time d); [congruence|discriminate]. }
  rewrite S1 in E3, E4, E5. cbn [write_calls] in E1. 
  exists b, (dataset_of m). split.
  { unfold write_wdataset, write_dataset. change (write_transform_stamped clock [] (Nd (shp (times_nd (d_time d))) (fun ix => dat (times_nd (d_time d)) ix / 1000000000)) (positions_nd (d_position d)) (orientations_nd (d_orientation d)) topic frame child) with (write_call clock [] c).
    destruct (write_call clock [] c) as [b' [[]|e]]; congruence. }
  unfold load_dataset. rewrite E2. cbn [bind]. split; [reflexivity|]. unfold dataset_of, var. cbn [ds_time ds_vars]. rewrite E6, app_nil_r. cbn [lookup String.eqb Ascii.eqb Bool.eqb].
  split; [|split; [|split]].
  - pose proof (loaded_times _ _ _ E2) as F. assert (X : map s_time (samples c) = map (fun t => IZR t / 1000000000) (d_time d)).
    { unfold samples. rewrite map_map. cbn [s_time w_ts c dat shp hd]. apply (nth_map_seq (fun t => IZR t / 1000000000)). reflexivity. }
    rewrite X in E5. clear -E5 F. revert F E5. generalize (mo_time m) as l. generalize (d_time d) as z. induction z as [|t z IH]; intros l F E; inversion E as [|? t' ? l' W E']; subst; [reflexivity|].
    inversion F as [|? ? (s & ->) F']; subst. cbn [map]. f_equal; [|apply IH; auto]. rewrite to_datetime_stamp.
    destruct W as (W1 & W2). unfold to_sec, giga in W1, W2.
    assert (Hs : IZR (nanoseconds s) = (IZR (secs s) + IZR (nsecs s) / 1000000000) * 1000000000) by (unfold nanoseconds; rewrite plus_IZR, mult_IZR; field).
    assert (A : (nanoseconds s <= t)%Z) by (apply le_IZR; lra).
    assert (B : (t < nanoseconds s + 1)%Z) by (apply lt_IZR; rewrite plus_IZR; lra). lia.
  - rewrite E3. f_equal. unfold somes, samples. rewrite !map_map. cbn [s_pos w_t c w_ts shp hd]. rewrite <- Hp.
    apply (nth_map_seq (fun p => [Some (vx p); Some (vy p); Some (vz p)]) (d_position d) v0 _ eq_refl).
  - rewrite E4. f_equal. unfold somes, samples. rewrite !map_map. cbn [s_ori w_r c w_ts shp hd]. rewrite <- Hq.
    apply (nth_map_seq (fun q => [Some (qw q); Some (qx q); Some (qy q); Some (qz q)]) (d_orientation d) (Qt 1 0 0 0) _ eq_refl).
  - reflexivity.
Qed.
(** Export: the dataset of the topic, up to the rounding of the file format (C47), in the
    given file or beside the bag; other files are left alone. *)
Theorem C67_export : forall opened disk folder stem topic p m, load_messages opened topic = Ok m ->
  let target out := match out with OutPath q => q | _ => (folder ++ stem ++ ".nc")%string end in
  forall out, out = OutNone \/ out = OutPath p ->
  exists disk', export_file opened disk folder stem topic out = (disk', Ok tt) /\ (forall n, n <> target out -> disk' n = disk n) /\
    open_dataset disk' (target out) = Ok (decode (encode (dataset_of m))) /\
    (all_values storable (dataset_of m) -> open_dataset disk' (target out) = Ok (dataset_of m)).
Proof.
  intros opened disk folder stem topic p m Hm target out Ho. unfold export_file. rewrite Hm.
  assert (E : get_filename folder stem out "nc" = Ok (target out)) by (destruct Ho as [ -> | -> ]; reflexivity). rewrite E.
  eexists. split; [reflexivity|]. unfold open_dataset, set_file. split.
  - intros n Hn. apply String.eqb_neq in Hn. rewrite Hn. reflexivity.
  - rewrite String.eqb_refl. split; [reflexivity|]. intros Hs. rewrite stored_exact by auto. reflexivity.
Qed.
(** False of the code for a path given as a str, as documented, and for two topics with
    the default file: the second replaces the first. *)
Theorem C67_export_refuted : forall opened disk folder stem T1 T2 s m1 m2, load_messages opened T1 = Ok m1 -> load_messages opened T2 = Ok m2 ->
  export_file opened disk folder stem T1 (OutStr s) = (disk, Raise AttributeError) /\
  let disk1 := fst (export_file opened disk folder stem T1 OutNone) in
  let disk2 := fst (export_file opened disk1 folder stem T2 OutNone) in
  forall n, disk2 n = fst (export_file opened disk folder stem T2 OutNone) n.
Proof.
  intros opened disk folder stem T1 T2 s m1 m2 H1 H2. unfold export_file. rewrite H1, H2. split; [reflexivity|]. cbn [get_filename fst].
  intros n. unfold set_file. destruct (String.eqb n _); reflexivity.
Qed.
Example C67_example : let d := WDataset [5; 1000000007]%Z [V3 1 2 3; V3 4 5 6] [Qt 1 0 0 0; Qt 0 1 0 0] in
  monotone Z.of_nat /\ d_time d <> [] /\ (forall t, In t (d_time d) -> (0 <= t < 2 ^ 32 * 1000000000)%Z) /\
  exists b l, recorded_in_order b /\ messages_of b "/odom" = map MOdom l /\ List.length l = 1%nat.
Proof.
  split; [intros i j H; lia|]. split; [discriminate|]. split; [cbn; intros t [<-|[<-|[]]]; lia|].
  exists [Entry "/odom" (MOdom (Odometry (Stamp 1 2, Some "a"%string) (PoseMsg (XYZ 1 2 3) (XYZW 0 0 0 1)) (TwistMsg (XYZ 0 0 0) (XYZ 0 0 1)))) 5; Entry "/x" MOther 6].
  eexists. split; [|split; [unfold messages_of; cbn [filter e_topic String.eqb Ascii.eqb Bool.eqb map e_msg]; instantiate (1 := [_]); reflexivity|reflexivity]].
  intros i j x y Hij Hx Hy. destruct j as [|[|j]]; [lia| |destruct j; discriminate]. destruct i as [|i]; [|lia]. cbn in Hx, Hy. injection Hx as <-. injection Hy as <-. cbn. lia.
Qed.
