(** Property C82: single items with NaN coordinates through moving frames, and why numbers
    and places of the NaN may be computed side by side. *)
From Coq Require Import Reals List Arith Bool ZArith Lia Lra.
From Verif Require Import Base Quat SpecQuat QuatProofs NdArray Frames SpecForest FrameProofs WalkProofs
  Matcher SpecLookup LookupProofs RegistryProofs MovingProofs TimeProofs CtorProofs InverseProofs RouteProofs
  Examples PropForest PropLookup PropMoving
  Transform SpecArray NdProofs RotProofs ArrProofs ArrTransProofs ArrStaticProofs PropTransform Velocity Filter NanArr PropConsist
  PropNan Squad PropSquad NanQuat PropNanQuat TopLevel SingleProofs SeriesProofs ClosedMoving.
Import ListNotations.
Open Scope nat_scope.

(* ------------------------------------------------------------------ NaN arithmetic *)
(** Sums and products of floats are NaN exactly if an operand is. *)
Theorem C82_arithmetic : forall k x y,
  oadd x y = match x, y with Some a, Some b => Some (a + b)%R | _, _ => None end /\
  omul k x = match x with Some a => Some (k * a)%R | None => None end.
Proof. intros k [x|] [y|]; split; reflexivity. Qed.
(** Interpolation of floats between two samples: NaN exactly if one of them is. *)
Theorem C82_interpolation : forall xl xh yl yh x,
  lin_float xl xh yl yh x = match yl, yh with Some a, Some b => Some (lin1 xl xh a b x) | _, _ => None end.
Proof. intros xl xh yl yh x. rewrite interp_floats. destruct yl, yh; reflexivity. Qed.
(** The rotation of a vector of floats: NaN in all coordinates if one is, otherwise the vector turned by
    the quaternion. *)
Theorem C82_rotation : forall q a b c, hunit q ->
  rot_float q 1 a b c = match a, b, c with
    | Some x, Some y, Some z => let v := srot q (V3 x y z) in (Some (vx v), Some (vy v), Some (vz v))
    | _, _, _ => (None, None, None)
    end.
Proof.
  intros q a b c U. destruct a as [x|], b as [y|], c as [z|]; try (apply rot_floats; tauto).
  unfold rot_float, ocross, osub, oadd, omul. cbv zeta. unfold srot. rewrite U.
  destruct q as [w q1 q2 q3]. unfold hunit in U. cbv [hn2 sc ve vdot qw qx qy qz vx vy vz] in U.
  cbv [hmul hconj mkq sc ve vadd vscale vcross vdot vopp qw qx qy qz vx vy vz option_map].
  assert (W : (w * w = 1 - (q1 * q1 + q2 * q2 + q3 * q3))%R) by lra.
  assert (I : (/ 1 = 1)%R) by apply Rinv_1. rewrite I. unfold Rdiv. rewrite I. f_equal; [f_equal|]; f_equal.
  - ring_simplify. replace (w ^ 2)%R with (w * w)%R by ring. rewrite W. ring.
  - ring_simplify. replace (w ^ 2)%R with (w * w)%R by ring. rewrite W. ring.
  - ring_simplify. replace (w ^ 2)%R with (w * w)%R by ring. rewrite W. ring.
Qed.
(** Interpolation of orientations: NaN exactly if one of the samples from the one before the interval to
    the one after it is. *)
Theorem C82_orientations : forall ts rr x, length rr = length ts -> 2 <= length ts ->
  (osquad_at ts rr x = None <-> exists j, interval_of ts x <= S j <= S (S (S (interval_of ts x))) /\ nth_error rr j = Some None) /\
  ((forall j, nth_error rr j <> Some None) -> osquad_at ts rr x = Some (squad_at ts (map number rr) x)).
Proof.
  intros ts rr x L L2. rewrite (squad_floats ts rr L L2).
  assert (E : existsb (fun j => near (interval_of ts x) j && match osample rr j with None => true | Some _ => false end) (seq 0 (length ts)) = true <->
    exists j, interval_of ts x <= S j <= S (S (S (interval_of ts x))) /\ nth_error rr j = Some None).
  { rewrite existsb_exists. split.
    - intros (j & Hj & H). apply in_seq in Hj. apply andb_prop in H as (H1 & H2). unfold near in H1. apply andb_prop in H1 as (A & B).
      apply Nat.leb_le in A, B. exists j. split; [lia|]. unfold osample in H2. destruct (nth_error rr j) as [o|] eqn:N.
      + rewrite (nth_error_nth _ _ _ N) in H2. destruct o; [discriminate H2|reflexivity].
      + apply nth_error_None in N. lia.
    - intros (j & B & N). exists j. assert (j < length rr) by (apply nth_error_Some; congruence). split; [apply in_seq; lia|].
      apply andb_true_intro. split; [unfold near; apply andb_true_intro; split; apply Nat.leb_le; lia|]. unfold osample. rewrite (nth_error_nth _ _ _ N). reflexivity. }
  split.
  - rewrite <- E. destruct (existsb _ _); split; intros H; auto; discriminate.
  - intros H. destruct (existsb _ _) eqn:X; [|reflexivity]. exfalso. destruct (proj1 E eq_refl) as (j & _ & N). exact (H j N).
Qed.

(* ------------------------------------------------------------------ single items *)
Lemma single_mask (arr : nd (option R)) n l : shp arr = [n] -> resample_mask (nans arr) None (Some l) = Ok (tile_mask (nans arr) (length l)) /\
  shp (tile_mask (nans arr) (length l)) = [length l; n] /\ forall k c, dat (tile_mask (nans arr) (length l)) [k; c] = dat (nans arr) [c].
Proof. intros H. split; [reflexivity|]. unfold tile_mask. cbn [nans shp]. rewrite H. split; reflexivity. Qed.
Lemma single_spread arr l : shp arr = [3] -> exists m, spread arr None None (Some l) = Ok m /\
  forall k c, dat m [k; c] = true <-> missing arr [].
Proof.
  intros H. destruct (single_mask arr 3 l H) as (E & _ & D). unfold spread. cbn [to_front bind]. rewrite E. cbn [bind]. eexists. split; [reflexivity|].
  intros k c. cbn [rot_mask dat removelast app]. rewrite existsb_exists. split.
  - intros (d & Hd & X). apply in_seq in Hd. rewrite D in X. exists d. split; [lia|]. cbn [nans dat] in X. cbn [app]. destruct (dat arr [d]); [discriminate X|reflexivity].
  - intros (d & Hd & X). exists d. split; [apply in_seq; lia|]. rewrite D. cbn [nans dat]. cbn [app] in X. rewrite X. reflexivity.
Qed.
Lemma single_combine arr c m k v (f : vec3 -> vec3) : (forall d, dat m [k; d] = true <-> missing arr []) ->
  vec_at c [k] = f (vec_at (blank arr) []) ->
  (missing arr [] -> lost (with_nans c m) [k]) /\ (holds arr [] v -> holds (with_nans c m) [k] (f v)).
Proof.
  intros D E. split.
  - intros M d _. cbn [with_nans dat app]. rewrite (proj2 (D d) M). reflexivity.
  - intros Hv. assert (X : forall d, dat m [k; d] = false).
    { intros d. destruct (dat m [k; d]) eqn:Y; [|reflexivity]. apply D in Y. destruct Y as (e & He & Z). exfalso.
      destruct Hv as (A & B & C). destruct e as [|[|[|e]]]; cbn [app] in *; try lia; congruence. }
    rewrite (holds_vec _ _ _ Hv) in E. unfold holds. cbn [with_nans dat app]. rewrite !X. rewrite <- E. cbn [vec_at vx vy vz app]. auto.
Qed.
(** A single vector or point without timestamps, between frames connected through moving frames: one row per
    time of the lookup; all rows are NaN if a coordinate is, otherwise row k is its image at time k. *)
Theorem C82_single : forall squad s i j arr l rows, reachable s -> squad_unit squad -> frame s i -> frame s j -> unit_way s i j ->
  lookup_transform squad s i (PFrame j) = Ok (TrRows l rows) -> shp arr = [3] ->
  (exists out, transform_vectors_nan squad s i arr (PFrame j) None None = Ok (out, Some l) /\ shp out = [length l; 3] /\
     forall k t r v, nth_error rows k = Some (t, r) -> (missing arr [] -> lost out [k]) /\ (holds arr [] v -> holds out [k] (srot r v))) /\
  (exists out, transform_points_nan squad s i arr (PFrame j) None None = Ok (out, Some l) /\ shp out = [length l; 3] /\
     forall k t r v, nth_error rows k = Some (t, r) -> (missing arr [] -> lost out [k]) /\ (holds arr [] v -> holds out [k] (smove t r v))).
Proof.
  intros squad s i j arr l rows HR Hsq Hi Hj Hw Hl Hs.
  destruct (C17_moving_lookup squad s i (PFrame j) j l rows HR Hsq Hi (or_introl (conj eq_refl Hj)) Hw Hl) as (L & HM).
  assert (Hu : forall k, k < length l -> hunit (rowq rows k)).
  { intros k Hk. destruct (nth_len l k Hk) as (x & Hx). pose proof (rows_at rows k ltac:(lia)) as Hr. apply (HM k x _ _ Hx Hr). }
  destruct (single_spread arr l Hs) as (m & Em & Dm).
  assert (Hrow : forall k t r, nth_error rows k = Some (t, r) -> k < length l /\ rowv rows k = t /\ rowq rows k = r).
  { intros k t r H. assert (k < length rows) by (apply nth_error_Some; congruence). split; [lia|]. unfold rowv, rowq. rewrite (nth_error_nth _ _ _ H). auto. }
  split.
  - destruct (call_single squad Vectors s i (blank arr) j l rows Hl L Hu Hs) as (c & Ec & So & Do). cbn [call_method] in Ec.
    exists (with_nans c m). unfold transform_vectors_nan, transform_nan. rewrite Ec. cbn [bind]. rewrite Em. cbn [bind]. split; [reflexivity|]. split; [exact So|].
    intros k t r v H. destruct (Hrow k t r H) as (Hk & <- & <-). apply (single_combine arr c m k v); [apply Dm|exact (Do k Hk)].
  - destruct (call_single squad Points s i (blank arr) j l rows Hl L Hu Hs) as (c & Ec & So & Do). cbn [call_method] in Ec.
    exists (with_nans c m). unfold transform_points_nan, transform_nan. rewrite Ec. cbn [bind]. rewrite Em. cbn [bind]. split; [reflexivity|]. split; [exact So|].
    intros k t r v H. destruct (Hrow k t r H) as (Hk & <- & <-). apply (single_combine arr c m k v (smove (rowv rows k) (rowq rows k))); [apply Dm|exact (Do k Hk)].
Qed.
Lemma single_spread4 arr l : shp arr = [4] -> exists m, spread_quats arr None None (Some l) = Ok m /\
  forall k c, dat m [k; c] = true <-> missing4 arr [].
Proof.
  intros H. destruct (single_mask arr 4 l H) as (_ & _ & D). unfold spread_quats. cbn [to_front bind resample_quat_mask]. eexists. split; [reflexivity|].
  intros k c. cbn [mul_mask dat removelast]. unfold has_nan. rewrite existsb_exists. split.
  - intros (d & Hd & X). apply in_seq in Hd. cbn [app] in X. rewrite D in X. exists d. split; [lia|]. cbn [nans dat] in X. cbn [app]. destruct (dat arr [d]); [discriminate X|reflexivity].
  - intros (d & Hd & X). exists d. split; [apply in_seq; lia|]. cbn [app]. rewrite D. cbn [nans dat]. cbn [app] in X. rewrite X. reflexivity.
Qed.
(** A single orientation. *)
Theorem C82_single_orientation : forall s i j arr l rows, reachable s -> frame s i -> frame s j -> unit_way s i j ->
  lookup_transform np_squad s i (PFrame j) = Ok (TrRows l rows) -> shp arr = [4] ->
  exists out, transform_quaternions_nan s i arr (PFrame j) None None = Ok (out, Some l) /\ shp out = [length l; 4] /\
    forall k t r q, nth_error rows k = Some (t, r) -> (missing4 arr [] -> lost4 out [k]) /\ (holds4 arr [] q -> holds4 out [k] (hmul r q)).
Proof.
  intros s i j arr l rows HR Hi Hj Hw Hl Hs. destruct C79_contract as (Hsq & _).
  destruct (C17_moving_lookup np_squad s i (PFrame j) j l rows HR Hsq Hi (or_introl (conj eq_refl Hj)) Hw Hl) as (L & HM).
  assert (Hu : forall k, k < length l -> hunit (rowq rows k)).
  { intros k Hk. destruct (nth_len l k Hk) as (x & Hx). pose proof (rows_at rows k ltac:(lia)) as Hr. apply (HM k x _ _ Hx Hr). }
  destruct (single_spread4 arr l Hs) as (m & Em & Dm).
  destruct (call_single np_squad Quaternions s i (blank_quats arr) j l rows Hl L Hu Hs) as (c & Ec & So & Do). cbn [call_method] in Ec.
  exists (with_nans c m). unfold transform_quaternions_nan. rewrite Ec. cbn [bind]. rewrite Em. cbn [bind]. split; [reflexivity|]. split; [exact So|].
  intros k t r q H. assert (Hk : k < length l) by (rewrite <- L; apply nth_error_Some; congruence).
  assert (Er : rowq rows k = r) by (unfold rowq; rewrite (nth_error_nth _ _ _ H); reflexivity).
  specialize (Do k Hk). cbn [image1] in Do. rewrite Er in Do. split.
  - intros M d _. cbn [with_nans dat app]. rewrite (proj2 (Dm k d) M). reflexivity.
  - intros Hq. assert (N : ~ missing4 arr []).
    { intros (e & He & Z). destruct Hq as (A & B & C & D). destruct e as [|[|[|[|e]]]]; cbn [app] in *; try lia; congruence. }
    assert (X : forall d, dat m [k; d] = false).
    { intros d. destruct (dat m [k; d]) eqn:Y; [|reflexivity]. apply Dm in Y. contradiction. }
    assert (Q : quat_at (blank_quats arr) [] = q).
    { assert (HN : has_nan (nans arr) [] = false) by (destruct (has_nan (nans arr) []) eqn:Y; [apply has_nan_spec in Y; contradiction|reflexivity]).
      destruct Hq as (A & B & C & D). unfold quat_at. cbn [blank_quats dat removelast app] in *. rewrite HN, A, B, C, D. destruct q; reflexivity. }
    rewrite Q in Do. unfold holds4. cbn [with_nans dat app]. rewrite !X. rewrite <- Do. cbn [quat_at qw qx qy qz app]. auto.
Qed.
(** One missing coordinate, one complete vector, through the moving example tree. *)
Example C82_single_example : exists ts rows, lookup_transform np_squad mov_lit 3 (PFrame 2) = Ok (TrRows ts rows) /\
  reachable mov_lit /\ frame mov_lit 3 /\ frame mov_lit 2 /\ unit_way mov_lit 3 2 /\
  missing (Nd [3] (fun ix => match ix with [1] => None | _ => Some 1%R end)) [] /\
  holds (Nd [3] (fun ix => Some (INR (hd 0 ix)))) [] (V3 0 1 (1 + 1)).
Proof.
  destruct C17_example_closed as (_ & _ & ts & rows & L). exists ts, rows. split; [exact L|]. split; [exact mov_lit_reachable|].
  split; [unfold frame, size; cbn; lia|]. split; [unfold frame, size; cbn; lia|]. split; [intros k d _ H; apply (mov_unit k d H)|].
  split; [exists 1; split; [lia|reflexivity]|]. repeat split.
Qed.
Print Assumptions C82_single.
Print Assumptions C82_single_orientation.
Print Assumptions C82_rotation.
