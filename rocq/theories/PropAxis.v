(** Property C42: the axis argument of the top-level functions, plain arrays. *)
From Coq Require Import Reals String List Arith Bool ZArith Lia Lra.
From Verif Require Import Base Quat SpecQuat QuatProofs NdArray Frames SpecForest FrameProofs WalkProofs
  Matcher SpecLookup LookupProofs RegistryProofs MovingProofs TimeProofs CtorProofs InverseProofs RouteProofs
  Examples PropForest PropLookup PropMoving
  Transform SpecArray NdProofs RotProofs ArrProofs ArrTransProofs ArrStaticProofs PropTransform PropRotate
  Coord PropCoord Utils Velocity Estim SpecEstim EstimProofs SvdExist PropEstim TopLevel TopProofs SpecTop TopStep PropCoordTop.
Import ListNotations.
Open Scope nat_scope.

(** Axes other than 0 (as an argument; a negative integer may denote the first axis, and
    None is the last): vectors and orientations between statically connected frames. *)
Theorem C42_vectors_partial : forall squad w arr into j outof i t r axis k sh, reachable (frames w) ->
  denotes (frames w) outof i -> denotes (frames w) into j -> lookup_transform squad (frames w) i into = Ok (TrStatic t r) ->
  shp arr = put k 3 sh -> k <= length sh -> axis_arg_is axis k (ndim arr) ->
  exists out, transform squad Vectors w (Plain arr) into (Some outof) None axis TNone None = (w, Ok (RPlain out None)) /\
    shp out = shp arr /\ forall pre, valid sh pre -> vec_on out k pre = srot r (vec_on arr k pre).
Proof.
  intros squad w arr into j outof i t r axis k sh HR Hi Hj HL Hs Hk Ha.
  assert (Hax : axis_is (or_default axis (-1)) k (ndim arr)).
  { destruct axis as [z|]; cbn [axis_arg_is or_default] in *; [destruct Ha as (Hz & Ha); apply Z.eqb_neq in Hz; rewrite Hz; auto|right; lia]. }
  pose proof (denotes_frame _ _ _ HR Hi) as Fi. pose proof (denotes_frame _ _ _ HR Hj) as Fj.
  assert (HL' : lookup_transform squad (frames w) i (PFrame j) = Ok (TrStatic t r)).
  { rewrite <- HL. unfold lookup_transform. rewrite (denotes_resolve _ _ _ Hj), (denotes_resolve _ (PFrame j) j); auto. left; auto. }
  destruct (C23_vectors_partial squad (frames w) i (PFrame j) j t r arr (or_default axis (-1)) k sh) as (out & E & So & Do); auto.
  { left; auto. }
  exists out. split; [|auto].
  unfold transform, maybe_unpack. cbn [same_axis_check u_ts bind u_lab u_arr u_axis u_time_axis].
  rewrite (denotes_resolve _ _ _ Hi), (denotes_resolve _ _ _ Hj). cbn [bind call_method]. change (or_default None 0) with 0%Z. rewrite E. reflexivity.
Qed.
Theorem C42_quaternions_partial : forall squad w arr into j outof i t r axis k sh, reachable (frames w) ->
  denotes (frames w) outof i -> denotes (frames w) into j -> lookup_transform squad (frames w) i into = Ok (TrStatic t r) ->
  shp arr = put k 4 sh -> k <= length sh -> axis_arg_is axis k (ndim arr) ->
  exists out, transform squad Quaternions w (Plain arr) into (Some outof) None axis TNone None = (w, Ok (RPlain out None)) /\
    shp out = shp arr /\ forall pre, valid sh pre -> quat_on out k pre = hmul r (quat_on arr k pre).
Proof.
  intros squad w arr into j outof i t r axis k sh HR Hi Hj HL Hs Hk Ha.
  assert (Hax : axis_is (or_default axis (-1)) k (ndim arr)).
  { destruct axis as [z|]; cbn [axis_arg_is or_default] in *; [destruct Ha as (Hz & Ha); apply Z.eqb_neq in Hz; rewrite Hz; auto|right; lia]. }
  pose proof (denotes_frame _ _ _ HR Hi) as Fi. pose proof (denotes_frame _ _ _ HR Hj) as Fj.
  assert (HL' : lookup_transform squad (frames w) i (PFrame j) = Ok (TrStatic t r)).
  { rewrite <- HL. unfold lookup_transform. rewrite (denotes_resolve _ _ _ Hj), (denotes_resolve _ (PFrame j) j); auto. left; auto. }
  destruct (C23_quaternions_partial squad (frames w) i (PFrame j) j t r arr (or_default axis (-1)) k sh) as (out & E & So & Do); auto.
  { left; auto. }
  exists out. split; [|auto].
  unfold transform, maybe_unpack. cbn [same_axis_check u_ts bind u_lab u_arr u_axis u_time_axis].
  rewrite (denotes_resolve _ _ _ Hi), (denotes_resolve _ _ _ Hj). cbn [bind call_method]. change (or_default None 0) with 0%Z. rewrite E. reflexivity.
Qed.
(** Points, coordinates on the last axis (other axes are wrong already below the top level,
    C23_refuted). *)
Theorem C42_points_partial : forall squad w arr into j outof i t r axis sh, reachable (frames w) ->
  denotes (frames w) outof i -> denotes (frames w) into j -> lookup_transform squad (frames w) i into = Ok (TrStatic t r) ->
  shp arr = (sh ++ [3])%list -> sh <> [] -> axis_arg_is axis (length sh) (ndim arr) ->
  exists out, transform squad Points w (Plain arr) into (Some outof) None axis TNone None = (w, Ok (RPlain out None)) /\
    shp out = shp arr /\ forall pre, valid sh pre -> vec_at out pre = smove t r (vec_at arr pre).
Proof.
  intros squad w arr into j outof i t r axis sh HR Hi Hj HL Hs Hsh Ha.
  assert (Hax : axis_is (or_default axis (-1)) (length sh) (ndim arr)).
  { destruct axis as [z|]; cbn [axis_arg_is or_default] in *; [destruct Ha as (Hz & Ha); apply Z.eqb_neq in Hz; rewrite Hz; auto|right; lia]. }
  pose proof (denotes_frame _ _ _ HR Hi) as Fi. pose proof (denotes_frame _ _ _ HR Hj) as Fj.
  assert (HL' : lookup_transform squad (frames w) i (PFrame j) = Ok (TrStatic t r)).
  { rewrite <- HL. unfold lookup_transform. rewrite (denotes_resolve _ _ _ Hj), (denotes_resolve _ (PFrame j) j); auto. left; auto. }
  destruct (call_static squad (frames w) i j t r Points arr sh (or_default axis (-1)) None) as (out & E & So & Do); auto.
  assert (Hn : 0 < ndim out). { unfold ndim. rewrite So, Hs, app_length. cbn. lia. }
  destruct (C24_default_partial out Hn) as (out' & E' & Es & Ed).
  pose proof (C24_partial squad (frames w) i arr (PFrame j) (or_default axis (-1)) 0%Z) as (C & _). unfold swapped_result in C. cbn [call_method] in E. rewrite E in C. rewrite E' in C. cbn [bind] in C.
  exists out'. split; [|split; [congruence|]].
  - unfold transform, maybe_unpack. cbn [same_axis_check u_ts bind u_lab u_arr u_axis u_time_axis].
    rewrite (denotes_resolve _ _ _ Hi), (denotes_resolve _ _ _ Hj). cbn [bind call_method]. change (or_default None 0) with 0%Z. rewrite C. reflexivity.
  - intros pre Hv. specialize (Do pre Hv). cbn [moved] in Do. rewrite <- Do. unfold vec_at. 
    assert (V : forall c, c < 3 -> valid (shp out') (pre ++ [c])%list).
    { intros c Hc. rewrite Es, So, Hs. unfold valid. apply Forall2_app; auto. }
    rewrite !Ed by (apply V; lia). reflexivity.
Qed.
(** transform_coordinates, any axis but the first. *)
Theorem C42_coordinates_partial : forall w a into o n f axis k replace b, conversion o into n f ->
  0 < k < ndim a -> axis_arg_is axis k (ndim a) -> f a (Z.of_nat k) = Ok b ->
  transform_coordinates w (Plain a) into (Some o) None axis replace = (w, Ok (RPlain b None)).
Proof.
  intros w a into o n f axis k replace b Hcv Hk Ha Hf.
  assert (Hax : axis_is (or_default axis (-1)) k (ndim a)).
  { destruct axis as [z|]; cbn [axis_arg_is or_default] in *; [destruct Ha as (Hz & Ha); apply Z.eqb_neq in Hz; rewrite Hz; auto|right; lia]. }
  assert (Hf' : f a (or_default axis (-1)) = Ok b).
  { rewrite <- Hf. eapply conversion_axis; eauto. rewrite !(axis_is_norm _ k); auto; try lia. left; auto. }
  unfold transform_coordinates, maybe_unpack, same_axis_check. cbn [u_ts u_time_axis u_arr u_axis].
  destruct (Nat.eqb_spec (ndim a) 0); [lia|]. rewrite (axis_mod _ k) by (auto; lia). change (or_default None 0) with 0%Z. rewrite Z.mod_0_l by lia.
  destruct (Z.eqb_spec (Z.of_nat k) 0); [lia|]. cbn [u_lab u_arr u_axis bind]. rewrite (cs_conversion _ _ _ _ Hcv). rewrite Hf'. reflexivity.
Qed.
Example C42_example : let arr := Nd [2; 3; 5] (fun _ => 1%R) in shp arr = put 1 3 [2; 5] /\
  axis_arg_is (Some 1%Z) 1 (ndim arr) /\ axis_arg_is (Some (-2)%Z) 1 (ndim arr) /\
  denotes ex_lit (PName "c"%string) 3 /\ denotes ex_lit (PFrame 0) 0 /\
  lookup_transform hold_squad ex_lit 3 (PFrame 0) = Ok (TrStatic (V3 5 0 0) (Qt 1 0 0 0)) /\
  conversion "spherical" "cartesian" 3 spherical_to_cartesian /\ exists b, spherical_to_cartesian arr (Z.of_nat 1) = Ok b.
Proof.
  cbv zeta. split; [reflexivity|]. split; [split; [lia|left; reflexivity]|]. split; [split; [lia|right; reflexivity]|].
  split; [right; exists "c"%string; split; reflexivity|]. split; [apply c_world_frames|]. split; [apply c_to_world|]. split; [constructor|]. eexists; reflexivity.
Qed.

(** axis=0 is the default axis, the last one, in every function. *)
Theorem C42_zero : forall squad m w arr into outof ts time_axis dim cs co replace svd frm nearest v1 v2 init mi tol,
  transform squad m w (Plain arr) into outof dim (Some 0%Z) ts time_axis = transform squad m w (Plain arr) into outof dim None ts time_axis /\
  transform_coordinates w (Plain arr) cs co dim (Some 0%Z) replace = transform_coordinates w (Plain arr) cs co dim None replace /\
  shortest_arc_rotation v1 v2 (Some 0%Z) = shortest_arc_rotation v1 v2 None /\
  best_fit_rotation svd frm v1 v2 (Some 0%Z) = best_fit_rotation svd frm v1 v2 None /\
  best_fit_transform svd frm v1 v2 (Some 0%Z) = best_fit_transform svd frm v1 v2 None /\
  iterative_closest_point svd frm nearest v1 v2 (Some 0%Z) init mi tol = iterative_closest_point svd frm nearest v1 v2 None init mi tol.
Proof. intros. repeat split; reflexivity. Qed.
(** So a square array with the coordinates first is transformed along the wrong axis: the
    polar points (1, PI/2) and (0, 0) in the columns of an array. *)
Definition polar22 : nd R := Nd [2; 2] (fun ix => match ix with [0; 0] => 1 | [1; 0] => PI / 2 | _ => 0 end)%R.
Theorem C42_refuted : exists out, 
  transform_coordinates (World ex_lit []) (Plain polar22) "cartesian" (Some "polar"%string) None (Some 0%Z) true = (World ex_lit [], Ok (RPlain out None)) /\
  at_ out 0 0 [0] = 1%R /\ at_ out 0 1 [0] = (PI / 2)%R /\
  exists right, polar_to_cartesian polar22 0 = Ok right /\ at_ right 0 0 [0] = 0%R /\ at_ right 0 1 [0] = 1%R.
Proof.
  destruct (C42_zero hold_squad Vectors (World ex_lit []) polar22 POther None TNone None None "cartesian" (Some "polar"%string) true some_svd shepperd (fun _ _ => 0) polar22 polar22 None 0%Z 0%R) as (_ & E & _).
  rewrite E. destruct (p2c polar22 1 2 [2] (-1)) as (out & E1 & S1 & D1); [reflexivity|cbn; lia|right; reflexivity|reflexivity|].
  destruct (p2c polar22 0 2 [2] 0) as (right & E2 & S2 & D2); [reflexivity|cbn; lia|left; reflexivity|reflexivity|].
  exists out. split.
  { unfold transform_coordinates. cbn. rewrite E1. reflexivity. }
  assert (V : forall i, i < 2 -> valid [2] [i]) by (intros i Hi; constructor; [exact Hi|constructor]).
  assert (G : at_ out 0 0 [0] = 1%R /\ at_ out 0 1 [0] = (PI / 2)%R).
  { destruct (D1 [0] (V 0 ltac:(lia))) as (A & _). destruct (D1 [1] (V 1 ltac:(lia))) as (B & _). unfold at_ in *. cbn [put] in *.
    rewrite A, B. cbn. rewrite cos_0. split; ring. }
  destruct G as (G1 & G2). split; auto. split; auto. exists right. split; auto. destruct (D2 [0] (V 0 ltac:(lia))) as (A & B). rewrite A, B. unfold at_. cbn [put]. cbn. rewrite cos_PI2, sin_PI2. split; ring.
Qed.
(** A single point as a plain one-dimensional array is refused by transform_coordinates,
    whatever the axis: the only axis is taken for the time axis. *)
Theorem C42_single_refused : forall w a into outof dim axis replace, ndim a = 1 ->
  transform_coordinates w (Plain a) into outof dim axis replace = (w, Raise ValueError).
Proof.
  intros w a into outof dim axis replace H. unfold transform_coordinates, maybe_unpack. destruct dim; [reflexivity|].
  unfold same_axis_check. cbn [u_ts u_time_axis u_arr u_axis]. rewrite H. cbn [Nat.eqb Z.of_nat]. rewrite !Z.mod_1_r. reflexivity.
Qed.
