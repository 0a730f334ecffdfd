(** Properties C32, C34, C35, C36, C37 for the library's own interpolation of orientations: the theorems
    of PropVelFrames.v for the model np_squad of quaternion.squad, of which C79 proves what they assume.
    Concrete cases stand beside those theorems, and with np_squad in ClosedMoving.v and PropSquadEx.v. *)
From Coq Require Import Reals List Arith Bool ZArith Lia Lra Sorted.
From Coq Require String.
From Verif Require Import Base Quat SpecQuat QuatProofs NdArray Frames SpecForest FrameProofs WalkProofs
  Matcher SpecLookup LookupProofs RegistryProofs MovingProofs TimeProofs CtorProofs InverseProofs RouteProofs
  Examples PropForest PropLookup PropMoving
  Transform SpecArray NdProofs RotProofs ArrProofs ArrTransProofs ArrStaticProofs PropTransform PropRotate
  UtilsProofs Velocity VelProofs SpecMotion MotionProofs PropAngular VelFrames VelFrameProofs PropVelFrames.
Import ListNotations.
Open Scope R_scope.
From Verif Require Squad PropSquad Spline PropConverge.
Ltac close G :=
  destruct PropSquad.C79_contract as (?Hu & ?He & ?Ht & ?Hc); pose proof (proj1 PropConverge.C80_contract) as ?Hs;
  repeat match type of G with
  | MovingProofs.squad_unit Squad.np_squad -> _ => specialize (G Hu)
  | InverseProofs.squad_exact Squad.np_squad -> _ => specialize (G He)
  | RouteProofs.squad_total Squad.np_squad -> _ => specialize (G Ht)
  | Spline.spline_derivative Spline.np_derivative -> _ => specialize (G Hs)
  | forall _, _ => let y := fresh in intro y; specialize (G y)
  end; exact G.

(** C35, what="reference_frame".  arr holds the angular velocity of a moving frame M
    in frame i, in the axes of i, at the times ts; qM is the orientation of M in i and
    qR that of i in the new reference frame j.  If arr and the looked-up angular
    velocity of i in j are true at the times ts, so is the result: the angular
    velocity of M in j, in the axes of j. *)
Theorem C35_reference_frame_closed : forall s i to j arr ts w wts (qM qR : R -> quat),
  reachable s -> frame s i -> denotes s to j -> to <> PName String.EmptyString ->
  good_way s i j -> two_up ts -> two_in_range s i j ts -> shp arr = [List.length ts; 3%nat] ->
  lookup_angular_velocity Squad.np_squad Spline.np_derivative s i (Some to) (Some to) true true = Ok (w, Some wts) -> enough wts ->
  (forall x, hunit (qM x)) -> oriented Squad.np_squad s i j ts qR ->
  (forall m x, nth_error ts m = Some x -> space_rate qM x (vec_at arr [m])) ->
  (forall x v, In x ts -> value_at w wts x v -> space_rate qR x v) ->
  exists out l,
    transform_angular_velocity Squad.np_squad Spline.np_derivative s i arr to WReference (-1) (Some 0%Z) (Some (stamps_nd ts)) = Ok (out, Some l) /\
    shp out = [List.length l; 3%nat] /\ kept_samples s i j ts [wts] l /\
    forall k x, nth_error l k = Some x -> space_rate (fun y => hmul (qR y) (qM y)) x (vec_at out [k]).
Proof. pose proof (C35_reference_frame Squad.np_squad Spline.np_derivative) as G. close G. Qed.

(** C35, what="moving_frame".  arr holds the angular velocity of frame i in a
    reference frame R, in the axes of i; qI is the orientation of i in R and qJ that of
    the new moving frame j in i.  The result is the angular velocity of j in R, in the
    axes of j. *)
Theorem C35_moving_frame_closed : forall s i to j arr ts w wts (qI qJ : R -> quat),
  reachable s -> frame s i -> denotes s to j -> to <> PName String.EmptyString ->
  good_way s i j -> good_way s j i -> two_up ts -> two_in_range s i j ts -> shp arr = [List.length ts; 3%nat] ->
  lookup_angular_velocity Squad.np_squad Spline.np_derivative s j (Some (PFrame i)) (Some to) true true = Ok (w, Some wts) -> enough wts ->
  (forall x, hunit (qI x)) -> (forall x, hunit (qJ x)) ->
  (forall x t r, In x ts -> maps_at Squad.np_squad s x i j t r -> forall v, srot (qJ x) (srot r v) = v) ->
  (forall m x, nth_error ts m = Some x -> body_rate qI x (vec_at arr [m])) ->
  (forall x v, In x ts -> value_at w wts x v -> body_rate qJ x v) ->
  exists out l,
    transform_angular_velocity Squad.np_squad Spline.np_derivative s i arr to WMoving (-1) (Some 0%Z) (Some (stamps_nd ts)) = Ok (out, Some l) /\
    shp out = [List.length l; 3%nat] /\ kept_samples s i j ts [wts] l /\
    forall k x, nth_error l k = Some x -> body_rate (fun y => hmul (qI y) (qJ y)) x (vec_at out [k]).
Proof. pose proof (C35_moving_frame Squad.np_squad Spline.np_derivative) as G. close G. Qed.

(** C36, what="reference_frame".  oM is the position of the moving frame in frame i,
    arr its velocity in i; (oR, qR) is the motion of i in the new reference frame j.
    If arr, the looked-up twist of i in j and the looked-up translation are true at the
    times ts, the result is the velocity in j of the moving frame's origin. *)
Theorem C36_reference_frame_closed : forall s i to j mf m arr ts lin ang wts tr t' tts (oM oR : R -> vec3) (qR : R -> quat),
  reachable s -> frame s i -> denotes s to j -> to <> PName String.EmptyString ->
  denotes s mf m -> good_way s i j -> good_way s m i -> two_up ts -> two_in_range s i j ts -> shp arr = [List.length ts; 3%nat] ->
  lookup_twist Squad.np_squad Spline.np_derivative s i (Some to) (Some to) true true = Ok (lin, ang, Some wts) -> enough wts ->
  lookup_transform Squad.np_squad s m (PFrame i) = Ok tr ->
  transform_vectors Squad.np_squad s i (tr_t tr) to (-1) (Some 0%Z) (option_map stamps_nd (tr_ts tr)) = Ok (t', tts) -> enough tts ->
  oriented Squad.np_squad s i j ts qR ->
  (forall n x, nth_error ts n = Some x -> vderiv oM x (vec_at arr [n])) ->
  (forall x v, In x ts -> value_at lin wts x v -> vderiv oR x v) ->
  (forall x w, In x ts -> value_at ang wts x w -> space_rate qR x w) ->
  (forall x p, In x ts -> value_at t' tts x p -> p = srot (qR x) (oM x)) ->
  exists out l,
    transform_linear_velocity Squad.np_squad Spline.np_derivative s i arr to WReference (Some mf) None (-1) (Some 0%Z) (Some (stamps_nd ts)) = Ok (out, Some l) /\
    shp out = [List.length l; 3%nat] /\ kept_samples s i j ts [wts; wts; tts] l /\
    forall k x, nth_error l k = Some x -> vderiv (fun y => vadd (oR y) (srot (qR y) (oM y))) x (vec_at out [k]).
Proof. pose proof (C36_reference_frame Squad.np_squad Spline.np_derivative) as G. close G. Qed.

(** C36, what="moving_frame".  (oI, qI) is the motion of frame i in the reference frame
    R, (oJ, qJ) that of the new moving frame j in i; arr is the velocity of i in R in the
    axes of i.  The result is the velocity in R of the origin of j, in the axes of j. *)
Theorem C36_moving_frame_closed : forall s i to j ref jr arr ts lin ang lts ats tr t' tts (oI oJ : R -> vec3) (qI qJ : R -> quat),
  reachable s -> frame s i -> denotes s to j ->
  denotes s ref jr -> ref <> PName String.EmptyString ->
  good_way s i j -> good_way s j i -> good_way s i jr -> two_up ts -> two_in_range s i j ts -> shp arr = [List.length ts; 3%nat] ->
  lookup_linear_velocity Squad.np_squad s j (Some (PFrame i)) (Some (PFrame j)) true true = Ok (lin, Some lts) -> enough lts ->
  lookup_angular_velocity Squad.np_squad Spline.np_derivative s i (Some ref) (Some (PFrame j)) true true = Ok (ang, Some ats) -> enough ats ->
  lookup_transform Squad.np_squad s j (PFrame i) = Ok tr ->
  transform_vectors Squad.np_squad s i (tr_t tr) (PFrame j) (-1) (Some 0%Z) (option_map stamps_nd (tr_ts tr)) = Ok (t', tts) -> enough tts ->
  (forall x, hunit (qI x)) -> (forall x, hunit (qJ x)) ->
  (forall x t r, In x ts -> maps_at Squad.np_squad s x i j t r -> forall v, srot (qJ x) (srot r v) = v) ->
  (forall n x, nth_error ts n = Some x -> vderiv oI x (srot (qI x) (vec_at arr [n]))) ->
  (forall x v, In x ts -> value_at lin lts x v -> vderiv oJ x (srot (qJ x) v)) ->
  (forall x w, In x ts -> value_at ang ats x w -> body_rate qI x (srot (qJ x) w)) ->
  (forall x p, In x ts -> value_at t' tts x p -> srot (qJ x) p = oJ x) ->
  exists out l,
    transform_linear_velocity Squad.np_squad Spline.np_derivative s i arr to WMoving None (Some ref) (-1) (Some 0%Z) (Some (stamps_nd ts)) = Ok (out, Some l) /\
    shp out = [List.length l; 3%nat] /\ kept_samples s i j ts [lts; ats; tts] l /\
    forall k x, nth_error l k = Some x ->
      vderiv (fun y => vadd (oI y) (srot (qI y) (oJ y))) x (srot (hmul (qI x) (qJ x)) (vec_at out [k])).
Proof. pose proof (C36_moving_frame Squad.np_squad Spline.np_derivative) as G. close G. Qed.

(** lookup_angular_velocity between frames in relative motion, with samples of the
    orientation curve q of frame i in the reference frame and a differentiator that is
    exact on them: the true angular velocity, in the axes of the representation frame. *)
Theorem C34_lookup_closed : forall s i ref rep j k ts rows allow (q dq : R -> quat),
  reachable s -> frame s i -> denotes s ref j -> denotes s rep k ->
  ref <> PName String.EmptyString -> rep <> PName String.EmptyString -> good_way s i j -> good_way s i k ->
  lookup_transform Squad.np_squad s i ref = Ok (TrRows ts rows) -> (2 <= List.length ts)%nat ->
  (forall x, hunit (q x)) -> (forall x, qderiv q x (dq x)) ->
  (forall m x t r, nth_error ts m = Some x -> nth_error rows m = Some (t, r) -> r = q x) ->
  (forall c, (c < 4)%nat -> exact_on Spline.np_derivative ts (seq 0 (List.length ts)) (fun x => comp4 c (q x)) (fun x => comp4 c (dq x))) ->
  exists w l, lookup_angular_velocity Squad.np_squad Spline.np_derivative s i (Some ref) (Some rep) allow true = Ok (w, Some (Some l)) /\
    shp w = [List.length l; 3%nat] /\ kept_samples s i k ts [] l /\
    forall n x, nth_error l n = Some x -> exists t r wb, maps_at Squad.np_squad s x i k t r /\ body_rate q x wb /\
      vec_at w [n] = srot r wb.
Proof. pose proof (C34_lookup Squad.np_squad Spline.np_derivative) as G. close G. Qed.

(** lookup_linear_velocity of a frame whose samples move uniformly in the reference
    frame: that velocity, in the axes of the representation frame. *)
Theorem C32_lookup_closed : forall s i ref rep j k ts rows allow (p v : vec3),
  reachable s -> frame s i -> denotes s ref j -> denotes s rep k ->
  ref <> PName String.EmptyString -> rep <> PName String.EmptyString -> good_way s i j -> good_way s j k ->
  lookup_transform Squad.np_squad s i ref = Ok (TrRows ts rows) -> (2 <= List.length ts)%nat ->
  (forall m x t r, nth_error ts m = Some x -> nth_error rows m = Some (t, r) -> t = vadd p (vscale x v)) ->
  exists w l, lookup_linear_velocity Squad.np_squad s i (Some ref) (Some rep) allow true = Ok (w, Some (Some l)) /\
    shp w = [List.length l; 3%nat] /\ kept_samples s j k ts [] l /\
    forall n x, nth_error l n = Some x -> exists t r, maps_at Squad.np_squad s x j k t r /\ vec_at w [n] = srot r v.
Proof. pose proof (C32_lookup Squad.np_squad) as G. close G. Qed.

(** lookup_twist returns the two individual lookups, matched: the timestamps of the
    angular velocity that are in range of the linear one, the linear velocity
    interpolated there. *)
Theorem C37_twist_closed : forall s i ref rep j k allow ret lin ll ang la,
  reachable s -> frame s i -> denotes s ref j -> denotes s rep k ->
  ref <> PName String.EmptyString -> rep <> PName String.EmptyString -> good_way s i j -> good_way s i k -> good_way s j k ->
  lookup_linear_velocity Squad.np_squad s i (Some ref) (Some rep) allow true = Ok (lin, Some (Some ll)) ->
  lookup_angular_velocity Squad.np_squad Spline.np_derivative s i (Some ref) (Some rep) allow true = Ok (ang, Some (Some la)) ->
  (2 <= List.length ll)%nat -> (2 <= List.length la)%nat ->
  exists lin' ang' l, lookup_twist Squad.np_squad Spline.np_derivative s i (Some ref) (Some rep) allow ret = Ok (lin', ang', if ret then Some (Some l) else None) /\
    shp lin' = [List.length l; 3%nat] /\ shp ang' = [List.length l; 3%nat] /\
    (exists f, l = filter f la) /\
    (forall x, In x l <-> In x la /\ exists a b, hd_error ll = Some a /\ nth_error ll (List.length ll - 1) = Some b /\ a <= x <= b) /\
    forall n x, nth_error l n = Some x -> value_at lin (Some ll) x (vec_at lin' [n]) /\
      forall m, nth_error la m = Some x -> vec_at ang' [n] = vec_at ang [m].
Proof. pose proof (C37_twist Squad.np_squad Spline.np_derivative) as G. close G. Qed.
