(** Property C81 for the library's own interpolation of orientations: the theorems
    of PropLookVel.v for the model np_squad of quaternion.squad, of which C79 proves what they assume.
    Concrete cases stand beside those theorems, and with np_squad in ClosedMoving.v and PropSquadEx.v. *)
From Coq Require Import Reals List Arith Bool ZArith Lia Lra Sorted.
From Coq Require String.
From Coquelicot Require Import Coquelicot.
From Verif Require Import Base Quat SpecQuat QuatProofs NdArray Frames SpecForest FrameProofs WalkProofs
  Matcher SpecLookup LookupProofs RegistryProofs MovingProofs TimeProofs CtorProofs InverseProofs RouteProofs
  Examples PropForest PropLookup PropMoving
  Transform SpecArray NdProofs RotProofs ArrProofs ArrTransProofs ArrStaticProofs PropTransform PropRotate
  UtilsProofs Velocity VelProofs PropVelocity SpecMotion MotionProofs PropAngular VelFrames VelFrameProofs PropVelFrames
  Squad SquadProofs Spline PropConverge LookVelProofs PropConsist PropLookVel.
Import ListNotations.
Open Scope R_scope.
From Verif Require Squad PropSquad Spline PropConverge.
Ltac close G :=
  destruct PropSquad.C79_contract as (?Hu & ?He & ?Ht & ?Hc); pose proof (proj1 PropConverge.C80_contract) as ?Hs;
  repeat match type of G with
  | MovingProofs.squad_unit Squad.np_squad -> _ => specialize (G Hu)
  | InverseProofs.squad_exact Squad.np_squad -> _ => specialize (G He)
  | RouteProofs.squad_total Squad.np_squad -> _ => specialize (G Ht)
  | Spline.spline_derivative Spline.np_derivative -> _ => specialize (G Hs)
  | forall _, _ => let y := fresh in intro y; specialize (G y)
  end; exact G.

(** lookup_linear_velocity.  o is the motion in the reference frame j of the origin
    of frame i, with acceleration at most M2 and jerk at most M3; the looked-up
    transformation samples it at times ts, at most H apart.  The result has one row
    for every sample in range of the moving frames between j and the representation
    frame k: the velocity, in the axes of k, up to the stated error. *)
Theorem C81_linear_closed : forall s i ref rep j k ts rows allow (o : nat -> R -> vec3) M2 M3 H,
  reachable s -> frame s i -> denotes s ref j -> denotes s rep k ->
  ref <> PName String.EmptyString -> rep <> PName String.EmptyString -> good_way s i j -> good_way s j k ->
  lookup_transform Squad.np_squad s i ref = Ok (TrRows ts rows) -> (2 <= List.length ts)%nat -> spaced_by ts H ->
  vderivatives o 3 -> (forall t, vnorm (o 2%nat t) <= M2) -> (forall t, vnorm (o 3%nat t) <= M3) ->
  (forall m x t r, nth_error ts m = Some x -> nth_error rows m = Some (t, r) -> t = o 0%nat x) ->
  exists w l, lookup_linear_velocity Squad.np_squad s i (Some ref) (Some rep) allow true = Ok (w, Some (Some l)) /\
    shp w = [List.length l; 3%nat] /\ kept_samples s j k ts [] l /\
    forall n x, nth_error l n = Some x -> exists m t r, nth_error ts m = Some x /\ maps_at Squad.np_squad s x j k t r /\
      vnorm (vsub (vec_at w [n]) (srot r (o 1%nat x))) <= lin_err ts m M2 M3 H.
Proof. pose proof (C81_linear Squad.np_squad) as G. close G. Qed.

(** lookup_angular_velocity.  q is the orientation curve of frame i in the reference
    frame j, its fourth derivative bounded by M. *)
Theorem C81_angular_closed : forall s i ref rep j k ts rows allow (q : nat -> R -> quat) M H rho,
  reachable s -> frame s i -> denotes s ref j -> denotes s rep k ->
  ref <> PName String.EmptyString -> rep <> PName String.EmptyString -> good_way s i j -> good_way s i k ->
  lookup_transform Squad.np_squad s i ref = Ok (TrRows ts rows) -> (4 <= List.length ts)%nat -> spaced_by ts H -> even_ends ts rho ->
  (forall t, hunit (q 0%nat t)) -> qderivatives q 4 -> (forall t c, (c < 4)%nat -> Rabs (comp4 c (q 4%nat t)) <= M) ->
  (forall m x t r, nth_error ts m = Some x -> nth_error rows m = Some (t, r) -> r = q 0%nat x) ->
  exists w l, lookup_angular_velocity Squad.np_squad Spline.np_derivative s i (Some ref) (Some rep) allow true = Ok (w, Some (Some l)) /\
    shp w = [List.length l; 3%nat] /\ kept_samples s i k ts [] l /\
    forall n x, nth_error l n = Some x -> exists t r wb, maps_at Squad.np_squad s x i k t r /\ body_rate (q 0%nat) x wb /\
      vnorm (vsub (vec_at w [n]) (srot r wb)) <= ang_err M H rho.
Proof. pose proof (C81_angular Squad.np_squad Spline.np_derivative) as G. close G. Qed.

Theorem C81_twist_closed : forall s i ref rep j k ts rows allow (o : nat -> R -> vec3) (q : nat -> R -> quat) M2 M3 M H rho,
  reachable s -> frame s i -> denotes s ref j -> denotes s rep k ->
  ref <> PName String.EmptyString -> rep <> PName String.EmptyString -> good_way s i j -> good_way s i k -> good_way s j k ->
  lookup_transform Squad.np_squad s i ref = Ok (TrRows ts rows) -> (4 <= List.length ts)%nat -> spaced_by ts H -> even_ends ts rho ->
  two_in_range s i k ts -> two_in_range s j k ts ->
  vderivatives o 3 -> (forall t, vnorm (o 2%nat t) <= M2) -> (forall t, vnorm (o 3%nat t) <= M3) ->
  (forall t, hunit (q 0%nat t)) -> qderivatives q 4 -> (forall t c, (c < 4)%nat -> Rabs (comp4 c (q 4%nat t)) <= M) ->
  (forall m x t r, nth_error ts m = Some x -> nth_error rows m = Some (t, r) -> t = o 0%nat x /\ r = q 0%nat x) ->
  exists lin ang l, lookup_twist Squad.np_squad Spline.np_derivative s i (Some ref) (Some rep) allow true = Ok (lin, ang, Some (Some l)) /\
    shp lin = [List.length l; 3%nat] /\ shp ang = [List.length l; 3%nat] /\ (exists f, l = filter f ts) /\
    (exists r1 r2, route (parent_of s) i k r1 /\ route (parent_of s) j k r2 /\
      forall x, In x l <-> In x ts /\ forall f tf, In f r1 \/ In f r2 -> cont_of s f = Some tf ->
        exists a b, hd_error tf = Some a /\ nth_error tf (List.length tf - 1) = Some b /\ a <= x <= b) /\
    forall n x, nth_error l n = Some x -> exists m t r t' r' wb, nth_error ts m = Some x /\
      maps_at Squad.np_squad s x j k t r /\ vnorm (vsub (vec_at lin [n]) (srot r (o 1%nat x))) <= lin_err ts m M2 M3 H /\
      maps_at Squad.np_squad s x i k t' r' /\ body_rate (q 0%nat) x wb /\ vnorm (vsub (vec_at ang [n]) (srot r' wb)) <= ang_err M H rho.
Proof. pose proof (C81_twist Squad.np_squad Spline.np_derivative) as G. close G. Qed.

(** transform_angular_velocity, what="reference_frame": the given velocities are off
    by at most e1, the looked-up ones by at most e2; the result is off by at most
    e1 + e2. *)
Theorem C81_reference_frame_closed : forall s i to j arr ts w wts (qM qR : R -> quat) e1 e2,
  reachable s -> frame s i -> denotes s to j -> to <> PName String.EmptyString ->
  good_way s i j -> two_up ts -> two_in_range s i j ts -> shp arr = [List.length ts; 3%nat] ->
  lookup_angular_velocity Squad.np_squad Spline.np_derivative s i (Some to) (Some to) true true = Ok (w, Some wts) -> enough wts ->
  (forall x, hunit (qM x)) -> oriented Squad.np_squad s i j ts qR ->
  (forall m x, nth_error ts m = Some x -> exists v, space_rate qM x v /\ vnorm (vsub (vec_at arr [m]) v) <= e1) ->
  (forall x v, In x ts -> value_at w wts x v -> exists v', space_rate qR x v' /\ vnorm (vsub v v') <= e2) ->
  exists out l,
    transform_angular_velocity Squad.np_squad Spline.np_derivative s i arr to WReference (-1) (Some 0%Z) (Some (stamps_nd ts)) = Ok (out, Some l) /\
    shp out = [List.length l; 3%nat] /\ kept_samples s i j ts [wts] l /\
    forall k x, nth_error l k = Some x -> exists v, space_rate (fun y => hmul (qR y) (qM y)) x v /\ vnorm (vsub (vec_at out [k]) v) <= e1 + e2.
Proof. pose proof (C81_reference_frame Squad.np_squad Spline.np_derivative) as G. close G. Qed.

Theorem C81_moving_frame_closed : forall s i to j arr ts w wts (qI qJ : R -> quat) e1 e2,
  reachable s -> frame s i -> denotes s to j -> to <> PName String.EmptyString ->
  good_way s i j -> good_way s j i -> two_up ts -> two_in_range s i j ts -> shp arr = [List.length ts; 3%nat] ->
  lookup_angular_velocity Squad.np_squad Spline.np_derivative s j (Some (PFrame i)) (Some to) true true = Ok (w, Some wts) -> enough wts ->
  (forall x, hunit (qI x)) -> (forall x, hunit (qJ x)) ->
  (forall x t r, In x ts -> maps_at Squad.np_squad s x i j t r -> forall v, srot (qJ x) (srot r v) = v) ->
  (forall m x, nth_error ts m = Some x -> exists v, body_rate qI x v /\ vnorm (vsub (vec_at arr [m]) v) <= e1) ->
  (forall x v, In x ts -> value_at w wts x v -> exists v', body_rate qJ x v' /\ vnorm (vsub v v') <= e2) ->
  exists out l,
    transform_angular_velocity Squad.np_squad Spline.np_derivative s i arr to WMoving (-1) (Some 0%Z) (Some (stamps_nd ts)) = Ok (out, Some l) /\
    shp out = [List.length l; 3%nat] /\ kept_samples s i j ts [wts] l /\
    forall k x, nth_error l k = Some x -> exists v, body_rate (fun y => hmul (qI y) (qJ y)) x v /\ vnorm (vsub (vec_at out [k]) v) <= e1 + e2.
Proof. pose proof (C81_moving_frame Squad.np_squad Spline.np_derivative) as G. close G. Qed.

(** transform_linear_velocity, what="reference_frame": given velocities off by e1,
    looked-up linear and angular velocities off by e2 and e3, looked-up translation
    off by e4; W bounds the angular velocity of frame i, L the distance of the moving
    frame. *)
Theorem C81_reference_frame_linear_closed : forall s i to j mf m arr ts lin ang wts tr t' tts (oM oR : R -> vec3) (qR : R -> quat) e1 e2 e3 e4 W L,
  reachable s -> frame s i -> denotes s to j -> to <> PName String.EmptyString ->
  denotes s mf m -> good_way s i j -> good_way s m i -> two_up ts -> two_in_range s i j ts -> shp arr = [List.length ts; 3%nat] ->
  lookup_twist Squad.np_squad Spline.np_derivative s i (Some to) (Some to) true true = Ok (lin, ang, Some wts) -> enough wts ->
  lookup_transform Squad.np_squad s m (PFrame i) = Ok tr ->
  transform_vectors Squad.np_squad s i (tr_t tr) to (-1) (Some 0%Z) (option_map stamps_nd (tr_ts tr)) = Ok (t', tts) -> enough tts ->
  oriented Squad.np_squad s i j ts qR ->
  (forall n x, nth_error ts n = Some x -> exists v, vderiv oM x v /\ vnorm (vsub (vec_at arr [n]) v) <= e1) ->
  (forall x v, In x ts -> value_at lin wts x v -> exists v', vderiv oR x v' /\ vnorm (vsub v v') <= e2) ->
  (forall x w, In x ts -> value_at ang wts x w -> exists w', space_rate qR x w' /\ vnorm (vsub w w') <= e3 /\ vnorm w' <= W) ->
  (forall x p, In x ts -> value_at t' tts x p -> vnorm (vsub p (srot (qR x) (oM x))) <= e4 /\ vnorm (oM x) <= L) ->
  exists out l,
    transform_linear_velocity Squad.np_squad Spline.np_derivative s i arr to WReference (Some mf) None (-1) (Some 0%Z) (Some (stamps_nd ts)) = Ok (out, Some l) /\
    shp out = [List.length l; 3%nat] /\ kept_samples s i j ts [wts; wts; tts] l /\
    forall k x, nth_error l k = Some x -> exists v, vderiv (fun y => vadd (oR y) (srot (qR y) (oM y))) x v /\
      vnorm (vsub (vec_at out [k]) v) <= e1 + e2 + (e3 * L + (W + e3) * e4).
Proof. pose proof (C81_reference_frame_linear Squad.np_squad Spline.np_derivative) as G. close G. Qed.

Theorem C81_moving_frame_linear_closed : forall s i to j ref jr arr ts lin ang lts ats tr t' tts (oI oJ : R -> vec3) (qI qJ : R -> quat) e1 e2 e3 e4 W L,
  reachable s -> frame s i -> denotes s to j ->
  denotes s ref jr -> ref <> PName String.EmptyString ->
  good_way s i j -> good_way s j i -> good_way s i jr -> two_up ts -> two_in_range s i j ts -> shp arr = [List.length ts; 3%nat] ->
  lookup_linear_velocity Squad.np_squad s j (Some (PFrame i)) (Some (PFrame j)) true true = Ok (lin, Some lts) -> enough lts ->
  lookup_angular_velocity Squad.np_squad Spline.np_derivative s i (Some ref) (Some (PFrame j)) true true = Ok (ang, Some ats) -> enough ats ->
  lookup_transform Squad.np_squad s j (PFrame i) = Ok tr ->
  transform_vectors Squad.np_squad s i (tr_t tr) (PFrame j) (-1) (Some 0%Z) (option_map stamps_nd (tr_ts tr)) = Ok (t', tts) -> enough tts ->
  (forall x, hunit (qI x)) -> (forall x, hunit (qJ x)) ->
  (forall x t r, In x ts -> maps_at Squad.np_squad s x i j t r -> forall v, srot (qJ x) (srot r v) = v) ->
  (forall n x, nth_error ts n = Some x -> exists v, vderiv oI x (srot (qI x) v) /\ vnorm (vsub (vec_at arr [n]) v) <= e1) ->
  (forall x v, In x ts -> value_at lin lts x v -> exists v', vderiv oJ x (srot (qJ x) v') /\ vnorm (vsub v v') <= e2) ->
  (forall x w, In x ts -> value_at ang ats x w -> exists w', body_rate qI x (srot (qJ x) w') /\ vnorm (vsub w w') <= e3 /\ vnorm w' <= W) ->
  (forall x p, In x ts -> value_at t' tts x p -> exists p', srot (qJ x) p' = oJ x /\ vnorm (vsub p p') <= e4 /\ vnorm (oJ x) <= L) ->
  exists out l,
    transform_linear_velocity Squad.np_squad Spline.np_derivative s i arr to WMoving None (Some ref) (-1) (Some 0%Z) (Some (stamps_nd ts)) = Ok (out, Some l) /\
    shp out = [List.length l; 3%nat] /\ kept_samples s i j ts [lts; ats; tts] l /\
    forall k x, nth_error l k = Some x -> exists v,
      vderiv (fun y => vadd (oI y) (srot (qI y) (oJ y))) x (srot (hmul (qI x) (qJ x)) v) /\
      vnorm (vsub (vec_at out [k]) v) <= e1 + e2 + (e3 * L + (W + e3) * e4).
Proof. pose proof (C81_moving_frame_linear Squad.np_squad Spline.np_derivative) as G. close G. Qed.

(** transform_angular_velocity to a new reference frame in whose motion frame i was
    recorded: off by the error of the input plus C80's. *)
Theorem C81_recorded_closed : forall s i to j arr ts rows (qM : R -> quat) (q : nat -> R -> quat) M H rho e,
  reachable s -> frame s i -> denotes s to j -> to <> PName String.EmptyString ->
  good_way s i j ->
  lookup_transform Squad.np_squad s i to = Ok (TrRows ts rows) -> (4 <= List.length ts)%nat -> spaced_by ts H -> even_ends ts rho ->
  two_in_range s i j ts -> shp arr = [List.length ts; 3%nat] ->
  oriented Squad.np_squad s i j ts (q 0%nat) -> qderivatives q 4 -> (forall t c, (c < 4)%nat -> Rabs (comp4 c (q 4%nat t)) <= M) ->
  (forall m x t r, nth_error ts m = Some x -> nth_error rows m = Some (t, r) -> r = q 0%nat x) ->
  (forall x, hunit (qM x)) ->
  (forall m x, nth_error ts m = Some x -> exists v, space_rate qM x v /\ vnorm (vsub (vec_at arr [m]) v) <= e) ->
  exists out l,
    transform_angular_velocity Squad.np_squad Spline.np_derivative s i arr to WReference (-1) (Some 0%Z) (Some (stamps_nd ts)) = Ok (out, Some l) /\
    shp out = [List.length l; 3%nat] /\ kept_samples s i j ts [] l /\
    forall k x, nth_error l k = Some x -> exists v, space_rate (fun y => hmul (q 0%nat y) (qM y)) x v /\ vnorm (vsub (vec_at out [k]) v) <= e + ang_err M H rho.
Proof. pose proof (C81_recorded Squad.np_squad Spline.np_derivative) as G. close G. Qed.
