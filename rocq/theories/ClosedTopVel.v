(** Property C62 for the library's own interpolation of orientations: the theorems
    of PropTopVel.v for the model np_squad of quaternion.squad, of which C79 proves what they assume.
    Concrete cases stand beside those theorems, and with np_squad in ClosedMoving.v and PropSquadEx.v. *)
From Coq Require Import Reals String List Arith Bool ZArith Lia Lra.
From Verif Require Import Base Quat SpecQuat QuatProofs NdArray Frames SpecForest FrameProofs WalkProofs
  Matcher SpecLookup LookupProofs RegistryProofs MovingProofs TimeProofs CtorProofs InverseProofs RouteProofs
  Examples PropForest PropLookup PropMoving
  Transform SpecArray NdProofs RotProofs ArrProofs ArrTransProofs ArrStaticProofs PropTransform PropRotate
  UtilsProofs Velocity VelProofs SpecMotion MotionProofs PropAngular VelFrames VelFrameProofs PropVelFrames VelExamples
  Coord TopLevel TopProofs SpecTop TopStep PropTop TopVel PropTopVel.
Import ListNotations.
Open Scope nat_scope.
From Verif Require Squad PropSquad Spline PropConverge.
Ltac close G :=
  destruct PropSquad.C79_contract as (?Hu & ?He & ?Ht & ?Hc); pose proof (proj1 PropConverge.C80_contract) as ?Hs;
  repeat match type of G with
  | MovingProofs.squad_unit Squad.np_squad -> _ => specialize (G Hu)
  | InverseProofs.squad_exact Squad.np_squad -> _ => specialize (G He)
  | RouteProofs.squad_total Squad.np_squad -> _ => specialize (G Ht)
  | Spline.spline_derivative Spline.np_derivative -> _ => specialize (G Hs)
  | forall _, _ => let y := fresh in intro y; specialize (G y)
  end; exact G.

(** lookup_angular_velocity(as_dataarray=True): reference j by default the parent,
    representation k by default j; if the samples of the orientation of i in j lie on a
    curve q on which the differentiator is exact, the rows are the true angular velocity
    of i in j in the axes of k, and the labels say so. *)
Theorem C62_angular_closed : forall w fr ref rep i j k ts rows (q dq : R -> quat),
  reachable (frames w) ->
  denotes (frames w) fr i -> refers (frames w) i ref j -> represents (frames w) j rep k ->
  good_way (frames w) i j -> good_way (frames w) i k ->
  lookup_transform Squad.np_squad (frames w) i (PFrame j) = Ok (TrRows ts rows) -> 2 <= List.length ts ->
  (forall x, hunit (q x)) -> (forall x, qderiv q x (dq x)) ->
  (forall m x t r, nth_error ts m = Some x -> nth_error rows m = Some (t, r) -> r = q x) ->
  (forall c, c < 4 -> exact_on Spline.np_derivative ts (seq 0 (List.length ts)) (fun x => comp4 c (q x)) (fun x => comp4 c (dq x))) ->
  exists w' d l, lookup_velocity_da Squad.np_squad Spline.np_derivative true w fr ref rep = (w', Ok d) /\ attrs_kept w w' /\ data_array w' d /\
    labelled w' d true i j k l /\ kept_samples (frames w) i k ts [] l /\
    forall n x, nth_error l n = Some x -> exists t r wb, maps_at Squad.np_squad (frames w) x i k t r /\ body_rate q x wb /\
      vec_at (da_data d) [n] = srot r wb.
Proof. pose proof (C62_angular Squad.np_squad Spline.np_derivative) as G. close G. Qed.

(** lookup_linear_velocity(as_dataarray=True) of a frame whose samples move uniformly. *)
Theorem C62_linear_closed : forall w fr ref rep i j k ts rows (p v : vec3),
  reachable (frames w) ->
  denotes (frames w) fr i -> refers (frames w) i ref j -> represents (frames w) j rep k ->
  good_way (frames w) i j -> good_way (frames w) j k ->
  lookup_transform Squad.np_squad (frames w) i (PFrame j) = Ok (TrRows ts rows) -> 2 <= List.length ts ->
  (forall m x t r, nth_error ts m = Some x -> nth_error rows m = Some (t, r) -> t = vadd p (vscale x v)) ->
  exists w' d l, lookup_velocity_da Squad.np_squad Spline.np_derivative false w fr ref rep = (w', Ok d) /\ attrs_kept w w' /\ data_array w' d /\
    labelled w' d false i j k l /\ kept_samples (frames w) j k ts [] l /\
    forall n x, nth_error l n = Some x -> exists t r, maps_at Squad.np_squad (frames w) x j k t r /\ vec_at (da_data d) [n] = srot r v.
Proof. pose proof (C62_linear Squad.np_squad Spline.np_derivative) as G. close G. Qed.

(** lookup_twist(as_dataset=True): both variables have the same times and labels, and
    hold the two individual velocities, the linear one interpolated at the times of the
    angular one. *)
Theorem C62_twist_closed : forall w fr ref rep i j k lin ll ang la,
  reachable (frames w) ->
  denotes (frames w) fr i -> refers (frames w) i ref j -> represents (frames w) j rep k ->
  good_way (frames w) i j -> good_way (frames w) i k -> good_way (frames w) j k ->
  lookup_linear_velocity Squad.np_squad (frames w) i (Some (PFrame j)) (Some (PFrame k)) false true = Ok (lin, Some (Some ll)) ->
  lookup_angular_velocity Squad.np_squad Spline.np_derivative (frames w) i (Some (PFrame j)) (Some (PFrame k)) false true = Ok (ang, Some (Some la)) ->
  2 <= List.length ll -> 2 <= List.length la ->
  exists w' da dl l, lookup_twist_ds Squad.np_squad Spline.np_derivative w fr ref rep = (w', Ok (da, dl)) /\ attrs_kept w w' /\
    data_array w' da /\ data_array w' dl /\ labelled w' da true i j k l /\ labelled w' dl false i j k l /\
    (exists f, l = filter f la) /\
    (forall x, In x l <-> In x la /\ exists a b, hd_error ll = Some a /\ nth_error ll (List.length ll - 1) = Some b /\ (a <= x <= b)%R) /\
    forall n x, nth_error l n = Some x -> value_at lin (Some ll) x (vec_at (da_data dl) [n]) /\
      forall m, nth_error la m = Some x -> vec_at (da_data da) [n] = vec_at ang [m].
Proof. pose proof (C62_twist Squad.np_squad Spline.np_derivative) as G. close G. Qed.

(** Change of representation only: every row is rotated, reference_frame and
    moving_frame stay. *)
Theorem C62_representation_closed : forall m w d cn ts v i into j,
  reachable (frames w) ->
  velocity_series w d "time" cn (List.length ts) (stamps_nd ts) ->
  attr w d "representation_frame" = Some (Some v) -> lookup v (reg (frames w)) = Some i -> denotes (frames w) into j ->
  good_way (frames w) i j -> two_up ts ->
  exists w' d' l, transform_velocity Squad.np_squad Spline.np_derivative m w (Lab d) into None (Some "representation_frame"%string) None None TNone None = (w', Ok (RLab d')) /\
    transformed w w' d d' "time" "representation_frame" j (da_data d') l /\ kept_samples (frames w) i j ts [] l /\
    forall k x, nth_error l k = Some x -> exists n t r, nth_error ts n = Some x /\ maps_at Squad.np_squad (frames w) x i j t r /\
      vec_at (da_data d') [k] = srot r (vec_at (da_data d) [n]).
Proof. pose proof (C62_representation Squad.np_squad Spline.np_derivative) as G. close G. Qed.
