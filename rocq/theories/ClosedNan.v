(** Property C82 for the library's own interpolation of orientations: the theorems
    of PropNan.v for the model np_squad of quaternion.squad, of which C79 proves what they assume.
    Concrete cases stand beside those theorems, and with np_squad in ClosedMoving.v and PropSquadEx.v. *)
From Coq Require Import Reals List Arith Bool ZArith Lia Lra.
From Verif Require Import Base Quat SpecQuat QuatProofs NdArray Frames SpecForest FrameProofs WalkProofs
  Matcher SpecLookup LookupProofs RegistryProofs MovingProofs TimeProofs CtorProofs InverseProofs RouteProofs
  Examples PropForest PropLookup PropMoving
  Transform SpecArray NdProofs RotProofs ArrProofs ArrTransProofs ArrStaticProofs PropTransform Velocity NanArr PropConsist PropNan.
Import ListNotations.
Open Scope nat_scope.
From Verif Require Squad PropSquad Spline PropConverge.
Ltac close G :=
  destruct PropSquad.C79_contract as (?Hu & ?He & ?Ht & ?Hc); pose proof (proj1 PropConverge.C80_contract) as ?Hs;
  repeat match type of G with
  | MovingProofs.squad_unit Squad.np_squad -> _ => specialize (G Hu)
  | InverseProofs.squad_exact Squad.np_squad -> _ => specialize (G He)
  | RouteProofs.squad_total Squad.np_squad -> _ => specialize (G Ht)
  | Spline.spline_derivative Spline.np_derivative -> _ => specialize (G Hs)
  | forall _, _ => let y := fresh in intro y; specialize (G y)
  end; exact G.

(** Timestamped arrays of any shape with NaN entries: sample k of the output belongs to
    a sample m in range, at the same time.  It is NaN (all coordinates) if sample m has
    a NaN, and also if the sample before m (for the first sample: the second) has one;
    otherwise it is the image of sample m. *)
Theorem C82_vectors_closed : forall s i to j arr ta tsa tau n sh out o, reachable s ->
  frame s i -> denotes s to j -> unit_way s i j -> stamped_nan arr ta tsa tau n sh ->
  transform_vectors_nan Squad.np_squad s i arr to (Some ta) (Some tsa) = Ok (out, o) ->
  exists l, o = Some l /\ per_sample Squad.np_squad s i j tsa tau n sh 3 l (Nd (shp out) (fun _ => 0%R))
    (fun k m pre t r => image_nan arr out tau k m pre (srot r)).
Proof. pose proof (C82_vectors Squad.np_squad) as G. close G. Qed.

Theorem C82_points_closed : forall s i to j arr ta tsa tau n sh out o, reachable s ->
  frame s i -> denotes s to j -> unit_way s i j -> stamped_nan arr ta tsa tau n sh ->
  transform_points_nan Squad.np_squad s i arr to (Some ta) (Some tsa) = Ok (out, o) ->
  exists l, o = Some l /\ per_sample Squad.np_squad s i j tsa tau n sh 3 l (Nd (shp out) (fun _ => 0%R))
    (fun k m pre t r => image_nan arr out tau k m pre (smove t r)).
Proof. pose proof (C82_points Squad.np_squad) as G. close G. Qed.

(** Such transforms succeed. *)
Theorem C82_succeed_closed : forall s i to j arr ta tsa tau n sh, reachable s ->
  frame s i -> denotes s to j -> good_way s i j -> stamped_nan arr ta tsa tau n sh ->
  (exists out l, transform_vectors_nan Squad.np_squad s i arr to (Some ta) (Some tsa) = Ok (out, Some l)) /\
  (exists out l, transform_points_nan Squad.np_squad s i arr to (Some ta) (Some tsa) = Ok (out, Some l)).
Proof. pose proof (C82_succeed Squad.np_squad) as G. close G. Qed.
