(** Property C22 for the library's own interpolation of orientations: the theorems
    of PropTransform.v for the model np_squad of quaternion.squad, of which C79 proves what they assume.
    Concrete cases stand beside those theorems, and with np_squad in ClosedMoving.v and PropSquadEx.v. *)
From Coq Require Import Reals List Arith Bool ZArith Lia Lra.
From Verif Require Import Base Quat SpecQuat QuatProofs NdArray Frames SpecForest FrameProofs WalkProofs
  Matcher SpecLookup LookupProofs RegistryProofs MovingProofs TimeProofs CtorProofs InverseProofs RouteProofs
  Examples PropForest PropLookup PropMoving
  Transform SpecArray NdProofs RotProofs ArrProofs ArrTransProofs ArrStaticProofs PropTransform.
Import ListNotations.
Open Scope nat_scope.
From Verif Require Squad PropSquad Spline PropConverge.
Ltac close G :=
  destruct PropSquad.C79_contract as (?Hu & ?He & ?Ht & ?Hc); pose proof (proj1 PropConverge.C80_contract) as ?Hs;
  repeat match type of G with
  | MovingProofs.squad_unit Squad.np_squad -> _ => specialize (G Hu)
  | InverseProofs.squad_exact Squad.np_squad -> _ => specialize (G He)
  | RouteProofs.squad_total Squad.np_squad -> _ => specialize (G Ht)
  | Spline.spline_derivative Spline.np_derivative -> _ => specialize (G Hs)
  | forall _, _ => let y := fresh in intro y; specialize (G y)
  end; exact G.

Theorem C22_points_closed : forall s i to j arr ta tsa tau n sh out o, reachable s ->
  frame s i -> denotes s to j -> unit_way s i j -> stamped arr 3 ta tsa tau n sh ->
  transform_points Squad.np_squad s i arr to (-1) (Some ta) (Some tsa) = Ok (out, o) ->
  exists l, o = Some l /\ per_sample Squad.np_squad s i j tsa tau n sh 3 l out
    (fun k m pre t r => vec_at out (put tau k pre) = smove t r (vec_at arr (put tau m pre))).
Proof. pose proof (C22_points Squad.np_squad) as G. close G. Qed.

Theorem C22_vectors_closed : forall s i to j arr ta tsa tau n sh out o, reachable s ->
  frame s i -> denotes s to j -> unit_way s i j -> stamped arr 3 ta tsa tau n sh ->
  transform_vectors Squad.np_squad s i arr to (-1) (Some ta) (Some tsa) = Ok (out, o) ->
  exists l, o = Some l /\ per_sample Squad.np_squad s i j tsa tau n sh 3 l out
    (fun k m pre t r => vec_at out (put tau k pre) = srot r (vec_at arr (put tau m pre))).
Proof. pose proof (C22_vectors Squad.np_squad) as G. close G. Qed.

(** Orientations must be unit quaternions. *)
Theorem C22_quaternions_closed : forall s i to j arr ta tsa tau n sh out o, reachable s ->
  frame s i -> denotes s to j -> unit_way s i j -> stamped arr 4 ta tsa tau n sh ->
  (forall m pre, m < n -> valid sh pre -> hunit (quat_at arr (put tau m pre))) ->
  transform_quaternions Squad.np_squad s i arr to (-1) (Some ta) (Some tsa) = Ok (out, o) ->
  exists l, o = Some l /\ per_sample Squad.np_squad s i j tsa tau n sh 4 l out
    (fun k m pre t r => quat_at out (put tau k pre) = hmul r (quat_at arr (put tau m pre))).
Proof. pose proof (C22_quaternions Squad.np_squad) as G. close G. Qed.

(** And such a transform succeeds: no range error, no refusal. *)
Theorem C22_points_succeed_closed : forall s i to j arr ta tsa tau n sh, reachable s ->
  frame s i -> denotes s to j -> good_way s i j -> stamped arr 3 ta tsa tau n sh ->
  exists out l, transform_points Squad.np_squad s i arr to (-1) (Some ta) (Some tsa) = Ok (out, Some l).
Proof. pose proof (C22_points_succeed Squad.np_squad) as G. close G. Qed.

Theorem C22_vectors_succeed_closed : forall s i to j arr ta tsa tau n sh, reachable s ->
  frame s i -> denotes s to j -> good_way s i j -> stamped arr 3 ta tsa tau n sh ->
  exists out l, transform_vectors Squad.np_squad s i arr to (-1) (Some ta) (Some tsa) = Ok (out, Some l).
Proof. pose proof (C22_vectors_succeed Squad.np_squad) as G. close G. Qed.

Theorem C22_quaternions_succeed_closed : forall s i to j arr ta tsa tau n sh, reachable s ->
 frame s i -> denotes s to j -> good_way s i j -> stamped arr 4 ta tsa tau n sh ->
  (forall m pre, m < n -> valid sh pre -> hunit (quat_at arr (put tau m pre))) ->
  exists out l, transform_quaternions Squad.np_squad s i arr to (-1) (Some ta) (Some tsa) = Ok (out, Some l).
Proof. pose proof (C22_quaternions_succeed Squad.np_squad) as G. close G. Qed.

(** A single point, vector or orientation without timestamps against moving
    frames: one row per timestamp of the looked-up transform. *)
Theorem C22_single_closed : forall s i to j l rows, reachable s ->
  frame s i -> denotes s to j -> unit_way s i j ->
  lookup_transform Squad.np_squad s i to = Ok (TrRows l rows) -> forall p o,
  exists op ov oq,
    transform_points Squad.np_squad s i (point p) to (-1) (Some 0%Z) None = Ok (op, Some l) /\ shp op = [length l; 3] /\
    transform_vectors Squad.np_squad s i (point p) to (-1) (Some 0%Z) None = Ok (ov, Some l) /\ shp ov = [length l; 3] /\
    transform_quaternions Squad.np_squad s i (orient o) to (-1) (Some 0%Z) None = Ok (oq, Some l) /\ shp oq = [length l; 4] /\
    forall k x, nth_error l k = Some x -> exists t r, maps_at Squad.np_squad s x i j t r /\
      vec_at op [k] = smove t r p /\ vec_at ov [k] = srot r p /\ quat_at oq [k] = hmul r o.
Proof. pose proof (C22_single Squad.np_squad) as G. close G. Qed.
