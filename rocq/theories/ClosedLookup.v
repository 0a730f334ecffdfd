(** Property C15 for the library's own interpolation of orientations: the theorems
    of PropLookup.v for the model np_squad of quaternion.squad, of which C79 proves what they assume.
    Concrete cases stand beside those theorems, and with np_squad in ClosedMoving.v and PropSquadEx.v. *)
From Coq Require Import Reals List String Arith Bool Lia Lra.
From Verif Require Import Base Quat SpecQuat QuatProofs NdArray Frames SpecForest
  FrameProofs WalkProofs Matcher SpecLookup LookupProofs RegistryProofs MovingProofs TimeProofs
  CtorProofs InverseProofs RouteProofs Examples PropForest PropLookup.
Import ListNotations.
Open Scope R_scope.
From Verif Require Squad PropSquad Spline PropConverge.
Ltac close G :=
  destruct PropSquad.C79_contract as (?Hu & ?He & ?Ht & ?Hc); pose proof (proj1 PropConverge.C80_contract) as ?Hs;
  repeat match type of G with
  | MovingProofs.squad_unit Squad.np_squad -> _ => specialize (G Hu)
  | InverseProofs.squad_exact Squad.np_squad -> _ => specialize (G He)
  | RouteProofs.squad_total Squad.np_squad -> _ => specialize (G Ht)
  | Spline.spline_derivative Spline.np_derivative -> _ => specialize (G Hs)
  | forall _, _ => let y := fresh in intro y; specialize (G y)
  end; exact G.

(** The same for a moving frame with unit rotations: the stored timestamps,
    translations and rotations come back row by row.  Continuous frames need two
    strictly increasing samples, discrete ones an event; squad must return the
    samples at the sampling times. *)
Theorem C15_moving_closed : forall s c p k tsa ta ra n, reachable s -> c_parent c = Some p -> denotes s p k ->
  c_inverse c = true ->
  c_ts c = Some tsa -> shp tsa = [n] ->
  c_tr c = Some ta -> shp ta = [n; 3%nat] -> c_ro c = Some ra -> shp ra = [n; 4%nat] ->
  sampled (map (fun i => dat tsa [i]) (seq 0 n)) (c_discrete c) ->
  (forall i, (i < n)%nat -> hunit (quat_at ra [i])) ->
  exists s' i, new_frame s c = (s', Ok i) /\
    lookup_transform Squad.np_squad s' k (PFrame i) =
      Ok (TrRows (map (fun i => dat tsa [i]) (seq 0 n))
                 (map (fun i => (vec_at ta [i], quat_at ra [i])) (seq 0 n))).
Proof. pose proof (C15_moving Squad.np_squad) as G. close G. Qed.
