(** Property C68 for the library's own interpolation of orientations: the theorems
    of PropConsist.v for the model np_squad of quaternion.squad, of which C79 proves what they assume.
    Concrete cases stand beside those theorems, and with np_squad in ClosedMoving.v and PropSquadEx.v. *)
From Coq Require Import Reals List String Arith Bool Lia Lra Sorted.
From Verif Require Import Base Quat SpecQuat QuatProofs NdArray Frames SpecForest
  FrameProofs WalkProofs Matcher SpecLookup LookupProofs RegistryProofs MovingProofs TimeProofs
  CtorProofs InverseProofs RouteProofs Examples PropForest PropLookup PropMoving SpecConsist RelProofs PropConsist.
Import ListNotations.
Open Scope R_scope.
Open Scope list_scope.
From Verif Require Squad PropSquad Spline PropConverge.
Ltac close G :=
  destruct PropSquad.C79_contract as (?Hu & ?He & ?Ht & ?Hc); pose proof (proj1 PropConverge.C80_contract) as ?Hs;
  repeat match type of G with
  | MovingProofs.squad_unit Squad.np_squad -> _ => specialize (G Hu)
  | InverseProofs.squad_exact Squad.np_squad -> _ => specialize (G He)
  | RouteProofs.squad_total Squad.np_squad -> _ => specialize (G Ht)
  | Spline.spline_derivative Spline.np_derivative -> _ => specialize (G Hs)
  | forall _, _ => let y := fresh in intro y; specialize (G y)
  end; exact G.

(** Three lookups that have a value at time x compose there, whether each of them is
    static or moving. *)
Theorem C68_compose_closed : forall s a b c tob toc toc' tr1 tr2 tr3 x t1 r1 t2 r2 t3 r3,
  reachable s -> frame s a -> denotes s tob b -> denotes s toc c -> denotes s toc' c ->
  unit_way s a b -> unit_way s b c ->
  lookup_transform Squad.np_squad s a tob = Ok tr1 -> lookup_transform Squad.np_squad s b toc = Ok tr2 -> lookup_transform Squad.np_squad s a toc' = Ok tr3 ->
  at_time tr1 x t1 r1 -> at_time tr2 x t2 r2 -> at_time tr3 x t3 r3 ->
  t3 = smove t2 r2 t1 /\ r3 = hmul r2 r1.
Proof. pose proof (C68_compose Squad.np_squad) as G. close G. Qed.

(** Looking up forth and back gives inverse transforms at every common time. *)
Theorem C68_inverse_closed : forall s a b toa tob tr tr' x t r t' r',
  reachable s -> denotes s toa a -> denotes s tob b -> unit_way s a b ->
  lookup_transform Squad.np_squad s a tob = Ok tr -> lookup_transform Squad.np_squad s b toa = Ok tr' ->
  at_time tr x t r -> at_time tr' x t' r' ->
  (forall p, smove t' r' (smove t r p) = p /\ smove t r (smove t' r' p) = p) /\ r' = hconj r.
Proof. pose proof (C68_inverse Squad.np_squad) as G. close G. Qed.
