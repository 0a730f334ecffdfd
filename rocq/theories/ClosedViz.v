(** Property C72 for the library's own interpolation of orientations: the theorems
    of PropViz.v for the model np_squad of quaternion.squad, of which C79 proves what they assume.
    Concrete cases stand beside those theorems, and with np_squad in ClosedMoving.v and PropSquadEx.v. *)
From Coq Require Import Reals List String Ascii ZArith Bool Arith Lia Lra.
From Verif Require Import Base Quat SpecQuat QuatProofs NdArray Frames SpecForest FrameProofs WalkProofs Matcher SpecLookup
  LookupProofs RegistryProofs MovingProofs RouteProofs Examples PropForest PropLookup PropMoving PropConsist VelExamples RosMsg Broadcast PropMarker Viz PropViz.
Import ListNotations.
Open Scope R_scope.
From Verif Require Squad PropSquad Spline PropConverge.
Ltac close G :=
  destruct PropSquad.C79_contract as (?Hu & ?He & ?Ht & ?Hc); pose proof (proj1 PropConverge.C80_contract) as ?Hs;
  repeat match type of G with
  | MovingProofs.squad_unit Squad.np_squad -> _ => specialize (G Hu)
  | InverseProofs.squad_exact Squad.np_squad -> _ => specialize (G He)
  | RouteProofs.squad_total Squad.np_squad -> _ => specialize (G Ht)
  | Spline.spline_derivative Spline.np_derivative -> _ => specialize (G Hs)
  | forall _, _ => let y := fresh in intro y; specialize (G y)
  end; exact G.

(** A publisher for frame i, base j: the marker is a line strip of the given width and
    colour, drawn in the axes of j, on the given topic, by default /<frame>/path.  With n
    timestamps of the lookup, its points are those number 0, k, 2k, ... for some k >= 1, in
    order, and each point is the position of the origin of frame i at that timestamp, in
    coordinates of j. *)
Theorem C72_path_closed : forall s frame base topic max scale h p i j, reachable s ->
  denotes s frame i -> base_is s i base j -> unit_way s i j -> (0 < max)%Z ->
  make_publisher Squad.np_squad s frame base topic max scale h = Ok p ->
  let m := p_marker p in
  drawn_in m (name_of s j) /\ mk_type m = line_strip /\ m_x (mk_scale m) = scale /\ hex_to_rgba h = Ok (mk_color m) /\
  (forall t, topic = Some t -> t <> ""%string -> p_topic p = t) /\
  (topic = None \/ topic = Some ""%string -> forall n, name_of s i = Some n -> p_topic p = ("/" ++ n ++ "/path")%string) /\
  exists ts rows k, lookup_transform Squad.np_squad s i (PFrame j) = Ok (TrRows ts rows) /\ (1 <= k)%nat /\
    (forall l, nth_error (mk_points m) l = None <-> nth_error ts (l * k) = None) /\
    forall l pt x, nth_error (mk_points m) l = Some pt -> nth_error ts (l * k) = Some x ->
      exists c P, coords Squad.np_squad s x i v0 c P /\ coords Squad.np_squad s x j (vec_of pt) c P.
Proof. pose proof (C72_path Squad.np_squad) as G. close G. Qed.
