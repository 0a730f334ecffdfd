(** Property C69 for the library's own interpolation of orientations: the theorems
    of PropSeries.v for the model np_squad of quaternion.squad, of which C79 proves what they assume.
    Concrete cases stand beside those theorems, and with np_squad in ClosedMoving.v and PropSquadEx.v. *)
From Coq Require Import Reals String List Arith Bool ZArith Lia Lra.
From Verif Require Import Base Quat SpecQuat QuatProofs NdArray Frames SpecForest FrameProofs WalkProofs
  Matcher SpecLookup LookupProofs RegistryProofs MovingProofs TimeProofs CtorProofs InverseProofs RouteProofs
  Examples PropForest PropLookup PropMoving SpecConsist RelProofs PropConsist
  Transform SpecArray NdProofs RotProofs ArrProofs ArrTransProofs ArrStaticProofs PropTransform PropRotate
  Coord Velocity TopLevel TopProofs SpecTop TopStep SpecSeries SeriesProofs PropTop PropSeries.
Import ListNotations.
Open Scope nat_scope.
Open Scope list_scope.
From Verif Require Squad PropSquad Spline PropConverge.
Ltac close G :=
  destruct PropSquad.C79_contract as (?Hu & ?He & ?Ht & ?Hc); pose proof (proj1 PropConverge.C80_contract) as ?Hs;
  repeat match type of G with
  | MovingProofs.squad_unit Squad.np_squad -> _ => specialize (G Hu)
  | InverseProofs.squad_exact Squad.np_squad -> _ => specialize (G He)
  | RouteProofs.squad_total Squad.np_squad -> _ => specialize (G Ht)
  | Spline.spline_derivative Spline.np_derivative -> _ => specialize (G Hs)
  | forall _, _ => let y := fresh in intro y; specialize (G y)
  end; exact G.

(** d: a DataArray with n samples on axis tau, labelled with increasing times, coordinates of
    the vectors, points or orientations on the last axis, any other axes; frame i and j in
    one tree, any mixture of static, discrete and continuous frames on the way.  The
    transform succeeds.  The result has exactly the samples whose times are in the range of
    all continuous frames on the way, in order, each of them mapped by the transform at its
    time, with its time, and with its values of all coordinates along the time dimension;
    all other coordinates, the dimensions and the name are kept; the frame attributes name
    j, the others are kept; no dictionary that existed before is changed. *)
Theorem C69_series_closed : forall m w d into outof dim axis ts time_axis i j sh tau n tsa,
  reachable (frames w) -> data_array w d -> proper_coords d ->
  expressed_in m w d outof i -> denotes (frames w) into j -> good_way (frames w) i j ->
  shp (da_data d) = (put tau n sh ++ [ncomp m])%list -> tau <= length sh ->
  picks d dim axis (S (length sh)) -> timed d ts time_axis tau n tsa -> orientations_ok Squad.np_squad m (da_data d) (put tau n sh) ->
  exists w' d' td l, transform Squad.np_squad m w (Lab d) into outof dim axis ts time_axis = (w', Ok (RLab d')) /\
    nth_error (da_dims d) tau = Some td /\
    (exists f, l = filter f (map (fun q => dat tsa [q]) (seq 0 n))) /\
    (exists rt, route (parent_of (frames w)) i j rt /\
       forall q, q < n -> (In (dat tsa [q]) l <->
         forall f tf, In f rt -> cont_of (frames w) f = Some tf ->
           exists a b, hd_error tf = Some a /\ nth_error tf (length tf - 1) = Some b /\ (a <= dat tsa [q] <= b)%R)) /\
    shp (da_data d') = (put tau (length l) sh ++ [ncomp m])%list /\
    (forall k x, nth_error l k = Some x -> exists q t r, q < n /\ dat tsa [q] = x /\ maps_at Squad.np_squad (frames w) x i j t r /\
      forall pre, valid sh pre -> maps_item m (da_data d) (da_data d') tau q k t r pre) /\
    subseries d d' td tsa n l /\ data_array w' d' /\ attrs_kept w w' /\
    attr w' d' (frame_attr m) = Some (name_of (frames w) j) /\ attr w' d' "representation_frame" = Some (name_of (frames w) j) /\
    forall key, key <> frame_attr m -> key <> "representation_frame"%string -> attr w' d' key = attr w d key.
Proof. pose proof (C69_series Squad.np_squad) as G. close G. Qed.

(** Transforming into j and then into k (outof omitted) agrees with transforming into k
    directly: every sample of the chained result is a sample of the direct one, with the
    same time and the same values. *)
Theorem C69_chain_closed : forall m w d a outof b dim axis ts time_axis i j k sh tau n tsa w1 d1 w2 d2 w3 d3,
  reachable (frames w) -> data_array w d -> proper_coords d ->
  expressed_in m w d outof i -> denotes (frames w) a j -> denotes (frames w) b k -> named (frames w) j ->
  unit_way (frames w) i j -> unit_way (frames w) j k ->
  shp (da_data d) = (put tau n sh ++ [ncomp m])%list -> tau <= length sh ->
  picks d dim axis (S (length sh)) -> timed d ts time_axis tau n tsa -> orientations_ok Squad.np_squad m (da_data d) (put tau n sh) ->
  transform Squad.np_squad m w (Lab d) a outof dim axis ts time_axis = (w1, Ok (RLab d1)) -> 2 <= nth tau (shp (da_data d1)) 0 ->
  transform Squad.np_squad m w1 (Lab d1) b None dim axis ts time_axis = (w2, Ok (RLab d2)) ->
  transform Squad.np_squad m w (Lab d) b outof dim axis ts time_axis = (w3, Ok (RLab d3)) ->
  exists td n2 n3 t2 t3, nth_error (da_dims d) tau = Some td /\ time_coord d2 td n2 t2 /\ time_coord d3 td n3 t3 /\
    shp (da_data d2) = (put tau n2 sh ++ [ncomp m])%list /\ shp (da_data d3) = (put tau n3 sh ++ [ncomp m])%list /\
    forall u, u < n2 -> exists v, v < n3 /\ dat t2 [u] = dat t3 [v] /\
      forall pre c, valid sh pre -> c < ncomp m -> dat (da_data d2) (put tau u pre ++ [c]) = dat (da_data d3) (put tau v pre ++ [c]).
Proof. pose proof (C69_chain Squad.np_squad) as G. close G. Qed.
