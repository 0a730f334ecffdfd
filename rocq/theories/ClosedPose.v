(** Property C44 for the library's own interpolation of orientations: the theorems
    of PropPose.v for the model np_squad of quaternion.squad, of which C79 proves what they assume.
    Concrete cases stand beside those theorems, and with np_squad in ClosedMoving.v and PropSquadEx.v. *)
From Coq Require Import Reals String List Arith Bool ZArith Lia Lra.
From Verif Require Import Base Quat SpecQuat QuatProofs NdArray Frames SpecForest FrameProofs WalkProofs
  Matcher SpecLookup LookupProofs RegistryProofs MovingProofs TimeProofs CtorProofs InverseProofs RouteProofs
  Examples PropForest PropLookup PropMoving SpecConsist RelProofs PropConsist
  Transform SpecArray NdProofs RotProofs ArrProofs ArrTransProofs ArrStaticProofs PropTransform PropRotate
  Coord Velocity VelFrameProofs TopLevel TopProofs SpecTop TopStep SpecSeries SeriesProofs SingleProofs PropTop PropSeries VelExamples PropPose.
Import ListNotations.
Open Scope nat_scope.
Open Scope list_scope.
From Verif Require Squad PropSquad Spline PropConverge.
Ltac close G :=
  destruct PropSquad.C79_contract as (?Hu & ?He & ?Ht & ?Hc); pose proof (proj1 PropConverge.C80_contract) as ?Hs;
  repeat match type of G with
  | MovingProofs.squad_unit Squad.np_squad -> _ => specialize (G Hu)
  | InverseProofs.squad_exact Squad.np_squad -> _ => specialize (G He)
  | RouteProofs.squad_total Squad.np_squad -> _ => specialize (G Ht)
  | Spline.spline_derivative Spline.np_derivative -> _ => specialize (G Hs)
  | forall _, _ => let y := fresh in intro y; specialize (G y)
  end; exact G.

(** lookup_pose(frame, reference) of a moving frame, then transform_points and
    transform_quaternions into target with outof omitted: at every time of the dataset that
    is in the range of all continuous frames between reference and target, the results hold
    the origin and the orientation of the frame in target at that time, as a direct lookup
    does if it has that time; they are labelled with target and with the times. *)
Theorem C44_pose_moving_closed : forall w fr i reference j target k ts rows, reachable (frames w) ->

  denotes (frames w) fr i -> denotes (frames w) reference j -> denotes (frames w) target k -> named (frames w) j ->
  good_way (frames w) i j -> good_way (frames w) j k ->
  lookup_transform Squad.np_squad (frames w) i (PFrame j) = Ok (TrRows ts rows) -> 2 <= length ts ->
  exists w1 pos ori w2 p w3 o l, lookup_pose_ds Squad.np_squad w fr reference = (w1, Ok (pos, ori)) /\ has_times pos ts /\ has_times ori ts /\
    transform Squad.np_squad Points w1 (Lab pos) target None None None TNone None = (w2, Ok (RLab p)) /\
    transform Squad.np_squad Quaternions w1 (Lab ori) target None None None TNone None = (w3, Ok (RLab o)) /\
    attr w2 p "reference_frame" = Some (name_of (frames w) k) /\ attr w3 o "reference_frame" = Some (name_of (frames w) k) /\
    shp (da_data p) = [length l; 3] /\ shp (da_data o) = [length l; 4] /\ has_times p l /\ has_times o l /\
    (exists f, l = filter f ts) /\
    (exists rt, route (parent_of (frames w)) j k rt /\
       forall x, In x ts -> (In x l <->
         forall f tf, In f rt -> cont_of (frames w) f = Some tf ->
           exists a b, hd_error tf = Some a /\ nth_error tf (length tf - 1) = Some b /\ (a <= x <= b)%R)) /\
    forall c x, nth_error l c = Some x -> exists t r, maps_at Squad.np_squad (frames w) x i k t r /\
      vec_at (da_data p) [c] = t /\ quat_at (da_data o) [c] = r /\
      forall to tr t' r', denotes (frames w) to k -> unit_way (frames w) i k ->
        lookup_transform Squad.np_squad (frames w) i to = Ok tr -> at_time tr x t' r' -> t' = t /\ r' = r.
Proof. pose proof (C44_pose_moving Squad.np_squad) as G. close G. Qed.

(** The pose of a frame relative to a reference it does not move against, transformed into a
    moving target: the dataset has no times, the results have those of the lookup from
    reference to target. *)
Theorem C44_pose_start_closed : forall w fr i reference j target k tij rij l rows, reachable (frames w) ->
  denotes (frames w) fr i -> denotes (frames w) reference j -> denotes (frames w) target k -> named (frames w) j ->
  unit_way (frames w) i j -> unit_way (frames w) j k ->
  lookup_transform Squad.np_squad (frames w) i (PFrame j) = Ok (TrStatic tij rij) ->
  lookup_transform Squad.np_squad (frames w) j (PFrame k) = Ok (TrRows l rows) ->
  exists w1 pos ori w2 p w3 o, lookup_pose_ds Squad.np_squad w fr reference = (w1, Ok (pos, ori)) /\
    transform Squad.np_squad Points w1 (Lab pos) target None None None TNone None = (w2, Ok (RLab p)) /\
    transform Squad.np_squad Quaternions w1 (Lab ori) target None None None TNone None = (w3, Ok (RLab o)) /\
    attr w2 p "reference_frame" = Some (name_of (frames w) k) /\ attr w3 o "reference_frame" = Some (name_of (frames w) k) /\
    shp (da_data p) = [length l; 3] /\ shp (da_data o) = [length l; 4] /\ has_times p l /\ has_times o l /\
    forall c x, nth_error l c = Some x -> exists t r, maps_at Squad.np_squad (frames w) x i k t r /\
      vec_at (da_data p) [c] = t /\ quat_at (da_data o) [c] = r /\
      forall to tr t' r', denotes (frames w) to k -> unit_way (frames w) i k ->
        lookup_transform Squad.np_squad (frames w) i to = Ok tr -> at_time tr x t' r' -> t' = t /\ r' = r.
Proof. pose proof (C44_pose_start Squad.np_squad) as G. close G. Qed.
