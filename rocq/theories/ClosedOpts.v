(** Property C83 for the library's own interpolation of orientations: the theorems
    of PropLookOpts.v for the model np_squad of quaternion.squad, of which C79 proves what they assume.
    Concrete cases stand beside those theorems, and with np_squad in ClosedMoving.v and PropSquadEx.v. *)
From Coq Require Import Reals List Arith Bool ZArith Lia Lra String.
From Verif Require Import SpecMotion PropLookOpts.
From Verif Require Import Base Quat SpecQuat QuatProofs NdArray Frames SpecForest FrameProofs WalkProofs
  Matcher SpecLookup LookupProofs RegistryProofs MovingProofs TimeProofs CtorProofs InverseProofs RouteProofs
  Examples PropForest PropLookup PropMoving
  Transform SpecArray NdProofs RotProofs ArrProofs ArrTransProofs ArrStaticProofs PropTransform Velocity VelProofs VelFrames VelFrameProofs
  PropRotate PropAngular PropVelocity PropVelFrames RotVec PropRotVec PropRotOut Filter PropFilter NanArr PropNan LookVelOpts PropLookVel
  VelExamples Squad PropSquad EstimProofs.
Import ListNotations.
Open Scope R_scope.
From Verif Require Squad PropSquad Spline PropConverge.
Ltac close G :=
  destruct PropSquad.C79_contract as (?Hu & ?He & ?Ht & ?Hc); pose proof (proj1 PropConverge.C80_contract) as ?Hs;
  repeat match type of G with
  | MovingProofs.squad_unit Squad.np_squad -> _ => specialize (G Hu)
  | InverseProofs.squad_exact Squad.np_squad -> _ => specialize (G He)
  | RouteProofs.squad_total Squad.np_squad -> _ => specialize (G Ht)
  | Spline.spline_derivative Spline.np_derivative -> _ => specialize (G Hs)
  | forall _, _ => let y := fresh in intro y; specialize (G y)
  end; exact G.

(** lookup_linear_velocity with outlier_thresh and cutoff: what estimate_linear_velocity
    gives with these options for the looked-up translations, in the axes of the
    representation frame, at every sample in range of the moving frames on the way from
    the reference frame; if the estimator refuses, so does the lookup. *)
Theorem C83_linear_closed : forall s i ref rep j k ts rows thresh cutoff allow,
  reachable s -> frame s i -> denotes s ref j -> denotes s rep k ->
  ref <> PName String.EmptyString -> rep <> PName String.EmptyString -> good_way s i j -> good_way s j k ->
  lookup_transform Squad.np_squad s i ref = Ok (TrRows ts rows) -> (2 <= List.length ts)%nat ->
  (forall e, estimate_linear_full thresh cutoff (translations rows) None ts None = Raise e ->
     lookup_linear_opts Squad.np_squad thresh cutoff s i (Some ref) (Some rep) allow true = Raise e) /\
  (forall est, estimate_linear_full thresh cutoff (translations rows) None ts None = Ok est ->
     exists w l, lookup_linear_opts Squad.np_squad thresh cutoff s i (Some ref) (Some rep) allow true = Ok (w, Some (Some l)) /\
       shp w = [List.length l; 3%nat] /\ kept_samples s j k ts [] l /\
       forall n x, nth_error l n = Some x -> exists m t r, nth_error ts m = Some x /\ maps_at Squad.np_squad s x j k t r /\
         turned est w n m (srot r)).
Proof. pose proof (C83_linear Squad.np_squad) as G. close G. Qed.

(** lookup_angular_velocity with mode, outlier_thresh and cutoff, likewise; the estimate is
    in the axes of the moving frame. *)
Theorem C83_angular_closed : forall s i ref rep j k ts rows mode thresh cutoff allow,
  reachable s -> frame s i -> denotes s ref j -> denotes s rep k ->
  ref <> PName String.EmptyString -> rep <> PName String.EmptyString -> good_way s i j -> good_way s i k ->
  lookup_transform Squad.np_squad s i ref = Ok (TrRows ts rows) -> (2 <= List.length ts)%nat ->
  (forall e, estimate_angular_full Spline.np_derivative mode thresh cutoff (rotations rows) ts (-1) 0 = Raise e ->
     lookup_angular_opts Squad.np_squad Spline.np_derivative mode thresh cutoff s i (Some ref) (Some rep) allow true = Raise e) /\
  (forall est, estimate_angular_full Spline.np_derivative mode thresh cutoff (rotations rows) ts (-1) 0 = Ok est ->
     exists w l, lookup_angular_opts Squad.np_squad Spline.np_derivative mode thresh cutoff s i (Some ref) (Some rep) allow true = Ok (w, Some (Some l)) /\
       shp w = [List.length l; 3%nat] /\ kept_samples s i k ts [] l /\
       forall n x, nth_error l n = Some x -> exists m t r, nth_error ts m = Some x /\ maps_at Squad.np_squad s x i k t r /\
         turned est w n m (srot r)).
Proof. pose proof (C83_angular Squad.np_squad Spline.np_derivative) as G. close G. Qed.

(** lookup_twist with options: the linear velocity as from lookup_linear_velocity with the
    same outlier_thresh and cutoff, the angular velocity as from lookup_angular_velocity
    with the same mode and cutoff but without outlier_thresh, on their common timestamps.
    Matching the two resamples them again: the sample after a lost one is lost, too. *)
Theorem C83_twist_closed : forall s i ref rep j k ts rows mode thresh cutoff allow el ea,
  reachable s -> frame s i -> denotes s ref j -> denotes s rep k ->
  ref <> PName String.EmptyString -> rep <> PName String.EmptyString -> good_way s i j -> good_way s i k -> good_way s j k ->
  lookup_transform Squad.np_squad s i ref = Ok (TrRows ts rows) -> (2 <= List.length ts)%nat -> two_in_range s i k ts -> two_in_range s j k ts ->
  estimate_linear_full thresh cutoff (translations rows) None ts None = Ok el ->
  estimate_angular_full Spline.np_derivative mode None cutoff (rotations rows) ts (-1) 0 = Ok ea ->
  exists wl ll wa la lin ang l,
    lookup_linear_opts Squad.np_squad thresh cutoff s i (Some ref) (Some rep) allow true = Ok (wl, Some (Some ll)) /\
    lookup_angular_opts Squad.np_squad Spline.np_derivative mode None cutoff s i (Some ref) (Some rep) allow true = Ok (wa, Some (Some la)) /\
    lookup_twist_opts Squad.np_squad Spline.np_derivative mode thresh cutoff s i (Some ref) (Some rep) allow true = Ok (lin, ang, Some (Some l)) /\
    shp lin = [List.length l; 3%nat] /\ shp ang = [List.length l; 3%nat] /\
    (exists f, l = filter f la) /\ (forall x, In x l <-> In x la /\ In x ll) /\
    forall n x, nth_error l n = Some x -> exists ml ma, nth_error ll ml = Some x /\ nth_error la ma = Some x /\
      turned wl lin n ml (fun v => v) /\ turned wa ang n ma (fun v => v).
Proof. pose proof (C83_twist Squad.np_squad Spline.np_derivative) as G. close G. Qed.
