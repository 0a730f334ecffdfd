(** Property C59 for the library's own interpolation of orientations: the theorems
    of PropCtors.v for the model np_squad of quaternion.squad, of which C79 proves what they assume.
    Concrete cases stand beside those theorems, and with np_squad in ClosedMoving.v and PropSquadEx.v. *)
From Coq Require Import Reals String List Arith Bool ZArith Lia Lra.
From Verif Require Import Base Quat SpecQuat QuatProofs NdArray Frames SpecForest FrameProofs WalkProofs
  Matcher SpecLookup LookupProofs RegistryProofs MovingProofs TimeProofs CtorProofs InverseProofs RouteProofs
  Examples PropForest PropLookup PropMoving Transform Estim SpecEstim SvdExist TopLevel VelExamples FrameCtors PropCtors.
Import ListNotations.
Open Scope nat_scope.
Open Scope list_scope.
From Verif Require Squad PropSquad Spline PropConverge.
Ltac close G :=
  destruct PropSquad.C79_contract as (?Hu & ?He & ?Ht & ?Hc); pose proof (proj1 PropConverge.C80_contract) as ?Hs;
  repeat match type of G with
  | MovingProofs.squad_unit Squad.np_squad -> _ => specialize (G Hu)
  | InverseProofs.squad_exact Squad.np_squad -> _ => specialize (G He)
  | RouteProofs.squad_total Squad.np_squad -> _ => specialize (G Ht)
  | Spline.spline_derivative Spline.np_derivative -> _ => specialize (G Hs)
  | forall _, _ => let y := fresh in intro y; specialize (G y)
  end; exact G.

(** from_dataset: the frame has the samples of the two variables. *)
Theorem C59_dataset_closed : forall s ds tn rn xn dt dr x n p k name inverse discrete,
  reachable s -> denotes s p k ->
  lookup tn ds = Some dt -> lookup rn ds = Some dr -> shared_coord ds xn x ->
  good_samples (Some (da_data dt)) (Some (da_data dr)) x n discrete ->
  exists s' i, from_dataset s ds tn rn xn (Some p) name inverse discrete = (s', Ok i) /\
    child_with_samples Squad.np_squad s' i k inverse (stamp_list x n) (sample_rows (Some (da_data dt)) (Some (da_data dr)) n).
Proof. pose proof (C59_dataset Squad.np_squad) as G. close G. Qed.

(** from_translation_dataarray: no rotation. *)
Theorem C59_translation_closed : forall s d xn x n p k name inverse discrete,
  reachable s -> denotes s p k -> lookup xn (da_coords d) = Some (Co [xn] (CNum x)) ->
  good_samples (Some (da_data d)) None x n discrete ->
  exists s' i, from_translation_dataarray s d xn (Some p) name inverse discrete = (s', Ok i) /\
    child_with_samples Squad.np_squad s' i k inverse (stamp_list x n) (sample_rows (Some (da_data d)) None n).
Proof. pose proof (C59_translation Squad.np_squad) as G. close G. Qed.

(** from_rotation_dataarray: no translation. *)
Theorem C59_rotation_closed : forall s d xn x n p k name inverse discrete,
  reachable s -> denotes s p k -> lookup xn (da_coords d) = Some (Co [xn] (CNum x)) ->
  good_samples None (Some (da_data d)) x n discrete ->
  exists s' i, from_rotation_dataarray s d xn (Some p) name inverse discrete = (s', Ok i) /\
    child_with_samples Squad.np_squad s' i k inverse (stamp_list x n) (sample_rows None (Some (da_data d)) n).
Proof. pose proof (C59_rotation Squad.np_squad) as G. close G. Qed.
