(** Property C79: a concrete recording. *)
From Coq Require Import Reals List Arith Bool Lia Lra.
From Verif Require Import Base Quat SpecQuat QuatProofs Frames Matcher SpecForest SpecLookup FrameProofs LookupProofs MovingProofs TimeProofs InverseProofs RouteProofs RegistryProofs
  Examples PropForest PropLookup PropMoving PropAngular VelExamples Coord RotVec PropRotVec Squad SquadProofs PropSquad.
Import ListNotations.
Open Scope R_scope.

(** One metre and one radian per second, recorded at half a turn. *)
Definition spin_motion (t : R) : vec3 * quat := (V3 t 0 0, about_axis (V3 0 0 1) t).
Definition spin_fixed (_ : R) : vec3 * quat := (V3 1 0 0, Qt 1 0 0 0).
Lemma spin_recorded : recorded spin_motion [0; PI].
Proof.
  pose proof PI_RGT_0. split; [|split; [cbn; lia|]].
  - apply inc_strictly. cbn [strictly]. rewrite andb_true_r. apply Rlt_b_true. lra.
  - exists v0, (V3 1 0 0), q1, (V3 0 0 1), 1. split; [cbv [hunit hn2 sc ve vdot vx vy vz qw qx qy qz qvec q1]; ring|]. split; [unfold vdot; cbn; ring|]. split.
    + intros t. unfold spin_motion. rewrite q1_hone, hmul_1_l, Rmult_1_l. f_equal. unfold vadd, vscale, v0; cbn. f_equal; ring.
    + intros k Hk. cbn [length] in Hk. replace k with 0%nat by lia. cbn [nth]. lra.
Qed.
Lemma spin_rows : map (fun t => fst (spin_motion t)) [0; PI] = [V3 0 0 0; V3 PI 0 0] /\ map (fun t => snd (spin_motion t)) [0; PI] = [Qt 1 0 0 0; Qt 0 0 0 1].
Proof.
  split; [reflexivity|]. cbn [map spin_motion snd]. unfold about_axis. replace (0 / 2) with 0 by field. rewrite cos_0, sin_0, cos_PI2, sin_PI2. unfold mkq, vscale; cbn. repeat f_equal; ring.
Qed.
(** After a third of the half turn, in between the samples. *)
Example C79_example_rows : rows_from_frame np_squad (TMoving [0; PI] [V3 0 0 0; V3 PI 0 0] [Qt 1 0 0 0; Qt 0 0 0 1] false) [PI / 3] =
  Ok [(V3 (PI / 3) 0 0, about_axis (V3 0 0 1) (PI / 3))].
Proof.
  destruct spin_rows as (E1 & E2). rewrite <- E1, <- E2. rewrite (C79_constant_rate spin_motion [0; PI] [PI / 3] spin_recorded); [reflexivity|].
  intros x [ <- |[]]. pose proof PI_RGT_0. apply andb_true_intro. split; apply Rle_b_true; cbn; lra.
Qed.
Example C79_example : exists ts rows,
  lookup_transform np_squad spin 1 (PFrame 0) = Ok (TrRows ts rows) /\ ts = [0; PI] /\
  forall k x t r, nth_error ts k = Some x -> nth_error rows k = Some (t, r) ->
    exists c, forall p, exists P, actual (fun i => if Nat.eqb i 1 then spin_motion else spin_fixed) spin x 1 p c P /\
      actual (fun i => if Nat.eqb i 1 then spin_motion else spin_fixed) spin x 0 (smove t r p) c P.
Proof.
  assert (L : lookup_transform np_squad spin 1 (PFrame 0) = Ok (TrRows [0; PI] (combine [V3 0 0 0; V3 PI 0 0] [Qt 1 0 0 0; Qt 0 0 0 1]))).
  { apply (lookup_parent_moving np_squad spin 0 1 [0; PI] _ _ false); try reflexivity.
    - apply reachable_Inv, spin_reachable.
    - cbn; lia.
    - apply C79_contract.
    - split; [apply spin_recorded|]. cbn; lia.
    - apply spin_units. }
  do 2 eexists. split; [exact L|]. split; [reflexivity|].
  apply (C79_lookup (fun i => if Nat.eqb i 1 then spin_motion else spin_fixed) spin 1 (PFrame 0) 0 _ _ (spin_reachable PI) (spin_frame 1 ltac:(lia)) (spin_den 0 ltac:(lia))); [|exact L].
  intros k d _ Hd. destruct k as [|[|[|k]]]; [discriminate| | |destruct k; discriminate].
  - cbv in Hd. injection Hd as <-. cbn [Nat.eqb]. destruct spin_rows as (E1 & E2). split; [reflexivity|]. split; [exact spin_recorded|]. split; symmetry; assumption.
  - cbv in Hd. injection Hd as <-. cbn [Nat.eqb]. split; [cbv [hunit hn2 sc ve vdot vx vy vz qw qx qy qz qvec q1]; ring|reflexivity].
Qed.
