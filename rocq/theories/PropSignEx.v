(** C90: examples. *)
From Coq Require Import Reals List Lra.
From Verif Require Import Base SpecQuat Quat NdArray Frames Matcher Squad Spline VelFrames Examples PropMoving ClosedMoving PropLookVelEx PropConverge PropClock PropClockVel PropSign PropSignArr PropSignVel PropSignTop.
Import ListNotations.
Open Scope R_scope.

(** Every frame's rotations negated. *)
Definition negated (x : op) : op :=
  match x with ONew x => ONew (ctor_sign (-1) x) | ORegisterFrame x u => ORegisterFrame (ctor_sign (-1) x) u | x => x end.
Lemma negated_resigned ops : Forall2 resigned ops (map negated ops).
Proof. induction ops as [|x ops IH]; cbn [map]; constructor; [|exact IH]. destruct x; constructor; right; reflexivity. Qed.
(** A static, a continuous and a discrete frame (Examples.mov_ops). *)
Example C90_example : exists e ts rows, is_sign e /\
  lookup_transform np_squad (run mov_ops) 3 (PFrame 2) = Ok (TrRows ts rows) /\
  lookup_transform np_squad (run (map negated mov_ops)) 3 (PFrame 2) = Ok (TrRows ts (map (fun p => (fst p, qscale e (snd p))) rows)).
Proof.
  destruct C17_example_closed as (_ & _ & ts & rows & L). destruct (C90_lookup mov_ops (map negated mov_ops) 3 (PFrame 2) (negated_resigned _)) as (e & E & K). exists e, ts, rows. split; [exact E|].
  rewrite mov_lit_eq in K |- *. split; [exact L|]. rewrite K, L. reflexivity.
Qed.
(** On a circle: the twist does not change. *)
Example C90_example_twist : exists ops lin ang l p, run ops = arc /\
  lookup_twist np_squad np_derivative (run ops) 1 (Some (PFrame 0)) (Some (PFrame 0)) false true = Ok (lin, ang, Some (Some l)) /\
  lookup_twist np_squad np_derivative (run (map negated ops)) 1 (Some (PFrame 0)) (Some (PFrame 0)) false true = Ok p /\
  nd_rel eq lin (fst (fst p)) /\ nd_rel eq ang (snd (fst p)) /\ snd p = Some (Some l).
Proof.
  destruct C81_example as (lin & ang & l & E & _).
  destruct (arc_reachable (fun t => vx (on_circle 0 t)) (fun t => vy (on_circle 0 t)) (fun t => qw (turn 0 t)) (fun t => qz (turn 0 t)) (1/8) (2/8) (3/8) (4/8)) as (ops & R).
  change (arc_lit _ _ _ _ _ _ _ _) with arc in R.
  destruct (C90_velocities ops (map negated ops) 1 (Some (PFrame 0)) (Some (PFrame 0)) false true (negated_resigned _)) as (_ & _ & T). rewrite <- R in T. rewrite E in T. unfold same_twist in T.
  destruct (lookup_twist np_squad np_derivative (run (map negated ops)) 1 _ _ _ _) as [p|] eqn:P; cbn [rrel] in T; [|contradiction]. exists ops, lin, ang, l, p. rewrite <- R. cbn [fst snd] in T. destruct T as (T1 & T2 & T3). split; [reflexivity|]. split; [exact E|]. split; [exact P|]. split; [exact T1|]. split; [exact T2|]. first [exact T3 | symmetry; exact T3].
Qed.
(** The two signs are one orientation. *)
Lemma C90_one_orientation e q v : is_sign e -> srot (qscale e q) v = srot q v.
Proof.
  intros [-> | ->]; [rewrite scale1; reflexivity|]. unfold srot.
  replace (hn2 (qscale (-1) q)) with (hn2 q) by (destruct q as [a b c d]; cbv [hn2 qscale vdot qw qx qy qz vx vy vz sc ve]; ring).
  f_equal. destruct q as [a b c d], v as [x y z]. cbv [qscale vadd vscale vcross vdot vopp hmul hconj mkq qw qx qy qz vx vy vz sc ve]. f_equal; ring.
Qed.
