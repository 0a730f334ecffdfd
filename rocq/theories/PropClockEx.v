(** C87: frames recorded in milliseconds since another start. *)
From Coq Require Import Reals List Lra.
From Verif Require Import Base NdArray Frames Matcher Squad Spline VelFrames Examples PropMoving ClosedMoving PropLookVelEx PropConverge PropClock PropClockVel.
Import ListNotations.
Open Scope R_scope.

(** A static, a continuous and a discrete frame (Examples.mov_ops). *)
Example C87_example : exists ts rows,
  lookup_transform np_squad (run mov_ops) 3 (PFrame 2) = Ok (TrRows ts rows) /\
  lookup_transform np_squad (run (map (op_tick 1000 5) mov_ops)) 3 (PFrame 2) = Ok (TrRows (map (fun t => 1000 * t + 5) ts) rows).
Proof.
  destruct C17_example_closed as (_ & _ & ts & rows & E). exists ts, rows. rewrite mov_lit_eq. split; [exact E|].
  rewrite C87_lookup by lra. rewrite mov_lit_eq, E. reflexivity.
Qed.
(** The twist on a circle: a thousandth of metres and radians per second. *)
Example C87_example_twist : exists ops lin ang l,
  run ops = arc /\
  lookup_twist np_squad np_derivative (run ops) 1 (Some (PFrame 0)) (Some (PFrame 0)) false true = Ok (lin, ang, Some (Some l)) /\
  lookup_twist np_squad np_derivative (run (map (op_tick 1000 5) ops)) 1 (Some (PFrame 0)) (Some (PFrame 0)) false true =
    Ok (scale_nd (/ 1000) lin, scale_nd (/ 1000) ang, Some (Some (map (fun t => 1000 * t + 5) l))).
Proof.
  destruct C81_example as (lin & ang & l & E & _).
  destruct (arc_reachable (fun t => vx (on_circle 0 t)) (fun t => vy (on_circle 0 t)) (fun t => qw (turn 0 t)) (fun t => qz (turn 0 t)) (1/8) (2/8) (3/8) (4/8)) as (ops & R).
  exists ops, lin, ang, l. split; [symmetry; exact R|]. split; [rewrite <- R; exact E|].
  destruct (C87_velocities 1000 5 ops 1 (Some (PFrame 0)) (Some (PFrame 0)) false true ltac:(lra)) as (_ & _ & T). rewrite T, <- R.
  change (arc_lit _ _ _ _ _ _ _ _) with arc. rewrite E. reflexivity.
Qed.
