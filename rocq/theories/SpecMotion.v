(** Specification vocabulary for motions: derivatives of vector and quaternion
    valued curves. *)
From Coq Require Import Reals.
From Verif Require Import Base SpecQuat.
Open Scope R_scope.

(** d is the derivative of the curve f at t. *)
Definition vderiv (f : R -> vec3) (t : R) (d : vec3) : Prop :=
  derivable_pt_lim (fun x => vx (f x)) t (vx d) /\
  derivable_pt_lim (fun x => vy (f x)) t (vy d) /\
  derivable_pt_lim (fun x => vz (f x)) t (vz d).
Definition qderiv (q : R -> quat) (t : R) (d : quat) : Prop :=
  derivable_pt_lim (fun x => qw (q x)) t (qw d) /\
  derivable_pt_lim (fun x => qx (q x)) t (qx d) /\
  derivable_pt_lim (fun x => qy (q x)) t (qy d) /\
  derivable_pt_lim (fun x => qz (q x)) t (qz d).
(** w is the angular velocity, in body axes, of the rotation q(t): every body-fixed
    point p moves with velocity w x p, seen in body axes. *)
Definition body_rate (q : R -> quat) (t : R) (w : vec3) : Prop :=
  forall p, vderiv (fun x => srot (q x) p) t (srot (q t) (vcross w p)).
(** The same in the axes of the reference frame. *)
Definition space_rate (q : R -> quat) (t : R) (w : vec3) : Prop :=
  forall p, vderiv (fun x => srot (q x) p) t (vcross w (srot (q t) p)).
