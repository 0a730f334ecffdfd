(** Specification vocabulary for rotations, independent of Quat.v: Hamilton's
    product in scalar/vector form, the sandwich rotation and Rodrigues' formula. *)
From Coq Require Import Reals List.
From Verif Require Import Base.
Open Scope R_scope.

(** A quaternion as scalar + vector. *)
Definition sc (q : quat) : R := qw q.
Definition ve (q : quat) : vec3 := V3 (qx q) (qy q) (qz q).
Definition mkq (s : R) (v : vec3) : quat := Qt s (vx v) (vy v) (vz v).

(** Hamilton's product (s,u)(t,v) = (st - u.v, s v + t u + u x v). *)
Definition hmul (p q : quat) : quat :=
  mkq (sc p * sc q - vdot (ve p) (ve q))
      (vadd (vadd (vscale (sc p) (ve q)) (vscale (sc q) (ve p)))
            (vcross (ve p) (ve q))).
Definition hconj (q : quat) : quat := mkq (sc q) (vopp (ve q)).
(** Squared length. *)
Definition hn2 (q : quat) : R := sc q * sc q + vdot (ve q) (ve q).
Definition hunit (q : quat) : Prop := hn2 q = 1.
Definition hnonzero (q : quat) : Prop := hn2 q <> 0.
Definition hone : quat := mkq 1 v0.

(** The rotation a quaternion stands for: q (0,v) q^-1, with q^-1 = q* / |q|^2. *)
Definition srot (q : quat) (v : vec3) : vec3 :=
  vscale (/ hn2 q) (ve (hmul (hmul q (mkq 0 v)) (hconj q))).

(** Turning v by angle a about the unit axis u, right-hand rule (Rodrigues). *)
Definition turn (u : vec3) (a : R) (v : vec3) : vec3 :=
  vadd (vadd (vscale (cos a) v) (vscale (sin a) (vcross u v)))
       (vscale ((1 - cos a) * vdot u v) u).

(** The rigid transformation (t, q) applied to a point. *)
Definition smove (t : vec3) (q : quat) (p : vec3) : vec3 := vadd (srot q p) t.

Definition dist2 (a b : vec3) : R := vdot (vsub a b) (vsub a b).
Definition triple (a b c : vec3) : R := vdot a (vcross b c).

(** Product of a list of quaternions, left to right. *)
Fixpoint hprod (l : list quat) : quat :=
  match l with nil => hone | cons q l => hmul q (hprod l) end.
