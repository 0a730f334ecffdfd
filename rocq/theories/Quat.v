(** Model of the numpy-quaternion primitives the code is built on and of the
    scalar kernels of rigid_body_motion/utils.py. *)
From Coq Require Import Reals List.
From Verif Require Import Base.
Import ListNotations.
Open Scope R_scope.

Definition q1 : quat := Qt 1 0 0 0.

(** numpy-quaternion [quaternion_multiply] (component formula); used through
    [*] in core.py:277,282, utils.py:73,76,377, reference_frames.py:766. *)
Definition qmulq (a b : quat) : quat :=
  Qt (qw a * qw b - qx a * qx b - qy a * qy b - qz a * qz b)
     (qw a * qx b + qx a * qw b + qy a * qz b - qz a * qy b)
     (qw a * qy b - qx a * qz b + qy a * qw b + qz a * qx b)
     (qw a * qz b + qx a * qy b - qy a * qx b + qz a * qw b).

(** numpy-quaternion [conjugate] (core.py:765). *)
Definition qconj (a : quat) : quat := Qt (qw a) (- qx a) (- qy a) (- qz a).

(** numpy-quaternion [quaternion_norm] (the squared length) and the Euclidean
    length [np.linalg.norm(q, axis=-1)] (utils.py:259). *)
Definition qnorm2 (a : quat) : R :=
  qw a * qw a + qx a * qx a + qy a * qy a + qz a * qz a.
Definition qlen (a : quat) : R := sqrt (qnorm2 a).

Definition qscale (k : R) (a : quat) : quat :=
  Qt (k * qw a) (k * qx a) (k * qy a) (k * qz a).

(** numpy-quaternion [1 / q] (core.py:275,277, utils.py:42,45):
    conj(q)/|q|^2; an all-NaN quaternion for q = 0. *)
Definition qrecip (a : quat) : res quat :=
  if Req_b (qnorm2 a) 0 then Raise NaNValue
  else Ok (Qt (qw a / qnorm2 a) (- qx a / qnorm2 a)
              (- qy a / qnorm2 a) (- qz a / qnorm2 a)).

Definition qvec (a : quat) : vec3 := V3 (qx a) (qy a) (qz a).

(** numpy-quaternion [rotate_vectors] for one quaternion: [as_rotation_matrix]
    (entries divided by the squared norm, ZeroDivisionError for q = 0) applied
    to the vector.  Reached from utils.py:236-237 (0-d q) and with
    one_to_one=False.  Simplification: the library skips the division when
    |norm - 1| < eps; here it is always made. *)
Definition quat_rv (q : quat) (v : vec3) : res vec3 :=
  let n := qnorm2 q in
  if Req_b n 0 then Raise ZeroDivisionError
  else
    let m00 := 1 - 2 * (qy q * qy q + qz q * qz q) / n in
    let m01 := 2 * (qx q * qy q - qz q * qw q) / n in
    let m02 := 2 * (qx q * qz q + qy q * qw q) / n in
    let m10 := 2 * (qx q * qy q + qz q * qw q) / n in
    let m11 := 1 - 2 * (qx q * qx q + qz q * qz q) / n in
    let m12 := 2 * (qy q * qz q - qx q * qw q) / n in
    let m20 := 2 * (qx q * qz q - qy q * qw q) / n in
    let m21 := 2 * (qy q * qz q + qx q * qw q) / n in
    let m22 := 1 - 2 * (qx q * qx q + qy q * qy q) / n in
    Ok (V3 (m00 * vx v + m01 * vy v + m02 * vz v)
           (m10 * vx v + m11 * vy v + m12 * vz v)
           (m20 * vx v + m21 * vy v + m22 * vz v)).

(** The array formula of utils.py:255-261 for one quaternion/vector pair:
    v + 2 * r x (s*v + r x v) / m with m the LENGTH of q (utils.py:259). *)
Definition rot1 (q : quat) (v : vec3) : res vec3 :=
  let r := qvec q in
  let s := qw q in
  let m := qlen q in
  if Req_b m 0 then Raise NaNValue
  else
    let rxv := vcross r v in
    let c := vcross r (vadd (vscale s v) rxv) in
    Ok (V3 (vx v + 2 * vx c / m) (vy v + 2 * vy c / m) (vz v + 2 * vz c / m)).
