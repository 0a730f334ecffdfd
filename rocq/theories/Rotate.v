(** Model of the remaining arguments of rotate_vectors (utils.py:196-263): quaternions given
    as float arrays with their own axis, and all combinations (one_to_one=False). *)
From Coq Require Import Reals List Arith Bool ZArith.
From Verif Require Import Base Quat NdArray Frames Matcher Transform.
Import ListNotations.
Open Scope R_scope.

(** The argument q: an array of quaternions or of floats. *)
Inductive qarg := QQuat (q : nd quat) | QFloat (a : nd R).
(** utils.py:229-233: floats are viewed as quaternions after SWAPPING qaxis with the last
    axis. *)
Definition to_quats (q : qarg) (qaxis : Z) : res (nd quat) :=
  match q with
  | QQuat q => Ok q
  | QFloat a => b <- swapaxes a qaxis (-1) ;; as_quat b
  end.
(** numpy-quaternion rotate_vectors(R, v, axis) for R of any shape: as_rotation_matrix
    (ZeroDivisionError if any quaternion is zero), then the einsum over the axes
    R.shape + v.shape with the contraction on [axis]. *)
Definition rv_all (q : nd quat) (v : nd R) (axis : Z) : res (nd R) :=
  if negb (existsb (Nat.eqb 3) (shp v)) then Raise ValueError
  else
    k <- norm_axis axis (ndim v) ;;
    if negb (Nat.eqb (nth k (shp v) O) 3) then Raise ValueError
    else if existsb (fun ix => Req_b (qnorm2 (dat q ix)) 0) (indices (shp q)) then Raise ZeroDivisionError
    else Ok (Nd (shp q ++ shp v) (fun ix =>
      let iq := firstn (ndim q) ix in
      let iv := skipn (ndim q) ix in
      match quat_rv (dat q iq) (vec_along v k (remove_at k iv)) with
      | Ok w => comp3 (nth k iv O) w
      | Raise _ => 0 (* not reached: no quaternion is zero *)
      end)).
(** utils.py:228-263 [rotate_vectors], all arguments. *)
Definition rotate_vectors_full (q : qarg) (v : nd R) (axis qaxis : Z) (one_to_one : bool) : res (nd R) :=
  q <- to_quats q qaxis ;;
  if negb one_to_one || Nat.eqb (ndim q) 0 then rv_all q v axis else rotate_vectors q v axis.
