(** Model of rigid_body_motion/estimators.py: shortest_arc_rotation (236-282),
    best_fit_rotation (285-341), best_fit_transform (344-409),
    iterative_closest_point (412-524), for plain arrays. *)
From Coq Require Import Reals List Arith Bool ZArith.
From Verif Require Import Base Quat NdArray Transform Utils Velocity.
Import ListNotations.
Open Scope R_scope.

(* ------------------------------------------------------------------ shortest arc *)
(** One pair of vectors, estimators.py:267-273: the quaternion
    (|a||b| + a.b, a x b), divided by its length; NaN if that length is 0. *)
Definition arc_raw (a b : vec3) : quat :=
  let c := vcross a b in Qt (sqrt (vdot a a * vdot b b) + vdot a b) (vx c) (vy c) (vz c).
Definition arc (a b : vec3) : res quat :=
  let q := arc_raw a b in
  if Req_b (qnorm2 q) 0 then Raise NaNValue else Ok (qscale (/ qlen q) q).
(** The vectors of an array with the coordinates on axis k. *)
Definition vecs_along (a : nd R) (k : nat) : nd vec3 := Nd (remove_at k (shp a)) (vec_along a k).
(** numpy.concatenate along axis k of the four components. *)
Definition quats_along (q : nd quat) (k : nat) : nd R :=
  Nd (insert_at k 4 (shp q)) (fun ix => comp4 (nth k ix O) (dat q (remove_at k ix))).
(** estimators.py:263-282; [axis or -1] is core.py:398.  The other axes broadcast;
    a size other than 3 along the axis ends in a ValueError of numpy.cross or of
    numpy.concatenate.  Simplification: arrays with different numbers of axes are
    refused here (numpy would align them from the right). *)
Definition shortest_arc_rotation (v1 v2 : nd R) (axis : option Z) : res (nd R) :=
  let ax := or_default axis (-1) in
  k <- norm_axis ax (ndim v1) ;;
  if negb (Nat.eqb (ndim v1) (ndim v2)) then Raise NotImplementedError
  else if negb (Nat.eqb (nth k (shp v1) O) 3 && Nat.eqb (nth k (shp v2) O) 3) then Raise ValueError
  else
    pairs <- op2 pair (vecs_along v1 k) (vecs_along v2 k) ;;
    q <- map_res (fun p => arc (fst p) (snd p)) q1 pairs ;;
    Ok (quats_along q k).

(* ------------------------------------------------------------------ point sets *)
(** estimators.py:17-41 [_reshape_vectors] for plain arrays.  _maybe_unpack_dataarray
    is called with timestamps=False for v1, so core.py:438 compares the axis with
    time axis 0 (for v1 only).  swapaxes + reshape(-1, 3) lists the vectors in
    row-major order of the swapped array. *)
Definition points_of (a : nd R) (k : nat) : list vec3 :=
  let b := swap_nd k (ndim a - 1) a in
  map (fun pre => vec_along b (ndim a - 1) pre) (indices (removelast (shp b))).
Definition reshape_vectors (v1 v2 : nd R) (axis : option Z) (same : bool) : res (list vec3 * list vec3) :=
  let ax := or_default axis (-1) in
  if Nat.eqb (ndim v1) 0 then Raise ZeroDivisionError
  else if Z.eqb (ax mod Z.of_nat (ndim v1)) 0 then Raise ValueError
  else
    k1 <- norm_axis ax (ndim v1) ;;
    if negb (Nat.eqb (nth k1 (shp v1) O) 3) then (do_ norm_axis ax (ndim v2) ;; Raise ValueError) (* the message reads v2.shape[axis] *)
    else
      k2 <- norm_axis ax (ndim v2) ;;
      if negb (Nat.eqb (nth k2 (shp v2) O) 3) then Raise ValueError
      else
        let p1 := points_of v1 k1 in let p2 := points_of v2 k2 in
        if same && negb (Nat.eqb (List.length p1) (List.length p2)) then Raise ValueError
        else Ok (p1, p2).

(* ------------------------------------------------------------------ 3x3 matrices *)
(** Rows. *)
Record mat3 := M3 { r0 : vec3; r1 : vec3; r2 : vec3 }.
Definition transpose (m : mat3) : mat3 :=
  M3 (V3 (vx (r0 m)) (vx (r1 m)) (vx (r2 m))) (V3 (vy (r0 m)) (vy (r1 m)) (vy (r2 m))) (V3 (vz (r0 m)) (vz (r1 m)) (vz (r2 m))).
Definition mapply (m : mat3) (v : vec3) : vec3 := V3 (vdot (r0 m) v) (vdot (r1 m) v) (vdot (r2 m) v).
Definition mdot (a b : mat3) : mat3 :=
  let c := transpose b in
  M3 (V3 (vdot (r0 a) (r0 c)) (vdot (r0 a) (r1 c)) (vdot (r0 a) (r2 c)))
     (V3 (vdot (r1 a) (r0 c)) (vdot (r1 a) (r1 c)) (vdot (r1 a) (r2 c)))
     (V3 (vdot (r2 a) (r0 c)) (vdot (r2 a) (r1 c)) (vdot (r2 a) (r2 c))).
Definition det3 (m : mat3) : R := vdot (r0 m) (vcross (r1 m) (r2 m)).
Definition madd (a b : mat3) : mat3 := M3 (vadd (r0 a) (r0 b)) (vadd (r1 a) (r1 b)) (vadd (r2 a) (r2 b)).
Definition mzero : mat3 := M3 v0 v0 v0.
Definition outer (a b : vec3) : mat3 := M3 (vscale (vx a) b) (vscale (vy a) b) (vscale (vz a) b).
(** numpy.dot(v1.T, v2) for (N, 3) arrays. *)
Definition cross_cov (l : list (vec3 * vec3)) : mat3 :=
  fold_right (fun p m => madd (outer (fst p) (snd p)) m) mzero l.
(** numpy.mean(v, axis=0); NaN for no rows. *)
Definition vsum (l : list vec3) : vec3 := fold_right vadd v0 l.
Definition centroid (l : list vec3) : res vec3 :=
  match l with [] => Raise NaNValue | _ => Ok (vscale (/ INR (List.length l)) (vsum l)) end.
(** Vt[2, :] *= -1 (estimators.py:395). *)
Definition flip_last (m : mat3) : mat3 := M3 (r0 m) (r1 m) (vopp (r2 m)).

Section Fit.
  (** numpy.linalg.svd(H) = (U, S, Vt) and numpy-quaternion from_rotation_matrix. *)
  Variable svd : mat3 -> mat3 * vec3 * mat3.
  Variable frm : mat3 -> quat.

  (** estimators.py:322-341 *)
  Definition fit_rotation (p1 p2 : list vec3) : quat :=
    let '(U, _, Vt) := svd (cross_cov (combine p1 p2)) in
    frm (mdot (transpose Vt) (transpose U)).
  Definition best_fit_rotation (v1 v2 : nd R) (axis : option Z) : res quat :=
    '(p1, p2) <- reshape_vectors v1 v2 axis true ;; Ok (fit_rotation p1 p2).

  (** estimators.py:384-409 *)
  Definition fit_transform (p1 p2 : list vec3) : res (vec3 * quat) :=
    m1 <- centroid p1 ;;
    m2 <- centroid p2 ;;
    let c1 := map (fun v => vsub v m1) p1 in
    let c2 := map (fun v => vsub v m2) p2 in
    let '(U, _, Vt) := svd (cross_cov (combine c1 c2)) in
    let Rm := mdot (transpose Vt) (transpose U) in
    let Rm' := if Rlt_b (det3 Rm) 0 then mdot (transpose (flip_last Vt)) (transpose U) else Rm in
    Ok (vsub m2 (mapply Rm' m1), frm Rm').
  Definition best_fit_transform (v1 v2 : nd R) (axis : option Z) : res (vec3 * quat) :=
    '(p1, p2) <- reshape_vectors v1 v2 axis true ;; fit_transform p1 p2.

  (** scipy cKDTree(v2).query(p, 1) (estimators.py:412-417): index of a nearest point. *)
  Variable nearest : list vec3 -> vec3 -> nat.
  Definition vdist (a b : vec3) : R := sqrt (vdot (vsub a b) (vsub a b)).
  (** v2[idx], distances.  An empty v2 gives an index that does not exist. *)
  Definition neighbours (v2 ps : list vec3) : res (list vec3) :=
    traverse (fun p => match nth_error v2 (nearest v2 p) with Some q => Ok q | None => Raise IndexError end) ps.
  (** rotate_vectors(r, v) + t for a single rotation (utils.py:236-237). *)
  Definition apply_pose (t : vec3) (r : quat) (ps : list vec3) : res (list vec3) :=
    traverse (fun p => w <- quat_rv r p ;; Ok (vadd w t)) ps.
  Definition mean (l : list R) : res R :=
    match l with [] => Raise NaNValue | _ => Ok (fold_right Rplus 0 l / INR (List.length l)) end.

  (** The loop, estimators.py:498-515; fuel = remaining iterations. *)
  Fixpoint icp_loop (v2 : list vec3) (tol : R) (n : nat) (ps : list vec3) (prev : R) : res (list vec3) :=
    match n with
    | O => Ok ps
    | S n =>
        ns <- neighbours v2 ps ;;
        '(t, r) <- fit_transform ps ns ;;
        ps' <- apply_pose t r ps ;;
        err <- mean (map (fun p => vdist (fst p) (snd p)) (combine ps ns)) ;;
        if Rlt_b (Rabs (prev - err)) tol then Ok ps' else icp_loop v2 tol n ps' err
    end.
  (** estimators.py:485-524; [init_transform] as a translation and a rotation. *)
  Definition icp_points (p1 v2 : list vec3) (init : option (vec3 * quat)) (max_iterations : Z) (tol : R)
    : res (vec3 * quat) :=
    start <- match init with None => Ok p1 | Some (t, r) => apply_pose t r p1 end ;;
    final <- icp_loop v2 tol (Z.to_nat max_iterations) start 0 ;;
    fit_transform p1 final.
  Definition iterative_closest_point (v1 v2 : nd R) (axis : option Z) (init : option (vec3 * quat))
    (max_iterations : Z) (tol : R) : res (vec3 * quat) :=
    '(p1, p2) <- reshape_vectors v1 v2 axis false ;; icp_points p1 p2 init max_iterations tol.
End Fit.
