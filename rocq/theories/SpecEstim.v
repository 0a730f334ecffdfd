(** Specification vocabulary for estimated rotations and transforms. *)
From Coq Require Import Reals List.
From Verif Require Import Base SpecQuat Estim.
Import ListNotations.
Open Scope R_scope.

(** Sum of squared residuals of the rigid transform (t, q) on corresponding points
    (a, b): how far q a + t is from b. *)
Fixpoint sq_error (t : vec3) (q : quat) (l : list (vec3 * vec3)) : R :=
  match l with
  | [] => 0
  | (a, b) :: l => dist2 b (vadd (srot q a) t) + sq_error t q l
  end.

(** A matrix that preserves inner products. *)
Definition orthogonal (m : mat3) : Prop := forall v w, vdot (mapply m v) (mapply m w) = vdot v w.
(** numpy.linalg.svd: H = U diag(S) Vt, U and Vt orthogonal, S >= 0 in descending order. *)
Definition is_svd (H : mat3) (d : mat3 * vec3 * mat3) : Prop :=
  let '(U, Sv, Vt) := d in
  orthogonal U /\ orthogonal Vt /\ vx Sv >= vy Sv /\ vy Sv >= vz Sv /\ vz Sv >= 0 /\
  forall v, mapply H v = mapply U (let w := mapply Vt v in V3 (vx Sv * vx w) (vy Sv * vy w) (vz Sv * vz w)).
(** numpy-quaternion from_rotation_matrix, on rotation matrices: a unit quaternion of
    the same rotation. *)
Definition is_frm (frm : mat3 -> quat) : Prop :=
  forall m, orthogonal m -> det3 m = 1 -> hunit (frm m) /\ forall v, srot (frm m) v = mapply m v.
(** cKDTree.query: the index of a nearest point. *)
Definition is_nearest (nearest : list vec3 -> vec3 -> nat) : Prop :=
  forall l p, l <> [] -> exists q, nth_error l (nearest l p) = Some q /\ forall q', In q' l -> dist2 p q <= dist2 p q'.

(** Sums of products of coordinates over corresponding vectors, and the determinant
    of the 3x3 table of them (its sign says whether the vectors match up to a
    rotation rather than a reflection). *)
Definition moment (f g : vec3 -> R) (l : list (vec3 * vec3)) : R :=
  fold_right (fun p s => f (fst p) * g (snd p) + s) 0 l.
Definition chirality (l : list (vec3 * vec3)) : R :=
    moment vx vx l * (moment vy vy l * moment vz vz l - moment vy vz l * moment vz vy l)
  - moment vx vy l * (moment vy vx l * moment vz vz l - moment vy vz l * moment vz vx l)
  + moment vx vz l * (moment vy vx l * moment vz vy l - moment vy vy l * moment vz vx l).

(** Squared distance to the nearest of the points v2, and its sum and mean root. *)
Fixpoint nn2 (v2 : list vec3) (p : vec3) : R :=
  match v2 with [] => 0 | [q] => dist2 p q | q :: v2 => Rmin (dist2 p q) (nn2 v2 p) end.
Definition nn_error (v2 ps : list vec3) : R := fold_right (fun p s => nn2 v2 p + s) 0 ps.
Definition nn_mean (v2 ps : list vec3) : R := fold_right (fun p s => sqrt (nn2 v2 p) + s) 0 ps / INR (List.length ps).
(** One step of the iterative closest point algorithm: move by a least-squares rigid
    transform onto the nearest neighbours. *)
Definition icp_step (v2 ps ps' : list vec3) : Prop := exists ns t r,
  Forall2 (fun p n => In n v2 /\ forall q, In q v2 -> dist2 p n <= dist2 p q) ps ns /\
  hunit r /\ (forall t' q, hn2 q <> 0 -> sq_error t r (combine ps ns) <= sq_error t' q (combine ps ns)) /\
  ps' = map (smove t r) ps.
(** The successive point sets when at most n more steps are allowed and the previous
    mean distance was prev: stop when the mean distance has changed by less than tol. *)
Inductive icp_run (v2 : list vec3) (tol : R) : nat -> R -> list (list vec3) -> Prop :=
| run_end prev ps : icp_run v2 tol 0 prev [ps]
| run_stop n prev ps ps' : icp_step v2 ps ps' -> Rabs (prev - nn_mean v2 ps) < tol -> icp_run v2 tol (S n) prev [ps; ps']
| run_on n prev ps ps' tr : icp_step v2 ps ps' -> tol <= Rabs (prev - nn_mean v2 ps) ->
    icp_run v2 tol n (nn_mean v2 ps) (ps' :: tr) -> icp_run v2 tol (S n) prev (ps :: ps' :: tr).
