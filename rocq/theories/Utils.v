(** Model of the quaternion utilities of rigid_body_motion/utils.py (20-80,
    83-133, 266-383) and of _resolve_axis (core.py:318-333). *)
From Coq Require Import Reals List Arith Bool ZArith Ascii.
From Verif Require Import Base Quat NdArray Frames Matcher Transform.
Import ListNotations.
Open Scope R_scope.

(** An array argument: quaternion dtype, or float components on an axis. *)
Inductive qarg := QQ (q : nd quat) | QF (a : nd R).

(** Entrywise partial operation; the operation must succeed at every entry.
    (Simplification: numpy puts NaN at the entries where it does not.) *)
Definition map_res {A B} (f : A -> res B) (d : B) (a : nd A) : res (nd B) :=
  do_ traverse (fun ix => f (dat a ix)) (indices (shp a)) ;;
  Ok (Nd (shp a) (fun ix => match f (dat a ix) with Ok b => b | Raise _ => d end)).

(** np.swapaxes(qq, qaxis, -1), as_quat_array (utils.py:41-42, 72). *)
Definition to_quat (a : nd R) (qaxis : Z) : res (nd quat) :=
  b <- swapaxes a qaxis (-1) ;; as_quat b.
(** np.swapaxes(as_float_array(q), -1, qaxis) (utils.py:43, 74). *)
Definition from_quat (q : nd quat) (qaxis : Z) : res (nd R) := swapaxes (as_float q) (-1) qaxis.

(** utils.py:20-45 [qinv]. *)
Definition qinv (q : qarg) (qaxis : Z) : res qarg :=
  match q with
  | QF a => b <- to_quat a qaxis ;; c <- map_res qrecip q1 b ;; d <- from_quat c qaxis ;; Ok (QF d)
  | QQ b => c <- map_res qrecip q1 b ;; Ok (QQ c)
  end.

Definition is_quat (q : qarg) : bool := match q with QQ _ => true | QF _ => false end.
Definition quats_of (l : list qarg) : list (nd quat) :=
  concat (map (fun q => match q with QQ b => [b] | QF _ => [] end) l).
Definition floats_of (l : list qarg) : list (nd R) :=
  concat (map (fun q => match q with QF b => [b] | QQ _ => [] end) l).
(** reduce(operator.mul, q, 1) (utils.py:73, 76); the integer 1 is the quaternion 1. *)
Definition reduce_mul (l : list (nd quat)) : res (nd quat) :=
  foldM (fun acc q => op2 qmulq acc q) l (Nd [] (fun _ => q1)).
(** utils.py:48-81 [qmul]. *)
Definition qmul (l : list qarg) (qaxis : Z) : res qarg :=
  if Nat.ltb (List.length l) 2 then Raise ValueError
  else if forallb (fun q => negb (is_quat q)) l then
    qs <- traverse (fun a => to_quat a qaxis) (floats_of l) ;;
    m <- reduce_mul qs ;; d <- from_quat m qaxis ;; Ok (QF d)
  else if forallb is_quat l then m <- reduce_mul (quats_of l) ;; Ok (QQ m)
  else Raise ValueError.

(** core.py:318-333 [_resolve_axis]; the argument is an int, a tuple or None. *)
Inductive axis_arg := AxInt (a : Z) | AxTuple (l : list Z) | AxNone.
Inductive axis_res := RInt (a : Z) | RTuple (l : list Z).
Definition resolve_axis (axis : axis_arg) (ndim : nat) : res axis_res :=
  let n := Z.of_nat ndim in
  let out a := ((a <? 0) || (n <=? a))%Z in
  match axis with
  | AxInt a =>
      let a' := if (a <? 0)%Z then (n + a)%Z else a in
      if out a' then Raise IndexError else Ok (RInt a')
  | AxTuple l =>
      let l' := map (fun a => if (a <? 0)%Z then (n + a)%Z else a) l in
      if existsb out l' then Raise IndexError else Ok (RTuple l')
  | AxNone =>
      let l' := map Z.of_nat (seq 0 ndim) in
      if existsb out l' then Raise IndexError else Ok (RTuple l')
  end.

(* ---- qmean ---- *)
Definition m4 := nat -> nat -> R.
(** np.mean(q * qt, axis): entries of the mean outer product (utils.py:118-120). *)
Definition rsum (l : list R) : R := fold_right Rplus 0 l.
Definition mean_outer (l : list quat) : m4 :=
  fun i j => rsum (map (fun q => comp4 i q * comp4 j q) l) / INR (List.length l).
(** numpy argsort of four numbers.  For arrays of at most 16 entries numpy's
    default sort is a stable insertion sort. *)
Fixpoint ins_by (l : nat -> R) (i : nat) (s : list nat) : list nat :=
  match s with
  | [] => [i]
  | j :: s' => if Rlt_b (l j) (l i) then j :: ins_by l i s' else
               i :: s
  end.
Definition argsort4 (l : nat -> R) : list nat := fold_right (ins_by l) [] (seq 0 4).

Section Eig.
  (** numpy.linalg.eig for one 4x4 matrix: eigenvalues and, column-wise, unit
      eigenvectors.  (A is symmetric, so they are real; utils.py:127 takes the
      real part.) *)
  Variable eig : m4 -> (nat -> R) * m4.

  (** utils.py:122-127.  [bshape] is the shape of the batch (the axes that are not
      averaged), [A] the matrix at each batch index.  The indices returned by
      argsort lie in 0..3, so unravel_index(..., l.shape) puts 0 on all batch axes
      and the rank on the last one; the indexed array v has two further axes, so
      v[idx] reads entry (rank, 0) of the matrix of batch (0, ..., 0). *)
  Definition qmean_core (batch : list nat) (A : list nat -> m4) : nd quat :=
    let zero := map (fun _ => O) batch in
    let v := snd (eig (A zero)) in
    Nd batch (fun b =>
      let idx := rev (argsort4 (fst (eig (A b)))) in
      Qt (v (nth 0 idx O) O) (v (nth 1 idx O) O) (v (nth 2 idx O) O) (v (nth 3 idx O) O)).

  (** utils.py:84-133 [qmean] for a quaternion array: axis=None, or one axis
      (already normalised).  Simplification: tuples of axes are not modelled. *)
  Definition qmean_all (q : nd quat) : nd quat :=
    qmean_core [] (fun _ => mean_outer (map (dat q) (indices (shp q)))).
  Definition qmean_axis (q : nd quat) (k : nat) : nd quat :=
    qmean_core (remove_at k (shp q))
      (fun b => mean_outer (map (fun i => dat q (insert_at k i b)) (seq 0 (nth k (shp q) O)))).
End Eig.

(* ---- Euler angles ---- *)
(** numpy-quaternion from_rotation_vector: exp of the half vector. *)
Definition from_rotvec (v : vec3) : quat :=
  let h := sqrt (vdot v v) / 2 in
  if Req_b h 0 then q1
  else Qt (cos h) (sin h / h * (vx v / 2)) (sin h / h * (vy v / 2)) (sin h / h * (vz v / 2)).

(** str.index of one character. *)
Fixpoint index_of (c : ascii) (s : list ascii) : option nat :=
  match s with
  | [] => None
  | d :: s => if Ascii.eqb c d then Some O
              else match index_of c s with Some n => Some (S n) | None => None end
  end.
Definition set3 {A} (l : list A) (i : nat) (x : A) : option (list A) :=
  if Nat.ltb i (List.length l) then Some (firstn i l ++ x :: skipn (S i) l) else None.
Definition ch_r : ascii := "r"%char.
Definition ch_p : ascii := "p"%char.
Definition ch_y : ascii := "y"%char.

(** utils.py:362-371: the rotors rearranged; ValueError for a missing letter or one
    beyond the third place. *)
Definition arrange (order : list ascii) (roll pitch yaw : option (nd quat))
    : res (list (option (nd quat))) :=
  let put1 c x l :=
    match index_of c order with
    | None => Raise ValueError
    | Some i => match set3 l i x with Some l => Ok l | None => Raise ValueError end
    end in
  l1 <- put1 ch_r roll [None; None; None] ;;
  l2 <- put1 ch_p pitch l1 ;;
  put1 ch_y yaw l2.

Definition list_nat_eqb (a b : list nat) : bool :=
  if list_eq_dec Nat.eq_dec a b then true else false.
(** utils.py:334-357: shapes of pitch and yaw must equal the shape so far. *)
Definition check_shape (shape : option (list nat)) (a : option (nd R)) : res (option (list nat)) :=
  match a with
  | None => Ok shape
  | Some a => match shape with
              | None => Ok (Some (shp a))
              | Some s => if list_nat_eqb s (shp a) then Ok (Some s) else Raise ValueError
              end
  end.
Definition about (u : vec3) (a : option (nd R)) : option (nd quat) :=
  match a with
  | None => None
  | Some a => Some (Nd (shp a) (fun ix => from_rotvec (V3 (vx u * dat a ix) (vy u * dat a ix) (vz u * dat a ix))))
  end.
(** rpy[..., k] after swapping [axis] to the end (utils.py:316-320); the axis must
    have at least three entries (IndexError), and a longer one is accepted. *)
Definition take_last (a : nd R) (k : nat) : nd R :=
  Nd (removelast (shp a)) (fun ix => dat a (ix ++ [k])).

(** utils.py:266-383 [from_euler_angles] with return_quaternion=True. *)
Definition from_euler_angles (rpy roll pitch yaw : option (nd R)) (axis : Z) (order : list ascii)
    : res (nd quat) :=
  '(roll, pitch, yaw) <-
    match rpy with
    | Some a =>
        match roll, pitch, yaw with
        | None, None, None =>
            b <- swapaxes a axis (-1) ;;
            if Nat.ltb (last (shp b) O) 3 then Raise IndexError
            else Ok (Some (take_last b 0), Some (take_last b 1), Some (take_last b 2))
        | _, _, _ => Raise ValueError
        end
    | None => Ok (roll, pitch, yaw)
    end ;;
  shape <- check_shape (match roll with Some a => Some (shp a) | None => None end) pitch ;;
  shape <- check_shape shape yaw ;;
  match shape with
  | None => Raise ValueError
  | Some _ =>
      rotors <- arrange order (about (V3 1 0 0) roll) (about (V3 0 1 0) pitch) (about (V3 0 0 1) yaw) ;;
      foldM (fun acc r => match r with None => Ok acc | Some q => op2 qmulq acc q end)
            rotors (Nd [] (fun _ => q1))
  end.
(** the float result (utils.py:380-383). *)
Definition from_euler_angles_float rpy roll pitch yaw axis order : res (nd R) :=
  q <- from_euler_angles rpy roll pitch yaw axis order ;; from_quat q axis.
