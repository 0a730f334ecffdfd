(** Model of rigid_body_motion/coordinate_systems.py. *)
From Coq Require Import Reals List Arith Bool ZArith.
From Verif Require Import Base NdArray Transform.
Import ListNotations.
Open Scope R_scope.

(** C's atan2 as numpy.arctan2 (signed zeros are not modelled). *)
Definition atan2 (y x : R) : R :=
  if Rlt_b 0 x then atan (y / x)
  else if Rlt_b x 0 then (if Rle_b 0 y then atan (y / x) + PI else atan (y / x) - PI)
  else if Rlt_b 0 y then PI / 2
  else if Rlt_b y 0 then - (PI / 2) else 0.

(** numpy.take(arr, i, axis): the hyperplane at index i of the axis. *)
Definition take (a : nd R) (k i : nat) : nd R :=
  Nd (remove_at k (shp a)) (fun ix => dat a (insert_at k i ix)).
(** numpy.stack(parts, axis) for parts of one shape. *)
Definition stack (parts : list (nd R)) (k : nat) (sh : list nat) : nd R :=
  Nd (insert_at k (List.length parts) sh)
     (fun ix => dat (nth (nth k ix O) parts (Nd [] (fun _ => 0))) (remove_at k ix)).
(** numpy.linalg.norm(arr, axis). *)
Definition norm_along (a : nd R) (k : nat) : nd R :=
  Nd (remove_at k (shp a)) (fun ix =>
    sqrt (fold_right Rplus 0 (map (fun i => dat a (insert_at k i ix) * dat a (insert_at k i ix))
                                  (seq 0 (nth k (shp a) O))))).
(** the length check at the top of each function; arr.shape[axis] raises IndexError. *)
Definition check_len (a : nd R) (axis : Z) (n : nat) : res nat :=
  k <- norm_axis axis (ndim a) ;;
  if negb (Nat.eqb (nth k (shp a) O) n) then Raise ValueError else Ok k.

(** coordinate_systems.py:6-31 *)
Definition cartesian_to_polar (a : nd R) (axis : Z) : res (nd R) :=
  k <- check_len a axis 2 ;;
  let r := norm_along a k in
  let phi := Nd (remove_at k (shp a)) (fun ix => atan2 (dat (take a k 1) ix) (dat (take a k 0) ix)) in
  Ok (stack [r; phi] k (remove_at k (shp a))).

(** coordinate_systems.py:34-58 *)
Definition polar_to_cartesian (a : nd R) (axis : Z) : res (nd R) :=
  k <- check_len a axis 2 ;;
  let sh := remove_at k (shp a) in
  let x := Nd sh (fun ix => dat (take a k 0) ix * cos (dat (take a k 1) ix)) in
  let y := Nd sh (fun ix => dat (take a k 0) ix * sin (dat (take a k 1) ix)) in
  Ok (stack [x; y] k sh).

(** coordinate_systems.py:61-89.  z / r is NaN where r = 0: the model then ends with
    [NaNValue] instead of an array with NaN entries. *)
Definition cartesian_to_spherical (a : nd R) (axis : Z) : res (nd R) :=
  k <- check_len a axis 3 ;;
  let sh := remove_at k (shp a) in
  let r := norm_along a k in
  if existsb (fun ix => Req_b (dat r ix) 0) (indices sh) then Raise NaNValue
  else
    let theta := Nd sh (fun ix => acos (dat (take a k 2) ix / dat r ix)) in
    let phi := Nd sh (fun ix => atan2 (dat (take a k 1) ix) (dat (take a k 0) ix)) in
    Ok (stack [r; theta; phi] k sh).

(** coordinate_systems.py:92-129 *)
Definition spherical_to_cartesian (a : nd R) (axis : Z) : res (nd R) :=
  k <- check_len a axis 3 ;;
  let sh := remove_at k (shp a) in
  let c i ix := dat (take a k i) ix in
  let x := Nd sh (fun ix => c 0%nat ix * sin (c 1%nat ix) * cos (c 2%nat ix)) in
  let y := Nd sh (fun ix => c 0%nat ix * sin (c 1%nat ix) * sin (c 2%nat ix)) in
  let z := Nd sh (fun ix => c 0%nat ix * cos (c 1%nat ix)) in
  Ok (stack [x; y; z] k sh).
