(** Model of rigid_body_motion/testing.py. *)
From Coq Require Import Reals List Arith Bool ZArith.
From Verif Require Import Base Quat NdArray Frames Transform Utils.
Import ListNotations.
Open Scope R_scope.

(** testing.py:22-28: max_angle (negated for inverse) times the sine at the sample times. *)
Definition trajectory (n : nat) (freq max_angle fs : R) (inverse : bool) : list R :=
  let a := if inverse then - max_angle else max_angle in
  map (fun k => a * sin (2 * PI * freq * INR k / fs)) (seq 0 n).

(** numpy.array_split(l, 3): the first (length mod 3) parts are one longer. *)
Definition array_split3 {A} (l : list A) : list A * list A * list A :=
  let q := Nat.div (length l) 3 in
  let r := Nat.modulo (length l) 3 in
  let a := if Nat.ltb 0 r then S q else q in
  let b := if Nat.ltb 1 r then S q else q in
  (firstn a l, firstn b (skipn a l), skipn b (skipn a l)).

(** testing.py:30-37 *)
Definition along (u : vec3) (l : list R) : list vec3 := map (fun x => V3 (x * vx u) (x * vy u) (x * vz u)) l.
Definition motion_rows (stack : bool) (l : list R) : list vec3 :=
  if stack then
    let '(tx, ty, tz) := array_split3 l in
    along (V3 1 0 0) tx ++ along (V3 0 1 0) ty ++ along (V3 0 0 1) tz
  else map (fun x => V3 x x x) l.

Definition rows3 (l : list vec3) : nd R := Nd [length l; 3%nat] (fun ix => comp3 (nth 1 ix O) (nth (hd O ix) l v0)).
Definition rows4 (l : list quat) : nd R := Nd [length l; 4%nat] (fun ix => comp4 (nth 1 ix O) (nth (hd O ix) l q1)).

(** testing.py:10-47 [make_test_motion]: translation and rotation.  fs = 0 is refused (1 / fs in the
    frequency of the timestamps, the last statement; the NaN values until then are not modelled).
    Not modelled: the timestamps (made by pandas). *)
Definition make_test_motion (n : nat) (freq max_angle fs : R) (stack inverse : bool) (offset : option (list R))
    : res (nd R * nd R) :=
  let t := motion_rows stack (trajectory n freq max_angle fs inverse) in
  let r := map from_rotvec t in
  t <- match offset with
       | None => Ok (rows3 t)
       | Some o =>
           q <- as_quat (rows4 r) ;;
           d <- rotate_vectors q (Nd [1%nat; length o] (fun ix => nth (nth 1 ix O) o 0)) (-1) ;;
           op2 Rplus (rows3 t) d
       end ;;
  if Req_b fs 0 then Raise ZeroDivisionError else Ok (t, rows4 r).
