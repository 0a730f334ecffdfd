(** Model of the angular velocity estimate from rotation vectors and of its outlier
    suppression (core.py:728-790, mode="rotation_vector" and outlier_thresh), with
    numpy-quaternion's as_rotation_vector. *)
From Coq Require Import Reals List String Arith Bool ZArith.
From Verif Require Import Base Quat NdArray Matcher Transform Coord Velocity VelFrames.
Import ListNotations.
Open Scope R_scope.

(** numpy-quaternion: the vector part of log(q) for a unit quaternion,
    atan2(|v|, w) v / |v|.  Simplification: |v| <= 1e-14 |w| is read as v = 0. *)
Definition log_vec (q : quat) : vec3 :=
  let v := qvec q in
  let b := vnorm v in
  if Req_b b 0 then (if Rlt_b (qw q) 0 then V3 PI 0 0 else v0)
  else vscale (atan2 b (qw q) / b) v.
(** as_rotation_vector(q) = vec(2 log(normalized(q))); NaN for 0. *)
Definition rotation_vector (q : quat) : res vec3 :=
  if Req_b (qnorm2 q) 0 then Raise NaNValue else Ok (vscale 2 (log_vec (qscale (/ qlen q) q))).

(** The quaternion at an index of an array with the components on axis k (the index
    along k does not matter). *)
Definition quat_in (r : nd R) (k : nat) (ix : list nat) : quat :=
  Qt (dat r (setn k 0 ix)) (dat r (setn k 1 ix)) (dat r (setn k 2 ix)) (dat r (setn k 3 ix)).
(** core.py:742-768, 786: the gradient of the rotation vectors.  Simplification: a size
    other than 4 along the axis is refused (as_quat_array accepts multiples of 4). *)
Definition estimate_rotvec (a : nd R) (ts : list R) (axis time_axis : Z) : res (nd R) :=
  match ndim a with
  | O => Raise ZeroDivisionError
  | S n1 =>
      let n := Z.of_nat (S n1) in
      let k := Z.to_nat (axis mod n) in
      let t0 := Z.to_nat (time_axis mod n) in
      let tau := if Nat.eqb t0 n1 then k else t0 in
      let r := swap_nd k n1 a in
      if negb (Nat.eqb (nth n1 (shp r) O) 4) then Raise ValueError
      else
        do_ traverse (fun ix => rotation_vector (quat_in r n1 ix)) (indices (shp r)) ;;
        let rv := Nd (setn n1 3 (shp r)) (fun ix =>
          match rotation_vector (quat_in r n1 ix) with
          | Ok v => comp3 (nth n1 ix O) v
          | Raise _ => 0 (* not reached *)
          end) in
        g <- gradient_nd rv ts tau ;;
        Ok (swap_nd k n1 g)
  end.

Section Deriv.
  Variable deriv : list R -> list R -> res (list R).
  (** core.py:728-772 for data without NaN entries. *)
  Definition estimate_angular_mode (mode : string) (a : nd R) (ts : list R) (axis time_axis : Z) : res (nd R) :=
    if String.eqb mode "quaternion" then
      est <- estimate_angular deriv (Nd (shp a) (fun ix => Some (dat a ix))) ts axis time_axis ;; no_nan est
    else if String.eqb mode "rotation_vector" then estimate_rotvec a ts axis time_axis
    else Raise ValueError.
  (** core.py:774-786: with outlier_thresh.  For two axes the swapped array is (N, 4) with
      the time first; for more numpy.hstack refuses the norms. *)
  Definition estimate_angular_outlier (mode : string) (thresh : R) (a : nd R) (ts : list R) (axis time_axis : Z) : res (nd (option R)) :=
    g <- estimate_angular_mode mode a ts axis time_axis ;;
    match ndim a with
    | 2%nat =>
        let k := Z.to_nat (axis mod 2) in
        let r := swap_nd k 1 a in
        rows <- traverse (fun m => rotation_vector (quat_in r 1 [m; O])) (seq 0 (nth 0 (shp r) O)) ;;
        out <- suppress thresh (flags (diff2 rows)) ts (rows_of (swap_nd k 1 g)) ;;
        Ok (swap_nd k 1 (Nd [List.length out; 3%nat] (fun ix => option_map (comp3 (nth 1 ix O)) (nth (hd O ix) out None))))
    | _ => Raise ValueError
    end.
End Deriv.
