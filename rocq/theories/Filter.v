(** Model of the low-pass filter of the velocity estimators (core.py:788-789, 816-817:
    filtfilt( *butter(7, cutoff), x, axis=time_axis)), with the algorithms of
    scipy.signal.  Simplification: exact real arithmetic. *)
From Coq Require Import Reals List Arith Bool ZArith.
From Verif Require Import Base NdArray Transform Velocity VelFrames RotVec.
Import ListNotations.
Open Scope R_scope.

(** The filters below act on numbers that can be added and multiplied with real
    coefficients: real numbers, or real numbers and NaN. *)
Section Scalars.
  Variables (T : Type) (add : T -> T -> T) (mul : R -> T -> T).

  (** One step of scipy.signal.lfilter (transposed direct form II, a[0] = 1): the new
      state, z[i] = b[i+1] x + z[i+1] - a[i+1] y, without z[i+1] in the last entry. *)
  Fixpoint shift (bs cs : list R) (x y : T) (z : list T) : list T :=
    match bs, cs, z with
    | b :: bs, c :: cs, _ :: z =>
        add (match z with z1 :: _ => add (mul b x) z1 | [] => mul b x end) (mul (- c) y) :: shift bs cs x y z
    | _, _, _ => []
    end.
  (** The output: y = b[0] x + z[0]. *)
  Definition emit (b : R) (z : list T) (x : T) : T :=
    match z with z0 :: _ => add (mul b x) z0 | [] => mul b x end.
  (** scipy.signal.lfilter(b, a, xs, zi=z); a[0] = 1. *)
  Fixpoint lfilter (b a : list R) (z : list T) (xs : list T) : list T :=
    match xs with
    | [] => []
    | x :: xs => let y := emit (hd 0 b) z x in y :: lfilter b a (shift (tl b) (tl a) x y z) xs
    end.
  (** scipy.signal._arraytools.odd_ext(x, n) for n < len(x):
      2 x[0] - x[n], ..., 2 x[0] - x[1], x, 2 x[-1] - x[-2], ..., 2 x[-1] - x[-n-1]. *)
  Definition reflect (e x : T) : T := add (mul 2 e) (mul (-1) x).
  Definition odd_ext (d : T) (n : nat) (x : list T) : list T :=
    map (reflect (hd d x)) (rev (firstn n (tl x))) ++ x ++ map (reflect (last x d)) (firstn n (tl (rev x))).
End Scalars.

(** scipy.signal.lfilter_zi(b, a) for a[0] = 1: zi[0] = sum(b[1:] - a[1:] b[0]) / sum(a);
    zi[k] = asum zi[0] - csum with asum = a[0] + ... + a[k],
    csum = the sum of b[j] - a[j] b[0], j = 1 .. k. *)
Definition lsum (l : list R) : R := fold_right Rplus 0 l.
Fixpoint zi_rest (asum csum z0 b0 : R) (bs cs : list R) : list R :=
  match bs, cs with
  | b :: ((_ :: _) as bs), c :: cs =>
      let asum := asum + c in
      let csum := csum + (b - c * b0) in
      (asum * z0 - csum) :: zi_rest asum csum z0 b0 bs cs
  | _, _ => []
  end.
Definition lfilter_zi (b a : list R) : list R :=
  let b0 := hd 0 b in
  let z0 := (lsum (tl b) - b0 * lsum (tl a)) / lsum a in
  z0 :: zi_rest 1 0 z0 b0 (tl b) (tl a).

(** scipy.signal.filtfilt(b, a, x) with the defaults padtype="odd",
    padlen = 3 max(len(a), len(b)); the empty default [d] is not used. *)
Section Filtfilt.
  Variables (T : Type) (add : T -> T -> T) (mul : R -> T -> T) (d : T).
  Definition filtfilt (b a : list R) (x : list T) : res (list T) :=
    let edge := (3 * Nat.max (List.length a) (List.length b))%nat in
    if Nat.leb (List.length x) edge then Raise ValueError
    else
      let ext := odd_ext T add mul d edge x in
      let zi := lfilter_zi b a in
      let y := lfilter T add mul b a (map (fun c => mul c (hd d ext)) zi) ext in
      let yr := lfilter T add mul b a (map (fun c => mul c (last y d)) zi) (rev y) in
      Ok (firstn (List.length x) (skipn edge (rev yr))).
End Filtfilt.

(* ------------------------------------------------------------------ butter(7, Wn) *)
(** Products of polynomials (coefficients from the highest power down; both lists
    aligned at the highest power, so padding is on the right). *)
Fixpoint padd (p q : list R) : list R :=
  match p, q with
  | [], q => q
  | p, [] => p
  | x :: p, y :: q => (x + y) :: padd p q
  end.
Fixpoint pmul (p q : list R) : list R :=
  match p with
  | [] => []
  | [x] => map (Rmult x) q
  | x :: p => padd (map (Rmult x) q) (0 :: pmul p q)
  end.
(** scipy.signal.butter(7, Wn): the analog poles are -exp(i m pi / 14), m = -6, -4 .. 6,
    times 4 w with w = tan(pi Wn / 2); the bilinear transform (z = (4 + p) / (4 - p)) gives the
    seven zeros -1, the poles (1 - w e) / (1 + w e), e = exp(i m pi / 14), and the gain
    w^7 / prod (1 + w e).  Simplification: the polynomial of a pair of conjugate poles
    m, -m is written down with real coefficients, c = cos(m pi / 14). *)
Definition pole_pair (w c : R) : list R :=
  let n := 1 + 2 * w * c + w * w in [1; (2 * (w * w) - 2) / n; (1 - 2 * w * c + w * w) / n].
Definition pole_real (w : R) : list R := [1; (w - 1) / (1 + w)].
Definition butter_a (w : R) : list R :=
  pmul (pole_real w) (pmul (pole_pair w (cos (PI / 7))) (pmul (pole_pair w (cos (2 * PI / 7))) (pole_pair w (cos (3 * PI / 7))))).
Definition butter_gain (w : R) : R :=
  w ^ 7 / ((1 + w) * ((1 + 2 * w * cos (PI / 7) + w * w) * ((1 + 2 * w * cos (2 * PI / 7) + w * w) * (1 + 2 * w * cos (3 * PI / 7) + w * w)))).
Definition butter_b (w : R) : list R :=
  map (Rmult (butter_gain w)) [1; 7; 21; 35; 35; 21; 7; 1].
(** "Digital filter critical frequencies must be 0 < Wn < 1" is a ValueError. *)
Definition butter (wn : R) : res (list R * list R) :=
  if Rle_b wn 0 || Rle_b 1 wn then Raise ValueError
  else let w := tan (PI * wn / 2) in Ok (butter_b w, butter_a w).

(* ------------------------------------------------------------------ the estimators *)
(** NaN (None) propagates through sums and products. *)
Definition oadd (x y : option R) : option R := match x, y with Some x, Some y => Some (x + y) | _, _ => None end.
Definition omul (c : R) (x : option R) : option R := option_map (Rmult c) x.
Definition series_of {A} (a : nd A) (tau : nat) (ix : list nat) : list A :=
  map (fun m => dat a (setn tau m ix)) (seq 0 (nth tau (shp a) O)).
(** core.py:788-789, 816-817 for an array with the time on axis tau. *)
Definition low_pass (cutoff : option R) (tau : nat) (a : nd (option R)) : res (nd (option R)) :=
  match cutoff with
  | None => Ok a
  | Some wn =>
      ba <- butter wn ;;
      (* filtfilt checks the size of the array, not the number of series *)
      do_ (if Nat.leb (nth tau (shp a) O) (3 * Nat.max (List.length (snd ba)) (List.length (fst ba))) then Raise ValueError else Ok tt) ;;
      let out ix := filtfilt (option R) oadd omul None (fst ba) (snd ba) (series_of a tau ix) in
      do_ traverse out (indices (shp a)) ;;
      Ok (Nd (shp a) (fun ix => match out ix with Ok l => nth (nth tau ix O) l None | Raise _ => None (* not reached *) end))
  end.
(** Numbers as an array that may contain NaN. *)
Definition numbers (a : nd R) : nd (option R) := Nd (shp a) (fun ix => Some (dat a ix)).
(** core.py:793-819 with estimators.py:63-145, outlier_thresh (Velocity.v) then cutoff. *)
Definition estimate_linear_full (thresh cutoff : option R) (a : nd R) (axis : option Z) (ts : list R) (time_axis : option Z) : res (nd (option R)) :=
  g <- match thresh with
       | None => g <- estimate_linear_velocity a axis ts time_axis ;; Ok (numbers g)
       | Some th => estimate_linear_outlier th a axis ts time_axis
       end ;;
  tau <- norm_axis (or_default time_axis 0) (ndim a) ;;
  low_pass cutoff tau g.
Section Deriv.
  Variable deriv : list R -> list R -> res (list R).
  (** core.py:728-793, mode="quaternion" without outlier_thresh: the filter acts on the array
      whose coordinate axis was swapped to the end; the axes are swapped back afterwards. *)
  Definition estimate_angular_cutoff (cutoff : option R) (a : nd (option R)) (ts : list R) (axis time_axis : Z) : res (nd (option R)) :=
    g <- estimate_angular deriv a ts axis time_axis ;;
    match ndim a with
    | O => Raise ZeroDivisionError (* not reached *)
    | S n1 =>
        let n := Z.of_nat (S n1) in
        let k := Z.to_nat (axis mod n) in
        let t0 := Z.to_nat (time_axis mod n) in
        let tau := if Nat.eqb t0 n1 then k else t0 in
        f <- low_pass cutoff tau (swap_nd k n1 g) ;; Ok (swap_nd k n1 f)
    end.
End Deriv.
