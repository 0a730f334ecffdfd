(** Model of the velocity estimators (core.py:726-830, estimators.py:63-233,
    ndarray inputs).  The optional Butterworth filter (cutoff) is in Filter.v,
    datetime64 timestamps in DateTime.v. *)
From Coq Require Import Reals List Arith Bool ZArith.
From Verif Require Import Base Quat NdArray Frames Matcher Transform.
Import ListNotations.
Open Scope R_scope.

(** The index list l with entry k replaced by x. *)
Fixpoint setn (k x : nat) (l : list nat) : list nat :=
  match l, k with
  | [], _ => []
  | _ :: l, O => x :: l
  | y :: l, S k => y :: setn k x l
  end.

(* ---- numpy.gradient(f, timestamps, axis) with edge_order=1 ---- *)
(** numpy.diff *)
Fixpoint diffs (ts : list R) : list R :=
  match ts with
  | a :: ((b :: _) as l) => (b - a) :: diffs l
  | _ => []
  end.
(** (diffx == diffx[0]).all() *)
Definition uniform (ts : list R) : bool :=
  match diffs ts with [] => true | a :: l => forallb (Req_b a) l end.
(** the argument checks (ValueError); repeated timestamps divide by zero. *)
Definition grad_check (ts : list R) (n : nat) : res unit :=
  if negb (Nat.eqb (List.length ts) n) then Raise ValueError
  else if Nat.ltb n 2 then Raise ValueError
  else if existsb (fun d => Req_b d 0) (diffs ts) ||
          existsb (fun p => Req_b (fst p + snd p) 0) (combine (diffs ts) (tl (diffs ts)))
       then Raise NaNValue else Ok tt.
(** one entry of the gradient: one-sided at the ends; inside, central for equally
    spaced samples, otherwise the second-order formula for unequal spacing. *)
Definition grad_at (ts : list R) (f : nat -> R) (i : nat) : R :=
  let t j := nth j ts 0 in
  if Nat.eqb i 0 then (f 1%nat - f 0%nat) / (t 1%nat - t 0%nat)
  else if Nat.eqb (S i) (List.length ts) then (f i - f (i - 1)%nat) / (t i - t (i - 1)%nat)
  else if uniform ts then (f (S i) - f (i - 1)%nat) / (2 * (t 1%nat - t 0%nat))
  else
    let dx1 := t i - t (i - 1)%nat in
    let dx2 := t (S i) - t i in
    - dx2 / (dx1 * (dx1 + dx2)) * f (i - 1)%nat
    + (dx2 - dx1) / (dx1 * dx2) * f i
    + dx1 / (dx2 * (dx1 + dx2)) * f (S i).
Definition gradient_nd (a : nd R) (ts : list R) (tau : nat) : res (nd R) :=
  do_ grad_check ts (nth tau (shp a) O) ;;
  Ok (Nd (shp a) (fun ix => grad_at ts (fun m => dat a (setn tau m ix)) (nth tau ix O))).

(** core.py:804-830 [_estimate_linear_velocity] without outlier_thresh, called by
    estimators.py:63-145 [estimate_linear_velocity] after [_maybe_unpack_dataarray]
    (core.py:387-448): "axis or -1", "time_axis or 0", the two must differ. *)
Definition or_default (o : option Z) (d : Z) : Z :=
  match o with None => d | Some a => if Z.eqb a 0 then d else a end.
Definition estimate_linear_velocity (a : nd R) (axis : option Z) (ts : list R) (time_axis : option Z) : res (nd R) :=
  let ax := or_default axis (-1) in
  let ta := or_default time_axis 0 in
  let n := Z.of_nat (ndim a) in
  if Nat.eqb (ndim a) 0 then Raise ZeroDivisionError
  else if Z.eqb (ax mod n) (ta mod n) then Raise ValueError
  else tau <- norm_axis ta (ndim a) ;; gradient_nd a ts tau.

(* ---- outlier suppression ---- *)
(** norms of numpy.diff(rows, n=2, axis=0). *)
Fixpoint diff2 (rows : list vec3) : list R :=
  match rows with
  | a :: ((b :: c :: _) as l) => vnorm (vsub (vsub c b) (vsub b a)) :: diff2 l
  | _ => []
  end.
(** core.py:816-817: hstack((d, 0, 0)) + hstack((0, d, 0)). *)
Definition flags (d : list R) : list R :=
  map (fun p => fst p + snd p) (combine (d ++ [0; 0]) (0 :: d ++ [0])).
(** boolean-mask indexing a[flags <= thresh]. *)
Definition keep {A} (thresh : R) (fl : list R) (l : list A) : list A :=
  map snd (filter (fun p => Rle_b (fst p) thresh) (combine fl l)).
(** core.py:818-823: interp1d over the kept samples, bounds_error=False (NaN = None
    outside their range). *)
Definition interp_keep (xs : list R) (ys : list vec3) (x : R) : option vec3 :=
  if in_bounds xs x then match interp_at lin_vec xs ys x with Ok v => Some v | Raise _ => None end
  else None.
Definition suppress (thresh : R) (fl : list R) (ts : list R) (lin : list vec3) : res (list (option vec3)) :=
  match keep thresh fl ts with
  | [] => Raise ValueError
  | xs => Ok (map (interp_keep xs (keep thresh fl lin)) ts)
  end.
(** The rows of an (N, 3) array. *)
Definition rows_of (a : nd R) : list vec3 := map (fun i => vec_at a [i]) (seq 0 (hd O (shp a))).
(** core.py:804-830 with outlier_thresh, called by estimators.py:63-145.  The norms
    are taken along axis 1 of the second differences, the flags are glued with
    hstack and the mask is applied to the first axis (815-820):
    - two-dimensional, time first: as intended (modelled for three columns; None
      entries are NaN);
    - two-dimensional (M, N), time last: M+2 flags for an array of M rows: IndexError;
    - more dimensions: the norms are two-dimensional, hstack raises ValueError. *)
Definition estimate_linear_outlier (thresh : R) (a : nd R) (axis : option Z) (ts : list R) (time_axis : option Z) : res (nd (option R)) :=
  let ax := or_default axis (-1) in
  let ta := or_default time_axis 0 in
  let n := Z.of_nat (ndim a) in
  if Nat.eqb (ndim a) 0 then Raise ZeroDivisionError
  else if Z.eqb (ax mod n) (ta mod n) then Raise ValueError
  else tau <- norm_axis ta (ndim a) ;;
    g <- gradient_nd a ts tau ;;
    match ndim a, tau with
    | 2%nat, O =>
        out <- suppress thresh (flags (diff2 (rows_of a))) ts (rows_of g) ;;
        Ok (Nd (shp a) (fun ix => option_map (comp3 (nth 1 ix O)) (nth (hd O ix) out None)))
    | 2%nat, _ => Raise IndexError
    | _, _ => Raise ValueError
    end.

(* ---- angular velocity ---- *)
Definition is_nan (o : option R) : bool := match o with None => true | Some _ => false end.
Definition num (o : option R) : R := match o with None => 0 | Some x => x end.
Fixpoint pos_in (m : nat) (l : list nat) : nat :=
  match l with [] => O | a :: l => if Nat.eqb a m then O else S (pos_in m l) end.

Section Deriv.
  (** numpy-quaternion derivative(f, t, axis): acts on each series along the axis
      separately; values and times in, derivatives at the samples out. *)
  Variable deriv : list R -> list R -> res (list R).

  (** core.py:726-776, 798-801 [_estimate_angular_velocity], mode="quaternion",
      without outlier_thresh.  None entries are NaN. *)
  Definition estimate_angular (a : nd (option R)) (ts : list R) (axis time_axis : Z) : res (nd (option R)) :=
    match ndim a with
    | O => Raise ZeroDivisionError
    | S n1 =>
        let n := Z.of_nat (S n1) in
        let k := Z.to_nat (axis mod n) in
        let t0 := Z.to_nat (time_axis mod n) in
        let tau := if Nat.eqb t0 n1 then k else t0 in
        let r := swap_nd k n1 a in
        if negb (Nat.eqb (List.length ts) (nth tau (shp r) O)) then Raise IndexError
        else if negb (Nat.eqb (nth n1 (shp r) O) 4) then Raise ValueError
        else
          let bad m := existsb (fun ix => Nat.eqb (nth tau ix O) m && is_nan (dat r ix)) (indices (shp r)) in
          let good := filter (fun m => negb (bad m)) (seq 0 (List.length ts)) in
          let times := map (fun m => nth m ts 0) good in
          let series ix := map (fun m => num (dat r (setn tau m ix))) good in
          do_ traverse (fun ix => deriv (series ix) times) (indices (shp r)) ;;
          let dq ix c := match deriv (series (setn n1 c ix)) times with
                         | Ok l => nth (pos_in (nth tau ix O) good) l 0
                         | Raise _ => 0 (* not reached *)
                         end in
          let q ix c := num (dat r (setn n1 c ix)) in
          let ang := Nd (setn n1 3 (shp r)) (fun ix =>
            if bad (nth tau ix O) then None
            else Some (comp3 (nth n1 ix O)
                   (qvec (qmulq (qmulq (Qt 2 0 0 0) (qconj (Qt (q ix 0%nat) (q ix 1%nat) (q ix 2%nat) (q ix 3%nat))))
                                (Qt (dq ix 0%nat) (dq ix 1%nat) (dq ix 2%nat) (dq ix 3%nat)))))) in
          Ok (swap_nd k n1 ang)
    end.
End Deriv.
