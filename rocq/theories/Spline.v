(** Model of numpy-quaternion's [derivative] (core.py:11, 761): with scipy installed
    it is [spline_derivative], which fits scipy's interpolating cubic spline to each
    series and evaluates its derivative at the samples.  The spline is specified
    (it goes through the samples, is a cubic between neighbouring samples, has two
    continuous derivatives, and a continuous third one at the second and the
    last-but-one sample); how scipy computes it is not modelled.  A concrete
    function that meets the specification is given at the end. *)
From Coq Require Import Reals List Arith Bool.
From Verif Require Import Base Squad.
Import ListNotations.
Open Scope R_scope.

(* ---- specification ---- *)
(** c0 + c1 x + c2 x^2 + c3 x^3, and its first, second and third derivative. *)
Record cubic := Cub { c0 : R; c1 : R; c2 : R; c3 : R }.
Definition cval (p : cubic) (x : R) : R := c0 p + c1 p * x + c2 p * x ^ 2 + c3 p * x ^ 3.
Definition cder (p : cubic) (x : R) : R := c1 p + 2 * c2 p * x + 3 * c3 p * x ^ 2.
Definition cder2 (p : cubic) (x : R) : R := 2 * c2 p + 6 * c3 p * x.
Definition cder3 (p : cubic) : R := 6 * c3 p.
(** The time between sample i and the next. *)
Definition dt (ts : list R) (i : nat) : R := nth (S i) ts 0 - nth i ts 0.
(** p i, in the time since sample i, is the spline between sample i and the next;
    n is the number of intervals. *)
Record is_spline (ts fs : list R) (n : nat) (p : nat -> cubic) : Prop := {
  through : forall i, (i < n)%nat -> cval (p i) 0 = nth i fs 0 /\ cval (p i) (dt ts i) = nth (S i) fs 0;
  smooth1 : forall i, (S i < n)%nat -> cder (p i) (dt ts i) = cder (p (S i)) 0;
  smooth2 : forall i, (S i < n)%nat -> cder2 (p i) (dt ts i) = cder2 (p (S i)) 0;
  knot_first : cder3 (p 0%nat) = cder3 (p 1%nat);
  knot_last : cder3 (p (n - 2)%nat) = cder3 (p (n - 1)%nat) }.
(** ms: the derivatives of the spline at the samples. *)
Definition spline_slopes (ts fs ms : list R) : Prop :=
  let n := (List.length ts - 1)%nat in
  List.length ms = List.length ts /\
  exists p, is_spline ts fs n p /\
    (forall i, (i < n)%nat -> nth i ms 0 = cder (p i) 0) /\
    nth n ms 0 = cder (p (n - 1)%nat) (dt ts (n - 1)).
(** What is assumed of [derivative] (values first, then times): at least four
    samples at strictly increasing times. *)
Definition spline_derivative (deriv : list R -> list R -> res (list R)) : Prop :=
  forall fs ts, strictly ts = true -> (4 <= List.length ts)%nat -> List.length fs = List.length ts ->
    exists ms, deriv fs ts = Ok ms /\ spline_slopes ts fs ms.

(* ---- a function that meets it ---- *)
Section Solve.
  Variables (ts fs : list R).
  Definition slope (i : nat) : R := (nth (S i) fs 0 - nth i fs 0) / dt ts i.
  (** The row of sample S i: lam m_i + 2 m_(i+1) + mu m_(i+2) = rhs. *)
  Definition lam (i : nat) : R := dt ts (S i) / (dt ts i + dt ts (S i)).
  Definition mu (i : nat) : R := dt ts i / (dt ts i + dt ts (S i)).
  Definition rhs (i : nat) : R := 3 * (lam i * slope i + mu i * slope (S i)).
  (** The end rows: lam m_0 + m_1 = head_rhs and m_(n-1) + mu m_n = last_rhs. *)
  Definition head_rhs : R :=
    ((3 * dt ts 0 * dt ts 1 + 2 * dt ts 1 ^ 2) * slope 0 + dt ts 0 ^ 2 * slope 1) / (dt ts 0 + dt ts 1) ^ 2.
  Definition last_rhs (n : nat) : R :=
    let a := dt ts (n - 2) in let b := dt ts (n - 1) in
    ((3 * a * b + 2 * a ^ 2) * slope (n - 1) + b ^ 2 * slope (n - 2)) / (a + b) ^ 2.
  (** Elimination: the current unknown plus c times the next is g. *)
  Fixpoint solve (n i k : nat) (c g : R) : list R :=
    match k with
    | O => let d := 1 - lam i * c in [(g - c * ((rhs i - last_rhs n - lam i * g) / d)); (rhs i - last_rhs n - lam i * g) / d]
    | S k =>
        let d := 2 - lam i * c in
        let ms := solve n (S i) k (mu i / d) ((rhs i - lam i * g) / d) in
        (g - c * hd 0 ms) :: ms
    end.
  Definition spline_fit (n : nat) : list R :=
    let inner := solve n 1 (n - 3) (mu 0) (rhs 0 - head_rhs) in
    (head_rhs - hd 0 inner) / lam 0 :: inner ++ [(last_rhs n - last inner 0) / mu (n - 2)].
End Solve.
Definition np_derivative (fs ts : list R) : res (list R) :=
  if strictly ts && Nat.leb 4 (List.length ts) && Nat.eqb (List.length fs) (List.length ts)
  then Ok (spline_fit ts fs (List.length ts - 1)) else Raise ValueError.
