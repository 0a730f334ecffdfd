(** Model of numpy-quaternion's squad (quaternion_time_series.py, quaternion.c), which
    interpolates the rotations of continuous frames (core.py:71-77), of resampled
    orientations (core.py:95-105) and of qinterp (utils.py:183).  Elsewhere squad is an
    oracle with a contract; this is what the installed function computes, in exact
    arithmetic.  Simplifications: comparisons with the machine precision are read as
    comparisons with 0, 1.414213562373096 as the square root of 2. *)
From Coq Require Import Reals List Arith Bool.
From Verif Require Import Base Quat Matcher Coord RotVec.
Import ListNotations.
Open Scope R_scope.

(** quaternion.c [quaternion_log]; not called with 0 (see np_squad). *)
Definition np_log (q : quat) : quat :=
  let b := vnorm (qvec q) in
  if Req_b b 0 then (if Rlt_b (qw q) 0 then Qt (ln (- qw q)) PI 0 0 else Qt (ln (qw q)) 0 0 0)
  else
    let f := atan2 b (qw q) / b in
    Qt (ln (qw q * qw q + b * b) / 2) (f * qx q) (f * qy q) (f * qz q).
(** quaternion.c [quaternion_exp] *)
Definition np_exp (q : quat) : quat :=
  let b := vnorm (qvec q) in
  if Req_b b 0 then Qt (exp (qw q)) 0 0 0
  else
    let s := sin b / b in
    Qt (exp (qw q) * cos b) (exp (qw q) * s * qx q) (exp (qw q) * s * qy q) (exp (qw q) * s * qz q).
(** quaternion.c [quaternion_power_scalar], for q other than 0. *)
Definition np_power (q : quat) (s : R) : quat := np_exp (qscale s (np_log q)).
Definition qaddq (a b : quat) : quat := Qt (qw a + qw b) (qx a + qx b) (qy a + qy b) (qz a + qz b).
(** quaternion.c [quaternion_divide]: a * b^-1. *)
Definition qdivq (a b : quat) : quat := qmulq a (qscale (/ qnorm2 b) (qconj b)).
(** quaternion.c [slerp]: the shorter way from a to b or -b. *)
Definition np_slerp (a b : quat) (tau : R) : quat :=
  if Rle_b (qnorm2 (qaddq a (qscale (-1) b))) 2 then qmulq (np_power (qdivq b a) tau) a
  else qmulq (np_power (qdivq (qscale (-1) b) a) tau) a.
(** quaternion.c [squad_evaluate] *)
Definition squad_evaluate (tau : R) (q a b p : quat) : quat :=
  np_slerp (np_slerp q p tau) (np_slerp a b tau) (2 * tau * (1 - tau)).

(** quaternion_time_series.py [squad]: the control points of the interval that starts at
    sample i.  ~q is the conjugate. *)
Section Samples.
  Variables (ts : list R) (rr : list quat).
  Definition sample (k : nat) : quat := nth k rr q1.
  Definition stime (k : nat) : R := nth k ts 0.
  Definition final : nat := Nat.pred (length ts).
  (** The sample after the last: R_in[-1] * (~R_in[-2]) * R_in[-1]. *)
  Definition beyond : quat := qmulq (qmulq (sample final) (qconj (sample (Nat.pred final)))) (sample final).
  (** log((~R_in[k]) * R_in[k+1]) *)
  Definition turn_log (k : nat) : quat := np_log (qmulq (qconj (sample k)) (sample (S k))).
  Definition gap (k : nat) : R := stime (S k) - stime k.
  Definition ctrl_a (i : nat) : quat :=
    if Nat.eqb i 0 || Nat.eqb i final then sample i
    else qmulq (sample i) (np_exp (qscale (1 / 4)
           (qaddq (qscale (-1) (turn_log i)) (qscale (gap i / gap (Nat.pred i)) (turn_log (Nat.pred i)))))).
  Definition ctrl_b (i : nat) : quat :=
    if Nat.eqb i final then beyond
    else if Nat.eqb (S i) final then sample final
    else qmulq (sample (S i)) (np_exp (qscale (-1 / 4)
           (qaddq (qscale (gap i / gap (S i)) (turn_log (S i))) (qscale (-1) (turn_log i))))).
  Definition following (i : nat) : quat := if Nat.eqb i final then beyond else sample (S i).
  Definition duration (i : nat) : R := if Nat.eqb i final then gap (Nat.pred i) else gap i.
  (** t_in.searchsorted(t_out, side="right") - 1; the index -1 is the last sample. *)
  Definition interval_of (x : R) : nat :=
    match length (filter (fun t => Rle_b t x) ts) with O => final | S k => k end.
  Definition squad_at (x : R) : quat :=
    let i := interval_of x in
    squad_evaluate ((x - stime i) / duration i) (sample i) (ctrl_a i) (ctrl_b i) (following i).
End Samples.
(** Strictly increasing. *)
Fixpoint strictly (ts : list R) : bool :=
  match ts with
  | a :: ((b :: _) as l) => Rlt_b a b && strictly l
  | _ => true
  end.
(** quaternion_time_series.py [squad] for one time.  Simplifications: a zero quaternion or two
    equal times among the samples (NaN in their neighbourhood) give NaN everywhere. *)
Definition np_squad (ts : list R) (rr : list quat) (x : R) : res quat :=
  if negb (Nat.eqb (length rr) (length ts)) then Raise ValueError
  else if Nat.ltb (length ts) 2 then Raise IndexError
  else if existsb (fun q => Req_b (qnorm2 q) 0) rr || negb (strictly ts) then Raise NaNValue
  else Ok (squad_at ts rr x).
