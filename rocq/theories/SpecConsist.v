(** Specification: the value of a looked-up transform at a time. *)
From Coq Require Import Reals List.
From Verif Require Import Base Matcher.
Open Scope R_scope.

(** (t, r) is the value at time x of a looked-up transform: a static one holds at every
    time, a moving one has a row for each of its timestamps. *)
Definition at_time (tr : transf) (x : R) (t : vec3) (r : quat) : Prop :=
  match tr with
  | TrStatic t' r' => t = t' /\ r = r'
  | TrRows ts rows => exists k, nth_error ts k = Some x /\ nth_error rows k = Some (t, r)
  | TrBare _ => False
  end.
