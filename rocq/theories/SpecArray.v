(** Specification vocabulary for arrays: which entry of an operand belongs to a
    position of the result when axes of length one are stretched. *)
From Coq Require Import List Arith.
Import ListNotations.

(** Common shape of two shapes of equal length whose axes agree up to length-one
    axes. *)
Fixpoint bs (s t : list nat) : list nat :=
  match s, t with
  | a :: s, b :: t => (if Nat.eqb a 1 then b else a) :: bs s t
  | _, _ => []
  end.
(** The entry of an operand of shape s at position ix: 0 on axes of length one. *)
Fixpoint zb (s ix : list nat) : list nat :=
  match s, ix with
  | n :: s, i :: ix => (if Nat.eqb n 1 then 0 else i) :: zb s ix
  | _, _ => []
  end.
(** Axes agree up to length-one axes. *)
Definition agree (s t : list nat) : Prop := Forall2 (fun a b => a = b \/ a = 1 \/ b = 1) s t.

(** A new axis of length/index x at position k. *)
Fixpoint put (k x : nat) (l : list nat) : list nat :=
  match k, l with
  | S k, y :: l => y :: put k x l
  | _, _ => x :: l
  end.

