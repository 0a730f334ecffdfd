(** Numpy n-dimensional arrays: a shape and an index function.  Entries are
    only meaningful at valid indices; [nd_eq] compares shapes and the entries
    at valid indices. *)
From Coq Require Import List Arith Lia Bool.
Import ListNotations.

Record nd (A : Type) := Nd { shp : list nat; dat : list nat -> A }.
Arguments Nd {A} shp dat.
Arguments shp {A} n.
Arguments dat {A} n ix.

Definition ndim {A} (a : nd A) : nat := length (shp a).

(** A valid index of a shape: same length, component-wise smaller. *)
Definition valid (s ix : list nat) : Prop := Forall2 (fun i n => i < n) ix s.

Definition nd_eq {A} (a b : nd A) : Prop :=
  shp a = shp b /\ forall ix, valid (shp a) ix -> dat a ix = dat b ix.

(** All valid indices in row-major order. *)
Fixpoint indices (s : list nat) : list (list nat) :=
  match s with
  | [] => [[]]
  | n :: s => flat_map (fun i => map (cons i) (indices s)) (seq 0 n)
  end.

Lemma in_indices s ix : In ix (indices s) <-> valid s ix.
Proof.
  revert ix; induction s as [|n s IH]; intros ix; simpl.
  - split.
    + intros [<-|[]]. constructor.
    + intros H. inversion H. left; reflexivity.
  - rewrite in_flat_map. split.
    + intros (i & Hi & H). apply in_map_iff in H as (jx & <- & Hj).
      apply in_seq in Hi. constructor; [lia|]. apply IH, Hj.
    + intros H. inversion H as [|i n' jx s' Hi Hj]; subst. exists i. split.
      * apply in_seq; lia.
      * apply in_map, IH, Hj.
Qed.

Lemma valid_length s ix : valid s ix -> length ix = length s.
Proof. intros H. induction H; simpl; congruence. Qed.
