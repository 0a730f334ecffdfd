(** Specification of a well-formed forest of n objects 0..n-1 with parent and
    children links, and of a registry.  Independent of the model. *)
From Coq Require Import List String Arith.
Import ListNotations.

(** Following parents from i ends at a root. *)
Inductive rooted (par : nat -> option nat) : nat -> Prop :=
| rooted_root i : par i = None -> rooted par i
| rooted_up i p : par i = Some p -> rooted par p -> rooted par i.

Record forest (n : nat) (par : nat -> option nat) (ch : nat -> list nat) : Prop := {
  (* a frame's parent is a frame and lists it exactly once *)
  f_listed : forall i p, par i = Some p ->
      p < n /\ count_occ Nat.eq_dec (ch p) i = 1;
  (* a frame is listed by no frame other than its parent *)
  f_only : forall i p, In i (ch p) -> i < n /\ par i = Some p;
  (* every frame reaches a root *)
  f_rooted : forall i, i < n -> rooted par i }.

(** j is reached from i by following parents (reflexive). *)
Inductive ancestor (par : nat -> option nat) : nat -> nat -> Prop :=
| anc_refl i : ancestor par i i
| anc_up i p a : par i = Some p -> ancestor par p a -> ancestor par i a.

(** r is the root of i's tree. *)
Definition root_of (par : nat -> option nat) (i r : nat) : Prop :=
  ancestor par i r /\ par r = None.
Definition same_tree (par : nat -> option nat) (i j : nat) : Prop :=
  exists r, root_of par i r /\ root_of par j r.

(** A registry: a key occurs at most once and names the frame it maps to. *)
Definition registry_ok (m : list (string * nat)) (n : nat) (nm : nat -> option string) : Prop :=
  NoDup (map fst m) /\
  forall k i, In (k, i) m -> i < n /\ nm i = Some k.
