(** Specification for property C63: trees that tf2 can hold.  Uses only the names, parents,
    transforms and timestamps of the frames. *)
From Coq Require Import Reals List String Ascii ZArith Arith.
From Verif Require Import Base Quat SpecQuat Frames Matcher SpecForest SpecLookup WalkProofs MovingProofs TimeProofs.
Import ListNotations.

(** A name that tf2 accepts as it is: not empty and without a leading slash. *)
Definition tf_name (n : string) : Prop := n <> ""%string /\ forall n', n <> String "/"%char n'.
(** A whole number of nanoseconds, not before 1970. *)
Definition whole_ns (x : R) : Prop := exists z, (0 <= z)%Z /\ x = IZR z.
(** Unit rotations; timestamps are present, increasing and whole nanoseconds. *)
Definition fine (d : tfdata) : Prop :=
  unit_data d /\
  match d with TStatic _ _ => True | TMoving ts _ _ _ => ts <> [] /\ increasing ts /\ Forall whole_ns ts end.
(** The tree of i: every frame has a name of its own, and is a root or has such a transform;
    no frame is more than 1000 links below the root. *)
Definition tf_ready (s : state) (i : nat) : Prop :=
  (forall k, same_tree (parent_of s) i k -> exists n, name_of s k = Some n /\ tf_name n) /\
  (forall k k', same_tree (parent_of s) i k -> same_tree (parent_of s) i k' -> name_of s k = name_of s k' -> k = k') /\
  (forall k, same_tree (parent_of s) i k ->
     (parent_of s k = None /\ body_at s k = BRoot) \/ exists d, transform_of s k = Some d /\ fine d) /\
  (forall k l c, same_tree (parent_of s) i k -> climb (parent_of s) k l c -> (List.length l <= 1000)%nat).
(** At time x the frame's transform does not depend on the way of interpolating: it does not
    move, or x is one of its timestamps, or it is continuous, does not turn, and x lies
    between its first and last timestamp. *)
Definition plain_at (s : state) (k : nat) (x : R) : Prop :=
  match transform_of s k with
  | Some (TMoving ts _ rr disc) => In x ts \/ (disc = false /\ in_bounds ts x = true /\ forall r r', In r rr -> In r' rr -> r = r')
  | _ => True
  end.
(** First and last timestamp of a moving frame. *)
Definition sampled_over (s : state) (k : nat) (a z : R) : Prop :=
  exists ts t r d, transform_of s k = Some (TMoving ts t r d) /\ hd_error ts = Some a /\ nth_error ts (List.length ts - 1) = Some z.
