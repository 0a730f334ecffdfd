(** Specification of transform lookups: where a point of one frame is in an
    ancestor frame, at a given time.  Uses only the observable attributes of the
    frames (parent, translation, rotation, timestamps, discrete). *)
From Coq Require Import Reals List Arith.
From Verif Require Import Base SpecQuat Frames.
Import ListNotations.
Open Scope R_scope.

(** Index k of the event in force at time x: the last event at or before x, or
    the first event if x precedes all of them. *)
Definition event_in_force (ts : list R) (x : R) (k : nat) : Prop :=
  (exists tk, nth_error ts k = Some tk /\ tk <= x /\
     forall m tm, (k < m)%nat -> nth_error ts m = Some tm -> x < tm)
  \/ (k = 0%nat /\ ts <> [] /\ forall m tm, nth_error ts m = Some tm -> x < tm).

(** x lies in the k-th sampling interval (half-open; the first one is closed). *)
Definition in_interval (ts : list R) (x : R) (k : nat) (a b : R) : Prop :=
  nth_error ts k = Some a /\ nth_error ts (S k) = Some b /\ a < b /\
  (a < x <= b \/ k = 0%nat /\ x = a).

(** Straight line through (a,u) and (b,v), at x. *)
Definition between (a b : R) (u v : vec3) (x : R) : vec3 :=
  vadd u (vscale ((x - a) / (b - a)) (vsub v u)).

(** (t, r) is the frame's own transform with respect to its parent at time x:
    constant, last event, or interpolated (rotation: the squad oracle). *)
Inductive own_at (squad : list R -> list quat -> R -> res quat)
  : tfdata -> R -> vec3 -> quat -> Prop :=
| own_static t r x : own_at squad (TStatic t r) x t r
| own_discrete ts tt rr x k t r :
    event_in_force ts x k -> nth_error tt k = Some t -> nth_error rr k = Some r ->
    own_at squad (TMoving ts tt rr true) x t r
| own_continuous ts tt rr x k a b u v r :
    in_interval ts x k a b -> nth_error tt k = Some u -> nth_error tt (S k) = Some v ->
    squad ts rr x = Ok r ->
    own_at squad (TMoving ts tt rr false) x (between a b u v x) r.

Definition transform_of (s : state) (i : nat) : option tfdata :=
  match get s i with
  | Some n => match nbody n with BTf d => Some d | _ => None end
  | None => None
  end.

(** At time x, the point p of frame i is the point P of the ancestor frame a. *)
Inductive coords (squad : list R -> list quat -> R -> res quat) (s : state) (x : R)
  : nat -> vec3 -> nat -> vec3 -> Prop :=
| coords_here i p : coords squad s x i p i p
| coords_up i k d t r p a P :
    parent_of s i = Some k -> transform_of s i = Some d ->
    own_at squad d x t r -> hnonzero r ->
    coords squad s x k (smove t r p) a P ->
    coords squad s x i p a P.

(** Composition of rigid transforms: first (t1,r1), then (t2,r2). *)
Definition compose (t2 : vec3) (r2 : quat) (t1 : vec3) (r1 : quat) : vec3 * quat :=
  (smove t2 r2 t1, hmul r2 r1).
