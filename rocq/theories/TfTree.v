(** Model of Transformer.from_reference_frame (ros/transformer.py:34-122): what is handed
    to the tf2 buffer. *)
From Coq Require Import Reals List String ZArith Bool Arith.
From Verif Require Import Base Quat NdArray Frames Matcher RosMsg Broadcast.
Import ListNotations.
Open Scope R_scope.

(** anytree PreOrderIter(node): the node, then its children in order.  Fuelled;
    [OutOfFuel] is excluded on reachable states. *)
Fixpoint preorder (fuel : nat) (s : state) (i : nat) : res (list nat) :=
  match fuel with
  | O => Raise OutOfFuel
  | S fuel => ls <- traverse (preorder fuel s) (children_of s i) ;; Ok (i :: List.concat ls)
  end.
(** anytree NodeMixin.root: the last element of the path upwards. *)
Definition root_node (s : state) (i : nat) : res nat :=
  match rpath s i with Some l => Ok (last l i) | None => Raise OutOfFuel end.

(** The attribute [timestamps] of a frame object (Frames.body). *)
Definition node_timestamps (b : body) : res (option (list R)) :=
  match b with
  | BRoot | BTf (TStatic _ _) | BNoDiscrete _ _ => Ok None
  | BTf (TMoving ts _ _ _) => Ok (Some ts)
  | BPartial => Raise AttributeError
  | BNaN => Raise NaNValue
  end.
(** transformer.py:51-63: first and last timestamp in seconds, for the nodes that have some *)
Definition start_end (b : body) : res (list (R * R)) :=
  o <- node_timestamps b ;;
  match o with
  | None => Ok []
  | Some ts => a <- first_of ts ;; z <- last_of ts ;; Ok [(stamp_of a, stamp_of z)]
  end.
(** transformer.py:65-70: the cache time of the buffer (None: the default of tf2) *)
Definition cache_time (l : list (R * R)) : option R :=
  match l with
  | [] => None
  | (a, z) :: l => Some (maxl z (map snd l) - minl a (map fst l))
  end.

(** Calls on the buffer: set_transform_static or set_transform. *)
Inductive tf_call := SetStatic (m : transform_stamped) | SetTransform (m : transform_stamped).
(** transformer.py:98-122 [set_transforms]: zip of rows and timestamps *)
Fixpoint set_transforms (parent child : option string) (t : list vec3) (r : list quat) (ts : list R) : res (list tf_call) :=
  match t, r, ts with
  | t0 :: t, r0 :: r, x :: ts =>
      m <- make_transform_msg (vlist t0) (qlist r0) parent child (stamp_of x) ;;
      l <- set_transforms parent child t r ts ;; Ok (SetTransform m :: l)
  | _, _, _ => Ok []
  end.
(** transformer.py:72-80 and 84-96 (msg.py:148-166), one node.  A root that was given a
    parent afterwards has no translation (Vector3( *None) raises TypeError). *)
Definition node_calls (s : state) (i : nat) : res (list tf_call) :=
  match parent_of s i with
  | None => Ok []
  | Some p =>
      match body_at s i with
      | BRoot => Raise TypeError
      | BTf (TStatic t r) | BNoDiscrete t r =>
          m <- make_transform_msg (vlist t) (qlist r) (name_of s p) (name_of s i) 0 ;; Ok [SetStatic m]
      | BTf (TMoving ts t r _) => set_transforms (name_of s p) (name_of s i) t r ts
      | BPartial => Raise AttributeError
      | BNaN => Raise NaNValue
      end
  end.
(** transformer.py:34-82 [from_reference_frame]: the cache time and the calls in order *)
Definition from_reference_frame (s : state) (i : nat) : res (option R * list tf_call) :=
  root <- root_node s i ;;
  nodes <- preorder (S (List.length (heap s))) s root ;;
  se <- traverse (fun k => start_end (body_at s k)) nodes ;;
  calls <- traverse (node_calls s) nodes ;;
  Ok (cache_time (List.concat se), List.concat calls).
