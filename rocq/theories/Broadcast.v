(** Model of ReferenceFrameTransformBroadcaster (ros/transformer.py:328-560), of the marker
    publishers (ros/visualization.py) and of the playback buttons (ros/utils.py). *)
From Coq Require Import Reals List String ZArith Bool Arith.
From Verif Require Import Base Quat NdArray Frames Matcher RosMsg.
Import ListNotations.
Open Scope R_scope.

Definition vlist (v : vec3) : list R := [vx v; vy v; vz v].
Definition qlist (q : quat) : list R := [qw q; qx q; qy q; qz q].

(* ------------------------------------------------------------------ the broadcaster *)
(** What lookup_transform returned (transformer.py:378-388): without timestamps, or one row
    per timestamp.  [dt64]: the timestamps are datetime64, that is numbers of nanoseconds,
    and pd.Index makes a DatetimeIndex of them. *)
Inductive series := SStatic (t : vec3) (r : quat) | SMoving (dt64 : bool) (ts : list R) (rows : list (vec3 * quat)).
(** The attributes of the object; [b_stopped] is only used by the threads (Spin.v).
    [b_twist]: the arrays linear, angular if publish_twist; [b_subscribed]:
    subscribe_to_frame if subscribe. *)
Record broadcaster := Bc {
  b_frame : option string; b_base : option string; b_series : series;
  b_pose : bool; b_twist : option (list vec3 * list vec3);
  b_subscribed : option (option string); b_idx : Z }.

(** What is sent: on the tf topic, on /<frame>/pose and on /<frame>/twist. *)
Inductive sent := STf (m : transform_stamped) | SPose (m : pose_stamped) | STwist (m : twist_stamped).

(** numpy indexing l[i] with an integer: negative ones count from the end. *)
Definition at_index {A} (l : list A) (i : Z) : res A :=
  let n := Z.of_nat (List.length l) in
  let k := if Z.ltb i 0 then (i + n)%Z else i in
  if Z.ltb k 0 then Raise IndexError
  else match nth_error l (Z.to_nat k) with Some a => Ok a | None => Raise IndexError end.

(** The argument subscribe (transformer.py:416-425). *)
Inductive subscription := NoSub | SubBase | SubTo (f : string).
Section Make.
  Variable squad : list R -> list quat -> R -> res quat.
  (** transformer.py:370-429 [__init__].  [base or self.frame.parent]: None and the empty
      name are replaced by the parent, which must exist.  [dt64] is a property of the
      timestamps that the model of frames does not record; [twist] is the result of
      lookup_twist if publish_twist. *)
  Definition make_broadcaster (s : state) (frame : pref) (base : option pref) (dt64 pose : bool)
      (twist : option (list vec3 * list vec3)) (sub : subscription) : res broadcaster :=
    i <- resolve_rf s frame ;;
    let base' := match base with
                 | Some (PName n) => if String.eqb n "" then None else base
                 | _ => base
                 end in
    j <- match base' with
         | Some p => resolve_rf s p
         | None => match parent_of s i with Some p => Ok p | None => Raise TypeError end
         end ;;
    tr <- lookup_transform squad s i (PFrame j) ;;
    se <- match tr with
          | TrStatic t r => Ok (SStatic t r)
          | TrRows ts rows => Ok (SMoving dt64 ts rows)
          | TrBare _ => Raise IndexError (* unreachable: no timestamps without frames *)
          end ;;
    Ok (Bc (name_of s i) (name_of s j) se pose twist
          (match sub with NoSub => None | SubBase => Some (name_of s j) | SubTo f => Some (Some f) end) 0).
End Make.

(** The timestamps in seconds as the messages carry them: always divided by 1e9. *)
Definition stamp_of (ts : R) : R := ts / 1000000000.
(** transformer.py:456: idx or self.idx *)
Definition effective_idx (b : broadcaster) (idx : option Z) : Z :=
  match idx with Some i => if Z.eqb i 0 then b_idx b else i | None => b_idx b end.
(** transformer.py:478-483; for a static frame idx is used as it was passed
    (linear[None] has the shape (1, 3) and Vector3 does not accept it). *)
Definition twist_msg_of (b : broadcaster) (idx : option Z) : res (list sent) :=
  match b_twist b with
  | None => Ok []
  | Some (v, w) =>
      match idx with
      | None => Raise TypeError
      | Some i => v' <- at_index v i ;; w' <- at_index w i ;; m <- make_twist_msg (vlist v') (vlist w') (b_frame b) 0 ;; Ok [STwist m]
      end
  end.
(** transformer.py:431-483 [publish]: what is sent, and how the call ends.  The transform
    and the pose message are made before anything is sent. *)
Definition publish_raw (b : broadcaster) (t : vec3) (r : quat) (time : R) (idx : option Z) : list sent * res unit :=
  match (m <- make_transform_msg (vlist t) (qlist r) (b_base b) (b_frame b) time ;;
         p <- (if b_pose b then p <- make_pose_msg (vlist t) (qlist r) (b_base b) time ;; Ok [SPose p] else Ok []) ;;
         Ok (STf m :: p)) with
  | Raise e => ([], Raise e)
  | Ok l => match twist_msg_of b idx with Ok l' => (l ++ l', Ok tt) | Raise e => (l, Raise e) end
  end.
Definition publish (b : broadcaster) (idx : option Z) : list sent * res unit :=
  match b_series b with
  | SStatic t r => publish_raw b t r 0 idx
  | SMoving _ ts rows =>
      let i := effective_idx b idx in
      match (ti <- at_index ts i ;; row <- at_index rows i ;; Ok (ti, row)) with
      | Raise e => ([], Raise e)
      | Ok (ti, (t, r)) => publish_raw b t r (stamp_of ti) (Some i)
      end
  end.

(* ------------------------------------------------------------------ the loop *)
Definition set_idx (b : broadcaster) (i : Z) : broadcaster :=
  Bc (b_frame b) (b_base b) (b_series b) (b_pose b) (b_twist b) (b_subscribed b) i.
(** transformer.py:512-526: the time to sleep after the index was advanced *)
Definition dt_of (b : broadcaster) : res R :=
  match b_series b with
  | SStatic _ _ => Raise TypeError
  | SMoving dt64 ts _ =>
      if Z.ltb 0 (b_idx b) then
        x <- at_index ts (b_idx b) ;; y <- at_index ts (b_idx b - 1) ;;
        Ok (if dt64 then x / 1000000000 - y / 1000000000 else x - y)
      else Ok 0
  end.
(** One round of the loop (transformer.py:510-528): what is sent, the time to sleep, the
    object afterwards. *)
Definition round (b : broadcaster) : list sent * res (R * broadcaster) :=
  match b_series b with
  | SStatic _ _ => ([], Raise TypeError)
  | SMoving _ ts _ =>
      match publish b None with
      | (l, Raise e) => (l, Raise e)
      | (l, Ok _) =>
          let b' := set_idx b ((b_idx b + 1) mod Z.of_nat (List.length ts)) in
          (l, (dt <- dt_of b' ;; Ok (dt, b')))
      end
  end.
(** k rounds: for each of them what is sent and the sleep that follows. *)
Fixpoint rounds (k : nat) (b : broadcaster) : res (list (list sent * R) * broadcaster) :=
  match k with
  | O => Ok ([], b)
  | S k => match round b with
           | (l, Ok (dt, b')) => '(out, b'') <- rounds k b' ;; Ok ((l, dt) :: out, b'')
           | (_, Raise e) => Raise e
           end
  end.

(* ------------------------------------------------------------------ incoming messages *)
(** pandas 1.x Index.get_loc(x, method="nearest") on increasing timestamps without
    repetitions: the nearest one, the later one of two equally near.  With repetitions or on
    an empty index it raises (InvalidIndexError is represented by IndexError, the
    KeyError is one).  [pos]: the number of timestamps at or below x (pad); the one above
    is the backfill. *)
Fixpoint strictly_increasing (ts : list R) : bool :=
  match ts with a :: ((b :: _) as l) => Rlt_b a b && strictly_increasing l | _ => true end.
Definition get_loc_nearest (ts : list R) (x : R) : res Z :=
  if negb (strictly_increasing ts) then Raise IndexError
  else
    (* side="left" backfill: number of timestamps below x *)
    let below := List.length (filter (fun t => Rlt_b t x) ts) in
    (* side="right" pad: number of timestamps at or below x *)
    let upto := List.length (filter (fun t => Rle_b t x) ts) in
    match nth_error ts (pred upto), nth_error ts below with
    | Some l, Some r =>
        if Nat.eqb upto 0 then Ok (Z.of_nat below)
        else if Rlt_b (x - l) (r - x) then Ok (Z.of_nat (pred upto)) else Ok (Z.of_nat below)
    | Some _, None => if Nat.eqb upto 0 then Raise KeyError else Ok (Z.of_nat (pred upto))
    | None, _ => Raise KeyError
    end.
Definition name_eqb (a b : option string) : bool :=
  match a, b with Some a, Some b => String.eqb a b | None, None => true | _, _ => false end.
(** transformer.py:485-499 [handle_incoming_msg]: the transforms of one tf message in order.
    A timestamp cannot be compared with float timestamps (TypeError). *)
Definition handle_one (b : broadcaster) (m : transform_stamped) : list sent * res unit :=
  match b_subscribed b with
  | None => ([], Raise AttributeError)
  | Some f =>
      if name_eqb (ts_child m) f then
        match b_series b with
        | SStatic _ _ => publish b None
        | SMoving dt64 ts _ =>
            match (if dt64 then get_loc_nearest ts (to_sec (fst (ts_header m)) * 1000000000) else Raise TypeError) with
            | Raise e => ([], Raise e)
            | Ok i => publish b (Some i)
            end
        end
      else ([], Ok tt)
  end.
Fixpoint handle_msg (b : broadcaster) (ms : list transform_stamped) : list sent * res unit :=
  match ms with
  | [] => ([], Ok tt)
  | m :: ms => match handle_one b m with
               | (l, Raise e) => (l, Raise e)
               | (l, Ok _) => let '(l', r) := handle_msg b ms in (l ++ l', r)
               end
  end.

(** Calls on one object, one after the other.  [DoSpin k]: the loop runs k rounds; with a
    subscription it is rospy.spin (transformer.py:508, 530).  [DoIncoming]: a tf message
    arrives. *)
Inductive bc_op := DoPublish (i : option Z) | DoSpin (k : nat) | DoIncoming (ms : list transform_stamped).
Definition bc_step (b : broadcaster) (o : bc_op) : broadcaster :=
  match o with
  | DoPublish _ => b
  | DoSpin k => match b_subscribed b with
                | Some _ => b
                | None => match rounds k b with Ok (_, b') => b' | Raise _ => b end
                end
  | DoIncoming _ => b
  end.
Definition bc_run (b : broadcaster) (ops : list bc_op) : broadcaster := fold_left bc_step ops b.

(* ------------------------------------------------------------------ markers *)
(** l[::k] for k > 0 *)
Fixpoint skipping {A} (k skip : nat) (l : list A) : list A :=
  match l with
  | [] => []
  | a :: l => match skip with O => a :: skipping k (pred k) l | S j => skipping k j l end
  end.
(** Python's l[::k]; a negative step walks backwards. *)
Definition slice_every {A} (l : list A) (k : Z) : res (list A) :=
  if Z.eqb k 0 then Raise ValueError
  else if Z.ltb 0 k then Ok (skipping (Z.to_nat k) 0 l)
  else Ok (skipping (Z.to_nat (- k)) 0 (rev l)).
(** visualization.py:202-218 [ReferenceFrameMarkerPublisher.__init__]: the points of the
    marker.  A static frame has a translation of shape (3,), whose "rows" are numbers
    (Point( *x) raises TypeError). *)
Definition marker_points (s : series) (max_points : Z) : res (list xyz) :=
  if Z.eqb max_points 0 then Raise ZeroDivisionError
  else match s with
       | SStatic _ _ => do_ slice_every [tt; tt; tt] (3 / max_points) ;; Raise TypeError
       | SMoving _ _ rows =>
           l <- slice_every rows (Z.of_nat (List.length rows) / max_points) ;;
           traverse (fun p => mk_xyz (vlist (fst p))) l
       end.

Section Publisher.
  (** Markers and their serialization (genpy). *)
  Context {marker : Type} (serialize : marker -> list Z).
  (** visualization.py:119-126 [BaseMarkerPublisher.publish]: the last message (initially
      empty, line 108); the new last message and whether the marker was sent. *)
  Definition publish_marker (last : list Z) (m : marker) : list Z * bool :=
    if list_eq_dec Z.eq_dec (serialize m) last then (last, false) else (serialize m, true).
  (** A sequence of publish() calls, with the marker at the time of each. *)
  Fixpoint publish_markers (last : list Z) (ms : list marker) : list bool :=
    match ms with
    | [] => []
    | m :: ms => let '(last, p) := publish_marker last m in p :: publish_markers last ms
    end.
End Publisher.

(* ------------------------------------------------------------------ buttons *)
(** ipywidgets.IntSlider(min=0, max): an assigned value is clipped. *)
Definition slider_set (max v : Z) : Z := Z.min max (Z.max 0 v).
(** [skip or step] (utils.py:101, 110) *)
Definition skip_or (skip : option Z) (step : Z) : Z := match skip with Some k => if Z.eqb k 0 then step else k | None => step end.
(** utils.py:100-101 and 109-110 *)
Definition button_plus (max : Z) (skip : option Z) (step : Z) (v : Z) : Z :=
  slider_set max (v + (if Z.ltb v max then skip_or skip step else 0)).
Definition button_minus (max : Z) (skip : option Z) (step : Z) (v : Z) : Z :=
  slider_set max (v - (if Z.ltb v max then skip_or skip step else 0)).
