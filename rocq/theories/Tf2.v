(** Model of the tf2 buffer and of the Transformer methods that use it
    (ros/transformer.py:16-34, 34-122, 124-325).  tf2 (BufferCore, TimeCache, StaticCache)
    and tf2_geometry_msgs are C++ and Python libraries outside of /repo: they are modelled
    from their source (geometry2 0.6/0.7), because the results of Transformer are theirs.
    Simplifications: frame names stand for tf2's frame numbers; every tf2 exception is
    RuntimeError; arithmetic is over the reals. *)
From Coq Require Import Reals List String Ascii ZArith Bool Arith.
From Verif Require Import Base Quat NdArray Frames Matcher RosMsg Estim Broadcast TfTree.
Import ListNotations.
Open Scope R_scope.
Open Scope list_scope.

(* ------------------------------------------------------------------ storage *)
(** A stamp in nanoseconds. *)
Definition nanos (s : stamp) : Z := (secs s * giga + nsecs s)%Z.
(** tf2 TransformStorage (the child is the key of the cache). *)
Record stored := Stored { sd_stamp : Z; sd_parent : string; sd_t : vec3; sd_r : quat }.
(** StaticCache: one entry; TimeCache: entries, the newest first. *)
Inductive tcache := CStatic (x : stored) | CTime (l : list stored).
(** BufferCore: storage time, the caches by child frame, the known frames. *)
Record buffer := Buffer { bf_max : Z; bf_caches : list (string * tcache); bf_known : list string }.

(** transformer.py:16-32 [Transformer.__init__]: tf2's default cache time is 10 s.
    Simplification: a negative cache time (not reached) is refused. *)
Definition new_buffer (cache_time : option R) : res buffer :=
  match cache_time with
  | None => Ok (Buffer (10 * giga) [] [])
  | Some c => d <- from_sec c ;; Ok (Buffer (nanos d) [] [])
  end.

(** BufferCore stripSlash *)
Definition strip_slash (n : string) : string :=
  match n with String c n' => if Ascii.eqb c "/" then n' else n | EmptyString => n end.
(** The checks of BufferCore::setTransform (the quaternion tolerance is 10e-3); a transform
    that fails one is dropped without an exception. *)
Definition tf_valid (child parent : string) (r : quat) : bool :=
  negb (String.eqb child parent) && negb (String.eqb child "") && negb (String.eqb parent "") &&
  Rlt_b (Rabs (qnorm2 r - 1)) (1 / 100).
(** TimeCache::pruneList *)
Fixpoint prune (max latest : Z) (l : list stored) : list stored :=
  match l with
  | [] => []
  | x :: l => match prune max latest l with
              | [] => if Z.ltb (sd_stamp x + max) latest then [] else [x]
              | l' => x :: l'
              end
  end.
Definition pruned (max : Z) (l : list stored) : list stored :=
  match l with [] => [] | x :: _ => prune max (sd_stamp x) l end.
(** TimeCache::insertData.  (Before 0.7.6 an entry with a stamp that exists is inserted
    again, afterwards it is dropped; here: inserted.) *)
Fixpoint place (x : stored) (l : list stored) : list stored :=
  match l with
  | [] => [x]
  | y :: l' => if Z.leb (sd_stamp y) (sd_stamp x) then x :: l else y :: place x l'
  end.
Definition insert_data (max : Z) (x : stored) (l : list stored) : list stored :=
  match l with
  | y :: _ => if Z.ltb (sd_stamp x + max) (sd_stamp y) then l else pruned max (place x l)
  | [] => pruned max [x]
  end.
Definition know (n : string) (l : list string) : list string := if existsb (String.eqb n) l then l else n :: l.
(** The values of a message. *)
Definition xyz_vec (v : xyz) : vec3 := V3 (m_x v) (m_y v) (m_z v).
Definition xyzw_quat (q : xyzw) : quat := Qt (q_w q) (q_x q) (q_y q) (q_z q).
(** BufferCore::setTransform.  The first transform of a frame decides which kind of cache
    it has.  A frame id that is None cannot be converted (TypeError). *)
Definition set_transform (static : bool) (m : transform_stamped) (b : buffer) : res buffer :=
  match snd (ts_header m), ts_child m with
  | Some parent, Some child =>
      let parent := strip_slash parent in
      let child := strip_slash child in
      let r := xyzw_quat (tm_rotation (ts_transform m)) in
      let x := Stored (nanos (fst (ts_header m))) parent (xyz_vec (tm_translation (ts_transform m))) r in
      if tf_valid child parent r then
        let c := match lookup child (bf_caches b) with
                 | None => if static then CStatic x else CTime (insert_data (bf_max b) x [])
                 | Some (CStatic _) => CStatic x
                 | Some (CTime l) => CTime (insert_data (bf_max b) x l)
                 end in
        Ok (Buffer (bf_max b) (dict_set child c (bf_caches b)) (know parent (know child (bf_known b))))
      else Ok b
  | _, _ => Raise TypeError
  end.
(** transformer.py:84-122: the calls on the buffer. *)
Definition do_call (b : buffer) (c : tf_call) : res buffer :=
  match c with SetStatic m => set_transform true m b | SetTransform m => set_transform false m b end.
(** transformer.py:34-82 [Transformer.from_reference_frame] *)
Definition transformer_of (s : state) (i : nat) : res buffer :=
  '(cache, calls) <- from_reference_frame s i ;;
  b <- new_buffer cache ;;
  foldM do_call calls b.

(* ------------------------------------------------------------------ reading one cache *)
(** tf2::Quaternion::dot *)
Definition qdot (a b : quat) : R := qw a * qw b + qx a * qx b + qy a * qy b + qz a * qz b.
(** tf2::Quaternion::angleShortestPath / 2 *)
Definition half_angle (a b : quat) : R := acos (Rabs (qdot a b) / sqrt (qnorm2 a * qnorm2 b)).
(** tf2::Quaternion::slerp *)
Definition slerp (a b : quat) (x : R) : quat :=
  let th := half_angle a b in
  if Req_b th 0 then a
  else
    let d := / sin th in let s0 := sin ((1 - x) * th) in
    let s1 := if Rlt_b (qdot a b) 0 then - sin (x * th) else sin (x * th) in
    Qt ((qw a * s0 + qw b * s1) * d) ((qx a * s0 + qx b * s1) * d) ((qy a * s0 + qy b * s1) * d) ((qz a * s0 + qz b * s1) * d).
(** TimeCache::interpolate, between an older and a newer entry. *)
Definition interpolate (a b : stored) (time : Z) : vec3 * quat :=
  if Z.eqb (sd_stamp a) (sd_stamp b) then (sd_t b, sd_r b)
  else
    let x := IZR (time - sd_stamp a) / IZR (sd_stamp b - sd_stamp a) in
    (vadd (vscale (1 - x) (sd_t a)) (vscale x (sd_t b)), slerp (sd_r a) (sd_r b) x).
(** The last part of TimeCache::findClosest: the newest entry at or before the time, and
    the entry after it. *)
Fixpoint straddle (newer : stored) (l : list stored) (time : Z) : option (stored * stored) :=
  match l with
  | [] => None
  | y :: l => if Z.leb (sd_stamp y) time then Some (y, newer) else straddle y l time
  end.
(** TimeCache::getData / StaticCache::getData: parent and transform at the time (0: the
    latest), or nothing (extrapolation). *)
Definition entry_of (x : stored) : string * (vec3 * quat) := (sd_parent x, (sd_t x, sd_r x)).
Definition get_data (c : tcache) (time : Z) : option (string * (vec3 * quat)) :=
  match c with
  | CStatic x => Some (entry_of x)
  | CTime [] => None
  | CTime (x :: rest) =>
      let back := last rest x in
      if Z.eqb time 0 then Some (entry_of x)
      else if match rest with [] => true | _ => false end then (if Z.eqb (sd_stamp x) time then Some (entry_of x) else None)
      else if Z.eqb time (sd_stamp x) then Some (entry_of x)
      else if Z.eqb time (sd_stamp back) then Some (entry_of back)
      else if Z.ltb (sd_stamp x) time || Z.ltb time (sd_stamp back) then None
      else match straddle x rest time with
           | Some (a, b) => if String.eqb (sd_parent a) (sd_parent b) then Some (sd_parent a, interpolate a b time)
                            else Some (entry_of a)
           | None => None
           end
  end.
(** getLatestTimeAndParent *)
Definition latest_of (c : tcache) : option (Z * string) :=
  match c with
  | CStatic x => Some (0%Z, sd_parent x)
  | CTime [] => None
  | CTime (x :: _) => Some (sd_stamp x, sd_parent x)
  end.

(* ------------------------------------------------------------------ walking *)
(** tf2::quatRotate, with Quaternion::inverse the conjugate *)
Definition tf_rotate (q : quat) (v : vec3) : vec3 := qvec (qmulq (qmulq q (Qt 0 (vx v) (vy v) (vz v))) (qconj q)).
(** TransformAccum::accum *)
Definition accum (edge acc : vec3 * quat) : vec3 * quat :=
  (vadd (tf_rotate (snd edge) (fst acc)) (fst edge), qmulq (snd edge) (snd acc)).
(** TransformAccum::finalize, SourceParentOfTarget and FullPath *)
Definition tf_inv (g : vec3 * quat) : vec3 * quat := let q := qconj (snd g) in (tf_rotate q (vopp (fst g)), q).
Definition full_path (source target : vec3 * quat) : vec3 * quat :=
  let '(v, q) := tf_inv target in (vadd (tf_rotate q (fst source)) v, qmulq q (snd source)).
(** MAX_GRAPH_DEPTH *)
Definition max_depth : nat := 1000.

(** The two loops of BufferCore::walkToTopParent.  Early: the other frame was met.  Top:
    the uppermost frame reached. *)
Inductive walked := Early (g : vec3 * quat) | Top (frame : string) (g : vec3 * quat).
Fixpoint walk_source (fuel : nat) (b : buffer) (time : Z) (target frame : string) (acc : vec3 * quat) : res walked :=
  match lookup frame (bf_caches b) with
  | None => Ok (Top frame acc)
  | Some c =>
      match get_data c time with
      | None => Ok (Top frame acc)
      | Some (parent, e) =>
          if String.eqb frame target then Ok (Early acc)
          else match fuel with
               | O => Raise RuntimeError
               | S fuel => walk_source fuel b time target parent (accum e acc)
               end
      end
  end.
Fixpoint walk_target (fuel : nat) (b : buffer) (time : Z) (source top frame : string) (acc : vec3 * quat) : res walked :=
  if String.eqb frame top then Ok (Top frame acc)
  else
    match lookup frame (bf_caches b) with
    | None => Raise RuntimeError
    | Some c =>
        match get_data c time with
        | None => Raise RuntimeError
        | Some (parent, e) =>
            if String.eqb frame source then Ok (Early acc)
            else match fuel with
                 | O => Raise RuntimeError
                 | S fuel => walk_target fuel b time source top parent (accum e acc)
                 end
        end
    end.
Definition walk_at (b : buffer) (target source : string) (time : Z) : res (vec3 * quat) :=
  w <- walk_source max_depth b time target source (v0, q1) ;;
  match w with
  | Early g => Ok g
  | Top top g =>
      w <- walk_target max_depth b time source top target (v0, q1) ;;
      match w with Early h => Ok (tf_inv h) | Top _ h => Ok (full_path g h) end
  end.

(** BufferCore::getLatestCommonTime.  [None] is TIME_MAX.  The first loop: either the
    target is met, or the list of (time, parent) up to the root. *)
Definition earlier (t : Z) (o : option Z) : option Z :=
  if Z.eqb t 0 then o else match o with None => Some t | Some u => Some (Z.min t u) end.
Definition some_time (o : option Z) : Z := match o with None => 0%Z | Some t => t end.
Fixpoint common_source (fuel : nat) (b : buffer) (target frame : string) (common : option Z) (seen : list (Z * string))
    : res (option Z + list (Z * string)) :=
  match lookup frame (bf_caches b) with
  | None => Ok (inr (rev seen))
  | Some c =>
      match latest_of c with
      | None => Ok (inr (rev seen))
      | Some (t, parent) =>
          let common := earlier t common in
          if String.eqb parent target then Ok (inl common)
          else match fuel with
               | O => Raise RuntimeError
               | S fuel => common_source fuel b target parent common ((t, parent) :: seen)
               end
      end
  end.
(** The times of the list up to the common parent. *)
Fixpoint common_until (parent : string) (common : option Z) (l : list (Z * string)) : option Z :=
  match l with
  | [] => common
  | (t, p) :: l => let common := earlier t common in if String.eqb p parent then common else common_until parent common l
  end.
Fixpoint common_target (fuel : nat) (b : buffer) (source frame : string) (common : option Z) (seen : list (Z * string)) : res (option Z) :=
  match lookup frame (bf_caches b) with
  | None => Raise RuntimeError
  | Some c =>
      match latest_of c with
      | None => Raise RuntimeError
      | Some (t, parent) =>
          let common := earlier t common in
          if existsb (fun x => String.eqb (snd x) parent) seen then Ok (common_until parent common seen)
          else if String.eqb parent source then Ok common
          else match fuel with
               | O => Raise RuntimeError
               | S fuel => common_target fuel b source parent common seen
               end
      end
  end.
Definition latest_common (b : buffer) (target source : string) : res Z :=
  x <- common_source max_depth b target source None [] ;;
  match x with
  | inl o => Ok (some_time o)
  | inr seen => o <- common_target max_depth b source target None seen ;; Ok (some_time o)
  end.
(** BufferCore::validateFrameId *)
Definition known_frame (b : buffer) (n : string) : bool :=
  negb (String.eqb n "") && negb (match n with String c _ => Ascii.eqb c "/" | EmptyString => false end) &&
  existsb (String.eqb n) (bf_known b).
(** BufferCore::lookupTransform, time in nanoseconds *)
Definition buffer_lookup (b : buffer) (target source : string) (time : Z) : res (vec3 * quat) :=
  if negb (known_frame b target && known_frame b source) then Raise RuntimeError
  else if String.eqb source target then Ok (v0, q1)
  else
    time <- (if Z.eqb time 0 then latest_common b target source else Ok time) ;;
    walk_at b target source time.

(* ------------------------------------------------------------------ the methods of Transformer *)
(** The transform of the message that is returned. *)
Definition vec_xyz (v : vec3) : xyz := XYZ (vx v) (vy v) (vz v).
Definition quat_xyzw (q : quat) : xyzw := XYZW (qx q) (qy q) (qz q) (qw q).
Definition looked_up (b : buffer) (target source : string) (time : R) : res transform_msg :=
  st <- from_sec time ;; g <- buffer_lookup b target source (nanos st) ;;
  Ok (TransformMsg (vec_xyz (fst g)) (quat_xyzw (snd g))).
(** transformer.py:124-146 [can_transform]: BufferCore::canTransform runs the same walk. *)
Definition tf_can_transform (b : buffer) (target source : string) (time : R) : res bool :=
  st <- from_sec time ;; Ok (match buffer_lookup b target source (nanos st) with Ok _ => true | Raise _ => false end).
(** transformer.py:148-177 [lookup_transform] *)
Definition tf_lookup (b : buffer) (target source : string) (time : R) : res (list R * list R) :=
  m <- looked_up b target source time ;; Ok (unpack_transform_msg m).

(** PyKDL.Rotation.Quaternion(x, y, z, w) *)
Definition kdl_matrix (q : quat) : mat3 :=
  let x := qx q in let y := qy q in let z := qz q in let w := qw q in
  M3 (V3 (w * w + x * x - y * y - z * z) (2 * x * y - 2 * w * z) (2 * x * z + 2 * w * y))
     (V3 (2 * x * y + 2 * w * z) (w * w - x * x + y * y - z * z) (2 * y * z - 2 * w * x))
     (V3 (2 * x * z - 2 * w * y) (2 * y * z + 2 * w * x) (w * w - x * x - y * y + z * z)).
(** tf2_geometry_msgs transform_to_kdl(transform) * PyKDL.Vector *)
Definition kdl_apply (m : transform_msg) (v : vec3) : vec3 :=
  vadd (mapply (kdl_matrix (xyzw_quat (tm_rotation m))) v) (xyz_vec (tm_translation m)).
(** do_transform_vector3 sets the translation to zero. *)
Definition without_translation (m : transform_msg) : transform_msg := TransformMsg (XYZ 0 0 0) (tm_rotation m).

(** transformer.py:179-213 [transform_vector] *)
Definition tf_transform_vector (b : buffer) (v : list R) (target source : string) (time : R) : res (list R) :=
  m <- looked_up b target source time ;; msg <- make_vector_msg v (Some source) time ;;
  Ok (vlist (kdl_apply (without_translation m) (xyz_vec (vs_vector msg)))).
(** transformer.py:215-249 [transform_point] *)
Definition tf_transform_point (b : buffer) (p : list R) (target source : string) (time : R) : res (list R) :=
  m <- looked_up b target source time ;; msg <- make_point_msg p (Some source) time ;;
  Ok (vlist (kdl_apply m (xyz_vec (vs_vector msg)))).
Section Kdl.
  (** PyKDL Rotation.GetQuaternion *)
  Variable get_quaternion : mat3 -> quat.
  (** do_transform_pose *)
  Definition kdl_pose (m : transform_msg) (p : pose_msg) : list R * list R :=
    (vlist (kdl_apply m (xyz_vec (pm_position p))),
     qlist (get_quaternion (mdot (kdl_matrix (xyzw_quat (tm_rotation m))) (kdl_matrix (xyzw_quat (pm_orientation p)))))).
  (** transformer.py:287-325 [transform_pose] *)
  Definition tf_transform_pose (b : buffer) (p o : list R) (target source : string) (time : R) : res (list R * list R) :=
    m <- looked_up b target source time ;; msg <- make_pose_msg p o (Some source) time ;;
    Ok (kdl_pose m (ps_pose msg)).
  (** transformer.py:251-285 [transform_quaternion] *)
  Definition tf_transform_quaternion (b : buffer) (q : list R) (target source : string) (time : R) : res (list R) :=
    r <- tf_transform_pose b [0; 0; 0] q target source time ;; Ok (snd r).
End Kdl.
