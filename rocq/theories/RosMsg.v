(** Model of ros/msg.py, with the parts of genpy it uses. *)
From Coq Require Import Reals List String ZArith Bool.
From Verif Require Import Base.
Import ListNotations.
Open Scope R_scope.

(* ------------------------------------------------------------------ genpy.Time *)
Record stamp := Stamp { secs : Z; nsecs : Z }.
Definition giga : Z := 1000000000.
(** Python's int(x) of a float: truncation towards zero. *)
Definition trunc (x : R) : Z := if Rle_b 0 x then Int_part x else (- Int_part (- x))%Z.
(** genpy.Time.from_sec: secs = int(t), nsecs = int((t - secs) * 1e9); the constructor
    brings nsecs into [0, 1e9) and refuses negative times with a TypeError. *)
Definition from_sec (t : R) : res stamp :=
  let s := trunc t in
  let n := trunc ((t - IZR s) * IZR giga) in
  let s' := (s + n / giga)%Z in
  if Z.ltb s' 0 then Raise TypeError else Ok (Stamp s' (n mod giga)).
(** genpy.Time.to_sec *)
Definition to_sec (t : stamp) : R := IZR (secs t) + IZR (nsecs t) / IZR giga.

(* ------------------------------------------------------------------ messages *)
(** geometry_msgs Vector3 and Point; Quaternion (fields in this order). *)
Record xyz := XYZ { m_x : R; m_y : R; m_z : R }.
Record xyzw := XYZW { q_x : R; q_y : R; q_z : R; q_w : R }.
(** Vector3( *l ), Point( *l ): genpy requires all fields or none (zeros). *)
Definition mk_xyz (l : list R) : res xyz :=
  match l with
  | [] => Ok (XYZ 0 0 0)
  | [x; y; z] => Ok (XYZ x y z)
  | _ => Raise TypeError
  end.
(** Quaternion(r[1], r[2], r[3], r[0]): a short r is an IndexError, further entries are
    ignored. *)
Definition mk_xyzw (l : list R) : res xyzw :=
  match l with
  | w :: x :: y :: z :: _ => Ok (XYZW x y z w)
  | _ => Raise IndexError
  end.
Definition header := (stamp * option string)%type.

Record transform_msg := TransformMsg { tm_translation : xyz; tm_rotation : xyzw }.
Record transform_stamped := TransformStamped { ts_header : header; ts_child : option string; ts_transform : transform_msg }.
(** msg.py:18-27 *)
Definition make_transform_msg (t r : list R) (frame_id child_frame_id : option string) (time : R) : res transform_stamped :=
  st <- from_sec time ;; tr <- mk_xyz t ;; ro <- mk_xyzw r ;;
  Ok (TransformStamped (st, frame_id) child_frame_id (TransformMsg tr ro)).
(** msg.py:30-39, without and with stamped=True *)
Definition unpack_xyz (v : xyz) : list R := [m_x v; m_y v; m_z v].
Definition unpack_xyzw (q : xyzw) : list R := [q_w q; q_x q; q_y q; q_z q].
Definition unpack_transform_msg (m : transform_msg) : list R * list R := (unpack_xyz (tm_translation m), unpack_xyzw (tm_rotation m)).
Definition unpack_transform_stamped (m : transform_stamped) := unpack_transform_msg (ts_transform m).

Record pose_msg := PoseMsg { pm_position : xyz; pm_orientation : xyzw }.
Record pose_stamped := PoseStamped { ps_header : header; ps_pose : pose_msg }.
(** msg.py:42-50, 53-62 *)
Definition make_pose_msg (p o : list R) (frame_id : option string) (time : R) : res pose_stamped :=
  st <- from_sec time ;; p' <- mk_xyz p ;; o' <- mk_xyzw o ;; Ok (PoseStamped (st, frame_id) (PoseMsg p' o')).
Definition unpack_pose_msg (m : pose_msg) : list R * list R := (unpack_xyz (pm_position m), unpack_xyzw (pm_orientation m)).
Definition unpack_pose_stamped (m : pose_stamped) := unpack_pose_msg (ps_pose m).

Record twist_msg := TwistMsg { wm_linear : xyz; wm_angular : xyz }.
Record twist_stamped := TwistStamped { ws_header : header; ws_twist : twist_msg }.
(** msg.py:65-73, 76-85 *)
Definition make_twist_msg (v w : list R) (frame_id : option string) (time : R) : res twist_stamped :=
  st <- from_sec time ;; v' <- mk_xyz v ;; w' <- mk_xyz w ;; Ok (TwistStamped (st, frame_id) (TwistMsg v' w')).
Definition unpack_twist_msg (m : twist_msg) : list R * list R := (unpack_xyz (wm_linear m), unpack_xyz (wm_angular m)).
Definition unpack_twist_stamped (m : twist_stamped) := unpack_twist_msg (ws_twist m).

Record vec_stamped := VecStamped { vs_header : header; vs_vector : xyz }.
(** msg.py:88-95, 98-105 (vectors) and 108-115, 118-125 (points) *)
Definition make_vector_msg (v : list R) (frame_id : option string) (time : R) : res vec_stamped :=
  st <- from_sec time ;; v' <- mk_xyz v ;; Ok (VecStamped (st, frame_id) v').
Definition make_point_msg := make_vector_msg.
Definition unpack_vector_stamped (m : vec_stamped) : list R := unpack_xyz (vs_vector m).
Definition unpack_point_stamped := unpack_vector_stamped.

Record quat_stamped := QuatStamped { qs_header : header; qs_quaternion : xyzw }.
(** msg.py:128-135, 138-145 *)
Definition make_quaternion_msg (q : list R) (frame_id : option string) (time : R) : res quat_stamped :=
  st <- from_sec time ;; q' <- mk_xyzw q ;; Ok (QuatStamped (st, frame_id) q').
Definition unpack_quaternion_stamped (m : quat_stamped) : list R := unpack_xyzw (qs_quaternion m).
