(** Model of datetime64[ns] timestamps: integers of nanoseconds, converted to float64
    where the code interpolates, differentiates or talks to ROS.  Elsewhere in the model
    timestamps are real numbers; this file says what the conversions do to them. *)
From Coq Require Import Reals ZArith List Bool.
From Flocq Require Import Core.
From Verif Require Import Base Frames Matcher NdArray Velocity RosMsg.
Import ListNotations.
Open Scope R_scope.

(** Rounding to float64: 53 bits, exponents from -1074, ties to even.  Simplification: no
    overflow (int64 is far below it). *)
Definition rnd64 (x : R) : R := round radix2 (FLT_exp (-1074) 53) ZnearestE x.
(** timestamps.astype(float) of a datetime64[ns] (core.py:37, 68-74, 97-105, 739, 802;
    utils.py:167-168). *)
Definition to_float (n : Z) : R := rnd64 (IZR n).
(** timestamps.astype(float) / 1e9 (core.py:738-739, 801-802; ros/io.py:357-358;
    ros/transformer.py:56-57, 119, 457). *)
Definition seconds (n : Z) : R := rnd64 (to_float n / IZR 1000000000).

(** core.py:33-43 [_check_timestamps] for datetime timestamps.  The sign of a float
    difference is that of the exact one. *)
Definition dt_check (ts : list Z) (shape : list nat) : res unit :=
  check_timestamps (Some (map to_float ts)) shape.
(** core.py:45-78 [_transform_from_frame] for a moving frame with datetime timestamps:
    discrete frames compare the integers (59-64), continuous ones convert them (66-77).
    Simplification: the interpolated values are computed in exact arithmetic. *)
Definition dt_rows (squad : list R -> list quat -> R -> res quat) (ts : list Z) (t : list vec3) (r : list quat) (discrete : bool) (l : list Z) : res (list (vec3 * quat)) :=
  if discrete then rows_from_frame squad (TMoving (map IZR ts) t r true) (map IZR l)
  else rows_from_frame squad (TMoving (map to_float ts) t r false) (map to_float l).
(** core.py:797-804, estimators.py:63-145: the linear velocity for datetime timestamps. *)
Definition dt_linear_velocity (a : nd R) (axis : option Z) (ts : list Z) (time_axis : option Z) : res (nd R) :=
  estimate_linear_velocity a axis (map seconds ts) time_axis.
(** The stamp of a ROS message for a datetime sample: rospy.Time.from_sec (RosMsg.v) of the
    seconds (ros/transformer.py:52-60, 115-121, 457; ros/io.py:294-320, 357-369). *)
Definition dt_stamp (n : Z) : res stamp := from_sec (seconds n).
