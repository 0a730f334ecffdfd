(** Model of ros/io.py, with the parts of rosbag, pandas and netCDF it uses. *)
From Coq Require Import Reals List String Ascii ZArith Bool Arith.
From Verif Require Import Base NdArray RosMsg.
Import ListNotations.
Open Scope R_scope.

(* ------------------------------------------------------------------ bags *)
Record odometry := Odometry { od_header : header; od_pose : pose_msg; od_twist : twist_msg }.
Inductive message := MTransform (m : transform_stamped) | MOdom (m : odometry) | MOther.
(** A recorded message: its topic and the time of recording (nanoseconds of the wall clock,
    rosbag.Bag.write with t=None). *)
Record entry := Entry { e_topic : string; e_msg : message; e_time : Z }.
(** The messages of a bag in the order they were written.  Simplification: topic names are
    compared as they are (rosbag ignores doubled and trailing slashes). *)
Definition bag := list entry.

(** rosbag keeps the index of a topic sorted by recording time with bisect.insort_right. *)
Fixpoint insort (e : entry) (l : list entry) : list entry :=
  match l with
  | [] => [e]
  | x :: l => if Z.ltb (e_time e) (e_time x) then e :: x :: l else x :: insort e l
  end.
Definition on_topic (topic : string) (e : entry) : bool := String.eqb (e_topic e) topic.
Definition read_messages (b : bag) (topic : string) : list entry :=
  fold_left (fun l e => insort e l) (filter (on_topic topic) b) [].
(** io.py:33-36 [_get_msg_type]: the first message of the topic decides; KeyError without. *)
Definition topic_type (b : bag) (topic : string) : res message :=
  match find (on_topic topic) b with Some e => Ok (e_msg e) | None => Raise KeyError end.

(* ------------------------------------------------------------------ reading *)
(** The dict of load_messages. *)
Record motion := Motion { mo_time : list R; mo_position : list (list R); mo_orientation : list (list R);
                          mo_velocity : option (list (list R) * list (list R)) }.
(** One row of the array: (header stamp, position, orientation, velocities).  A message of
    another type than the topic's has other attributes. *)
Definition odom_row (e : entry) : res (R * list R * list R * (list R * list R)) :=
  match e_msg e with
  | MOdom m => Ok (to_sec (fst (od_header m)), unpack_xyz (pm_position (od_pose m)), unpack_xyzw (pm_orientation (od_pose m)),
                   (unpack_xyz (wm_linear (od_twist m)), unpack_xyz (wm_angular (od_twist m))))
  | _ => Raise AttributeError
  end.
Definition transform_row (e : entry) : res (R * list R * list R) :=
  match e_msg e with
  | MTransform m => Ok (to_sec (fst (ts_header m)), unpack_xyz (tm_translation (ts_transform m)), unpack_xyzw (tm_rotation (ts_transform m)))
  | _ => Raise AttributeError
  end.
(** io.py:87-155 [RosbagReader.load_messages].  [None]: outside the context manager. *)
Definition load_messages (opened : option bag) (topic : string) : res motion :=
  match opened with
  | None => Raise RuntimeError
  | Some b =>
      ty <- topic_type b topic ;;
      match ty with
      | MOdom _ =>
          rows <- traverse odom_row (read_messages b topic) ;;
          Ok (Motion (map (fun r => fst (fst (fst r))) rows) (map (fun r => snd (fst (fst r))) rows) (map (fun r => snd (fst r)) rows)
                (Some (map (fun r => fst (snd r)) rows, map (fun r => snd (snd r)) rows)))
      | MTransform _ =>
          rows <- traverse transform_row (read_messages b topic) ;;
          Ok (Motion (map (fun r => fst (fst r)) rows) (map (fun r => snd (fst r)) rows) (map snd rows) None)
      | MOther => Raise ValueError
      end
  end.
(** The names of the message types.  [MOther] stands for any other type; the name given here
    is only an example of one. *)
Definition msg_type (m : message) : string :=
  match m with
  | MTransform _ => "geometry_msgs/TransformStamped"
  | MOdom _ => "nav_msgs/Odometry"
  | MOther => "std_msgs/String"
  end.
(** io.py:66-83 [get_topics_and_types]: a dict from the names of the topics to the types of
    their first messages.  Simplification: in order of appearance (rosbag sorts by name). *)
Definition get_topics_and_types (opened : option bag) : res (list (string * string)) :=
  match opened with
  | None => Raise RuntimeError
  | Some b => traverse (fun t => m <- topic_type b t ;; Ok (t, msg_type m)) (nodup string_dec (map e_topic b))
  end.

(* ------------------------------------------------------------------ writing *)
(** rosbag.Bag.write(topic, msg) at wall clock time now.  The seconds of a stamp are 32-bit
    unsigned.  Simplification: a failing write leaves no trace in the bag. *)
Definition bag_write (now : Z) (b : bag) (topic : string) (m : transform_stamped) : bag * res unit :=
  if String.eqb topic "" then (b, Raise ValueError)
  else if Z.leb (2 ^ 32) (secs (fst (ts_header m))) then (b, Raise SerializationError)
  else (b ++ [Entry topic (MTransform m) now], Ok tt).
Definition row (a : nd R) (n i : nat) : list R := map (fun c => dat a [i; c]) (seq 0 n).

Section Clock.
  (** The wall clock at the k-th write. *)
  Variable clock : nat -> Z.
  (** io.py:298-301: the loop over the rows. *)
  Fixpoint write_rows (b : bag) (ts : list R) (t r : list (list R)) (topic : string) (frame child : option string) : bag * res unit :=
    match ts, t, r with
    | ts0 :: ts, t0 :: t, r0 :: r =>
        match make_transform_msg t0 r0 frame child ts0 with
        | Raise e => (b, Raise e)
        | Ok m =>
            match bag_write (clock (List.length b)) b topic m with
            | (b', Raise e) => (b', Raise e)
            | (b', Ok _) => write_rows b' ts t r topic frame child
            end
        end
    | _, _, _ => (b, Ok tt)
    end.
  (** io.py:250-301 [RosbagWriter.write_transform_stamped] *)
  Definition shape_is (a : nd R) (s : list nat) : bool := if list_eq_dec Nat.eq_dec (shp a) s then true else false.
  Definition write_transform_stamped (b : bag) (timestamps translation rotation : nd R) (topic : string) (frame child : option string)
      : bag * res unit :=
    match shp timestamps with
    | [n] =>
        if negb (shape_is translation [n; 3%nat]) then (b, Raise ValueError)
        else if negb (shape_is rotation [n; 4%nat]) then (b, Raise ValueError)
        else write_rows b (map (fun i => dat timestamps [i]) (seq 0 n)) (map (row translation 3) (seq 0 n)) (map (row rotation 4) (seq 0 n))
               topic frame child
    | _ => (b, Raise ValueError)
    end.
  (** io.py:303-346 [write_transform_stamped_dataset]: datetime64 timestamps (numbers of
      nanoseconds) are converted to seconds. *)
  Definition write_dataset (b : bag) (dt64 : bool) (timestamps translation rotation : nd R) (topic : string) (frame child : option string) :=
    write_transform_stamped b (if dt64 then Nd (shp timestamps) (fun ix => dat timestamps ix / 1000000000) else timestamps)
      translation rotation topic frame child.
End Clock.

(* ------------------------------------------------------------------ datasets and their cache *)
(** An xarray.Dataset: times in nanoseconds, variables as rows of numbers (None is NaN).
    The coordinates other than time are constant. *)
Record dataset := Dataset { ds_time : list Z; ds_vars : list (string * list (list (option R))) }.
(** numpy.rint: to the nearest integer, halves to even. *)
Definition rint (x : R) : Z :=
  let n := Int_part x in
  if Rlt_b (x - IZR n) (1/2) then n
  else if Rlt_b (1/2) (x - IZR n) then (n + 1)%Z
  else if Z.even n then n else (n + 1)%Z.
(** pandas.to_datetime(t, unit="s"), to the nearest nanosecond. *)
Definition to_datetime (t : R) : Z := rint (t * 1000000000).
Definition somes (l : list (list R)) : list (list (option R)) := map (map Some) l.
(** io.py:191-228, the part without cache *)
Definition dataset_of (m : motion) : dataset :=
  Dataset (map to_datetime (mo_time m))
    ([("position"%string, somes (mo_position m)); ("orientation"%string, somes (mo_orientation m))] ++
     match mo_velocity m with
     | None => []
     | Some (v, w) => [("linear_velocity"%string, somes v); ("angular_velocity"%string, somes w)]
     end).

(** io.py:51-68 [_write_netcdf] and xarray.open_dataset: each number is stored as
    rint(x / 0.0001) in an int32 whose smallest value means NaN; numbers out of range become
    that value.  Simplification: times are stored exactly. *)
Definition fill : Z := (- 2 ^ 31)%Z.
Definition pack (x : option R) : Z :=
  match x with
  | None => fill
  | Some x => let n := rint (x / 0.0001) in if Z.ltb n fill || Z.leb (2 ^ 31) n then fill else n
  end.
Definition unpack (n : Z) : option R := if Z.eqb n fill then None else Some (IZR n * 0.0001).
Record packed := Packed { pk_time : list Z; pk_vars : list (string * list (list Z)) }.
Definition encode (d : dataset) : packed := Packed (ds_time d) (map (fun v => (fst v, map (map pack) (snd v))) (ds_vars d)).
Definition decode (p : packed) : dataset := Dataset (pk_time p) (map (fun v => (fst v, map (map unpack) (snd v))) (pk_vars p)).

(** The files of the cache folder of one directory.  A file whose writing was interrupted
    cannot be read. *)
Inductive file := Complete (p : packed) | Partial.
Definition folder := string -> option file.
Definition set_file (f : folder) (n : string) (x : file) : folder := fun m => if String.eqb m n then Some x else f m.
(** str.replace('/', '_') *)
Fixpoint replace_slash (s : string) : string :=
  match s with
  | EmptyString => EmptyString
  | String c s => String (if Ascii.eqb c "/" then "_"%char else c) (replace_slash s)
  end.
Definition cache_file (topic : string) : string := (replace_slash topic ++ ".nc")%string.

(** io.py:230-243 [export] into a file of the cache folder.  [crash]: the process dies while
    the netCDF file is being written. *)
Definition export (opened : option bag) (f : folder) (topic : string) (name : string) (crash : bool) : folder * res unit :=
  match load_messages opened topic with
  | Raise e => (f, Raise e)
  | Ok m => if crash then (set_file f name Partial, Raise RuntimeError)
            else (set_file f name (Complete (encode (dataset_of m))), Ok tt)
  end.
Definition open_dataset (f : folder) (name : string) : res dataset :=
  match f name with Some (Complete p) => Ok (decode p) | Some Partial => Raise ValueError | None => Raise ValueError end.
(** io.py:157-228 [load_dataset] *)
Definition load_dataset (opened : option bag) (f : folder) (topic : string) (cache crash : bool) : folder * res dataset :=
  if cache then
    match f (cache_file topic) with
    | Some _ => (f, open_dataset f (cache_file topic))
    | None =>
        match export opened f topic (cache_file topic) crash with
        | (f', Raise e) => (f', Raise e)
        | (f', Ok _) => (f', open_dataset f' (cache_file topic))
        end
    end
  else (f, m <- load_messages opened topic ;; Ok (dataset_of m)).
