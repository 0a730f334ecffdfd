(** Model of the OptiTrack import (io.py:6-109). *)
From Coq Require Import Reals List String ZArith Bool Arith Ascii.
From Verif Require Import Base Quat NdArray Frames Matcher Broadcast TopLevel Utils.
Import ListNotations.
Open Scope R_scope.
Open Scope string_scope.

(** A cell of the csv file: blank (NaN) or a number. *)
Definition cell := option R.
(** A column below the header lines 2, 3, 5 and 6: type, name, motion, axis (io.py:36-38).
    pandas' reading of the file itself is not modelled. *)
Record column := Col { c_type : string; c_name : string; c_motion : string; c_axis : string; c_cells : list cell }.
(** The file: first line, column "Time (Seconds)", other columns. *)
Record csv := Csv { header : list string; c_times : list R; columns : list column }.

(** io.py:33: zip of the even and the odd cells; in a dict the last value of a key wins. *)
Fixpoint pairs_of (l : list string) : list (string * string) :=
  match l with k :: v :: l => (k, v) :: pairs_of l | _ => [] end.
Fixpoint meta_get (k : string) (m : list (string * string)) : option string :=
  match m with
  | [] => None
  | (k', v) :: m => match meta_get k m with Some v' => Some v' | None => if String.eqb k k' then Some v else None end
  end.
(** str.replace of "X", "Y", "Z" by "r", "p", "y" (io.py:69-74); the replacements do not
    interfere, so they can be made letter by letter. *)
Definition letter (c : ascii) : ascii :=
  if Ascii.eqb c "X" then "r"%char else if Ascii.eqb c "Y" then "p"%char else if Ascii.eqb c "Z" then "y"%char else c.
Definition order_of (rotation_type : string) : list ascii := map letter (list_ascii_of_string rotation_type).

(** Columns of one rigid body (io.py:46, 53-56); an unknown key is a KeyError. *)
Definition of_motion (m : string) (cs : list column) : res (list column) :=
  match filter (fun c => String.eqb (c_motion c) m) cs with [] => Raise KeyError | l => Ok l end.
Definition cell_at (c : column) (i : nat) : cell := nth i (c_cells c) None.
(** np.deg2rad of the (N, k) values (io.py:67).  Blank cells are represented by 0 here: the
    conversion works by rows, so only rows with a blank cell are affected, see [orientations]. *)
Definition deg2rad (x : R) : R := x * (PI / 180).
Definition angles (n : nat) (rot : list column) : nd R :=
  Nd [n; List.length rot] (fun ix => match ix with [i; j] => match nth_error rot j with Some c => match cell_at c i with Some x => deg2rad x | None => 0 end | None => 0 end | _ => 0 end).
(** A NaN among the three angles makes all components of the quaternion NaN. *)
Definition blank_row (rot : list column) (i : nat) : bool :=
  existsb (fun c => match cell_at c i with None => true | Some _ => false end) (firstn 3 rot).
Definition orientations (n : nat) (rot : list column) (order : list ascii) : res (list (option quat)) :=
  q <- from_euler_angles_float (Some (angles n rot)) None None None (-1) order ;;
  Ok (map (fun i => if blank_row rot i then None else Some (quat_at q [i])) (seq 0 n)).
(** str.lower of the one-letter labels (io.py:78) *)
Definition lower (s : string) : string :=
  if String.eqb s "X" then "x" else if String.eqb s "Y" then "y" else if String.eqb s "Z" then "z" else s.
Definition scale_cell (k : R) (c : cell) : cell := match c with Some x => Some (x / k) | None => None end.

(** The poses of one body: labelled position columns, orientations, timestamps. *)
Record poses := Poses { p_position : list (string * list cell); p_orientation : list (option quat); p_time : list Z }.
Inductive fmt := FNumpy | FPandas | FXarray | FOther.
(** numpy: (N, 3) positions by rows. *)
Inductive loaded := LTuple (position : list (list cell)) (orientation : list (option quat)) (time : list Z) | LFrame (p : poses).

Section WithPandas.
  (** pd.to_datetime with the given format, and pd.to_timedelta of seconds, in ns *)
  Variable to_datetime : string -> res Z.
  Variable to_timedelta : R -> Z.
  (** io.py:53-85, for one body *)
  Definition body_poses (f : csv) (meta : list (string * string)) (ts : list Z) (name : string) : res poses :=
    let cs := filter (fun c => String.eqb (c_type c) "Rigid Body" && String.eqb (c_name c) name) (columns f) in
    let n := List.length ts in
    pos <- of_motion "Position" cs ;;
    let k := match meta_get "Length Units" meta with Some u => if String.eqb u "Centimeters" then 100 else 1 | None => 1 end in
    rot <- of_motion "Rotation" cs ;;
    q <- orientations n rot (order_of (match meta_get "Rotation Type" meta with Some t => t | None => "XYZ" end)) ;;
    Ok (Poses (map (fun c => (lower (c_axis c), map (fun i => scale_cell k (cell_at c i)) (seq 0 n))) pos) q ts).
  (** io.py:88-107 *)
  Definition in_format (fm : fmt) (p : poses) : res loaded :=
    match fm with
    | FPandas | FXarray => Ok (LFrame p)
    | FNumpy => Ok (LTuple (map (fun i => map (fun c => nth i (snd c) None) (p_position p)) (seq 0 (List.length (p_time p)))) (p_orientation p) (p_time p))
    | FOther => Raise ValueError
    end.
  (** io.py:6-109 [load_optitrack].  The entries are in the order of the names in the file;
      groupby would sort them. *)
  Definition load_optitrack (f : csv) (fm : fmt) : res (list (string * loaded)) :=
    let meta := pairs_of (header f) in
    start <- match meta_get "Capture Start Time" meta with Some s => to_datetime s | None => Raise KeyError end ;;
    let ts := map (fun t => (start + to_timedelta t)%Z) (c_times f) in
    let rb := filter (fun c => String.eqb (c_type c) "Rigid Body") (columns f) in
    match rb with
    | [] => Raise KeyError
    | _ =>
        let names := nodup string_dec (map c_name rb) in
        ps <- traverse (fun n => p <- body_poses f meta ts n ;; Ok (n, p)) names ;;
        traverse (fun np => l <- in_format fm (snd np) ;; Ok (fst np, l)) ps
    end.
End WithPandas.
