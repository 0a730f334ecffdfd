(** Model of the marker messages and of the construction of marker publishers
    (ros/visualization.py). *)
From Coq Require Import Reals List String Ascii ZArith Bool Arith.
From Verif Require Import Base Quat NdArray Frames Matcher RosMsg Broadcast.
Import ListNotations.
Open Scope R_scope.

(* ------------------------------------------------------------------ colours *)
(** std_msgs/ColorRGBA *)
Record rgba := RGBA { c_r : R; c_g : R; c_b : R; c_a : R }.
(** A hexadecimal digit, as int(s, 16) reads it.  Strings are ASCII in the model. *)
Definition hex_digit (c : ascii) : option Z :=
  let n := nat_of_ascii c in
  if (48 <=? n)%nat && (n <=? 57)%nat then Some (Z.of_nat (n - 48))
  else if (97 <=? n)%nat && (n <=? 102)%nat then Some (Z.of_nat (n - 87))
  else if (65 <=? n)%nat && (n <=? 70)%nat then Some (Z.of_nat (n - 55))
  else None.
Definition blank (c : ascii) : bool :=
  let n := nat_of_ascii c in ((9 <=? n) && (n <=? 13) || (n =? 32))%nat.
(** Python's int(s, 16) for a string of at most two characters (hex_to_rgba only uses
    such): surrounding blanks are skipped, a sign is allowed, and at least one digit is
    needed.  Two characters are too short for a 0x prefix with a digit or an underscore
    between two digits. *)
Definition one_digit (c : ascii) : res Z := match hex_digit c with Some d => Ok d | None => Raise ValueError end.
Definition int16 (l : list ascii) : res Z :=
  match l with
  | [c] => one_digit c
  | [a; b] =>
      if blank a || Ascii.eqb a "+" then one_digit b
      else if Ascii.eqb a "-" then d <- one_digit b ;; Ok (- d)%Z
      else if blank b then one_digit a
      else d <- one_digit a ;; e <- one_digit b ;; Ok (16 * d + e)%Z
  | _ => Raise ValueError
  end.
(** h.lstrip("#") *)
Fixpoint lstrip (l : list ascii) : list ascii :=
  match l with c :: l' => if Ascii.eqb c "#" then lstrip l' else l | [] => [] end.
(** visualization.py:7-23 [hex_to_rgba]: h[i:i+2] for i in (0, 2, 4, 6), each over 255. *)
Definition piece (l : list ascii) (i : nat) : res R :=
  z <- int16 (firstn 2 (skipn i l)) ;; Ok (IZR z / 255).
Definition hex_to_rgba (h : string) : res rgba :=
  let l := lstrip (list_ascii_of_string h) in
  r <- piece l 0 ;; g <- piece l 2 ;; b <- piece l 4 ;; a <- piece l 6 ;; Ok (RGBA r g b a).

(* ------------------------------------------------------------------ markers *)
(** visualization_msgs/Marker; the fields get_marker does not set keep their defaults and
    are not modelled (ns, id, action, lifetime, frame_locked, colors, text, mesh_*, the
    stamp of the header). *)
Record marker := Marker {
  mk_type : Z; mk_frame : option string; mk_scale : xyz; mk_color : rgba;
  mk_position : xyz; mk_orientation : xyzw; mk_points : list xyz }.
(** Marker.LINE_STRIP and Marker.ARROW (visualization_msgs) *)
Definition line_strip : Z := 4.
Definition arrow : Z := 0.
(** The argument scale: a float (isinstance), an int (not a float, and not iterable) or an
    iterable. *)
Inductive scale_arg := SFloat (x : R) | SInt (k : Z) | SIter (l : list R).
(** Quaternion( *l ): all fields x, y, z, w in this order or none (zeros). *)
Definition mk_quaternion (l : list R) : res xyzw :=
  match l with
  | [] => Ok (XYZW 0 0 0 0)
  | [x; y; z; w] => Ok (XYZW x y z w)
  | _ => Raise TypeError
  end.
(** visualization.py:26-81 [get_marker].  [marker_type or Marker.LINE_STRIP]: None and 0
    are replaced. *)
Definition get_marker (marker_type : option Z) (frame_id : option string) (scale : scale_arg) (color : string)
    (position orientation : list R) : res marker :=
  let ty := match marker_type with Some k => if Z.eqb k 0 then line_strip else k | None => line_strip end in
  sc <- match scale with
        | SFloat x => mk_xyz [x; x; x]
        | SInt _ => Raise TypeError
        | SIter l => mk_xyz l
        end ;;
  c <- hex_to_rgba color ;;
  o <- mk_quaternion orientation ;;
  p <- mk_xyz position ;;
  Ok (Marker ty frame_id sc c p o []).

(* ------------------------------------------------------------------ the publisher *)
(** A ReferenceFrameMarkerPublisher: its topic, its marker, and the last message sent
    (visualization.py:104-114; the ROS publisher itself and the thread are in Broadcast.v
    and Spin.v). *)
Record publisher := Publisher { p_frame : nat; p_base : nat; p_topic : string; p_marker : marker }.
(** f"/{self.frame.name}/path" *)
Definition default_topic (name : option string) : string :=
  ("/" ++ (match name with Some n => n | None => "None" end) ++ "/path")%string.
Section Make.
  Variable squad : list R -> list quat -> R -> res quat.
  (** visualization.py:170-218 [ReferenceFrameMarkerPublisher.__init__]; the defaults are
      base=None, topic=None, max_points=1000, scale=0.1, color="#ffffffff".
      [base or self.frame.parent]: None and the empty name are replaced by the parent,
      which must exist; [topic or ...]: None and the empty topic are replaced. *)
  Definition make_publisher (s : state) (frame : pref) (base : option pref) (topic : option string)
      (max_points : Z) (scale : R) (color : string) : res publisher :=
    i <- resolve_rf s frame ;;
    let base' := match base with
                 | Some (PName n) => if String.eqb n "" then None else base
                 | _ => base
                 end in
    j <- match base' with
         | Some p => resolve_rf s p
         | None => match parent_of s i with Some p => Ok p | None => Raise TypeError end
         end ;;
    tr <- lookup_transform squad s i (PFrame j) ;;
    m <- get_marker None (name_of s j) (SIter [scale; 0; 0]) color [0; 0; 0] [0; 0; 0; 1] ;;
    se <- match tr with
          | TrStatic t r => Ok (SStatic t r)
          | TrRows ts rows => Ok (SMoving false ts rows)
          | TrBare _ => Raise IndexError (* unreachable: no timestamps without frames *)
          end ;;
    pts <- marker_points se max_points ;;
    let m' := Marker (mk_type m) (mk_frame m) (mk_scale m) (mk_color m) (mk_position m) (mk_orientation m) pts in
    let to := match topic with
              | Some t => if String.eqb t "" then default_topic (name_of s i) else t
              | None => default_topic (name_of s i)
              end in
    Ok (Publisher i j to m').
End Make.
