(** Model of the top-level functions on plain arrays and DataArrays:
    core.py:356-384 (_replace_dim), 387-456 (_maybe_unpack_dataarray), 459-496
    (_make_dataarray), 499-595 (_transform), 598-654
    (_make_transform_or_pose_dataset); __init__.py:110-330 (transform_vectors,
    transform_points, transform_quaternions), 572-650 (transform_coordinates),
    653-746 (lookup_transform, lookup_pose). *)
From Coq Require Import Reals List String Arith Bool ZArith.
From Verif Require Import Base Quat NdArray Frames Matcher Transform Coord Velocity.
Import ListNotations.
Local Open Scope string_scope.

(* ------------------------------------------------------------------ DataArrays *)
(** An attrs dictionary.  Values are strings or None; other attributes never matter
    to the code. *)
Definition attrs := list (string * option string).
(** A coordinate: its dims and values.  Simplification: values are numbers (any
    shape) or a list of strings. *)
Inductive cvals := CNum (a : nd R) | CStr (l : list string).
Record coord := Co { co_dims : list string; co_vals : cvals }.
(** A DataArray.  Its attrs is a mutable dictionary: [da_attrs] is its identity. *)
Record darr := DA { da_data : nd R; da_dims : list string; da_coords : list (string * coord);
                    da_name : option string; da_attrs : nat }.
(** The frames and all attrs dictionaries. *)
Record world := World { frames : state; dicts : list attrs }.
Definition dict_at (w : world) (l : nat) : attrs := nth l (dicts w) [].
Definition alloc (w : world) (a : attrs) : world * nat :=
  (World (frames w) (dicts w ++ [a]), List.length (dicts w)).
Definition write (w : world) (l : nat) (f : attrs -> attrs) : world :=
  World (frames w) (upd (dicts w) l f).
Inductive arrlike := Plain (a : nd R) | Lab (d : darr).
(** The timestamps argument: None, False, the name of a coordinate, or an array. *)
Inductive tsarg := TNone | TFalse | TName (n : string) | TArr (a : nd R).

(** list.index: ValueError if missing. *)
Fixpoint index_of (n : string) (l : list string) : res nat :=
  match l with
  | [] => Raise ValueError
  | m :: l => if String.eqb n m then Ok O else (i <- index_of n l ;; Ok (S i))
  end.
(** tuple indexing with a possibly negative index. *)
Definition tuple_at (l : list string) (a : Z) : res string :=
  k <- norm_axis a (List.length l) ;; Ok (nth k l "").
(** The values of a coordinate used as timestamps.  Simplification: names are refused
    here (in the code astype(float) refuses them, later). *)
Definition stamps_of (c : coord) : res (nd R) :=
  match co_vals c with CNum a => Ok a | CStr _ => Raise ValueError end.
Definition arange (n : nat) : nd R := Nd [n] (fun ix => INR (hd O ix)).

Record unpacked := Un { u_arr : nd R; u_axis : Z; u_time_axis : option Z; u_time_dim : option string;
  u_ts : option (nd R); u_lab : option (list (string * coord) * list string * option string * nat) }.

(** core.py:440-443.  [axis % 0] is a ZeroDivisionError. *)
Definition same_axis_check (u : unpacked) : res unpacked :=
  match u_ts u with
  | None => Ok u
  | Some _ =>
      match u_time_axis u with
      | None => Raise TypeError (* None % ndim; not reached *)
      | Some ta =>
          if Nat.eqb (ndim (u_arr u)) 0 then Raise ZeroDivisionError
          else if Z.eqb (u_axis u mod Z.of_nat (ndim (u_arr u))) (ta mod Z.of_nat (ndim (u_arr u)))
               then Raise ValueError else Ok u
      end
  end.

(** core.py:387-456 [_maybe_unpack_dataarray].  For a plain array any timestamps
    argument is passed on; False or a string is a 0-d array to the code that follows.
    attrs is copied (437). *)
Definition maybe_unpack (w : world) (x : arrlike) (dim : option string) (axis time_axis : option Z)
    (ts : tsarg) : world * res unpacked :=
  match x with
  | Plain a =>
      (w, match dim with
          | Some _ => Raise ValueError
          | None =>
              same_axis_check (Un a (or_default axis (-1)) (Some (or_default time_axis 0)) None
                (match ts with TNone => None | TArr t => Some t | _ => Some (Nd [] (fun _ => 0%R)) end) None)
          end)
  | Lab d =>
      let '(w', l) := alloc w (dict_at w (da_attrs d)) in
      let lab := Some (da_coords d, da_dims d, da_name d, l) in
      (w',
       ax <- match dim, axis with
             | Some _, Some _ => Raise ValueError
             | Some n, None => i <- index_of n (da_dims d) ;; Ok (Z.of_nat i)
             | None, _ => let a := or_default axis (-1) in do_ tuple_at (da_dims d) a ;; Ok a
             end ;;
       u <- match ts with
            | TName n =>
                i <- index_of n (da_dims d) ;;
                t <- match lookup n (da_coords d) with
                     | Some c => stamps_of c
                     | None => Ok (arange (nth i (shp (da_data d)) O))
                     end ;;
                Ok (Un (da_data d) ax (Some (Z.of_nat i)) (Some n) (Some t) lab)
            | TNone =>
                if Nat.ltb 1 (ndim (da_data d)) then
                  let ta := or_default time_axis 0 in
                  n <- tuple_at (da_dims d) ta ;;
                  c <- match lookup n (da_coords d) with Some c => Ok c | None => Raise KeyError end ;;
                  t <- stamps_of c ;;
                  Ok (Un (da_data d) ax (Some ta) (Some n) (Some t) lab)
                else Ok (Un (da_data d) ax time_axis None None lab)
            | TFalse => Ok (Un (da_data d) ax time_axis None None lab)
            | TArr _ => Raise NotImplementedError
            end ;;
       same_axis_check u)
  end.

(** xarray.DataArray(arr, coords, dims, name, attrs): one dim per axis, distinct
    (simplification: duplicates are refused); every coordinate lies on dims of the
    array and has their sizes; attrs is copied. *)
Definition cshape (c : cvals) (ds : list string) : list nat :=
  match c with CNum a => shp a | CStr l => match ds with [] => [] | _ => [List.length l] end end.
Fixpoint distinct (l : list string) : bool :=
  match l with [] => true | n :: l => negb (existsb (String.eqb n) l) && distinct l end.
Definition coord_fits (a : nd R) (dims : list string) (c : coord) : bool :=
  Nat.eqb (List.length (cshape (co_vals c) (co_dims c))) (List.length (co_dims c)) &&
  forallb (fun nd => match index_of (fst nd) dims with Ok k => Nat.eqb (nth k (shp a) O) (snd nd) | Raise _ => false end)
    (combine (co_dims c) (cshape (co_vals c) (co_dims c))).
Definition make_xr (w : world) (a : nd R) (coords : list (string * coord)) (dims : list string)
    (name : option string) (l : nat) : world * res darr :=
  if Nat.eqb (List.length dims) (ndim a) && distinct dims && forallb (fun c => coord_fits a dims (snd c)) coords
  then let '(w', l') := alloc w (dict_at w l) in (w', Ok (DA a dims coords name l'))
  else (w, Raise ValueError).

(* ---- coordinates along the time dimension, core.py:478-488 ---- *)
(** DataArray.interp along axis k, linear; NaN out of range. *)
Definition interp_coord (ts : list R) (a : nd R) (k : nat) (l : list R) : res (nd R) :=
  match interp_nd ts (swap_nd 0 k a) l with
  | Ok b => Ok (swap_nd 0 k b)
  | Raise _ => Raise NaNValue
  end.
(** DataArray.sel(method="nearest") of a one-dimensional coordinate (first of equals). *)
Fixpoint nearest_at (x : R) (best : R) (v : string) (ts : list R) (vs : list string) : string :=
  match ts, vs with
  | t :: ts, u :: vs => if Rlt_b (Rabs (t - x)) best then nearest_at x (Rabs (t - x)) u ts vs else nearest_at x best v ts vs
  | _, _ => v
  end.
Definition sel_nearest (ts : list R) (vs : list string) (l : list R) : res (list string) :=
  match ts, vs with
  | t :: ts', v :: vs' => Ok (map (fun x => nearest_at x (Rabs (t - x)) v ts' vs') l)
  | _, _ => Raise KeyError
  end.
Definition list_of (a : nd R) : list R := map (fun i => dat a [i]) (seq 0 (hd O (shp a))).
Definition of_list (l : list R) : nd R := Nd [List.length l] (fun ix => nth (hd O ix) l 0%R).
Definition resample_coord (time_dim : string) (ts l : list R) (nc : string * coord) : res (string * coord) :=
  let '(n, c) := nc in
  if existsb (String.eqb time_dim) (co_dims c) && negb (String.eqb n time_dim) then
    k <- index_of time_dim (co_dims c) ;;
    match co_vals c with
    | CNum a => b <- interp_coord ts a k l ;; Ok (n, Co (co_dims c) (CNum b))
    | CStr vs => v <- sel_nearest ts vs l ;; Ok (n, Co (co_dims c) (CStr v))
    end
  else Ok (n, c).
Fixpoint same_list (a b : list R) : bool :=
  match a, b with
  | [], [] => true
  | x :: a, y :: b => Req_b x y && same_list a b
  | _, _ => false
  end.

(** core.py:459-496 [_make_dataarray]. *)
Definition make_dataarray (w : world) (a : nd R) (coords : list (string * coord)) (dims : list string)
    (name : option string) (l : nat) (time_dim : option string) (ts_out : option (list R)) : world * res darr :=
  match time_dim with
  | None =>
      match ts_out with
      | None => make_xr w a coords dims name l
      | Some t => make_xr w a (dict_set "time" (Co ["time"] (CNum (of_list t))) coords) ("time" :: dims) name l
      end
  | Some td =>
      match lookup td coords with
      | None => (w, Raise ValueError)
      | Some c =>
          match ts_out, stamps_of c with
          | None, _ => (w, Raise AssertionError)
          | Some _, Raise e => (w, Raise e)
          | Some t, Ok old =>
              if same_list (list_of old) t then make_xr w a coords dims name l
              else match traverse (resample_coord td (list_of old) t) coords with
                   | Raise e => (w, Raise e)
                   | Ok coords' => make_xr w a (dict_set td (Co [td] (CNum (of_list t))) coords') dims name l
                   end
          end
      end
  end.

(* ------------------------------------------------------------------ transforms between frames *)
Inductive method := Vectors | Points | Quaternions.
(** What _transform returns. *)
Inductive result := RPlain (a : nd R) (ts : option (list R)) | RLab (d : darr).
Definition as_pref (v : option string) : pref := match v with Some n => PName n | None => POther end.
Definition opt_name_eqb (a b : option string) : bool :=
  match a, b with None, None => true | Some x, Some y => String.eqb x y | _, _ => false end.

Section WithSquad.
  Variable squad : list R -> list quat -> R -> res quat.
  Definition call_method (m : method) (s : state) (i : nat) (a : nd R) (into : nat) (axis : Z) (time_axis : option Z) (ts : option (nd R)) :=
    match m with
    | Vectors => transform_vectors squad s i a (PFrame into) axis time_axis ts
    | Points => transform_points squad s i a (PFrame into) axis time_axis ts
    | Quaternions => transform_quaternions squad s i a (PFrame into) axis time_axis ts
    end.
  Definition what_of (m : method) : string := match m with Vectors => "representation_frame" | _ => "reference_frame" end.
  (** core.py:499-595 [_transform] for the three methods without [what] (the warning of
      560-567 is not modelled), with return_timestamps=True; __init__.py:171, 245, 319. *)
  Definition transform (m : method) (w : world) (x : arrlike) (into : pref) (outof : option pref) (dim : option string)
      (axis : option Z) (ts : tsarg) (time_axis : option Z) : world * res result :=
    let '(w1, ru) := maybe_unpack w x dim axis time_axis ts in
    match ru with
    | Raise e => (w1, Raise e)
    | Ok u =>
        let s := frames w1 in
        match (o <- match outof with
                    | Some o => resolve_rf s o
                    | None =>
                        match u_lab u with
                        | None => Raise ValueError
                        | Some (_, _, _, l) =>
                            match lookup (what_of m) (dict_at w1 l) with
                            | Some v => resolve_rf s (as_pref v)
                            | None => Raise ValueError
                            end
                        end
                    end ;;
               j <- resolve_rf s into ;; Ok (o, j)) with
        | Raise e => (w1, Raise e)
        | Ok (o, j) =>
            let w2 := match u_lab u with
                      | None => w1
                      | Some (_, _, _, l) =>
                          write w1 l (fun a => dict_set "representation_frame" (name_of s j) (dict_set (what_of m) (name_of s j) a))
                      end in
            match call_method m s o (u_arr u) j (u_axis u) (u_time_axis u) (u_ts u) with
            | Raise e => (w2, Raise e)
            | Ok (a, t) =>
                match u_lab u with
                | None => (w2, Ok (RPlain a t))
                | Some (coords, dims, name, l) =>
                    let '(w3, r) := make_dataarray w2 a coords dims name l (u_time_dim u) t in
                    (w3, d <- r ;; Ok (RLab d))
                end
            end
        end
    end.

  (* ------------------------------------------------------------------ datasets *)
  (** core.py:598-654 [_make_transform_or_pose_dataset]: the two DataArrays of the
      dataset.  The coordinate and attribute values are literal. *)
  Definition axis_labels (n : string) (l : list string) : string * coord := (n, Co [n] (CStr l)).
  Definition cart_coord := axis_labels "cartesian_axis" ["x"; "y"; "z"].
  Definition quat_coord := axis_labels "quaternion_axis" ["w"; "x"; "y"; "z"].
  Definition ds_attrs (frame : option string) (motion label : string) : attrs :=
    [("representation_frame", frame); ("reference_frame", frame); ("motion_type", Some motion); ("long_name", Some label)].
  Definition make_dataset (w : world) (tr : transf) (frame : option string) (pose : bool) : world * res (darr * darr) :=
    let lin := if pose then "position" else "translation" in
    let ang := if pose then "orientation" else "rotation" in
    let '(w1, l1) := alloc w (ds_attrs frame lin (if pose then "Position" else "Translation") ++ [("units", Some "m")])%list in
    let '(w2, l2) := alloc w1 (ds_attrs frame ang (if pose then "Orientation" else "Rotation")) in
    let r := as_float (tr_r tr) in
    match tr_ts tr with
    | None => (w2, Ok (DA (tr_t tr) ["cartesian_axis"] [cart_coord] (Some lin) l1,
                       DA r ["quaternion_axis"] [quat_coord] (Some ang) l2))
    | Some ts =>
        let tc := ("time", Co ["time"] (CNum (of_list ts))) in
        (w2, Ok (DA (tr_t tr) ["time"; "cartesian_axis"] [tc; cart_coord] (Some lin) l1,
                 DA r ["time"; "quaternion_axis"] [tc; quat_coord] (Some ang) l2))
    end.
  (** __init__.py:653-701 [lookup_transform] with as_dataset=True: labelled with the
      frame [outof]. *)
  Definition lookup_transform_ds (w : world) (outof into : pref) : world * res (darr * darr) :=
    match (j <- resolve_rf (frames w) into ;; i <- resolve_rf (frames w) outof ;;
           tr <- lookup_transform squad (frames w) i (PFrame j) ;; Ok (i, tr)) with
    | Raise e => (w, Raise e)
    | Ok (i, tr) => make_dataset w tr (name_of (frames w) i) false
    end.
  (** __init__.py:704-746 [lookup_pose] with as_dataset=True. *)
  Definition lookup_pose_ds (w : world) (frame reference : pref) : world * res (darr * darr) :=
    match (j <- resolve_rf (frames w) reference ;; i <- resolve_rf (frames w) frame ;;
           tr <- lookup_transform squad (frames w) i (PFrame j) ;; Ok (j, tr)) with
    | Raise e => (w, Raise e)
    | Ok (j, tr) => make_dataset w tr (name_of (frames w) j) true
    end.
End WithSquad.

(* ------------------------------------------------------------------ coordinate systems *)
(** core.py:356-384 [_replace_dim].  An unknown combination leaves new_dim unbound. *)
Definition new_axis (into : string) (n : nat) : res (string * list string) :=
  if Nat.eqb n 2 then
    if String.eqb into "cartesian" then Ok ("cartesian_axis", ["x"; "y"])
    else if String.eqb into "polar" then Ok ("polar_axis", ["r"; "phi"]) else Raise UnboundLocalError
  else if Nat.eqb n 3 then
    if String.eqb into "cartesian" then Ok ("cartesian_axis", ["x"; "y"; "z"])
    else if String.eqb into "spherical" then Ok ("spherical_axis", ["r"; "theta"; "phi"])
    else if String.eqb into "quaternion" then Ok ("quaternion_axis", ["w"; "x"; "y"; "z"]) else Raise UnboundLocalError
  else Raise UnboundLocalError.
Definition replace_dim (coords : list (string * coord)) (dims : list string) (axis : Z) (into : string) (n : nat)
    : res (list (string * coord) * list string) :=
  old <- tuple_at dims axis ;;
  '(new, labels) <- new_axis into n ;;
  let dims' := map (fun d => if String.eqb d old then new else d) dims in
  let coords' := filter (fun c => negb (existsb (String.eqb old) (co_dims (snd c)))) coords in
  Ok (dict_set new (Co [new] (CStr labels)) coords', dims').
(** __init__.py:97-104 [_cs_funcs]. *)
Definition cs_func (outof into : string) : res (nd R -> Z -> res (nd R)) :=
  if String.eqb outof "cartesian" then
    if String.eqb into "polar" then Ok cartesian_to_polar
    else if String.eqb into "spherical" then Ok cartesian_to_spherical else Raise ValueError
  else if String.eqb outof "polar" then if String.eqb into "cartesian" then Ok polar_to_cartesian else Raise ValueError
  else if String.eqb outof "spherical" then if String.eqb into "cartesian" then Ok spherical_to_cartesian else Raise ValueError
  else Raise ValueError.
(** __init__.py:572-650 [transform_coordinates].  A "coordinate_system" attribute that
    is None is not in the table either. *)
Definition transform_coordinates (w : world) (x : arrlike) (into : string) (outof : option string) (dim : option string)
    (axis : option Z) (replace : bool) : world * res result :=
  let '(w1, ru) := maybe_unpack w x dim axis None TFalse in
  match ru with
  | Raise e => (w1, Raise e)
  | Ok u =>
      let own := match u_lab u with Some (_, _, _, l) => lookup "coordinate_system" (dict_at w1 l) | None => None end in
      match (o <- match outof with
                  | Some o => Ok o
                  | None => match own with Some (Some o) => Ok o | _ => Raise ValueError end
                  end ;; cs_func o into) with
      | Raise e => (w1, Raise e)
      | Ok f =>
          let w2 := match u_lab u, own with
                    | Some (_, _, _, l), Some _ => write w1 l (dict_set "coordinate_system" (Some into))
                    | _, _ => w1
                    end in
          match f (u_arr u) (u_axis u) with
          | Raise e => (w2, Raise e)
          | Ok a =>
              match u_lab u with
              | None => (w2, Ok (RPlain a None))
              | Some (coords, dims, name, l) =>
                  match (if replace then (k <- norm_axis (u_axis u) (ndim a) ;; replace_dim coords dims (u_axis u) into (nth k (shp a) O))
                         else Ok (coords, dims)) with
                  | Raise e => (w2, Raise e)
                  | Ok (coords', dims') =>
                      let '(w3, r) := make_dataarray w2 a coords' dims' name l None None in
                      (w3, d <- r ;; Ok (RLab d))
                  end
              end
          end
      end
  end.
