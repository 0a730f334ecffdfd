(** Model of the top-level velocity functions and their DataArrays: core.py:499-595
    (_transform with [what]), 657-735 (_make_twist_dataset, _make_velocity_dataarray);
    __init__.py:332-570 (transform_angular_velocity, transform_linear_velocity),
    748-994 (lookup_twist, lookup_linear_velocity, lookup_angular_velocity);
    cutoff=None, outlier_thresh=None, mode="quaternion". *)
From Coq Require Import Reals List String Arith Bool ZArith.
From Verif Require Import Base Quat NdArray Frames Matcher Transform Coord Velocity VelFrames TopLevel.
Import ListNotations.
Local Open Scope string_scope.

(** __init__.py:812-813, 899-900, 970-971: _resolve_rf(reference or frame.parent).
    None and "" are falsy; the parent of a root is None, a TypeError (not caught here,
    unlike in the method). *)
Definition truthy (o : option pref) : option pref :=
  match o with Some (PName n) => if String.eqb n "" then None else o | _ => o end.
Definition top_ref (s : state) (i : nat) (o : option pref) : res nat :=
  match truthy o with
  | Some p => resolve_rf s p
  | None => match parent_of s i with Some k => resolve_rf s (PFrame k) | None => Raise TypeError end
  end.
(** _resolve_rf(represent_in or reference). *)
Definition top_rep (s : state) (j : nat) (o : option pref) : res nat :=
  match truthy o with Some p => resolve_rf s p | None => resolve_rf s (PFrame j) end.

(** core.py:669-689, 712-731.  The labels of a velocity array. *)
Definition vel_attrs (ang : bool) (rep ref mov : option string) : attrs :=
  [("representation_frame", rep); ("reference_frame", ref); ("moving_frame", mov);
   ("motion_type", Some (if ang then "angular_velocity" else "linear_velocity"));
   ("long_name", Some (if ang then "Angular velocity" else "Linear velocity"));
   ("units", Some (if ang then "rad/s" else "m/s"))].
(** core.py:692-735 [_make_velocity_dataarray].  timestamps=None (a 0-d "time"
    coordinate, refused by xarray) is not reached. *)
Definition make_velocity (w : world) (v : nd R) (ang : bool) (s : state) (i j k : nat) (ts : option (list R))
    : world * res darr :=
  let '(w1, l) := alloc w (vel_attrs ang (name_of s k) (name_of s j) (name_of s i)) in
  match ts with
  | None => (w1, Raise ValueError)
  | Some t =>
      make_xr w1 v [("time", Co ["time"] (CNum (of_list t))); cart_coord] ["time"; "cartesian_axis"]
        (Some (if ang then "angular_velocity" else "linear_velocity")) l
  end.
(** core.py:657-689 [_make_twist_dataset]: the two variables of the dataset
    (angular, linear), which share the two coordinates. *)
Definition make_twist (w : world) (a l : nd R) (s : state) (i j k : nat) (ts : option (list R))
    : world * res (darr * darr) :=
  let '(w1, ra) := make_velocity w a true s i j k ts in
  let '(w2, rl) := make_velocity w1 l false s i j k ts in
  (w2, da <- ra ;; dl <- rl ;; Ok (da, dl)).

Section WithOracles.
  Variable squad : list R -> list quat -> R -> res quat.
  Variable deriv : list R -> list R -> res (list R).

  (** The three resolutions at the head of every lookup. *)
  Definition resolve3 (s : state) (frame : pref) (reference represent_in : option pref) : res (nat * nat * nat) :=
    i <- resolve_rf s frame ;; j <- top_ref s i reference ;; k <- top_rep s j represent_in ;; Ok (i, j, k).
  (** __init__.py:839-910 [lookup_linear_velocity], 913-994 [lookup_angular_velocity],
      with as_dataarray=True. *)
  Definition lookup_velocity_da (ang : bool) (w : world) (frame : pref) (reference represent_in : option pref)
      : world * res darr :=
    let s := frames w in
    match ('(i, j, k) <- resolve3 s frame reference represent_in ;;
           r <- (if ang then lookup_angular_velocity squad deriv s i (Some (PFrame j)) (Some (PFrame k)) false true
                 else lookup_linear_velocity squad s i (Some (PFrame j)) (Some (PFrame k)) false true) ;;
           '(v, ts) <- unpack2 r ;; Ok (i, j, k, v, ts)) with
    | Raise e => (w, Raise e)
    | Ok (i, j, k, v, ts) => make_velocity w v ang s i j k ts
    end.
  (** __init__.py:748-836 [lookup_twist] with as_dataset=True. *)
  Definition lookup_twist_ds (w : world) (frame : pref) (reference represent_in : option pref)
      : world * res (darr * darr) :=
    let s := frames w in
    match ('(i, j, k) <- resolve3 s frame reference represent_in ;;
           '(l, a, o) <- lookup_twist squad deriv s i (Some (PFrame j)) (Some (PFrame k)) false true ;;
           ts <- match o with Some ts => Ok ts | None => Raise ValueError end ;;
           Ok (i, j, k, a, l, ts)) with
    | Raise e => (w, Raise e)
    | Ok (i, j, k, a, l, ts) => make_twist w a l s i j k ts
    end.

  (** The two velocity methods; the linear one has two more arguments. *)
  Inductive vmethod := MAngular | MLinear (moving_frame reference_frame : option pref).
  Definition what_arg (n : string) : what :=
    if String.eqb n "reference_frame" then WReference else if String.eqb n "moving_frame" then WMoving
    else if String.eqb n "representation_frame" then WRepresentation else WOther.
  Definition call_velocity (m : vmethod) (s : state) (i : nat) (a : nd R) (into : nat) (wh : string) (axis : Z)
      (time_axis : option Z) (ts : option (nd R)) : res (nd R * option (list R)) :=
    match m with
    | MAngular => transform_angular_velocity squad deriv s i a (PFrame into) (what_arg wh) axis time_axis ts
    | MLinear mf rf => transform_linear_velocity squad deriv s i a (PFrame into) (what_arg wh) mf rf axis time_axis ts
    end.
  (** core.py:499-595 [_transform] for these methods (the warning of 560-567 is not
      modelled), with return_timestamps=True. *)
  Definition transform_velocity (m : vmethod) (w : world) (x : arrlike) (into : pref) (outof : option pref)
      (wh : option string) (dim : option string) (axis : option Z) (ts : tsarg) (time_axis : option Z) : world * res result :=
    let '(w1, ru) := maybe_unpack w x dim axis time_axis ts in
    match ru with
    | Raise e => (w1, Raise e)
    | Ok u =>
        let s := frames w1 in
        let wh := match wh with Some n => n | None => "reference_frame" end in
        match (o <- match outof with
                    | Some o => resolve_rf s o
                    | None =>
                        match u_lab u with
                        | None => Raise ValueError
                        | Some (_, _, _, l) =>
                            match lookup wh (dict_at w1 l) with
                            | Some v => resolve_rf s (as_pref v)
                            | None => Raise ValueError
                            end
                        end
                    end ;;
               j <- resolve_rf s into ;; Ok (o, j)) with
        | Raise e => (w1, Raise e)
        | Ok (o, j) =>
            let w2 := match u_lab u with
                      | None => w1
                      | Some (_, _, _, l) =>
                          write w1 l (fun a => dict_set "representation_frame" (name_of s j) (dict_set wh (name_of s j) a))
                      end in
            match call_velocity m s o (u_arr u) j wh (u_axis u) (u_time_axis u) (u_ts u) with
            | Raise e => (w2, Raise e)
            | Ok (a, t) =>
                match u_lab u with
                | None => (w2, Ok (RPlain a t))
                | Some (coords, dims, name, l) =>
                    let '(w3, r) := make_dataarray w2 a coords dims name l (u_time_dim u) t in
                    (w3, d <- r ;; Ok (RLab d))
                end
            end
        end
    end.
End WithOracles.
