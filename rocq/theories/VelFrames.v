(** Model of the velocity lookups and transforms of ReferenceFrame
    (reference_frames.py:303-310, 778-1300); cutoff=None, outlier_thresh=None,
    mode="quaternion". *)
From Coq Require Import Reals List Arith Bool ZArith String.
From Verif Require Import Base Quat NdArray Frames Matcher Transform Velocity.
Import ListNotations.
Open Scope R_scope.

(** reference_frames.py:1105-1109, 1201-1205, 1275-1279: _resolve_rf(reference or
    self.parent); None and "" are falsy, so is the parent of a root (None); a
    TypeError becomes a ValueError.  [POther] stands for truthy objects. *)
Definition resolve_ref (s : state) (i : nat) (o : option pref) : res nat :=
  let p := match o with
           | None => option_map PFrame (parent_of s i)
           | Some (PName n) => if String.eqb n "" then option_map PFrame (parent_of s i) else Some (PName n)
           | Some p => Some p
           end in
  match p with
  | None => Raise ValueError
  | Some p => match resolve_rf s p with Raise TypeError => Raise ValueError | r => r end
  end.

(** A list of timestamps as a numpy array. *)
Definition stamps_nd (l : list R) : nd R := Nd [List.length l] (fun ix => nth (hd O ix) l 0).
Definition zeros3 : nd R := Nd [3%nat] (fun _ => 0).
(** A returned tuple: the velocity, and the timestamps if the tuple has them. *)
Definition with_ts (ret : bool) (r : nd R * option (list R)) : nd R * option (option (list R)) :=
  (fst r, if ret then Some (snd r) else None).
(** The two-element unpacking at 840, 850, 997, 1005. *)
Definition unpack2 (r : nd R * option (option (list R))) : res (nd R * option (list R)) :=
  match snd r with Some o => Ok (fst r, o) | None => Raise ValueError end.
(** The rows of a transformation as an array of quaternion components; entries
    that are NaN would be None. *)
Definition tr_r_opt (tr : transf) : nd (option R) :=
  let f := as_float (tr_r tr) in Nd (shp f) (fun ix => Some (dat f ix)).
(** An estimate without NaN entries. *)
Definition no_nan (a : nd (option R)) : res (nd R) :=
  if existsb (fun ix => is_nan (dat a ix)) (indices (shp a)) then Raise NaNValue
  else Ok (Nd (shp a) (fun ix => num (dat a ix))).
(** numpy.cross(a, b) along the last axes, both of length 3. *)
Definition np_cross (a b : nd R) : res (nd R) :=
  if negb (Nat.eqb (last (shp a) O) 3) || negb (Nat.eqb (last (shp b) O) 3) then Raise ValueError
  else
    s <- bshape (removelast (shp a)) (removelast (shp b)) ;;
    Ok (Nd (s ++ [3%nat]) (fun ix =>
          let pre := removelast ix in
          comp3 (last ix O) (vcross (vec_at a (bix (removelast (shp a)) pre)) (vec_at b (bix (removelast (shp b)) pre))))).
(** a += b: the result must have the shape of a. *)
Definition add_inplace (a b : nd R) : res (nd R) :=
  c <- op2 Rplus a b ;; if shape_eqb (shp c) (shp a) then Ok c else Raise ValueError.

Section Lookups.
  Variable squad : list R -> list quat -> R -> res quat.
  Variable deriv : list R -> list R -> res (list R).

  (** reference_frames.py:303-310 [_match_arrays] (core.py:286-315 [get_arrays]). *)
  Definition match_arrays (l : list (nd R * option (list R))) : res (list (nd R) * option (list R)) :=
    ms <- traverse (fun p => add_array (fst p) (snd p)) l ;;
    o <- get_timestamps (Mat [] ms) true ;;
    bs <- traverse (fun a => resample_array squad a o) ms ;;
    Ok (bs, o).

  (** reference_frames.py:1148-1226 [lookup_linear_velocity].  The static case
      returns two values whatever return_timestamps says (1211). *)
  Definition lookup_linear_velocity (s : state) (i : nat) (reference represent_in : option pref)
      (allow_static ret : bool) : res (nd R * option (option (list R))) :=
    j <- resolve_ref s i reference ;;
    k <- resolve_ref s i represent_in ;;
    tr <- lookup_transform squad s i (PFrame j) ;;
    match tr_ts tr with
    | None => if allow_static then Ok (zeros3, Some None) else Raise ValueError
    | Some ts =>
        lin <- gradient_nd (tr_t tr) ts 0 ;;
        r <- transform_vectors squad s j lin (PFrame k) (-1) (Some 0%Z) (Some (stamps_nd ts)) ;;
        Ok (with_ts ret r)
    end.

  (** reference_frames.py:1228-1318 [lookup_angular_velocity]. *)
  Definition lookup_angular_velocity (s : state) (i : nat) (reference represent_in : option pref)
      (allow_static ret : bool) : res (nd R * option (option (list R))) :=
    j <- resolve_ref s i reference ;;
    k <- resolve_ref s i represent_in ;;
    tr <- lookup_transform squad s i (PFrame j) ;;
    match tr_ts tr with
    | None => if allow_static then Ok (zeros3, Some None) else Raise ValueError
    | Some ts =>
        est <- estimate_angular deriv (tr_r_opt tr) ts (-1) 0 ;;
        ang <- no_nan est ;;
        r <- transform_vectors squad s i ang (PFrame k) (-1) (Some 0%Z) (Some (stamps_nd ts)) ;;
        Ok (with_ts ret r)
    end.

  (** reference_frames.py:1048-1146 [lookup_twist]; returns (linear, angular, ts). *)
  Definition lookup_twist (s : state) (i : nat) (reference represent_in : option pref)
      (allow_static ret : bool) : res (nd R * nd R * option (option (list R))) :=
    j <- resolve_ref s i reference ;;
    k <- resolve_ref s i represent_in ;;
    tr <- lookup_transform squad s i (PFrame j) ;;
    match tr_ts tr with
    | None => if allow_static then Ok (zeros3, zeros3, Some None) else Raise ValueError
    | Some ts =>
        lin <- gradient_nd (tr_t tr) ts 0 ;;
        est <- estimate_angular deriv (tr_r_opt tr) ts (-1) 0 ;;
        ang <- no_nan est ;;
        rl <- transform_vectors squad s j lin (PFrame k) (-1) (Some 0%Z) (Some (stamps_nd ts)) ;;
        ra <- transform_vectors squad s i ang (PFrame k) (-1) (Some 0%Z) (Some (stamps_nd ts)) ;;
        '(bs, o) <- match_arrays [ra; rl] ;;
        match bs with
        | [a; l] => Ok (l, a, if ret then Some o else None)
        | _ => Raise ValueError (* not reached *)
        end
    end.

  (** The argument "what". *)
  Inductive what := WReference | WMoving | WRepresentation | WOther.

  (** reference_frames.py:778-891 [transform_angular_velocity]; always returns the
      timestamps here (the flag only drops them). *)
  Definition transform_angular_velocity (s : state) (i : nat) (arr : nd R) (to : pref) (w : what)
      (axis : Z) (time_axis : option Z) (ts : option (nd R)) : res (nd R * option (list R)) :=
    let finish r :=
      '(ang, ang_ts) <- unpack2 r ;;
      '(a, o) <- transform_vectors squad s i arr to axis time_axis ts ;;
      '(bs, o') <- match_arrays [(a, o); (ang, ang_ts)] ;;
      match bs with
      | [a; g] => out <- add_inplace a g ;; Ok (out, o')
      | _ => Raise ValueError (* not reached *)
      end in
    match w with
    | WReference => r <- lookup_angular_velocity s i (Some to) (Some to) true true ;; finish r
    | WMoving =>
        j <- resolve_rf s to ;;
        r <- lookup_angular_velocity s j (Some (PFrame i)) (Some to) true true ;; finish r
    | WRepresentation => transform_vectors squad s i arr to axis time_axis ts
    | WOther => Raise ValueError
    end.

  (** reference_frames.py:893-1046 [transform_linear_velocity].  In the moving_frame
      case to_frame is replaced by the resolved frame (994).  The timestamps
      translation_ts given with the (N,3) or (3,) translation. *)
  Definition transform_linear_velocity (s : state) (i : nat) (arr : nd R) (to : pref) (w : what)
      (moving_frame reference_frame : option pref)
      (axis : Z) (time_axis : option Z) (ts : option (nd R)) : res (nd R * option (list R)) :=
    let finish (to : pref) (lin ang : nd R) (lin_ts ang_ts : option (list R)) (tr : transf) :=
      '(a, o) <- transform_vectors squad s i arr to axis time_axis ts ;;
      '(t, t_ts) <- transform_vectors squad s i (tr_t tr) to (-1) (Some 0%Z) (option_map stamps_nd (tr_ts tr)) ;;
      '(bs, o') <- match_arrays [(a, o); (lin, lin_ts); (ang, ang_ts); (t, t_ts)] ;;
      match bs with
      | [a; l; g; t] =>
          al <- op2 Rplus a l ;; c <- np_cross g t ;; out <- op2 Rplus al c ;; Ok (out, o')
      | _ => Raise ValueError (* not reached *)
      end in
    match w with
    | WReference =>
        '(lin, ang, o) <- lookup_twist s i (Some to) (Some to) true true ;;
        tts <- match o with Some tts => Ok tts | None => Raise ValueError end ;;
        mf <- match moving_frame with Some p => resolve_rf s p | None => Raise TypeError end ;;
        tr <- lookup_transform squad s mf (PFrame i) ;;
        finish to lin ang tts tts tr
    | WMoving =>
        j <- resolve_rf s to ;;
        rl <- lookup_linear_velocity s j (Some (PFrame i)) (Some (PFrame j)) true true ;;
        '(lin, lin_ts) <- unpack2 rl ;;
        ra <- lookup_angular_velocity s i reference_frame (Some (PFrame j)) true true ;;
        '(ang, ang_ts) <- unpack2 ra ;;
        tr <- lookup_transform squad s j (PFrame i) ;;
        finish (PFrame j) lin ang lin_ts ang_ts tr
    | WRepresentation => transform_vectors squad s i arr to axis time_axis ts
    | WOther => Raise ValueError
    end.
End Lookups.
