(** Model of the estimators on plain arrays and DataArrays (estimators.py): the velocity
    estimators (63-233), shortest_arc_rotation (236-282), _reshape_vectors (17-41),
    _make_transform_dataarrays (44-60), best_fit_rotation (285-341), best_fit_transform
    (343-409), iterative_closest_point (422-524). *)
From Coq Require Import Reals List String Arith Bool ZArith.
From Verif Require Import Base Quat NdArray Frames Matcher Transform Coord Velocity VelFrames Utils Estim TopLevel.
Import ListNotations.
Local Open Scope string_scope.

(** The tail of the functions: _make_dataarray for labelled input (core.py:459-496). *)
Definition wrap (w : world) (u : unpacked) (a : nd R) (coords : list (string * coord)) (dims : list string)
    (name : option string) (l : nat) (time_dim : option string) (ts : option (nd R)) : world * res result :=
  let '(w', r) := make_dataarray w a coords dims name l time_dim (option_map list_of ts) in
  (w', d <- r ;; Ok (RLab d)).

(** estimators.py:63-145 [estimate_linear_velocity], without outlier_thresh and cutoff.
    Without timestamps, [timestamps.dtype] (core.py:808) fails on None; the timestamps of a
    plain array given as False or as a name have no dtype either.  Simplification: plain
    timestamps that are not one-dimensional are refused (a 0-d array would be a constant
    step to numpy.gradient). *)
Definition timestamps_ok (x : arrlike) (ts : tsarg) (t : option (nd R)) : res (nd R) :=
  match x, ts, t with
  | _, _, None => Raise AttributeError
  | Plain _, TFalse, _ | Plain _, TName _, _ => Raise AttributeError
  | _, _, Some t => match shp t with [_] => Ok t | _ => Raise ValueError end
  end.
Definition estimate_linear_top (w : world) (x : arrlike) (dim : option string) (axis : option Z) (ts : tsarg) (time_axis : option Z)
    : world * res result :=
  let '(w1, ru) := maybe_unpack w x dim axis time_axis ts in
  match ru with
  | Raise e => (w1, Raise e)
  | Ok u =>
      match (t <- timestamps_ok x ts (u_ts u) ;;
             ta <- match u_time_axis u with Some ta => Ok ta | None => Raise TypeError end ;; (* not reached *)
             tau <- norm_axis ta (ndim (u_arr u)) ;;
             a <- gradient_nd (u_arr u) (list_of t) tau ;; Ok (t, a)) with
      | Raise e => (w1, Raise e)
      | Ok (t, a) =>
          match u_lab u with
          | None => (w1, Ok (RPlain a None))
          | Some (coords, dims, name, l) => wrap w1 u a coords dims name l (u_time_dim u) (Some t)
          end
      end
  end.

Section Deriv.
  Variable deriv : list R -> list R -> res (list R).
  (** estimators.py:148-233 [estimate_angular_velocity], mode="quaternion", without
      outlier_thresh and cutoff.  The data has no NaN entries (the model's arrays are real). *)
  Definition estimate_angular_top (w : world) (x : arrlike) (dim : option string) (axis : option Z) (ts : tsarg) (time_axis : option Z)
      : world * res result :=
    let '(w1, ru) := maybe_unpack w x dim axis time_axis ts in
    match ru with
    | Raise e => (w1, Raise e)
    | Ok u =>
        match (t <- timestamps_ok x ts (u_ts u) ;;
               ta <- match u_time_axis u with Some ta => Ok ta | None => Raise TypeError end ;; (* not reached *)
               est <- estimate_angular deriv (Nd (shp (u_arr u)) (fun ix => Some (dat (u_arr u) ix))) (list_of t) (u_axis u) ta ;;
               a <- no_nan est ;; Ok (t, a)) with
        | Raise e => (w1, Raise e)
        | Ok (t, a) =>
            match u_lab u with
            | None => (w1, Ok (RPlain a None))
            | Some (coords, dims, name, l) =>
                match replace_dim coords dims (u_axis u) "cartesian" 3 with
                | Raise e => (w1, Raise e)
                | Ok (coords', dims') => wrap w1 u a coords' dims' name l (u_time_dim u) (Some t)
                end
            end
        end
    end.
End Deriv.

(** shortest_arc_rotation and _reshape_vectors do not use the timestamps, only the name of
    the dimension and the presence of its coordinate matter (core.py:417-421): labels that
    are strings may stand for any numbers. *)
Definition numbered (x : arrlike) : arrlike :=
  match x with
  | Plain a => Plain a
  | Lab d =>
      Lab (DA (da_data d) (da_dims d)
        (map (fun c => (fst c, match co_vals (snd c) with
                               | CStr l => Co (co_dims (snd c)) (CNum (Nd [List.length l] (fun _ => 0%R)))
                               | CNum _ => snd c
                               end)) (da_coords d)) (da_name d) (da_attrs d))
  end.
Definition coords_of (x : arrlike) : list (string * coord) := match x with Plain _ => [] | Lab d => da_coords d end.
(** The data of an argument, numpy.asarray. *)
Definition data_of (x : arrlike) : nd R := match x with Plain a => a | Lab d => da_data d end.
(** estimators.py:236-282 [shortest_arc_rotation].  The timestamps default to None, so a
    labelled v1 with more than one dimension must have a coordinate along its first
    dimension, which must not be the spatial one.  v2 is only converted to an array. *)
Definition shortest_arc_top (w : world) (v1 v2 : arrlike) (dim : option string) (axis : option Z) : world * res result :=
  let '(w1, ru) := maybe_unpack w (numbered v1) dim axis None TNone in
  match ru with
  | Raise e => (w1, Raise e)
  | Ok u =>
      match (k <- norm_axis (u_axis u) (ndim (u_arr u)) ;;
             if negb (Nat.eqb (ndim (u_arr u)) (ndim (data_of v2))) then Raise NotImplementedError (* as in Estim.v *)
             else if negb (Nat.eqb (nth k (shp (u_arr u)) O) 3 && Nat.eqb (nth k (shp (data_of v2)) O) 3) then Raise ValueError
             else
               pairs <- op2 pair (vecs_along (u_arr u) k) (vecs_along (data_of v2) k) ;;
               q <- map_res (fun p => arc (fst p) (snd p)) q1 pairs ;;
               Ok (quats_along q k)) with
      | Raise e => (w1, Raise e)
      | Ok a =>
          match u_lab u with
          | None => (w1, Ok (RPlain a None))
          | Some (_, dims, name, l) =>
              match replace_dim (coords_of v1) dims (u_axis u) "quaternion" 3 with
              | Raise e => (w1, Raise e)
              | Ok (coords', dims') => wrap w1 u a coords' dims' name l None None
              end
          end
      end
  end.

(** estimators.py:17-41 [_reshape_vectors].  v1 is unpacked with timestamps=False, v2 with
    the axis of v1 and timestamps=None.  Result: the points and whether v1 was labelled. *)
Definition reshape_top (w : world) (v1 v2 : arrlike) (dim : option string) (axis : option Z) (same : bool)
    : world * res (list vec3 * list vec3 * bool) :=
  let '(w1, ru1) := maybe_unpack w v1 dim axis None TFalse in
  match ru1 with
  | Raise e => (w1, Raise e)
  | Ok u1 =>
      let '(w2, ru2) := maybe_unpack w1 (numbered v2) None (Some (u_axis u1)) None TNone in
      (w2,
       u2 <- ru2 ;;
       let ax := u_axis u1 in let a1 := u_arr u1 in let a2 := u_arr u2 in
       k1 <- norm_axis ax (ndim a1) ;;
       if negb (Nat.eqb (nth k1 (shp a1) O) 3) then (do_ norm_axis ax (ndim a2) ;; Raise ValueError) (* the message reads v2.shape[axis] *)
       else
         k2 <- norm_axis ax (ndim a2) ;;
         if negb (Nat.eqb (nth k2 (shp a2) O) 3) then Raise ValueError
         else if Nat.ltb (ndim a1) 2 then Raise ValueError
         else
           let p1 := points_of a1 k1 in let p2 := points_of a2 k2 in
           if same && negb (Nat.eqb (List.length p1) (List.length p2)) then Raise ValueError
           else Ok (p1, p2, match u_lab u1 with Some _ => true | None => false end))
  end.

(** What the fits return: numbers, or new DataArrays of them (estimators.py:44-60 and
    332-339; no attrs).  [l], [l']: their (empty) attrs dictionaries. *)
Inductive fitted := FPlain (t : option vec3) (r : quat) | FLab (t : option darr) (r : darr).
Definition vec_nd (v : vec3) : nd R := Nd [3%nat] (fun ix => comp3 (nth 0 ix O) v).
Definition quat_nd (q : quat) : nd R := Nd [4%nat] (fun ix => comp4 (nth 0 ix O) q).
Definition make_transform_dataarrays (w : world) (t : option vec3) (r : quat) : world * fitted :=
  let '(w1, td) := match t with
                   | None => (w, None)
                   | Some t => let '(w1, l) := alloc w [] in
                       (w1, Some (DA (vec_nd t) ["cartesian_axis"] [axis_labels "cartesian_axis" ["x"; "y"; "z"]] (Some "translation") l))
                   end in
  let '(w2, l) := alloc w1 [] in
  (w2, FLab td (DA (quat_nd r) ["quaternion_axis"] [axis_labels "quaternion_axis" ["w"; "x"; "y"; "z"]] (Some "rotation") l)).
Definition fit_out (w : world) (lab : bool) (t : option vec3) (r : quat) : world * fitted :=
  if lab then make_transform_dataarrays w t r else (w, FPlain t r).

Section Fit.
  Variable svd : mat3 -> mat3 * vec3 * mat3.
  Variable frm : mat3 -> quat.
  Variable nearest : list vec3 -> vec3 -> nat.
  (** estimators.py:285-341 *)
  Definition best_fit_rotation_top (w : world) (v1 v2 : arrlike) (dim : option string) (axis : option Z) : world * res fitted :=
    let '(w1, r) := reshape_top w v1 v2 dim axis true in
    match r with
    | Raise e => (w1, Raise e)
    | Ok (p1, p2, lab) => let '(w2, f) := fit_out w1 lab None (fit_rotation svd frm p1 p2) in (w2, Ok f)
    end.
  (** estimators.py:343-409 *)
  Definition best_fit_transform_top (w : world) (v1 v2 : arrlike) (dim : option string) (axis : option Z) : world * res fitted :=
    let '(w1, r) := reshape_top w v1 v2 dim axis true in
    match (x <- r ;; let '(p1, p2, lab) := x in tr <- fit_transform svd frm p1 p2 ;; Ok (tr, lab)) with
    | Raise e => (w1, Raise e)
    | Ok (t, r, lab) => let '(w2, f) := fit_out w1 lab (Some t) r in (w2, Ok f)
    end.
  (** estimators.py:422-524 *)
  Definition icp_top (w : world) (v1 v2 : arrlike) (dim : option string) (axis : option Z) (init : option (vec3 * quat))
      (max_iterations : Z) (tol : R) : world * res fitted :=
    let '(w1, r) := reshape_top w v1 v2 dim axis false in
    match (x <- r ;; let '(p1, p2, lab) := x in tr <- icp_points svd frm nearest p1 p2 init max_iterations tol ;; Ok (tr, lab)) with
    | Raise e => (w1, Raise e)
    | Ok (t, r, lab) => let '(w2, f) := fit_out w1 lab (Some t) r in (w2, Ok f)
    end.
End Fit.
