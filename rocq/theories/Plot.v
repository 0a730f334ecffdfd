(** Model of the plotting functions (plotting.py:34-298) onto given axes.  matplotlib's axes
    are reduced to the three limits and their autoscale flags; what is drawn is returned. *)
From Coq Require Import Reals List String ZArith Bool Arith.
From Verif Require Import Base Quat NdArray Frames Matcher Transform Broadcast TfTree TopLevel Rotate.
Import ListNotations.
Open Scope R_scope.

(** One axis of an Axes3D: limits and whether they follow the data. *)
Record axis3 := Ax3 { lo : R; hi : R; auto : bool }.
Record axes := Axes { ax_x : axis3; ax_y : axis3; ax_z : axis3 }.
(** set_xlim3d([l, r]): auto=False is the default, so autoscaling ends.  Simplification: an
    empty interval, which matplotlib would widen, is stored (PropPlot: never reached from
    proper limits). *)
Definition set_lim (l r : R) : axis3 := Ax3 l r false.

(** plotting.py:88-109 [_set_axes_equal] *)
Definition extent (a : axis3) : R := Rabs (hi a - lo a).
Definition middle (a : axis3) : R := (lo a + hi a) / 2.
Definition set_axes_equal (ax : axes) : axes :=
  let radius := 0.5 * Rmax (Rmax (extent (ax_x ax)) (extent (ax_y ax))) (extent (ax_z ax)) in
  let around (a : axis3) := set_lim (middle a - radius) (middle a + radius) in
  Axes (around (ax_x ax)) (around (ax_y ax)) (around (ax_z ax)).

(** An arrow from one point to another. *)
Definition arrow := (vec3 * vec3)%type.
(** np.min and np.max of an old limit and the coordinates of the four points. *)
Definition grown (f : vec3 -> R) (a : axis3) (pts : list vec3) : R * R := (minl (lo a) (map f pts), maxl (hi a) (map f pts)).
(** A point read as o[0], o[1], o[2]; with a moving frame on the way it would be an array of
    rows, for which np.min of the mixed tuple (66-77) raises a ValueError. *)
Definition coordinates (r : result) : res vec3 :=
  match r with
  | RPlain a None => if Nat.eqb (ndim a) 1 then Ok (V3 (dat a [0%nat]) (dat a [1%nat]) (dat a [2%nat])) else Raise ValueError
  | _ => Raise ValueError
  end.
Definition plain_point (x y z : R) : nd R := Nd [3%nat] (fun ix => nth (hd O ix) [x; y; z] 0).

Section WithSquad.
  Variable squad : list R -> list quat -> R -> res quat.
  (** plotting.py:43-47: transform_points of a list (__init__.py:245), if there is a world frame *)
  Definition to_world (w : world) (frame : nat) (world_frame : option pref) (x y z : R) : res vec3 :=
    match world_frame with
    | None => Ok (V3 x y z)
    | Some p => r <- snd (transform squad Points w (Plain (plain_point x y z)) p (Some (PFrame frame)) None None TNone None) ;; coordinates r
    end.
  (** plotting.py:34-85 [_add_frame].  The z limits are written to the y axis (83). *)
  Definition add_frame_arrows (w : world) (ax : axes) (frame : nat) (world_frame : option pref) (len : R) : res (axes * list arrow) :=
    o <- to_world w frame world_frame 0 0 0 ;;
    x <- to_world w frame world_frame len 0 0 ;;
    y <- to_world w frame world_frame 0 len 0 ;;
    z <- to_world w frame world_frame 0 0 len ;;
    let xl := grown vx (ax_x ax) [o; x; y; z] in
    let yl := grown vy (ax_y ax) [o; x; y; z] in
    let zl := grown vz (ax_z ax) [o; x; y; z] in
    let ax := Axes (set_lim (fst xl) (snd xl)) (set_lim (fst yl) (snd yl)) (ax_z ax) in
    let ax := Axes (ax_x ax) (set_lim (fst zl) (snd zl)) (ax_z ax) in
    Ok (ax, [(o, x); (o, y); (o, z)]).
  (** plotting.py:112-155 [plot_reference_frame] with [ax] given *)
  Definition plot_reference_frame (w : world) (ax : axes) (frame : pref) (world_frame : option pref) (len : R) : axes * res (list arrow) :=
    match (i <- resolve_rf (frames w) frame ;;
           t <- node_timestamps (body_at (frames w) i) ;;
           match t with Some _ => Raise NotImplementedError | None => add_frame_arrows w ax i world_frame len end) with
    | Ok (ax', l) => (set_axes_equal ax', Ok l)
    | Raise e => (ax, Raise e)
    end.
End WithSquad.

(** plotting.py:187-191, 271-275: an array of points as a list; [arr.shape[1]] of a 0-d
    array is an IndexError. *)
Definition point_rows (arr : nd R) : res (list vec3) :=
  match shp arr with
  | [] => Raise IndexError
  | [n] => if Nat.eqb n 3 then Ok [vec_at arr []] else Raise ValueError
  | [n; m] => if Nat.eqb m 3 then Ok (map (fun i => vec_at arr [i]) (seq 0 n)) else Raise ValueError
  | _ => Raise ValueError
  end.
(** The shape after the promotion to two axes. *)
Definition promoted (s : list nat) : list nat := match s with [n] => [1%nat; n] | _ => s end.

Section WithAxes.
  (** ax.plot and ax.quiver: the limits afterwards. *)
  Variable rescale_points : axes -> list vec3 -> axes.
  Variable rescale_arrows : axes -> list arrow -> axes.
  (** plotting.py:158-197 [plot_points] *)
  Definition plot_points (ax : axes) (arr : nd R) : axes * res (list vec3) :=
    match point_rows arr with
    | Ok l => (set_axes_equal (rescale_points ax l), Ok l)
    | Raise e => (ax, Raise e)
    end.
  (** plotting.py:242-298 [plot_vectors]; [len] is quiver's argument length *)
  Definition plot_vectors (ax : axes) (arr : nd R) (base : option (nd R)) (len : R) : axes * res (list arrow) :=
    match (v <- point_rows arr ;;
           b <- match base with
                | None => Ok (map (fun _ => v0) v)
                | Some b => if list_eq_dec Nat.eq_dec (promoted (shp b)) (promoted (shp arr)) then point_rows b else Raise ValueError
                end ;;
           Ok (map (fun bv => (fst bv, vadd (fst bv) (vscale len (snd bv)))) (combine b v))) with
    | Ok l => (set_axes_equal (rescale_arrows ax l), Ok l)
    | Raise e => (ax, Raise e)
    end.
  (** plotting.py:200-239 [plot_quaternions] *)
  Definition axis_image (arr : nd R) (x y z : R) : res (nd R) :=
    rotate_vectors_full (QFloat arr) (plain_point x y z) (-1) (-1) false.
  Definition plot_quaternions (ax : axes) (arr : nd R) (base : option (nd R)) : axes * res (list (list arrow)) :=
    match (a <- axis_image arr 1 0 0 ;; b <- axis_image arr 0 1 0 ;; c <- axis_image arr 0 0 1 ;; Ok (a, b, c)) with
    | Raise e => (ax, Raise e)
    | Ok (a, b, c) =>
        let '(ax1, l1) := plot_vectors ax a base 0.5 in
        match l1 with
        | Raise e => (ax1, Raise e)
        | Ok l1 =>
            let '(ax2, l2) := plot_vectors ax1 b base 0.5 in
            match l2 with
            | Raise e => (ax2, Raise e)
            | Ok l2 =>
                let '(ax3, l3) := plot_vectors ax2 c base 0.5 in
                match l3 with Raise e => (ax3, Raise e) | Ok l3 => (ax3, Ok [l1; l2; l3]) end
            end
        end
    end.
End WithAxes.
