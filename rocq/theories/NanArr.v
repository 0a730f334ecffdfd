(** Transforms of arrays with missing samples (NaN entries): the numbers and the
    places of the NaN are computed side by side.  No branch of the code looks at the
    values, and every operation on the values yields NaN exactly when an operand is NaN
    (no operation yields NaN from numbers, see Transform.v), so the numbers can be
    computed with any number in the place of a NaN.  [interp_floats] and [rot_floats]
    below show this for the two operations that mix entries. *)
From Coq Require Import Reals List Arith Bool ZArith Lra.
From Verif Require Import Base Quat NdArray Frames Matcher Transform Velocity Filter.
Import ListNotations.
Open Scope R_scope.

(** The numbers, with 0 for NaN, and the places of the NaN. *)
Definition blank (a : nd (option R)) : nd R := Nd (shp a) (fun ix => num (dat a ix)).
Definition nans (a : nd (option R)) : nd bool := Nd (shp a) (fun ix => is_nan (dat a ix)).
Definition with_nans (a : nd R) (m : nd bool) : nd (option R) :=
  Nd (shp a) (fun ix => if dat m ix then None else Some (dat a ix)).

(** core.py:103-105: interp1d; slope * (x - x_lo) + y_lo with
    slope = (y_hi - y_lo) / (x_hi - x_lo) is NaN if y_lo or y_hi is. *)
Definition or_fun (xl xh : R) (yl yh : list nat -> bool) (x : R) : list nat -> bool := fun jx => yl jx || yh jx.
Definition interp_mask (ts : list R) (a : nd bool) (l : list R) : res (nd bool) :=
  let n := hd O (shp a) in
  rows <- interp1d or_fun ts (map (fun i jx => dat a (i :: jx)) (seq 0 n)) l ;;
  Ok (Nd (List.length l :: tl (shp a)) (fun ix => nth (hd O ix) rows (fun _ => false) (tl ix))).
(** core.py:80-105 [_resample_array] on the places of the NaN; the last axis does not
    have length 4 (the transforms below have the coordinates on the last axis).
    np.tile as in Transform.v [tile_nd]. *)
Definition tile_mask (a : nd bool) (n : nat) : nd bool :=
  match shp a with
  | [c] => Nd [n; c] (fun ix => dat a (tl ix))
  | s =>
      let k := (List.length s - 2)%nat in
      let d := nth k s O in
      Nd (firstn k s ++ (n * d)%nat :: skipn (S k) s)
         (fun ix => dat a (firstn k ix ++ Nat.modulo (nth k ix O) d :: skipn (S k) ix))
  end.
Definition resample_mask (m : nd bool) (own o : option (list R)) : res (nd bool) :=
  match own, o with
  | Some _, None => Raise ValueError
  | None, None => Ok m
  | None, Some l => Ok (tile_mask m (List.length l))
  | Some ts, Some l => interp_mask ts m l
  end.
(** reference_frames.py:267-291 [_validate_input]: the time axis goes to the front. *)
Definition to_front (m : nd bool) (ts : option (nd R)) (time_axis : option Z) : res (nd bool * option (list R)) :=
  match ts with
  | None => Ok (m, None)
  | Some ts =>
      match time_axis with
      | None => Raise TypeError
      | Some ta =>
          j <- norm_axis ta (ndim m) ;;
          Ok (swap_nd 0 j m, Some (map (fun i => dat ts [i]) (seq 0 (nth j (shp m) O))))
      end
  end.
(** utils.py:255-263 [rotate_vectors] (and numpy-quaternion's for a single
    quaternion, a product with a rotation matrix), coordinates last: each coordinate of
    the result is computed from all three coordinates. *)
Definition rot_mask (m : nd bool) : nd bool :=
  Nd (shp m) (fun ix => existsb (fun c => dat m (removelast ix ++ [c])) (seq 0 3)).

(** reference_frames.py:612-649, 674-712 for an array with NaN and axis=-1, [f] the
    transform of an array of numbers: the timestamps do not depend on the values. *)
Definition spread (arr : nd (option R)) (time_axis : option Z) (ts : option (nd R)) (o : option (list R)) : res (nd bool) :=
  '(a, own) <- to_front (nans arr) ts time_axis ;;
  b <- resample_mask a own o ;;
  match time_axis with None => Ok (rot_mask b) | Some ta => swapaxes (rot_mask b) 0 ta end.
Definition transform_nan (f : nd R -> res (nd R * option (list R))) (arr : nd (option R)) (time_axis : option Z) (ts : option (nd R))
    : res (nd (option R) * option (list R)) :=
  '(c, o) <- f (blank arr) ;;
  m <- spread arr time_axis ts o ;;
  Ok (with_nans c m, o).
Definition transform_vectors_nan squad (s : state) (i : nat) (arr : nd (option R)) (to : pref) (time_axis : option Z) (ts : option (nd R)) :=
  transform_nan (fun a => transform_vectors squad s i a to (-1) time_axis ts) arr time_axis ts.
(** The translation has no NaN. *)
Definition transform_points_nan squad (s : state) (i : nat) (arr : nd (option R)) (to : pref) (time_axis : option Z) (ts : option (nd R)) :=
  transform_nan (fun a => transform_points squad s i a to (-1) time_axis ts) arr time_axis ts.

(* ------------------------------------------------------------------ the split into numbers and places *)
(** Interpolation of floats, NaN included, in the order of the operations of interp1d. *)
Definition lin_float (xl xh : R) (yl yh : option R) (x : R) : option R :=
  oadd (omul (x - xl) (omul (/ (xh - xl)) (oadd yh (omul (-1) yl)))) yl.
Lemma interp_floats : forall xl xh yl yh x,
  lin_float xl xh yl yh x = if is_nan yl || is_nan yh then None else Some (lin1 xl xh (num yl) (num yh) x).
Proof.
  intros xl xh [yl|] [yh|] x; try reflexivity. unfold lin_float, lin1. cbn. f_equal. unfold Rdiv. ring.
Qed.
(** A rotation in the order of the operations of utils.py:256-261 (r, s the vector and
    scalar part, m the norm). *)
Definition osub (x y : option R) := oadd x (omul (-1) y).
Definition ocross (r : vec3) (a b c : option R) : option R * option R * option R :=
  (osub (omul (vy r) c) (omul (vz r) b), osub (omul (vz r) a) (omul (vx r) c), osub (omul (vx r) b) (omul (vy r) a)).
Definition rot_float (q : quat) (m : R) (a b c : option R) : option R * option R * option R :=
  let r := V3 (qx q) (qy q) (qz q) in
  let '(x, y, z) := ocross r a b c in
  let '(x, y, z) := ocross r (oadd (omul (qw q) a) x) (oadd (omul (qw q) b) y) (oadd (omul (qw q) c) z) in
  (oadd a (omul (2 / m) x), oadd b (omul (2 / m) y), oadd c (omul (2 / m) z)).
Lemma rot_floats : forall q m a b c, (a = None \/ b = None \/ c = None) -> rot_float q m a b c = (None, None, None).
Proof. intros q m [a|] [b|] [c|] [H|[H|H]]; try discriminate H; reflexivity. Qed.
