(** Model of rotate_vectors on arrays (utils.py:196-263) and of the array
    transforms of ReferenceFrame (reference_frames.py:267-300, 590-775,
    core.py:81-105, 129-141, 286-315). *)
From Coq Require Import Reals List Arith Bool ZArith.
From Verif Require Import Base Quat NdArray Frames Matcher.
Import ListNotations.
Open Scope R_scope.

(* ---- numpy primitives on shapes and indices ---- *)

(** numpy axis normalisation.  np.AxisError (a ValueError and an IndexError) and
    the IndexError of shape[axis] are both recorded as IndexError. *)
Definition norm_axis (a : Z) (n : nat) : res nat :=
  (if (a <? - Z.of_nat n) || (Z.of_nat n <=? a) then Raise IndexError
   else Ok (Z.to_nat (if a <? 0 then a + Z.of_nat n else a)))%Z.

Definition transp (i j k : nat) : nat := if Nat.eqb k i then j else if Nat.eqb k j then i else k.
Definition swapl (i j : nat) (l : list nat) : list nat :=
  map (fun k => nth (transp i j k) l O) (seq 0 (List.length l)).
(** numpy.swapaxes, axes already normalised. *)
Definition swap_nd {A} (i j : nat) (a : nd A) : nd A :=
  Nd (swapl i j (shp a)) (fun ix => dat a (swapl i j ix)).
(** numpy.swapaxes(a, i, j). *)
Definition swapaxes {A} (a : nd A) (i j : Z) : res (nd A) :=
  i' <- norm_axis i (ndim a) ;; j' <- norm_axis j (ndim a) ;; Ok (swap_nd i' j' a).

Fixpoint insert_at (k x : nat) (l : list nat) : list nat :=
  match k, l with
  | O, l => x :: l
  | S k, y :: l => y :: insert_at k x l
  | S _, [] => [x]
  end.
Fixpoint remove_at (k : nat) (l : list nat) : list nat :=
  match k, l with
  | _, [] => []
  | O, _ :: l => l
  | S k, y :: l => y :: remove_at k l
  end.

(** Broadcasting of shapes, on reversed lists (trailing axes align). *)
Fixpoint brev (s t : list nat) : option (list nat) :=
  match s, t with
  | [], t => Some t
  | s, [] => Some s
  | a :: s, b :: t =>
      match brev s t with
      | None => None
      | Some u => if Nat.eqb a b then Some (a :: u)
                  else if Nat.eqb a 1 then Some (b :: u)
                  else if Nat.eqb b 1 then Some (a :: u) else None
      end
  end.
Definition bshape (s t : list nat) : res (list nat) :=
  match brev (rev s) (rev t) with Some u => Ok (rev u) | None => Raise ValueError end.
(** Index into an operand of shape s for an index of the broadcast result. *)
Fixpoint bixr (s ix : list nat) : list nat :=
  match s with
  | [] => []
  | n :: s => (if Nat.eqb n 1 then O else hd O ix) :: bixr s (tl ix)
  end.
Definition bix (s ix : list nat) : list nat := rev (bixr (rev s) (rev ix)).
Definition op2 {A B C} (f : A -> B -> C) (a : nd A) (b : nd B) : res (nd C) :=
  s <- bshape (shp a) (shp b) ;;
  Ok (Nd s (fun ix => f (dat a (bix (shp a) ix)) (dat b (bix (shp b) ix)))).

Definition comp3 (k : nat) (v : vec3) : R :=
  match k with O => vx v | S O => vy v | _ => vz v end.
Definition comp4 (k : nat) (q : quat) : R :=
  match k with O => qw q | S O => qx q | S (S O) => qy q | _ => qz q end.
(** The vector at position pre when the coordinates are on axis k. *)
Definition vec_along (a : nd R) (k : nat) (pre : list nat) : vec3 :=
  V3 (dat a (insert_at k 0 pre)) (dat a (insert_at k 1 pre)) (dat a (insert_at k 2 pre)).
(** numpy-quaternion as_quat_array / as_float_array (components on the last axis).
    Simplification: a last axis that is a larger multiple of 4, which the library
    would view as several quaternions, is refused here. *)
Definition as_quat (a : nd R) : res (nd quat) :=
  if Nat.eqb (last (shp a) O) 4 then Ok (Nd (removelast (shp a)) (fun ix => quat_at a ix))
  else Raise ValueError.
Definition as_float (q : nd quat) : nd R :=
  Nd (shp q ++ [4%nat]) (fun ix => comp4 (last ix O) (dat q (removelast ix))).

(** numpy.cross(r, v, axisb=axis, axisc=axis) where r holds the vector parts of
    the quaternions (components last): pairs r and v after removing [axis] from
    v's shape, and puts the components of the result back on [axis]. *)
Definition cross_nd (r : nd vec3) (v : nd R) (k : nat) : res (nd R) :=
  s <- bshape (shp r) (remove_at k (shp v)) ;;
  Ok (Nd (insert_at k 3 s) (fun ix =>
        let pre := remove_at k ix in
        comp3 (nth k ix O)
          (vcross (dat r (bix (shp r) pre))
                  (vec_along v k (bix (remove_at k (shp v)) pre))))).

(** numpy-quaternion rotate_vectors for a 0-d quaternion: einsum along [axis],
    in place. *)
Definition rv0 (q : quat) (v : nd R) (k : nat) : res (nd R) :=
  if Nat.eqb (nth k (shp v) O) 3 then
    do_ quat_rv q v0 ;;
    Ok (Nd (shp v) (fun ix =>
          match quat_rv q (vec_along v k (remove_at k ix)) with
          | Ok w => comp3 (nth k ix O) w
          | Raise _ => 0 (* not reached: q is non-zero *)
          end))
  else Raise ValueError.

(** utils.py:241-250: non-singleton axes must match and q.ndim = v.ndim - 1. *)
Fixpoint axes_match (a b : list nat) : bool :=
  match a, b with
  | x :: a, y :: b => (Nat.eqb x y || Nat.eqb x 1 || Nat.eqb y 1) && axes_match a b
  | _, _ => true
  end.

(** utils.py:252-261.  s and m are the scalar parts and lengths with a new last
    axis that is then SWAPPED with [axis] (254-256). *)
Definition rot_arrays (q : nd quat) (v : nd R) (k : nat) : res (nd R) :=
  let n := ndim v in
  let r := Nd (shp q) (fun ix => qvec (dat q ix)) in
  let last1 (f : quat -> R) := Nd (shp q ++ [1%nat]) (fun ix => f (dat q (removelast ix))) in
  let s := swap_nd (n - 1) k (last1 qw) in
  let m := swap_nd (n - 1) k (last1 qlen) in
  if existsb (fun ix => Req_b (qlen (dat q ix)) 0) (indices (shp q)) then Raise NaNValue
  else
    rxv <- cross_nd r v k ;;
    sv <- op2 Rmult s v ;;
    w <- op2 Rplus sv rxv ;;
    c <- cross_nd r w k ;;
    d <- op2 Rdiv (Nd (shp c) (fun ix => 2 * dat c ix)) m ;;
    op2 Rplus v d.

(** utils.py:228-263 [rotate_vectors] with one_to_one=True; q is already a
    quaternion array. *)
Definition rotate_vectors (q : nd quat) (v : nd R) (axis : Z) : res (nd R) :=
  match shp q with
  | [] => k <- norm_axis axis (ndim v) ;; rv0 (dat q []) v k
  | _ =>
      k <- norm_axis axis (ndim v) ;;
      if negb (Nat.eqb (nth k (shp v) O) 3) then Raise ValueError
      else if negb (Nat.eqb (ndim q) (ndim v - 1)) || negb (axes_match (shp q) (remove_at k (shp v)))
           then Raise ValueError
           else rot_arrays q v k
  end.

(* ---- transforms ---- *)

(** reference_frames.py:267-291 [_validate_input]; timestamps are an array. *)
Definition validate_input (arr : nd R) (axis : Z) (n : nat) (ts : option (nd R))
    (time_axis : option Z) : res (nd R * option (list R)) :=
  k <- norm_axis axis (ndim arr) ;;
  if negb (Nat.eqb (nth k (shp arr) O) n) then Raise ValueError
  else match ts with
       | None => Ok (arr, None)
       | Some ts =>
           match shp ts with
           | [m] =>
               match time_axis with
               | None => Raise TypeError (* arr.shape[None] *)
               | Some ta =>
                   j <- norm_axis ta (ndim arr) ;;
                   if negb (Nat.eqb (nth j (shp arr) O) m) then Raise ValueError
                   else Ok (swap_nd 0 j arr, Some (map (fun i => dat ts [i]) (seq 0 m)))
               end
           | _ => Raise ValueError
           end
       end.

(** The arrays translation and rotation of a transformation (core.py:264-284):
    (3,), (4,); (1,3), (4,) without frames; (N,3), (N,4). *)
Definition rowv (rows : list (vec3 * quat)) (i : nat) : vec3 := fst (nth i rows (v0, q1)).
Definition rowq (rows : list (vec3 * quat)) (i : nat) : quat := snd (nth i rows (v0, q1)).
Definition tr_t (tr : transf) : nd R :=
  match tr with
  | TrStatic t _ => Nd [3%nat] (fun ix => comp3 (hd O ix) t)
  | TrBare _ => Nd [1%nat; 3%nat] (fun _ => 0)
  | TrRows ts rows => Nd [List.length ts; 3%nat] (fun ix => comp3 (nth 1 ix O) (rowv rows (hd O ix)))
  end.
Definition tr_r (tr : transf) : nd quat :=
  match tr with
  | TrStatic _ r => Nd [] (fun _ => r)
  | TrBare _ => Nd [] (fun _ => q1)
  | TrRows ts rows => Nd [List.length ts] (fun ix => rowq rows (hd O ix))
  end.
Definition tr_ts (tr : transf) : option (list R) :=
  match tr with TrStatic _ _ => None | TrBare ts => Some ts | TrRows ts _ => Some ts end.

(** reference_frames.py:293-300 [_expand_singleton_axes]: [ndim - 2] new axes of
    length one after the first.  [expand_r] is the same for the quaternion view of
    the (N, 4) rotation array. *)
Definition expand_t (t : nd R) (n : nat) : nd R :=
  match shp t with
  | a :: ((_ :: _) as rest) =>
      Nd (a :: repeat 1%nat (n - 2) ++ rest)
         (fun ix => dat t (hd O ix :: skipn (n - 2) (tl ix)))
  | _ => t
  end.
Definition expand_r (r : nd quat) (n : nat) : nd quat :=
  match shp r with
  | [] => r
  | a :: rest => Nd (a :: repeat 1%nat (n - 2) ++ rest)
                    (fun ix => dat r (hd O ix :: skipn (n - 2) (tl ix)))
  end.

Definition lin_fun (xl xh : R) (yl yh : list nat -> R) (x : R) : list nat -> R :=
  fun jx => lin1 xl xh (yl jx) (yh jx) x.
(** interp1d(ts, data, axis=0)(l).  (For one-dimensional data scipy uses
    np.interp; the formula is the same up to rounding.) *)
Definition interp_nd (ts : list R) (a : nd R) (l : list R) : res (nd R) :=
  let n := hd O (shp a) in
  rows <- interp1d lin_fun ts (map (fun i jx => dat a (i :: jx)) (seq 0 n)) l ;;
  Ok (Nd (List.length l :: tl (shp a)) (fun ix => nth (hd O ix) rows (fun _ => 0) (tl ix))).

(** numpy.tile(data, (n, 1)). *)
Definition tile_nd (a : nd R) (n : nat) : nd R :=
  match shp a with
  | [c] => Nd [n; c] (fun ix => dat a (tl ix))
  | s =>
      let k := (List.length s - 2)%nat in
      let d := nth k s O in
      Nd (firstn k s ++ (n * d)%nat :: skipn (S k) s)
         (fun ix => dat a (firstn k ix ++ Nat.modulo (nth k ix O) d :: skipn (S k) ix))
  end.

Section WithSquad.
  Variable squad : list R -> list quat -> R -> res quat.

  (** squad over the first axis of an array of quaternions (components last),
      one output time.  Simplification: the outcome for a one-dimensional array
      (where the time axis is the component axis) is IndexError. *)
  Definition squad_nd (ts : list R) (a : nd R) (l : list R) : res (nd R) :=
    match shp a with
    | n :: ((_ :: _) as rest) =>
        let mids := indices (removelast rest) in
        let at_ x jx := squad ts (map (fun i => quat_at a (i :: jx)) (seq 0 n)) x in
        do_ traverse (fun x => traverse (at_ x) mids) l ;;
        Ok (Nd (List.length l :: rest) (fun ix =>
              match nth_error l (hd O ix) with
              | None => 0 (* not a row *)
              | Some x =>
                  match at_ x (removelast (tl ix)) with
                  | Ok q => comp4 (last ix O) q
                  | Raise _ => 0 (* not reached *)
                  end
              end))
    | _ => Raise IndexError
    end.

  (** core.py:80-105 [_resample_array]. *)
  Definition resample_array (a : marray) (o : option (list R)) : res (nd R) :=
    match ma_ts a, o with
    | Some _, None => Raise ValueError
    | None, None => Ok (ma_data a)
    | None, Some l => Ok (tile_nd (ma_data a) (List.length l))
    | Some ts, Some l =>
        if Nat.eqb (last (shp (ma_data a)) O) 4 then squad_nd ts (ma_data a) l
        else interp_nd ts (ma_data a) l
    end.

  (** Common first part of the three transforms: transformation, resampled array. *)
  Definition prepare (s : state) (i : nat) (arr : nd R) (to : pref) (axis : Z) (n : nat)
      (time_axis : option Z) (ts : option (nd R)) : res (transf * nd R) :=
    '(a, o) <- validate_input arr axis n ts time_axis ;;
    j <- resolve_rf s to ;;
    fs <- frames_between s i j ;;
    ma <- add_array a o ;;
    tr <- get_transformation squad (Mat fs [ma]) true ;;
    b <- resample_array ma (tr_ts tr) ;;
    Ok (tr, b).
  (** reference_frames.py:634-636 etc.: "undo time axis swap", done whether or
      not there are timestamps. *)
  Definition undo_swap (a : nd R) (time_axis : option Z) : res (nd R) :=
    match time_axis with None => Ok a | Some ta => swapaxes a 0 ta end.

  (** reference_frames.py:590-649 [transform_vectors]; returns (arr, ts). *)
  Definition transform_vectors (s : state) (i : nat) (arr : nd R) (to : pref) (axis : Z)
      (time_axis : option Z) (ts : option (nd R)) : res (nd R * option (list R)) :=
    '(tr, b) <- prepare s i arr to axis 3 time_axis ts ;;
    c <- rotate_vectors (expand_r (tr_r tr) (ndim b)) b axis ;;
    d <- undo_swap c time_axis ;;
    Ok (d, tr_ts tr).

  (** reference_frames.py:651-712 [transform_points]: the translation is added
      with its components on the LAST axis (703). *)
  Definition transform_points (s : state) (i : nat) (arr : nd R) (to : pref) (axis : Z)
      (time_axis : option Z) (ts : option (nd R)) : res (nd R * option (list R)) :=
    '(tr, b) <- prepare s i arr to axis 3 time_axis ts ;;
    c <- rotate_vectors (expand_r (tr_r tr) (ndim b)) b axis ;;
    e <- op2 Rplus c (expand_t (tr_t tr) (ndim b)) ;;
    d <- undo_swap e time_axis ;;
    Ok (d, tr_ts tr).

  (** reference_frames.py:714-775 [transform_quaternions]. *)
  Definition transform_quaternions (s : state) (i : nat) (arr : nd R) (to : pref) (axis : Z)
      (time_axis : option Z) (ts : option (nd R)) : res (nd R * option (list R)) :=
    '(tr, b) <- prepare s i arr to axis 4 time_axis ts ;;
    b' <- swapaxes b axis (-1) ;;
    qa <- as_quat b' ;;
    c <- op2 qmulq (expand_r (tr_r tr) (ndim b)) qa ;;
    e <- swapaxes (as_float c) (-1) axis ;;
    d <- undo_swap e time_axis ;;
    Ok (d, tr_ts tr).
End WithSquad.
