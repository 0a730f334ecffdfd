(** Model of TransformMatcher (core.py:25-315) and of the library routines it
    calls: scipy interp1d(kind="linear"), numpy unique.  Arrays are only used
    through their timestamps here; resampling of array data is in Transform.v. *)
From Coq Require Import Reals List Arith Bool.
From Verif Require Import Base Quat NdArray Frames.
Import ListNotations.
Open Scope R_scope.

(** core.py:18-22: the namedtuples Frame and Array. *)
Record mframe := MF { mf_data : tfdata; mf_inv : bool }.
Record marray := MA { ma_data : nd R; ma_ts : option (list R) }.
Record matcher := Mat { m_frames : list mframe; m_arrays : list marray }.

(** core.py:37: np.any(np.diff(ts) < 0). *)
Fixpoint decreasing_somewhere (ts : list R) : bool :=
  match ts with
  | a :: ((b :: _) as l) => Rlt_b (b - a) 0 || decreasing_somewhere l
  | _ => false
  end.

(** core.py:33-43 [_check_timestamps]; [shape0] is [arr_shape[0]]. *)
Definition check_timestamps (ts : option (list R)) (shape : list nat) : res unit :=
  match ts with
  | None => Ok tt
  | Some l =>
      if decreasing_somewhere l then Raise ValueError
      else match shape with
           | [] => Raise IndexError
           | n :: _ => if Nat.eqb (List.length l) n then Ok tt else Raise ValueError
           end
  end.

(** core.py:107-127 [add_reference_frame]: attribute access on the frame object
    (see Frames.body) and the timestamp check. *)
Definition add_frame (b : body) (inverse : bool) : res mframe :=
  match b with
  | BTf (TStatic t r) => Ok (MF (TStatic t r) inverse)
  | BTf (TMoving ts t r d) =>
      do_ check_timestamps (Some ts) [List.length t; 3%nat] ;;
      Ok (MF (TMoving ts t r d) inverse)
  | BRoot => Raise AttributeError        (* None.shape, line 118 *)
  | BPartial => Raise AttributeError     (* no attribute timestamps, line 118 *)
  | BNoDiscrete _ _ => Raise AttributeError (* no attribute discrete, line 124 *)
  | BNaN => Raise NaNValue
  end.

(** core.py:129-141 [add_array]. *)
Definition add_array (a : nd R) (ts : option (list R)) : res marray :=
  do_ check_timestamps ts (shp a) ;; Ok (MA a ts).

(** Timestamps of the elements that restrict the range: continuous frames
    (core.py:155-157,163-165) and arrays with timestamps (158-160,166-168). *)
Definition cont_ts (f : mframe) : option (list R) :=
  match mf_data f with TMoving ts _ _ false => Some ts | _ => None end.
Definition disc_ts (f : mframe) : option (list R) :=
  match mf_data f with TMoving ts _ _ true => Some ts | _ => None end.
Fixpoint somes {A} (l : list (option A)) : list A :=
  match l with [] => [] | Some a :: l => a :: somes l | None :: l => somes l end.

Definition cont_list (m : matcher) : list (list R) := somes (map cont_ts (m_frames m)).
Definition arr_list (m : matcher) : list (list R) := somes (map ma_ts (m_arrays m)).
Definition disc_list (m : matcher) : list (list R) := somes (map disc_ts (m_frames m)).

(** ts[0] and ts[-1] of a timestamp array. *)
Definition first_of (ts : list R) : res R :=
  match ts with [] => Raise IndexError | a :: _ => Ok a end.
Definition last_of (ts : list R) : res R :=
  match ts with [] => Raise IndexError | a :: l => Ok (last l a) end.
(** np.max / np.min of a non-empty list. *)
Definition maxl (a : R) (l : list R) : R := fold_left Rmax l a.
Definition minl (a : R) (l : list R) : R := fold_left Rmin l a.

(** core.py:143-173 [get_range]. *)
Definition get_range (m : matcher) : res (option R * option R) :=
  firsts <- traverse first_of (cont_list m ++ arr_list m) ;;
  lasts <- traverse last_of (cont_list m ++ arr_list m) ;;
  Ok (match firsts with [] => None | a :: l => Some (maxl a l) end,
      match lasts with [] => None | a :: l => Some (minl a l) end).

(** numpy.unique: sorted, without repetitions. *)
Fixpoint insert_uniq (x : R) (l : list R) : list R :=
  match l with
  | [] => [x]
  | y :: l' => if Rlt_b x y then x :: l
               else if Req_b x y then l else y :: insert_uniq x l'
  end.
Definition unique (l : list R) : list R := fold_right insert_uniq [] l.

(** core.py:175-235 [get_timestamps].  A missing bound (None) is infinite
    (194-197). *)
Definition get_timestamps (m : matcher) (arrays_first : bool) : res (option (list R)) :=
  '(lo, hi) <- get_range m ;;
  let elements := if arrays_first then arr_list m ++ cont_list m
                  else cont_list m ++ arr_list m in
  Ok (match elements with
      | ts :: _ =>
          Some (filter (fun x => match lo with Some a => Rle_b a x | None => true end &&
                                 match hi with Some b => Rle_b x b | None => true end) ts)
      | [] =>
          match disc_list m with
          | [] => None
          | ds => Some (unique (concat ds))
          end
      end).

(** scipy interp1d(x, y, axis=0)(x_new), kind="linear" with y two-dimensional or
    more: [_call_linear]: searchsorted (left), clip to 1..n-1, slope form.
    [searchsorted] counts the leading entries below x. *)
Fixpoint searchsorted (xs : list R) (x : R) : nat :=
  match xs with
  | [] => O
  | a :: xs => if Rlt_b a x then S (searchsorted xs x) else O
  end.
(** numpy clip(1, n-1): minimum (maximum i 1) (n-1). *)
Definition clip1 (i n : nat) : nat := Nat.min (Nat.max i 1) (n - 1).

(** One interpolated scalar: y_lo + (y_hi - y_lo)/(x_hi - x_lo) * (x - x_lo); NaN when
    the two grid points coincide. *)
Definition lin1 (xlo xhi ylo yhi x : R) : R :=
  (yhi - ylo) / (xhi - xlo) * (x - xlo) + ylo.

(** Grid interval used for x: (index of lo, index of hi).  With a single sample
    the index clips to 0 and lo = -1 is again the only sample. *)
Definition interp_idx (xs : list R) (x : R) : nat * nat :=
  match clip1 (searchsorted xs x) (List.length xs) with
  | O => (O, O)
  | S k => (k, S k)
  end.

(** Bounds check of interp1d (bounds_error defaults to True here). *)
Definition in_bounds (xs : list R) (x : R) : bool :=
  match xs with
  | [] => false
  | a :: l => Rle_b a x && Rle_b x (last l a)
  end.

(** One row of interp1d for rows in a vector space given by componentwise [lin]. *)
Definition interp_at {A} (lin : R -> R -> A -> A -> R -> A) (xs : list R) (ys : list A)
    (x : R) : res A :=
  let '(lo, hi) := interp_idx xs x in
  match nth_error xs lo, nth_error xs hi, nth_error ys lo, nth_error ys hi with
  | Some xl, Some xh, Some yl, Some yh =>
      if Req_b xl xh then Raise NaNValue else Ok (lin xl xh yl yh x)
  | _, _, _, _ => Raise ValueError (* x and y arrays must be equal in length *)
  end.
Definition interp1d {A} (lin : R -> R -> A -> A -> R -> A) (xs : list R) (ys : list A)
    (xnew : list R) : res (list A) :=
  if forallb (in_bounds xs) xnew then traverse (interp_at lin xs ys) xnew
  else Raise ValueError.

Definition lin_vec (xl xh : R) (yl yh : vec3) (x : R) : vec3 :=
  V3 (lin1 xl xh (vx yl) (vx yh) x) (lin1 xl xh (vy yl) (vy yh) x)
     (lin1 xl xh (vz yl) (vz yh) x).

(** core.py:59-61 / 62-64: start with row 0, then for each event in order
    overwrite the rows with timestamp >= event. *)
Definition hold {A} (ts : list R) (rows : list A) (x : R) : res A :=
  match rows with
  | [] => Raise IndexError
  | a :: _ => Ok (fold_left (fun acc p => if Rle_b (fst p) x then snd p else acc)
                            (combine ts rows) a)
  end.

Section WithSquad.
  (** numpy-quaternion squad(R_in, t_in, t_out), one output sample. *)
  Variable squad : list R -> list quat -> R -> res quat.

  (** core.py:45-78 [_transform_from_frame], timestamps None. *)
  Definition static_from_frame (d : tfdata) : res (vec3 * quat) :=
    match d with
    | TStatic t r => Ok (t, r)
    | TMoving _ _ _ _ => Raise ValueError
    end.
  (** the same with timestamps [l].  For discrete frames, [frame.translation[0]]
      raises IndexError for a frame without events even when l is empty. *)
  Definition rows_from_frame (d : tfdata) (l : list R) : res (list (vec3 * quat)) :=
    match d with
    | TStatic t r => Ok (map (fun _ => (t, r)) l)
    | TMoving ts t r true =>
        do_ hold ts t 0 ;; do_ hold ts r 0 ;;
        tt <- traverse (hold ts t) l ;;
        rr <- traverse (hold ts r) l ;;
        Ok (combine tt rr)
    | TMoving ts t r false =>
        tt <- interp1d lin_vec ts t l ;;
        rr <- traverse (squad ts r) l ;;
        Ok (combine tt rr)
    end.

  (** core.py:273-282, one frame: accumulated (translation, rotation).  Static
      transforms rotate with the numpy-quaternion branch, rows with the array
      formula of rotate_vectors. *)
  Definition step_with (rot : quat -> vec3 -> res vec3) (inv : bool)
      (acc tr : vec3 * quat) : res (vec3 * quat) :=
    let '(t, r) := tr in
    if inv then
      ri <- qrecip r ;;
      t' <- rot ri (vsub (fst acc) t) ;;
      Ok (t', qmulq ri (snd acc))
    else
      t' <- rot r (fst acc) ;;
      Ok (vadd t' t, qmulq r (snd acc)).

  Definition step_static (acc : vec3 * quat) (f : mframe) : res (vec3 * quat) :=
    tr <- static_from_frame (mf_data f) ;; step_with quat_rv (mf_inv f) acc tr.
  Definition step_rows (l : list R) (accs : list (vec3 * quat)) (f : mframe)
      : res (list (vec3 * quat)) :=
    rows <- rows_from_frame (mf_data f) l ;;
    traverse (fun p => step_with rot1 (mf_inv f) (fst p) (snd p)) (combine accs rows).

  Fixpoint foldM {A B} (f : A -> B -> res A) (l : list B) (a : A) : res A :=
    match l with [] => Ok a | b :: l => (a' <- f a b ;; foldM f l a')%res end.

  (** Result of get_transformation: (3,) and (4,) arrays without timestamps;
      (1,3) zeros and a (4,) identity when there are timestamps but no frame;
      otherwise one row per timestamp. *)
  Inductive transf :=
  | TrStatic (t : vec3) (r : quat)
  | TrBare (ts : list R)
  | TrRows (ts : list R) (rows : list (vec3 * quat)).

  (** core.py:237-284 [get_transformation] (timestamps resolved by the caller:
      None means static). *)
  Definition transformation_at (m : matcher) (o : option (list R)) : res transf :=
    match o with
    | None =>
        '(t, r) <- foldM step_static (m_frames m) (v0, q1) ;; Ok (TrStatic t r)
    | Some l =>
        match m_frames m with
        | [] => Ok (TrBare l)
        | fs => rows <- foldM (step_rows l) fs (map (fun _ => (v0, q1)) l) ;; Ok (TrRows l rows)
        end
    end.
  Definition get_transformation (m : matcher) (arrays_first : bool) : res transf :=
    o <- get_timestamps m arrays_first ;; transformation_at m o.

  (** reference_frames.py:319-333 [_get_matcher] without arrays. *)
  Definition body_at (s : state) (i : nat) : body :=
    match get s i with Some n => nbody n | None => BPartial end.
  Definition frames_between (s : state) (i j : nat) : res (list mframe) :=
    '(up, down) <- walk s i j ;;
    fu <- traverse (fun k => add_frame (body_at s k) false) up ;;
    fd <- traverse (fun k => add_frame (body_at s k) true) down ;;
    Ok (fu ++ fd).

  (** reference_frames.py:562-588 [lookup_transform]. *)
  Definition lookup_transform (s : state) (i : nat) (to : pref) : res transf :=
    j <- resolve_rf s to ;;
    fs <- frames_between s i j ;;
    get_transformation (Mat fs []) true.
End WithSquad.
