(** Model of the options cutoff, outlier_thresh and mode of the velocity lookups
    (reference_frames.py:1048-1318).  Entries that are NaN are None. *)
From Coq Require Import Reals List Arith Bool ZArith String.
From Verif Require Import Base Quat NdArray Frames Matcher Transform Velocity VelFrames RotVec Filter NanArr.
Import ListNotations.
Open Scope R_scope.

(** reference_frames.py:303-310 [_match_arrays] for arrays with NaN (last axis of
    length 3): numbers and places of the NaN side by side as in NanArr.v. *)
Definition match_nan squad (l : list (nd (option R) * option (list R))) : res (list (nd (option R)) * option (list R)) :=
  '(bs, o) <- match_arrays squad (map (fun p => (blank (fst p), snd p)) l) ;;
  ms <- traverse (fun p => resample_mask (nans (fst p)) (snd p) o) l ;;
  Ok (map (fun p => with_nans (fst p) (snd p)) (combine bs ms), o).

Section Options.
  Variable squad : list R -> list quat -> R -> res quat.
  Variable deriv : list R -> list R -> res (list R).

  (** core.py:728-801 [_estimate_angular_velocity] on an array of numbers with all
      options: the estimate (mode), the outliers, then the filter, which acts on the
      array whose coordinate axis was swapped to the end. *)
  Definition estimate_angular_full (mode : string) (thresh cutoff : option R) (a : nd R) (ts : list R) (axis time_axis : Z) : res (nd (option R)) :=
    g <- match thresh with
         | None => g <- estimate_angular_mode deriv mode a ts axis time_axis ;; Ok (numbers g)
         | Some th => estimate_angular_outlier deriv mode th a ts axis time_axis
         end ;;
    match ndim a with
    | O => Raise ZeroDivisionError (* not reached *)
    | S n1 =>
        let n := Z.of_nat (S n1) in
        let k := Z.to_nat (axis mod n) in
        let t0 := Z.to_nat (time_axis mod n) in
        let tau := if Nat.eqb t0 n1 then k else t0 in
        f <- low_pass cutoff tau (swap_nd k n1 g) ;; Ok (swap_nd k n1 f)
    end.

  Definition with_ts_nan (ret : bool) (r : nd (option R) * option (list R)) : nd (option R) * option (option (list R)) :=
    (fst r, if ret then Some (snd r) else None).
  Definition zeros3_nan : nd (option R) := numbers zeros3.

  (** reference_frames.py:1148-1226 [lookup_linear_velocity]. *)
  Definition lookup_linear_opts (thresh cutoff : option R) (s : state) (i : nat) (reference represent_in : option pref)
      (allow_static ret : bool) : res (nd (option R) * option (option (list R))) :=
    j <- resolve_ref s i reference ;;
    k <- resolve_ref s i represent_in ;;
    tr <- lookup_transform squad s i (PFrame j) ;;
    match tr_ts tr with
    | None => if allow_static then Ok (zeros3_nan, Some None) else Raise ValueError
    | Some ts =>
        lin <- estimate_linear_full thresh cutoff (tr_t tr) None ts None ;;
        r <- transform_vectors_nan squad s j lin (PFrame k) (Some 0%Z) (Some (stamps_nd ts)) ;;
        Ok (with_ts_nan ret r)
    end.

  (** reference_frames.py:1228-1318 [lookup_angular_velocity]. *)
  Definition lookup_angular_opts (mode : string) (thresh cutoff : option R) (s : state) (i : nat) (reference represent_in : option pref)
      (allow_static ret : bool) : res (nd (option R) * option (option (list R))) :=
    j <- resolve_ref s i reference ;;
    k <- resolve_ref s i represent_in ;;
    tr <- lookup_transform squad s i (PFrame j) ;;
    match tr_ts tr with
    | None => if allow_static then Ok (zeros3_nan, Some None) else Raise ValueError
    | Some ts =>
        ang <- estimate_angular_full mode thresh cutoff (as_float (tr_r tr)) ts (-1) 0 ;;
        r <- transform_vectors_nan squad s i ang (PFrame k) (Some 0%Z) (Some (stamps_nd ts)) ;;
        Ok (with_ts_nan ret r)
    end.

  (** reference_frames.py:1048-1146 [lookup_twist]: outlier_thresh goes to the linear
      estimate only (1122-1130). *)
  Definition lookup_twist_opts (mode : string) (thresh cutoff : option R) (s : state) (i : nat) (reference represent_in : option pref)
      (allow_static ret : bool) : res (nd (option R) * nd (option R) * option (option (list R))) :=
    j <- resolve_ref s i reference ;;
    k <- resolve_ref s i represent_in ;;
    tr <- lookup_transform squad s i (PFrame j) ;;
    match tr_ts tr with
    | None => if allow_static then Ok (zeros3_nan, zeros3_nan, Some None) else Raise ValueError
    | Some ts =>
        lin <- estimate_linear_full thresh cutoff (tr_t tr) None ts None ;;
        ang <- estimate_angular_full mode None cutoff (as_float (tr_r tr)) ts (-1) 0 ;;
        rl <- transform_vectors_nan squad s j lin (PFrame k) (Some 0%Z) (Some (stamps_nd ts)) ;;
        ra <- transform_vectors_nan squad s i ang (PFrame k) (Some 0%Z) (Some (stamps_nd ts)) ;;
        '(bs, o) <- match_nan squad [ra; rl] ;;
        match bs with
        | [a; l] => Ok (l, a, if ret then Some o else None)
        | _ => Raise ValueError (* not reached *)
        end
    end.
End Options.
