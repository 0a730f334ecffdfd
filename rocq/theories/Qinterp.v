(** Model of qinterp (utils.py:136-193) and of the DataArray accessor
    (accessors.py:8-137). *)
From Coq Require Import Reals List String Arith Bool ZArith.
From Verif Require Import Base Quat NdArray Frames Matcher Transform Utils TopLevel FrameCtors.
Import ListNotations.
Open Scope R_scope.

Section WithSquad.
  (** numpy-quaternion squad of one series, one output time. *)
  Variable squad : list R -> list quat -> R -> res quat.

  (** numpy-quaternion squad(R_in, t_in, t_out) on an array of quaternions, along its first
      axis: every series on its own; an empty one-dimensional array if there is nothing to
      interpolate.  Simplification: t_in of another length than the first axis is always
      refused with ValueError (numpy would broadcast a length of one). *)
  Definition squad_q (ts : list R) (a : nd quat) (l : list R) : res (nd quat) :=
    match shp a with
    | [] => Raise IndexError
    | n :: rest =>
        if existsb (Nat.eqb 0) (List.length l :: n :: rest) then Ok (Nd [0%nat] (fun _ => q1))
        else if negb (Nat.eqb (List.length ts) n) then Raise ValueError
        else
          let at_ x jx := squad ts (map (fun i => dat a (i :: jx)) (seq 0 n)) x in
          do_ traverse (fun x => traverse (at_ x) (indices rest)) l ;;
          Ok (Nd (List.length l :: rest) (fun ix =>
                match at_ (nth (hd O ix) l 0) (tl ix) with Ok q => q | Raise _ => q1 (* not reached *) end))
    end.
  (** try: squad ... except ValueError: raise RuntimeError (utils.py:180-186) *)
  Definition as_runtime {A} (r : res A) : res A :=
    match r with Raise ValueError => Raise RuntimeError | r => r end.
  (** utils.py:179-187, on an array of quaternions. *)
  Definition interp_quats (q : nd quat) (t_in t_out : list R) (axis : Z) : res (nd quat) :=
    a <- swapaxes q axis 0 ;; b <- as_runtime (squad_q t_in a t_out) ;; swapaxes b 0 axis.
  (** [axis % q.ndim] (utils.py:164, 169) *)
  Definition py_mod (a : Z) (n : nat) : res Z :=
    match n with O => Raise ZeroDivisionError | S _ => Ok (a mod Z.of_nat n)%Z end.
  (** utils.py:136-193 [qinterp] *)
  Definition qinterp (q : qarg) (t_in t_out : list R) (axis qaxis : Z) : res qarg :=
    match q with
    | QQ b => ax <- py_mod axis (ndim b) ;; c <- interp_quats b t_in t_out ax ;; Ok (QQ c)
    | QF a =>
        ax <- py_mod axis (ndim a) ;; qax <- py_mod qaxis (ndim a) ;;
        let ax' := if (ax =? Z.of_nat (ndim a) - 1)%Z then qax else ax in
        b <- to_quat a qax ;; c <- interp_quats b t_in t_out ax' ;; d <- from_quat c qax ;; Ok (QF d)
    end.

  (** xarray's interp and sel(method="nearest") of a coordinate, at new values of a dim. *)
  Variable interp_coord nearest_coord : coord -> string -> nd R -> coord.

  Definition mem_str (n : string) (l : list string) : bool := existsb (String.eqb n) l.
  Definition is_num (c : coord) : bool := match co_vals c with CNum _ => true | CStr _ => false end.
  (** accessors.py:82-91 *)
  Definition new_coord (dim : string) (t_out : nd R) (c : string * coord) : string * coord :=
    let '(n, c) := c in
    (n, if String.eqb n dim then Co [dim] (CNum t_out)
        else if mem_str dim (co_dims c) then (if is_num c then interp_coord c dim t_out else nearest_coord c dim t_out)
        else c).
  Definition to_list (a : nd R) : list R := map (fun i => dat a [i]) (seq 0 (hd O (shp a))).
  (** accessors.py:16-101 [DataArrayAccessor.qinterp].  The new DataArray copies attrs.
      Simplification: the constructor's check that coordinates fit the data is not
      modelled. *)
  Definition acc_qinterp (w : world) (d : darr) (coords : list (string * nd R)) (qdim : string) : world * res darr :=
    match coords with
    | [(dim, t_out)] =>
        if negb (mem_str dim (da_dims d)) then (w, Raise ValueError)
        else if negb (Nat.eqb (ndim t_out) 1) then (w, Raise NotImplementedError)
        else if negb (mem_str qdim (da_dims d)) then (w, Raise ValueError)
        else
          match (t_in <- da_get d dim ;; axis <- TopLevel.index_of dim (da_dims d) ;; qaxis <- TopLevel.index_of qdim (da_dims d) ;;
                 qinterp (QF (da_data d)) (to_list t_in) (to_list t_out) (Z.of_nat axis) (Z.of_nat qaxis)) with
          | Ok (QF a) =>
              let '(w1, l) := TopLevel.alloc w (dict_at w (da_attrs d)) in
              (w1, Ok (DA a (da_dims d) (map (new_coord dim t_out) (da_coords d)) (da_name d) l))
          | Ok (QQ _) => (w, Raise TypeError) (* not reached *)
          | Raise e => (w, Raise e)
          end
    | _ => (w, Raise NotImplementedError)
    end.
  (** accessors.py:103-137 [DataArrayAccessor.qinv] *)
  Definition acc_qinv (w : world) (d : darr) (qdim : string) : world * res darr :=
    if negb (mem_str qdim (da_dims d)) then (w, Raise ValueError)
    else
      match (qaxis <- TopLevel.index_of qdim (da_dims d) ;; Utils.qinv (QF (da_data d)) (Z.of_nat qaxis)) with
      | Ok (QF a) =>
          let '(w1, l) := TopLevel.alloc w (dict_at w (da_attrs d)) in
          (w1, Ok (DA a (da_dims d) (da_coords d) (da_name d) l))
      | Ok (QQ _) => (w, Raise TypeError) (* not reached *)
      | Raise e => (w, Raise e)
      end.
End WithSquad.
