(** Model of the alternative constructors of ReferenceFrame (reference_frames.py:335-542):
    from_dataset, from_translation_dataarray, from_rotation_dataarray,
    from_rotation_matrix. *)
From Coq Require Import Reals List String Arith Bool ZArith.
From Verif Require Import Base Quat NdArray Frames Matcher Transform Estim TopLevel.
Import ListNotations.
Open Scope R_scope.

(** An xarray Dataset: its data variables in order.  Simplification: coordinates are those
    of the variables. *)
Definition dataset := list (string * darr).
(** xarray indexing with a name, [da[n].data]: a coordinate, or 0, 1, ... for a dimension
    without coordinate; otherwise KeyError.  Simplification: a coordinate of strings is
    refused here (the constructor would accept it as timestamps, and fail on first use). *)
Definition da_get (d : darr) (n : string) : res (nd R) :=
  match lookup n (da_coords d) with
  | Some c => stamps_of c
  | None => match index_of n (da_dims d) with
            | Ok k => Ok (arange (nth k (shp (da_data d)) O))
            | Raise _ => Raise KeyError
            end
  end.
(** The first variable that has the coordinate. *)
Fixpoint ds_coord (ds : dataset) (n : string) : res (nd R) :=
  match ds with
  | [] => Raise KeyError
  | (_, d) :: ds => match da_get d n with Raise KeyError => ds_coord ds n | r => r end
  end.
(** [ds[n].data]: a data variable or a coordinate. *)
Definition ds_get (ds : dataset) (n : string) : res (nd R) :=
  match lookup n ds with Some d => Ok (da_data d) | None => ds_coord ds n end.

(** reference_frames.py:335-397 [from_dataset] *)
Definition from_dataset (s : state) (ds : dataset) (translation rotation timestamps : string) (parent : option pref)
    (name : option string) (inverse discrete : bool) : state * res nat :=
  match (t <- ds_get ds translation ;; r <- ds_get ds rotation ;; x <- ds_get ds timestamps ;; Ok (t, r, x)) with
  | Raise e => (s, Raise e)
  | Ok (t, r, x) => new_frame s (Ctor name parent (Some t) (Some r) (Some x) inverse discrete)
  end.
(** reference_frames.py:399-450 [from_translation_dataarray] *)
Definition from_translation_dataarray (s : state) (d : darr) (timestamps : string) (parent : option pref)
    (name : option string) (inverse discrete : bool) : state * res nat :=
  match da_get d timestamps with
  | Raise e => (s, Raise e)
  | Ok x => new_frame s (Ctor name parent (Some (da_data d)) None (Some x) inverse discrete)
  end.
(** reference_frames.py:452-503 [from_rotation_dataarray] *)
Definition from_rotation_dataarray (s : state) (d : darr) (timestamps : string) (parent : option pref)
    (name : option string) (inverse discrete : bool) : state * res nat :=
  match da_get d timestamps with
  | Raise e => (s, Raise e)
  | Ok x => new_frame s (Ctor name parent None (Some (da_data d)) (Some x) inverse discrete)
  end.

Section Matrix.
  (** numpy-quaternion from_rotation_matrix *)
  Variable frm : mat3 -> quat.
  Definition mat_of (a : nd R) : mat3 := M3 (vec_at a [0%nat]) (vec_at a [1%nat]) (vec_at a [2%nat]).
  Definition quat_arr (q : quat) : nd R := Nd [4%nat] (fun ix => comp4 (hd O ix) q).
  (** reference_frames.py:505-542 [from_rotation_matrix] *)
  Definition from_rotation_matrix (s : state) (mat : nd R) (parent : option pref) (name : option string)
      (inverse : bool) : state * res nat :=
    if shape_eqb (shp mat) [3%nat; 3%nat]
    then new_frame s (Ctor name parent None (Some (quat_arr (frm (mat_of mat)))) None inverse false)
    else (s, Raise ValueError).
End Matrix.
