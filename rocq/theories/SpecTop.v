(** Specification vocabulary for DataArrays and the top-level functions. *)
From Coq Require Import Reals String List Arith ZArith.
From Verif Require Import Base SpecQuat NdArray SpecArray Frames Matcher Transform TopLevel.
Import ListNotations.
Open Scope nat_scope.

(** Dimension dn of the array has size n. *)
Definition dim_size (d : darr) (dn : string) (n : nat) : Prop :=
  exists k, nth_error (da_dims d) k = Some dn /\ nth_error (shp (da_data d)) k = Some n.
Definition coord_size (c : coord) : list nat :=
  match co_vals c with
  | CNum a => shp a
  | CStr l => match co_dims c with [] => [] | _ => [List.length l] end
  end.
(** A DataArray as xarray maintains it: one distinct name per axis, coordinates that lie on
    the array's dimensions and have their sizes, an attrs dictionary that exists. *)
Definition data_array (w : world) (d : darr) : Prop :=
  List.length (da_dims d) = ndim (da_data d) /\ NoDup (da_dims d) /\
  (forall n c, In (n, c) (da_coords d) -> Forall2 (dim_size d) (co_dims c) (coord_size c)) /\
  da_attrs d < List.length (dicts w).
(** The value of an attribute. *)
Definition attr (w : world) (d : darr) (k : string) : option (option string) := lookup k (dict_at w (da_attrs d)).
(** The attribute that says in which frame an array is expressed, per method: the coordinates
    of vectors are in the representation frame; points and orientations are relative to the
    reference frame. *)
Definition frame_attr (m : method) : string :=
  match m with Vectors => "representation_frame" | Points => "reference_frame" | Quaternions => "reference_frame" end.
(** dim/axis arguments that denote axis k: the name of the dimension, or an integer (0 is
    left out, C42); the default is the last axis. *)
Definition picks (d : darr) (dim : option string) (axis : option Z) (k : nat) : Prop :=
  match dim, axis with
  | Some n, None => nth_error (da_dims d) k = Some n
  | None, None => S k = ndim (da_data d)
  | None, Some z => z <> 0%Z /\ (z = Z.of_nat k \/ z = (Z.of_nat k - Z.of_nat (ndim (da_data d)))%Z) /\ k < ndim (da_data d)
  | Some _, Some _ => False
  end.
(** The timestamps argument switches timestamps off: False, or the default for a
    one-dimensional array. *)
Definition untimed (d : darr) (ts : tsarg) : Prop := ts = TFalse \/ (ts = TNone /\ ndim (da_data d) = 1).
(** The timestamps argument picks axis tau, whose coordinate holds n >= 2 strictly increasing
    numbers: the name of the dimension, or the default with time_axis denoting tau. *)
Definition timed (d : darr) (ts : tsarg) (time_axis : option Z) (tau n : nat) (tsa : nd R) : Prop :=
  exists td, nth_error (da_dims d) tau = Some td /\ lookup td (da_coords d) = Some (Co [td] (CNum tsa)) /\
    (ts = TName td \/ (ts = TNone /\ 1 < ndim (da_data d) /\ tau < ndim (da_data d) /\
       match time_axis with
       | None => tau = 0
       | Some z => z = Z.of_nat tau \/ (z <> 0%Z /\ z = (Z.of_nat tau - Z.of_nat (ndim (da_data d)))%Z)
       end)) /\
    shp tsa = [n] /\ 2 <= n /\ forall a b, a < b < n -> (dat tsa [a] < dat tsa [b])%R.
(** Same labels. *)
Definition same_labels (d d' : darr) : Prop :=
  da_dims d' = da_dims d /\ da_coords d' = da_coords d /\ da_name d' = da_name d /\ shp (da_data d') = shp (da_data d).
(** Existing dictionaries are as before. *)
Definition attrs_kept (w w' : world) : Prop :=
  frames w' = frames w /\ List.length (dicts w) <= List.length (dicts w') /\
  forall l, l < List.length (dicts w) -> dict_at w' l = dict_at w l.
