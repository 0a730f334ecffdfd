(** Specification vocabulary for labelled time series. *)
From Coq Require Import Reals String List Arith.
From Verif Require Import Base NdArray SpecArray Frames TopLevel.
Import ListNotations.
Open Scope nat_scope.

(** Along the dimension td, sample k of coordinate c' is sample m of coordinate c. *)
Definition coord_at (td : string) (c c' : coord) (k m : nat) : Prop :=
  co_dims c' = co_dims c /\
  match co_vals c, co_vals c' with
  | CNum a, CNum a' => forall p n sh pre, nth_error (co_dims c) p = Some td -> shp a = put p n sh -> p <= List.length sh ->
      valid sh pre -> dat a' (put p k pre) = dat a (put p m pre)
  | CStr v, CStr v' => nth_error v' k = nth_error v m
  | _, _ => False
  end.
(** Coordinates form a dictionary, and none of them repeats a dimension. *)
Definition proper_coords (d : darr) : Prop :=
  NoDup (map fst (da_coords d)) /\ forall n c, In (n, c) (da_coords d) -> NoDup (co_dims c).
(** d' has the samples of d whose times are in l (tsa: the n times of d along td), and the
    coordinates of d at these samples; all the other labels are those of d. *)
Definition subseries (d d' : darr) (td : string) (tsa : nd R) (n : nat) (l : list R) : Prop :=
  da_dims d' = da_dims d /\ da_name d' = da_name d /\
  (forall nm c, lookup nm (da_coords d) = Some c -> ~ In td (co_dims c) -> lookup nm (da_coords d') = Some c) /\
  (forall nm c, lookup nm (da_coords d) = Some c -> In td (co_dims c) ->
     exists c', lookup nm (da_coords d') = Some c' /\ 
       forall k m, m < n -> nth_error l k = Some (dat tsa [m]) -> coord_at td c c' k m) /\
  (forall nm, lookup nm (da_coords d) = None -> lookup nm (da_coords d') = None).
