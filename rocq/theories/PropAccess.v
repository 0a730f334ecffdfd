(** Property C61: the DataArray accessor (.rbm.qinterp, .rbm.qinv). *)
From Coq Require Import Reals List String Arith Bool ZArith Lia Lra.
From Verif Require Import Base Quat SpecQuat QuatProofs NdArray Frames Matcher LookupProofs MovingProofs TimeProofs InverseProofs RouteProofs
  Transform SpecArray NdProofs RotProofs ArrProofs ArrStaticProofs PropRotate Utils UtilsProofs PropUtils TopLevel FrameCtors Qinterp PropQinterp Examples.
Import ListNotations.
Open Scope nat_scope.
Open Scope list_scope.

(* ---- specification ---- *)
(** The result is a new DataArray with the same dims, name and attributes; no existing
    DataArray and no frame changes. *)
Definition new_like (w w' : world) (d d' : darr) : Prop :=
  da_dims d' = da_dims d /\ da_name d' = da_name d /\ frames w' = frames w /\
  dict_at w' (da_attrs d') = dict_at w (da_attrs d) /\
  da_attrs d' >= List.length (dicts w) /\ (forall l, l < List.length (dicts w) -> dict_at w' l = dict_at w l).
(** Axis k has the name n. *)
Definition dim_is (d : darr) (n : string) (k : nat) : Prop := nth_error (da_dims d) k = Some n.
(** The new times label dim; coordinates that do not depend on dim are kept; the names of
    the coordinates are the same. *)
Definition relabelled (d d' : darr) (dim : string) (t_out : nd R) : Prop :=
  map fst (da_coords d') = map fst (da_coords d) /\
  (lookup dim (da_coords d) <> None -> lookup dim (da_coords d') = Some (Co [dim] (CNum t_out))) /\
  (forall n c, n <> dim -> lookup n (da_coords d) = Some c -> ~ In dim (co_dims c) -> lookup n (da_coords d') = Some c).
Definition values (x : nd R) (n : nat) : list R := map (fun i => dat x [i]) (seq 0 n).

(* ---- proofs ---- *)
Lemma mem_str_in n l : mem_str n l = true <-> In n l.
Proof.
  unfold mem_str. rewrite existsb_exists. split.
  - intros (x & I & E). apply String.eqb_eq in E. subst. auto.
  - intros I. exists n. split; auto. apply String.eqb_refl.
Qed.
Lemma index_dim n l k : NoDup l -> nth_error l k = Some n -> TopLevel.index_of n l = Ok k.
Proof.
  intros N. revert k. induction N as [|m l Hm N IH]; intros k H; [destruct k; discriminate|]. cbn [TopLevel.index_of].
  destruct k as [|k]; cbn [nth_error] in H.
  - injection H as ->. rewrite String.eqb_refl. reflexivity.
  - destruct (String.eqb_spec n m) as [->|_]; [apply nth_error_In in H; contradiction|]. rewrite (IH k H). reflexivity.
Qed.
Lemma new_alloc w d a cs w1 l : TopLevel.alloc w (dict_at w (da_attrs d)) = (w1, l) -> new_like w w1 d (DA a (da_dims d) cs (da_name d) l).
Proof.
  intros E. unfold TopLevel.alloc in E. injection E as <- <-. unfold new_like, dict_at. cbn. repeat split; auto.
  - rewrite app_nth2, Nat.sub_diag by lia. reflexivity.
  - intros l H. rewrite app_nth1 by auto. reflexivity.
Qed.
Lemma lookup_map (f : string * coord -> string * coord) n (l : list (string * coord)) : (forall c, fst (f c) = fst c) ->
  lookup n (map f l) = match lookup n l with Some c => Some (snd (f (n, c))) | None => None end.
Proof.
  intros H. induction l as [|(m & c) l IH]; [reflexivity|]. cbn [map lookup]. pose proof (H (m, c)) as E. destruct (f (m, c)) as (m' & c') eqn:F. cbn in E. subst m'.
  cbn [lookup]. destruct (String.eqb_spec n m) as [->|_]; [rewrite F; reflexivity|exact IH].
Qed.
Lemma new_coord_name ic nc dim t c : fst (new_coord ic nc dim t c) = fst c.
Proof. destruct c. reflexivity. Qed.
Lemma relabel_ok ic nc d dim t a l : relabelled d (DA a (da_dims d) (map (new_coord ic nc dim t) (da_coords d)) (da_name d) l) dim t.
Proof.
  split; [|split].
  - cbn. rewrite map_map. apply map_ext. apply new_coord_name.
  - intros H. cbn [da_coords]. rewrite lookup_map by apply new_coord_name. destruct (lookup dim (da_coords d)) as [c|]; [|congruence].
    cbn. rewrite String.eqb_refl. reflexivity.
  - intros n c N H D. cbn [da_coords]. rewrite lookup_map by apply new_coord_name. rewrite H. cbn.
    destruct (String.eqb_spec n dim); [contradiction|]. destruct (mem_str dim (co_dims c)) eqn:M; [apply mem_str_in in M; contradiction|reflexivity].
Qed.

(* ------------------------------------------------------------------ C61 *)
(** qinterp(dim=t_out): every series along dim is interpolated on its own (C60), from the
    values of the coordinate to the new ones. *)
Theorem C61_qinterp : forall squad ic nc w d dim qdim k p n m rest x t_out,
  NoDup (da_dims d) -> dim_is d dim (with_components k p) -> dim_is d qdim k ->
  shp (da_data d) = put k 4 (put p n rest) -> k <= S (List.length rest) -> p <= List.length rest ->
  lookup dim (da_coords d) = Some (Co [dim] (CNum x)) -> shp x = [n] -> shp t_out = [m] -> some_data n rest (values t_out m) ->
  series_ok squad (series_f (da_data d) k p n) rest (values x n) (values t_out m) ->
  exists w' d', acc_qinterp squad ic nc w d [(dim, t_out)] qdim = (w', Ok d') /\ new_like w w' d d' /\ relabelled d d' dim t_out /\
    shp (da_data d') = put k 4 (put p m rest) /\
    interpolates squad (series_f (da_data d) k p n) (fun j pre => quat_on (da_data d') k (put p j pre)) rest (values x n) (values t_out m).
Proof.
  intros squad ic nc w d dim qdim k p n m rest x t_out ND Hd Hq Sd Hk Hp Hx Sx St Hdat Hs.
  assert (Lv : forall (y : nd R) j, List.length (values y j) = j) by (intros; unfold values; rewrite map_length, seq_length; auto).
  unfold acc_qinterp.
  rewrite (proj2 (mem_str_in dim (da_dims d))) by (eapply nth_error_In; eauto). cbn [negb].
  replace (ndim t_out =? 1) with true by (unfold ndim; rewrite St; reflexivity). cbn [negb].
  rewrite (proj2 (mem_str_in qdim (da_dims d))) by (eapply nth_error_In; eauto). cbn [negb].
  unfold da_get. rewrite Hx. cbn [stamps_of co_vals bind]. rewrite (index_dim _ _ _ ND Hd). cbn [bind]. rewrite (index_dim _ _ _ ND Hq). cbn [bind].
  assert (E1 : to_list x = values x n) by (unfold to_list, values; rewrite Sx; reflexivity).
  assert (E2 : to_list t_out = values t_out m) by (unfold to_list, values; rewrite St; reflexivity).
  rewrite E1, E2.
  destruct (C60_floats squad (da_data d) (values x n) (values t_out m) (Z.of_nat (with_components k p)) (Z.of_nat k) k p n rest) as (a & Ea & Sa & Ia); auto; try (left; reflexivity).
  rewrite Ea. destruct (TopLevel.alloc w _) as [w1 l] eqn:A. rewrite Lv in Sa.
  eexists w1, _. split; [reflexivity|]. split; [apply new_alloc; exact A|]. split; [apply relabel_ok|]. split; [exact Sa|exact Ia].
Qed.
(** Requests that cannot be met are refused and change nothing. *)
Theorem C61_qinterp_refused : forall squad ic nc w d coords qdim,
  (List.length coords <> 1 \/ ~ In qdim (da_dims d) \/ exists dim t, In (dim, t) coords /\ (~ In dim (da_dims d) \/ ndim t <> 1)) ->
  exists e, acc_qinterp squad ic nc w d coords qdim = (w, Raise e) /\ (e = NotImplementedError \/ e = ValueError).
Proof.
  intros squad ic nc w d coords qdim H. unfold acc_qinterp. destruct coords as [|(dim & t) [|? ?]]; eauto.
  destruct (mem_str dim (da_dims d)) eqn:M1; cbn [negb]; [|eauto]. destruct (Nat.eqb_spec (ndim t) 1) as [E1|]; cbn [negb]; [|eauto].
  destruct (mem_str qdim (da_dims d)) eqn:M2; cbn [negb]; [|eauto]. apply mem_str_in in M1, M2. exfalso.
  destruct H as [H|[H|(dim' & t' & [E|[]] & H)]]; [cbn in H; lia|contradiction|]. injection E as <- <-. tauto.
Qed.
(** qinv(): the inverse at every position. *)
Theorem C61_qinv : forall w d qdim k sh,
  NoDup (da_dims d) -> dim_is d qdim k -> k <= List.length sh -> shp (da_data d) = put k 4 sh ->
  (forall pre, valid sh pre -> hnonzero (quat_on (da_data d) k pre)) ->
  exists w' d', acc_qinv w d qdim = (w', Ok d') /\ new_like w w' d d' /\ da_coords d' = da_coords d /\ shp (da_data d') = shp (da_data d) /\
    forall pre, valid sh pre -> hmul (quat_on (da_data d) k pre) (quat_on (da_data d') k pre) = Qt 1 0 0 0 /\
                                hmul (quat_on (da_data d') k pre) (quat_on (da_data d) k pre) = Qt 1 0 0 0.
Proof.
  intros w d qdim k sh ND Hq Hk Sd Hnz. unfold acc_qinv. rewrite (proj2 (mem_str_in qdim (da_dims d))) by (eapply nth_error_In; eauto). cbn [negb].
  rewrite (index_dim _ _ _ ND Hq). cbn [bind].
  destruct (C27_qinv_float (da_data d) sh k (Z.of_nat k)) as (r & Er & Sr & Dr); auto; [left; reflexivity|].
  rewrite Er. destruct (TopLevel.alloc w _) as [w1 l] eqn:A. eexists w1, _. split; [reflexivity|]. split; [apply new_alloc; exact A|].
  split; [reflexivity|]. split; [exact Sr|exact Dr].
Qed.
Theorem C61_qinv_refused : forall w d qdim, ~ In qdim (da_dims d) -> acc_qinv w d qdim = (w, Raise ValueError).
Proof. intros w d qdim H. unfold acc_qinv. destruct (mem_str qdim (da_dims d)) eqn:M; [apply mem_str_in in M; contradiction|reflexivity]. Qed.

Definition ex_d : darr := DA ex_q ["side"; "quaternion_axis"; "time"]%string
  [("time", Co ["time"] (CNum (arr1 [0;1;3]%R))); ("side", Co ["side"] (CStr ["left"; "right"])); ("x", Co ["time"] (CNum (arr1 [5;6;7]%R)))]%string (Some "orientation"%string) 0.
Example C61_example : NoDup (da_dims ex_d) /\ dim_is ex_d "time" (with_components 1 1) /\ dim_is ex_d "quaternion_axis" 1 /\
  shp (da_data ex_d) = put 1 4 (put 1 3 [2]) /\ lookup "time"%string (da_coords ex_d) = Some (Co ["time"%string] (CNum (arr1 [0;1;3]%R))) /\
  values (arr1 [0;1;3]%R) 3 = [0;1;3]%R /\ values (arr1 [0;1/2;1]%R) 3 = [0;1/2;1]%R /\
  (forall pre, valid [2; 3] pre -> hnonzero (quat_on (da_data ex_d) 1 pre)).
Proof.
  split; [repeat constructor; cbn; intuition discriminate|]. split; [reflexivity|]. split; [reflexivity|]. split; [reflexivity|]. split; [reflexivity|].
  split; [reflexivity|]. split; [reflexivity|]. intros pre V. inversion V as [|a ? pre' ? Ha V']. inversion V' as [|b ? pre'' ? Hb V'']. inversion V''. subst.
  destruct a as [|[|a]]; [| |lia]; destruct b as [|[|[|b]]]; try lia; unfold hnonzero; cbv -[IZR Rplus Rmult Rminus Ropp Rdiv not]; lra.
Qed.
Print Assumptions C61_qinterp.
Print Assumptions C61_qinv.
