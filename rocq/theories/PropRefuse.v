(** Property C71: malformed calls of the transforms are refused, and no call changes
    anything it was given. *)
From Coq Require Import Reals String List Arith Bool ZArith Lia Lra.
From Verif Require Import Base Quat SpecQuat QuatProofs NdArray Frames SpecForest FrameProofs WalkProofs
  Matcher SpecLookup LookupProofs RegistryProofs MovingProofs TimeProofs CtorProofs InverseProofs RouteProofs
  Examples PropForest PropLookup PropMoving
  Transform SpecArray NdProofs RotProofs ArrProofs ArrTransProofs ArrStaticProofs PropTransform PropRotate
  Coord Velocity TopLevel TopProofs SpecTop TopStep.
Import ListNotations.
Open Scope nat_scope.
Open Scope list_scope.

(** The three methods of a frame. *)
Definition method_call squad (m : method) :=
  match m with Vectors => transform_vectors squad | Points => transform_points squad | Quaternions => transform_quaternions squad end.
(** Number of coordinates of an item. *)
Definition coordinates (m : method) : nat := match m with Quaternions => 4 | _ => 3 end.
(** Axis out of range. *)
Definition no_axis (a : Z) (n : nat) : Prop := (a < - Z.of_nat n \/ Z.of_nat n <= a)%Z.

Section Squad.
Variable squad : list R -> list quat -> R -> res quat.
Lemma call_validate m s i arr to axis ta ts e : validate_input arr axis (coordinates m) ts ta = Raise e ->
  method_call squad m s i arr to axis ta ts = Raise e.
Proof. intros H. destruct m; cbn [method_call coordinates] in *; unfold transform_vectors, transform_points, transform_quaternions, prepare; rewrite H; reflexivity. Qed.
Lemma call_frames m s i arr to axis ta ts a o : validate_input arr axis (coordinates m) ts ta = Ok (a, o) ->
  forall e, (j <- resolve_rf s to ;; fs <- frames_between s i j ;; do_ add_array a o ;; Ok fs) = Raise e ->
  method_call squad m s i arr to axis ta ts = Raise e.
Proof.
  intros H e He. destruct m; cbn [method_call coordinates] in *; unfold transform_vectors, transform_points, transform_quaternions, prepare; rewrite H; cbn [bind];
  (destruct (resolve_rf s to) as [j|]; cbn [bind] in *; [|congruence]; destruct (frames_between s i j); cbn [bind] in *; [|congruence];
   destruct (add_array a o); cbn [bind] in *; congruence).
Qed.
End Squad.
Lemma no_axis_norm a n : no_axis a n -> norm_axis a n = Raise IndexError.
Proof.
  intros H. unfold norm_axis. replace ((a <? - Z.of_nat n) || (Z.of_nat n <=? a))%Z with true; auto. symmetry. apply orb_true_iff.
  destruct H; [left; apply Z.ltb_lt|right; apply Z.leb_le]; lia.
Qed.

(* ------------------------------------------------------------------ C71 *)
(** The methods transform_vectors, transform_points, transform_quaternions.  Whatever the
    frames: an axis that does not exist raises IndexError; a wrong number of coordinates,
    timestamps that are not one-dimensional or as many as there are samples raise
    ValueError. *)
Theorem C71_shape_refused : forall squad m s i arr to axis ta ts,
  (no_axis axis (ndim arr) -> method_call squad m s i arr to axis ta ts = Raise IndexError) /\
  (forall k, axis_is axis k (ndim arr) -> k < ndim arr -> nth k (shp arr) 0 <> coordinates m ->
     method_call squad m s i arr to axis ta ts = Raise ValueError) /\
  (forall k tsa, axis_is axis k (ndim arr) -> k < ndim arr -> ts = Some tsa -> List.length (shp tsa) <> 1 ->
     method_call squad m s i arr to axis ta ts = Raise ValueError) /\
  (forall k tsa n a tau, axis_is axis k (ndim arr) -> k < ndim arr -> ts = Some tsa -> shp tsa = [n] ->
     ta = Some a -> axis_is a tau (ndim arr) -> tau < ndim arr -> nth tau (shp arr) 0 <> n ->
     method_call squad m s i arr to axis ta ts = Raise ValueError).
Proof.
  intros squad m s i arr to axis ta ts. repeat apply conj.
  - intros H. apply call_validate. unfold validate_input. rewrite no_axis_norm; auto.
  - intros k Hk Hlt Hn. apply call_validate. unfold validate_input. rewrite (axis_is_norm _ _ _ Hlt Hk). cbn [bind].
    apply Nat.eqb_neq in Hn. rewrite Hn. reflexivity.
  - intros k tsa Hk Hlt -> Hs. apply call_validate. unfold validate_input. rewrite (axis_is_norm _ _ _ Hlt Hk). cbn [bind].
    destruct (Nat.eqb (nth k (shp arr) 0) (coordinates m)); cbn [negb]; [|reflexivity].
    destruct (shp tsa) as [|n [|n' l]]; cbn in Hs; [reflexivity|lia|reflexivity].
  - intros k tsa n a tau Hk Hlt -> Hs -> Ha Htau Hn. apply call_validate. unfold validate_input. rewrite (axis_is_norm _ _ _ Hlt Hk). cbn [bind].
    destruct (Nat.eqb (nth k (shp arr) 0) (coordinates m)); cbn [negb]; [|reflexivity].
    rewrite Hs, (axis_is_norm _ _ _ Htau Ha). cbn [bind]. apply Nat.eqb_neq in Hn. rewrite Hn. reflexivity.
Qed.
(** Well-formed arrays: an unknown target raises ValueError (TypeError if it is neither a
    name nor a frame), a target in another tree WalkError; decreasing timestamps are
    refused. *)
Theorem C71_target_refused : forall squad m s i arr to axis ta ts x, reachable s -> frame s i ->
  method_call squad m s i arr to axis ta ts = x ->
  (forall k, axis_is axis k (ndim arr) -> k < ndim arr -> nth k (shp arr) 0 = coordinates m -> ts = None ->
    (forall n, to = PName n -> lookup n (reg s) = None -> x = Raise ValueError) /\
    (to = POther -> x = Raise TypeError) /\
    (forall j, denotes s to j -> ~ same_tree (parent_of s) i j -> x = Raise WalkError)) /\
  ((forall j, denotes s to j -> ~ same_tree (parent_of s) i j) -> forall y, x <> Ok y) /\
  (forall tsa n a b, ts = Some tsa -> shp tsa = [n] -> a < b < n -> (dat tsa [b] < dat tsa [a])%R -> forall y, x <> Ok y).
Proof.
  intros squad m s i arr to axis ta ts x HR Hi <-. repeat apply conj.
  - intros k Hk Hlt Hn ->.
    assert (V : validate_input arr axis (coordinates m) None ta = Ok (arr, None)).
    { unfold validate_input. rewrite (axis_is_norm _ _ _ Hlt Hk). cbn [bind]. apply Nat.eqb_eq in Hn. rewrite Hn. reflexivity. }
    repeat apply conj.
    + intros n -> Hl. apply (call_frames squad m s i arr _ axis ta None _ _ V). cbn [resolve_rf]. rewrite Hl. reflexivity.
    + intros ->. apply (call_frames squad m s i arr _ axis ta None _ _ V). reflexivity.
    + intros j Hj Hne. apply (call_frames squad m s i arr _ axis ta None _ _ V). rewrite (denotes_resolve _ _ _ Hj). cbn [bind].
      pose proof (denotes_frame _ _ _ HR Hj) as Fj. destruct (reachable_Inv _ HR) as (W & _).
      unfold frames_between. rewrite (walk_diff s i j W Hi Fj Hne). reflexivity.
  - intros Hne [out o] H. 
    assert (P : exists nn y, prepare squad s i arr to axis nn ta ts = Ok y).
    { destruct m; cbn [method_call] in H; unfold transform_vectors, transform_points, transform_quaternions in H; apply bind_ok in H as (y & Hy & _); eauto. }
    destruct P as (nn & y & P). unfold prepare in P. apply bind_ok in P as ((a & o') & _ & P). apply bind_ok in P as (j & Hj & P).
    apply bind_ok in P as (fs & Hf & _). unfold frames_between in Hf. apply bind_ok in Hf as ((up & dn) & Hw & _).
    destruct (reachable_Inv _ HR) as (W & Hreg). pose proof (resolve_lt s to j Hreg Hj) as Hlt.
    destruct (walk_ok_inv s i j up dn W Hi Hlt Hw) as (Hst & _). apply (Hne j); auto.
    destruct to as [k|n|]; cbn in Hj; [|destruct (lookup n (reg s)) eqn:E; [|discriminate]; injection Hj as ->; right; eauto|discriminate].
    destruct (get s k); [|discriminate]. injection Hj as ->. left. auto.
  - intros tsa n a b -> Hs Hab Hdec [out o] H.
    assert (P : exists nn y, prepare squad s i arr to axis nn ta (Some tsa) = Ok y).
    { destruct m; cbn [method_call] in H; unfold transform_vectors, transform_points, transform_quaternions in H; apply bind_ok in H as (y & Hy & _); eauto. }
    destruct P as (nn & y & P). unfold prepare in P. apply bind_ok in P as ((arr' & o') & Hv & P). apply bind_ok in P as (j & _ & P).
    apply bind_ok in P as (fs & _ & P). apply bind_ok in P as (ma & Ha & _).
    unfold validate_input in Hv. apply bind_ok in Hv as (k & _ & Hv). destruct (negb _); [discriminate|]. rewrite Hs in Hv.
    destruct ta as [ta|]; [|discriminate]. apply bind_ok in Hv as (tau & _ & Hv). destruct (negb _); [discriminate|]. injection Hv as _ <-.
    unfold add_array, check_timestamps in Ha. apply bind_ok in Ha as (u & Ha & _).
    destruct (decreasing_somewhere _) eqn:E; [discriminate|].
    assert (Na : a < n) by lia. assert (Nb : b < n) by lia. assert (Le : a <= b) by lia.
    pose proof (decreasing_false _ E a b (dat tsa [a]) (dat tsa [b]) Le
      (proj2 (nth_times tsa n a _) (conj Na eq_refl)) (proj2 (nth_times tsa n b _) (conj Nb eq_refl))). lra.
Qed.

(** rotate_vectors. *)
Definition v_axis (k j : nat) : nat := if j <? k then j else S j.
Lemma nth_remove k j l : nth j (remove_at k l) 0 = nth (v_axis k j) l 0.
Proof.
  revert k j. induction l as [|x l IH]; intros k j.
  - unfold v_axis. destruct k; cbn [remove_at]; destruct j; destruct (Nat.ltb _ _); reflexivity.
  - destruct k as [|k].
    + unfold v_axis. cbn. reflexivity.
    + destruct j as [|j]; [reflexivity|]. cbn [remove_at nth]. rewrite IH. unfold v_axis.
      change (S j <? S k) with (j <? k). destruct (j <? k); reflexivity.
Qed.
Lemma length_remove k l : k < List.length l -> List.length (remove_at k l) = List.length l - 1.
Proof.
  revert k. induction l as [|x l IH]; intros k H; [cbn in H; lia|]. destruct k; cbn in *; [lia|]. rewrite IH by lia. lia.
Qed.
Lemma axes_differ a b j : j < List.length a -> j < List.length b -> nth j a 0 <> nth j b 0 -> nth j a 0 <> 1 -> nth j b 0 <> 1 ->
  axes_match a b = false.
Proof.
  revert b j. induction a as [|x a IH]; intros b j Ha Hb H1 H2 H3; [cbn in Ha; lia|]. destruct b as [|y b]; [cbn in Hb; lia|].
  cbn [axes_match]. destruct j as [|j]; cbn [nth] in *.
  - apply Nat.eqb_neq in H1, H2, H3. rewrite H1, H2, H3. reflexivity.
  - cbn in Ha, Hb. rewrite (IH b j) by (auto; lia). apply andb_false_r.
Qed.
(** An axis that does not exist raises IndexError; vectors without three coordinates, an
    array of quaternions that has not exactly one axis less than the vectors, and axes of
    different sizes (neither one) raise ValueError. *)
Theorem C71_rotate_refused : forall q v axis,
  (no_axis axis (ndim v) -> rotate_vectors q v axis = Raise IndexError) /\
  (forall k, axis_is axis k (ndim v) -> k < ndim v ->
    (nth k (shp v) 0 <> 3 -> rotate_vectors q v axis = Raise ValueError) /\
    (ndim q <> 0 -> S (ndim q) <> ndim v -> rotate_vectors q v axis = Raise ValueError) /\
    (forall j, S (ndim q) = ndim v -> j < ndim q ->
       let a := nth j (shp q) 0 in let b := nth (if j <? k then j else S j) (shp v) 0 in
       a <> b -> a <> 1 -> b <> 1 -> rotate_vectors q v axis = Raise ValueError)).
Proof.
  intros q v axis. split.
  - intros H. unfold rotate_vectors. rewrite (no_axis_norm _ _ H). destruct (shp q); reflexivity.
  - intros k Hk Hlt. repeat apply conj.
    + intros H3. apply Nat.eqb_neq in H3. unfold rotate_vectors. rewrite (axis_is_norm _ _ _ Hlt Hk). cbn [bind]. unfold rv0. rewrite H3.
      destruct (shp q); reflexivity.
    + intros H0 H1. unfold rotate_vectors. rewrite (axis_is_norm _ _ _ Hlt Hk). cbn [bind].
      destruct (shp q) as [|x l] eqn:E; [unfold ndim in H0; rewrite E in H0; cbn in H0; lia|].
      destruct (negb (nth k (shp v) 0 =? 3)); [reflexivity|].
      replace (ndim q =? ndim v - 1) with false by (symmetry; apply Nat.eqb_neq; lia). reflexivity.
    + intros j H1 Hj a b Hab Ha Hb. unfold rotate_vectors. rewrite (axis_is_norm _ _ _ Hlt Hk). cbn [bind].
      destruct (shp q) as [|x l] eqn:E; [unfold ndim in Hj; rewrite E in Hj; cbn in Hj; lia|]. rewrite <- E.
      destruct (negb (nth k (shp v) 0 =? 3)); [reflexivity|].
      rewrite (axes_differ (shp q) (remove_at k (shp v)) j); [rewrite orb_true_r; reflexivity|auto| | | |].
      * rewrite length_remove by auto. unfold ndim in *. lia.
      * rewrite nth_remove, E. exact Hab.
      * rewrite E. exact Ha.
      * rewrite nth_remove. exact Hb.
Qed.


(** The part of a call before the arrays are touched. *)
Lemma unpack_raise squad m w x into outof dim axis ts time_axis e : snd (maybe_unpack w x dim axis time_axis ts) = Raise e ->
  snd (transform squad m w x into outof dim axis ts time_axis) = Raise e.
Proof. intros H. unfold transform. destruct (maybe_unpack w x dim axis time_axis ts) as (w1 & r). cbn in H. subst r. reflexivity. Qed.
Lemma index_missing n l : ~ In n l -> index_of n l = Raise ValueError.
Proof.
  induction l as [|x l IH]; intros H; [reflexivity|]. cbn [index_of]. destruct (String.eqb_spec n x) as [->|Hne]; [exfalso; apply H; left; auto|].
  rewrite IH; [reflexivity|]. intros Hin. apply H. right. auto.
Qed.
Lemma check_lab u u' : same_axis_check u = Ok u' -> u' = u.
Proof.
  unfold same_axis_check. destruct (u_ts u); [|intros H; injection H as ->; auto]. destruct (u_time_axis u); [|discriminate].
  destruct (Nat.eqb _ 0); [discriminate|]. destruct (Z.eqb _ _); [discriminate|]. intros H. injection H as ->. auto.
Qed.
(** What maybe_unpack leaves behind. *)
Lemma unpack_world w x dim axis time_axis ts w1 r : maybe_unpack w x dim axis time_axis ts = (w1, r) ->
  attrs_kept w w1 /\
  forall u, r = Ok u ->
    match x with
    | Plain a => w1 = w /\ u_lab u = None
    | Lab d => u_lab u = Some (da_coords d, da_dims d, da_name d, List.length (dicts w)) /\ List.length (dicts w) < List.length (dicts w1) /\
               dict_at w1 (List.length (dicts w)) = dict_at w (da_attrs d)
    end.
Proof.
  intros H. destruct x as [a|d]; cbn [maybe_unpack] in H.
  - injection H as <- <-. split; [repeat split; auto|]. intros u Hu. destruct dim; [discriminate|]. split; auto.
    apply check_lab in Hu. subst u. reflexivity.
  - destruct (alloc w (dict_at w (da_attrs d))) as (w' & l) eqn:Ea. destruct (dict_alloc _ _ _ _ Ea) as (F & El & Hl & Hd & Ho).
    injection H as <- <-. split; [split; auto; split; [lia|auto]|]. intros u Hu. subst l. split; [|split; [lia|auto]].
    apply bind_ok in Hu as (ax & _ & Hu). apply bind_ok in Hu as (v & Hv & Hu). apply check_lab in Hu. subst u.
    destruct ts.
    + destruct (1 <? _).
      * apply bind_ok in Hv as (nm & _ & Hv). apply bind_ok in Hv as (c & _ & Hv). apply bind_ok in Hv as (t & _ & Hv). injection Hv as <-. reflexivity.
      * injection Hv as <-. reflexivity.
    + injection Hv as <-. reflexivity.
    + apply bind_ok in Hv as (nm & _ & Hv). apply bind_ok in Hv as (t & _ & Hv). injection Hv as <-. reflexivity.
    + discriminate.
Qed.
Lemma make_xr_world w a coords dims name l w' r : make_xr w a coords dims name l = (w', r) ->
  attrs_kept w w' /\ forall d, r = Ok d -> da_attrs d = List.length (dicts w) /\ List.length (dicts w') = S (List.length (dicts w)).
Proof.
  unfold make_xr. destruct (_ && _)%bool.
  - destruct (alloc w (dict_at w l)) as (w2 & l') eqn:Ea. destruct (dict_alloc _ _ _ _ Ea) as (F & El & Hl & Hd & Ho).
    intros H. injection H as <- <-. split; [split; auto; split; [lia|auto]|]. intros d Hd'. injection Hd' as <-. cbn [da_attrs]. auto.
  - intros H. injection H as <- <-. split; [repeat split; auto|discriminate].
Qed.
Lemma make_world w a coords dims name l td ts w' r : make_dataarray w a coords dims name l td ts = (w', r) ->
  attrs_kept w w' /\ forall d, r = Ok d -> da_attrs d = List.length (dicts w) /\ List.length (dicts w') = S (List.length (dicts w)).
Proof.
  assert (K : forall e, (w, @Raise darr e) = (w', r) -> attrs_kept w w' /\ forall d, r = Ok d -> da_attrs d = List.length (dicts w) /\ List.length (dicts w') = S (List.length (dicts w))).
  { intros e H. injection H as <- <-. split; [repeat split; auto|discriminate]. }
  unfold make_dataarray. destruct td as [td|].
  - destruct (lookup td coords); [|apply K]. destruct ts as [t|]; [|apply K]. destruct (stamps_of c); [|apply K].
    destruct (same_list _ _); [apply make_xr_world|]. destruct (traverse _ _); [apply make_xr_world|apply K].
  - destruct ts; apply make_xr_world.
Qed.
Lemma kept_trans a b c : attrs_kept a b -> attrs_kept b c -> attrs_kept a c.
Proof.
  intros (F & L & H) (F' & L' & H'). split; [congruence|]. split; [lia|]. intros l Hl. rewrite H' by lia. auto.
Qed.

(** Refused calls of the top-level functions on labelled and plain arrays. *)
Theorem C71_top_refused : forall squad m w into ts time_axis,
  (* a dimension name for a plain array *)
  (forall a outof n axis, snd (transform squad m w (Plain a) into outof (Some n) axis ts time_axis) = Raise ValueError) /\
  (* both dim and axis *)
  (forall d outof n z, snd (transform squad m w (Lab d) into outof (Some n) (Some z) ts time_axis) = Raise ValueError) /\
  (* a dimension that does not exist *)
  (forall d outof n, ~ In n (da_dims d) -> snd (transform squad m w (Lab d) into outof (Some n) None ts time_axis) = Raise ValueError) /\
  (* timestamps given as an array for a labelled array *)
  (forall d outof n t, In n (da_dims d) -> snd (transform squad m w (Lab d) into outof (Some n) None (TArr t) time_axis) = Raise NotImplementedError) /\
  (forall d outof dim axis t r, snd (transform squad m w (Lab d) into outof dim axis (TArr t) time_axis) = Ok r -> False) /\
  (* timestamps named by a dimension that does not exist *)
  (forall d outof n td, In n (da_dims d) -> ~ In td (da_dims d) ->
     snd (transform squad m w (Lab d) into outof (Some n) None (TName td) time_axis) = Raise ValueError) /\
  (* no time coordinate on the first axis *)
  (forall d outof n td, In n (da_dims d) -> 1 < ndim (da_data d) -> nth_error (da_dims d) 0 = Some td -> lookup td (da_coords d) = None ->
     snd (transform squad m w (Lab d) into outof (Some n) None TNone None) = Raise KeyError) /\
  (* no source frame *)
  (forall a axis r, snd (transform squad m w (Plain a) into None None axis ts time_axis) = Ok r -> False) /\
  (forall d dim axis r, attr w d (frame_attr m) = None ->
     snd (transform squad m w (Lab d) into None dim axis ts time_axis) = Ok r -> False).
Proof.
  intros squad m w into ts time_axis.
  assert (IN : forall n l, In n l -> exists i, index_of n l = Ok i).
  { intros n l. induction l as [|x l IH]; intros H; [destruct H|]. cbn [index_of]. destruct (String.eqb_spec n x); [eauto|].
    destruct H as [->|H]; [congruence|]. destruct (IH H) as (i & ->). eexists. reflexivity. }
  repeat apply conj.
  - intros. apply unpack_raise. reflexivity.
  - intros. apply unpack_raise. reflexivity.
  - intros d outof n Hn. apply unpack_raise. cbn [maybe_unpack alloc snd]. rewrite (index_missing _ _ Hn). reflexivity.
  - intros d outof n t Hn. apply unpack_raise. cbn [maybe_unpack alloc snd]. destruct (IN _ _ Hn) as (i & ->). reflexivity.
  - intros d outof dim axis t r H. unfold transform in H. cbn [maybe_unpack alloc] in H.
    match type of H with context[match bind ?A ?F with _ => _ end] => destruct A; cbn [bind] in H; cbn in H; discriminate end.
  - intros d outof n td Hn Htd. apply unpack_raise. cbn [maybe_unpack alloc snd]. destruct (IN _ _ Hn) as (i & ->). cbn [bind].
    rewrite (index_missing _ _ Htd). reflexivity.
  - intros d outof n td Hn H1 H0 Hl. apply unpack_raise. cbn [maybe_unpack alloc snd]. destruct (IN _ _ Hn) as (i & ->). cbn [bind].
    apply Nat.ltb_lt in H1. rewrite H1. destruct (da_dims d) as [|x ds]; [discriminate|]. injection H0 as ->.
    cbn. rewrite Hl. reflexivity.
  - intros a axis r H. unfold transform in H. destruct (maybe_unpack _ _ _ _ _ _) as (w1 & [u|]) eqn:E; [|discriminate].
    destruct (unpack_world _ _ _ _ _ _ _ _ E) as (_ & U). specialize (U u eq_refl). destruct U as (_ & U). rewrite U in H. discriminate.
  - intros d dim axis r Ha H. unfold transform in H. destruct (maybe_unpack _ _ _ _ _ _) as (w1 & [u|]) eqn:E; [|discriminate].
    destruct (unpack_world _ _ _ _ _ _ _ _ E) as (_ & U). specialize (U u eq_refl). destruct U as (U & _ & D). rewrite U, D in H.
    unfold attr in Ha. replace (what_of m) with (frame_attr m) in H by (destruct m; reflexivity). rewrite Ha in H. discriminate.
Qed.
(** Whatever the arguments and the outcome, a call changes neither the frames nor the
    attributes of any existing array; and what it returns is a new array with a dictionary
    of its own. *)
Theorem C71_inputs_kept : forall squad m w x into outof dim axis ts time_axis w' r,
  transform squad m w x into outof dim axis ts time_axis = (w', r) ->
  attrs_kept w w' /\ (forall d', r = Ok (RLab d') -> List.length (dicts w) <= da_attrs d' < List.length (dicts w')).
Proof.
  intros squad m w x into outof dim axis ts time_axis w' r H. unfold transform in H.
  destruct (maybe_unpack w x dim axis time_axis ts) as (w1 & ru) eqn:E. destruct (unpack_world _ _ _ _ _ _ _ _ E) as (K & U).
  destruct ru as [u|e]; [|injection H as <- <-; split; [auto|discriminate]]. specialize (U u eq_refl).
  match type of H with context[match ?A with _ => _ end] => destruct A as [(o & j)|e] end; [|injection H as <- <-; split; [auto|discriminate]].
  set (w2 := match u_lab u with None => w1 | Some _ => _ end) in H.
  assert (K2 : attrs_kept w w2).
  { subst w2. destruct x as [a|d].
    - destruct U as (-> & ->). repeat split; auto.
    - destruct U as (-> & Hl & Hd). destruct K as (F & L & Hk). split; [exact F|]. split; [rewrite length_write; lia|].
      intros k Hk'. rewrite dict_write. replace (_ =? k) with false by (symmetry; apply Nat.eqb_neq; lia). auto. }
  clearbody w2. destruct (call_method _ _ _ _ _ _ _ _ _) as [(a & t)|e]; [|injection H as <- <-; split; [auto|discriminate]].
  destruct (u_lab u) as [[[[coords dims] name] l]|]; [|injection H as <- <-; split; [auto|discriminate]].
  destruct (make_dataarray _ _ _ _ _ _ _ _) as (w3 & rr) eqn:Em. destruct (make_world _ _ _ _ _ _ _ _ _ _ Em) as (K3 & D3).
  injection H as <- <-. split; [eapply kept_trans; eauto|]. intros d' Hd'. destruct rr as [d''|]; [|discriminate]. injection Hd' as ->.
  destruct (D3 d' eq_refl) as (-> & ->). destruct K2 as (_ & L2 & _). lia.
Qed.
(** Concrete calls: four coordinates, five timestamps for two samples, decreasing
    timestamps, an unknown frame; and quaternions whose axes do not match. *)
Example C71_example : let a := arr2 3 [[1; 0; 0]; [0; 1; 0]]%R in
  no_axis 2 (ndim a) /\ axis_is (-1) 1 (ndim a) /\ nth 1 (shp a) 0 = coordinates Points /\ nth 1 (shp a) 0 <> coordinates Quaternions /\
  nth 0 (shp a) 0 <> 5 /\ shp (arr1 [0; 1; 2; 3; 4]%R) = [5] /\
  (shp (arr1 [1; 0]%R) = [2] /\ 0 < 1 < 2 /\ Rlt (dat (arr1 [1; 0]%R) [1]) (dat (arr1 [1; 0]%R) [0])) /\
  reachable mov_lit /\ frame mov_lit 1 /\ lookup "nobody"%string (reg mov_lit) = None /\
  (let q := Nd [5] (fun _ => q1) in let v := Nd [3; 2] (fun _ => 1%R) in
   S (ndim q) = ndim v /\ axis_is 0 0 (ndim v) /\ nth 0 (shp v) 0 = 3 /\ nth 0 (shp q) 0 <> nth 1 (shp v) 0 /\ rotate_vectors q v 0 = Raise ValueError).
Proof.
  cbv zeta. repeat apply conj; try reflexivity; try (cbn; lia); try (cbn; lra).
  - right. cbn. lia.
  - right. reflexivity.
  - apply mov_lit_reachable.
  - unfold frame. cbn. lia.
  - left. reflexivity.
Qed.
(** An array without a frame attribute, asked for without a source frame, along a
    dimension it does not have, and with its time coordinate missing. *)
Definition ex_bare : darr := DA (arr2 3 [[1; 0; 0]; [0; 1; 0]]%R) ["time"; "axis"]%string [] None 0.
Example C71_top_example : let w := World mov_lit [[("units", Some "m")]%string] in
  ~ In "x"%string (da_dims ex_bare) /\ In "axis"%string (da_dims ex_bare) /\ 1 < ndim (da_data ex_bare) /\
  nth_error (da_dims ex_bare) 0 = Some "time"%string /\ lookup "time"%string (da_coords ex_bare) = None /\
  attr w ex_bare (frame_attr Points) = None /\
  snd (transform hold_squad Points w (Lab ex_bare) (PName "world"%string) (Some (PName "m"%string)) None None TNone None) = Raise KeyError.
Proof.
  cbv zeta. split; [cbn; intros [H|[H|[]]]; discriminate|]. split; [right; left; reflexivity|]. split; [cbn; lia|]. split; [reflexivity|]. split; [reflexivity|].
  split; [reflexivity|]. reflexivity.
Qed.
