(** Property C73: the estimators on labelled arrays. *)
From Coq Require Import Reals String List Arith Bool ZArith Lia Lra Permutation Sorted.
From Verif Require Import Base Quat SpecQuat QuatProofs NdArray Frames SpecForest FrameProofs WalkProofs
  Matcher SpecLookup LookupProofs RegistryProofs MovingProofs TimeProofs CtorProofs InverseProofs RouteProofs
  Examples PropForest PropLookup PropMoving
  Transform SpecArray NdProofs RotProofs ArrProofs ArrTransProofs ArrStaticProofs PropTransform PropRotate
  Coord PropCoord Velocity VelProofs VelFrames SpecMotion PropVelocity PropAngular Utils Estim SpecEstim PropEstim TopLevel TopProofs SpecTop TopStep PropCoordTop TopEstim.
Import ListNotations.
Open Scope nat_scope.

(* ------------------------------------------------------------------ specification *)
(** d' has the labels of d, except that dimension k is called new, with these labels, and
    coordinates along the old dimension are gone. *)
Definition relabelled (d d' : darr) (k : nat) (new : string) (labels : list string) : Prop :=
  da_name d' = da_name d /\
  (forall j, nth_error (da_dims d') j = if Nat.eqb j k then Some new else nth_error (da_dims d) j) /\
  lookup new (da_coords d') = Some (Co [new] (CStr labels)) /\
  forall old m c, nth_error (da_dims d) k = Some old -> m <> new ->
    (lookup m (da_coords d') = Some c <-> lookup m (da_coords d) = Some c /\ ~ In old (co_dims c)).
(** Only dimension k may have this name. *)
Definition free_name (d : darr) (k : nat) (new : string) : Prop := forall j, nth_error (da_dims d) j = Some new -> j = k.
(** The coordinates of an array are a dictionary. *)
Definition keyed (d : darr) : Prop := NoDup (map fst (da_coords d)).
(** All attributes are those of d, in a dictionary of its own. *)
Definition same_attrs (w : world) (d : darr) (w' : world) (d' : darr) : Prop :=
  (forall q, attr w' d' q = attr w d q) /\ List.length (dicts w) <= da_attrs d'.

(* ------------------------------------------------------------------ proofs: labels *)
Lemma relabel_make w d k old into new labels a ax w1 l1 : data_array w d -> keyed d -> k < ndim (da_data d) ->
  nth_error (da_dims d) k = Some old -> free_name d k new -> new_axis into 3 = Ok (new, labels) ->
  shp a = setn k (List.length labels) (shp (da_data d)) -> norm_axis ax (ndim (da_data d)) = Ok k ->
  alloc w (dict_at w (da_attrs d)) = (w1, l1) ->
  exists cs w' d', replace_dim (da_coords d) (da_dims d) ax into 3 = Ok (cs, rename old new (da_dims d)) /\
    (forall m c, m <> new -> (lookup m cs = Some c <-> lookup m (da_coords d) = Some c /\ ~ In old (co_dims c))) /\
    make_xr w1 a cs (rename old new (da_dims d)) (da_name d) l1 = (w', Ok d') /\
    da_data d' = a /\ attrs_kept w w' /\ data_array w' d' /\ relabelled d d' k new labels /\ same_attrs w d w' d'.
Proof.
  intros Hda Hnc Hk Hold Hnew Hna Hsh N Al. pose proof Hda as (Hlen & Hnd & Hco & Hat).
  assert (Hl : forall x (l : list nat) j, List.length (setn j x l) = List.length l).
  { intros x l. induction l; intros [|j]; cbn; auto. }
  assert (Hns : forall x (l : list nat) j i, nth_error (setn j x l) i = if Nat.eqb i j then (if Nat.ltb j (List.length l) then Some x else None) else nth_error l i).
  { intros x l. induction l as [|y l IH]; intros [|j] [|i]; cbn; auto. - destruct (Nat.eqb i j); reflexivity. - rewrite IH. reflexivity. }
  assert (Hnda : ndim a = ndim (da_data d)) by (unfold ndim; rewrite Hsh, Hl; reflexivity).
  set (coords' := filter (fun c => negb (existsb (String.eqb old) (co_dims (snd c)))) (da_coords d)).
  set (cs := dict_set new (Co [new] (CStr labels)) coords').
  destruct (dict_alloc _ _ _ _ Al) as (F1 & L1 & Len1 & D1 & O1).
  assert (Hnd' : NoDup (rename old new (da_dims d))) by (eapply rename_nodup; eauto).
  assert (Hlen' : List.length (rename old new (da_dims d)) = ndim a) by (unfold rename; rewrite map_length, Hnda; auto).
  assert (Hin : forall m c, In (m, c) cs -> (m = new /\ c = Co [new] (CStr labels)) \/ (In (m, c) (da_coords d) /\ ~ In old (co_dims c))).
  { intros m c Hin. apply in_set in Hin as [H|(H1 & H)]; auto.
    - right. unfold coords' in H. apply filter_In in H as (H & E). split; auto. intros G. cbn [snd] in E. apply negb_true_iff in E.
      rewrite <- not_true_iff_false in E. apply E. apply existsb_exists. exists old. split; auto. apply String.eqb_refl.
    - unfold coords'. clear - Hnc. unfold keyed in Hnc. induction (da_coords d) as [|[a b] l IH]; cbn; [constructor|]. inversion Hnc; subst.
      destruct (negb _); cbn; auto. constructor; auto. intros G. apply H1. apply in_map_iff in G as (x & E & Hx). apply filter_In in Hx as (Hx & _).
      apply in_map_iff. eauto. }
  assert (Hfit : forall nm l m c, In (m, c) cs -> Forall2 (dim_size (DA a (rename old new (da_dims d)) cs nm l)) (co_dims c) (coord_size c)).
  { intros nm l m c Hc. apply Hin in Hc as [(-> & ->)|(Hc & Ho)].
    - cbn. constructor; [|constructor]. exists k. cbn [da_dims da_data]. split; [rewrite (rename_nth old new _ k) by auto; rewrite Nat.eqb_refl; reflexivity|].
      rewrite Hsh, Hns, Nat.eqb_refl. destruct (Nat.ltb_spec k (List.length (shp (da_data d)))); [reflexivity|unfold ndim in Hk; lia].
    - specialize (Hco _ _ Hc). clear - Hco Ho Hnd Hold Hsh Hns. induction Hco as [|x y l1 l2 (j & E1 & E2) H IH]; constructor; [|apply IH; intros G; apply Ho; right; auto].
      exists j. cbn [da_dims da_data]. rewrite Hsh, Hns. rewrite (rename_nth old new _ k) by auto.
      destruct (Nat.eqb_spec j k) as [->|]; auto. exfalso. apply Ho. left. congruence. }
  destruct (alloc w1 (dict_at w1 l1)) as [w3 l3] eqn:A3. destruct (dict_alloc _ _ _ _ A3) as (F3 & L3 & Len3 & D3 & O3).
  assert (Hkeep : forall m c, m <> new -> (lookup m cs = Some c <-> lookup m (da_coords d) = Some c /\ ~ In old (co_dims c))).
  { intros m c Hm. unfold cs. rewrite lookup_set. destruct (String.eqb_spec m new); [contradiction|]. unfold coords'. rewrite lookup_filter by auto. cbn [snd].
    rewrite negb_true_iff, <- not_true_iff_false, existsb_exists. split; intros (H1 & H2); split; auto; intros G; apply H2.
    - exists old. split; auto. apply String.eqb_refl.
    - destruct G as (x & Hx & E). apply String.eqb_eq in E. subst. auto. }
  exists cs, w3, (DA a (rename old new (da_dims d)) cs (da_name d) l3). split.
  { unfold replace_dim. rewrite (tuple_at_ok _ _ k) by (rewrite Hlen; auto). cbn [bind]. rewrite (nth_error_nth _ _ EmptyString Hold). rewrite Hna. reflexivity. }
  split; [exact Hkeep|]. split.
  { unfold make_xr. rewrite Hlen', Nat.eqb_refl, (distinct_nodup _ Hnd').
    assert (G : forallb (fun c => coord_fits a (rename old new (da_dims d)) (snd c)) cs = true).
    { apply forallb_forall. intros [m c] Hc. apply (fits_ok (DA a (rename old new (da_dims d)) cs (da_name d) l3)); cbn [da_dims da_data snd]; auto. eapply Hfit; eauto. }
    rewrite G. cbn [andb]. rewrite A3. reflexivity. }
  cbn [da_data]. split; auto. split. { split; [congruence|]. split; [lia|]. intros j Hj. rewrite O3 by lia. auto. }
  split. { split; [exact Hlen'|]. split; [exact Hnd'|]. split; [intros m c Hc; eapply Hfit; eauto|cbn [da_attrs]; lia]. }
  split.
  { split; auto. split; [intros j; apply rename_nth; auto|]. split; [unfold cs; cbn [da_coords]; rewrite lookup_set, String.eqb_refl; reflexivity|].
    intros old' m c Ho Hm. rewrite Hold in Ho. injection Ho as <-. apply Hkeep; auto. }
  split. { intros q. unfold attr. cbn [da_attrs]. rewrite D3, D1. reflexivity. } cbn [da_attrs]. lia.
Qed.

(** Unpacking a labelled time series. *)
Lemma unpack_timed w d dim axis ts time_axis k tau n tsa w1 l1 : data_array w d -> picks d dim axis k -> timed d ts time_axis tau n tsa -> k <> tau ->
  tau < ndim (da_data d) -> alloc w (dict_at w (da_attrs d)) = (w1, l1) ->
  exists ax ta td, axis_is ax k (ndim (da_data d)) /\ axis_is ta tau (ndim (da_data d)) /\ k < ndim (da_data d) /\
    nth_error (da_dims d) tau = Some td /\ lookup td (da_coords d) = Some (Co [td] (CNum tsa)) /\
    maybe_unpack w (Lab d) dim axis time_axis ts = (w1, Ok (Un (da_data d) ax (Some ta) (Some td) (Some tsa) (Some (da_coords d, da_dims d, da_name d, l1)))).
Proof.
  intros Hda Hp (td & Htd & Htc & Hts & Hsh & Hn & Hinc) Hne Htau Al. destruct (picks_axis w d dim axis k Hda Hp) as (ax & Hai & Hk & Hr).
  pose proof Hda as (Hlen & Hnd & Hco & Hat).
  assert (exists ta, axis_is ta tau (ndim (da_data d)) /\
    (ts = TName td /\ ta = Z.of_nat tau \/ ts = TNone /\ 1 < ndim (da_data d) /\ or_default time_axis 0 = ta)) as (ta & Hta & Hc).
  { destruct Hts as [->|(-> & H1 & H2 & H3)].
    - exists (Z.of_nat tau). split; [left; auto|left; auto].
    - destruct time_axis as [z|].
      + cbn [or_default]. destruct (Z.eqb_spec z 0).
        * exists 0%Z. split; [|right; auto]. subst z. destruct H3 as [H3|(H3 & _)]; [left; lia|lia].
        * exists z. split; [|right; auto]. destruct H3 as [H3|(_ & H3)]; [left; auto|right; auto].
      + exists 0%Z. subst tau. split; [left; auto|right; auto]. }
  exists ax, ta, td. split; auto. split; auto. split; auto. split; auto. split; auto.
  unfold maybe_unpack. rewrite Al. cbv zeta in Hr |- *. rewrite Hr. cbn [bind].
  assert (Chk : same_axis_check (Un (da_data d) ax (Some ta) (Some td) (Some tsa) (Some (da_coords d, da_dims d, da_name d, l1))) =
    Ok (Un (da_data d) ax (Some ta) (Some td) (Some tsa) (Some (da_coords d, da_dims d, da_name d, l1)))).
  { unfold same_axis_check. cbn [u_ts u_time_axis u_arr u_axis]. destruct (Nat.eqb_spec (ndim (da_data d)) 0); [lia|].
    rewrite (axis_mod ax k), (axis_mod ta tau) by auto. destruct (Z.eqb_spec (Z.of_nat k) (Z.of_nat tau)); [lia|reflexivity]. }
  destruct Hc as [(-> & ->)|(-> & H1 & H2)].
  - rewrite (index_of_nth td (da_dims d) tau Hnd Htd). cbn [bind]. rewrite Htc. cbn [stamps_of co_vals bind]. rewrite Chk. reflexivity.
  - destruct (Nat.ltb_spec 1 (ndim (da_data d))); [|lia]. rewrite H2. rewrite (tuple_at_ok _ _ tau) by (rewrite Hlen; apply axis_is_norm; auto).
    cbn [bind]. rewrite (nth_error_nth _ _ EmptyString Htd), Htc. cbn [stamps_of co_vals bind]. rewrite Chk. reflexivity.
Qed.
Lemma timed_lt d ts time_axis tau n tsa w : data_array w d -> timed d ts time_axis tau n tsa -> tau < ndim (da_data d).
Proof. intros (Hlen & _) (td & Htd & _). rewrite <- Hlen. apply nth_error_Some. congruence. Qed.
Lemma timed_inc d ts time_axis tau n tsa : timed d ts time_axis tau n tsa ->
  shp tsa = [n] /\ List.length (list_of tsa) = n /\ 2 <= n /\ increasing (list_of tsa) /\ forall m, m < n -> nth m (list_of tsa) 0%R = dat tsa [m].
Proof.
  intros (td & _ & _ & _ & Hsh & Hn & Hinc). split; auto. assert (L : List.length (list_of tsa) = n) by (unfold list_of; rewrite map_length, seq_length, Hsh; reflexivity).
  assert (N : forall m, m < n -> nth_error (list_of tsa) m = Some (dat tsa [m])).
  { intros m Hm. unfold list_of. rewrite nth_error_map. rewrite Hsh. cbn [hd]. rewrite (nth_error_nth' _ 0) by (rewrite seq_length; lia).
    rewrite seq_nth by lia. reflexivity. }
  split; auto. split; auto. split.
  - intros i j x y Hij Hx Hy. assert (i < n /\ j < n) as (Hi & Hj) by (split; rewrite <- L; apply nth_error_Some; congruence).
    rewrite N in Hx, Hy by auto. injection Hx as <-. injection Hy as <-. apply Hinc. lia.
  - intros m Hm. apply nth_error_nth. auto.
Qed.
Lemma make_timed w1 a cs dims name l td tsa n : lookup td cs = Some (Co [td] (CNum tsa)) -> shp tsa = [n] ->
  make_dataarray w1 a cs dims name l (Some td) (Some (list_of tsa)) = make_xr w1 a cs dims name l.
Proof. intros H Hs. unfold make_dataarray. rewrite H. cbn [stamps_of co_vals]. rewrite same_list_refl. reflexivity. Qed.

(* ------------------------------------------------------------------ linear velocity *)
(** A labelled time series: the result is what the plain function gives for the data with
    these axes, under the labels and attributes of the input; the input keeps its own. *)
Theorem C73_linear : forall w d dim axis ts time_axis k tau n tsa sh, data_array w d -> picks d dim axis k ->
  timed d ts time_axis tau n tsa -> k <> tau -> shp (da_data d) = put tau n sh -> tau <= List.length sh ->
  exists w' d', estimate_linear_top w (Lab d) dim axis ts time_axis = (w', Ok (RLab d')) /\
    attrs_kept w w' /\ data_array w' d' /\ same_labels d d' /\ same_attrs w d w' d' /\
    forall ax ta, axis_is ax k (ndim (da_data d)) -> ax <> 0%Z -> axis_is ta tau (ndim (da_data d)) ->
      estimate_linear_velocity (da_data d) (Some ax) (list_of tsa) (Some ta) = Ok (da_data d').
Proof.
  intros w d dim axis ts time_axis k tau n tsa sh Hda Hp Ht Hne Hsh Hts. pose proof (timed_lt _ _ _ _ _ _ w Hda Ht) as Htau.
  destruct (timed_inc _ _ _ _ _ _ Ht) as (Hs & Hl & Hn & Hinc & _).
  destruct (alloc w (dict_at w (da_attrs d))) as [w1 l1] eqn:Al. destruct (unpack_timed _ _ _ _ _ _ _ _ _ _ _ _ Hda Hp Ht Hne Htau Al) as (ax & ta & td & Hax & Hta & Hk & Htd & Htc & Hu).
  destruct (dict_alloc _ _ _ _ Al) as (F1 & L1 & Len1 & D1 & O1).
  assert (G : exists g, gradient_nd (da_data d) (list_of tsa) tau = Ok g /\ shp g = shp (da_data d)).
  { destruct (C32_shape (da_data d) (Some (Z.of_nat k - Z.of_nat (ndim (da_data d)))%Z) (Some (Z.of_nat tau)) (list_of tsa) tau sh n) as (A & _); auto.
    - left; auto.
    - unfold axis_not. destruct (Z.of_nat k - Z.of_nat (ndim (da_data d)))%Z eqn:E; [lia| |]; exists k; split; auto; split; auto; right; lia.
    - destruct A as (g & E & S); auto. exists g. split; auto. rewrite <- E. symmetry. apply (axes_resolved _ _ _ tau sh n); auto; [left; auto|].
      unfold axis_not. destruct (Z.of_nat k - Z.of_nat (ndim (da_data d)))%Z eqn:E'; [lia| |]; exists k; split; auto; split; auto; right; lia. }
  destruct G as (g & Eg & Sg). destruct (make_ok w w1 d g l1 Hda Sg) as (w3 & l3 & Em & A3). destruct (dict_alloc _ _ _ _ A3) as (F3 & L3 & Len3 & D3 & O3).
  exists w3, (DA g (da_dims d) (da_coords d) (da_name d) l3). split.
  { unfold estimate_linear_top. rewrite Hu. cbn [u_ts u_time_axis u_arr u_lab u_time_dim timestamps_ok]. rewrite Hs. cbn [bind].
    rewrite (axis_is_norm ta tau) by auto. cbn [bind]. rewrite Eg. cbn [bind]. unfold wrap. cbn [option_map].
    rewrite (make_timed _ _ _ _ _ _ td tsa n Htc Hs). rewrite Em. reflexivity. }
  split. { split; [congruence|]. split; [lia|]. intros j Hj. rewrite O3 by lia. auto. }
  pose proof Hda as (H1 & H2 & H3 & H4).
  split. { split; [unfold ndim in *; cbn [da_dims da_data]; rewrite Sg; auto|]. split; auto. split; [|cbn [da_attrs]; lia].
    intros m c Hc. specialize (H3 m c Hc). clear - H3 Sg. induction H3 as [|x y l l' (j & E1 & E2) H IH]; constructor; auto. exists j. cbn [da_dims da_data]. rewrite Sg. auto. }
  split; [split; auto|]. split. { split; [intros q; unfold attr; cbn [da_attrs]; rewrite D3, D1; reflexivity|cbn [da_attrs]; lia]. }
  intros ax' ta' Ha' Hz Ht'. cbn [da_data]. rewrite <- Eg. apply (axes_resolved _ _ _ tau sh n); auto.
  unfold axis_not. destruct ax' as [|z|z]; [congruence| |]; exists k; auto.
Qed.
(** So the velocity of points that move uniformly comes out exactly, at every label. *)
Theorem C73_linear_exact : forall w d dim axis ts time_axis k tau n tsa sh (p v : list nat -> R), data_array w d -> picks d dim axis k ->
  timed d ts time_axis tau n tsa -> k <> tau -> shp (da_data d) = put tau n sh -> tau <= List.length sh ->
  (forall c m, valid sh c -> m < n -> dat (da_data d) (put tau m c) = (p c + v c * dat tsa [m])%R) ->
  exists w' d', estimate_linear_top w (Lab d) dim axis ts time_axis = (w', Ok (RLab d')) /\ same_labels d d' /\ same_attrs w d w' d' /\
    forall c m, valid sh c -> m < n -> dat (da_data d') (put tau m c) = v c.
Proof.
  intros w d dim axis ts time_axis k tau n tsa sh p v Hda Hp Ht Hne Hsh Hts Hv. pose proof (timed_lt _ _ _ _ _ _ w Hda Ht) as Htau.
  destruct (timed_inc _ _ _ _ _ _ Ht) as (Hs & Hl & Hn & Hinc & Hnth).
  destruct (picks_axis w d dim axis k Hda Hp) as (_ & _ & Hk & _).
  destruct (C73_linear _ _ _ _ _ _ _ _ _ _ _ Hda Hp Ht Hne Hsh Hts) as (w' & d' & E & _ & _ & Sl & Sa & Pl). exists w', d'. split; auto. split; auto. split; auto.
  specialize (Pl (Z.of_nat k - Z.of_nat (ndim (da_data d)))%Z (Z.of_nat tau) ltac:(right; lia) ltac:(lia) ltac:(left; auto)).
  destruct (C32_constant_velocity (da_data d) (Some (Z.of_nat k - Z.of_nat (ndim (da_data d)))%Z) (Some (Z.of_nat tau)) (list_of tsa) tau sh p v) as (b & Eb & _ & Hb); auto; try (rewrite Hl; auto).
  - left; auto.
  - unfold axis_not. destruct (Z.of_nat k - Z.of_nat (ndim (da_data d)))%Z eqn:E'; [lia| |]; exists k; split; auto; split; auto; right; lia.
  - intros c m Hc Hm. rewrite Hnth by auto. auto.
  - assert (b = da_data d') as <- by congruence. intros c m Hc Hm. apply Hb; auto. rewrite Hl. auto.
Qed.

(* ------------------------------------------------------------------ angular velocity *)
Definition all_valid (a : nd R) : nd (option R) := Nd (shp a) (fun ix => Some (dat a ix)).
Lemma angular_mod deriv a ts ax ax' ta ta' k tau : k < ndim a -> tau < ndim a -> axis_is ax k (ndim a) -> axis_is ax' k (ndim a) ->
  axis_is ta tau (ndim a) -> axis_is ta' tau (ndim a) -> estimate_angular deriv a ts ax ta = estimate_angular deriv a ts ax' ta'.
Proof.
  intros Hk Ht H1 H2 H3 H4. unfold estimate_angular. destruct (ndim a) as [|n1] eqn:En; auto.
  rewrite (axis_mod ax k), (axis_mod ax' k), (axis_mod ta tau), (axis_mod ta' tau) by auto. reflexivity.
Qed.
Lemma angular_valid deriv a ts ax ta k est : k < ndim a -> axis_is ax k (ndim a) -> estimate_angular deriv (all_valid a) ts ax ta = Ok est ->
  shp est = setn k 3 (shp a) /\ forall ix, dat est ix <> None.
Proof.
  intros Hk Ha H. unfold estimate_angular in H. change (ndim (all_valid a)) with (ndim a) in H. destruct (ndim a) as [|n1] eqn:En; [discriminate|].
  rewrite (axis_mod ax k) in H by auto. rewrite Nat2Z.id in H. cbv zeta in H.
  assert (Nb : forall tau m, existsb (fun ix => Nat.eqb (nth tau ix O) m && is_nan (dat (swap_nd k n1 (all_valid a)) ix)) (indices (shp (swap_nd k n1 (all_valid a)))) = false).
  { intros tau m. match goal with |- ?b = false => destruct b eqn:E; auto end. apply existsb_exists in E as (ix & _ & E). apply andb_true_iff in E as (_ & E). discriminate E. }
  destruct (negb _); [discriminate|]. destruct (negb _); [discriminate|].
  apply bind_ok in H as (? & _ & H). injection H as <-. unfold ndim in En. split.
  - cbn [shp swap_nd all_valid]. rewrite swapl_setn by (rewrite length_swapl; lia). rewrite swapl_invol by lia.
    f_equal. unfold transp. rewrite Nat.eqb_refl. destruct (Nat.eqb_spec n1 k); auto.
  - intros ix. cbn [dat swap_nd]. fold (@swap_nd (option R)). rewrite Nb. discriminate.
Qed.
Lemma no_nan_ok est : (forall ix, dat est ix <> None) -> exists a, no_nan est = Ok a /\ shp a = shp est /\ forall ix, dat est ix = Some (dat a ix).
Proof.
  intros H. unfold no_nan. destruct (existsb _ _) eqn:E.
  - apply existsb_exists in E as (ix & _ & E). specialize (H ix). destruct (dat est ix); [discriminate|congruence].
  - eexists. split; [reflexivity|]. split; [reflexivity|]. intros ix. cbn [dat]. specialize (H ix). destruct (dat est ix); [reflexivity|congruence].
Qed.
Definition cartesian_labels : list string := ["x"; "y"; "z"]%string.
Definition quaternion_labels : list string := ["w"; "x"; "y"; "z"]%string.
(** A labelled time series of rotations: the result is what the plain function gives for
    the data with these axes; the quaternion dimension becomes cartesian_axis, the other
    labels and the attributes are those of the input. *)
Theorem C73_angular : forall deriv w d dim axis ts time_axis k tau n tsa ax ta est, data_array w d -> keyed d -> picks d dim axis k ->
  timed d ts time_axis tau n tsa -> k <> tau -> free_name d k "cartesian_axis" ->
  axis_is ax k (ndim (da_data d)) -> axis_is ta tau (ndim (da_data d)) ->
  estimate_angular deriv (all_valid (da_data d)) (list_of tsa) ax ta = Ok est ->
  exists w' d', estimate_angular_top deriv w (Lab d) dim axis ts time_axis = (w', Ok (RLab d')) /\
    attrs_kept w w' /\ data_array w' d' /\ relabelled d d' k "cartesian_axis" cartesian_labels /\ same_attrs w d w' d' /\
    shp (da_data d') = shp est /\ forall ix, dat est ix = Some (dat (da_data d') ix).
Proof.
  intros deriv w d dim axis ts time_axis k tau n tsa ax0 ta0 est Hda Hkey Hp Ht Hne Hfree Hax0 Hta0 He. pose proof (timed_lt _ _ _ _ _ _ w Hda Ht) as Htau.
  destruct (timed_inc _ _ _ _ _ _ Ht) as (Hs & Hl & Hn & Hinc & _).
  destruct (alloc w (dict_at w (da_attrs d))) as [w1 l1] eqn:Al. destruct (unpack_timed _ _ _ _ _ _ _ _ _ _ _ _ Hda Hp Ht Hne Htau Al) as (ax & ta & td & Hax & Hta & Hk & Htd & Htc & Hu).
  destruct (angular_valid deriv _ _ _ _ k est Hk Hax0 He) as (Se & Ne). destruct (no_nan_ok est Ne) as (a & En & Sa & Da).
  assert (exists old, nth_error (da_dims d) k = Some old) as (old & Hold).
  { pose proof Hda as (Hlen & _). destruct (nth_error (da_dims d) k) eqn:E; eauto. apply nth_error_None in E. unfold ndim in *. lia. }
  destruct (relabel_make w d k old "cartesian" "cartesian_axis" cartesian_labels a ax w1 l1 Hda Hkey Hk Hold Hfree eq_refl) as (cs & w' & d' & Er & Hcs & Em & Ed & Ak & Dd & Rl & At); auto.
  { rewrite Sa, Se. reflexivity. }
  { apply axis_is_norm; auto. }
  exists w', d'. split; [|rewrite Ed; auto 8].
  unfold estimate_angular_top. rewrite Hu. cbn [u_ts u_time_axis u_arr u_lab u_time_dim u_axis timestamps_ok]. rewrite Hs. cbn [bind].
  fold (all_valid (da_data d)). rewrite (angular_mod deriv (all_valid (da_data d)) (list_of tsa) ax ax0 ta ta0 k tau) by auto. rewrite He. cbn [bind]. rewrite En. cbn [bind].
  assert (Htc' : lookup td cs = Some (Co [td] (CNum tsa))).
  { apply Hcs.
    - intros ->. apply Hne. symmetry. apply Hfree. exact Htd.
    - split; [exact Htc|]. cbn. intros [E|[]]. apply Hne. pose proof Hda as (_ & Hnd & _). apply (proj1 (NoDup_nth_error _) Hnd); [apply nth_error_Some; congruence|congruence]. }
  rewrite Er. unfold wrap. cbn [option_map]. rewrite (make_timed _ _ _ _ _ _ td tsa n Htc' Hs).
  rewrite Em. reflexivity.
Qed.
Lemma sorted_lt_ext (l l' : list nat) : StronglySorted lt l -> StronglySorted lt l' -> (forall x, In x l <-> In x l') -> l = l'.
Proof.
  revert l'. induction l as [|x l IH]; intros [|y l'] H1 H2 H; auto.
  - exfalso. apply (proj2 (H y)). left; auto.
  - exfalso. apply (proj1 (H x)). left; auto.
  - apply StronglySorted_inv in H1 as (H1 & F1). apply StronglySorted_inv in H2 as (H2 & F2). rewrite Forall_forall in F1, F2.
    assert (x = y) as <-.
    { destruct (proj1 (H x) (or_introl eq_refl)) as [E|E]; auto. destruct (proj2 (H y) (or_introl eq_refl)) as [E'|E']; auto. apply F2 in E. apply F1 in E'. lia. }
    f_equal. apply IH; auto. intros z. split; intros Hz.
    + destruct (proj1 (H z) (or_intror Hz)) as [<-|]; auto. apply F1 in Hz. lia.
    + destruct (proj2 (H z) (or_intror Hz)) as [<-|]; auto. apply F2 in Hz. lia.
Qed.
Lemma seq_sorted n : forall a, StronglySorted lt (seq a n).
Proof. induction n; intros a; cbn; constructor; auto. apply Forall_forall. intros x Hx. apply in_seq in Hx. lia. Qed.
(** So for unit quaternion curves on which the differentiator is exact, the labelled result
    is the body angular velocity at every time. *)
Theorem C73_angular_rate : forall deriv w d dim axis ts time_axis k tau n tsa (Q dQ : list nat -> R -> quat), data_array w d -> keyed d -> picks d dim axis k ->
  timed d ts time_axis tau n tsa -> k <> tau -> free_name d k "cartesian_axis" -> nth k (shp (da_data d)) 0 = 4 -> nth tau (shp (da_data d)) 0 = n ->
  (forall c t, hunit (Q c t)) -> (forall c t, qderiv (Q c) t (dQ c t)) ->
  (forall ix, valid (shp (da_data d)) ix -> dat (da_data d) ix = comp4 (nth k ix 0) (Q (series tau k ix) (dat tsa [nth tau ix 0]))) ->
  (forall c j, j < 4 -> deriv (map (fun t => comp4 j (Q c t)) (list_of tsa)) (list_of tsa) = Ok (map (fun t => comp4 j (dQ c t)) (list_of tsa))) ->
  exists w' d', estimate_angular_top deriv w (Lab d) dim axis ts time_axis = (w', Ok (RLab d')) /\
    relabelled d d' k "cartesian_axis" cartesian_labels /\ same_attrs w d w' d' /\ shp (da_data d') = setn k 3 (shp (da_data d)) /\
    forall ix, valid (shp (da_data d)) ix ->
      exists rate, (forall j, j < 3 -> dat (da_data d') (setn k j ix) = comp3 j rate) /\ body_rate (Q (series tau k ix)) (dat tsa [nth tau ix 0]) rate.
Proof.
  intros deriv w d dim axis ts time_axis k tau n tsa Q dQ Hda Hkey Hp Ht Hne Hfree H4 Htn HU HD Hdat Hex. pose proof (timed_lt _ _ _ _ _ _ w Hda Ht) as Htau.
  destruct (timed_inc _ _ _ _ _ _ Ht) as (Hs & Hl & Hn & Hinc & Hnth).
  destruct (picks_axis w d dim axis k Hda Hp) as (_ & _ & Hk & _).
  assert (Nn : forall m, ~ nan_at (all_valid (da_data d)) tau m) by (intros m (ix & _ & _ & E); discriminate E).
  destruct (C34_body_rate deriv (all_valid (da_data d)) (list_of tsa) (Z.of_nat k) (Z.of_nat tau) k tau Q dQ) as (est & Ee & Se & He); auto; try (left; reflexivity).
  { cbn [shp all_valid]. congruence. }
  { intros ix Hix _. cbn [dat all_valid]. f_equal. rewrite Hdat by auto. rewrite Hnth; auto. rewrite <- Htn. apply (proj1 (valid_nth _ _) Hix). exact Htau. }
  { intros G c j Hsort HG Hj. unfold exact_on. specialize (Hex c j Hj).
    assert (Gs : map (fun m => nth m (list_of tsa) 0%R) G = list_of tsa).
    { assert (G = seq 0 n).
      { apply sorted_lt_ext; auto using seq_sorted. intros m. rewrite in_seq, HG, Hl. split; [intros (A & _); lia|intros A; split; [lia|apply Nn]]. }
      subst G. unfold list_of at 2. rewrite Hs. cbn [hd]. apply map_ext_in. intros m Hm. apply in_seq in Hm. apply Hnth. lia. }
    rewrite Gs. transitivity (deriv (map (fun t => comp4 j (Q c t)) (map (fun m => nth m (list_of tsa) 0%R) G)) (list_of tsa)); [rewrite map_map; reflexivity|].
    rewrite Gs, Hex. rewrite <- Gs at 1. rewrite map_map. reflexivity. }
  destruct (C73_angular deriv w d dim axis ts time_axis k tau n tsa (Z.of_nat k) (Z.of_nat tau) est) as (w' & d' & E & _ & _ & Rl & Sa & Sd & Dd); auto; try (left; reflexivity).
  exists w', d'. split; auto. split; auto. split; auto. split; [rewrite Sd; exact Se|]. intros ix Hix. destruct (He ix Hix) as (_ & B). destruct (B (Nn _)) as (rate & B1 & B2).
  exists rate. split.
  - intros j Hj. specialize (B1 j Hj). rewrite Dd in B1. congruence.
  - rewrite <- Hnth; auto. rewrite <- Htn. apply (proj1 (valid_nth _ _) Hix). exact Htau.
Qed.

(* ------------------------------------------------------------------ examples *)
(** Points (0, 2t, 1+4t) and rotations about z, the time along the last axis. *)
Definition ex_eworld : world := World ex_lit [[("units", Some "m"); ("motion_type", Some "position")]%string].
Definition ex_path : darr :=
  DA (Nd [3; 2] (fun ix => match nth 0 ix 0 with 0 => 0%R | 1 => (2 * nth (nth 1%nat ix 0%nat) two_times 0)%R | _ => (1 + 4 * nth (nth 1%nat ix 0%nat) two_times 0)%R end))
     ["cartesian_axis"%string; "time"%string]
     [("cartesian_axis"%string, Co ["cartesian_axis"%string] (CStr cartesian_labels)); ("time"%string, Co ["time"%string] (CNum (arr1 two_times)))]
     (Some "position"%string) 0.
Definition ex_turns : darr :=
  DA (Nd [4; 2] (fun ix => comp4 (nth 0 ix 0) (zspin (nth (nth 1 ix 0) two_times 0%R)))) ["quaternion_axis"%string; "time"%string]
     [("quaternion_axis"%string, Co ["quaternion_axis"%string] (CStr quaternion_labels)); ("time"%string, Co ["time"%string] (CNum (arr1 two_times)))]
     None 0.
Lemma ex_timed d : da_dims d = [nth 0 (da_dims d) EmptyString; "time"%string] -> lookup "time" (da_coords d) = Some (Co ["time"%string] (CNum (arr1 two_times))) ->
  timed d (TName "time") None 1 2 (arr1 two_times).
Proof.
  intros H1 H2. exists "time"%string. split; [rewrite H1; reflexivity|]. split; auto. split; [left; reflexivity|]. split; [reflexivity|]. split; [lia|].
  intros a b Hab. assert (a = 0 /\ b = 1) as (-> & ->) by lia. cbn. lra.
Qed.
Example C73_linear_example : data_array ex_eworld ex_path /\ picks ex_path (Some "cartesian_axis"%string) None 0 /\
  timed ex_path (TName "time") None 1 2 (arr1 two_times) /\ shp (da_data ex_path) = put 1 2 [3] /\
  forall c m, valid [3] c -> m < 2 ->
    dat (da_data ex_path) (put 1 m c) = (match c with [2%nat] => 1 | _ => 0 end + match c with [1%nat] => 2 | [2%nat] => 4 | _ => 0 end * dat (arr1 two_times) [m])%R.
Proof.
  split. { split; [reflexivity|]. split; [repeat constructor; cbn; intuition discriminate|]. split; [|cbn; lia].
    intros n c Hin. cbn in Hin. destruct Hin as [E|[E|[]]]; injection E as <- <-; cbn.
    - constructor; [exists 0; split; reflexivity|constructor].
    - constructor; [exists 1; split; reflexivity|constructor]. }
  split; [reflexivity|]. split; [apply ex_timed; reflexivity|]. split; [reflexivity|].
  intros c m Hc Hm. destruct c as [|a [|b c]]; try (inversion Hc; fail); [|inversion Hc; subst; inversion H4].
  assert (a < 3) by (inversion Hc; auto). destruct m as [|[|m]]; [| |lia]; destruct a as [|[|[|a]]]; try lia; cbn; lra.
Qed.
Example C73_angular_example : data_array ex_eworld ex_turns /\ keyed ex_turns /\ picks ex_turns (Some "quaternion_axis"%string) None 0 /\
  timed ex_turns (TName "time") None 1 2 (arr1 two_times) /\ free_name ex_turns 0 "cartesian_axis" /\
  nth 0 (shp (da_data ex_turns)) 0 = 4 /\ nth 1 (shp (da_data ex_turns)) 0 = 2 /\
  (forall t, hunit (zspin t)) /\ (forall t, qderiv zspin t (zspin' t)) /\
  (forall ix, valid (shp (da_data ex_turns)) ix -> dat (da_data ex_turns) ix = comp4 (nth 0 ix 0) (zspin (dat (arr1 two_times) [nth 1 ix 0]))) /\
  forall j, j < 4 -> deriv_ex (map (fun t => comp4 j (zspin t)) (list_of (arr1 two_times))) (list_of (arr1 two_times)) =
    Ok (map (fun t => comp4 j (zspin' t)) (list_of (arr1 two_times))).
Proof.
  destruct C34_example as (E1 & E2 & _ & E4 & E5).
  split. { split; [reflexivity|]. split; [repeat constructor; cbn; intuition discriminate|]. split; [|cbn; lia].
    intros n c Hin. cbn in Hin. destruct Hin as [E|[E|[]]]; injection E as <- <-; cbn.
    - constructor; [exists 0; split; reflexivity|constructor].
    - constructor; [exists 1; split; reflexivity|constructor]. }
  split; [unfold keyed; cbn; repeat constructor; cbn; intuition discriminate|]. split; [reflexivity|]. split; [apply ex_timed; reflexivity|].
  split; [intros j; destruct j as [|[|[|j]]]; cbn; discriminate|]. split; [reflexivity|]. split; [reflexivity|]. split; auto. split; auto. split.
  - intros ix Hix. destruct ix as [|a [|b [|c ix]]]; try (inversion Hix; subst; try (inversion H4; fail); fail).
    + reflexivity.
    + inversion Hix; subst. inversion H4; subst. inversion H6.
  - intros j Hj. assert (Hl : list_of (arr1 two_times) = two_times) by reflexivity. rewrite Hl.
    specialize (E5 [0; 1] j). unfold exact_on in E5. cbn [map nth two_times] in E5. unfold two_times. cbn [map]. apply E5; auto.
    + repeat constructor.
    + intros m. change (List.length two_times) with 2. cbn [In]. split; [intros [<-|[<-|[]]]; (split; [lia|apply E4])|intros (Hm & _); lia].
Qed.
