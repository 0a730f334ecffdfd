(** Property C74: rotations and transforms fitted to labelled arrays. *)
From Coq Require Import Reals String List Arith Bool ZArith Lia Lra Permutation.
From Verif Require Import Base Quat SpecQuat QuatProofs NdArray Frames FrameProofs
  Transform SpecArray NdProofs RotProofs ArrProofs ArrTransProofs ArrStaticProofs PropTransform PropRotate
  Coord PropCoord Velocity Utils UtilsProofs Estim SpecEstim EstimProofs SvdExist ArcProofs IcpProofs PropEstim
  TopLevel TopProofs SpecTop TopStep PropCoordTop TopEstim PropTopEstim.
Import ListNotations.
Open Scope nat_scope.

(* ------------------------------------------------------------------ specification *)
(** The first dimension has a coordinate. *)
Definition first_coord (d : darr) : Prop := exists n c, nth_error (da_dims d) 0 = Some n /\ lookup n (da_coords d) = Some c.
(** A new labelled array of the numbers vals, without attributes. *)
Definition labelled_as (w : world) (d : darr) (name dim : string) (labels : list string) (vals : nat -> R) : Prop :=
  da_name d = Some name /\ da_dims d = [dim] /\ da_coords d = [(dim, Co [dim] (CStr labels))] /\
  shp (da_data d) = [List.length labels] /\ (forall j, j < List.length labels -> dat (da_data d) [j] = vals j) /\
  forall q, attr w d q = None.
(** The second argument of a fit along axis k: a plain array, or a labelled one whose first
    dimension has a coordinate. *)
Definition second_ok (w : world) (v2 : arrlike) (dim : option string) (k : nat) : Prop :=
  match v2 with
  | Plain _ => True
  | Lab d2 => data_array w d2 /\ (ndim (da_data d2) = 1 \/ first_coord d2 /\ (k <> 0 \/ dim <> None))
  end.

(* ------------------------------------------------------------------ unpacking *)
Lemma lookup_numbered d n : lookup n (coords_of (numbered (Lab d))) <> None <-> lookup n (da_coords d) <> None.
Proof.
  cbn [numbered coords_of da_coords]. induction (da_coords d) as [|[m c] l IH]; cbn [map lookup fst]; [tauto|].
  destruct (String.eqb n m); [|exact IH]. split; discriminate.
Qed.
Lemma numbered_num d n c : lookup n (coords_of (numbered (Lab d))) = Some c -> exists a, stamps_of c = Ok a.
Proof.
  cbn [numbered coords_of da_coords]. induction (da_coords d) as [|[m c0] l IH]; cbn [map lookup fst snd]; [discriminate|].
  destruct (String.eqb n m); auto. intros E. injection E as <-. destruct c0 as [ds [a|ls]]; cbn; eauto.
Qed.
(** Unpacking with the default timestamps, when they do not matter. *)
Lemma unpack_first w d dim axis ax k w1 l1 : List.length (da_dims d) = ndim (da_data d) ->
  (match dim, axis with
     | Some _, Some _ => Raise ValueError
     | Some n, None => i <- index_of n (da_dims d) ;; Ok (Z.of_nat i)
     | None, _ => let a := or_default axis (-1) in do_ tuple_at (da_dims d) a ;; Ok a
     end) = Ok ax -> axis_is ax k (ndim (da_data d)) -> k < ndim (da_data d) ->
  alloc w (dict_at w (da_attrs d)) = (w1, l1) ->
  (ndim (da_data d) = 1 \/ first_coord d /\ k <> 0) ->
  exists u, maybe_unpack w (numbered (Lab d)) dim axis None TNone = (w1, Ok u) /\ u_arr u = da_data d /\ u_axis u = ax /\
    u_lab u = Some (coords_of (numbered (Lab d)), da_dims d, da_name d, l1).
Proof.
  intros Hlen Hr Hax Hk Al Hc. cbn [numbered maybe_unpack da_data da_dims da_attrs da_name da_coords coords_of]. rewrite Al. cbv zeta in Hr |- *. rewrite Hr. cbn [bind].
  destruct Hc as [H1|((n & c & Hn & Hc) & Hk0)].
  - rewrite H1. cbn [Nat.ltb Nat.leb]. eexists. split; [reflexivity|]. auto.
  - destruct (Nat.ltb_spec 1 (ndim (da_data d))).
    2:{ exfalso. lia. }
    cbn [or_default]. rewrite (tuple_at_ok _ _ 0) by (rewrite Hlen; apply axis_is_norm; [lia|left; reflexivity]). cbn [bind].
    rewrite (nth_error_nth _ _ EmptyString Hn). set (cs := map _ (da_coords d)).
    destruct (lookup n cs) as [c'|] eqn:E.
    2:{ exfalso. apply (proj2 (lookup_numbered d n)); [congruence|exact E]. }
    cbn [bind]. destruct (numbered_num d n c' E) as (a & Ea). rewrite Ea. cbn [bind]. eexists. split.
    + unfold same_axis_check. cbn [u_ts u_time_axis u_arr u_axis]. destruct (Nat.eqb_spec (ndim (da_data d)) 0); [lia|].
      rewrite (axis_mod ax k) by auto. rewrite (axis_mod 0 0 (ndim (da_data d)));[|lia|left; reflexivity].
      destruct (Z.eqb_spec (Z.of_nat k) (Z.of_nat 0)); [lia|]. reflexivity.
    + auto.
Qed.

(* ------------------------------------------------------------------ shortest arc *)
Lemma setn_put k n m sh : k <= List.length sh -> setn k m (put k n sh) = put k m sh.
Proof. intros H. rewrite !put_insert by auto. revert sh H. induction k; intros [|x sh] H; cbn in *; auto; try lia; rewrite IHk by (cbn; lia); reflexivity. Qed.
Theorem C74_arc : forall w d v2 dim axis k sh, data_array w d -> keyed d -> picks d dim axis k -> free_name d k "quaternion_axis" ->
  shp (da_data d) = put k 3 sh -> shp (data_of v2) = put k 3 sh -> k <= List.length sh -> (sh = [] \/ first_coord d /\ k <> 0) ->
  (forall pre, valid sh pre -> let a := vec_on (da_data d) k pre in let b := vec_on (data_of v2) k pre in a <> v0 /\ b <> v0 /\ ~ against a b) ->
  exists w' d', shortest_arc_top w (Lab d) v2 dim axis = (w', Ok (RLab d')) /\ attrs_kept w w' /\ data_array w' d' /\
    relabelled d d' k "quaternion_axis" quaternion_labels /\ same_attrs w d w' d' /\ shp (da_data d') = put k 4 sh /\
    forall pre, valid sh pre -> let a := vec_on (da_data d) k pre in let b := vec_on (data_of v2) k pre in let r := quat_on (da_data d') k pre in
      hunit r /\ vscale (/ vlen a) (srot r a) = vscale (/ vlen b) b /\
      exists u th, vdot u u = 1%R /\ (0 <= th <= PI)%R /\ cos th = (vdot a b / (vlen a * vlen b))%R /\ forall v, srot r v = turn u th v.
Proof.
  intros w d v2 dim axis k sh Hda Hkey Hp Hfree S1 S2 Hk Hfc Hv. pose proof Hda as (Hlen & Hnd & Hco & Hat).
  assert (Nd1 : ndim (da_data d) = S (List.length sh)) by (unfold ndim; rewrite S1, put_insert, length_insert; auto).
  assert (Nd2 : ndim (data_of v2) = S (List.length sh)) by (unfold ndim; rewrite S2, put_insert, length_insert; auto).
  destruct (picks_axis w d dim axis k Hda Hp) as (ax & Hax & Hk' & Hr). destruct (alloc w (dict_at w (da_attrs d))) as [w1 l1] eqn:Al.
  destruct (unpack_first w d dim axis ax k w1 l1 Hlen Hr Hax Hk' Al) as (u & Eu & Ea & Eax & El).
  { destruct Hfc as [->|]; [left; rewrite Nd1; reflexivity|right; auto]. }
  destruct (C38_partial (da_data d) (data_of v2) k sh (Some (Z.of_nat k - Z.of_nat (ndim (da_data d)))%Z) S1 S2 Hk) as (out & Eo & So & Ho); auto.
  { split; [lia|right; reflexivity]. }
  assert (exists old, nth_error (da_dims d) k = Some old) as (old & Hold).
  { destruct (nth_error (da_dims d) k) eqn:E; eauto. apply nth_error_None in E. lia. }
  destruct (relabel_make w d k old "quaternion" "quaternion_axis" quaternion_labels out ax w1 l1 Hda Hkey Hk' Hold Hfree eq_refl) as (cs & w' & d' & Er & Hcs & Em & Ed & Ak & Dd & Rl & At); auto.
  { rewrite So, S1, setn_put by auto. reflexivity. }
  { apply axis_is_norm; auto. }
  exists w', d'. split; [|rewrite Ed; auto 8].
  unfold shortest_arc_top. rewrite Eu, Ea, Eax, El.
  unfold shortest_arc_rotation in Eo. cbv zeta in Eo. replace (or_default (Some (Z.of_nat k - Z.of_nat (ndim (da_data d)))%Z) (-1)) with (Z.of_nat k - Z.of_nat (ndim (da_data d)))%Z in Eo
    by (unfold or_default; destruct (Z.eqb_spec (Z.of_nat k - Z.of_nat (ndim (da_data d))) 0); [lia|reflexivity]).
  rewrite (axis_is_norm _ k) in Eo by (auto; right; reflexivity). rewrite (axis_is_norm ax k) by auto.
  match goal with |- (match ?b with Ok _ => _ | Raise _ => _ end) = _ => change (b = Ok out) in Eo; rewrite Eo end.
  cbn [coords_of]. rewrite Er. unfold wrap, make_dataarray. cbn [option_map]. rewrite Em. reflexivity.
Qed.
(** The documentation promises any array of shape (..., 3, ...).  A labelled one with more
    than one dimension is refused if the vectors are along its first dimension, or if its
    first dimension has no coordinate. *)
Theorem C74_arc_refuted : forall w d v2 dim axis k, data_array w d -> picks d dim axis k -> 1 < ndim (da_data d) ->
  k = 0 \/ (forall n, nth_error (da_dims d) 0 = Some n -> lookup n (da_coords d) = None) ->
  exists w' e, shortest_arc_top w (Lab d) v2 dim axis = (w', Raise e) /\ (e = ValueError \/ e = KeyError).
Proof.
  intros w d v2 dim axis k Hda Hp Hn Hc. pose proof Hda as (Hlen & Hnd & Hco & Hat).
  destruct (picks_axis w d dim axis k Hda Hp) as (ax & Hax & Hk & Hr). destruct (alloc w (dict_at w (da_attrs d))) as [w1 l1] eqn:Al.
  exists w1. assert (exists e, maybe_unpack w (numbered (Lab d)) dim axis None TNone = (w1, Raise e) /\ (e = ValueError \/ e = KeyError)) as (e & E & He).
  { cbn [numbered maybe_unpack da_data da_dims da_attrs da_name da_coords]. rewrite Al. cbv zeta in Hr |- *. rewrite Hr. cbn [bind].
    destruct (Nat.ltb_spec 1 (ndim (da_data d))); [|lia]. cbn [or_default].
    rewrite (tuple_at_ok _ _ 0) by (rewrite Hlen; apply axis_is_norm; [lia|left; reflexivity]). cbn [bind].
    assert (exists n, nth_error (da_dims d) 0 = Some n) as (n & Hnn). { destruct (nth_error (da_dims d) 0) eqn:E; eauto. apply nth_error_None in E. lia. }
    rewrite (nth_error_nth _ _ EmptyString Hnn). set (cs := map _ (da_coords d)).
    destruct (lookup n cs) as [c'|] eqn:E.
    2:{ exists KeyError. auto. }
    destruct Hc as [->|Hc].
    2:{ exfalso. apply (proj1 (lookup_numbered d n)); [|apply Hc; exact Hnn]. change (lookup n cs <> None). congruence. }
    cbn [bind]. destruct (numbered_num d n c' E) as (a & Ea). rewrite Ea. cbn [bind]. exists ValueError. split; auto.
    unfold same_axis_check. cbn [u_ts u_time_axis u_arr u_axis]. destruct (Nat.eqb_spec (ndim (da_data d)) 0); [lia|].
    rewrite (axis_mod ax 0) by auto. rewrite (axis_mod 0 0 (ndim (da_data d))); [|lia|left; reflexivity]. reflexivity. }
  exists e. split; auto. unfold shortest_arc_top. rewrite E. reflexivity.
Qed.

(* ------------------------------------------------------------------ fits *)
(** Axis k of an n-dimensional v1 corresponds to axis k2 of an n2-dimensional v2: the same
    axis, or the axis that the integer argument (or the default -1) denotes. *)
Definition aligned (dim : option string) (axis : option Z) (k n k2 n2 : nat) : Prop :=
  (n = n2 /\ k = k2) \/ (dim = None /\ axis_arg_is axis k2 n2).
Definition dim_axis (d : darr) (dim : option string) (axis : option Z) (k : nat) : Z :=
  match dim with Some _ => Z.of_nat k | None => or_default axis (-1) end.
Lemma picks_is w d dim axis k : data_array w d -> picks d dim axis k ->
  (match dim, axis with
     | Some _, Some _ => Raise ValueError
     | Some n, None => i <- index_of n (da_dims d) ;; Ok (Z.of_nat i)
     | None, _ => let a := or_default axis (-1) in do_ tuple_at (da_dims d) a ;; Ok a
     end) = Ok (dim_axis d dim axis k) /\ axis_is (dim_axis d dim axis k) k (ndim (da_data d)) /\ k < ndim (da_data d).
Proof.
  intros Hda Hp. destruct (picks_axis w d dim axis k Hda Hp) as (ax & Hax & Hk & Hr). pose proof Hda as (_ & Hnd & _).
  assert (ax = dim_axis d dim axis k) as <-; auto. unfold dim_axis. destruct dim as [n|].
  - destruct axis; [destruct Hp|]. cbn in Hp. rewrite (index_of_nth n _ k Hnd Hp) in Hr. cbn in Hr. congruence.
  - cbv zeta in Hr. destruct (tuple_at _ _); cbn in Hr; congruence.
Qed.
Lemma reshape_lab w d v2 dim axis k sh k2 sh2 same : data_array w d -> picks d dim axis k ->
  match v2 with Plain _ => True | Lab d2 => data_array w d2 /\ (ndim (da_data d2) = 1 \/ first_coord d2 /\ (k2 <> 0 \/ dim <> None)) end ->
  shp (da_data d) = put k 3 sh -> shp (data_of v2) = put k2 3 sh2 -> k <= List.length sh -> k2 <= List.length sh2 -> sh <> [] ->
  aligned dim axis k (ndim (da_data d)) k2 (ndim (data_of v2)) -> (same = true -> sh = sh2 /\ k = k2) ->
  exists w2, reshape_top w (Lab d) v2 dim axis same = (w2, Ok (points_of (da_data d) k, points_of (data_of v2) k2, true)) /\ attrs_kept w w2.
Proof.
  intros Hda Hp H2 S1 S2 Hk Hk2 Hsh Hal Hsame. pose proof Hda as (Hlen & Hnd & Hco & Hat).
  assert (N1 : ndim (da_data d) = S (List.length sh)) by (unfold ndim; rewrite S1, put_insert, length_insert; auto).
  assert (N2 : ndim (data_of v2) = S (List.length sh2)) by (unfold ndim; rewrite S2, put_insert, length_insert; auto).
  assert (L1 : 0 < List.length sh) by (destruct sh; [congruence|cbn; lia]).
  destruct (picks_is w d dim axis k Hda Hp) as (Hr & Hax & Hk'). set (ax := dim_axis d dim axis k) in *.
  destruct (alloc w (dict_at w (da_attrs d))) as [w1 l1] eqn:Al. destruct (dict_alloc _ _ _ _ Al) as (F1 & _ & Len1 & D1 & O1).
  set (u1 := Un (da_data d) ax None None None (Some (da_coords d, da_dims d, da_name d, l1))).
  assert (U1 : maybe_unpack w (Lab d) dim axis None TFalse = (w1, Ok u1)).
  { cbn [maybe_unpack]. rewrite Al. cbv zeta in Hr |- *. rewrite Hr. reflexivity. }
  (* the axis in v2 *)
  assert (K2 : axis_is ax k2 (ndim (data_of v2)) /\ k2 < ndim (data_of v2)).
  { destruct Hal as [(En & ->)|(-> & Ha)]; [rewrite <- En; auto|]. split; [|lia]. unfold ax, dim_axis. unfold axis_arg_is in Ha. destruct axis as [z|].
    - destruct Ha as (Hz & Ha). cbn. destruct (Z.eqb_spec z 0); [contradiction|exact Ha].
    - cbn. right. lia. }
  destruct K2 as (A2 & B2).
  assert (exists w2 u2, maybe_unpack w1 (numbered v2) None (Some ax) None TNone = (w2, Ok u2) /\ u_arr u2 = data_of v2 /\ attrs_kept w w2) as (w2 & u2 & U2 & Eu2 & Ak).
  { destruct v2 as [a2|d2].
    - cbn [numbered maybe_unpack same_axis_check u_ts]. eexists _, _. split; [reflexivity|]. split; [reflexivity|]. split; [auto|]. split; [lia|]. auto.
    - cbn [data_of] in *. destruct H2 as (Hd2 & Hc2). pose proof Hd2 as (Hl2 & _ & _ & Hat2).
      destruct (alloc w1 (dict_at w1 (da_attrs d2))) as [w2 l2] eqn:Al2. destruct (dict_alloc _ _ _ _ Al2) as (F2 & _ & Len2 & D2 & O2).
      set (k' := if Z.eqb ax 0 then ndim (da_data d2) - 1 else k2).
      assert (A' : axis_is (or_default (Some ax) (-1)) k' (ndim (da_data d2)) /\ k' < ndim (da_data d2)).
      { unfold k', or_default. destruct (Z.eqb_spec ax 0); [split; [right; lia|lia]|auto]. }
      destruct A' as (A' & B').
      destruct (unpack_first w1 d2 None (Some ax) (or_default (Some ax) (-1)) k' w2 l2 Hl2) as (u2 & E2 & Ea2 & _); auto.
      { cbv zeta. rewrite (tuple_at_ok _ _ k') by (rewrite Hl2; apply axis_is_norm; auto). reflexivity. }
      { destruct Hc2 as [->|(Hf & Hk0)]; [left; reflexivity|]. destruct (Nat.eq_dec (ndim (da_data d2)) 1); [left; auto|right]. split; auto. unfold k'.
        destruct (Z.eqb_spec ax 0); [lia|]. destruct Hk0 as [|Hd]; auto. destruct dim as [nm|]; [|congruence]. intros ->.
        destruct Hal as [(_ & ->)|(X & _)]; [|discriminate]. apply n0. reflexivity. }
      exists w2, u2. split; auto. split; auto. split; [congruence|]. split; [lia|]. intros j Hj. rewrite O2 by lia. auto. }
  exists w2. split; auto. unfold reshape_top. rewrite U1. change (u_axis u1) with ax. rewrite U2. f_equal. cbn [bind]. cbv zeta. rewrite Eu2.
  change (u_arr u1) with (da_data d). rewrite (axis_is_norm ax k) by auto. cbn [bind]. rewrite (axis_is_norm ax k2) by auto. cbn [bind].
  rewrite !S1, !S2, !put_insert, !nth_insert by auto. cbn [Nat.eqb negb].
  destruct (Nat.ltb_spec (ndim (da_data d)) 2); [lia|].
  assert (same && negb (Nat.eqb (List.length (points_of (da_data d) k)) (List.length (points_of (data_of v2) k2))) = false) as ->; [|reflexivity].
  destruct same; auto. destruct (Hsame eq_refl) as (<- & <-). destruct (points_list k sh Hk) as (ps & _ & Hps). rewrite !Hps by auto. rewrite !map_length, Nat.eqb_refl. reflexivity.
Qed.
Lemma labelled_new w t r : exists w' td rd, make_transform_dataarrays w (Some t) r = (w', FLab (Some td) rd) /\ attrs_kept w w' /\
  labelled_as w' td "translation" "cartesian_axis" cartesian_labels (fun j => comp3 j t) /\
  labelled_as w' rd "rotation" "quaternion_axis" quaternion_labels (fun j => comp4 j r).
Proof.
  unfold make_transform_dataarrays. destruct (alloc w []) as [w1 l1] eqn:A1. destruct (alloc w1 []) as [w2 l2] eqn:A2.
  destruct (dict_alloc _ _ _ _ A1) as (F1 & L1 & Len1 & D1 & O1). destruct (dict_alloc _ _ _ _ A2) as (F2 & L2 & Len2 & D2 & O2).
  eexists _, _, _. split; [reflexivity|]. split; [split; [congruence|split; [lia|intros j Hj; rewrite O2 by lia; auto]]|]. split.
  - repeat apply conj; auto. intros q. unfold attr. cbn [da_attrs]. rewrite O2, D1 by lia. reflexivity.
  - repeat apply conj; auto. intros q. unfold attr. cbn [da_attrs]. rewrite D2. reflexivity.
Qed.
Lemma labelled_rot w r : exists w' rd, make_transform_dataarrays w None r = (w', FLab None rd) /\ attrs_kept w w' /\
  labelled_as w' rd "rotation" "quaternion_axis" quaternion_labels (fun j => comp4 j r).
Proof.
  unfold make_transform_dataarrays. destruct (alloc w []) as [w2 l2] eqn:A2.
  destruct (dict_alloc _ _ _ _ A2) as (F2 & L2 & Len2 & D2 & O2).
  eexists _, _. split; [reflexivity|]. split; [split; [congruence|split; [lia|intros j Hj; rewrite O2 by lia; auto]]|].
  repeat apply conj; auto. intros q. unfold attr. cbn [da_attrs]. rewrite D2. reflexivity.
Qed.
Lemma kept_trans' w w1 w2 : attrs_kept w w1 -> attrs_kept w1 w2 -> attrs_kept w w2.
Proof. intros (A & B & C) (A' & B' & C'). split; [congruence|]. split; [lia|]. intros l Hl. rewrite C' by lia. auto. Qed.
Lemma pairs_perm v1 v2 k sh : shp v1 = put k 3 sh -> shp v2 = put k 3 sh -> k <= List.length sh ->
  List.length (points_of v1 k) = List.length (points_of v2 k) /\ Permutation (combine (points_of v1 k) (points_of v2 k)) (pairs_of v1 v2 k sh).
Proof.
  intros H1 H2 Hk. destruct (points_list k sh Hk) as (ps & Hp & Hps). rewrite !Hps by auto. split; [rewrite !map_length; reflexivity|].
  rewrite combine_map. unfold pairs_of. apply Permutation_map. exact Hp.
Qed.

(** A labelled v1 with at least two dimensions, the vectors along any of them. *)
Theorem C74_transform : forall svd frm, (forall H, is_svd H (svd H)) -> is_frm frm ->
  forall w d v2 dim axis k sh, data_array w d -> picks d dim axis k -> second_ok w v2 dim k ->
  shp (da_data d) = put k 3 sh -> shp (data_of v2) = put k 3 sh -> k <= List.length sh -> sh <> [] -> indices sh <> [] ->
  exists w' td rd t r, best_fit_transform_top svd frm w (Lab d) v2 dim axis = (w', Ok (FLab (Some td) rd)) /\ attrs_kept w w' /\
    labelled_as w' td "translation" "cartesian_axis" cartesian_labels (fun j => comp3 j t) /\
    labelled_as w' rd "rotation" "quaternion_axis" quaternion_labels (fun j => comp4 j r) /\ hunit r /\
    forall t' q, hn2 q <> 0%R -> (sq_error t r (pairs_of (da_data d) (data_of v2) k sh) <= sq_error t' q (pairs_of (da_data d) (data_of v2) k sh))%R.
Proof.
  intros svd frm Hsvd Hfrm w d v2 dim axis k sh Hda Hp H2 S1 S2 Hk Hsh Hi.
  destruct (reshape_lab w d v2 dim axis k sh k sh true Hda Hp H2 S1 S2 Hk Hk Hsh) as (w1 & Er & Ak1); auto.
  { left. split; auto. unfold ndim. congruence. }
  destruct (pairs_perm _ _ k sh S1 S2 Hk) as (Hl & Hpm). set (p1 := points_of (da_data d) k) in *. set (p2 := points_of (data_of v2) k) in *.
  assert (N : p1 <> []). { intros E. rewrite E in Hpm. cbn in Hpm. apply Permutation_nil in Hpm. unfold pairs_of in Hpm. apply map_eq_nil in Hpm. contradiction. }
  destruct (fit_transform_optimal svd frm p1 p2 Hl N (Hsvd _) Hfrm) as (t & r & E & U & O).
  destruct (labelled_new w1 t r) as (w2 & td & rd & Em & Ak2 & Lt & Lr). exists w2, td, rd, t, r. split.
  { unfold best_fit_transform_top. rewrite Er. cbn [bind]. rewrite E. cbn [bind fit_out]. rewrite Em. reflexivity. }
  split; [eapply kept_trans'; eauto|]. split; auto. split; auto. split; auto. intros t' q Hq. rewrite <- !(sq_error_perm _ _ _ _ Hpm). auto.
Qed.
(** Missing: moments without positive determinant, as in C40. *)
Theorem C74_rotation_partial : forall svd frm, (forall H, is_svd H (svd H)) -> is_frm frm ->
  forall w d v2 dim axis k sh, data_array w d -> picks d dim axis k -> second_ok w v2 dim k ->
  shp (da_data d) = put k 3 sh -> shp (data_of v2) = put k 3 sh -> k <= List.length sh -> sh <> [] ->
  (0 < chirality (pairs_of (da_data d) (data_of v2) k sh))%R ->
  exists w' rd r, best_fit_rotation_top svd frm w (Lab d) v2 dim axis = (w', Ok (FLab None rd)) /\ attrs_kept w w' /\
    labelled_as w' rd "rotation" "quaternion_axis" quaternion_labels (fun j => comp4 j r) /\ hunit r /\
    forall q, hn2 q <> 0%R -> (sq_error v0 r (pairs_of (da_data d) (data_of v2) k sh) <= sq_error v0 q (pairs_of (da_data d) (data_of v2) k sh))%R.
Proof.
  intros svd frm Hsvd Hfrm w d v2 dim axis k sh Hda Hp H2 S1 S2 Hk Hsh Hc.
  destruct (reshape_lab w d v2 dim axis k sh k sh true Hda Hp H2 S1 S2 Hk Hk Hsh) as (w1 & Er & Ak1); auto.
  { left. split; auto. unfold ndim. congruence. }
  destruct (pairs_perm _ _ k sh S1 S2 Hk) as (Hl & Hpm). set (p1 := points_of (da_data d) k) in *. set (p2 := points_of (data_of v2) k) in *.
  destruct (fit_rotation_optimal svd frm p1 p2) as (U & O); auto.
  { rewrite (cov_perm _ _ Hpm), cov_chirality. exact Hc. }
  destruct (labelled_rot w1 (fit_rotation svd frm p1 p2)) as (w2 & rd & Em & Ak2 & Lr). exists w2, rd, (fit_rotation svd frm p1 p2). split.
  { unfold best_fit_rotation_top. rewrite Er. cbn [fit_out]. rewrite Em. reflexivity. }
  split; [eapply kept_trans'; eauto|]. split; auto. split; auto. intros q Hq. rewrite <- !(sq_error_perm _ _ _ _ Hpm). auto.
Qed.
(** The second set of points may have another size, and another number of dimensions. *)
Theorem C74_icp : forall svd frm nearest, (forall H, is_svd H (svd H)) -> is_frm frm -> is_nearest nearest ->
  forall w d v2 dim axis k k2 sh sh2 init max_iterations tolerance, data_array w d -> picks d dim axis k -> second_ok w v2 dim k2 ->
  aligned dim axis k (ndim (da_data d)) k2 (ndim (data_of v2)) ->
  shp (da_data d) = put k 3 sh -> shp (data_of v2) = put k2 3 sh2 -> k <= List.length sh -> k2 <= List.length sh2 -> sh <> [] ->
  indices sh <> [] -> indices sh2 <> [] -> (forall t r, init = Some (t, r) -> hn2 r <> 0%R) ->
  exists w' td rd t r p1 p2 later, icp_top svd frm nearest w (Lab d) v2 dim axis init max_iterations tolerance = (w', Ok (FLab (Some td) rd)) /\ attrs_kept w w' /\
    labelled_as w' td "translation" "cartesian_axis" cartesian_labels (fun j => comp3 j t) /\
    labelled_as w' rd "rotation" "quaternion_axis" quaternion_labels (fun j => comp4 j r) /\ hunit r /\
    lists_points (da_data d) k sh p1 /\ lists_points (data_of v2) k2 sh2 p2 /\
    let start := match init with None => p1 | Some (t0, r0) => map (smove t0 r0) p1 end in
    icp_run p2 tolerance (Z.to_nat max_iterations) 0 (start :: later) /\
    (forall i a b, nth_error (start :: later) i = Some a -> nth_error (start :: later) (S i) = Some b -> (nn_error p2 b <= nn_error p2 a)%R) /\
    map (smove t r) p1 = last (start :: later) [].
Proof.
  intros svd frm nearest Hsvd Hfrm Hnear w d v2 dim axis k k2 sh sh2 init maxit tol Hda Hp H2 Hal S1 S2 Hk Hk2 Hsh I1 I2 Hi.
  destruct (reshape_lab w d v2 dim axis k sh k2 sh2 false Hda Hp H2 S1 S2 Hk Hk2 Hsh Hal) as (w1 & Er & Ak1); [discriminate|].
  destruct (points_list k sh Hk) as (ps & P1 & Hps). destruct (points_list k2 sh2 Hk2) as (ps2 & P2 & Hps2).
  rewrite (Hps _ S1), (Hps2 _ S2) in Er.
  set (p1 := map (vec_on (da_data d) k) ps) in *. set (p2 := map (vec_on (data_of v2) k2) ps2) in *.
  assert (L1 : lists_points (da_data d) k sh p1) by (apply Permutation_map; auto).
  assert (L2 : lists_points (data_of v2) k2 sh2 p2) by (apply Permutation_map; auto).
  assert (NE : forall v k sh p, lists_points v k sh p -> indices sh <> [] -> p <> []).
  { intros v k0 sh0 p L I ->. apply Permutation_nil in L. apply map_eq_nil in L. contradiction. }
  destruct (icp_points_ok svd frm nearest Hsvd Hfrm Hnear p1 p2 init maxit tol (NE _ _ _ _ L1 I1) (NE _ _ _ _ L2 I2) Hi) as (t & r & tr & E1 & U & R1 & R2 & R3).
  destruct (labelled_new w1 t r) as (w2 & td & rd & Em & Ak2 & Lt & Lr).
  exists w2, td, rd, t, r, p1, p2, tr. split.
  { unfold icp_top. rewrite Er. cbn [bind]. rewrite E1. cbn [bind fit_out]. rewrite Em. reflexivity. }
  split; [eapply kept_trans'; eauto|]. split; auto. split; auto. split; auto. split; auto. split; auto. cbv zeta. split; auto. split; auto.
  intros i a b Ha Hb. apply (icp_run_better _ _ _ _ _ R1 i a b Ha Hb).
Qed.

(* ------------------------------------------------------------------ plain arrays *)
(** Plain arrays give what the theorems about plain arrays (C38-C41) say, and touch nothing. *)
Lemma reshape_plain w a b axis same : reshape_top w (Plain a) (Plain b) None axis same =
  (w, '(p1, p2) <- reshape_vectors a b axis same ;; Ok (p1, p2, false)).
Proof.
  unfold reshape_top, reshape_vectors. cbn [maybe_unpack]. unfold same_axis_check at 1. cbn [u_ts u_time_axis u_arr u_axis].
  destruct (Nat.eqb_spec (ndim a) 0) as [E0|E0]; [reflexivity|]. cbn [or_default]. rewrite Z.mod_0_l by lia.
  destruct (Z.eqb_spec (or_default axis (-1) mod Z.of_nat (ndim a)) 0) as [E|E]; [reflexivity|].
  cbn [numbered maybe_unpack same_axis_check u_ts]. f_equal. cbn [bind u_axis u_arr u_lab]. cbv zeta.
  destruct (norm_axis (or_default axis (-1)) (ndim a)) as [k1|]; [|reflexivity]. cbn [bind].
  destruct (negb (Nat.eqb (nth k1 (shp a) 0) 3)); [destruct (norm_axis _ (ndim b)); reflexivity|].
  destruct (norm_axis (or_default axis (-1)) (ndim b)) as [k2|]; [|reflexivity]. cbn [bind].
  destruct (negb (Nat.eqb (nth k2 (shp b) 0) 3)); [reflexivity|].
  destruct (Nat.ltb_spec (ndim a) 2) as [L|L].
  - exfalso. apply E. replace (ndim a) with 1 by lia. apply Z.mod_1_r.
  - destruct (same && _); reflexivity.
Qed.
Theorem C74_plain : forall svd frm nearest w a b axis init max_iterations tolerance,
  shortest_arc_top w (Plain a) (Plain b) None axis =
    (w, match shortest_arc_rotation a b axis with Ok q => Ok (RPlain q None) | Raise e => Raise e end) /\
  best_fit_rotation_top svd frm w (Plain a) (Plain b) None axis =
    (w, match best_fit_rotation svd frm a b axis with Ok r => Ok (FPlain None r) | Raise e => Raise e end) /\
  best_fit_transform_top svd frm w (Plain a) (Plain b) None axis =
    (w, match best_fit_transform svd frm a b axis with Ok (t, r) => Ok (FPlain (Some t) r) | Raise e => Raise e end) /\
  icp_top svd frm nearest w (Plain a) (Plain b) None axis init max_iterations tolerance =
    (w, match iterative_closest_point svd frm nearest a b axis init max_iterations tolerance with
        | Ok (t, r) => Ok (FPlain (Some t) r) | Raise e => Raise e end).
Proof.
  intros svd frm nearest w a b axis init mi tol. split.
  { unfold shortest_arc_top, shortest_arc_rotation. cbn [numbered maybe_unpack same_axis_check u_ts u_axis u_arr u_lab data_of]. cbv zeta.
    match goal with |- (match ?x with Ok _ => _ | Raise _ => _ end) = _ => destruct x; reflexivity end. }
  unfold best_fit_rotation_top, best_fit_transform_top, icp_top. rewrite !reshape_plain.
  unfold best_fit_rotation, best_fit_transform, iterative_closest_point.
  split; [destruct (reshape_vectors a b axis true) as [(p1, p2)|]; reflexivity|].
  split; [destruct (reshape_vectors a b axis true) as [(p1, p2)|]; [cbn [bind]; destruct (fit_transform svd frm p1 p2) as [(t, r)|]; reflexivity|reflexivity]|].
  destruct (reshape_vectors a b axis false) as [(p1, p2)|]; [cbn [bind]; destruct (icp_points _ _ _ _ _ _ _ _) as [(t, r)|]; reflexivity|reflexivity].
Qed.

(* ------------------------------------------------------------------ examples *)
(** Three points, one per marker; and the same points with the dimensions in the other
    order. *)
Definition marker_labels : list string := ["a"; "b"; "c"]%string.
Definition ex_markers : darr :=
  DA (Nd [3; 3] (fun ix => match ix with [0; 1] | [1; 2] | [2; 0] => 1%R | _ => 0%R end)) ["marker"%string; "cartesian_axis"%string]
     [("marker"%string, Co ["marker"%string] (CStr marker_labels)); ("cartesian_axis"%string, Co ["cartesian_axis"%string] (CStr cartesian_labels))]
     (Some "position"%string) 0.
Definition ex_markers' : darr :=
  DA (Nd [3; 3] (fun ix => match ix with [1; 0] | [2; 1] | [0; 2] => 1%R | _ => 0%R end)) ["cartesian_axis"%string; "marker"%string]
     (da_coords ex_markers) (Some "position"%string) 0.
Lemma ex_markers_ok d : da_dims d = ["marker"; "cartesian_axis"]%string \/ da_dims d = ["cartesian_axis"; "marker"]%string -> shp (da_data d) = [3; 3] ->
  da_coords d = da_coords ex_markers -> da_attrs d = 0 -> data_array ex_eworld d.
Proof.
  intros Hd Hs Hc Ha. split; [destruct Hd as [-> | ->]; unfold ndim; rewrite Hs; reflexivity|].
  split; [destruct Hd as [-> | ->]; repeat constructor; cbn; intuition discriminate|]. split; [|rewrite Ha; cbn; lia].
  intros n c Hin. rewrite Hc in Hin. cbn in Hin. unfold dim_size. destruct Hin as [E|[E|[]]]; injection E as <- <-; cbn.
  - constructor; [|constructor]. destruct Hd as [-> | ->]; rewrite Hs; [exists 0|exists 1]; split; reflexivity.
  - constructor; [|constructor]. destruct Hd as [-> | ->]; rewrite Hs; [exists 1|exists 0]; split; reflexivity.
Qed.
Lemma ex_rows pre : valid [3] pre -> pre = [0] \/ pre = [1] \/ pre = [2].
Proof.
  intros H. destruct pre as [|a [|b l]]; try (inversion H; fail); [|inversion H; subst; inversion H5].
  assert (a < 3) by (inversion H; auto). destruct a as [|[|[|a]]]; auto; lia.
Qed.
Example C74_arc_example : data_array ex_eworld ex_markers /\ keyed ex_markers /\ picks ex_markers (Some "cartesian_axis"%string) None 1 /\
  free_name ex_markers 1 "quaternion_axis" /\ first_coord ex_markers /\ shp (da_data ex_markers) = put 1 3 [3] /\
  forall pre, valid [3] pre -> let a := vec_on (da_data ex_markers) 1 pre in let b := vec_on (data_of (Lab ex_markers')) 1 pre in a <> v0 /\ b <> v0 /\ ~ against a b.
Proof.
  split; [apply ex_markers_ok; auto|]. split; [unfold keyed; cbn; repeat constructor; cbn; intuition discriminate|]. split; [reflexivity|].
  split; [intros j; destruct j as [|[|[|j]]]; cbn; discriminate|]. split; [eexists _, _; split; reflexivity|]. split; [reflexivity|].
  intros pre Hp. destruct (ex_rows pre Hp) as [->|[->| ->]]; cbn; (split; [intros E; injection E; intros; lra|]);
    (split; [intros E; injection E; intros; lra|]); unfold against; intros (c & Hc & E); injection E; intros; lra.
Qed.
(** The second array is matched by position, not by its labels: the points above and the
    same points with the dimensions in the other order are not related by the identity. *)
Theorem C74_positions_refuted : exists w d d2 w' d', data_array w d /\ data_array w d2 /\
  da_dims d = ["marker"; "cartesian_axis"]%string /\ da_dims d2 = ["cartesian_axis"; "marker"]%string /\ da_coords d2 = da_coords d /\
  shp (da_data d) = [3; 3] /\ shp (da_data d2) = [3; 3] /\ (forall i j, i < 3 -> j < 3 -> dat (da_data d2) [j; i] = dat (da_data d) [i; j]) /\
  shortest_arc_top w (Lab d) (Lab d2) (Some "cartesian_axis"%string) None = (w', Ok (RLab d')) /\
  vec_on (da_data d) 1 [0] = V3 0 1 0 /\ srot (quat_on (da_data d') 1 [0]) (V3 0 1 0) = V3 0 0 1.
Proof.
  destruct C74_arc_example as (E1 & E2 & E3 & E4 & E5 & E6 & E7).
  destruct (C74_arc ex_eworld ex_markers (Lab ex_markers') (Some "cartesian_axis"%string) None 1 [3] E1 E2 E3 E4 E6 eq_refl) as (w' & d' & E & _ & _ & _ & _ & _ & Hq); auto.
  exists ex_eworld, ex_markers, ex_markers', w', d'. split; auto. split; [apply ex_markers_ok; auto|]. do 5 (split; [reflexivity|]). split.
  { intros i j Hi Hj. destruct i as [|[|[|i]]]; [| | |lia]; (destruct j as [|[|[|j]]]; [| | |lia]); reflexivity. }
  split; auto. split; [reflexivity|]. destruct (Hq [0]) as (_ & Hr & _); [repeat constructor|].
  change (vec_on (da_data ex_markers) 1 [0]) with (V3 0 1 0) in Hr. change (vec_on (data_of (Lab ex_markers')) 1 [0]) with (V3 0 0 1) in Hr.
  assert (L : forall v, vdot v v = 1%R -> vlen v = 1%R) by (intros v Hv; unfold vlen; rewrite Hv; apply sqrt_1).
  rewrite !L in Hr by (unfold vdot; cbn [vx vy vz]; lra). rewrite Rinv_1 in Hr.
  assert (S1 : forall v, vscale 1 v = v) by (intros [x y z]; unfold vscale; cbn [vx vy vz]; f_equal; lra). rewrite !S1 in Hr. exact Hr.
Qed.
(** The vectors along the first dimension, by name; the second array labelled too. *)
Example C74_fit_example : data_array ex_eworld ex_markers' /\ picks ex_markers' (Some "cartesian_axis"%string) None 0 /\
  second_ok ex_eworld (Lab ex_markers') (Some "cartesian_axis"%string) 0 /\ shp (da_data ex_markers') = put 0 3 [3] /\ indices [3] <> [] /\
  (0 < chirality (pairs_of (da_data ex_markers') (da_data ex_markers') 0%nat [3%nat]))%R /\
  aligned (Some "cartesian_axis"%string) None 0 (ndim (da_data ex_markers')) 0 (ndim (data_of (Lab ex_markers'))) /\
  (forall H, is_svd H (some_svd H)) /\ is_frm shepperd /\ is_nearest nearest_first.
Proof.
  split; [apply ex_markers_ok; auto|]. split; [reflexivity|]. split.
  { split; [apply ex_markers_ok; auto|]. right. split; [eexists _, _; split; reflexivity|right; discriminate]. }
  split; [reflexivity|]. split; [discriminate|]. split.
  { cbv -[IZR Rplus Rmult Rminus Ropp Rdiv Rlt]. lra. }
  split; [left; auto|]. split; [exact some_svd_ok|]. split; [exact shepperd_ok|exact nearest_first_ok].
Qed.
