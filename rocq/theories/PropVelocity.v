(** Properties C32, C33: linear velocity estimates. *)
From Coq Require Import Reals List Arith Bool ZArith Lia Lra.
From Verif Require Import Base Quat SpecQuat QuatProofs NdArray Frames Matcher SpecLookup MovingProofs TimeProofs
  Transform SpecArray NdProofs PropRotate Velocity VelProofs.
Import ListNotations.
Open Scope R_scope.

(* ------------------------------------------------------------------ C32 *)
(** The time axis asked for is tau; None means the first axis. *)
Definition time_is (time_axis : option Z) (tau n : nat) : Prop :=
  match time_axis with None => tau = 0%nat | Some z => axis_is z tau n end.
(** The coordinate axis asked for is not the time axis.  None means the last axis;
    so does 0 (see C42). *)
Definition axis_not (axis : option Z) (tau n : nat) : Prop :=
  match axis with
  | None | Some 0%Z => S tau <> n
  | Some z => exists k, (k < n)%nat /\ axis_is z k n /\ k <> tau
  end.

Lemma axis_is_mod z k n : (k < n)%nat -> axis_is z k n -> (z mod Z.of_nat n = Z.of_nat k)%Z.
Proof.
  intros H [-> | ->]; [apply Z.mod_small; lia|].
  rewrite <- (Z.mod_add _ 1) by lia. replace (Z.of_nat k - Z.of_nat n + 1 * Z.of_nat n)%Z with (Z.of_nat k) by lia.
  apply Z.mod_small; lia.
Qed.
Lemma axes_resolved (a : nd R) axis time_axis tau sh n ts : shp a = put tau n sh -> (tau <= List.length sh)%nat ->
  time_is time_axis tau (ndim a) -> axis_not axis tau (ndim a) ->
  estimate_linear_velocity a axis ts time_axis = gradient_nd a ts tau.
Proof.
  intros Hs Hk Ht Ha. rewrite put_insert in Hs by auto.
  assert (Hn : ndim a = S (List.length sh)) by (unfold ndim; rewrite Hs, length_insert; auto).
  unfold estimate_linear_velocity. rewrite Hn in *.
  assert (Ht' : axis_is (or_default time_axis 0) tau (S (List.length sh))).
  { destruct time_axis as [z|]; simpl in *; [|left; subst; auto]. destruct (Z.eqb_spec z 0); [subst; auto|auto]. }
  assert (Ha' : exists k, (k < S (List.length sh))%nat /\ axis_is (or_default axis (-1)) k (S (List.length sh)) /\ k <> tau).
  { assert (HL : S tau <> S (List.length sh) -> exists k, (k < S (List.length sh))%nat /\ axis_is (-1) k (S (List.length sh)) /\ k <> tau).
    { intros H. exists (List.length sh). split; [lia|]. split; [right; lia|lia]. }
    destruct axis as [z|]; simpl in *; [|auto]. destruct (Z.eqb_spec z 0); [subst; auto|].
    destruct z; [lia| |]; auto. }
  destruct Ha' as (k & Hkn & Hk' & Hne).
  rewrite (axis_is_mod _ _ _ Hkn Hk'), (axis_is_mod _ tau (S (List.length sh)) ltac:(lia) Ht').
  replace (Z.eqb _ _) with false by (symmetry; apply Z.eqb_neq; lia).
  cbn [Nat.eqb]. rewrite (axis_is_norm _ tau) by (auto; lia). reflexivity.
Qed.

(** Positions p(c) + v(c) t_m, sampled at any strictly increasing timestamps along
    any axis tau (c: the index on the other axes): the estimate is v(c) at every
    sample and the shape is kept. *)
Theorem C32_constant_velocity : forall (a : nd R) axis time_axis ts tau sh (p v : list nat -> R),
  increasing ts -> (2 <= List.length ts)%nat ->
  shp a = put tau (List.length ts) sh -> (tau <= List.length sh)%nat ->
  time_is time_axis tau (ndim a) -> axis_not axis tau (ndim a) ->
  (forall c m, valid sh c -> (m < List.length ts)%nat -> dat a (put tau m c) = p c + v c * nth m ts 0) ->
  exists b, estimate_linear_velocity a axis ts time_axis = Ok b /\ shp b = shp a /\
    forall c m, valid sh c -> (m < List.length ts)%nat -> dat b (put tau m c) = v c.
Proof.
  intros a axis time_axis ts tau sh p v Hi H2 Hs Hk Ht Ha Hf.
  rewrite (axes_resolved a axis time_axis tau sh _ ts Hs Hk Ht Ha). unfold gradient_nd.
  rewrite Hs, put_insert, nth_insert by auto. rewrite grad_check_ok by auto. eexists. split; [reflexivity|].
  split; [reflexivity|]. intros c m Hc Hm. pose proof (valid_length _ _ Hc) as Lc. cbn [dat].
  rewrite put_insert by lia. rewrite nth_insert by lia. apply (grad_line ts _ (p c) (v c)); auto.
  intros m' Hm'. rewrite setn_insert by lia. rewrite <- put_insert by lia. auto.
Qed.
(** Constant acceleration: exact at all inner samples. *)
Theorem C32_constant_acceleration : forall (a : nd R) axis time_axis ts tau sh (p v acc : list nat -> R),
  increasing ts -> (2 <= List.length ts)%nat ->
  shp a = put tau (List.length ts) sh -> (tau <= List.length sh)%nat ->
  time_is time_axis tau (ndim a) -> axis_not axis tau (ndim a) ->
  (forall c m, valid sh c -> (m < List.length ts)%nat ->
     dat a (put tau m c) = p c + v c * nth m ts 0 + acc c / 2 * (nth m ts 0 * nth m ts 0)) ->
  exists b, estimate_linear_velocity a axis ts time_axis = Ok b /\ shp b = shp a /\
    forall c m, valid sh c -> (0 < m)%nat -> (S m < List.length ts)%nat ->
      dat b (put tau m c) = v c + acc c * nth m ts 0.
Proof.
  intros a axis time_axis ts tau sh p v acc Hi H2 Hs Hk Ht Ha Hf.
  rewrite (axes_resolved a axis time_axis tau sh _ ts Hs Hk Ht Ha). unfold gradient_nd.
  rewrite Hs, put_insert, nth_insert by auto. rewrite grad_check_ok by auto. eexists. split; [reflexivity|].
  split; [reflexivity|]. intros c m Hc Hm Hm'. pose proof (valid_length _ _ Hc) as Lc. cbn [dat].
  rewrite put_insert by lia. rewrite nth_insert by lia. apply (grad_parabola ts _ (p c) (v c) (acc c)); auto.
  intros j Hj. rewrite setn_insert by lia. rewrite <- put_insert by lia. auto.
Qed.
(** Any input of matching length: one output row per input row; other lengths, and
    fewer than two samples, are refused. *)
Theorem C32_shape : forall (a : nd R) axis time_axis ts tau sh n,
  increasing ts -> shp a = put tau n sh -> (tau <= List.length sh)%nat ->
  time_is time_axis tau (ndim a) -> axis_not axis tau (ndim a) ->
  (n = List.length ts -> (2 <= n)%nat -> exists b, estimate_linear_velocity a axis ts time_axis = Ok b /\ shp b = shp a) /\
  (n <> List.length ts \/ (n < 2)%nat -> estimate_linear_velocity a axis ts time_axis = Raise ValueError).
Proof.
  intros a axis time_axis ts tau sh n Hi Hs Hk Ht Ha.
  rewrite (axes_resolved a axis time_axis tau sh _ ts Hs Hk Ht Ha).
  unfold gradient_nd. rewrite Hs, put_insert, nth_insert by auto. split.
  - intros -> H2. rewrite grad_check_ok by auto. eexists. split; reflexivity.
  - intros H. unfold grad_check. destruct (Nat.eqb_spec (List.length ts) n) as [He|]; [|reflexivity].
    cbn [negb]. destruct H as [|H]; [lia|]. apply Nat.ltb_lt in H. rewrite H. reflexivity.
Qed.
Definition grid3 : list R := [0; 1; 3].
Lemma grid3_inc : increasing grid3.
Proof.
  intros i j x y Hij Hx Hy. destruct i as [|[|[|i]]]; destruct j as [|[|[|j]]]; simpl in *; try discriminate; try lia;
   try (destruct i; discriminate); try (destruct j; discriminate); injection Hx as <-; injection Hy as <-; lra.
Qed.
(** Times 0, 1, 3 on the second axis of a (3, 3) array. *)
Example C32_example : increasing grid3 /\ shp (Nd [3;3]%nat (fun ix => 1 + 2 * nth (nth 1 ix O) grid3 0)) = put 1 (List.length grid3) [3%nat] /\
  time_is (Some (-1)%Z) 1 2 /\ axis_not (Some (-2)%Z) 1 2.
Proof. split; [exact grid3_inc|]. repeat split; [right; reflexivity|]. exists 0%nat. split; [lia|]. split; [right; reflexivity|lia]. Qed.

(* ------------------------------------------------------------------ C33 *)
(** Specification: the second difference that starts at sample i, and the flag of
    a sample (the sum of the two second differences starting at i-1 and i, as far
    as they exist). *)
Definition second_difference (rows : list vec3) (i : nat) : R :=
  vnorm (vsub (vsub (nth (S (S i)) rows v0) (nth (S i) rows v0)) (vsub (nth (S i) rows v0) (nth i rows v0))).
Definition exists_second (rows : list vec3) (i : nat) : bool := Nat.ltb (S (S i)) (List.length rows).
Definition flag_of (rows : list vec3) (i : nat) : R :=
  (if exists_second rows i then second_difference rows i else 0) +
  (match i with O => 0 | S i' => if exists_second rows i' then second_difference rows i' else 0 end).
Definition kept (rows : list vec3) (thresh : R) (i : nat) : Prop := (i < List.length rows)%nat /\ flag_of rows i <= thresh.

(** The positions as an (N, 3) array; the estimate without and with a threshold, row
    by row (None: NaN). *)
Definition samples (rows : list vec3) : nd R :=
  Nd [List.length rows; 3%nat] (fun ix => comp3 (nth 1 ix O) (nth (hd O ix) rows v0)).
Definition estimate (rows : list vec3) (ts : list R) (lin : list vec3) : Prop :=
  exists g, estimate_linear_velocity (samples rows) None ts None = Ok g /\ shp g = [List.length lin; 3%nat] /\
    forall i, (i < List.length lin)%nat -> vec_at g [i] = nth i lin v0.
Definition suppressed (thresh : R) (rows : list vec3) (ts : list R) (out : list (option vec3)) : Prop :=
  exists g, estimate_linear_outlier thresh (samples rows) None ts None = Ok g /\ shp g = [List.length out; 3%nat] /\
    forall i c, (i < List.length out)%nat -> (c < 3)%nat -> dat g [i; c] = option_map (comp3 c) (nth i out None).

(** Row by row. *)
Definition vcomp_at (rows : list vec3) (c m : nat) : R := comp3 c (nth m rows v0).
Definition gradient_rows (rows : list vec3) (ts : list R) : res (list vec3) :=
  do_ grad_check ts (List.length rows) ;;
  Ok (map (fun i => V3 (grad_at ts (vcomp_at rows 0) i) (grad_at ts (vcomp_at rows 1) i)
                       (grad_at ts (vcomp_at rows 2) i)) (seq 0 (List.length rows))).
Definition linear_outlier (thresh : R) (rows : list vec3) (ts : list R) : res (list (option vec3)) :=
  lin <- gradient_rows rows ts ;;
  suppress thresh (flags (diff2 rows)) ts lin.
Lemma rows_samples rows : rows_of (samples rows) = rows.
Proof.
  unfold rows_of. cbn [shp samples hd]. apply (nth_ext _ _ v0 v0); [rewrite map_length, seq_length; auto|].
  intros n Hn. rewrite map_length, seq_length in Hn.
  rewrite (nth_indep _ v0 (vec_at (samples rows) [0%nat])) by (rewrite map_length, seq_length; auto).
  rewrite (map_nth (fun i => vec_at (samples rows) [i])), seq_nth by auto. unfold vec_at. cbn. destruct (nth n rows v0); reflexivity.
Qed.
Lemma gradient_samples rows ts : gradient_nd (samples rows) ts 0 =
  (lin <- gradient_rows rows ts ;; Ok (Nd [List.length rows; 3%nat] (fun ix => grad_at ts (fun m => dat (samples rows) (setn 0 m ix)) (nth 0 ix O)))).
Proof. unfold gradient_nd, gradient_rows. cbn [shp samples nth]. destruct (grad_check ts (List.length rows)); reflexivity. Qed.
Lemma gradient_rows_of rows ts lin g : gradient_rows rows ts = Ok lin -> gradient_nd (samples rows) ts 0 = Ok g -> rows_of g = lin.
Proof.
  intros E. rewrite gradient_samples, E. cbn [bind]. intros H. injection H as <-. unfold gradient_rows in E.
  destruct (grad_check ts (List.length rows)); [|discriminate]. cbn [bind] in E. injection E as <-.
  unfold rows_of. cbn [shp hd]. apply map_ext. intros i. reflexivity.
Qed.
Lemma estimate_default rows ts : estimate_linear_velocity (samples rows) None ts None = gradient_nd (samples rows) ts 0.
Proof. reflexivity. Qed.
Lemma estimate_rows rows ts lin : estimate rows ts lin <-> gradient_rows rows ts = Ok lin.
Proof.
  split.
  - intros (g & E & Sg & Dg). rewrite estimate_default in E.
    destruct (gradient_rows rows ts) as [lin'|e] eqn:EL; [|rewrite gradient_samples, EL in E; discriminate].
    pose proof (gradient_rows_of _ _ _ _ EL E) as ER. f_equal. rewrite <- ER. unfold rows_of. rewrite Sg. cbn [hd].
    apply (nth_ext _ _ v0 v0); [rewrite map_length, seq_length; auto|]. intros n Hn. rewrite map_length, seq_length in Hn.
    rewrite <- Dg by auto. rewrite (nth_indep _ v0 (vec_at g [0%nat])) by (rewrite map_length, seq_length; auto).
    rewrite (map_nth (fun i => vec_at g [i])), seq_nth by auto. reflexivity.
  - intros EL. unfold estimate. rewrite estimate_default. pose proof (gradient_samples rows ts) as EG. rewrite EL in EG. cbn [bind] in EG.
    pose proof (gradient_rows_of _ _ _ _ EL EG) as ER.
    assert (LL : List.length lin = List.length rows) by (rewrite <- ER; unfold rows_of; cbn [shp hd]; rewrite map_length, seq_length; auto).
    eexists. split; [exact EG|]. split; [cbn [shp]; rewrite LL; reflexivity|]. intros i Hi. rewrite <- ER. unfold rows_of. cbn [shp hd].
    match goal with |- ?v = nth i (map ?f (seq 0 ?n)) v0 =>
      rewrite (nth_indep _ v0 (f 0%nat)) by (rewrite map_length, seq_length; lia); rewrite (map_nth f), seq_nth by lia end. reflexivity.
Qed.
Lemma opt_comp (o o' : option vec3) : (forall c, (c < 3)%nat -> option_map (comp3 c) o = option_map (comp3 c) o') -> o = o'.
Proof.
  intros H. pose proof (H 0%nat ltac:(lia)). pose proof (H 1%nat ltac:(lia)). pose proof (H 2%nat ltac:(lia)).
  destruct o as [[a b c]|], o' as [[a' b' c']|]; cbn in *; congruence.
Qed.
Lemma length_suppress thresh fl ts lin out : suppress thresh fl ts lin = Ok out -> List.length out = List.length ts.
Proof. unfold suppress. destruct (keep thresh fl ts); [discriminate|]. intros H. injection H as <-. apply map_length. Qed.
Lemma suppressed_rows thresh rows ts out : suppressed thresh rows ts out <-> linear_outlier thresh rows ts = Ok out.
Proof.
  assert (D : estimate_linear_outlier thresh (samples rows) None ts None =
    (g <- gradient_nd (samples rows) ts 0 ;; out <- suppress thresh (flags (diff2 (rows_of (samples rows)))) ts (rows_of g) ;;
     Ok (Nd [List.length rows; 3%nat] (fun ix => option_map (comp3 (nth 1 ix O)) (nth (hd O ix) out None))))) by reflexivity.
  unfold suppressed, linear_outlier. rewrite D, rows_samples. clear D.
  destruct (gradient_rows rows ts) as [lin|e] eqn:EL.
  2:{ rewrite gradient_samples, EL. cbn [bind]. split; [intros (g & X & _); discriminate|discriminate]. }
  pose proof (gradient_samples rows ts) as EG. rewrite EL in EG. cbn [bind] in EG |- *. rewrite EG. cbn [bind].
  rewrite (gradient_rows_of _ _ _ _ EL EG).
  assert (LT : List.length ts = List.length rows).
  { unfold gradient_rows in EL. destruct (grad_check ts (List.length rows)) eqn:EC; [|discriminate].
    unfold grad_check in EC. destruct (Nat.eqb_spec (List.length ts) (List.length rows)); [auto|discriminate]. }
  destruct (suppress thresh (flags (diff2 rows)) ts lin) as [o|e] eqn:ES; cbn [bind].
  2:{ split; [intros (g & X & _); discriminate|discriminate]. }
  pose proof (length_suppress _ _ _ _ _ ES) as LO.
  split.
  - intros (g & X & Sg & Dg). injection X as <-. f_equal. cbn [shp] in Sg. injection Sg as Sg.
    apply (nth_ext _ _ None None); [lia|]. intros i Hi. apply opt_comp. intros c Hc. rewrite <- (Dg i c) by lia. reflexivity.
  - intros X. injection X as <-. eexists. split; [reflexivity|]. cbn [shp]. split; [rewrite LO, LT; reflexivity|].
    intros i c _ _. reflexivity.
Qed.

Lemma flag_nth rows i : (2 <= List.length rows)%nat -> (i < List.length rows)%nat -> nth i (flags (diff2 rows)) 0 = flag_of rows i.
Proof.
  intros H2 Hi. pose proof (length_diff2 rows) as L. rewrite nth_flags by lia. rewrite L. unfold flag_of, exists_second. f_equal.
  - destruct (Nat.ltb_spec i (List.length rows - 2)); destruct (Nat.ltb_spec (S (S i)) (List.length rows)); try lia; auto.
    apply nth_diff2; auto.
  - destruct i as [|i]; [reflexivity|]. cbn [Nat.eqb]. replace (S i - 1)%nat with i by lia.
    destruct (Nat.leb_spec (S i) (List.length rows - 2)); destruct (Nat.ltb_spec (S (S i)) (List.length rows)); try lia; auto.
    apply nth_diff2; auto.
Qed.
Lemma kept_kept rows thresh i : (2 <= List.length rows)%nat ->
  In i (kept_idx thresh (flags (diff2 rows))) <-> kept rows thresh i.
Proof.
  intros H2. rewrite kept_in. unfold kept. rewrite length_flags, length_diff2.
  split; intros (H & F); (split; [lia|]); [rewrite <- flag_nth|rewrite flag_nth]; auto; lia.
Qed.
Lemma grad_check_inv ts n u : grad_check ts n = Ok u -> List.length ts = n /\ (2 <= n)%nat.
Proof.
  unfold grad_check. destruct (Nat.eqb_spec (List.length ts) n); [|discriminate]. cbn [negb].
  destruct (Nat.ltb_spec n 2); [discriminate|]. auto.
Qed.
Lemma outlier_inv thresh rows ts lin out : gradient_rows rows ts = Ok lin -> linear_outlier thresh rows ts = Ok out ->
  List.length ts = List.length rows /\ (2 <= List.length rows)%nat /\ List.length lin = List.length rows /\
  let K := kept_idx thresh (flags (diff2 rows)) in
  out = map (interp_keep (map (fun i => nth i ts 0) K) (map (fun i => nth i lin v0) K)) ts.
Proof.
  unfold linear_outlier. intros E. rewrite E. cbn [bind]. unfold gradient_rows in E.
  destruct (grad_check ts (List.length rows)) as [u|] eqn:EG; [|discriminate]. apply grad_check_inv in EG as (Hl & H2).
  cbn [bind] in E. assert (Hlin : List.length lin = List.length rows).
  { apply (f_equal (fun r => match r with Ok l => List.length l | Raise _ => O end)) in E. rewrite map_length, seq_length in E. auto. }
  clear E. unfold suppress.
  assert (HF : List.length (flags (diff2 rows)) = List.length rows) by (rewrite length_flags, length_diff2; lia).
  rewrite (keep_idx thresh _ ts 0) by lia. rewrite (keep_idx thresh _ lin v0) by lia.
  intros H. split; auto. split; auto. split; auto. cbv zeta.
  destruct (map (fun i => nth i ts 0) (kept_idx thresh (flags (diff2 rows)))) as [|x xs]; [discriminate|].
  apply (f_equal (fun r => match r with Ok l => l | Raise _ => [] end)) in H. auto.
Qed.

Section C33.
  Variables (thresh : R) (rows : list vec3) (ts : list R) (lin : list vec3) (out : list (option vec3)).
  Hypothesis Hinc : increasing ts.
  Hypothesis Hlin : gradient_rows rows ts = Ok lin.
  Hypothesis Hout : linear_outlier thresh rows ts = Ok out.

  (** At least two samples are kept: a kept sample keeps its estimate. *)
  Lemma kept_keeps i i1 i2 : kept rows thresh i1 -> kept rows thresh i2 -> i1 <> i2 -> kept rows thresh i ->
    nth_error out i = Some (nth_error lin i).
  Proof.
    intros H1 H2 Hne Hi. destruct (outlier_inv _ _ _ _ _ Hlin Hout) as (Hl & HL2 & Hll & E). cbv zeta in E.
    rewrite E, nth_error_map. destruct Hi as (Hi & Hf).
    rewrite (nth_error_nth' ts 0) by lia. rewrite (nth_error_nth' lin v0) by lia. cbn [option_map].
    assert (HK : forall j, kept rows thresh j -> In j (kept_idx thresh (flags (diff2 rows)))) by (intros; apply kept_kept; auto).
    destruct (In_nth_error _ _ (HK i (conj Hi Hf))) as (j & Hj).
    f_equal. apply (interp_keep_at _ _ j).
    - apply kept_increasing; auto. rewrite length_flags, length_diff2. lia.
    - rewrite map_length. apply HK, In_nth_error in H1 as (j1 & Hj1). apply HK, In_nth_error in H2 as (j2 & Hj2).
      pose proof (nth_lt _ _ _ Hj1). pose proof (nth_lt _ _ _ Hj2).
      assert (j1 <> j2) by (intros ->; rewrite Hj1 in Hj2; injection Hj2; auto). lia.
    - rewrite !map_length. reflexivity.
    - apply nth_error_map_nth; auto.
    - apply nth_error_map_nth; auto.
  Qed.
  (** A flagged sample between two neighbouring kept samples l and r lies on the
      straight line between their estimates. *)
  Lemma flagged_between l r i : kept rows thresh l -> kept rows thresh r -> (l < i < r)%nat ->
    (forall m, (l < m < r)%nat -> ~ kept rows thresh m) ->
    nth_error out i = Some (Some (between (nth l ts 0) (nth r ts 0) (nth l lin v0) (nth r lin v0) (nth i ts 0))).
  Proof.
    intros H1 H2 Hi Hno. destruct (outlier_inv _ _ _ _ _ Hlin Hout) as (Hl & HL2 & Hll & E). cbv zeta in E.
    rewrite E, nth_error_map. pose proof (proj1 H2) as Hr. rewrite (nth_error_nth' ts 0) by lia. cbn [option_map].
    assert (HK : forall j, kept rows thresh j <-> In j (kept_idx thresh (flags (diff2 rows)))) by (intros; symmetry; apply kept_kept; auto).
    destruct (kept_next thresh (flags (diff2 rows)) l r) as (j & Hj & Hj'); [apply HK; auto|apply HK; auto|lia| |].
    { intros m Hm. rewrite <- HK. auto. }
    f_equal. apply (interp_keep_between _ _ j).
    - apply kept_increasing; auto. rewrite length_flags, length_diff2. lia.
    - rewrite map_length. pose proof (nth_lt _ _ _ Hj'). lia.
    - rewrite !map_length. reflexivity.
    - apply nth_error_map_nth; auto.
    - apply nth_error_map_nth; auto.
    - pose proof (inc_nth ts l i Hinc ltac:(lia)). pose proof (inc_nth ts i r Hinc ltac:(lia)). lra.
    - apply nth_error_map_nth; auto.
    - apply nth_error_map_nth; auto.
  Qed.
End C33.

Theorem C33_kept_partial : forall thresh rows ts lin out i i1 i2, increasing ts ->
  estimate rows ts lin -> suppressed thresh rows ts out ->
  kept rows thresh i1 -> kept rows thresh i2 -> i1 <> i2 -> kept rows thresh i ->
  nth_error out i = Some (nth_error lin i).
Proof. intros thresh rows ts lin out i i1 i2 H0 H1 H2 H3 H4 H5 H6. apply estimate_rows in H1. apply suppressed_rows in H2. exact (kept_keeps thresh rows ts lin out H0 H1 H2 i i1 i2 H3 H4 H5 H6). Qed.
Theorem C33_flagged : forall thresh rows ts lin out l r i, increasing ts ->
  estimate rows ts lin -> suppressed thresh rows ts out ->
  kept rows thresh l -> kept rows thresh r -> (l < i < r)%nat -> (forall m, (l < m < r)%nat -> ~ kept rows thresh m) ->
  nth_error out i = Some (Some (between (nth l ts 0) (nth r ts 0) (nth l lin v0) (nth r lin v0) (nth i ts 0))).
Proof.
  intros thresh rows ts lin out l r i H0 H1 H2. apply estimate_rows in H1. apply suppressed_rows in H2.
  intros; eapply flagged_between; eauto.
Qed.
(** The last sample is always kept, and the call succeeds. *)
Theorem C33_last : forall thresh rows, 0 <= thresh -> (2 <= List.length rows)%nat -> kept rows thresh (List.length rows - 1).
Proof.
  intros thresh rows Ht H2. split; [lia|]. unfold flag_of, exists_second.
  destruct (List.length rows - 1)%nat as [|n] eqn:E; [lia|].
  destruct (Nat.ltb_spec (S (S (S n))) (List.length rows)); [lia|]. destruct (Nat.ltb_spec (S (S n)) (List.length rows)); [lia|]. lra.
Qed.
Theorem C33_succeeds : forall thresh rows ts, 0 <= thresh -> increasing ts -> List.length rows = List.length ts -> (2 <= List.length rows)%nat ->
  exists lin out, estimate rows ts lin /\ suppressed thresh rows ts out /\ List.length out = List.length rows.
Proof.
  intros thresh rows ts Ht Hi Hl H2.
  assert (E : exists lin, gradient_rows rows ts = Ok lin).
  { unfold gradient_rows. rewrite Hl, grad_check_ok by (auto; lia). eexists. reflexivity. }
  destruct E as (lin & E). exists lin.
  enough (X : exists out, linear_outlier thresh rows ts = Ok out /\ List.length out = List.length rows).
  { destruct X as (out & X & L). exists out. split; [apply estimate_rows; auto|]. split; [apply suppressed_rows; auto|auto]. }
  unfold linear_outlier. rewrite E. cbn [bind]. unfold suppress.
  rewrite (keep_idx thresh _ ts 0) by (rewrite length_flags, length_diff2; lia).
  pose proof (C33_last thresh rows Ht H2) as HL. apply kept_kept in HL; auto.
  destruct (kept_idx thresh (flags (diff2 rows))) as [|k K]; [destruct HL|]. cbn [map].
  eexists. split; [reflexivity|]. rewrite map_length. auto.
Qed.
(** Smooth input is returned unchanged. *)
Theorem C33_smooth : forall thresh rows ts lin out, 0 <= thresh -> increasing ts ->
  (forall i, (S (S i) < List.length rows)%nat -> second_difference rows i <= thresh / 2) ->
  estimate rows ts lin -> suppressed thresh rows ts out -> out = map Some lin.
Proof.
  intros thresh rows ts lin out Ht Hi Hs Hlin' Hout'.
  pose proof (proj1 (estimate_rows _ _ _) Hlin') as Hlin. pose proof (proj1 (suppressed_rows _ _ _ _) Hout') as Hout.
  destruct (outlier_inv _ _ _ _ _ Hlin Hout) as (Hl & HL2 & Hll & E). cbv zeta in E.
  assert (HK : forall i, (i < List.length rows)%nat -> kept rows thresh i).
  { intros i Hi'. split; auto. unfold flag_of, exists_second.
    assert (A : forall j, (if Nat.ltb (S (S j)) (List.length rows) then second_difference rows j else 0) <= thresh / 2).
    { intros j. destruct (Nat.ltb_spec (S (S j)) (List.length rows)); [auto|lra]. }
    pose proof (A i). destruct i as [|i]; [lra|]. pose proof (A i). lra. }
  assert (Lo : List.length out = List.length lin) by (rewrite E, map_length; lia). clear E.
  apply (nth_ext _ _ None None); [rewrite map_length; auto|]. intros n Hn. rewrite Lo in Hn.
  pose proof (C33_kept_partial thresh rows ts lin out n 0 1 Hi Hlin' Hout' (HK 0%nat ltac:(lia)) (HK 1%nat ltac:(lia)) ltac:(lia) (HK n ltac:(lia))) as H.
  apply (nth_error_nth _ _ None) in H. rewrite H.
  rewrite (nth_error_nth' lin v0) by lia. symmetry. rewrite (nth_indep _ None (Some v0)) by (rewrite map_length; auto). rewrite map_nth. reflexivity.
Qed.
(** Three samples with a corner: only the last one is kept, and everything,
    including the kept sample, comes back as NaN. *)
Definition corner : list vec3 := [V3 0 0 0; V3 1 0 0; V3 0 0 0].
Theorem C33_refuted : exists lin out, increasing grid3 /\ estimate corner grid3 lin /\ suppressed 1 corner grid3 out /\
  kept corner 1 2 /\ out = [None; None; None].
Proof.
  destruct (C33_succeeds 1 corner grid3) as (lin & out & El & Eo & Lo); [lra|exact grid3_inc|reflexivity|simpl; lia|].
  exists lin, out. split; [exact grid3_inc|]. split; auto. split; auto.
  split; [apply (C33_last 1 corner); simpl; lra || lia|].
  apply estimate_rows in El. apply suppressed_rows in Eo. destruct (outlier_inv _ _ _ _ _ El Eo) as (_ & _ & _ & E). cbv zeta in E.
  assert (D : vnorm (vsub (vsub (V3 0 0 0) (V3 1 0 0)) (vsub (V3 1 0 0) (V3 0 0 0))) = 2).
  { unfold vnorm, vnorm2, vdot, vsub. cbn. replace (_ + _) with (2 * 2) by ring. apply sqrt_square. lra. }
  assert (K : kept_idx 1 (flags (diff2 corner)) = [2%nat]).
  { unfold kept_idx. assert (F : flags (diff2 corner) = [2; 2; 0]).
    { unfold corner, diff2. rewrite D. unfold flags. cbn. repeat f_equal; lra. }
    rewrite F. cbn [List.length seq filter nth].
    replace (Rle_b 2 1) with false by (symmetry; apply Rle_b_false; lra).
    replace (Rle_b 0 1) with true by (symmetry; apply Rle_b_true; lra). reflexivity. }
  rewrite K in E. rewrite E. cbn [map nth grid3]. unfold interp_keep, in_bounds. cbn [last].
  replace (Rle_b 3 0) with false by (symmetry; apply Rle_b_false; lra).
  replace (Rle_b 3 1) with false by (symmetry; apply Rle_b_false; lra).
  replace (Rle_b 3 3) with true by (symmetry; apply Rle_b_true; lra). cbn [andb].
  unfold interp_at, interp_idx, searchsorted. destruct (Rlt_b 3 3); cbn; (replace (Req_b 3 3) with true by (symmetry; apply Req_b_true; reflexivity)); reflexivity.
Qed.
(** Samples before the first kept one are lost (NaN), whatever their number. *)
Theorem C33_leading_lost : forall thresh rows ts lin out i, increasing ts ->
  estimate rows ts lin -> suppressed thresh rows ts out ->
  (i < List.length rows)%nat -> (forall m, (m <= i)%nat -> ~ kept rows thresh m) -> nth_error out i = Some None.
Proof.
  intros thresh rows ts lin out i Hi Hlin Hout Hlt Hno. apply estimate_rows in Hlin. apply suppressed_rows in Hout.
  destruct (outlier_inv _ _ _ _ _ Hlin Hout) as (Hl & HL2 & Hll & E). cbv zeta in E.
  rewrite E, nth_error_map, (nth_error_nth' ts 0) by lia. cbn [option_map]. f_equal. unfold interp_keep.
  assert (HB : in_bounds (map (fun i => nth i ts 0) (kept_idx thresh (flags (diff2 rows)))) (nth i ts 0) = false).
  { destruct (kept_idx thresh (flags (diff2 rows))) as [|k K] eqn:EK; [reflexivity|]. cbn [map in_bounds].
    assert (Hk : kept rows thresh k) by (apply kept_kept; auto; rewrite EK; left; auto).
    assert (Hik : (i < k)%nat) by (destruct (Nat.lt_ge_cases i k); auto; exfalso; apply (Hno k); auto).
    pose proof (inc_nth ts i k Hi ltac:(destruct Hk; lia)).
    replace (Rle_b (nth k ts 0) (nth i ts 0)) with false by (symmetry; apply Rle_b_false; auto). reflexivity. }
  rewrite HB. reflexivity.
Qed.
(** Six samples along a line with a turning point at sample 3: samples 2 and 3 are
    flagged, 1 and 4 are their kept neighbours. *)
Definition turnback : list vec3 := [V3 0 0 0; V3 1 0 0; V3 2 0 0; V3 3 0 0; V3 2 0 0; V3 1 0 0].
Example C33_example : kept turnback 1 1 /\ kept turnback 1 4 /\ (forall m, (1 < m < 4)%nat -> ~ kept turnback 1 m).
Proof.
  assert (N : forall a b, 0 <= a -> b = a * a -> sqrt b = a) by (intros a b H ->; apply sqrt_square; auto).
  assert (S0 : second_difference turnback 0 = 0) by (unfold second_difference, vnorm, vnorm2, vdot; cbn; apply N; [lra|ring]).
  assert (S1 : second_difference turnback 1 = 0) by (unfold second_difference, vnorm, vnorm2, vdot; cbn; apply N; [lra|ring]).
  assert (S2 : second_difference turnback 2 = 2) by (unfold second_difference, vnorm, vnorm2, vdot; cbn; apply N; [lra|ring]).
  assert (S3 : second_difference turnback 3 = 0) by (unfold second_difference, vnorm, vnorm2, vdot; cbn; apply N; [lra|ring]).
  split; [|split].
  - split; [simpl; lia|]. unfold flag_of, exists_second. cbn [List.length turnback Nat.ltb Nat.leb]. rewrite S0, S1. lra.
  - split; [simpl; lia|]. unfold flag_of, exists_second. cbn [List.length turnback Nat.ltb Nat.leb]. rewrite S3. lra.
  - intros m Hm (_ & H). assert (m = 2 \/ m = 3)%nat as [ -> | -> ] by lia; unfold flag_of, exists_second in H;
    cbn [List.length turnback Nat.ltb Nat.leb] in H; rewrite ?S1, ?S2, ?S3 in H; lra.
Qed.

(** Other arrays: whenever the time axis is not the first axis of a two-dimensional
    array, an estimate that exists without a threshold is refused with one. *)
Theorem C33_others_refused : forall thresh (a g : nd R) axis ts time_axis tau sh,
  shp a = put tau (List.length ts) sh -> (tau <= List.length sh)%nat ->
  time_is time_axis tau (ndim a) -> axis_not axis tau (ndim a) ->
  estimate_linear_velocity a axis ts time_axis = Ok g -> (2 < ndim a)%nat \/ tau <> 0%nat ->
  estimate_linear_outlier thresh a axis ts time_axis = Raise (if Nat.ltb 2 (ndim a) then ValueError else IndexError).
Proof.
  intros thresh a g axis ts time_axis tau sh Hs Hk Ht Ha Hg Hd.
  assert (Hn : ndim a = S (List.length sh)) by (unfold ndim; rewrite Hs, put_insert, length_insert; auto).
  pose proof Hg as Hg'. rewrite (axes_resolved a axis time_axis tau sh _ ts Hs Hk Ht Ha) in Hg'.
  unfold estimate_linear_outlier. unfold estimate_linear_velocity in Hg. rewrite Hn in *.
  cbn [Nat.eqb] in *. destruct (Z.eqb _ _); [discriminate|].
  destruct (norm_axis (or_default time_axis 0) (S (List.length sh))) as [t|] eqn:Et; [|discriminate]. cbn [bind] in *.
  assert (t = tau) as ->.
  { assert (Ht' : axis_is (or_default time_axis 0) tau (S (List.length sh))).
    { destruct time_axis as [z|]; simpl in *; [|left; subst; auto]. destruct (Z.eqb_spec z 0); [subst; auto|auto]. }
    rewrite (axis_is_norm _ tau) in Et by (auto; lia). injection Et as <-. reflexivity. }
  rewrite Hg'. cbn [bind]. destruct sh as [|m [|m' sh]]; cbn [List.length] in *.
  - destruct Hd; [lia|]. exfalso. destruct axis as [[| |]|], time_axis as [z|]; cbn in Ha; lia.
  - destruct tau; [destruct Hd; lia|]. reflexivity.
  - reflexivity.
Qed.
(** A (3, 4) array with the time on the last axis, a (4, 2, 3) array. *)
Example C33_others_example : increasing [0; 1; 2; 3] /\
  (exists g, estimate_linear_velocity (Nd [3;4]%nat (fun _ => 1)) (Some (-2)%Z) [0;1;2;3] (Some (-1)%Z) = Ok g) /\
  (exists g, estimate_linear_velocity (Nd [4;2;3]%nat (fun _ => 1)) None [0;1;2;3] None = Ok g).
Proof.
  assert (I4 : increasing [0;1;2;3]).
  { intros i j x y Hij Hx Hy. destruct i as [|[|[|[|i]]]]; destruct j as [|[|[|[|j]]]]; simpl in *; try discriminate; try lia;
    try (destruct i; discriminate); try (destruct j; discriminate); injection Hx as <-; injection Hy as <-; lra. }
  split; [exact I4|]. split.
  - rewrite (axes_resolved _ _ _ 1 [3%nat] 4); [|reflexivity|simpl; lia|right; reflexivity|exists 0%nat; split; [cbn; lia|split; [right; reflexivity|lia]]].
    unfold gradient_nd. cbn [shp nth]. change 4%nat with (List.length [0;1;2;3]). rewrite (grad_check_ok [0;1;2;3]) by (auto; simpl; lia). eexists. reflexivity.
  - rewrite (axes_resolved _ _ _ 0 [2;3]%nat 4); [|reflexivity|simpl; lia|reflexivity|cbn; lia].
    unfold gradient_nd. cbn [shp nth]. change 4%nat with (List.length [0;1;2;3]). rewrite (grad_check_ok [0;1;2;3]) by (auto; simpl; lia). eexists. reflexivity.
Qed.
