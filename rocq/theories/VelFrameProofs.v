(** Matching of timestamped (N, 3) arrays and the velocity lookups. *)
From Coq Require Import Reals List Arith Bool ZArith Lia Lra Sorted.
From Coq Require String.
From Verif Require Import Base Quat SpecQuat QuatProofs NdArray Frames SpecForest FrameProofs WalkProofs
  Matcher SpecLookup LookupProofs RegistryProofs MovingProofs TimeProofs CtorProofs InverseProofs RouteProofs
  Examples PropForest PropLookup PropMoving
  Transform SpecArray NdProofs RotProofs ArrProofs ArrTransProofs ArrStaticProofs PropTransform PropRotate
  UtilsProofs Velocity VelProofs VelFrames.
Import ListNotations.
Open Scope R_scope.

(** The value at time x of a (3,) array without timestamps, or of an (N, 3) array
    with timestamps, linearly interpolated between its samples. *)
Definition value_at (B : nd R) (o : option (list R)) (x : R) (v : vec3) : Prop :=
  match o with
  | None => v = vec_at B []
  | Some ts => exists k a b, in_interval ts x k a b /\ v = between a b (vec_at B [k]) (vec_at B [S k]) x
  end.
(** Strictly increasing timestamps, at least two. *)
Definition two_up (ts : list R) : Prop := increasing ts /\ (2 <= List.length ts)%nat.
Definition proper (p : nd R * option (list R)) : Prop :=
  match snd p with
  | None => shp (fst p) = [3%nat]
  | Some ts => shp (fst p) = [List.length ts; 3%nat] /\ two_up ts
  end.

(** At a sampling time the value is the sample. *)
Lemma value_at_sample B ts x v m : increasing ts -> nth_error ts m = Some x -> value_at B (Some ts) x v -> v = vec_at B [m].
Proof.
  intros Hi Hm (k & a & b & (Ha & Hb & Hab & Hx) & ->).
  destruct Hx as [(H1 & H2) | (-> & ->)].
  - assert (Hkm : m = S k).
    { destruct (Nat.lt_trichotomy m (S k)) as [H|[H|H]]; auto; exfalso.
      - destruct (Nat.eq_dec m k) as [->|Hne]; [assert (x = a) by congruence; lra|].
        pose proof (Hi m k _ _ ltac:(lia) Hm Ha). lra.
      - pose proof (Hi (S k) m _ _ H Hb Hm). lra. }
    subst m. assert (x = b) by congruence. subst x. unfold between. apply vec3_eq; cbn; field; lra.
  - assert (m = 0%nat). { destruct m as [|m]; auto. pose proof (Hi 0%nat (S m) _ _ ltac:(lia) Ha Hm). lra. }
    subst m. unfold between. apply vec3_eq; cbn; field; lra.
Qed.

Lemma interp_nd_value ts (a : nd R) l : two_up ts -> shp a = [List.length ts; 3%nat] ->
  (forall x, In x l -> in_bounds ts x = true) ->
  exists b, interp_nd ts a l = Ok b /\ shp b = [List.length l; 3%nat] /\
    forall k x, nth_error l k = Some x -> value_at a (Some ts) x (vec_at b [k]).
Proof.
  intros (Hi & H2) Hs Hb. unfold interp_nd. rewrite Hs. cbn [hd].
  set (ys := map (fun i jx => dat a (i :: jx)) (seq 0 (List.length ts))).
  assert (Ly : List.length ys = List.length ts) by (unfold ys; rewrite map_length, seq_length; auto).
  assert (Hn : forall j u, nth_error ys j = Some u -> u = fun jx => dat a (j :: jx)).
  { intros j u Hu. unfold ys in Hu. rewrite nth_error_map in Hu. destruct (nth_error (seq 0 (List.length ts)) j) as [j'|] eqn:E; [|discriminate].
    pose proof (nth_lt _ _ _ E) as Hj. rewrite seq_length in Hj. rewrite (nth_error_nth' _ O) in E by (rewrite seq_length; auto).
    rewrite seq_nth in E by auto. injection E as <-. injection Hu as <-. reflexivity. }
  unfold interp1d. replace (forallb (in_bounds ts) l) with true by (symmetry; apply forallb_forall; auto).
  destruct (traverse_ok_ex (interp_at lin_fun ts ys) l) as (rows & Hr).
  { intros x _. destruct (interp_at_ok lin_fun ts ys x Hi H2 Ly) as (k & a0 & b0 & u & v & _ & _ & _ & _ & _ & _ & E). eauto. }
  rewrite Hr. cbn [bind]. eexists. split; [reflexivity|]. split; [reflexivity|].
  intros k x Hx. destruct (interp_at_ok lin_fun ts ys x Hi H2 Ly) as (j & a0 & b0 & u & v & E & Ha & Hb' & Hab & Hu & Hv & Ei).
  exists j, a0, b0. split.
  - apply interp_idx_spec; auto; try lra. apply Hb. eapply nth_error_In; eauto.
  - pose proof (traverse_nth_eq _ _ _ k x (fun _ => 0) Hr Hx) as Er. rewrite Ei in Er. apply Ok_inj in Er.
    unfold vec_at. cbn [dat hd tl app]. rewrite <- Er. rewrite (Hn _ _ Hu), (Hn _ _ Hv). unfold lin_fun, lin1, between.
    apply vec3_eq; cbn; field; lra.
Qed.

Section Match.
  Variable squad : list R -> list quat -> R -> res quat.

  Lemma add_proper p : proper p -> add_array (fst p) (snd p) = Ok (MA (fst p) (snd p)).
  Proof.
    destruct p as (a & [ts|]); unfold proper; cbn [fst snd]; intros H; [|reflexivity]. destruct H as (Hs & Hi & H2).
    unfold add_array, check_timestamps. rewrite (increasing_not_decreasing ts Hi), Hs, Nat.eqb_refl. reflexivity.
  Qed.
  Lemma resample_proper p l : proper p -> (forall ts x, snd p = Some ts -> In x l -> in_bounds ts x = true) ->
    exists b, resample_array squad (MA (fst p) (snd p)) (Some l) = Ok b /\ shp b = [List.length l; 3%nat] /\
      forall k x, nth_error l k = Some x -> value_at (fst p) (snd p) x (vec_at b [k]).
  Proof.
    destruct p as (a & [ts|]); unfold proper; cbn [fst snd]; intros H Hb.
    - destruct H as (Hs & H2). unfold resample_array. cbn [ma_ts ma_data]. rewrite Hs. cbn [last Nat.eqb].
      apply interp_nd_value; auto.
    - unfold resample_array. cbn [ma_ts ma_data]. unfold tile_nd. rewrite H. eexists. split; [reflexivity|]. split; [reflexivity|].
      intros k x _. unfold value_at, vec_at. reflexivity.
  Qed.
  Lemma in_bounds_ne ts x : in_bounds ts x = true -> ts <> [].
  Proof. intros H ->. discriminate. Qed.

  (** Matching arrays, the first with timestamps: the samples of the first that
      are in range of all others; every array takes its value at those times. *)
  Lemma match_proper a ts rest : Forall proper ((a, Some ts) :: rest) ->
    exists bs l, match_arrays squad ((a, Some ts) :: rest) = Ok (bs, Some l) /\
      (exists f, l = filter f ts) /\
      (forall x, In x l <-> In x ts /\ forall p t', In p rest -> snd p = Some t' -> in_bounds t' x = true) /\
      List.length bs = S (List.length rest) /\
      forall n p b, nth_error ((a, Some ts) :: rest) n = Some p -> nth_error bs n = Some b ->
        shp b = [List.length l; 3%nat] /\ forall k x, nth_error l k = Some x -> value_at (fst p) (snd p) x (vec_at b [k]).
  Proof.
    intros HP. unfold match_arrays. set (all := (a, Some ts) :: rest) in *. rewrite Forall_forall in HP.
    rewrite (traverse_ok _ (fun p => MA (fst p) (snd p))) by (intros p Hp; apply add_proper; auto). cbn [bind].
    set (M := Mat [] (map (fun p => MA (fst p) (snd p)) all)).
    assert (HA : forall t, In t (arr_list M) <-> exists p, In p all /\ snd p = Some t).
    { intros t. unfold arr_list, M. cbn [m_arrays]. rewrite somes_in, map_map, in_map_iff. cbn [ma_ts]. firstorder. }
    assert (HL : get_timestamps M true <> Raise IndexError /\ forall e, get_timestamps M true = Raise e -> False).
    { assert (F : forall e, get_timestamps M true = Raise e -> False).
      { intros e He. apply timestamps_raise in He as (_ & t & Ht & ->). change (In t (arr_list M)) in Ht || (rewrite in_app_iff in Ht; destruct Ht as [Ht|Ht]; [try (exfalso; exact Ht)|]).
        apply HA in Ht as (p & Hp & Ep). apply HP in Hp. unfold proper in Hp. rewrite Ep in Hp. destruct Hp as (_ & _ & H2). simpl in H2. lia. }
      split; auto. intros He. eapply F; eauto. }
    destruct HL as (_ & HL). destruct (get_timestamps M true) as [o|e] eqn:EG; [|exfalso; eapply HL; eauto].
    apply timestamps_spec in EG.
    assert (HH : exists rest', arr_list M = ts :: rest') by (unfold arr_list, M, all; cbn; eauto).
    destruct HH as (rest' & HH).
    destruct o as [l|]; [|destruct EG as (_ & E & _); congruence].
    destruct EG as [(ts0 & rest0 & E0 & Hf & Hin)|(_ & E & _)]; [|congruence].
    cbn [cont_list m_frames M map somes] in E0. rewrite app_nil_r, HH in E0. injection E0 as <- <-. cbn [cont_list m_frames M map somes app] in Hin.
    assert (Hb : forall p t' x, In p all -> snd p = Some t' -> In x l -> in_bounds t' x = true).
    { intros p t' x Hp Et Hx. apply Hin in Hx as (_ & Hx). apply Hx. apply HA. eauto. }
    cbn [bind].
    destruct (traverse_ok_ex (fun a0 => resample_array squad a0 (Some l)) (map (fun p => MA (fst p) (snd p)) all)) as (bs & Hbs).
    { intros q Hq. apply in_map_iff in Hq as (p & <- & Hp). destruct (resample_proper p l) as (b & E & _); auto.
      - intros t' x Et Hx. eapply Hb; eauto.
      - eauto. }
    rewrite Hbs. cbn [bind]. exists bs, l. split; [reflexivity|]. split; auto. split.
    { intros x. rewrite Hin. split; intros (H1 & H2); (split; auto).
      - intros p t' Hp Et. apply H2. apply HA. exists p. split; [right|]; auto.
      - intros t' Ht. apply HA in Ht as (p & [<-|Hp] & Et); [cbn in Et; injection Et as <-|eapply H2; eauto].
        pose proof (HP (a, Some ts) (or_introl eq_refl)) as (_ & Hi & H2'). cbn [snd] in *.
        apply In_nth_error in H1 as (m & Hm). apply (inc_in_bounds ts m x x m x); auto; lra. }
    split; [apply traverse_length in Hbs; rewrite map_length in Hbs; auto|].
    intros n p b Hp Hn. apply (traverse_nth _ _ _ _ _ Hbs) in Hn as (q & Hq & E).
    rewrite nth_error_map in Hq. replace (nth_error all n) with (Some p) in Hq. cbn in Hq. injection Hq as <-.
    destruct (resample_proper p l) as (b' & E' & Hs & Hv); [apply HP; eapply nth_error_In; eauto| |].
    - intros t' x Et Hx. eapply Hb; eauto. eapply nth_error_In; eauto.
    - rewrite E' in E. apply Ok_inj in E. subst b'. auto.
  Qed.
End Match.

(* ---- sums and cross products of (N, 3) arrays ---- *)
Lemma op2_rows (f : R -> R -> R) (a b : nd R) n : shp a = [n; 3%nat] -> shp b = [n; 3%nat] ->
  exists c, op2 f a b = Ok c /\ shp c = [n; 3%nat] /\
    forall k j, (k < n)%nat -> (j < 3)%nat -> dat c [k; j] = f (dat a [k; j]) (dat b [k; j]).
Proof.
  intros Ha Hb. destruct (op2_same f a b [n; 3%nat] Ha Hb) as (c & E & Sc & Dc). exists c. split; auto. split; [congruence|].
  intros k j Hk Hj. apply Dc. repeat (apply Forall2_cons; [assumption|]). apply Forall2_nil.
Qed.
Lemma add_rows (a b : nd R) n : shp a = [n; 3%nat] -> shp b = [n; 3%nat] ->
  exists c, op2 Rplus a b = Ok c /\ shp c = [n; 3%nat] /\ forall k, (k < n)%nat -> vec_at c [k] = vadd (vec_at a [k]) (vec_at b [k]).
Proof.
  intros Ha Hb. destruct (op2_rows Rplus a b n Ha Hb) as (c & E & Sc & Dc). exists c. split; auto. split; auto.
  intros k Hk. unfold vec_at, vadd. cbn [app vx vy vz]. rewrite !Dc by lia. reflexivity.
Qed.
Lemma shape_eqb_refl l : shape_eqb l l = true.
Proof. unfold shape_eqb. destruct (list_eq_dec Nat.eq_dec l l); auto. Qed.
Lemma inplace_rows (a b : nd R) n : shp a = [n; 3%nat] -> shp b = [n; 3%nat] ->
  exists c, add_inplace a b = Ok c /\ shp c = [n; 3%nat] /\ forall k, (k < n)%nat -> vec_at c [k] = vadd (vec_at a [k]) (vec_at b [k]).
Proof.
  intros Ha Hb. destruct (add_rows a b n Ha Hb) as (c & E & Sc & Dc). exists c. unfold add_inplace. rewrite E. cbn [bind].
  rewrite Sc, Ha, shape_eqb_refl. auto.
Qed.
Lemma cross_rows (a b : nd R) n : shp a = [n; 3%nat] -> shp b = [n; 3%nat] ->
  exists c, np_cross a b = Ok c /\ shp c = [n; 3%nat] /\ forall k, (k < n)%nat -> vec_at c [k] = vcross (vec_at a [k]) (vec_at b [k]).
Proof.
  intros Ha Hb. unfold np_cross. rewrite Ha, Hb. cbn [last Nat.eqb negb orb removelast].
  rewrite bshape_eq by reflexivity || (cbn; rewrite Nat.eqb_refl; reflexivity). cbn [bind].
  eexists. split; [reflexivity|]. rewrite bs_refl. split; [reflexivity|].
  intros k Hk. unfold vec_at at 1. cbn [dat app last removelast].
  rewrite bix_zb by reflexivity. rewrite zb_valid by (repeat constructor; auto).
  cbn [comp3]. destruct (vcross _ _). reflexivity.
Qed.

(* ---- timestamps of lookups ---- *)
Lemma filter_increasing (f : R -> bool) ts : increasing ts -> increasing (filter f ts).
Proof.
  induction ts as [|a ts IH]; intros H; [exact H|]. cbn [filter]. assert (Ht : increasing (filter f ts)) by (apply IH; apply increasing_tail in H; auto).
  destruct (f a); auto. intros i j x y Hij Hx Hy. destruct j as [|j]; [lia|]. cbn in Hy.
  destruct i as [|i]; cbn in Hx; [|apply (Ht i j); auto; lia].
  injection Hx as <-. apply nth_error_In, filter_In in Hy as (Hy & _). apply In_nth_error in Hy as (m & Hm).
  apply (H 0%nat (S m)); auto. lia.
Qed.
Lemma sorted_increasing ts : StronglySorted Rlt ts -> increasing ts.
Proof.
  induction 1 as [|a ts Hs IH Hf]; intros i j x y Hij Hx Hy; destruct j as [|j]; try lia; cbn in Hy; [discriminate|].
  destruct i as [|i]; cbn in Hx; [|apply (IH i j); auto; lia].
  injection Hx as <-. rewrite Forall_forall in Hf. apply Hf. eapply nth_error_In; eauto.
Qed.
Lemma lookup_inc squad s i to j ts rows : reachable s -> frame s i -> denotes s to j -> good_way s i j ->
  lookup_transform squad s i to = Ok (TrRows ts rows) -> increasing ts.
Proof.
  intros HR Hi Hj (Hsame & Hd) H. pose proof (denotes_frame s to j HR Hj) as Hjf.
  destruct (lookup_route s i to j ts rows squad (reach_inv _ HR) Hi (denotes_resolve s to j Hj) H) as (l & fs & _ & Hfs & Hts & _ & _).
  destruct (frames_succeed s i j (reach_inv _ HR) (reachable_BodyOk _ HR) Hi Hjf Hsame Hd) as (fs' & Hfs' & Hws & _ & _).
  rewrite Hfs in Hfs'. injection Hfs' as <-. apply timestamps_spec in Hts.
  destruct Hts as [(ts0 & rest & E & (f & ->) & _)|(_ & _ & _ & Hs & _)]; [|apply sorted_increasing; auto].
  apply filter_increasing. cbn [arr_list m_arrays map somes app] in E.
  assert (Hin : In ts0 (cont_list (Mat fs []))) by (rewrite E; left; auto).
  unfold cont_list in Hin. apply somes_in, in_map_iff in Hin as (mf & Hmf & Hin). rewrite Forall_forall in Hws. apply Hws in Hin as (_ & Hin).
  unfold cont_ts in Hmf. destruct (mf_data mf) as [|ts1 a b [|]]; try discriminate. injection Hmf as <-. apply Hin.
Qed.

Lemma stamps_times ts : times (stamps_nd ts) (List.length ts) = ts.
Proof.
  unfold times, stamps_nd. cbn [dat hd]. apply (List.nth_ext _ _ 0 0); [rewrite map_length, seq_length; auto|].
  intros k Hk. rewrite map_length, seq_length in Hk.
  rewrite (nth_indep _ 0 ((fun i => nth i ts 0) O)) by (rewrite map_length, seq_length; auto).
  rewrite (map_nth (fun i => nth i ts 0) (seq 0 (List.length ts)) O). rewrite seq_nth by auto. reflexivity.
Qed.
Lemma stamps_at ts m : dat (stamps_nd ts) [m] = nth m ts 0.
Proof. reflexivity. Qed.
Lemma stamps_stamped (a : nd R) ts : two_up ts -> shp a = [List.length ts; 3%nat] ->
  stamped a 3 0 (stamps_nd ts) 0 (List.length ts) [].
Proof.
  intros (Hi & H2) Hs. unfold stamped. split; [exact Hs|]. split; [auto|]. split; [left; reflexivity|].
  split; [reflexivity|]. split; [exact H2|]. intros x y Hxy. rewrite !stamps_at. apply inc_nth; auto; lia.
Qed.

(** The samples of ts in range of the moving frames between i and j. *)
Definition in_range_way (s : state) (i j : nat) (ts l : list R) : Prop :=
  (exists f, l = filter f ts) /\
  exists rt, route (parent_of s) i j rt /\
    forall x, In x l <-> In x ts /\ forall f tf, In f rt -> cont_of s f = Some tf ->
      exists a b, hd_error tf = Some a /\ nth_error tf (List.length tf - 1) = Some b /\ a <= x <= b.

Section Rows.
  Variable squad : list R -> list quat -> R -> res quat.
  Variable s : state.
  Hypothesis HR : reachable s.
  Hypothesis Htot : squad_total squad.
  Hypothesis Hun : squad_unit squad.

  Lemma vectors_rows i to j (a : nd R) ts : frame s i -> denotes s to j -> good_way s i j ->
    two_up ts -> shp a = [List.length ts; 3%nat] ->
    exists out l, transform_vectors squad s i a to (-1) (Some 0%Z) (Some (stamps_nd ts)) = Ok (out, Some l) /\
      shp out = [List.length l; 3%nat] /\ in_range_way s i j ts l /\
      forall k x, nth_error l k = Some x -> exists m t r, nth_error ts m = Some x /\ maps_at squad s x i j t r /\
        vec_at out [k] = srot r (vec_at a [m]).
  Proof.
    intros Hi Hj Hg H2 Hs. pose proof (stamps_stamped a ts H2 Hs) as Hst.
    destruct (C22_vectors_succeed squad s i to j a 0 (stamps_nd ts) 0 (List.length ts) [] HR Htot Hun Hi Hj Hg Hst) as (out & l & E).
    destruct (C22_vectors squad s i to j a 0 (stamps_nd ts) 0 (List.length ts) [] out (Some l) HR Hun Hi Hj (good_unit _ _ _ Hg) Hst E)
      as (l' & El & (f & Hf) & (rt & Hrt & Hin) & So & Ho).
    injection El as <-. exists out, l. split; [exact E|]. split; [exact So|].
    change (map (fun m => dat (stamps_nd ts) [m]) (seq 0 (List.length ts))) with (times (stamps_nd ts) (List.length ts)) in Hf.
    rewrite stamps_times in Hf. split.
    - split; [eauto|]. exists rt. split; auto. intros x. split.
      + intros Hx. assert (Hx' : In x ts) by (rewrite Hf in Hx; apply filter_In in Hx; tauto). split; auto.
        apply In_nth_error in Hx' as (m & Hm). pose proof (nth_lt _ _ _ Hm) as Lm. apply (nth_error_nth _ _ 0) in Hm.
        specialize (Hin m Lm). rewrite stamps_at, Hm in Hin. apply Hin, Hx.
      + intros (Hx' & Hx). apply In_nth_error in Hx' as (m & Hm). pose proof (nth_lt _ _ _ Hm) as Lm. apply (nth_error_nth _ _ 0) in Hm.
        specialize (Hin m Lm). rewrite stamps_at, Hm in Hin. apply Hin, Hx.
    - intros k x Hk. destruct (Ho k x Hk) as (m & t & r & Lm & Ex & Hmap & Him). exists m, t, r.
      rewrite stamps_at in Ex. split; [rewrite (nth_error_nth' _ 0) by auto; congruence|]. split; auto.
      apply (Him []). constructor.
  Qed.
  (** A call with timestamps cannot return more samples than it was given. *)
  Lemma vectors_few i to a ts out l : shp a = [List.length ts; 3%nat] ->
    transform_vectors squad s i a to (-1) (Some 0%Z) (Some (stamps_nd ts)) = Ok (out, l) ->
    exists l', l = Some l' /\ (List.length l' <= List.length ts)%nat.
  Proof.
    intros Hs H. unfold transform_vectors in H. apply bind_ok in H as ((tr & b) & Hp & H).
    apply bind_ok in H as (c & _ & H). apply bind_ok in H as (d & _ & H). injection H as _ <-.
    assert (N : ndim a = 2%nat) by (unfold ndim; rewrite Hs; reflexivity).
    assert (Hax : norm_axis (-1) (ndim a) = Ok 1%nat) by (rewrite N; reflexivity).
    assert (Hta : norm_axis 0 (ndim a) = Ok 0%nat) by (rewrite N; reflexivity).
    assert (Hnn : nth 1 (shp a) 0%nat = 3%nat) by (rewrite Hs; reflexivity).
    assert (Hn : nth 0 (shp a) 0%nat = List.length ts) by (rewrite Hs; reflexivity).
    destruct (prepare_inv squad s i a to (-1) 3 0 (stamps_nd ts) (List.length ts) 0 1 Hax Hnn eq_refl Hta Hn tr b Hp)
      as (j & fs & l & rows & _ & _ & Hl & _ & Htr & _).
    destruct (prepare_times squad a (stamps_nd ts) (List.length ts) 0 fs l Hl) as ((f & ->) & _).
    rewrite stamps_times in Htr. exists (filter f ts). split; [destruct Htr as [-> | (-> & _)]; reflexivity|].
    clear. induction ts as [|x ts IH]; cbn; [lia|]. destruct (f x); cbn; lia.
  Qed.

  Lemma resolve_ref_some i p j : denotes s p j -> p <> PName String.EmptyString -> resolve_ref s i (Some p) = Ok j.
  Proof.
    intros H Hne. pose proof (denotes_resolve s p j H) as E. unfold resolve_ref. destruct p as [f|n|]; try (rewrite E; reflexivity).
    destruct (String.eqb_spec n String.EmptyString); [congruence|]. rewrite E. reflexivity.
  Qed.
  Lemma lookup_kinds i j tr : frame s i -> frame s j -> good_way s i j -> lookup_transform squad s i (PFrame j) = Ok tr ->
    match tr_ts tr with
    | None => exists t r, tr = TrStatic t r
    | Some ts => increasing ts /\ exists rows, tr = TrRows ts rows /\ List.length rows = List.length ts /\
        forall k x, nth_error ts k = Some x -> maps_at squad s x i j (rowv rows k) (rowq rows k)
    end.
  Proof.
    intros Hi Hj Hg H. destruct tr as [t r|ts|ts rows]; cbn [tr_ts].
    - eauto.
    - exfalso. exact (C17_no_bare squad s i _ ts HR H).
    - split; [exact (lookup_inc squad s i (PFrame j) j ts rows HR Hi (or_introl (conj eq_refl Hj)) Hg H)|]. exists rows. split; auto.
      destruct (C17_moving_lookup squad s i (PFrame j) j ts rows HR Hun Hi (or_introl (conj eq_refl Hj)) (good_unit _ _ _ Hg) H) as (L & Hm).
      split; auto. intros k x Hx. pose proof (nth_lt _ _ _ Hx) as Lk. unfold rowv, rowq.
      apply (Hm k x); auto. rewrite (nth_error_nth' _ (v0, q1)) by lia. destruct (nth k rows (v0, q1)); reflexivity.
  Qed.
  Variable deriv : list R -> list R -> res (list R).
  Lemma est_shape tr ts rows est ang : tr = TrRows ts rows -> estimate_angular deriv (tr_r_opt tr) ts (-1) 0 = Ok est ->
    no_nan est = Ok ang -> shp ang = [List.length ts; 3%nat].
  Proof.
    intros -> H H2. unfold no_nan in H2. destruct (existsb _ _); [discriminate|]. injection H2 as <-. cbn [shp].
    unfold estimate_angular in H. cbn in H. rewrite Nat.eqb_refl in H. cbn in H. apply bind_ok in H as (u & _ & H). injection H as <-. reflexivity.
  Qed.
  Lemma grad_shape a ts g : gradient_nd a ts 0 = Ok g -> shp g = shp a /\ (2 <= List.length ts)%nat.
  Proof.
    unfold gradient_nd, grad_check. intros H. apply bind_ok in H as (u & Hc & H). injection H as <-. split; auto.
    destruct (Nat.eqb_spec (List.length ts) (nth 0 (shp a) 0%nat)) as [E|]; cbn [negb] in Hc; [|discriminate].
    rewrite <- E in Hc. destruct (Nat.ltb_spec (List.length ts) 2); [discriminate|]. auto.
  Qed.
  Lemma range_proper i j ts out l : in_range_way s i j ts l -> increasing ts -> shp out = [List.length l; 3%nat] ->
    (2 <= List.length l)%nat -> proper (out, Some l).
  Proof. intros ((f & ->) & _) Hi Hs H2. split; auto. split; auto. apply filter_increasing; auto. Qed.

  Definition enough (o : option (list R)) : Prop := forall l, o = Some l -> (2 <= List.length l)%nat.

  Lemma ang_proper i ref rep j k w o : frame s i -> denotes s ref j -> denotes s rep k ->
    ref <> PName String.EmptyString -> rep <> PName String.EmptyString -> good_way s i j -> good_way s i k ->
    lookup_angular_velocity squad deriv s i (Some ref) (Some rep) true true = Ok (w, o) ->
    exists wts, o = Some wts /\ (enough wts -> proper (w, wts)) /\
      (wts = None -> w = zeros3 /\ exists t r, lookup_transform squad s i (PFrame j) = Ok (TrStatic t r)).
  Proof.
    intros Hi Hj Hk Nj Nk Gj Gk H. pose proof (denotes_frame s _ _ HR Hj) as Fj. pose proof (denotes_frame s _ _ HR Hk) as Fk.
    unfold lookup_angular_velocity in H.
    rewrite (resolve_ref_some i ref j Hj Nj), (resolve_ref_some i rep k Hk Nk) in H. cbn [bind] in H.
    apply bind_ok in H as (tr & Htr & H). pose proof (lookup_kinds i j tr Hi Fj Gj Htr) as K.
    destruct (tr_ts tr) as [ts|].
    - destruct K as (Hinc & rows & Etr & _). apply bind_ok in H as (est & He & H). apply bind_ok in H as (ang & Ha & H).
      apply bind_ok in H as ((out & l) & Hv & H). injection H as <- <-. pose proof (est_shape tr ts rows est ang Etr He Ha) as Sa.
      destruct (vectors_few i (PFrame k) ang ts out l Sa Hv) as (l' & -> & Hle). exists (Some l'). split; [reflexivity|]. split; [|discriminate].
      intros He'. specialize (He' l' eq_refl). assert (H2 : two_up ts) by (split; auto; lia).
      destruct (vectors_rows i (PFrame k) k ang ts Hi (or_introl (conj eq_refl Fk)) Gk H2 Sa) as (out' & l & Ev & So & Hr & _).
      rewrite Hv in Ev. injection Ev as <- <-. eapply range_proper; eauto.
    - injection H as <- <-. exists None. split; auto. split; [intros _; reflexivity|]. intros _. split; auto.
      destruct K as (t & r & ->). eauto.
  Qed.
  Lemma lin_proper i ref rep j k w o : frame s i -> denotes s ref j -> denotes s rep k ->
    ref <> PName String.EmptyString -> rep <> PName String.EmptyString -> good_way s i j -> good_way s j k ->
    lookup_linear_velocity squad s i (Some ref) (Some rep) true true = Ok (w, o) ->
    exists wts, o = Some wts /\ (enough wts -> proper (w, wts)) /\
      (wts = None -> w = zeros3 /\ exists t r, lookup_transform squad s i (PFrame j) = Ok (TrStatic t r)).
  Proof.
    intros Hi Hj Hk Nj Nk Gj Gk H. pose proof (denotes_frame s _ _ HR Hj) as Fj. pose proof (denotes_frame s _ _ HR Hk) as Fk.
    unfold lookup_linear_velocity in H.
    rewrite (resolve_ref_some i ref j Hj Nj), (resolve_ref_some i rep k Hk Nk) in H. cbn [bind] in H.
    apply bind_ok in H as (tr & Htr & H). pose proof (lookup_kinds i j tr Hi Fj Gj Htr) as K.
    destruct (tr_ts tr) as [ts|].
    - destruct K as (Hinc & rows & Etr & _). apply bind_ok in H as (g & He & H).
      apply bind_ok in H as ((out & l) & Hv & H). injection H as <- <-. destruct (grad_shape _ _ _ He) as (Sa & H2').
      rewrite Etr in Sa. cbn [tr_t shp] in Sa. assert (H2 : two_up ts) by (split; auto).
      destruct (vectors_rows j (PFrame k) k g ts Fj (or_introl (conj eq_refl Fk)) Gk H2 Sa) as (out' & l' & Ev & So & Hr & _).
      rewrite Hv in Ev. injection Ev as <- ->. exists (Some l'). split; [reflexivity|]. split; [|discriminate].
      intros He'. eapply range_proper; eauto.
    - injection H as <- <-. exists None. split; auto. split; [intros _; reflexivity|]. intros _. split; auto.
      destruct K as (t & r & ->). eauto.
  Qed.
  Lemma twist_proper i ref rep j k lin ang o : frame s i -> denotes s ref j -> denotes s rep k ->
    ref <> PName String.EmptyString -> rep <> PName String.EmptyString -> good_way s i j -> good_way s i k -> good_way s j k ->
    lookup_twist squad deriv s i (Some ref) (Some rep) true true = Ok (lin, ang, o) ->
    exists wts, o = Some wts /\ (enough wts -> proper (lin, wts) /\ proper (ang, wts)) /\
      (wts = None -> lin = zeros3 /\ ang = zeros3 /\ exists t r, lookup_transform squad s i (PFrame j) = Ok (TrStatic t r)).
  Proof.
    intros Hi Hj Hk Nj Nk Gj Gik Gk H. pose proof (denotes_frame s _ _ HR Hj) as Fj. pose proof (denotes_frame s _ _ HR Hk) as Fk.
    unfold lookup_twist in H.
    rewrite (resolve_ref_some i ref j Hj Nj), (resolve_ref_some i rep k Hk Nk) in H. cbn [bind] in H.
    apply bind_ok in H as (tr & Htr & H). pose proof (lookup_kinds i j tr Hi Fj Gj Htr) as K.
    destruct (tr_ts tr) as [ts|].
    2:{ injection H as <- <- <-. exists None. split; auto. split; [intros _; split; reflexivity|]. intros _.
        destruct K as (t & r & ->). eauto. }
    destruct K as (Hinc & rows & Etr & _). apply bind_ok in H as (g & Hg & H). apply bind_ok in H as (est & He & H).
    apply bind_ok in H as (an & Ha & H). apply bind_ok in H as ((ol & ll) & Hvl & H). apply bind_ok in H as ((oa & la) & Hva & H).
    apply bind_ok in H as ((bs & o') & Hm & H).
    destruct (grad_shape _ _ _ Hg) as (Sg & H2'). rewrite Etr in Sg. cbn [tr_t shp] in Sg.
    pose proof (est_shape tr ts rows est an Etr He Ha) as Sa. assert (H2 : two_up ts) by (split; auto).
    destruct (vectors_rows j (PFrame k) k g ts Fj (or_introl (conj eq_refl Fk)) Gk H2 Sg) as (ol' & ll' & Ev & Sol & Hrl & _).
    rewrite Hvl in Ev. injection Ev as <- ->.
    destruct (vectors_rows i (PFrame k) k an ts Hi (or_introl (conj eq_refl Fk)) Gik H2 Sa) as (oa' & la' & Ev & Soa & Hra & _).
    rewrite Hva in Ev. injection Ev as <- ->.
    destruct bs as [|ba [|bl [|? ?]]]; try discriminate. injection H as -> -> <-.
    pose proof Hrl as ((fl & El) & _). pose proof Hra as ((fa & Ea) & _).
    assert (Ho : exists l f, o' = Some l /\ l = filter f la' /\ forall x, In x l -> in_bounds ll' x = true).
    { unfold match_arrays in Hm. apply bind_ok in Hm as (ms & Hms & Hm). apply bind_ok in Hm as (o1 & Ho & Hm).
      apply bind_ok in Hm as (bs & _ & Hm). injection Hm as _ <-.
      unfold traverse in Hms. cbn [fst snd] in Hms. unfold add_array in Hms. apply bind_ok in Hms as (m1 & H1 & Hms). apply bind_ok in Hms as (mr & H3 & Hms).
      apply bind_ok in H1 as (? & _ & H1). injection H1 as <-. apply bind_ok in H3 as (m2 & H3 & H4). apply bind_ok in H3 as (? & _ & H3). injection H3 as <-.
      cbn in H4. injection H4 as <-. injection Hms as <-. apply timestamps_spec in Ho. destruct o1 as [l|]; [|destruct Ho as (_ & X & _); discriminate].
      destruct Ho as [(ts0 & rest & E & (f & Ef) & Hx)|(_ & X & _)]; [|discriminate]. cbn in E. injection E as <- <-.
      exists l, f. split; auto. split; auto. intros xx Hl. apply Hx in Hl as (_ & Hl). apply Hl. cbn. auto. }
    destruct Ho as (l & f & -> & Ef & Hb). exists (Some l). split; auto. split; [|discriminate]. intros Hen. specialize (Hen l eq_refl).
    assert (Il : increasing l) by (rewrite Ef, Ea; repeat apply filter_increasing; auto).
    assert (La : (2 <= List.length la')%nat).
    { rewrite Ef in Hen. clear -Hen. assert (X : (List.length (filter f la') <= List.length la')%nat); [|lia]. clear.
      induction la' as [|x la IH]; cbn; [lia|]. destruct (f x); cbn; lia. }
    assert (Ll : (2 <= List.length ll')%nat).
    { destruct ll' as [|y [|? ?]]; [exfalso|exfalso|cbn; lia].
      - destruct l as [|x l]; [cbn in Hen; lia|]. specialize (Hb x (or_introl eq_refl)). discriminate.
      - destruct l as [|x [|x' l]]; [cbn in Hen; lia|cbn in Hen; lia|].
        assert (X : forall z, In z (x :: x' :: l) -> z = y).
        { intros z Hz. apply Hb in Hz. apply in_bounds_spec in Hz as (p & q & Hp & Hq & Hpq). cbn in Hp, Hq. injection Hp as <-. injection Hq as <-. lra. }
        pose proof (Il 0%nat 1%nat x x' ltac:(lia) eq_refl eq_refl). rewrite (X x), (X x') in H by (cbn; auto). lra. }
    pose proof (range_proper _ _ _ _ _ Hra Hinc Soa La) as Pa. pose proof (range_proper _ _ _ _ _ Hrl Hinc Sol Ll) as Pl.
    assert (HF : Forall proper ((oa, Some la') :: [(ol, Some ll')])) by (repeat constructor; auto; apply Pa || apply Pl).
    destruct (match_proper squad oa la' [(ol, Some ll')] HF) as (bs & l2 & E & _ & _ & _ & Hsh). rewrite Hm in E.
    injection E as <- <-.
    destruct (Hsh 0%nat _ _ eq_refl eq_refl) as (S1 & _). destruct (Hsh 1%nat _ _ eq_refl eq_refl) as (S2 & _).
    split; (split; [assumption|split; assumption]).
  Qed.
End Rows.
