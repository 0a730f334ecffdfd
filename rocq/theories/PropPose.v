(** Property C44 for moving frames: datasets returned by lookup_pose, and property C70:
    single labelled items through moving frames. *)
From Coq Require Import Reals String List Arith Bool ZArith Lia Lra.
From Verif Require Import Base Quat SpecQuat QuatProofs NdArray Frames SpecForest FrameProofs WalkProofs
  Matcher SpecLookup LookupProofs RegistryProofs MovingProofs TimeProofs CtorProofs InverseProofs RouteProofs
  Examples PropForest PropLookup PropMoving SpecConsist RelProofs PropConsist
  Transform SpecArray NdProofs RotProofs ArrProofs ArrTransProofs ArrStaticProofs PropTransform PropRotate
  Coord Velocity VelFrameProofs TopLevel TopProofs SpecTop TopStep SpecSeries SeriesProofs SingleProofs PropTop PropSeries VelExamples.
Import ListNotations.
Open Scope nat_scope.
Open Scope list_scope.

(** d is a labelled time series with the times l on its first dimension. *)
Definition has_times (d : darr) (l : list R) : Prop :=
  exists tsa, nth_error (da_dims d) 0 = Some "time"%string /\ lookup "time"%string (da_coords d) = Some (Co ["time"%string] (CNum tsa)) /\
    shp tsa = [length l] /\ forall k x, nth_error l k = Some x -> dat tsa [k] = x.

Lemma time_array w a dn lab name l ts nc : shp a = [length ts; nc] -> length lab = nc -> dn <> "time"%string -> l < length (dicts w) ->
  data_array w (DA a ["time"%string; dn] [("time"%string, Co ["time"%string] (CNum (of_list ts))); (dn, Co [dn] (CStr lab))] name l).
Proof.
  intros Ha Hl Hdn Hlt. split; [unfold ndim; cbn; rewrite Ha; reflexivity|]. split.
  { constructor; [intros [E|[]]; congruence|]. constructor; [intros []|constructor]. }
  split; [|exact Hlt]. intros nm c [E|[E|[]]]; injection E as <- <-.
  - constructor; [|constructor]. exists 0. cbn. rewrite Ha. split; reflexivity.
  - constructor; [|constructor]. exists 1. cbn. rewrite Ha, Hl. split; reflexivity.
Qed.
Lemma time_proper a dn lab name l ts : dn <> "time"%string ->
  proper_coords (DA a ["time"%string; dn] [("time"%string, Co ["time"%string] (CNum (of_list ts))); (dn, Co [dn] (CStr lab))] name l).
Proof.
  intros Hdn. split; [cbn; constructor; [intros [E|[]]; congruence|constructor; [intros []|constructor]]|].
  intros n c [E|[E|[]]]; injection E as <- <-; cbn; constructor; try (intros []); constructor.
Qed.
Lemma of_list_dat ts k x : nth_error ts k = Some x -> dat (of_list ts) [k] = x.
Proof. intros H. cbn. apply nth_error_nth with (d := 0%R) in H. exact H. Qed.
Lemma of_list_times ts : times (of_list ts) (length ts) = ts.
Proof.
  apply (List.nth_ext _ _ 0%R 0%R).
  - unfold times. rewrite map_length, seq_length. reflexivity.
  - intros n Hn. unfold times in *. rewrite map_length, seq_length in Hn. 
    destruct (nth_len ts n Hn) as (x & Hx). rewrite (nth_error_nth _ _ _ Hx). apply nth_error_nth. apply nth_times. split; auto.
    apply of_list_dat. exact Hx.
Qed.
Lemma timed_first a dn cs name l ts : dn <> "time"%string -> ndim a = 2 -> 2 <= length ts -> increasing ts ->
  timed (DA a ["time"%string; dn] (("time"%string, Co ["time"%string] (CNum (of_list ts))) :: cs) name l) TNone None 0 (length ts) (of_list ts).
Proof.
  intros Hdn Ha Hn Hinc. exists "time"%string. split; [reflexivity|]. split; [reflexivity|]. split.
  { right. split; [reflexivity|]. cbn [da_data]. rewrite Ha. split; [lia|]. split; [lia|reflexivity]. }
  split; [reflexivity|]. split; [exact Hn|]. intros x y Hxy.
  destruct (nth_len ts x ltac:(lia)) as (u & Hu). destruct (nth_len ts y ltac:(lia)) as (v & Hv).
  rewrite (of_list_dat _ _ _ Hu), (of_list_dat _ _ _ Hv). apply (Hinc x y); auto. lia.
Qed.

Section Squad.
Variable squad : list R -> list quat -> R -> res quat.

Lemma moving_dataset w ts rows fr pose : exists w1 pos ori, make_dataset w (TrRows ts rows) fr pose = (w1, Ok (pos, ori)) /\
  frames w1 = frames w /\ attrs_kept w w1 /\ data_array w1 pos /\ data_array w1 ori /\ proper_coords pos /\ proper_coords ori /\
  shp (da_data pos) = [length ts; 3] /\ shp (da_data ori) = [length ts; 4] /\ has_times pos ts /\ has_times ori ts /\
  (2 <= length ts -> increasing ts -> timed pos TNone None 0 (length ts) (of_list ts) /\ timed ori TNone None 0 (length ts) (of_list ts)) /\
  (forall q, vec_at (da_data pos) [q] = rowv rows q /\ quat_at (da_data ori) [q] = rowq rows q) /\
  attr w1 pos "reference_frame" = Some fr /\ attr w1 ori "reference_frame" = Some fr /\ attr w1 pos "representation_frame" = Some fr.
Proof.
  unfold make_dataset. destruct (alloc w _) as [w1 l1] eqn:A1. destruct (alloc w1 _) as [w2 l2] eqn:A2.
  destruct (dict_alloc _ _ _ _ A1) as (F1 & E1 & L1 & D1 & O1). destruct (dict_alloc _ _ _ _ A2) as (F2 & E2 & L2 & D2 & O2).
  cbn [tr_ts]. eexists; eexists; eexists. split; [reflexivity|]. split; [congruence|].
  split. { split; [congruence|]. split; [lia|]. intros k Hk. rewrite O2, O1 by lia. reflexivity. }
  split; [eapply time_array; [reflexivity|reflexivity|discriminate|lia]|].
  split; [eapply time_array; [reflexivity|reflexivity|discriminate|lia]|].
  split; [apply time_proper; discriminate|]. split; [apply time_proper; discriminate|].
  split; [reflexivity|]. split; [reflexivity|].
  split; [exists (of_list ts); repeat (split; [reflexivity|]); apply of_list_dat|].
  split; [exists (of_list ts); repeat (split; [reflexivity|]); apply of_list_dat|].
  split. { intros Hn Hinc. split; apply timed_first; try discriminate; auto. }
  split. { intros q. unfold vec_at, quat_at. cbn. destruct (rowv rows q), (rowq rows q). split; reflexivity. }
  unfold attr. cbn [da_attrs]. rewrite D2. rewrite (O2 l1) by lia. rewrite D1. auto.
Qed.

Lemma same_filter f g (l : list R) : (forall x, In x l -> (In x (filter f l) <-> In x (filter g l))) -> filter f l = filter g l.
Proof.
  intros H. apply filter_ext_in. intros x Hx. specialize (H x Hx). rewrite !filter_In in H.
  destruct (f x), (g x); auto; [destruct H as (H & _)|destruct H as (_ & H)]; destruct H; auto; discriminate.
Qed.
Lemma lookup_increasing s i to j ts rows : reachable s -> frame s i -> denotes s to j -> good_way s i j ->
  lookup_transform squad s i to = Ok (TrRows ts rows) -> increasing ts.
Proof.
  intros HR Hi Hj (_ & Hg) H. pose proof (denotes_frame _ _ _ HR Hj) as Hjf.
  destruct (C18_lookup_timestamps squad s i to j ts rows HR Hi Hj H) as (l & Hrt & [(l1 & k & l2 & ts0 & El & Hc & _ & (f & ->) & _)|(_ & Hs & _)]).
  - apply filter_increasing. assert (Hk : on_way s i j k) by (apply (route_way s i j l HR Hi Hjf Hrt); rewrite El; apply in_or_app; right; left; auto).
    destruct (Hg k Hk) as (d & Hd & Hw). unfold cont_of in Hc. rewrite Hd in Hc. destruct d as [|ts1 t1 r1 []]; try discriminate. injection Hc as ->.
    destruct Hw as (_ & Hw & _). exact Hw.
  - apply sorted_increasing. exact Hs.
Qed.
End Squad.

Lemma dataset_dims w t r fr pose : exists w1 pos ori, make_dataset w (TrStatic t r) fr pose = (w1, Ok (pos, ori)) /\
  frames w1 = frames w /\ data_array w1 pos /\ data_array w1 ori /\ shp (da_data pos) = [3] /\ shp (da_data ori) = [4] /\
  vec_at (da_data pos) [] = t /\ quat_at (da_data ori) [] = r /\
  attr w1 pos "reference_frame" = Some fr /\ attr w1 ori "reference_frame" = Some fr /\
  da_dims pos = ["cartesian_axis"%string] /\ da_dims ori = ["quaternion_axis"%string].
Proof.
  destruct (dataset_facts w t r fr pose) as (w1 & pos & ori & E & F & Dp & Do & Sp & So & Vp & Vo & Ap & Ao & _).
  exists w1, pos, ori. do 10 (split; [assumption|]). revert E. unfold make_dataset.
  destruct (alloc w _) as [w2 l1]. destruct (alloc w2 _) as [w3 l2]. cbn [tr_ts]. intros E. injection E as _ <- <-. split; reflexivity.
Qed.

(* ------------------------------------------------------------------ C44 *)
Lemma moving_core squad w fr pose outof i j target k ts rows : reachable (frames w) ->
  squad_total squad -> squad_unit squad -> squad_exact squad ->
  frame (frames w) i -> frame (frames w) j -> denotes (frames w) target k ->
  (forall m w1 d, frames w1 = frames w -> what_of m = "reference_frame"%string -> attr w1 d "reference_frame" = Some fr -> from m w1 d outof j) ->
  good_way (frames w) i j -> good_way (frames w) j k ->
  lookup_transform squad (frames w) i (PFrame j) = Ok (TrRows ts rows) -> 2 <= length ts ->
  exists w1 pos ori w2 p w3 o l, make_dataset w (TrRows ts rows) fr pose = (w1, Ok (pos, ori)) /\ has_times pos ts /\ has_times ori ts /\
    attr w1 pos "reference_frame" = Some fr /\
    transform squad Points w1 (Lab pos) target outof None None TNone None = (w2, Ok (RLab p)) /\
    transform squad Quaternions w1 (Lab ori) target outof None None TNone None = (w3, Ok (RLab o)) /\
    attr w2 p "reference_frame" = Some (name_of (frames w) k) /\ attr w3 o "reference_frame" = Some (name_of (frames w) k) /\
    shp (da_data p) = [length l; 3] /\ shp (da_data o) = [length l; 4] /\ has_times p l /\ has_times o l /\
    (exists f, l = filter f ts) /\
    (exists rt, route (parent_of (frames w)) j k rt /\
       forall x, In x ts -> (In x l <->
         forall f tf, In f rt -> cont_of (frames w) f = Some tf ->
           exists a b, hd_error tf = Some a /\ nth_error tf (length tf - 1) = Some b /\ (a <= x <= b)%R)) /\
    forall c x, nth_error l c = Some x -> exists t r, maps_at squad (frames w) x i k t r /\
      vec_at (da_data p) [c] = t /\ quat_at (da_data o) [c] = r /\
      forall to tr t' r', denotes (frames w) to k -> unit_way (frames w) i k ->
        lookup_transform squad (frames w) i to = Ok tr -> at_time tr x t' r' -> t' = t /\ r' = r.
Proof.
  intros HR Hto Hsq Hsx Fi Fj Hk Hfrom Hg1 Hg2 H1 Hts.
  pose proof (denotes_frame _ _ _ HR Hk) as Fk.
  assert (Hjd : denotes (frames w) (PFrame j) j) by (left; auto).
  pose proof (lookup_increasing squad (frames w) i (PFrame j) j ts rows HR Fi Hjd Hg1 H1) as Hinc.
  pose proof (good_unit _ _ _ Hg1) as Hu1. pose proof (good_unit _ _ _ Hg2) as Hu2.
  destruct (C17_moving_lookup squad (frames w) i (PFrame j) j ts rows HR Hsq Fi Hjd Hu1 H1) as (L & HM).
  destruct (moving_dataset w ts rows fr pose) as
    (w1 & pos & ori & E & F & Hk1 & Dp & Do & Pp & Po & Sp & So & Tp & To & Htm & Hrow & Ap & Ao & _).
  destruct (Htm Hts Hinc) as (Tmp & Tmo).
  assert (Hrel : forall q, q < length ts -> rel squad (frames w) (nth q ts 0%R) i j (rowv rows q, rowq rows q)).
  { intros q Hq. apply (lookup_rel squad (frames w) i (PFrame j) j _ _ _ _ HR Hsq Fi Hjd Hu1 H1). exists q. split; [|apply rows_at; lia].
    destruct (nth_len ts q Hq) as (x & Hx). rewrite (nth_error_nth _ _ _ Hx). exact Hx. }
  assert (Hun : forall q, q < length ts -> hunit (rowq rows q)) by (intros q Hq; apply (rel_unit squad _ _ _ _ _ (Hrel q Hq))).
  destruct (series_step squad Points w1 pos target outof None None TNone None j k [] 0 (length ts) (of_list ts))
    as (w2 & p & td2 & l2 & E2 & K2 & Da2 & _ & _ & At2 & Td2 & Ss2 & Tc2 & (f2 & Tf2) & (rt2 & Rt2 & In2) & Sh2 & M2); rewrite ?F; auto.
  { unfold picks, ndim. rewrite Sp. reflexivity. }
  { intros Q; discriminate. }
  destruct (series_step squad Quaternions w1 ori target outof None None TNone None j k [] 0 (length ts) (of_list ts))
    as (w3 & o & td3 & l3 & E3 & K3 & Da3 & _ & _ & At3 & Td3 & Ss3 & Tc3 & (f3 & Tf3) & (rt3 & Rt3 & In3) & Sh3 & M3); rewrite ?F; auto.
  { unfold picks, ndim. rewrite So. reflexivity. }
  { intros _. split; [exact Hsx|]. intros ix Hix. assert (G : exists q, ix = [q] /\ q < length ts).
    { inversion Hix as [|a b x y Hab Hr]; subst. inversion Hr; subst. eauto. }
    destruct G as (q & -> & Hq). rewrite (proj2 (Hrow q)). auto. }
  rewrite of_list_times in *. rewrite F in *.
  assert (Hx : forall x, In x ts -> exists q, q < length ts /\ nth_error ts q = Some x /\ dat (of_list ts) [q] = x).
  { intros x Hx. apply In_nth_error in Hx as (q & Hq). exists q. split; [apply (nth_lt _ _ _ Hq)|]. split; auto. apply of_list_dat; auto. }
  assert (Ell : l3 = l2).
  { rewrite Tf2, Tf3. apply same_filter. intros x Hin. rewrite <- Tf2, <- Tf3. destruct (Hx x Hin) as (q & Hq & _ & <-).
    rewrite (In2 q Hq), (In3 q Hq).
    assert (G : forall f, In f rt2 <-> In f rt3) by (intros f; rewrite (route_way _ _ _ _ HR Fj Fk Rt2 f), (route_way _ _ _ _ HR Fj Fk Rt3 f); reflexivity).
    split; intros H f tf Hf; apply H; apply G; exact Hf. }
  rewrite Ell in Tc3, Ss3, Sh3, M3, In3.
  exists w1, pos, ori, w2, p, w3, o, l2.
  split; [exact E|]. split; auto. split; auto. split; auto. split; auto. split; auto.
  split. { unfold attr. rewrite At2. unfold relabel. rewrite !lookup_set. reflexivity. }
  split. { unfold attr. rewrite At3. unfold relabel. rewrite !lookup_set. reflexivity. }
  split; [exact Sh2|]. split; [exact Sh3|].
  assert (Hht : forall d d' td, nth_error (da_dims d) 0 = Some td -> has_times d ts -> subseries d d' td (of_list ts) (length ts) l2 ->
     (exists tsa', lookup td (da_coords d') = Some (Co [td] (CNum tsa')) /\ shp tsa' = [length l2] /\ times tsa' (length l2) = l2) -> has_times d' l2).
  { intros d d' td Htd (tsa & H0 & _) (Hd & _) (tsa' & A & B & C). rewrite H0 in Htd. injection Htd as <-. exists tsa'. rewrite Hd.
    split; auto. split; auto. split; auto. intros c x Hc. rewrite <- C in Hc. apply nth_times in Hc. tauto. }
  split; [exact (Hht pos p td2 Td2 Tp Ss2 Tc2)|]. split; [exact (Hht ori o td3 Td3 To Ss3 Tc3)|]. split; [eauto|]. split.
  { exists rt2. split; auto. intros x Hin. destruct (Hx x Hin) as (q & Hq & _ & <-). apply In2. exact Hq. }
  intros c x Hc.
  assert (Hin : In x ts). { apply nth_error_In in Hc. rewrite Tf2 in Hc. apply filter_In in Hc. tauto. }
  destruct (Hx x Hin) as (q & Hq & Hqx & Eq). subst x.
  destruct (M2 c q Hq Hc) as (t & r & Hr2 & Him2). destruct (M3 c q Hq Hc) as (t3 & r3 & Hr3 & Him3).
  pose proof (rel_fun squad _ _ _ _ _ _ (reach_inv _ HR) Fj Fk Hr2 Hr3) as Eg. injection Eg as <- <-.
  specialize (Him2 [] (Forall2_nil _)). specialize (Him3 [] (Forall2_nil _)). cbn [image] in Him2, Him3.
  change (put 0 c []) with [c] in *. change (put 0 q []) with [q] in *.
  rewrite (proj1 (Hrow q)) in Him2. rewrite (proj2 (Hrow q)) in Him3.
  pose proof (Hrel q Hq) as Hr1. rewrite (nth_error_nth _ _ _ Hqx) in Hr1.
  pose proof (rel_trans squad _ _ _ _ _ _ _ (reach_inv _ HR) Fj Hr1 Hr2) as Hr. unfold gmul in Hr. cbn [fst snd] in Hr.
  exists (smove t r (rowv rows q)), (hmul r (rowq rows q)). split.
  { destruct (rel_coords squad _ _ _ _ _ _ Hr) as (U & c0 & A & B & C). split; auto. exists c0. auto. }
  split; [exact Him2|]. split; [exact Him3|].
  intros to tr t' r' Hto' Huw Hlk Hat.
  pose proof (lookup_rel squad (frames w) i to k tr _ _ _ HR Hsq Fi Hto' Huw Hlk Hat) as Hr'.
  pose proof (rel_fun squad _ _ _ _ _ _ (reach_inv _ HR) Fi Fk Hr Hr') as Eg.
  split; [exact (eq_sym (f_equal fst Eg))|exact (eq_sym (f_equal snd Eg))].
Qed.
(** lookup_pose(frame, reference) of a moving frame, then transform_points and
    transform_quaternions into target with outof omitted: at every time of the dataset that
    is in the range of all continuous frames between reference and target, the results hold
    the origin and the orientation of the frame in target at that time, as a direct lookup
    does if it has that time; they are labelled with target and with the times. *)
Theorem C44_pose_moving : forall squad w fr i reference j target k ts rows, reachable (frames w) ->
  squad_total squad -> squad_unit squad -> squad_exact squad ->
  denotes (frames w) fr i -> denotes (frames w) reference j -> denotes (frames w) target k -> named (frames w) j ->
  good_way (frames w) i j -> good_way (frames w) j k ->
  lookup_transform squad (frames w) i (PFrame j) = Ok (TrRows ts rows) -> 2 <= length ts ->
  exists w1 pos ori w2 p w3 o l, lookup_pose_ds squad w fr reference = (w1, Ok (pos, ori)) /\ has_times pos ts /\ has_times ori ts /\
    transform squad Points w1 (Lab pos) target None None None TNone None = (w2, Ok (RLab p)) /\
    transform squad Quaternions w1 (Lab ori) target None None None TNone None = (w3, Ok (RLab o)) /\
    attr w2 p "reference_frame" = Some (name_of (frames w) k) /\ attr w3 o "reference_frame" = Some (name_of (frames w) k) /\
    shp (da_data p) = [length l; 3] /\ shp (da_data o) = [length l; 4] /\ has_times p l /\ has_times o l /\
    (exists f, l = filter f ts) /\
    (exists rt, route (parent_of (frames w)) j k rt /\
       forall x, In x ts -> (In x l <->
         forall f tf, In f rt -> cont_of (frames w) f = Some tf ->
           exists a b, hd_error tf = Some a /\ nth_error tf (length tf - 1) = Some b /\ (a <= x <= b)%R)) /\
    forall c x, nth_error l c = Some x -> exists t r, maps_at squad (frames w) x i k t r /\
      vec_at (da_data p) [c] = t /\ quat_at (da_data o) [c] = r /\
      forall to tr t' r', denotes (frames w) to k -> unit_way (frames w) i k ->
        lookup_transform squad (frames w) i to = Ok tr -> at_time tr x t' r' -> t' = t /\ r' = r.
Proof.
  intros squad w fr i reference j target k ts rows HR Hto Hsq Hsx Hi Hj Hk (n & Hn1 & Hn2) Hg1 Hg2 H1 Hts.
  destruct (moving_core squad w (name_of (frames w) j) true None i j target k ts rows HR Hto Hsq Hsx (denotes_frame _ _ _ HR Hi) (denotes_frame _ _ _ HR Hj) Hk)
    as (w1 & pos & ori & w2 & p & w3 & o & l & E & T1 & T2 & _ & Rest); auto.
  { intros m w1 d F Hm Ha. exists n. rewrite Hm, Ha, F. split; congruence. }
  exists w1, pos, ori, w2, p, w3, o, l. split; [|tauto].
  unfold lookup_pose_ds. rewrite (denotes_resolve _ _ _ Hj), (denotes_resolve _ _ _ Hi). cbn [bind]. rewrite H1. cbn [bind]. exact E.
Qed.
(** The same for the dataset of lookup_transform, which is expressed in into: right when
    outof=into is given explicitly; its label names outof (C44_refuted). *)
Theorem C44_transform_moving_partial : forall squad w outof i into j target k ts rows, reachable (frames w) ->
  squad_total squad -> squad_unit squad -> squad_exact squad ->
  denotes (frames w) outof i -> denotes (frames w) into j -> denotes (frames w) target k ->
  good_way (frames w) i j -> good_way (frames w) j k ->
  lookup_transform squad (frames w) i (PFrame j) = Ok (TrRows ts rows) -> 2 <= length ts ->
  exists w1 pos ori w2 p w3 o l, lookup_transform_ds squad w outof into = (w1, Ok (pos, ori)) /\ has_times pos ts /\ has_times ori ts /\
    attr w1 pos "reference_frame" = Some (name_of (frames w) i) /\
    transform squad Points w1 (Lab pos) target (Some into) None None TNone None = (w2, Ok (RLab p)) /\
    transform squad Quaternions w1 (Lab ori) target (Some into) None None TNone None = (w3, Ok (RLab o)) /\
    attr w2 p "reference_frame" = Some (name_of (frames w) k) /\ attr w3 o "reference_frame" = Some (name_of (frames w) k) /\
    shp (da_data p) = [length l; 3] /\ shp (da_data o) = [length l; 4] /\ has_times p l /\ has_times o l /\
    (exists f, l = filter f ts) /\
    (exists rt, route (parent_of (frames w)) j k rt /\
       forall x, In x ts -> (In x l <->
         forall f tf, In f rt -> cont_of (frames w) f = Some tf ->
           exists a b, hd_error tf = Some a /\ nth_error tf (length tf - 1) = Some b /\ (a <= x <= b)%R)) /\
    forall c x, nth_error l c = Some x -> exists t r, maps_at squad (frames w) x i k t r /\
      vec_at (da_data p) [c] = t /\ quat_at (da_data o) [c] = r /\
      forall to tr t' r', denotes (frames w) to k -> unit_way (frames w) i k ->
        lookup_transform squad (frames w) i to = Ok tr -> at_time tr x t' r' -> t' = t /\ r' = r.
Proof.
  intros squad w outof i into j target k ts rows HR Hto Hsq Hsx Hi Hj Hk Hg1 Hg2 H1 Hts.
  destruct (moving_core squad w (name_of (frames w) i) false (Some into) i j target k ts rows HR Hto Hsq Hsx (denotes_frame _ _ _ HR Hi) (denotes_frame _ _ _ HR Hj) Hk)
    as (w1 & pos & ori & w2 & p & w3 & o & l & E & Rest); auto.
  { intros m w1 d F Hm Ha. unfold from. rewrite F. exact Hj. }
  exists w1, pos, ori, w2, p, w3, o, l. split; [|exact Rest].
  unfold lookup_transform_ds. rewrite (denotes_resolve _ _ _ Hj), (denotes_resolve _ _ _ Hi). cbn [bind]. rewrite H1. cbn [bind]. exact E.
Qed.
(** The pose of a frame relative to a reference it does not move against, transformed into a
    moving target: the dataset has no times, the results have those of the lookup from
    reference to target. *)
Theorem C44_pose_start : forall squad w fr i reference j target k tij rij l rows, reachable (frames w) -> squad_unit squad ->
  denotes (frames w) fr i -> denotes (frames w) reference j -> denotes (frames w) target k -> named (frames w) j ->
  unit_way (frames w) i j -> unit_way (frames w) j k ->
  lookup_transform squad (frames w) i (PFrame j) = Ok (TrStatic tij rij) ->
  lookup_transform squad (frames w) j (PFrame k) = Ok (TrRows l rows) ->
  exists w1 pos ori w2 p w3 o, lookup_pose_ds squad w fr reference = (w1, Ok (pos, ori)) /\
    transform squad Points w1 (Lab pos) target None None None TNone None = (w2, Ok (RLab p)) /\
    transform squad Quaternions w1 (Lab ori) target None None None TNone None = (w3, Ok (RLab o)) /\
    attr w2 p "reference_frame" = Some (name_of (frames w) k) /\ attr w3 o "reference_frame" = Some (name_of (frames w) k) /\
    shp (da_data p) = [length l; 3] /\ shp (da_data o) = [length l; 4] /\ has_times p l /\ has_times o l /\
    forall c x, nth_error l c = Some x -> exists t r, maps_at squad (frames w) x i k t r /\
      vec_at (da_data p) [c] = t /\ quat_at (da_data o) [c] = r /\
      forall to tr t' r', denotes (frames w) to k -> unit_way (frames w) i k ->
        lookup_transform squad (frames w) i to = Ok tr -> at_time tr x t' r' -> t' = t /\ r' = r.
Proof.
  intros squad w fr i reference j target k tij rij l rows HR Hsq Hi Hj Hk (n & Hn1 & Hn2) Hu1 Hu2 H1 H2.
  pose proof (denotes_frame _ _ _ HR Hi) as Fi. pose proof (denotes_frame _ _ _ HR Hj) as Fj. pose proof (denotes_frame _ _ _ HR Hk) as Fk.
  assert (Hjd : denotes (frames w) (PFrame j) j) by (left; auto).
  destruct (dataset_dims w tij rij (name_of (frames w) j) true) as (w1 & pos & ori & E & F & Dp & Do & Sp & So & Vp & Vo & Ap & Ao & Mp & Mo).
  assert (Hfrom : forall m d, what_of m = "reference_frame"%string -> attr w1 d "reference_frame" = Some (name_of (frames w) j) -> from m w1 d None j).
  { intros m d Hm Ha. exists n. rewrite Hm, Ha, F. split; congruence. }
  destruct (single_step squad Points w1 pos target None None TNone j k "cartesian_axis"%string l rows)
    as (w2 & p & E2 & K2 & Da2 & _ & At2 & Dm2 & _ & Co2 & Sh2 & M2); rewrite ?F; auto; try discriminate.
  destruct (single_step squad Quaternions w1 ori target None None TNone j k "quaternion_axis"%string l rows)
    as (w3 & o & E3 & K3 & Da3 & _ & At3 & Dm3 & _ & Co3 & Sh3 & M3); rewrite ?F; auto; try discriminate.
  rewrite F in *. exists w1, pos, ori, w2, p, w3, o.
  split. { unfold lookup_pose_ds. rewrite (denotes_resolve _ _ _ Hj), (denotes_resolve _ _ _ Hi). cbn [bind]. rewrite H1. cbn [bind]. exact E. }
  split; auto. split; auto.
  split. { unfold attr. rewrite At2. unfold relabel. rewrite !lookup_set. reflexivity. }
  split. { unfold attr. rewrite At3. unfold relabel. rewrite !lookup_set. reflexivity. }
  split; [exact Sh2|]. split; [exact Sh3|].
  split. { exists (of_list l). rewrite Dm2, Co2, lookup_set. repeat (split; [reflexivity|]). apply of_list_dat. }
  split. { exists (of_list l). rewrite Dm3, Co3, lookup_set. repeat (split; [reflexivity|]). apply of_list_dat. }
  intros c x Hc. destruct (M2 c x Hc) as (t & r & Hr2 & Him2). destruct (M3 c x Hc) as (t3 & r3 & Hr3 & Him3).
  pose proof (rel_fun squad _ _ _ _ _ _ (reach_inv _ HR) Fj Fk Hr2 Hr3) as Eg. injection Eg as <- <-.
  cbn [image1] in Him2, Him3. rewrite Vp in Him2. rewrite Vo in Him3.
  assert (Hr1 : rel squad (frames w) x i j (tij, rij)).
  { apply (lookup_rel squad (frames w) i (PFrame j) j _ _ _ _ HR Hsq Fi Hjd Hu1 H1). split; reflexivity. }
  pose proof (rel_trans squad _ _ _ _ _ _ _ (reach_inv _ HR) Fj Hr1 Hr2) as Hr. unfold gmul in Hr. cbn [fst snd] in Hr.
  exists (smove t r tij), (hmul r rij). split.
  { destruct (rel_coords squad _ _ _ _ _ _ Hr) as (U & c0 & A & B & C). split; auto. exists c0. auto. }
  split; [exact Him2|]. split; [exact Him3|].
  intros to tr t' r' Hto' Huw Hlk Hat.
  pose proof (lookup_rel squad (frames w) i to k tr _ _ _ HR Hsq Fi Hto' Huw Hlk Hat) as Hr'.
  pose proof (rel_fun squad _ _ _ _ _ _ (reach_inv _ HR) Fi Fk Hr Hr') as Eg.
  split; [exact (eq_sym (f_equal fst Eg))|exact (eq_sym (f_equal snd Eg))].
Qed.
(* ---- examples ---- *)
Lemma mov_m_world : lookup_transform hold_squad mov_lit 1 (PFrame 0) =
  Ok (TrRows [0;1;3]%R (combine [V3 0 0 0; V3 1 0 0; V3 1 2 0] [Qt 1 0 0 0; Qt 0 1 0 0; Qt 0 0 1 0])%R).
Proof.
  assert (S : sampled [0;1;3]%R false).
  { split; [|cbn; lia]. intros [|[|[|i]]] [|[|[|j]]] a b Hij Ha Hb; cbn in Ha, Hb; try lia; try (injection Ha as <-; injection Hb as <-; lra); try (destruct i; discriminate); destruct j; discriminate. }
  assert (U : Forall hunit [Qt 1 0 0 0; Qt 0 1 0 0; Qt 0 0 1 0]%R) by (repeat constructor; vcomp; lra).
  apply (lookup_parent_moving hold_squad mov_lit 0 1 _ _ _ false (reachable_Inv _ mov_lit_reachable)); auto; try reflexivity; [unfold size; cbn; lia|exact hold_squad_exact].
Qed.
(** The pose of the moving frame m in world, transformed into the discrete frame d. *)
Example C44_moving_example : let w := World mov_lit [] in exists ts rows,
  reachable (frames w) /\ squad_total hold_squad /\ squad_unit hold_squad /\ squad_exact hold_squad /\
  denotes (frames w) (PName "m"%string) 1 /\ denotes (frames w) (PName "world"%string) 0 /\ denotes (frames w) (PFrame 3) 3 /\ named (frames w) 0 /\
  good_way (frames w) 1 0 /\ good_way (frames w) 0 3 /\
  lookup_transform hold_squad (frames w) 1 (PFrame 0) = Ok (TrRows ts rows) /\ 2 <= length ts.
Proof.
  cbv zeta. cbn [frames]. eexists. eexists. split; [exact mov_lit_reachable|]. split; [exact hold_squad_total|]. split; [exact hold_squad_unit|].
  split; [exact hold_squad_exact|]. split; [right; exists "m"%string; auto|]. split; [right; exists "world"%string; auto|].
  split; [left; split; [reflexivity|unfold frame, size; cbn; lia]|]. split; [exists "world"%string; split; reflexivity|].
  split; [apply mov_good; lia|]. split; [apply mov_good; lia|]. split; [exact mov_m_world|cbn; lia].
Qed.
(** The pose of c in m (static), transformed into world. *)
Example C44_start_example : let w := World mov_lit [] in exists t r l rows,
  denotes (frames w) (PName "c"%string) 2 /\ denotes (frames w) (PName "m"%string) 1 /\ denotes (frames w) (PFrame 0) 0 /\ named (frames w) 1 /\
  unit_way (frames w) 2 1 /\ unit_way (frames w) 1 0 /\
  lookup_transform hold_squad (frames w) 2 (PFrame 1) = Ok (TrStatic t r) /\ lookup_transform hold_squad (frames w) 1 (PFrame 0) = Ok (TrRows l rows).
Proof.
  cbv zeta. cbn [frames].
  assert (L : exists t r, lookup_transform hold_squad mov_lit 2 (PFrame 1) = Ok (TrStatic t r)).
  { apply (lookup_succeeds hold_squad mov_lit 2 1); [apply reach_inv, mov_lit_reachable|unfold size; cbn; lia|unfold size; cbn; lia| |].
    - exists 0. split; apply mov_root; lia.
    - intros k [(A & B)|(A & B)].
      + inversion A as [|? p ? E1 E2]; subst; [exists (V3 0 0 1), (Qt 0 0 0 1); split; [reflexivity|vcomp; lra]|]. cbn in E1. injection E1 as <-. contradiction.
      + exfalso. apply B. econstructor; [reflexivity|]. exact A. }
  destruct L as (t & r & L). exists t, r. eexists. eexists. split; [right; exists "c"%string; auto|]. split; [right; exists "m"%string; auto|].
  split; [left; split; [reflexivity|unfold frame, size; cbn; lia]|]. split; [exists "m"%string; split; reflexivity|].
  split; [intros k d _ H; apply (mov_unit k d H)|]. split; [intros k d _ H; apply (mov_unit k d H)|]. split; [exact L|exact mov_m_world].
Qed.

(* ------------------------------------------------------------------ C70 *)
(** The item y[k] is the image of the single item x. *)
Definition maps_single (m : method) (x y : nd R) (k : nat) (t : vec3) (r : quat) : Prop :=
  match m with
  | Vectors => vec_at y [k] = srot r (vec_at x [])
  | Points => vec_at y [k] = vadd (srot r (vec_at x [])) t
  | Quaternions => quat_at y [k] = hmul r (quat_at x [])
  end.
(** A DataArray with one vector, point or orientation, transformed without naming its
    dimension along a way whose lookup has timestamps l: a series with a new first dimension
    "time" and the times l, where row k is the image of the item at the k-th time; all other
    labels are kept; the frame attributes name the target. *)
Theorem C70_single_partial : forall squad m w d into outof axis ts i j dm l rows, reachable (frames w) -> squad_unit squad ->
  data_array w d -> expressed_in m w d outof i -> denotes (frames w) into j -> unit_way (frames w) i j ->
  shp (da_data d) = [ncomp m] -> da_dims d = [dm] -> dm <> "time"%string -> axis = None \/ axis = Some (-1)%Z -> ts = TNone \/ ts = TFalse ->
  lookup_transform squad (frames w) i (PFrame j) = Ok (TrRows l rows) ->
  exists w' d', transform squad m w (Lab d) into outof None axis ts None = (w', Ok (RLab d')) /\
    shp (da_data d') = [length l; ncomp m] /\ da_dims d' = ["time"%string; dm] /\ has_times d' l /\
    (forall k x, nth_error l k = Some x -> exists t r, maps_at squad (frames w) x i j t r /\ maps_single m (da_data d) (da_data d') k t r) /\
    da_name d' = da_name d /\
    (forall nm, nm <> "time"%string -> lookup nm (da_coords d') = lookup nm (da_coords d)) /\
    data_array w' d' /\ attrs_kept w w' /\
    attr w' d' (frame_attr m) = Some (name_of (frames w) j) /\ attr w' d' "representation_frame" = Some (name_of (frames w) j) /\
    forall key, key <> frame_attr m -> key <> "representation_frame"%string -> attr w' d' key = attr w d key.
Proof.
  intros squad m w d into outof axis ts i j dm l rows HR Hsq Hda Hex Hj Hw Hs Hdm Htm Hax Hts Hl.
  destruct (single_step squad m w d into outof axis ts i j dm l rows HR Hsq Hda (expressed_from _ _ _ _ _ Hex) (expressed_frame _ _ _ _ _ HR Hex)
    Hj Hw Hs Hdm Htm Hax Hts Hl) as (w' & d' & E & Hk & Hda' & _ & Hat & Hdims & Hnm & Hco & So & Do).
  exists w', d'. split; [exact E|]. split; [exact So|]. split; [exact Hdims|]. split.
  { exists (of_list l). rewrite Hdims, Hco, lookup_set. repeat (split; [reflexivity|]). apply of_list_dat. }
  split. { intros k x Hx. destruct (Do k x Hx) as (t & r & Hrel & Him). exists t, r. split; [|exact Him].
    destruct (rel_coords squad _ _ _ _ _ _ Hrel) as (U & c & A & B & C). split; auto. exists c. auto. }
  split; [exact Hnm|]. split. { intros nm Hne. rewrite Hco, lookup_set. destruct (String.eqb_spec nm "time"); [contradiction|reflexivity]. }
  split; [exact Hda'|]. split; [exact Hk|]. unfold attr. rewrite Hat. unfold relabel.
  split; [destruct m; rewrite ?lookup_set; reflexivity|]. split; [rewrite lookup_set, String.eqb_refl; reflexivity|].
  intros key K1 K2. rewrite !lookup_set. destruct (String.eqb_spec key "representation_frame"); [contradiction|].
  destruct (String.eqb_spec key (what_of m)) as [E'|]; [|reflexivity]. exfalso. apply K1. rewrite E'. destruct m; reflexivity.
Qed.

(** Naming the dimension: the call of the method, with axis=0. *)
Lemma named_call squad (m : method) w d into outof i j dm : data_array w d -> reachable (frames w) ->
  from m w d outof i -> denotes (frames w) into j -> shp (da_data d) = [ncomp m] -> da_dims d = [dm] ->
  exists w1 l1, transform squad m w (Lab d) into outof (Some dm) None TNone None =
    (let w2 := write w1 l1 (relabel m (name_of (frames w) j)) in
     match call_method squad m (frames w) i (da_data d) j 0 None None with
     | Raise e => (w2, Raise e)
     | Ok (a, t) =>
         let '(w3, r) := make_dataarray w2 a (da_coords d) (da_dims d) (da_name d) l1 None t in
         (w3, d <- r ;; Ok (RLab d))
     end).
Proof.
  intros Hda HR Hfrom Hj Hs Hdm.
  unfold transform, maybe_unpack. destruct (alloc w (dict_at w (da_attrs d))) as [w1 l1] eqn:Hal.
  destruct (dict_alloc _ _ _ _ Hal) as (Hfr & El & Hlen & Hd & Hold).
  assert (Hnd : ndim (da_data d) = 1) by (unfold ndim; rewrite Hs; reflexivity).
  exists w1, l1.
  assert (Ei : index_of dm (da_dims d) = Ok 0) by (rewrite Hdm; cbn; rewrite String.eqb_refl; reflexivity).
  rewrite Ei. cbn [bind]. rewrite Hnd. cbn [Nat.ltb Nat.leb].
  cbn [bind same_axis_check u_ts u_lab u_arr u_axis u_time_axis u_time_dim].
  assert (Eo : match outof with
          | Some o => resolve_rf (frames w1) o
          | None => match lookup (what_of m) (dict_at w1 l1) with
                    | Some v => resolve_rf (frames w1) (as_pref v)
                    | None => Raise ValueError
                    end
          end = Ok i).
  { rewrite Hfr. destruct outof as [o|]; cbn [from] in Hfrom.
    - apply denotes_resolve. exact Hfrom.
    - destruct Hfrom as (v & Hv & Hlv). rewrite Hd. unfold attr in Hv. rewrite Hv. cbn [as_pref].
      apply denotes_resolve. right. eauto. }
  rewrite Eo. cbn [bind]. rewrite Hfr. rewrite (denotes_resolve _ _ _ Hj). cbn [bind]. reflexivity.
Qed.
(** If the dimension is named, vectors and points are refused unless there happen to be
    exactly three timestamps. *)
Theorem C70_named_refused : forall squad m w d into outof i j dm l rows, reachable (frames w) -> m = Vectors \/ m = Points ->
  data_array w d -> expressed_in m w d outof i -> denotes (frames w) into j ->
  shp (da_data d) = [3] -> da_dims d = [dm] -> lookup_transform squad (frames w) i (PFrame j) = Ok (TrRows l rows) -> length l <> 3 ->
  exists w', transform squad m w (Lab d) into outof (Some dm) None TNone None = (w', Raise ValueError).
Proof.
  intros squad m w d into outof i j dm l rows HR Hm Hda Hex Hj Hs Hdm Hl Hlen.
  assert (Hs' : shp (da_data d) = [ncomp m]) by (destruct Hm as [-> | ->]; exact Hs).
  destruct (named_call squad m w d into outof i j dm Hda HR (expressed_from _ _ _ _ _ Hex) Hj Hs' Hdm) as (w1 & l1 & E). rewrite E. clear E.
  assert (P : prepare squad (frames w) i (da_data d) (PFrame j) 0 3 None None = Ok (TrRows l rows, Nd [length l; 3] (fun ix => dat (da_data d) (tl ix)))).
  { rewrite (prepare_none squad (frames w) i (da_data d) (PFrame j) 0 3 None (TrRows l rows) 0); auto.
    - cbn [tr_ts resample_array ma_ts ma_data bind]. unfold tile_nd. rewrite Hs. reflexivity.
    - unfold ndim. rewrite Hs. reflexivity.
    - rewrite Hs. reflexivity. }
  assert (V : rotate_vectors (expand_r (tr_r (TrRows l rows)) 2) (Nd [length l; 3] (fun ix => dat (da_data d) (tl ix))) 0 = Raise ValueError).
  { unfold rotate_vectors. cbn [tr_r expand_r shp]. change (norm_axis 0 (ndim (Nd [length l; 3] (fun ix => dat (da_data d) (tl ix))))) with (Ok 0).
    cbn [bind shp nth]. destruct (Nat.eqb_spec (length l) 3); [contradiction|]. reflexivity. }
  assert (C : call_method squad m (frames w) i (da_data d) j 0 None None = Raise ValueError).
  { destruct Hm as [-> | ->]; cbn [call_method]; unfold transform_vectors, transform_points; rewrite P; cbn [bind];
    change (ndim (Nd [length l; 3] (fun ix => dat (da_data d) (tl ix)))) with 2; rewrite V; reflexivity. }
  rewrite C. eauto.
Qed.
(** The point (1,2,3) of frame m as a DataArray. *)
Definition ex_single : darr :=
  DA (point (V3 1 2 3)) ["cartesian_axis"%string]
     [("cartesian_axis"%string, Co ["cartesian_axis"%string] (CStr ["x"; "y"; "z"]%string))] None 0.
Definition ex_single_world : world := World mov_lit [[("reference_frame", Some "m")]%string].
(** m is world at time 0, so the first row of the transformed series is (1,2,3) - but
    (1,2,-3) if the dimension is named.  With any number of timestamps other than three the
    call raises. *)
Theorem C70_named_refuted : exists w d w' d' w'' d'',
  reachable (frames w) /\ data_array w d /\ expressed_in Points w d None 1 /\ da_dims d = ["cartesian_axis"%string] /\ vec_at (da_data d) [] = V3 1 2 3 /\
  transform hold_squad Points w (Lab d) (PName "world") None None None TNone None = (w', Ok (RLab d')) /\
  transform hold_squad Points w (Lab d) (PName "world") None (Some "cartesian_axis"%string) None TNone None = (w'', Ok (RLab d'')) /\
  vec_at (da_data d') [0] = V3 1 2 3 /\ vec_at (da_data d'') [0] = V3 1 2 (-3).
Proof.
  assert (Hda : data_array ex_single_world ex_single).
  { split; [reflexivity|]. split; [repeat constructor; intros []|]. split; [|cbn; lia]. intros nm c [H|[]]; injection H as <- <-. constructor; [|constructor]. exists 0. auto. }
  assert (Hex : expressed_in Points ex_single_world ex_single None 1) by (exists "m"%string; split; reflexivity).
  assert (Hj : denotes (frames ex_single_world) (PName "world") 0) by (right; exists "world"%string; split; reflexivity).
  assert (Hp : vec_at (point (V3 1 2 3)) [] = V3 1 2 3) by reflexivity.
  destruct (single_step hold_squad Points ex_single_world ex_single (PName "world") None None TNone 1 0 "cartesian_axis" _ _ mov_lit_reachable hold_squad_unit Hda
    (expressed_from _ _ _ _ _ Hex) (expressed_frame Points ex_single_world ex_single None 1 mov_lit_reachable Hex) Hj ltac:(intros k d _ H; apply (mov_unit k d H)) eq_refl eq_refl
    ltac:(discriminate) (or_introl eq_refl) (or_introl eq_refl) mov_m_world) as (w' & d' & E & _ & _ & _ & _ & _ & _ & _ & _ & Do).
  destruct (Do 0 0%R eq_refl) as (t & r & Hrel & Him).
  assert (Hrel' : rel hold_squad mov_lit 0 1 0 (V3 0 0 0, Qt 1 0 0 0)).
  { apply (lookup_rel hold_squad mov_lit 1 (PFrame 0) 0 _ 0%R _ _ mov_lit_reachable hold_squad_unit ltac:(unfold frame, size; cbn; lia)
      ltac:(left; split; [reflexivity|unfold frame, size; cbn; lia]) ltac:(intros k d _ H; apply (mov_unit k d H)) mov_m_world).
    exists 0. split; reflexivity. }
  pose proof (rel_fun hold_squad mov_lit 0%R 1 0 (t, r) _ (reachable_Inv _ mov_lit_reachable) ltac:(unfold size; cbn; lia) ltac:(unfold size; cbn; lia) Hrel Hrel') as Eg.
  injection Eg as -> ->. cbn [image1 ex_single da_data] in Him. rewrite Hp in Him.
  destruct (named_call hold_squad Points ex_single_world ex_single (PName "world") None 1 0 "cartesian_axis" Hda mov_lit_reachable (expressed_from _ _ _ _ _ Hex) Hj eq_refl eq_refl)
    as (w1 & l1 & E2).
  assert (C : exists out, call_method hold_squad Points mov_lit 1 (da_data ex_single) 0 0 None None = Ok (out, Some [0;1;3]%R) /\ shp out = [3;3] /\ vec_at out [0] = V3 1 2 (-3)).
  { cbn [call_method]. unfold transform_points.
    rewrite (prepare_none hold_squad mov_lit 1 (da_data ex_single) (PFrame 0) 0 3 None _ 0 eq_refl eq_refl mov_m_world). cbn [bind tr_ts resample_array ma_ts ma_data].
    assert (Q0 : qlen (Qt 1 0 0 0) = 1%R) by (apply qlen_unit; unfold qnorm2; cbn [qw qx qy qz]; lra).
    assert (Q1 : qlen (Qt 0 1 0 0) = 1%R) by (apply qlen_unit; unfold qnorm2; cbn [qw qx qy qz]; lra).
    assert (Q2 : qlen (Qt 0 0 1 0) = 1%R) by (apply qlen_unit; unfold qnorm2; cbn [qw qx qy qz]; lra).
    assert (B : Req_b 1 0 = false) by (destruct (Req_b 1 0) eqn:B; [apply Req_b_true in B; lra|reflexivity]).
    set (rows := combine _ _).
    assert (V : exists c, rotate_vectors (expand_r (tr_r (TrRows [0;1;3]%R rows)) 2) (tile_nd (da_data ex_single) 3) 0 = Ok c /\ shp c = [3;3] /\ vec_at c [0] = V3 1 2 (-3)).
    { assert (R : rotate_vectors (expand_r (tr_r (TrRows [0;1;3]%R rows)) 2) (tile_nd (da_data ex_single) 3) 0 =
                  rot_arrays (expand_r (tr_r (TrRows [0;1;3]%R rows)) 2) (tile_nd (da_data ex_single) 3) 0) by reflexivity.
      rewrite R. unfold rot_arrays. cbv zeta. replace (existsb _ _) with false.
      2:{ symmetry. change (existsb (fun ix => Req_b (qlen (rowq rows (hd 0 ix))) 0) [[0];[1];[2]] = false). cbn [existsb hd].
          change (rowq rows 0) with (Qt 1 0 0 0). change (rowq rows 1) with (Qt 0 1 0 0). change (rowq rows 2) with (Qt 0 0 1 0).
          rewrite Q0, Q1, Q2, B. reflexivity. }
      eexists. split; [reflexivity|]. split; [reflexivity|].
      cbv -[IZR Rplus Rmult Rminus Ropp Rdiv qlen]. rewrite Q0, Q1, Q2. f_equal; lra. }
    destruct V as (c & Ec & Sc & Dc).
    destruct (add_tr (TrRows [0;1;3]%R rows) [0;1;3]%R rows c []) as (e & Ee & Se & De); [left; reflexivity|reflexivity|exact Sc|].
    exists e. change (ndim (tile_nd (da_data ex_single) (length [0;1;3]%R))) with 2. change (length [0;1;3]%R) with 3. rewrite Ec. cbn [bind].
    replace (ndim c) with 2 in Ee by (unfold ndim; rewrite Sc; reflexivity). rewrite Ee. cbn [bind undo_swap]. split; [reflexivity|].
    split; [exact Se|]. specialize (De 0 [] ltac:(cbn; lia) (Forall2_nil _)). rewrite De, Dc. change (rowv rows 0) with (V3 0 0 0). vcomp. f_equal; lra. }
  destruct C as (out & Ec & So & Do').
  assert (Hw2 : forall w2, exists w3 l3 cs, make_dataarray w2 out (da_coords ex_single) (da_dims ex_single) (da_name ex_single) l1 None (Some [0;1;3]%R) =
     (w3, Ok (DA out ["time"%string; "cartesian_axis"%string] cs None l3))).
  { intros w2. destruct out as [sh f]. cbn [shp] in So. subst sh. cbn [make_dataarray]. unfold make_xr. 
    replace (forallb _ _) with true by reflexivity. cbn [length ex_single da_dims ndim shp Nat.eqb].
    change (distinct ["time"%string; "cartesian_axis"%string]) with true. cbn [andb].
    destruct (alloc w2 (dict_at w2 l1)) as [w3 l3]. eauto. }
  change (frames ex_single_world) with mov_lit in E2. cbv zeta in E2. rewrite Ec in E2.
  destruct (Hw2 (write w1 l1 (relabel Points (name_of mov_lit 0)))) as (w3 & l3 & cs & E3). rewrite E3 in E2. cbn [bind] in E2.
  exists ex_single_world, ex_single, w', d', w3, (DA out ["time"%string; "cartesian_axis"%string] cs None l3).
  split; [exact mov_lit_reachable|]. split; [exact Hda|]. split; [exact Hex|]. split; [reflexivity|]. split; [exact Hp|].
  split; [exact E|]. split; [exact E2|]. split; [|exact Do'].
  rewrite Him. unfold smove, srot. vcomp. f_equal; lra.
Qed.
Example C70_example : let w := ex_single_world in exists l rows,
  reachable (frames w) /\ squad_unit hold_squad /\ data_array w ex_single /\ expressed_in Points w ex_single None 1 /\
  denotes (frames w) (PName "world") 0 /\ unit_way (frames w) 1 0 /\ shp (da_data ex_single) = [ncomp Points] /\
  lookup_transform hold_squad (frames w) 1 (PFrame 0) = Ok (TrRows l rows).
Proof.
  cbv zeta. eexists. eexists. split; [exact mov_lit_reachable|]. split; [exact hold_squad_unit|]. split.
  { split; [reflexivity|]. split; [repeat constructor; intros []|]. split; [|cbn; lia]. intros nm c [H|[]]; injection H as <- <-. constructor; [|constructor]. exists 0. auto. }
  split; [exists "m"%string; split; reflexivity|]. split; [right; exists "world"%string; split; reflexivity|].
  split; [intros k d _ H; apply (mov_unit k d H)|]. split; [reflexivity|]. exact mov_m_world.
Qed.
Print Assumptions C44_pose_moving.
Print Assumptions C44_pose_start.
Print Assumptions C70_single_partial.
Print Assumptions C70_named_refused.
Print Assumptions C70_named_refuted.
