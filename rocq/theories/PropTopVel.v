(** Property C62: labelled velocities. *)
From Coq Require Import Reals String List Arith Bool ZArith Lia Lra.
From Verif Require Import Base Quat SpecQuat QuatProofs NdArray Frames SpecForest FrameProofs WalkProofs
  Matcher SpecLookup LookupProofs RegistryProofs MovingProofs TimeProofs CtorProofs InverseProofs RouteProofs
  Examples PropForest PropLookup PropMoving
  Transform SpecArray NdProofs RotProofs ArrProofs ArrTransProofs ArrStaticProofs PropTransform PropRotate
  UtilsProofs Velocity VelProofs SpecMotion MotionProofs PropAngular VelFrames VelFrameProofs PropVelFrames VelExamples
  Coord TopLevel TopProofs SpecTop TopStep PropTop TopVel.
Import ListNotations.
Open Scope nat_scope.

(** The reference argument of a lookup of frame i means frame j: the default is the
    parent. *)
Definition refers (s : state) (i : nat) (o : option pref) (j : nat) : Prop :=
  match o with None => parent_of s i = Some j | Some p => denotes s p j /\ p <> PName EmptyString end.
(** The represent_in argument means frame k: the default is the reference. *)
Definition represents (s : state) (j : nat) (o : option pref) (k : nat) : Prop :=
  match o with None => k = j | Some p => denotes s p k /\ p <> PName EmptyString end.
(** d is labelled as the angular (or linear) velocity of frame i in frame j, in the axes
    of frame k, with one row of x, y, z per time in l. *)
Definition labelled (w : world) (d : darr) (ang : bool) (i j k : nat) (l : list R) : Prop :=
  da_dims d = ["time"%string; "cartesian_axis"%string] /\ shp (da_data d) = [List.length l; 3] /\
  (exists t, lookup "time"%string (da_coords d) = Some (Co ["time"%string] (CNum t)) /\ shp t = [List.length l] /\
     forall n x, nth_error l n = Some x -> dat t [n] = x) /\
  lookup "cartesian_axis"%string (da_coords d) = Some (Co ["cartesian_axis"%string] (CStr ["x"; "y"; "z"]%string)) /\
  da_name d = Some (if ang then "angular_velocity" else "linear_velocity")%string /\
  attr w d "moving_frame" = Some (name_of (frames w) i) /\
  attr w d "reference_frame" = Some (name_of (frames w) j) /\
  attr w d "representation_frame" = Some (name_of (frames w) k) /\
  attr w d "motion_type" = Some (Some (if ang then "angular_velocity" else "linear_velocity"))%string /\
  attr w d "units" = Some (Some (if ang then "rad/s" else "m/s"))%string.

Lemma resolves s fr ref rep i j k : reachable s -> denotes s fr i -> refers s i ref j -> represents s j rep k ->
  resolve3 s fr ref rep = Ok (i, j, k).
Proof.
  intros HR Hi Hj Hk. unfold resolve3. rewrite (denotes_resolve _ _ _ Hi). cbn [bind].
  pose proof (denotes_frame _ _ _ HR Hi) as Fi. pose proof (reachable_Inv s HR) as (W & _).
  assert (Ej : top_ref s i ref = Ok j).
  { unfold top_ref, refers in *. destruct ref as [p|].
    - destruct Hj as (Hj & Hne). replace (truthy (Some p)) with (Some p); [apply denotes_resolve; auto|].
      cbn. destruct p as [|n|]; auto. destruct (String.eqb_spec n EmptyString); auto. congruence.
    - cbn [truthy]. rewrite Hj. apply denotes_resolve. left. split; auto. exact (proj1 (wf_par s W i j Hj)). }
  rewrite Ej. cbn [bind].
  assert (Fj : frame s j). { apply (resolve_lt s (PFrame j) j (proj2 (reachable_Inv s HR))). unfold top_ref in Ej.
    destruct (truthy ref) as [p|].
    - assert (Hf : j < size s) by exact (resolve_lt s p j (proj2 (reachable_Inv s HR)) Ej). apply denotes_resolve. left. auto.
    - destruct (parent_of s i) as [q|]; [|discriminate]. pose proof (resolve_lt s (PFrame q) j (proj2 (reachable_Inv s HR)) Ej).
      apply denotes_resolve. left. auto. }
  assert (Ek : top_rep s j rep = Ok k).
  { unfold top_rep, represents in *. destruct rep as [p|].
    - destruct Hk as (Hk & Hne). replace (truthy (Some p)) with (Some p); [apply denotes_resolve; auto|].
      cbn. destruct p as [|n|]; auto. destruct (String.eqb_spec n EmptyString); auto. congruence.
    - cbn [truthy]. subst k. apply denotes_resolve. left. auto. }
  rewrite Ek. reflexivity.
Qed.
Lemma resolved_frames s fr ref rep i j k : reachable s -> resolve3 s fr ref rep = Ok (i, j, k) -> frame s i /\ frame s j /\ frame s k.
Proof.
  intros HR. unfold resolve3. destruct (resolve_rf s fr) as [i'|] eqn:E1; [|discriminate]. cbn [bind].
  destruct (top_ref s i' ref) as [j'|] eqn:E2; [|discriminate]. cbn [bind].
  destruct (top_rep s j' rep) as [k'|] eqn:E3; [|discriminate]. cbn [bind]. intros H. injection H as <- <- <-.
  pose proof (proj2 (reachable_Inv s HR)) as V. split; [exact (resolve_lt s _ _ V E1)|]. split.
  - unfold top_ref in E2. destruct (truthy ref); [exact (resolve_lt s _ _ V E2)|]. destruct (parent_of s i'); [exact (resolve_lt s _ _ V E2)|discriminate].
  - unfold top_rep in E3. destruct (truthy rep); exact (resolve_lt s _ _ V E3).
Qed.

Lemma velocity_made w v ang i j k l : shp v = [List.length l; 3] ->
  exists w' d, make_velocity w v ang (frames w) i j k (Some l) = (w', Ok d) /\ attrs_kept w w' /\ data_array w' d /\
    da_data d = v /\ labelled w' d ang i j k l.
Proof.
  intros Hv. unfold make_velocity. destruct (alloc w _) as [w1 l1] eqn:Hal. destruct (dict_alloc _ _ _ _ Hal) as (Hfr & El & Hlen & Hd & Hold).
  unfold make_xr. unfold ndim. rewrite Hv. unfold cart_coord, axis_labels.
  replace (_ && _ && forallb _ _) with true.
  2:{ unfold coord_fits. cbn. rewrite Hv. cbn. rewrite Nat.eqb_refl. reflexivity. }
  destruct (alloc w1 (dict_at w1 l1)) as [w2 l2] eqn:Ha. destruct (dict_alloc _ _ _ _ Ha) as (Hfr2 & El2 & Hlen2 & Hd2 & Hold2).
  eexists _, _. split; [reflexivity|]. split; [|split; [|split; [reflexivity|]]].
  - split; [congruence|]. split; [lia|]. intros q Hq. rewrite Hold2 by lia. apply Hold. auto.
  - split; [unfold ndim; cbn [da_dims da_data]; rewrite Hv; reflexivity|]. split.
    { cbn [da_dims]. constructor; [intros [H|[]]; discriminate|]. constructor; [intros []|constructor]. }
    split; [|cbn [da_attrs]; lia]. intros n c [H|[H|[]]]; injection H as <- <-; cbn [co_dims].
    + constructor; [|constructor]. exists 0. cbn [da_dims da_data]. rewrite Hv. split; reflexivity.
    + constructor; [|constructor]. exists 1. cbn [da_dims da_data]. rewrite Hv. split; reflexivity.
  - unfold labelled. cbn [da_dims da_data da_coords da_name]. split; [reflexivity|]. split; [exact Hv|].
    split. { exists (of_list l). split; [reflexivity|]. split; [reflexivity|]. intros n x H. cbn. apply nth_error_nth. exact H. }
    split; [reflexivity|]. split; [destruct ang; reflexivity|].
    unfold attr. cbn [da_attrs]. rewrite Hd2, Hd, Hfr2, Hfr. destruct ang; repeat split.
Qed.

(* ------------------------------------------------------------------ lookups *)
(** lookup_angular_velocity(as_dataarray=True): reference j by default the parent,
    representation k by default j; if the samples of the orientation of i in j lie on a
    curve q on which the differentiator is exact, the rows are the true angular velocity
    of i in j in the axes of k, and the labels say so. *)
Theorem C62_angular : forall squad deriv w fr ref rep i j k ts rows (q dq : R -> quat),
  reachable (frames w) -> squad_total squad -> squad_unit squad ->
  denotes (frames w) fr i -> refers (frames w) i ref j -> represents (frames w) j rep k ->
  good_way (frames w) i j -> good_way (frames w) i k ->
  lookup_transform squad (frames w) i (PFrame j) = Ok (TrRows ts rows) -> 2 <= List.length ts ->
  (forall x, hunit (q x)) -> (forall x, qderiv q x (dq x)) ->
  (forall m x t r, nth_error ts m = Some x -> nth_error rows m = Some (t, r) -> r = q x) ->
  (forall c, c < 4 -> exact_on deriv ts (seq 0 (List.length ts)) (fun x => comp4 c (q x)) (fun x => comp4 c (dq x))) ->
  exists w' d l, lookup_velocity_da squad deriv true w fr ref rep = (w', Ok d) /\ attrs_kept w w' /\ data_array w' d /\
    labelled w' d true i j k l /\ kept_samples (frames w) i k ts [] l /\
    forall n x, nth_error l n = Some x -> exists t r wb, maps_at squad (frames w) x i k t r /\ body_rate q x wb /\
      vec_at (da_data d) [n] = srot r wb.
Proof.
  intros squad deriv w fr ref rep i j k ts rows q dq HR Ht Hu Hi Hj Hk G1 G2 Hl H2 Hq Hdq Hrows Hex.
  pose proof (resolves _ _ _ _ _ _ _ HR Hi Hj Hk) as E3. destruct (resolved_frames _ _ _ _ _ _ _ HR E3) as (Fi & Fj & Fk).
  destruct (C34_lookup squad deriv (frames w) i (PFrame j) (PFrame k) j k ts rows false q dq HR Ht Hu Fi (or_introl (conj eq_refl Fj)) (or_introl (conj eq_refl Fk))
    ltac:(discriminate) ltac:(discriminate) G1 G2 Hl H2 Hq Hdq Hrows Hex) as (v & l & E & S & K & V).
  destruct (velocity_made w v true i j k l S) as (w' & d & Em & A1 & A2 & A3 & A4).
  exists w', d, l. unfold lookup_velocity_da. rewrite E3. cbn [bind]. rewrite E. cbn [bind unpack2 fst snd]. rewrite Em.
  split; [reflexivity|]. split; auto. split; auto. split; auto. split; auto. rewrite A3. exact V.
Qed.

(** lookup_linear_velocity(as_dataarray=True) of a frame whose samples move uniformly. *)
Theorem C62_linear : forall squad deriv w fr ref rep i j k ts rows (p v : vec3),
  reachable (frames w) -> squad_total squad -> squad_unit squad ->
  denotes (frames w) fr i -> refers (frames w) i ref j -> represents (frames w) j rep k ->
  good_way (frames w) i j -> good_way (frames w) j k ->
  lookup_transform squad (frames w) i (PFrame j) = Ok (TrRows ts rows) -> 2 <= List.length ts ->
  (forall m x t r, nth_error ts m = Some x -> nth_error rows m = Some (t, r) -> t = vadd p (vscale x v)) ->
  exists w' d l, lookup_velocity_da squad deriv false w fr ref rep = (w', Ok d) /\ attrs_kept w w' /\ data_array w' d /\
    labelled w' d false i j k l /\ kept_samples (frames w) j k ts [] l /\
    forall n x, nth_error l n = Some x -> exists t r, maps_at squad (frames w) x j k t r /\ vec_at (da_data d) [n] = srot r v.
Proof.
  intros squad deriv w fr ref rep i j k ts rows p v HR Ht Hu Hi Hj Hk G1 G2 Hl H2 Hrows.
  pose proof (resolves _ _ _ _ _ _ _ HR Hi Hj Hk) as E3. destruct (resolved_frames _ _ _ _ _ _ _ HR E3) as (Fi & Fj & Fk).
  destruct (C32_lookup squad (frames w) i (PFrame j) (PFrame k) j k ts rows false p v HR Ht Hu Fi (or_introl (conj eq_refl Fj)) (or_introl (conj eq_refl Fk))
    ltac:(discriminate) ltac:(discriminate) G1 G2 Hl H2 Hrows) as (a & l & E & S & K & V).
  destruct (velocity_made w a false i j k l S) as (w' & d & Em & A1 & A2 & A3 & A4).
  exists w', d, l. unfold lookup_velocity_da. rewrite E3. cbn [bind]. rewrite E. cbn [bind unpack2 fst snd]. rewrite Em.
  split; [reflexivity|]. split; auto. split; auto. split; auto. split; auto. rewrite A3. exact V.
Qed.

(** lookup_twist(as_dataset=True): both variables have the same times and labels, and
    hold the two individual velocities, the linear one interpolated at the times of the
    angular one. *)
Theorem C62_twist : forall squad deriv w fr ref rep i j k lin ll ang la,
  reachable (frames w) -> squad_total squad -> squad_unit squad ->
  denotes (frames w) fr i -> refers (frames w) i ref j -> represents (frames w) j rep k ->
  good_way (frames w) i j -> good_way (frames w) i k -> good_way (frames w) j k ->
  lookup_linear_velocity squad (frames w) i (Some (PFrame j)) (Some (PFrame k)) false true = Ok (lin, Some (Some ll)) ->
  lookup_angular_velocity squad deriv (frames w) i (Some (PFrame j)) (Some (PFrame k)) false true = Ok (ang, Some (Some la)) ->
  2 <= List.length ll -> 2 <= List.length la ->
  exists w' da dl l, lookup_twist_ds squad deriv w fr ref rep = (w', Ok (da, dl)) /\ attrs_kept w w' /\
    data_array w' da /\ data_array w' dl /\ labelled w' da true i j k l /\ labelled w' dl false i j k l /\
    (exists f, l = filter f la) /\
    (forall x, In x l <-> In x la /\ exists a b, hd_error ll = Some a /\ nth_error ll (List.length ll - 1) = Some b /\ (a <= x <= b)%R) /\
    forall n x, nth_error l n = Some x -> value_at lin (Some ll) x (vec_at (da_data dl) [n]) /\
      forall m, nth_error la m = Some x -> vec_at (da_data da) [n] = vec_at ang [m].
Proof.
  intros squad deriv w fr ref rep i j k lin ll ang la HR Ht Hu Hi Hj Hk G1 G2 G3 El Ea H2 H3.
  pose proof (resolves _ _ _ _ _ _ _ HR Hi Hj Hk) as E3. destruct (resolved_frames _ _ _ _ _ _ _ HR E3) as (Fi & Fj & Fk).
  destruct (C37_twist squad deriv (frames w) i (PFrame j) (PFrame k) j k false true lin ll ang la HR Ht Hu Fi (or_introl (conj eq_refl Fj)) (or_introl (conj eq_refl Fk))
    ltac:(discriminate) ltac:(discriminate) G1 G2 G3 El Ea H2 H3) as (lin' & ang' & l & E & S1 & S2 & K1 & K2 & V).
  destruct (velocity_made w ang' true i j k l S2) as (w1 & da & Em1 & A1 & A2 & A3 & A4).
  assert (Hf : frames w1 = frames w) by apply A1.
  destruct (velocity_made w1 lin' false i j k l S1) as (w2 & dl & Em2 & B1 & B2 & B3 & B4).
  exists w2, da, dl, l. unfold lookup_twist_ds. rewrite E3. cbn [bind]. rewrite E. cbn [bind]. unfold make_twist. rewrite Em1. rewrite Hf in Em2. rewrite Em2. cbn [bind].
  split; [reflexivity|]. split; [eapply kept_trans; eauto|].
  assert (D : forall key, attr w2 da key = attr w1 da key). { intros key. unfold attr. rewrite (proj2 (proj2 B1)); auto. apply A2. }
  split. { destruct A2 as (X1 & X2 & X3 & X4). split; auto. split; auto. split; auto. destruct B1 as (_ & Y & _). lia. }
  split; auto. split; [|split; auto].
  { unfold labelled in *. rewrite !D. replace (frames w2) with (frames w1) by (symmetry; apply B1). exact A4. }
  split; auto. split; auto. rewrite A3, B3. exact V.
Qed.

(** The hypotheses are met: the turning and advancing frame s of [spin]. *)
Example C62_example : exists w' d w'' d' l,
  lookup_velocity_da hold_squad deriv_ex true (World spin []) (PName "s") None (Some (PFrame 1)) = (w', Ok d) /\
  lookup_velocity_da hold_squad deriv_ex false (World spin []) (PFrame 1) None None = (w'', Ok d') /\
  labelled w' d true 1 0 1 l /\ labelled w'' d' false 1 0 0 l /\ l = half_turn.
Proof.
  assert (P : forall m x t r, nth_error half_turn m = Some x -> nth_error [(V3 0 0 0, Qt 1 0 0 0); (V3 PI 0 0, Qt 0 0 0 1)] m = Some (t, r) -> r = zspin x).
  { intros m x t r Hm Hr. destruct m as [|[|m]]; cbn in Hm, Hr; [| |destruct m; discriminate]; injection Hm as <-; injection Hr as _ <-;
      [rewrite zspin_0|rewrite zspin_PI]; reflexivity. }
  destruct (C62_angular hold_squad deriv_ex (World spin []) (PName "s") None (Some (PFrame 1)) 1 0 1 half_turn [(V3 0 0 0, Qt 1 0 0 0); (V3 PI 0 0, Qt 0 0 0 1)] zspin zspin' (spin_reachable PI)
    hold_squad_total hold_squad_unit) with (6 := spin_lookup) (10 := P) as (w' & d & l & E & _ & _ & L & K & _); try exact spin_exact.
  { right. exists "s"%string. auto. } { reflexivity. } { split; [left; split; [reflexivity|exact (spin_frame 1 ltac:(lia))]|discriminate]. }
  { apply spin_good; lia. } { apply spin_good; lia. } { apply half_turn_up. } { apply zspin_unit. } { apply zspin_deriv. }
  destruct (C62_linear hold_squad deriv_ex (World spin []) (PFrame 1) None None 1 0 0 half_turn [(V3 0 0 0, Qt 1 0 0 0); (V3 PI 0 0, Qt 0 0 0 1)] v0 (V3 1 0 0) (spin_reachable PI)
    hold_squad_total hold_squad_unit) with (6 := spin_lookup) as (w'' & d' & l' & E' & _ & _ & L' & K' & _).
  { left. split; [reflexivity|exact (spin_frame 1 ltac:(lia))]. } { reflexivity. } { reflexivity. }
  { apply spin_good; lia. } { apply spin_good; lia. } { apply half_turn_up. }
  { intros m x t r Hm Hr. destruct m as [|[|m]]; cbn in Hm, Hr; [| |destruct m; discriminate]; injection Hm as <-; injection Hr as <- _;
      apply vec3_eq; cbn; lra. }
  apply kept_all_gen in K, K'. subst l l'. exists w', d, w'', d', half_turn. auto.
Qed.

(** A frame at rest has no velocity to look up: ValueError.  A root has no default
    reference: TypeError (the frame's own method raises ValueError). *)
Theorem C62_errors : forall squad deriv w fr rep i, reachable (frames w) -> denotes (frames w) fr i ->
  (parent_of (frames w) i = None -> forall ang,
     lookup_velocity_da squad deriv ang w fr None rep = (w, Raise TypeError) /\
     lookup_twist_ds squad deriv w fr None rep = (w, Raise TypeError)) /\
  (forall ref j k t r ang, refers (frames w) i ref j -> represents (frames w) j rep k ->
     lookup_transform squad (frames w) i (PFrame j) = Ok (TrStatic t r) ->
     lookup_velocity_da squad deriv ang w fr ref rep = (w, Raise ValueError) /\
     lookup_twist_ds squad deriv w fr ref rep = (w, Raise ValueError)).
Proof.
  intros squad deriv w fr rep i HR Hi. split.
  - intros Hp ang. unfold lookup_velocity_da, lookup_twist_ds, resolve3. rewrite (denotes_resolve _ _ _ Hi). cbn [bind].
    unfold top_ref. cbn [truthy]. rewrite Hp. split; reflexivity.
  - intros ref j k t r ang Hj Hk Hl.
    pose proof (resolves _ _ _ _ _ _ _ HR Hi Hj Hk) as E3. destruct (resolved_frames _ _ _ _ _ _ _ HR E3) as (Fi & Fj & Fk).
    destruct (C37_static squad deriv (frames w) i (PFrame j) (PFrame k) j k t r false true (or_introl (conj eq_refl Fj)) (or_introl (conj eq_refl Fk))
      ltac:(discriminate) ltac:(discriminate) Hl) as (X1 & X2 & X3).
    unfold lookup_velocity_da, lookup_twist_ds. rewrite E3. cbn [bind]. rewrite X1, X2, X3. destruct ang; split; reflexivity.
Qed.

(* ------------------------------------------------------------------ transforms *)
Lemma lookup_set_same {A} k (v : A) m : lookup k (dict_set k v m) = Some v.
Proof. induction m as [|[a b] m IH]; cbn; [rewrite String.eqb_refl; auto|]. destruct (String.eqb k a) eqn:E; cbn; rewrite E; auto. Qed.
Lemma lookup_set_other {A} k k' (v : A) m : k <> k' -> lookup k (dict_set k' v m) = lookup k m.
Proof.
  intros H. induction m as [|[a b] m IH]; cbn; [apply String.eqb_neq in H; rewrite H; auto|].
  destruct (String.eqb_spec k' a) as [->|E]; cbn; [apply String.eqb_neq in H; rewrite H; auto|]. destruct (String.eqb k a); auto.
Qed.
Lemma in_set {A} k (v : A) m x : In x (dict_set k v m) -> x = (k, v) \/ In x m.
Proof.
  induction m as [|[a b] m IH]; cbn; [intros [<-|[]]; auto|]. destruct (String.eqb_spec k a) as [->|E]; cbn; intros [<-|H]; auto.
  apply IH in H as [H|H]; auto.
Qed.

(** Only the time coordinate itself lies along the time dimension. *)
Definition plain_coords (d : darr) (td : string) : Prop :=
  forall n c, In (n, c) (da_coords d) -> In td (co_dims c) -> (n, c) = (td, c) /\ co_dims c = [td].
(** d holds one velocity per time in the coordinate td: dims (td, cn), n rows. *)
Definition velocity_series (w : world) (d : darr) (td cn : string) (n : nat) (tsa : nd R) : Prop :=
  data_array w d /\ da_dims d = [td; cn] /\ shp (da_data d) = [n; 3] /\ shp tsa = [n] /\
  lookup td (da_coords d) = Some (Co [td] (CNum tsa)) /\ NoDup (map fst (da_coords d)) /\ plain_coords d td.

Lemma nodup_lookup {A} k (v : A) m : NoDup (map fst m) -> In (k, v) m -> lookup k m = Some v.
Proof.
  induction m as [|[a b] m IH]; cbn; [intros _ []|]. intros H [E|E]; inversion H as [|? ? N1 N2]; subst.
  - injection E as -> ->. rewrite String.eqb_refl. auto.
  - destruct (String.eqb_spec k a) as [->|]; auto. exfalso. apply N1. apply in_map_iff. exists (a, v). auto.
Qed.
Lemma existsb_str td l : existsb (String.eqb td) l = true <-> In td l.
Proof. rewrite existsb_exists. split; [intros (x & H & E); apply String.eqb_eq in E; subst; auto|]. intros H. exists td. rewrite String.eqb_refl. auto. Qed.
Lemma traverse_same {A} (f : A -> res A) l : (forall x, In x l -> f x = Ok x) -> traverse f l = Ok l.
Proof. intros H. rewrite (traverse_ok f (fun x => x)) by auto. rewrite map_id. reflexivity. Qed.

Lemma fits_new d td cn n tsa a l w c nm : velocity_series w d td cn n tsa -> shp a = [l; 3] -> In (nm, c) (da_coords d) ->
  (In td (co_dims c) -> l = n) -> coord_fits a [td; cn] c = true.
Proof.
  intros ((D1 & D2 & D3 & _) & Hd & Hs & _ & _ & _ & Hp) Ha Hin Hl. rewrite Hd in *.
  pose proof (D3 _ _ Hin) as F. unfold coord_fits. rewrite cshape_size, Ha.
  assert (L : List.length (coord_size c) = List.length (co_dims c)) by (clear - F; induction F; cbn; auto).
  rewrite L, Nat.eqb_refl. cbn [andb]. apply forallb_forall. intros [dn m] Hdm. cbn [fst snd].
  assert (G : dim_size d dn m /\ In dn (co_dims c)).
  { clear - F Hdm. induction F as [|x y xs ys E F IH]; cbn in Hdm; [contradiction|]. destruct Hdm as [Hdm|Hdm]; [injection Hdm as -> ->; split; auto; left; auto|].
    destruct (IH Hdm). split; auto. right; auto. }
  destruct G as ((k & G1 & G2) & G3). rewrite Hd in G1. rewrite Hs in G2.
  destruct k as [|[|k]]; cbn in G1, G2; [| |destruct k; discriminate].
  - injection G1 as <-. injection G2 as <-. cbn. rewrite String.eqb_refl. cbn. apply Nat.eqb_eq. apply Hl; auto.
  - injection G1 as <-. injection G2 as <-. cbn. inversion D2 as [|? ? N1 N2]; subst.
    destruct (String.eqb_spec cn td) as [E|E]; [exfalso; apply N1; left; auto|]. rewrite String.eqb_refl. reflexivity.
Qed.

Lemma made_series w w2 d td cn n tsa a l loc : velocity_series w d td cn n tsa -> shp a = [List.length l; 3] -> loc < List.length (dicts w2) ->
  exists w3 d', make_dataarray w2 a (da_coords d) (da_dims d) (da_name d) loc (Some td) (Some l) = (w3, Ok d') /\
    alloc w2 (dict_at w2 loc) = (w3, da_attrs d') /\ da_data d' = a /\ da_dims d' = da_dims d /\ da_name d' = da_name d /\
    (exists t', lookup td (da_coords d') = Some (Co [td] (CNum t')) /\ shp t' = [List.length l] /\
       forall m x, nth_error l m = Some x -> dat t' [m] = x) /\
    (forall c, c <> td -> lookup c (da_coords d') = lookup c (da_coords d)) /\ data_array w3 d'.
Proof.
  intros HV Ha Hloc. pose proof HV as (Hda & Hd & Hs & Ht & Hc & Hnd & Hp). pose proof Hda as (D1 & D2 & D3 & D4).
  unfold make_dataarray. rewrite Hc. cbn [stamps_of co_vals].
  assert (DI : distinct (da_dims d) = true) by (apply distinct_nodup; auto).
  assert (Hsame : forall t, list_of t = l -> shp t = [n] -> n = List.length l).
  { intros t E1 E2. subst l. unfold list_of. rewrite map_length, seq_length, E2. reflexivity. }
  destruct (same_list (list_of tsa) l) eqn:Es.
  - assert (El : list_of tsa = l).
    { clear - Es. revert l Es. generalize (list_of tsa) as a. induction a as [|x a IH]; intros [|y l]; cbn; try discriminate; auto.
      unfold Req_b. destruct (Req_EM_T x y) as [->|]; [|discriminate]. cbn. intros H. f_equal. auto. }
    assert (En : n = List.length l) by (apply (Hsame tsa); auto).
    unfold make_xr. rewrite DI. unfold ndim. rewrite Ha, Hd. cbn [List.length Nat.eqb andb].
    replace (forallb _ _) with true.
    2:{ symmetry. apply forallb_forall. intros [nm c] Hin. cbn [snd]. eapply fits_new; eauto. }
    destruct (alloc w2 (dict_at w2 loc)) as [w3 l3] eqn:A. destruct (dict_alloc _ _ _ _ A) as (Hfr3 & El3 & Hlen3 & Hd3 & Hold3).
    eexists _, _. split; [reflexivity|]. cbn [da_attrs da_data da_dims da_name da_coords].
    split; auto. split; auto. split; auto. split; auto. split.
    { exists tsa. split; auto. split; [congruence|]. intros m x Hm. subst l. unfold list_of in Hm. rewrite nth_error_map in Hm.
      destruct (nth_error (seq 0 (hd 0 (shp tsa))) m) as [m'|] eqn:Em; [|discriminate]. cbn in Hm. injection Hm as <-.
      assert (m' = m). { assert (m < List.length (seq 0 (hd 0 (shp tsa)))) by (apply nth_error_Some; congruence).
        rewrite seq_length in H. rewrite nth_error_nth' with (d := 0) in Em by (rewrite seq_length; auto). rewrite seq_nth in Em by auto. injection Em as <-. auto. }
      subst; auto. }
    split; auto. split; [unfold ndim; cbn [da_dims da_data]; rewrite Ha; reflexivity|]. split; [rewrite Hd in D2; exact D2|]. split; [|cbn [da_attrs]; lia].
    cbn [da_coords da_dims da_data]. intros nm c Hin. specialize (D3 _ _ Hin). unfold dim_size in *. cbn [da_dims da_data] in *. rewrite Ha. rewrite Hd, Hs in D3. rewrite <- En. exact D3.
  - assert (Et : traverse (resample_coord td (list_of tsa) l) (da_coords d) = Ok (da_coords d)).
    { apply traverse_same. intros [nm c] Hin. unfold resample_coord.
      destruct (existsb (String.eqb td) (co_dims c)) eqn:Ex; [|reflexivity]. apply existsb_str in Ex. destruct (Hp _ _ Hin Ex) as (E1 & _). injection E1 as ->.
      rewrite String.eqb_refl. reflexivity. }
    rewrite Et. set (cs := dict_set td (Co [td] (CNum (of_list l))) (da_coords d)).
    assert (Hcs : forall nm c, In (nm, c) cs -> Forall2 (fun dn m => exists k, nth_error [td; cn] k = Some dn /\ nth_error [List.length l; 3] k = Some m) (co_dims c) (coord_size c)).
    { intros nm c Hin. 
      assert (Hcase : (nm, c) = (td, Co [td] (CNum (of_list l))) \/ (In (nm, c) (da_coords d) /\ nm <> td)).
      { destruct (String.eqb_spec nm td) as [->|Hne].
        - left. f_equal. assert (Hn' : NoDup (map fst cs)) by (apply nodup_set; auto). pose proof (nodup_lookup _ _ _ Hn' Hin) as X.
          unfold cs in X. rewrite lookup_set_same in X. injection X as <-. auto.
        - apply in_set in Hin as [E|E]; auto. }
      destruct Hcase as [E|(E & Hne)].
      - injection E as -> ->. cbn. constructor; [|constructor]. exists 0. auto.
      - pose proof (D3 _ _ E) as F. 
        assert (Hno : ~ In td (co_dims c)) by (intros X; destruct (Hp _ _ E X) as (Y & _); injection Y as ->; auto).
        clear - F Hno Hd Hs. induction F as [|dn m xs ys (k & K1 & K2) F IH]; constructor.
        + exists k. rewrite Hd in K1. rewrite Hs in K2. split; auto. destruct k as [|k]; [|exact K2]. cbn in K1. injection K1 as ->. exfalso. apply Hno. left; auto.
        + apply IH. intros X. apply Hno. right; auto. }
    unfold make_xr. rewrite DI. unfold ndim. rewrite Ha, Hd. cbn [List.length Nat.eqb andb].
    replace (forallb _ _) with true.
    2:{ symmetry. apply forallb_forall. intros [nm c] Hin. cbn [snd].
        apply (fits_ok (DA a [td; cn] [] None 0) c a); [cbn; rewrite <- Hd; auto| |reflexivity].
        specialize (Hcs _ _ Hin). unfold dim_size. cbn [da_dims da_data]. rewrite Ha. exact Hcs. }
    destruct (alloc w2 (dict_at w2 loc)) as [w3 l3] eqn:A. destruct (dict_alloc _ _ _ _ A) as (Hfr3 & El3 & Hlen3 & Hd3 & Hold3).
    eexists _, _. split; [reflexivity|]. cbn [da_attrs da_data da_dims da_name da_coords].
    split; auto. split; auto. split; auto. split; auto. split.
    { exists (of_list l). split; [apply lookup_set_same|]. split; [reflexivity|]. intros m x Hm. cbn. apply nth_error_nth; auto. }
    split; [intros c Hne; apply lookup_set_other; auto|].
    split; [unfold ndim; cbn [da_dims da_data]; rewrite Ha; reflexivity|]. split; [rewrite Hd in D2; exact D2|]. split; [|cbn [da_attrs]; lia].
    cbn [da_coords da_dims da_data]. intros nm c Hin. unfold dim_size. cbn [da_dims da_data]. rewrite Ha. apply (Hcs _ _ Hin).
Qed.

(** What a successful transform of the labelled series d into frame j returns: the data
    out of the frame's own method at the times l, the labels of d with [what] and
    representation_frame set to the name of j; d itself is unchanged. *)
Definition transformed (w w' : world) (d d' : darr) (td what : string) (j : nat) (out : nd R) (l : list R) : Prop :=
  attrs_kept w w' /\ data_array w' d' /\ da_data d' = out /\ da_dims d' = da_dims d /\ da_name d' = da_name d /\
  (exists t', lookup td (da_coords d') = Some (Co [td] (CNum t')) /\ shp t' = [List.length l] /\
     forall m x, nth_error l m = Some x -> dat t' [m] = x) /\
  (forall c, c <> td -> lookup c (da_coords d') = lookup c (da_coords d)) /\
  attr w' d' what = Some (name_of (frames w) j) /\
  attr w' d' "representation_frame" = Some (name_of (frames w) j) /\
  (forall key, key <> what -> key <> "representation_frame"%string -> attr w' d' key = attr w d key).

Theorem C62_transform : forall squad deriv m w d td cn n tsa what wh v i into j dim ax ts out l,
  reachable (frames w) -> velocity_series w d td cn n tsa ->
  attr w d what = Some (Some v) -> lookup v (reg (frames w)) = Some i -> denotes (frames w) into j ->
  (wh = Some what \/ (wh = None /\ what = "reference_frame"%string)) ->
  ((dim = None /\ ax = (-1)%Z) \/ (dim = Some cn /\ ax = 1%Z)) -> (ts = TNone \/ ts = TName td) ->
  call_velocity squad deriv m (frames w) i (da_data d) j what ax (Some 0%Z) (Some tsa) = Ok (out, Some l) ->
  shp out = [List.length l; 3] ->
  exists w' d', transform_velocity squad deriv m w (Lab d) into None wh dim None ts None = (w', Ok (RLab d')) /\
    transformed w w' d d' td what j out l.
Proof.
  intros squad deriv m w d td cn n tsa what wh v i into j dim ax ts out l HR HV Hat Hv Hj Hwh Hdim Hts Hcall Hout.
  pose proof HV as (Hda & Hd & Hs & Ht & Hc & Hnd & Hp). pose proof Hda as (D1 & D2 & D3 & D4).
  assert (Hne : cn <> td) by (rewrite Hd in D2; inversion D2 as [|? ? N1 N2]; subst; intros ->; apply N1; left; auto).
  unfold transform_velocity, maybe_unpack. destruct (alloc w (dict_at w (da_attrs d))) as [w1 loc] eqn:Hal.
  destruct (dict_alloc _ _ _ _ Hal) as (Hfr & El & Hlen & Hdd & Hold).
  assert (Eax : (match dim, @None Z with
     | Some _, Some _ => Raise ValueError
     | Some n, None => i <- index_of n (da_dims d) ;; Ok (Z.of_nat i)
     | None, _ => let a := or_default None (-1) in do_ tuple_at (da_dims d) a ;; Ok a
     end) = Ok ax).
  { rewrite Hd. destruct Hdim as [(-> & ->)|(-> & ->)]; [reflexivity|]. cbn.
    apply String.eqb_neq in Hne. rewrite Hne, String.eqb_refl. reflexivity. }
  cbv zeta in Eax |- *. rewrite Eax. cbn [bind].
  set (lab := Some (da_coords d, da_dims d, da_name d, loc)).
  assert (Eu : (match ts with
       | TName n =>
           i <- index_of n (da_dims d) ;;
           t <- match lookup n (da_coords d) with
                | Some c => stamps_of c
                | None => Ok (arange (nth i (shp (da_data d)) O))
                end ;;
           Ok (Un (da_data d) ax (Some (Z.of_nat i)) (Some n) (Some t) lab)
       | TNone =>
           if Nat.ltb 1 (ndim (da_data d)) then
             let ta := or_default None 0 in
             n <- tuple_at (da_dims d) ta ;;
             c <- match lookup n (da_coords d) with Some c => Ok c | None => Raise KeyError end ;;
             t <- stamps_of c ;;
             Ok (Un (da_data d) ax (Some ta) (Some n) (Some t) lab)
           else Ok (Un (da_data d) ax None None None lab)
       | TFalse => Ok (Un (da_data d) ax None None None lab)
       | TArr _ => Raise NotImplementedError
       end) = Ok (Un (da_data d) ax (Some 0%Z) (Some td) (Some tsa) lab)).
  { rewrite Hd. unfold ndim. rewrite Hs. destruct Hts as [->| ->].
    - cbn [List.length Nat.ltb Nat.leb or_default]. unfold tuple_at. cbn. rewrite Hc. reflexivity.
    - cbn. rewrite String.eqb_refl. cbn. rewrite Hc. reflexivity. }
  cbv zeta in Eu. rewrite Eu. cbn [bind]. unfold same_axis_check. cbn [u_ts u_time_axis u_arr u_axis]. unfold ndim. rewrite Hs.
  cbn [List.length Nat.eqb]. replace (ax mod Z.of_nat 2 =? 0 mod Z.of_nat 2)%Z with false by (destruct Hdim as [(_ & ->)|(_ & ->)]; reflexivity).
  cbn [u_lab u_arr u_axis u_time_axis u_ts u_time_dim]. subst lab. cbn [u_lab].
  assert (Ewh : match wh with Some n => n | None => "reference_frame"%string end = what) by (destruct Hwh as [->|(-> & ->)]; auto).
  rewrite Ewh, Hfr, Hdd. unfold attr in Hat. rewrite Hat. cbn [as_pref resolve_rf]. rewrite Hv. cbn [bind].
  rewrite (denotes_resolve _ _ _ Hj). cbn [bind]. rewrite Hcall.
  set (nm := name_of (frames w) j). set (f := fun a => dict_set "representation_frame" nm (dict_set what nm a)).
  assert (Hloc : loc < List.length (dicts (write w1 loc f))) by (rewrite length_write; lia).
  destruct (made_series w (write w1 loc f) d td cn n tsa out l loc HV Hout Hloc) as (w3 & d' & E & A & X1 & X2 & X3 & X4 & X5 & X6).
  change (fun a : attrs => dict_set "representation_frame" nm (dict_set what nm a)) with f. rewrite E. cbn [bind]. exists w3, d'. split; [reflexivity|].
  destruct (dict_alloc _ _ _ _ A) as (Hfr3 & El3 & Hlen3 & Hd3 & Hold3). rewrite length_write in *.
  assert (Edict : dict_at w3 (da_attrs d') = f (dict_at w (da_attrs d))).
  { rewrite Hd3, dict_write, Nat.eqb_refl. replace (loc <? List.length (dicts w1)) with true by (symmetry; apply Nat.ltb_lt; lia). rewrite Hdd. reflexivity. }
  split. { split; [exact (eq_trans Hfr3 Hfr)|]. split; [lia|]. intros k Hk. rewrite Hold3 by lia. rewrite dict_write.
    replace (loc =? k) with false by (symmetry; apply Nat.eqb_neq; lia). apply Hold. auto. }
  split; auto. split; auto. split; auto. split; auto. split; auto. split; auto. unfold attr. rewrite Edict. unfold f.
  split; [|split].
  - destruct (String.eqb_spec what "representation_frame") as [->|Hw]; [apply lookup_set_same|]. rewrite lookup_set_other by auto. apply lookup_set_same.
  - apply lookup_set_same.
  - intros key K1 K2. rewrite !lookup_set_other by auto. reflexivity.
Qed.

(** With the documented precondition (the array is in the axes of the frame named by the
    label that is changed) the result is what its new labels say.  Angular velocity,
    change of reference frame: as in C35, M moves in i with orientation qM, and d holds
    its angular velocity in i, in the axes of i. *)
Theorem C62_angular_reference_partial : forall squad deriv w d cn ts v i into j wv wts (qM qR : R -> quat),
  reachable (frames w) -> squad_total squad -> squad_unit squad ->
  velocity_series w d "time" cn (List.length ts) (stamps_nd ts) ->
  attr w d "reference_frame" = Some (Some v) -> lookup v (reg (frames w)) = Some i -> denotes (frames w) into j ->
  good_way (frames w) i j -> two_up ts -> two_in_range (frames w) i j ts ->
  lookup_angular_velocity squad deriv (frames w) i (Some (PFrame j)) (Some (PFrame j)) true true = Ok (wv, Some wts) -> enough wts ->
  (forall x, hunit (qM x)) -> oriented squad (frames w) i j ts qR ->
  (forall m x, nth_error ts m = Some x -> space_rate qM x (vec_at (da_data d) [m])) ->
  (forall x v, In x ts -> value_at wv wts x v -> space_rate qR x v) ->
  exists w' d' l, transform_velocity squad deriv MAngular w (Lab d) into None (Some "reference_frame"%string) None None TNone None = (w', Ok (RLab d')) /\
    transformed w w' d d' "time" "reference_frame" j (da_data d') l /\ kept_samples (frames w) i j ts [wts] l /\
    forall k x, nth_error l k = Some x -> space_rate (fun y => hmul (qR y) (qM y)) x (vec_at (da_data d') [k]).
Proof.
  intros squad deriv w d cn ts v i into j wv wts qM qR HR Ht Hu HV Ha Hv Hj G Hup H2 Hl He HqM Ho Hd Hw.
  pose proof (denotes_frame _ _ _ HR Hj) as Fj. pose proof (denotes_frame (frames w) (PName v) i HR (or_intror (ex_intro _ v (conj eq_refl Hv)))) as Fi.
  destruct (C35_reference_frame squad deriv (frames w) i (PFrame j) j (da_data d) ts wv wts qM qR HR Ht Hu Fi (or_introl (conj eq_refl Fj)) ltac:(discriminate)
    G Hup H2 (proj1 (proj2 (proj2 HV))) Hl He HqM Ho Hd Hw) as (out & l & E & S & K & V).
  destruct (C62_transform squad deriv MAngular w d "time" cn _ _ "reference_frame" (Some "reference_frame"%string) v i into j None (-1) TNone out l HR HV Ha Hv Hj
    ltac:(auto) ltac:(auto) ltac:(auto) E S) as (w' & d' & E' & T).
  exists w', d', l. split; auto. assert (X : da_data d' = out) by apply T. rewrite X. auto.
Qed.
(** Angular velocity, change of moving frame: d holds the angular velocity of i, with
    orientation qI in its reference frame, in the axes of i. *)
Theorem C62_angular_moving_partial : forall squad deriv w d cn ts v i into j wv wts (qI qJ : R -> quat),
  reachable (frames w) -> squad_total squad -> squad_unit squad ->
  velocity_series w d "time" cn (List.length ts) (stamps_nd ts) ->
  attr w d "moving_frame" = Some (Some v) -> lookup v (reg (frames w)) = Some i -> denotes (frames w) into j ->
  good_way (frames w) i j -> good_way (frames w) j i -> two_up ts -> two_in_range (frames w) i j ts ->
  lookup_angular_velocity squad deriv (frames w) j (Some (PFrame i)) (Some (PFrame j)) true true = Ok (wv, Some wts) -> enough wts ->
  (forall x, hunit (qI x)) -> (forall x, hunit (qJ x)) ->
  (forall x t r, In x ts -> maps_at squad (frames w) x i j t r -> forall v, srot (qJ x) (srot r v) = v) ->
  (forall m x, nth_error ts m = Some x -> body_rate qI x (vec_at (da_data d) [m])) ->
  (forall x v, In x ts -> value_at wv wts x v -> body_rate qJ x v) ->
  exists w' d' l, transform_velocity squad deriv MAngular w (Lab d) into None (Some "moving_frame"%string) None None TNone None = (w', Ok (RLab d')) /\
    transformed w w' d d' "time" "moving_frame" j (da_data d') l /\ kept_samples (frames w) i j ts [wts] l /\
    forall k x, nth_error l k = Some x -> body_rate (fun y => hmul (qI y) (qJ y)) x (vec_at (da_data d') [k]).
Proof.
  intros squad deriv w d cn ts v i into j wv wts qI qJ HR Ht Hu HV Ha Hv Hj G G' Hup H2 Hl He HqI HqJ Ho Hd Hw.
  pose proof (denotes_frame _ _ _ HR Hj) as Fj. pose proof (denotes_frame (frames w) (PName v) i HR (or_intror (ex_intro _ v (conj eq_refl Hv)))) as Fi.
  destruct (C35_moving_frame squad deriv (frames w) i (PFrame j) j (da_data d) ts wv wts qI qJ HR Ht Hu Fi (or_introl (conj eq_refl Fj)) ltac:(discriminate)
    G G' Hup H2 (proj1 (proj2 (proj2 HV))) Hl He HqI HqJ Ho Hd Hw) as (out & l & E & S & K & V).
  destruct (C62_transform squad deriv MAngular w d "time" cn _ _ "moving_frame" (Some "moving_frame"%string) v i into j None (-1) TNone out l HR HV Ha Hv Hj
    ltac:(auto) ltac:(auto) ltac:(auto) E S) as (w' & d' & E' & T).
  exists w', d', l. split; auto. assert (X : da_data d' = out) by apply T. rewrite X. auto.
Qed.
(** Linear velocity, change of reference frame; the moving frame must be given as an
    argument. *)
Theorem C62_linear_reference_partial : forall squad deriv w d cn ts v i into j mf m lin ang wts tr t' tts (oM oR : R -> vec3) (qR : R -> quat),
  reachable (frames w) -> squad_total squad -> squad_unit squad ->
  velocity_series w d "time" cn (List.length ts) (stamps_nd ts) ->
  attr w d "reference_frame" = Some (Some v) -> lookup v (reg (frames w)) = Some i -> denotes (frames w) into j ->
  denotes (frames w) mf m -> good_way (frames w) i j -> good_way (frames w) m i -> two_up ts -> two_in_range (frames w) i j ts ->
  lookup_twist squad deriv (frames w) i (Some (PFrame j)) (Some (PFrame j)) true true = Ok (lin, ang, Some wts) -> enough wts ->
  lookup_transform squad (frames w) m (PFrame i) = Ok tr ->
  transform_vectors squad (frames w) i (tr_t tr) (PFrame j) (-1) (Some 0%Z) (option_map stamps_nd (tr_ts tr)) = Ok (t', tts) -> enough tts ->
  oriented squad (frames w) i j ts qR ->
  (forall n x, nth_error ts n = Some x -> vderiv oM x (vec_at (da_data d) [n])) ->
  (forall x v, In x ts -> value_at lin wts x v -> vderiv oR x v) ->
  (forall x w, In x ts -> value_at ang wts x w -> space_rate qR x w) ->
  (forall x p, In x ts -> value_at t' tts x p -> p = srot (qR x) (oM x)) ->
  exists w' d' l, transform_velocity squad deriv (MLinear (Some mf) None) w (Lab d) into None (Some "reference_frame"%string) None None TNone None = (w', Ok (RLab d')) /\
    transformed w w' d d' "time" "reference_frame" j (da_data d') l /\ kept_samples (frames w) i j ts [wts; wts; tts] l /\
    forall k x, nth_error l k = Some x -> vderiv (fun y => vadd (oR y) (srot (qR y) (oM y))) x (vec_at (da_data d') [k]).
Proof.
  intros squad deriv w d cn ts v i into j mf m lin ang wts tr t' tts oM oR qR HR Ht Hu HV Ha Hv Hj Hm G G' Hup H2 Hl He Htr Htv Het Ho Hd H3 H4 H5.
  pose proof (denotes_frame _ _ _ HR Hj) as Fj. pose proof (denotes_frame (frames w) (PName v) i HR (or_intror (ex_intro _ v (conj eq_refl Hv)))) as Fi.
  destruct (C36_reference_frame squad deriv (frames w) i (PFrame j) j mf m (da_data d) ts lin ang wts tr t' tts oM oR qR HR Ht Hu Fi (or_introl (conj eq_refl Fj))
    ltac:(discriminate) Hm G G' Hup H2 (proj1 (proj2 (proj2 HV))) Hl He Htr Htv Het Ho Hd H3 H4 H5) as (out & l & E & S & K & V).
  destruct (C62_transform squad deriv (MLinear (Some mf) None) w d "time" cn _ _ "reference_frame" (Some "reference_frame"%string) v i into j None (-1) TNone out l HR HV Ha Hv Hj
    ltac:(auto) ltac:(auto) ltac:(auto) E S) as (w' & d' & E' & T).
  exists w', d', l. split; auto. assert (X : da_data d' = out) by apply T. rewrite X. auto.
Qed.
(** Linear velocity, change of moving frame: d holds the velocity of i in its reference frame
    jr, in the axes of i; the result is the velocity in jr of the origin of j, in the axes of
    j.  The reference frame must be given as an argument. *)
Theorem C62_linear_moving_partial : forall squad deriv w d cn ts v i into j rf jr lin ang lts ats tr t' tts (oI oJ : R -> vec3) (qI qJ : R -> quat),
  reachable (frames w) -> squad_total squad -> squad_unit squad ->
  velocity_series w d "time" cn (List.length ts) (stamps_nd ts) ->
  attr w d "moving_frame" = Some (Some v) -> lookup v (reg (frames w)) = Some i -> denotes (frames w) into j ->
  denotes (frames w) rf jr -> rf <> PName EmptyString ->
  good_way (frames w) i j -> good_way (frames w) j i -> good_way (frames w) i jr -> two_up ts -> two_in_range (frames w) i j ts ->
  lookup_linear_velocity squad (frames w) j (Some (PFrame i)) (Some (PFrame j)) true true = Ok (lin, Some lts) -> enough lts ->
  lookup_angular_velocity squad deriv (frames w) i (Some rf) (Some (PFrame j)) true true = Ok (ang, Some ats) -> enough ats ->
  lookup_transform squad (frames w) j (PFrame i) = Ok tr ->
  transform_vectors squad (frames w) i (tr_t tr) (PFrame j) (-1) (Some 0%Z) (option_map stamps_nd (tr_ts tr)) = Ok (t', tts) -> enough tts ->
  (forall x, hunit (qI x)) -> (forall x, hunit (qJ x)) ->
  (forall x t r, In x ts -> maps_at squad (frames w) x i j t r -> forall v, srot (qJ x) (srot r v) = v) ->
  (forall n x, nth_error ts n = Some x -> vderiv oI x (srot (qI x) (vec_at (da_data d) [n]))) ->
  (forall x v, In x ts -> value_at lin lts x v -> vderiv oJ x (srot (qJ x) v)) ->
  (forall x w, In x ts -> value_at ang ats x w -> body_rate qI x (srot (qJ x) w)) ->
  (forall x p, In x ts -> value_at t' tts x p -> srot (qJ x) p = oJ x) ->
  exists w' d' l, transform_velocity squad deriv (MLinear None (Some rf)) w (Lab d) into None (Some "moving_frame"%string) None None TNone None = (w', Ok (RLab d')) /\
    transformed w w' d d' "time" "moving_frame" j (da_data d') l /\ kept_samples (frames w) i j ts [lts; ats; tts] l /\
    forall k x, nth_error l k = Some x ->
      vderiv (fun y => vadd (oI y) (srot (qI y) (oJ y))) x (srot (hmul (qI x) (qJ x)) (vec_at (da_data d') [k])).
Proof.
  intros squad deriv w d cn ts v i into j rf jr lin ang lts ats tr t' tts oI oJ qI qJ HR Ht Hu HV Ha Hv Hj Hrf Hne G G' G2 Hup H2
    Hl Hel Hw Hew Htr Htv Het UI UJ Hinv Hd H3 H4 H5.
  pose proof (denotes_frame _ _ _ HR Hj) as Fj. pose proof (denotes_frame (frames w) (PName v) i HR (or_intror (ex_intro _ v (conj eq_refl Hv)))) as Fi.
  destruct (C36_moving_frame squad deriv (frames w) i (PFrame j) j rf jr (da_data d) ts lin ang lts ats tr t' tts oI oJ qI qJ HR Ht Hu Fi (or_introl (conj eq_refl Fj))
    Hrf Hne G G' G2 Hup H2 (proj1 (proj2 (proj2 HV))) Hl Hel Hw Hew Htr Htv Het UI UJ Hinv Hd H3 H4 H5) as (out & l & E & S & K & V).
  destruct (C62_transform squad deriv (MLinear None (Some rf)) w d "time" cn _ _ "moving_frame" (Some "moving_frame"%string) v i into j None (-1) TNone out l HR HV Ha Hv Hj
    ltac:(auto) ltac:(auto) ltac:(auto) E S) as (w' & d' & E' & T).
  exists w', d', l. split; auto. assert (X : da_data d' = out) by apply T. rewrite X. auto.
Qed.
(** Change of representation only: every row is rotated, reference_frame and
    moving_frame stay. *)
Theorem C62_representation : forall squad deriv m w d cn ts v i into j,
  reachable (frames w) -> squad_total squad -> squad_unit squad ->
  velocity_series w d "time" cn (List.length ts) (stamps_nd ts) ->
  attr w d "representation_frame" = Some (Some v) -> lookup v (reg (frames w)) = Some i -> denotes (frames w) into j ->
  good_way (frames w) i j -> two_up ts ->
  exists w' d' l, transform_velocity squad deriv m w (Lab d) into None (Some "representation_frame"%string) None None TNone None = (w', Ok (RLab d')) /\
    transformed w w' d d' "time" "representation_frame" j (da_data d') l /\ kept_samples (frames w) i j ts [] l /\
    forall k x, nth_error l k = Some x -> exists n t r, nth_error ts n = Some x /\ maps_at squad (frames w) x i j t r /\
      vec_at (da_data d') [k] = srot r (vec_at (da_data d) [n]).
Proof.
  intros squad deriv m w d cn ts v i into j HR Ht Hu HV Ha Hv Hj G Hup.
  pose proof (denotes_frame _ _ _ HR Hj) as Fj. pose proof (denotes_frame (frames w) (PName v) i HR (or_intror (ex_intro _ v (conj eq_refl Hv)))) as Fi.
  assert (S3 : shp (da_data d) = [List.length ts; 3]) by apply HV.
  destruct (vectors_rows squad (frames w) HR Ht Hu i (PFrame j) j (da_data d) ts Fi (or_introl (conj eq_refl Fj)) G Hup S3) as (out & l & E & S & K & V).
  destruct (C62_transform squad deriv m w d "time" cn _ _ "representation_frame" (Some "representation_frame"%string) v i into j None (-1) TNone out l HR HV Ha Hv Hj
    ltac:(auto) ltac:(auto) ltac:(auto)) as (w' & d' & E' & T); auto.
  { destruct m; exact E. }
  exists w', d', l. split; auto. assert (X : da_data d' = out) by apply T. rewrite X. split; auto. split; auto.
  apply (keep_both (frames w) i j ts l l []); auto.
  - exists (fun _ => true). clear. induction l; cbn; congruence.
  - intros x. split; [|tauto]. intros Hx. split; [exact Hx|]. intros p t' [].
Qed.

(* ------------------------------------------------------------------ refutation *)
Lemma vec_comp (a : nd R) : vec_at a [] = V3 (dat a [0]) (dat a [1]) (dat a [2]).
Proof. reflexivity. Qed.
Lemma static_angular squad deriv s i j t r a : reachable s -> frame s i -> frame s j ->
  lookup_transform squad s i (PFrame j) = Ok (TrStatic t r) -> shp a = [3] ->
  exists out, transform_angular_velocity squad deriv s i a (PFrame j) WReference (-1) None None = Ok (out, None) /\
    shp out = [3] /\ vec_at out [] = srot r (vec_at a []).
Proof.
  intros HR Fi Fj Hl Ha.
  destruct (C37_static squad deriv s i (PFrame j) (PFrame j) j j t r true true (or_introl (conj eq_refl Fj)) (or_introl (conj eq_refl Fj))
    ltac:(discriminate) ltac:(discriminate) Hl) as (_ & X & _).
  destruct (call_static squad s i j t r Vectors a [] (-1) None HR Fi Fj Hl Ha) as (o & E & So & Do).
  { right. unfold ndim. rewrite Ha. reflexivity. } { reflexivity. }
  cbn [call_method] in E. rewrite Ha in So. specialize (Do [] (Forall2_nil _)). cbn [moved] in Do.
  unfold transform_angular_velocity. rewrite X. cbn [bind unpack2 fst snd]. rewrite E. cbn [bind].
  unfold match_arrays. cbn. unfold add_inplace, op2. rewrite So. cbn.
  eexists. split; [reflexivity|]. split; [reflexivity|]. rewrite <- Do, !vec_comp. cbn. unfold vadd. f_equal; ring.
Qed.
(** transform_angular_velocity of a single labelled vector between frames at rest: the
    vector is rotated from the frame named by reference_frame, whatever its
    representation_frame. *)
Lemma static_transform squad deriv w d cn into v i j t r : reachable (frames w) ->
  da_dims d = [cn] -> shp (da_data d) = [3] -> da_coords d = [] -> da_attrs d < List.length (dicts w) ->
  attr w d "reference_frame" = Some (Some v) -> lookup v (reg (frames w)) = Some i -> denotes (frames w) into j ->
  lookup_transform squad (frames w) i (PFrame j) = Ok (TrStatic t r) ->
  exists w' d', transform_velocity squad deriv MAngular w (Lab d) into None None None None TNone None = (w', Ok (RLab d')) /\
    shp (da_data d') = [3] /\ vec_at (da_data d') [] = srot r (vec_at (da_data d) []) /\
    dict_at w' (da_attrs d') = dict_set "representation_frame" (name_of (frames w) j) (dict_set "reference_frame" (name_of (frames w) j) (dict_at w (da_attrs d))).
Proof.
  intros HR Hd Hs Hc Hlt Hat Hv Hj Hl.
  pose proof (denotes_frame _ _ _ HR Hj) as Fj. pose proof (denotes_frame (frames w) (PName v) i HR (or_intror (ex_intro _ v (conj eq_refl Hv)))) as Fi.
  destruct (static_angular squad deriv (frames w) i j t r (da_data d) HR Fi Fj Hl Hs) as (out & E & So & Do).
  unfold transform_velocity, maybe_unpack. destruct (alloc w (dict_at w (da_attrs d))) as [w1 loc] eqn:Hal.
  destruct (dict_alloc _ _ _ _ Hal) as (Hfr & El & Hlen & Hdd & Hold). rewrite Hd, Hc. unfold ndim. rewrite Hs. cbn [or_default]. 
  replace (tuple_at [cn] (-1)) with (Ok cn) by reflexivity. cbn [bind List.length Nat.ltb Nat.leb same_axis_check u_ts u_lab u_arr u_axis u_time_axis u_time_dim].
  rewrite Hfr, Hdd. unfold attr in Hat. rewrite Hat. cbn [as_pref resolve_rf]. rewrite Hv. cbn [bind]. rewrite (denotes_resolve _ _ _ Hj). cbn [bind].
  cbn [call_velocity what_arg]. change (what_arg "reference_frame") with WReference. rewrite E.
  set (nm := name_of (frames w) j). set (f := fun a : attrs => dict_set "representation_frame" nm (dict_set "reference_frame" nm a)).
  cbn [make_dataarray]. unfold make_xr. unfold ndim. rewrite So. cbn [List.length Nat.eqb distinct existsb negb andb forallb].
  destruct (alloc (write w1 loc f) (dict_at (write w1 loc f) loc)) as [w3 l3] eqn:A. 
  destruct (dict_alloc _ _ _ _ A) as (Hfr3 & El3 & Hlen3 & Hd3 & Hold3). cbn [bind].
  eexists _, _. split; [reflexivity|]. cbn [da_data da_attrs]. split; auto. split; auto.
  rewrite Hd3, dict_write, Nat.eqb_refl. replace (loc <? List.length (dicts w1)) with true by (symmetry; apply Nat.ltb_lt; lia). rewrite Hdd. reflexivity.
Qed.

(** "The result is what its labels say" fails when the array is labelled as represented
    in another frame than the one being changed.  A body's angular velocity in world is
    (0,-1,0), labelled as such (d1); the same in the axes of a, (0,1,0), labelled with
    representation_frame a (d2): transform_vectors turns d2 into d1.  Changing the reference
    to c (at rest in world, parallel to it) gives, with the same labels, (0,-1,0) and
    (0,1,0). *)
Theorem C62_refuted : exists w1 d1 w2 d2 into w1' d1' w2' d2' t r,
  reachable (frames w1) /\ frames w2 = frames w1 /\
  attr w1 d1 "reference_frame" = Some (Some "world"%string) /\ attr w2 d2 "reference_frame" = Some (Some "world"%string) /\
  attr w1 d1 "representation_frame" = Some (Some "world"%string) /\ attr w2 d2 "representation_frame" = Some (Some "a"%string) /\
  lookup "world"%string (reg (frames w1)) = Some 0 /\ lookup "a"%string (reg (frames w1)) = Some 1 /\
  lookup_transform hold_squad (frames w1) 1 (PFrame 0) = Ok (TrStatic t r) /\
  srot r (vec_at (da_data d2) []) = vec_at (da_data d1) [] /\
  transform_velocity hold_squad deriv_ex MAngular w1 (Lab d1) into None None None None TNone None = (w1', Ok (RLab d1')) /\
  transform_velocity hold_squad deriv_ex MAngular w2 (Lab d2) into None None None None TNone None = (w2', Ok (RLab d2')) /\
  dict_at w1' (da_attrs d1') = dict_at w2' (da_attrs d2') /\
  vec_at (da_data d1') [] = V3 0 (-1) 0 /\ vec_at (da_data d2') [] = V3 0 1 0.
Proof.
  set (w1 := World ex_lit [[("reference_frame", Some "world"); ("representation_frame", Some "world"); ("moving_frame", Some "b")]%string]).
  set (w2 := World ex_lit [[("reference_frame", Some "world"); ("representation_frame", Some "a"); ("moving_frame", Some "b")]%string]).
  set (d1 := DA (point (V3 0 (-1) 0)) ["cartesian_axis"%string] [] None 0). set (d2 := DA (point (V3 0 1 0)) ["cartesian_axis"%string] [] None 0).
  assert (L : lookup_transform hold_squad ex_lit 0 (PFrame 3) = Ok (TrStatic (V3 (-5) 0 0) (Qt 1 0 0 0))).
  { assert (HI : Inv ex_lit) by (apply reachable_Inv, ex_lit_reachable).
    apply (lookup_static_iff hold_squad ex_lit 0 (PFrame 3) 3 _ _ HI ltac:(unfold size; simpl; lia) eq_refl).
    exists [], [3], 0, gone, (gmul gone (V3 5 0 0, Qt 1 0 0 0)). split; [|split; [constructor|split]].
    - split; [constructor|]. split; [econstructor; [reflexivity|constructor]|]. intros a Ha _. exact Ha.
    - econstructor; [reflexivity|reflexivity|vcomp; lra|constructor].
    - unfold gmul, ginv, gone, hinv. cbn [fst snd]. vcomp. f_equal; f_equal; field. }
  assert (LA : lookup_transform hold_squad ex_lit 1 (PFrame 0) = Ok (TrStatic (V3 1 2 3) (Qt 0 1 0 0))).
  { assert (HI : Inv ex_lit) by (apply reachable_Inv, ex_lit_reachable).
    apply (lookup_static_iff hold_squad ex_lit 1 (PFrame 0) 0 _ _ HI ltac:(unfold size; simpl; lia) eq_refl).
    exists [1], [], 0, (gmul gone (V3 1 2 3, Qt 0 1 0 0)), gone. split; [|split; [|split; [constructor|]]].
    - split; [econstructor; [reflexivity|constructor]|]. split; [constructor|]. intros a _ Ha. exact Ha.
    - econstructor; [reflexivity|reflexivity|vcomp; lra|constructor].
    - unfold gmul, ginv, gone, hinv. cbn [fst snd]. vcomp. f_equal; f_equal; field. }
  assert (D3 : denotes ex_lit (PFrame 3) 3) by (left; split; [reflexivity|unfold frame, size; cbn; lia]).
  destruct (static_transform hold_squad deriv_ex w1 d1 "cartesian_axis" (PFrame 3) "world" 0 3 (V3 (-5) 0 0) (Qt 1 0 0 0)) as (w1' & d1' & E1 & S1 & V1 & A1);
    auto; try reflexivity. { apply ex_lit_reachable. }
  destruct (static_transform hold_squad deriv_ex w2 d2 "cartesian_axis" (PFrame 3) "world" 0 3 (V3 (-5) 0 0) (Qt 1 0 0 0)) as (w2' & d2' & E2 & S2 & V2 & A2);
    auto; try reflexivity. { apply ex_lit_reachable. }
  exists w1, d1, w2, d2, (PFrame 3), w1', d1', w2', d2', (V3 1 2 3), (Qt 0 1 0 0).
  split; [apply ex_lit_reachable|]. split; [reflexivity|]. split; [reflexivity|]. split; [reflexivity|]. split; [reflexivity|]. split; [reflexivity|].
  split; [reflexivity|]. split; [reflexivity|]. split; [exact LA|]. split.
  { unfold d1, d2. cbn [da_data]. rewrite !point_vec. vcomp. f_equal; field. }
  split; [exact E1|]. split; [exact E2|]. split; [rewrite A1, A2; reflexivity|]. rewrite V1, V2. unfold d1, d2. cbn [da_data]. rewrite !point_vec.
  change (Qt 1 0 0 0) with hone. rewrite !srot_one. auto.
Qed.

(** The hypotheses of the transforms are met. *)
Definition spin_da : darr :=
  DA (arr2 3 [[0;0;1];[0;0;1]]%R) ["time"%string; "cartesian_axis"%string]
     [("time"%string, Co ["time"%string] (CNum (stamps_nd half_turn))); cart_coord] None 0.
Definition spin_world : world :=
  World spin [[("reference_frame", Some "s"); ("representation_frame", Some "s"); ("moving_frame", Some "c")]%string].
Lemma spin_series : velocity_series spin_world spin_da "time" "cartesian_axis" 2 (stamps_nd half_turn).
Proof.
  split.
  { split; [reflexivity|]. split; [constructor; [intros [H|[]]; discriminate|constructor; [intros []|constructor]]|]. split; [|cbn; lia].
    intros n c [H|[H|[]]]; injection H as <- <-; (constructor; [|constructor]); [exists 0|exists 1]; split; reflexivity. }
  split; [reflexivity|]. split; [reflexivity|]. split; [reflexivity|]. split; [reflexivity|].
  split; [constructor; [intros [H|[]]; discriminate|constructor; [intros []|constructor]]|].
  intros n c [H|[H|[]]]; injection H as <- <-; cbn; [auto|]. intros [H|[]]; discriminate.
Qed.
Example C62_transform_example : exists w' d' out l,
  transform_velocity hold_squad deriv_ex MAngular spin_world (Lab spin_da) (PName "world") None (Some "reference_frame"%string) None None TNone None =
    (w', Ok (RLab d')) /\
  transformed spin_world w' spin_da d' "time" "reference_frame" 0 out l /\
  forall k x, nth_error l k = Some x -> space_rate (fun y => hmul (zspin y) (zspin y)) x (vec_at (da_data d') [k]).
Proof.
  destruct C35_example as (out & l & E & S & K & V).
  destruct (C62_transform hold_squad deriv_ex MAngular spin_world spin_da "time" "cartesian_axis" 2 (stamps_nd half_turn) "reference_frame" (Some "reference_frame"%string)
    "s" 1 (PName "world") 0 None (-1) TNone out l (spin_reachable PI) spin_series eq_refl eq_refl) as (w' & d' & E' & T); auto.
  { right. exists "world"%string. auto. }
  exists w', d', out, l. split; auto. split; auto. assert (X : da_data d' = out) by apply T. rewrite X. exact V.
Qed.
