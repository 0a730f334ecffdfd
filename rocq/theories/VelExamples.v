(** A concrete motion that meets the hypotheses of the velocity theorems. *)
From Coq Require Import Reals String List Arith Bool ZArith Lia Lra Sorted.
From Verif Require Import Base Quat SpecQuat QuatProofs NdArray Frames SpecForest FrameProofs WalkProofs
  Matcher SpecLookup LookupProofs RegistryProofs MovingProofs TimeProofs CtorProofs InverseProofs RouteProofs
  Examples PropForest PropLookup PropMoving
  Transform SpecArray NdProofs RotProofs ArrProofs ArrTransProofs ArrStaticProofs PropTransform PropRotate
  UtilsProofs Velocity VelProofs SpecMotion MotionProofs PropAngular VelFrames VelFrameProofs PropVelFrames.
Import ListNotations.
Open Scope R_scope.

(** Frame s turns about the z axis with unit rate while moving along x; frame c is
    fixed in s, off its origin. *)
Definition spin_ops (T : R) : list op :=
  [ ORegisterFrame (root "world"%string) false;
    ORegisterFrame (mov "s"%string "world"%string [0;T] [[0;0;0];[T;0;0]] [[1;0;0;0];[0;0;0;1]] false) false;
    ORegisterFrame (stat "c"%string "s"%string [1;0;0] [1;0;0;0]) false ].
Definition spin_lit (T : R) : state := State
  [ Node (Some "world"%string) None [1%nat] BRoot;
    Node (Some "s"%string) (Some 0%nat) [2%nat]
      (BTf (TMoving [0;T] [V3 0 0 0; V3 T 0 0] [Qt 1 0 0 0; Qt 0 0 0 1] false));
    nodeS "c"%string (Some 1%nat) [] (V3 1 0 0) (Qt 1 0 0 0) ]
  [("world"%string, 0%nat); ("s"%string, 1%nat); ("c"%string, 2%nat)].
Lemma spin_reachable T : reachable (spin_lit T).
Proof. exists (spin_ops T). symmetry. vm_compute. reflexivity. Qed.
Definition half_turn : list R := [0; PI].
Definition spin : state := spin_lit PI.
Lemma half_turn_up : two_up half_turn.
Proof.
  split; [|cbn; lia]. pose proof PI_RGT_0. intros i j a b Hij Ha Hb.
  destruct j as [|[|j]]; try lia; destruct i as [|i]; try lia; cbn in *; [injection Ha as <-; injection Hb as <-; lra|destruct j; discriminate|destruct i; [|destruct i]; destruct j; discriminate].
Qed.

Lemma zspin_0 : zspin 0 = Qt 1 0 0 0.
Proof. unfold zspin. replace (0 / 2) with 0 by lra. rewrite cos_0, sin_0. reflexivity. Qed.
Lemma zspin_PI : zspin PI = Qt 0 0 0 1.
Proof. unfold zspin. rewrite cos_PI2, sin_PI2. reflexivity. Qed.
Lemma zspin_unit t : hunit (zspin t).
Proof. apply C34_example. Qed.
Lemma zspin_deriv t : qderiv zspin t (zspin' t).
Proof. apply C34_example. Qed.

Lemma coords_root x p P : coords hold_squad spin x 0 p 0 P -> P = p.
Proof. intros H. inversion H; subst; auto. discriminate. Qed.
Lemma spin_coords x p P : In x half_turn -> coords hold_squad spin x 1 p 0 P -> P = smove (V3 x 0 0) (zspin x) p.
Proof.
  intros Hx H. inversion H as [|i k d t r p' a P' Hp Hd Ho Hn Hc]; subst. cbn in Hp. injection Hp as <-. cbn in Hd. injection Hd as <-.
  apply coords_root in Hc. subst P. inversion Ho as [| |ts tt rr x' n a b u v r' Hi Hu Hv Hs]; subst.
  destruct Hi as (Ha & Hb & Hab & Hx').
  destruct n as [|n]; [|cbn in Hb; destruct n; discriminate]. cbn in Ha, Hb, Hu, Hv. injection Ha as <-. injection Hb as <-. injection Hu as <-. injection Hv as <-.
  assert (Er : r = zspin x).
  { assert (Hf : Forall hunit [Qt 1 0 0 0; Qt 0 0 0 1]) by (repeat constructor; unfold hunit, hn2, sc, ve, vdot; cbn; lra).
    destruct Hx as [<-|[<-|[]]].
    - change [0; PI] with half_turn in Hs; rewrite (hold_squad_exact half_turn [Qt 1 0 0 0; Qt 0 0 0 1] 0%nat 0 (Qt 1 0 0 0) (proj1 half_turn_up) (proj2 half_turn_up) eq_refl Hf eq_refl eq_refl) in Hs.
      injection Hs as <-. symmetry. apply zspin_0.
    - change [0; PI] with half_turn in Hs; rewrite (hold_squad_exact half_turn [Qt 1 0 0 0; Qt 0 0 0 1] 1%nat PI (Qt 0 0 0 1) (proj1 half_turn_up) (proj2 half_turn_up) eq_refl Hf eq_refl eq_refl) in Hs.
      injection Hs as <-. symmetry. apply zspin_PI. }
  subst r. unfold smove. f_equal. unfold between. apply vec3_eq; cbn; field; lra.
Qed.
Lemma smove_same t r t' r' : (forall p, smove t r p = smove t' r' p) -> t = t' /\ forall v, srot r v = srot r' v.
Proof.
  intros H. assert (E : t = t').
  { pose proof (H v0) as H0. unfold smove in H0. rewrite !srot_0 in H0. destruct t, t'. unfold vadd in H0. cbn in H0. injection H0 as H1 H2 H3. f_equal; lra. }
  split; auto. subst t'. intros v. specialize (H v). unfold smove in H. destruct (srot r v), (srot r' v), t. unfold vadd in H. cbn in H.
  injection H as H1 H2 H3. f_equal; lra.
Qed.
Lemma anc_root c : ancestor (parent_of spin) 0 c -> c = 0%nat.
Proof. intros H. inversion H; subst; auto. discriminate. Qed.
Lemma spin_maps x t r : In x half_turn -> maps_at hold_squad spin x 1 0 t r -> t = V3 x 0 0 /\ forall v, srot r v = srot (zspin x) v.
Proof.
  intros Hx (_ & c & _ & H0 & Hp). apply anc_root in H0. subst c. apply smove_same. intros p.
  destruct (Hp p) as (P & H1 & H2). apply coords_root in H2. apply spin_coords in H1; auto. congruence.
Qed.

Lemma walks_parent s k i : parent_of s i = Some k -> walks s i k [i] [] k.
Proof. intros H. split; [econstructor; eauto; constructor|]. split; [constructor|]. auto. Qed.
Lemma lookup_parent_moving squad s k i ts t r disc : Inv s -> (i < size s)%nat -> parent_of s i = Some k ->
  transform_of s i = Some (TMoving ts t r disc) ->
  squad_exact squad -> sampled ts disc -> List.length t = List.length ts -> List.length r = List.length ts ->
  Forall hunit r ->
  lookup_transform squad s i (PFrame k) = Ok (TrRows ts (combine t r)).
Proof.
  intros (W & HR) Hi Hp Hd Hsq Hsa Ht Hr Hu.
  assert (Hk : (k < size s)%nat) by exact (proj1 (wf_par s W i k Hp)).
  unfold lookup_transform. rewrite (resolve_frame s k Hk). simpl. unfold frames_between.
  rewrite (walk_unique s i k [i] [] k W Hi Hk (walks_parent s k i Hp)). simpl.
  apply body_at_transform in Hd. unfold traverse. simpl. rewrite Hd. simpl.
  rewrite (increasing_not_decreasing ts) by apply Hsa. rewrite Ht, Nat.eqb_refl. simpl.
  unfold get_transformation. rewrite single_timestamps; [|apply Hsa|apply (sampled_ne ts disc Hsa)]. simpl.
  unfold step_rows. cbn [mf_data]. rewrite (rows_at_samples squad ts t r disc); auto. cbn [bind].
  rewrite (traverse_ok _ (fun p => snd p)).
  - simpl. do 2 f_equal. clear Hd Hsa. revert t r Ht Hr Hu; induction ts as [|a ts IH]; intros [|t0 t] [|r0 r] Ht Hr Hu;
      simpl in *; try discriminate; auto. f_equal. inversion Hu; subst. apply IH; auto.
  - intros [acc [t0 r0]] Hin. cbn [fst snd mf_inv].
    assert (Ha : acc = gone). { apply in_combine_l in Hin. apply in_map_iff in Hin as (? & <- & _). rewrite q1_hone. reflexivity. }
    assert (H0 : hunit r0). { apply in_combine_r in Hin. apply in_combine_r in Hin. revert Hin. apply Forall_forall. auto. }
    subst acc. rewrite row_step_fwd by auto. rewrite gmul_1_r. reflexivity.
Qed.

Lemma spin_root i : (i < 3)%nat -> root_of (parent_of spin) i 0.
Proof.
  intros Hi. split; [|reflexivity]. destruct i as [|[|[|i]]]; try lia.
  - constructor.
  - econstructor; [reflexivity|constructor].
  - econstructor; [reflexivity|]. econstructor; [reflexivity|constructor].
Qed.
Lemma spin_units : Forall hunit [Qt 1 0 0 0; Qt 0 0 0 1].
Proof. repeat constructor; unfold hunit, hn2, sc, ve, vdot; cbn; lra. Qed.
Lemma spin_good i j : (i < 3)%nat -> (j < 3)%nat -> good_way spin i j.
Proof.
  intros Hi Hj. split; [exists 0%nat; split; apply spin_root; auto|]. intros k Hk.
  assert (A : forall a, ancestor (parent_of spin) a k -> (a < 3)%nat -> (k < 3)%nat).
  { clear. intros a Ha. induction Ha as [|a b c E1 E2 IH]; auto. intros Hle. destruct a as [|[|[|a]]]; try lia; simpl in E1; try discriminate; injection E1 as <-; apply IH; lia. }
  assert (Hk' : (k < 3)%nat /\ k <> 0%nat).
  { destruct Hk as [(H1 & H2)|(H1 & H2)]; (split; [apply (A _ H1); auto|]); intros ->; apply H2; apply spin_root; auto. }
  destruct k as [|[|[|k]]]; try lia; (eexists; split; [reflexivity|]); (split; [|]); cbn.
  - apply spin_units.
  - apply half_turn_up.
  - unfold hunit, hn2, sc, ve, vdot; cbn; lra.
  - exact I.
Qed.
Lemma spin_frame i : (i < 3)%nat -> frame spin i.
Proof. auto. Qed.
Lemma spin_den i : (i < 3)%nat -> denotes spin (PFrame i) i.
Proof. left. auto. Qed.
Lemma spin_lookup : lookup_transform hold_squad spin 1 (PFrame 0) =
  Ok (TrRows half_turn [(V3 0 0 0, Qt 1 0 0 0); (V3 PI 0 0, Qt 0 0 0 1)]).
Proof.
  apply (lookup_parent_moving hold_squad spin 0 1 half_turn [V3 0 0 0; V3 PI 0 0] [Qt 1 0 0 0; Qt 0 0 0 1] false); try reflexivity.
  - apply reachable_Inv, spin_reachable.
  - unfold size; cbn; lia.
  - apply hold_squad_exact.
  - apply half_turn_up.
  - apply spin_units.
Qed.
Lemma climb_app_nil s i l c : climb (parent_of s) i l c -> i = c -> l = [] \/ exists k, In k l.
Proof. destruct l; [left; auto|right; eexists; left; eauto]. Qed.
Lemma spin_in_range rt x : route (parent_of spin) 1 0 rt -> In x half_turn ->
  forall f tf, In f rt -> cont_of spin f = Some tf ->
    exists a b, hd_error tf = Some a /\ nth_error tf (List.length tf - 1) = Some b /\ a <= x <= b.
Proof.
  intros _ Hx f tf _ Hc. assert (Hf : f = 1%nat) by (destruct f as [|[|[|f]]]; cbn in Hc; try discriminate; [auto|destruct f; discriminate]).
  subst f. cbn in Hc. injection Hc as <-. exists 0, PI. split; auto. split; auto. pose proof PI_RGT_0. destruct Hx as [<-|[<-|[]]]; lra.
Qed.
Lemma spin_two : two_in_range spin 1 0 half_turn.
Proof.
  intros rt Hrt. exists 0, PI. pose proof PI_RGT_0. split; [lra|]. split; [left; auto|]. split; [right; left; auto|].
  intros f tf Hf Hc. destruct (spin_in_range rt 0 Hrt (or_introl eq_refl) f tf Hf Hc) as (a & b & Ha & Hb & H1).
  destruct (spin_in_range rt PI Hrt (or_intror (or_introl eq_refl)) f tf Hf Hc) as (a' & b' & Ha' & Hb' & H2).
  exists a, b. rewrite Ha in Ha'. injection Ha' as <-. rewrite Hb in Hb'. injection Hb' as <-. auto.
Qed.
Lemma spin_exact c : (c < 4)%nat -> exact_on deriv_ex half_turn (seq 0 2) (fun x => comp4 c (zspin x)) (fun x => comp4 c (zspin' x)).
Proof.
  intros Hc. unfold exact_on. cbn [map seq nth half_turn].
  assert (S0 : sin (0 / 2) = 0) by (replace (0 / 2) with 0 by lra; apply sin_0).
  assert (C0 : cos (0 / 2) = 1) by (replace (0 / 2) with 0 by lra; apply cos_0).
  pose proof cos_PI2 as C1. pose proof sin_PI2 as S1.
  unfold deriv_ex. cbn [map]. f_equal. destruct c as [|[|[|[|c]]]]; try lia; cbn [comp4 zspin zspin' qw qx qy qz].
  - destruct (list_eq_dec Req_EM_T _ _) as [_|Hn]; [reflexivity|exfalso; apply Hn; reflexivity].
  - destruct (list_eq_dec Req_EM_T _ _) as [E|_]; [injection E; intros; lra|].
    destruct (list_eq_dec Req_EM_T _ _) as [E|_]; [injection E; intros; lra|reflexivity].
  - destruct (list_eq_dec Req_EM_T _ _) as [E|_]; [injection E; intros; lra|].
    destruct (list_eq_dec Req_EM_T _ _) as [E|_]; [injection E; intros; lra|reflexivity].
  - destruct (list_eq_dec Req_EM_T _ _) as [E|_]; [injection E; intros; lra|].
    destruct (list_eq_dec Req_EM_T _ _) as [_|Hn]; [reflexivity|exfalso; apply Hn; reflexivity].
Qed.
Lemma kept_all rt l : route (parent_of spin) 1 0 rt -> kept_samples spin 1 0 half_turn [] l -> l = half_turn.
Proof.
  intros _ ((f & ->) & rt0 & Hrt & Hx). apply filter_id. intros x Hin.
  assert (H : In x (filter f half_turn)).
  { apply Hx. split; auto. split; [apply (spin_in_range rt0 x Hrt Hin)|intros t' []]. }
  apply filter_In in H. tauto.
Qed.
Lemma kept_route s i j ts os l : kept_samples s i j ts os l -> exists rt, route (parent_of s) i j rt.
Proof. intros (_ & rt & H & _). eauto. Qed.

(** The looked-up angular velocity of s in world. *)
Lemma spin_angular : exists w, lookup_angular_velocity hold_squad deriv_ex spin 1 (Some (PFrame 0)) (Some (PFrame 0)) true true =
    Ok (w, Some (Some half_turn)) /\ forall x v, In x half_turn -> value_at w (Some half_turn) x v -> space_rate zspin x v.
Proof.
  destruct (C34_lookup hold_squad deriv_ex spin 1 (PFrame 0) (PFrame 0) 0 0 half_turn _ true zspin zspin' (spin_reachable PI)
    hold_squad_total hold_squad_unit (spin_frame 1 ltac:(lia)) (spin_den 0 ltac:(lia)) (spin_den 0 ltac:(lia)) ltac:(discriminate) ltac:(discriminate)
    (spin_good 1 0 ltac:(lia) ltac:(lia)) (spin_good 1 0 ltac:(lia) ltac:(lia)) spin_lookup (proj2 half_turn_up) zspin_unit zspin_deriv)
    as (w & l & E & Sw & Hk & Hw).
  - intros m x t r Hm Hr. destruct m as [|[|m]]; cbn in Hm, Hr; [| |destruct m; discriminate]; injection Hm as <-; injection Hr as _ <-; [rewrite zspin_0|rewrite zspin_PI]; reflexivity.
  - exact spin_exact.
  - destruct (kept_route _ _ _ _ _ _ Hk) as (rt & Hrt). pose proof (kept_all rt l Hrt Hk) as ->. exists w. split; [exact E|].
    intros x v Hx Hv. pose proof Hx as Hx'. apply In_nth_error in Hx' as (m & Hm).
    rewrite (value_at_sample w half_turn x v m (proj1 half_turn_up) Hm Hv). destruct (Hw m x Hm) as (t & r & wb & Hmap & Hb & ->).
    destruct (spin_maps x t r Hx Hmap) as (_ & Hr). rewrite Hr. intros p. eapply vderiv_eq; [|apply (Hb p)].
    rewrite srot_cross; auto. pose proof (zspin_unit x) as U. unfold hunit in U. rewrite U. lra.
Qed.
Lemma spin_oriented : oriented hold_squad spin 1 0 half_turn zspin.
Proof. split; [apply zspin_unit|]. intros x t r Hx Hm. apply (spin_maps x t r Hx Hm). Qed.
Lemma zspin_space x : space_rate zspin x (V3 0 0 1).
Proof.
  intros p. eapply vderiv_eq; [|apply (body_rate_of zspin x (zspin' x) zspin_unit (zspin_deriv x) p)].
  pose proof (zspin_unit x) as U. assert (N : hn2 (zspin x) <> 0) by (unfold hunit in U; rewrite U; lra).
  rewrite <- srot_cross by auto. f_equal. pose proof (sin2_cos2 (x / 2)) as T. unfold Rsqr in T.
  rewrite srot_sand by auto. clear N U p. unfold zspin, zspin'. revert T. generalize (sin (x / 2)) (cos (x / 2)). intros sn cs T.
  assert (E : rate_of (Qt cs 0 0 sn) (Qt (- sn / 2) 0 0 (cs / 2)) = V3 0 0 (sn * sn + cs * cs)).
  { cbv [rate_of hconj hmul mkq ve sc vscale vdot vadd vcross vopp vx vy vz qw qx qy qz]. f_equal; field. }
  rewrite E, T. clear E.
  assert (E : sand (Qt cs 0 0 sn) (V3 0 0 1) = V3 0 0 (sn * sn + cs * cs)).
  { unfold sand.
    assert (E1 : hmul (Qt cs 0 0 sn) (mkq 0 (V3 0 0 1)) = Qt (- sn) 0 0 cs)
      by (cbv [hmul mkq ve sc vscale vdot vadd vcross vopp vx vy vz qw qx qy qz]; f_equal; ring).
    assert (E2 : hmul (Qt (- sn) 0 0 cs) (hconj (Qt cs 0 0 sn)) = Qt 0 0 0 (sn * sn + cs * cs))
      by (cbv [hmul hconj mkq ve sc vscale vdot vadd vcross vopp vx vy vz qw qx qy qz]; f_equal; ring).
    rewrite E1, E2. reflexivity. }
  rewrite E, T. reflexivity.
Qed.
(** A body turning in s like s turns in world: twice the rate in world. *)
Example C35_example : exists out l,
  transform_angular_velocity hold_squad deriv_ex spin 1 (arr2 3 [[0;0;1];[0;0;1]]) (PFrame 0) WReference (-1) (Some 0%Z) (Some (stamps_nd half_turn)) =
    Ok (out, Some l) /\
  shp out = [List.length l; 3%nat] /\ kept_samples spin 1 0 half_turn [Some half_turn] l /\
  forall k x, nth_error l k = Some x -> space_rate (fun y => hmul (zspin y) (zspin y)) x (vec_at out [k]).
Proof.
  destruct spin_angular as (w & E & Hw).
  apply (C35_reference_frame hold_squad deriv_ex spin 1 (PFrame 0) 0 (arr2 3 [[0;0;1];[0;0;1]]) half_turn w (Some half_turn) zspin zspin (spin_reachable PI)
    hold_squad_total hold_squad_unit (spin_frame 1 ltac:(lia)) (spin_den 0 ltac:(lia)) ltac:(discriminate) (spin_good 1 0 ltac:(lia) ltac:(lia))
    half_turn_up spin_two eq_refl E); auto.
  - intros l El. injection El as <-. cbn; lia.
  - apply zspin_unit.
  - apply spin_oriented.
  - intros m x Hm. destruct m as [|[|m]]; cbn in Hm; [apply zspin_space|apply zspin_space|destruct m; discriminate].
Qed.

(** The looked-up linear velocity of s in world. *)
Lemma kept_all_gen i j l : kept_samples spin i j half_turn [] l -> l = half_turn.
Proof.
  intros ((f & ->) & rt0 & Hrt & Hx). apply filter_id. intros x Hin.
  assert (H : In x (filter f half_turn)).
  { apply Hx. split; auto. split; [|intros t' []]. intros g tf _ Hc.
    assert (Hf : g = 1%nat) by (destruct g as [|[|[|g]]]; cbn in Hc; try discriminate; [auto|destruct g; discriminate]).
    subst g. cbn in Hc. injection Hc as <-. exists 0, PI. split; auto. split; auto. pose proof PI_RGT_0. destruct Hin as [<-|[<-|[]]]; lra. }
  apply filter_In in H. tauto.
Qed.
Lemma spin_linear : exists w, lookup_linear_velocity hold_squad spin 1 (Some (PFrame 0)) (Some (PFrame 0)) true true =
    Ok (w, Some (Some half_turn)) /\ forall m, (m < 2)%nat -> vec_at w [m] = V3 1 0 0.
Proof.
  destruct (C32_lookup hold_squad spin 1 (PFrame 0) (PFrame 0) 0 0 half_turn _ true v0 (V3 1 0 0) (spin_reachable PI)
    hold_squad_total hold_squad_unit (spin_frame 1 ltac:(lia)) (spin_den 0 ltac:(lia)) (spin_den 0 ltac:(lia)) ltac:(discriminate) ltac:(discriminate)
    (spin_good 1 0 ltac:(lia) ltac:(lia)) (spin_good 0 0 ltac:(lia) ltac:(lia)) spin_lookup (proj2 half_turn_up)) as (w & l & E & Sw & Hk & Hw).
  - intros m x t r Hm Hr. destruct m as [|[|m]]; cbn in Hm, Hr; [| |destruct m; discriminate]; injection Hm as <-; injection Hr as <- _;
      apply vec3_eq; cbn; lra.
  - apply kept_all_gen in Hk. subst l. exists w. split; auto. intros m Hm.
    destruct (nth_error half_turn m) as [x|] eqn:Ex; [|apply nth_error_None in Ex; cbn in Ex; lia].
    destruct (Hw m x Ex) as (t & r & (_ & c & _ & H0 & Hp) & ->). apply anc_root in H0. subst c.
    destruct (smove_same t r v0 hone) as (_ & Hr).
    + intros p. destruct (Hp p) as (P & H1 & H2). apply coords_root in H1, H2. rewrite <- H2, H1. unfold smove. rewrite srot_one. apply vec3_eq; cbn; lra.
    + rewrite Hr. apply srot_one.
Qed.
Lemma between_same a b v x : a < b -> between a b v v x = v.
Proof. intros H. destruct v. unfold between. apply vec3_eq; cbn; field; lra. Qed.
Lemma spin_twist : exists lin ang, lookup_twist hold_squad deriv_ex spin 1 (Some (PFrame 0)) (Some (PFrame 0)) true true =
    Ok (lin, ang, Some (Some half_turn)) /\
    (forall x v, In x half_turn -> value_at lin (Some half_turn) x v -> v = V3 1 0 0) /\
    (forall x v, In x half_turn -> value_at ang (Some half_turn) x v -> space_rate zspin x v).
Proof.
  destruct spin_linear as (w & E & Hw). destruct spin_angular as (w' & E' & Hw').
  destruct (C37_twist hold_squad deriv_ex spin 1 (PFrame 0) (PFrame 0) 0 0 true true w half_turn w' half_turn (spin_reachable PI)
    hold_squad_total hold_squad_unit (spin_frame 1 ltac:(lia)) (spin_den 0 ltac:(lia)) (spin_den 0 ltac:(lia)) ltac:(discriminate) ltac:(discriminate)
    (spin_good 1 0 ltac:(lia) ltac:(lia)) (spin_good 1 0 ltac:(lia) ltac:(lia)) (spin_good 0 0 ltac:(lia) ltac:(lia)) E E'
    (proj2 half_turn_up) (proj2 half_turn_up)) as (lin & ang & l & Et & _ & _ & Hf & Hl & Hv).
  assert (El : l = half_turn).
  { destruct Hf as (f & ->). apply filter_id. intros x Hin. assert (H : In x (filter f half_turn)).
    { apply Hl. split; auto. exists 0, PI. pose proof PI_RGT_0. split; auto. split; auto. destruct Hin as [<-|[<-|[]]]; lra. }
    apply filter_In in H. tauto. }
  subst l. exists lin, ang. split; [exact Et|]. split; intros x v Hx Hval; pose proof Hx as Hx'; apply In_nth_error in Hx' as (m & Hm);
    rewrite (value_at_sample _ half_turn x v m (proj1 half_turn_up) Hm Hval); destruct (Hv m x Hm) as (H1 & H2).
  - rewrite (value_at_sample _ half_turn x _ m (proj1 half_turn_up) Hm H1). apply Hw.
    destruct m as [|[|m]]; try lia. destruct m; discriminate.
  - rewrite (H2 m Hm). apply (Hw' x _ Hx). destruct H1 as (k & a & b & Hi & _).
    assert (Hvv : value_at w' (Some half_turn) x (vec_at w' [m])).
    { destruct Hi as (Ha & Hb & Hab & Hxx). pose proof PI_RGT_0. destruct k as [|k]; [|cbn in Hb; destruct k; discriminate].
      cbn in Ha, Hb. injection Ha as <-. injection Hb as <-. exists 0%nat, 0, PI.
      split; [split; [reflexivity|split; [reflexivity|split; auto]]|].
      destruct m as [|[|m]]; cbn in Hm; [| |destruct m; discriminate]; injection Hm as <-; unfold between; apply vec3_eq; cbn; field; lra. }
    exact Hvv.
Qed.
Lemma spin_static : lookup_transform hold_squad spin 2 (PFrame 1) = Ok (TrStatic (V3 1 0 0) (Qt 1 0 0 0)).
Proof.
  assert (HI : Inv spin) by (apply reachable_Inv, spin_reachable).
  apply (lookup_static_iff hold_squad spin 2 (PFrame 1) 1 _ _ HI ltac:(unfold size; simpl; lia) eq_refl).
  exists [2%nat], [], 1%nat, (gmul gone (V3 1 0 0, Qt 1 0 0 0)), gone.
  split.
  { split; [|split].
    - econstructor; [reflexivity|]. constructor.
    - constructor.
    - intros a _ Ha. exact Ha. }
  split; [econstructor; [reflexivity|reflexivity|vcomp; lra|constructor]|].
  split; [constructor|]. unfold gmul, ginv, gone, hinv. cbn [fst snd]. vcomp. f_equal; f_equal; field.
Qed.
(** The origin of c, at rest in s: its velocity in world is that of s plus w x r. *)
Example C36_example : exists out l,
  transform_linear_velocity hold_squad deriv_ex spin 1 (arr2 3 [[0;0;0];[0;0;0]]) (PFrame 0) WReference (Some (PFrame 2)) None (-1)
      (Some 0%Z) (Some (stamps_nd half_turn)) = Ok (out, Some l) /\
  shp out = [List.length l; 3%nat] /\ kept_samples spin 1 0 half_turn [Some half_turn; Some half_turn; Some half_turn] l /\
  forall k x, nth_error l k = Some x ->
    vderiv (fun y => vadd (V3 y 0 0) (srot (zspin y) (V3 1 0 0))) x (vec_at out [k]).
Proof.
  destruct spin_twist as (lin & ang & E & Hl & Ha).
  destruct (C22_single hold_squad spin 1 (PFrame 0) 0 half_turn _ (spin_reachable PI) hold_squad_unit (spin_frame 1 ltac:(lia)) (spin_den 0 ltac:(lia))
    (good_unit _ _ _ (spin_good 1 0 ltac:(lia) ltac:(lia))) spin_lookup (V3 1 0 0) q1) as (op & ov & oq & _ & _ & Ev & Sv & _ & _ & Hv).
  apply (C36_reference_frame hold_squad deriv_ex spin 1 (PFrame 0) 0 (PFrame 2) 2 (arr2 3 [[0;0;0];[0;0;0]]) half_turn lin ang (Some half_turn)
    (TrStatic (V3 1 0 0) (Qt 1 0 0 0)) ov (Some half_turn) (fun _ => V3 1 0 0) (fun y => V3 y 0 0) zspin (spin_reachable PI)
    hold_squad_total hold_squad_unit (spin_frame 1 ltac:(lia)) (spin_den 0 ltac:(lia)) ltac:(discriminate) (spin_den 2 ltac:(lia))
    (spin_good 1 0 ltac:(lia) ltac:(lia)) (spin_good 2 1 ltac:(lia) ltac:(lia)) half_turn_up spin_two eq_refl E); try exact spin_static; auto.
  - intros l El. injection El as <-. cbn; lia.
  - intros l El. injection El as <-. cbn; lia.
  - apply spin_oriented.
  - intros n x Hn. assert (Hz : vec_at (arr2 3 [[0;0;0];[0;0;0]]) [n] = v0)
      by (destruct n as [|[|n]]; cbn in Hn; [reflexivity|reflexivity|destruct n; discriminate]).
    rewrite Hz. unfold vderiv. cbn. repeat split; apply derivable_pt_lim_const.
  - intros x v Hx Hval. rewrite (Hl x v Hx Hval). unfold vderiv. cbn. repeat split; try apply derivable_pt_lim_const; apply derivable_pt_lim_id.
  - intros x p Hx Hval. pose proof Hx as Hx'. apply In_nth_error in Hx' as (m & Hm).
    rewrite (value_at_sample ov half_turn x p m (proj1 half_turn_up) Hm Hval). destruct (Hv m x Hm) as (t & r & Hmap & _ & -> & _).
    apply (spin_maps x t r Hx Hmap).
Qed.

(* ---- the moving-frame variants: the observer changes from world to s ---- *)
Lemma spin_back x t r : In x half_turn -> maps_at hold_squad spin x 0 1 t r -> forall v, srot (zspin x) (srot r v) = v.
Proof.
  intros Hx (_ & c & H0 & _ & Hp) v. apply anc_root in H0. subst c.
  assert (E : forall p, smove (V3 x 0 0) (zspin x) (smove t r p) = p).
  { intros p. destruct (Hp p) as (P & H1 & H2). apply coords_root in H1. apply spin_coords in H2; auto. congruence. }
  pose proof (E v) as E1. pose proof (E v0) as E2. unfold smove in E1, E2. rewrite srot_0 in E2. rewrite srot_add in E1.
  replace (vadd v0 t) with t in E2 by (apply vec3_eq; cbn; lra).
  revert E1 E2. generalize (srot (zspin x) (srot r v)) (srot (zspin x) t). intros a b E1 E2.
  destruct a, b, v. unfold vadd in *. cbn in *. injection E1 as H1 H2 H3. injection E2 as H4 H5 H6. apply vec3_eq; cbn; lra.
Qed.
Lemma vderiv_cte c x : vderiv (fun _ => c) x v0.
Proof. unfold vderiv. split; [|split]; apply derivable_pt_lim_const. Qed.
Lemma smove_inj t q p p' : hunit q -> smove t q p = smove t q p' -> p = p'.
Proof.
  intros U H. assert (N : hn2 q <> 0) by (unfold hunit in U; rewrite U; lra). unfold smove in H.
  assert (E : srot q p = srot q p').
  { revert H. generalize (srot q p) (srot q p'). intros a b H. destruct a, b, t. unfold vadd in H. cbn in H. injection H as H1 H2 H3. apply vec3_eq; cbn; lra. }
  rewrite <- (srot_hinv_l q p N), E. apply srot_hinv_l; auto.
Qed.
Lemma spin_same x t r : maps_at hold_squad spin x 1 1 t r -> In x half_turn -> forall v, srot r v = v.
Proof.
  intros (_ & c & H1 & _ & Hp) Hx v. 
  assert (E : forall p, smove t r p = p).
  { intros p. destruct (Hp p) as (P & Ha & Hb). 
    assert (Hc : c = 1%nat \/ c = 0%nat).
    { inversion H1 as [|a b d E1 E2]; subst; auto. cbn in E1. injection E1 as <-. right. apply anc_root; auto. }
    destruct Hc as [-> | ->].
    - assert (H : forall q Q, coords hold_squad spin x 1 q 1 Q -> Q = q).
      { intros q Q H. inversion H as [|i0 k d t0 r0 p' a P' Hpar Hd Ho Hn Hc]; subst; auto. cbn in Hpar. injection Hpar as <-.
        apply coords_ancestor in Hc. apply anc_root in Hc. discriminate. }
      apply H in Ha, Hb. congruence.
    - apply spin_coords in Ha, Hb; auto. rewrite Ha in Hb. symmetry. apply (smove_inj _ _ _ _ (zspin_unit x) Hb). }
  destruct (smove_same t r v0 hone) as (_ & Hr); [|rewrite Hr; apply srot_one].
  intros p. rewrite E. unfold smove. rewrite srot_one. apply vec3_eq; cbn; lra.
Qed.

Lemma spin_two_gen i j : two_in_range spin i j half_turn.
Proof.
  intros rt _. exists 0, PI. pose proof PI_RGT_0. split; [lra|]. split; [left; auto|]. split; [right; left; auto|].
  intros g tf _ Hc. assert (Hf : g = 1%nat) by (destruct g as [|[|[|g]]]; cbn in Hc; try discriminate; [auto|destruct g; discriminate]).
  subst g. cbn in Hc. injection Hc as <-. exists 0, PI. split; auto. split; auto. lra.
Qed.
Lemma spin_body : exists w, lookup_angular_velocity hold_squad deriv_ex spin 1 (Some (PFrame 0)) (Some (PFrame 1)) true true =
    Ok (w, Some (Some half_turn)) /\ forall x v, In x half_turn -> value_at w (Some half_turn) x v -> body_rate zspin x v.
Proof.
  destruct (C34_lookup hold_squad deriv_ex spin 1 (PFrame 0) (PFrame 1) 0 1 half_turn _ true zspin zspin' (spin_reachable PI)
    hold_squad_total hold_squad_unit (spin_frame 1 ltac:(lia)) (spin_den 0 ltac:(lia)) (spin_den 1 ltac:(lia)) ltac:(discriminate) ltac:(discriminate)
    (spin_good 1 0 ltac:(lia) ltac:(lia)) (spin_good 1 1 ltac:(lia) ltac:(lia)) spin_lookup (proj2 half_turn_up) zspin_unit zspin_deriv)
    as (w & l & E & Sw & Hk & Hw).
  - intros m x t r Hm Hr. destruct m as [|[|m]]; cbn in Hm, Hr; [| |destruct m; discriminate]; injection Hm as <-; injection Hr as _ <-; [rewrite zspin_0|rewrite zspin_PI]; reflexivity.
  - exact spin_exact.
  - apply kept_all_gen in Hk. subst l. exists w. split; [exact E|].
    intros x v Hx Hv. pose proof Hx as Hx'. apply In_nth_error in Hx' as (m & Hm).
    rewrite (value_at_sample w half_turn x v m (proj1 half_turn_up) Hm Hv). destruct (Hw m x Hm) as (t & r & wb & Hmap & Hb & ->).
    rewrite (spin_same x t r Hmap Hx). exact Hb.
Qed.
(** World at rest: its angular velocity is that of s, in the axes of s, once s is the moving frame. *)
Example C35_moving_example : exists out l,
  transform_angular_velocity hold_squad deriv_ex spin 0 (arr2 3 [[0;0;0];[0;0;0]]) (PFrame 1) WMoving (-1) (Some 0%Z) (Some (stamps_nd half_turn)) =
    Ok (out, Some l) /\
  shp out = [List.length l; 3%nat] /\ kept_samples spin 0 1 half_turn [Some half_turn] l /\
  forall k x, nth_error l k = Some x -> body_rate (fun y => hmul hone (zspin y)) x (vec_at out [k]).
Proof.
  destruct spin_body as (w & E & Hw).
  apply (C35_moving_frame hold_squad deriv_ex spin 0 (PFrame 1) 1 (arr2 3 [[0;0;0];[0;0;0]]) half_turn w (Some half_turn) (fun _ => hone) zspin (spin_reachable PI)
    hold_squad_total hold_squad_unit (spin_frame 0 ltac:(lia)) (spin_den 1 ltac:(lia)) ltac:(discriminate) (spin_good 0 1 ltac:(lia) ltac:(lia))
    (spin_good 1 0 ltac:(lia) ltac:(lia)) half_turn_up (spin_two_gen 0 1) eq_refl E); auto.
  - intros l El. injection El as <-. cbn; lia.
  - intros _. unfold hunit, hn2, hone, sc, ve, vdot; cbn; lra.
  - apply zspin_unit.
  - intros x t r Hx Hm. apply (spin_back x t r Hx Hm).
  - intros m x Hm. assert (Hz : vec_at (arr2 3 [[0;0;0];[0;0;0]]) [m] = v0)
      by (destruct m as [|[|m]]; cbn in Hm; [reflexivity|reflexivity|destruct m; discriminate]).
    rewrite Hz. intros p. eapply vderiv_eq; [|apply vderiv_cte].
    rewrite srot_one. apply vec3_eq; cbn; lra.
Qed.
Lemma spin_linear_body : exists w, lookup_linear_velocity hold_squad spin 1 (Some (PFrame 0)) (Some (PFrame 1)) true true =
    Ok (w, Some (Some half_turn)) /\ forall x v, In x half_turn -> value_at w (Some half_turn) x v -> srot (zspin x) v = V3 1 0 0.
Proof.
  destruct (C32_lookup hold_squad spin 1 (PFrame 0) (PFrame 1) 0 1 half_turn _ true v0 (V3 1 0 0) (spin_reachable PI)
    hold_squad_total hold_squad_unit (spin_frame 1 ltac:(lia)) (spin_den 0 ltac:(lia)) (spin_den 1 ltac:(lia)) ltac:(discriminate) ltac:(discriminate)
    (spin_good 1 0 ltac:(lia) ltac:(lia)) (spin_good 0 1 ltac:(lia) ltac:(lia)) spin_lookup (proj2 half_turn_up)) as (w & l & E & Sw & Hk & Hw).
  - intros m x t r Hm Hr. destruct m as [|[|m]]; cbn in Hm, Hr; [| |destruct m; discriminate]; injection Hm as <-; injection Hr as <- _;
      apply vec3_eq; cbn; lra.
  - apply kept_all_gen in Hk. subst l. exists w. split; auto. intros x v Hx Hv. pose proof Hx as Hx'. apply In_nth_error in Hx' as (m & Hm).
    rewrite (value_at_sample w half_turn x v m (proj1 half_turn_up) Hm Hv). destruct (Hw m x Hm) as (t & r & Hmap & ->).
    apply (spin_back x t r Hx Hmap).
Qed.
Lemma spin_self : lookup_transform hold_squad spin 0 (PFrame 0) = Ok (TrStatic v0 q1).
Proof. reflexivity. Qed.
(** The origin of s, seen from world at rest: the velocity of s, in the axes of s. *)
Example C36_moving_example : exists out l o,
  transform_linear_velocity hold_squad deriv_ex spin 0 (arr2 3 [[0;0;0];[0;0;0]]) (PFrame 1) WMoving None (Some (PFrame 0)) (-1)
      (Some 0%Z) (Some (stamps_nd half_turn)) = Ok (out, Some l) /\
  shp out = [List.length l; 3%nat] /\ kept_samples spin 0 1 half_turn [Some half_turn; None; o] l /\
  forall k x, nth_error l k = Some x ->
    vderiv (fun y => vadd v0 (srot hone (V3 y 0 0))) x (srot (hmul hone (zspin x)) (vec_at out [k])).
Proof.
  destruct spin_linear_body as (lin & E & Hl).
  set (tr := TrRows half_turn [(V3 0 0 0, Qt 1 0 0 0); (V3 PI 0 0, Qt 0 0 0 1)]).
  assert (Hst : stamped (tr_t tr) 3 0 (stamps_nd half_turn) 0 2 []).
  { split; [reflexivity|]. split; [cbn; lia|]. split; [left; reflexivity|]. split; [reflexivity|]. split; [lia|].
    intros a b Hab. pose proof PI_RGT_0. destruct a as [|[|a]]; destruct b as [|[|b]]; try lia. cbn. lra. }
  destruct (C22_vectors_succeed hold_squad spin 0 (PFrame 1) 1 (tr_t tr) 0 (stamps_nd half_turn) 0 2 [] (spin_reachable PI)
    hold_squad_total hold_squad_unit (spin_frame 0 ltac:(lia)) (spin_den 1 ltac:(lia)) (spin_good 0 1 ltac:(lia) ltac:(lia)) Hst) as (t' & l' & Et).
  destruct (C22_vectors hold_squad spin 0 (PFrame 1) 1 (tr_t tr) 0 (stamps_nd half_turn) 0 2 [] t' (Some l') (spin_reachable PI)
    hold_squad_unit (spin_frame 0 ltac:(lia)) (spin_den 1 ltac:(lia)) (good_unit _ _ _ (spin_good 0 1 ltac:(lia) ltac:(lia))) Hst Et)
    as (l'' & El' & (f & Hf) & (rt & Hrt & Hin) & Hs & Hv). injection El' as <-.
  assert (Hl' : l' = half_turn).
  { change (map (fun m => dat (stamps_nd half_turn) [m]) (seq 0 2)) with half_turn in Hf. subst l'. apply filter_id. intros x Hx.
    assert (H : In x (filter f half_turn)).
    { assert (Hb : forall g tf, In g rt -> cont_of spin g = Some tf ->
         exists a b, hd_error tf = Some a /\ nth_error tf (List.length tf - 1) = Some b /\ (a <= x <= b)%R).
      { intros g tf _ Hc. assert (Hg : g = 1%nat) by (destruct g as [|[|[|g]]]; cbn in Hc; try discriminate; [auto|destruct g; discriminate]).
        subst g. cbn in Hc. injection Hc as <-. exists 0, PI. split; auto. split; auto. pose proof PI_RGT_0. destruct Hx as [<-|[<-|[]]]; lra. }
      destruct Hx as [<-|[<-|[]]]; [apply (Hin 0%nat); [lia|]|apply (Hin 1%nat); [lia|]]; exact Hb. }
    apply filter_In in H. tauto. }
  clear Hf. subst l'.
  destruct (C36_moving_frame hold_squad deriv_ex spin 0 (PFrame 1) 1 (PFrame 0) 0 (arr2 3 [[0;0;0];[0;0;0]]) half_turn lin zeros3 (Some half_turn) None
    tr t' (Some half_turn) (fun _ => v0) (fun y => V3 y 0 0) (fun _ => hone) zspin (spin_reachable PI)
    hold_squad_total hold_squad_unit (spin_frame 0 ltac:(lia)) (spin_den 1 ltac:(lia)) (spin_den 0 ltac:(lia)) ltac:(discriminate)
    (spin_good 0 1 ltac:(lia) ltac:(lia)) (spin_good 1 0 ltac:(lia) ltac:(lia)) (spin_good 0 0 ltac:(lia) ltac:(lia)) half_turn_up (spin_two_gen 0 1) eq_refl E)
    as (out & l & Eo & So & Hk & Ho); try exact spin_lookup; try exact Et.
  - intros l El. injection El as <-. cbn; lia.
  - destruct (C37_static hold_squad deriv_ex spin 0 (PFrame 0) (PFrame 1) 0 1 v0 q1 true true (spin_den 0 ltac:(lia)) (spin_den 1 ltac:(lia))
      ltac:(discriminate) ltac:(discriminate) spin_self) as (_ & H & _). exact H.
  - intros l El. discriminate.
  - intros l El. injection El as <-. cbn; lia.
  - intros _. unfold hunit, hn2, hone, sc, ve, vdot; cbn; lra.
  - apply zspin_unit.
  - intros x t r Hx Hm. apply (spin_back x t r Hx Hm).
  - intros m x Hm. assert (Hz : vec_at (arr2 3 [[0;0;0];[0;0;0]]) [m] = v0)
      by (destruct m as [|[|m]]; cbn in Hm; [reflexivity|reflexivity|destruct m; discriminate]).
    rewrite Hz. eapply vderiv_eq; [|apply vderiv_cte]. rewrite srot_one. reflexivity.
  - intros x v Hx Hval. rewrite (Hl x v Hx Hval). unfold vderiv. cbn. repeat split; try apply derivable_pt_lim_const; apply derivable_pt_lim_id.
  - intros x w Hx ->. replace (vec_at zeros3 []) with v0 by reflexivity. rewrite srot_0. intros p.
    eapply vderiv_eq; [|apply vderiv_cte]. rewrite srot_one. apply vec3_eq; cbn; lra.
  - intros x p Hx Hval. pose proof Hx as Hx'. apply In_nth_error in Hx' as (m & Hm).
    rewrite (value_at_sample t' half_turn x p m (proj1 half_turn_up) Hm Hval).
    destruct (Hv m x Hm) as (m' & t & r & Hm' & Ex & Hmap & Himg). pose proof (Himg [] ltac:(constructor)) as Hi.
    change (vec_at t' [m] = srot r (vec_at (tr_t tr) [m'])) in Hi.  rewrite Hi, (spin_back x t r Hx Hmap).
    pose proof PI_RGT_0. destruct m' as [|[|m']]; try lia; cbn in Ex; subst x; apply vec3_eq; cbn; auto.
  - exists out, l, (Some half_turn). auto.
Qed.
