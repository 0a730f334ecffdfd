(** Property C63: a concrete tree, and where a Transformer does not answer like the library. *)
From Coq Require Import Reals List String Ascii ZArith Bool Arith Lia Lra Sorted.
From Verif Require Import Base Quat SpecQuat QuatProofs NdArray Frames SpecForest FrameProofs WalkProofs Matcher SpecLookup LookupProofs
  RegistryProofs MovingProofs TimeProofs InverseProofs RouteProofs Examples PropForest PropLookup PropMoving RosMsg PropRosMsg Broadcast TfTree PropTfTree
  Estim SpecEstim EstimProofs SvdExist VelExamples Tf2 Tf2Proofs Tf2Walk SpecTf2 Tf2Load Tf2Agree PropTf2 PropCtors.
Import ListNotations.
Open Scope R_scope.
Open Scope list_scope.

(** world <- m (continuous) <- c (static), world <- d (discrete) <- f (continuous, does not move). *)
Definition tf_ops : list op :=
  [ ORegisterFrame (root "world") false;
    ORegisterFrame (mov "m" "world" [1;2;4] [[0;0;0];[1;0;0];[1;2;0]] [[1;0;0;0];[0;1;0;0];[0;0;1;0]] false) false;
    ORegisterFrame (stat "c" "m" [0;0;1] [0;0;0;1]) false;
    ORegisterFrame (mov "d" "world" [1;3] [[5;0;0];[7;0;0]] [[1;0;0;0];[1;0;0;0]] true) false;
    ORegisterFrame (mov "f" "d" [1;2;3] [[0;0;0];[0;0;0];[0;0;0]] [[1;0;0;0];[1;0;0;0];[1;0;0;0]] false) false ].
Definition tf_lit : state := State
  [ Node (Some "world"%string) None [1%nat; 3%nat] BRoot;
    Node (Some "m"%string) (Some 0%nat) [2%nat]
      (BTf (TMoving [1;2;4] [V3 0 0 0; V3 1 0 0; V3 1 2 0] [Qt 1 0 0 0; Qt 0 1 0 0; Qt 0 0 1 0] false));
    nodeS "c" (Some 1%nat) [] (V3 0 0 1) (Qt 0 0 0 1);
    Node (Some "d"%string) (Some 0%nat) [4%nat] (BTf (TMoving [1;3] [V3 5 0 0; V3 7 0 0] [Qt 1 0 0 0; Qt 1 0 0 0] true));
    Node (Some "f"%string) (Some 3%nat) [] (BTf (TMoving [1;2;3] [V3 0 0 0; V3 0 0 0; V3 0 0 0] [Qt 1 0 0 0; Qt 1 0 0 0; Qt 1 0 0 0] false)) ]
  [("world"%string, 0%nat); ("m"%string, 1%nat); ("c"%string, 2%nat); ("d"%string, 3%nat); ("f"%string, 4%nat)].
Lemma tf_reachable : reachable tf_lit.
Proof. exists tf_ops. vm_compute. reflexivity. Qed.
(** The depth of a small tree. *)
Lemma small_depth s k l c : reachable s -> (size s <= 1000)%nat -> climb (parent_of s) k l c -> (List.length l <= 1000)%nat.
Proof.
  intros R S C. pose proof (proj1 (reachable_Inv s R)) as W. destruct l as [|x l]; [cbn; lia|].
  assert (Lk : (k < size s)%nat) by (inversion C; subst; eapply parent_of_lt; eauto).
  assert (Lc : (c < size s)%nat).
  { clear - C W Lk. induction C; auto. apply IHC. apply (wf_par _ W) in H. tauto. }
  destruct (rooted_chain _ _ (wf_root _ W c Lc)) as (m & Hm). pose proof (climb_chain _ _ _ _ _ C Hm) as Ch.
  pose proof (nodup_lt_length (size s) _ (chain_nodup _ _ _ Ch) (chain_lt _ _ _ W Lk Ch)) as L. rewrite app_length in L. lia.
Qed.
Lemma hunit_lit : hunit (Qt 1 0 0 0) /\ hunit (Qt 0 1 0 0) /\ hunit (Qt 0 0 1 0) /\ hunit (Qt 0 0 0 1).
Proof. unfold hunit. vcomp. repeat split; ring. Qed.
Lemma increasing2 a b : a < b -> increasing [a; b].
Proof. intros L [|[|i]] [|[|j]] x y H A B; cbn in *; try lia; try discriminate; try (destruct i; discriminate); try (destruct j; discriminate); congruence || (injection A as <-; injection B as <-; lra). Qed.
Lemma whole_lit n : whole_ns (IZR (Z.of_nat n)).
Proof. exists (Z.of_nat n). split; [lia|reflexivity]. Qed.
Lemma tf_lit_ready : tf_ready tf_lit 0.
Proof.
  assert (R := tf_reachable). assert (F : frame tf_lit 0) by (unfold frame, size; cbn; lia). destruct hunit_lit as (U1 & U2 & U3 & U4).
  assert (Lt : forall k, same_tree (parent_of tf_lit) 0 k -> (k < 5)%nat) by (intros k H; apply (tree_lt tf_lit 0 R F k H)).
  split; [|split; [|split]].
  - intros k H. apply Lt in H. destruct k as [|[|[|[|[|k]]]]]; [| | | | |lia]; (eexists; split; [reflexivity|split; [discriminate|intros n' E; discriminate E]]).
  - intros k k' H H' E. apply Lt in H, H'. destruct k as [|[|[|[|[|k]]]]]; [| | | | |lia]; (destruct k' as [|[|[|[|[|k']]]]]; [| | | | |lia]); try reflexivity; discriminate E.
  - intros k H. apply Lt in H. destruct k as [|[|[|[|[|k]]]]]; [| | | | |lia]; [left; split; reflexivity| | | |]; right; eexists; (split; [reflexivity|]).
    + split; [cbn; auto|]. split; [discriminate|]. split; [apply increasing3; lra|]. constructor; [apply (whole_lit 1)|]. constructor; [apply (whole_lit 2)|]. constructor; [apply (whole_lit 4)|constructor].
    + split; [cbn; auto|exact I].
    + split; [cbn; auto|]. split; [discriminate|]. split; [apply increasing2; lra|]. constructor; [apply (whole_lit 1)|]. constructor; [apply (whole_lit 3)|constructor].
    + split; [cbn; auto|]. split; [discriminate|]. split; [apply increasing3; lra|]. constructor; [apply (whole_lit 1)|]. constructor; [apply (whole_lit 2)|]. constructor; [apply (whole_lit 3)|constructor].
  - intros k l c _ C. eapply (small_depth tf_lit); eauto. unfold size. cbn. lia.
Qed.

Lemma tf_root i : (i < 5)%nat -> root_of (parent_of tf_lit) i 0.
Proof.
  intros Hi. split; [|reflexivity]. destruct i as [|[|[|[|[|i]]]]]; try lia.
  - constructor.
  - econstructor; [reflexivity|constructor].
  - econstructor; [reflexivity|]. econstructor; [reflexivity|constructor].
  - econstructor; [reflexivity|constructor].
  - econstructor; [reflexivity|]. econstructor; [reflexivity|constructor].
Qed.
Lemma tf_tree i j : (i < 5)%nat -> (j < 5)%nat -> same_tree (parent_of tf_lit) i j.
Proof. intros A B. exists 0%nat. split; apply tf_root; auto. Qed.
Lemma way_to_root s i k : on_way s i 0 k -> parent_of s 0 = None -> ancestor (parent_of s) i 0 -> ancestor (parent_of s) i k /\ k <> 0%nat.
Proof.
  intros [(A & B)|(A & B)] P H.
  - split; auto. intros ->. apply B. constructor.
  - exfalso. inversion A; subst; [contradiction|congruence].
Qed.
(** The frame m has a sample at 2 ns: library and buffer agree. *)
Example C63_example : exists b ts rows, reachable tf_lit /\ frame tf_lit 0 /\ tf_ready tf_lit 0 /\ transformer_of tf_lit 0 = Ok b /\
  lookup_transform hold_squad tf_lit 1 (PFrame 0) = Ok (TrRows ts rows) /\
  nth_error ts 1 = Some 2 /\ nth_error rows 1 = Some (V3 1 0 0, Qt 0 1 0 0) /\ (forall k, on_way tf_lit 1 0 k -> plain_at tf_lit k 2) /\
  tf_lookup b "world" "m" (2 / 1000000000) = Ok ([1; 0; 0], [0; 1; 0; 0]).
Proof.
  assert (R := tf_reachable). assert (F : frame tf_lit 0) by (unfold frame, size; cbn; lia). assert (D := tf_lit_ready).
  destruct (C63_filled tf_lit 0 R F D) as (b & Eb). destruct hunit_lit as (U1 & U2 & U3 & U4).
  assert (L : lookup_transform hold_squad tf_lit 1 (PFrame 0) = Ok (TrRows [1;2;4] (combine [V3 0 0 0; V3 1 0 0; V3 1 2 0] [Qt 1 0 0 0; Qt 0 1 0 0; Qt 0 0 1 0]))).
  { apply (lookup_parent_moving hold_squad tf_lit 0 1 [1;2;4] [V3 0 0 0; V3 1 0 0; V3 1 2 0] [Qt 1 0 0 0; Qt 0 1 0 0; Qt 0 0 1 0] false); try reflexivity.
    - apply reachable_Inv, R.
    - unfold size; cbn; lia.
    - apply hold_squad_exact.
    - split; [apply increasing3; lra|cbn; lia].
    - constructor; [exact U1|]. constructor; [exact U2|]. constructor; [exact U3|constructor]. }
  assert (W : forall k, on_way tf_lit 1 0 k -> plain_at tf_lit k 2).
  { intros k H. apply way_to_root in H as (A & N); [|reflexivity|apply tf_root; lia].
    inversion A as [|? q ? P A']; subst; [cbn; left; auto|]. injection P as <-. inversion A' as [|? ? ? P']; subst; [lia|discriminate P']. }
  exists b, [1;2;4], (combine [V3 0 0 0; V3 1 0 0; V3 1 2 0] [Qt 1 0 0 0; Qt 0 1 0 0; Qt 0 0 1 0]).
  split; [exact R|]. split; [exact F|]. split; [exact D|]. split; [exact Eb|]. split; [exact L|]. split; [reflexivity|]. split; [reflexivity|]. split; [exact W|].
  change ([1;0;0], [0;1;0;0]) with (vlist (V3 1 0 0), qlist (Qt 0 1 0 0)).
  apply (C63_moving_partial hold_squad tf_lit 0 1 0 "m" "world" b [1;2;4] (combine [V3 0 0 0; V3 1 0 0; V3 1 2 0] [Qt 1 0 0 0; Qt 0 1 0 0; Qt 0 0 1 0]) 1);
    auto using hold_squad_unit, hold_squad_exact, hold_squad_const; try (apply tf_tree; lia); lra.
Qed.
(** A discrete frame is held by the library, but interpolated by the buffer. *)
Theorem C63_discrete_refuted : exists squad s i u v nu nv b ts rows n x t r t' r', squad_unit squad /\ squad_exact squad /\ squad_const squad /\
  reachable s /\ frame s i /\ tf_ready s i /\ transformer_of s i = Ok b /\ same_tree (parent_of s) i u /\ same_tree (parent_of s) i v /\
  name_of s u = Some nu /\ name_of s v = Some nv /\
  lookup_transform squad s u (PFrame v) = Ok (TrRows ts rows) /\ nth_error ts n = Some x /\ nth_error rows n = Some (t, r) /\ x <> 0 /\
  tf_lookup b nv nu (x / 1000000000) = Ok (vlist t', r') /\ t = V3 5 0 0 /\ t' = V3 6 0 0.
Proof.
  assert (R := tf_reachable). assert (F : frame tf_lit 0) by (unfold frame, size; cbn; lia). assert (D := tf_lit_ready).
  destruct (C63_filled tf_lit 0 R F D) as (b & Eb). destruct hunit_lit as (U1 & U2 & U3 & U4). pose proof (reachable_Inv _ R) as HI.
  assert (L4 : (4 < size tf_lit)%nat) by (unfold size; cbn; lia). assert (L0 : (0 < size tf_lit)%nat) by (unfold size; cbn; lia).
  assert (An : forall k, on_way tf_lit 4 0 k -> k = 4%nat \/ k = 3%nat).
  { intros k H. apply way_to_root in H as (A & N); [|reflexivity|apply tf_root; lia].
    inversion A as [|? q ? P A']; subst; auto. injection P as <-. inversion A' as [|? ? ? P' A'']; subst; auto. injection P' as <-. inversion A'' as [|? ? ? P'']; subst; [lia|discriminate P'']. }
  assert (Cl : forall l c, climb (parent_of tf_lit) 0 l c -> l = [] /\ c = 0%nat).
  { intros l c C. inversion C as [|? ? ? ? P]; subst; auto. discriminate P. }
  assert (C4 : forall l, climb (parent_of tf_lit) 4 l 0 -> l = [4%nat; 3%nat]).
  { intros l C. inversion C as [|? ? ? ? P C']; subst; auto. injection P as <-. inversion C' as [|? ? ? ? P' C'']; subst; auto. injection P' as <-.
    apply Cl in C'' as (-> & _). reflexivity. }
  assert (WS : forall k d, on_way tf_lit 4 0 k -> transform_of tf_lit k = Some d -> well_sampled d).
  { intros k d W E. apply An in W as [-> | ->]; injection E as <-.
    - split; [|split; [apply increasing3; lra|cbn; lia]]. cbn. constructor; [exact U1|]. constructor; [exact U1|]. constructor; [exact U1|constructor].
    - split; [|split; [discriminate|]]. + cbn. constructor; [exact U1|]. constructor; [exact U1|constructor].
      + cbn. rewrite (proj2 (Rlt_b_false (3 - 1) 0)); [reflexivity|lra]. }
  destruct (lookup_moving_succeeds hold_squad tf_lit 4 0 HI (reachable_BodyOk _ R) hold_squad_total hold_squad_unit L4 L0 (tf_tree 4 0 ltac:(lia) ltac:(lia))) as (tr & L).
  { intros k H. change (on_way tf_lit 4 0 k) in H. pose proof (An k H) as [-> | ->]; (eexists; split; [reflexivity|eapply WS; [exact H|reflexivity]]). }
  destruct tr as [t r|ts|ts rows]; [exfalso|exfalso; revert L; apply C17_no_bare, R|].
  { apply (lookup_static_iff hold_squad tf_lit 4 (PFrame 0) 0 t r HI L4 eq_refl) in L as (up & dn & c & gi & gj & (W1 & W2 & W3) & G1 & _ & _).
    apply Cl in W2 as (_ & ->). inversion G1 as [|? ? ? ? ? ? ? E1 E2]; subst. discriminate E2. }
  assert (Uw : unit_way tf_lit 4 0) by (intros k d W E; exact (proj1 (WS k d W E))).
  assert (In2 : In 2 ts).
  { destruct (lookup_timestamps tf_lit 4 (PFrame 0) 0 ts rows hold_squad HI L4 eq_refl L) as (l & (up & dn & c & Cu & Cd & El & Lo) & H).
    apply Cl in Cd as (-> & ->). apply C4 in Cu as ->. cbn in El. subst l. destruct H as [(l1 & k & l2 & ts0 & El' & Ek & _ & _ & _ & H)|(H & _ & _)].
    - apply H. assert (Hk : In k [4%nat;3%nat]) by (rewrite El'; apply in_or_app; right; left; auto). destruct Hk as [<-|[<-|[]]]; [|discriminate Ek]. injection Ek as <-. split; [cbn; auto|].
      intros m tm [<-|[<-|[]]] Em; [|discriminate Em]. injection Em as <-. unfold in_bounds. cbn. apply andb_true_iff. split; apply Rle_b_true; lra.
    - specialize (H 4%nat (or_introl eq_refl)). discriminate H. }
  apply In_nth_error in In2 as (n & En). destruct (C17_moving_lookup hold_squad tf_lit 4 (PFrame 0) 0 ts rows R hold_squad_unit L4) as (Ln & _); auto; [left; split; [reflexivity|exact L0]|].
  assert (Er : exists g, nth_error rows n = Some g). { destruct (nth_error rows n) eqn:E; eauto. exfalso. apply nth_error_None in E. assert (n < List.length ts)%nat by (apply nth_error_Some; congruence). lia. }
  destruct Er as ((t & r) & Er).
  destruct (lookup_rows_inv hold_squad tf_lit 4 (PFrame 0) 0 ts rows eq_refl L) as (fs & Hf & _ & _ & Hfold).
  destruct (rows_link hold_squad tf_lit 4 0 fs ts rows HI (reachable_BodyOk _ R) hold_squad_unit L4 L0 Uw Hf Hfold n 2 (t, r) En Er) as (up & dn & c & gi & gj & Cu & Cd & Lo & Gi & Gj & E).
  destruct (Cl _ _ Cd) as (-> & ->). pose proof (C4 _ Cu) as ->. inversion Gj; subst gj; clear Gj.
  destruct (loaded_of tf_lit 0 b R F D Eb) as (M1 & M2 & M3).
  assert (T4 := tf_tree 0 4 ltac:(lia) ltac:(lia)). assert (T3 := tf_tree 0 3 ltac:(lia) ltac:(lia)). assert (T0 := tf_tree 0 0 ltac:(lia) ltac:(lia)).
  assert (D4 : data (nm_of tf_lit) b 2 4 = Some (V3 0 0 0, Qt 1 0 0 0)).
  { rewrite <- (trunc_IZR 2). eapply (data_sample tf_lit 0 R D b M1 4 3 [1;2;3] _ _ _ 1); try reflexivity; auto; lra. }
  assert (D3 : data (nm_of tf_lit) b 2 3 = Some (V3 6 0 0, Qt 1 0 0 0)).
  { unfold data. rewrite (M1 3%nat 0%nat T3 eq_refl). unfold cache_of. change (transform_of tf_lit 3) with (Some (TMoving [1;3] [V3 5 0 0; V3 7 0 0] [Qt 1 0 0 0; Qt 1 0 0 0] true)). cbn [srows]. rewrite !trunc_IZR.
    cbv [get_data rev app last sd_stamp Z.eqb Z.ltb Z.compare Pos.compare Pos.compare_cont orb straddle Z.leb sd_parent entry_of nm_of name_of Pos.eqb]. rewrite String.eqb_refl. unfold interpolate. cbn [sd_stamp sd_t sd_r option_map snd Z.eqb Pos.eqb Z.sub Z.add Z.opp Z.pos_sub Pos.pred_double].
    f_equal. f_equal; [unfold vadd, vscale; cbn [vx vy vz]; f_equal; field|]. unfold slerp. cbv zeta. rewrite (proj2 (Req_b_true _ _)); auto. unfold half_angle, qdot, qnorm2. cbn.
    match goal with |- acos ?a = 0 => replace a with 1 end; [apply acos_1|].
    replace (1 * 1 + 0 * 0 + 0 * 0 + 0 * 0) with 1 by ring. rewrite Rabs_R1, Rmult_1_r, sqrt_1. field. }
  assert (TL : exists r', tf_lookup b "world" "f" (2 / 1000000000) = Ok (vlist (V3 6 0 0), r')).
  { assert (Wx : whole_ns 2) by (apply (whole_lit 2)). destruct (from_ns 2 Wx) as (st & Es & Ns). rewrite (tf_lookup_of _ _ _ _ st Es), Ns, trunc_IZR.
    change "world"%string with (nm_of tf_lit 0). change "f"%string with (nm_of tf_lit 4).
    rewrite (lookup_walk tf_lit 0 R F D b M3 4 0 2 T4 T0) by lia.
    destruct (walk_tree tf_lit 0 R F D b M1 M2 4 0 2 _ _ _ T4 T0 Cu Cd Lo) as [(_ & _ & ->)|(N & _)].
    + cbn [bind prod]. unfold dat. rewrite D3, D4. eexists. rewrite ginv_one, !gmul_1_l. cbn [bind fst snd gmul].
      rewrite srot_0, vadd_0_l. reflexivity.
    + exfalso. apply N. split; [|constructor]. constructor; [rewrite D4; discriminate|]. constructor; [rewrite D3; discriminate|constructor]. }
  destruct TL as (r' & TL).
  exists hold_squad, tf_lit, 0%nat, 4%nat, 0%nat, "f"%string, "world"%string, b, ts, rows, n, 2, t, r, (V3 6 0 0), r'.
  repeat (split; [first [exact hold_squad_unit|exact hold_squad_exact|exact hold_squad_const|exact R|exact F|exact D|exact Eb|exact T4|exact T0|reflexivity|exact L|exact En|exact Er]|]).
  split; [lra|]. split; [exact TL|]. split; [|reflexivity].
  inversion Gi as [|? k4 d4 t4 r4 l4 ? g4 P4 E4 O4 H4 G4]; subst. injection P4 as <-. injection E4 as <-.
  inversion G4 as [|? k3 d3 t3 r3 l3 ? g3 P3 E3 O3 H3 G3]; subst. injection P3 as <-. injection E3 as <-. 
  inversion G3 as [|? k0 d0 t0 r0 l0 ? g0 P0 E0 O0 H0 G0]; subst. 
  apply (f_equal fst) in E. cbn [fst] in E. rewrite E, ginv_one, !gmul_1_l. cbn [fst snd gmul]. clear - O4 O3.
  inversion O3 as [|? ? ? ? k ? ? Ev T3 R3|]; subst. inversion O4 as [| |? ? ? ? m a z u v ? (A & B & _ & Iv) Tu Tv _]; subst.
  assert (t4 : between a z u v 2 = v0). { destruct m as [|[|[|m]]]; cbn in A, B, Tu, Tv; try discriminate; try (destruct m; discriminate); injection A as <-; injection B as <-; injection Tu as <-; injection Tv as <-; unfold between; veq. }
  rewrite t4, srot_0, vadd_0_l. destruct k as [|[|k]]; cbn in T3; [injection T3 as <-; reflexivity| |destruct k; discriminate].
  exfalso. destruct Ev as [(tk & Ek & Le & _)|(Z0 & _)]; [cbn in Ek; injection Ek as <-; lra|discriminate Z0].
Qed.
Lemma mov_lit_ready : tf_ready mov_lit 0.
Proof.
  assert (R := mov_lit_reachable). assert (F : frame mov_lit 0) by (unfold frame, size; cbn; lia). destruct hunit_lit as (U1 & U2 & U3 & U4).
  assert (Lt : forall k, same_tree (parent_of mov_lit) 0 k -> (k < 4)%nat) by (intros k H; apply (tree_lt mov_lit 0 R F k H)).
  split; [|split; [|split]].
  - intros k H. apply Lt in H. destruct k as [|[|[|[|k]]]]; [| | | |lia]; (eexists; split; [reflexivity|split; [discriminate|intros n' E; discriminate E]]).
  - intros k k' H H' E. apply Lt in H, H'. destruct k as [|[|[|[|k]]]]; [| | | |lia]; (destruct k' as [|[|[|[|k']]]]; [| | | |lia]); try reflexivity; discriminate E.
  - intros k H. apply Lt in H. destruct k as [|[|[|[|k]]]]; [| | | |lia]; [left; split; reflexivity| | |]; right; eexists; (split; [reflexivity|]).
    + split; [cbn; auto|]. split; [discriminate|]. split; [apply increasing3; lra|]. constructor; [apply (whole_lit 0)|]. constructor; [apply (whole_lit 1)|]. constructor; [apply (whole_lit 3)|constructor].
    + split; [cbn; auto|exact I].
    + split; [cbn; auto|]. split; [discriminate|]. split; [apply increasing2; lra|]. constructor; [apply (whole_lit 0)|]. constructor; [apply (whole_lit 2)|constructor].
  - intros k l c _ C. eapply (small_depth mov_lit); eauto. unfold size. cbn. lia.
Qed.
(** A sample at time 0 cannot be looked up: the buffer takes 0 for the latest time. *)
Theorem C63_zero_refuted : exists squad s i u v nu nv b ts rows n t r t' r', squad_unit squad /\ squad_exact squad /\ squad_const squad /\
  reachable s /\ frame s i /\ tf_ready s i /\ transformer_of s i = Ok b /\ same_tree (parent_of s) i u /\ same_tree (parent_of s) i v /\
  name_of s u = Some nu /\ name_of s v = Some nv /\ (forall k, on_way s u v k -> plain_at s k 0) /\
  lookup_transform squad s u (PFrame v) = Ok (TrRows ts rows) /\ nth_error ts n = Some 0 /\ nth_error rows n = Some (t, r) /\
  tf_lookup b nv nu (0 / 1000000000) = Ok (vlist t', r') /\ t = V3 0 0 0 /\ t' = V3 1 2 0.
Proof.
  assert (R := mov_lit_reachable). assert (F : frame mov_lit 0) by (unfold frame, size; cbn; lia). assert (D := mov_lit_ready).
  destruct (C63_filled mov_lit 0 R F D) as (b & Eb). destruct hunit_lit as (U1 & U2 & U3 & U4).
  assert (T0 : same_tree (parent_of mov_lit) 0 0) by (exists 0%nat; split; apply mov_root; lia).
  assert (T1 : same_tree (parent_of mov_lit) 0 1) by (exists 0%nat; split; apply mov_root; lia).
  assert (L : lookup_transform hold_squad mov_lit 1 (PFrame 0) = Ok (TrRows [0;1;3] (combine [V3 0 0 0; V3 1 0 0; V3 1 2 0] [Qt 1 0 0 0; Qt 0 1 0 0; Qt 0 0 1 0]))).
  { apply (lookup_parent_moving hold_squad mov_lit 0 1 [0;1;3] [V3 0 0 0; V3 1 0 0; V3 1 2 0] [Qt 1 0 0 0; Qt 0 1 0 0; Qt 0 0 1 0] false); try reflexivity.
    - apply reachable_Inv, R.
    - unfold size; cbn; lia.
    - apply hold_squad_exact.
    - split; [apply increasing3; lra|cbn; lia].
    - constructor; [exact U1|]. constructor; [exact U2|]. constructor; [exact U3|constructor]. }
  assert (An : forall k, on_way mov_lit 1 0 k -> k = 1%nat).
  { intros k H. apply way_to_root in H as (A & N); [|reflexivity|apply mov_root; lia].
    inversion A as [|? q ? P A']; subst; auto. injection P as <-. inversion A' as [|? ? ? P']; subst; [lia|discriminate P']. }
  exists hold_squad, mov_lit, 0%nat, 1%nat, 0%nat, "m"%string, "world"%string, b, [0;1;3], (combine [V3 0 0 0; V3 1 0 0; V3 1 2 0] [Qt 1 0 0 0; Qt 0 1 0 0; Qt 0 0 1 0]), 0%nat, (V3 0 0 0), (Qt 1 0 0 0), (V3 1 2 0), (qlist (Qt 0 0 1 0)).
  split; [exact hold_squad_unit|]. split; [exact hold_squad_exact|]. split; [exact hold_squad_const|]. split; [exact R|]. split; [exact F|]. split; [exact D|].
  split; [exact Eb|]. split; [exact T1|]. split; [exact T0|]. split; [reflexivity|]. split; [reflexivity|].
  split; [intros k W; rewrite (An k W); left; cbn; auto|]. split; [exact L|]. split; [reflexivity|]. split; [reflexivity|]. split; [|split; reflexivity].
  replace (0 / 1000000000) with 0 by lra.
  rewrite (C63_latest mov_lit 0 1 0 "m" "world" b 1 0 3 R F D Eb T1 T0); try reflexivity; auto; try lra.
  - apply (C63_moving_partial hold_squad mov_lit 0 1 0 "m" "world" b [0;1;3] (combine [V3 0 0 0; V3 1 0 0; V3 1 2 0] [Qt 1 0 0 0; Qt 0 1 0 0; Qt 0 0 1 0]) 2 3 (V3 1 2 0) (Qt 0 0 1 0));
    auto using hold_squad_unit, hold_squad_exact, hold_squad_const; try lra. intros k W. rewrite (An k W). left. cbn; auto.
  - left. split; [constructor|]. intros A. inversion A as [|? ? ? P]; subst. discriminate P.
  - exists [0;1;3]. eexists _, _, _. repeat split; reflexivity.
  - intros k a z W (ts & t & r & dd & E & H1 & H2). rewrite (An k W) in E. injection E as <- _ _ _. injection H2 as <-. lra.
Qed.
(** A tree of a single frame leaves the buffer empty: it does not know the frame. *)
Theorem C63_single_refuted : exists squad s u nu b, reachable s /\ frame s u /\ tf_ready s u /\ transformer_of s u = Ok b /\ name_of s u = Some nu /\
  lookup_transform squad s u (PFrame u) = Ok (TrStatic v0 q1) /\ tf_lookup b nu nu 0 = Raise RuntimeError.
Proof.
  assert (R : reachable (State [Node (Some "world"%string) None [] BRoot] [("world"%string, 0%nat)])) by (exists [ORegisterFrame (root "world") false]; reflexivity).
  assert (F : frame (State [Node (Some "world"%string) None [] BRoot] [("world"%string, 0%nat)]) 0) by (unfold frame, size; cbn; lia).
  assert (Lt : forall k, same_tree (parent_of (State [Node (Some "world"%string) None [] BRoot] [("world"%string, 0%nat)])) 0 k -> k = 0%nat).
  { intros k H. apply (tree_lt _ 0 R F k) in H. unfold size in H. cbn in H. lia. }
  assert (D : tf_ready (State [Node (Some "world"%string) None [] BRoot] [("world"%string, 0%nat)]) 0).
  { split; [|split; [|split]].
    - intros k H. rewrite (Lt k H). eexists; split; [reflexivity|split; [discriminate|intros n' E; discriminate E]].
    - intros k k' H H' _. rewrite (Lt k H), (Lt k' H'). reflexivity.
    - intros k H. rewrite (Lt k H). left. split; reflexivity.
    - intros k l c _ C. eapply (small_depth _ _ _ _ R); eauto. unfold size. cbn. lia. }
  exists hold_squad, (State [Node (Some "world"%string) None [] BRoot] [("world"%string, 0%nat)]), 0%nat, "world"%string, (Buffer (10 * giga) [] []).
  split; [exact R|]. split; [exact F|]. split; [exact D|]. split; [reflexivity|]. split; [reflexivity|]. split; [reflexivity|].
  destruct (from_any 0 (Rle_refl 0)) as (st & E). rewrite (tf_lookup_of _ _ _ _ st E). reflexivity.
Qed.
(** A rotation that is not a unit quaternion, which the library accepts: the buffer silently
    drops the transform. *)
Theorem C63_unit_refuted : exists squad s i u v nu nv b t r, reachable s /\ frame s i /\ transformer_of s i = Ok b /\
  name_of s u = Some nu /\ name_of s v = Some nv /\
  lookup_transform squad s u (PFrame v) = Ok (TrStatic t r) /\ tf_lookup b nv nu 0 = Raise RuntimeError.
Proof.
  destruct (from_any 0 (Rle_refl 0)) as (st & F0).
  assert (FR : from_reference_frame (len2_lit false) 0 = Ok (None,
    [SetStatic (TransformStamped (st, Some "world"%string) (Some "m"%string) (TransformMsg (XYZ 0 0 0) (XYZW 2 0 0 0)));
     SetStatic (TransformStamped (st, Some "m"%string) (Some "c"%string) (TransformMsg (XYZ 0 1 0) (XYZW 0 0 0 1)))])).
  { unfold from_reference_frame. change (root_node (len2_lit false) 0) with (Ok 0%nat). cbn [bind].
    change (preorder _ (len2_lit false) 0) with (Ok [0%nat; 1%nat; 2%nat]). cbn [bind].
    change (traverse _ [0%nat; 1%nat; 2%nat]) with (Ok [@nil (R * R); []; []]) at 1. cbn [bind].
    assert (N1 : node_calls (len2_lit false) 1 = Ok [SetStatic (TransformStamped (st, Some "world"%string) (Some "m"%string) (TransformMsg (XYZ 0 0 0) (XYZW 2 0 0 0)))]).
    { change (node_calls (len2_lit false) 1) with (m <- make_transform_msg [0;0;0] [0;2;0;0] (Some "world"%string) (Some "m"%string) 0 ;; Ok [SetStatic m]).
      unfold make_transform_msg. rewrite F0. reflexivity. }
    assert (N2 : node_calls (len2_lit false) 2 = Ok [SetStatic (TransformStamped (st, Some "m"%string) (Some "c"%string) (TransformMsg (XYZ 0 1 0) (XYZW 0 0 0 1)))]).
    { change (node_calls (len2_lit false) 2) with (m <- make_transform_msg [0;1;0] [1;0;0;0] (Some "m"%string) (Some "c"%string) 0 ;; Ok [SetStatic m]).
      unfold make_transform_msg. rewrite F0. reflexivity. }
    unfold traverse. simpl map. rewrite N1, N2. reflexivity. }
  assert (V1 : tf_valid "m" "world" (Qt 0 2 0 0) = false).
  { unfold tf_valid. rewrite (proj2 (Rlt_b_false _ _)); [reflexivity|]. vcomp. rewrite Rabs_right; lra. }
  assert (V2 : tf_valid "c" "m" (Qt 1 0 0 0) = true).
  { unfold tf_valid. rewrite (proj2 (Rlt_b_true _ _)); [reflexivity|]. vcomp. replace (1 * 1 + 0 * 0 + 0 * 0 + 0 * 0 - 1) with 0 by ring. rewrite Rabs_R0. lra. }
  exists hold_squad, (len2_lit false), 0%nat, 1%nat, 0%nat, "m"%string, "world"%string.
  exists (Buffer (10 * giga) [("c"%string, CStatic (Stored (nanos st) "m" (V3 0 1 0) (Qt 1 0 0 0)))] ["m"%string; "c"%string]), (V3 0 0 0), (Qt 0 2 0 0).
  split; [apply len2_reachable|]. split; [unfold frame, size; cbn; lia|]. split; [|split; [reflexivity|split; [reflexivity|split]]].
  - unfold transformer_of. rewrite FR. cbn [bind new_buffer foldM do_call]. unfold set_transform.
    cbn [ts_header ts_child snd fst ts_transform tm_rotation tm_translation]. change (xyzw_quat (XYZW 2 0 0 0)) with (Qt 0 2 0 0). change (xyzw_quat (XYZW 0 0 0 1)) with (Qt 1 0 0 0).
    change (strip_slash "m") with "m"%string. change (strip_slash "c") with "c"%string. change (strip_slash "world") with "world"%string.
    rewrite V1. cbn [bind]. rewrite V2. reflexivity.
  - apply lookup_parent_static; try reflexivity; [apply reachable_Inv, len2_reachable|unfold size; cbn; lia|vcomp; lra].
  - rewrite (tf_lookup_of _ _ _ _ st F0). reflexivity.
Qed.
