(** Property C63: a Transformer answers like the library. *)
From Coq Require Import Reals List String Ascii ZArith Bool Arith Lia Lra Sorted.
From Verif Require Import Base Quat SpecQuat QuatProofs NdArray Frames SpecForest FrameProofs WalkProofs Matcher SpecLookup LookupProofs
  RegistryProofs MovingProofs TimeProofs InverseProofs RouteProofs Examples PropForest PropLookup PropMoving RosMsg PropRosMsg Broadcast TfTree PropTfTree
  Estim SpecEstim EstimProofs SvdExist Tf2 Tf2Proofs Tf2Walk SpecTf2 Tf2Load Tf2Agree.
Import ListNotations.
Open Scope R_scope.
Open Scope list_scope.

Lemma loaded_of s i b : reachable s -> frame s i -> tf_ready s i -> transformer_of s i = Ok b ->
  (forall k p, same_tree (parent_of s) i k -> parent_of s k = Some p -> lookup (nm_of s k) (bf_caches b) = Some (cache_of s k p)) /\
  (forall k, same_tree (parent_of s) i k -> parent_of s k = None -> lookup (nm_of s k) (bf_caches b) = None) /\
  (forall k p, same_tree (parent_of s) i k -> parent_of s k = Some p -> In (nm_of s k) (bf_known b) /\ In (nm_of s p) (bf_known b)).
Proof. intros R F D E. destruct (transformer_loaded s i R F D) as (b' & E' & A & B & C). rewrite E in E'. injection E' as <-. auto. Qed.
Lemma name_nm s k n : name_of s k = Some n -> n = nm_of s k.
Proof. intros E. unfold nm_of. rewrite E. reflexivity. Qed.
Lemma way_tree s i u v k : same_tree (parent_of s) i u -> same_tree (parent_of s) i v -> on_way s u v k -> same_tree (parent_of s) i k.
Proof.
  intros Hu Hv [(A & _)|(A & _)]; [exact (T_up s i u k Hu A)|exact (T_up s i v k Hv A)].
Qed.
Lemma from_ns x : whole_ns x -> exists st, from_sec (x / 1000000000) = Ok st /\ nanos st = trunc x.
Proof.
  intros (z & P & ->). destruct (nanos_exact z P) as (st & E & N). exists st. rewrite trunc_IZR. split; auto.
Qed.
Lemma from_any time : 0 <= time -> exists st, from_sec time = Ok st.
Proof. intros H. destruct (from_sec_spec time H) as (st & E & _). eauto. Qed.
Lemma tf_lookup_of b t u time st : from_sec time = Ok st ->
  tf_lookup b t u time = (g <- buffer_lookup b t u (nanos st) ;; Ok (vlist (fst g), qlist (snd g))).
Proof. intros E. unfold tf_lookup, looked_up. rewrite E. cbn [bind]. destruct (buffer_lookup b t u (nanos st)) as [(g1 & g2)|]; reflexivity. Qed.
Lemma can_of b t u time st : from_sec time = Ok st ->
  tf_can_transform b t u time = Ok (match tf_lookup b t u time with Ok _ => true | Raise _ => false end).
Proof. intros E. unfold tf_can_transform, tf_lookup, looked_up. rewrite E. cbn [bind]. destruct (buffer_lookup b t u (nanos st)); reflexivity. Qed.

Lemma climb_in_parent (par : nat -> option nat) j l c k : climb par j l c -> In k l -> exists p, par k = Some p.
Proof. intros C. induction C as [|j p l c E C IH]; intros I; [destruct I|]. destruct I as [<-|I]; eauto. Qed.

(* ---- C63 ---- *)
(** Every such tree can be handed over. *)
Theorem C63_filled : forall s i, reachable s -> frame s i -> tf_ready s i -> exists b, transformer_of s i = Ok b.
Proof. intros s i R F D. destruct (transformer_loaded s i R F D) as (b & E & _). eauto. Qed.

(** If the library's transform from u to v is constant, the buffer returns it at any time
    from 0 (the latest) on. *)
Theorem C63_static : forall squad s i u v nu nv b t r time, reachable s -> frame s i -> tf_ready s i -> transformer_of s i = Ok b ->
  same_tree (parent_of s) i u -> same_tree (parent_of s) i v -> u <> v -> name_of s u = Some nu -> name_of s v = Some nv ->
  lookup_transform squad s u (PFrame v) = Ok (TrStatic t r) -> 0 <= time ->
  tf_lookup b nv nu time = Ok (vlist t, qlist r).
Proof.
  intros squad s i u v nu nv b t r time R F D Eb Hu Hv N Nu Nv L P. apply name_nm in Nu, Nv. subst nu nv.
  destruct (loaded_of s i b R F D Eb) as (L1 & L2 & L3). pose proof (reachable_Inv s R) as I.
  assert (Lu := tree_lt s i R F u Hu). assert (Lv := tree_lt s i R F v Hv).
  apply (lookup_static_iff squad s u (PFrame v) v t r I Lu (resolve_frame s v Lv)) in L as (up & down & c & gi & gj & (Cu & Cd & Lo) & Gi & Gj & E).
  destruct (from_any time P) as (st & Es). rewrite (tf_lookup_of _ _ _ _ st Es).
  assert (G : forall z, walk_at b (nm_of s v) (nm_of s u) z = Ok (t, r)).
  { intros z. destruct (gclimb_prod s i b L1 z u up c gi Gi Hu) as (V1 & ->). destruct (gclimb_prod s i b L1 z v (rev down) c gj Gj Hv) as (V2 & ->).
    destruct (walk_tree s i R F D b L1 L2 u v z up (rev down) c Hu Hv Cu Cd Lo) as [(_ & _ & X)|(X & _)]; [rewrite X, E; reflexivity|exfalso; auto]. }
  destruct (Z.eq_dec (nanos st) 0) as [Z|Z].
  - rewrite Z. rewrite (lookup_zero s i R F D b L1 L2 L3 u v up (rev down) c Hu Hv N Cu Cd Lo), G. reflexivity.
  - rewrite (lookup_walk s i R F D b L3 u v _ Hu Hv N Z), G. reflexivity.
Qed.

(** If it moves: at every time that it is sampled at, other than 0, and at which every frame
    on the way has one of its own samples (or does not turn), the buffer returns it. *)
Theorem C63_moving_partial : forall squad s i u v nu nv b ts rows n x t r, reachable s -> frame s i -> tf_ready s i -> transformer_of s i = Ok b ->
  squad_unit squad -> squad_exact squad -> squad_const squad ->
  same_tree (parent_of s) i u -> same_tree (parent_of s) i v -> u <> v -> name_of s u = Some nu -> name_of s v = Some nv ->
  lookup_transform squad s u (PFrame v) = Ok (TrRows ts rows) -> nth_error ts n = Some x -> nth_error rows n = Some (t, r) ->
  x <> 0 -> (forall k, on_way s u v k -> plain_at s k x) ->
  tf_lookup b nv nu (x / 1000000000) = Ok (vlist t, qlist r).
Proof.
  intros squad s i u v nu nv b ts rows n x t r R F D Eb Su Se Sc Hu Hv N Nu Nv L Ex Er Nx Pl. apply name_nm in Nu, Nv. subst nu nv.
  destruct (loaded_of s i b R F D Eb) as (L1 & L2 & L3). pose proof (reachable_Inv s R) as I.
  assert (Lu := tree_lt s i R F u Hu). assert (Lv := tree_lt s i R F v Hv).
  assert (Uw : unit_way s u v).
  { intros k d W E. assert (Hk := way_tree s i u v k Hu Hv W). destruct D as (_ & _ & D3 & _). destruct (D3 k Hk) as [(_ & Hb)|(d' & E' & U & _)]; [|congruence].
    unfold transform_of in E. unfold body_at in Hb. destruct (get s k); [rewrite Hb in E|]; discriminate. }
  assert (Wx : whole_ns x).
  { destruct (lookup_timestamps s u (PFrame v) v ts rows squad I Lu (resolve_frame s v Lv) L) as (l & (up & dn & c & Cu & Cd & El & Lo) & H).
    assert (Tl : forall k, In k l -> same_tree (parent_of s) i k).
    { intros k Ik. subst l. apply in_app_or in Ik as [Ik|Ik]; [eapply T_up; [exact Hu|]|apply in_rev in Ik; eapply T_up; [exact Hv|]]; eapply climb_in_ancestor; eauto. }
    assert (Wk : forall k tk tt rr d, In k l -> transform_of s k = Some (TMoving tk tt rr d) -> forall y, In y tk -> whole_ns y).
    { intros k tk tt rr d Ik E y Iy. destruct D as (_ & _ & D3 & _). destruct (D3 k (Tl k Ik)) as [(_ & Hb)|(d' & E' & _ & Fn)].
      - unfold transform_of in E. unfold body_at in Hb. destruct (get s k); [rewrite Hb in E|]; discriminate.
      - rewrite E in E'. injection E' as <-. destruct Fn as (_ & _ & Fn). rewrite Forall_forall in Fn. auto. }
    apply nth_error_In in Ex. destruct H as [(l1 & k & l2 & ts0 & El' & Ek & _ & _ & _ & H)|(_ & _ & H)].
    - apply H in Ex as (Ix & _). unfold cont_of in Ek. destruct (transform_of s k) as [[|tk tt rr [|]]|] eqn:E; try discriminate. injection Ek as <-.
      eapply Wk; [|exact E|exact Ix]. rewrite El'. apply in_or_app. right. left. auto.
    - apply H in Ex as (k & tm & Ik & Ek & Ix). unfold disc_of in Ek. destruct (transform_of s k) as [[|tk tt rr [|]]|] eqn:E; try discriminate. injection Ek as <-. eapply Wk; eauto. }
  destruct (lookup_rows_inv squad s u (PFrame v) v ts rows (resolve_frame s v Lv) L) as (fs & Hf & _ & _ & Hfold).
  destruct (rows_link squad s u v fs ts rows I (reachable_BodyOk s R) Su Lu Lv Uw Hf Hfold n x (t, r) Ex Er) as (up & dn & c & gi & gj & Cu & Cd & Lo & Gi & Gj & E).
  assert (Wy : forall k, In k (up ++ dn) -> plain_at s k x). { intros k Ik. apply Pl. apply (way_in s i R F D u v up dn c k Hu Hv Cu Cd Lo). exact Ik. }
  destruct (xclimb_prod s i squad R D Se Sc b L1 x u up c gi Gi Hu) as (V1 & ->); auto; [intros; apply Wy; apply in_or_app; auto|].
  destruct (xclimb_prod s i squad R D Se Sc b L1 x v dn c gj Gj Hv) as (V2 & ->); auto; [intros; apply Wy; apply in_or_app; auto|].
  destruct (from_ns x Wx) as (st & Es & Ns). rewrite (tf_lookup_of _ _ _ _ st Es), Ns.
  rewrite (lookup_walk s i R F D b L3 u v _ Hu Hv N); [|pose proof (whole_pos x Wx Nx); lia].
  destruct (walk_tree s i R F D b L1 L2 u v (trunc x) up dn c Hu Hv Cu Cd Lo) as [(_ & _ & X)|(X & _)]; [rewrite X, <- E; reflexivity|exfalso; auto].
Qed.

(** A frame with respect to itself. *)
Theorem C63_same : forall squad s i u k nu b time, reachable s -> frame s i -> tf_ready s i -> transformer_of s i = Ok b ->
  same_tree (parent_of s) i u -> name_of s u = Some nu -> same_tree (parent_of s) i k -> parent_of s k <> None -> 0 <= time ->
  lookup_transform squad s u (PFrame u) = Ok (TrStatic v0 q1) /\ tf_lookup b nu nu time = Ok (vlist v0, qlist q1).
Proof.
  intros squad s i u k nu b time R F D Eb Hu Nu Hk Pk P. apply name_nm in Nu. subst nu. destruct (loaded_of s i b R F D Eb) as (L1 & L2 & L3).
  pose proof (reachable_Inv s R) as I. assert (Lu := tree_lt s i R F u Hu). split.
  - apply (lookup_static_iff squad s u (PFrame u) u v0 q1 I Lu (resolve_frame s u Lu)). exists [], [], u, gone, gone.
    split; [|split; [constructor|split; [constructor|]]]; [|rewrite gmul_1_r; symmetry; rewrite <- (gmul_1_r (ginv gone)); apply gmul_inv_l; apply gunit_nz, gunit_one].
    split; [constructor|]. split; [constructor|]. auto.
  - destruct (from_any time P) as (st & Es). rewrite (tf_lookup_of _ _ _ _ st Es). unfold buffer_lookup.
    rewrite (known s i R F D b L3 u k Hu Hk Pk). cbn [negb andb]. rewrite String.eqb_refl. reflexivity.
Qed.

(** can_transform says whether lookup_transform succeeds, and both depend only on whether
    the time lies in the sampled range of every moving frame on the way. *)
Theorem C63_available : forall s i u v nu nv b x, reachable s -> frame s i -> tf_ready s i -> transformer_of s i = Ok b ->
  same_tree (parent_of s) i u -> same_tree (parent_of s) i v -> u <> v -> name_of s u = Some nu -> name_of s v = Some nv ->
  whole_ns x -> x <> 0 ->
  ((forall k a z, on_way s u v k -> sampled_over s k a z -> a <= x <= z) ->
     tf_can_transform b nv nu (x / 1000000000) = Ok true /\ exists g, tf_lookup b nv nu (x / 1000000000) = Ok g) /\
  (forall k a z, on_way s u v k -> sampled_over s k a z -> x < a \/ z < x ->
     tf_can_transform b nv nu (x / 1000000000) = Ok false /\ tf_lookup b nv nu (x / 1000000000) = Raise RuntimeError).
Proof.
  intros s i u v nu nv b x R F D Eb Hu Hv N Nu Nv Wx Nx. apply name_nm in Nu, Nv. subst nu nv.
  destruct (loaded_of s i b R F D Eb) as (L1 & L2 & L3). destruct (from_ns x Wx) as (st & Es & Ns).
  destruct (tree_walk s i R F u v Hu Hv) as (up & dn & c & Cu & Cd & Lo).
  assert (Way := fun k => way_in s i R F D u v up dn c k Hu Hv Cu Cd Lo).
  assert (Par : forall k, In k (up ++ dn) -> same_tree (parent_of s) i k /\ exists p, parent_of s k = Some p).
  { intros k Ik. split; [apply (way_tree s i u v k Hu Hv), Way, Ik|]. apply in_app_or in Ik as [Ik|Ik]; [exact (climb_in_parent _ _ _ _ _ Cu Ik)|exact (climb_in_parent _ _ _ _ _ Cd Ik)]. }
  rewrite (can_of b _ _ _ st Es). rewrite (tf_lookup_of _ _ _ _ st Es), Ns. rewrite (lookup_walk s i R F D b L3 u v _ Hu Hv N); [|pose proof (whole_pos x Wx Nx); lia].
  destruct (walk_tree s i R F D b L1 L2 u v (trunc x) up dn c Hu Hv Cu Cd Lo) as [(V1 & V2 & X)|(X & Y)].
  - split; [intros _; rewrite X; cbn [bind]; split; eauto|]. intros k a z W S O. exfalso. apply Way in W. destruct (Par k W) as (Hk & p & P).
    assert (V : data (nm_of s) b (trunc x) k <> None). { unfold have in *. rewrite Forall_forall in V1, V2. apply in_app_or in W as [W|W]; auto. }
    apply (data_avail s i R D b L1 k p a z x Hk P S Wx Nx) in V. lra.
  - split; [|intros; rewrite Y; auto]. intros A. exfalso. apply X.
    assert (G : forall k, In k (up ++ dn) -> data (nm_of s) b (trunc x) k <> None).
    { intros k W. destruct (Par k W) as (Hk & p & P). destruct (ready_fine s i D k p Hk P) as (d & Ed & _ & Fn). destruct d as [t r|ts t r disc].
      - rewrite (data_static s i b L1 k p t r _ Hk P Ed). discriminate.
      - destruct Fn as (Ne & _). destruct ts as [|a ts]; [congruence|].
        destruct (nth_error (a :: ts) (List.length (a :: ts) - 1)) as [z|] eqn:Z; [|apply nth_error_None in Z; cbn in Z; lia].
        assert (S : sampled_over s k a z) by (exists (a :: ts), t, r, disc; auto). apply (data_avail s i R D b L1 k p a z x Hk P S Wx Nx). apply (A k); auto. apply Way, W. }
    split; apply Forall_forall; intros k Ik; apply G, in_or_app; auto.
Qed.

(** Time 0 means the latest time for which all moving frames on the way have samples: the
    earliest of their last timestamps. *)
Theorem C63_latest : forall s i u v nu nv b k0 a0 x, reachable s -> frame s i -> tf_ready s i -> transformer_of s i = Ok b ->
  same_tree (parent_of s) i u -> same_tree (parent_of s) i v -> u <> v -> name_of s u = Some nu -> name_of s v = Some nv ->
  on_way s u v k0 -> sampled_over s k0 a0 x -> x <> 0 -> (forall k a z, on_way s u v k -> sampled_over s k a z -> x <= z) ->
  tf_lookup b nv nu 0 = tf_lookup b nv nu (x / 1000000000).
Proof.
  intros s i u v nu nv b k0 a0 x R F D Eb Hu Hv N Nu Nv W0 S0 Nx Mi. apply name_nm in Nu, Nv. subst nu nv.
  destruct (loaded_of s i b R F D Eb) as (L1 & L2 & L3).
  destruct (tree_walk s i R F u v Hu Hv) as (up & dn & c & Cu & Cd & Lo).
  assert (Way := fun k => way_in s i R F D u v up dn c k Hu Hv Cu Cd Lo).
  assert (Par : forall k, In k (up ++ dn) -> same_tree (parent_of s) i k /\ exists p, parent_of s k = Some p).
  { intros k Ik. split; [apply (way_tree s i u v k Hu Hv), Way, Ik|]. apply in_app_or in Ik as [Ik|Ik]; [exact (climb_in_parent _ _ _ _ _ Cu Ik)|exact (climb_in_parent _ _ _ _ _ Cd Ik)]. }
  assert (I0 : In k0 (up ++ dn)) by (apply Way; exact W0). destruct (Par k0 I0) as (H0 & p0 & P0).
  destruct (newest_moving s i R D b L1 k0 p0 a0 x H0 P0 S0) as (New0 & Wx). assert (Px := whole_pos x Wx Nx).
  destruct (from_ns x Wx) as (st & Es & Ns). rewrite (tf_lookup_of _ _ _ (x / 1000000000) st Es), Ns. rewrite (lookup_walk s i R F D b L3 u v _ Hu Hv N) by lia.
  destruct (nanos_exact 0 ltac:(lia)) as (st0 & Es0 & Ns0). assert (Es0' : from_sec 0 = Ok st0) by (rewrite <- Es0; f_equal; change (IZR giga) with 1000000000; lra).
  rewrite (tf_lookup_of _ _ _ 0 st0 Es0'), Ns0. rewrite (lookup_zero s i R F D b L1 L2 L3 u v up dn c Hu Hv N Cu Cd Lo).
  replace (some_time (soonest (nm_of s) b (dn ++ up) None)) with (trunc x); [reflexivity|].
  assert (Sw : forall k, In k (dn ++ up) <-> In k (up ++ dn)) by (intros k; rewrite !in_app_iff; tauto).
  pose proof (soonest_spec (nm_of s) b (dn ++ up) None) as Sp. destruct (soonest (nm_of s) b (dn ++ up) None) as [z|].
  - cbn [some_time]. destruct Sp as ([?|(k & Ik & En & Nz)] & _ & Le); [discriminate|].
    assert (z <= trunc x)%Z by (rewrite <- New0; apply Le; [apply Sw; exact I0|lia]). apply Sw in Ik. destruct (Par k Ik) as (Hk & p & P).
    destruct (ready_fine s i D k p Hk P) as (d & Ed & _ & Fn). destruct d as [t r|ts t r disc]; [rewrite (newest_static s i b L1 k p t r Hk P Ed) in En; congruence|].
    destruct Fn as (Ne & _). destruct ts as [|a ts]; [congruence|].
    destruct (nth_error (a :: ts) (List.length (a :: ts) - 1)) as [w|] eqn:Z; [|apply nth_error_None in Z; cbn in Z; lia].
    assert (S : sampled_over s k a w) by (exists (a :: ts), t, r, disc; auto). destruct (newest_moving s i R D b L1 k p a w Hk P S) as (New & Ww).
    pose proof (Mi k a w ltac:(apply Way; exact Ik) S) as Lw. assert (trunc x <= trunc w)%Z; [|lia].
    apply le_IZR. destruct (whole_trunc x Wx) as (-> & _). destruct (whole_trunc w Ww) as (-> & _). exact Lw.
  - destruct Sp as (_ & Z). rewrite (Z k0) in New0 by (apply Sw; exact I0). lia.
Qed.

(* ---- transforming ---- *)
Lemma kdl_rotate q v : mapply (kdl_matrix q) v = tf_rotate q v.
Proof. destruct q, v. unfold kdl_matrix, mapply, tf_rotate, qmulq, qconj, qvec, vdot. cbn. f_equal; ring. Qed.
Lemma kdl_srot q v : hunit q -> mapply (kdl_matrix q) v = srot q v.
Proof. intros H. rewrite kdl_rotate. apply tf_rotate_unit. exact H. Qed.
Lemma kdl_orthogonal q : hunit q -> orthogonal (kdl_matrix q).
Proof. intros H v w. rewrite !kdl_srot by exact H. apply srot_dot. apply hunit_nz. exact H. Qed.
Lemma kdl_det q : hunit q -> det3 (kdl_matrix q) = 1.
Proof.
  intros H. assert (E : det3 (kdl_matrix q) = hn2 q * hn2 q * hn2 q).
  { clear. destruct q as [w x y z]. unfold kdl_matrix. mcomp. vcomp. ring. }
  rewrite E. unfold hunit in H. rewrite H. ring.
Qed.
(** Given what lookup_transform returns, vectors are rotated by it, points moved by it, and
    quaternions and poses turned by it. *)
Theorem C63_apply : forall get_quaternion b nv nu time t r v o, is_frm get_quaternion -> hunit r -> hunit o ->
  tf_lookup b nv nu time = Ok (vlist t, qlist r) ->
  tf_transform_vector b (vlist v) nv nu time = Ok (vlist (srot r v)) /\
  tf_transform_point b (vlist v) nv nu time = Ok (vlist (smove t r v)) /\
  exists q, hunit q /\ (forall w, srot q w = srot r (srot o w)) /\
    tf_transform_quaternion get_quaternion b (qlist o) nv nu time = Ok (qlist q) /\
    tf_transform_pose get_quaternion b (vlist v) (qlist o) nv nu time = Ok (vlist (smove t r v), qlist q).
Proof.
  intros gq b nv nu time t r v o Fr Ur Uo E. unfold tf_lookup in E. apply bind_ok in E as (m & Em & E).
  assert (Mm : tm_rotation m = quat_xyzw r /\ tm_translation m = vec_xyz t).
  { destruct m as [[a1 a2 a3] [b1 b2 b3 b4]], t, r. unfold unpack_transform_msg, unpack_xyz, unpack_xyzw in E. cbn in E. injection E as -> -> -> -> -> -> ->. auto. }
  clear E. destruct Mm as (Mr & Mt). assert (exists st, from_sec time = Ok st) as (st & Es).
  { unfold looked_up in Em. apply bind_ok in Em as (st & Es & _). eauto. }
  assert (Xr : xyzw_quat (quat_xyzw r) = r) by (destruct r; reflexivity). assert (Xo : xyzw_quat (quat_xyzw o) = o) by (destruct o; reflexivity).
  assert (Xt : xyz_vec (vec_xyz t) = t) by (destruct t; reflexivity). assert (Xv : xyz_vec (XYZ (vx v) (vy v) (vz v)) = v) by (destruct v; reflexivity).
  set (q := gq (mdot (kdl_matrix r) (kdl_matrix o))).
  assert (Hq : hunit q /\ forall w, srot q w = srot r (srot o w)).
  { destruct (Fr (mdot (kdl_matrix r) (kdl_matrix o))) as (A & B).
    - intros a c. rewrite !mapply_mdot. rewrite kdl_orthogonal by exact Ur. apply kdl_orthogonal. exact Uo.
    - rewrite det_mdot, !kdl_det by assumption. ring.
    - split; auto. intros w. unfold q. rewrite B, mapply_mdot, !kdl_srot by assumption. reflexivity. }
  destruct Hq as (Uq & Hq).
  assert (Pose : forall p, tf_transform_pose gq b (vlist p) (qlist o) nv nu time = Ok (vlist (smove t r p), qlist q)).
  { intros p. assert (Xp : xyz_vec (XYZ (vx p) (vy p) (vz p)) = p) by (destruct p; reflexivity).
    unfold tf_transform_pose. rewrite Em. cbn [bind]. unfold make_pose_msg. rewrite Es. cbn [bind mk_xyz mk_xyzw vlist qlist ps_pose]. unfold kdl_pose, kdl_apply. cbn [pm_position pm_orientation].
    rewrite Mr, Mt, Xr, Xt, Xp. change (xyzw_quat {| q_x := qx o; q_y := qy o; q_z := qz o; q_w := qw o |}) with (xyzw_quat (quat_xyzw o)). rewrite Xo, kdl_srot by exact Ur. reflexivity. }
  split; [|split].
  - unfold tf_transform_vector. rewrite Em. cbn [bind]. unfold make_vector_msg. rewrite Es. cbn [bind mk_xyz vlist vs_vector]. unfold kdl_apply, without_translation. cbn [tm_rotation tm_translation].
    rewrite Mr, Xr, Xv, kdl_srot by exact Ur. f_equal. f_equal. unfold xyz_vec. cbn. destruct (srot r v). unfold vadd. cbn. f_equal; ring.
  - unfold tf_transform_point. rewrite Em. cbn [bind]. unfold make_point_msg, make_vector_msg. rewrite Es. cbn [bind mk_xyz vlist vs_vector]. unfold kdl_apply.
    rewrite Mr, Mt, Xr, Xt, Xv, kdl_srot by exact Ur. reflexivity.
  - exists q. split; auto. split; auto. split; [|apply Pose]. unfold tf_transform_quaternion. change [0; 0; 0] with (vlist v0). rewrite Pose. reflexivity.
Qed.
