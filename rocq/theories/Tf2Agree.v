(** What the buffer holds and what the library computes. *)
From Coq Require Import Reals List String Ascii ZArith Bool Arith Lia Lra Sorted.
From Verif Require Import Base Quat SpecQuat QuatProofs NdArray Frames SpecForest FrameProofs WalkProofs Matcher SpecLookup LookupProofs
  RegistryProofs MovingProofs TimeProofs InverseProofs RouteProofs PropForest PropMoving RosMsg PropRosMsg Broadcast TfTree PropTfTree Tf2 Tf2Proofs Tf2Walk SpecTf2 Tf2Load.
Import ListNotations.
Open Scope nat_scope.
Open Scope list_scope.

(* ---- the library ---- *)
Lemma rows_link squad s i j fs l rows : Inv s -> BodyOk s -> squad_unit squad -> (i < size s)%nat -> (j < size s)%nat ->
  unit_way s i j ->
  frames_between s i j = Ok fs ->
  foldM (step_rows squad l) fs (map (fun _ => (v0, q1)) l) = Ok rows ->
  forall k x g, nth_error l k = Some x -> nth_error rows k = Some g ->
    exists up dn c gi gj, climb (parent_of s) i up c /\ climb (parent_of s) j dn c /\
      (forall a, ancestor (parent_of s) i a -> ancestor (parent_of s) j a -> ancestor (parent_of s) c a) /\
      xclimb squad s x i up c gi /\ xclimb squad s x j dn c gj /\ g = gmul (ginv gj) gi.
Proof.
  intros I B Hsq Hi Hj Hu Hf Hfold. pose proof I as (W & _).
  destruct (fold_rows squad l fs _ rows (frames_good s i j fs B Hf) ltac:(apply map_length) Hfold) as (Hlen & Hrow).
  intros k x g Hx Hr.
  assert (Ha : nth_error (map (fun _ : R => (v0, q1)) l) k = Some (v0, q1)) by (rewrite nth_error_map, Hx; reflexivity).
  specialize (Hrow k x _ _ Hx Ha Hr).
  unfold frames_between in Hf. apply bind_ok in Hf as ([up down] & Hw & Hf).
  apply bind_ok in Hf as (fu & Hfu & Hf). apply bind_ok in Hf as (fd & Hfd & Hf). injection Hf as <-.
  destruct (walk_ok_inv s i j up down W Hi Hj Hw) as (_ & c & C1 & C2 & C3).
  apply row_fold_app in Hrow as (a1 & R1 & R2).
  destruct (row_up squad s x i up c fu _ _ Hsq ltac:(intros k' d Hin; apply Hu; left; split;
     [eapply climb_in_ancestor; eauto|intros Hz; eapply (climb_not_above s i up c k'); eauto; apply C3; auto; eapply climb_in_ancestor; eauto]) C1 Hfu R1) as (gi & G1 & ->).
  rewrite <- (rev_involutive down) in Hfd.
  destruct (row_down squad s x j (rev down) c fd _ _ Hsq ltac:(intros k' d Hin; apply Hu; right; split;
     [eapply climb_in_ancestor; eauto|intros Hz; eapply (climb_not_above s j (rev down) c k'); eauto; apply C3; auto; eapply climb_in_ancestor; eauto]) C2 Hfd R2) as (gj & G2 & E).
  change (v0, q1) with gone in E. rewrite gmul_1_r in E. exists up, (rev down), c, gi, gj. auto 10.
Qed.
Lemma between_0 a b u v : between a b u v a = u.
Proof. unfold between. replace ((a - a) / (b - a))%R with 0%R by (unfold Rdiv; ring). destruct u, v. unfold vadd, vscale, vsub. cbn. f_equal; ring. Qed.
Lemma between_1 a b u v : (a < b)%R -> between a b u v b = v.
Proof. intros L. unfold between. replace ((b - a) / (b - a))%R with 1%R by (field; lra). destruct u, v. unfold vadd, vscale, vsub. cbn. f_equal; ring. Qed.
Lemma inc_pos ts i j a b : increasing ts -> nth_error ts i = Some a -> nth_error ts j = Some b -> (a < b)%R -> i < j.
Proof.
  intros H A B L. destruct (lt_eq_lt_dec i j) as [[?| ->]|G]; auto; [exfalso; assert (a = b) by congruence; lra|]. pose proof (H j i b a G B A). lra.
Qed.
Lemma inc_same ts i j a : increasing ts -> nth_error ts i = Some a -> nth_error ts j = Some a -> i = j.
Proof. intros H A B. destruct (lt_eq_lt_dec i j) as [[G| ->]|G]; auto; [pose proof (H i j a a G A B)|pose proof (H j i a a G B A)]; lra. Qed.
(** At a timestamp the library uses the sample. *)
Lemma own_sample squad ts tt rr disc n x t r : squad_exact squad -> increasing ts -> List.length tt = List.length ts -> List.length rr = List.length ts -> Forall hunit rr ->
  nth_error ts n = Some x -> own_at squad (TMoving ts tt rr disc) x t r -> nth_error tt n = Some t /\ nth_error rr n = Some r.
Proof.
  intros Ex Inc Lt Lr U En O. inversion O as [|? ? ? ? k ? ? Ev Et Er|? ? ? ? k a b u v ? Iv Eu Ev Er]; subst.
  - assert (k = n); [|subst; auto]. destruct Ev as [(tk & E & L & A)|(-> & _ & A)].
    + destruct (lt_eq_lt_dec k n) as [[G| ->]|G]; auto; [pose proof (A n x G En); lra|]. pose proof (Inc n k x tk G En E). lra.
    + pose proof (A n x En). lra.
  - destruct Iv as (Ea & Eb & Lab & Iv).
    assert (L2 : 2 <= List.length ts) by (pose proof (nth_lt _ _ _ Eb); lia).
    destruct (nth_error rr n) as [rn|] eqn:Ern; [|apply nth_error_None in Ern; pose proof (nth_lt _ _ _ En); lia].
    rewrite (Ex ts rr n x rn Inc L2 Lr U En Ern) in Er. injection Er as <-. split; auto.
    destruct Iv as [(L1 & Le)|(-> & ->)].
    + destruct (Rle_lt_or_eq_dec _ _ Le) as [L3| ->].
      * pose proof (inc_pos _ _ _ _ _ Inc Ea En L1). pose proof (inc_pos _ _ _ _ _ Inc En Eb L3). lia.
      * rewrite (inc_same _ _ _ _ Inc En Eb). rewrite between_1 by exact Lab. exact Ev.
    + rewrite (inc_same _ _ _ _ Inc En Ea). rewrite between_0. exact Eu.
Qed.

(* ---- the caches ---- *)
Lemma straddle_mid z a : forall l2 n l1, Forall (fun y => (z < sd_stamp y)%Z) l2 -> (sd_stamp a <= z)%Z -> straddle n (l2 ++ a :: l1) z = Some (a, last l2 n).
Proof.
  induction l2 as [|y l2 IH]; intros n l1 F L.
  - cbn. destruct (Z.leb_spec (sd_stamp a) z); [reflexivity|lia].
  - inversion F as [|? ? Ly F']; subst. cbn [straddle app]. destruct (Z.leb_spec (sd_stamp y) z); [lia|]. rewrite IH by auto. rewrite last_cons. reflexivity.
Qed.
Lemma last_app1 {A} (l : list A) b d : last (l ++ [b]) d = b.
Proof. revert d. induction l as [|a l IH]; intros d; [reflexivity|]. cbn [app]. rewrite last_cons. apply IH. Qed.
(** Between two neighbours. *)
Lemma get_data_between l1 a b l2 p z : ascending (l1 ++ a :: b :: l2) -> Forall (fun x => sd_parent x = p) (l1 ++ a :: b :: l2) -> (sd_stamp a < z < sd_stamp b)%Z -> z <> 0%Z ->
  get_data (CTime (rev (l1 ++ a :: b :: l2))) z = Some (p, interpolate a b z).
Proof.
  intros As Pa Lz Nz. rewrite rev_app_distr. cbn [rev]. rewrite <- !app_assoc. cbn [app].
  assert (As' := sorted_rev _ As). destruct (sorted_app _ _ _ As) as (_ & As2 & L12). inversion As2 as [|? ? As3 Fa]; subst. inversion As3 as [|? ? As4 Fb]; subst.
  rewrite Forall_forall in Fa, Fb, Pa.
  assert (Pab : sd_parent a = p /\ sd_parent b = p) by (split; apply Pa; apply in_or_app; right; [left|right; left]; auto). destruct Pab as (Pa' & Pb').
  assert (Back : forall x rest, rev l2 ++ b :: a :: rev l1 = x :: rest -> (sd_stamp (last rest x) <= sd_stamp a)%Z).
  { intros x rest E. apply last_older; [|rewrite <- E; apply in_or_app; right; right; left; auto]. rewrite <- E.
    rewrite rev_app_distr in As'. cbn [rev] in As'. rewrite <- !app_assoc in As'. exact As'. }
  destruct (rev l2) as [|x l2'] eqn:R.
  - cbn [app]. specialize (Back b (a :: rev l1) eq_refl). cbn [get_data]. destruct (Z.eqb_spec z 0); [contradiction|].
    destruct (Z.eqb_spec z (sd_stamp b)); [lia|]. set (bk := last (a :: rev l1) b) in *. destruct (Z.eqb_spec z (sd_stamp bk)); [lia|].
    destruct (Z.ltb_spec (sd_stamp b) z); [lia|]. destruct (Z.ltb_spec z (sd_stamp bk)); [lia|]. cbn [orb].
    pose proof (straddle_mid z a [] b (rev l1) (Forall_nil _) ltac:(lia)) as X. cbn [app last] in X. rewrite X. rewrite Pa', Pb', String.eqb_refl. reflexivity.
  - assert (Hx : forall y, In y (x :: l2') -> (z < sd_stamp y)%Z). { intros y Iy. assert (Iy' : In y l2) by (apply in_rev; rewrite R; exact Iy). pose proof (Fb y Iy'). lia. }
    cbn [app]. specialize (Back x (l2' ++ b :: a :: rev l1) eq_refl). set (rest := l2' ++ b :: a :: rev l1) in *.
    cbn [get_data]. pose proof (Hx x (or_introl eq_refl)). destruct (Z.eqb_spec z 0); [contradiction|].
    destruct (match rest with [] => true | _ => false end) eqn:X; [unfold rest in X; destruct l2'; discriminate|].
    destruct (Z.eqb_spec z (sd_stamp x)); [lia|]. destruct (Z.eqb_spec z (sd_stamp (last rest x))); [lia|].
    destruct (Z.ltb_spec (sd_stamp x) z); [lia|]. destruct (Z.ltb_spec z (sd_stamp (last rest x))); [lia|]. cbn [orb].
    unfold rest. replace (l2' ++ b :: a :: rev l1) with ((l2' ++ [b]) ++ a :: rev l1) by (rewrite <- app_assoc; reflexivity).
    rewrite straddle_mid; [|apply Forall_app; split; [apply Forall_forall; intros y Iy; apply Hx; right; auto|constructor; [lia|constructor]]|lia].
    rewrite last_app1, Pa', Pb', String.eqb_refl. reflexivity.
Qed.
Lemma nth_split2 {A} (l : list A) n a b : nth_error l n = Some a -> nth_error l (S n) = Some b -> exists l1 l2, l = l1 ++ a :: b :: l2 /\ List.length l1 = n.
Proof.
  revert n. induction l as [|x l IH]; intros [|n] Ha Hb; try discriminate.
  - cbn in Ha, Hb. injection Ha as ->. destruct l as [|y l]; [discriminate|]. cbn in Hb. injection Hb as ->. exists [], l. auto.
  - destruct (IH n Ha Hb) as (l1 & l2 & -> & L). exists (x :: l1), l2. cbn. auto.
Qed.
Lemma qdot_self r : hunit r -> qdot r r = 1%R.
Proof. unfold hunit. intros <-. unfold qdot. destruct r. vcomp. ring. Qed.
Lemma slerp_same r x : hunit r -> slerp r r x = r.
Proof.
  intros U. unfold slerp. cbv zeta. unfold half_angle. rewrite (qdot_self r U). unfold hunit in U. rewrite hn2_qnorm2 in U. rewrite U, Rmult_1_l, sqrt_1, Rabs_R1.
  unfold Rdiv at 1. rewrite Rinv_1, Rmult_1_r, acos_1. destruct (Req_b 0 0) eqn:E; auto. apply Req_b_false in E. congruence.
Qed.

Section Agree.
Variables (s : state) (i : nat) (squad : list R -> list quat -> R -> res quat).
Hypothesis Rs : reachable s.
Hypothesis Fi : frame s i.
Hypothesis Rdy : tf_ready s i.
Hypothesis Su : squad_unit squad.
Hypothesis Se : squad_exact squad.
Hypothesis Sc : squad_const squad.
Variable b : buffer.
Notation T := (same_tree (parent_of s) i).
Hypothesis Cach : forall k p, T k -> parent_of s k = Some p -> lookup (nm_of s k) (bf_caches b) = Some (cache_of s k p).
Hypothesis Rt : forall k, T k -> parent_of s k = None -> lookup (nm_of s k) (bf_caches b) = None.
Hypothesis Kn : forall k p, T k -> parent_of s k = Some p -> In (nm_of s k) (bf_known b) /\ In (nm_of s p) (bf_known b).

Lemma srows_in p ts t r x : List.length t = List.length ts -> List.length r = List.length ts -> In x (srows p ts t r) -> sd_parent x = p /\ In (sd_r x) r.
Proof. intros Lt Lr I. apply In_nth_error in I as (n & E). apply srows_nth in E as (? & ? & ? & _ & _ & E & ->); auto. split; auto. cbn. eapply nth_error_In; eauto. Qed.
Lemma moving_len k ts t r disc : transform_of s k = Some (TMoving ts t r disc) -> List.length t = List.length ts /\ List.length r = List.length ts.
Proof. intros E. exact (reachable_BodyOk s Rs k _ E). Qed.
Lemma edge k p : T k -> parent_of s k = Some p -> exists c, lookup (nm_of s k) (bf_caches b) = Some c /\ cache_ok (nm_of s p) c.
Proof.
  intros H P. exists (cache_of s k p). split; [apply Cach; auto|]. unfold cache_of. destruct (ready_fine s i Rdy k p H P) as (d & Ed & U & F). rewrite Ed. destruct d as [t r|ts t r disc]; cbn.
  - split; auto.
  - destruct (moving_len _ _ _ _ _ Ed) as (Lt & Lr). split.
    + apply Forall_forall. intros x I. apply in_rev in I. destruct (srows_in _ _ _ _ _ Lt Lr I) as (A & B). split; auto. cbn in U. rewrite Forall_forall in U. auto.
    + intros X. apply (f_equal (@List.length _)) in X. rewrite rev_length, srows_length in X by auto. destruct F as (F & _). destruct ts; [congruence|discriminate].
Qed.
Notation data := (data (nm_of s) b).
Notation prod := (prod (nm_of s) b).
Notation have := (have (nm_of s) b).
Lemma T_lt k : T k -> k < size s.
Proof. apply tree_lt; auto. Qed.
Lemma T_par k p : T k -> parent_of s k = Some p -> T p.
Proof. apply tree_parent. Qed.
Lemma T_inj k k' : T k -> T k' -> nm_of s k = nm_of s k' -> k = k'.
Proof. apply ready_inj; auto. Qed.
Lemma T_up k a : T k -> ancestor (parent_of s) k a -> T a.
Proof. intros H A. induction A; auto. apply IHA. eapply T_par; eauto. Qed.
Lemma WFs : WF s.
Proof. exact (proj1 (reachable_Inv s Rs)). Qed.
Lemma data_static k p t r z : T k -> parent_of s k = Some p -> transform_of s k = Some (TStatic t r) -> data z k = Some (t, r).
Proof. intros H P E. unfold Tf2Walk.data. rewrite (Cach k p H P). unfold cache_of. rewrite E. reflexivity. Qed.
Lemma moving_facts k p ts t r disc : T k -> parent_of s k = Some p -> transform_of s k = Some (TMoving ts t r disc) ->
  List.length t = List.length ts /\ List.length r = List.length ts /\ Forall hunit r /\ ts <> [] /\ increasing ts /\ Forall whole_ns ts /\
  lookup (nm_of s k) (bf_caches b) = Some (CTime (rev (srows (nm_of s p) ts t r))) /\ ascending (srows (nm_of s p) ts t r).
Proof.
  intros H P E. destruct (moving_len _ _ _ _ _ E) as (Lt & Lr). destruct (ready_fine s i Rdy k p H P) as (d & Ed & U & F). rewrite E in Ed. injection Ed as <-. destruct F as (F1 & F2 & F3).
  assert (Hc := Cach k p H P). unfold cache_of in Hc. rewrite E in Hc. do 7 (split; auto). apply srows_ascending; auto.
Qed.
Lemma data_sample k p ts t r disc n x t0 r0 : T k -> parent_of s k = Some p -> transform_of s k = Some (TMoving ts t r disc) ->
  nth_error ts n = Some x -> nth_error t n = Some t0 -> nth_error r n = Some r0 -> x <> 0%R -> data (trunc x) k = Some (t0, r0).
Proof.
  intros H P E Ex Et Er Nx. destruct (moving_facts _ _ _ _ _ _ H P E) as (Lt & Lr & U & _ & Inc & Wh & Hc & As).
  unfold Tf2Walk.data. rewrite Hc.
  assert (Iy : In (Stored (trunc x) (nm_of s p) t0 r0) (rev (srows (nm_of s p) ts t r))). { rewrite <- in_rev. eapply nth_error_In. apply srows_nth; eauto 10. }
  rewrite Forall_forall in Wh. assert (Px : (0 < trunc x)%Z) by (apply whole_pos; auto; apply Wh; eapply nth_error_In; eauto).
  pose proof (get_data_at _ _ (sorted_rev _ As) Iy) as G. cbn [sd_stamp] in G. rewrite G; [reflexivity|lia|].
  apply Forall_forall. intros y I. apply in_rev in I. destruct (srows_in _ _ _ _ _ Lt Lr I) as (_ & B). rewrite Forall_forall in U. auto.
Qed.
Lemma own_data k p d x t r : T k -> parent_of s k = Some p -> transform_of s k = Some d -> own_at squad d x t r -> plain_at s k x -> whole_ns x -> x <> 0%R -> data (trunc x) k = Some (t, r).
Proof.
  intros H P E O Pl Wx Nx. destruct d as [t1 r1|ts tt rr disc].
  - inversion O; subst. eapply data_static; eauto.
  - destruct (moving_facts _ _ _ _ _ _ H P E) as (Lt & Lr & U & _ & Inc & Wh & Hc & As).
    assert (Sam : In x ts -> data (trunc x) k = Some (t, r)).
    { intros I. apply In_nth_error in I as (n & En). destruct (own_sample squad ts tt rr disc n x t r Se Inc Lt Lr U En O) as (Et & Er). eapply data_sample; eauto. }
    unfold plain_at in Pl. rewrite E in Pl. destruct Pl as [I|(-> & _ & Eq)]; auto.
    inversion O as [| |? ? ? ? m a c u v ? (Ea & Eb & Lab & Iv) Eu Ev Er]; subst. destruct Iv as [(L1 & Le)|(-> & ->)]; [|apply Sam; eapply nth_error_In; eauto].
    destruct (Rle_lt_or_eq_dec _ _ Le) as [L3| ->]; [|apply Sam; eapply nth_error_In; eauto]. clear Sam Le.
    destruct (nth_error rr m) as [ra|] eqn:Ra; [|apply nth_error_None in Ra; pose proof (nth_lt _ _ _ Ea); lia].
    destruct (nth_error rr (S m)) as [rb|] eqn:Rb; [|apply nth_error_None in Rb; pose proof (nth_lt _ _ _ Eb); lia].
    assert (rb = ra) by (apply Eq; eapply nth_error_In; eauto). subst rb.
    assert (r = ra). { eapply Sc; [exact U| |exact Er]. intros q Iq. apply Eq; auto. eapply nth_error_In; eauto. } subst r.
    destruct (nth_split2 (srows (nm_of s p) ts tt rr) m (Stored (trunc a) (nm_of s p) u ra) (Stored (trunc c) (nm_of s p) v ra)) as (l1 & l2 & Es & _); [apply srows_nth; eauto 10|apply srows_nth; eauto 10|].
    unfold Tf2Walk.data. rewrite Hc, Es. rewrite Forall_forall in Wh. assert (Wa : whole_ns a) by (apply Wh; eapply nth_error_In; eauto). assert (Wc : whole_ns c) by (apply Wh; eapply nth_error_In; eauto).
    destruct (whole_trunc x Wx) as (Tx & _). assert (Px := whole_pos x Wx Nx). destruct (whole_trunc a Wa) as (Ta & Pa). destruct (whole_trunc c Wc) as (Tc & Pc).
    rewrite (get_data_between l1 _ _ l2 (nm_of s p)).
    + cbn [option_map snd]. unfold interpolate. cbn [sd_stamp sd_t sd_r]. pose proof (trunc_mono a c Wa Wc Lab). destruct (Z.eqb_spec (trunc a) (trunc c)); [lia|]. cbv zeta.
      rewrite slerp_same by (rewrite Forall_forall in U; apply U; eapply nth_error_In; eauto). f_equal. f_equal. rewrite !minus_IZR, Tx, Ta, Tc. unfold between.
      set (f := ((x - a) / (c - a))%R). clearbody f. destruct u, v. unfold vadd, vscale, vsub. cbn. f_equal; ring.
    + rewrite <- Es. exact As.
    + apply Forall_forall. intros y Iy. rewrite <- Es in Iy. destruct (srows_in _ _ _ _ _ Lt Lr Iy). auto.
    + cbn [sd_stamp]. split; apply trunc_mono; auto.
    + lia.
Qed.
Lemma xclimb_prod x k l c g : xclimb squad s x k l c g -> T k -> (forall m, In m l -> plain_at s m x) -> whole_ns x -> x <> 0%R -> have (trunc x) l /\ g = prod (trunc x) l.
Proof.
  intros C. induction C as [k|k p d t r l c g P E O U C IH]; intros H Pl Wx Nx; [split; [constructor|reflexivity]|].
  pose proof (own_data k p d x t r H P E O (Pl k (or_introl eq_refl)) Wx Nx) as D. destruct IH as (Hv & ->); [eapply T_par; eauto|intros; apply Pl; right; auto|auto|auto|].
  split; [constructor; auto; congruence|]. cbn [Tf2Walk.prod]. unfold dat. rewrite D. reflexivity.
Qed.
Lemma gclimb_prod z k l c g : gclimb s k l c g -> T k -> have z l /\ g = prod z l.
Proof.
  intros C. induction C as [k|k p t r l c g P E U C IH]; intros H; [split; [constructor|reflexivity]|].
  pose proof (data_static k p t r z H P E) as D. destruct IH as (Hv & ->); [eapply T_par; eauto|].
  split; [constructor; auto; congruence|]. cbn [Tf2Walk.prod]. unfold dat. rewrite D. reflexivity.
Qed.
(* ---- when there is data ---- *)
Lemma straddle_some z : forall rest x, rest <> [] -> (sd_stamp (last rest x) <= z)%Z -> straddle x rest z <> None.
Proof.
  induction rest as [|y rest IH]; intros x N L; [congruence|]. cbn [straddle]. destruct (Z.leb_spec (sd_stamp y) z); [discriminate|]. rewrite last_cons in L.
  destruct rest as [|w rest]; [cbn in L; lia|]. apply IH; [discriminate|exact L].
Qed.
Lemma get_data_some x rest z : z <> 0%Z -> descending (x :: rest) -> get_data (CTime (x :: rest)) z <> None <-> (sd_stamp (last rest x) <= z <= sd_stamp x)%Z.
Proof.
  intros Nz D. cbn [get_data]. destruct (Z.eqb_spec z 0); [contradiction|]. pose proof (last_older rest x D x (or_introl eq_refl)) as L.
  destruct rest as [|y rest]. { cbn [last]. destruct (Z.eqb_spec (sd_stamp x) z); split; intros H; try congruence; try lia. }
  remember (y :: rest) as l eqn:El. replace (match l with [] => true | _ => false end) with false by (subst; reflexivity).
  destruct (Z.eqb_spec z (sd_stamp x)); [split; [lia|discriminate]|]. destruct (Z.eqb_spec z (sd_stamp (last l x))); [split; [lia|discriminate]|].
  destruct (Z.ltb_spec (sd_stamp x) z); [split; [intros H0; exfalso; apply H0; reflexivity|lia]|]. destruct (Z.ltb_spec z (sd_stamp (last l x))); [split; [intros H1; exfalso; apply H1; reflexivity|lia]|]. cbn [orb].
  split; [lia|]. intros _. pose proof (straddle_some z l x ltac:(subst; discriminate) ltac:(lia)) as Ss. destruct (straddle x l z) as [(u & v)|]; [|congruence]. destruct (String.eqb (sd_parent u) (sd_parent v)); discriminate.
Qed.
Lemma rev_last_head {A} (l : list A) x rest : rev l = x :: rest -> nth_error l (List.length l - 1) = Some x /\ hd_error l = Some (last rest x).
Proof.
  intros R. assert (E : l = rev rest ++ [x]) by (rewrite <- (rev_involutive l), R; reflexivity). subst l. clear R. split.
  - rewrite app_length, nth_error_app2 by (cbn; lia). cbn. replace (_ + 1 - 1 - _) with 0 by lia. reflexivity.
  - revert x. induction rest as [|y rest IH]; intros x; [reflexivity|]. cbn [rev]. rewrite last_cons. specialize (IH y). destruct (rev rest); cbn in *; auto.
Qed.
Lemma data_avail k p a z x : T k -> parent_of s k = Some p -> sampled_over s k a z -> whole_ns x -> x <> 0%R -> data (trunc x) k <> None <-> (a <= x <= z)%R.
Proof.
  intros H P (ts & t & r & d & E & Ha & Hz) Wx Nx. destruct (moving_facts _ _ _ _ _ _ H P E) as (Lt & Lr & U & Ne & Inc & Wh & Hc & As).
  destruct (whole_trunc x Wx) as (Tx & _). assert (Px := whole_pos x Wx Nx). unfold Tf2Walk.data. rewrite Hc.
  destruct (rev (srows (nm_of s p) ts t r)) as [|y rest] eqn:R.
  { apply (f_equal (@List.length _)) in R. rewrite rev_length, srows_length in R by auto. destruct ts; [congruence|discriminate]. }
  destruct (rev_last_head _ _ _ R) as (Ey & El). rewrite srows_length in Ey by auto. apply srows_nth in Ey as (z' & ? & ? & Z & _ & _ & ->); auto. rewrite Hz in Z. injection Z as <-.
  assert (El' : nth_error (srows (nm_of s p) ts t r) 0 = Some (last rest (Stored (trunc z) (nm_of s p) x0 x1))) by (destruct (srows (nm_of s p) ts t r); auto).
  apply srows_nth in El' as (a' & ? & ? & A & _ & _ & El'); auto. assert (a' = a) by (destruct ts; cbn in *; congruence). subst a'.
  pose proof (sorted_rev _ As) as D. rewrite R in D. rewrite Forall_forall in Wh.
  destruct (whole_trunc a) as (Ta & _); [apply Wh; eapply nth_error_In; eauto|]. destruct (whole_trunc z) as (Tz & _); [apply Wh; eapply nth_error_In; eauto|].
  pose proof (get_data_some _ _ (trunc x) ltac:(lia) D) as G. rewrite El' in G. cbn [sd_stamp] in G.
  assert (EQ : (a <= x <= z)%R <-> (trunc a <= trunc x <= trunc z)%Z).
  { split; intros (G1 & G2); split; [apply le_IZR; rewrite Ta, Tx|apply le_IZR; rewrite Tz, Tx|rewrite <- Ta, <- Tx; apply IZR_le|rewrite <- Tz, <- Tx; apply IZR_le]; auto. }
  rewrite EQ, <- G. destruct (get_data _ _); cbn; split; intros Q X; try discriminate X; apply Q; reflexivity.
Qed.
Lemma newest_moving k p a z : T k -> parent_of s k = Some p -> sampled_over s k a z -> newest (nm_of s) b k = trunc z /\ whole_ns z.
Proof.
  intros H P (ts & t & r & d & E & Ha & Hz). destruct (moving_facts _ _ _ _ _ _ H P E) as (Lt & Lr & U & Ne & Inc & Wh & Hc & As).
  rewrite Forall_forall in Wh. split; [|apply Wh; eapply nth_error_In; eauto]. unfold newest. rewrite Hc.
  destruct (rev (srows (nm_of s p) ts t r)) as [|y rest] eqn:R.
  { apply (f_equal (@List.length _)) in R. rewrite rev_length, srows_length in R by auto. destruct ts; [congruence|discriminate]. }
  destruct (rev_last_head _ _ _ R) as (Ey & _). rewrite srows_length in Ey by auto. apply srows_nth in Ey as (z' & ? & ? & Z & _ & _ & ->); auto. rewrite Hz in Z. injection Z as <-. reflexivity.
Qed.
Lemma newest_static k p t r : T k -> parent_of s k = Some p -> transform_of s k = Some (TStatic t r) -> newest (nm_of s) b k = 0%Z.
Proof. intros H P E. unfold newest. rewrite (Cach k p H P). unfold cache_of. rewrite E. reflexivity. Qed.
(* ---- known frames ---- *)
Lemma climb_parent par k l c : climb par k l c -> l <> [] -> exists m, In m l /\ par m = Some c.
Proof.
  intros C. induction C as [|k p l c E C IH]; intros N; [congruence|]. destruct l as [|y l]; [inversion C; subst; exists k; split; [left|]; auto|].
  destruct IH as (m & I & Q); [discriminate|]. exists m. split; [right|]; auto.
Qed.
Lemma known k k' : T k -> T k' -> parent_of s k' <> None -> known_frame b (nm_of s k) = true.
Proof.
  intros H H' N. assert (I : In (nm_of s k) (bf_known b)).
  { destruct (parent_of s k) as [p|] eqn:P; [apply (Kn k p H P)|].
    assert (A : ancestor (parent_of s) k' k).
    { destruct H' as (r & R1 & R2), H as (r' & R3 & (R4 & _)). assert (r' = r) by (eapply root_fun; [apply (wf_root _ WFs i Fi)|eauto|eauto]). subst r'.
      inversion R4; subst; [apply R2|congruence]. }
    destruct (ancestor_climb _ _ _ A) as (l & C). destruct (climb_parent _ _ _ _ C) as (m & I & Q); [intros ->; inversion C; subst; congruence|].
    apply (Kn m k); auto. eapply T_up; [exact H'|]. eapply climb_in_ancestor; eauto. }
  unfold known_frame. destruct (ready_name s i Rdy k H) as (_ & Ne & Nsl). apply String.eqb_neq in Ne. rewrite Ne. cbn [negb andb].
  assert (E : existsb (String.eqb (nm_of s k)) (bf_known b) = true) by (apply existsb_exists; exists (nm_of s k); split; auto; apply String.eqb_refl). rewrite E, andb_true_r.
  destruct (nm_of s k) as [|c n]; auto. destruct (Ascii.eqb_spec c "/"); auto. subst c. exfalso. exact (Nsl n eq_refl).
Qed.
(* ---- the lookup ---- *)
Lemma depth k l : T k -> chain (parent_of s) k l -> List.length l <= 1001.
Proof.
  intros H C. destruct Rdy as (_ & _ & _ & D).
  assert (exists l' r, climb (parent_of s) k l' r /\ List.length l = S (List.length l')) as (l' & r & C' & ->).
  { clear - C. induction C as [k E|k p l E C (l' & r & C' & L)]; [exists [], k; split; [constructor|reflexivity]|]. exists (k :: l'), r. split; [econstructor; eauto|cbn; lia]. }
  pose proof (D k l' r H C'). lia.
Qed.
Lemma tree_walk u v : T u -> T v -> exists up dn c, climb (parent_of s) u up c /\ climb (parent_of s) v dn c /\
  (forall a, ancestor (parent_of s) u a -> ancestor (parent_of s) v a -> ancestor (parent_of s) c a).
Proof.
  intros Hu Hv. destruct (walk_same s u v WFs (T_lt u Hu) (T_lt v Hv)) as (up & down & c & _ & A & B & C).
  - destruct Hu as (r & R1 & R2), Hv as (r' & R3 & R4). assert (r' = r) by (eapply root_fun; [apply (wf_root _ WFs i Fi)|eauto|eauto]). subst r'. exists r. auto.
  - exists up, (rev down), c. auto.
Qed.
Lemma way_in u v up dn c k : T u -> T v -> climb (parent_of s) u up c -> climb (parent_of s) v dn c ->
  (forall a, ancestor (parent_of s) u a -> ancestor (parent_of s) v a -> ancestor (parent_of s) c a) ->
  on_way s u v k <-> In k (up ++ dn).
Proof.
  assert (G : forall u v up dn c k, T u -> T v -> climb (parent_of s) u up c -> climb (parent_of s) v dn c ->
    (forall a, ancestor (parent_of s) u a -> ancestor (parent_of s) v a -> ancestor (parent_of s) c a) ->
    (ancestor (parent_of s) u k /\ ~ ancestor (parent_of s) v k) <-> In k up).
  { clear u v up dn c k. intros u v up dn c k Hu Hv Cu Cv Lo. split.
    - intros (A & N). destruct (ancestor_linear (parent_of s) u c k) as [B|B]; auto; [exact (climb_ancestor _ _ _ _ Cu)| |].
      + exfalso. apply N. eapply ancestor_trans; [exact (climb_ancestor _ _ _ _ Cv)|exact B].
      + eapply (climb_below s (nm_of s) T WFs T_lt T_par T_inj u up c k); auto. intros ->. apply N. exact (climb_ancestor _ _ _ _ Cv).
    - intros I. split; [eapply climb_in_ancestor; eauto|]. intros A. apply (climb_not_above s u up c k WFs (T_lt u Hu) Cu I). apply Lo; auto. eapply climb_in_ancestor; eauto. }
  intros Hu Hv Cu Cv Lo. unfold on_way. rewrite (G u v up dn c k), (G v u dn up c k); auto. rewrite in_app_iff. reflexivity.
Qed.
Lemma lookup_walk u v z : T u -> T v -> u <> v -> z <> 0%Z -> buffer_lookup b (nm_of s v) (nm_of s u) z = walk_at b (nm_of s v) (nm_of s u) z.
Proof.
  intros Hu Hv N Nz. unfold buffer_lookup.
  assert (exists k', T k' /\ parent_of s k' <> None) as (k' & Hk & Nk).
  { destruct (parent_of s u) eqn:Pu; [exists u; split; auto; congruence|]. destruct (parent_of s v) eqn:Pv; [exists v; split; auto; congruence|]. exfalso. apply N.
    destruct Hu as (r & R1 & (R2 & _)), Hv as (r' & R3 & (R4 & _)). assert (r' = r) by (eapply root_fun; [apply (wf_root _ WFs i Fi)|eauto|eauto]). inversion R2; inversion R4; congruence. }
  rewrite (known v k'), (known u k'); auto. cbn [negb andb]. rewrite (eqb_nm (nm_of s) T T_inj u v) by auto. destruct (Nat.eqb_spec u v); [contradiction|].
  destruct (Z.eqb_spec z 0); [contradiction|]. reflexivity.
Qed.
Lemma lookup_zero u v up dn c : T u -> T v -> u <> v -> climb (parent_of s) u up c -> climb (parent_of s) v dn c ->
  (forall a, ancestor (parent_of s) u a -> ancestor (parent_of s) v a -> ancestor (parent_of s) c a) ->
  buffer_lookup b (nm_of s v) (nm_of s u) 0 = walk_at b (nm_of s v) (nm_of s u) (some_time (soonest (nm_of s) b (dn ++ up) None)).
Proof.
  intros Hu Hv N Cu Cv Lo. unfold buffer_lookup.
  assert (exists k', T k' /\ parent_of s k' <> None) as (k' & Hk & Nk).
  { destruct (parent_of s u) eqn:Pu; [exists u; split; auto; congruence|]. destruct (parent_of s v) eqn:Pv; [exists v; split; auto; congruence|]. exfalso. apply N.
    destruct Hu as (r & R1 & (R2 & _)), Hv as (r' & R3 & (R4 & _)). assert (r' = r) by (eapply root_fun; [apply (wf_root _ WFs i Fi)|eauto|eauto]). inversion R2; inversion R4; congruence. }
  rewrite (known v k'), (known u k'); auto. cbn [negb andb]. rewrite (eqb_nm (nm_of s) T T_inj u v) by auto. destruct (Nat.eqb_spec u v); [contradiction|].
  rewrite Z.eqb_refl. destruct (rooted_chain _ _ (wf_root _ WFs u (T_lt u Hu))) as (lu & Lu). destruct (rooted_chain _ _ (wf_root _ WFs v (T_lt v Hv))) as (lv & Lv).
  rewrite (latest_common_run s (nm_of s) T b WFs T_lt T_par T_inj edge Rt u v up dn c lu lv); auto; [exact (depth u lu Hu Lu)|exact (depth v lv Hv Lv)].
Qed.
Lemma walk_tree u v z up dn c : T u -> T v -> climb (parent_of s) u up c -> climb (parent_of s) v dn c ->
  (forall a, ancestor (parent_of s) u a -> ancestor (parent_of s) v a -> ancestor (parent_of s) c a) ->
  (have z up /\ have z dn /\ walk_at b (nm_of s v) (nm_of s u) z = Ok (gmul (ginv (prod z dn)) (prod z up))) \/
  (~ (have z up /\ have z dn) /\ walk_at b (nm_of s v) (nm_of s u) z = Raise RuntimeError).
Proof.
  intros Hu Hv Cu Cv Lo. destruct (rooted_chain _ _ (wf_root _ WFs u (T_lt u Hu))) as (lu & Lu). destruct (rooted_chain _ _ (wf_root _ WFs v (T_lt v Hv))) as (lv & Lv).
  eapply (walk_data s (nm_of s) T b WFs T_lt T_par T_inj edge Rt z u v up dn c lu lv); auto; [exact (depth u lu Hu Lu)|exact (depth v lv Hv Lv)].
Qed.
End Agree.
