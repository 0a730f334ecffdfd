(** Static lookups. *)
From Coq Require Import Reals List String Arith Bool Lia Lra.
From Verif Require Import Base Quat SpecQuat QuatProofs NdArray Frames SpecForest
  FrameProofs WalkProofs Matcher SpecLookup.
Import ListNotations.
Open Scope R_scope.

(* ---- the group of rigid transforms ---- *)
Definition rigid := (vec3 * quat)%type.
Definition gone : rigid := (v0, hone).
Definition gmul (g h : rigid) : rigid := (vadd (srot (snd g) (fst h)) (fst g), hmul (snd g) (snd h)).
Definition ginv (g : rigid) : rigid := (vopp (srot (hinv (snd g)) (fst g)), hinv (snd g)).
Definition gnz (g : rigid) : Prop := hn2 (snd g) <> 0.
Definition gact (g : rigid) (p : vec3) : vec3 := smove (fst g) (snd g) p.

Lemma vadd_assoc a b c : vadd (vadd a b) c = vadd a (vadd b c).
Proof. veq. Qed.
Lemma vadd_comm a b : vadd a b = vadd b a.
Proof. veq. Qed.
Lemma vadd_0_l a : vadd v0 a = a.
Proof. veq. Qed.
Lemma vadd_0_r a : vadd a v0 = a.
Proof. veq. Qed.
Lemma vadd_opp_r a : vadd a (vopp a) = v0.
Proof. veq. Qed.
Lemma vadd_opp_l a : vadd (vopp a) a = v0.
Proof. veq. Qed.
Lemma vsub_def a b : vsub a b = vadd a (vopp b).
Proof. veq. Qed.

Lemma gnz_one : gnz gone.
Proof. unfold gnz; simpl. rewrite hn2_one. lra. Qed.
Lemma gnz_mul g h : gnz g -> gnz h -> gnz (gmul g h).
Proof. apply hmul_nz. Qed.
Lemma gnz_inv g : gnz g -> gnz (ginv g).
Proof. apply hn2_hinv_nz. Qed.
Lemma gmul_1_l g : gmul gone g = g.
Proof. destruct g as [t r]. unfold gmul, gone; simpl. rewrite srot_one, vadd_0_r, hmul_1_l. reflexivity. Qed.
Lemma gmul_1_r g : gmul g gone = g.
Proof. destruct g as [t r]. unfold gmul, gone; simpl. rewrite srot_0, vadd_0_l, hmul_1_r. reflexivity. Qed.
Lemma gmul_assoc a b c : gnz a -> gnz b -> gmul (gmul a b) c = gmul a (gmul b c).
Proof. intros Ha Hb. unfold gmul; simpl. rewrite srot_hmul by auto. rewrite srot_add, vadd_assoc, hmul_assoc. reflexivity. Qed.
Lemma gmul_inv_l g : gnz g -> gmul (ginv g) g = gone.
Proof. intros H. unfold gmul, ginv, gone; simpl. rewrite vadd_opp_r, hinv_l by auto. reflexivity. Qed.
Lemma gmul_inv_r g : gnz g -> gmul g (ginv g) = gone.
Proof. intros H. unfold gmul, ginv, gone; simpl. rewrite srot_opp, srot_hinv_r, vadd_opp_l, hinv_r by auto. reflexivity. Qed.
Lemma gact_mul g h p : gnz g -> gnz h -> gact (gmul g h) p = gact g (gact h p).
Proof. intros Hg Hh. unfold gact, gmul, smove; simpl. rewrite srot_hmul by auto. rewrite srot_add, vadd_assoc. reflexivity. Qed.
Lemma gact_one p : gact gone p = p.
Proof. unfold gact, gone, smove; simpl. rewrite srot_one, vadd_0_r. reflexivity. Qed.
Lemma ginv_mul g h : gnz g -> gnz h -> ginv (gmul g h) = gmul (ginv h) (ginv g).
Proof.
  intros Hg Hh. 
  assert (Hm := gnz_mul _ _ Hg Hh). assert (Hgi := gnz_inv _ Hg). assert (Hhi := gnz_inv _ Hh).
  rewrite <- (gmul_1_r (ginv (gmul g h))).
  transitivity (gmul (ginv (gmul g h)) (gmul (gmul g h) (gmul (ginv h) (ginv g)))).
  - f_equal. rewrite gmul_assoc by auto. rewrite <- (gmul_assoc h) by auto.
    rewrite gmul_inv_r by auto. rewrite gmul_1_l, gmul_inv_r by auto. reflexivity.
  - rewrite <- gmul_assoc by auto using gnz_inv. rewrite gmul_inv_l by auto. apply gmul_1_l.
Qed.
Lemma ginv_ginv g : gnz g -> ginv (ginv g) = g.
Proof. intros H. unfold ginv; simpl. rewrite hinv_hinv by auto.
  rewrite srot_opp, srot_hinv_r by auto. destruct g as [t r]; simpl. f_equal. veq. Qed.
Lemma ginv_one : ginv gone = gone.
Proof. unfold ginv, gone. simpl. f_equal.
  - rewrite srot_0. veq.
  - unfold hinv. rewrite hn2_one. rewrite Rinv_1. veq. Qed.

Lemma q1_hone : q1 = hone.
Proof. reflexivity. Qed.

(** The model's step is multiplication by the frame's transform or its inverse. *)
Lemma step_fwd acc t r : hn2 r <> 0 ->
  step_with quat_rv false acc (t, r) = Ok (gmul (t, r) acc).
Proof. intros H. simpl. rewrite quat_rv_ok by (rewrite <- hn2_qnorm2; exact H). simpl.
  unfold gmul; simpl. rewrite qmulq_hmul. reflexivity. Qed.
Lemma step_bwd acc t r : hn2 r <> 0 ->
  step_with quat_rv true acc (t, r) = Ok (gmul (ginv (t, r)) acc).
Proof. intros H. simpl. rewrite qrecip_hinv by exact H. simpl.
  rewrite quat_rv_ok by (rewrite <- hn2_qnorm2; apply hn2_hinv_nz, H). simpl.
  unfold gmul, ginv; simpl. rewrite qmulq_hmul, vsub_def, srot_add, srot_opp. reflexivity. Qed.
Lemma step_with_nz inv acc t r acc' :
  step_with quat_rv inv acc (t, r) = Ok acc' -> hn2 r <> 0.
Proof. destruct inv; simpl; intros H.
  - apply bind_ok in H as (ri & Hr & _). apply qrecip_hinv_inv in Hr. tauto.
  - apply bind_ok in H as (t' & Hr & _). apply quat_rv_ok_inv in Hr. rewrite hn2_qnorm2. tauto. Qed.

(** Product of the static edges from i up to c. *)
Inductive gclimb (s : state) : nat -> list nat -> nat -> rigid -> Prop :=
| gc_nil i : gclimb s i [] i gone
| gc_cons i k t r l c g : parent_of s i = Some k -> transform_of s i = Some (TStatic t r) ->
    hn2 r <> 0 -> gclimb s k l c g -> gclimb s i (i :: l) c (gmul g (t, r)).

Lemma gclimb_nz s i l c g : gclimb s i l c g -> gnz g.
Proof. intros H. induction H; [apply gnz_one|apply gnz_mul; auto]. Qed.
Lemma gclimb_climb s i l c g : gclimb s i l c g -> climb (parent_of s) i l c.
Proof. intros H. induction H; econstructor; eauto. Qed.
Lemma gclimb_app s i l c g l' d h : gclimb s i l c g -> gclimb s c l' d h ->
  gclimb s i (l ++ l') d (gmul h g).
Proof. intros H; revert l' d h; induction H as [i|i k t r l c g Hp Ht Hr Hg IH]; simpl; intros l' d h H'.
  - rewrite gmul_1_r. exact H'.
  - rewrite <- gmul_assoc by (eauto using gclimb_nz). econstructor; eauto. Qed.
Lemma gclimb_fun s i l c g c' g' : gclimb s i l c g -> gclimb s i l c' g' -> c = c' /\ g = g'.
Proof. intros H; revert c' g'; induction H as [i|i k t r l c g Hp Ht Hr Hg IH]; intros c' g' H'; inversion H'; subst; auto.
  assert (k0 = k) by congruence. subst k0. match goal with X : gclimb s k l c' _ |- _ => destruct (IH _ _ X) as (-> & ->) end.
  split; auto. congruence. Qed.
Lemma gclimb_split s i l c g l' : gclimb s i (l ++ l') c g ->
  exists d g1 g2, gclimb s i l d g1 /\ gclimb s d l' c g2 /\ g = gmul g2 g1.
Proof. revert i g; induction l as [|a l IH]; simpl; intros i g H.
  - exists i, gone, g. split; [constructor|]. split; auto. symmetry; apply gmul_1_r.
  - inversion H; subst. match goal with X : gclimb s _ (l ++ l') c _ |- _ => destruct (IH _ _ X) as (d & g1 & g2 & Ha & Hb & ->) end.
    exists d, (gmul g1 (t, r)), g2. split; [econstructor; eauto|]. split; auto.
    apply gmul_assoc; eauto using gclimb_nz. Qed.

Lemma body_at_transform s i d : body_at s i = BTf d <-> transform_of s i = Some d.
Proof. unfold body_at, transform_of. destruct (get s i) as [n|].
  - destruct (nbody n); split; intros H; try discriminate; congruence.
  - split; discriminate. Qed.

Section S.
Variable squad : list R -> list quat -> R -> res quat.

Lemma fold_up s i up c fu acc acc' : climb (parent_of s) i up c ->
  traverse (fun k => add_frame (body_at s k) false) up = Ok fu ->
  foldM step_static fu acc = Ok acc' ->
  exists g, gclimb s i up c g /\ acc' = gmul g acc.
Proof.
  intros Hc; revert fu acc acc'; induction Hc as [i|i k l c Hp Hc IH]; intros fu acc acc' Hf Ha.
  - injection Hf as <-. simpl in Ha. injection Ha as <-. exists gone. split; [constructor|]. symmetry; apply gmul_1_l.
  - unfold traverse in Hf. simpl in Hf. apply bind_ok in Hf as (f & Hf & Hf').
    apply bind_ok in Hf' as (fu' & Hf' & E). injection E as <-.
    simpl in Ha. apply bind_ok in Ha as (acc1 & H1 & H2).
    destruct (body_at s i) as [|[t r|? ? ? ?]| | |] eqn:Eb; simpl in Hf; try discriminate.
    + injection Hf as <-. unfold step_static in H1. cbn [mf_data mf_inv static_from_frame bind] in H1.
      pose proof (step_with_nz _ _ _ _ _ H1) as Hr. rewrite step_fwd in H1 by exact Hr. injection H1 as <-.
      destruct (IH _ _ _ Hf' H2) as (g & Hg & ->). exists (gmul g (t, r)). split.
      * econstructor; eauto. apply body_at_transform; auto.
      * symmetry. apply gmul_assoc; eauto using gclimb_nz.
    + apply bind_ok in Hf as (u & _ & E). injection E as <-. discriminate.
Qed.
Lemma fold_down s j dn c fd acc acc' : climb (parent_of s) j dn c ->
  traverse (fun k => add_frame (body_at s k) true) (rev dn) = Ok fd ->
  foldM step_static fd acc = Ok acc' ->
  exists g, gclimb s j dn c g /\ acc' = gmul (ginv g) acc.
Proof.
  intros Hc; revert fd acc acc'; induction Hc as [i|i k l c Hp Hc IH]; intros fd acc acc' Hf Ha.
  - injection Hf as <-. simpl in Ha. injection Ha as <-. exists gone. split; [constructor|].
    rewrite ginv_one. symmetry; apply gmul_1_l.
  - simpl in Hf.
    assert (exists fl f, fd = fl ++ [f] /\ traverse (fun k => add_frame (body_at s k) true) (rev l) = Ok fl /\
             add_frame (body_at s i) true = Ok f) as (fl & f & -> & Hfl & Hf0).
    { clear -Hf. revert fd Hf. induction (rev l) as [|a m IHm]; intros fd Hf; unfold traverse in *; simpl in Hf.
      - apply bind_ok in Hf as (f & Hf & E). injection E as <-. exists [], f. auto.
      - apply bind_ok in Hf as (f & Hf & E). apply bind_ok in E as (m' & Hm & E). injection E as <-.
        destruct (IHm _ Hm) as (fl & f' & -> & H1 & H2). exists (f :: fl), f'. simpl. rewrite Hf, H1. auto. }
    assert (exists acc1, foldM step_static fl acc = Ok acc1 /\ step_static acc1 f = Ok acc') as (acc1 & H1 & H2).
    { clear -Ha. revert acc Ha. induction fl as [|a fl IHf]; simpl; intros acc Ha.
      - apply bind_ok in Ha as (x & Hx & E). injection E as <-. eauto.
      - apply bind_ok in Ha as (x & Hx & E). rewrite Hx. simpl. auto. }
    destruct (IH _ _ _ Hfl H1) as (g & Hg & ->).
    destruct (body_at s i) as [|[t r|? ? ? ?]| | |] eqn:Eb; simpl in Hf0; try discriminate.
    + injection Hf0 as <-. unfold step_static in H2. cbn [mf_data mf_inv static_from_frame bind] in H2.
      pose proof (step_with_nz _ _ _ _ _ H2) as Hr. rewrite step_bwd in H2 by exact Hr. injection H2 as <-.
      assert (Hgz := gclimb_nz _ _ _ _ _ Hg). exists (gmul g (t, r)). split.
      * econstructor; eauto. apply body_at_transform; auto.
      * rewrite ginv_mul by auto. symmetry. apply gmul_assoc; apply gnz_inv; auto.
    + apply bind_ok in Hf0 as (u & _ & E). injection E as <-. discriminate.
Qed.

Lemma foldM_app {A B} (f : A -> B -> res A) l1 l2 a :
  foldM f (l1 ++ l2) a = (a' <- foldM f l1 a ;; foldM f l2 a').
Proof. revert a; induction l1 as [|b l1 IH]; simpl; intros a; auto.
  destruct (f a b); simpl; auto. Qed.
Lemma traverse_app {A B} (f : A -> res B) l1 l2 :
  traverse f (l1 ++ l2) = (a <- traverse f l1 ;; b <- traverse f l2 ;; Ok (a ++ b)).
Proof. unfold traverse. induction l1 as [|x l1 IH]; simpl.
  - destruct (sequence (map f l2)); reflexivity.
  - destruct (f x); simpl; auto. rewrite IH. destruct (sequence (map f l1)); simpl; auto.
    destruct (sequence (map f l2)); reflexivity. Qed.

Lemma gclimb_frames s i l c g inv : gclimb s i l c g ->
  exists ds, traverse (fun k => add_frame (body_at s k) inv) l = Ok (map (fun d => MF d inv) ds) /\
  Forall (fun d => exists t r, d = TStatic t r) ds.
Proof. intros H. induction H as [i|i k t r l c g Hp Ht Hr Hg (ds & IH1 & IH2)].
  - exists []. split; constructor.
  - exists (TStatic t r :: ds). split; [|constructor; eauto].
    unfold traverse in *. simpl. apply body_at_transform in Ht. rewrite Ht. simpl. rewrite IH1. reflexivity. Qed.

Lemma fold_up_ok s i up c g : gclimb s i up c g ->
  exists fu, traverse (fun k => add_frame (body_at s k) false) up = Ok fu /\
   Forall (fun f => exists t r, mf_data f = TStatic t r) fu /\
   forall acc, foldM step_static fu acc = Ok (gmul g acc).
Proof.
  intros H. induction H as [i|i k t r l c g Hp Ht Hr Hg (fu & IH1 & IH2 & IH3)].
  - exists []. repeat split; auto. intros acc. simpl. rewrite gmul_1_l. reflexivity.
  - exists (MF (TStatic t r) false :: fu). apply body_at_transform in Ht. repeat split.
    + unfold traverse in *. simpl. rewrite Ht. simpl. rewrite IH1. reflexivity.
    + constructor; eauto. exists t, r; reflexivity.
    + intros acc. simpl. unfold step_static at 1. cbn [mf_data mf_inv static_from_frame bind].
      rewrite step_fwd by exact Hr. simpl. rewrite IH3. f_equal. symmetry. apply gmul_assoc; eauto using gclimb_nz.
Qed.
Lemma fold_down_ok s j dn c g : gclimb s j dn c g ->
  exists fd, traverse (fun k => add_frame (body_at s k) true) (rev dn) = Ok fd /\
   Forall (fun f => exists t r, mf_data f = TStatic t r) fd /\
   forall acc, foldM step_static fd acc = Ok (gmul (ginv g) acc).
Proof.
  intros H. induction H as [i|i k t r l c g Hp Ht Hr Hg (fd & IH1 & IH2 & IH3)].
  - exists []. repeat split; auto. intros acc. simpl. rewrite ginv_one, gmul_1_l. reflexivity.
  - exists (fd ++ [MF (TStatic t r) true]). apply body_at_transform in Ht. repeat split.
    + simpl. rewrite traverse_app, IH1. simpl. unfold traverse. simpl. rewrite Ht. reflexivity.
    + apply Forall_app. split; auto. constructor; auto. exists t, r; reflexivity.
    + intros acc. rewrite foldM_app, IH3. simpl. unfold step_static. cbn [mf_data mf_inv static_from_frame bind].
      rewrite step_bwd by exact Hr. simpl. f_equal. assert (Hgz := gclimb_nz _ _ _ _ _ Hg).
      rewrite ginv_mul by auto. symmetry. apply gmul_assoc; apply gnz_inv; auto.
Qed.

Lemma static_timestamps fs b :
  Forall (fun f => exists t r, mf_data f = TStatic t r) fs ->
  get_timestamps (Mat fs []) b = Ok None.
Proof.
  intros H. 
  assert (Hc : cont_list (Mat fs []) = []).
  { unfold cont_list; simpl. induction H as [|f fs (t & r & E) _ IH]; simpl; auto. unfold cont_ts at 1. rewrite E. auto. }
  assert (Hd : disc_list (Mat fs []) = []).
  { unfold disc_list; simpl. clear Hc. induction H as [|f fs (t & r & E) _ IH]; simpl; auto. unfold disc_ts at 1. rewrite E. auto. }
  unfold get_timestamps, get_range. rewrite Hc, Hd. simpl. destruct b; reflexivity.
Qed.

(** Characterisation of successful static lookups. *)
Definition static_link (s : state) (i j : nat) (g : rigid) : Prop :=
  exists up down c gi gj, walks s i j up down c /\ gclimb s i up c gi /\ gclimb s j (rev down) c gj /\
    g = gmul (ginv gj) gi.

Lemma lookup_static_iff s i to j t r : Inv s -> (i < size s)%nat -> resolve_rf s to = Ok j ->
  lookup_transform squad s i to = Ok (TrStatic t r) <-> static_link s i j (t, r).
Proof.
  intros (W & Hreg) Hi Hres. pose proof (resolve_lt s to j Hreg Hres) as Hj.
  unfold lookup_transform. rewrite Hres. simpl. unfold frames_between. split.
  - intros H. apply bind_ok in H as (fs & H & Hg).
    apply bind_ok in H as ([up down] & Hw & H). apply bind_ok in H as (fu & Hu & H).
    apply bind_ok in H as (fd & Hd & H). injection H as <-.
    unfold get_transformation in Hg. apply bind_ok in Hg as (o & Ho & Hg).
    destruct o as [l|].
    { simpl in Hg. destruct (fu ++ fd).
      - discriminate.
      - apply bind_ok in Hg as (? & _ & E). discriminate. }
    simpl in Hg. apply bind_ok in Hg as ([t' r'] & Hf & E). injection E as <- <-.
    rewrite foldM_app in Hf. apply bind_ok in Hf as (acc1 & H1 & H2).
    destruct (walk_ok_inv s i j up down W Hi Hj Hw) as (_ & c & Hwk).
    pose proof Hwk as (C1 & C2 & C3).
    destruct (fold_up s i up c fu _ _ C1 Hu H1) as (gi & G1 & ->).
    rewrite <- (rev_involutive down) in Hd.
    destruct (fold_down s j (rev down) c fd _ _ C2 Hd H2) as (gj & G2 & E).
    exists up, down, c, gi, gj. rewrite q1_hone in E. fold gone in E. rewrite gmul_1_r in E.
    repeat split; auto.
  - intros (up & down & c & gi & gj & Hw & G1 & G2 & E).
    rewrite (walk_unique s i j up down c W Hi Hj Hw). simpl.
    destruct (fold_up_ok _ _ _ _ _ G1) as (fu & -> & F1 & H1). simpl.
    destruct (fold_down_ok _ _ _ _ _ G2) as (fd & Hd & F2 & H2). rewrite rev_involutive in Hd. rewrite Hd. simpl.
    unfold get_transformation. rewrite static_timestamps by (apply Forall_app; auto). simpl.
    rewrite foldM_app. rewrite H1. simpl. rewrite H2. rewrite q1_hone. fold gone. rewrite gmul_1_r, <- E. reflexivity.
Qed.

(* coordinates *)
Lemma coords_trans s x i p a P b Q : coords squad s x i p a P -> coords squad s x a P b Q -> coords squad s x i p b Q.
Proof. intros H. induction H; auto. intros. econstructor; eauto. Qed.
Lemma coords_ancestor s x i p a P : coords squad s x i p a P -> ancestor (parent_of s) i a.
Proof. intros H. induction H; econstructor; eauto. Qed.
Lemma coords_split s x i l c p a P : WF s -> (i < size s)%nat -> climb (parent_of s) i l c -> ancestor (parent_of s) c a ->
  coords squad s x i p a P -> exists Q, coords squad s x i p c Q /\ coords squad s x c Q a P.
Proof.
  intros W Hi Hc; revert p Hi; induction Hc as [i|i k l c Hp Hc IH]; intros p Hi Ha H.
  - exists p. split; [constructor|auto].
  - inversion H; subst.
    + exfalso. assert (A : ancestor (parent_of s) a a) by constructor.
      assert (Hr : rooted (parent_of s) a) by (apply (wf_root _ W); auto).
      destruct (ancestor_climb _ _ _ Ha) as (m & Hm).
      assert (Hcl : climb (parent_of s) a ((a :: l) ++ m) a) by (eapply climb_app; [econstructor; eauto|eauto]).
      destruct (rooted_chain _ _ Hr) as (q & Hq). pose proof (climb_chain _ _ _ _ _ Hcl Hq) as K.
      pose proof (chain_fun _ _ _ _ K Hq) as E. apply (f_equal (@List.length nat)) in E.
      rewrite !app_length in E. simpl in E. lia.
    + assert (k0 = k) by congruence. subst k0.
      assert (Hk : (k < size s)%nat) by (apply (wf_par _ W) in Hp; tauto).
      destruct (IH _ Hk Ha H4) as (Q & H5 & H6). exists Q. split; auto. econstructor; eauto.
Qed.
Lemma gclimb_coords s i l c g x p : gclimb s i l c g -> coords squad s x i p c (gact g p).
Proof. intros H; revert p; induction H as [i|i k t r l c g Hp Ht Hr Hg IH]; intros p.
  - rewrite gact_one. constructor.
  - rewrite gact_mul by (eauto using gclimb_nz). econstructor; eauto. constructor. Qed.
Lemma gclimb_coords_inv s i l c g x p Q : WF s -> (i < size s)%nat -> gclimb s i l c g -> coords squad s x i p c Q -> Q = gact g p.
Proof. intros W Hi H; revert p Hi; induction H as [i|i k t r l c g Hp Ht Hr Hg IH]; intros p Hi Hc.
  - inversion Hc; subst; [symmetry; apply gact_one|]. exfalso.
    assert (Hk : climb (parent_of s) i [i] k) by (econstructor; eauto; constructor).
    apply coords_ancestor in H3. destruct (ancestor_climb _ _ _ H3) as (m & Hm).
    pose proof (climb_app _ _ _ _ _ _ Hk Hm) as Hcl.
    destruct (rooted_chain _ _ (wf_root _ W i Hi)) as (q & Hq). pose proof (climb_chain _ _ _ _ _ Hcl Hq) as K.
    pose proof (chain_fun _ _ _ _ K Hq) as E. apply (f_equal (@List.length nat)) in E.
    rewrite !app_length in E. simpl in E. lia.
  - assert (Hk : (k < size s)%nat) by (apply (wf_par _ W) in Hp; tauto).
    inversion Hc; subst.
    + exfalso. apply gclimb_climb in Hg. 
      assert (Hcl : climb (parent_of s) c (c :: l) c) by (econstructor; eauto).
      destruct (rooted_chain _ _ (wf_root _ W c Hi)) as (q & Hq). pose proof (climb_chain _ _ _ _ _ Hcl Hq) as K.
      pose proof (chain_fun _ _ _ _ K Hq) as E. apply (f_equal (@List.length nat)) in E.
      simpl in E. rewrite !app_length in E. lia.
    + assert (k0 = k) by congruence. subst k0. rewrite H0 in Ht. injection Ht as ->. inversion H1; subst.
      rewrite gact_mul by (eauto using gclimb_nz). apply IH; auto. Qed.

Lemma lookup_static_sound s i to j t r : Inv s -> (i < size s)%nat -> resolve_rf s to = Ok j ->
  lookup_transform squad s i to = Ok (TrStatic t r) ->
  hnonzero r /\
  forall x p a P, coords squad s x i p a P -> ancestor (parent_of s) j a ->
                  coords squad s x j (smove t r p) a P.
Proof.
  intros I Hi Hres H. pose proof I as (W & Hreg). apply (lookup_static_iff s i to j t r I Hi Hres) in H.
  destruct H as (up & down & c & gi & gj & (C1 & C2 & C3) & G1 & G2 & E).
  assert (Gi := gclimb_nz _ _ _ _ _ G1). assert (Gj := gclimb_nz _ _ _ _ _ G2).
  split.
  { change (gnz (t, r)). rewrite E. apply gnz_mul; auto. apply gnz_inv; auto. }
  intros x p a P Hc Ha.
  assert (Hca : ancestor (parent_of s) c a) by (apply C3; [eapply coords_ancestor; eauto|auto]).
  destruct (coords_split s x i up c p a P W Hi C1 Hca Hc) as (Q & H1 & H2).
  rewrite (gclimb_coords_inv _ _ _ _ _ _ _ _ W Hi G1 H1) in H2.
  eapply coords_trans; [|exact H2].
  pose proof (gclimb_coords s j (rev down) c gj x (smove t r p) G2) as H3.
  replace (gact gj (smove t r p)) with (gact gi p) in H3; auto.
  change (smove t r p) with (gact (t, r) p). rewrite E.
  rewrite <- !gact_mul by (auto using gnz_mul, gnz_inv). f_equal.
  rewrite <- gmul_assoc by (auto using gnz_inv). rewrite gmul_inv_r by auto. symmetry; apply gmul_1_l.
Qed.

Lemma resolve_frame s i : (i < size s)%nat -> resolve_rf s (PFrame i) = Ok i.
Proof. intros H. simpl. destruct (get_lt s i H) as (n & ->). reflexivity. Qed.

Lemma walks_refl s i : walks s i i [] [] i.
Proof. split; [constructor|]. split; [constructor|]. auto. Qed.

Lemma lookup_self s i to : Inv s -> (i < size s)%nat -> resolve_rf s to = Ok i ->
  lookup_transform squad s i to = Ok (TrStatic v0 q1).
Proof.
  intros I Hi Hres. apply (lookup_static_iff s i to i); auto.
  exists [], [], i, gone, gone. repeat split; try constructor; auto.
  rewrite ginv_one, gmul_1_l. reflexivity.
Qed.

Lemma walks_sym s i j up down c : walks s i j up down c -> walks s j i (rev down) (rev up) c.
Proof. intros (H1 & H2 & H3). split; auto. split; [rewrite rev_involutive; auto|]. auto. Qed.

Lemma static_link_sym s i j g : static_link s i j g -> static_link s j i (ginv g) /\ gnz g.
Proof. intros (up & down & c & gi & gj & Hw & G1 & G2 & ->).
  assert (Gi := gclimb_nz _ _ _ _ _ G1). assert (Gj := gclimb_nz _ _ _ _ _ G2).
  split; [|auto using gnz_mul, gnz_inv].
  exists (rev down), (rev up), c, gj, gi. split; [apply walks_sym; auto|]. split; auto.
  split; [rewrite rev_involutive; auto|].
  rewrite ginv_mul by auto using gnz_inv. rewrite ginv_ginv by auto. reflexivity. Qed.

(** A static link to any common ancestor gives the link. *)
Lemma static_link_common s i j li lj a gi gj : Inv s -> (i < size s)%nat -> (j < size s)%nat ->
  gclimb s i li a gi -> gclimb s j lj a gj -> static_link s i j (gmul (ginv gj) gi).
Proof.
  intros I Hi Hj G1 G2. pose proof I as (W & _).
  assert (Ha : (a < size s)%nat) by (eapply ancestor_lt; eauto; eapply climb_ancestor, gclimb_climb; eauto).
  assert (Hst : same_tree (parent_of s) i j).
  { eapply same_tree_trans; [exact W|exact Ha| |].
    - eapply climb_ancestor_same; eauto using gclimb_climb.
    - apply same_tree_sym. eapply climb_ancestor_same; eauto using gclimb_climb. }
  destruct (walk_same s i j W Hi Hj Hst) as (up & down & c & _ & Hw). pose proof Hw as (C1 & C2 & C3).
  assert (Hca : ancestor (parent_of s) c a) by (apply C3; eapply climb_ancestor, gclimb_climb; eauto).
  destruct (climb_split _ _ _ _ _ _ (wf_root _ W i Hi) C1 Hca (gclimb_climb _ _ _ _ _ G1)) as (m1 & -> & M1).
  destruct (climb_split _ _ _ _ _ _ (wf_root _ W j Hj) C2 Hca (gclimb_climb _ _ _ _ _ G2)) as (m2 & -> & M2).
  assert (m1 = m2).
  { destruct (climb_split _ _ _ _ _ _ (wf_root _ W c (ancestor_lt _ _ _ W Hi (climb_ancestor _ _ _ _ C1))) (climb_nil _ c) Hca M1) as (q1' & E1 & K1).
    assert (Hr := wf_root _ W a Ha). destruct (rooted_chain _ _ Hr) as (q & Hq).
    pose proof (chain_fun _ _ _ _ (climb_chain _ _ _ _ _ M1 Hq) (climb_chain _ _ _ _ _ M2 Hq)) as E.
    apply app_inv_tail in E. exact E. }
  subst m2.
  destruct (gclimb_split _ _ _ _ _ _ G1) as (d1 & g1 & h1 & K1 & K2 & ->).
  destruct (gclimb_split _ _ _ _ _ _ G2) as (d2 & g2 & h2 & K3 & K4 & ->).
  assert (d1 = c). { pose proof (gclimb_climb _ _ _ _ _ K1) as X. clear -X C1.
    revert d1 X. induction C1 as [|i k l c Hp Hc IH]; intros d1 X; inversion X; subst; auto. apply IH. congruence. }
  assert (d2 = c). { pose proof (gclimb_climb _ _ _ _ _ K3) as X. clear -X C2.
    revert d2 X. induction C2 as [|i k l c Hp Hc IH]; intros d2 X; inversion X; subst; auto. apply IH. congruence. }
  subst d1 d2. destruct (gclimb_fun _ _ _ _ _ _ _ K2 K4) as (_ & ->).
  exists up, down, c, g1, g2. repeat split; auto.
  assert (N1 := gclimb_nz _ _ _ _ _ K1). assert (N2 := gclimb_nz _ _ _ _ _ K2). assert (N3 := gclimb_nz _ _ _ _ _ K3).
  rewrite ginv_mul by auto. rewrite gmul_assoc by (auto using gnz_inv). f_equal.
  rewrite <- gmul_assoc by (auto using gnz_inv). rewrite gmul_inv_l by auto. apply gmul_1_l.
Qed.

Lemma static_link_trans s i j k g h : Inv s -> (i < size s)%nat -> (j < size s)%nat -> (k < size s)%nat ->
  static_link s i j g -> static_link s j k h -> static_link s i k (gmul h g).
Proof.
  intros I Hi Hj Hk (u1 & d1 & c1 & gi & gj & (A1 & A2 & A3) & G1 & G2 & ->)
                    (u2 & d2 & c2 & gj' & gk & (B1 & B2 & B3) & G3 & G4 & ->).
  pose proof I as (W & _).
  assert (N1 := gclimb_nz _ _ _ _ _ G1). assert (N2 := gclimb_nz _ _ _ _ _ G2).
  assert (N3 := gclimb_nz _ _ _ _ _ G3). assert (N4 := gclimb_nz _ _ _ _ _ G4).
  destruct (ancestor_linear _ _ _ _ (climb_ancestor _ _ _ _ A2) (climb_ancestor _ _ _ _ B1)) as [L|L].
  - destruct (climb_split _ _ _ _ _ _ (wf_root _ W j Hj) A2 L B1) as (m & E & M).
    rewrite E in G3. destruct (gclimb_split _ _ _ _ _ _ G3) as (d & g1 & g2 & K1 & K2 & ->).
    destruct (gclimb_fun _ _ _ _ _ _ _ K1 G2) as (-> & ->).
    pose proof (gclimb_app _ _ _ _ _ _ _ _ G1 K2) as K3.
    pose proof (static_link_common _ _ _ _ _ _ _ _ I Hi Hk K3 G4) as R.
    assert (N5 := gclimb_nz _ _ _ _ _ K2).
    replace (gmul (gmul (ginv gk) (gmul g2 gj)) (gmul (ginv gj) gi)) with (gmul (ginv gk) (gmul g2 gi)); auto.
    rewrite !gmul_assoc by (auto using gnz_inv, gnz_mul). f_equal. f_equal.
    rewrite <- gmul_assoc by (auto using gnz_inv). rewrite gmul_inv_r by auto. symmetry; apply gmul_1_l.
  - destruct (climb_split _ _ _ _ _ _ (wf_root _ W j Hj) B1 L A2) as (m & E & M).
    rewrite E in G2. destruct (gclimb_split _ _ _ _ _ _ G2) as (d & g1 & g2 & K1 & K2 & ->).
    destruct (gclimb_fun _ _ _ _ _ _ _ K1 G3) as (-> & ->).
    pose proof (gclimb_app _ _ _ _ _ _ _ _ G4 K2) as K3.
    pose proof (static_link_common _ _ _ _ _ _ _ _ I Hi Hk G1 K3) as R.
    assert (N5 := gclimb_nz _ _ _ _ _ K2).
    replace (gmul (gmul (ginv gk) gj') (gmul (ginv (gmul g2 gj')) gi)) with (gmul (ginv (gmul g2 gk)) gi); auto.
    rewrite !ginv_mul by auto. rewrite !gmul_assoc by (auto using gnz_inv, gnz_mul). f_equal.
    rewrite <- (gmul_assoc gj') by (auto using gnz_inv, gnz_mul). rewrite gmul_inv_r by auto. symmetry; apply gmul_1_l.
Qed.
End S.
