(** Property C52: the tree handed to tf2. *)
From Coq Require Import Reals List String ZArith Bool Arith Lia Lra.
From Verif Require Import Base Quat NdArray Frames SpecForest FrameProofs WalkProofs Matcher SpecLookup LookupProofs RegistryProofs
  MovingProofs TimeProofs Examples PropForest PropMoving RosMsg PropRosMsg Broadcast TfTree.
Import ListNotations.
Open Scope nat_scope.
Open Scope list_scope.

(* ---- specification ---- *)
(** The message with this transform at this time. *)
Definition tf_msg (m : transform_stamped) (parent child : option string) (time : R) (t : vec3) (r : quat) : Prop :=
  header_at (ts_header m) parent time /\ ts_child m = child /\
  ts_transform m = TransformMsg {| m_x := vx t; m_y := vy t; m_z := vz t |} {| q_x := qx r; q_y := qy r; q_z := qz r; q_w := qw r |}.
(** What is set for frame k with parent p: one static transform, or for each timestamp
    (in nanoseconds), in order, the transform at that time. *)
Definition handed_over (s : state) (k p : nat) (calls : list tf_call) : Prop :=
  match transform_of s k with
  | Some (TStatic t r) => exists m, calls = [SetStatic m] /\ tf_msg m (name_of s p) (name_of s k) 0 t r
  | Some (TMoving ts t r _) =>
      List.length calls = List.length ts /\
      forall n x, nth_error ts n = Some x -> exists m t0 r0, nth_error calls n = Some (SetTransform m) /\
        nth_error t n = Some t0 /\ nth_error r n = Some r0 /\ tf_msg m (name_of s p) (name_of s k) (x / 1000000000)%R t0 r0
  | None => False
  end.
(** The frames of i's tree other than the root, each once, parents first. *)
Definition parents_first (s : state) (i : nat) (order : list nat) : Prop :=
  NoDup order /\
  (forall k, In k order <-> same_tree (parent_of s) i k /\ parent_of s k <> None) /\
  forall l1 k l2 p, order = l1 ++ k :: l2 -> parent_of s k = Some p -> parent_of s p = None \/ In p l1.
(** First and last timestamp of a frame. *)
Definition spans (s : state) (k : nat) (a z : R) : Prop :=
  exists ts t r d, transform_of s k = Some (TMoving ts t r d) /\ hd_error ts = Some a /\ nth_error ts (List.length ts - 1) = Some z.
(** Every frame of the tree is usable: a root without transform, or a transform; timestamps
    are not empty and not before 1970. *)
Definition usable (s : state) (i : nat) : Prop := forall k, same_tree (parent_of s) i k ->
  (parent_of s k = None /\ body_at s k = BRoot) \/
  (exists d, transform_of s k = Some d /\ match d with TStatic _ _ => True | TMoving ts _ _ _ => ts <> [] /\ Forall (fun x => (0 <= x)%R) ts end).

(* ---- preorder ---- *)
(** t is the list of the descendants of i, the parents first. *)
Definition below_list (s : state) (i : nat) (l : list nat) : Prop :=
  NoDup l /\ (forall k, In k l <-> ancestor (parent_of s) k i) /\
  (exists l', l = i :: l') /\
  forall l1 k l2 p, l = l1 ++ k :: l2 -> k <> i -> parent_of s k = Some p -> In p l1.

Lemma seq_ok {A B} (f : A -> res B) l : (forall a, In a l -> exists b, f a = Ok b) ->
  exists bs, traverse f l = Ok bs /\ Forall2 (fun a b => f a = Ok b) l bs.
Proof.
  unfold traverse. induction l as [|a l IH]; intros H; [exists []; split; [reflexivity|constructor]|]. cbn [map sequence].
  destruct (H a) as (b & E); [left; auto|]. destruct IH as (bs & Es & F); [intros; apply H; right; auto|]. rewrite E. cbn [bind]. rewrite Es. cbn [bind].
  exists (b :: bs). split; [reflexivity|]. constructor; auto.
Qed.
Lemma anc_step par k i : ancestor par k i -> k = i \/ exists c, par c = Some i /\ ancestor par k c.
Proof.
  intros H. induction H as [k|k p i H _ IH]; auto. right. destruct IH as [->|(c & A & B)]; [exists k; split; auto; constructor|].
  exists c. split; auto. eapply anc_up; eauto.
Qed.
Lemma anc_root par k i : ancestor par k i -> par k = None -> k = i.
Proof. intros H N. inversion H; subst; auto. congruence. Qed.
Lemma anc_no_cycle s i c : WF s -> i < size s -> parent_of s c = Some i -> ~ ancestor (parent_of s) i c.
Proof.
  intros W Hi Hc A. destruct (rooted_chain _ _ (wf_root _ W i Hi)) as (l & Hl). destruct (ancestor_climb _ _ _ A) as (l1 & C1).
  assert (C2 : climb (parent_of s) i (l1 ++ [c]) i). { eapply climb_app; [exact C1|]. econstructor; [exact Hc|constructor]. }
  pose proof (climb_chain _ _ _ _ _ C2 Hl) as H2. pose proof (chain_fun _ _ _ _ Hl H2) as E. apply (f_equal (@List.length nat)) in E. rewrite !app_length in E. cbn in E. lia.
Qed.
(** Two different children have disjoint subtrees. *)
Lemma anc_two s i c1 c2 k : WF s -> i < size s -> parent_of s c1 = Some i -> parent_of s c2 = Some i ->
  ancestor (parent_of s) k c1 -> ancestor (parent_of s) k c2 -> c1 = c2.
Proof.
  intros W Hi H1 H2 A1 A2.
  assert (G : forall a b, parent_of s a = Some i -> parent_of s b = Some i -> ancestor (parent_of s) a b -> a = b).
  { intros a b Ha Hb A. inversion A as [|? p ? Hp Ap]; subst; auto. rewrite Ha in Hp. injection Hp as <-. exfalso. eapply anc_no_cycle; eauto. }
  destruct (ancestor_linear _ _ _ _ A1 A2) as [A|A]; [auto|symmetry; auto].
Qed.
Lemma f2_in_r {A B} (P : A -> B -> Prop) l l' b : Forall2 P l l' -> In b l' -> exists a, In a l /\ P a b.
Proof. intros H. induction H as [|x y l l' Hp _ IH]; intros []; [subst; exists x; split; [left|]; auto|]. destruct (IH H) as (a & Ia & Pa). exists a. split; [right|]; auto. Qed.
Lemma f2_in_l {A B} (P : A -> B -> Prop) l l' a : Forall2 P l l' -> In a l -> exists b, In b l' /\ P a b.
Proof. intros H. induction H as [|x y l l' Hp _ IH]; intros []; [subst; exists y; split; [left|]; auto|]. destruct (IH H) as (b & B' & C). exists b. split; [right|]; auto. Qed.
Lemma app_split {A} (a b l1 l2 : list A) k : a ++ b = l1 ++ k :: l2 ->
  (exists l2', a = l1 ++ k :: l2') \/ (exists l1', l1 = a ++ l1' /\ b = l1' ++ k :: l2).
Proof.
  revert l1. induction a as [|x a IH]; intros l1 E; [right; exists l1; auto|]. destruct l1 as [|y l1]; cbn in E; injection E as -> E.
  - left. exists a. reflexivity.
  - destruct (IH l1 E) as [(l2' & ->)|(l1' & -> & ->)]; [left; exists l2'; reflexivity|right; exists l1'; auto].
Qed.

Lemma subtrees_ok s i cs ls : WF s -> i < size s -> NoDup cs -> (forall c, In c cs -> parent_of s c = Some i) -> Forall2 (below_list s) cs ls ->
  NoDup (List.concat ls) /\ (forall k, In k (List.concat ls) <-> exists c, In c cs /\ ancestor (parent_of s) k c) /\
  forall l1 k l2 p, List.concat ls = l1 ++ k :: l2 -> parent_of s k = Some p -> p = i \/ In p l1.
Proof.
  intros W Hi ND Hp F. induction F as [|c o cs ls Hb F IH]; cbn [List.concat].
  - split; [constructor|]. split; [intros k; split; [intros []|intros (c & [] & _)]|]. intros [|? l1] k l2 p E; discriminate.
  - inversion ND as [|? ? Nc ND']; subst. destruct (IH ND') as (A & B & C); [intros; apply Hp; right; auto|]. destruct Hb as (Hb1 & Hb2 & (o' & Hb3) & Hb4).
    assert (Hc : parent_of s c = Some i) by (apply Hp; left; auto).
    split; [|split].
    + assert (D : forall k, In k o -> ~ In k (List.concat ls)).
      { intros k Ho Hk. apply Hb2 in Ho. apply B in Hk as (c' & Hc' & Ak). assert (c = c') by (apply (anc_two s i c c' k); auto; apply Hp; right; auto). subst. contradiction. }
      revert Hb1 D A. generalize (List.concat ls). clear. intros m H D A. induction o as [|x o IH]; cbn; auto. inversion H; subst. constructor.
      * intros I. apply in_app_or in I as [I|I]; auto. apply (D x); auto. left. auto.
      * apply IH; auto. intros k Hk. apply D. right. auto.
    + intros k. rewrite in_app_iff, Hb2, B. split.
      * intros [H|(c' & H1 & H2)]; [exists c; split; [left; auto|auto]|exists c'; split; [right; auto|auto]].
      * intros (c' & [->|H1] & H2); [left; auto|right; eauto].
    + intros l1 k l2 p E Hk. apply app_split in E as [(l2' & E)|(l1' & -> & E)].
      * destruct (Nat.eq_dec k c) as [->|Nk]; [left; congruence|]. right. eapply Hb4; eauto.
      * destruct (C _ _ _ _ E Hk) as [->|I]; auto. right. apply in_or_app. right. auto.
Qed.
Lemma preorder_ok s : WF s -> forall fuel i l, i < size s -> chain (parent_of s) i l -> size s < fuel + List.length l ->
  exists o, preorder fuel s i = Ok o /\ below_list s i o.
Proof.
  intros W. induction fuel as [|fuel IH]; intros i l Hi Hl Hf.
  - exfalso. pose proof (nodup_lt_length (size s) l (chain_nodup _ _ _ Hl) (chain_lt _ _ _ W Hi Hl)). lia.
  - cbn [preorder].
    assert (C : forall c, In c (children_of s i) -> exists o, preorder fuel s c = Ok o /\ below_list s c o).
    { intros c Hc. destruct (wf_ch _ W c i Hc) as (Lc & Pc). apply (IH c (c :: l)); auto; [econstructor; eauto|cbn; lia]. }
    destruct (seq_ok (preorder fuel s) (children_of s i)) as (ls & E & F). { intros c Hc. destruct (C c Hc) as (o & Eo & _). eauto. }
    rewrite E. cbn [bind]. eexists. split; [reflexivity|].
    assert (F' : Forall2 (below_list s) (children_of s i) ls).
    { clear -F C. revert C. induction F as [|c o cs ls Ho F IHF]; intros C; constructor; [destruct (C c (or_introl eq_refl)) as (o' & E' & B); congruence|].
      apply IHF. intros; apply C; right; auto. }
    assert (Hp : forall c, In c (children_of s i) -> parent_of s c = Some i) by (intros c Hc; apply (wf_ch _ W c i Hc)).
    destruct (subtrees_ok s i _ ls W Hi (wf_nodup _ W i) Hp F') as (A & B & D). split; [|split; [|split; [eauto|]]].
    + constructor; auto. intros I. apply B in I as (c & Hc & Ac). exact (anc_no_cycle s i c W Hi (Hp c Hc) Ac).
    + intros k. cbn [In]. rewrite B. split.
      * intros [<-|(c & Hc & Ac)]; [constructor|]. eapply ancestor_trans; [exact Ac|]. eapply anc_up; [apply Hp; exact Hc|constructor].
      * intros Ak. apply anc_step in Ak as [->|(c & Hc & Ac)]; [left; auto|right]. exists c. split; auto. apply (wf_par _ W). exact Hc.
    + intros [|x l1] k l2 p El Nk Hk; injection El as <- El; [congruence|]. destruct (D _ _ _ _ El Hk) as [->|I]; [left; auto|right; auto].
Qed.
Lemma root_ok s i : WF s -> i < size s -> exists r, root_node s i = Ok r /\ root_of (parent_of s) i r /\ r < size s.
Proof.
  intros W Hi. unfold root_node. destruct (rpath_ok s i W Hi) as (l & -> & Hl). exists (last l i). split; [reflexivity|].
  assert (R : root_of (parent_of s) i (last l i)) by (apply (chain_last _ i l _ i Hl); reflexivity). split; [exact R|].
  pose proof (chain_lt _ _ _ W Hi Hl) as L. rewrite Forall_forall in L. apply L. destruct Hl; cbn [last]; [left; auto|].
  clear. assert (G : forall (x : nat) m d, In (last (x :: m) d) (x :: m)). { intros x m d. revert x. induction m as [|y m IH]; intros x; [left; auto|right; apply IH]. } apply G.
Qed.
Lemma tree_of_root s i r : WF s -> i < size s -> root_of (parent_of s) i r -> forall k, ancestor (parent_of s) k r <-> same_tree (parent_of s) i k.
Proof.
  intros W Hi R k. split.
  - intros A. exists r. split; auto. split; auto. apply R.
  - intros (r' & R1 & R2). assert (r = r') by (eapply root_fun; eauto; apply (wf_root _ W); auto). subst. apply R2.
Qed.

(* ---- the calls ---- *)
Lemma made s p k t r x : (0 <= x)%R -> exists m, make_transform_msg (vlist t) (qlist r) (name_of s p) (name_of s k) x = Ok m /\ tf_msg m (name_of s p) (name_of s k) x t r.
Proof.
  intros H. unfold make_transform_msg. destruct (from_sec_spec x H) as (st & -> & _ & B). cbn [bind vlist qlist mk_xyz mk_xyzw]. eexists. split; [reflexivity|].
  split; [|split; reflexivity]. split; [reflexivity|exact B].
Qed.
Lemma moving_calls s p k : forall ts t r, List.length t = List.length ts -> List.length r = List.length ts -> Forall (fun x => (0 <= x)%R) ts ->
  exists calls, set_transforms (name_of s p) (name_of s k) t r ts = Ok calls /\ List.length calls = List.length ts /\
    forall n x, nth_error ts n = Some x -> exists m t0 r0, nth_error calls n = Some (SetTransform m) /\
        nth_error t n = Some t0 /\ nth_error r n = Some r0 /\ tf_msg m (name_of s p) (name_of s k) (x / 1000000000)%R t0 r0.
Proof.
  induction ts as [|x ts IH]; intros [|t0 t] [|r0 r] H1 H2 Hp; cbn in H1, H2; try lia.
  - exists []. split; [reflexivity|]. split; [reflexivity|]. intros [|n] x; discriminate.
  - inversion Hp as [|? ? P0 P']; subst. destruct (IH t r) as (calls & E & L & N); auto. cbn [set_transforms].
    destruct (made s p k t0 r0 (stamp_of x)) as (m & -> & Hm); [unfold stamp_of; lra|]. cbn [bind]. rewrite E. cbn [bind]. eexists. split; [reflexivity|]. split; [cbn; lia|].
    intros [|n] y Hy; cbn in Hy; [injection Hy as <-; exists m, t0, r0; auto|]. apply (N n y Hy).
Qed.
Lemma node_ok s k : BodyOk s -> ((parent_of s k = None /\ body_at s k = BRoot) \/
  (exists d, transform_of s k = Some d /\ match d with TStatic _ _ => True | TMoving ts _ _ _ => ts <> [] /\ Forall (fun x => (0 <= x)%R) ts end)) ->
  exists calls, node_calls s k = Ok calls /\ match parent_of s k with None => calls = [] | Some p => handed_over s k p calls end.
Proof.
  intros BO H. unfold node_calls. destruct (parent_of s k) as [p|] eqn:Ep; [|exists []; auto]. destruct H as [(C & _)|(d & Hd & Hok)]; [discriminate|].
  assert (Eb : body_at s k = BTf d). { unfold transform_of in Hd. unfold body_at. destruct (get s k) as [n|]; [|discriminate]. destruct (nbody n); congruence. }
  rewrite Eb. unfold handed_over. rewrite Hd. specialize (BO k d Hd). destruct d as [t r|ts t r di].
  - destruct (made s p k t r 0) as (m & -> & Hm); [lra|]. cbn [bind]. exists [SetStatic m]. split; [reflexivity|]. exists m. auto.
  - destruct BO as (L1 & L2), Hok as (_ & Hpos). destruct (moving_calls s p k ts t r L1 L2 Hpos) as (calls & E & G). exists calls. auto.
Qed.
Lemma last_hd ts : ts <> [] -> exists a z, first_of ts = Ok a /\ last_of ts = Ok z /\ hd_error ts = Some a /\ nth_error ts (List.length ts - 1) = Some z.
Proof.
  intros N. destruct ts as [|a ts]; [congruence|]. exists a, (last ts a). split; [reflexivity|]. split; [reflexivity|]. split; [reflexivity|].
  cbn [List.length]. rewrite Nat.sub_succ, Nat.sub_0_r. apply nth_last.
Qed.
Lemma start_end_ok s k : ((parent_of s k = None /\ body_at s k = BRoot) \/
  (exists d, transform_of s k = Some d /\ match d with TStatic _ _ => True | TMoving ts _ _ _ => ts <> [] /\ Forall (fun x => (0 <= x)%R) ts end)) ->
  exists l, start_end (body_at s k) = Ok l /\ forall a z, In (a, z) l <-> exists a' z', spans s k a' z' /\ a = stamp_of a' /\ z = stamp_of z'.
Proof.
  assert (BT : forall d, transform_of s k = Some d <-> body_at s k = BTf d).
  { intros d. unfold transform_of, body_at. destruct (get s k) as [n|]; [|split; discriminate]. destruct (nbody n); split; congruence. }
  intros [(_ & H)|(d & Hd & Hok)].
  - rewrite H. exists []. split; [reflexivity|]. intros a z. split; [intros []|]. intros (a' & z' & (ts & t & r & di & E & _) & _). apply BT in E. congruence.
  - pose proof Hd as Hd'. apply BT in Hd'. rewrite Hd'. destruct d as [t r|ts t r di].
    + exists []. split; [reflexivity|]. intros a z. split; [intros []|]. intros (a' & z' & (ts & t' & r' & di & E & _) & _). congruence.
    + destruct Hok as (N & _). destruct (last_hd ts N) as (a0 & z0 & E1 & E2 & E3 & E4). unfold start_end. cbn [node_timestamps bind]. rewrite E1, E2. cbn [bind].
      eexists. split; [reflexivity|]. intros a z. split.
      * intros [E|[]]. injection E as <- <-. exists a0, z0. split; auto. exists ts, t, r, di. auto.
      * intros (a' & z' & (ts' & t' & r' & di' & E & F1 & F2) & -> & ->). rewrite Hd in E. injection E as <- <- <- <-. left. congruence.
Qed.
Lemma maxl_in a l : In (maxl a l) (a :: l).
Proof. unfold maxl. revert a. induction l as [|b l IH]; intros a; [left; auto|]. cbn [fold_left]. destruct (IH (Rmax a b)) as [E|I]; [|right; right; auto]. rewrite <- E. unfold Rmax. destruct (Rle_dec a b); cbn; auto. Qed.
Lemma minl_in a l : In (minl a l) (a :: l).
Proof. unfold minl. revert a. induction l as [|b l IH]; intros a; [left; auto|]. cbn [fold_left]. destruct (IH (Rmin a b)) as [E|I]; [|right; right; auto]. rewrite <- E. unfold Rmin. destruct (Rle_dec a b); cbn; auto. Qed.
Lemma cache_spec l : match cache_time l with
  | None => l = []
  | Some v => exists a z a1 z2, In (a, z2) l /\ In (a1, z) l /\ v = (z2 - a1)%R /\ forall x y, In (x, y) l -> (a1 <= x /\ y <= z2)%R
  end.
Proof.
  destruct l as [|(a0 & z0) l]; [reflexivity|]. cbn [cache_time].
  assert (M : exists a, In (a, maxl z0 (map snd l)) ((a0, z0) :: l)).
  { destruct (maxl_in z0 (map snd l)) as [E|I]; [exists a0; left; congruence|]. apply in_map_iff in I as ((x & y) & E & I). cbn in E. exists x. right. rewrite <- E. auto. }
  assert (N : exists z, In (minl a0 (map fst l), z) ((a0, z0) :: l)).
  { destruct (minl_in a0 (map fst l)) as [E|I]; [exists z0; left; congruence|]. apply in_map_iff in I as ((x & y) & E & I). cbn in E. exists y. right. rewrite <- E. auto. }
  destruct M as (a & M), N as (z & N). exists a, z, (minl a0 (map fst l)), (maxl z0 (map snd l)). split; auto. split; auto. split; auto.
  intros x y I. pose proof (proj1 (maxl_spec z0 (map snd l) _) (Rle_refl _)) as (A1 & A2). pose proof (proj1 (minl_spec a0 (map fst l) _) (Rle_refl _)) as (B1 & B2).
  rewrite Forall_forall in A2, B2. destruct I as [E|I]; [injection E as <- <-; auto|]. split; [apply B2|apply A2]; apply in_map_iff; [exists (x, y)|exists (x, y)]; auto.
Qed.
Lemma in_concat_f2 {A B} (f : A -> res (list B)) (P : A -> B -> Prop) l ls : Forall2 (fun a b => f a = Ok b) l ls ->
  (forall a b, In a l -> f a = Ok b -> forall x, In x b <-> P a x) -> forall x, In x (List.concat ls) <-> exists a, In a l /\ P a x.
Proof.
  intros F. induction F as [|a b l ls E F IH]; intros H x; cbn [List.concat]; [split; [intros []|intros (a & [] & _)]|].
  rewrite in_app_iff, IH by (intros; eapply H; eauto; right; auto). rewrite (H a b) by (auto; left; auto). split.
  - intros [Hx|(a' & I & Hx)]; [exists a; split; [left|]; auto|exists a'; split; [right|]; auto].
  - intros (a' & [->|I] & Hx); [left; auto|right; eauto].
Qed.

(* ---- C52 ---- *)
(** For every frame of a usable tree of a reachable state: the buffer gets, for the frames
    of the tree other than the root in an order with parents first, the transforms of each
    of them, and nothing else; its cache time reaches from the earliest first to the latest
    last timestamp.  Missing: trees with frames that are not usable (refuted below). *)
Theorem C52_partial : forall s i, reachable s -> frame s i -> usable s i ->
  exists cache calls order groups, from_reference_frame s i = Ok (cache, calls) /\
    parents_first s i order /\
    Forall2 (fun k g => exists p, parent_of s k = Some p /\ handed_over s k p g) order groups /\
    calls = List.concat groups /\
    match cache with
    | None => forall k a z, same_tree (parent_of s) i k -> ~ spans s k a z
    | Some v => exists k1 k2 a1 z1 a2 z2, same_tree (parent_of s) i k1 /\ same_tree (parent_of s) i k2 /\
        spans s k1 a1 z1 /\ spans s k2 a2 z2 /\ v = (z2 / 1000000000 - a1 / 1000000000)%R /\
        forall k a z, same_tree (parent_of s) i k -> spans s k a z -> (a1 <= a /\ z <= z2)%R
    end.
Proof.
  intros s i Rs Hi U. destruct (reachable_Inv s Rs) as (W & _). pose proof (reachable_BodyOk s Rs) as BO.
  destruct (root_ok s i W Hi) as (r & Er & Rr & Lr). pose proof (tree_of_root s i r W Hi Rr) as T.
  destruct (preorder_ok s W (S (List.length (heap s))) r [r]) as (nodes & En & ND & Mem & (rest & ->) & Ord).
  { exact Lr. } { constructor. apply Rr. } { unfold size. cbn. lia. }
  assert (Use : forall k, In k (r :: rest) -> (parent_of s k = None /\ body_at s k = BRoot) \/
     (exists d, transform_of s k = Some d /\ match d with TStatic _ _ => True | TMoving ts _ _ _ => ts <> [] /\ Forall (fun x => (0 <= x)%R) ts end)).
  { intros k Hk. apply U. apply T. apply Mem. exact Hk. }
  destruct (seq_ok (fun k => start_end (body_at s k)) (r :: rest)) as (se & Es & Fs). { intros k Hk. destruct (start_end_ok s k (Use k Hk)) as (l & E & _). eauto. }
  destruct (seq_ok (node_calls s) (r :: rest)) as (gs & Eg & Fg). { intros k Hk. destruct (node_ok s k BO (Use k Hk)) as (l & E & _). eauto. }
  assert (Root : parent_of s r = None) by apply Rr.
  inversion Fg as [|? g0 ? groups E0 Fg']; subst. assert (g0 = []) by (unfold node_calls in E0; rewrite Root in E0; congruence). subst g0.
  exists (cache_time (List.concat se)), (List.concat groups), rest, groups. split; [|split; [|split; [|split; [reflexivity|]]]].
  - unfold from_reference_frame. rewrite Er. cbn [bind]. rewrite En. cbn [bind]. rewrite Es. cbn [bind]. rewrite Eg. reflexivity.
  - inversion ND as [|? ? Nr ND']; subst. split; [exact ND'|]. split.
    + intros k. rewrite <- T, <- Mem. split.
      * intros Hk. split; [right; auto|]. intros Np. assert (k = r) by (apply (anc_root (parent_of s)); [apply Mem; right; auto|auto]). subst. contradiction.
      * intros ([<-|Hk] & Np); [congruence|auto].
    + intros l1 k l2 p E Hp. subst rest. assert (k <> r). { intros ->. apply Nr. apply in_or_app. right. left. auto. }
      assert (I : In p (r :: l1)) by (apply (Ord (r :: l1) k l2 p); auto). destruct I as [<-|I]; [left; exact Root|right; exact I].
  - assert (Use' : forall k, In k rest -> exists calls p, node_calls s k = Ok calls /\ parent_of s k = Some p /\ handed_over s k p calls).
    { intros k Hk. destruct (node_ok s k BO (Use k (or_intror Hk))) as (l & E & G). destruct (parent_of s k) as [p|] eqn:Ep; [eauto|].
      inversion ND as [|? ? Nr ND']; subst. exfalso. apply Nr. assert (k = r) as <-; auto. apply (anc_root (parent_of s)); [apply Mem; right; auto|auto]. }
    clear -Fg' Use'. induction Fg' as [|k g rest groups E F IH]; constructor.
    + destruct (Use' k (or_introl eq_refl)) as (l & p & E' & Ep & G). exists p. split; auto. congruence.
    + apply IH. intros; apply Use'; right; auto.
  - assert (C : forall x, In x (List.concat se) <-> exists k, In k (r :: rest) /\ exists a' z', spans s k a' z' /\ x = (stamp_of a', stamp_of z')).
    { apply (in_concat_f2 (fun k => start_end (body_at s k)) (fun k x => exists a' z', spans s k a' z' /\ x = (stamp_of a', stamp_of z')) _ _ Fs).
      intros k b Hk Eb (x & y). destruct (start_end_ok s k (Use k Hk)) as (l & E & G). assert (l = b) by congruence. subst. rewrite G. split; intros (a' & z' & A & B).
      - exists a', z'. destruct B as (-> & ->). auto.
      - exists a', z'. injection B as -> ->. auto. }
    pose proof (cache_spec (List.concat se)) as CS. destruct (cache_time (List.concat se)) as [v|].
    + destruct CS as (a & z & a1 & z2 & I1 & I2 & -> & B). apply C in I1 as (k2 & Hk2 & a2' & z2' & S2 & E2). apply C in I2 as (k1 & Hk1 & a1' & z1' & S1 & E1).
      injection E1 as -> ->. injection E2 as -> ->. exists k1, k2, a1', z1', a2', z2'. split; [apply T, Mem; auto|]. split; [apply T, Mem; auto|]. split; auto. split; auto. split; [reflexivity|].
      intros k a' z' Hk Sp. destruct (B (stamp_of a') (stamp_of z')) as (B1 & B2). { apply C. exists k. split; [apply Mem, T; auto|eauto]. } unfold stamp_of in *. lra.
    + intros k a z Hk Sp. assert (I : In (stamp_of a, stamp_of z) (List.concat se)) by (apply C; exists k; split; [apply Mem, T; auto|eauto]). rewrite CS in I. destruct I.
Qed.
(** Hence nothing expires while the buffer is filled: no transform of a frame with ordered
    timestamps is older than its latest by more than the cache time. *)
Theorem C52_no_expiry : forall s i v calls k ts t r d x y, reachable s -> frame s i -> usable s i -> from_reference_frame s i = Ok (Some v, calls) ->
  same_tree (parent_of s) i k -> transform_of s k = Some (TMoving ts t r d) -> decreasing_somewhere ts = false -> In x ts -> In y ts ->
  (y / 1000000000 - x / 1000000000 <= v)%R.
Proof.
  intros s i v calls k ts t r d x y Rs Hi U E Hk Hd Mono Hx Hy. destruct (C52_partial s i Rs Hi U) as (c & calls' & o & g & E' & _ & _ & _ & Hc).
  rewrite E in E'. injection E' as <- _. destruct Hc as (k1 & k2 & a1 & z1 & a2 & z2 & _ & _ & _ & _ & -> & B).
  assert (N : ts <> []) by (intros ->; destruct Hx). destruct (last_hd ts N) as (a & z & _ & _ & Ea & Ez).
  destruct (B k a z Hk) as (B1 & B2); [exists ts, t, r, d; auto|].
  assert (S : forall w, In w ts -> (a <= w <= z)%R).
  { clear -Mono Ea Ez N. revert a Ea. induction ts as [|b ts IH]; [congruence|]. intros a Ea w Hw. injection Ea as <-. destruct ts as [|c ts].
    - destruct Hw as [<-|[]]. cbn in Ez. injection Ez as <-. lra.
    - cbn [decreasing_somewhere] in Mono. apply orb_false_elim in Mono as (M1 & M2). apply Rlt_b_false in M1.
      assert (Z' : nth_error (c :: ts) (List.length (c :: ts) - 1) = Some z). { cbn [List.length] in *. rewrite Nat.sub_succ, Nat.sub_0_r in Ez |- *. exact Ez. }
      assert (Hc : forall w, In w (c :: ts) -> (c <= w <= z)%R) by (apply IH; auto; discriminate).
      destruct Hw as [<-|Hw]; [destruct (Hc c (or_introl eq_refl)); lra|]. destruct (Hc w Hw). lra. }
  destruct (S x Hx), (S y Hy). lra.
Qed.
(** The tree world <- m <- c, world <- d meets the hypotheses. *)
Example C52_example : reachable mov_lit /\ frame mov_lit 2 /\ usable mov_lit 2 /\ exists k, spans mov_lit k 0 3.
Proof.
  split; [apply mov_lit_reachable|]. split; [unfold frame, size; cbn; lia|]. split; [|exists 1, [0;1;3]%R; do 3 eexists; split; [reflexivity|]; split; reflexivity].
  intros k (r & R2 & A & N).
  assert (r = 0) by (apply (root_fun (parent_of mov_lit) 2 r 0 (wf_root _ (proj1 (reachable_Inv _ mov_lit_reachable)) 2 ltac:(unfold size; cbn; lia)) R2), mov_root; lia). subst r.
  destruct k as [|[|[|[|k]]]].
  - left. split; reflexivity.
  - right. eexists. split; [reflexivity|]. split; [discriminate|]. repeat constructor; lra.
  - right. eexists. split; [reflexivity|]. exact I.
  - right. eexists. split; [reflexivity|]. split; [discriminate|]. repeat constructor; lra.
  - exfalso. inversion A as [|? p ? Hp]; subst. destruct k; discriminate Hp.
Qed.
(** Not for every tree: after a constructor that raised, its incomplete child stays in the
    tree, and no frame of the tree can be handed over any more. *)
Theorem C52_refuted : exists s c e i, reachable s /\ frame s i /\ usable s i /\ snd (step s (ONew c)) = Raise e /\
  (exists x, from_reference_frame s i = Ok x) /\ exists e', from_reference_frame (fst (step s (ONew c))) i = Raise e'.
Proof.
  exists mov_lit, (stat "x" "world" [1; 2]%R [1; 0; 0; 0]%R), ValueError, 2. destruct C52_example as (A & B & C & _). split; auto. split; auto. split; auto. split; [reflexivity|]. split.
  - destruct (C52_partial mov_lit 2 A B C) as (x & y & _ & _ & E & _). eauto.
  - exists AttributeError. reflexivity.
Qed.

Print Assumptions C52_partial.
Print Assumptions C52_no_expiry.
Print Assumptions C52_refuted.
