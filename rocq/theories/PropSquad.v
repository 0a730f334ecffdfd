(** Property C79: the interpolated orientation of a continuous frame. *)
From Coq Require Import Reals List Arith Bool Lia Lra.
From Verif Require Import Base Quat SpecQuat QuatProofs Frames Matcher SpecForest SpecLookup FrameProofs LookupProofs MovingProofs TimeProofs InverseProofs RouteProofs
  PropForest PropLookup PropMoving Coord RotVec PropRotVec Squad SquadProofs.
Import ListNotations.
Open Scope R_scope.

Lemma filter_short {A} (f : A -> bool) l : (length (filter f l) <= length l)%nat.
Proof. induction l as [|a l IH]; cbn; [lia|]. destruct (f a); cbn; lia. Qed.
Lemma interval_lt ts x : (0 < length ts)%nat -> (interval_of ts x < length ts)%nat.
Proof.
  intros L. unfold interval_of, final. pose proof (filter_short (fun t => Rle_b t x) ts) as F.
  destruct (length (filter _ ts)); lia.
Qed.
Lemma vzero k l u : k + l = 0 -> vadd (vscale k u) (vscale l u) = v0.
Proof. intros H. replace l with (- k) by lra. destruct u; unfold vadd, vscale, v0; cbn. f_equal; ring. Qed.
(* ------------------------------------------------------------------ rotation at a constant rate *)
Lemma map_nth_R {A} (f : R -> A) ts k d : (k < length ts)%nat -> nth k (map f ts) d = f (nth k ts 0).
Proof. intros H. rewrite (nth_indep _ d (f 0)) by (rewrite map_length; exact H). apply map_nth. Qed.
Section Steady.
  Variables (ts : list R) (p : quat) (u : vec3) (c : R).
  Hypothesis Inc : increasing ts.
  Hypothesis Len : (2 <= length ts)%nat.
  Hypothesis Hp : hunit p.
  Hypothesis Hu : vdot u u = 1.
  Hypothesis Step : forall k, (S k < length ts)%nat -> - PI <= c * (nth (S k) ts 0 - nth k ts 0) <= PI.
  Let rr := map (fun t => hmul p (about_axis u (c * t))) ts.
  Lemma steady_sample k : (k < length ts)%nat -> sample rr k = hmul p (about_axis u (c * stime ts k)).
  Proof. intros H. unfold sample, rr. rewrite map_nth_R by exact H. reflexivity. Qed.
  Lemma steady_between s t : hmul (hconj (hmul p (about_axis u s))) (hmul p (about_axis u t)) = about_axis u (t - s).
  Proof.
    rewrite hconj_hmul, hmul_assoc, <- (hmul_assoc (hconj p)), hconj_l, hmul_1_l by exact Hp.
    replace (hconj (about_axis u s)) with (about_axis u (- s)).
    - rewrite about_add by exact Hu. f_equal. lra.
    - unfold about_axis. replace (- s / 2) with (- (s / 2)) by lra. rewrite cos_neg, sin_neg. destruct u as [u1 u2 u3]; cbv [hconj mkq sc ve vopp vscale vx vy vz qw qx qy qz]. f_equal; ring.
  Qed.
  Lemma steady_log k : (S k < length ts)%nat -> turn_log rr k = mkq 0 (vscale (c * gap ts k / 2) u).
  Proof.
    intros H. unfold turn_log. rewrite qmulq_hmul, qconj_hconj, !steady_sample by lia. rewrite steady_between.
    replace (c * stime ts (S k) - c * stime ts k) with (c * gap ts k) by (unfold gap; ring). rewrite log_unit by (apply about_unit, Hu).
    pose proof PI_RGT_0. specialize (Step k H). fold (stime ts k) (stime ts (S k)) in Step. fold (gap ts k) in Step.
    pose proof (log_about u (c * gap ts k) Hu ltac:(lra)) as L. f_equal.
    transitivity (vscale (1 / 2) (vscale 2 (log_vec (about_axis u (c * gap ts k))))).
    - rewrite vscale_vscale. destruct (log_vec (about_axis u (c * gap ts k))); unfold vscale; cbn. f_equal; field.
    - rewrite L, vscale_vscale. f_equal. lra.
  Qed.
  Lemma gap_pos k : (S k < length ts)%nat -> 0 < gap ts k.
  Proof. intros H. unfold gap, stime. pose proof (increasing_nth ts k (S k) Inc ltac:(lia)). lra. Qed.
  Lemma steady_ctrl_a i : (i < length ts)%nat -> ctrl_a ts rr i = sample rr i.
  Proof.
    intros H. unfold ctrl_a, final. destruct (Nat.eqb_spec i 0); [reflexivity|]. destruct (Nat.eqb_spec i (Nat.pred (length ts))); [reflexivity|]. cbn [orb].
    rewrite !steady_log by lia. rewrite pure_sum, pure_scale. rewrite !vscale_vscale, vzero.
    - replace (vscale (1 / 4) v0) with v0 by (unfold vscale, v0; cbn; f_equal; ring). rewrite exp_zero, qmulq_hmul, q1_hone. apply hmul_1_r.
    - assert (G : 0 < gap ts (Nat.pred i)) by (apply gap_pos; lia). field. lra.
  Qed.
  Lemma steady_beyond : beyond ts rr = hmul p (about_axis u (c * (stime ts (final ts) + gap ts (Nat.pred (final ts))))).
  Proof.
    unfold beyond. rewrite !qmulq_hmul, qconj_hconj, hmul_assoc, !steady_sample by (unfold final; lia). rewrite steady_between.
    rewrite hmul_assoc, about_add by exact Hu. do 2 f_equal. unfold gap. replace (S (Nat.pred (final ts))) with (final ts) by (unfold final; lia). ring.
  Qed.
  Lemma steady_following i : (i < length ts)%nat -> following ts rr i = hmul p (about_axis u (c * (stime ts i + duration ts i))).
  Proof.
    intros H. unfold following, duration. destruct (Nat.eqb_spec i (final ts)) as [->|N]; [apply steady_beyond|]. rewrite steady_sample by (unfold final in N; lia). do 3 f_equal. unfold gap. ring.
  Qed.
  Lemma steady_ctrl_b i : (i < length ts)%nat -> ctrl_b ts rr i = following ts rr i.
  Proof.
    intros H. unfold ctrl_b, following. destruct (Nat.eqb_spec i (final ts)); [reflexivity|]. destruct (Nat.eqb_spec (S i) (final ts)) as [E|N]; [rewrite E; reflexivity|]. unfold final in *.
    rewrite !steady_log by lia. rewrite pure_sum, pure_scale. rewrite !vscale_vscale, vzero.
    - replace (vscale (-1 / 4) v0) with v0 by (unfold vscale, v0; cbn; f_equal; ring). rewrite exp_zero, qmulq_hmul, q1_hone. apply hmul_1_r.
    - assert (G : 0 < gap ts (S i)) by (apply gap_pos; lia). field. lra.
  Qed.
  Lemma duration_ok i : (i < length ts)%nat -> 0 < duration ts i /\ - PI <= c * duration ts i <= PI.
  Proof.
    intros H. unfold duration. destruct (Nat.eqb_spec i (final ts)) as [->|N]; unfold final in *.
    - split; [apply gap_pos; lia|]. specialize (Step (Nat.pred (Nat.pred (length ts))) ltac:(lia)). exact Step.
    - split; [apply gap_pos; lia|]. exact (Step i ltac:(lia)).
  Qed.
  Lemma steady_squad x : squad_at ts rr x = hmul p (about_axis u (c * x)).
  Proof.
    unfold squad_at. set (i := interval_of ts x). assert (H : (i < length ts)%nat) by (apply interval_lt; lia).
    rewrite steady_ctrl_a, steady_ctrl_b by exact H. rewrite (steady_following i H), (steady_sample i H). unfold squad_evaluate.
    destruct (duration_ok i H) as (D & B). set (tau := (x - stime ts i) / duration ts i).
    assert (E : hmul p (about_axis u (c * (stime ts i + duration ts i))) = hmul (hmul p (about_axis u (c * stime ts i))) (about_axis u (c * duration ts i))).
    { rewrite hmul_assoc, about_add by exact Hu. do 2 f_equal. ring. }
    rewrite E. assert (UA : hunit (hmul p (about_axis u (c * stime ts i)))) by (apply hunit_hmul; [exact Hp|apply about_unit, Hu]).
    rewrite slerp_along by assumption. rewrite slerp_same by (apply hunit_hmul; [exact UA|apply about_unit, Hu]).
    rewrite hmul_assoc, about_add by exact Hu. do 2 f_equal. unfold tau. field. lra.
  Qed.
End Steady.

Lemma all_same rr (r : quat) : (forall q, In q rr -> q = r) -> rr = map (fun _ => r) rr.
Proof. induction rr as [|q l IH]; intros H; [reflexivity|]. cbn [map]. f_equal; [apply H; left; reflexivity|apply IH; intros q0 Hq; apply H; right; exact Hq]. Qed.
Lemma map_const_len {A B} (r : quat) (l : list A) (l' : list B) : length l = length l' -> map (fun _ => r) l = map (fun _ => r) l'.
Proof. revert l'. induction l as [|a l IH]; intros [|b l'] H; try discriminate; [reflexivity|]. cbn. f_equal. apply IH. cbn in H. lia. Qed.
(** Everything the other theorems assume of squad holds of it. *)
Theorem C79_contract : squad_unit np_squad /\ squad_exact np_squad /\ squad_total np_squad /\ squad_const np_squad.
Proof.
  split; [|split; [|split]].
  - intros ts rr x r U H. apply np_squad_inv in H as (_ & _ & _ & ->). apply squad_at_unit, U.
  - intros ts rr k x r Hi Hn Hl U Hx Hr. rewrite np_squad_ok by assumption. f_equal. unfold squad_at.
    assert (L : (k < length ts)%nat) by (apply nth_error_Some; rewrite Hx; discriminate).
    apply nth_error_nth with (d := 0) in Hx. apply nth_error_nth with (d := q1) in Hr.
    rewrite (interval_is ts x k Hi L); [|rewrite Hx; lra|intros L2; rewrite <- Hx; apply increasing_nth; [exact Hi|lia]].
    unfold stime. rewrite Hx. replace ((x - x) / duration ts k) with 0 by (unfold Rdiv; ring). unfold sample at 1. rewrite Hr.
    assert (Ur : hunit r). { rewrite Forall_forall in U. apply U. rewrite <- Hr. apply nth_In. lia. }
    apply evaluate_0; [exact Ur|apply ctrl_a_unit, U|apply ctrl_b_unit, U|apply following_unit, U].
  - intros ts rr x Hi Hn Hl U _. eexists. apply np_squad_ok; assumption.
  - intros ts rr x r r' U Hc H. apply np_squad_inv in H as (Hl & Hn & Hi & ->).
    assert (Ur : hunit r). { destruct rr as [|q l]; [cbn in Hl; lia|]. rewrite <- (Hc q (or_introl eq_refl)). inversion U; assumption. }
    assert (E : rr = map (fun t => hmul r (about_axis (V3 1 0 0) (0 * t))) ts).
    { rewrite (all_same rr r Hc). rewrite (map_const_len r rr ts Hl). apply map_ext. intros t. rewrite Rmult_0_l, about_zero, q1_hone, hmul_1_r. reflexivity. }
    rewrite E, (steady_squad ts r (V3 1 0 0) 0 Hi Hn Ur).
    + rewrite Rmult_0_l, about_zero, q1_hone, hmul_1_r. reflexivity.
    + unfold vdot; cbn; ring.
    + intros k _. pose proof PI_RGT_0. rewrite Rmult_0_l. lra.
Qed.

(* ------------------------------------------------------------------ C79: steady motion *)
(** Moves on a straight line at constant speed and turns about a fixed axis at a constant rate. *)
Definition steady_motion (M : R -> vec3 * quat) : Prop :=
  exists o v p u c, hunit p /\ vdot u u = 1 /\ forall t, M t = (vadd o (vscale t v), hmul p (about_axis u (c * t))).
(** The recording of a motion at the times ts: at most half a turn from sample to sample. *)
Definition recorded (M : R -> vec3 * quat) (ts : list R) : Prop :=
  increasing ts /\ (2 <= length ts)%nat /\
  exists o v p u c, hunit p /\ vdot u u = 1 /\ (forall t, M t = (vadd o (vscale t v), hmul p (about_axis u (c * t)))) /\
  forall k, (S k < length ts)%nat -> - PI <= c * (nth (S k) ts 0 - nth k ts 0) <= PI.
Lemma recorded_steady M ts : recorded M ts -> steady_motion M.
Proof. intros (_ & _ & o & v & p & u & c & Hp & Hu & E & _). exists o, v, p, u, c. auto. Qed.
Lemma recorded_unit M ts : recorded M ts -> Forall hunit (map (fun t => snd (M t)) ts).
Proof.
  intros (_ & _ & o & v & p & u & c & Hp & Hu & E & _). apply Forall_forall. intros q Hq. apply in_map_iff in Hq as (t & <- & _). rewrite E. apply hunit_hmul; [exact Hp|apply about_unit, Hu].
Qed.
Lemma recorded_squad M ts x : recorded M ts -> np_squad ts (map (fun t => snd (M t)) ts) x = Ok (snd (M x)).
Proof.
  intros Rc. rewrite np_squad_ok; [|apply Rc|apply Rc|apply map_length|apply (recorded_unit M), Rc]. destruct Rc as (Inc & Len & o & v & p & u & c & Hp & Hu & E & St). f_equal.
  rewrite (map_ext (fun t => snd (M t)) (fun t => hmul p (about_axis u (c * t)))) by (intros t; rewrite E; reflexivity).
  rewrite (steady_squad ts p u c Inc Len Hp Hu St). rewrite E. reflexivity.
Qed.
Lemma between_line o v a b x : a < b -> between a b (vadd o (vscale a v)) (vadd o (vscale b v)) x = vadd o (vscale x v).
Proof. intros H. destruct o as [o1 o2 o3], v as [w1 w2 w3]. cbv [between vadd vsub vscale vx vy vz]. f_equal; field; lra. Qed.
(** At every time, in between the samples too, such a recording is the motion it records. *)
Lemma recorded_own M ts x t r : recorded M ts ->
  own_at np_squad (TMoving ts (map (fun t => fst (M t)) ts) (map (fun t => snd (M t)) ts) false) x t r -> (t, r) = M x.
Proof.
  intros Rc H. inversion H as [| |ts' tr rr x' k a b u v r' I Hu Hv Hs]; subst. rewrite (recorded_squad M ts x Rc) in Hs. injection Hs as <-.
  destruct I as (Ha & Hb & Hab & _). rewrite nth_error_map, Ha in Hu. injection Hu as <-. rewrite nth_error_map, Hb in Hv. injection Hv as <-.
  destruct Rc as (_ & _ & o & w & p & ax & c & _ & _ & E & _). rewrite !E. cbn [fst snd]. rewrite between_line by exact Hab. reflexivity.
Qed.
(** Resampling the recording of a steady motion at any times within it gives the motion at these times. *)
Theorem C79_constant_rate : forall M ts l, recorded M ts -> (forall x, In x l -> in_bounds ts x = true) ->
  rows_from_frame np_squad (TMoving ts (map (fun t => fst (M t)) ts) (map (fun t => snd (M t)) ts) false) l = Ok (map M l).
Proof.
  intros M ts l Rc B. destruct Rc as (Inc & Len & Rest). pose proof (conj Inc (conj Len Rest)) as Rc. fold (recorded M ts) in Rc.
  destruct (interp1d_ok ts (map (fun t => fst (M t)) ts) l Inc Len (map_length _ _) B) as (rows & E & _).
  assert (Q : traverse (np_squad ts (map (fun t => snd (M t)) ts)) l = Ok (map (fun x => snd (M x)) l)).
  { clear B E. induction l as [|x l IH]; [reflexivity|]. unfold traverse in *. cbn [map sequence]. rewrite (recorded_squad M ts x Rc). cbn. rewrite IH. reflexivity. }
  assert (Hr : rows_from_frame np_squad (TMoving ts (map (fun t => fst (M t)) ts) (map (fun t => snd (M t)) ts) false) l = Ok (combine rows (map (fun x => snd (M x)) l))).
  { cbn [rows_from_frame]. rewrite E. cbn. rewrite Q. reflexivity. }
  rewrite Hr. f_equal.
  destruct (own_from_frame np_squad _ l _ (conj (map_length _ _) (map_length _ _) : rows_ok (TMoving ts _ _ false)) ltac:(intros ? ? ? ? Eq; injection Eq as <- _ _ _; apply increasing_not_decreasing, Inc) Hr) as (L & O).
  apply List.nth_ext with (d := (v0, q1)) (d' := (v0, q1)); [rewrite map_length; exact L|]. intros k Hk.
  assert (Hk' : (k < length l)%nat) by lia. destruct (nth_error l k) as [x|] eqn:Ex; [|apply nth_error_None in Ex; lia].
  destruct (nth_error (combine rows (map (fun x0 => snd (M x0)) l)) k) as [tr|] eqn:Et; [|apply nth_error_None in Et; lia].
  rewrite (nth_error_nth _ _ _ Et). specialize (O k x tr Ex Et). apply (recorded_own M ts) in O; [|exact Rc].
  rewrite (nth_error_nth _ _ (v0, q1) (map_nth_error M k l Ex)). rewrite <- O. destruct tr; reflexivity.
Qed.
(** M gives the actual motion of every frame with respect to its parent: p in i is P in the ancestor a at time x. *)
Inductive actual (M : nat -> R -> vec3 * quat) (s : state) (x : R) : nat -> vec3 -> nat -> vec3 -> Prop :=
| actual_here i p : actual M s x i p i p
| actual_up i k p a P : parent_of s i = Some k -> actual M s x k (smove (fst (M i x)) (snd (M i x)) p) a P -> actual M s x i p a P.
(** The frame's data record its actual motion. *)
Definition records (m : R -> vec3 * quat) (d : tfdata) : Prop :=
  match d with
  | TStatic t r => hunit r /\ forall x, m x = (t, r)
  | TMoving ts tr rr disc => disc = false /\ recorded m ts /\ tr = map (fun t => fst (m t)) ts /\ rr = map (fun t => snd (m t)) ts
  end.
Lemma records_own m d x t r : records m d -> own_at np_squad d x t r -> (t, r) = m x.
Proof.
  destruct d as [t0 r0|ts tr rr disc].
  - intros (_ & E) H. inversion H; subst. rewrite E. reflexivity.
  - intros (-> & Rc & -> & ->) H. apply (recorded_own m ts x t r Rc H).
Qed.
Lemma records_unit m d : records m d -> unit_data d.
Proof. destruct d as [t r|ts tr rr disc]; [intros (U & _); exact U|]. intros (_ & Rc & _ & ->). apply (recorded_unit m ts Rc). Qed.
Lemma coords_actual M s x i p a P : coords np_squad s x i p a P ->
  (forall k d, ancestor (parent_of s) i k -> transform_of s k = Some d -> records (M k) d) ->
  actual M s x i p a P.
Proof.
  induction 1 as [|i k d t r p a P Hp Hd Ho Hn Hc IH]; intros Rc; [constructor|].
  apply (actual_up M s x i k); [exact Hp|]. pose proof (records_own (M i) d x t r (Rc i d (anc_refl _ i) Hd) Ho) as E. rewrite <- E. cbn [fst snd].
  apply IH. intros k' d' A. apply Rc. apply (anc_up _ i k k' Hp A).
Qed.
(** Hence a lookup through any number of frames in steady motion, sampled each at its own times, gives the
    actual relative motion at the times it reports. *)
Theorem C79_lookup : forall M s i to j ts rows, reachable s -> frame s i -> denotes s to j ->
  (forall k d, ancestor (parent_of s) i k \/ ancestor (parent_of s) j k -> transform_of s k = Some d -> records (M k) d) ->
  lookup_transform np_squad s i to = Ok (TrRows ts rows) ->
  length rows = length ts /\
  forall k x t r, nth_error ts k = Some x -> nth_error rows k = Some (t, r) ->
    exists c, forall p, exists P, actual M s x i p c P /\ actual M s x j (smove t r p) c P.
Proof.
  intros M s i to j ts rows Hs Hi Hto Rc H.
  assert (U : unit_way s i j).
  { intros k d [(A & _)|(A & _)] Hd; apply (records_unit (M k)), Rc; auto. }
  destruct (C17_moving_lookup np_squad s i to j ts rows Hs (proj1 C79_contract) Hi Hto U H) as (L & Row). split; [exact L|].
  intros k x t r Hx Hr. destruct (Row k x t r Hx Hr) as (_ & c & _ & _ & Co). exists c. intros p. destruct (Co p) as (P & C1 & C2). exists P.
  split; (apply coords_actual; [assumption|]); intros k' d' A; apply Rc; auto.
Qed.

(* ------------------------------------------------------------------ refuted: signs, turns *)
Lemma slerp_x (a b tau : R) : - PI <= b <= PI -> np_slerp (about_axis (V3 1 0 0) a) (about_axis (V3 1 0 0) (a + b)) tau = about_axis (V3 1 0 0) (a + tau * b).
Proof.
  intros B. assert (U : vdot (V3 1 0 0) (V3 1 0 0) = 1) by (unfold vdot; cbn; ring). rewrite <- about_add by exact U. rewrite slerp_along; [|apply about_unit, U|exact U|exact B].
  apply about_add, U.
Qed.
Lemma log_minus : np_log (Qt (-1) 0 0 0) = mkq 0 (V3 PI 0 0).
Proof.
  unfold np_log. assert (N : vnorm (qvec (Qt (-1) 0 0 0)) = 0). { unfold vnorm. replace (vnorm2 (qvec (Qt (-1) 0 0 0))) with 0 by (unfold vnorm2, vdot; cbn; ring). apply sqrt_0. }
  rewrite N. replace (Req_b 0 0) with true by (symmetry; apply Req_b_true; reflexivity).
  cbn [qw]. replace (Rlt_b (-1) 0) with true by (symmetry; apply Rlt_b_true; lra). replace (- -1) with 1 by ring. rewrite ln_1. reflexivity.
Qed.
Lemma exp_x a : np_exp (mkq 0 (V3 a 0 0)) = about_axis (V3 1 0 0) (2 * a).
Proof. rewrite <- exp_about by (unfold vdot; cbn; ring). do 2 f_equal. unfold vscale; cbn. f_equal; field. Qed.
(** q and -q are the same orientation, yet the sign of the samples matters: a frame at rest appears to turn. *)
Theorem C79_sign_refuted : exists ts rr x r,
  increasing ts /\ length rr = length ts /\ (forall q, In q rr -> forall v, srot q v = v) /\ in_bounds ts x = true /\
  np_squad ts rr x = Ok r /\ exists v, srot r v <> v.
Proof.
  exists [0; 1; 2], [q1; q1; Qt (-1) 0 0 0], (1 / 2), (about_axis (V3 1 0 0) (- (PI / 8))).
  assert (Inc : increasing [0; 1; 2]) by (apply increasing3; lra).
  split; [exact Inc|]. split; [reflexivity|]. split; [|split; [|split]].
  - intros q Hq v. destruct v as [a b c]. cbn in Hq. destruct Hq as [ <- |[ <- |[ <- |[]]]]; cbv [srot hmul hinv hconj qscale hn2 sc ve mkq vdot vcross vadd vscale vopp vx vy vz qw qx qy qz q1]; f_equal; field.
  - apply andb_true_intro. split; apply Rle_b_true; cbn; lra.
  - rewrite np_squad_ok; [|exact Inc|cbn; lia|reflexivity|].
    + f_equal. unfold squad_at. rewrite (interval_is [0; 1; 2] (1 / 2) 0 Inc); [|cbn; lia|cbn; lra|intros _; cbn; lra].
      replace ((1 / 2 - stime [0; 1; 2] 0) / duration [0; 1; 2] 0) with (1 / 2) by (unfold stime, duration, gap, final; cbn; unfold stime; cbn; field).
      assert (B : ctrl_b [0; 1; 2] [q1; q1; Qt (-1) 0 0 0] 0 = about_axis (V3 1 0 0) (0 + - (PI / 2))).
      { unfold ctrl_b, final. cbn [length Nat.pred Nat.eqb]. unfold turn_log, gap, stime, sample. cbn [nth].
        rewrite !qmulq_hmul, !qconj_hconj, !hconj_l, hmul_1_l.
        - replace (hmul (hconj q1) (Qt (-1) 0 0 0)) with (Qt (-1) 0 0 0) by (cbv [hmul hconj q1 sc ve mkq vdot vcross vadd vscale vopp vx vy vz qw qx qy qz]; f_equal; ring).
          rewrite log_minus. replace hone with q1 by reflexivity. rewrite log_one, pure_sum, pure_scale, <- exp_about; [|unfold vdot; cbn; ring].
          f_equal. f_equal. unfold vadd, vscale, v0; cbn. f_equal; field.
        - cbv [hunit hn2 sc ve vdot vx vy vz qw qx qy qz qvec q1]; ring. }
      unfold following, ctrl_a, final, sample. cbn [length Nat.pred Nat.eqb orb nth]. rewrite B. unfold squad_evaluate.
      pose proof PI_RGT_0. rewrite slerp_same by (cbv [hunit hn2 sc ve vdot vx vy vz qw qx qy qz qvec q1]; ring).
      rewrite <- (about_zero (V3 1 0 0)). rewrite slerp_x by lra. rewrite slerp_x by lra. f_equal. field.
    + repeat constructor; cbv [hunit hn2 sc ve vdot vx vy vz qw qx qy qz qvec q1]; ring.
  - exists (V3 0 1 0). intros E. apply (f_equal vz) in E. pose proof PI_RGT_0. pose proof PI_4.
    assert (S : 0 < sin (PI / 16)) by (apply sin_gt_0; lra). assert (C : 0 < cos (PI / 16)) by (apply cos_gt_0; lra).
    pose proof (sin2_cos2 (PI / 16)) as Q. unfold Rsqr in Q. unfold about_axis in E. replace (- (PI / 8) / 2) with (- (PI / 16)) in E by lra. rewrite cos_neg, sin_neg in E.
    generalize dependent (cos (PI / 16)). generalize dependent (sin (PI / 16)). intros a Ha b E Hb Q.
    cbv [srot hmul hinv hconj qscale hn2 sc ve mkq vdot vcross vadd vscale vopp vx vy vz qw qx qy qz] in E.
    replace (b * b + (- a * 1 * (- a * 1) + - a * 0 * (- a * 0) + - a * 0 * (- a * 0))) with 1 in E by lra. nra.
Qed.
Lemma about_turn u a : about_axis u (a - 2 * PI) = qscale (-1) (about_axis u a).
Proof.
  unfold about_axis. replace ((a - 2 * PI) / 2) with (a / 2 - PI) by field. rewrite <- (cos_neg (a / 2 - PI)). replace (- (a / 2 - PI)) with (PI - a / 2) by ring.
  replace (sin (a / 2 - PI)) with (- sin (a / 2)). 2:{ rewrite <- (sin_PI_x (a / 2)). replace (a / 2 - PI) with (- (PI - a / 2)) by ring. rewrite sin_neg. reflexivity. }
  rewrite Rtrigo_facts.cos_pi_minus. destruct u as [u1 u2 u3]. cbv [mkq qscale vscale qw qx qy qz vx vy vz]. f_equal; ring.
Qed.
(** More than half a turn between two samples: the interpolation turns the other way round. *)
Theorem C79_half_turn : forall t0 t1 p u a x, t0 < t1 -> hunit p -> vdot u u = 1 -> PI < a < 2 * PI -> t0 <= x < t1 ->
  np_squad [t0; t1] [p; hmul p (about_axis u a)] x = Ok (hmul p (about_axis u ((x - t0) / (t1 - t0) * (a - 2 * PI)))).
Proof.
  intros t0 t1 p u a x Ht Hp Hu Ha Hx. pose proof PI_RGT_0.
  assert (Inc : increasing [t0; t1]). { apply inc_strictly. cbn [strictly]. rewrite andb_true_r. apply Rlt_b_true. exact Ht. }
  assert (U : hunit (hmul p (about_axis u a))) by (apply hunit_hmul; [exact Hp|apply about_unit, Hu]).
  rewrite np_squad_ok; [|exact Inc|cbn; lia|reflexivity|constructor; [exact Hp|constructor; [exact U|constructor]]]. f_equal.
  unfold squad_at. rewrite (interval_is [t0; t1] x 0 Inc); [|cbn; lia|cbn; lra|intros _; cbn; lra].
  unfold squad_evaluate, ctrl_a, ctrl_b, following, duration, gap, stime, final, sample. cbn [length Nat.pred Nat.eqb orb nth].
  set (tau := (x - t0) / (t1 - t0)). assert (S : np_slerp p (hmul p (about_axis u a)) tau = hmul p (about_axis u (tau * (a - 2 * PI)))).
  { rewrite <- slerp_along by (assumption || lra). rewrite about_turn, qscale_hmul_r, !slerp_local by (assumption || apply hunit_neg; assumption).
    f_equal. do 2 f_equal. unfold toward.
    assert (I : inner p (hmul p (about_axis u a)) < 0).
    { unfold inner. rewrite <- hmul_assoc, hconj_l, hmul_1_l by exact Hp. unfold about_axis. cbn [qw mkq]. apply cos_lt_0; lra. }
    assert (J : inner p (qscale (-1) (hmul p (about_axis u a))) = - inner p (hmul p (about_axis u a))).
    { unfold inner. rewrite qscale_hmul_r. generalize (hmul (hconj p) (hmul p (about_axis u a))). intros [w y z k]. cbn. ring. }
    rewrite J. destruct (Rle_dec 0 (inner p _)); [lra|]. destruct (Rle_dec 0 (- inner p _)); [reflexivity|lra]. }
  rewrite S. apply slerp_same, hunit_hmul; [exact Hp|apply about_unit, Hu].
Qed.

(* ------------------------------------------------------------------ C79: frame changes *)
Lemma inner_left g a b : hunit g -> inner (hmul g a) (hmul g b) = inner a b.
Proof. intros G. unfold inner. rewrite hconj_hmul, hmul_assoc, <- (hmul_assoc (hconj g)), hconj_l, hmul_1_l by exact G. reflexivity. Qed.
Lemma toward_left g a b : hunit g -> toward (hmul g a) (hmul g b) = hmul g (toward a b).
Proof. intros G. unfold toward. rewrite inner_left by exact G. destruct (Rle_dec 0 (inner a b)); [reflexivity|]. rewrite qscale_hmul_r. reflexivity. Qed.
Lemma cancel_left g a b : hunit g -> hmul (hconj (hmul g a)) (hmul g b) = hmul (hconj a) b.
Proof. intros G. rewrite hconj_hmul, hmul_assoc, <- (hmul_assoc (hconj g)), hconj_l, hmul_1_l by exact G. reflexivity. Qed.
Lemma slerp_left g a b tau : hunit g -> hunit a -> hunit b -> np_slerp (hmul g a) (hmul g b) tau = hmul g (np_slerp a b tau).
Proof.
  intros G A B. rewrite !slerp_local by (try apply hunit_hmul; assumption). rewrite toward_left, cancel_left, hmul_assoc by exact G. reflexivity.
Qed.
Lemma evaluate_left g tau q a b p : hunit g -> hunit q -> hunit a -> hunit b -> hunit p ->
  squad_evaluate tau (hmul g q) (hmul g a) (hmul g b) (hmul g p) = hmul g (squad_evaluate tau q a b p).
Proof. intros G Q A B P. unfold squad_evaluate. rewrite !slerp_left by (try apply slerp_unit; assumption). reflexivity. Qed.
Section Left.
  Variables (ts : list R) (rr : list quat) (g : quat).
  Hypothesis G : hunit g.
  Hypothesis Len : length rr = length ts.
  Hypothesis Len2 : (2 <= length ts)%nat.
  Hypothesis U : Forall hunit rr.
  Lemma sample_left k : (k < length ts)%nat -> sample (map (hmul g) rr) k = hmul g (sample rr k).
  Proof. intros H. unfold sample. rewrite (nth_indep _ q1 (hmul g q1)) by (rewrite map_length; lia). apply map_nth. Qed.
  Lemma turn_left k : (S k < length ts)%nat -> turn_log (map (hmul g) rr) k = turn_log rr k.
  Proof. intros H. unfold turn_log. rewrite !qmulq_hmul, !qconj_hconj, !sample_left by lia. rewrite cancel_left by exact G. reflexivity. Qed.
  Lemma beyond_left : beyond ts (map (hmul g) rr) = hmul g (beyond ts rr).
  Proof. unfold beyond. rewrite !qmulq_hmul, !qconj_hconj, !hmul_assoc, !sample_left by (unfold final; lia). rewrite cancel_left by exact G. apply hmul_assoc. Qed.
  Lemma following_left i : (i < length ts)%nat -> following ts (map (hmul g) rr) i = hmul g (following ts rr i).
  Proof. intros H. unfold following. destruct (Nat.eqb_spec i (final ts)); [apply beyond_left|]. unfold final in *. apply sample_left. lia. Qed.
  Lemma ctrl_a_left i : (i < length ts)%nat -> ctrl_a ts (map (hmul g) rr) i = hmul g (ctrl_a ts rr i).
  Proof.
    intros H. unfold ctrl_a, final. destruct (Nat.eqb_spec i 0); [cbn [orb]; apply sample_left, H|]. destruct (Nat.eqb_spec i (Nat.pred (length ts))); [cbn [orb]; apply sample_left, H|]. cbn [orb].
    rewrite !qmulq_hmul, !turn_left, sample_left by lia. apply hmul_assoc.
  Qed.
  Lemma ctrl_b_left i : (i < length ts)%nat -> ctrl_b ts (map (hmul g) rr) i = hmul g (ctrl_b ts rr i).
  Proof.
    intros H. unfold ctrl_b. destruct (Nat.eqb_spec i (final ts)); [apply beyond_left|]. destruct (Nat.eqb_spec (S i) (final ts)); unfold final in *; [apply sample_left; lia|].
    rewrite !qmulq_hmul, !turn_left, sample_left by lia. apply hmul_assoc.
  Qed.
  Lemma squad_left x : squad_at ts (map (hmul g) rr) x = hmul g (squad_at ts rr x).
  Proof.
    unfold squad_at. set (i := interval_of ts x). assert (H : (i < length ts)%nat) by (apply interval_lt; lia).
    rewrite ctrl_a_left, ctrl_b_left, following_left, sample_left by exact H.
    apply evaluate_left; [exact G|apply sample_unit, U|apply ctrl_a_unit, U|apply ctrl_b_unit, U|apply following_unit, U].
  Qed.
End Left.
(** The orientation seen from another, fixed frame is the interpolation of the samples seen from there. *)
Theorem C79_parent_change : forall ts rr g x r, hunit g -> Forall hunit rr -> np_squad ts rr x = Ok r ->
  np_squad ts (map (hmul g) rr) x = Ok (hmul g r).
Proof.
  intros ts rr g x r G U H. apply np_squad_inv in H as (L & L2 & Inc & ->). rewrite np_squad_ok; [f_equal; apply squad_left; assumption|exact Inc|exact L2|rewrite map_length; exact L|].
  apply Forall_forall. intros q Hq. apply in_map_iff in Hq as (q' & <- & Hq). apply hunit_hmul; [exact G|]. rewrite Forall_forall in U. apply U, Hq.
Qed.

Lemma log_axis u a : vdot u u = 1 -> - (2 * PI) < a < 2 * PI -> np_log (about_axis u a) = mkq 0 (vscale (a / 2) u).
Proof.
  intros Hu Ha. rewrite log_unit by (apply about_unit, Hu). pose proof (log_about u a Hu Ha) as L. f_equal.
  transitivity (vscale (1 / 2) (vscale 2 (log_vec (about_axis u a)))).
  - rewrite vscale_vscale. destruct (log_vec (about_axis u a)); unfold vscale; cbn. f_equal; field.
  - rewrite L, vscale_vscale. f_equal. lra.
Qed.
Lemma log_conj p x : hunit p -> hunit x -> x <> Qt (-1) 0 0 0 -> exists v, np_log x = mkq 0 v /\ np_log (hmul (hmul p x) (hconj p)) = mkq 0 (srot p v).
Proof.
  intros P X N. destruct (unit_about x X) as (u & a & Hu & Ha & -> & [E|Lt]); [contradiction|]. pose proof PI_RGT_0.
  exists (vscale (a / 2) u). rewrite conj_about by exact P. rewrite !log_axis; [|apply srot_unit; assumption|lra|exact Hu|lra]. split; [reflexivity|]. f_equal. symmetry. apply srot_scale.
Qed.
Lemma exp_conj p v : hunit p -> np_exp (mkq 0 (srot p v)) = hmul (hmul p (np_exp (mkq 0 v))) (hconj p).
Proof.
  intros P. destruct (Req_EM_T (vnorm v) 0) as [E|N].
  - apply vnorm_zero in E. subst v. rewrite srot_0, exp_zero, q1_hone, hmul_1_r, hconj_r by exact P. reflexivity.
  - pose proof (vnorm_sq v) as Q. set (u := vscale (/ vnorm v) v).
    assert (Hu : vdot u u = 1). { unfold u. replace (vdot (vscale (/ vnorm v) v) (vscale (/ vnorm v) v)) with (/ vnorm v * / vnorm v * vdot v v) by (destruct v; unfold vdot, vscale; cbn; ring). rewrite <- Q. field. exact N. }
    assert (E : v = vscale (2 * vnorm v / 2) u). { unfold u. rewrite vscale_vscale. replace (2 * vnorm v / 2 * / vnorm v) with 1 by (field; exact N). destruct v; unfold vscale; cbn. f_equal; ring. }
    rewrite E, srot_scale, !exp_about by (try apply srot_unit; assumption). symmetry. apply conj_about, P.
Qed.
Lemma cancel_right h a b : hunit h -> hmul (hmul b h) (hconj (hmul a h)) = hmul b (hconj a).
Proof. intros G. rewrite hconj_hmul, hmul_assoc, <- (hmul_assoc h), hconj_r, hmul_1_l by exact G. reflexivity. Qed.
Lemma qw_conj p x : hunit p -> qw (hmul (hmul (hconj p) x) p) = qw x.
Proof.
  intros P. transitivity (hn2 p * qw x); [|rewrite P; ring]. destruct p as [pw px py pz], x as [xw xx xy xz]. cbv [hmul hconj hn2 sc ve mkq vdot vcross vadd vscale vopp vx vy vz qw qx qy qz]. ring.
Qed.
Lemma inner_right h a b : hunit h -> inner (hmul a h) (hmul b h) = inner a b.
Proof. intros G. unfold inner. rewrite hconj_hmul, hmul_assoc, <- (hmul_assoc (hconj a)), <- hmul_assoc. apply qw_conj, G. Qed.
Lemma slerp_right h a b tau : hunit h -> hunit a -> hunit b -> np_slerp (hmul a h) (hmul b h) tau = hmul (np_slerp a b tau) h.
Proof.
  intros G A B. rewrite !slerp_toward by (try apply hunit_hmul; assumption).
  assert (T : toward (hmul a h) (hmul b h) = hmul (toward a b) h). { unfold toward. rewrite inner_right by exact G. destruct (Rle_dec 0 (inner a b)); [reflexivity|]. rewrite qscale_hmul_l. reflexivity. }
  rewrite T, cancel_right, hmul_assoc by exact G. reflexivity.
Qed.
Lemma evaluate_right h tau q a b p : hunit h -> hunit q -> hunit a -> hunit b -> hunit p ->
  squad_evaluate tau (hmul q h) (hmul a h) (hmul b h) (hmul p h) = hmul (squad_evaluate tau q a b p) h.
Proof. intros G Q A B P. unfold squad_evaluate. rewrite !slerp_right by (try apply slerp_unit; assumption). reflexivity. Qed.
Section Right.
  Variables (ts : list R) (rr : list quat) (h : quat).
  Hypothesis G : hunit h.
  Hypothesis Len : length rr = length ts.
  Hypothesis Len2 : (2 <= length ts)%nat.
  Hypothesis U : Forall hunit rr.
  Hypothesis N : forall k, (S k < length rr)%nat -> nth (S k) rr q1 <> qscale (-1) (nth k rr q1).
  Let rr' := map (fun r => hmul r h) rr.
  Lemma sample_right k : (k < length ts)%nat -> sample rr' k = hmul (sample rr k) h.
  Proof. intros H. unfold sample, rr'. rewrite (nth_indep _ q1 (hmul q1 h)) by (rewrite map_length; lia). apply (map_nth (fun r => hmul r h)). Qed.
  Lemma turn_right k : (S k < length ts)%nat -> exists v, turn_log rr k = mkq 0 v /\ turn_log rr' k = mkq 0 (srot (hconj h) v).
  Proof.
    intros H. unfold turn_log. rewrite !qmulq_hmul, !sample_right by lia. rewrite (qconj_hconj (sample rr k)), (qconj_hconj (hmul (sample rr k) h)).
    replace (hmul (hconj (hmul (sample rr k) h)) (hmul (sample rr (S k)) h)) with (hmul (hmul (hconj h) (hmul (hconj (sample rr k)) (sample rr (S k)))) (hconj (hconj h))).
    - apply log_conj; [apply hunit_conj, G|apply hunit_hmul; [apply hunit_conj|]; apply sample_unit, U|].
      intros E. apply (N k ltac:(lia)). fold (sample rr k) (sample rr (S k)). rewrite <- (hmul_1_l (sample rr (S k))). rewrite <- (hconj_r (sample rr k)) by (apply sample_unit, U).
      rewrite hmul_assoc, E. destruct (sample rr k) as [a b c d]. cbv [hmul qscale sc ve mkq vdot vcross vadd vscale vopp vx vy vz qw qx qy qz]. f_equal; ring.
    - rewrite hconj_hconj, hconj_hmul, !hmul_assoc. reflexivity.
  Qed.
  Lemma beyond_right : beyond ts rr' = hmul (beyond ts rr) h.
  Proof. unfold beyond. rewrite !qmulq_hmul, !qconj_hconj, !sample_right by (unfold final; lia). rewrite cancel_right by exact G. symmetry. apply hmul_assoc. Qed.
  Lemma following_right i : (i < length ts)%nat -> following ts rr' i = hmul (following ts rr i) h.
  Proof. intros H. unfold following. destruct (Nat.eqb_spec i (final ts)); [apply beyond_right|]. unfold final in *. apply sample_right. lia. Qed.
  Lemma turned_right r v : hmul (hmul r h) (np_exp (mkq 0 (srot (hconj h) v))) = hmul (hmul r (np_exp (mkq 0 v))) h.
  Proof.
    rewrite exp_conj by (apply hunit_conj, G). rewrite hconj_hconj, !hmul_assoc. f_equal. rewrite <- !hmul_assoc. rewrite hconj_r, hmul_1_l by exact G. reflexivity.
  Qed.
  Lemma ctrl_a_right i : (i < length ts)%nat -> ctrl_a ts rr' i = hmul (ctrl_a ts rr i) h.
  Proof.
    intros H. unfold ctrl_a, final. destruct (Nat.eqb_spec i 0); [cbn [orb]; apply sample_right, H|]. destruct (Nat.eqb_spec i (Nat.pred (length ts))); [cbn [orb]; apply sample_right, H|]. cbn [orb].
    destruct (turn_right i ltac:(lia)) as (v & -> & ->). destruct (turn_right (Nat.pred i) ltac:(lia)) as (w & -> & ->).
    rewrite !pure_sum, !pure_scale, !qmulq_hmul, sample_right by lia. rewrite <- !srot_scale, <- srot_add, <- srot_scale. apply turned_right.
  Qed.
  Lemma ctrl_b_right i : (i < length ts)%nat -> ctrl_b ts rr' i = hmul (ctrl_b ts rr i) h.
  Proof.
    intros H. unfold ctrl_b. destruct (Nat.eqb_spec i (final ts)); [apply beyond_right|]. destruct (Nat.eqb_spec (S i) (final ts)); unfold final in *; [apply sample_right; lia|].
    destruct (turn_right i ltac:(lia)) as (v & -> & ->). destruct (turn_right (S i) ltac:(lia)) as (w & -> & ->).
    rewrite !pure_sum, !pure_scale, !qmulq_hmul, sample_right by lia. rewrite <- !srot_scale, <- srot_add, <- srot_scale. apply turned_right.
  Qed.
  Lemma squad_right x : squad_at ts rr' x = hmul (squad_at ts rr x) h.
  Proof.
    unfold squad_at. set (i := interval_of ts x). assert (H : (i < length ts)%nat) by (apply interval_lt; lia).
    rewrite ctrl_a_right, ctrl_b_right, following_right, sample_right by exact H.
    apply evaluate_right; [exact G|apply sample_unit, U|apply ctrl_a_unit, U|apply ctrl_b_unit, U|apply following_unit, U].
  Qed.
End Right.
(** The orientation of a frame fixed to the moving one is the interpolation of its own samples, unless a
    sample is the negative of the one before. *)
Theorem C79_child_change : forall ts rr h x r, hunit h -> Forall hunit rr ->
  (forall k, (S k < length rr)%nat -> nth (S k) rr q1 <> qscale (-1) (nth k rr q1)) ->
  np_squad ts rr x = Ok r -> np_squad ts (map (fun q => hmul q h) rr) x = Ok (hmul r h).
Proof.
  intros ts rr h x r G U N H. apply np_squad_inv in H as (L & L2 & Inc & ->). rewrite np_squad_ok; [f_equal; apply squad_right; assumption|exact Inc|exact L2|rewrite map_length; exact L|].
  apply Forall_forall. intros q Hq. apply in_map_iff in Hq as (q' & <- & Hq). apply hunit_hmul; [|exact G]. rewrite Forall_forall in U. apply U, Hq.
Qed.

(* ------------------------------------------------------------------ C79: clocks *)
Section Clock.
  Variables (ts : list R) (rr : list quat) (k o : R).
  Hypothesis K : 0 < k.
  Hypothesis Inc : increasing ts.
  Hypothesis Len2 : (2 <= length ts)%nat.
  Let ts' := map (fun t => k * t + o) ts.
  Lemma clock_len : length ts' = length ts.
  Proof. apply map_length. Qed.
  Lemma clock_final : final ts' = final ts.
  Proof. unfold final. rewrite clock_len. reflexivity. Qed.
  Lemma clock_stime i : (i < length ts)%nat -> stime ts' i = k * stime ts i + o.
  Proof. intros H. unfold stime, ts'. rewrite map_nth_R by exact H. reflexivity. Qed.
  Lemma clock_gap i : (S i < length ts)%nat -> gap ts' i = k * gap ts i.
  Proof. intros H. unfold gap. rewrite !clock_stime by lia. ring. Qed.
  Lemma clock_ratio i j : (S i < length ts)%nat -> (S j < length ts)%nat -> gap ts' i / gap ts' j = gap ts i / gap ts j.
  Proof. intros Hi Hj. rewrite !clock_gap by assumption. pose proof (gap_pos ts Inc Len2 j Hj). field. lra. Qed.
  Lemma clock_interval x : interval_of ts' (k * x + o) = interval_of ts x.
  Proof.
    unfold interval_of. rewrite clock_final. replace (length (filter (fun t => Rle_b t (k * x + o)) ts')) with (length (filter (fun t => Rle_b t x) ts)); [reflexivity|].
    unfold ts'. clear - K. induction ts as [|t l IH]; [reflexivity|]. cbn [map filter].
    replace (Rle_b (k * t + o) (k * x + o)) with (Rle_b t x); [destruct (Rle_b t x); cbn [length]; rewrite IH; reflexivity|].
    destruct (Rle_dec t x) as [L|L]; [replace (Rle_b t x) with true by (symmetry; apply Rle_b_true; exact L); symmetry; apply Rle_b_true; nra|].
    replace (Rle_b t x) with false by (symmetry; apply Rle_b_false; lra). symmetry. apply Rle_b_false. nra.
  Qed.
  Lemma clock_ctrl_a i : (i < length ts)%nat -> ctrl_a ts' rr i = ctrl_a ts rr i.
  Proof.
    intros H. unfold ctrl_a. rewrite clock_final. unfold final. destruct (Nat.eqb_spec i 0); [reflexivity|]. destruct (Nat.eqb_spec i (Nat.pred (length ts))); [reflexivity|]. cbn [orb].
    rewrite clock_ratio by lia. reflexivity.
  Qed.
  Lemma clock_beyond : beyond ts' rr = beyond ts rr.
  Proof. unfold beyond. rewrite clock_final. reflexivity. Qed.
  Lemma clock_ctrl_b i : (i < length ts)%nat -> ctrl_b ts' rr i = ctrl_b ts rr i.
  Proof.
    intros H. unfold ctrl_b. rewrite clock_final, clock_beyond. destruct (Nat.eqb_spec i (final ts)); [reflexivity|]. destruct (Nat.eqb_spec (S i) (final ts)); [reflexivity|]. unfold final in *.
    rewrite clock_ratio by lia. reflexivity.
  Qed.
  Lemma clock_duration i : (i < length ts)%nat -> duration ts' i = k * duration ts i.
  Proof. intros H. unfold duration. rewrite clock_final. destruct (Nat.eqb_spec i (final ts)); unfold final in *; apply clock_gap; lia. Qed.
  Lemma duration_pos i : (i < length ts)%nat -> 0 < duration ts i.
  Proof. intros H. unfold duration. destruct (Nat.eqb_spec i (final ts)); unfold final in *; apply gap_pos; try assumption; lia. Qed.
  Lemma clock_squad x : squad_at ts' rr (k * x + o) = squad_at ts rr x.
  Proof.
    unfold squad_at. rewrite clock_interval. set (i := interval_of ts x). assert (H : (i < length ts)%nat) by (apply interval_lt; lia).
    rewrite clock_ctrl_a, clock_ctrl_b by exact H. unfold following. rewrite clock_final, clock_beyond. f_equal.
    rewrite clock_duration, clock_stime by exact H. pose proof (duration_pos i H). field. lra.
  Qed.
End Clock.
(** The unit and the origin of the time stamps do not matter. *)
Theorem C79_clock : forall ts rr k o x r, 0 < k -> np_squad ts rr x = Ok r -> np_squad (map (fun t => k * t + o) ts) rr (k * x + o) = Ok r.
Proof.
  intros ts rr k o x r K H. assert (E : np_squad (map (fun t => k * t + o) ts) rr (k * x + o) = Ok (squad_at (map (fun t => k * t + o) ts) rr (k * x + o))).
  - unfold np_squad in *. rewrite map_length. destruct (negb _); [discriminate|]. destruct (Nat.ltb _ 2); [discriminate|]. destruct (existsb _ rr); [discriminate|]. cbn [orb] in *.
    destruct (strictly ts) eqn:St; [|discriminate]. rewrite strictly_inc; [reflexivity|]. apply inc_strictly in St. intros i j a b Hij Ha Hb. rewrite nth_error_map in Ha, Hb.
    destruct (nth_error ts i) eqn:Ei; [|discriminate]. destruct (nth_error ts j) eqn:Ej; [|discriminate]. injection Ha as <-. injection Hb as <-. specialize (St i j _ _ Hij Ei Ej). nra.
  - rewrite E. apply np_squad_inv in H as (L & L2 & Inc & ->). f_equal. apply clock_squad; assumption.
Qed.

(* ------------------------------------------------------------------ C79: locality *)
(** Between two samples only these, the one before and the one after matter: further samples may be
    appended to the recording. *)
Theorem C79_append : forall ts rr ts' rr' k x r, increasing (ts ++ ts') -> length rr = length ts -> length rr' = length ts' ->
  Forall hunit (rr ++ rr') -> (S (S k) < length ts)%nat -> nth k ts 0 <= x < nth (S k) ts 0 ->
  np_squad (ts ++ ts') (rr ++ rr') x = Ok r -> np_squad ts rr x = Ok r.
Proof.
  intros ts rr ts' rr' k x r Inc L L' U K X H. apply np_squad_inv in H as (_ & _ & _ & ->).
  assert (Inc1 : increasing ts). { intros i j a b Hij Ha Hb. apply (Inc i j a b Hij); rewrite nth_error_app1; try assumption; apply nth_error_Some; congruence. }
  rewrite np_squad_ok; [|exact Inc1|lia|exact L|apply Forall_app in U; tauto]. f_equal. unfold squad_at.
  assert (T : forall m, (m < length ts)%nat -> stime (ts ++ ts') m = stime ts m) by (intros m Hm; unfold stime; apply app_nth1, Hm).
  assert (S' : forall m, (m < length ts)%nat -> sample (rr ++ rr') m = sample rr m) by (intros m Hm; unfold sample; apply app_nth1; lia).
  assert (I1 : interval_of ts x = k) by (apply interval_is; [exact Inc1|lia|lra|intros; lra]).
  assert (I2 : interval_of (ts ++ ts') x = k). { apply interval_is; [exact Inc|rewrite app_length; lia|rewrite app_nth1 by lia; lra|intros; rewrite app_nth1 by lia; lra]. }
  rewrite I1, I2. rewrite T, S' by lia.
  assert (F1 : Nat.eqb k (final ts) = false) by (apply Nat.eqb_neq; unfold final; lia).
  assert (F2 : Nat.eqb k (final (ts ++ ts')) = false) by (apply Nat.eqb_neq; unfold final; rewrite app_length; lia).
  assert (F3 : Nat.eqb (S k) (final ts) = false) by (apply Nat.eqb_neq; unfold final; lia).
  assert (F4 : Nat.eqb (S k) (final (ts ++ ts')) = false) by (apply Nat.eqb_neq; unfold final; rewrite app_length; lia).
  assert (Gp : forall m, (S m < length ts)%nat -> gap (ts ++ ts') m = gap ts m) by (intros m Hm; unfold gap; rewrite !T by lia; reflexivity).
  assert (Tl : forall m, (S m < length ts)%nat -> turn_log (rr ++ rr') m = turn_log rr m) by (intros m Hm; unfold turn_log; rewrite !S' by lia; reflexivity).
  unfold duration, following, ctrl_a, ctrl_b. rewrite F1, F2, F3, F4. rewrite !Gp, !Tl, !S' by lia.
  reflexivity.
Qed.
