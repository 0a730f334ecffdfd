(** How far squad is from the curve whose samples it interpolates. *)
From Coq Require Import Reals List Arith Bool Lia Lra.
From Coquelicot Require Import Coquelicot.
From Verif Require Import Base Quat SpecQuat QuatProofs TimeProofs Coord RotVec PropRotVec Squad SquadProofs LookVelProofs QuatDist
  SpecMotion MotionProofs Taylor PropSquad PropConverge.
Import ListNotations.
Open Scope R_scope.

(* ---- trigonometry ---- *)
Lemma sin_low y : 0 <= y <= PI -> y - y * y * y / 6 <= sin y.
Proof.
  intros H. destruct (sin_bound y 0) as (L & _); try tauto. eapply Rle_trans; [|exact L].
  unfold sin_approx, sum_f_R0, sin_term. cbn [Nat.mul Nat.add fact pow]. cbn [INR]. lra.
Qed.
Lemma sin_high y : 0 <= y -> sin y <= y.
Proof. intros H. destruct (Req_dec y 0) as [->|N]; [rewrite sin_0; lra|]. left. apply sin_lt_x. lra. Qed.
Lemma cos_half x : 1 - cos x = 2 * (sin (x / 2) * sin (x / 2)).
Proof. replace (cos x) with (cos (2 * (x / 2))) by (f_equal; field). rewrite cos_2a_sin. ring. Qed.
(** The angle and the chord d of a right angle or less. *)
Lemma chord th : 0 <= th <= PI / 2 -> let d := 2 * sin (th / 2) in 0 <= d /\ th <= 6 / 5 * d /\ th * th * th / 6 <= d * d / 2.
Proof.
  intros H d. pose proof PI_4 as P4. pose proof PI_RGT_0. pose proof (sin_low (th / 2) ltac:(lra)) as L.
  assert (D : th <= 6 / 5 * d). { unfold d. nra. }
  split; [lra|]. split; [exact D|]. assert (th * th <= 36 / 25 * (d * d)) by nra. nra.
Qed.
(* ---- slerp ---- *)
Lemma exp_near v : qdist (np_exp (mkq 0 v)) q1 <= vnorm v.
Proof.
  unfold np_exp. replace (qvec (mkq 0 v)) with v by (destruct v; reflexivity). pose proof (vnorm_sq v) as Q. pose proof (vnorm_pos v) as P. set (b := vnorm v) in *.
  unfold Req_b. destruct (Req_EM_T b 0) as [Z|Z].
  - cbn [mkq qw]. rewrite exp_0. change (Qt 1 0 0 0) with q1. rewrite qdist_self. exact P.
  - apply Rsqr_incr_0_var; [|exact P]. unfold Rsqr. rewrite qdist_len, qlen_sq. destruct v as [v1 v2 v3]. cbn [mkq qw qx qy qz vx vy vz] in *. rewrite exp_0.
    unfold qnorm2, qsub, q1. cbn [qw qx qy qz vx vy vz]. unfold vdot in Q. cbn in Q.
    apply Rle_trans with ((1 - cos b) * (1 - cos b) + sin b * sin b).
    { right. replace (sin b * sin b) with (sin b / b * (sin b / b) * (b * b)) by (field; auto). rewrite Q. ring. }
    pose proof (sin2_cos2 b) as SC. unfold Rsqr in SC. pose proof (cos_half b) as CH. pose proof (sin_high (b / 2) ltac:(lra)) as S1.
    assert (S2 : - (b / 2) <= sin (b / 2)). { destruct (Rle_dec 0 (sin (b / 2))); [lra|]. pose proof (sin_high (b/2) ltac:(lra)). destruct (Rle_dec (b / 2) 1) as [B|B].
      - pose proof (sin_low (b / 2)). pose proof PI2_3_2. assert (0 <= sin (b / 2)) by (apply sin_ge_0; lra). lra.
      - pose proof (SIN_bound (b / 2)). lra. }
    assert (sin (b / 2) * sin (b / 2) <= b / 2 * (b / 2)) by nra. nra.
Qed.

(** slerp between unit quaternions on one side: their difference is an angle th. *)
Lemma slerp_angle a b : hunit a -> hunit b -> 0 <= inner a b -> exists u th, vdot u u = 1 /\ 0 <= th <= PI / 2 /\
  hmul (hconj a) b = about_axis u (2 * th) /\ qdist a b = 2 * sin (th / 2) /\
  forall tau, np_slerp a b tau = hmul a (about_axis u (2 * (tau * th))).
Proof.
  intros Ha Hb Hi. pose proof (hunit_hmul (hconj a) b (hunit_conj a Ha) Hb) as U. destruct (unit_about _ U) as (u & al & Hu & Hal & E & Hm).
  assert (W : cos (al / 2) = inner a b) by (unfold inner; rewrite E; reflexivity). pose proof PI_RGT_0 as PP.
  assert (T : 0 <= al / 2 <= PI / 2). { split; [lra|]. destruct (Rle_dec (al / 2) (PI / 2)) as [L|L]; [exact L|]. assert (cos (al / 2) < 0) by (apply cos_lt_0; lra). lra. }
  exists u, (al / 2). split; [exact Hu|]. split; [exact T|]. split; [rewrite E; f_equal; field|]. split.
  - apply Rsqr_inj; [apply qdist_nonneg|assert (0 <= sin (al / 2 / 2)) by (apply sin_ge_0; lra); lra|]. unfold Rsqr. rewrite qdist_inner by assumption. rewrite <- W.
    pose proof (cos_half (al / 2)). lra.
  - intros tau. rewrite slerp_local by assumption. unfold toward. destruct (Rle_dec 0 (inner a b)) as [_|N]; [|contradiction]. rewrite E, power_about by lra. do 2 f_equal. field.
Qed.
Definition lerp (a b : quat) (tau : R) : quat := qaddq (qscale (1 - tau) a) (qscale tau b).
Lemma slerp_lerp a b tau : hunit a -> hunit b -> 0 <= inner a b -> 0 <= tau <= 1 -> qdist (np_slerp a b tau) (lerp a b tau) <= qdist a b * qdist a b.
Proof.
  intros Ha Hb Hi Ht. destruct (slerp_angle a b Ha Hb Hi) as (u & th & Hu & Hth & E & Hd & Hs). rewrite Hs.
  assert (Eb : b = hmul a (about_axis u (2 * th))). { rewrite <- E, <- hmul_assoc, hconj_r by exact Ha. destruct b as [b1 b2 b3 b4]. vcomp. f_equal; ring. }
  replace (lerp a b tau) with (hmul a (qaddq (qscale (1 - tau) q1) (qscale tau (about_axis u (2 * th))))).
  2:{ unfold lerp. rewrite Eb. generalize (about_axis u (2 * th)) as p. intros [p1 p2 p3 p4]. clear. destruct a as [a1 a2 a3 a4]. unfold qaddq. vcomp. f_equal; ring. }
  rewrite qdist_left by exact Ha. destruct (chord th Hth) as (C0 & C1 & C2). cbv zeta in C0, C1, C2. rewrite <- Hd in C0, C1, C2. set (d := qdist a b) in *.
  assert (DD : d * d = 2 * (1 - cos th)) by (rewrite cos_half, Hd; ring).
  set (W := cos (tau * th) - (1 - tau) - tau * cos th). set (Z := sin (tau * th) - tau * sin th).
  assert (EQ : qdist (about_axis u (2 * (tau * th))) (qaddq (qscale (1 - tau) q1) (qscale tau (about_axis u (2 * th)))) = sqrt (W * W + Z * Z)).
  { rewrite qdist_len. unfold qlen. f_equal. unfold about_axis. replace (2 * (tau * th) / 2) with (tau * th) by field. replace (2 * th / 2) with th by field.
    replace (Z * Z) with (Z * Z * vdot u u) by (rewrite Hu; ring). unfold W, Z. destruct u as [u1 u2 u3]. unfold qsub, qaddq, q1. vcomp. ring. }
  rewrite EQ. pose proof PI_RGT_0 as PP. pose proof PI_4 as P4.
  assert (TT : 0 <= tau * th <= th) by (split; [apply Rmult_le_pos; lra|nra]).
  assert (C3 : cos th <= cos (tau * th)) by (apply cos_decr_1; lra). pose proof (COS_bound (tau * th)) as CB. 
  assert (WB : - (d * d / 2) <= W <= d * d / 2). { unfold W. assert (tau * (1 - cos th) <= 1 - cos th) by (pose proof (COS_bound th); nra). assert (0 <= tau * (1 - cos th)) by (pose proof (COS_bound th); nra). lra. }
  assert (ZB : - (d * d / 2) <= Z <= d * d / 2).
  { unfold Z. pose proof (sin_high (tau * th) ltac:(lra)) as S1. pose proof (sin_high th ltac:(lra)) as S2. pose proof (sin_low th ltac:(lra)) as S3. pose proof (sin_low (tau * th) ltac:(lra)) as S4.
    assert (tau * (th - sin th) <= th - sin th) by nra. assert (0 <= tau * (th - sin th)) by nra.
    assert (Q2 : tau * th * (tau * th) <= th * th) by (apply Rmult_le_compat; lra). assert (tau * th * (tau * th) * (tau * th) <= th * th * th) by (apply Rmult_le_compat; try lra; nra). nra. }
  apply Rle_trans with (sqrt (d * d * (d * d))); [apply sqrt_le_1_alt|rewrite sqrt_square; [lra|nra]].
  assert (W * W <= d * d / 2 * (d * d / 2)) by nra. assert (Z * Z <= d * d / 2 * (d * d / 2)) by nra. nra.
Qed.
Lemma slerp_start a b tau : hunit a -> hunit b -> 0 <= inner a b -> 0 <= tau <= 1 / 2 -> qdist (np_slerp a b tau) a <= 3 / 5 * qdist a b.
Proof.
  intros Ha Hb Hi Ht. destruct (slerp_angle a b Ha Hb Hi) as (u & th & Hu & Hth & E & Hd & Hs). rewrite Hs.
  destruct (chord th Hth) as (C0 & C1 & C2). cbv zeta in C0, C1, C2. rewrite <- Hd in C0, C1, C2.
  replace (qdist (hmul a (about_axis u (2 * (tau * th)))) a) with (qdist (about_axis u (2 * (tau * th))) q1).
  2:{ rewrite <- (qdist_left a _ _ Ha). f_equal. destruct a as [a1 a2 a3 a4]. vcomp. f_equal; ring. }
  rewrite <- (exp_about u (2 * (tau * th)) Hu). eapply Rle_trans; [apply exp_near|]. rewrite vnorm_scale by exact Hu. rewrite Rabs_right by nra. nra.
Qed.
Lemma log_near a b : hunit a -> hunit b -> 0 <= inner a b -> exists l, np_log (hmul (hconj a) b) = mkq 0 l /\
  vnorm (vsub l (ve (hmul (hconj a) b))) <= qdist a b * qdist a b / 2.
Proof.
  intros Ha Hb Hi. destruct (slerp_angle a b Ha Hb Hi) as (u & th & Hu & Hth & E & Hd & Hs). rewrite E. pose proof PI_RGT_0 as PP.
  rewrite log_axis by (auto; lra). exists (vscale (2 * th / 2) u). split; [reflexivity|].
  replace (vsub (vscale (2 * th / 2) u) (ve (about_axis u (2 * th)))) with (vscale (th - sin th) u).
  2:{ unfold about_axis. replace (2 * th / 2) with th by field. destruct u as [u1 u2 u3]. vcomp. f_equal; ring. }
  rewrite vnorm_scale by exact Hu. destruct (chord th Hth) as (C0 & C1 & C2). cbv zeta in C0, C1, C2. rewrite <- Hd in C0, C1, C2.
  pose proof (sin_high th ltac:(lra)). pose proof (sin_low th ltac:(lra)). rewrite Rabs_right by lra. lra.
Qed.

Lemma mkq_inj v w : mkq 0 v = mkq 0 w -> v = w.
Proof. destruct v as [v1 v2 v3], w as [w1 w2 w3]. intros H. injection H as -> -> ->. reflexivity. Qed.
(* ---- a smooth curve of unit quaternions ---- *)
Section Curve.
  Variables (q : nat -> R -> quat) (L M : R).
  Hypothesis HD : qderivatives q 2.
  Hypothesis HL : forall t, qlen (q 1%nat t) <= L.
  Hypothesis HM : forall t, qlen (q 2%nat t) <= M.
  Lemma dot_deriv e k t : (k < 2)%nat -> derivable_pt_lim (fun x => qdot e (q k x)) t (qdot e (q (S k) t)).
  Proof using HD.
    intros Hk. destruct (HD k t Hk) as (D1 & D2 & D3 & D4). unfold qdot.
    apply (derivable_pt_lim_plus (fun x => qw e * qw (q k x) + qx e * qx (q k x) + qy e * qy (q k x)) (fun x => qz e * qz (q k x))); [|apply (derivable_pt_lim_scal _ _ _ _ D4)].
    apply (derivable_pt_lim_plus (fun x => qw e * qw (q k x) + qx e * qx (q k x)) (fun x => qy e * qy (q k x))); [|apply (derivable_pt_lim_scal _ _ _ _ D3)].
    apply (derivable_pt_lim_plus (fun x => qw e * qw (q k x)) (fun x => qx e * qx (q k x))); [apply (derivable_pt_lim_scal _ _ _ _ D1)|apply (derivable_pt_lim_scal _ _ _ _ D2)].
  Qed.
  Lemma bounds_pos : 0 <= L /\ 0 <= M.
  Proof using HL HM. split; [pose proof (HL 0); pose proof (qlen_nonneg (q 1%nat 0))|pose proof (HM 0); pose proof (qlen_nonneg (q 2%nat 0))]; lra. Qed.
  Lemma curve_lip a b : a <= b -> qdist (q 0%nat b) (q 0%nat a) <= L * (b - a).
  Proof using HD HL.
    intros Hab. assert (P : 0 <= L) by (pose proof (HL 0); pose proof (qlen_nonneg (q 1%nat 0)); lra).
    rewrite qdist_len. apply qlen_by_dot; [apply Rmult_le_pos; lra|]. intros e He.
    pose proof (taylor_right 1 (fun k t => qdot e (q k t)) L a b Hab) as T.
    replace (qdot e (qsub (q 0%nat b) (q 0%nat a))) with (qdot e (q 0%nat b) - poly (fun k t => qdot e (q k t)) a (b - a) 1).
    - replace (L * (b - a)) with (L * (b - a) ^ 1 / INR (fact 1)) by (cbn; field). apply T.
      + intros k t Hk _. apply dot_deriv. lia.
      + intros t _. eapply Rle_trans; [apply qdot_unit_len, He|apply HL].
    - unfold qdot, qsub. cbn. field.
  Qed.
  (** The part of q(x) - q(t) that is not (x - t) q'(t). *)
  Definition curve_rest (t x : R) : quat := qsub (qsub (q 0%nat x) (q 0%nat t)) (qscale (x - t) (q 1%nat t)).
  Lemma curve_taylor t x : qlen (curve_rest t x) <= M * ((x - t) * (x - t)) / 2.
  Proof using HD HM.
    assert (P : 0 <= M) by (pose proof (HM 0); pose proof (qlen_nonneg (q 2%nat 0)); lra).
    apply qlen_by_dot; [apply Rmult_le_pos; [apply Rmult_le_pos; [exact P|apply (Rle_0_sqr (x - t))]|lra]|]. intros e He. set (f := fun k t => qdot e (q k t)).
    assert (B : forall s, Rabs (f 2%nat s) <= M) by (intros s; eapply Rle_trans; [apply qdot_unit_len, He|apply HM]).
    assert (C : forall lo hi, chain f 2 lo hi) by (intros lo hi k s Hk _; apply dot_deriv, Hk).
    replace (qdot e (curve_rest t x)) with (f 0%nat x - poly f t (x - t) 2).
    2:{ rewrite poly2. unfold f, curve_rest, qdot, qsub, qscale. cbn [qw qx qy qz]. ring. }
    destruct (Rle_dec t x) as [H|H].
    - eapply Rle_trans; [apply (taylor_right 2 f M t x H (C _ _) (fun s _ => B s))|]. rewrite fact_2. right. field.
    - eapply Rle_trans; [apply (taylor_left 2 f M t x ltac:(lra) (C _ _) (fun s _ => B s))|]. rewrite fact_2. right. field.
  Qed.
  Lemma curve_lerp a b x : a < b -> a <= x <= b -> qdist (lerp (q 0%nat a) (q 0%nat b) ((x - a) / (b - a))) (q 0%nat x) <= M * ((b - a) * (b - a)) / 8.
  Proof using HD HM.
    intros Hab Hx. assert (P : 0 <= M) by (pose proof (HM 0); pose proof (qlen_nonneg (q 2%nat 0)); lra).
    set (tau := (x - a) / (b - a)).
    assert (T : 0 <= tau <= 1). { unfold tau. split; [apply Rmult_le_pos; [lra|left; apply Rinv_0_lt_compat; lra]|]. apply Rmult_le_reg_r with (b - a); [lra|]. unfold Rdiv. rewrite Rmult_assoc, Rinv_l by lra. lra. }
    assert (E : x - a = tau * (b - a)) by (unfold tau; field; lra).
    rewrite qdist_len. replace (qsub (lerp (q 0%nat a) (q 0%nat b) tau) (q 0%nat x)) with (qaddq (qscale (1 - tau) (curve_rest x a)) (qscale tau (curve_rest x b))).
    2:{ unfold curve_rest, lerp. replace (a - x) with (- (tau * (b - a))) by lra. replace (b - x) with ((1 - tau) * (b - a)) by lra. unfold qaddq, qsub, qscale. cbn [qw qx qy qz]. f_equal; ring. }
    eapply Rle_trans; [apply qtri|]. rewrite !qlen_scale, !Rabs_right by lra.
    pose proof (curve_taylor x a) as R1. pose proof (curve_taylor x b) as R2.
    replace ((a - x) * (a - x)) with (tau * tau * ((b - a) * (b - a))) in R1 by (replace (a - x) with (- (tau * (b - a))) by lra; ring).
    replace ((b - x) * (b - x)) with ((1 - tau) * (1 - tau) * ((b - a) * (b - a))) in R2 by (replace (b - x) with ((1 - tau) * (b - a)) by lra; ring).
    assert (Q : 0 <= M * ((b - a) * (b - a))) by (apply Rmult_le_pos; [exact P|nra]). set (Y := M * ((b - a) * (b - a))) in *.
    apply (Rmult_le_compat_l (1 - tau)) in R1; [|lra]. apply (Rmult_le_compat_l tau) in R2; [|lra].
    assert (tau * (1 - tau) <= 1 / 4) by (pose proof (pow2_ge_0 (tau - 1 / 2)); nra).
    assert (EQ : (1 - tau) * (M * (tau * tau * ((b - a) * (b - a))) / 2) + tau * (M * ((1 - tau) * (1 - tau) * ((b - a) * (b - a))) / 2) = Y * (tau * (1 - tau)) / 2) by (unfold Y; field).
    assert (Y * (tau * (1 - tau)) <= Y * (1 / 4)) by (apply Rmult_le_compat_l; lra). lra.
  Qed.

  (* ---- the control points ---- *)
  Hypothesis HU : forall t, hunit (q 0%nat t).
  Lemma near_side s t : L * Rabs (t - s) <= 1 -> 0 <= inner (q 0%nat s) (q 0%nat t) /\ qdist (q 0%nat s) (q 0%nat t) <= L * Rabs (t - s).
  Proof using HD HL HU.
    intros H. assert (D : qdist (q 0%nat s) (q 0%nat t) <= L * Rabs (t - s)).
    { destruct (Rle_dec s t) as [C|C]; [rewrite Rabs_right by lra; rewrite qdist_sym; apply curve_lip, C|].
      rewrite Rabs_left by lra. replace (- (t - s)) with (s - t) by ring. apply curve_lip. lra. }
    split; [|exact D]. pose proof (qdist_inner _ _ (HU s) (HU t)) as I2. pose proof (qdist_nonneg (q 0%nat s) (q 0%nat t)). nra.
  Qed.
  (** The step of a control point at the sample at time b, with neighbours at a and c. *)
  Lemma ctrl_step a b c al be h l0 l1 H : a < b < c -> b - a <= H -> c - b <= H -> L * H <= 1 ->
    0 <= al -> 0 <= be -> al * (c - b) = h -> be * (b - a) = h -> h <= H ->
    np_log (hmul (hconj (q 0%nat a)) (q 0%nat b)) = mkq 0 l0 -> np_log (hmul (hconj (q 0%nat b)) (q 0%nat c)) = mkq 0 l1 ->
    vnorm (vadd (vscale be l0) (vscale (- al) l1)) <= (L * L + M) * (H * H).
  Proof using HD HL HM HU.
    intros Habc G0 G1 HLH Pa Pb Ea Eb Hh E0 E1. destruct bounds_pos as (PL & PM).
    assert (N0 : L * (b - a) <= 1) by nra. assert (N1 : L * (c - b) <= 1) by nra.
    destruct (near_side a b) as (I0 & D0); [rewrite Rabs_right by lra; exact N0|]. rewrite Rabs_right in D0 by lra.
    destruct (near_side b c) as (I1 & D1); [rewrite Rabs_right by lra; exact N1|]. rewrite Rabs_right in D1 by lra.
    destruct (log_near _ _ (HU a) (HU b) I0) as (l0' & F0 & B0). destruct (log_near _ _ (HU b) (HU c) I1) as (l1' & F1 & B1).
    assert (l0' = l0) by (rewrite F0 in E0; apply mkq_inj in E0; exact E0). assert (l1' = l1) by (rewrite F1 in E1; apply mkq_inj in E1; exact E1). subst l0' l1'. clear F0 F1 E0 E1.
    set (v0' := ve (hmul (hconj (q 0%nat a)) (q 0%nat b))) in *. set (v1' := ve (hmul (hconj (q 0%nat b)) (q 0%nat c))) in *.
    (* the two turns, seen from b *)
    set (r0 := curve_rest b a). set (r1 := curve_rest b c).
    assert (SUM : vadd (vscale be v0') (vscale (- al) v1') = ve (hmul (hconj (q 0%nat b)) (qaddq (qscale (- be) r0) (qscale (- al) r1)))).
    { assert (hmulr : forall p, ve (hmul (hconj p) p) = v0) by (intros [p1 p2 p3 p4]; vcomp; f_equal; ring).
      assert (X0 : v0' = vscale (-1) (ve (hmul (hconj (q 0%nat b)) (q 0%nat a)))). { unfold v0'. destruct (q 0%nat a) as [a1 a2 a3 a4], (q 0%nat b) as [b1 b2 b3 b4]. vcomp. f_equal; ring. }
      assert (EA : q 0%nat a = qaddq (qaddq (q 0%nat b) (qscale (a - b) (q 1%nat b))) r0) by (unfold r0, curve_rest, qaddq, qsub, qscale; destruct (q 0%nat a) as [a1 a2 a3 a4]; cbn [qw qx qy qz]; f_equal; ring).
      assert (EC : q 0%nat c = qaddq (qaddq (q 0%nat b) (qscale (c - b) (q 1%nat b))) r1) by (unfold r1, curve_rest, qaddq, qsub, qscale; destruct (q 0%nat c) as [a1 a2 a3 a4]; cbn [qw qx qy qz]; f_equal; ring).
      rewrite X0. unfold v1'. rewrite EA, EC. generalize (hmulr (q 0%nat b)). clearbody r0 r1. clear - Ea Eb. intros Z.
      assert (K : be * (a - b) + al * (c - b) = 0) by lra. clear Ea Eb.
      generalize dependent (q 1%nat b). intros [d1 d2 d3 d4]. destruct (q 0%nat b) as [b1 b2 b3 b4], r0 as [x1 x2 x3 x4], r1 as [y1 y2 y3 y4]. clear Z.
      unfold qaddq. vcomp. f_equal.
      - match goal with |- ?l = ?r => assert (l - r = (be * (a - b) + al * (c - b)) * (b2 * d1 - b1 * d2 + b3 * d4 - b4 * d3)) by ring; rewrite K, Rmult_0_l in *; lra end.
      - match goal with |- ?l = ?r => assert (l - r = (be * (a - b) + al * (c - b)) * (b3 * d1 - b1 * d3 + b4 * d2 - b2 * d4)) by ring; rewrite K, Rmult_0_l in *; lra end.
      - match goal with |- ?l = ?r => assert (l - r = (be * (a - b) + al * (c - b)) * (b4 * d1 - b1 * d4 + b2 * d3 - b3 * d2)) by ring; rewrite K, Rmult_0_l in *; lra end. }
    assert (V : vnorm (vadd (vscale be v0') (vscale (- al) v1')) <= M * (H * H)).
    { rewrite SUM. eapply Rle_trans; [apply ve_len|]. rewrite qlen_hmul, qlen_conj, hunit_len, Rmult_1_l by apply HU. eapply Rle_trans; [apply qtri|].
      rewrite !qlen_scale, !Rabs_Ropp, !Rabs_right by lra.
      pose proof (curve_taylor b a) as R0. pose proof (curve_taylor b c) as R1. fold r0 in R0. fold r1 in R1.
      apply (Rmult_le_compat_l be) in R0; [|exact Pb]. apply (Rmult_le_compat_l al) in R1; [|exact Pa].
      replace (be * (M * ((a - b) * (a - b)) / 2)) with (M * (be * (b - a) * (b - a)) / 2) in R0 by field. rewrite Eb in R0.
      replace (al * (M * ((c - b) * (c - b)) / 2)) with (M * (al * (c - b) * (c - b)) / 2) in R1 by field. rewrite Ea in R1.
      assert (0 <= h) by (rewrite <- Ea; apply Rmult_le_pos; lra).
      assert (h * (b - a) <= H * H) by (apply Rmult_le_compat; lra). assert (h * (c - b) <= H * H) by (apply Rmult_le_compat; lra).
      assert (M * (h * (b - a)) <= M * (H * H)) by (apply Rmult_le_compat_l; lra). assert (M * (h * (c - b)) <= M * (H * H)) by (apply Rmult_le_compat_l; lra). lra. }
    replace (vadd (vscale be l0) (vscale (- al) l1)) with (vadd (vadd (vscale be v0') (vscale (- al) v1')) (vadd (vscale be (vsub l0 v0')) (vscale (- al) (vsub l1 v1')))).
    2:{ destruct l0 as [x1 x2 x3], l1 as [y1 y2 y3], v0' as [z1 z2 z3], v1' as [w1 w2 w3]. unfold vadd, vscale, vsub. cbn [vx vy vz]. f_equal; ring. }
    eapply Rle_trans; [apply vnorm_tri|]. pose proof (vnorm_tri (vscale be (vsub l0 v0')) (vscale (- al) (vsub l1 v1'))) as T.
    assert (SC : forall k v, vnorm (vscale k v) = Rabs k * vnorm v).
    { intros k v. rewrite <- !pure_len, <- qlen_scale. f_equal. destruct v as [v1 v2 v3]. vcomp. f_equal; ring. }
    rewrite !SC, Rabs_Ropp, !Rabs_right in T by lra.
    assert (Q0 : be * vnorm (vsub l0 v0') <= L * L * (H * H) / 2).
    { assert (DD : qdist (q 0%nat a) (q 0%nat b) * qdist (q 0%nat a) (q 0%nat b) <= L * (b - a) * (L * (b - a))) by (apply Rmult_le_compat; auto using qdist_nonneg).
      apply Rle_trans with (be * (L * (b - a) * (L * (b - a)) / 2)); [apply Rmult_le_compat_l; lra|].
      replace (be * (L * (b - a) * (L * (b - a)) / 2)) with (L * L * (be * (b - a) * (b - a)) / 2) by field. rewrite Eb.
      assert (0 <= h) by (rewrite <- Ea; apply Rmult_le_pos; lra). assert (h * (b - a) <= H * H) by (apply Rmult_le_compat; lra).
      assert (L * L * (h * (b - a)) <= L * L * (H * H)) by (apply Rmult_le_compat_l; [nra|lra]). lra. }
    assert (Q1 : al * vnorm (vsub l1 v1') <= L * L * (H * H) / 2).
    { assert (DD : qdist (q 0%nat b) (q 0%nat c) * qdist (q 0%nat b) (q 0%nat c) <= L * (c - b) * (L * (c - b))) by (apply Rmult_le_compat; auto using qdist_nonneg).
      apply Rle_trans with (al * (L * (c - b) * (L * (c - b)) / 2)); [apply Rmult_le_compat_l; lra|].
      replace (al * (L * (c - b) * (L * (c - b)) / 2)) with (L * L * (al * (c - b) * (c - b)) / 2) by field. rewrite Ea.
      assert (0 <= h) by (rewrite <- Ea; apply Rmult_le_pos; lra). assert (h * (c - b) <= H * H) by (apply Rmult_le_compat; lra).
      assert (L * L * (h * (c - b)) <= L * L * (H * H)) by (apply Rmult_le_compat_l; [nra|lra]). lra. }
    lra.
  Qed.
End Curve.

Section Squad.
  Variables (q : nat -> R -> quat) (L M H : R) (ts : list R).
  Hypothesis HD : qderivatives q 2.
  Hypothesis HL : forall t, qlen (q 1%nat t) <= L.
  Hypothesis HM : forall t, qlen (q 2%nat t) <= M.
  Hypothesis HU : forall t, hunit (q 0%nat t).
  Hypothesis Inc : increasing ts.
  Hypothesis Len : (2 <= length ts)%nat.
  Hypothesis HH : spaced_by ts H.
  Let rr := map (q 0%nat) ts.
  Let E := (L * L + M) * (H * H).
  Hypothesis Small : E <= 1 / 4.
  Lemma rr_sample k : (k < length ts)%nat -> sample rr k = q 0%nat (stime ts k).
  Proof. intros Hk. unfold sample, rr. rewrite map_nth_R by exact Hk. reflexivity. Qed.
  Lemma rr_units : List.Forall hunit rr.
  Proof. apply List.Forall_forall. intros p Hp. apply in_map_iff in Hp as (t & <- & _). apply HU. Qed.
  Lemma gap_range k : (S k < length ts)%nat -> 0 < gap ts k <= H.
  Proof. intros Hk. unfold gap, stime. split; [|apply HH, Hk]. pose proof (increasing_nth ts k (S k) Inc ltac:(lia)). lra. Qed.
  Lemma spacing_pos : 0 < H.
  Proof. pose proof (gap_range 0 ltac:(lia)). lra. Qed.
  Lemma step_small : L * H <= 1 / 2 /\ L * H * (L * H) <= E /\ 0 <= E /\ M * (H * H) <= E.
  Proof.
    destruct (bounds_pos q L M HL HM) as (PL & PM). pose proof spacing_pos as PH.
    assert (A : L * H * (L * H) <= E). { unfold E. assert (0 <= M * (H * H)) by (apply Rmult_le_pos; nra). lra. }
    assert (0 <= L * H) by (apply Rmult_le_pos; lra).
    split; [nra|]. split; [exact A|]. split; [nra|]. unfold E. assert (0 <= L * L * (H * H)) by (apply Rmult_le_pos; nra). lra.
  Qed.
  Lemma exp_step p w : hunit p -> vnorm w <= E / 4 -> qdist (hmul p (np_exp (mkq 0 w))) p <= E / 4.
  Proof.
    intros Hp Hw. replace (qdist (hmul p (np_exp (mkq 0 w))) p) with (qdist (np_exp (mkq 0 w)) q1); [eapply Rle_trans; [apply exp_near|exact Hw]|].
    rewrite <- (qdist_left p _ _ Hp). f_equal. destruct p as [a1 a2 a3 a4]. vcomp. f_equal; ring.
  Qed.
  Lemma vnorm_vscale k v : vnorm (vscale k v) = Rabs k * vnorm v.
  Proof. rewrite <- !pure_len, <- qlen_scale. f_equal. destruct v as [v1 v2 v3]. vcomp. f_equal; ring. Qed.
  Lemma turn_is k : (S k < length ts)%nat -> exists l, turn_log rr k = mkq 0 l /\ np_log (hmul (hconj (q 0%nat (stime ts k))) (q 0%nat (stime ts (S k)))) = mkq 0 l.
  Proof.
    intros Hk. destruct (turn_log_pure rr rr_units k) as (l & El). exists l. split; [exact El|]. unfold turn_log in El. rewrite qmulq_hmul, qconj_hconj, (rr_sample k), (rr_sample (S k)) in El by lia. exact El.
  Qed.
  Lemma ctrl_a_near i : (S i < length ts)%nat -> qdist (ctrl_a ts rr i) (q 0%nat (stime ts i)) <= E / 4.
  Proof.
    intros Hi. destruct step_small as (S1 & S2 & S3 & S4). unfold ctrl_a. destruct (Nat.eqb_spec i 0) as [->|N]; cbn [orb]; [rewrite rr_sample by lia; rewrite qdist_self; lra|].
    destruct (Nat.eqb_spec i (final ts)) as [F|_]; [unfold final in F; lia|]. destruct i as [|j]; [lia|]. cbn [Nat.pred].
    destruct (turn_is (S j) Hi) as (l1 & T1 & E1). destruct (turn_is j ltac:(lia)) as (l0 & T0 & E0). rewrite T1, T0, pure_sum, pure_scale, qmulq_hmul, rr_sample by lia.
    apply exp_step; [apply HU|]. rewrite vnorm_vscale, Rabs_right by lra. pose proof (gap_range j ltac:(lia)) as G0. pose proof (gap_range (S j) Hi) as G1.
    pose proof (ctrl_step q L M HD HL HM HU (stime ts j) (stime ts (S j)) (stime ts (S (S j))) 1 (gap ts (S j) / gap ts j) (gap ts (S j)) l0 l1 H) as C.
    unfold gap in G0, G1. pose proof spacing_pos.
    assert (R : vnorm (vadd (vscale (gap ts (S j) / gap ts j) l0) (vscale (- (1)) l1)) <= E).
    { apply C; try assumption; try lra.
      - apply Rmult_le_pos; [unfold gap; lra|left; apply Rinv_0_lt_compat; unfold gap; lra].
      - unfold gap; lra.
      - unfold gap; field; lra.
      - unfold gap; lra. }
    replace (vadd (vscale (-1) l1) (vscale (gap ts (S j) / gap ts j) l0)) with (vadd (vscale (gap ts (S j) / gap ts j) l0) (vscale (- (1)) l1)); [lra|].
    destruct l0 as [x1 x2 x3], l1 as [y1 y2 y3]. vcomp. f_equal; ring.
  Qed.
  Lemma ctrl_b_near i : (S i < length ts)%nat -> qdist (ctrl_b ts rr i) (q 0%nat (stime ts (S i))) <= E / 4.
  Proof.
    intros Hi. destruct step_small as (S1 & S2 & S3 & S4). unfold ctrl_b. destruct (Nat.eqb_spec i (final ts)) as [F|_]; [unfold final in F; lia|].
    destruct (Nat.eqb_spec (S i) (final ts)) as [F|N]; [rewrite <- F, rr_sample by lia; rewrite qdist_self; lra|]. unfold final in N.
    destruct (turn_is i Hi) as (l0 & T0 & E0). destruct (turn_is (S i) ltac:(lia)) as (l1 & T1 & E1). rewrite T1, T0, pure_sum, pure_scale, qmulq_hmul, rr_sample by lia.
    apply exp_step; [apply HU|]. rewrite vnorm_vscale, Rabs_left by lra. pose proof (gap_range i ltac:(lia)) as G0. pose proof (gap_range (S i) ltac:(lia)) as G1.
    pose proof (ctrl_step q L M HD HL HM HU (stime ts i) (stime ts (S i)) (stime ts (S (S i))) (gap ts i / gap ts (S i)) 1 (gap ts i) l0 l1 H) as C.
    unfold gap in G0, G1. pose proof spacing_pos.
    assert (R : vnorm (vadd (vscale 1 l0) (vscale (- (gap ts i / gap ts (S i))) l1)) <= E).
    { apply C; try assumption; try lra.
      - apply Rmult_le_pos; [unfold gap; lra|left; apply Rinv_0_lt_compat; unfold gap; lra].
      - unfold gap; field; lra.
      - unfold gap; lra.
      - unfold gap; lra. }
    replace (vnorm (vadd (vscale (gap ts i / gap ts (S i)) l1) (vscale (-1) l0))) with (vnorm (vadd (vscale 1 l0) (vscale (- (gap ts i / gap ts (S i))) l1))); [lra|].
    unfold vnorm. f_equal. generalize (gap ts i / gap ts (S i)) as g. intros g. destruct l0 as [x1 x2 x3], l1 as [y1 y2 y3]. vcomp. ring.
  Qed.
  Lemma lerp_near a a' b b' tau e : 0 <= tau <= 1 -> qdist a a' <= e -> qdist b b' <= e -> qdist (lerp a b tau) (lerp a' b' tau) <= e.
  Proof.
    intros Ht Ha Hb. rewrite qdist_len in *. replace (qsub (lerp a b tau) (lerp a' b' tau)) with (qaddq (qscale (1 - tau) (qsub a a')) (qscale tau (qsub b b'))).
    2:{ unfold lerp, qaddq, qscale, qsub. cbn [qw qx qy qz]. f_equal; ring. }
    eapply Rle_trans; [apply qtri|]. rewrite !qlen_scale, !Rabs_right by lra. rewrite <- !qdist_len in *. nra.
  Qed.
  Lemma near_inner a b : hunit a -> hunit b -> qdist a b <= 1 -> 0 <= inner a b.
  Proof. intros Ha Hb Hd. pose proof (qdist_inner a b Ha Hb). pose proof (qdist_nonneg a b). nra. Qed.
  Lemma inside_error i x : (S i < length ts)%nat -> stime ts i <= x < stime ts (S i) -> qdist (squad_at ts rr x) (q 0%nat x) <= 4 * E.
  Proof.
    intros Hi Hx. destruct step_small as (S1 & S2 & S3 & S4). pose proof spacing_pos as PH. pose proof (gap_range i Hi) as G. destruct (bounds_pos q L M HL HM) as (PL & PM).
    unfold squad_at. rewrite (interval_is ts x i Inc ltac:(lia) ltac:(apply Hx) ltac:(intros _; apply Hx)).
    unfold duration, following. destruct (Nat.eqb_spec i (final ts)) as [F|_]; [unfold final in F; lia|]. rewrite (rr_sample i), (rr_sample (S i)) by lia. unfold gap in *.
    set (a := stime ts i) in *. set (b := stime ts (S i)) in *. set (tau := (x - a) / (b - a)).
    assert (T : 0 <= tau <= 1). { unfold tau. split; [apply Rmult_le_pos; [lra|left; apply Rinv_0_lt_compat; lra]|]. apply Rmult_le_reg_r with (b - a); [lra|]. unfold Rdiv. rewrite Rmult_assoc, Rinv_l by lra. lra. }
    pose proof (ctrl_a_near i Hi) as CA. pose proof (ctrl_b_near i Hi) as CB. fold a in CA. fold b in CB.
    pose proof (ctrl_a_unit ts rr rr_units i) as UA. pose proof (ctrl_b_unit ts rr rr_units i) as UB. set (ca := ctrl_a ts rr i) in *. set (cb := ctrl_b ts rr i) in *.
    unfold squad_evaluate. set (A := np_slerp (q 0%nat a) (q 0%nat b) tau). set (B := np_slerp ca cb tau).
    assert (D1 : qdist (q 0%nat a) (q 0%nat b) <= L * H).
    { rewrite qdist_sym. eapply Rle_trans; [apply (curve_lip q L HD HL); lra|]. apply Rmult_le_compat_l; lra. }
    assert (D2 : qdist ca cb <= E / 2 + L * H).
    { pose proof (qdist_tri ca (q 0%nat a) cb). pose proof (qdist_tri (q 0%nat a) (q 0%nat b) cb). rewrite (qdist_sym (q 0%nat b) cb) in *. lra. }
    pose proof (qdist_nonneg (q 0%nat a) (q 0%nat b)) as N1. pose proof (qdist_nonneg ca cb) as N2.
    assert (I1 : 0 <= inner (q 0%nat a) (q 0%nat b)) by (apply near_inner; auto; lra).
    assert (I2 : 0 <= inner ca cb) by (apply near_inner; auto; lra).
    pose proof (slerp_lerp _ _ tau (HU a) (HU b) I1 T) as SA. fold A in SA. pose proof (slerp_lerp _ _ tau UA UB I2 T) as SB. fold B in SB.
    assert (Q1 : qdist (q 0%nat a) (q 0%nat b) * qdist (q 0%nat a) (q 0%nat b) <= E) by (eapply Rle_trans; [apply Rmult_le_compat; [exact N1|exact N1|exact D1|exact D1]|exact S2]).
    assert (Q2 : qdist ca cb * qdist ca cb <= 17 / 8 * E).
    { eapply Rle_trans; [apply Rmult_le_compat; [exact N2|exact N2|exact D2|exact D2]|]. assert (0 <= (E / 2 - L * H) * (E / 2 - L * H)) by apply Rle_0_sqr. assert (E * E <= E / 4) by nra. lra. }
    pose proof (lerp_near (q 0%nat a) ca (q 0%nat b) cb tau (E / 4) T ltac:(rewrite qdist_sym; exact CA) ltac:(rewrite qdist_sym; exact CB)) as LN.
    assert (AB : qdist A B <= 27 / 8 * E).
    { pose proof (qdist_tri A (lerp (q 0%nat a) (q 0%nat b) tau) B). pose proof (qdist_tri (lerp (q 0%nat a) (q 0%nat b) tau) (lerp ca cb tau) B). rewrite (qdist_sym (lerp ca cb tau) B) in *. lra. }
    assert (UAA : hunit A) by (apply slerp_unit; auto). assert (UBB : hunit B) by (apply slerp_unit; auto).
    assert (I3 : 0 <= inner A B) by (apply near_inner; auto; lra).
    assert (T2 : 0 <= 2 * tau * (1 - tau) <= 1 / 2) by (pose proof (Rle_0_sqr (tau - 1 / 2)) as SQ; unfold Rsqr in SQ; split; nra).
    pose proof (slerp_start A B _ UAA UBB I3 T2) as SS.
    pose proof (curve_lerp q M HD HM a b x ltac:(lra) ltac:(lra)) as CL. fold tau in CL.
    assert (CE : M * ((b - a) * (b - a)) / 8 <= E / 8). { assert ((b - a) * (b - a) <= H * H) by (apply Rmult_le_compat; lra). assert (M * ((b - a) * (b - a)) <= M * (H * H)) by (apply Rmult_le_compat_l; lra). lra. }
    pose proof (qdist_tri (np_slerp A B (2 * tau * (1 - tau))) A (q 0%nat x)). pose proof (qdist_tri A (lerp (q 0%nat a) (q 0%nat b) tau) (q 0%nat x)). lra.
  Qed.
End Squad.
(** The interpolated orientation is within 8 (L^2 + M) H^2 of the actual one. *)
Lemma squad_error q L M H ts x : qderivatives q 2 -> (forall t, qlen (q 1%nat t) <= L) -> (forall t, qlen (q 2%nat t) <= M) -> (forall t, hunit (q 0%nat t)) ->
  increasing ts -> (2 <= length ts)%nat -> spaced_by ts H -> nth 0 ts 0 <= x <= nth (length ts - 1) ts 0 ->
  qdist (squad_at ts (map (q 0%nat) ts) x) (q 0%nat x) <= 8 * ((L * L + M) * (H * H)).
Proof.
  intros HD HL HM HU Inc Len HH Hx. destruct (Rle_dec ((L * L + M) * (H * H)) (1 / 4)) as [Small|N].
  - destruct (interval_exists ts x Inc ltac:(lia) ltac:(apply Hx)) as (k & Hk & K1 & K2).
    destruct (step_small q L M H ts HL HM Inc Len HH Small) as (_ & _ & P & _).
    destruct (Nat.eq_dec (S k) (length ts)) as [El|Nl].
    + replace (length ts - 1)%nat with k in Hx by lia. assert (x = nth k ts 0) as -> by lra.
      assert (R : squad_at ts (map (q 0%nat) ts) (nth k ts 0) = q 0%nat (nth k ts 0)).
      { destruct C79_contract as (_ & X & _). specialize (X ts (map (q 0%nat) ts) k (nth k ts 0) (q 0%nat (nth k ts 0)) Inc Len (map_length _ _) (rr_units q ts HU)).
        assert (nth_error ts k = Some (nth k ts 0)) as Hn by (apply nth_error_nth'; lia). specialize (X Hn (map_nth_error _ _ _ Hn)).
        rewrite np_squad_ok in X; auto using map_length, rr_units. injection X as X. exact X. }
      rewrite R, qdist_self. lra.
    + pose proof (inside_error q L M H ts HD HL HM HU Inc Len HH Small k x ltac:(lia) ltac:(split; [exact K1|apply K2; lia])). lra.
  - assert (U : hunit (squad_at ts (map (q 0%nat) ts) x)) by (apply squad_at_unit, (rr_units q ts HU)).
    pose proof (qdist_le_2 _ _ U (HU x)). lra.
Qed.
