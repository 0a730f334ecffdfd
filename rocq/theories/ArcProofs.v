(** The shortest-arc quaternion of two vectors. *)
From Coq Require Import Reals List Arith Bool ZArith Lia Lra Psatz.
From Verif Require Import Base Quat SpecQuat QuatProofs NdArray Transform Utils Velocity Estim SpecEstim EstimProofs.
Import ListNotations.
Open Scope R_scope.

Definition vlen (v : vec3) : R := sqrt (vdot v v).
Lemma vlen_sq v : vlen v * vlen v = vdot v v.
Proof. apply sqrt_sqrt, vdot_nonneg. Qed.
Lemma vlen_nonneg v : 0 <= vlen v.
Proof. apply sqrt_pos. Qed.
Lemma vlen_pos v : v <> v0 -> 0 < vlen v.
Proof.
  intros H. destruct (vlen_nonneg v) as [|E]; auto. exfalso. apply H, vdot_zero. rewrite <- vlen_sq, <- E. ring.
Qed.
(** b points exactly against a. *)
Definition against (a b : vec3) : Prop := exists m, m < 0 /\ b = vscale m a.

Lemma sandwich_expand w c a : ve (hmul (hmul (mkq w c) (mkq 0 a)) (hconj (mkq w c))) =
  vadd (vadd (vscale (w * w - vdot c c) a) (vscale (2 * w) (vcross c a))) (vscale (2 * vdot c a) c).
Proof.
  assert (E1 : hmul (mkq w c) (mkq 0 a) = mkq (- vdot c a) (vadd (vscale w a) (vcross c a))).
  { destruct c as [c1 c2 c3], a as [a1 a2 a3]. cbv [hmul mkq sc ve vdot vadd vscale vcross vx vy vz qw qx qy qz]. f_equal; ring. }
  assert (E2 : forall p v, ve (hmul (mkq p v) (hconj (mkq w c))) = vadd (vadd (vscale (- p) c) (vscale w v)) (vcross c v)).
  { intros p [v1 v2 v3]. destruct c as [c1 c2 c3]. cbv [hmul hconj mkq sc ve vdot vadd vopp vscale vcross vx vy vz qw qx qy qz]. f_equal; ring. }
  rewrite E1, E2. destruct c as [c1 c2 c3], a as [a1 a2 a3]. apply vec3_eq; mcomp; ring.
Qed.
Section Arc.
  Variables a b : vec3.
  Hypotheses (Ha : a <> v0) (Hb : b <> v0).
  Let s := vlen a * vlen b.
  Let d := vdot a b.
  Let w := s + d.
  Let c := vcross a b.
  Lemma s_pos : 0 < s.
  Proof. apply Rmult_lt_0_compat; apply vlen_pos; auto. Qed.
  Lemma raw_eq : arc_raw a b = mkq w c.
  Proof. unfold arc_raw, mkq. f_equal. unfold w, s, d, vlen. rewrite sqrt_mult_alt by apply vdot_nonneg. reflexivity. Qed.
  Lemma cc : vdot c c = s * s - d * d.
  Proof.
    assert (E : s * s = vdot a a * vdot b b) by (unfold s; rewrite <- (vlen_sq a), <- (vlen_sq b); ring).
    rewrite E. unfold c, d. destruct a, b. mcomp. ring.
  Qed.
  Lemma ca : vdot c a = 0.
  Proof. unfold c. destruct a, b. mcomp. ring. Qed.
  Lemma cxa : vcross c a = vsub (vscale (vdot a a) b) (vscale d a).
  Proof. unfold c, d. destruct a, b. apply vec3_eq; mcomp; ring. Qed.
  Lemma raw_norm : hn2 (mkq w c) = 2 * s * w.
  Proof. unfold hn2. assert (E : ve (mkq w c) = c) by (destruct c; reflexivity). rewrite E, cc. cbn [sc mkq qw]. unfold w. ring. Qed.
  Lemma against_iff : against a b <-> w = 0.
  Proof.
    pose proof s_pos as Hs. pose proof (vlen_pos a Ha) as Pa. pose proof (vlen_pos b Hb) as Pb. split.
    - intros (m & Hm & E). unfold w, s, d. rewrite E.
      assert (Eb : vlen b = - m * vlen a).
      { unfold vlen. rewrite E. replace (vdot (vscale m a) (vscale m a)) with ((- m) * (- m) * vdot a a) by (destruct a; mcomp; ring).
        rewrite sqrt_mult_alt by nra. rewrite sqrt_square by lra. reflexivity. }
      rewrite <- E at 1. rewrite Eb. replace (vdot a (vscale m a)) with (m * vdot a a) by (destruct a; mcomp; ring). rewrite <- vlen_sq. ring.
    - intros E. exists (- (vlen b / vlen a)). split.
      { assert (0 < vlen b / vlen a) by (apply Rdiv_lt_0_compat; auto). lra. }
      assert (Z : vadd (vscale (vlen b) a) (vscale (vlen a) b) = v0).
      { apply vdot_zero. transitivity (vlen b * vlen b * vdot a a + vlen a * vlen a * vdot b b + 2 * s * d).
        - unfold s, d. generalize (vlen a) (vlen b). intros x y. destruct a, b. mcomp. ring.
        - rewrite <- (vlen_sq a), <- (vlen_sq b). replace d with (- s) by (unfold w in E; lra). unfold s. ring. }
      revert Z Pa. generalize (vlen a) (vlen b). intros x y Z Px. destruct a as [a1 a2 a3], b as [b1 b2 b3]. cbv [vadd vscale v0 vx vy vz] in Z.
      injection Z as Z1 Z2 Z3. apply vec3_eq; cbn; apply (Rmult_eq_reg_l x); try lra; field_simplify; lra.
  Qed.
  Hypothesis Hn : ~ against a b.
  Lemma w_pos : 0 < w.
  Proof.
    assert (w <> 0) by (intros E; apply Hn, against_iff, E).
    assert (E : 0 <= (s - d) * w) by (replace ((s - d) * w) with (vdot c c) by (rewrite cc; unfold w; ring); apply vdot_nonneg).
    pose proof s_pos. unfold w in *. destruct (Rle_dec (s - d) 0); nra.
  Qed.
  Lemma arc_ok : arc a b = Ok (qscale (/ qlen (arc_raw a b)) (arc_raw a b)).
  Proof.
    unfold arc. assert (E : qnorm2 (arc_raw a b) <> 0).
    { rewrite raw_eq. change (qnorm2 (mkq w c)) with (w * w + vx c * vx c + vy c * vy c + vz c * vz c).
      pose proof w_pos. pose proof (sq_ge0 (vx c)). pose proof (sq_ge0 (vy c)). pose proof (sq_ge0 (vz c)). nra. }
    unfold Req_b. destruct (Req_EM_T _ 0); [contradiction|reflexivity].
  Qed.
  Let r := qscale (/ qlen (arc_raw a b)) (arc_raw a b).
  Lemma qlen_sq : qlen (arc_raw a b) * qlen (arc_raw a b) = 2 * s * w.
  Proof.
    unfold qlen. rewrite sqrt_sqrt.
    - rewrite raw_eq, <- raw_norm. unfold qnorm2, hn2, vdot, mkq, sc, ve. cbn. ring.
    - unfold qnorm2. pose proof (sq_ge0 (qw (arc_raw a b))). pose proof (sq_ge0 (qx (arc_raw a b))). pose proof (sq_ge0 (qy (arc_raw a b))). pose proof (sq_ge0 (qz (arc_raw a b))). lra.
  Qed.
  Lemma sw_pos : 0 < 2 * s * w.
  Proof. pose proof s_pos. pose proof w_pos. apply Rmult_lt_0_compat; lra. Qed.
  Lemma qlen_pos : 0 < qlen (arc_raw a b).
  Proof. pose proof qlen_sq. pose proof sw_pos. assert (0 <= qlen (arc_raw a b)) by apply sqrt_pos. nra. Qed.
  Lemma arc_unit : hunit r.
  Proof.
    unfold hunit, r. pose proof qlen_sq as E. pose proof qlen_pos as P. set (n := qlen (arc_raw a b)) in *. rewrite raw_eq.
    replace (hn2 (qscale (/ n) (mkq w c))) with (/ n * / n * hn2 (mkq w c)) by (destruct c; unfold hn2, qscale, mkq, sc, ve, vdot; cbn; ring).
    rewrite raw_norm, <- E. field. lra.
  Qed.
  Lemma arc_maps : srot r a = vscale (vlen a / vlen b) b.
  Proof.
    unfold r. rewrite srot_qscale.
    2:{ apply Rinv_neq_0_compat. pose proof qlen_pos. lra. }
    2:{ rewrite raw_eq, raw_norm. pose proof sw_pos. lra. }
    rewrite raw_eq. unfold srot. rewrite raw_norm.
    assert (E : ve (hmul (hmul (mkq w c) (mkq 0 a)) (hconj (mkq w c))) =
      vadd (vadd (vscale (w * w - vdot c c) a) (vscale (2 * w) (vcross c a))) (vscale (2 * vdot c a) c)).
    { apply sandwich_expand. }
    rewrite E, ca, cxa, cc, <- (vlen_sq a). pose proof (vlen_pos a Ha). pose proof (vlen_pos b Hb). pose proof w_pos as W.
    replace (s * s - d * d) with ((s - d) * w) by (unfold w; ring).
    assert (Es : d = w - s) by (unfold w; ring). rewrite Es. revert W. generalize w. intros w' W. clearbody c. unfold s in *. revert H H0.
    generalize (vlen a) (vlen b). intros x y Hx Hy. clear - W Hx Hy. destruct a, b, c. apply vec3_eq; mcomp; field; lra.
  Qed.
  Lemma arc_angle : exists u th, vdot u u = 1 /\ 0 <= th <= PI /\ cos th = vdot a b / (vlen a * vlen b) /\
    forall v, srot r v = turn u th v.
  Proof.
    fold s d. pose proof s_pos as S. pose proof w_pos as W.
    assert (Dd : 0 <= s * s - d * d) by (rewrite <- cc; apply vdot_nonneg).
    assert (B : -1 <= d / s <= 1).
    { split; apply (Rmult_le_reg_r s); auto; unfold Rdiv; rewrite Rmult_assoc, Rinv_l by lra; nra. }
    set (th := acos (d / s)). assert (Ct : cos th = d / s) by (apply cos_acos; auto).
    assert (Bt : 0 <= th <= PI) by apply acos_bound.
    pose proof PI_RGT_0 as Pp.
    assert (Hs0 : 0 <= sin (th / 2)) by (apply sin_ge_0; lra).
    assert (Hc0 : 0 <= cos (th / 2)) by (apply cos_ge_0; lra).
    assert (C2 : cos (th / 2) * cos (th / 2) = (1 + d / s) / 2).
    { rewrite <- Ct. replace th with (2 * (th / 2)) at 3 by field. rewrite cos_2a_cos. field. }
    assert (S2 : sin (th / 2) * sin (th / 2) = (1 - d / s) / 2).
    { pose proof (sin2_cos2 (th / 2)) as T. unfold Rsqr in T. lra. }
    pose proof qlen_sq as N2. pose proof qlen_pos as N. set (n := qlen (arc_raw a b)) in *.
    assert (Cw : cos (th / 2) = w / n).
    { assert (Pw : 0 <= w / n) by (apply Rmult_le_pos; [lra|apply Rlt_le, Rinv_0_lt_compat, N]).
      assert (E : (w / n) * (w / n) = cos (th / 2) * cos (th / 2)).
      { rewrite C2. replace (w / n * (w / n)) with (w * w / (n * n)) by (field; lra). rewrite N2. unfold w. field. unfold w in W. lra. }
      nra. }
    assert (Er : r = mkq (cos (th / 2)) (vscale (/ n) c)).
    { unfold r. fold n. rewrite raw_eq, Cw. destruct c. unfold qscale, mkq, vscale, Rdiv. cbn. f_equal; ring. }
    assert (Cn : vdot (vscale (/ n) c) (vscale (/ n) c) = sin (th / 2) * sin (th / 2)).
    { replace (vdot (vscale (/ n) c) (vscale (/ n) c)) with (/ n * / n * vdot c c) by (destruct c; mcomp; ring).
      rewrite cc, S2. replace (/ n * / n) with (/ (n * n)) by (field; lra). rewrite N2. unfold w. field. unfold w in W. lra. }
    destruct (Req_EM_T (sin (th / 2)) 0) as [Z|Z].
    - exists ex, th. split; [mcomp; ring|]. split; auto. split; auto. intros v. rewrite <- srot_turn by (mcomp; ring).
      rewrite Er. f_equal. rewrite Z in *. assert (Z0 : vscale (/ n) c = v0) by (apply vdot_zero; rewrite Cn; ring). rewrite Z0.
      f_equal. apply vec3_eq; mcomp; ring.
    - exists (vscale (/ sin (th / 2)) (vscale (/ n) c)), th. split.
      { replace (vdot (vscale (/ sin (th / 2)) (vscale (/ n) c)) (vscale (/ sin (th / 2)) (vscale (/ n) c)))
          with (/ sin (th / 2) * / sin (th / 2) * vdot (vscale (/ n) c) (vscale (/ n) c)) by (destruct (vscale (/ n) c); mcomp; ring).
        rewrite Cn. field. auto. }
      split; auto. split; auto. intros v. rewrite <- srot_turn.
      { rewrite Er. f_equal. f_equal. destruct (vscale (/ n) c). apply vec3_eq; mcomp; field; auto. }
      replace (vdot (vscale (/ sin (th / 2)) (vscale (/ n) c)) (vscale (/ sin (th / 2)) (vscale (/ n) c)))
        with (/ sin (th / 2) * / sin (th / 2) * vdot (vscale (/ n) c) (vscale (/ n) c)) by (destruct (vscale (/ n) c); mcomp; ring).
      rewrite Cn. field. auto.
  Qed.
End Arc.
Lemma arc_against a b : a <> v0 -> b <> v0 -> against a b -> arc a b = Raise NaNValue.
Proof.
  intros Ha Hb H. pose proof (proj1 (against_iff a b Ha Hb) H) as W. unfold arc. rewrite (raw_eq a b) by auto.
  assert (Cc : vdot (vcross a b) (vcross a b) = 0).
  { rewrite (cc a b) by auto. assert (E : vlen a * vlen b = - vdot a b) by lra. rewrite E. ring. }
  rewrite W, (vdot_zero _ Cc). unfold Req_b. destruct (Req_EM_T _ 0) as [|N]; auto. exfalso. apply N. unfold qnorm2, mkq, v0. cbn. ring.
Qed.
