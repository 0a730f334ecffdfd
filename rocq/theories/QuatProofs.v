(** Algebra of the quaternion model against SpecQuat. *)
From Coq Require Import Reals List Lra Field.
From Verif Require Import Base Quat SpecQuat.
Import ListNotations.
Open Scope R_scope.

(** Destruct all vectors and quaternions, then compute component-wise.
    (cbv, not unfold: unfolding first duplicates subterms exponentially.) *)
Ltac vdes := repeat match goal with q : quat |- _ => destruct q | v : vec3 |- _ => destruct v end.
Ltac vcomp := cbv [smove dist2 triple srot turn hone hunit hnonzero hn2 hconj hmul
  mkq sc ve vnorm2 vdot vadd vsub vopp vscale vcross v0 qvec qnorm2
  qmulq qconj qscale q1 vx vy vz qw qx qy qz] in *.
Ltac vunf := vdes; vcomp.
Ltac veq := vunf; try (f_equal; ring).

(** After abstracting a squared norm as [n] with E : n = polynomial: clear
    the denominators, then expand n. *)
Ltac fieldn n :=
  match goal with E : n = _ |- _ =>
    field_simplify_eq; [ rewrite E; ring | assumption ] end.

Lemma hn2_qnorm2 q : hn2 q = qnorm2 q.
Proof. vunf; ring. Qed.
Lemma qmulq_hmul a b : qmulq a b = hmul a b.
Proof. veq. Qed.
Lemma qnorm2_nonneg q : 0 <= qnorm2 q.
Proof. vunf; nra. Qed.
Lemma qnorm2_zero q : qnorm2 q = 0 -> q = Qt 0 0 0 0.
Proof. destruct q as [a b c d]. vcomp. intros H.
  assert (a = 0) by nra. assert (b = 0) by nra. assert (c = 0) by nra.
  assert (d = 0) by nra. subst; reflexivity. Qed.

Lemma qrecip_ok q : qnorm2 q <> 0 ->
  qrecip q = Ok (qscale (/ qnorm2 q) (qconj q)).
Proof. intros H. unfold qrecip. destruct (Req_b _ _) eqn:E.
  - apply Req_b_true in E; contradiction.
  - f_equal. apply quat_eq; simpl; field; exact H. Qed.
Lemma qrecip_ok_inv q p : qrecip q = Ok p ->
  qnorm2 q <> 0 /\ p = qscale (/ qnorm2 q) (qconj q).
Proof. unfold qrecip. destruct (Req_b _ _) eqn:E; [discriminate|].
  apply Req_b_false in E. intros H; injection H as <-. split; [exact E|].
  apply quat_eq; simpl; field; exact E. Qed.

Lemma quat_rv_ok q v : qnorm2 q <> 0 -> quat_rv q v = Ok (srot q v).
Proof. intros H. unfold quat_rv. destruct (Req_b _ _) eqn:E.
  - apply Req_b_true in E; contradiction.
  - f_equal. unfold srot. rewrite hn2_qnorm2.
    remember (qnorm2 q) as n eqn:En. unfold qnorm2 in En. destruct q, v; simpl in En.
    apply vec3_eq; vunf; fieldn n. Qed.
Lemma quat_rv_ok_inv q v w : quat_rv q v = Ok w -> qnorm2 q <> 0 /\ w = srot q v.
Proof. intros H. destruct (Req_EM_T (qnorm2 q) 0) as [E|E].
  - unfold quat_rv in H. apply Req_b_true in E. rewrite E in H. discriminate.
  - rewrite (quat_rv_ok _ _ E) in H. injection H as <-. auto. Qed.

Lemma qlen_unit q : qnorm2 q = 1 -> qlen q = 1.
Proof. intros H. unfold qlen. rewrite H. apply sqrt_1. Qed.
Lemma qlen_zero q : qlen q = 0 -> qnorm2 q = 0.
Proof. intros H. apply sqrt_eq_0; [apply qnorm2_nonneg|exact H]. Qed.
Lemma qlen_pos q : qnorm2 q <> 0 -> 0 < qlen q.
Proof. intros H. apply sqrt_lt_R0. pose proof (qnorm2_nonneg q). lra. Qed.
Lemma qlen_sq q : qlen q * qlen q = qnorm2 q.
Proof. apply sqrt_sqrt, qnorm2_nonneg. Qed.

(** For unit quaternions the array formula is the sandwich rotation. *)
Lemma rot1_unit q v : qnorm2 q = 1 -> rot1 q v = Ok (srot q v).
Proof. intros H. unfold rot1. rewrite (qlen_unit q H).
  destruct (Req_b 1 0) eqn:E; [apply Req_b_true in E; lra|].
  f_equal. unfold srot. rewrite hn2_qnorm2, H. clear E.
  destruct q as [a b c d], v as [x y z]. vcomp.
  assert (Ha : a*a = 1 - b*b - c*c - d*d) by lra. clear H.
  f_equal; field_simplify;
  replace (a^2) with (1 - b*b - c*c - d*d) by (rewrite <- Ha; ring); field. Qed.

(** In general it is the sandwich rotation blended with a factor |q|. *)
Lemma rot1_general q v : qnorm2 q <> 0 ->
  rot1 q v = Ok (vadd v (vscale (qlen q) (vsub (srot q v) v))).
Proof. intros H. pose proof (qlen_pos q H) as Hp. unfold rot1.
  destruct (Req_b (qlen q) 0) eqn:E; [apply Req_b_true in E; lra|]. clear E.
  f_equal. unfold srot. rewrite hn2_qnorm2, <- (qlen_sq q).
  pose proof (qlen_sq q) as Hs. set (m := qlen q) in *. clearbody m. clear H.
  destruct q as [a b c d], v as [x y z]. vcomp.
  assert (Ha : a^2 = m*m - b*b - c*c - d*d) by (rewrite Hs; ring).
  assert (m <> 0) by lra.
  f_equal; field_simplify_eq; try assumption; rewrite Ha; ring. Qed.

(* ---- group laws ---- *)
Lemma hmul_assoc a b c : hmul (hmul a b) c = hmul a (hmul b c).
Proof. apply quat_eq; vunf; ring. Qed.
Lemma hmul_1_l a : hmul hone a = a.
Proof. apply quat_eq; vunf; ring. Qed.
Lemma hmul_1_r a : hmul a hone = a.
Proof. apply quat_eq; vunf; ring. Qed.
Lemma hn2_hmul a b : hn2 (hmul a b) = hn2 a * hn2 b.
Proof. vunf; ring. Qed.
Lemma hn2_one : hn2 hone = 1.
Proof. vunf; ring. Qed.
Lemma hn2_nonneg q : 0 <= hn2 q.
Proof. rewrite hn2_qnorm2; apply qnorm2_nonneg. Qed.

(** q^-1, as a total function used in proofs only *)
Definition hinv (q : quat) : quat := qscale (/ hn2 q) (hconj q).
Lemma hinv_r q : hn2 q <> 0 -> hmul q (hinv q) = hone.
Proof. intros H. unfold hinv. apply quat_eq; vunf; field; exact H. Qed.
Lemma hinv_l q : hn2 q <> 0 -> hmul (hinv q) q = hone.
Proof. intros H. unfold hinv. apply quat_eq; vunf; field; exact H. Qed.
Lemma hn2_hinv q : hn2 q <> 0 -> hn2 (hinv q) = / hn2 q.
Proof. intros H. unfold hinv. vunf. field. exact H. Qed.
Lemma hn2_hinv_nz q : hn2 q <> 0 -> hn2 (hinv q) <> 0.
Proof. intros H. rewrite hn2_hinv by exact H. apply Rinv_neq_0_compat, H. Qed.
Lemma qrecip_hinv q : hn2 q <> 0 -> qrecip q = Ok (hinv q).
Proof. intros H. rewrite hn2_qnorm2 in H. rewrite qrecip_ok by exact H.
  f_equal. unfold hinv. rewrite hn2_qnorm2. apply quat_eq; vunf; ring. Qed.
Lemma qrecip_hinv_inv q p : qrecip q = Ok p -> hn2 q <> 0 /\ p = hinv q.
Proof. intros H. destruct (qrecip_ok_inv _ _ H) as (Hn & _).
  rewrite hn2_qnorm2. split; [exact Hn|].
  rewrite <- hn2_qnorm2 in Hn. rewrite (qrecip_hinv _ Hn) in H. congruence. Qed.
Lemma hmul_nz a b : hn2 a <> 0 -> hn2 b <> 0 -> hn2 (hmul a b) <> 0.
Proof. intros. rewrite hn2_hmul. apply Rmult_integral_contrapositive_currified; auto. Qed.
Lemma hinv_hinv q : hn2 q <> 0 -> hinv (hinv q) = q.
Proof. intros H. unfold hinv at 1. rewrite (hn2_hinv q H).
  unfold hinv. apply quat_eq; vunf; field; exact H. Qed.
Lemma hinv_hmul a b : hn2 a <> 0 -> hn2 b <> 0 -> hinv (hmul a b) = hmul (hinv b) (hinv a).
Proof. intros Ha Hb. unfold hinv. rewrite hn2_hmul.
  apply quat_eq; vunf; field; split; assumption. Qed.

Lemma srot_one v : srot hone v = v.
Proof. apply vec3_eq; vunf; field. Qed.
Lemma srot_hmul a b v : hn2 a <> 0 -> hn2 b <> 0 -> srot (hmul a b) v = srot a (srot b v).
Proof. intros Ha Hb. unfold srot at 1. rewrite hn2_hmul.
  apply vec3_eq; vunf; field; split; assumption. Qed.
Lemma srot_hinv_l q v : hn2 q <> 0 -> srot (hinv q) (srot q v) = v.
Proof. intros H. rewrite <- srot_hmul by (auto using hn2_hinv_nz).
  rewrite hinv_l by exact H. apply srot_one. Qed.
Lemma srot_hinv_r q v : hn2 q <> 0 -> srot q (srot (hinv q) v) = v.
Proof. intros H. rewrite <- srot_hmul by (auto using hn2_hinv_nz).
  rewrite hinv_r by exact H. apply srot_one. Qed.
Lemma srot_add q v w : srot q (vadd v w) = vadd (srot q v) (srot q w).
Proof. apply vec3_eq; vunf; ring. Qed.
Lemma srot_sub q v w : srot q (vsub v w) = vsub (srot q v) (srot q w).
Proof. apply vec3_eq; vunf; ring. Qed.
Lemma srot_opp q v : srot q (vopp v) = vopp (srot q v).
Proof. apply vec3_eq; vunf; ring. Qed.
Lemma srot_scale q k v : srot q (vscale k v) = vscale k (srot q v).
Proof. apply vec3_eq; vunf; ring. Qed.
Lemma srot_0 q : srot q v0 = v0.
Proof. apply vec3_eq; vunf; ring. Qed.
Lemma srot_dot q v w : hn2 q <> 0 -> vdot (srot q v) (srot q w) = vdot v w.
Proof. intros H. vunf. field. exact H. Qed.
Lemma srot_cross q v w : hn2 q <> 0 -> vcross (srot q v) (srot q w) = srot q (vcross v w).
Proof. intros H. apply vec3_eq; vunf; field; exact H. Qed.
Lemma srot_qscale q k v : k <> 0 -> hn2 q <> 0 -> srot (qscale k q) v = srot q v.
Proof. intros Hk H. unfold srot.
  replace (hn2 (qscale k q)) with (k * k * hn2 q) by (vunf; ring).
  apply vec3_eq; vunf; field; split; assumption. Qed.
Lemma srot_turn u a v : vdot u u = 1 ->
  srot (mkq (cos (a/2)) (vscale (sin (a/2)) u)) v = turn u a v.
Proof. intros Hu.
  pose proof (sin2_cos2 (a/2)) as H1. unfold Rsqr in H1.
  assert (Hc : cos a = cos (a/2) * cos (a/2) - sin (a/2) * sin (a/2)).
  { replace a with (2 * (a/2)) at 1 by field. apply cos_2a. }
  assert (Hs : sin a = 2 * sin (a/2) * cos (a/2)).
  { replace a with (2 * (a/2)) at 1 by field. apply sin_2a. }
  unfold turn. rewrite Hc, Hs. clear Hc Hs.
  set (c := cos (a/2)) in *. set (s := sin (a/2)) in *. clearbody c s.
  assert (Hcc : c*c = 1 - s*s) by lra.
  assert (Hn : hn2 (mkq c (vscale s u)) = 1).
  { transitivity (c*c + s*s * vdot u u); [vunf; ring|rewrite Hu, Hcc; ring]. }
  unfold srot. rewrite Hn. clear Hn H1.
  destruct u as [x y z]. destruct v as [p q r]. vcomp.
  assert (Hx : x*x = 1 - y*y - z*z) by lra. clear Hu.
  replace (1 - (c*c - s*s)) with (2*(s*s)) by (rewrite Hcc; ring).
  rewrite Rinv_1. f_equal.
  - transitivity (c*c*p + 2*s*c*(y*r - z*q) + s*s*(x*x*p - y*y*p - z*z*p + 2*x*y*q+2*x*z*r)). ring.
    replace (x*x*p) with ((1-y*y-z*z)*p) by (rewrite <- Hx; ring).
    replace (2 * (s * s) * (x * p + y * q + z * r) * x) with (2*(s*s)*(x*x*p + x*y*q+x*z*r)) by ring.
    replace (x*x*p) with ((1-y*y-z*z)*p) by (rewrite <- Hx; ring). rewrite Hcc. ring.
  - transitivity (c*c*q + 2*s*c*(z*p - x*r) + s*s*(y*y*q - x*x*q - z*z*q + 2*x*y*p+2*y*z*r)). ring.
    replace (x*x*q) with ((1-y*y-z*z)*q) by (rewrite <- Hx; ring). rewrite Hcc. ring.
  - transitivity (c*c*r + 2*s*c*(x*q - y*p) + s*s*(z*z*r - x*x*r - y*y*r + 2*x*z*p+2*y*z*q)). ring.
    replace (x*x*r) with ((1-y*y-z*z)*r) by (rewrite <- Hx; ring). rewrite Hcc. ring.
Qed.
