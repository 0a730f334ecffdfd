(** Distance of quaternions (as vectors with four entries). *)
From Coq Require Import Reals List Arith Bool Lia Lra.
From Verif Require Import Base Quat SpecQuat QuatProofs Coord RotVec PropRotVec Squad SquadProofs LookVelProofs.
Import ListNotations.
Open Scope R_scope.

Definition qsub (a b : quat) : quat := Qt (qw a - qw b) (qx a - qx b) (qy a - qy b) (qz a - qz b).
(** Euclidean distance of the four entries. *)
Definition qdist (a b : quat) : R := sqrt ((qw a - qw b) ^ 2 + (qx a - qx b) ^ 2 + (qy a - qy b) ^ 2 + (qz a - qz b) ^ 2).
Definition qdot (a b : quat) : R := qw a * qw b + qx a * qx b + qy a * qy b + qz a * qz b.
Lemma qdist_len a b : qdist a b = qlen (qsub a b).
Proof. unfold qdist, qlen, qnorm2, qsub. cbn. f_equal. ring. Qed.
Lemma qlen_dot a : qlen a * qlen a = qdot a a.
Proof. rewrite qlen_sq. reflexivity. Qed.
Lemma qlen_nonneg a : 0 <= qlen a.
Proof. apply sqrt_pos. Qed.
Lemma qcauchy a b : Rabs (qdot a b) <= qlen a * qlen b.
Proof.
  apply Rsqr_incr_0_var; [|apply Rmult_le_pos; apply qlen_nonneg]. rewrite <- Rsqr_abs. unfold Rsqr.
  replace (qlen a * qlen b * (qlen a * qlen b)) with ((qlen a * qlen a) * (qlen b * qlen b)) by ring. rewrite !qlen_dot.
  destruct a as [a1 a2 a3 a4], b as [b1 b2 b3 b4]. unfold qdot. cbn.
  assert (Q : 0 <= (a1 * b2 - a2 * b1) ^ 2 + (a1 * b3 - a3 * b1) ^ 2 + (a1 * b4 - a4 * b1) ^ 2 + (a2 * b3 - a3 * b2) ^ 2 + (a2 * b4 - a4 * b2) ^ 2 + (a3 * b4 - a4 * b3) ^ 2).
  { repeat apply Rplus_le_le_0_compat; apply pow2_ge_0. }
  match goal with |- ?l <= ?r => assert (r - l = (a1 * b2 - a2 * b1) ^ 2 + (a1 * b3 - a3 * b1) ^ 2 + (a1 * b4 - a4 * b1) ^ 2 + (a2 * b3 - a3 * b2) ^ 2 + (a2 * b4 - a4 * b2) ^ 2 + (a3 * b4 - a4 * b3) ^ 2) by ring end.
  lra.
Qed.
Lemma qlen_scale k a : qlen (qscale k a) = Rabs k * qlen a.
Proof.
  apply Rsqr_inj; [apply qlen_nonneg|apply Rmult_le_pos; [apply Rabs_pos|apply qlen_nonneg]|].
  unfold Rsqr. rewrite qlen_dot. replace (Rabs k * qlen a * (Rabs k * qlen a)) with (Rabs k * Rabs k * (qlen a * qlen a)) by ring.
  rewrite qlen_dot, <- Rabs_mult, (Rabs_right (k * k)) by nra. destruct a. unfold qdot, qscale. cbn. ring.
Qed.
Lemma qlen_by_dot d B : 0 <= B -> (forall e, qdot e e = 1 -> Rabs (qdot e d) <= B) -> qlen d <= B.
Proof.
  intros P H. pose proof (qlen_dot d) as E. pose proof (qlen_nonneg d) as Q. set (n := qlen d) in *. destruct (Req_dec n 0) as [Z|Z]; [lra|].
  specialize (H (qscale (/ n) d)). 
  assert (E1 : qdot (qscale (/ n) d) (qscale (/ n) d) = / n * / n * qdot d d) by (destruct d; unfold qdot, qscale; cbn; ring).
  assert (E2 : qdot (qscale (/ n) d) d = / n * qdot d d) by (destruct d; unfold qdot, qscale; cbn; ring).
  rewrite E1, E2, <- E in H. replace (/ n * / n * (n * n)) with 1 in H by (field; auto). replace (/ n * (n * n)) with n in H by (field; auto).
  specialize (H eq_refl). rewrite Rabs_right in H; lra.
Qed.
Lemma qdot_unit_len e d : qdot e e = 1 -> Rabs (qdot e d) <= qlen d.
Proof.
  intros He. pose proof (qcauchy e d) as C. assert (qlen e = 1); [|nra].
  apply Rsqr_inj; [apply qlen_nonneg|lra|]. unfold Rsqr. rewrite qlen_dot. lra.
Qed.
Lemma qtri a b : qlen (qaddq a b) <= qlen a + qlen b.
Proof.
  apply qlen_by_dot; [pose proof (qlen_nonneg a); pose proof (qlen_nonneg b); lra|]. intros e He.
  replace (qdot e (qaddq a b)) with (qdot e a + qdot e b) by (destruct a, b; unfold qdot, qaddq; cbn; ring).
  eapply Rle_trans; [apply Rabs_triang|]. pose proof (qdot_unit_len e a He). pose proof (qdot_unit_len e b He). lra.
Qed.
Lemma qlen_hmul a b : qlen (hmul a b) = qlen a * qlen b.
Proof.
  apply Rsqr_inj; [apply qlen_nonneg|apply Rmult_le_pos; apply qlen_nonneg|]. unfold Rsqr. rewrite qlen_dot.
  replace (qlen a * qlen b * (qlen a * qlen b)) with ((qlen a * qlen a) * (qlen b * qlen b)) by ring. rewrite !qlen_dot.
  destruct a as [a1 a2 a3 a4], b as [b1 b2 b3 b4]. unfold qdot. vcomp. ring.
Qed.
Lemma hunit_len a : hunit a -> qlen a = 1.
Proof. intros H. apply Rsqr_inj; [apply qlen_nonneg|lra|]. unfold Rsqr. rewrite qlen_dot. unfold hunit in H. destruct a as [a1 a2 a3 a4]. revert H. unfold qdot. vcomp. lra. Qed.
Lemma qlen_conj a : qlen (hconj a) = qlen a.
Proof. unfold qlen. f_equal. destruct a as [a1 a2 a3 a4]. vcomp. ring. Qed.
Lemma ve_len a : vnorm (ve a) <= qlen a.
Proof. unfold vnorm, qlen. apply sqrt_le_1_alt. destruct a as [a1 a2 a3 a4]. vcomp. nra. Qed.
Lemma pure_len v : qlen (mkq 0 v) = vnorm v.
Proof. unfold vnorm, qlen. f_equal. destruct v as [v1 v2 v3]. vcomp. ring. Qed.
Lemma qdist_sym a b : qdist a b = qdist b a.
Proof. unfold qdist. f_equal. ring. Qed.
Lemma qdist_nonneg a b : 0 <= qdist a b.
Proof. apply sqrt_pos. Qed.
Lemma qdist_tri a b c : qdist a c <= qdist a b + qdist b c.
Proof. rewrite !qdist_len. replace (qsub a c) with (qaddq (qsub a b) (qsub b c)); [apply qtri|]. unfold qaddq, qsub. cbn. f_equal; ring. Qed.
Lemma qdist_self a : qdist a a = 0.
Proof. unfold qdist. replace (_ + _) with 0 by ring. apply sqrt_0. Qed.
Lemma qdist_le_2 a b : hunit a -> hunit b -> qdist a b <= 2.
Proof.
  intros Ha Hb. rewrite qdist_len. replace (qsub a b) with (qaddq a (qscale (-1) b)) by (destruct a, b; unfold qaddq, qsub, qscale; cbn; f_equal; ring).
  eapply Rle_trans; [apply qtri|]. rewrite qlen_scale, !hunit_len by assumption. rewrite Rabs_left by lra. lra.
Qed.
Lemma qdist_left g a b : hunit g -> qdist (hmul g a) (hmul g b) = qdist a b.
Proof.
  intros Hg. rewrite !qdist_len. replace (qsub (hmul g a) (hmul g b)) with (hmul g (qsub a b)).
  - rewrite qlen_hmul, hunit_len by assumption. ring.
  - destruct g as [g1 g2 g3 g4], a as [a1 a2 a3 a4], b as [b1 b2 b3 b4]. unfold qsub. vcomp. f_equal; ring.
Qed.
(** For unit quaternions the distance is that of slerp's test. *)
Lemma qdist_inner a b : hunit a -> hunit b -> qdist a b * qdist a b = 2 - 2 * inner a b.
Proof. intros Ha Hb. rewrite <- (dist_inner a b Ha Hb), qdist_len, qlen_sq. destruct a, b. unfold qsub, qaddq, qscale, qnorm2. cbn. ring. Qed.
(** Turning by nearby unit quaternions. *)
Lemma srot_near r r' v : hunit r -> hunit r' -> vnorm (vsub (srot r v) (srot r' v)) <= 2 * qdist r r' * vnorm v.
Proof.
  intros Hr Hr'. assert (S1 : forall q, hunit q -> srot q v = ve (hmul (hmul q (mkq 0 v)) (hconj q))).
  { intros q Hq. unfold srot. rewrite Hq, Rinv_1. destruct (ve _). unfold vscale. cbn. f_equal; ring. }
  rewrite !S1 by assumption.
  set (A := hmul (hmul (qsub r r') (mkq 0 v)) (hconj r)). set (B := hmul (hmul r' (mkq 0 v)) (hconj (qsub r r'))).
  replace (vsub (ve (hmul (hmul r (mkq 0 v)) (hconj r))) (ve (hmul (hmul r' (mkq 0 v)) (hconj r')))) with (ve (qaddq A B)).
  - eapply Rle_trans; [apply ve_len|]. eapply Rle_trans; [apply qtri|]. unfold A, B. rewrite !qlen_hmul, !qlen_conj, !pure_len, <- qdist_len, (hunit_len r Hr), (hunit_len r' Hr'). lra.
  - unfold A, B, qsub, qaddq. destruct r as [a1 a2 a3 a4], r' as [b1 b2 b3 b4], v as [v1 v2 v3]. vcomp. f_equal; ring.
Qed.
