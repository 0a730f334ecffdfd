(** Lemmas about numpy-quaternion's squad. *)
From Coq Require Import Reals List Arith Bool Lia Lra.
From Verif Require Import Base Quat SpecQuat QuatProofs Coord RotVec PropRotVec TimeProofs Squad.
Import ListNotations.
Open Scope R_scope.

Lemma vnorm_sq v : vnorm v * vnorm v = vdot v v.
Proof. unfold vnorm, vnorm2. apply sqrt_sqrt. unfold vdot. nra. Qed.
Lemma vnorm_pos v : 0 <= vnorm v.
Proof. apply sqrt_pos. Qed.
Lemma vnorm_zero v : vnorm v = 0 -> v = v0.
Proof. intros H. pose proof (vnorm_sq v) as E. rewrite H in E. destruct v as [x y z]. unfold vdot in E. cbn in E. unfold v0. f_equal; nra. Qed.
Lemma mkq_ve q : mkq (qw q) (ve q) = q.
Proof. destruct q; reflexivity. Qed.
Lemma log_unit q : hunit q -> np_log q = mkq 0 (log_vec q).
Proof.
  intros H. unfold np_log, log_vec. cbv zeta. pose proof (vnorm_sq (qvec q)) as B. set (b := vnorm (qvec q)) in *.
  assert (N : qw q * qw q + b * b = 1) by (rewrite B; exact H).
  unfold Req_b. destruct (Req_EM_T b 0) as [E|E].
  - rewrite E in N. assert (W : (qw q - 1) * (qw q + 1) = 0) by lra. unfold Rlt_b.
    apply Rmult_integral in W as [W|W]; [replace (qw q) with 1 by lra|replace (qw q) with (-1) by lra].
    + destruct (Rlt_dec 1 0); [lra|]. rewrite ln_1. reflexivity.
    + destruct (Rlt_dec (-1) 0); [|lra]. replace (- (-1)) with 1 by lra. rewrite ln_1. reflexivity.
  - rewrite N, ln_1. unfold mkq, vscale, qvec. cbn. f_equal. lra.
Qed.
Lemma exp_zero : np_exp (mkq 0 v0) = q1.
Proof.
  unfold np_exp. cbv zeta. replace (vnorm (qvec (mkq 0 v0))) with 0.
  - unfold Req_b. destruct (Req_EM_T 0 0); [|lra]. cbn. rewrite exp_0. reflexivity.
  - unfold vnorm, vnorm2, vdot. cbn. replace (0 * 0 + 0 * 0 + 0 * 0) with 0 by ring. rewrite sqrt_0. reflexivity.
Qed.
Lemma exp_about u a : vdot u u = 1 -> np_exp (mkq 0 (vscale (a / 2) u)) = about_axis u a.
Proof.
  intros H. unfold np_exp. cbv zeta. replace (qvec (mkq 0 (vscale (a / 2) u))) with (vscale (a / 2) u) by (destruct u; reflexivity).
  rewrite vnorm_scale by exact H. unfold Req_b. destruct (Req_EM_T _ _) as [E|E].
  - assert (Z : a / 2 = 0). { unfold Rabs in E. destruct (Rcase_abs (a / 2)); lra. }
    unfold about_axis. rewrite Z, cos_0, sin_0. cbn. rewrite exp_0. destruct u; unfold mkq, vscale; cbn. f_equal; ring.
  - cbn [qw mkq]. rewrite exp_0. unfold about_axis, mkq. destruct u as [x y z]. cbn [vscale vx vy vz qx qy qz].
    assert (C : cos (Rabs (a / 2)) = cos (a / 2)) by (unfold Rabs; destruct (Rcase_abs (a / 2)); [apply cos_neg|reflexivity]).
    assert (S : sin (Rabs (a / 2)) / Rabs (a / 2) = sin (a / 2) / (a / 2)).
    { unfold Rabs in *. destruct (Rcase_abs (a / 2)); [rewrite sin_neg; field; lra|reflexivity]. }
    assert (N : a / 2 <> 0) by (intros Z; rewrite Z, Rabs_R0 in E; lra).
    rewrite C, S. f_equal; try ring; field; lra.
Qed.
Lemma power_about u a tau : vdot u u = 1 -> - (2 * PI) < a < 2 * PI -> np_power (about_axis u a) tau = about_axis u (tau * a).
Proof.
  intros H Ha. unfold np_power. rewrite log_unit by (apply about_unit; exact H).
  pose proof (log_about u a H Ha) as L. assert (E : log_vec (about_axis u a) = vscale (a / 2) u).
  { replace (log_vec (about_axis u a)) with (vscale (1 / 2) (vscale 2 (log_vec (about_axis u a)))).
    - rewrite L, vscale_vscale. f_equal. lra.
    - rewrite vscale_vscale. destruct (log_vec (about_axis u a)); unfold vscale; cbn. f_equal; field. }
  rewrite E. replace (qscale tau (mkq 0 (vscale (a / 2) u))) with (mkq 0 (vscale (tau * a / 2) u)).
  - apply exp_about, H.
  - destruct u; unfold qscale, mkq, vscale; cbn. f_equal; lra.
Qed.
Lemma about_zero u : about_axis u 0 = q1.
Proof. unfold about_axis. replace (0 / 2) with 0 by lra. rewrite cos_0, sin_0. destruct u; unfold mkq, vscale, q1; cbn. f_equal; ring. Qed.
Lemma about_add u a b : vdot u u = 1 -> hmul (about_axis u a) (about_axis u b) = about_axis u (a + b).
Proof.
  intros H. unfold about_axis. replace ((a + b) / 2) with (a / 2 + b / 2) by lra. rewrite cos_plus, sin_plus.
  destruct u as [x y z]. unfold vdot in H. cbn in H. cbv [hmul mkq sc ve vdot vadd vscale vcross vx vy vz qw qx qy qz].
  f_equal; try ring. replace (x * x) with (1 - y * y - z * z) by lra.
  transitivity (cos (a / 2) * cos (b / 2) - sin (a / 2) * sin (b / 2) * (x * x + y * y + z * z)); [ring|rewrite H; ring].
Qed.
Lemma conj_about p u a : hunit p -> hmul (hmul p (about_axis u a)) (hconj p) = about_axis (srot p u) a.
Proof.
  intros H. unfold about_axis. set (c := cos (a / 2)). set (s := sin (a / 2)). unfold srot. unfold hunit in H. rewrite H, Rinv_1.
  destruct p as [w x y z], u as [ux uy uz]. cbv [hn2 sc ve vdot vx vy vz qw qx qy qz] in H.
  cbv [hmul hconj mkq sc ve vdot vadd vscale vcross vopp vx vy vz qw qx qy qz]. f_equal; try ring.
  transitivity (c * (w * w + (x * x + y * y + z * z))); [ring|rewrite H; ring].
Qed.
Lemma srot_unit p u : hunit p -> vdot u u = 1 -> vdot (srot p u) (srot p u) = 1.
Proof. intros H Hu. rewrite srot_dot; [exact Hu|]. unfold hunit in H. lra. Qed.
(** A unit quaternion is a rotation about an axis by at most a full turn. *)
Lemma unit_about x : hunit x -> exists u a, vdot u u = 1 /\ 0 <= a <= 2 * PI /\ x = about_axis u a /\ (x = Qt (-1) 0 0 0 \/ a < 2 * PI).
Proof.
  intros H. destruct (as_about x) as (u & a & rho & Hu & Hr & Ha & Hx & Hl); [unfold hunit in H; lra|].
  assert (R1 : rho = 1).
  { assert (E : hn2 x = rho * rho). { rewrite Hx. replace (hn2 (qscale rho (about_axis u a))) with (rho * rho * hn2 (about_axis u a)) by (destruct (about_axis u a) as [ww xx yy zz]; cbv [hn2 qscale sc ve vdot vx vy vz qw qx qy qz]; ring). pose proof (about_unit u a Hu) as U. unfold hunit in U. rewrite U. ring. }
    rewrite H in E. nra. }
  subst rho. assert (E : x = about_axis u a). { rewrite Hx. destruct (about_axis u a) as [ww xx yy zz]; unfold qscale; cbn. f_equal; ring. }
  exists u, a. split; [exact Hu|]. split; [exact Ha|]. split; [exact E|]. destruct (Req_dec a (2 * PI)) as [A|A]; [left|right; lra].
  destruct (Hl A) as (V & W). destruct x as [w i j k]. unfold ve in V. cbn in V, W. unfold v0 in V. injection V as -> -> ->.
  unfold hunit in H. cbv [hn2 sc ve vdot vx vy vz qw qx qy qz] in H. f_equal. nra.
Qed.
Lemma qscale_hmul_l k a b : hmul (qscale k a) b = qscale k (hmul a b).
Proof. destruct a as [aw ax ay az], b as [bw bx by' bz]. cbv [hmul qscale mkq sc ve vdot vadd vscale vcross vx vy vz qw qx qy qz]. f_equal; ring. Qed.
Lemma qscale_hmul_r k a b : hmul a (qscale k b) = qscale k (hmul a b).
Proof. destruct a as [aw ax ay az], b as [bw bx by' bz]. cbv [hmul qscale mkq sc ve vdot vadd vscale vcross vx vy vz qw qx qy qz]. f_equal; ring. Qed.
Lemma hconj_hconj a : hconj (hconj a) = a.
Proof. destruct a as [aw ax ay az]. cbv [hconj mkq sc ve vopp vx vy vz qw qx qy qz]. f_equal; ring. Qed.
Lemma hconj_r p : hunit p -> hmul p (hconj p) = hone.
Proof. intros H. destruct p as [w x y z]. cbv [hunit hn2 sc ve vdot vx vy vz qw qx qy qz] in H. cbv [hone hmul hconj mkq sc ve vdot vadd vscale vcross vopp v0 vx vy vz qw qx qy qz]. f_equal; try ring. lra. Qed.
Lemma hconj_l p : hunit p -> hmul (hconj p) p = hone.
Proof. intros H. destruct p as [w x y z]. cbv [hunit hn2 sc ve vdot vx vy vz qw qx qy qz] in H. cbv [hone hmul hconj mkq sc ve vdot vadd vscale vcross vopp v0 vx vy vz qw qx qy qz]. f_equal; try ring. lra. Qed.
Lemma hunit_conj p : hunit p -> hunit (hconj p).
Proof. unfold hunit. intros H. destruct p as [aw ax ay az]. cbv [hn2 hconj mkq sc ve vdot vopp vx vy vz qw qx qy qz] in *. lra. Qed.
Lemma hunit_hmul a b : hunit a -> hunit b -> hunit (hmul a b).
Proof. unfold hunit. intros Ha Hb. rewrite hn2_hmul, Ha, Hb. ring. Qed.
Lemma hunit_neg a : hunit a -> hunit (qscale (-1) a).
Proof. unfold hunit. intros H. destruct a as [aw ax ay az]. cbv [hn2 qscale sc ve vdot vx vy vz qw qx qy qz] in *. lra. Qed.
Lemma qconj_hconj a : qconj a = hconj a.
Proof. destruct a. reflexivity. Qed.
Lemma hconj_hmul a b : hconj (hmul a b) = hmul (hconj b) (hconj a).
Proof. destruct a as [aw ax ay az], b as [bw bx by' bz]. cbv [hmul hconj mkq sc ve vdot vadd vscale vcross vopp vx vy vz qw qx qy qz]. f_equal; ring. Qed.
Lemma qdiv_unit b a : hunit a -> qdivq b a = hmul b (hconj a).
Proof.
  intros H. unfold qdivq. rewrite qmulq_hmul. rewrite <- (QuatProofs.hn2_qnorm2 a), H, Rinv_1, qconj_hconj. f_equal. destruct (hconj a). unfold qscale. cbn. f_equal; ring.
Qed.
(** The real part of a^* b is the inner product. *)
Definition inner (a b : quat) : R := qw (hmul (hconj a) b).
Lemma dist_inner a b : hunit a -> hunit b -> qnorm2 (qaddq a (qscale (-1) b)) = 2 - 2 * inner a b.
Proof.
  intros Ha Hb. destruct a as [aw ax ay az], b as [bw bx by' bz]. unfold inner. cbv [hunit hn2 hmul hconj qscale qaddq qnorm2 mkq sc ve vdot vadd vscale vcross vopp vx vy vz qw qx qy qz] in *. lra.
Qed.
(** slerp, seen from the first quaternion: a (a^* b)^tau, with b or -b on its side. *)
Definition toward (a b : quat) : quat := if Rle_dec 0 (inner a b) then b else qscale (-1) b.
Lemma toward_unit a b : hunit b -> hunit (toward a b).
Proof. intros H. unfold toward. destruct (Rle_dec _ _); [exact H|apply hunit_neg, H]. Qed.
Lemma toward_inner a b : 0 <= inner a (toward a b).
Proof.
  unfold toward. destruct (Rle_dec 0 (inner a b)) as [H|H]; [exact H|]. unfold inner in *. rewrite qscale_hmul_r. cbn [qscale qw]. lra.
Qed.
Lemma slerp_toward a b tau : hunit a -> hunit b -> np_slerp a b tau = hmul (np_power (hmul (toward a b) (hconj a)) tau) a.
Proof.
  intros Ha Hb. unfold np_slerp. rewrite (dist_inner a b Ha Hb). unfold toward, Rle_b.
  destruct (Rle_dec (2 - 2 * inner a b) 2) as [H|H]; destruct (Rle_dec 0 (inner a b)); try lra; rewrite qmulq_hmul, qdiv_unit by exact Ha; reflexivity.
Qed.
Lemma power_conj p x tau : hunit p -> hunit x -> x <> Qt (-1) 0 0 0 -> np_power (hmul (hmul p x) (hconj p)) tau = hmul (hmul p (np_power x tau)) (hconj p).
Proof.
  intros Hp Hx Hn. destruct (unit_about x Hx) as (u & a & Hu & Ha & -> & [E|L]); [congruence|].
  rewrite conj_about by exact Hp. rewrite !power_about; try lra; try (apply srot_unit; assumption); try exact Hu. rewrite conj_about by exact Hp. reflexivity.
Qed.
Lemma slerp_local a b tau : hunit a -> hunit b -> np_slerp a b tau = hmul a (np_power (hmul (hconj a) (toward a b)) tau).
Proof.
  intros Ha Hb. rewrite slerp_toward by assumption.
  assert (E : hmul (toward a b) (hconj a) = hmul (hmul a (hmul (hconj a) (toward a b))) (hconj a)).
  { rewrite <- (hmul_assoc a (hconj a)), hconj_r, hmul_1_l by exact Ha. reflexivity. }
  rewrite E, power_conj; [|exact Ha|apply hunit_hmul; [apply hunit_conj, Ha|apply toward_unit, Hb]|].
  - rewrite hmul_assoc, hconj_l, hmul_1_r by exact Ha. reflexivity.
  - intros N. pose proof (toward_inner a b) as I. unfold inner in I. rewrite N in I. cbn in I. lra.
Qed.
Lemma power_unit x tau : hunit x -> hunit (np_power x tau).
Proof.
  intros H. unfold np_power. rewrite log_unit by exact H. set (v := log_vec x).
  replace (qscale tau (mkq 0 v)) with (mkq 0 (vscale tau v)) by (destruct v; unfold qscale, mkq, vscale; cbn; f_equal; ring).
  generalize (vscale tau v). clear. intros v. unfold np_exp. cbv zeta. replace (qvec (mkq 0 v)) with v by (destruct v; reflexivity).
  pose proof (vnorm_sq v) as B. unfold Req_b. destruct (Req_EM_T (vnorm v) 0) as [E|E].
  - cbn [qw mkq]. rewrite exp_0. cbv [hunit hn2 sc ve vdot vx vy vz qw qx qy qz]. ring.
  - cbn [qw mkq qx qy qz]. rewrite exp_0. set (b := vnorm v) in *. destruct v as [x0 y z]. unfold vdot in B. cbn in B.
    cbv [hunit hn2 sc ve vdot vx vy vz qw qx qy qz]. pose proof (sin2_cos2 b) as T. unfold Rsqr in T.
    transitivity (cos b * cos b + sin b * sin b * ((x0 * x0 + y * y + z * z) / (b * b))); [field; exact E|]. rewrite <- B. replace (b * b / (b * b)) with 1 by (field; exact E). lra.
Qed.
Lemma exp_unit v : hunit (np_exp (mkq 0 v)).
Proof.
  unfold np_exp. cbv zeta. replace (qvec (mkq 0 v)) with v by (destruct v; reflexivity).
  pose proof (vnorm_sq v) as B. unfold Req_b. destruct (Req_EM_T (vnorm v) 0) as [E|E].
  - cbn [qw mkq]. rewrite exp_0. cbv [hunit hn2 sc ve vdot vx vy vz qw qx qy qz]. ring.
  - cbn [qw mkq qx qy qz]. rewrite exp_0. set (b := vnorm v) in *. destruct v as [x0 y z]. unfold vdot in B. cbn in B.
    cbv [hunit hn2 sc ve vdot vx vy vz qw qx qy qz]. pose proof (sin2_cos2 b) as T. unfold Rsqr in T.
    transitivity (cos b * cos b + sin b * sin b * ((x0 * x0 + y * y + z * z) / (b * b))); [field; exact E|]. rewrite <- B. replace (b * b / (b * b)) with 1 by (field; exact E). lra.
Qed.
Lemma slerp_unit a b tau : hunit a -> hunit b -> hunit (np_slerp a b tau).
Proof.
  intros Ha Hb. rewrite slerp_local by assumption. apply hunit_hmul; [exact Ha|]. apply power_unit, hunit_hmul; [apply hunit_conj, Ha|apply toward_unit, Hb].
Qed.
Lemma power_0 x : hunit x -> np_power x 0 = q1.
Proof.
  intros H. unfold np_power. rewrite log_unit by exact H. replace (qscale 0 (mkq 0 (log_vec x))) with (mkq 0 v0) by (destruct (log_vec x); unfold qscale, mkq, v0; cbn; f_equal; ring). apply exp_zero.
Qed.
Lemma q1_hone : q1 = hone.
Proof. reflexivity. Qed.
Lemma slerp_0 a b : hunit a -> hunit b -> np_slerp a b 0 = a.
Proof.
  intros Ha Hb. rewrite slerp_local by assumption. rewrite power_0, q1_hone; [apply hmul_1_r|]. apply hunit_hmul; [apply hunit_conj, Ha|apply toward_unit, Hb].
Qed.
Lemma log_one : np_log q1 = mkq 0 v0.
Proof.
  rewrite log_unit by (cbv [hunit hn2 q1 sc ve vdot vx vy vz qw qx qy qz]; ring). f_equal. unfold log_vec. cbv zeta.
  replace (vnorm (qvec q1)) with 0 by (unfold vnorm, vnorm2, vdot; cbn; replace (0 * 0 + 0 * 0 + 0 * 0) with 0 by ring; symmetry; apply sqrt_0).
  unfold Req_b, Rlt_b. destruct (Req_EM_T 0 0); [|lra]. cbn [qw q1]. destruct (Rlt_dec 1 0); [lra|reflexivity].
Qed.
Lemma slerp_along a u al tau : hunit a -> vdot u u = 1 -> - PI <= al <= PI -> np_slerp a (hmul a (about_axis u al)) tau = hmul a (about_axis u (tau * al)).
Proof.
  intros Ha Hu Hal. pose proof PI_RGT_0 as PP. rewrite slerp_local; [|exact Ha|apply hunit_hmul; [exact Ha|apply about_unit, Hu]].
  assert (E : hmul (hconj a) (hmul a (about_axis u al)) = about_axis u al) by (rewrite <- hmul_assoc, hconj_l, hmul_1_l by exact Ha; reflexivity).
  unfold toward. destruct (Rle_dec 0 (inner a (hmul a (about_axis u al)))) as [H|H].
  - rewrite E, power_about; [reflexivity|exact Hu|lra].
  - exfalso. apply H. unfold inner. rewrite E. cbn [about_axis mkq qw]. apply cos_ge_0; lra.
Qed.
Lemma slerp_same a tau : hunit a -> np_slerp a a tau = a.
Proof.
  intros Ha. pose proof (slerp_along a (V3 1 0 0) 0 tau Ha ltac:(unfold vdot; cbn; ring) ltac:(pose proof PI_RGT_0; lra)) as H.
  rewrite Rmult_0_r, about_zero, q1_hone, hmul_1_r in H. exact H.
Qed.
Lemma evaluate_unit tau q a b p : hunit q -> hunit a -> hunit b -> hunit p -> hunit (squad_evaluate tau q a b p).
Proof. intros. unfold squad_evaluate. apply slerp_unit; apply slerp_unit; assumption. Qed.
Lemma evaluate_0 q a b p : hunit q -> hunit a -> hunit b -> hunit p -> squad_evaluate 0 q a b p = q.
Proof.
  intros. unfold squad_evaluate. replace (2 * 0 * (1 - 0)) with 0 by ring. rewrite slerp_0 by (apply slerp_unit; assumption). apply slerp_0; assumption.
Qed.
(* ---- control points ---- *)
Section Rows.
  Variables (ts : list R) (rr : list quat).
  Hypothesis U : Forall hunit rr.
  Lemma sample_unit k : hunit (sample rr k).
  Proof.
    unfold sample. destruct (nth_in_or_default k rr q1) as [I|E]; [rewrite Forall_forall in U; apply U, I|]. rewrite E. cbv [hunit hn2 q1 sc ve vdot vx vy vz qw qx qy qz]. ring.
  Qed.
  Lemma turn_log_pure k : exists v, turn_log rr k = mkq 0 v.
  Proof. unfold turn_log. rewrite qmulq_hmul, qconj_hconj, log_unit; [eauto|]. apply hunit_hmul; [apply hunit_conj|]; apply sample_unit. Qed.
  Lemma beyond_unit : hunit (beyond ts rr).
  Proof. unfold beyond. rewrite !qmulq_hmul, qconj_hconj. repeat apply hunit_hmul; try apply hunit_conj; apply sample_unit. Qed.
  Lemma pure_sum k l v w : qaddq (qscale k (mkq 0 v)) (qscale l (mkq 0 w)) = mkq 0 (vadd (vscale k v) (vscale l w)).
  Proof. destruct v as [v1 v2 v3], w as [w1 w2 w3]. cbv [qaddq qscale mkq vadd vscale vx vy vz qw qx qy qz]. f_equal; ring. Qed.
  Lemma pure_scale k v : qscale k (mkq 0 v) = mkq 0 (vscale k v).
  Proof. destruct v as [v1 v2 v3]. cbv [qscale mkq vscale vx vy vz qw qx qy qz]. f_equal; ring. Qed.
  Lemma ctrl_a_unit i : hunit (ctrl_a ts rr i).
  Proof.
    unfold ctrl_a. destruct (_ || _); [apply sample_unit|]. destruct (turn_log_pure i) as (v & ->). destruct (turn_log_pure (Nat.pred i)) as (w & ->).
    rewrite pure_sum, pure_scale, qmulq_hmul. apply hunit_hmul; [apply sample_unit|apply exp_unit].
  Qed.
  Lemma ctrl_b_unit i : hunit (ctrl_b ts rr i).
  Proof.
    unfold ctrl_b. destruct (Nat.eqb i _); [apply beyond_unit|]. destruct (Nat.eqb (S i) _); [apply sample_unit|]. destruct (turn_log_pure i) as (v & ->). destruct (turn_log_pure (S i)) as (w & ->).
    rewrite pure_sum, pure_scale, qmulq_hmul. apply hunit_hmul; [apply sample_unit|apply exp_unit].
  Qed.
  Lemma following_unit i : hunit (following ts rr i).
  Proof. unfold following. destruct (Nat.eqb i _); [apply beyond_unit|apply sample_unit]. Qed.
  Lemma squad_at_unit x : hunit (squad_at ts rr x).
  Proof. unfold squad_at. apply evaluate_unit; [apply sample_unit|apply ctrl_a_unit|apply ctrl_b_unit|apply following_unit]. Qed.
End Rows.
(* ---- the interval of a time ---- *)
Lemma increasing_nth ts m n : increasing ts -> (m < n < length ts)%nat -> nth m ts 0 < nth n ts 0.
Proof. intros H L. apply (H m n); [lia|apply nth_error_nth'; lia|apply nth_error_nth'; lia]. Qed.
Lemma filter_none x ts : (forall m, (m < length ts)%nat -> x < nth m ts 0) -> filter (fun t => Rle_b t x) ts = [].
Proof.
  induction ts as [|a l IH]; intros H; [reflexivity|]. cbn [filter]. unfold Rle_b at 1. destruct (Rle_dec a x) as [L|_].
  - specialize (H O). cbn in H. specialize (H ltac:(lia)). lra.
  - apply IH. intros m Hm. apply (H (S m)). cbn. lia.
Qed.
Lemma count_upto x ts k : (k < length ts)%nat -> (forall m, (m <= k)%nat -> nth m ts 0 <= x) -> (forall m, (k < m < length ts)%nat -> x < nth m ts 0) ->
  length (filter (fun t => Rle_b t x) ts) = S k.
Proof.
  revert k. induction ts as [|a l IH]; intros k Hk H1 H2; [cbn in Hk; lia|]. cbn [filter]. unfold Rle_b at 1.
  destruct (Rle_dec a x) as [_|N]; [|specialize (H1 O ltac:(lia)); cbn in H1; lra]. cbn [length]. f_equal. destruct k as [|k].
  - rewrite filter_none; [reflexivity|]. intros m Hm. apply (H2 (S m)). cbn. lia.
  - apply IH; [cbn in Hk; lia|intros m Hm; apply (H1 (S m)); lia|intros m Hm; apply (H2 (S m)); cbn; lia].
Qed.
Lemma interval_is ts x k : increasing ts -> (k < length ts)%nat -> nth k ts 0 <= x -> ((S k < length ts)%nat -> x < nth (S k) ts 0) -> interval_of ts x = k.
Proof.
  intros Hi Hk Hx Hn. unfold interval_of. rewrite (count_upto x ts k Hk); [reflexivity| |].
  - intros m Hm. destruct (Nat.eq_dec m k) as [->|]; [exact Hx|]. pose proof (increasing_nth ts m k Hi ltac:(lia)). lra.
  - intros m Hm. specialize (Hn ltac:(lia)). destruct (Nat.eq_dec m (S k)) as [->|]; [exact Hn|]. pose proof (increasing_nth ts (S k) m Hi ltac:(lia)). lra.
Qed.
(** A time from the first sample on lies in some interval. *)
Lemma interval_exists ts x : increasing ts -> (0 < length ts)%nat -> nth 0 ts 0 <= x -> exists k, (k < length ts)%nat /\ nth k ts 0 <= x /\ ((S k < length ts)%nat -> x < nth (S k) ts 0).
Proof.
  intros _ L H. assert (G : forall n, (n < length ts)%nat -> nth 0 ts 0 <= x -> (exists k, (k < length ts)%nat /\ nth k ts 0 <= x /\ ((S k < length ts)%nat -> x < nth (S k) ts 0)) \/ nth n ts 0 <= x).
  { induction n as [|n IH]; intros Hn _; [right; exact H|]. destruct (IH ltac:(lia) H) as [E|E]; [left; exact E|].
    destruct (Rle_lt_dec (nth (S n) ts 0) x) as [A|A]; [right; exact A|]. left. exists n. split; [lia|]. split; [exact E|]. intros _. exact A. }
  destruct (G (Nat.pred (length ts)) ltac:(lia) H) as [E|E]; [exact E|]. exists (Nat.pred (length ts)). split; [lia|]. split; [exact E|]. lia.
Qed.
Lemma strictly_inc ts : increasing ts -> strictly ts = true.
Proof.
  induction ts as [|a [|b l] IH]; intros H; [reflexivity|reflexivity|]. cbn [strictly]. apply andb_true_iff. split.
  - unfold Rlt_b. destruct (Rlt_dec a b) as [_|N]; [reflexivity|]. exfalso. apply N. apply (H 0%nat 1%nat a b); [lia|reflexivity|reflexivity].
  - apply IH. intros i j y z Hij Hy Hz. apply (H (S i) (S j)); auto. lia.
Qed.
Lemma inc_strictly ts : strictly ts = true -> increasing ts.
Proof.
  induction ts as [|a l IH]; intros H; [intros i j y z _ E; destruct i; discriminate|].
  assert (Hl : strictly l = true) by (destruct l as [|b l]; [reflexivity|cbn [strictly] in H; apply andb_true_iff in H; apply H]).
  specialize (IH Hl). intros [|i] j y z Hij Ey Ez.
  - cbn in Ey. injection Ey as <-. destruct j as [|j]; [lia|]. cbn in Ez. destruct l as [|b l]; [destruct j; discriminate|].
    assert (AB : a < b). { cbn [strictly] in H. apply andb_true_iff in H. destruct H as (H & _). unfold Rlt_b in H. destruct (Rlt_dec a b); [assumption|discriminate]. }
    destruct j as [|j]; [cbn in Ez; congruence|]. pose proof (IH 0%nat (S j) b z ltac:(lia) eq_refl Ez). lra.
  - destruct j as [|j]; [lia|]. apply (IH i j); [lia|exact Ey|exact Ez].
Qed.
Lemma no_zero rr : Forall hunit rr -> existsb (fun q => Req_b (qnorm2 q) 0) rr = false.
Proof.
  intros H. induction H as [|q l Hq _ IH]; [reflexivity|]. cbn [existsb]. rewrite IH, orb_false_r. unfold Req_b. destruct (Req_EM_T (qnorm2 q) 0) as [E|_]; [|reflexivity].
  rewrite <- QuatProofs.hn2_qnorm2 in E. unfold hunit in Hq. lra.
Qed.
Lemma np_squad_ok ts rr x : increasing ts -> (2 <= length ts)%nat -> length rr = length ts -> Forall hunit rr -> np_squad ts rr x = Ok (squad_at ts rr x).
Proof.
  intros Hi Hn Hl Hu. unfold np_squad. rewrite Hl, Nat.eqb_refl. cbn [negb]. destruct (Nat.ltb_spec (length ts) 2); [lia|]. rewrite no_zero, strictly_inc by assumption. reflexivity.
Qed.
Lemma np_squad_inv ts rr x r : np_squad ts rr x = Ok r -> length rr = length ts /\ (2 <= length ts)%nat /\ increasing ts /\ r = squad_at ts rr x.
Proof.
  unfold np_squad. destruct (Nat.eqb_spec (length rr) (length ts)) as [E|]; [|discriminate]. cbn [negb]. destruct (Nat.ltb_spec (length ts) 2); [discriminate|].
  destruct (existsb _ rr); [discriminate|]. cbn [orb]. destruct (strictly ts) eqn:S; [|discriminate]. cbn [negb]. intros H0. injection H0 as <-. split; [exact E|]. split; [lia|]. split; [apply inc_strictly, S|reflexivity].
Qed.
