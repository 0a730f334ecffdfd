(** Property C80: the velocity estimates converge to the true velocity as the samples
    get denser, with explicit error bounds. *)
From Coq Require Import Reals List Arith Bool ZArith Lia Lra Sorted.
From Coquelicot Require Import Coquelicot.
From Verif Require Import Base Quat SpecQuat QuatProofs NdArray Frames Matcher SpecLookup MovingProofs TimeProofs
  Transform SpecArray NdProofs PropRotate Velocity VelProofs PropVelocity SpecMotion MotionProofs PropAngular
  Squad SquadProofs Taylor Spline SplineProofs SplineError.
Import ListNotations.
Open Scope R_scope.

(* ---- linear velocity ---- *)
(** No two neighbouring samples are further apart than H. *)
Definition spaced_by (ts : list R) (H : R) : Prop := forall i, (S i < List.length ts)%nat -> nth (S i) ts 0 - nth i ts 0 <= H.
(** x k is the k-th derivative of x 0 everywhere, up to the n-th. *)
Definition derivatives (x : nat -> R -> R) (n : nat) : Prop := forall k t, (k < n)%nat -> derivable_pt_lim (x k) t (x (S k) t).

Section Grad.
  Variables (ts : list R) (f : nat -> R) (F : nat -> R -> R) (M2 M3 H : R).
  Hypothesis Hinc : increasing ts.
  Hypothesis Hf : forall j, (j < List.length ts)%nat -> f j = F 0%nat (nth j ts 0).
  Hypothesis HD : derivatives F 3.
  Hypothesis H2 : forall t, Rabs (F 2%nat t) <= M2.
  Hypothesis H3 : forall t, Rabs (F 3%nat t) <= M3.
  Hypothesis HH : spaced_by ts H.
  Lemma chain_any n lo hi : (n <= 3)%nat -> chain F n lo hi.
  Proof using HD. intros Hn k t Hk _. apply HD. lia. Qed.
  Lemma poly2 (g : nat -> R -> R) a x : poly g a x 2 = g 0%nat a + g 1%nat a * x.
  Proof. cbn [poly]. replace (INR (fact 0)) with 1 by reflexivity. replace (INR (fact 1)) with 1 by reflexivity. field. Qed.
  Lemma fact_2 : INR (fact 2) = 2. Proof. rewrite INR_IZR_INZ. reflexivity. Qed.
  Lemma first_diff t x : 0 < x <= H -> Rabs ((F 0%nat (t + x) - F 0%nat t) / x - F 1%nat t) <= M2 * H / 2.
  Proof using HD H2.
    intros Hx. pose proof (taylor_right 2 F M2 t (t + x) ltac:(lra) (chain_any 2 _ _ ltac:(lia)) (fun s _ => H2 s)) as T.
    replace (t + x - t) with x in T by ring. rewrite poly2, fact_2 in T.
    replace ((F 0%nat (t + x) - F 0%nat t) / x - F 1%nat t) with ((F 0%nat (t + x) - (F 0%nat t + F 1%nat t * x)) / x) by (field; lra).
    assert (0 <= M2) by (pose proof (H2 0); pose proof (Rabs_pos (F 2%nat 0)); lra).
    apply abs_div; [lra|]. eapply Rle_trans; [exact T|]. replace (M2 * x ^ 2 / 2) with (M2 * x / 2 * x) by field. apply Rmult_le_compat_r; [lra|]. apply Rmult_le_compat_r; [lra|]. apply Rmult_le_compat_l; lra.
  Qed.
  Lemma last_diff t x : 0 < x <= H -> Rabs ((F 0%nat t - F 0%nat (t - x)) / x - F 1%nat t) <= M2 * H / 2.
  Proof using HD H2.
    intros Hx. pose proof (taylor_left 2 F M2 t (t - x) ltac:(lra) (chain_any 2 _ _ ltac:(lia)) (fun s _ => H2 s)) as T.
    replace (t - x - t) with (- x) in T by ring. replace (t - (t - x)) with x in T by ring. rewrite poly2, fact_2 in T.
    replace ((F 0%nat t - F 0%nat (t - x)) / x - F 1%nat t) with (- ((F 0%nat (t - x) - (F 0%nat t + F 1%nat t * - x)) / x)) by (field; lra). rewrite Rabs_Ropp.
    assert (0 <= M2) by (pose proof (H2 0); pose proof (Rabs_pos (F 2%nat 0)); lra).
    apply abs_div; [lra|]. eapply Rle_trans; [exact T|]. replace (M2 * x ^ 2 / 2) with (M2 * x / 2 * x) by field. apply Rmult_le_compat_r; [lra|]. apply Rmult_le_compat_r; [lra|]. apply Rmult_le_compat_l; lra.
  Qed.
  Lemma inner_diff t a b : 0 < a <= H -> 0 < b <= H ->
    Rabs (- b / (a * (a + b)) * F 0%nat (t - a) + (b - a) / (a * b) * F 0%nat t + a / (b * (a + b)) * F 0%nat (t + b) - F 1%nat t) <= M3 * H ^ 2 / 6.
  Proof using HD H3.
    intros Ha Hb. pose proof (taylor_left 3 F M3 t (t - a) ltac:(lra) (chain_any 3 _ _ ltac:(lia)) (fun s _ => H3 s)) as T.
    replace (t - a - t) with (- a) in T by ring. replace (t - (t - a)) with a in T by ring. rewrite poly3, fact_3 in T.
    pose proof (taylor_right 3 F M3 t (t + b) ltac:(lra) (chain_any 3 _ _ ltac:(lia)) (fun s _ => H3 s)) as U.
    replace (t + b - t) with b in U by ring. rewrite poly3, fact_3 in U.
    assert (P : 0 <= M3) by (pose proof (H3 0); pose proof (Rabs_pos (F 3%nat 0)); lra).
    set (u := F 0%nat (t - a) - (F 0%nat t + F 1%nat t * - a + F 2%nat t * (- a) ^ 2 / 2)) in *. set (v := F 0%nat (t + b) - (F 0%nat t + F 1%nat t * b + F 2%nat t * b ^ 2 / 2)) in *.
    replace (- b / (a * (a + b)) * F 0%nat (t - a) + (b - a) / (a * b) * F 0%nat t + a / (b * (a + b)) * F 0%nat (t + b) - F 1%nat t)
      with ((a * (a * v) - b * (b * u)) / (a * b * (a + b))) by (unfold u, v; field; lra).
    assert (AB : 0 < a * b) by (apply Rmult_lt_0_compat; lra).
    apply abs_div; [apply Rmult_lt_0_compat; lra|]. apply Rabs_le_between in T, U.
    assert (Q1 : Rabs (a * (a * v)) <= a * a * (M3 * b ^ 3 / 6)).
    { rewrite <- Rmult_assoc, Rabs_mult, Rabs_right by nra. apply Rmult_le_compat_l; [nra|]. apply Rabs_le. lra. }
    assert (Q2 : Rabs (b * (b * u)) <= b * b * (M3 * a ^ 3 / 6)).
    { rewrite <- Rmult_assoc, Rabs_mult, Rabs_right by nra. apply Rmult_le_compat_l; [nra|]. apply Rabs_le. lra. }
    assert (Q3 : a * a * (M3 * b ^ 3 / 6) + b * b * (M3 * a ^ 3 / 6) = M3 * (a * b) / 6 * (a * b * (a + b))) by field.
    assert (Q4 : M3 * (a * b) / 6 * (a * b * (a + b)) <= M3 * H ^ 2 / 6 * (a * b * (a + b))).
    { apply Rmult_le_compat_r; [apply Rlt_le, Rmult_lt_0_compat; lra|]. apply Rmult_le_compat_r; [lra|]. apply Rmult_le_compat_l; [exact P|]. replace (H ^ 2) with (H * H) by ring. apply Rmult_le_compat; lra. }
    apply Rabs_le_between in Q1, Q2. apply Rabs_le. lra.
  Qed.
  Hypothesis Hlen : (2 <= List.length ts)%nat.
  Lemma gap_pos j : (S j < List.length ts)%nat -> 0 < nth (S j) ts 0 - nth j ts 0 <= H.
  Proof using Hinc HH. clear Hlen. intros Hj. split; [|apply HH, Hj]. pose proof (inc_nth ts j (S j) Hinc ltac:(lia)). lra. Qed.
  Lemma grad_ends : Rabs (grad_at ts f 0 - F 1%nat (nth 0 ts 0)) <= M2 * H / 2 /\
    Rabs (grad_at ts f (List.length ts - 1) - F 1%nat (nth (List.length ts - 1) ts 0)) <= M2 * H / 2.
  Proof using Hinc Hlen Hf HD H2 HH.
    split.
    - unfold grad_at. cbv zeta. rewrite Nat.eqb_refl. rewrite !Hf by lia. pose proof (gap_pos 0 ltac:(lia)) as G.
      pose proof (first_diff (nth 0 ts 0) _ G) as T. replace (nth 0 ts 0 + (nth 1 ts 0 - nth 0 ts 0)) with (nth 1 ts 0) in T by ring. exact T.
    - unfold grad_at. cbv zeta. replace (Nat.eqb (List.length ts - 1) 0) with false by (symmetry; apply Nat.eqb_neq; lia).
      replace (Nat.eqb (S (List.length ts - 1)) (List.length ts)) with true by (symmetry; apply Nat.eqb_eq; lia). rewrite !Hf by lia.
      pose proof (gap_pos (List.length ts - 2) ltac:(lia)) as G. replace (S (List.length ts - 2)) with (List.length ts - 1)%nat in G by lia. replace (List.length ts - 1 - 1)%nat with (List.length ts - 2)%nat by lia.
      pose proof (last_diff (nth (List.length ts - 1) ts 0) _ G) as T.
      replace (nth (List.length ts - 1) ts 0 - (nth (List.length ts - 1) ts 0 - nth (List.length ts - 2) ts 0)) with (nth (List.length ts - 2) ts 0) in T by ring. exact T.
  Qed.
  Lemma grad_inner m : (0 < m)%nat -> (S m < List.length ts)%nat -> Rabs (grad_at ts f m - F 1%nat (nth m ts 0)) <= M3 * H ^ 2 / 6.
  Proof using Hinc Hf HD H3 HH.
    clear Hlen.
    intros Hm Hm'. destruct m as [|i]; [lia|]. pose proof (gap_pos i ltac:(lia)) as GA. pose proof (gap_pos (S i) Hm') as GB.
    pose proof (inner_diff (nth (S i) ts 0) _ _ GA GB) as T.
    replace (nth (S i) ts 0 - (nth (S i) ts 0 - nth i ts 0)) with (nth i ts 0) in T by ring. replace (nth (S i) ts 0 + (nth (S (S i)) ts 0 - nth (S i) ts 0)) with (nth (S (S i)) ts 0) in T by ring.
    unfold grad_at. cbv zeta. replace (Nat.eqb (S i) 0) with false by reflexivity. replace (Nat.eqb (S (S i)) (List.length ts)) with false by (symmetry; apply Nat.eqb_neq; lia).
    replace (S i - 1)%nat with i by lia. rewrite !Hf by lia. destruct (uniform ts) eqn:EU; [|exact T].
    pose proof (uniform_nth ts i EU ltac:(lia)) as U1. pose proof (uniform_nth ts (S i) EU Hm') as U2.
    set (h := nth 1 ts 0 - nth 0 ts 0) in *. rewrite U1 in T, GA. rewrite U2 in T.
    replace ((F 0%nat (nth (S (S i)) ts 0) - F 0%nat (nth i ts 0)) / (2 * h)) with (- h / (h * (h + h)) * F 0%nat (nth i ts 0) + (h - h) / (h * h) * F 0%nat (nth (S i) ts 0) + h / (h * (h + h)) * F 0%nat (nth (S (S i)) ts 0)) by (field; lra).
    exact T.
  Qed.
End Grad.
(** Positions x(c), three times differentiable (c: the index on the other axes),
    sampled at any strictly increasing timestamps along any axis tau: the estimate
    is off by at most M3 H^2 / 6 inside and M2 H / 2 at the two ends, where M2 and M3
    bound acceleration and jerk and H the spacing. *)
Theorem C80_linear : forall (a : nd R) axis time_axis ts tau sh (x : list nat -> nat -> R -> R) M2 M3 H,
  increasing ts -> (2 <= List.length ts)%nat -> spaced_by ts H ->
  shp a = put tau (List.length ts) sh -> (tau <= List.length sh)%nat ->
  time_is time_axis tau (ndim a) -> axis_not axis tau (ndim a) ->
  (forall c, valid sh c -> derivatives (x c) 3 /\ forall t, Rabs (x c 2%nat t) <= M2 /\ Rabs (x c 3%nat t) <= M3) ->
  (forall c m, valid sh c -> (m < List.length ts)%nat -> dat a (put tau m c) = x c 0%nat (nth m ts 0)) ->
  exists b, estimate_linear_velocity a axis ts time_axis = Ok b /\ shp b = shp a /\
    forall c m, valid sh c -> (m < List.length ts)%nat ->
      Rabs (dat b (put tau m c) - x c 1%nat (nth m ts 0)) <=
      (if Nat.eqb m 0 || Nat.eqb (S m) (List.length ts) then M2 * H / 2 else M3 * H ^ 2 / 6).
Proof.
  intros a axis time_axis ts tau sh x M2 M3 H Hi H2 HH Hs Hk Ht Ha Hx Hf.
  rewrite (axes_resolved a axis time_axis tau sh _ ts Hs Hk Ht Ha). unfold gradient_nd.
  rewrite Hs, put_insert, nth_insert by auto. rewrite grad_check_ok by auto. eexists. split; [reflexivity|].
  split; [reflexivity|]. intros c m Hc Hm. pose proof (valid_length _ _ Hc) as Lc. cbn [dat].
  rewrite put_insert by lia. rewrite nth_insert by lia. destruct (Hx c Hc) as (D & B).
  match goal with |- context [grad_at ts ?g m] => set (f := g) end.
  assert (Ef : forall j, (j < List.length ts)%nat -> f j = x c 0%nat (nth j ts 0)).
  { intros j Hj. unfold f. rewrite setn_insert by lia. rewrite <- put_insert by lia. auto. }
  destruct (Nat.eqb_spec m 0) as [->|N0]; [|destruct (Nat.eqb_spec (S m) (List.length ts)) as [E|N1]]; cbn [orb].
  - apply (grad_ends ts f (x c) M2 H Hi Ef D (fun t => proj1 (B t)) HH H2).
  - replace m with (List.length ts - 1)%nat by lia. apply (grad_ends ts f (x c) M2 H Hi Ef D (fun t => proj1 (B t)) HH H2).
  - apply (grad_inner ts f (x c) M3 H Hi Ef D (fun t => proj2 (B t)) HH); lia.
Qed.

(* ---- angular velocity ---- *)
(** The times of the samples without NaN, in order. *)
Definition clean_times (a : nd (option R)) (tau : nat) (ts gts : list R) : Prop :=
  exists G, StronglySorted lt G /\ (forall m, In m G <-> (m < List.length ts)%nat /\ ~ nan_at a tau m) /\
    gts = map (fun m => nth m ts 0) G.
(** The first and the last interval are at most rho times as long as their neighbours. *)
Definition even_ends (ts : list R) (rho : R) : Prop :=
  let t i := nth i ts 0 in let n := (List.length ts - 1)%nat in
  t 1%nat - t 0%nat <= rho * (t 2%nat - t 1%nat) /\ t n - t (n - 1)%nat <= rho * (t (n - 1)%nat - t (n - 2)%nat).
(** q k is the k-th derivative of q 0, up to the n-th. *)
Definition qderivatives (q : nat -> R -> quat) (n : nat) : Prop := forall k t, (k < n)%nat -> qderiv (q k) t (q (S k) t).

Lemma sorted_nth G i j : StronglySorted lt G -> (i < j < List.length G)%nat -> (nth i G O < nth j G O)%nat.
Proof.
  intros HS. revert i j. induction HS as [|x l HS IH F]; intros i j Hij; [cbn in Hij; lia|].
  destruct j as [|j]; [lia|]. destruct i as [|i]; cbn [nth].
  - rewrite Forall_forall in F. apply F, nth_In. cbn in Hij. lia.
  - apply IH. cbn in Hij. lia.
Qed.
Lemma sorted_inc ts G : increasing ts -> StronglySorted lt G -> (forall m, In m G -> (m < List.length ts)%nat) -> increasing (map (fun m => nth m ts 0) G).
Proof.
  intros Hi HS HG i j x y Hij Ex Ey. rewrite nth_error_map in Ex, Ey. destruct (nth_error G i) as [gi|] eqn:E1; [|discriminate]. destruct (nth_error G j) as [gj|] eqn:E2; [|discriminate].
  injection Ex as <-. injection Ey as <-. pose proof (nth_error_In _ _ E2) as I2. assert (Lj : (j < List.length G)%nat) by (apply nth_error_Some; congruence).
  apply nth_error_nth with (d := O) in E1, E2. subst gi gj. apply inc_nth; [exact Hi|]. split; [apply sorted_nth; [exact HS|lia]|apply HG, I2].
Qed.
Lemma pos_in_lt m G : In m G -> (pos_in m G < List.length G)%nat.
Proof. induction G as [|x G IH]; intros H; [contradiction|]. cbn [pos_in List.length]. destruct (Nat.eqb_spec x m); [lia|]. destruct H as [H|H]; [contradiction|]. specialize (IH H). lia. Qed.
Lemma pos_in_at m G : In m G -> nth (pos_in m G) G O = m.
Proof. induction G as [|x G IH]; intros H; [contradiction|]. cbn [pos_in]. destruct (Nat.eqb_spec x m) as [E|N]; [exact E|]. destruct H as [H|H]; [contradiction|]. cbn [nth]. apply IH, H. Qed.
Lemma pos_in_map (ms : list R) G : StronglySorted lt G -> List.length ms = List.length G -> map (fun m => nth (pos_in m G) ms 0) G = ms.
Proof.
  intros HS HL. apply List.nth_ext with (d := 0) (d' := 0); [rewrite map_length; auto|]. intros i Hi. rewrite map_length in Hi.
  rewrite (nth_indep _ 0 (nth (pos_in O G) ms 0)) by (rewrite map_length; exact Hi). rewrite (map_nth (fun m => nth (pos_in m G) ms 0)). f_equal.
  pose proof (nth_In G O Hi) as I. pose proof (pos_in_lt _ _ I) as P. pose proof (pos_in_at _ _ I) as A.
  destruct (Nat.lt_trichotomy (pos_in (nth i G O) G) i) as [L|[E|L]]; [|exact E|].
  - pose proof (sorted_nth G _ _ HS (conj L Hi)). lia.
  - pose proof (sorted_nth G _ _ HS (conj L P)). lia.
Qed.
Lemma rate_close q x y eps : hunit q -> 0 <= eps -> Rabs (qw x - qw y) <= eps -> Rabs (qx x - qx y) <= eps -> Rabs (qy x - qy y) <= eps -> Rabs (qz x - qz y) <= eps ->
  vnorm (vsub (rate_of q x) (rate_of q y)) <= 4 * eps.
Proof.
  intros U P A B C D. set (d := Qt (qw x - qw y) (qx x - qx y) (qy x - qy y) (qz x - qz y)).
  assert (E : vsub (rate_of q x) (rate_of q y) = vscale 2 (ve (hmul (hconj q) d))).
  { unfold rate_of, d. destruct q as [a0 a1 a2 a3], x as [x0 x1 x2 x3], y as [y0 y1 y2 y3]. cbv [vsub vscale ve hmul hconj mkq sc qw qx qy qz vx vy vz vcross vadd vdot vopp]. f_equal; ring. }
  rewrite E. assert (N : vnorm2 (ve (hmul (hconj q) d)) <= hn2 d).
  { assert (Q : hn2 (hmul (hconj q) d) = hn2 d).
    { rewrite hn2_hmul. replace (hn2 (hconj q)) with (hn2 q) by (clear; destruct q as [a0 a1 a2 a3]; cbv [hn2 hconj mkq sc ve vdot vx vy vz qw qx qy qz vopp]; ring). unfold hunit in U. rewrite U. ring. }
    rewrite <- Q. generalize (hmul (hconj q) d); intros r; destruct r as [r0 r1 r2 r3]. cbv [vnorm2 hn2 ve sc vdot vx vy vz qw qx qy qz]. nra. }
  assert (S4 : hn2 d <= (2 * eps) * (2 * eps)).
  { replace (hn2 d) with ((qw x - qw y) * (qw x - qw y) + (qx x - qx y) * (qx x - qx y) + (qy x - qy y) * (qy x - qy y) + (qz x - qz y) * (qz x - qz y)) by (unfold d; destruct x as [x0 x1 x2 x3], y as [y0 y1 y2 y3]; cbv [hn2 ve sc vdot vx vy vz qw qx qy qz]; ring).
    assert (K : forall z, Rabs z <= eps -> z * z <= eps * eps).
    { intros z Hz. rewrite <- (Rabs_right (z * z)) by nra. rewrite Rabs_mult. pose proof (Rabs_pos z). apply Rmult_le_compat; lra. }
    pose proof (K _ A). pose proof (K _ B). pose proof (K _ C). pose proof (K _ D). lra. }
  unfold vnorm. replace (vnorm2 (vscale 2 (ve (hmul (hconj q) d)))) with (4 * vnorm2 (ve (hmul (hconj q) d))).
  2:{ destruct (ve (hmul (hconj q) d)) as [r1 r2 r3]. cbv [vnorm2 vscale vdot vx vy vz]. ring. }
  rewrite <- (sqrt_square (4 * eps)) by lra. apply sqrt_le_1_alt. lra.
Qed.
Lemma comp_deriv q d t j : (j < 4)%nat -> qderiv q t d -> derivable_pt_lim (fun t => comp4 j (q t)) t (comp4 j d).
Proof. intros Hj (A & B & C & D). revert j Hj. apply comp4_cases; assumption. Qed.
Lemma comp_abs q eps : (forall j, (j < 4)%nat -> Rabs (comp4 j q) <= eps) -> Rabs (qw q) <= eps /\ Rabs (qx q) <= eps /\ Rabs (qy q) <= eps /\ Rabs (qz q) <= eps.
Proof. intros H. split; [apply (H 0%nat); lia|split; [apply (H 1%nat); lia|split; [apply (H 2%nat); lia|apply (H 3%nat); lia]]]. Qed.
(** Unit quaternion curves q(c), four times differentiable, sampled along any time
    axis with the coordinates on any other axis and NaNs anywhere, at least four
    samples without NaN: the estimate is NaN at the times where some entry is NaN
    and elsewhere off by at most 4 (1 + rho)^2 M H^3, where M bounds the fourth
    derivative of the coordinates, H the spacing and rho the unevenness at the ends. *)
Theorem C80_angular : forall deriv (a : nd (option R)) ts axis time_axis k tau (q : list nat -> nat -> R -> quat) M H rho,
  spline_derivative deriv -> increasing ts ->
  (k < ndim a)%nat -> (tau < ndim a)%nat -> k <> tau -> axis_is axis k (ndim a) -> axis_is time_axis tau (ndim a) ->
  nth k (shp a) O = 4%nat -> nth tau (shp a) O = List.length ts ->
  (forall c, (forall t, hunit (q c 0%nat t)) /\ qderivatives (q c) 4 /\ forall t j, (j < 4)%nat -> Rabs (comp4 j (q c 4%nat t)) <= M) ->
  (forall ix, valid (shp a) ix -> ~ nan_at a tau (nth tau ix O) ->
     dat a ix = Some (comp4 (nth k ix O) (q (series tau k ix) 0%nat (nth (nth tau ix O) ts 0)))) ->
  (forall gts, clean_times a tau ts gts -> (4 <= List.length gts)%nat /\ spaced_by gts H /\ even_ends gts rho) ->
  exists b, estimate_angular deriv a ts axis time_axis = Ok b /\ shp b = setn k 3 (shp a) /\
  forall ix, valid (shp a) ix ->
    let m := nth tau ix O in
    (nan_at a tau m -> forall j, (j < 3)%nat -> dat b (setn k j ix) = None) /\
    (~ nan_at a tau m -> exists w w', (forall j, (j < 3)%nat -> dat b (setn k j ix) = Some (comp3 j w)) /\
        body_rate (q (series tau k ix) 0%nat) (nth m ts 0) w' /\ vnorm (vsub w w') <= 4 * ((1 + rho) ^ 2 * M * H ^ 3)).
Proof.
  intros deriv a ts axis time_axis k tau q M H rho HS Hinc Hk Ht Hne Hax Hta H4 HN HQ Hdat HG.
  set (get := fun G c m j => match deriv (map (fun m => comp4 j (q c 0%nat (nth m ts 0))) G) (map (fun m => nth m ts 0) G) with Ok l => nth (pos_in m G) l 0 | Raise _ => 0 end).
  assert (Good : forall G c j, StronglySorted lt G -> (forall m, In m G <-> (m < List.length ts)%nat /\ ~ nan_at a tau m) -> (j < 4)%nat ->
    deriv (map (fun m => comp4 j (q c 0%nat (nth m ts 0))) G) (map (fun m => nth m ts 0) G) = Ok (map (fun m => get G c m j) G) /\
    forall m, In m G -> Rabs (get G c m j - comp4 j (q c 1%nat (nth m ts 0))) <= (1 + rho) ^ 2 * M * H ^ 3).
  { intros G c j HSo HM Hj. destruct (HG (map (fun m => nth m ts 0) G)) as (L4 & SP & EF & EL); [exists G; auto|].
    assert (Hi : increasing (map (fun m => nth m ts 0) G)) by (apply sorted_inc; [exact Hinc|exact HSo|intros m Hm; apply HM, Hm]).
    destruct (HS (map (fun m => comp4 j (q c 0%nat (nth m ts 0))) G) (map (fun m => nth m ts 0) G)) as (ms & Ed & Sl); [apply strictly_inc, Hi|exact L4|rewrite !map_length; reflexivity|].
    unfold get. rewrite Ed. pose proof (proj1 Sl) as Lm. rewrite map_length in Lm. split; [rewrite pos_in_map; auto|].
    intros m Hm. set (gts := map (fun m => nth m ts 0) G) in *. pose proof (pos_in_lt _ _ Hm) as P.
    assert (EG : nth m ts 0 = nth (pos_in m G) gts 0) by (unfold gts; rewrite pos_in_nth by exact Hm; reflexivity).
    assert (LG : List.length gts = List.length G) by apply map_length.
    rewrite EG. apply (spline_error gts (map (fun m => comp4 j (q c 0%nat (nth m ts 0))) G) ms (fun i t => comp4 j (q c i t)) M H rho).
    - exact Hi.
    - exact L4.
    - exact Sl.
    - intros i Hi'. rewrite LG in Hi'. unfold gts.
      rewrite (nth_indep (map (fun m => nth m ts 0) G) 0 (nth O ts 0)) by (rewrite map_length; exact Hi'). rewrite (map_nth (fun m => nth m ts 0)).
      rewrite (nth_indep (map (fun m => comp4 j (q c 0%nat (nth m ts 0))) G) 0 (comp4 j (q c 0%nat (nth O ts 0)))) by (rewrite map_length; exact Hi'). rewrite (map_nth (fun m => comp4 j (q c 0%nat (nth m ts 0)))). reflexivity.
    - intros i t Hi' _. apply comp_deriv; [exact Hj|]. apply (proj1 (proj2 (HQ c))), Hi'.
    - intros t _. apply (proj2 (proj2 (HQ c))), Hj.
    - intros i Hi'. apply SP, Hi'.
    - exact EF.
    - unfold dt. replace (S (List.length gts - 2)) with (List.length gts - 1)%nat by lia. replace (S (List.length gts - 3)) with (List.length gts - 2)%nat by lia.
      replace (List.length gts - 1 - 1)%nat with (List.length gts - 2)%nat in EL by lia. replace (List.length gts - 1 - 2)%nat with (List.length gts - 3)%nat in EL by lia. exact EL.
    - lia. }
  destruct (angular_values deriv a ts axis time_axis k tau (fun c => q c 0%nat) (fun G c m => Qt (get G c m 0%nat) (get G c m 1%nat) (get G c m 2%nat) (get G c m 3%nat)) Hk Ht Hne Hax Hta H4 HN Hdat) as (b & G & HSo & HM & Hb & Hs & Hv).
  { intros G c j HSo HM Hj. revert j Hj. apply comp4_cases; apply (Good G c); auto; lia. }
  exists b. split; [exact Hb|]. split; [exact Hs|]. intros ix Hix m. destruct (Hv ix Hix) as (H1 & H2). split; [exact H1|].
  intros Hn. set (c := series tau k ix) in *. set (t := nth m ts 0). eexists. exists (rate_of (q c 0%nat t) (q c 1%nat t)). split; [exact (H2 Hn)|].
  split; [apply body_rate_of; [intros; apply HQ|apply (proj1 (proj2 (HQ c))); lia]|].
  assert (Im : In m G). { apply HM. split; [|exact Hn]. apply valid_nth in Hix as (_ & Hix). specialize (Hix tau Ht). unfold m. lia. }
  pose proof (fun j (Hj : (j < 4)%nat) => proj2 (Good G c j HSo HM Hj) m Im) as B.
  apply rate_close; [apply HQ| |apply (B 0%nat); lia|apply (B 1%nat); lia|apply (B 2%nat); lia|apply (B 3%nat); lia].
  eapply Rle_trans; [apply Rabs_pos|apply (B 0%nat); lia].
Qed.
(** What is assumed of the differentiator determines its result, and can be met. *)
Theorem C80_contract : spline_derivative np_derivative /\
  (forall ts fs ms ms', increasing ts -> (4 <= List.length ts)%nat -> spline_slopes ts fs ms -> spline_slopes ts fs ms' -> ms = ms').
Proof.
  split; [exact np_derivative_spline|]. intros ts fs ms ms' Hi Hl (L1 & p1 & S1 & A1 & B1) (L2 & p2 & S2 & A2 & B2).
  set (n := (List.length ts - 1)%nat) in *. pose proof (pos ts Hi) as P. fold n in P.
  destruct (spline_rows ts fs n P ltac:(lia) p1 (fun i => nth i ms 0) S1 A1 B1) as (R1 & F1 & E1). destruct (spline_rows ts fs n P ltac:(lia) p2 (fun i => nth i ms' 0) S2 A2 B2) as (R2 & F2 & E2).
  apply List.nth_ext with (d := 0) (d' := 0); [lia|]. intros i Hi'.
  pose proof (weights ts n P ltac:(lia)) as W. destruct (W 0%nat ltac:(lia)) as (W1 & W2 & W3). destruct (W (n - 2)%nat ltac:(lia)) as (W4 & W5 & W6).
  set (kap := Rmin (lam ts 0) (mu ts (n - 2))). assert (K : 0 < kap <= 1 /\ kap <= lam ts 0 /\ kap <= mu ts (n - 2)).
  { unfold kap. pose proof (Rmin_l (lam ts 0) (mu ts (n - 2))). pose proof (Rmin_r (lam ts 0) (mu ts (n - 2))). pose proof (Rmin_pos _ _ W1 W5). lra. }
  destruct K as (K1 & K2 & K3).
  pose proof (stable n (lam ts) (mu ts) (fun i => nth i ms 0 - nth i ms' 0) 0 kap (fun _ => 0) 0 0 ltac:(lia) W) as T.
  assert (Q : kap ^ 2 * Rabs (nth i ms 0 - nth i ms' 0) <= 3 * 0).
  { apply T; try (rewrite Rabs_R0; lra); try assumption; try lia.
    - intros j Hj. specialize (R1 j Hj). specialize (R2 j Hj). lra.
    - lra.
    - lra.
    - intros _ _. rewrite Rabs_R0. lra. }
  assert (PK : 0 < kap ^ 2) by (apply pow_lt; lra). pose proof (Rabs_pos (nth i ms 0 - nth i ms' 0)) as PA.
  assert (Z : Rabs (nth i ms 0 - nth i ms' 0) = 0) by nra. destruct (Req_dec (nth i ms 0 - nth i ms' 0) 0) as [E|N]; [lra|]. apply Rabs_no_R0 in N. contradiction.
Qed.
(** So every accuracy is reached by sampling densely enough. *)
Lemma small_step A eps n : 0 <= A -> 0 < eps -> exists H, 0 < H /\ A * H ^ S n <= eps.
Proof.
  intros HA He. set (H := Rmin 1 (eps / (A + 1))). assert (0 < H) by (apply Rmin_pos; [lra|apply Rdiv_lt_0_compat; lra]).
  exists H. split; [assumption|]. assert (H1 : H <= 1) by apply Rmin_l. assert (H2 : H <= eps / (A + 1)) by apply Rmin_r.
  assert (HP : H ^ S n <= H). { change (H ^ S n) with (H * H ^ n). assert (H ^ n <= 1 ^ n) by (apply pow_incr; lra). rewrite pow1 in *. assert (0 <= H ^ n) by (apply pow_le; lra). nra. }
  assert (H3 : (A + 1) * H <= eps). { apply (Rmult_le_compat_l (A + 1)) in H2; [|lra]. replace ((A + 1) * (eps / (A + 1))) with eps in H2 by (field; lra). exact H2. }
  assert (A * H ^ S n <= A * H) by (apply Rmult_le_compat_l; lra). lra.
Qed.
Theorem C80_linear_converges : forall M2 M3 eps, 0 < eps -> exists H, 0 < H /\
  forall (a : nd R) axis time_axis ts tau sh (x : list nat -> nat -> R -> R),
  increasing ts -> (2 <= List.length ts)%nat -> spaced_by ts H ->
  shp a = put tau (List.length ts) sh -> (tau <= List.length sh)%nat ->
  time_is time_axis tau (ndim a) -> axis_not axis tau (ndim a) ->
  (forall c, valid sh c -> derivatives (x c) 3 /\ forall t, Rabs (x c 2%nat t) <= M2 /\ Rabs (x c 3%nat t) <= M3) ->
  (forall c m, valid sh c -> (m < List.length ts)%nat -> dat a (put tau m c) = x c 0%nat (nth m ts 0)) ->
  exists b, estimate_linear_velocity a axis ts time_axis = Ok b /\
    forall c m, valid sh c -> (m < List.length ts)%nat -> Rabs (dat b (put tau m c) - x c 1%nat (nth m ts 0)) <= eps.
Proof.
  intros M2 M3 eps He. destruct (small_step (Rabs M2 + Rabs M3) eps 0 ltac:(pose proof (Rabs_pos M2); pose proof (Rabs_pos M3); lra) He) as (H0 & P0 & B0).
  exists (Rmin 1 H0). set (H := Rmin 1 H0). assert (PH : 0 < H) by (apply Rmin_pos; lra). split; [exact PH|].
  intros a axis time_axis ts tau sh x Hi H2 HH Hs Hk Ht Ha Hx Hf.
  destruct (C80_linear a axis time_axis ts tau sh x M2 M3 H Hi H2 HH Hs Hk Ht Ha Hx Hf) as (b & Hb & _ & Hv). exists b. split; [exact Hb|].
  intros c m Hc Hm. eapply Rle_trans; [apply Hv; assumption|].
  assert (H <= 1) by apply Rmin_l. assert (H <= H0) by apply Rmin_r. pose proof (Rle_abs M2). pose proof (Rle_abs M3). pose proof (Rabs_pos M2). pose proof (Rabs_pos M3). rewrite pow_1 in B0.
  assert (Rabs M2 * H <= eps /\ Rabs M3 * H <= eps) by (split; nra). destruct (Nat.eqb m 0 || Nat.eqb (S m) (List.length ts)).
  - assert (M2 * H <= Rabs M2 * H) by (apply Rmult_le_compat_r; lra). assert (0 <= Rabs M2 * H) by (apply Rmult_le_pos; lra). lra.
  - replace (H ^ 2) with (H * H) by ring. assert (M3 * (H * H) <= Rabs M3 * H).
    { apply Rle_trans with (Rabs M3 * (H * H)); [apply Rmult_le_compat_r; nra|]. apply Rmult_le_compat_l; nra. }
    assert (0 <= Rabs M3 * H) by (apply Rmult_le_pos; lra). lra.
Qed.
Theorem C80_angular_converges : forall M rho eps, 0 < eps -> exists H, 0 < H /\
  forall deriv (a : nd (option R)) ts axis time_axis k tau (q : list nat -> nat -> R -> quat),
  spline_derivative deriv -> increasing ts ->
  (k < ndim a)%nat -> (tau < ndim a)%nat -> k <> tau -> axis_is axis k (ndim a) -> axis_is time_axis tau (ndim a) ->
  nth k (shp a) O = 4%nat -> nth tau (shp a) O = List.length ts ->
  (forall c, (forall t, hunit (q c 0%nat t)) /\ qderivatives (q c) 4 /\ forall t j, (j < 4)%nat -> Rabs (comp4 j (q c 4%nat t)) <= M) ->
  (forall ix, valid (shp a) ix -> ~ nan_at a tau (nth tau ix O) ->
     dat a ix = Some (comp4 (nth k ix O) (q (series tau k ix) 0%nat (nth (nth tau ix O) ts 0)))) ->
  (forall gts, clean_times a tau ts gts -> (4 <= List.length gts)%nat /\ spaced_by gts H /\ even_ends gts rho) ->
  exists b, estimate_angular deriv a ts axis time_axis = Ok b /\
  forall ix, valid (shp a) ix -> ~ nan_at a tau (nth tau ix O) ->
    exists w w', (forall j, (j < 3)%nat -> dat b (setn k j ix) = Some (comp3 j w)) /\
      body_rate (q (series tau k ix) 0%nat) (nth (nth tau ix O) ts 0) w' /\ vnorm (vsub w w') <= eps.
Proof.
  intros M rho eps He. destruct (small_step (4 * (1 + rho) ^ 2 * Rabs M) eps 2) as (H & P & B); [|exact He|].
  { apply Rmult_le_pos; [|apply Rabs_pos]. apply Rmult_le_pos; [lra|apply pow2_ge_0]. }
  exists H. split; [exact P|]. intros deriv a ts axis time_axis k tau q HS Hi Hk Ht Hne Hax Hta H4 HN HQ Hdat HG.
  destruct (C80_angular deriv a ts axis time_axis k tau q M H rho HS Hi Hk Ht Hne Hax Hta H4 HN HQ Hdat HG) as (b & Hb & _ & Hv). exists b. split; [exact Hb|].
  intros ix Hix Hn. destruct (Hv ix Hix) as (_ & V). destruct (V Hn) as (w & w' & E & W & L). exists w, w'. split; [exact E|]. split; [exact W|].
  eapply Rle_trans; [exact L|]. eapply Rle_trans; [|exact B]. replace (4 * (1 + rho) ^ 2 * Rabs M * H ^ 3) with (4 * ((1 + rho) ^ 2 * Rabs M * H ^ 3)) by ring.
  apply Rmult_le_compat_l; [lra|]. apply Rmult_le_compat_r; [apply pow_le; lra|]. apply Rmult_le_compat_l; [apply pow2_ge_0|apply Rle_abs].
Qed.

(** Concrete case: rotation about z with unit rate, sampled at 0, 1/8, 2/8, 3/8, 4/8; the
    third sample is NaN. *)
Definition turn (k : nat) (t : R) : quat := Qt (cos (t / 2 + INR k * (PI / 2)) / 2 ^ k) 0 0 (sin (t / 2 + INR k * (PI / 2)) / 2 ^ k).
Definition eighths : list R := [0; 1/8; 2/8; 3/8; 4/8].
Definition turn_arr : nd (option R) := Nd [5;4]%nat (fun ix =>
  if Nat.eqb (nth 0 ix O) 2 then None else Some (comp4 (nth 1 ix O) (turn 0 (nth (nth 0 ix O) eighths 0)))).
Lemma shift_cos x : cos (x + PI / 2) = - sin x. Proof. rewrite cos_plus, cos_PI2, sin_PI2. ring. Qed.
Lemma shift_sin x : sin (x + PI / 2) = cos x. Proof. rewrite sin_plus, cos_PI2, sin_PI2. ring. Qed.
Lemma turn_derivatives n : qderivatives turn n.
Proof.
  intros k t _. unfold turn. assert (N : 2 ^ k <> 0) by (apply pow_nonzero; lra).
  assert (SH : forall x, x / 2 + INR (S k) * (PI / 2) = (x / 2 + INR k * (PI / 2)) + PI / 2) by (intros; rewrite S_INR; ring).
  split; [|split; [|split]]; cbn [qw qx qy qz].
  - rewrite SH, shift_cos. apply is_derive_Reals. auto_derive; [exact Logic.I|]. change (2 ^ S k) with (2 * 2 ^ k). replace (t * / 2) with (t / 2) by reflexivity. field. exact N.
  - apply derivable_pt_lim_const.
  - apply derivable_pt_lim_const.
  - rewrite SH, shift_sin. apply is_derive_Reals. auto_derive; [exact Logic.I|]. change (2 ^ S k) with (2 * 2 ^ k). replace (t * / 2) with (t / 2) by reflexivity. field. exact N.
Qed.
Lemma turn_nan m : nan_at turn_arr 0 m <-> m = 2%nat.
Proof.
  split.
  - intros (ix & V & E & D). cbn [turn_arr dat] in D. destruct (Nat.eqb_spec (nth 0 ix O) 2); [congruence|discriminate].
  - intros ->. exists [2;0]%nat. split; [|split; reflexivity]. apply in_indices. cbv. tauto.
Qed.
Lemma sorted_unique G G' : StronglySorted lt G -> StronglySorted lt G' -> (forall m, In m G <-> In m G') -> G = G'.
Proof.
  intros HS. revert G'. induction HS as [|x l HS IH F]; intros G' HS' E.
  - destruct G' as [|y l']; [reflexivity|]. destruct (proj2 (E y) (or_introl eq_refl)).
  - destruct HS' as [|y l' HS' F']; [destruct (proj1 (E x) (or_introl eq_refl))|]. rewrite Forall_forall in F, F'.
    assert (x = y).
    { destruct (proj1 (E x) (or_introl eq_refl)) as [Q|Q]; [auto|]. destruct (proj2 (E y) (or_introl eq_refl)) as [Q'|Q']; [auto|]. specialize (F _ Q'). specialize (F' _ Q). lia. }
    subst y. f_equal. apply IH; [exact HS'|]. intros m. split; intros Hm.
    + destruct (proj1 (E m) (or_intror Hm)) as [Q|Q]; [|exact Q]. specialize (F _ Hm). lia.
    + destruct (proj2 (E m) (or_intror Hm)) as [Q|Q]; [|exact Q]. specialize (F' _ Hm). lia.
Qed.
Lemma turn_clean gts : clean_times turn_arr 0 eighths gts -> gts = [0; 1/8; 3/8; 4/8].
Proof.
  intros (G & HS & HM & ->). replace G with [0;1;3;4]%nat; [reflexivity|]. symmetry. apply sorted_unique; [exact HS| |].
  - repeat (constructor; [|repeat constructor; lia]). constructor.
  - intros m. rewrite HM, turn_nan. cbn [List.length eighths In]. lia.
Qed.
Example C80_example : increasing eighths /\
  (forall t, hunit (turn 0 t)) /\ qderivatives turn 4 /\ (forall t j, (j < 4)%nat -> Rabs (comp4 j (turn 4 t)) <= 1 / 16) /\
  (forall ix, valid (shp turn_arr) ix -> ~ nan_at turn_arr 0 (nth 0 ix O) ->
     dat turn_arr ix = Some (comp4 (nth 1 ix O) (turn 0 (nth (nth 0 ix O) eighths 0)))) /\
  (exists gts, clean_times turn_arr 0 eighths gts) /\
  (forall gts, clean_times turn_arr 0 eighths gts -> (4 <= List.length gts)%nat /\ spaced_by gts (1 / 4) /\ even_ends gts 1).
Proof.
  split; [|split; [|split; [|split; [|split; [|split]]]]].
  - intros i j x y Hij Ei Ej. do 5 (destruct i as [|i]; [do 6 (destruct j as [|j]; [try lia; try discriminate Ej; injection Ei as <-; injection Ej as <-; lra|]); destruct j; discriminate Ej|]). destruct i; discriminate Ei.
  - intros t. unfold turn. cbv [hunit hn2 sc ve vdot vx vy vz qw qx qy qz]. change (2 ^ 0) with 1. pose proof (sin2_cos2 (t / 2 + INR 0 * (PI / 2))) as Q. unfold Rsqr in Q. lra.
  - apply turn_derivatives.
  - intros t. set (u := t / 2 + INR 4 * (PI / 2)). apply comp4_cases; cbn [comp4 turn qw qx qy qz]; fold u; try (rewrite Rabs_R0; lra).
    + replace (2 ^ 4) with 16 by ring. pose proof (COS_bound u). apply Rabs_le. lra.
    + replace (2 ^ 4) with 16 by ring. pose proof (SIN_bound u). apply Rabs_le. lra.
  - intros ix V N. cbn [turn_arr dat]. destruct (Nat.eqb_spec (nth 0 ix O) 2) as [E|_]; [|reflexivity]. exfalso. apply N, turn_nan, E.
  - exists [0; 1/8; 3/8; 4/8]. exists [0;1;3;4]%nat. split; [repeat (constructor; [|repeat constructor; lia]); constructor|]. split; [|reflexivity]. intros m. rewrite turn_nan. cbn [List.length eighths In]. lia.
  - intros gts Hg. apply turn_clean in Hg. subst gts. split; [cbn; lia|]. split.
    + intros i Hi. do 3 (destruct i as [|i]; [cbn [nth]; lra|]). cbn in Hi. lia.
    + unfold even_ends. cbn. lra.
Qed.
