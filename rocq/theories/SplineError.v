(** How far the slopes of the interpolating spline are from the derivative of the
    sampled function. *)
From Coq Require Import Reals List Arith Bool Lia Lra.
From Coquelicot Require Import Coquelicot.
From Verif Require Import Base Squad SquadProofs Taylor Spline SplineProofs TimeProofs.
Import ListNotations.
Open Scope R_scope.

Lemma fact_3 : INR (fact 3) = 6. Proof. cbn [fact]. rewrite INR_IZR_INZ. reflexivity. Qed.
Lemma fact_4 : INR (fact 4) = 24. Proof. cbn [fact]. rewrite INR_IZR_INZ. reflexivity. Qed.
Lemma poly3 f a x : poly f a x 3 = f 0%nat a + f 1%nat a * x + f 2%nat a * x ^ 2 / 2.
Proof. cbn [poly]. replace (INR (fact 0)) with 1 by reflexivity. replace (INR (fact 1)) with 1 by reflexivity. replace (INR (fact 2)) with 2 by (rewrite INR_IZR_INZ; reflexivity). field. Qed.
Lemma poly4 f a x : poly f a x 4 = f 0%nat a + f 1%nat a * x + f 2%nat a * x ^ 2 / 2 + f 3%nat a * x ^ 3 / 6.
Proof. change (poly f a x 4) with (poly f a x 3 + f 3%nat a * x ^ 3 / INR (fact 3)). rewrite poly3, fact_3. reflexivity. Qed.

(** Values and derivatives at a neighbouring point, from those at a. *)
Section Near.
  Variables (F : nat -> R -> R) (lo hi M : R).
  Hypothesis Hc : chain F 4 lo hi.
  Hypothesis Hm : forall t, lo <= t <= hi -> Rabs (F 4%nat t) <= M.
  Lemma near_right a x : 0 <= x -> lo <= a -> a + x <= hi ->
    Rabs (F 0%nat (a + x) - (F 0%nat a + F 1%nat a * x + F 2%nat a * x ^ 2 / 2 + F 3%nat a * x ^ 3 / 6)) <= M * x ^ 4 / 24 /\
    Rabs (F 1%nat (a + x) - (F 1%nat a + F 2%nat a * x + F 3%nat a * x ^ 2 / 2)) <= M * x ^ 3 / 6.
  Proof using Hc Hm.
    intros Hx Ha Hb. split.
    - pose proof (taylor_right 4 F M a (a + x) ltac:(lra)) as T. replace (a + x - a) with x in T by ring. rewrite poly4, fact_4 in T. apply T.
      + intros k t Hk Ht. apply Hc; [exact Hk|lra].
      + intros t Ht. apply Hm. lra.
    - pose proof (taylor_right 3 (fun k => F (S k)) M a (a + x) ltac:(lra)) as T. replace (a + x - a) with x in T by ring. rewrite poly3, fact_3 in T. apply T.
      + intros k t Hk Ht. apply Hc; [lia|lra].
      + intros t Ht. apply Hm. lra.
  Qed.
  Lemma near_left a x : 0 <= x -> lo <= a - x -> a <= hi ->
    Rabs (F 0%nat (a - x) - (F 0%nat a - F 1%nat a * x + F 2%nat a * x ^ 2 / 2 - F 3%nat a * x ^ 3 / 6)) <= M * x ^ 4 / 24 /\
    Rabs (F 1%nat (a - x) - (F 1%nat a - F 2%nat a * x + F 3%nat a * x ^ 2 / 2)) <= M * x ^ 3 / 6.
  Proof using Hc Hm.
    intros Hx Ha Hb. split.
    - pose proof (taylor_left 4 F M a (a - x) ltac:(lra)) as T. replace (a - x - a) with (- x) in T by ring. replace (a - (a - x)) with x in T by ring. rewrite poly4, fact_4 in T.
      replace (F 0%nat a - F 1%nat a * x + F 2%nat a * x ^ 2 / 2 - F 3%nat a * x ^ 3 / 6) with (F 0%nat a + F 1%nat a * - x + F 2%nat a * (- x) ^ 2 / 2 + F 3%nat a * (- x) ^ 3 / 6) by field. apply T.
      + intros k t Hk Ht. apply Hc; [exact Hk|lra].
      + intros t Ht. apply Hm. lra.
    - pose proof (taylor_left 3 (fun k => F (S k)) M a (a - x) ltac:(lra)) as T. replace (a - x - a) with (- x) in T by ring. replace (a - (a - x)) with x in T by ring. rewrite poly3, fact_3 in T.
      replace (F 1%nat a - F 2%nat a * x + F 3%nat a * x ^ 2 / 2) with (F 1%nat a + F 2%nat a * - x + F 3%nat a * (- x) ^ 2 / 2) by field. apply T.
      + intros k t Hk Ht. apply Hc; [lia|lra].
      + intros t Ht. apply Hm. lra.
  Qed.
End Near.

Lemma part u B x : 0 <= x <= 1 -> Rabs u <= B -> Rabs (x * u) <= x * B.
Proof. intros Hx H. rewrite Rabs_mult, (Rabs_right x) by lra. apply Rmult_le_compat_l; lra. Qed.
Lemma abs_div u x B : 0 < x -> Rabs u <= B * x -> Rabs (u / x) <= B.
Proof.
  intros Hx H. unfold Rdiv. rewrite Rabs_mult, (Rabs_right (/ x)) by (apply Rle_ge, Rlt_le, Rinv_0_lt_compat, Hx).
  apply (Rmult_le_reg_r x); [exact Hx|]. rewrite Rmult_assoc, Rinv_l by lra. lra.
Qed.
Lemma cube_le x H : 0 <= x <= H -> x ^ 3 <= H ^ 3. Proof. intros Hx. apply pow_incr. exact Hx. Qed.
(** Residuals of the rows. *)
Section Residual.
  Variables (a b B : R) (f0 f1 f2 d0 d2 g1 g2 g3 : R).
  Hypothesis Ha : 0 < a.
  Hypothesis Hb : 0 < b.
  Hypothesis E0 : Rabs (f0 - (f1 - g1 * a + g2 * a ^ 2 / 2 - g3 * a ^ 3 / 6)) <= B / 24 * a.
  Hypothesis E2 : Rabs (f2 - (f1 + g1 * b + g2 * b ^ 2 / 2 + g3 * b ^ 3 / 6)) <= B / 24 * b.
  Hypothesis K0 : Rabs (d0 - (g1 - g2 * a + g3 * a ^ 2 / 2)) <= B / 6.
  Hypothesis K2 : Rabs (d2 - (g1 + g2 * b + g3 * b ^ 2 / 2)) <= B / 6.
  Let la := b / (a + b).
  Let mb := a / (a + b).
  Lemma la_mb : 0 < la < 1 /\ mb = 1 - la.
  Proof using Ha Hb.
    unfold la, mb. split; [split|].
    - apply Rdiv_lt_0_compat; lra.
    - apply (Rmult_lt_reg_r (a + b)); [lra|]. unfold Rdiv. rewrite Rmult_assoc, Rinv_l by lra. lra.
    - field. lra.
  Qed.
  Lemma inner_residual : Rabs (3 * (la * ((f1 - f0) / a) + mb * ((f2 - f1) / b)) - (la * d0 + 2 * g1 + mb * d2)) <= 7 / 24 * B.
  Proof using Ha Hb E0 E2 K0 K2.
    apply abs_div in E0; [|exact Ha]. apply abs_div in E2; [|exact Hb]. destruct la_mb as (L & Em).
    set (u0 := (f0 - (f1 - g1 * a + g2 * a ^ 2 / 2 - g3 * a ^ 3 / 6)) / a) in *. set (u2 := (f2 - (f1 + g1 * b + g2 * b ^ 2 / 2 + g3 * b ^ 3 / 6)) / b) in *.
    set (k0 := d0 - (g1 - g2 * a + g3 * a ^ 2 / 2)) in *. set (k2 := d2 - (g1 + g2 * b + g3 * b ^ 2 / 2)) in *.
    replace (3 * (la * ((f1 - f0) / a) + mb * ((f2 - f1) / b)) - (la * d0 + 2 * g1 + mb * d2)) with (3 * (mb * u2) - 3 * (la * u0) - la * k0 - mb * k2).
    2:{ unfold la, mb, u0, u2, k0, k2. field. lra. }
    pose proof (part u0 _ la ltac:(lra) E0) as P1. pose proof (part u2 _ mb ltac:(lra) E2) as P2. pose proof (part k0 _ la ltac:(lra) K0) as P3. pose proof (part k2 _ mb ltac:(lra) K2) as P4.
    apply Rabs_le_between in P1, P2, P3, P4. rewrite Em in *. apply Rabs_le. lra.
  Qed.
  Lemma head_residual : Rabs (((3 * a * b + 2 * b ^ 2) * ((f1 - f0) / a) + a ^ 2 * ((f2 - f1) / b)) / (a + b) ^ 2 - (la * d0 + g1)) <= 7 / 24 * B.
  Proof using Ha Hb E0 E2 K0.
    apply abs_div in E0; [|exact Ha]. apply abs_div in E2; [|exact Hb]. destruct la_mb as (L & Em).
    set (u0 := (f0 - (f1 - g1 * a + g2 * a ^ 2 / 2 - g3 * a ^ 3 / 6)) / a) in *. set (u2 := (f2 - (f1 + g1 * b + g2 * b ^ 2 / 2 + g3 * b ^ 3 / 6)) / b) in *.
    set (k0 := d0 - (g1 - g2 * a + g3 * a ^ 2 / 2)) in *.
    replace (((3 * a * b + 2 * b ^ 2) * ((f1 - f0) / a) + a ^ 2 * ((f2 - f1) / b)) / (a + b) ^ 2 - (la * d0 + g1)) with (mb * (mb * u2) - 3 * (mb * (la * u0)) - 2 * (la * (la * u0)) - la * k0).
    2:{ unfold la, mb, u0, u2, k0. field. lra. }
    assert (0 <= B) by (pose proof (Rabs_pos k0); lra).
    pose proof (part u0 _ la ltac:(lra) E0) as P1. pose proof (part u2 _ mb ltac:(lra) E2) as P2. pose proof (part k0 _ la ltac:(lra) K0) as P3.
    pose proof (part _ _ mb ltac:(lra) P2) as P4. pose proof (part _ _ mb ltac:(lra) P1) as P5. pose proof (part _ _ la ltac:(lra) P1) as P6.
    apply Rabs_le_between in P3, P4, P5, P6. rewrite Em in *.
    assert (Q : (1 - la) * ((1 - la) * (B / 24)) + 3 * ((1 - la) * (la * (B / 24))) + 2 * (la * (la * (B / 24))) + la * (B / 6) <= 7 / 24 * B) by nra.
    apply Rabs_le. lra.
  Qed.
End Residual.
Lemma max_index (g : nat -> R) k : exists j, (j <= k)%nat /\ forall i, (i <= k)%nat -> g i <= g j.
Proof.
  induction k as [|k (j & Hj & M)]; [exists 0%nat; split; [lia|intros i Hi; replace i with 0%nat by lia; lra]|].
  destruct (Rle_dec (g (S k)) (g j)) as [H|H].
  - exists j. split; [lia|]. intros i Hi. destruct (Nat.eq_dec i (S k)) as [->|N]; [exact H|apply M; lia].
  - exists (S k). split; [lia|]. intros i Hi. destruct (Nat.eq_dec i (S k)) as [->|N]; [lra|]. specialize (M i ltac:(lia)). lra.
Qed.
(** Small right hand sides, small solution. *)
Section Stable.
  Variables (n : nat) (la mb : nat -> R) (e : nat -> R) (A kap : R) (r : nat -> R) (rh rl : R).
  Hypothesis Hn : (3 <= n)%nat.
  Hypothesis W : forall i, (S i < n)%nat -> 0 < la i /\ 0 < mb i /\ la i + mb i = 1.
  Hypothesis R1 : forall i, (S i < n)%nat -> la i * e i + 2 * e (S i) + mb i * e (S (S i)) = r i.
  Hypothesis RF : la 0%nat * e 0%nat + e 1%nat = rh.
  Hypothesis RL : e (n - 1)%nat + mb (n - 2)%nat * e n = rl.
  Hypothesis B1 : forall i, (S i < n)%nat -> Rabs (r i) <= A.
  Hypothesis BF : Rabs rh <= A.
  Hypothesis BL : Rabs rl <= A.
  Hypothesis Hk : 0 < kap <= 1.
  Hypothesis KF : kap <= la 0%nat.
  Hypothesis KL : kap <= mb (n - 2)%nat.
  Lemma stable_inner i : (1 <= i <= n - 1)%nat -> kap * Rabs (e i) <= 2 * A.
  Proof using All.
    intros Hi. destruct (max_index (fun i => Rabs (e (S i))) (n - 2)) as (j & Hj & M).
    set (E := Rabs (e (S j))) in *. assert (0 <= A) by (pose proof (Rabs_pos rh); lra). pose proof (Rabs_pos (e (S j))) as PE. fold E in PE.
    assert (G : kap * E <= 2 * A).
    { destruct (Nat.eq_dec j 0) as [->|J0].
      - pose proof (R1 0%nat ltac:(lia)) as H1. assert (Q : e 1%nat = r 0%nat - rh - mb 0%nat * e 2%nat) by lra.
        destruct (W 0%nat ltac:(lia)) as (W1 & W2 & W3). pose proof (M 1%nat ltac:(lia)) as M1. cbv beta in M1.
        pose proof (part (e 2%nat) E (mb 0%nat) ltac:(lra) M1) as P. specialize (B1 0%nat ltac:(lia)).
        assert (E <= 2 * A + mb 0%nat * E).
        { unfold E at 1. rewrite Q. apply Rabs_le_between in P, B1, BF. apply Rabs_le. lra. }
        nra.
      - destruct (Nat.eq_dec j (n - 2)) as [->|J1].
        + pose proof (R1 (n - 2)%nat ltac:(lia)) as H1. replace (S (S (n - 2))) with n in H1 by lia. replace (S (n - 2)) with (n - 1)%nat in * by lia.
          assert (Q : e (n - 1)%nat = r (n - 2)%nat - rl - la (n - 2)%nat * e (n - 2)%nat) by lra.
          destruct (W (n - 2)%nat ltac:(lia)) as (W1 & W2 & W3). pose proof (M (n - 3)%nat ltac:(lia)) as M1. cbv beta in M1. replace (S (n - 3)) with (n - 2)%nat in M1 by lia.
          pose proof (part (e (n - 2)%nat) E (la (n - 2)%nat) ltac:(lra) M1) as P. specialize (B1 (n - 2)%nat ltac:(lia)).
          assert (E <= 2 * A + la (n - 2)%nat * E).
          { unfold E at 1. replace (S (n - 2)) with (n - 1)%nat by lia. rewrite Q. apply Rabs_le_between in P, B1, BL. apply Rabs_le. lra. }
          nra.
        + pose proof (R1 j ltac:(lia)) as H1. destruct (W j ltac:(lia)) as (W1 & W2 & W3).
          pose proof (M (S j) ltac:(lia)) as M1. pose proof (M (j - 1)%nat ltac:(lia)) as M2. cbv beta in M1, M2. replace (S (j - 1)) with j in M2 by lia.
          pose proof (part _ E (la j) ltac:(lra) M2) as P1. pose proof (part _ E (mb j) ltac:(lra) M1) as P2. specialize (B1 j ltac:(lia)).
          assert (2 * E <= A + la j * E + mb j * E).
          { unfold E at 1. replace (2 * Rabs (e (S j))) with (Rabs (2 * e (S j))) by (rewrite Rabs_mult, (Rabs_right 2) by lra; reflexivity). replace (2 * e (S j)) with (r j - la j * e j - mb j * e (S (S j))) by lra.
            apply Rabs_le_between in P1, P2, B1. apply Rabs_le. lra. }
          assert (E <= A) by nra. nra. }
    specialize (M (i - 1)%nat ltac:(lia)). cbv beta in M. replace (S (i - 1)) with i in M by lia. nra.
  Qed.
  Lemma stable i : (i <= n)%nat -> kap ^ 2 * Rabs (e i) <= 3 * A.
  Proof using All.
    intros Hi. assert (0 <= A) by (pose proof (Rabs_pos rh); lra). destruct (Nat.eq_dec i 0) as [->|I0]; [|destruct (Nat.eq_dec i n) as [->|I1]].
    - pose proof (stable_inner 1 ltac:(lia)) as S1. assert (Q : la 0%nat * Rabs (e 0%nat) <= A + Rabs (e 1%nat)).
      { destruct (W 0%nat ltac:(lia)) as (W1 & _). rewrite <- (Rabs_right (la 0%nat)) at 1 by lra. rewrite <- Rabs_mult. replace (la 0%nat * e 0%nat) with (rh + - e 1%nat) by lra.
        eapply Rle_trans; [apply Rabs_triang|]. rewrite Rabs_Ropp. lra. }
      pose proof (Rabs_pos (e 0%nat)). assert (kap * Rabs (e 0%nat) <= A + Rabs (e 1%nat)) by nra. replace (kap ^ 2) with (kap * kap) by ring. nra.
    - pose proof (stable_inner (n - 1) ltac:(lia)) as S1. assert (Q : mb (n - 2)%nat * Rabs (e n) <= A + Rabs (e (n - 1)%nat)).
      { destruct (W (n - 2)%nat ltac:(lia)) as (_ & W1 & _). rewrite <- (Rabs_right (mb (n - 2)%nat)) at 1 by lra. rewrite <- Rabs_mult. replace (mb (n - 2)%nat * e n) with (rl + - e (n - 1)%nat) by lra.
        eapply Rle_trans; [apply Rabs_triang|]. rewrite Rabs_Ropp. lra. }
      pose proof (Rabs_pos (e n)). assert (kap * Rabs (e n) <= A + Rabs (e (n - 1)%nat)) by nra. replace (kap ^ 2) with (kap * kap) by ring. nra.
    - pose proof (stable_inner i ltac:(lia)). pose proof (Rabs_pos (e i)). replace (kap ^ 2) with (kap * kap) by ring. nra.
  Qed.
End Stable.
Lemma inc_between ts i : increasing ts -> (i < length ts)%nat -> nth 0 ts 0 <= nth i ts 0 <= nth (length ts - 1) ts 0.
Proof.
  intros Hi Hl. split.
  - destruct i; [lra|]. apply Rlt_le, increasing_nth; [exact Hi|lia].
  - destruct (Nat.eq_dec i (length ts - 1)) as [->|N]; [lra|]. apply Rlt_le, increasing_nth; [exact Hi|lia].
Qed.
Section Error.
  Variables (ts fs ms : list R) (F : nat -> R -> R) (M H rho : R).
  Hypothesis Hinc : increasing ts.
  Hypothesis Hlen : (4 <= length ts)%nat.
  Hypothesis Hms : spline_slopes ts fs ms.
  Hypothesis Hf : forall i, (i < length ts)%nat -> nth i fs 0 = F 0%nat (nth i ts 0).
  Hypothesis Hc : chain F 4 (nth 0 ts 0) (nth (length ts - 1) ts 0).
  Hypothesis HM : forall t, nth 0 ts 0 <= t <= nth (length ts - 1) ts 0 -> Rabs (F 4%nat t) <= M.
  Hypothesis HH : forall i, (S i < length ts)%nat -> dt ts i <= H.
  Hypothesis HF : dt ts 0 <= rho * dt ts 1.
  Hypothesis HL : dt ts (length ts - 2) <= rho * dt ts (length ts - 3).
  Local Notation n := (length ts - 1)%nat.
  Lemma pos i : (i < n)%nat -> 0 < dt ts i.
  Proof using Hinc. intros Hi. apply dt_pos; [apply strictly_inc; exact Hinc|exact Hi]. Qed.
  Lemma M_pos : 0 <= M.
  Proof using Hinc Hlen HM. pose proof (inc_between ts 0 Hinc ltac:(lia)). specialize (HM (nth 0 ts 0) ltac:(lra)). pose proof (Rabs_pos (F 4%nat (nth 0 ts 0))). lra. Qed.
  Lemma near i : (S (S i) < length ts)%nat -> let a := dt ts i in let b := dt ts (S i) in
    let f j := nth j fs 0 in let g k := F k (nth (S i) ts 0) in let B := M * H ^ 3 in
    Rabs (f i - (f (S i) - g 1%nat * a + g 2%nat * a ^ 2 / 2 - g 3%nat * a ^ 3 / 6)) <= B / 24 * a /\
    Rabs (f (S (S i)) - (f (S i) + g 1%nat * b + g 2%nat * b ^ 2 / 2 + g 3%nat * b ^ 3 / 6)) <= B / 24 * b /\
    Rabs (F 1%nat (nth i ts 0) - (g 1%nat - g 2%nat * a + g 3%nat * a ^ 2 / 2)) <= B / 6 /\
    Rabs (F 1%nat (nth (S (S i)) ts 0) - (g 1%nat + g 2%nat * b + g 3%nat * b ^ 2 / 2)) <= B / 6.
  Proof using Hinc Hf Hc HM HH Hlen.
    intros Hi. cbv beta zeta. rewrite !Hf by lia. pose proof (pos i ltac:(lia)) as A. pose proof (pos (S i) ltac:(lia)) as B. pose proof M_pos as PM.
    pose proof (HH i ltac:(lia)) as HA. pose proof (HH (S i) ltac:(lia)) as HB.
    pose proof (inc_between ts i Hinc ltac:(lia)) as I0. pose proof (inc_between ts (S (S i)) Hinc ltac:(lia)) as I2.
    set (a := dt ts i) in *. set (b := dt ts (S i)) in *. set (t := nth (S i) ts 0).
    assert (T0 : nth i ts 0 = t - a) by (unfold t, a, dt; ring). assert (T2 : nth (S (S i)) ts 0 = t + b) by (unfold t, b, dt; ring). rewrite T0, T2 in *.
    destruct (near_left F _ _ M Hc HM t a ltac:(lra) ltac:(lra) ltac:(lra)) as (L0 & L1). destruct (near_right F _ _ M Hc HM t b ltac:(lra) ltac:(lra) ltac:(lra)) as (G0 & G1).
    pose proof (cube_le a H ltac:(lra)) as CA. pose proof (cube_le b H ltac:(lra)) as CB.
    assert (MA : M * a ^ 3 <= M * H ^ 3) by (apply Rmult_le_compat_l; lra). assert (MB : M * b ^ 3 <= M * H ^ 3) by (apply Rmult_le_compat_l; lra).
    split; [|split; [|split]].
    - eapply Rle_trans; [exact L0|]. replace (M * a ^ 4 / 24) with ((M * a ^ 3) / 24 * a) by field. apply Rmult_le_compat_r; lra.
    - eapply Rle_trans; [exact G0|]. replace (M * b ^ 4 / 24) with ((M * b ^ 3) / 24 * b) by field. apply Rmult_le_compat_r; lra.
    - lra.
    - lra.
  Qed.
  Lemma share a b : 0 < a -> 0 < b -> a <= rho * b -> / (1 + rho) <= b / (a + b) /\ 0 <= rho.
  Proof.
    intros A B L. assert (0 <= rho) by (destruct (Rle_dec 0 rho); [assumption|nra]). split; [|assumption].
    apply (Rmult_le_reg_r (a + b)); [lra|]. unfold Rdiv. rewrite (Rmult_assoc b), Rinv_l, Rmult_1_r by lra.
    apply (Rmult_le_reg_l (1 + rho)); [lra|]. rewrite <- Rmult_assoc, Rinv_r by lra. lra.
  Qed.
  Lemma spline_error i : (i < length ts)%nat -> Rabs (nth i ms 0 - F 1%nat (nth i ts 0)) <= (1 + rho) ^ 2 * M * H ^ 3.
  Proof using All.
    intros Hi. destruct Hms as (Lm & p & HS & S0 & SN). destruct (spline_rows ts fs n pos ltac:(lia) p (fun i => nth i ms 0) HS S0 SN) as (R1 & RF & RL).
    destruct (share (dt ts 0) (dt ts 1) (pos 0 ltac:(lia)) (pos 1 ltac:(lia)) HF) as (KF & Hr).
    pose proof HL as HL'. replace (length ts - 2)%nat with (n - 1)%nat in HL' by lia. replace (length ts - 3)%nat with (n - 2)%nat in HL' by lia.
    destruct (share (dt ts (n - 1)) (dt ts (n - 2)) (pos (n - 1) ltac:(lia)) (pos (n - 2) ltac:(lia)) HL') as (KL & _).
    set (d := fun i => F 1%nat (nth i ts 0)). set (e := fun i => nth i ms 0 - d i). set (B := M * H ^ 3).
    assert (K : (/ (1 + rho)) ^ 2 * Rabs (e i) <= 3 * (7 / 24 * B)).
    { apply (stable n (lam ts) (mu ts) e (7 / 24 * B) (/ (1 + rho))
        (fun i => rhs ts fs i - (lam ts i * d i + 2 * d (S i) + mu ts i * d (S (S i))))
        (head_rhs ts fs - (lam ts 0 * d 0%nat + d 1%nat)) (last_rhs ts fs n - (d (n - 1)%nat + mu ts (n - 2) * d n))).
      - lia.
      - intros j Hj. apply (weights ts n pos ltac:(lia) j Hj).
      - intros j Hj. specialize (R1 j Hj). unfold e. lra.
      - unfold e. lra.
      - unfold e. lra.
      - intros j Hj. destruct (near j ltac:(lia)) as (N1 & N2 & N3 & N4). cbv beta zeta in N1, N2, N3, N4. unfold rhs, lam, mu, slope, d. fold B in N1, N2, N3, N4.
        apply inner_residual with (g2 := F 2%nat (nth (S j) ts 0)) (g3 := F 3%nat (nth (S j) ts 0)); [apply pos; lia|apply pos; lia|exact N1|exact N2|exact N3|exact N4].
      - destruct (near 0 ltac:(lia)) as (N1 & N2 & N3 & N4). cbv beta zeta in N1, N2, N3, N4. unfold head_rhs, lam, slope, d. fold B in N1, N2, N3, N4.
        apply head_residual with (g2 := F 2%nat (nth 1 ts 0)) (g3 := F 3%nat (nth 1 ts 0)); [apply pos; lia|apply pos; lia|exact N1|exact N2|exact N3].
      - destruct (near (n - 2) ltac:(lia)) as (N1 & N2 & N3 & N4). cbv beta zeta in N1, N2, N3, N4. unfold last_rhs, mu, slope, d. cbv zeta. fold B in N1, N2, N3, N4.
        replace (S (S (n - 2))) with n in * by lia. replace (S (n - 2)) with (n - 1)%nat in * by lia. replace (S (n - 1)) with n by lia.
        set (a := dt ts (n - 2)) in *. set (b := dt ts (n - 1)) in *. set (f0 := nth (n - 2) fs 0) in *. set (f1 := nth (n - 1) fs 0) in *. set (f2 := nth n fs 0) in *.
        set (g1 := F 1%nat (nth (n - 1) ts 0)) in *. set (g2 := F 2%nat (nth (n - 1) ts 0)) in *. set (g3 := F 3%nat (nth (n - 1) ts 0)) in *. set (d2 := F 1%nat (nth n ts 0)) in *.
        pose proof (head_residual b a B (- f2) (- f1) (- f0) d2 g1 (- g2) g3 (pos (n - 1) ltac:(lia)) (pos (n - 2) ltac:(lia))) as Q.
        replace (- f2 - (- f1 - g1 * b + - g2 * b ^ 2 / 2 - g3 * b ^ 3 / 6)) with (- (f2 - (f1 + g1 * b + g2 * b ^ 2 / 2 + g3 * b ^ 3 / 6))) in Q by field.
        replace (- f0 - (- f1 + g1 * a + - g2 * a ^ 2 / 2 + g3 * a ^ 3 / 6)) with (- (f0 - (f1 - g1 * a + g2 * a ^ 2 / 2 - g3 * a ^ 3 / 6))) in Q by field.
        replace (d2 - (g1 - - g2 * b + g3 * b ^ 2 / 2)) with (d2 - (g1 + g2 * b + g3 * b ^ 2 / 2)) in Q by field. rewrite !Rabs_Ropp in Q. specialize (Q N2 N1 N4).
        replace (((3 * a * b + 2 * a ^ 2) * ((f2 - f1) / b) + b ^ 2 * ((f1 - f0) / a)) / (a + b) ^ 2 - (g1 + a / (a + b) * d2))
          with (((3 * b * a + 2 * a ^ 2) * ((- f1 - - f2) / b) + b ^ 2 * ((- f0 - - f1) / a)) / (b + a) ^ 2 - (a / (b + a) * d2 + g1)); [exact Q|].
        pose proof (pos (n - 1) ltac:(lia)) as P1. pose proof (pos (n - 2) ltac:(lia)) as P2. fold a in P2. fold b in P1. field. lra.
      - split; [apply Rinv_0_lt_compat; lra|]. rewrite <- Rinv_1. apply Rinv_le_contravar; lra.
      - exact KF.
      - unfold mu. replace (S (n - 2)) with (n - 1)%nat by lia. rewrite (Rplus_comm (dt ts (n - 2))). exact KL.
      - lia. }
    change (nth i ms 0 - F 1%nat (nth i ts 0)) with (e i). pose proof M_pos as PM.
    assert (0 <= H) by (pose proof (pos 0 ltac:(lia)); pose proof (HH 0%nat ltac:(lia)); lra). assert (PB : 0 <= B) by (unfold B; apply Rmult_le_pos; [lra|apply pow_le; assumption]).
    replace ((1 + rho) ^ 2 * M * H ^ 3) with ((1 + rho) ^ 2 * B) by (unfold B; ring).
    replace (Rabs (e i)) with ((1 + rho) ^ 2 * ((/ (1 + rho)) ^ 2 * Rabs (e i))) by (field; lra).
    apply Rmult_le_compat_l; [apply pow_le; lra|lra].
  Qed.
End Error.
