(** Frequency response of the low-pass filter. *)
From Coq Require Import Reals List Arith Bool ZArith Lia Lra Nsatz.
From Verif Require Import Base NdArray Velocity Filter FilterProofs.
Import ListNotations.
Open Scope R_scope.

(* ------------------------------------------------------------------ weighted sums of past values *)
Fixpoint conv (p : list R) (y : Z -> R) (n : Z) : R :=
  match p with [] => 0 | c :: p => c * y n + conv p y (n - 1)%Z end.
Lemma conv_ext p y y' n : (forall m, (m <= n)%Z -> y m = y' m) -> conv p y n = conv p y' n.
Proof. revert n. induction p as [|c p IH]; intros n H; cbn; [reflexivity|]. rewrite H by lia. rewrite (IH (n - 1)%Z); [reflexivity|]. intros m Hm. apply H. lia. Qed.
(** Only the last (length p) values count. *)
Lemma conv_ext_last p y y' n : (forall m, (n - Z.of_nat (length p) < m <= n)%Z -> y m = y' m) -> conv p y n = conv p y' n.
Proof.
  revert n. induction p as [|c p IH]; intros n H; cbn [conv]; [reflexivity|]. cbn [length] in H. rewrite H by lia.
  rewrite (IH (n - 1)%Z); [reflexivity|]. intros m Hm. apply H. lia.
Qed.
Lemma conv_padd p q y n : conv (padd p q) y n = conv p y n + conv q y n.
Proof. revert q n. induction p as [|c p IH]; intros [|e q] n; cbn; try lra. rewrite IH. lra. Qed.
Lemma conv_scale c q y n : conv (map (Rmult c) q) y n = c * conv q y n.
Proof. revert n. induction q as [|e q IH]; intros n; cbn; [lra|]. rewrite IH. lra. Qed.
Lemma conv_pmul p q y n : conv (pmul p q) y n = conv p (conv q y) n.
Proof.
  revert n. induction p as [|x [|x' p] IH]; intros n; [reflexivity|cbn [pmul conv]; rewrite conv_scale; lra|].
  change (pmul (x :: x' :: p) q) with (padd (map (Rmult x) q) (0 :: pmul (x' :: p) q)). rewrite conv_padd, conv_scale.
  change (conv (0 :: pmul (x' :: p) q) y n) with (0 * y n + conv (pmul (x' :: p) q) y (n - 1)%Z). rewrite IH. cbn [conv]. lra.
Qed.
Lemma conv_lin p y y' al be n : conv p (fun m => al * y m + be * y' m) n = al * conv p y n + be * conv p y' n.
Proof. revert n. induction p as [|c p IH]; intros n; cbn; [lra|]. rewrite IH. lra. Qed.
Lemma conv_sub p y y' n : conv p (fun m => y m - y' m) n = conv p y n - conv p y' n.
Proof. revert n. induction p as [|c p IH]; intros n; cbn; [lra|]. rewrite IH. lra. Qed.
Definition mass (p : list R) : R := fold_right (fun c s => Rabs c + s) 0 p.
Lemma mass_pos p : 0 <= mass p.
Proof. induction p as [|c p IH]; cbn; [lra|]. fold (mass p). pose proof (Rabs_pos c). lra. Qed.
Lemma conv_bound p y n M : (forall m, (n - Z.of_nat (length p) < m <= n)%Z -> Rabs (y m) <= M) -> Rabs (conv p y n) <= mass p * M.
Proof.
  revert n. induction p as [|c p IH]; intros n H; cbn [conv mass fold_right]; [rewrite Rabs_R0; lra|]. fold (mass p). cbn [length] in H.
  specialize (IH (n - 1)%Z ltac:(intros m Hm; apply H; lia)). pose proof (H n ltac:(lia)) as Hn.
  eapply Rle_trans; [apply Rabs_triang|]. rewrite Rabs_mult. pose proof (Rabs_pos c). nra.
Qed.
Lemma conv_zero p y n : (forall m, (m <= n)%Z -> y m = 0) -> conv p y n = 0.
Proof. revert n. induction p as [|c p IH]; intros n H; cbn; [reflexivity|]. rewrite H by lia. rewrite IH; [lra|]. intros m Hm. apply H. lia. Qed.

(* ------------------------------------------------------------------ stability *)
(** e[n] <= r e[n-1] + v[n]: bounded by bounded v, and small when v is small. *)
Lemma scalar_bound r M e v N : 0 <= r < 1 -> 0 <= M -> (forall n, (n < 0)%Z -> e n = 0) ->
  (forall n, (0 <= n < N)%Z -> e n <= r * e (n - 1)%Z + v n) -> (forall n, (0 <= n < N)%Z -> v n <= M) ->
  forall n, (n < N)%Z -> e n <= M / (1 - r).
Proof.
  intros Hr HM H0 He Hv. assert (P : 0 <= M / (1 - r)) by (apply Rmult_le_pos; [lra|left; apply Rinv_0_lt_compat; lra]).
  assert (G : forall k n, (n < Z.of_nat k)%Z -> (n < N)%Z -> e n <= M / (1 - r)).
  { induction k as [|k IH]; intros n Hk HN; [rewrite H0 by lia; exact P|]. destruct (Z_lt_le_dec n 0) as [L|L]; [rewrite H0 by lia; exact P|].
    pose proof (IH (n - 1)%Z ltac:(lia) ltac:(lia)) as I. pose proof (He n ltac:(lia)). pose proof (Hv n ltac:(lia)).
    assert (E : M / (1 - r) = r * (M / (1 - r)) + M) by (field; lra). rewrite E. nra. }
  intros n Hn. apply (G (Z.to_nat (n + 1))); lia.
Qed.
Lemma scalar_decay r M eps : 0 <= r < 1 -> 0 <= M -> 0 < eps -> exists n0, (0 <= n0)%Z /\ forall e v N n1 del, 0 <= del -> (0 <= n1)%Z ->
  (forall n, (n < 0)%Z -> e n = 0) -> (forall n, (0 <= n < N)%Z -> e n <= r * e (n - 1)%Z + v n) -> (forall n, (0 <= n < N)%Z -> v n <= M) ->
  (forall n, (n1 <= n < N)%Z -> v n <= del) -> forall n, (n1 + n0 <= n < N)%Z -> e n <= del / (1 - r) + eps.
Proof.
  intros Hr HM Heps. set (E0 := M / (1 - r)). assert (P0 : 0 <= E0) by (apply Rmult_le_pos; [lra|left; apply Rinv_0_lt_compat; lra]).
  destruct (pow_lt_1_zero r ltac:(rewrite Rabs_pos_eq; lra) (eps / (E0 + 1)) ltac:(apply Rdiv_lt_0_compat; lra)) as (k0 & Hk0).
  exists (Z.of_nat k0). split; [lia|]. intros e v N n1 del Hdel Hn1 H0 He Hv Hs.
  pose proof (scalar_bound r M e v N Hr HM H0 He Hv) as B. fold E0 in B.
  assert (PD : 0 <= del / (1 - r)) by (apply Rmult_le_pos; [lra|left; apply Rinv_0_lt_compat; lra]).
  assert (G : forall k, (n1 - 1 + Z.of_nat k < N)%Z -> e (n1 - 1 + Z.of_nat k)%Z <= r ^ k * E0 + del / (1 - r)).
  { induction k as [|k IH]; intros HN.
    - cbn [pow]. replace (n1 - 1 + Z.of_nat 0)%Z with (n1 - 1)%Z by lia. pose proof (B (n1 - 1)%Z ltac:(lia)). lra.
    - pose proof (IH ltac:(lia)) as I. replace (n1 - 1 + Z.of_nat (S k))%Z with (n1 + Z.of_nat k)%Z by lia.
      pose proof (He (n1 + Z.of_nat k)%Z ltac:(lia)) as A. pose proof (Hs (n1 + Z.of_nat k)%Z ltac:(lia)) as A2.
      replace (n1 + Z.of_nat k - 1)%Z with (n1 - 1 + Z.of_nat k)%Z in A by lia.
      assert (E : del / (1 - r) = r * (del / (1 - r)) + del) by (field; lra). set (D := del / (1 - r)) in *. cbn [pow].
      assert (r * e (n1 - 1 + Z.of_nat k)%Z <= r * (r ^ k * E0 + D)) by (apply Rmult_le_compat_l; lra). rewrite E. change (r ^ S k) with (r * r ^ k). lra. }
  intros n Hn. pose proof (G (Z.to_nat (n - n1 + 1)) ltac:(lia)) as A. replace (n1 - 1 + Z.of_nat (Z.to_nat (n - n1 + 1)))%Z with n in A by lia.
  specialize (Hk0 (Z.to_nat (n - n1 + 1)) ltac:(lia)). rewrite Rabs_pos_eq in Hk0 by (apply pow_le; lra).
  assert (r ^ Z.to_nat (n - n1 + 1) * E0 <= eps).
  { apply Rle_trans with (eps / (E0 + 1) * E0); [apply Rmult_le_compat_r; lra|]. apply Rle_trans with (eps / (E0 + 1) * (E0 + 1)); [|right; field; lra].
    apply Rmult_le_compat_l; [|lra]. left. apply Rdiv_lt_0_compat; lra. }
  lra.
Qed.

(** The recursion with feedback coefficients p answers small input with small output. *)
Definition stable (p : list R) : Prop := exists K, 0 <= K /\ forall M eps, 0 <= M -> 0 < eps -> exists n0, (0 <= n0)%Z /\
  forall d N n1 del, 0 <= del -> (0 <= n1)%Z -> (forall n, (n < 0)%Z -> d n = 0) ->
    (forall n, (0 <= n < N)%Z -> Rabs (conv p d n) <= M) ->
    (forall n, (n < N)%Z -> Rabs (d n) <= K * M) /\
    ((forall n, (n1 <= n < N)%Z -> Rabs (conv p d n) <= del) -> forall n, (n1 + n0 <= n < N)%Z -> Rabs (d n) <= K * del + eps).
Lemma stable_pmul p q : stable p -> stable q -> stable (pmul p q).
Proof.
  intros (K1 & P1 & S1) (K2 & P2 & S2). exists (K2 * K1). split; [nra|]. intros M eps HM He.
  set (e1 := eps / (2 * (K2 + 1))). assert (H1 : 0 < e1) by (apply Rdiv_lt_0_compat; lra).
  destruct (S1 M e1 HM H1) as (a1 & A1 & F1). destruct (S2 (K1 * M) (eps / 2) ltac:(nra) ltac:(lra)) as (a2 & A2 & F2).
  exists (a1 + a2)%Z. split; [lia|]. intros d N n1 del Hd Hn1 H0 HB.
  assert (E0 : forall n, (n < 0)%Z -> conv q d n = 0) by (intros n Hn; apply conv_zero; intros m Hm; apply H0; lia).
  assert (HB' : forall n, (0 <= n < N)%Z -> Rabs (conv p (conv q d) n) <= M) by (intros n Hn; rewrite <- conv_pmul; auto).
  destruct (F1 (conv q d) N n1 del Hd Hn1 E0 HB') as (B1 & D1).
  assert (HB2 : forall n, (0 <= n < N)%Z -> Rabs (conv q d n) <= K1 * M) by (intros n Hn; apply B1; lia).
  split.
  - intros n Hn. destruct (F2 d N n1 del Hd Hn1 H0 HB2) as (B2 & _). rewrite Rmult_assoc. apply B2, Hn.
  - intros HS n Hn. destruct (F2 d N (n1 + a1)%Z (K1 * del + e1) ltac:(nra) ltac:(lia) H0 HB2) as (_ & D2).
    assert (HS' : forall m, (n1 <= m < N)%Z -> Rabs (conv p (conv q d) m) <= del) by (intros m Hm; rewrite <- conv_pmul; auto).
    specialize (D2 (D1 HS') n ltac:(lia)). eapply Rle_trans; [exact D2|].
    assert (K2 * e1 <= eps / 2).
    { unfold e1. apply Rle_trans with ((K2 + 1) * (eps / (2 * (K2 + 1)))); [apply Rmult_le_compat_r; [left; exact H1|lra]|]. right. field. lra. }
    lra.
Qed.
Lemma stable_real r : Rabs r < 1 -> stable [1; r].
Proof.
  intros Hr. pose proof (Rabs_pos r) as Hp. exists (/ (1 - Rabs r)). split; [left; apply Rinv_0_lt_compat; lra|]. intros M eps HM He.
  destruct (scalar_decay (Rabs r) M eps ltac:(lra) HM He) as (n0 & P & F). exists n0. split; [exact P|]. intros d N n1 del Hd Hn1 H0 HB.
  assert (E0 : forall n, (n < 0)%Z -> Rabs (d n) = 0) by (intros n Hn; rewrite H0 by exact Hn; apply Rabs_R0).
  assert (E : forall n, (0 <= n < N)%Z -> Rabs (d n) <= Rabs r * Rabs (d (n - 1)%Z) + Rabs (conv [1; r] d n)).
  { intros n _. cbn [conv]. rewrite <- Rabs_mult. replace (d n) with ((1 * d n + (r * d (n - 1)%Z + 0)) + - (r * d (n - 1)%Z)) at 1 by lra.
    eapply Rle_trans; [apply Rabs_triang|]. rewrite Rabs_Ropp. lra. }
  split.
  - intros n Hn. pose proof (scalar_bound (Rabs r) M (fun n => Rabs (d n)) _ N ltac:(lra) HM E0 E HB n Hn) as G. unfold Rdiv in G. lra.
  - intros HS n Hn. pose proof (F (fun n => Rabs (d n)) _ N n1 del Hd Hn1 E0 E HB HS n Hn) as G. unfold Rdiv in G. lra.
Qed.
Lemma norm2_triangle a b x : sqrt ((a + x) * (a + x) + b * b) <= sqrt (a * a + b * b) + Rabs x.
Proof.
  assert (P : 0 <= sqrt (a * a + b * b)) by apply sqrt_pos. pose proof (Rabs_pos x) as Px. apply Rsqr_incr_0_var; [|lra].
  assert (SS : forall u v : R, 0 <= u * u + v * v) by (intros u v; pose proof (Rle_0_sqr u) as U; pose proof (Rle_0_sqr v) as V; unfold Rsqr in U, V; lra).
  unfold Rsqr. rewrite sqrt_sqrt by apply SS. assert (Q : sqrt (a * a + b * b) * sqrt (a * a + b * b) = a * a + b * b) by (apply sqrt_sqrt; apply SS).
  assert (X : Rabs x * Rabs x = x * x) by (rewrite <- Rabs_mult; apply Rabs_pos_eq; nra).
  assert (A : a * x <= sqrt (a * a + b * b) * Rabs x).
  { eapply Rle_trans; [apply Rle_abs|]. rewrite Rabs_mult. apply Rmult_le_compat_r; [exact Px|]. apply Rsqr_incr_0_var; [|exact P]. unfold Rsqr. rewrite Q, <- Rabs_mult, Rabs_pos_eq by nra. nra. }
  nra.
Qed.
Lemma stable_pair al be : 0 <= be < 1 -> al * al <= 4 * be -> stable [1; al; be].
Proof.
  intros Hb Ha. set (r := sqrt be). assert (Hr : 0 <= r < 1).
  { split; [apply sqrt_pos|]. rewrite <- sqrt_1. apply sqrt_lt_1; lra. }
  assert (R2 : r * r = be) by (apply sqrt_sqrt; lra).
  (* the roots are rho +- i sigma *)
  set (rho := - al / 2). set (sg := sqrt (be - al * al / 4)). assert (S2 : sg * sg = be - al * al / 4) by (apply sqrt_sqrt; lra).
  assert (RS : rho * rho + sg * sg = be) by (unfold rho; rewrite S2; field).
  assert (RR : Rabs rho <= r).
  { apply Rsqr_incr_0_var; [|lra]. unfold Rsqr. rewrite <- Rabs_mult, Rabs_pos_eq by nra. rewrite R2. pose proof (Rle_0_sqr sg) as Q. unfold Rsqr in Q. lra. }
  set (K0 := / (1 - r)). assert (PK : 0 < K0) by (apply Rinv_0_lt_compat; lra).
  exists (K0 * K0). split; [nra|]. intros M eps HM He.
  set (e1 := eps / (2 * (K0 + 1))). assert (H1 : 0 < e1) by (apply Rdiv_lt_0_compat; lra).
  destruct (scalar_decay r M e1 Hr HM H1) as (a1 & A1 & F1). destruct (scalar_decay r (K0 * M) (eps / 2) Hr ltac:(nra) ltac:(lra)) as (a2 & A2 & F2).
  exists (a1 + a2)%Z. split; [lia|]. intros d N n1 del Hd Hn1 H0 HB.
  set (v := fun n => sqrt ((d n - rho * d (n - 1)%Z) * (d n - rho * d (n - 1)%Z) + (sg * d (n - 1)%Z) * (sg * d (n - 1)%Z))).
  assert (V0 : forall n, (n < 0)%Z -> v n = 0) by (intros n Hn; unfold v; rewrite !H0 by lia; match goal with |- sqrt ?x = 0 => replace x with 0 by lra end; apply sqrt_0).
  assert (V : forall n, (0 <= n < N)%Z -> v n <= r * v (n - 1)%Z + Rabs (conv [1; al; be] d n)).
  { intros n _. unfold v. cbn [conv]. set (x := d n). set (y := d (n - 1)%Z). set (z := d (n - 1 - 1)%Z). set (u := 1 * x + (al * y + (be * z + 0))).
    assert (XE : x - rho * y = (rho * (y - rho * z) - sg * (sg * z)) + u) by (unfold u; assert (AL : al = - 2 * rho) by (unfold rho; field); rewrite <- RS, AL; ring).
    assert (YE : sg * y = rho * (sg * z) + sg * (y - rho * z)) by ring.
    rewrite XE, YE. eapply Rle_trans; [apply norm2_triangle|]. apply Rplus_le_compat_r.
    assert (EQ : (rho * (y - rho * z) - sg * (sg * z)) * (rho * (y - rho * z) - sg * (sg * z)) + (rho * (sg * z) + sg * (y - rho * z)) * (rho * (sg * z) + sg * (y - rho * z))
       = (r * r) * ((y - rho * z) * (y - rho * z) + (sg * z) * (sg * z))) by (rewrite R2, <- RS; ring).
    rewrite EQ, sqrt_mult, sqrt_square; [lra|lra|nra|].
    pose proof (Rle_0_sqr (y - rho * z)) as U1; pose proof (Rle_0_sqr (sg * z)) as U2; unfold Rsqr in U1, U2. lra. }
  pose proof (scalar_bound r M v _ N Hr HM V0 V HB) as BV. change (M / (1 - r)) with (M * K0) in BV.
  assert (E0 : forall n, (n < 0)%Z -> Rabs (d n) = 0) by (intros n Hn; rewrite H0 by exact Hn; apply Rabs_R0).
  assert (E : forall n, (0 <= n < N)%Z -> Rabs (d n) <= r * Rabs (d (n - 1)%Z) + v n).
  { intros n _. replace (d n) with (rho * d (n - 1)%Z + (d n - rho * d (n - 1)%Z)) at 1 by lra. eapply Rle_trans; [apply Rabs_triang|]. apply Rplus_le_compat.
    - rewrite Rabs_mult. apply Rmult_le_compat_r; [apply Rabs_pos|exact RR].
    - unfold v. set (a := d n - rho * d (n - 1)%Z). set (b := sg * d (n - 1)%Z). rewrite <- sqrt_Rsqr_abs. apply sqrt_le_1_alt. unfold Rsqr. pose proof (Rle_0_sqr b) as U; unfold Rsqr in U. lra. }
  assert (BV' : forall n, (0 <= n < N)%Z -> v n <= K0 * M) by (intros n Hn; rewrite Rmult_comm; apply BV; lia).
  split.
  - intros n Hn. pose proof (scalar_bound r (K0 * M) (fun n => Rabs (d n)) v N Hr ltac:(nra) E0 E BV' n Hn) as G. unfold Rdiv in G. fold K0 in G. lra.
  - intros HS n Hn. assert (DV : forall n, (n1 + a1 <= n < N)%Z -> v n <= K0 * del + e1).
    { intros m Hm. pose proof (F1 v _ N n1 del Hd Hn1 V0 V HB HS m Hm) as G. unfold Rdiv in G. fold K0 in G. lra. }
    pose proof (F2 (fun n => Rabs (d n)) v N (n1 + a1)%Z (K0 * del + e1) ltac:(nra) ltac:(lia) E0 E BV' DV n ltac:(lia)) as G. unfold Rdiv in G. fold K0 in G.
    assert (K0 * e1 <= eps / 2).
    { unfold e1. apply Rle_trans with ((K0 + 1) * (eps / (2 * (K0 + 1)))); [apply Rmult_le_compat_r; [left; exact H1|lra]|]. right. field. lra. }
    lra.
Qed.
Lemma stable_butter w : 0 < w -> stable (butter_a w).
Proof.
  intros Hw. assert (PP : forall c, 0 < c -> c <= 1 -> stable (pole_pair w c)).
  { intros c Hc Hc1. pose proof (pair_pos w c Hw Hc) as Hn. unfold pole_pair. set (n := 1 + 2 * w * c + w * w) in *. apply stable_pair.
    - split; [apply Rmult_le_pos; [assert (0 <= w * (1 - c)) by (apply Rmult_le_pos; lra); pose proof (Rle_0_sqr (1 - w)) as U; unfold Rsqr in U; lra|left; apply Rinv_0_lt_compat; exact Hn]|]. apply (Rmult_lt_reg_r n); [exact Hn|]. unfold Rdiv. rewrite Rmult_assoc, Rinv_l by lra. unfold n. nra.
    - apply (Rmult_le_reg_r (n * n)); [nra|]. replace ((2 * (w * w) - 2) / n * ((2 * (w * w) - 2) / n) * (n * n)) with ((2 * (w * w) - 2) * (2 * (w * w) - 2)) by (field; lra).
      replace (4 * ((1 - 2 * w * c + w * w) / n) * (n * n)) with (4 * (1 - 2 * w * c + w * w) * n) by (field; lra). unfold n.
      assert (0 <= w * w * (1 - c * c)) by (apply Rmult_le_pos; nra). nra. }
  unfold butter_a. repeat apply stable_pmul.
  - apply stable_real. unfold Rabs. destruct (Rcase_abs ((w - 1) / (1 + w))).
    + apply (Rmult_lt_reg_r (1 + w)); [lra|]. replace (- ((w - 1) / (1 + w)) * (1 + w)) with (1 - w) by (field; lra). lra.
    + apply (Rmult_lt_reg_r (1 + w)); [lra|]. replace ((w - 1) / (1 + w) * (1 + w)) with (w - 1) by (field; lra). lra.
  - apply PP; [apply cos_1_7|apply COS_bound].
  - apply PP; [apply cos_2_7|apply COS_bound].
  - apply PP; [apply cos_3_7|apply COS_bound].
Qed.
