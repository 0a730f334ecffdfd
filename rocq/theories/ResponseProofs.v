(** Frequency response of the low-pass filter, continued: the gain of butter, and what
    lfilter computes. *)
From Coq Require Import Reals List Arith Bool ZArith Lia Lra.
From Verif Require Import Base NdArray Velocity Filter FilterProofs FreqProofs.
Import ListNotations.
Open Scope R_scope.

(* ------------------------------------------------------------------ the value of a coefficient list at exp(-i om) *)
Fixpoint re (p : list R) (om : R) : R := match p with [] => 0 | c :: p => c + cos om * re p om - sin om * im p om end
with im (p : list R) (om : R) : R := match p with [] => 0 | c :: p => cos om * im p om + sin om * re p om end.
Definition power (p : list R) (om : R) : R := re p om * re p om + im p om * im p om.
Lemma conv_cos p om th n : conv p (fun m => cos (om * IZR m + th)) n = re p om * cos (om * IZR n + th) + im p om * sin (om * IZR n + th).
Proof.
  revert n. induction p as [|c p IH]; intros n; cbn [conv re im]; [lra|]. rewrite IH, minus_IZR.
  replace (om * (IZR n - 1) + th) with ((om * IZR n + th) - om) by lra. rewrite cos_minus, sin_minus. ring.
Qed.
Lemma conv_sin p om th n : conv p (fun m => sin (om * IZR m + th)) n = re p om * sin (om * IZR n + th) - im p om * cos (om * IZR n + th).
Proof.
  revert n. induction p as [|c p IH]; intros n; cbn [conv re im]; [lra|]. rewrite IH, minus_IZR.
  replace (om * (IZR n - 1) + th) with ((om * IZR n + th) - om) by lra. rewrite cos_minus, sin_minus. ring.
Qed.
Lemma re_im_padd p q om : re (padd p q) om = re p om + re q om /\ im (padd p q) om = im p om + im q om.
Proof. revert q. induction p as [|c p IH]; intros [|e q]; cbn; try (split; lra). destruct (IH q) as (A & B). rewrite A, B. split; ring. Qed.
Lemma re_im_scale k q om : re (map (Rmult k) q) om = k * re q om /\ im (map (Rmult k) q) om = k * im q om.
Proof. induction q as [|e q (A & B)]; cbn; [split; lra|]. rewrite A, B. split; ring. Qed.
Lemma re_im_pmul p q om : re (pmul p q) om = re p om * re q om - im p om * im q om /\ im (pmul p q) om = re p om * im q om + im p om * re q om.
Proof.
  induction p as [|x [|x' p] (A & B)].
  - cbn. split; lra.
  - cbn [pmul]. destruct (re_im_scale x q om) as (-> & ->). cbn. split; ring.
  - change (pmul (x :: x' :: p) q) with (padd (map (Rmult x) q) (0 :: pmul (x' :: p) q)).
    destruct (re_im_padd (map (Rmult x) q) (0 :: pmul (x' :: p) q) om) as (-> & ->). destruct (re_im_scale x q om) as (-> & ->).
    set (P := x' :: p) in *. cbn [re im]. rewrite A, B. split; ring.
Qed.
Lemma power_pmul p q om : power (pmul p q) om = power p om * power q om.
Proof. unfold power. destruct (re_im_pmul p q om) as (-> & ->). ring. Qed.
Lemma power_scale k q om : power (map (Rmult k) q) om = k * k * power q om.
Proof. unfold power. destruct (re_im_scale k q om) as (-> & ->). ring. Qed.

(* ---- with C = cos (om / 2), S = sin (om / 2) ---- *)
Section Half.
  Variables (om C S : R).
  Hypothesis HC : cos om = C * C - S * S.
  Hypothesis HS : sin om = 2 * S * C.
  Hypothesis H1 : C * C + S * S = 1.
  Lemma power_one : power [1; 1] om = 4 * (C * C).
  Proof. unfold power. cbn [re im]. rewrite HC, HS. replace (S * S) with (1 - C * C) by lra. replace (2 * S * C) with (2 * C * S) by ring.
    match goal with |- ?l = _ => replace l with (4 * (C * C) * (C * C) + 4 * (C * C) * (S * S)) by ring end. replace (S * S) with (1 - C * C) by lra. ring. Qed.
  Lemma power_real w : 0 < w -> power (pole_real w) om = 4 * (S * S + w * w * (C * C)) / ((1 + w) * (1 + w)).
  Proof.
    intros Hw. unfold pole_real.
    assert (E : power [1 + w; w - 1] om = 4 * (S * S + w * w * (C * C))).
    { unfold power. cbn [re im]. rewrite HC, HS.
      replace ((1 + w + (C * C - S * S) * (w - 1 + (C * C - S * S) * 0 - 2 * S * C * 0) - 2 * S * C * ((C * C - S * S) * 0 + 2 * S * C * 0))) with (2 * (w * (C * C) + S * S) + (1 - (C * C + S * S)) * (w + 1) ) by ring.
      rewrite H1. replace ((1 - 1) * (w + 1)) with 0 by ring.
      match goal with |- ?l = _ => replace l with (4 * (C * C * (w * w) * (C * C + S * S) + S * S * (C * C + S * S))) by ring end. rewrite H1. ring. }
    replace [1; (w - 1) / (1 + w)] with (map (Rmult (/ (1 + w))) [1 + w; w - 1]) by (cbn; f_equal; [field; lra|f_equal; field; lra]).
    rewrite power_scale, E. field. lra.
  Qed.
  Lemma power_pair w c : 0 < w -> 0 < c -> power (pole_pair w c) om =
    16 * ((S * S) * (S * S) + (w * w * (C * C)) * (w * w * (C * C)) + 2 * (S * S) * (w * w * (C * C)) * (2 * (c * c) - 1)) / ((1 + 2 * w * c + w * w) * (1 + 2 * w * c + w * w)).
  Proof.
    intros Hw Hc. pose proof (pair_pos w c Hw Hc) as Hn. unfold pole_pair. set (n := 1 + 2 * w * c + w * w) in *.
    (* n s(u) = exp(-i om) (X + i Y) *)
    set (X := 4 * (w * w * (C * C) - S * S)). set (Y := 8 * w * c * S * C).
    assert (E : re [n; 2 * (w * w) - 2; 1 - 2 * w * c + w * w] om = cos om * X + sin om * Y /\ im [n; 2 * (w * w) - 2; 1 - 2 * w * c + w * w] om = sin om * X - cos om * Y).
    { cbn [re im]. rewrite HC, HS. unfold X, Y, n.
      assert (S2 : S * S = 1 - C * C) by lra. set (c2 := C * C) in *. split.
      - transitivity ((1 + 2 * w * c + w * w) + (c2 - S * S) * (2 * (w * w) - 2) + ((c2 - S * S) * (c2 - S * S) - 4 * (S * S) * c2) * (1 - 2 * w * c + w * w)); [unfold c2; ring|].
        transitivity ((c2 - S * S) * (4 * (w * w * c2 - S * S)) + 16 * w * c * (S * S) * c2); [|unfold c2; ring]. rewrite S2. ring.
      - transitivity (2 * S * C * ((2 * (w * w) - 2) + 2 * (c2 - S * S) * (1 - 2 * w * c + w * w))); [unfold c2; ring|].
        transitivity (2 * S * C * (4 * (w * w * c2 - S * S) - 4 * w * c * (c2 - S * S))); [|unfold c2; ring]. rewrite S2. ring. }
    assert (P : power [n; 2 * (w * w) - 2; 1 - 2 * w * c + w * w] om = 16 * ((S * S) * (S * S) + (w * w * (C * C)) * (w * w * (C * C)) + 2 * (S * S) * (w * w * (C * C)) * (2 * (c * c) - 1))).
    { unfold power. destruct E as (-> & ->). transitivity ((cos om * cos om + sin om * sin om) * (X * X + Y * Y)); [ring|].
      pose proof (sin2_cos2 om) as T. unfold Rsqr in T. replace (cos om * cos om + sin om * sin om) with 1 by lra. unfold X, Y. ring. }
    replace [1; (2 * (w * w) - 2) / n; (1 - 2 * w * c + w * w) / n] with (map (Rmult (/ n)) [n; 2 * (w * w) - 2; 1 - 2 * w * c + w * w])
      by (cbn; repeat (f_equal; try (field; lra))).
    rewrite power_scale, P. field. lra.
  Qed.
End Half.
(** cos (2 pi / 7), cos (4 pi / 7), cos (6 pi / 7). *)
Lemma heptagon : forall a b c, a = 2 * (cos (PI / 7) * cos (PI / 7)) - 1 -> b = 2 * (cos (2 * PI / 7) * cos (2 * PI / 7)) - 1 -> c = 2 * (cos (3 * PI / 7) * cos (3 * PI / 7)) - 1 ->
  a + b + c = - (1 / 2) /\ a * b + a * c + b * c = - (1 / 2) /\ a * b * c = 1 / 8.
Proof.
  intros a b c Ea Eb Ec. set (t := 2 * PI / 7). pose proof PI_RGT_0 as HP.
  assert (A : a = cos t) by (rewrite Ea; unfold t; replace (2 * PI / 7) with (2 * (PI / 7)) by field; rewrite cos_2a_cos; ring).
  assert (B : b = 2 * (a * a) - 1) by (rewrite Eb, A; reflexivity).
  assert (Cc : c = cos (3 * t)) by (rewrite Ec; unfold t; replace (3 * (2 * PI / 7)) with (2 * (3 * PI / 7)) by field; rewrite cos_2a_cos; ring).
  assert (C3 : cos (3 * t) = 4 * (a * a * a) - 3 * a).
  { replace (3 * t) with (2 * t + t) by ring. rewrite cos_plus, cos_2a_cos, sin_2a, <- A. pose proof (sin2_cos2 t) as T. unfold Rsqr in T. rewrite <- A in T.
    replace (2 * sin t * a * sin t) with (2 * a * (sin t * sin t)) by ring. replace (sin t * sin t) with (1 - a * a) by lra. ring. }
  assert (C4 : cos (3 * t) = 2 * (b * b) - 1).
  { replace (3 * t) with (- (2 * (2 * t)) + 2 * PI) by (unfold t; field). rewrite cos_plus, cos_2PI, sin_2PI, cos_neg, cos_2a_cos, cos_2a_cos, B, <- A. ring. }
  assert (Q : 8 * (a * a * a) + 4 * (a * a) - 4 * a - 1 = 0).
  { assert (P : (a - 1) * (8 * (a * a * a) + 4 * (a * a) - 4 * a - 1) = 0) by (rewrite C3, B in C4; lra).
    apply Rmult_integral in P. destruct P as [P|P]; [|exact P]. exfalso. assert (cos t < 1).
    { rewrite <- cos_0. apply cos_decreasing_1; unfold t; lra. }
    lra. }
  rewrite Cc, C3, B. repeat split; [lra| |].
  - transitivity ((a * a - 1 / 2) * (8 * (a * a * a) + 4 * (a * a) - 4 * a - 1) - 1 / 2); [field|]. rewrite Q. lra.
  - transitivity ((a * a * a - a * a / 2 - a / 2 + 1 / 8) * (8 * (a * a * a) + 4 * (a * a) - 4 * a - 1) + 1 / 8); [field|]. rewrite Q. lra.
Qed.
(** The Butterworth gain: |b / a|^2 = 1 / (1 + (tan (om / 2) / w)^14). *)
Lemma pow7 p q om : power (pmul p q) om = power p om * power q om.
Proof. apply power_pmul. Qed.
Definition ones7 : list R := pmul [1;1] (pmul [1;1] (pmul [1;1] (pmul [1;1] (pmul [1;1] (pmul [1;1] [1;1]))))).
Lemma butter_b_ones w : butter_b w = map (Rmult (butter_gain w)) ones7.
Proof. unfold butter_b, ones7. cbn [pmul padd map]. repeat (f_equal; try lra). Qed.
Lemma butter_power w om : 0 < w -> 0 <= om < PI ->
  0 < power (butter_b w) om /\ power (butter_a w) om = power (butter_b w) om * (1 + (tan (om / 2) / w) ^ 14).
Proof.
  intros Hw Ho. pose proof PI_RGT_0. set (C := cos (om / 2)). set (S := sin (om / 2)).
  assert (HC0 : 0 < C) by (apply cos_gt_0; lra).
  assert (HC : cos om = C * C - S * S) by (replace om with (2 * (om / 2)) at 1 by field; rewrite cos_2a; reflexivity).
  assert (HS : sin om = 2 * S * C) by (replace om with (2 * (om / 2)) at 1 by field; rewrite sin_2a; reflexivity).
  assert (H1 : C * C + S * S = 1) by (pose proof (sin2_cos2 (om / 2)) as T; unfold Rsqr in T; fold C S in T; lra).
  pose proof cos_1_7 as K1. pose proof cos_2_7 as K2. pose proof cos_3_7 as K3.
  pose proof (pair_pos w _ Hw K1) as N1. pose proof (pair_pos w _ Hw K2) as N2. pose proof (pair_pos w _ Hw K3) as N3.
  assert (PB : power (butter_b w) om = butter_gain w * butter_gain w * (4 * (C * C)) ^ 7).
  { rewrite butter_b_ones, power_scale. unfold ones7. rewrite !power_pmul, (power_one om C S HC HS H1). ring. }
  assert (G : 0 < butter_gain w).
  { unfold butter_gain. apply Rdiv_lt_0_compat; [apply pow_lt; exact Hw|]. repeat apply Rmult_lt_0_compat; lra. }
  assert (PB0 : 0 < power (butter_b w) om).
  { rewrite PB. apply Rmult_lt_0_compat; [nra|]. apply pow_lt. nra. }
  split; [exact PB0|]. unfold butter_a. rewrite !power_pmul, (power_real om C S HC HS H1 w Hw), !(power_pair om C S HC HS H1 w) by assumption.
  destruct (heptagon _ _ _ eq_refl eq_refl eq_refl) as (E1 & E2 & E3). rewrite PB. unfold butter_gain, tan. fold C S.
  set (c1 := cos (PI / 7)) in *. set (c2 := cos (2 * PI / 7)) in *. set (c3 := cos (3 * PI / 7)) in *.
  set (k1 := 2 * (c1 * c1) - 1) in *. set (k2 := 2 * (c2 * c2) - 1) in *. set (k3 := 2 * (c3 * c3) - 1) in *.
  set (n1 := 1 + 2 * w * c1 + w * w) in *. set (n2 := 1 + 2 * w * c2 + w * w) in *. set (n3 := 1 + 2 * w * c3 + w * w) in *. clearbody n1 n2 n3 k1 k2 k3.
  set (x := S * S). set (y := w * w * (C * C)).
  assert (ID : (x + y) * ((x * x + y * y + 2 * x * y * k1) * ((x * x + y * y + 2 * x * y * k2) * (x * x + y * y + 2 * x * y * k3))) = x ^ 7 + y ^ 7).
  { set (s := x * x + y * y). set (q := 2 * x * y).
    transitivity ((x + y) * (s ^ 3 + s ^ 2 * q * (k1 + k2 + k3) + s * q ^ 2 * (k1 * k2 + k1 * k3 + k2 * k3) + q ^ 3 * (k1 * k2 * k3))); [ring|].
    rewrite E1, E2, E3. unfold s, q. field. }
  assert (IDC : x ^ 7 + y ^ 7 = w ^ 14 * C ^ 14 * (1 + (S / C / w) ^ 14)) by (unfold x, y; field; lra).
  transitivity (4 * 16 * 16 * 16 * ((x + y) * ((x * x + y * y + 2 * x * y * k1) * ((x * x + y * y + 2 * x * y * k2) * (x * x + y * y + 2 * x * y * k3)))) / ((1 + w) * (1 + w) * (n1 * n1) * (n2 * n2) * (n3 * n3))).
  { fold x y. field. repeat split; lra. }
  rewrite ID, IDC. field. repeat split; lra.
Qed.

(* ------------------------------------------------------------------ steady state *)
(** The steady output for the input cos (om n + th). *)
Lemma steady b a om : 0 < power a om -> exists h1 h2, h1 * h1 + h2 * h2 = power b om / power a om /\
  forall th n, conv a (fun m => h1 * cos (om * IZR m + th) + h2 * sin (om * IZR m + th)) n = conv b (fun m => cos (om * IZR m + th)) n /\
    conv a (fun m => h1 * sin (om * IZR m + th) + - h2 * cos (om * IZR m + th)) n = conv b (fun m => sin (om * IZR m + th)) n.
Proof.
  intros H. set (ra := re a om). set (ia := im a om). set (rb := re b om). set (ib := im b om). set (P := power a om) in *.
  assert (PE : ra * ra + ia * ia = P) by reflexivity.
  exists ((rb * ra + ib * ia) / P), ((ib * ra - rb * ia) / P). split.
  - unfold power. fold rb ib. transitivity ((rb * rb + ib * ib) * (ra * ra + ia * ia) / (P * P)); [field; lra|]. rewrite PE. field. lra.
  - intros th n. split; rewrite conv_lin, ?conv_cos, ?conv_sin; fold ra ia rb ib; set (c := cos (om * IZR n + th)); set (s := sin (om * IZR n + th)).
    + transitivity ((rb * c + ib * s) * (ra * ra + ia * ia) / P); [field; lra|]. rewrite PE. field. lra.
    + transitivity ((rb * s - ib * c) * (ra * ra + ia * ia) / P); [field; lra|]. rewrite PE. field. lra.
Qed.

(* ------------------------------------------------------------------ what lfilter computes *)
Fixpoint stl (X Y : Z -> R) (bs cs zs : list R) (n : nat) : list R :=
  match bs, cs with
  | b :: bs', c :: cs' => (conv bs X (Z.of_nat n - 1) - conv cs Y (Z.of_nat n - 1) + nth n zs 0) :: stl X Y bs' cs' (tl zs) n
  | _, _ => []
  end.
Lemma nth_tl (l : list R) n d : nth n (tl l) d = nth (S n) l d.
Proof. destruct l; [destruct n; reflexivity|reflexivity]. Qed.
Lemma stl_step X Y bs : forall cs zs n, length cs = length bs -> length zs = length bs ->
  shift R Rplus Rmult bs cs (X (Z.of_nat n)) (Y (Z.of_nat n)) (stl X Y bs cs zs n) = stl X Y bs cs zs (S n).
Proof.
  induction bs as [|b bs IH]; intros [|c cs] [|z zs] n Lc Lz; cbn [length] in *; try discriminate; [reflexivity|].
  cbn [stl shift tl]. rewrite (IH cs zs n) by lia. f_equal.
  replace (Z.of_nat (S n) - 1)%Z with (Z.of_nat n) by lia. cbn [conv nth].
  destruct bs as [|b' bs]; destruct cs as [|c' cs]; cbn [length] in *; try discriminate.
  - cbn [stl conv]. destruct zs; [|discriminate]. destruct n; cbn; lra.
  - cbn [stl]. cbn [conv]. lra.
Qed.
Lemma stl_zero X Y bs : (forall n, (n < 0)%Z -> X n = 0) -> (forall n, (n < 0)%Z -> Y n = 0) -> forall cs zs, length cs = length bs -> length zs = length bs -> stl X Y bs cs zs 0 = zs.
Proof.
  intros HX HY. induction bs as [|b bs IH]; intros [|c cs] [|z zs] Lc Lz; cbn [length] in *; try discriminate; [reflexivity|].
  cbn [stl tl]. rewrite IH by lia. f_equal. rewrite !conv_zero by (intros m Hm; (apply HX || apply HY); lia). cbn. lra.
Qed.
Definition after0 (f : nat -> R) (n : Z) : R := if (n <? 0)%Z then 0 else f (Z.to_nat n).
Lemma after0_neg f n : (n < 0)%Z -> after0 f n = 0.
Proof. intros H. unfold after0. apply Z.ltb_lt in H. rewrite H. reflexivity. Qed.
Lemma after0_nat f n : after0 f (Z.of_nat n) = f n.
Proof. unfold after0. destruct (Z.ltb_spec (Z.of_nat n) 0); [lia|]. rewrite Nat2Z.id. reflexivity. Qed.
Lemma skipn_S (l : list R) n : skipn (S n) l = tl (skipn n l).
Proof. revert l. induction n as [|n IH]; intros [|x l]; cbn; auto. rewrite <- IH. destruct l; reflexivity. Qed.
Lemma lfilter_conv b a zs xs : (2 <= length b)%nat -> length a = length b -> hd 0 a = 1 -> S (length zs) = length b ->
  let X := after0 (fun n => nth n xs 0) in let Y := after0 (fun n => nth n (lfilter R Rplus Rmult b a zs xs) 0) in
  forall n, (n < length xs)%nat -> conv a Y (Z.of_nat n) = conv b X (Z.of_nat n) + nth n zs 0.
Proof.
  intros H2 LA HA LZ X Y. destruct b as [|b0 bs]; [cbn in H2; lia|]. destruct a as [|a0 cs]; [discriminate|]. cbn [hd length] in *. subst a0.
  set (out := lfilter R Rplus Rmult (b0 :: bs) (1 :: cs) zs xs) in *.
  assert (HX : forall n, (n < 0)%Z -> X n = 0) by (intros n Hn; apply after0_neg, Hn). assert (HY : forall n, (n < 0)%Z -> Y n = 0) by (intros n Hn; apply after0_neg, Hn).
  assert (G : forall n, (n <= length xs)%nat -> lfilter R Rplus Rmult (b0 :: bs) (1 :: cs) (stl X Y bs cs zs n) (skipn n xs) = skipn n out).
  { induction n as [|n IH]; intros Hn.
    - rewrite stl_zero by (auto; lia). reflexivity.
    - specialize (IH ltac:(lia)). destruct (skipn n xs) as [|x rest] eqn:Es.
      { assert (length (skipn n xs) = 0%nat) by (rewrite Es; reflexivity). rewrite skipn_length in H. lia. }
      assert (Ex : x = X (Z.of_nat n)).
      { unfold X. rewrite after0_nat. rewrite <- (firstn_skipn n xs), Es, app_nth2; rewrite firstn_length_le by lia; [|lia]. rewrite Nat.sub_diag. reflexivity. }
      assert (Er : skipn (S n) xs = rest) by (rewrite skipn_S, Es; reflexivity).
      cbn [lfilter hd tl] in IH. set (y := emit R Rplus Rmult b0 (stl X Y bs cs zs n) x) in *.
      assert (Ey : y = Y (Z.of_nat n)).
      { unfold Y. rewrite after0_nat. rewrite <- (firstn_skipn n out), <- IH. assert (LO : length out = length xs) by apply length_lfilter. rewrite app_nth2; rewrite firstn_length_le by lia; [|lia]. rewrite Nat.sub_diag. reflexivity. }
      rewrite Er. rewrite <- (stl_step X Y bs cs zs n) by lia. rewrite <- Ex, <- Ey.
      rewrite skipn_S, <- IH. reflexivity. }
  intros n Hn. specialize (G n ltac:(lia)). destruct (skipn n xs) as [|x rest] eqn:Es.
  { assert (length (skipn n xs) = 0%nat) by (rewrite Es; reflexivity). rewrite skipn_length in H. lia. }
  assert (Ex : x = X (Z.of_nat n)).
  { unfold X. rewrite after0_nat. rewrite <- (firstn_skipn n xs), Es, app_nth2; rewrite firstn_length_le by lia; [|lia]. rewrite Nat.sub_diag. reflexivity. }
  cbn [lfilter hd tl] in G. set (y := emit R Rplus Rmult b0 (stl X Y bs cs zs n) x) in *.
  assert (Ey : y = Y (Z.of_nat n)).
  { unfold Y. rewrite after0_nat. rewrite <- (firstn_skipn n out), <- G. assert (LO : length out = length xs) by apply length_lfilter. rewrite app_nth2; rewrite firstn_length_le by lia; [|lia]. rewrite Nat.sub_diag. reflexivity. }
  cbn [conv]. rewrite <- Ey, <- Ex. unfold y. destruct bs as [|b' bs]; [cbn in H2; lia|]. destruct cs as [|c' cs]; [discriminate|].
  cbn [stl emit]. lra.
Qed.
