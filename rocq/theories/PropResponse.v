(** Property C78, continued: which frequencies the filter keeps. *)
From Coq Require Import Reals List Arith Bool ZArith Lia Lra.
From Verif Require Import Base NdArray NdProofs Transform Velocity VelProofs PropAngular PropVelocity TimeProofs Filter FilterProofs FreqProofs ResponseProofs PropFilter.
Import ListNotations.
Open Scope R_scope.

Lemma in_nth_bound (l : list R) M n : 0 <= M -> (forall x, In x l -> Rabs x <= M) -> Rabs (nth n l 0) <= M.
Proof. intros HM H. destruct (nth_in_or_default n l 0) as [I|E]; [apply H, I|rewrite E, Rabs_R0; exact HM]. Qed.
Lemma after0_bound f M n : 0 <= M -> (forall k, Rabs (f k) <= M) -> Rabs (after0 f n) <= M.
Proof. intros HM H. unfold after0. destruct (n <? 0)%Z; [rewrite Rabs_R0; exact HM|apply H]. Qed.
(** One pass: bounded, and close to a steady output where the input is close to the
    corresponding steady input. *)
Lemma track w : 0 < w -> exists K, 0 <= K /\ forall M eps, 0 <= M -> 0 < eps -> exists n0 : nat, forall zs xs,
  length zs = 7%nat -> (forall z, In z zs -> Rabs z <= M) -> (forall x, In x xs -> Rabs x <= M) ->
  let out := lfilter R Rplus Rmult (butter_b w) (butter_a w) zs xs in
  (forall y, In y out -> Rabs y <= K * M) /\
  (forall xst yst del N, 0 <= del -> (forall n, Rabs (yst n) <= M) -> (forall n, conv (butter_a w) yst n = conv (butter_b w) xst n) -> (N <= length xs)%nat ->
     (forall n, (24 <= n < N)%nat -> Rabs (nth n xs 0 - xst (Z.of_nat n)) <= del) ->
     forall n, (n0 <= n < N)%nat -> Rabs (nth n out 0 - yst (Z.of_nat n)) <= K * del + eps).
Proof.
  intros Hw. destruct (stable_butter w Hw) as (K0 & PK & ST). pose proof (mass_pos (butter_a w)) as Pa. pose proof (mass_pos (butter_b w)) as Pb.
  set (ma := mass (butter_a w)) in *. set (mb := mass (butter_b w)) in *. exists (K0 * (mb + 1 + ma)). split; [nra|]. intros M eps HM He.
  destruct (ST ((mb + 1 + ma) * M) eps ltac:(nra) He) as (k0 & P0 & F). exists (31 + Z.to_nat k0)%nat. intros zs xs LZ HZ HX out.
  pose proof (butter_unit w Hw) as U. destruct U as (U2 & UL & UH & _).
  pose proof (lfilter_conv (butter_b w) (butter_a w) zs xs U2 UL UH ltac:(rewrite LZ; reflexivity)) as CV. cbv zeta in CV. fold out in CV.
  set (X := after0 (fun n => nth n xs 0)) in *. set (Y := after0 (fun n => nth n out 0)) in *.
  assert (LO : length out = length xs) by apply length_lfilter.
  assert (BX : forall n, Rabs (X n) <= M) by (intros n; apply after0_bound; [exact HM|intros k; apply in_nth_bound; auto]).
  assert (BY : forall n, (0 <= n < Z.of_nat (length xs))%Z -> Rabs (conv (butter_a w) Y n) <= (mb + 1) * M).
  { intros n Hn. rewrite <- (Z2Nat.id n) by lia. rewrite CV by lia. eapply Rle_trans; [apply Rabs_triang|].
    pose proof (conv_bound (butter_b w) X (Z.of_nat (Z.to_nat n)) M ltac:(intros; apply BX)) as A. pose proof (in_nth_bound zs M (Z.to_nat n) HM HZ) as B. fold mb in A. lra. }
  assert (Y0 : forall n, (n < 0)%Z -> Y n = 0) by (intros n Hn; apply after0_neg, Hn).
  split.
  - intros y Hy. destruct (In_nth out y 0 Hy) as (n & Hn & <-). rewrite <- (after0_nat (fun n => nth n out 0)). fold Y.
    destruct (F Y (Z.of_nat (length xs)) 0%Z 0 ltac:(lra) ltac:(lia) Y0) as (B & _).
    { intros m Hm. eapply Rle_trans; [apply BY, Hm|]. nra. }
    rewrite Rmult_assoc. apply B. lia.
  - intros xst yst del N Hdel HY HC HN HS n Hn.
    set (ys0 := fun m => if (m <? 0)%Z then 0 else yst m). set (d := fun m => Y m - ys0 m).
    assert (D0 : forall m, (m < 0)%Z -> d m = 0) by (intros m Hm; unfold d, ys0; rewrite Y0 by exact Hm; apply Z.ltb_lt in Hm; rewrite Hm; lra).
    destruct (F d (Z.of_nat N) 31%Z (mb * del) ltac:(nra) ltac:(lia) D0) as (_ & G).
    { intros m Hm. unfold d. rewrite conv_sub. eapply Rle_trans; [apply Rabs_triang|]. rewrite Rabs_Ropp. pose proof (BY m ltac:(lia)) as A.
      assert (B : Rabs (conv (butter_a w) ys0 m) <= ma * M) by (apply conv_bound; intros k _; unfold ys0; destruct (k <? 0)%Z; [rewrite Rabs_R0; exact HM|apply HY]). lra. }
    specialize (fun H => G H (Z.of_nat n)). assert (E : d (Z.of_nat n) = nth n out 0 - yst (Z.of_nat n)).
    { unfold d, ys0, Y. rewrite after0_nat. destruct (Z.ltb_spec (Z.of_nat n) 0); [lia|reflexivity]. }
    rewrite <- E. eapply Rle_trans; [apply G|].
    + intros m Hm. unfold d. rewrite conv_sub.
      rewrite (conv_ext_last (butter_a w) ys0 yst m).
      2:{ intros k Hk. unfold ys0. change (length (butter_a w)) with 8%nat in Hk. destruct (Z.ltb_spec k 0); [lia|reflexivity]. }
      rewrite HC. rewrite <- (Z2Nat.id m) by lia. rewrite CV by lia. rewrite (nth_overflow zs) by lia. rewrite Rplus_0_r, <- conv_sub.
      apply conv_bound. intros k Hk. change (length (butter_b w)) with 8%nat in Hk. rewrite <- (Z2Nat.id k) by lia. unfold X. rewrite after0_nat. apply HS. lia.
    + lia.
    + assert (mb * del <= (mb + 1 + ma) * del) by nra. nra.
Qed.

Definition gain (wn om : R) : R := 1 / (1 + (tan (om / 2) / tan (PI * wn / 2)) ^ 14).
Lemma last_nth_R (l : list R) : last l 0 = nth (length l - 1) l 0.
Proof.
  induction l as [|a [|b l] IH]; [reflexivity|reflexivity|]. cbn [last length]. cbn [length] in IH.
  replace (S (S (length l)) - 1)%nat with (S (S (length l) - 1)) by lia. cbn [nth]. exact IH.
Qed.
Lemma ext_bound n (x : list R) : (forall y, In y x -> Rabs y <= 1) -> x <> [] -> forall y, In y (odd_ext R Rplus Rmult 0 n x) -> Rabs y <= 3.
Proof.
  intros H N y Hy. assert (RB : forall e u, Rabs e <= 1 -> Rabs u <= 1 -> Rabs (reflect R Rplus Rmult e u) <= 3).
  { intros e u He Hu. unfold reflect. apply Rabs_le. pose proof (Rle_abs e). pose proof (Rle_abs (- e)). pose proof (Rle_abs u). pose proof (Rle_abs (- u)). rewrite Rabs_Ropp in *. lra. }
  unfold odd_ext in Hy. apply in_app_or in Hy. destruct Hy as [Hy|Hy]; [|apply in_app_or in Hy; destruct Hy as [Hy|Hy]].
  - apply in_map_iff in Hy. destruct Hy as (u & <- & Hu). apply in_rev, In_firstn, In_tl in Hu. apply RB; [|auto]. destruct x; [congruence|]. apply H. left. reflexivity.
  - specialize (H y Hy). lra.
  - apply in_map_iff in Hy. destruct Hy as (u & <- & Hu). apply In_firstn, In_tl, in_rev in Hu. apply RB; [|auto]. apply H.
    destruct (exists_last N) as (l' & v & ->). rewrite last_last. apply in_or_app. right. left. reflexivity.
Qed.
Lemma nth_ext_core n (x : list R) m : (n < length x)%nat -> (m < length x)%nat -> nth (n + m) (odd_ext R Rplus Rmult 0 n x) 0 = nth m x 0.
Proof.
  intros Hn Hm. unfold odd_ext. assert (A : length (tl x) = (length x - 1)%nat) by (destruct x; cbn; lia).
  assert (L : length (map (reflect R Rplus Rmult (hd 0 x)) (rev (firstn n (tl x)))) = n) by (rewrite map_length, rev_length, firstn_length; lia).
  rewrite app_nth2; rewrite L; [|lia]. replace (n + m - n)%nat with m by lia. apply app_nth1. exact Hm.
Qed.
Lemma mass_in p c : In c p -> Rabs c <= mass p.
Proof.
  induction p as [|e p IH]; [intros []|]. cbn [mass fold_right In]. fold (mass p). pose proof (mass_pos p). pose proof (Rabs_pos e).
  intros [->|Hc]; [lra|]. specialize (IH Hc). lra.
Qed.
Lemma state_bound zi e E : Rabs e <= E -> forall z, In z (map (fun c => c * e) zi) -> Rabs z <= mass zi * E.
Proof.
  intros He z Hz. apply in_map_iff in Hz. destruct Hz as (c & <- & Hc). apply mass_in in Hc. rewrite Rabs_mult. pose proof (Rabs_pos e). pose proof (Rabs_pos c). nra.
Qed.
Lemma nth_firstn_R (l : list R) n m : (m < n)%nat -> nth m (firstn n l) 0 = nth m l 0.
Proof. revert n m. induction l as [|a l IH]; intros [|n] [|m] H; try lia; try reflexivity. cbn. apply IH. lia. Qed.
Lemma nth_skipn_R (l : list R) n m : nth m (skipn n l) 0 = nth (n + m) l 0.
Proof. revert n. induction l as [|a l IH]; intros [|n]; try reflexivity; [destruct m; reflexivity|apply IH]. Qed.
Lemma response_unit wn om : 0 < wn -> wn < 1 -> 0 <= om < PI -> forall eps, 0 < eps -> exists n0 : nat, forall psi N, (24 < N)%nat ->
  let w := tan (PI * wn / 2) in
  exists out, filtfilt R Rplus Rmult 0 (butter_b w) (butter_a w) (map (fun m => cos (om * INR m + psi)) (seq 0 N)) = Ok out /\
    forall m, (n0 <= m)%nat -> (m + n0 < N)%nat -> Rabs (nth m out 0 - gain wn om * cos (om * INR m + psi)) <= eps.
Proof.
  intros H0 H1 Ho eps He. destruct (butter_ok wn H0 H1) as (_ & Hw). set (w := tan (PI * wn / 2)) in *.
  destruct (butter_power w om Hw Ho) as (PB & PA). assert (TP : 0 <= (tan (om / 2) / w) ^ 14).
  { replace 14%nat with (2 * 7)%nat by reflexivity. rewrite pow_mult. apply pow_le. apply pow2_ge_0. }
  assert (PA0 : 0 < power (butter_a w) om) by (rewrite PA; nra).
  destruct (steady (butter_b w) (butter_a w) om PA0) as (h1 & h2 & Hh & SS).
  assert (HG : h1 * h1 + h2 * h2 = gain wn om) by (rewrite Hh, PA; unfold gain; fold w; generalize dependent ((tan (om / 2) / w) ^ 14); intros T _ TP; field; split; lra).
  set (zi := lfilter_zi (butter_b w) (butter_a w)). assert (LZ : length zi = 7%nat) by reflexivity.
  destruct (track w Hw) as (K & PK & TR). pose proof (mass_pos zi) as PZ. pose proof (Rabs_pos h1). pose proof (Rabs_pos h2).
  set (Mf := 3 + mass zi * 3 + (Rabs h1 + Rabs h2)). assert (PMf : 0 <= Mf) by (unfold Mf; nra).
  set (e1 := eps / (2 * (K + 1))). assert (HE1 : 0 < e1) by (apply Rdiv_lt_0_compat; lra).
  destruct (TR Mf e1 PMf HE1) as (nf & TF).
  assert (PG : 0 <= gain wn om) by (rewrite <- HG; nra).
  set (Mb := K * Mf + mass zi * (K * Mf) + gain wn om). assert (PKM : 0 <= K * Mf) by nra. assert (PMb : 0 <= Mb) by (unfold Mb; nra).
  destruct (TR Mb (eps / 2) PMb ltac:(lra)) as (nb & TB).
  exists (nf + nb)%nat. intros psi N HN. cbv zeta.
  set (x := map (fun m => cos (om * INR m + psi)) (seq 0 N)).
  assert (LX : length x = N) by (unfold x; rewrite map_length, seq_length; reflexivity).
  assert (NX : forall m, (m < N)%nat -> nth m x 0 = cos (om * INR m + psi)).
  { intros m Hm. unfold x. rewrite (nth_indep _ 0 (cos (om * INR 0 + psi))) by (rewrite map_length, seq_length; exact Hm).
    rewrite (map_nth (fun m => cos (om * INR m + psi))), seq_nth by exact Hm. reflexivity. }
  assert (BX : forall y, In y x -> Rabs y <= 1).
  { intros y Hy. apply in_map_iff in Hy. destruct Hy as (m & <- & _). apply Rabs_le. pose proof (COS_bound (om * INR m + psi)). lra. }
  assert (NE : x <> []) by (intros ->; cbn in LX; lia).
  unfold filtfilt. rewrite LX. change (3 * Nat.max (length (butter_a w)) (length (butter_b w)))%nat with 24%nat.
  destruct (Nat.leb_spec N 24); [lia|]. clearbody x.
  fold zi. clearbody zi. set (ext := odd_ext R Rplus Rmult 0 24 x).
  assert (LE : length ext = (N + 48)%nat) by (unfold ext; rewrite length_odd_ext; lia).
  assert (BE : forall y, In y ext -> Rabs y <= 3) by (apply ext_bound; assumption).
  assert (NEx : forall m, (m < N)%nat -> nth (24 + m) ext 0 = cos (om * INR m + psi)) by (intros m Hm; unfold ext; rewrite nth_ext_core by lia; apply NX, Hm).
  clearbody ext. set (y := lfilter R Rplus Rmult (butter_b w) (butter_a w) (map (fun c => c * hd 0 ext) zi) ext).
  set (yr := lfilter R Rplus Rmult (butter_b w) (butter_a w) (map (fun c => c * last y 0) zi) (rev y)).
  eexists. split; [reflexivity|].
  assert (LY : length y = (N + 48)%nat) by (unfold y; rewrite length_lfilter; exact LE).
  assert (LR : length yr = (N + 48)%nat) by (unfold yr; rewrite length_lfilter, rev_length; exact LY).
  assert (M3 : 3 <= Mf) by (unfold Mf; nra).
  assert (HB : Rabs (hd 0 ext) <= 3) by (destruct ext as [|u ext]; [cbn; rewrite Rabs_R0; lra|apply BE; left; reflexivity]).
  (* forward *)
  destruct (TF (map (fun c => c * hd 0 ext) zi) ext) as (BY & SY).
  { rewrite map_length. exact LZ. }
  { intros z Hz. apply (state_bound zi _ 3 HB) in Hz. unfold Mf. lra. }
  { intros u Hu. specialize (BE u Hu). lra. }
  fold y in BY, SY. set (th := psi - 24 * om).
  set (ys := fun n : Z => h1 * cos (om * IZR n + th) + h2 * sin (om * IZR n + th)).
  assert (BH : forall t, Rabs (h1 * cos t + h2 * sin t) <= Rabs h1 + Rabs h2).
  { intros t. eapply Rle_trans; [apply Rabs_triang|]. rewrite !Rabs_mult.
    assert (Rabs (cos t) <= 1) by (apply Rabs_le; pose proof (COS_bound t); lra). assert (Rabs (sin t) <= 1) by (apply Rabs_le; pose proof (SIN_bound t); lra). nra. }
  assert (FW : forall n, (nf <= n < N + 24)%nat -> Rabs (nth n y 0 - ys (Z.of_nat n)) <= e1).
  { intros n Hn. replace e1 with (K * 0 + e1) by ring.
    apply (SY (fun n => cos (om * IZR n + th)) ys 0 (N + 24)%nat); [lra| | |lia| |exact Hn].
    - intros k. eapply Rle_trans; [apply BH|]. unfold Mf. nra.
    - intros k. apply SS.
    - intros k Hk. replace k with (24 + (k - 24))%nat at 1 by lia. rewrite NEx by lia. rewrite minus_INR by lia. rewrite <- INR_IZR_INZ.
      replace (om * (INR k - INR 24) + psi) with (om * INR k + th) by (unfold th; replace (INR 24) with 24 by (rewrite (INR_IZR_INZ 24); reflexivity); ring).
      rewrite Rminus_diag_eq by reflexivity. rewrite Rabs_R0. lra. }
  (* backward *)
  assert (BL : Rabs (last y 0) <= K * Mf) by (rewrite last_nth_R; apply in_nth_bound; assumption).
  destruct (TB (map (fun c => c * last y 0) zi) (rev y)) as (_ & SB).
  { rewrite map_length. exact LZ. }
  { intros z Hz. apply (state_bound zi _ _ BL) in Hz. unfold Mb. lra. }
  { intros u Hu. apply in_rev in Hu. specialize (BY u Hu). unfold Mb. nra. }
  fold yr in SB. set (th' := - (om * (INR N + 47) + th)).
  intros m Hm1 Hm2.
  assert (EQ : nth m (firstn N (skipn 24 (rev yr))) 0 = nth (N + 23 - m) yr 0).
  { rewrite nth_firstn_R by lia. rewrite nth_skipn_R, rev_nth by lia. rewrite LR. f_equal. lia. }
  rewrite EQ.
  assert (GC : gain wn om * cos (om * INR m + psi) = gain wn om * cos (om * IZR (Z.of_nat (N + 23 - m)) + th')).
  { f_equal. rewrite <- INR_IZR_INZ, minus_INR, plus_INR by lia. rewrite <- (cos_neg (om * (_ - _) + th')). f_equal. unfold th', th.
    replace (INR 23) with 23 by (rewrite (INR_IZR_INZ 23); reflexivity). ring. }
  rewrite GC. assert (KE : K * e1 + eps / 2 <= eps).
  { assert (K * e1 <= eps / 2); [|lra]. unfold e1. apply Rmult_le_reg_r with (2 * (K + 1)); [lra|]. replace (K * (eps / (2 * (K + 1))) * (2 * (K + 1))) with (K * eps) by (field; lra). nra. }
  eapply Rle_trans; [|exact KE].
  apply (SB (fun n => h1 * cos (om * IZR n + th') + - h2 * sin (om * IZR n + th')) (fun n => gain wn om * cos (om * IZR n + th')) e1 (N + 48 - nf)%nat); [lra| | | | |lia].
  - intros n. rewrite Rabs_mult, (Rabs_pos_eq _ PG). assert (Rabs (cos (om * IZR n + th')) <= 1) by (apply Rabs_le; pose proof (COS_bound (om * IZR n + th')); lra). unfold Mb. nra.
  - intros n. rewrite conv_lin. destruct (SS th' n) as (S1 & S2). rewrite <- S1, <- S2, <- conv_lin. apply conv_ext. intros k _. rewrite <- HG. ring.
  - rewrite rev_length. lia.
  - intros n Hn. rewrite rev_nth by lia. rewrite LY.
    replace (h1 * cos (om * IZR (Z.of_nat n) + th') + - h2 * sin (om * IZR (Z.of_nat n) + th')) with (ys (Z.of_nat (N + 48 - S n))).
    { apply FW. lia. }
    unfold ys. rewrite <- !INR_IZR_INZ, minus_INR by lia. rewrite S_INR, plus_INR.
    replace (INR 48) with 48 by (rewrite (INR_IZR_INZ 48); reflexivity).
    replace (om * (INR N + 48 - (INR n + 1)) + th) with (- (om * INR n + th')) by (unfold th'; ring). rewrite cos_neg, sin_neg. ring.
Qed.
Lemma scale_hom (A : R) : (forall u v : R, Some (A * (u + v)) = oadd (Some (A * u)) (Some (A * v))) /\ (forall c u : R, Some (A * (c * u)) = omul c (Some (A * u))).
Proof. split; intros; cbn; f_equal; ring. Qed.
(** An oscillation A cos(om m + psi) over the samples m of the series through [ix] comes out
    of the filter as an oscillation with the same frequency and the same phase (filtering
    forwards and backwards does not delay), multiplied with
    1 / (1 + (tan(om/2) / tan(pi wn/2))^14), up to an error that is as small as desired once
    the sample is far enough from both ends; how far depends on the cutoff and the frequency
    only, not on the amplitude, the phase or the number of samples. *)
Theorem C78_gain : forall wn om, 0 < wn -> wn < 1 -> 0 <= om < PI -> forall eps, 0 < eps ->
  exists n0 : nat, forall (g : nd R) f tau ix A psi,
    (tau < ndim g)%nat -> valid (shp g) ix -> low_pass (Some wn) tau (numbers g) = Ok f ->
    (forall m, (m < nth tau (shp g) O)%nat -> dat g (setn tau m ix) = A * cos (om * INR m + psi)) ->
    (n0 <= nth tau ix O)%nat -> (nth tau ix O + n0 < nth tau (shp g) O)%nat ->
    exists y, dat f ix = Some y /\
      Rabs (y - 1 / (1 + (tan (om / 2) / tan (PI * wn / 2)) ^ 14) * (A * cos (om * INR (nth tau ix O) + psi))) <= eps * Rabs A.
Proof.
  intros wn om H0 H1 Ho eps He. destruct (response_unit wn om H0 H1 Ho eps He) as (n0 & RU). exists n0.
  intros g f tau ix A psi Ht Hix Ef HS Hm Hn.
  assert (N : (24 < nth tau (shp g) O)%nat).
  { destruct (Nat.le_gt_cases (nth tau (shp g) O) 24) as [L|L]; [|exact L]. rewrite low_pass_refused in Ef by (right; right; exact L). discriminate. }
  destruct (low_pass_filtered wn tau (numbers g) H0 H1 Ht N) as (f' & Ef' & Ff). rewrite Ef in Ef'. injection Ef' as <-.
  destruct (scale_hom A) as (HA & HM).
  destruct (filtered_hom R Rplus Rmult 0 (fun u => Some (A * u)) wn tau (numbers g) f ix (fun m => cos (om * INR m + psi)) HA HM Ff Ht N Hix) as (ys & E & D).
  { intros m Hm'. cbn [numbers dat]. f_equal. apply HS. exact Hm'. }
  destruct (RU psi (nth tau (shp g) O) N) as (out & E' & B). cbv zeta in E'. cbn [numbers shp] in E. rewrite E in E'. injection E' as <-.
  rewrite D. eexists. split; [reflexivity|]. specialize (B (nth tau ix O) Hm Hn). fold (gain wn om).
  replace (A * nth (nth tau ix O) ys 0 - gain wn om * (A * cos (om * INR (nth tau ix O) + psi))) with ((nth (nth tau ix O) ys 0 - gain wn om * cos (om * INR (nth tau ix O) + psi)) * A) by ring.
  rewrite Rabs_mult. apply Rmult_le_compat_r; [apply Rabs_pos|exact B].
Qed.

(** The factor is 1 for constant series, decreases with the frequency, and is one half at
    the cutoff (wn = 1 is half the sampling rate, that is om = pi). *)
Theorem C78_cutoff : forall wn, 0 < wn -> wn < 1 ->
  let factor om := 1 / (1 + (tan (om / 2) / tan (PI * wn / 2)) ^ 14) in
  factor 0 = 1 /\ factor (PI * wn) = 1 / 2 /\
  (forall om om', 0 <= om -> om < om' -> om' < PI -> 0 < factor om' < factor om).
Proof.
  intros wn H0 H1 factor. destruct (butter_ok wn H0 H1) as (_ & Hw). set (w := tan (PI * wn / 2)) in *. pose proof PI_RGT_0 as PP.
  repeat split.
  - unfold factor. replace (0 / 2) with 0 by lra. rewrite tan_0. fold w. replace (0 / w) with 0 by (field; lra). rewrite pow_i by lia. lra.
  - unfold factor. fold w. replace (w / w) with 1 by (field; lra). rewrite pow1. lra.
  - unfold factor. apply Rdiv_lt_0_compat; [lra|]. fold w. assert (0 <= (tan (om' / 2) / w) ^ 14); [|lra].
    replace 14%nat with (2 * 7)%nat by reflexivity. rewrite pow_mult. apply pow_le. apply pow2_ge_0.
  - unfold factor. fold w. assert (T : tan (om / 2) < tan (om' / 2)) by (apply tan_increasing; lra).
    assert (T0 : 0 <= tan (om / 2)). { destruct H as [L|E]; [left; apply tan_gt_0; lra|]. rewrite <- E. replace (0/2) with 0 by lra. rewrite tan_0. lra. }
    assert (Q0 : 0 <= tan (om / 2) / w) by (apply Rmult_le_pos; [exact T0|left; apply Rinv_0_lt_compat, Hw]).
    assert (Q1 : tan (om / 2) / w < tan (om' / 2) / w) by (apply Rmult_lt_compat_r; [apply Rinv_0_lt_compat, Hw|exact T]).
    assert (Q2 : (tan (om / 2) / w) ^ 14 < (tan (om' / 2) / w) ^ 14).
    { generalize dependent (tan (om / 2) / w). generalize dependent (tan (om' / 2) / w). intros v u P Q.
      assert (S : forall n, u ^ S n < v ^ S n). { induction n as [|n IH]; [cbn; lra|]. change (u * u ^ S n < v * v ^ S n). assert (0 <= u ^ S n) by (apply pow_le; exact P). nra. }
      apply S. }
    assert (Q3 : 0 <= (tan (om / 2) / w) ^ 14) by (apply pow_le, Q0).
    unfold Rdiv at 1 3. apply Rmult_lt_compat_l; [lra|]. apply Rinv_lt_contravar; nra.
Qed.
(** 100 samples of two oscillations, 5 cos(m / 10) and 0, on the first axis. *)
Example C78_gain_example : exists f, low_pass (Some (1/2)) 0 (numbers (Nd [100;2]%nat (fun ix => if Nat.eqb (nth 1 ix O) 0 then 5 * cos (1 / 10 * INR (nth 0 ix O) + 0) else 0))) = Ok f /\
  0 <= 1 / 10 < PI /\ forall m, (m < 100)%nat -> dat (Nd [100;2]%nat (fun ix => if Nat.eqb (nth 1 ix O) 0 then 5 * cos (1 / 10 * INR (nth 0 ix O) + 0) else 0)) (setn 0 m [50;0]%nat) = 5 * cos (1 / 10 * INR m + 0).
Proof.
  set (g := Nd [100;2]%nat _). destruct (low_pass_filtered (1/2) 0 (numbers g)) as (f & E & _); [lra|lra|unfold ndim; cbn [shp numbers g length]; lia|cbn [shp numbers g nth]; lia|].
  exists f. split; [exact E|]. split; [pose proof PI_RGT_0; pose proof PI2_1; unfold PI2 in *; lra|]. intros m _. reflexivity.
Qed.
