(** Property C76: datetime timestamps. *)
From Coq Require Import Reals ZArith List Bool Lia Lra Arith.
From Flocq Require Import Core.
From Verif Require Import Base Frames Matcher SpecLookup TimeProofs NdArray Transform SpecArray NdProofs PropRotate Velocity VelProofs PropVelocity RosMsg PropRosMsg DateTime.
Import ListNotations.
Open Scope R_scope.

(** Timestamps from 2006-07-14 to 2043-01-25. *)
Definition modern (n : Z) : Prop := (2 ^ 60 <= n < 2 ^ 61)%Z.

Local Instance prec53 : Prec_gt_0 53. Proof. reflexivity. Qed.
Lemma modern_R n : modern n -> bpow radix2 60 <= IZR n < bpow radix2 61.
Proof. intros (A & B). change (bpow radix2 60) with (IZR (2 ^ 60)). change (bpow radix2 61) with (IZR (2 ^ 61)). split; [apply IZR_le; auto|apply IZR_lt; auto]. Qed.
Lemma rnd_mono x y : x <= y -> rnd64 x <= rnd64 y.
Proof. intros H. unfold rnd64. apply round_le; auto. apply FLT_exp_valid. apply prec53. apply valid_rnd_N. Qed.
Lemma rnd_err x e : bpow radix2 (e - 1) <= Rabs x < bpow radix2 e -> (-1021 <= e)%Z -> Rabs (rnd64 x - x) <= bpow radix2 (e - 53) / 2.
Proof.
  intros H He. unfold rnd64. pose proof (error_le_half_ulp radix2 (FLT_exp (-1074) 53) (fun x => negb (Z.even x)) x) as E.
  assert (Hx : x <> 0). { intros ->. rewrite Rabs_R0 in H. pose proof (bpow_gt_0 radix2 (e - 1)). lra. }
  rewrite (ulp_neq_0 radix2 _ x Hx) in E. unfold cexp, FLT_exp in E. rewrite (mag_unique radix2 x e H) in E.
  rewrite Z.max_l in E by lia. unfold FLT_exp. lra.
Qed.
Lemma float_err n : modern n -> Rabs (to_float n - IZR n) <= 128.
Proof.
  intros H. apply modern_R in H. unfold to_float. pose proof (bpow_gt_0 radix2 60) as P.
  replace 128 with (bpow radix2 (61 - 53) / 2) by (cbn; lra). apply rnd_err; [|lia].
  rewrite Rabs_pos_eq by lra. exact H.
Qed.
(** Small integers, such as differences of up to 104 days, are exact. *)
Theorem C76_exact : forall n, (Z.abs n <= 2 ^ 53)%Z -> to_float n = IZR n.
Proof.
  intros n H. unfold to_float, rnd64. apply round_generic; [apply valid_rnd_N|].
  destruct (Z.eq_dec (Z.abs n) (2 ^ 53)) as [E|E].
  - apply (generic_format_abs_inv radix2). rewrite <- abs_IZR, E. apply generic_format_FLT_bpow with (e := 53%Z); [apply prec53|lia].
  - apply generic_format_FLT. apply (FLT_spec _ _ _ _ (Float radix2 n 0)); [unfold F2R; cbn; lra|cbn [Fnum]; change (radix2 ^ 53)%Z with (2 ^ 53)%Z; lia|cbn; lia].
Qed.
(** The order of timestamps is never reversed, and timestamps more than 256 ns apart stay
    apart. *)
Theorem C76_order : (forall n m, (n <= m)%Z -> to_float n <= to_float m) /\
  (forall n m, modern n -> modern m -> (256 < m - n)%Z -> to_float n < to_float m) /\
  (forall n, modern n -> Rabs (to_float n - IZR n) <= 128).
Proof.
  split; [intros n m H; apply rnd_mono, IZR_le; auto|]. split; [|exact float_err].
  intros n m Hn Hm H. apply float_err in Hn, Hm. apply Rabs_le_inv in Hn, Hm.
  assert (IZR 256 < IZR (m - n)) by (apply IZR_lt; auto). rewrite minus_IZR in *. lra.
Qed.
(** The cell of a timestamp: everything nearer than 128 ns to a multiple of 256 ns becomes
    that multiple. *)
Lemma float_cell n q : modern n -> (Z.abs (n - 256 * q) < 128)%Z -> to_float n = IZR (256 * q).
Proof.
  intros Hn Hq. pose proof (modern_R n Hn) as B. pose proof (bpow_gt_0 radix2 60) as P.
  unfold to_float, rnd64, round, scaled_mantissa, cexp, FLT_exp.
  rewrite (mag_unique radix2 (IZR n) 61) by (rewrite Rabs_pos_eq by lra; exact B).
  change (Z.max (61 - 53) (-1074)) with 8%Z.
  rewrite (Znearest_imp (fun x => negb (Z.even x)) _ q).
  - unfold F2R. cbn [Fnum Fexp]. rewrite mult_IZR. change (bpow radix2 8) with 256. ring.
  - change (bpow radix2 (- (8))) with (/ 256). replace (IZR n * / 256 - IZR q) with ((IZR n - 256 * IZR q) / 256) by field.
    change 256 with (IZR 256) at 1. rewrite <- mult_IZR, <- minus_IZR. unfold Rdiv. rewrite Rabs_mult, (Rabs_pos_eq (/ 256)) by lra.
    rewrite <- abs_IZR. apply IZR_lt in Hq. lra.
Qed.
(** False of the code: distinct timestamps, up to 254 ns apart, become one. *)
Theorem C76_distinct_refuted : forall q, modern (256 * q) -> modern (256 * q - 127) ->
  (256 * q - 127 < 256 * q + 127)%Z /\ to_float (256 * q - 127) = to_float (256 * q + 127).
Proof.
  intros q H H'. split; [lia|]. assert (Hm : modern (256 * q + 127)).
  { destruct H as (A & B). split; [lia|]. change (2 ^ 61)%Z with (256 * 2 ^ 53)%Z in *. lia. }
  rewrite (float_cell _ q), (float_cell _ q); auto; lia.
Qed.

(* ------------------------------------------------------------------ the monotonicity check *)
Definition at_index (ts : list Z) (i : nat) : Z := nth i ts 0%Z.
Lemma decreasing_spec ts : decreasing_somewhere ts = true <-> exists i, (S i < List.length ts)%nat /\ nth (S i) ts 0 < nth i ts 0.
Proof.
  induction ts as [|a [|b l] IH]; cbn [decreasing_somewhere].
  - split; [discriminate|]. intros (i & H & _). cbn in H. lia.
  - split; [discriminate|]. intros (i & H & _). cbn in H. lia.
  - rewrite orb_true_iff, Rlt_b_true, IH. split.
    + intros [H|(i & H & L)]; [exists 0%nat; cbn; split; [lia|lra]|exists (S i); cbn [List.length] in *; split; [lia|exact L]].
    + intros ([|i] & H & L); [left; cbn in L; lra|right; exists i; cbn [List.length] in *; split; [lia|exact L]].
Qed.
Lemma nth_map_float ts i : (i < List.length ts)%nat -> nth i (map to_float ts) 0 = to_float (at_index ts i).
Proof. intros H. rewrite (nth_indep _ 0 (to_float 0)) by (rewrite map_length; auto). apply map_nth. Qed.
(** Frames and arrays with timestamps in order are accepted, and a timestamp more than
    256 ns before its predecessor is refused ... *)
Theorem C76_check_partial : forall ts n sh,
  ((forall i, (S i < List.length ts)%nat -> (at_index ts i <= at_index ts (S i))%Z) -> List.length ts = n -> dt_check ts (n :: sh) = Ok tt) /\
  ((forall i, (i < List.length ts)%nat -> modern (at_index ts i)) ->
   (exists i, (S i < List.length ts)%nat /\ (256 < at_index ts i - at_index ts (S i))%Z) -> dt_check ts (n :: sh) = Raise ValueError).
Proof.
  intros ts n sh. split.
  - intros H <-. unfold dt_check, check_timestamps. rewrite map_length, Nat.eqb_refl.
    destruct (decreasing_somewhere (map to_float ts)) eqn:E; [|reflexivity]. exfalso.
    apply decreasing_spec in E as (i & Hi & L). rewrite map_length in Hi. rewrite !nth_map_float in L by lia.
    pose proof (proj1 C76_order _ _ (H i Hi)). lra.
  - intros Hm (i & Hi & L). unfold dt_check, check_timestamps.
    replace (decreasing_somewhere (map to_float ts)) with true; [reflexivity|]. symmetry. apply decreasing_spec.
    exists i. rewrite map_length. split; auto. rewrite !nth_map_float by lia. apply (proj1 (proj2 C76_order)); auto. apply Hm. lia.
Qed.
(** ... but a smaller step back may go unnoticed. *)
Theorem C76_check_refuted : forall q sh, modern (256 * q) -> modern (256 * q - 127) ->
  dt_check [(256 * q + 127)%Z; (256 * q - 127)%Z] (2%nat :: sh) = Ok tt.
Proof.
  intros q sh H H'. destruct (C76_distinct_refuted q H H') as (_ & E). unfold dt_check, check_timestamps. cbn [map]. rewrite E.
  cbn [decreasing_somewhere]. replace (Rlt_b _ 0) with false by (symmetry; apply Rlt_b_false; lra). reflexivity.
Qed.

(* ------------------------------------------------------------------ continuous frames *)
(** Consecutive timestamps more than 256 ns apart. *)
Definition spaced (ts : list Z) (d : Z) : Prop :=
  (forall i, (i < List.length ts)%nat -> modern (at_index ts i)) /\
  forall i, (S i < List.length ts)%nat -> (d < at_index ts (S i) - at_index ts i)%Z.
Lemma spaced_lt ts d i j : spaced ts d -> (0 <= d)%Z -> (i < j < List.length ts)%nat -> (d < at_index ts j - at_index ts i)%Z.
Proof.
  intros (_ & H) Hd. induction j as [|j IH]; intros Hij; [lia|]. pose proof (H j ltac:(lia)).
  destruct (Nat.eq_dec i j) as [->|]; [lia|]. specialize (IH ltac:(lia)). lia.
Qed.
Lemma spaced_increasing ts : spaced ts 256 -> increasing (map to_float ts).
Proof.
  intros H i j a b Hij Ha Hb. pose proof (nth_error_Some (map to_float ts) j) as L. rewrite Hb, map_length in L. assert (Hj : (j < List.length ts)%nat) by (apply L; discriminate).
  apply nth_error_nth with (d := 0) in Ha, Hb. rewrite nth_map_float in Ha, Hb by lia. subst.
  apply (proj1 (proj2 C76_order)); try apply H; try lia. apply spaced_lt; auto; lia.
Qed.
Lemma weight_err a b x a' b' x' : a <= x <= b -> 256 < b - a -> a' < b' ->
  Rabs (a' - a) <= 128 -> Rabs (b' - b) <= 128 -> Rabs (x' - x) <= 128 ->
  Rabs ((x' - a') / (b' - a') - (x - a) / (b - a)) <= 512 / (b - a - 256).
Proof.
  intros Hx Hd Hlt Ha Hb Hx'. apply Rabs_le_inv in Ha, Hb, Hx'.
  set (D := b - a) in *. set (D' := b' - a'). set (w := x - a). set (w' := x' - a').
  assert (B1 : Rabs (w' - w) <= 256) by (apply Rabs_le; unfold w, w'; lra).
  assert (B2 : Rabs (D' - D) <= 256) by (apply Rabs_le; unfold D, D'; lra).
  assert (B3 : D - 256 <= D') by (unfold D, D'; lra).
  assert (W : 0 <= w / D <= 1).
  { split; [apply Rmult_le_pos; [unfold w; lra|left; apply Rinv_0_lt_compat; lra]|]. apply (Rmult_le_reg_r D); [lra|]. unfold Rdiv. rewrite Rmult_assoc, Rinv_l by lra. unfold w, D. lra. }
  assert (P : 0 < D') by (unfold D'; lra).
  replace (w' / D' - w / D) with (((w' - w) - w / D * (D' - D)) / D') by (field; lra).
  unfold Rdiv at 1. rewrite Rabs_mult, (Rabs_pos_eq (/ D')) by (left; apply Rinv_0_lt_compat; lra).
  assert (N : Rabs (w' - w - w / D * (D' - D)) <= 512).
  { eapply Rle_trans; [apply Rabs_triang|]. rewrite Rabs_Ropp, Rabs_mult, (Rabs_pos_eq (w / D)) by lra.
    assert (w / D * Rabs (D' - D) <= 1 * 256) by (apply Rmult_le_compat; try lra; apply Rabs_pos). lra. }
  apply Rmult_le_compat; [apply Rabs_pos|left; apply Rinv_0_lt_compat; lra|exact N|]. apply Rinv_le_contravar; lra.
Qed.
Lemma modern_between a b x : modern a -> modern b -> (a <= x <= b)%Z -> modern x.
Proof. unfold modern. lia. Qed.
(** A continuous frame whose samples are more than 256 ns apart is defined at every time
    between its first and last sample; at a sample time its translation is the sample,
    exactly; in between it is the straight line up to the rounding of the times. *)
Theorem C76_interpolation : forall squad ts t r l, spaced ts 256 -> (2 <= List.length ts)%nat -> List.length t = List.length ts ->
  (forall x, In x l -> (at_index ts 0 <= x <= at_index ts (List.length ts - 1))%Z) ->
  (forall x, In x l -> exists q, squad (map to_float ts) r (to_float x) = Ok q) ->
  exists rows, dt_rows squad ts t r false l = Ok rows /\ List.length rows = List.length l /\
  forall k x, nth_error l k = Some x -> exists v q, nth_error rows k = Some (v, q) /\ squad (map to_float ts) r (to_float x) = Ok q /\
    (forall i, (i < List.length ts)%nat -> at_index ts i = x -> nth_error t i = Some v) /\
    (forall i, (S i < List.length ts)%nat -> (at_index ts i <= x <= at_index ts (S i))%Z -> forall u0 u1, nth_error t i = Some u0 -> nth_error t (S i) = Some u1 ->
       let D := IZR (at_index ts (S i)) - IZR (at_index ts i) in
       let line := between (IZR (at_index ts i)) (IZR (at_index ts (S i))) u0 u1 (IZR x) in
       forall c, (c < 3)%nat -> Rabs (comp3 c v - comp3 c line) <= 512 / (D - 256) * Rabs (comp3 c u1 - comp3 c u0)).
Proof.
  intros squad ts t r l Hs H2 Ht Hl Hq. pose proof (spaced_increasing ts Hs) as Hinc.
  assert (Hin : forall x, In x (map to_float l) -> in_bounds (map to_float ts) x = true).
  { intros y Hy. apply in_map_iff in Hy as (x & <- & Hx). destruct (Hl x Hx) as (A & B). apply MovingProofs.in_bounds_spec.
    exists (to_float (at_index ts 0)), (to_float (at_index ts (List.length ts - 1))).
    split; [destruct ts; [cbn in H2; lia|reflexivity]|]. split.
    - rewrite map_length. rewrite (nth_error_nth' _ 0) by (rewrite map_length; lia). rewrite nth_map_float by lia. reflexivity.
    - split; apply (proj1 C76_order); auto. }
  destruct (interp1d_ok (map to_float ts) t (map to_float l) Hinc ltac:(rewrite map_length; auto) ltac:(rewrite map_length; auto) Hin) as (vs & Ev & Lv & Sv & Bv).
  destruct (traverse_ok_ex (squad (map to_float ts) r) (map to_float l)) as (qs & Eq).
  { intros y Hy. apply in_map_iff in Hy as (x & <- & Hx). auto. }
  exists (combine vs qs). unfold dt_rows, rows_from_frame. rewrite Ev. cbn [bind]. rewrite Eq. cbn [bind]. split; [reflexivity|].
  pose proof (traverse_length _ _ _ Eq) as Lq. rewrite map_length in Lv, Lq. split; [rewrite combine_length; lia|].
  intros k x Hx. assert (Hk : (k < List.length l)%nat) by (apply nth_error_Some; rewrite Hx; discriminate).
  destruct (nth_error vs k) as [v|] eqn:Hv; [|apply nth_error_None in Hv; lia]. destruct (nth_error qs k) as [q|] eqn:Hqk; [|apply nth_error_None in Hqk; lia].
  exists v, q. assert (Hxf : nth_error (map to_float l) k = Some (to_float x)) by (apply map_nth_error; auto).
  split. { clear - Hv Hqk. revert qs k Hv Hqk. induction vs as [|v' vs IH]; intros [|q' qs] [|k] Hv Hqk; try discriminate; cbn in *; [congruence|auto]. }
  split. { destruct (proj1 (traverse_nth _ _ _ _ _ Eq) Hqk) as (x' & Hx' & E). congruence. }
  assert (Nf : forall i, (i < List.length ts)%nat -> nth_error (map to_float ts) i = Some (to_float (at_index ts i))).
  { intros i Hi. rewrite (nth_error_nth' _ 0) by (rewrite map_length; lia). rewrite nth_map_float by lia. reflexivity. }
  split.
  - intros i Hi <-. destruct (nth_error t i) as [u|] eqn:Hu; [|apply nth_error_None in Hu; lia].
    rewrite (Sv k _ i u Hxf (Nf i Hi) Hu) in Hv. congruence.
  - intros i Hi Hab u0 u1 Hu0 Hu1. cbv zeta. intros c Hc. set (D := IZR (at_index ts (S i)) - IZR (at_index ts i)).
    assert (Hle : to_float (at_index ts i) <= to_float x <= to_float (at_index ts (S i))) by (split; apply (proj1 C76_order); lia).
    rewrite (Bv k _ i _ _ u0 u1 Hxf (Nf i ltac:(lia)) (Nf (S i) Hi) Hle Hu0 Hu1) in Hv. injection Hv as <-.
    assert (M0 : modern (at_index ts i)) by (apply Hs; lia). assert (M1 : modern (at_index ts (S i))) by (apply Hs; lia).
    pose proof (modern_between _ _ x M0 M1 Hab) as Mx.
    assert (Hd : 256 < D). { pose proof (proj2 Hs i Hi) as G. unfold D. rewrite <- minus_IZR. apply IZR_lt in G. exact G. }
    pose proof (weight_err (IZR (at_index ts i)) (IZR (at_index ts (S i))) (IZR x) (to_float (at_index ts i)) (to_float (at_index ts (S i))) (to_float x)
      ltac:(split; apply IZR_le; lia) Hd ltac:(apply (Hinc i (S i)); [lia|apply Nf; lia|apply Nf; lia]) (float_err _ M0) (float_err _ M1) (float_err _ Mx)) as W.
    fold D in W.
    assert (E : forall a b y, comp3 c (between a b u0 u1 y) = comp3 c u0 + (y - a) / (b - a) * (comp3 c u1 - comp3 c u0)).
    { intros a b y. destruct u0, u1. destruct c as [|[|[|c]]]; [| | |lia]; reflexivity. }
    rewrite !E. match goal with |- Rabs ?z <= _ => replace z with (((to_float x - to_float (at_index ts i)) / (to_float (at_index ts (S i)) - to_float (at_index ts i)) -
      (IZR x - IZR (at_index ts i)) / D) * (comp3 c u1 - comp3 c u0)) by (fold D; ring) end.
    rewrite Rabs_mult. apply Rmult_le_compat_r; [apply Rabs_pos|exact W].
Qed.
(** False of the code for closer samples: strictly increasing timestamps, of which the first
    two become one, make the frame undefined (NaN) at its own first sample. *)
Theorem C76_close_refuted : forall squad q t r, modern (256 * q) -> modern (256 * q + 1000000000) -> List.length t = 3%nat ->
  dt_rows squad [(256 * q)%Z; (256 * q + 1)%Z; (256 * q + 1000000000)%Z] t r false [(256 * q)%Z] = Raise NaNValue.
Proof.
  intros squad q t r H H' Ht. assert (M : modern (256 * q + 1)) by (apply (modern_between _ _ _ H H'); lia).
  assert (E0 : to_float (256 * q) = IZR (256 * q)) by (apply float_cell; auto; lia).
  assert (E1 : to_float (256 * q + 1) = IZR (256 * q)) by (apply float_cell; auto; lia).
  assert (L : IZR (256 * q) < to_float (256 * q + 1000000000)) by (rewrite <- E0; apply (proj1 (proj2 C76_order)); auto; lia).
  unfold dt_rows, rows_from_frame, interp1d. cbn [map]. rewrite E0, E1. set (X := IZR (256 * q)) in *. set (Y := to_float (256 * q + 1000000000)) in *.
  cbn [forallb in_bounds last]. replace (Rle_b X X) with true by (symmetry; apply Rle_b_true; lra). replace (Rle_b X Y) with true by (symmetry; apply Rle_b_true; lra).
  cbn [andb]. unfold traverse. cbn [map sequence]. unfold interp_at, interp_idx, searchsorted. replace (Rlt_b X X) with false by (symmetry; apply Rlt_b_false; lra).
  destruct t as [|t0 [|t1 [|t2 [|]]]]; try discriminate Ht. cbn.
  replace (Req_b X X) with true by (symmetry; apply Req_b_true; reflexivity). reflexivity.
Qed.

(* ------------------------------------------------------------------ seconds *)
Lemma seconds_err n : modern n -> Rabs (seconds n - IZR n / 1000000000) <= 367 / 1000000000.
Proof.
  intros Hn. pose proof (float_err n Hn) as E. pose proof (modern_R n Hn) as (B1 & B2). unfold seconds.
  change (bpow radix2 60) with 1152921504606846976 in B1. change (bpow radix2 61) with 2305843009213693952 in B2.
  apply Rabs_le_inv in E. set (x := to_float n / IZR 1000000000).
  assert (X : 1152921504 < x < 2305843010) by (unfold x; lra).
  assert (E2 : Rabs (rnd64 x - x) <= 1 / 4194304).
  { destruct (Rlt_le_dec x 2147483648) as [L|L].
    - eapply Rle_trans; [apply (rnd_err x 31); [|lia]|cbn; lra]. rewrite Rabs_pos_eq by lra. cbn. lra.
    - eapply Rle_trans; [apply (rnd_err x 32); [|lia]|cbn; lra]. rewrite Rabs_pos_eq by lra. cbn. lra. }
  apply Rabs_le_inv in E2. apply Rabs_le. unfold x in *. lra.
Qed.
(** The gradient is a weighted mean of the slopes on either side. *)
Lemma grad_slopes ts f lo hi i : increasing ts -> (2 <= List.length ts)%nat -> (i < List.length ts)%nat ->
  (forall m, (S m < List.length ts)%nat -> lo <= (f (S m) - f m) / (nth (S m) ts 0 - nth m ts 0) <= hi) -> lo <= grad_at ts f i <= hi.
Proof.
  intros Hi H2 Hlt Hf. unfold grad_at.
  assert (Hs : forall m, (S m < List.length ts)%nat -> nth m ts 0 < nth (S m) ts 0) by (intros m Hm; apply inc_nth; auto; lia).
  destruct (Nat.eqb i 0) eqn:E0; [apply (Hf 0%nat); lia|].
  apply Nat.eqb_neq in E0. destruct i as [|i]; [lia|]. replace (S i - 1)%nat with i by lia.
  destruct (Nat.eqb (S (S i)) (List.length ts)) eqn:E1; [apply (Hf i); lia|].
  apply Nat.eqb_neq in E1. pose proof (Hs i ltac:(lia)) as H1. pose proof (Hs (S i) ltac:(lia)) as H3.
  pose proof (Hf i ltac:(lia)) as F1. pose proof (Hf (S i) ltac:(lia)) as F2.
  destruct (uniform ts) eqn:EU.
  - pose proof (uniform_nth ts i EU ltac:(lia)) as U1. pose proof (uniform_nth ts (S i) EU ltac:(lia)) as U2.
    rewrite U1 in F1. rewrite U2 in F2. cbv zeta. set (d := nth 1 ts 0 - nth 0 ts 0) in *.
    assert (d <> 0) by (intros Z0; unfold d in *; lra).
    replace ((f (S (S i)) - f i) / (2 * d)) with (((f (S i) - f i) / d + (f (S (S i)) - f (S i)) / d) / 2) by (field; auto). lra.
  - cbv zeta. set (d1 := nth (S i) ts 0 - nth i ts 0) in *. set (d2 := nth (S (S i)) ts 0 - nth (S i) ts 0) in *.
    assert (D1 : 0 < d1) by (unfold d1; lra). assert (D2 : 0 < d2) by (unfold d2; lra).
    set (s1 := (f (S i) - f i) / d1) in *. set (s2 := (f (S (S i)) - f (S i)) / d2) in *.
    replace (- d2 / (d1 * (d1 + d2)) * f i + (d2 - d1) / (d1 * d2) * f (S i) + d1 / (d2 * (d1 + d2)) * f (S (S i)))
      with (s1 + d1 / (d1 + d2) * (s2 - s1)) by (unfold s1, s2; field; lra).
    assert (W : 0 <= d1 / (d1 + d2) <= 1).
    { split; [apply Rmult_le_pos; [lra|left; apply Rinv_0_lt_compat; lra]|]. apply (Rmult_le_reg_r (d1 + d2)); [lra|]. unfold Rdiv. rewrite Rmult_assoc, Rinv_l; lra. }
    set (w := d1 / (d1 + d2)) in *. split; [|].
    + replace (s1 + w * (s2 - s1)) with ((1 - w) * s1 + w * s2) by ring. replace lo with ((1 - w) * lo + w * lo) by ring.
      apply Rplus_le_compat; apply Rmult_le_compat_l; lra.
    + replace (s1 + w * (s2 - s1)) with ((1 - w) * s1 + w * s2) by ring. replace hi with ((1 - w) * hi + w * hi) by ring.
      apply Rplus_le_compat; apply Rmult_le_compat_l; lra.
Qed.
Lemma nth_map_seconds ts i : (i < List.length ts)%nat -> nth i (map seconds ts) 0 = seconds (at_index ts i).
Proof. intros H. rewrite (nth_indep _ 0 (seconds 0)) by (rewrite map_length; auto). apply map_nth. Qed.
(** Constant velocities sampled with datetime timestamps more than d > 734 ns apart are
    estimated with a relative error below 734 / (d - 734). *)
Theorem C76_velocity : forall (a : nd R) axis time_axis ts tau sh (p v : list nat -> R) d,
  (734 < d)%Z -> spaced ts d -> (2 <= List.length ts)%nat ->
  shp a = put tau (List.length ts) sh -> (tau <= List.length sh)%nat ->
  time_is time_axis tau (ndim a) -> axis_not axis tau (ndim a) ->
  (forall c m, valid sh c -> (m < List.length ts)%nat -> dat a (put tau m c) = p c + v c * (IZR (at_index ts m) / 1000000000)) ->
  exists b, dt_linear_velocity a axis ts time_axis = Ok b /\ shp b = shp a /\
    forall c m, valid sh c -> (m < List.length ts)%nat -> Rabs (dat b (put tau m c) - v c) <= Rabs (v c) * (734 / (IZR d - 734)).
Proof.
  intros a axis time_axis ts tau sh p v d Hd Hs H2 Hsh Hk Ht Ha Hf.
  assert (Hdt : forall i, (S i < List.length ts)%nat ->
    let D := IZR (at_index ts (S i)) - IZR (at_index ts i) in IZR d < D /\ Rabs ((seconds (at_index ts (S i)) - seconds (at_index ts i)) - D / 1000000000) <= 734 / 1000000000).
  { intros i Hi D. split; [unfold D; rewrite <- minus_IZR; apply IZR_lt, (proj2 Hs); auto|].
    pose proof (seconds_err _ (proj1 Hs (S i) Hi)) as A. pose proof (seconds_err _ (proj1 Hs i ltac:(lia))) as B.
    apply Rabs_le_inv in A, B. apply Rabs_le. unfold D. lra. }
  apply IZR_lt in Hd.
  assert (Hinc : increasing (map seconds ts)).
  { assert (S1 : forall i, (S i < List.length ts)%nat -> seconds (at_index ts i) < seconds (at_index ts (S i))).
    { intros i Hi. destruct (Hdt i Hi) as (A & B). apply Rabs_le_inv in B. lra. }
    assert (S2 : forall i j, (i < j < List.length ts)%nat -> seconds (at_index ts i) < seconds (at_index ts j)).
    { intros i j. induction j as [|j IH]; intros Hij; [lia|]. destruct (Nat.eq_dec i j) as [->|]; [apply S1; lia|].
      eapply Rlt_trans; [apply IH; lia|apply S1; lia]. }
    intros i j x y Hij Hx Hy. pose proof (nth_error_Some (map seconds ts) j) as L. rewrite Hy, map_length in L. assert (Hj : (j < List.length ts)%nat) by (apply L; discriminate).
    apply nth_error_nth with (d := 0) in Hx, Hy. rewrite nth_map_seconds in Hx, Hy by lia. subst. apply S2. lia. }
  unfold dt_linear_velocity. assert (Lm : List.length (map seconds ts) = List.length ts) by apply map_length. rewrite <- Lm in Hsh, H2.
  rewrite (axes_resolved a axis time_axis tau sh _ (map seconds ts) Hsh Hk Ht Ha). unfold gradient_nd.
  rewrite Hsh, put_insert, nth_insert by auto. rewrite grad_check_ok by auto. cbn [bind]. eexists. split; [reflexivity|].
  split; [reflexivity|]. intros c m Hc Hm. pose proof (valid_length _ _ Hc) as Lc. cbn [dat].
  rewrite put_insert by lia. rewrite nth_insert by lia. set (B := Rabs (v c) * (734 / (IZR d - 734))).
  enough (G : v c - B <= grad_at (map seconds ts) (fun m' => dat a (setn tau m' (insert_at tau m c))) m <= v c + B) by (apply Rabs_le; lra).
  apply grad_slopes; auto; [lia|]. intros i Hi. rewrite Lm in Hi. rewrite !setn_insert by lia. rewrite <- !put_insert by lia. rewrite !Hf by (auto; lia). rewrite !nth_map_seconds by lia.
  destruct (Hdt i Hi) as (A & E). set (D := IZR (at_index ts (S i)) - IZR (at_index ts i)) in *. set (e := seconds (at_index ts (S i)) - seconds (at_index ts i)) in *.
  assert (Pe : (IZR d - 734) / 1000000000 < e) by (apply Rabs_le_inv in E; lra).
  match goal with |- _ <= ?z <= _ => set (s := z) end.
  assert (Es : s - v c = v c * ((D / 1000000000 - e) / e)) by (unfold s, D; fold e; field; lra).
  enough (Q : Rabs (s - v c) <= B) by (apply Rabs_le_inv in Q; lra). rewrite Es, Rabs_mult. unfold B. apply Rmult_le_compat_l; [apply Rabs_pos|].
  unfold Rdiv at 1. rewrite Rabs_mult, (Rabs_pos_eq (/ e)) by (left; apply Rinv_0_lt_compat; lra). rewrite Rabs_minus_sym.
  replace (734 / (IZR d - 734)) with (734 / 1000000000 * / ((IZR d - 734) / 1000000000)) by (field; lra).
  apply Rmult_le_compat; [apply Rabs_pos|left; apply Rinv_0_lt_compat; lra|exact E|]. apply Rinv_le_contravar; lra.
Qed.
(** The stamps of ROS messages are within 368 ns of the sample's time ... *)
Theorem C76_stamp_partial : forall n, modern n -> exists st, dt_stamp n = Ok st /\ (0 <= secs st /\ 0 <= nsecs st < giga)%Z /\
  Rabs (to_sec st - IZR n / 1000000000) <= 368 / 1000000000.
Proof.
  intros n Hn. pose proof (seconds_err n Hn) as E. pose proof (modern_R n Hn) as (B1 & _). change (bpow radix2 60) with 1152921504606846976 in B1.
  apply Rabs_le_inv in E. destruct (from_sec_spec (seconds n)) as (st & A & R0 & T); [lra|]. exists st. split; [exact A|]. split; [exact R0|].
  assert (G : IZR giga = 1000000000) by reflexivity. rewrite G in T. apply Rabs_le. lra.
Qed.
(** ... but not the time itself: 127 ns after 2020-09-13 12:26:40 becomes that time. *)
Theorem C76_stamp_refuted : forall k, (0 <= k < 128)%Z ->
  dt_stamp (1600000000 * giga + k) = Ok (Stamp 1600000000 0).
Proof.
  intros k Hk. assert (M : modern (1600000000 * giga + k)) by (unfold modern, giga; lia).
  unfold dt_stamp, seconds. rewrite (float_cell _ 6250000000000000) by (auto; unfold giga; lia).
  replace (IZR (256 * 6250000000000000) / IZR 1000000000) with (IZR 1600000000) by (rewrite mult_IZR; lra).
  change (rnd64 (IZR 1600000000)) with (to_float 1600000000). rewrite C76_exact by lia.
  unfold from_sec. rewrite trunc_IZR. replace (IZR 1600000000 - IZR 1600000000) with 0 by ring. rewrite Rmult_0_l, trunc_IZR. reflexivity.
Qed.
(** Samples every millisecond from 2020-09-13 12:26:40 on. *)
Example C76_example : modern (1600000000 * giga) /\
  spaced [(1600000000 * giga)%Z; (1600000000 * giga + 1000000)%Z; (1600000000 * giga + 2000000)%Z] 999999.
Proof.
  split; [unfold modern, giga; lia|]. split.
  - intros i Hi. destruct i as [|[|[|i]]]; cbn in Hi; try lia; unfold at_index, modern, giga; cbn [nth]; lia.
  - intros i Hi. destruct i as [|[|i]]; cbn in Hi; try lia; unfold at_index; cbn [nth]; lia.
Qed.
(** Discrete frames compare the integers: the sample in force is the last one not after the time asked for,
    to the nanosecond (the first one before all samples). *)
Theorem C76_discrete : forall squad ts t r l rows k x v q, (forall i j, (i < j < List.length ts)%nat -> (at_index ts i <= at_index ts j)%Z) ->
  List.length t = List.length ts -> List.length r = List.length ts ->
  dt_rows squad ts t r true l = Ok rows -> nth_error l k = Some x -> nth_error rows k = Some (v, q) ->
  exists e, nth_error t e = Some v /\ nth_error r e = Some q /\
    ((at_index ts e <= x)%Z /\ (forall i, (e < i < List.length ts)%nat -> (x < at_index ts i)%Z) \/
     e = 0%nat /\ forall i, (i < List.length ts)%nat -> (x < at_index ts i)%Z).
Proof.
  intros squad ts t r l rows k x v q Hm Ht Hr H Hx Hv. unfold dt_rows in H.
  assert (AI : forall i, (i < List.length ts)%nat -> nth_error (map IZR ts) i = Some (IZR (at_index ts i))).
  { intros i Hi. rewrite nth_error_map. unfold at_index. rewrite (nth_error_nth' ts 0%Z Hi). reflexivity. }
  assert (D : decreasing_somewhere (map IZR ts) = false).
  { destruct (decreasing_somewhere (map IZR ts)) eqn:E; [|reflexivity]. apply decreasing_spec in E as (i & Hi & Lt). rewrite map_length in Hi.
    rewrite (nth_error_nth _ _ 0 (AI (S i) Hi)), (nth_error_nth _ _ 0 (AI i ltac:(lia))) in Lt. apply lt_IZR in Lt. specialize (Hm i (S i) ltac:(lia)). lia. }
  destruct (MovingProofs.own_from_frame squad (TMoving (map IZR ts) t r true) (map IZR l) rows) as (_ & O); [split; rewrite map_length; assumption|intros ? ? ? ? E; injection E as <- _ _ _; exact D|exact H|].
  specialize (O k (IZR x) (v, q) (map_nth_error IZR k l Hx) Hv). cbn [fst snd] in O. inversion O as [|ts' t' r' x' e v' q' Ev Et Er|]; subst. exists e. split; [exact Et|]. split; [exact Er|].
  assert (He : (e < List.length ts)%nat) by (rewrite <- Ht; apply nth_error_Some; congruence).
  destruct Ev as [(te & E1 & E2 & E3)|(-> & _ & E3)].
  - left. rewrite AI in E1 by exact He. injection E1 as <-. split; [apply le_IZR, E2|]. intros i Hi. apply lt_IZR, (E3 i); [lia|apply AI; lia].
  - right. split; [reflexivity|]. intros i Hi. apply lt_IZR, (E3 i), AI, Hi.
Qed.
(** Two samples one nanosecond apart: the second is in force at its own time. *)
Example C76_discrete_example : dt_rows (fun _ _ _ => Raise NaNValue) [1577836800000000000; 1577836800000000001]%Z [V3 0 0 0; V3 1 0 0] [Qt 1 0 0 0; Qt 0 1 0 0] true [1577836800000000001]%Z = Ok [(V3 1 0 0, Qt 0 1 0 0)].
Proof.
  unfold dt_rows, rows_from_frame, hold, traverse. cbn [map combine fold_left fst snd bind sequence].
  replace (Rle_b (IZR 1577836800000000001) (IZR 1577836800000000001)) with true by (symmetry; apply Rle_b_true; lra).
  cbn [bind combine]. reflexivity.
Qed.
