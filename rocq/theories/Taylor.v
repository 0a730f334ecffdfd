(** Taylor's theorem with an error bound, on a segment. *)
From Coq Require Import Reals Lia Lra.
From Coquelicot Require Import Coquelicot.
Open Scope R_scope.

Lemma pow_shift_deriv C a k t : derivable_pt_lim (fun t => C * (t - a) ^ S k / INR (S k)) t (C * (t - a) ^ k).
Proof.
  apply is_derive_Reals. auto_derive; [exact I|]. pose proof (not_0_INR (S k) ltac:(lia)) as N. change (match k with 0%nat => 1 | S _ => INR k + 1 end) with (INR (S k)). replace (t + - a) with (t - a) by ring. field. exact N.
Qed.
Lemma grow g g' C k a b : a <= b -> g a = 0 -> (forall t, a <= t <= b -> derivable_pt_lim g t (g' t)) ->
  (forall t, a <= t <= b -> Rabs (g' t) <= C * (t - a) ^ k) -> Rabs (g b) <= C * (b - a) ^ S k / INR (S k).
Proof.
  intros Hab H0 Hd Hb. destruct Hab as [Hab|<-].
  2:{ rewrite H0, Rabs_R0, Rminus_eq_0, pow_i by lia. unfold Rdiv. rewrite Rmult_0_r, Rmult_0_l. lra. }
  assert (P : 0 <= C * (b - a) ^ S k / INR (S k) - g b).
  { destruct (MVT_cor2 (fun t => C * (t - a) ^ S k / INR (S k) - g t) (fun t => C * (t - a) ^ k - g' t) a b Hab) as (c & E & Hc).
    - intros c Hc. apply derivable_pt_lim_minus; [apply pow_shift_deriv|apply Hd, Hc].
    - rewrite H0, Rminus_eq_0, pow_i in E by lia. specialize (Hb c ltac:(lra)). apply Rabs_le_between in Hb.
      assert (0 <= (C * (c - a) ^ k - g' c) * (b - a)) by (apply Rmult_le_pos; lra). lra. }
  assert (Q : 0 <= C * (b - a) ^ S k / INR (S k) + g b).
  { destruct (MVT_cor2 (fun t => C * (t - a) ^ S k / INR (S k) + g t) (fun t => C * (t - a) ^ k + g' t) a b Hab) as (c & E & Hc).
    - intros c Hc. apply derivable_pt_lim_plus; [apply pow_shift_deriv|apply Hd, Hc].
    - rewrite H0, Rminus_eq_0, pow_i in E by lia. specialize (Hb c ltac:(lra)). apply Rabs_le_between in Hb.
      assert (0 <= (C * (c - a) ^ k + g' c) * (b - a)) by (apply Rmult_le_pos; lra). lra. }
  apply Rabs_le. lra.
Qed.
(** The Taylor polynomial: n terms. *)
Fixpoint poly (f : nat -> R -> R) (a x : R) (n : nat) : R :=
  match n with O => 0 | S n => poly f a x n + f n a * x ^ n / INR (fact n) end.
Lemma poly_deriv f a n t : derivable_pt_lim (fun t => poly f a (t - a) (S n)) t (poly (fun k => f (S k)) a (t - a) n).
Proof.
  induction n as [|n IH].
  - apply is_derive_Reals. cbn [poly]. apply is_derive_ext with (fun _ => f O a).
    + intros s. cbn. field.
    + apply @is_derive_const.
  - change (fun t => poly f a (t - a) (S (S n))) with (fun t => poly f a (t - a) (S n) + f (S n) a * (t - a) ^ S n / INR (fact (S n))).
    change (poly (fun k => f (S k)) a (t - a) (S n)) with (poly (fun k => f (S k)) a (t - a) n + f (S n) a * (t - a) ^ n / INR (fact n)).
    apply derivable_pt_lim_plus; [exact IH|].
    apply is_derive_Reals. apply is_derive_ext with (fun t => (f (S n) a / INR (fact n)) * (t - a) ^ S n / INR (S n)).
    + intros s. match goal with |- ?x = ?y => change (@eq R x y) end. change (fact (S n)) with (S n * fact n)%nat. rewrite mult_INR. pose proof (INR_fact_neq_0 n). assert (INR (S n) <> 0) by (apply not_0_INR; lia). field. split; assumption.
    + apply is_derive_Reals. replace (f (S n) a * (t - a) ^ n / INR (fact n)) with (f (S n) a / INR (fact n) * (t - a) ^ n) by (unfold Rdiv; ring). apply pow_shift_deriv.
Qed.
Lemma poly_at f a n : poly f a 0 (S n) = f O a.
Proof. induction n as [|n IH]; [cbn; field|]. change (poly f a 0 (S (S n))) with (poly f a 0 (S n) + f (S n) a * 0 ^ S n / INR (fact (S n))). rewrite IH, pow_i by lia. unfold Rdiv. ring. Qed.
(** f k is the k-th derivative of f 0 between a and b. *)
Definition chain (f : nat -> R -> R) (n : nat) (lo hi : R) : Prop :=
  forall k t, (k < n)%nat -> lo <= t <= hi -> derivable_pt_lim (f k) t (f (S k) t).
Lemma taylor_right n : forall f M a b, a <= b -> chain f n a b -> (forall t, a <= t <= b -> Rabs (f n t) <= M) ->
  Rabs (f O b - poly f a (b - a) n) <= M * (b - a) ^ n / INR (fact n).
Proof.
  induction n as [|n IH]; intros f M a b Hab Hc Hb.
  - cbn [poly pow fact INR]. rewrite Rminus_0_r. unfold Rdiv. rewrite Rinv_1, !Rmult_1_r. apply Hb. lra.
  - pose proof (grow (fun t => f O t - poly f a (t - a) (S n)) (fun t => f 1%nat t - poly (fun k => f (S k)) a (t - a) n) (M / INR (fact n)) n a b Hab) as G.
    replace (M * (b - a) ^ S n / INR (fact (S n))) with (M / INR (fact n) * (b - a) ^ S n / INR (S n)).
    + apply G.
      * rewrite Rminus_eq_0, poly_at. ring.
      * intros t Ht. apply derivable_pt_lim_minus; [apply Hc; [lia|exact Ht]|apply poly_deriv].
      * intros t Ht. replace (M / INR (fact n) * (t - a) ^ n) with (M * (t - a) ^ n / INR (fact n)) by (unfold Rdiv; ring). apply (IH (fun k => f (S k))); [lra| |].
        -- intros k s Hk Hs. apply Hc; [lia|lra].
        -- intros s Hs. apply Hb. lra.
    + change (fact (S n)) with (S n * fact n)%nat. rewrite mult_INR. pose proof (INR_fact_neq_0 n). assert (INR (S n) <> 0) by (apply not_0_INR; lia). field. split; assumption.
Qed.
Lemma flip_deriv f f' c t : derivable_pt_lim f (- t) f' -> derivable_pt_lim (fun t => c * f (- t)) t (- c * f').
Proof.
  intros H. apply is_derive_Reals in H. apply is_derive_Reals.
  replace (- c * f') with (c * (-1 * f')) by ring. apply is_derive_scal. apply (is_derive_comp f (fun t => - t)); [exact H|]. auto_derive; [exact I|ring].
Qed.
Lemma poly_flip f a x n : poly (fun k t => (-1) ^ k * f k (- t)) (- a) (- x) n = poly f a x n.
Proof.
  induction n as [|n IH]; [reflexivity|]. cbn [poly]. rewrite IH. f_equal. rewrite Ropp_involutive. unfold Rdiv. f_equal.
  replace (- x) with (-1 * x) by ring. rewrite Rpow_mult_distr. replace ((-1) ^ n * f n a * ((-1) ^ n * x ^ n)) with (((-1) * (-1)) ^ n * f n a * x ^ n) by (rewrite Rpow_mult_distr; ring).
  replace (-1 * -1) with 1 by ring. rewrite pow1. ring.
Qed.
Lemma taylor_left n f M a b : b <= a -> chain f n b a -> (forall t, b <= t <= a -> Rabs (f n t) <= M) ->
  Rabs (f O b - poly f a (b - a) n) <= M * (a - b) ^ n / INR (fact n).
Proof.
  intros Hab Hc Hb. pose proof (taylor_right n (fun k t => (-1) ^ k * f k (- t)) M (- a) (- b) ltac:(lra)) as T. cbn [pow] in T.
  rewrite !Ropp_involutive, Rmult_1_l in T. replace (- b - - a) with (- (b - a)) in T by ring. rewrite poly_flip in T. replace (- (b - a)) with (a - b) in T by ring. apply T.
  - intros k t Hk Ht. change ((-1) ^ S k) with (-1 * (-1) ^ k). replace (-1 * (-1) ^ k * f (S k) (- t)) with (- (-1) ^ k * f (S k) (- t)) by ring. apply flip_deriv, Hc; [exact Hk|lra].
  - intros t Ht. rewrite Rabs_mult, pow_1_abs, Rmult_1_l. apply Hb. lra.
Qed.
