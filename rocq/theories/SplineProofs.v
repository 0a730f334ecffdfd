(** Proofs about the interpolating cubic spline: its slopes solve a tridiagonal
    system, the system has a solution, and the slopes are close to the derivative
    of a smooth function. *)
From Coq Require Import Reals List Arith Bool Lia Lra.
From Verif Require Import Base Squad SquadProofs Taylor Spline TimeProofs.
Import ListNotations.
Open Scope R_scope.

(** The rows of the system. *)
Definition rows (ts fs : list R) (n : nat) (m : nat -> R) : Prop :=
  (forall i, (S i < n)%nat -> lam ts i * m i + 2 * m (S i) + mu ts i * m (S (S i)) = rhs ts fs i) /\
  lam ts 0 * m 0%nat + m 1%nat = head_rhs ts fs /\
  m (n - 1)%nat + mu ts (n - 2) * m n = last_rhs ts fs n.
(** The cubic with given end values and slopes. *)
Definition hermite (ts fs : list R) (m : nat -> R) (i : nat) : cubic :=
  Cub (nth i fs 0) (m i) ((3 * slope ts fs i - 2 * m i - m (S i)) / dt ts i) ((m i + m (S i) - 2 * slope ts fs i) / dt ts i ^ 2).
Lemma hermite_eq p h s m m' : h <> 0 -> cder p 0 = m -> cder p h = m' -> (cval p h - cval p 0) / h = s ->
  c1 p = m /\ c2 p = (3 * s - 2 * m - m') / h /\ c3 p = (m + m' - 2 * s) / h ^ 2.
Proof.
  destruct p as [a b c d]. cbv [cder cval c0 c1 c2 c3]. intros Hh E1 E2 E3. subst m m' s. split; [ring|]. split; field; exact Hh.
Qed.
Section Rows.
  Variables (ts fs : list R) (n : nat).
  Hypothesis Hpos : forall i, (i < n)%nat -> 0 < dt ts i.
  Hypothesis Hn : (3 <= n)%nat.
  Local Notation h := (dt ts).
  Local Notation s := (slope ts fs).
  Lemma row_iff i m : (S i < n)%nat ->
    lam ts i * m i + 2 * m (S i) + mu ts i * m (S (S i)) = rhs ts fs i <->
    2 * ((3 * s i - 2 * m i - m (S i)) / h i) + 6 * ((m i + m (S i) - 2 * s i) / h i ^ 2) * h i = 2 * ((3 * s (S i) - 2 * m (S i) - m (S (S i))) / h (S i)).
  Proof using Hpos Hn.
    intros Hi. unfold rhs, lam, mu. pose proof (Hpos i ltac:(lia)) as A. pose proof (Hpos (S i) Hi) as B.
    set (a := h i) in *. set (b := h (S i)) in *. set (x := m i). set (y := m (S i)). set (z := m (S (S i))). set (u := s i). set (v := s (S i)). clearbody a b x y z u v.
    assert (K : (b / (a + b) * x + 2 * y + a / (a + b) * z - 3 * (b / (a + b) * u + a / (a + b) * v)) * (2 * (a + b) / (a * b)) = 2 * ((3 * u - 2 * x - y) / a) + 6 * ((x + y - 2 * u) / a ^ 2) * a - 2 * ((3 * v - 2 * y - z) / b)) by (field; lra).
    assert (N : 2 * (a + b) / (a * b) <> 0) by (apply Rgt_not_eq; apply Rdiv_lt_0_compat; [lra|apply Rmult_lt_0_compat; lra]).
    split; intros E.
    - rewrite E, Rminus_eq_0, Rmult_0_l in K. lra.
    - rewrite E, Rminus_eq_0 in K. apply Rmult_integral in K as [K|K]; [lra|contradiction].
  Qed.
  Lemma head_iff m : lam ts 0 * m 0%nat + 2 * m 1%nat + mu ts 0 * m 2%nat = rhs ts fs 0 ->
    (lam ts 0 * m 0%nat + m 1%nat = head_rhs ts fs <-> (m 0%nat + m 1%nat - 2 * s 0) / h 0 ^ 2 = (m 1%nat + m 2%nat - 2 * s 1) / h 1 ^ 2).
  Proof using Hpos Hn.
    intros E. unfold head_rhs. unfold rhs, lam, mu in *. pose proof (Hpos 0 ltac:(lia)) as A. pose proof (Hpos 1 ltac:(lia)) as B.
    set (a := h 0%nat) in *. set (b := h 1%nat) in *. set (x := m 0%nat) in *. set (y := m 1%nat) in *. set (z := m 2%nat) in *. set (u := s 0%nat) in *. set (v := s 1%nat) in *. clearbody a b x y z u v.
    assert (Z : z = (3 * (b * u + a * v) - b * x - 2 * (a + b) * y) / a).
    { apply (Rmult_eq_reg_r (a / (a + b))); [|apply Rgt_not_eq, Rdiv_lt_0_compat; lra]. replace (z * (a / (a + b))) with (3 * (b / (a + b) * u + a / (a + b) * v) - b / (a + b) * x - 2 * y) by lra. field. lra. }
    clear E. subst z.
    assert (K : (b / (a + b) * x + y - ((3 * a * b + 2 * b ^ 2) * u + a ^ 2 * v) / (a + b) ^ 2) * ((a + b) ^ 2 / (a ^ 2 * b ^ 2)) =
      (x + y - 2 * u) / a ^ 2 - (y + (3 * (b * u + a * v) - b * x - 2 * (a + b) * y) / a - 2 * v) / b ^ 2) by (field; lra).
    assert (N : (a + b) ^ 2 / (a ^ 2 * b ^ 2) <> 0).
    { apply Rgt_not_eq, Rdiv_lt_0_compat; [apply pow_lt; lra|apply Rmult_lt_0_compat; apply pow_lt; lra]. }
    split; intros E.
    - rewrite E, Rminus_eq_0, Rmult_0_l in K. lra.
    - rewrite E, Rminus_eq_0 in K. apply Rmult_integral in K as [K|K]; [lra|contradiction].
  Qed.
  Lemma last_iff m : lam ts (n - 2) * m (n - 2)%nat + 2 * m (n - 1)%nat + mu ts (n - 2) * m n = rhs ts fs (n - 2) ->
    (m (n - 1)%nat + mu ts (n - 2) * m n = last_rhs ts fs n <->
     (m (n - 2)%nat + m (n - 1)%nat - 2 * s (n - 2)) / h (n - 2) ^ 2 = (m (n - 1)%nat + m n - 2 * s (n - 1)) / h (n - 1) ^ 2).
  Proof using Hpos Hn.
    intros E. unfold last_rhs. cbv zeta. unfold rhs, lam, mu in *. replace (S (n - 2)) with (n - 1)%nat in * by lia.
    pose proof (Hpos (n - 2) ltac:(lia)) as A. pose proof (Hpos (n - 1) ltac:(lia)) as B.
    set (a := h (n - 2)%nat) in *. set (b := h (n - 1)%nat) in *. set (x := m (n - 2)%nat) in *. set (y := m (n - 1)%nat) in *. set (z := m n) in *. set (u := s (n - 2)%nat) in *. set (v := s (n - 1)%nat) in *. clearbody a b x y z u v.
    assert (X : x = (3 * (b * u + a * v) - a * z - 2 * (a + b) * y) / b).
    { apply (Rmult_eq_reg_r (b / (a + b))); [|apply Rgt_not_eq, Rdiv_lt_0_compat; lra]. replace (x * (b / (a + b))) with (3 * (b / (a + b) * u + a / (a + b) * v) - a / (a + b) * z - 2 * y) by lra. field. lra. }
    clear E. subst x.
    assert (K : (y + a / (a + b) * z - ((3 * a * b + 2 * a ^ 2) * v + b ^ 2 * u) / (a + b) ^ 2) * ((a + b) ^ 2 / (a ^ 2 * b ^ 2)) =
      (y + z - 2 * v) / b ^ 2 - ((3 * (b * u + a * v) - a * z - 2 * (a + b) * y) / b + y - 2 * u) / a ^ 2) by (field; lra).
    assert (N : (a + b) ^ 2 / (a ^ 2 * b ^ 2) <> 0).
    { apply Rgt_not_eq, Rdiv_lt_0_compat; [apply pow_lt; lra|apply Rmult_lt_0_compat; apply pow_lt; lra]. }
    split; intros E.
    - rewrite E, Rminus_eq_0, Rmult_0_l in K. lra.
    - rewrite E, Rminus_eq_0 in K. apply Rmult_integral in K as [K|K]; [lra|contradiction].
  Qed.
  (** The slopes of a spline solve the rows. *)
  Lemma spline_rows p m : is_spline ts fs n p -> (forall i, (i < n)%nat -> m i = cder (p i) 0) -> m n = cder (p (n - 1)%nat) (dt ts (n - 1)) -> rows ts fs n m.
  Proof using Hpos Hn.
    intros [T S1 S2 KF KL] M ML.
    assert (H : forall i, (i < n)%nat -> c1 (p i) = m i /\ c2 (p i) = (3 * s i - 2 * m i - m (S i)) / h i /\ c3 (p i) = (m i + m (S i) - 2 * s i) / h i ^ 2).
    { intros i Hi. apply hermite_eq.
      - apply Rgt_not_eq, Hpos, Hi.
      - symmetry. apply M, Hi.
      - destruct (Nat.eq_dec (S i) n) as [E|E]; [subst n; replace i with (S i - 1)%nat at 1 2 by lia; symmetry; exact ML|rewrite (M (S i)) by lia; apply S1; lia].
      - destruct (T i Hi) as (E1 & E2). rewrite E1, E2. reflexivity. }
    assert (R1 : forall i, (S i < n)%nat -> lam ts i * m i + 2 * m (S i) + mu ts i * m (S (S i)) = rhs ts fs i).
    { intros i Hi. apply row_iff; [exact Hi|]. specialize (S2 i Hi). unfold cder2 in S2. destruct (H i ltac:(lia)) as (_ & E2 & E3). destruct (H (S i) Hi) as (_ & F2 & _).
      rewrite E2, E3, F2 in S2. lra. }
    split; [exact R1|]. split.
    - apply head_iff; [apply R1; lia|]. unfold cder3 in KF. destruct (H 0%nat ltac:(lia)) as (_ & _ & E3). destruct (H 1%nat ltac:(lia)) as (_ & _ & F3). rewrite E3, F3 in KF. lra.
    - specialize (R1 (n - 2)%nat ltac:(lia)). apply last_iff.
      + replace (S (n - 2)) with (n - 1)%nat in R1 by lia. replace (S (n - 1)) with n in R1 by lia. exact R1.
      + unfold cder3 in KL. destruct (H (n - 2)%nat ltac:(lia)) as (_ & _ & E3). destruct (H (n - 1)%nat ltac:(lia)) as (_ & _ & F3). rewrite E3, F3 in KL.
        replace (S (n - 2)) with (n - 1)%nat in KL by lia. replace (S (n - 1)) with n in KL by lia. lra.
  Qed.
  Lemma rows_spline m : rows ts fs n m -> is_spline ts fs n (hermite ts fs m) /\
    (forall i, (i < n)%nat -> m i = cder (hermite ts fs m i) 0) /\ m n = cder (hermite ts fs m (n - 1)%nat) (dt ts (n - 1)).
  Proof using Hpos Hn.
    intros (R1 & RF & RL).
    assert (D : forall i, (i < n)%nat -> cder (hermite ts fs m i) (dt ts i) = m (S i)).
    { intros i Hi. cbv [hermite cder c1 c2 c3]. specialize (Hpos i Hi). field. lra. }
    split; [split|split].
    - intros i Hi. cbv [hermite cval c0 c1 c2 c3]. split; [ring|]. unfold slope. specialize (Hpos i Hi). field. lra.
    - intros i Hi. rewrite D by lia. cbv [hermite cder c1 c2 c3]. ring.
    - intros i Hi. pose proof (proj1 (row_iff i m Hi) (R1 i Hi)) as G. cbv [hermite cder2 c2 c3]. lra.
    - apply head_iff in RF; [|apply R1; lia]. cbv [hermite cder3 c3]. rewrite RF. reflexivity.
    - specialize (R1 (n - 2)%nat ltac:(lia)). replace (S (n - 2)) with (n - 1)%nat in R1 by lia. replace (S (n - 1)) with n in R1 by lia.
      apply last_iff in RL; [|exact R1]. cbv [hermite cder3 c3]. replace (S (n - 2)) with (n - 1)%nat by lia. replace (S (n - 1)) with n by lia. rewrite RL. reflexivity.
    - intros i Hi. cbv [hermite cder c1 c2 c3]. ring.
    - rewrite D by lia. f_equal. lia.
  Qed.
  Lemma weights i : (S i < n)%nat -> 0 < lam ts i /\ 0 < mu ts i /\ lam ts i + mu ts i = 1.
  Proof using Hpos Hn.
    intros Hi. unfold lam, mu. pose proof (Hpos i ltac:(lia)) as A. pose proof (Hpos (S i) Hi) as B. split; [|split].
    - apply Rdiv_lt_0_compat; lra.
    - apply Rdiv_lt_0_compat; lra.
    - field. lra.
  Qed.
  (** Elimination. *)
  Lemma length_solve i k c g : length (solve ts fs n i k c g) = S (S k).
  Proof. revert i c g. induction k as [|k IH]; intros; cbn [solve]; cbv zeta; [reflexivity|]. cbn [length]. rewrite IH. reflexivity. Qed.
  Lemma solve_ok k : forall i c g, (1 <= i)%nat -> (i + k = n - 2)%nat -> 0 <= c < 1 ->
    let ms := solve ts fs n i k c g in let x j := nth j ms 0 in
    x 0%nat + c * x 1%nat = g /\
    (forall j, (j < k)%nat -> lam ts (i + j) * x j + 2 * x (S j) + mu ts (i + j) * x (S (S j)) = rhs ts fs (i + j)) /\
    lam ts (n - 2) * x k + x (S k) = rhs ts fs (n - 2) - last_rhs ts fs n.
  Proof using Hpos Hn.
    induction k as [|k IH]; intros i c g Hi Hk Hc.
    - cbn [solve]. cbv zeta. cbn [nth]. replace (n - 2)%nat with i by lia. destruct (weights i ltac:(lia)) as (A & B & C).
      assert (N : 1 - lam ts i * c <> 0) by (assert (lam ts i * c < 1) by nra; lra).
      split; [ring|]. split; [intros j Hj; lia|]. field. exact N.
    - cbn [solve]. cbv zeta. destruct (weights i ltac:(lia)) as (A & B & C).
      set (d := 2 - lam ts i * c). assert (D : 1 < d) by (unfold d; nra).
      specialize (IH (S i) (mu ts i / d) ((rhs ts fs i - lam ts i * g) / d) ltac:(lia) ltac:(lia)). cbv zeta in IH.
      set (ms := solve ts fs n (S i) k (mu ts i / d) ((rhs ts fs i - lam ts i * g) / d)) in *.
      destruct IH as (I1 & I2 & I3).
      { split; [apply Rlt_le, Rdiv_lt_0_compat; lra|]. apply (Rmult_lt_reg_r d); [lra|]. unfold Rdiv. rewrite Rmult_assoc, Rinv_l by lra. lra. }
      pose proof (length_solve (S i) k (mu ts i / d) ((rhs ts fs i - lam ts i * g) / d)) as L. fold ms in L.
      assert (Hd : hd 0 ms = nth 0 ms 0) by (destruct ms; reflexivity).
      cbn [nth]. rewrite Hd. split; [ring|]. split.
      + intros [|j] Hj.
        * rewrite Nat.add_0_r. cbn [nth].
          assert (J : d * nth 0 ms 0 + mu ts i * nth 1 ms 0 = rhs ts fs i - lam ts i * g).
          { replace (rhs ts fs i - lam ts i * g) with (d * ((rhs ts fs i - lam ts i * g) / d)) by (field; lra). rewrite <- I1. field. lra. }
          unfold d in J. lra.
        * cbn [nth]. replace (i + S j)%nat with (S i + j)%nat by lia. apply I2. lia.
      + exact I3.
  Qed.
  Lemma fit_rows : rows ts fs n (fun i => nth i (spline_fit ts fs n) 0) /\ length (spline_fit ts fs n) = S n.
  Proof using Hpos Hn.
    unfold spline_fit. cbv zeta. set (inner := solve ts fs n 1 (n - 3) (mu ts 0) (rhs ts fs 0 - head_rhs ts fs)).
    destruct (weights 0 ltac:(lia)) as (A & B & C). destruct (weights (n - 2) ltac:(lia)) as (A' & B' & _).
    pose proof (solve_ok (n - 3) 1 (mu ts 0) (rhs ts fs 0 - head_rhs ts fs) (le_n 1) ltac:(lia) ltac:(lra)) as K. cbv zeta in K. fold inner in K.
    destruct K as (K1 & K2 & K3). pose proof (length_solve 1 (n - 3) (mu ts 0) (rhs ts fs 0 - head_rhs ts fs)) as L. fold inner in L.
    assert (Hd : hd 0 inner = nth 0 inner 0) by (destruct inner; reflexivity).
    assert (Hl : last inner 0 = nth (S (n - 3)) inner 0).
    { destruct (exists_last (l := inner)) as (l & a & E); [destruct inner; [discriminate L|discriminate]|]. rewrite E, last_last. rewrite E, app_length in L. cbn in L. rewrite app_nth2 by lia. replace (S (n - 3) - length l)%nat with 0%nat by lia. reflexivity. }
    split.
    2:{ cbn [length]. rewrite app_length, L. cbn [length]. lia. }
    assert (X : forall j, (j < n - 1)%nat -> nth (S j) ((head_rhs ts fs - hd 0 inner) / lam ts 0 :: inner ++ [(last_rhs ts fs n - last inner 0) / mu ts (n - 2)]) 0 = nth j inner 0).
    { intros j Hj. cbn [nth]. apply app_nth1. lia. }
    assert (X0 : nth 0 ((head_rhs ts fs - hd 0 inner) / lam ts 0 :: inner ++ [(last_rhs ts fs n - last inner 0) / mu ts (n - 2)]) 0 = (head_rhs ts fs - nth 0 inner 0) / lam ts 0) by (cbn [nth]; rewrite Hd; reflexivity).
    assert (XN : nth n ((head_rhs ts fs - hd 0 inner) / lam ts 0 :: inner ++ [(last_rhs ts fs n - last inner 0) / mu ts (n - 2)]) 0 = (last_rhs ts fs n - nth (S (n - 3)) inner 0) / mu ts (n - 2)).
    { destruct n as [|n']; [lia|]. cbn [nth]. rewrite app_nth2 by lia. replace (n' - length inner)%nat with 0%nat by lia. cbn [nth]. rewrite Hl. reflexivity. }
    set (ms := (head_rhs ts fs - hd 0 inner) / lam ts 0 :: inner ++ [(last_rhs ts fs n - last inner 0) / mu ts (n - 2)]) in *. clearbody ms.
    assert (RF : lam ts 0 * nth 0 ms 0 + nth 1 ms 0 = head_rhs ts fs) by (rewrite X0, (X 0%nat) by lia; field; lra).
    assert (RL : nth (n - 1) ms 0 + mu ts (n - 2) * nth n ms 0 = last_rhs ts fs n).
    { rewrite XN. replace (n - 1)%nat with (S (n - 2)) by lia. rewrite X by lia. replace (S (n - 3)) with (n - 2)%nat by lia. field. lra. }
    split; [|split; [exact RF|exact RL]].
    intros i Hi. destruct i as [|i].
    - rewrite (X 0%nat), (X 1%nat) in * by lia. lra.
    - destruct (Nat.eq_dec (S (S i)) (n - 1)) as [E|E].
      + assert (Ei : i = (n - 3)%nat) by lia. subst i. replace (S (S (S (n - 3)))) with n by lia. replace (S (n - 3)) with (n - 2)%nat by lia. replace (S (n - 2)) with (n - 1)%nat by lia.
        assert (Y : lam ts (n - 2) * nth (n - 2) ms 0 + nth (n - 1) ms 0 = rhs ts fs (n - 2) - last_rhs ts fs n).
        { replace (nth (n - 2) ms 0) with (nth (n - 3) inner 0) by (replace (n - 2)%nat with (S (n - 3)) by lia; symmetry; apply X; lia).
          replace (nth (n - 1) ms 0) with (nth (S (n - 3)) inner 0) by (replace (n - 1)%nat with (S (S (n - 3))) by lia; symmetry; apply X; lia). exact K3. }
        lra.
      + rewrite !X by lia. apply (K2 i). lia.
  Qed.
End Rows.
Lemma dt_pos ts i : strictly ts = true -> (i < length ts - 1)%nat -> 0 < dt ts i.
Proof. intros H Hi. apply inc_strictly in H. unfold dt. pose proof (increasing_nth ts i (S i) H ltac:(lia)). lra. Qed.
(** The concrete function meets the specification. *)
Lemma np_derivative_spline : spline_derivative np_derivative.
Proof.
  intros fs ts Hs Hl Hf. unfold np_derivative. rewrite Hs, Hf, Nat.eqb_refl. replace (Nat.leb 4 (length ts)) with true by (symmetry; apply Nat.leb_le; exact Hl).
  eexists. split; [reflexivity|]. unfold spline_slopes. cbv zeta.
  destruct (fit_rows ts fs (length ts - 1)) as (R & L); [intros i Hi; apply dt_pos; assumption|lia|].
  split; [rewrite L; lia|]. exists (hermite ts fs (fun i => nth i (spline_fit ts fs (length ts - 1)) 0)).
  apply rows_spline in R; [exact R|intros i Hi; apply dt_pos; assumption|lia].
Qed.
