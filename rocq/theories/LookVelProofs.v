(** Lemmas for property C81: vector-valued bounds on numerical gradients; rotations
    keep distances; values at shared sampling times. *)
From Coq Require Import Reals List Arith Bool ZArith Lia Lra Sorted.
From Coquelicot Require Import Coquelicot.
From Verif Require Import Base Quat SpecQuat QuatProofs NdArray Frames Matcher SpecLookup MovingProofs TimeProofs
  Transform SpecArray NdProofs PropRotate Velocity VelProofs PropVelocity SpecMotion MotionProofs PropAngular
  Squad SquadProofs Taylor Spline SplineProofs SplineError PropRotVec PropConverge.
Import ListNotations.
Open Scope R_scope.

Lemma vdot_comm u v : vdot u v = vdot v u.
Proof. unfold vdot. ring. Qed.
Lemma cauchy u v : Rabs (vdot u v) <= vnorm u * vnorm v.
Proof.
  apply Rsqr_incr_0_var; [|apply Rmult_le_pos; apply vnorm_pos]. rewrite <- Rsqr_abs. unfold Rsqr. pose proof (vnorm_sq u) as A. pose proof (vnorm_sq v) as B.
  replace (vnorm u * vnorm v * (vnorm u * vnorm v)) with ((vnorm u * vnorm u) * (vnorm v * vnorm v)) by ring. rewrite A, B.
  destruct u as [a b c], v as [x y z]. unfold vdot. cbn [vx vy vz].
  pose proof (Rle_0_sqr (a * y - b * x)) as P. pose proof (Rle_0_sqr (a * z - c * x)) as Q. pose proof (Rle_0_sqr (b * z - c * y)) as S'. unfold Rsqr in *. nra.
Qed.
(** A vector is as long as its longest projection. *)
Lemma norm_by_dot d B : 0 <= B -> (forall u, vdot u u = 1 -> Rabs (vdot u d) <= B) -> vnorm d <= B.
Proof.
  intros P H. pose proof (vnorm_sq d) as E. pose proof (vnorm_pos d) as Q. set (n := vnorm d) in *. destruct (Req_dec n 0) as [Z|Z]; [lra|].
  assert (L : 0 < n) by lra. pose proof (H (vscale (/ n) d)) as K.
  assert (E1 : vdot (vscale (/ n) d) (vscale (/ n) d) = 1).
  { replace (vdot (vscale (/ n) d) (vscale (/ n) d)) with (/ n * / n * vdot d d) by (destruct d as [x y z]; cbv [vdot vscale vx vy vz]; ring). rewrite <- E. field. lra. }
  assert (E2 : vdot (vscale (/ n) d) d = n).
  { replace (vdot (vscale (/ n) d) d) with (/ n * vdot d d) by (destruct d as [x y z]; cbv [vdot vscale vx vy vz]; ring). rewrite <- E. field. lra. }
  specialize (K E1). rewrite E2 in K. rewrite Rabs_right in K by lra. exact K.
Qed.
Lemma vnorm_unit u : vdot u u = 1 -> vnorm u = 1.
Proof. intros H. unfold vnorm, vnorm2. rewrite H. apply sqrt_1. Qed.
Lemma vnorm_tri u v : vnorm (vadd u v) <= vnorm u + vnorm v.
Proof.
  apply norm_by_dot; [pose proof (vnorm_pos u); pose proof (vnorm_pos v); lra|]. intros w Hw.
  replace (vdot w (vadd u v)) with (vdot w u + vdot w v) by (destruct u as [a b c], v as [x y z], w as [p q r]; cbv [vdot vadd vx vy vz]; ring).
  eapply Rle_trans; [apply Rabs_triang|]. pose proof (cauchy w u) as A. pose proof (cauchy w v) as B. rewrite (vnorm_unit w Hw) in A, B. lra.
Qed.
Lemma vnorm_srot r v : hunit r -> vnorm (srot r v) = vnorm v.
Proof. intros H. unfold vnorm, vnorm2. rewrite srot_dot; auto. unfold hunit in H. lra. Qed.
Lemma srot_sub r u v : vsub (srot r u) (srot r v) = srot r (vsub u v).
Proof.
  replace (vsub u v) with (vadd u (vscale (-1) v)) by (destruct u as [a b c], v as [x y z]; cbv [vadd vscale vsub vx vy vz]; f_equal; ring).
  rewrite srot_add, srot_scale. destruct (srot r u) as [a b c], (srot r v) as [x y z]. cbv [vadd vscale vsub vx vy vz]; f_equal; ring.
Qed.
Lemma vnorm_cross u v : vnorm (vcross u v) <= vnorm u * vnorm v.
Proof.
  apply Rsqr_incr_0_var; [|apply Rmult_le_pos; apply vnorm_pos]. unfold Rsqr. pose proof (vnorm_sq u) as A. pose proof (vnorm_sq v) as B.
  replace (vnorm u * vnorm v * (vnorm u * vnorm v)) with ((vnorm u * vnorm u) * (vnorm v * vnorm v)) by ring. rewrite A, B, vnorm_sq.
  pose proof (Rle_0_sqr (vdot u v)) as P. unfold Rsqr in P. destruct u as [a b c], v as [x y z]. cbv [vdot vcross vx vy vz] in *. lra.
Qed.

Lemma map_seq_nth (ts : list R) : map (fun m => nth m ts 0) (seq 0 (List.length ts)) = ts.
Proof.
  apply List.nth_ext with (d := 0) (d' := 0); [rewrite map_length, seq_length; reflexivity|]. intros n Hn. rewrite map_length, seq_length in Hn.
  rewrite (nth_indep (map (fun m => nth m ts 0) (seq 0 (List.length ts))) 0 (nth 0 ts 0)) by (rewrite map_length, seq_length; exact Hn).
  rewrite (map_nth (fun m => nth m ts 0)). rewrite seq_nth by exact Hn. reflexivity.
Qed.

(* ---- gradients of vector curves ---- *)
(** o k is the k-th derivative of o 0, up to the n-th. *)
Definition vderivatives (o : nat -> R -> vec3) (n : nat) : Prop := forall k t, (k < n)%nat -> vderiv (o k) t (o (S k) t).
Lemma grad_dot ts (f g h : nat -> R) a b c m :
  grad_at ts (fun j => a * f j + b * g j + c * h j) m = a * grad_at ts f m + b * grad_at ts g m + c * grad_at ts h m.
Proof. unfold grad_at. cbv zeta. destruct (Nat.eqb m 0); [|destruct (Nat.eqb (S m) (List.length ts)); [|destruct (uniform ts)]]; unfold Rdiv; ring. Qed.
Lemma dot_deriv u (o : R -> vec3) t d : vderiv o t d -> derivable_pt_lim (fun x => vdot u (o x)) t (vdot u d).
Proof.
  intros (A & B & C). unfold vdot.
  change (derivable_pt_lim (plus_fct (plus_fct (mult_real_fct (vx u) (fun x => vx (o x))) (mult_real_fct (vy u) (fun x => vy (o x)))) (mult_real_fct (vz u) (fun x => vz (o x)))) t (vx u * vx d + vy u * vy d + vz u * vz d)).
  apply derivable_pt_lim_plus; [apply derivable_pt_lim_plus|]; apply derivable_pt_lim_scal; assumption.
Qed.
Section VGrad.
  Variables (ts : list R) (f : nat -> vec3) (o : nat -> R -> vec3) (M2 M3 H : R).
  Hypothesis Hinc : increasing ts.
  Hypothesis Hlen : (2 <= List.length ts)%nat.
  Hypothesis Hf : forall j, (j < List.length ts)%nat -> f j = o 0%nat (nth j ts 0).
  Hypothesis HD : vderivatives o 3.
  Hypothesis H2 : forall t, vnorm (o 2%nat t) <= M2.
  Hypothesis H3 : forall t, vnorm (o 3%nat t) <= M3.
  Hypothesis HH : spaced_by ts H.
  Definition vgrad m := V3 (grad_at ts (fun j => vx (f j)) m) (grad_at ts (fun j => vy (f j)) m) (grad_at ts (fun j => vz (f j)) m).
  Lemma vgrad_close m : (m < List.length ts)%nat ->
    vnorm (vsub (vgrad m) (o 1%nat (nth m ts 0))) <= (if Nat.eqb m 0 || Nat.eqb (S m) (List.length ts) then M2 * H / 2 else M3 * H ^ 2 / 6).
  Proof.
    intros Hm. assert (P : 0 < H). { pose proof (gap_pos ts H Hinc HH 0 ltac:(lia)). lra. }
    assert (P2 : 0 <= M2) by (pose proof (H2 0); pose proof (vnorm_pos (o 2%nat 0)); lra). assert (P3 : 0 <= M3) by (pose proof (H3 0); pose proof (vnorm_pos (o 3%nat 0)); lra).
    assert (Key : forall u, vdot u u = 1 -> Rabs (vdot u (vsub (vgrad m) (o 1%nat (nth m ts 0)))) <= (if Nat.eqb m 0 || Nat.eqb (S m) (List.length ts) then M2 * H / 2 else M3 * H ^ 2 / 6)).
    { intros u Hu. set (F := fun k t => vdot u (o k t)).
      assert (E : vdot u (vsub (vgrad m) (o 1%nat (nth m ts 0))) = grad_at ts (fun j => vdot u (f j)) m - F 1%nat (nth m ts 0)).
      { unfold vdot at 2. rewrite grad_dot. unfold vgrad, F. destruct u as [a b c], (o 1%nat (nth m ts 0)) as [x y z]. cbv [vdot vsub vx vy vz]. ring. }
      assert (DF : derivatives F 3). { intros k t Hk. apply dot_deriv, HD, Hk. }
      assert (BF : forall k t, Rabs (F k t) <= vnorm (o k t)). { intros k t. pose proof (cauchy u (o k t)) as A. rewrite (vnorm_unit u Hu) in A. unfold F. lra. }
      assert (Ef : forall j, (j < List.length ts)%nat -> vdot u (f j) = F 0%nat (nth j ts 0)) by (intros j Hj; rewrite Hf; auto).
      rewrite E. destruct (Nat.eqb_spec m 0) as [->|N0]; [|destruct (Nat.eqb_spec (S m) (List.length ts)) as [E1|N1]]; cbn [orb].
      - apply (grad_ends ts (fun j => vdot u (f j)) F M2 H Hinc Ef DF); auto. intros t. eapply Rle_trans; [apply BF|apply H2].
      - replace m with (List.length ts - 1)%nat by lia. apply (grad_ends ts (fun j => vdot u (f j)) F M2 H Hinc Ef DF); auto. intros t. eapply Rle_trans; [apply BF|apply H2].
      - apply (grad_inner ts (fun j => vdot u (f j)) F M3 H Hinc Ef DF); auto; try lia. intros t. eapply Rle_trans; [apply BF|apply H3]. }
    apply norm_by_dot; [|exact Key]. destruct (_ || _); [unfold Rdiv; apply Rmult_le_pos; [apply Rmult_le_pos; lra|lra]|]. unfold Rdiv; apply Rmult_le_pos; [apply Rmult_le_pos; [lra|apply pow_le; lra]|lra].
  Qed.
End VGrad.
