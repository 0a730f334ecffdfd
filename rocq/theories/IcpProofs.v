(** The iterative closest point loop. *)
From Coq Require Import Reals List Arith Bool ZArith Lia Lra Psatz.
From Verif Require Import Base Quat SpecQuat QuatProofs NdArray Transform Utils Velocity Estim SpecEstim EstimProofs.
Import ListNotations.
Open Scope R_scope.

Lemma dist2_sym a b : dist2 a b = dist2 b a.
Proof. destruct a, b. unfold dist2. mcomp. ring. Qed.
Lemma dist2_nonneg a b : 0 <= dist2 a b.
Proof. apply vdot_nonneg. Qed.
Lemma dist2_zero a b : dist2 a b = 0 -> a = b.
Proof. intros H. apply vdot_zero in H. destruct a, b. revert H. mcomp. intros H. injection H as H1 H2 H3. f_equal; lra. Qed.

(** nn2 is the minimum. *)
Lemma nn2_le v2 p q : In q v2 -> nn2 v2 p <= dist2 p q.
Proof.
  induction v2 as [|x v2 IH]; intros H; [destruct H|]. destruct v2 as [|y v2].
  - destruct H as [->|[]]. cbn. lra.
  - change (nn2 (x :: y :: v2) p) with (Rmin (dist2 p x) (nn2 (y :: v2) p)). destruct H as [->|H]; [apply Rmin_l|].
    eapply Rle_trans; [apply Rmin_r|]. apply IH, H.
Qed.
Lemma nn2_in v2 p : v2 <> [] -> exists q, In q v2 /\ nn2 v2 p = dist2 p q.
Proof.
  induction v2 as [|x v2 IH]; intros H; [congruence|]. destruct v2 as [|y v2].
  - exists x. split; [left; auto|reflexivity].
  - change (nn2 (x :: y :: v2) p) with (Rmin (dist2 p x) (nn2 (y :: v2) p)). destruct IH as (q & Hq & E); [discriminate|].
    unfold Rmin. destruct (Rle_dec _ _); [exists x; split; [left; auto|reflexivity]|]. exists q. split; [right; auto|exact E].
Qed.
Definition nn_of (v2 : list vec3) (p n : vec3) : Prop := In n v2 /\ forall q, In q v2 -> dist2 p n <= dist2 p q.
Lemma nn2_of v2 p n : nn_of v2 p n -> nn2 v2 p = dist2 p n.
Proof.
  intros (Hi & Hn). apply Rle_antisym; [apply nn2_le, Hi|]. destruct (nn2_in v2 p) as (q & Hq & ->); [intros ->; destruct Hi|]. auto.
Qed.
Lemma nn_error_pairs v2 ps ns : Forall2 (nn_of v2) ps ns -> nn_error v2 ps = sq_error v0 hone (combine ps ns).
Proof.
  induction 1 as [|p n ps ns H _ IH]; [reflexivity|]. unfold nn_error in *. cbn [fold_right combine sq_error]. rewrite IH, (nn2_of _ _ _ H), srot_one.
  rewrite dist2_sym. f_equal. f_equal. destruct p. apply vec3_eq; mcomp; ring.
Qed.
Lemma nn_error_moved v2 t r ps ns : Forall2 (nn_of v2) ps ns -> nn_error v2 (map (smove t r) ps) <= sq_error t r (combine ps ns).
Proof.
  induction 1 as [|p n ps ns (Hi & _) _ IH]; [cbn; lra|]. unfold nn_error in *. cbn [map fold_right combine sq_error].
  pose proof (nn2_le v2 (smove t r p) n Hi) as H. rewrite dist2_sym in H. unfold smove in *. lra.
Qed.
Lemma hone_nz : hn2 hone <> 0.
Proof. unfold hone. vunf. lra. Qed.
Lemma hunit_nz q : hunit q -> hn2 q <> 0.
Proof. unfold hunit. intros ->. lra. Qed.
Lemma icp_step_better v2 ps ps' : icp_step v2 ps ps' -> nn_error v2 ps' <= nn_error v2 ps.
Proof.
  intros (ns & t & r & Hf & Hu & Ho & ->). eapply Rle_trans; [apply (nn_error_moved v2 t r ps ns Hf)|].
  rewrite (nn_error_pairs v2 ps ns Hf). apply Ho, hone_nz.
Qed.
(** Rigid images. *)
Definition rigid_image (p ps : list vec3) : Prop := exists t q, hn2 q <> 0 /\ ps = map (smove t q) p.
Lemma rigid_refl p : rigid_image p p.
Proof.
  exists v0, hone. split; [exact hone_nz|]. rewrite <- (map_id p) at 1. apply map_ext. intros v. unfold smove. rewrite srot_one.
  destruct v. apply vec3_eq; mcomp; ring.
Qed.
Lemma rigid_move p ps t r : hn2 r <> 0 -> rigid_image p ps -> rigid_image p (map (smove t r) ps).
Proof.
  intros Hr (t0 & q & Hq & ->). exists (vadd (srot r t0) t), (hmul r q). split.
  - rewrite hn2_hmul. apply Rmult_integral_contrapositive_currified; auto.
  - rewrite map_map. apply map_ext. intros v. unfold smove. rewrite srot_add, srot_hmul by auto.
    destruct (srot r (srot q v)), (srot r t0), t. apply vec3_eq; mcomp; ring.
Qed.
Lemma sq_error_exact t q p : sq_error t q (combine p (map (smove t q) p)) = 0.
Proof.
  induction p as [|v p IH]; [reflexivity|]. cbn [map combine sq_error]. rewrite IH. unfold smove.
  destruct (vadd (srot q v) t). unfold dist2. mcomp. ring.
Qed.
Lemma sq_error_zero t q p p' : List.length p = List.length p' -> sq_error t q (combine p p') = 0 -> p' = map (smove t q) p.
Proof.
  revert p'. induction p as [|v p IH]; intros [|w p'] Hl H; try discriminate; [reflexivity|]. cbn [combine sq_error] in H. cbn [map].
  pose proof (dist2_nonneg w (vadd (srot q v) t)). pose proof (sq_error_nonneg t q (combine p p')).
  f_equal; [|apply IH; [cbn in Hl; lia|lra]]. apply dist2_zero. unfold smove. lra.
Qed.

Lemma f2_length {A B} (P : A -> B -> Prop) l m : Forall2 P l m -> List.length l = List.length m.
Proof. induction 1; cbn; congruence. Qed.
Section Loop.
  Variables (svd : mat3 -> mat3 * vec3 * mat3) (frm : mat3 -> quat) (nearest : list vec3 -> vec3 -> nat).
  Hypotheses (Hsvd : forall H, is_svd H (svd H)) (Hfrm : is_frm frm) (Hnear : is_nearest nearest).
  Lemma apply_pose_ok t r ps : hn2 r <> 0 -> apply_pose t r ps = Ok (map (smove t r) ps).
  Proof.
    intros H. unfold apply_pose. apply traverse_ok. intros p _. rewrite quat_rv_ok by (rewrite <- hn2_qnorm2; exact H). reflexivity.
  Qed.
  Lemma neighbours_ok v2 ps : v2 <> [] -> exists ns, neighbours nearest v2 ps = Ok ns /\ Forall2 (nn_of v2) ps ns.
  Proof.
    intros H. unfold neighbours. induction ps as [|p ps (ns & E & F)].
    - exists []. split; [reflexivity|constructor].
    - destruct (Hnear v2 p H) as (n & En & Hn). exists (n :: ns). split.
      + cbn. rewrite En. cbn. change (traverse ?f ps) with (traverse f ps) in E. unfold traverse in E. rewrite E. reflexivity.
      + constructor; auto. split; auto. eapply nth_error_In, En.
  Qed.
  Lemma mean_ok v2 ps ns : ps <> [] -> Forall2 (nn_of v2) ps ns -> mean (map (fun p => vdist (fst p) (snd p)) (combine ps ns)) = Ok (nn_mean v2 ps).
  Proof.
    intros Hne F.
    assert (L : List.length (combine ps ns) = List.length ps) by (rewrite combine_length, (f2_length _ _ _ F); lia).
    assert (E : fold_right Rplus 0 (map (fun p => vdist (fst p) (snd p)) (combine ps ns)) = fold_right (fun p s => sqrt (nn2 v2 p) + s) 0 ps).
    { clear Hne L. induction F as [|p n ps ns H F IH]; [reflexivity|]. cbn [combine map fold_right fst snd]. rewrite IH. f_equal. unfold vdist. f_equal.
      rewrite (nn2_of _ _ _ H). reflexivity. }
    unfold mean, nn_mean. rewrite E. rewrite map_length, L. destruct F as [|p n ps ns]; [congruence|]. reflexivity.
  Qed.
  Lemma icp_loop_ok p1 v2 tol n : v2 <> [] -> forall ps prev, ps <> [] -> rigid_image p1 ps ->
    exists tr final, icp_loop svd frm nearest v2 tol n ps prev = Ok final /\ icp_run v2 tol n prev (ps :: tr) /\
      (List.length tr <= n)%nat /\ last (ps :: tr) [] = final /\ rigid_image p1 final.
  Proof.
    intros Hv. induction n as [|n IH]; intros ps prev Hp Hr.
    - exists [], ps. split; [reflexivity|]. split; [constructor|]. split; [cbn; lia|]. split; [reflexivity|exact Hr].
    - destruct (neighbours_ok v2 ps Hv) as (ns & En & Fn).
      assert (L : List.length ps = List.length ns) by (apply (f2_length _ _ _ Fn)).
      destruct (fit_transform_optimal svd frm ps ns L Hp (Hsvd _) Hfrm) as (t & r & Ef & Hu & Ho).
      assert (St : icp_step v2 ps (map (smove t r) ps)) by (exists ns, t, r; auto).
      cbn [icp_loop]. rewrite En. cbn [bind]. rewrite Ef. cbn [bind]. rewrite (apply_pose_ok t r ps (hunit_nz r Hu)). cbn [bind].
      rewrite (mean_ok v2 ps ns Hp Fn). cbn [bind]. set (ps' := map (smove t r) ps) in *.
      assert (Hr' : rigid_image p1 ps') by (apply rigid_move; auto using hunit_nz).
      assert (Hp' : ps' <> []) by (unfold ps'; destruct ps; [congruence|discriminate]).
      destruct (Rlt_b (Rabs (prev - nn_mean v2 ps)) tol) eqn:E.
      + apply Rlt_b_true in E. exists [ps'], ps'. split; [reflexivity|]. split; [apply run_stop; auto|]. split; [cbn; lia|]. split; auto.
      + apply Rlt_b_false in E. destruct (IH ps' (nn_mean v2 ps) Hp' Hr') as (tr & final & E1 & E2 & E3 & E4 & E5).
        exists (ps' :: tr), final. split; [exact E1|]. split; [apply run_on; auto|]. split; [cbn; lia|]. split; auto.
  Qed.
  (** What the caller gets back. *)
  Lemma icp_points_ok p1 v2 init maxit tol : p1 <> [] -> v2 <> [] -> (forall t r, init = Some (t, r) -> hn2 r <> 0) ->
    exists t r tr, icp_points svd frm nearest p1 v2 init maxit tol = Ok (t, r) /\ hunit r /\
      let start := match init with None => p1 | Some (t0, r0) => map (smove t0 r0) p1 end in
      icp_run v2 tol (Z.to_nat maxit) 0 (start :: tr) /\ (List.length tr <= Z.to_nat maxit)%nat /\
      map (smove t r) p1 = last (start :: tr) [].
  Proof.
    intros H1 H2 Hi. set (start := match init with None => p1 | Some (t0, r0) => map (smove t0 r0) p1 end).
    assert (Es : match init with None => Ok p1 | Some (t, r) => apply_pose t r p1 end = Ok start).
    { unfold start. destruct init as [[t0 r0]|]; [|reflexivity]. apply apply_pose_ok. apply (Hi t0 r0). reflexivity. }
    assert (Rs : rigid_image p1 start).
    { unfold start. destruct init as [[t0 r0]|]; [|apply rigid_refl]. apply rigid_move; [apply (Hi t0 r0); reflexivity|apply rigid_refl]. }
    assert (Ns : start <> []) by (unfold start; destruct p1; [congruence|]; destruct init as [[]|]; discriminate).
    destruct (icp_loop_ok p1 v2 tol (Z.to_nat maxit) H2 start 0 Ns Rs) as (tr & final & E1 & E2 & E3 & E4 & (t0 & q & Hq & E5)).
    assert (L : List.length p1 = List.length final) by (rewrite E5, map_length; reflexivity).
    destruct (fit_transform_optimal svd frm p1 final L H1 (Hsvd _) Hfrm) as (t & r & Ef & Hu & Ho).
    exists t, r, tr. split; [unfold icp_points; rewrite Es; cbn [bind]; rewrite E1; exact Ef|]. split; [exact Hu|]. cbv zeta.
    split; [exact E2|]. split; [exact E3|]. fold start. rewrite E4. symmetry. apply sq_error_zero; auto.
    apply Rle_antisym; [|apply sq_error_nonneg]. eapply Rle_trans; [apply (Ho t0 q Hq)|]. rewrite E5, sq_error_exact. lra.
  Qed.
End Loop.
(** Along a run the error never grows. *)
Lemma icp_run_better v2 tol n prev tr : icp_run v2 tol n prev tr -> forall i a b, nth_error tr i = Some a -> nth_error tr (S i) = Some b ->
  nn_error v2 b <= nn_error v2 a.
Proof.
  induction 1 as [prev ps|n prev ps ps' S1 S2|n prev ps ps' tr S1 S2 _ IH]; intros i a b Ha Hb.
  - destruct i; discriminate.
  - destruct i as [|[|i]]; try discriminate. cbn in Ha, Hb. injection Ha as <-. injection Hb as <-. apply icp_step_better, S1.
  - destruct i as [|i]; cbn in Ha, Hb.
    + injection Ha as <-. injection Hb as <-. apply icp_step_better, S1.
    + apply (IH i); auto.
Qed.
