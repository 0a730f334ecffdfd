(** Property C75: angular velocity from rotation vectors. *)
From Coq Require Import Reals String List Arith Bool ZArith Lia Lra Psatz.
From Verif Require Import Base Quat SpecQuat QuatProofs NdArray Frames Matcher SpecLookup MovingProofs TimeProofs
  Transform SpecArray NdProofs PropRotate Coord PropCoord UtilsProofs ArcProofs Velocity VelProofs VelFrames PropVelocity SpecMotion MotionProofs PropAngular RotVec.
Import ListNotations.
Open Scope R_scope.

(** The rotation by angle a about the unit axis u. *)
Definition about_axis (u : vec3) (a : R) : quat := mkq (cos (a / 2)) (vscale (sin (a / 2)) u).

Lemma vscale_vscale a b v : vscale a (vscale b v) = vscale (a * b) v.
Proof. destruct v. unfold vscale. cbn. f_equal; ring. Qed.
Lemma vnorm_scale k u : vdot u u = 1 -> vnorm (vscale k u) = Rabs k.
Proof.
  intros H. unfold vnorm, vnorm2. replace (vdot (vscale k u) (vscale k u)) with (Rsqr k * vdot u u) by (destruct u; unfold vdot, vscale, Rsqr; cbn; ring).
  rewrite H, Rmult_1_r. apply sqrt_Rsqr_abs.
Qed.
Lemma log_about u a : vdot u u = 1 -> - (2 * PI) < a < 2 * PI -> vscale 2 (log_vec (about_axis u a)) = vscale a u.
Proof.
  intros Hu Ha. unfold log_vec. replace (qvec (about_axis u a)) with (vscale (sin (a / 2)) u) by (destruct u; reflexivity).
  rewrite vnorm_scale by auto. change (qw (about_axis u a)) with (cos (a / 2)).
  destruct (Rtotal_order a 0) as [H|[H|H]].
  - assert (S : sin (- a / 2) > 0) by (apply sin_gt_0; lra).
    replace (- a / 2) with (- (a / 2)) in S by lra. rewrite sin_neg in S. rewrite Rabs_left by lra.
    unfold Req_b. destruct (Req_EM_T _ _) as [E|_]; [lra|]. rewrite <- sin_neg, <- (cos_neg (a / 2)).
    destruct (atan2_inv 1 (- (a / 2))) as (E & _); [lra|lra|]. rewrite !Rmult_1_l in E. rewrite E. rewrite !vscale_vscale, sin_neg. f_equal. field. lra.
  - subst a. replace (0 / 2) with 0 by lra. rewrite sin_0, cos_0, Rabs_R0. unfold Req_b, Rlt_b. destruct (Req_EM_T _ _) as [_|]; [|lra].
    destruct (Rlt_dec 1 0); [lra|]. destruct u; unfold vscale, v0; cbn. f_equal; ring.
  - assert (S : sin (a / 2) > 0) by (apply sin_gt_0; lra). rewrite Rabs_right by lra.
    unfold Req_b. destruct (Req_EM_T _ _) as [E|_]; [lra|].
    destruct (atan2_inv 1 (a / 2)) as (E & _); [lra|lra|]. rewrite !Rmult_1_l in E. rewrite E. rewrite !vscale_vscale. f_equal. field. lra.
Qed.
Lemma about_unit u a : vdot u u = 1 -> hunit (about_axis u a).
Proof.
  intros H. unfold hunit, hn2, about_axis, sc. replace (ve (mkq (cos (a / 2)) (vscale (sin (a / 2)) u))) with (vscale (sin (a / 2)) u) by (destruct u; reflexivity).
  replace (vdot (vscale (sin (a / 2)) u) (vscale (sin (a / 2)) u)) with (Rsqr (sin (a / 2)) * vdot u u) by (destruct u; unfold vdot, vscale, Rsqr; cbn; ring).
  rewrite H. cbn [qw mkq]. pose proof (sin2_cos2 (a / 2)) as T. unfold Rsqr in *. lra.
Qed.
Lemma hn2_qnorm2 q : qnorm2 q = hn2 q.
Proof. destruct q. unfold qnorm2, hn2, sc, ve, vdot. cbn. ring. Qed.
Lemma rv_about u a rho : vdot u u = 1 -> 0 < rho -> - (2 * PI) < a < 2 * PI -> rotation_vector (qscale rho (about_axis u a)) = Ok (vscale a u).
Proof.
  intros Hu Hr Ha. pose proof (about_unit u a Hu) as U. unfold hunit in U. rewrite <- hn2_qnorm2 in U.
  assert (N : qnorm2 (qscale rho (about_axis u a)) = Rsqr rho) by (replace (qnorm2 (qscale rho (about_axis u a))) with (Rsqr rho * qnorm2 (about_axis u a))
    by (destruct (about_axis u a); unfold qnorm2, qscale, Rsqr; cbn; ring); rewrite U; ring).
  unfold rotation_vector, qlen. rewrite N. unfold Req_b. destruct (Req_EM_T _ _) as [E|_]; [unfold Rsqr in E; nra|].
  rewrite sqrt_Rsqr by lra. rewrite <- (log_about u a Hu Ha). do 3 f_equal. destruct (about_axis u a). unfold qscale. cbn. f_equal; field; lra.
Qed.
(** Every nonzero quaternion is such a rotation, up to a positive factor. *)
Lemma as_about q : hn2 q <> 0 -> exists u a rho, vdot u u = 1 /\ 0 < rho /\ 0 <= a <= 2 * PI /\ q = qscale rho (about_axis u a) /\ (a = 2 * PI -> ve q = v0 /\ qw q < 0).
Proof.
  intros Hq. set (b := vnorm (ve q)). set (rho := sqrt (qw q * qw q + b * b)). pose proof PI_RGT_0 as Hpi.
  assert (B2 : b * b = vdot (ve q) (ve q)). { unfold b, vnorm, vnorm2. apply sqrt_sqrt. unfold vdot. nra. }
  assert (B0 : 0 <= b) by (unfold b, vnorm; apply sqrt_pos).
  assert (Hn : 0 < qw q * qw q + b * b). { unfold hn2, sc in Hq. rewrite <- B2 in Hq. nra. }
  assert (Hr : 0 < rho) by (apply sqrt_lt_R0; auto). destruct (atan2_spec (qw q) b) as (C & S & Bd). fold rho in C, S. set (phi := atan2 b (qw q)) in *.
  assert (P0 : 0 <= phi). { destruct (Rle_lt_dec 0 phi); auto. exfalso. assert (sin (- phi) > 0) by (apply sin_gt_0; lra). rewrite sin_neg in H. nra. }
  assert (exists u, vdot u u = 1 /\ ve q = vscale b u) as (u & Hu & Hv).
  { destruct (Req_dec b 0) as [Z|Z].
    - exists (V3 1 0 0). split; [unfold vdot; cbn; ring|]. rewrite Z in *. unfold vdot in B2. destruct (ve q) as [x y z]. cbn in B2.
      unfold vscale. cbn. f_equal; nra.
    - exists (vscale (/ b) (ve q)). split.
      + replace (vdot (vscale (/ b) (ve q)) (vscale (/ b) (ve q))) with (/ b * / b * vdot (ve q) (ve q)) by (destruct (ve q); unfold vdot, vscale; cbn; ring).
        rewrite <- B2. field. auto.
      + rewrite vscale_vscale. replace (b * / b) with 1 by (field; auto). destruct (ve q); unfold vscale; cbn; f_equal; ring. }
  exists u, (2 * phi), rho. split; auto. split; auto. split; [lra|]. split.
  - unfold about_axis. replace (2 * phi / 2) with phi by lra. destruct q as [w x y z]. unfold ve in Hv. cbn [qw qx qy qz] in *.
    injection Hv as E1 E2 E3. unfold qscale, mkq. cbn [qw qx qy qz]. destruct u as [ux uy uz]. cbn [vx vy vz vscale] in *. f_equal; [lra| | |].
    + rewrite E1, <- S. unfold vscale. cbn. ring.
    + rewrite E2, <- S. unfold vscale. cbn. ring.
    + rewrite E3, <- S. unfold vscale. cbn. ring.
  - intros E. assert (phi = PI) as -> by lra. rewrite sin_PI in S. rewrite cos_PI in C. split; [|lra]. rewrite Hv. replace b with 0 by lra. destruct u; unfold vscale, v0; cbn; f_equal; ring.
Qed.
Lemma turn_full u a v : cos a = 1 -> sin a = 0 -> turn u a v = v.
Proof. intros C S. unfold turn. rewrite C, S. destruct v; unfold vadd, vscale, vcross; cbn. f_equal; ring. Qed.
(** The rotation vector of a quaternion of any nonzero length: turning by its length about
    its direction is the rotation of the quaternion. *)
Theorem C75_rotation_vector : forall q, hn2 q <> 0 -> exists v, rotation_vector q = Ok v /\ vlen v <= 2 * PI /\
  forall u, vdot u u = 1 -> v = vscale (vlen v) u -> forall x, srot q x = turn u (vlen v) x.
Proof.
  intros q Hq. destruct (as_about q Hq) as (u & a & rho & Hu & Hr & Ha & E & Hf). pose proof PI_RGT_0 as Hpi.
  assert (Hs : forall x, srot q x = turn u a x).
  { intros x. rewrite E, srot_qscale; [apply srot_turn; auto|lra|]. pose proof (about_unit u a Hu) as U. unfold hunit in U. rewrite U. lra. }
  assert (Hl : forall k w, 0 <= k -> vdot w w = 1 -> vlen (vscale k w) = k).
  { intros k w Hk Hw. change (vlen (vscale k w)) with (vnorm (vscale k w)). rewrite vnorm_scale by auto. apply Rabs_right. lra. }
  destruct (Req_dec a (2 * PI)) as [E2|N2].
  - destruct (Hf E2) as (Hv & Hw). exists (V3 (2 * PI) 0 0).
    assert (L : vlen (V3 (2 * PI) 0 0) = 2 * PI).
    { replace (V3 (2 * PI) 0 0) with (vscale (2 * PI) (V3 1 0 0)) by (unfold vscale; cbn; f_equal; ring). apply Hl; [lra|unfold vdot; cbn; ring]. }
    split; [|split; [lra|]].
    + unfold rotation_vector. rewrite hn2_qnorm2. unfold Req_b at 1. destruct (Req_EM_T _ _); [contradiction|]. f_equal.
      destruct q as [w x y z]. unfold ve in Hv. cbn in Hv, Hw. injection Hv as -> -> ->. unfold log_vec.
      replace (qvec (qscale (/ qlen (Qt w 0 0 0)) (Qt w 0 0 0))) with (V3 0 0 0) by (unfold qvec, qscale; cbn; f_equal; ring).
      replace (vnorm (V3 0 0 0)) with 0 by (unfold vnorm, vnorm2, vdot; cbn; replace (0 * 0 + 0 * 0 + 0 * 0) with 0 by ring; symmetry; apply sqrt_0).
      unfold Req_b. destruct (Req_EM_T 0 0); [|lra]. cbn [qw qscale]. unfold Rlt_b. destruct (Rlt_dec _ _) as [_|N]; [unfold vscale; cbn; f_equal; ring|].
      exfalso. apply N. assert (0 < qlen (Qt w 0 0 0)). { unfold qlen. apply sqrt_lt_R0. unfold qnorm2. cbn. nra. }
      assert (0 < / qlen (Qt w 0 0 0)) by (apply Rinv_0_lt_compat; auto). cbn. nra.
    + intros u' Hu' Eu x. rewrite Hs, L, E2. rewrite !turn_full; auto; try apply cos_2PI; apply sin_2PI.
  - exists (vscale a u). split; [rewrite E; apply rv_about; auto; lra|]. rewrite Hl by (auto; lra). split; [lra|].
    intros u' Hu' Eu x. rewrite Hs. destruct (Req_dec a 0) as [->|Na]; [rewrite !turn_full; auto using cos_0, sin_0|].
    assert (u = u') as <-; auto. replace u with (vscale (/ a) (vscale a u)) by (rewrite vscale_vscale; destruct u; unfold vscale; cbn; f_equal; field; auto).
    rewrite Eu. rewrite vscale_vscale. destruct u'; unfold vscale; cbn; f_equal; field; auto.
Qed.

(* ------------------------------------------------------------------ the estimate *)
(** Rotation about a fixed axis u by al + om t + acc t^2 / 2. *)
Lemma about_deriv u f f' t : derivable_pt_lim f t f' -> qderiv (fun x => about_axis u (f x)) t
  (mkq (- sin (f t / 2) * (f' / 2)) (vscale (cos (f t / 2) * (f' / 2)) u)).
Proof.
  intros H. assert (H2 : derivable_pt_lim (fun x => f x / 2) t (f' / 2)).
  { apply (dlim_ext (fun x => / 2 * f x)); [intros; lra|]. apply (dlim_eq _ _ (0 * f t + / 2 * f')); [lra|]. apply (dlim_mul (fun _ => / 2) f); auto using dlim_const. }
  assert (C : derivable_pt_lim (fun x => cos (f x / 2)) t (- sin (f t / 2) * (f' / 2))).
  { apply (derivable_pt_lim_comp (fun x => f x / 2) cos); auto. apply derivable_pt_lim_cos. }
  assert (S : derivable_pt_lim (fun x => sin (f x / 2)) t (cos (f t / 2) * (f' / 2))).
  { apply (derivable_pt_lim_comp (fun x => f x / 2) sin); auto. apply derivable_pt_lim_sin. }
  assert (Sc : forall c, derivable_pt_lim (fun x => sin (f x / 2) * c) t (cos (f t / 2) * (f' / 2) * c)).
  { intros c. apply (dlim_eq _ _ (cos (f t / 2) * (f' / 2) * c + sin (f t / 2) * 0)); [ring|]. apply (dlim_mul (fun x => sin (f x / 2)) (fun _ => c)); auto using dlim_const. }
  destruct u as [x y z]. unfold qderiv, about_axis, mkq, vscale. cbn [qw qx qy qz vx vy vz]. auto.
Qed.
Lemma rate_alg u s c h : s * s + c * c = 1 -> rate_of (mkq c (vscale s u)) (mkq (- s * h) (vscale (c * h) u)) = vscale (2 * h) u.
Proof.
  intros T. destruct u as [x y z]. cbv [rate_of mkq vscale hmul hconj ve sc vdot vadd vcross vopp qw qx qy qz vx vy vz]. f_equal.
  - transitivity (2 * h * x * (s * s + c * c)); [ring|rewrite T; ring].
  - transitivity (2 * h * y * (s * s + c * c)); [ring|rewrite T; ring].
  - transitivity (2 * h * z * (s * s + c * c)); [ring|rewrite T; ring].
Qed.
Lemma about_rate u f f' t : vdot u u = 1 -> derivable_pt_lim f t f' -> body_rate (fun x => about_axis u (f x)) t (vscale f' u).
Proof.
  intros Hu H. pose proof (body_rate_of (fun x => about_axis u (f x)) t _ (fun x => about_unit u (f x) Hu) (about_deriv u f f' t H)) as B.
  cbv beta in B. unfold about_axis at 2 in B. rewrite rate_alg in B by (pose proof (sin2_cos2 (f t / 2)) as T; unfold Rsqr in T; exact T).
  replace (2 * (f' / 2)) with f' in B by field. exact B.
Qed.
Definition angle (al om acc t : R) : R := al + om * t + acc / 2 * (t * t).
Lemma angle_deriv al om acc t : derivable_pt_lim (angle al om acc) t (om + acc * t).
Proof.
  unfold angle. apply (dlim_ext (fun x => al + om * x + acc / 2 * (x * x))); auto.
  apply (dlim_eq _ _ ((0 + (0 * t + om * 1)) + (0 * (t * t) + acc / 2 * (1 * t + t * 1)))); [field|].
  apply (dlim_add (fun x => al + om * x) (fun x => acc / 2 * (x * x))).
  - apply (dlim_add (fun _ => al) (fun x => om * x)); [apply dlim_const|]. apply (dlim_mul (fun _ => om) (fun x => x)); [apply dlim_const|apply derivable_pt_lim_id].
  - apply (dlim_mul (fun _ => acc / 2) (fun x => x * x)); [apply dlim_const|]. apply (dlim_mul (fun x => x) (fun x => x)); apply derivable_pt_lim_id.
Qed.
(** Rotations about fixed axes (one per series, of any constant length of the quaternions)
    at uniformly changing rates, with angles in (-2 pi, 2 pi): the estimate is the body
    angular velocity, at every sample if the rate is constant, else at the inner ones. *)
Theorem C75_fixed_axis : forall (a : nd R) ts axis time_axis k tau (u : list nat -> vec3) (rho : list nat -> R) (al om acc : list nat -> R),
  (k < ndim a)%nat -> (tau < ndim a)%nat -> k <> tau -> axis_is axis k (ndim a) -> axis_is time_axis tau (ndim a) ->
  nth k (shp a) O = 4%nat -> nth tau (shp a) O = List.length ts -> increasing ts -> (2 <= List.length ts)%nat ->
  (forall c, vdot (u c) (u c) = 1) -> (forall ix, 0 < rho ix) ->
  (forall ix, valid (shp a) ix -> let c := series tau k ix in let t := nth (nth tau ix O) ts 0 in
     - (2 * PI) < angle (al c) (om c) (acc c) t < 2 * PI /\
     dat a ix = rho (setn k 0 ix) * comp4 (nth k ix O) (about_axis (u c) (angle (al c) (om c) (acc c) t))) ->
  exists b, estimate_rotvec a ts axis time_axis = Ok b /\ shp b = setn k 3 (shp a) /\
  forall ix, valid (shp a) ix ->
    let c := series tau k ix in let m := nth tau ix O in let t := nth m ts 0 in
    acc c = 0 \/ (0 < m)%nat /\ (S m < List.length ts)%nat ->
    (forall j, (j < 3)%nat -> dat b (setn k j ix) = comp3 j (vscale (om c + acc c * t) (u c))) /\
    body_rate (fun x => about_axis (u c) (angle (al c) (om c) (acc c) x)) t (vscale (om c + acc c * t) (u c)).
Proof.
  intros a ts axis time_axis k t0 u rho al om acc Hk Ht Hne Hax Hta H4 HN Hinc H2 Hu Hrho Hdat.
  unfold estimate_rotvec. destruct (ndim a) as [|n1] eqn:En; [lia|].
  rewrite (axis_is_mod axis k (S n1) Hk Hax), (axis_is_mod time_axis t0 (S n1) Ht Hta). rewrite !Nat2Z.id. cbv zeta.
  assert (Hls : List.length (shp a) = S n1) by exact En.
  set (tau := if Nat.eqb t0 n1 then k else t0).
  assert (Htau : (tau < S n1)%nat /\ tau <> n1 /\ transp k n1 tau = t0).
  { unfold tau. destruct (Nat.eqb_spec t0 n1) as [->|Hn].
    - split; [lia|]. split; [lia|]. unfold transp. rewrite Nat.eqb_refl. reflexivity.
    - split; [lia|]. split; [lia|]. unfold transp.
      destruct (Nat.eqb_spec t0 k); [lia|]. destruct (Nat.eqb_spec t0 n1); [lia|]. reflexivity. }
  destruct Htau as (Htl & Htn & Htr).
  assert (Htr' : transp k n1 t0 = tau) by (rewrite <- Htr; apply transp_invol).
  assert (Hkn : transp k n1 n1 = k) by (unfold transp; rewrite Nat.eqb_refl; destruct (Nat.eqb_spec n1 k); auto).
  assert (Hkn' : transp k n1 k = n1) by (unfold transp; rewrite Nat.eqb_refl; auto).
  assert (Hnth : forall ix x, List.length ix = S n1 -> (x < S n1)%nat -> nth x (swapl k n1 ix) O = nth (transp k n1 x) ix O)
    by (intros; apply nth_swapl; lia).
  set (r := swap_nd k n1 a).
  replace (nth n1 (shp r) O) with 4%nat by (cbn [r shp swap_nd]; rewrite Hnth by (auto; lia); rewrite Hkn; auto).
  change (negb (Nat.eqb 4 4)) with false. cbv iota.
  (* the quaternion at an index of the swapped array *)
  assert (HQ : forall ix, List.length ix = S n1 -> valid (shp a) (setn k 0 ix) -> forall j,
     let c := series t0 k ix in let t := nth (nth t0 ix O) ts 0 in
     - (2 * PI) < angle (al c) (om c) (acc c) t < 2 * PI /\
     quat_in r n1 (swapl k n1 (setn k j ix)) = qscale (rho (setn k 0 ix)) (about_axis (u c) (angle (al c) (om c) (acc c) t))).
  { intros ix L Hv j c t.
    assert (D : forall i, (i < 4)%nat -> - (2 * PI) < angle (al c) (om c) (acc c) t < 2 * PI /\
      dat r (setn n1 i (swapl k n1 (setn k j ix))) = rho (setn k 0 ix) * comp4 i (about_axis (u c) (angle (al c) (om c) (acc c) t))).
    { intros i Hi. cbn [r swap_nd dat]. rewrite swapl_setn by (rewrite ?length_swapl, ?length_setn; lia). rewrite Hkn, swapl_invol by (rewrite ?length_setn; lia). rewrite setn_setn.
      assert (Vi : valid (shp a) (setn k i ix)). { replace (setn k i ix) with (setn k i (setn k 0 ix)) by apply setn_setn. apply valid_setn; auto. rewrite H4. exact Hi. }
      destruct (Hdat _ Vi) as (A & B). cbv zeta in A, B. rewrite nth_setn_same in B by lia. rewrite (nth_setn_other k i ix t0) in A, B by auto. rewrite setn_setn in B.
      assert (Es : series t0 k (setn k i ix) = c) by (unfold c, series; rewrite setn_setn; reflexivity). rewrite Es in A, B. auto. }
    split; [apply (D 0%nat); lia|]. unfold quat_in. destruct (about_axis (u c) (angle (al c) (om c) (acc c) t)) as [q0 q1' q2 q3] eqn:EA.
    rewrite (proj2 (D 0%nat ltac:(lia))), (proj2 (D 1%nat ltac:(lia))), (proj2 (D 2%nat ltac:(lia))), (proj2 (D 3%nat ltac:(lia))). reflexivity. }
  destruct (traverse_all_ok (fun ix => rotation_vector (quat_in r n1 ix)) (indices (shp r))) as (l & El).
  { intros jx Hj. apply in_indices in Hj. pose proof (valid_length _ _ Hj) as L. cbn [r swap_nd shp] in L. rewrite length_swapl in L.
    assert (Hv : valid (shp a) (swapl k n1 jx)) by (apply valid_swapl_inv; auto; lia).
    destruct (HQ (swapl k n1 jx) ltac:(rewrite length_swapl; lia) ltac:(apply valid_setn; auto; lia) (nth k (swapl k n1 jx) O)) as (A & B).
    rewrite setn_id, swapl_invol in B by lia. rewrite B. eexists. apply rv_about; auto. }
  rewrite El. cbn [bind]. unfold gradient_nd. cbn [shp]. rewrite nth_setn_other by auto.
  replace (nth tau (shp r) O) with (List.length ts) by (cbn [r shp swap_nd]; rewrite Hnth by (auto; lia); rewrite Htr; auto).
  rewrite grad_check_ok by auto. cbn [bind]. eexists. split; [reflexivity|]. split.
  { cbn [shp swap_nd r]. rewrite swapl_setn by (rewrite length_swapl; lia). rewrite Hkn, swapl_invol by lia. reflexivity. }
  intros ix Hix Hcase. set (c := series t0 k ix) in *. set (m := nth t0 ix O) in *. set (t := nth m ts 0) in *. pose proof (valid_length _ _ Hix) as L.
  split; [|apply about_rate; auto; apply angle_deriv].
  intros j Hj. cbn [dat swap_nd]. rewrite Hnth by (rewrite ?length_setn; lia). rewrite Htr, (nth_setn_other k j ix t0) by auto. fold m.
  assert (Hm : (m < List.length ts)%nat). { unfold m. rewrite <- HN. apply (proj2 (proj1 (valid_nth _ _) Hix)). lia. }
  assert (F : forall i, (i < List.length ts)%nat ->
    match rotation_vector (quat_in r n1 (setn tau i (swapl k n1 (setn k j ix)))) with Ok v => comp3 (nth n1 (setn tau i (swapl k n1 (setn k j ix))) O) v | Raise _ => 0 end
    = comp3 j (u c) * al c + comp3 j (u c) * om c * nth i ts 0 + comp3 j (u c) * acc c / 2 * (nth i ts 0 * nth i ts 0)).
  { intros i Hi. set (ix0 := setn tau i (swapl k n1 (setn k j ix))). assert (E0 : ix0 = swapl k n1 (setn k j (setn t0 i ix))).
    { unfold ix0. rewrite (setn_comm k t0) by auto. rewrite (swapl_setn k n1 t0) by (rewrite ?length_setn; lia). rewrite Htr'. reflexivity. }
    assert (Vi : valid (shp a) (setn k 0 (setn t0 i ix))). { apply valid_setn; [apply valid_setn; auto; rewrite HN; auto|lia]. }
    destruct (HQ (setn t0 i ix) ltac:(rewrite length_setn; lia) Vi j) as (A & B). cbv zeta in A, B. rewrite nth_setn_same in A, B by lia.
    assert (Es : series t0 k (setn t0 i ix) = c). { unfold c, series. rewrite (setn_comm k t0) by auto. rewrite setn_setn. rewrite (setn_comm t0 k) by auto. rewrite (setn_comm k t0) by auto. reflexivity. }
    rewrite Es in A, B. rewrite E0, B, rv_about by auto. rewrite Hnth by (rewrite ?length_setn; lia). rewrite Hkn, nth_setn_same by (rewrite ?length_setn; lia).
    unfold angle. destruct (u c) as [x y z]. destruct j as [|[|[|j]]]; [| | |lia]; unfold vscale; cbn [comp3 vx vy vz]; field. }
  replace (comp3 j (vscale (om c + acc c * t) (u c))) with (comp3 j (u c) * om c + comp3 j (u c) * acc c * t)
    by (generalize (u c); intros [x y z]; destruct j as [|[|[|j]]]; [| | |lia]; unfold vscale; cbn [comp3 vx vy vz]; ring).
  destruct Hcase as [Z|(M1 & M2)].
  - rewrite Z. replace (comp3 j (u c) * om c + comp3 j (u c) * 0 * t) with (comp3 j (u c) * om c) by ring.
    apply (grad_line ts _ (comp3 j (u c) * al c)); auto. intros i Hi. rewrite F by auto. rewrite Z. field.
  - apply (grad_parabola ts _ (comp3 j (u c) * al c)); auto.
Qed.
(* ------------------------------------------------------------------ where it fails *)
(** Two samples, quaternion last, time first. *)
Definition two_rows (q0 q1 : quat) : nd R := Nd [2;4]%nat (fun ix => comp4 (nth 1 ix O) (match nth 0 ix O with O => q0 | _ => q1 end)).
Lemma two_rows_ok q0 q1 r0 r1 ts t0 t1 : rotation_vector q0 = Ok r0 -> rotation_vector q1 = Ok r1 -> ts = [t0; t1] -> t0 < t1 ->
  exists b, estimate_rotvec (two_rows q0 q1) ts (-1) 0 = Ok b /\ shp b = [2;3]%nat /\
    forall m j, (m < 2)%nat -> (j < 3)%nat -> dat b [m; j] = (comp3 j r1 - comp3 j r0) / (t1 - t0).
Proof.
  intros E0 E1 -> Ht. unfold estimate_rotvec. change (ndim (two_rows q0 q1)) with 2%nat. cbv iota zeta.
  change (Z.to_nat (-1 mod Z.of_nat 2)) with 1%nat. change (Z.to_nat (0 mod Z.of_nat 2)) with 0%nat. cbn [Nat.eqb].
  set (r := swap_nd 1 1 (two_rows q0 q1)). change (negb (Nat.eqb (nth 1 (shp r) O) 4)) with false. cbv iota.
  assert (Q : forall m j, quat_in r 1 [m; j] = match m with O => q0 | _ => q1 end).
  { intros m j. destruct q0, q1, m; reflexivity. }
  destruct (traverse_all_ok (fun ix => rotation_vector (quat_in r 1 ix)) (indices (shp r))) as (l & El).
  { intros ix Hx. apply in_indices in Hx. pose proof (valid_length _ _ Hx) as L. destruct ix as [|m [|j [|]]]; try discriminate L.
    rewrite Q. destruct m; eauto. }
  rewrite El. cbn [bind]. unfold gradient_nd. change (nth 0 (shp _) O) with 2%nat. rewrite grad_check_ok.
  - cbn [bind]. eexists. split; [reflexivity|]. split; [reflexivity|].
    intros m j Hm Hj. cbn [dat swap_nd]. change (swapl 1 1 [m; j]) with [m; j]. cbn [nth]. unfold grad_at.
    cbn [setn nth]. rewrite !Q, E0, E1. cbn [List.length].
    destruct m as [|[|]]; [| |lia]; cbn [Nat.eqb Nat.sub setn nth]; rewrite ?Q, ?E0, ?E1; reflexivity.
  - intros i j x y Hij Hx Hy. destruct i as [|[|i]]; destruct j as [|[|j]]; simpl in *; try discriminate; try lia;
     try (destruct i; discriminate); try (destruct j; discriminate); injection Hx as <-; injection Hy as <-; lra.
  - cbn. lia.
Qed.

(** The estimate is the difference of the rotation vectors, so it is wrong when the angle
    passes 2 pi between two samples: off by 4 pi over the time step. *)
Theorem C75_wrap_refuted : forall u a0 a1 t0 t1, vdot u u = 1 -> - (2 * PI) < a0 < 2 * PI -> 2 * PI < a1 < 6 * PI -> t0 < t1 ->
  let om := (a1 - a0) / (t1 - t0) in
  let q t := about_axis u (a0 + om * (t - t0)) in
  (forall t, body_rate q t (vscale om u)) /\
  exists b, estimate_rotvec (two_rows (q t0) (q t1)) [t0; t1] (-1) 0 = Ok b /\ shp b = [2;3]%nat /\
    forall m j, (m < 2)%nat -> (j < 3)%nat -> dat b [m; j] = comp3 j (vscale (om - 4 * PI / (t1 - t0)) u).
Proof.
  intros u a0 a1 t0 t1 Hu H0 H1 Ht om q. split.
  - intros t. apply about_rate; auto. apply (dlim_ext (angle (a0 - om * t0) om 0)); [intros x; unfold angle; field|].
    apply (dlim_eq _ _ (om + 0 * t)); [ring|]. apply angle_deriv.
  - assert (E0 : q t0 = qscale 1 (about_axis u a0)).
    { unfold q. replace (a0 + om * (t0 - t0)) with a0 by ring. destruct (about_axis u a0). unfold qscale. cbn. f_equal; ring. }
    assert (E1 : q t1 = qscale 1 (about_axis u (a1 - 4 * PI))).
    { unfold q. replace (a0 + om * (t1 - t0)) with a1 by (unfold om; field; lra). unfold about_axis.
      replace ((a1 - 4 * PI) / 2) with (a1 / 2 - 2 * PI) by field.
      assert (C : cos (a1 / 2 - 2 * PI) = cos (a1 / 2)) by (rewrite cos_minus, cos_2PI, sin_2PI; ring).
      assert (S : sin (a1 / 2 - 2 * PI) = sin (a1 / 2)) by (rewrite sin_minus, cos_2PI, sin_2PI; ring).
      rewrite C, S. generalize (cos (a1 / 2)), (sin (a1 / 2)); intros c s; destruct u as [x y z]; unfold mkq, vscale, qscale; cbn; f_equal; ring. }
    destruct (two_rows_ok (q t0) (q t1) (vscale a0 u) (vscale (a1 - 4 * PI) u) [t0; t1] t0 t1) as (b & B & S & D);
      [rewrite E0; apply rv_about; auto; lra|rewrite E1; apply rv_about; auto; lra|reflexivity|auto|].
    exists b. split; [exact B|]. split; [exact S|]. intros m j Hm Hj. rewrite (D m j Hm Hj). unfold om.
    destruct u as [x y z]; destruct j as [|[|[|j]]]; [| | |lia]; unfold vscale; cbn [comp3 vx vy vz]; field; lra.
Qed.
(** It is wrong for a constant body rate as soon as the orientation is not a multiple of
    that rotation: half a turn about x after half a turn about z. *)
Definition tumble (t : R) : quat := Qt 0 0 (sin (PI * t / 2)) (cos (PI * t / 2)).
Theorem C75_axis_refuted :
  (forall t, body_rate tumble t (V3 PI 0 0)) /\
  exists b, estimate_rotvec (two_rows (tumble 0) (tumble 1)) [0; 1] (-1) 0 = Ok b /\
    forall m, (m < 2)%nat -> dat b [m; 0%nat] = 0 /\ dat b [m; 1%nat] = PI /\ dat b [m; 2%nat] = - PI.
Proof.
  split.
  - intros t. set (dq := Qt 0 0 (cos (PI * t / 2) * (PI / 2)) (- sin (PI * t / 2) * (PI / 2))).
    assert (L : derivable_pt_lim (fun x => PI * x / 2) t (PI / 2)).
    { apply (dlim_ext (angle 0 (PI / 2) 0)); [intros x; unfold angle; field|]. apply (dlim_eq _ _ (PI / 2 + 0 * t)); [ring|]. apply angle_deriv. }
    replace (V3 PI 0 0) with (rate_of (tumble t) dq).
    + apply body_rate_of.
      * intros x. unfold hunit, hn2, tumble, sc, ve, vdot. cbn. pose proof (sin2_cos2 (PI * x / 2)) as H. unfold Rsqr in H. lra.
      * unfold qderiv, tumble, dq. cbn [qw qx qy qz]. split; [apply derivable_pt_lim_const|]. split; [apply derivable_pt_lim_const|]. split.
        -- apply (derivable_pt_lim_comp (fun x => PI * x / 2) sin); [exact L|apply derivable_pt_lim_sin].
        -- apply (derivable_pt_lim_comp (fun x => PI * x / 2) cos); [exact L|apply derivable_pt_lim_cos].
    + unfold tumble, dq. pose proof (sin2_cos2 (PI * t / 2)) as H. unfold Rsqr in H.
      revert H. generalize (sin (PI * t / 2)), (cos (PI * t / 2)). intros s c H.
      cbv [rate_of hmul hconj mkq sc ve vscale vadd vcross vdot vsub vopp qw qx qy qz vx vy vz]. f_equal; [|field|field].
      transitivity ((s * s + c * c) * PI); [field|rewrite H; ring].
  - assert (E0 : tumble 0 = qscale 1 (about_axis (V3 0 0 1) PI)).
    { unfold tumble, about_axis, mkq, qscale, vscale. cbn. replace (PI * 0 / 2) with 0 by field. rewrite sin_0, cos_0, sin_PI2, cos_PI2. f_equal; ring. }
    assert (E1 : tumble 1 = qscale 1 (about_axis (V3 0 1 0) PI)).
    { unfold tumble, about_axis, mkq, qscale, vscale. cbn. replace (PI * 1 / 2) with (PI / 2) by field. rewrite sin_PI2, cos_PI2. f_equal; ring. }
    pose proof PI_RGT_0 as HP.
    destruct (two_rows_ok (tumble 0) (tumble 1) (vscale PI (V3 0 0 1)) (vscale PI (V3 0 1 0)) [0; 1] 0 1) as (b & B & S & D);
      [rewrite E0; apply rv_about; [unfold vdot; cbn; ring|lra|lra]|rewrite E1; apply rv_about; [unfold vdot; cbn; ring|lra|lra]|reflexivity|lra|].
    exists b. split; [exact B|]. intros m Hm. rewrite !D by (auto; lia). unfold vscale. cbn [comp3 vx vy vz]. repeat apply conj; field.
Qed.
(** The choice of the mode. *)
Theorem C75_modes : forall deriv a ts axis time_axis,
  estimate_angular_mode deriv "rotation_vector" a ts axis time_axis = estimate_rotvec a ts axis time_axis /\
  (forall b, estimate_angular_mode deriv "quaternion" a ts axis time_axis = Ok b ->
     exists g, estimate_angular deriv (Nd (shp a) (fun ix => Some (dat a ix))) ts axis time_axis = Ok g /\ shp b = shp g /\
       forall ix, valid (shp g) ix -> dat g ix = Some (dat b ix)) /\
  (forall mode, mode <> "rotation_vector"%string -> mode <> "quaternion"%string ->
     estimate_angular_mode deriv mode a ts axis time_axis = Raise ValueError).
Proof.
  intros deriv a ts axis time_axis. split; [reflexivity|]. split.
  - intros b. unfold estimate_angular_mode. change (String.eqb "quaternion" "quaternion") with true. cbv iota.
    destruct (estimate_angular _ _ _ _ _) as [g|e]; [|discriminate]. cbn [bind]. intros H. exists g. split; [reflexivity|].
    unfold no_nan in H. destruct (existsb _ _) eqn:E; [discriminate|]. injection H as <-. cbn [shp dat]. split; [reflexivity|].
    intros ix Hx. destruct (dat g ix) as [x|] eqn:Ed; [reflexivity|]. exfalso.
    rewrite <- not_true_iff_false in E. apply E. apply existsb_exists. exists ix. split; [apply in_indices; auto|rewrite Ed; reflexivity].
  - intros mode H1 H2. unfold estimate_angular_mode. apply String.eqb_neq in H1, H2. rewrite H1, H2. reflexivity.
Qed.
(** A turn about z at unit rate, quaternions of length 2, at the times 0, 1, 3. *)
Example C75_example : let a := Nd [3;4]%nat (fun ix => 2 * comp4 (nth 1 ix O) (about_axis (V3 0 0 1) (nth (nth 0 ix O) grid3 0))) in
  axis_is (-1) 1 (ndim a) /\ axis_is 0 0 (ndim a) /\ increasing grid3 /\ vdot (V3 0 0 1) (V3 0 0 1) = 1 /\
  forall ix, valid (shp a) ix -> let t := nth (nth 0 ix O) grid3 0 in
    - (2 * PI) < angle 0 1 0 t < 2 * PI /\ dat a ix = 2 * comp4 (nth 1 ix O) (about_axis (V3 0 0 1) (angle 0 1 0 t)).
Proof.
  intros a. split; [right; reflexivity|]. split; [left; reflexivity|]. split; [exact grid3_inc|]. split; [unfold vdot; cbn; ring|].
  intros ix Hx t. assert (T : 0 <= t <= 3).
  { unfold t. destruct (nth 0 ix O) as [|[|[|n]]]; cbn; try lra. destruct n; lra. }
  pose proof PI2_1 as P1. unfold angle. split; [pose proof PI_RGT_0; split; [|]|].
  - lra.
  - lra.
  - cbn [dat a]. fold t. do 3 f_equal. lra.
Qed.
