(** Properties C30, C31: polar and spherical coordinates. *)
From Coq Require Import Reals List Arith Bool ZArith Lia Lra.
From Verif Require Import Base NdArray Transform SpecArray NdProofs PropRotate Coord.
Import ListNotations.
Open Scope R_scope.

(* ---- angles ---- *)
Lemma sin_zero_small a : - PI < a < PI -> sin a = 0 -> a = 0.
Proof.
  intros (H1 & H2) H. destruct (Rtotal_order a 0) as [L|[E|L]]; auto.
  - assert (0 < sin (- a)) by (apply sin_gt_0; lra). rewrite sin_neg in H0. lra.
  - assert (0 < sin a) by (apply sin_gt_0; lra). lra.
Qed.
(** An angle in (-PI, PI] is determined by its cosine and sine. *)
Lemma angle_unique a b : - PI < a <= PI -> - PI < b <= PI -> cos a = cos b -> sin a = sin b -> a = b.
Proof.
  intros Ha Hb Hc Hs. assert (C : cos (a - b) = 1).
  { rewrite cos_minus, Hc, Hs. pose proof (sin2_cos2 b) as T. unfold Rsqr in T. lra. }
  assert (S : sin ((a - b) / 2) = 0).
  { replace (a - b) with (2 * ((a - b) / 2)) in C by field. rewrite cos_2a_sin in C.
    assert (P : sin ((a - b) / 2) * sin ((a - b) / 2) = 0) by lra. apply Rmult_integral in P. tauto. }
  apply sin_zero_small in S; lra.
Qed.
Lemma sqrt_factor x y : x <> 0 -> sqrt (x * x + y * y) = Rabs x * sqrt (1 + Rsqr (y / x)).
Proof.
  intros H. rewrite <- sqrt_Rsqr_abs, <- sqrt_mult.
  - f_equal. unfold Rsqr. field. auto.
  - apply Rle_0_sqr.
  - pose proof (Rle_0_sqr (y / x)). lra.
Qed.
Lemma sqrt_pos1 t : 0 < sqrt (1 + Rsqr t).
Proof. apply sqrt_lt_R0. pose proof (Rle_0_sqr t). lra. Qed.
Lemma atan2_spec x y : let r := sqrt (x * x + y * y) in
  r * cos (atan2 y x) = x /\ r * sin (atan2 y x) = y /\ - PI < atan2 y x <= PI.
Proof.
  cbv zeta. unfold atan2. pose proof PI_RGT_0 as Hpi.
  destruct (Rlt_b 0 x) eqn:E1; [apply Rlt_b_true in E1|apply Rlt_b_false in E1; destruct (Rlt_b x 0) eqn:E2; [apply Rlt_b_true in E2|apply Rlt_b_false in E2]].
  - rewrite sqrt_factor by lra. rewrite Rabs_right by lra. rewrite cos_atan, sin_atan. pose proof (sqrt_pos1 (y / x)) as P.
    pose proof (atan_bound (y / x)). repeat split; try lra; field; lra.
  - rewrite sqrt_factor by lra. rewrite Rabs_left by lra. pose proof (sqrt_pos1 (y / x)) as P. pose proof (atan_bound (y / x)) as B.
    destruct (Rle_b 0 y) eqn:E3; [apply Rle_b_true in E3|apply Rle_b_false in E3].
    + rewrite neg_cos, neg_sin, cos_atan, sin_atan. split; [field; lra|]. split; [field; lra|].
      assert (atan (y / x) <= 0); [|lra]. destruct (Req_dec y 0) as [->|N].
      * unfold Rdiv. rewrite Rmult_0_l, atan_0. lra.
      * rewrite <- atan_0. left. apply atan_increasing. unfold Rdiv. 
        assert (0 < - (y * / x)); [|lra]. rewrite Ropp_mult_distr_r. apply Rmult_lt_0_compat; [lra|]. assert (/ x < 0) by (apply Rinv_lt_0_compat; lra). lra.
    + replace (atan (y / x) - PI) with (- (PI - atan (y / x))) by ring.
      rewrite cos_neg, sin_neg, sin_PI_x, Rtrigo_facts.cos_pi_minus, cos_atan, sin_atan.
      split; [field; lra|]. split; [field; lra|].
      assert (0 < atan (y / x)); [|lra]. rewrite <- atan_0. apply atan_increasing. unfold Rdiv.
      replace (y * / x) with ((- y) * (- / x)) by ring. apply Rmult_lt_0_compat; [lra|]. assert (/ x < 0) by (apply Rinv_lt_0_compat; lra). lra.
  - assert (x = 0) by lra. subst x. replace (0 * 0 + y * y) with (Rsqr y) by (unfold Rsqr; ring). rewrite sqrt_Rsqr_abs.
    destruct (Rlt_b 0 y) eqn:E3; [apply Rlt_b_true in E3|apply Rlt_b_false in E3; destruct (Rlt_b y 0) eqn:E4; [apply Rlt_b_true in E4|apply Rlt_b_false in E4]].
    + rewrite Rabs_right, cos_PI2, sin_PI2 by lra. repeat split; lra.
    + rewrite Rabs_left, cos_neg, sin_neg, cos_PI2, sin_PI2 by lra. repeat split; lra.
    + assert (y = 0) by lra. subst y. rewrite Rabs_R0. repeat split; lra.
Qed.
Lemma atan2_inv r phi : 0 < r -> - PI < phi <= PI -> atan2 (r * sin phi) (r * cos phi) = phi /\
  sqrt (r * cos phi * (r * cos phi) + r * sin phi * (r * sin phi)) = r.
Proof.
  intros Hr Hp. assert (E : sqrt (r * cos phi * (r * cos phi) + r * sin phi * (r * sin phi)) = r).
  { pose proof (sin2_cos2 phi) as T. unfold Rsqr in T.
    replace (r * cos phi * (r * cos phi) + r * sin phi * (r * sin phi)) with (r * r * (sin phi * sin phi + cos phi * cos phi)) by ring.
    rewrite T, Rmult_1_r. apply sqrt_square. lra. }
  split; auto. destruct (atan2_spec (r * cos phi) (r * sin phi)) as (A & B & C). rewrite E in A, B.
  apply angle_unique; auto; apply (Rmult_eq_reg_l r); lra.
Qed.

(* ---- arrays ---- *)
Open Scope nat_scope.
(** Coordinate i at position pre of an array with the coordinates on axis k. *)
Definition at_ (a : nd R) (k i : nat) (pre : list nat) : R := dat a (put k i pre).
Lemma check_len_ok a axis n k sh : shp a = put k n sh -> k <= length sh -> axis_is axis k (ndim a) -> check_len a axis n = Ok k.
Proof.
  intros Hs Hk Ha. destruct (along_facts a k n sh axis Hs Hk Ha) as (_ & _ & Hax & H3 & _). unfold check_len. rewrite Hax. cbn [bind].
  rewrite H3, Nat.eqb_refl. reflexivity.
Qed.
Lemma dat_take (a : nd R) k i pre : k <= length pre -> dat (take a k i) pre = at_ a k i pre.
Proof. intros H. unfold take, at_. cbn [dat]. rewrite put_insert by auto. reflexivity. Qed.
Lemma dat_stack parts k sh i pre : k <= length pre -> at_ (stack parts k sh) k i pre = dat (nth i parts (Nd [] (fun _ => 0%R))) pre.
Proof. intros H. unfold at_, stack. cbn [dat]. rewrite put_insert, nth_insert, remove_insert by auto. reflexivity. Qed.
Lemma shp_stack parts k sh : k <= length sh -> shp (stack parts k sh) = put k (length parts) sh.
Proof. intros H. rewrite put_insert by auto. reflexivity. Qed.
Lemma nd_eq_at (a b : nd R) k n sh : shp a = put k n sh -> shp b = put k n sh -> k <= length sh ->
  (forall i pre, i < n -> valid sh pre -> at_ a k i pre = at_ b k i pre) -> nd_eq a b.
Proof.
  intros Ha Hb Hk H. split; [congruence|]. intros ix Hi. rewrite Ha, put_insert in Hi by auto.
  apply valid_insert_inv in Hi as (c & pre & -> & Hc & Hp); auto. pose proof (valid_length _ _ Hp) as L.
  specialize (H c pre Hc Hp). unfold at_ in H. rewrite put_insert in H by lia. exact H.
Qed.

Section Along.
  Variables (a : nd R) (k n : nat) (sh : list nat) (axis : Z).
  Hypotheses (Hs : shp a = put k n sh) (Hk : k <= length sh) (Ha : axis_is axis k (ndim a)).
  Lemma c2p : n = 2 -> exists p, cartesian_to_polar a axis = Ok p /\ shp p = shp a /\ forall pre, valid sh pre ->
    at_ p k 0 pre = sqrt (at_ a k 0 pre * at_ a k 0 pre + at_ a k 1 pre * at_ a k 1 pre) /\
    at_ p k 1 pre = atan2 (at_ a k 1 pre) (at_ a k 0 pre).
  Proof.
    intros ->. destruct (along_facts a k 2 sh axis Hs Hk Ha) as (Hs' & Hn & Hax & H3 & Hr).
    unfold cartesian_to_polar. rewrite (check_len_ok a axis 2 k sh) by auto. cbn [bind]. eexists. split; [reflexivity|].
    rewrite Hr. split; [rewrite shp_stack by auto; auto|]. intros pre Hp. pose proof (valid_length _ _ Hp) as L.
    rewrite !dat_stack by lia. cbn [nth dat norm_along]. rewrite H3. rewrite !dat_take by lia. split; auto.
    cbn [seq map fold_right]. unfold at_. rewrite !put_insert by lia. f_equal. ring.
  Qed.
  Lemma p2c : n = 2 -> exists p, polar_to_cartesian a axis = Ok p /\ shp p = shp a /\ forall pre, valid sh pre ->
    at_ p k 0 pre = (at_ a k 0 pre * cos (at_ a k 1 pre))%R /\ at_ p k 1 pre = (at_ a k 0 pre * sin (at_ a k 1 pre))%R.
  Proof.
    intros ->. destruct (along_facts a k 2 sh axis Hs Hk Ha) as (Hs' & Hn & Hax & H3 & Hr).
    unfold polar_to_cartesian. rewrite (check_len_ok a axis 2 k sh) by auto. cbn [bind]. eexists. split; [reflexivity|].
    rewrite Hr. split; [rewrite shp_stack by auto; auto|]. intros pre Hp. pose proof (valid_length _ _ Hp) as L.
    rewrite !dat_stack by lia. cbn [nth dat]. rewrite !dat_take by lia. auto.
  Qed.
  Definition len3 (pre : list nat) : R :=
    sqrt (at_ a k 0 pre * at_ a k 0 pre + at_ a k 1 pre * at_ a k 1 pre + at_ a k 2 pre * at_ a k 2 pre).
  Lemma norm3 pre : n = 3 -> valid sh pre -> dat (norm_along a k) pre = len3 pre.
  Proof.
    intros -> Hp. destruct (along_facts a k 3 sh axis Hs Hk Ha) as (Hs' & Hn & Hax & H3 & Hr). pose proof (valid_length _ _ Hp) as L.
    unfold norm_along, len3. cbn [dat]. rewrite H3. cbn [seq map fold_right]. unfold at_. rewrite !put_insert by lia. f_equal. ring.
  Qed.
  Lemma c2s : n = 3 -> (forall pre, valid sh pre -> len3 pre <> 0%R) ->
    exists p, cartesian_to_spherical a axis = Ok p /\ shp p = shp a /\ forall pre, valid sh pre ->
    at_ p k 0 pre = len3 pre /\ at_ p k 1 pre = acos (at_ a k 2 pre / len3 pre) /\
    at_ p k 2 pre = atan2 (at_ a k 1 pre) (at_ a k 0 pre).
  Proof.
    intros E Hnz. destruct (along_facts a k n sh axis Hs Hk Ha) as (Hs' & Hn & Hax & H3 & Hr).
    unfold cartesian_to_spherical. rewrite (check_len_ok a axis 3 k sh) by (auto; rewrite <- E; auto). cbn [bind]. rewrite Hr.
    replace (existsb _ _) with false.
    - eexists. split; [reflexivity|]. split; [rewrite shp_stack by auto; rewrite Hs, E; reflexivity|].
      intros pre Hp. pose proof (valid_length _ _ Hp) as L.
      rewrite !dat_stack by lia. cbn [nth dat]. rewrite !dat_take, norm3 by (auto; lia). auto.
    - symmetry. apply not_true_is_false. intros H. apply existsb_exists in H as (pre & Hi & Hq). apply in_indices in Hi.
      apply Req_b_true in Hq. rewrite norm3 in Hq by auto. apply (Hnz pre); auto.
  Qed.
  Lemma c2s_nan : n = 3 -> (exists pre, valid sh pre /\ len3 pre = 0%R) -> cartesian_to_spherical a axis = Raise NaNValue.
  Proof.
    intros E (pre & Hp & Hz). destruct (along_facts a k n sh axis Hs Hk Ha) as (Hs' & Hn & Hax & H3 & Hr).
    unfold cartesian_to_spherical. rewrite (check_len_ok a axis 3 k sh) by (auto; rewrite <- E; auto). cbn [bind]. rewrite Hr.
    replace (existsb _ _) with true; auto. symmetry. apply existsb_exists. exists pre. split; [apply in_indices; auto|].
    apply Req_b_true. rewrite norm3; auto.
  Qed.
  Lemma s2c : n = 3 -> exists p, spherical_to_cartesian a axis = Ok p /\ shp p = shp a /\ forall pre, valid sh pre ->
    at_ p k 0 pre = (at_ a k 0 pre * sin (at_ a k 1 pre) * cos (at_ a k 2 pre))%R /\
    at_ p k 1 pre = (at_ a k 0 pre * sin (at_ a k 1 pre) * sin (at_ a k 2 pre))%R /\
    at_ p k 2 pre = (at_ a k 0 pre * cos (at_ a k 1 pre))%R.
  Proof.
    intros ->. destruct (along_facts a k 3 sh axis Hs Hk Ha) as (Hs' & Hn & Hax & H3 & Hr).
    unfold spherical_to_cartesian. rewrite (check_len_ok a axis 3 k sh) by auto. cbn [bind]. eexists. split; [reflexivity|].
    rewrite Hr. split; [rewrite shp_stack by auto; auto|]. intros pre Hp. pose proof (valid_length _ _ Hp) as L.
    rewrite !dat_stack by lia. cbn [nth dat]. rewrite !dat_take by lia. auto.
  Qed.
End Along.

(* ------------------------------------------------------------------ C30 *)
(** (r, phi) are polar coordinates of the point (x, y). *)
Definition polar_of (x y r phi : R) : Prop :=
  (0 <= r /\ - PI < phi <= PI /\ x = r * cos phi /\ y = r * sin phi)%R.

Theorem C30_to_polar : forall a k sh axis, shp a = put k 2 sh -> k <= length sh -> axis_is axis k (ndim a) ->
  exists p c, cartesian_to_polar a axis = Ok p /\ polar_to_cartesian p axis = Ok c /\ shp p = shp a /\ nd_eq c a /\
    forall pre, valid sh pre -> polar_of (at_ a k 0 pre) (at_ a k 1 pre) (at_ p k 0 pre) (at_ p k 1 pre).
Proof.
  intros a k sh axis Hs Hk Ha. destruct (c2p a k 2 sh axis Hs Hk Ha eq_refl) as (p & Ep & Sp & Dp).
  destruct (p2c p k 2 sh axis) as (c & Ec & Sc & Dc); auto; [congruence|unfold ndim; rewrite Sp; exact Ha|].
  exists p, c. split; auto. split; auto. split; auto. split.
  - apply (nd_eq_at c a k 2 sh); auto; [congruence|]. intros i pre Hi Hp. destruct (Dp pre Hp) as (D0 & D1). destruct (Dc pre Hp) as (E0 & E1).
    destruct (atan2_spec (at_ a k 0 pre) (at_ a k 1 pre)) as (A & B & _). rewrite <- D0, <- D1 in A, B.
    destruct i as [|[|i]]; [congruence|congruence|lia].
  - intros pre Hp. destruct (Dp pre Hp) as (D0 & D1). destruct (atan2_spec (at_ a k 0 pre) (at_ a k 1 pre)) as (A & B & C).
    unfold polar_of. rewrite D0, D1. repeat split; try tauto; auto. apply sqrt_pos.
Qed.
Theorem C30_from_polar : forall p k sh axis, shp p = put k 2 sh -> k <= length sh -> axis_is axis k (ndim p) ->
  (forall pre, valid sh pre -> (0 < at_ p k 0 pre /\ - PI < at_ p k 1 pre <= PI)%R) ->
  exists c p', polar_to_cartesian p axis = Ok c /\ cartesian_to_polar c axis = Ok p' /\ shp c = shp p /\ nd_eq p' p.
Proof.
  intros p k sh axis Hs Hk Ha Hb. destruct (p2c p k 2 sh axis Hs Hk Ha eq_refl) as (c & Ec & Sc & Dc).
  destruct (c2p c k 2 sh axis) as (p' & Ep & Sp & Dp); auto; [congruence|unfold ndim; rewrite Sc; exact Ha|].
  exists c, p'. split; auto. split; auto. split; auto. apply (nd_eq_at p' p k 2 sh); auto; [congruence|].
  intros i pre Hi Hp. destruct (Dp pre Hp) as (D0 & D1). destruct (Dc pre Hp) as (E0 & E1). destruct (Hb pre Hp) as (B0 & B1).
  destruct (atan2_inv _ _ B0 B1) as (A & B). rewrite E0, E1 in D0, D1.
  destruct i as [|[|i]]; [congruence|congruence|lia].
Qed.
(** A wrong axis length, or an axis that does not exist, is refused. *)
Theorem C30_refuse : forall a axis,
  (forall k, norm_axis axis (ndim a) = Ok k -> nth k (shp a) 0 <> 2) ->
  (exists e, cartesian_to_polar a axis = Raise e) /\ (exists e, polar_to_cartesian a axis = Raise e).
Proof.
  intros a axis H. unfold cartesian_to_polar, polar_to_cartesian, check_len. destruct (norm_axis axis (ndim a)) as [k|e]; cbn [bind]; [|eauto].
  specialize (H k eq_refl). apply Nat.eqb_neq in H. rewrite H. cbn. eauto.
Qed.
Example C30_example : let p := Nd [3; 2] (fun ix => match ix with [i; 0] => INR (S i) | _ => 1%R end) in
  shp p = put 1 2 [3] /\ axis_is (-1) 1 (ndim p) /\
  forall pre, valid [3] pre -> (0 < at_ p 1 0 pre /\ - PI < at_ p 1 1 pre <= PI)%R.
Proof.
  cbv zeta. split; [reflexivity|]. split; [right; reflexivity|]. intros pre Hp.
  assert (exists i, pre = [i]) as (i & ->). { inversion Hp as [|i ? ? ? ? H2]; subst. inversion H2; subst. eauto. }
  cbn -[INR PI]. pose proof PI2_1. pose proof PI_4. split; [apply lt_0_INR; lia|]. lra.
Qed.

(* ------------------------------------------------------------------ C31 *)
(** (r, theta, phi) are spherical coordinates (ISO 80000-2) of (x, y, z):
    theta is the inclination from the z axis, phi the azimuth. *)
Definition spherical_of (x y z r theta phi : R) : Prop :=
  (0 <= r /\ 0 <= theta <= PI /\ - PI < phi <= PI /\
   x = r * sin theta * cos phi /\ y = r * sin theta * sin phi /\ z = r * cos theta /\ r * r = x * x + y * y + z * z)%R.

Open Scope R_scope.
Lemma spherical_ok x y z : let r := sqrt (x * x + y * y + z * z) in r <> 0 ->
  spherical_of x y z r (acos (z / r)) (atan2 y x).
Proof.
  cbv zeta. intros Hnz. set (r := sqrt (x * x + y * y + z * z)) in *.
  assert (Hp : 0 < r) by (pose proof (sqrt_pos (x * x + y * y + z * z)); fold r in H; lra).
  assert (Hxy : 0 <= x * x + y * y) by (pose proof (Rle_0_sqr x) as T1; pose proof (Rle_0_sqr y) as T2; unfold Rsqr in *; lra).
  assert (Hzz : 0 <= z * z) by (pose proof (Rle_0_sqr z) as T1; unfold Rsqr in *; lra).
  assert (Hr : r * r = x * x + y * y + z * z) by (apply sqrt_sqrt; lra).
  assert (Hb : -1 <= z / r <= 1).
  { assert (Z : Rsqr z <= Rsqr r) by (unfold Rsqr; lra). apply Rsqr_le_abs_0 in Z. rewrite (Rabs_right r) in Z by lra.
    assert (z / r * r = z) by (field; auto). split.
    - apply (Rmult_le_reg_r r); auto. rewrite H. unfold Rabs in Z. destruct (Rcase_abs z); lra.
    - apply (Rmult_le_reg_r r); auto. rewrite H. unfold Rabs in Z. destruct (Rcase_abs z); lra. }
  assert (Hs : r * sin (acos (z / r)) = sqrt (x * x + y * y)).
  { rewrite sin_acos by auto. replace r with (sqrt (Rsqr r)) at 1 by (rewrite sqrt_Rsqr by lra; reflexivity).
    rewrite <- sqrt_mult.
    - f_equal. unfold Rsqr. replace (r * r * (1 - z / r * (z / r))) with (r * r - z * z) by (field; auto). rewrite Hr. ring.
    - apply Rle_0_sqr.
    - assert (z / r * (z / r) <= 1); [|unfold Rsqr; lra]. assert (0 <= (1 - z / r) * (1 + z / r)) by (apply Rmult_le_pos; lra). lra. }
  destruct (atan2_spec x y) as (A & B & C). unfold spherical_of. rewrite cos_acos by auto. rewrite Hs, A, B.
  pose proof (acos_bound (z / r)). repeat split; try tauto; try lra. field. auto.
Qed.
Lemma spherical_inv r theta phi : 0 < r -> 0 < theta < PI -> - PI < phi <= PI ->
  let x := r * sin theta * cos phi in let y := r * sin theta * sin phi in let z := r * cos theta in
  sqrt (x * x + y * y + z * z) = r /\ acos (z / r) = theta /\ atan2 y x = phi.
Proof.
  intros Hr Ht Hp x y z. assert (Hs : 0 < sin theta) by (apply sin_gt_0; lra).
  assert (Hrs : 0 < r * sin theta) by (apply Rmult_lt_0_compat; auto).
  assert (E : x * x + y * y + z * z = r * r).
  { unfold x, y, z. pose proof (sin2_cos2 phi) as T. pose proof (sin2_cos2 theta) as T'. unfold Rsqr in *.
    transitivity (r * r * (sin theta * sin theta * (sin phi * sin phi + cos phi * cos phi) + cos theta * cos theta)); [ring|].
    rewrite T, Rmult_1_r, T'. ring. }
  split; [rewrite E; apply sqrt_square; lra|]. split.
  - unfold z. replace (r * cos theta / r) with (cos theta) by (field; lra). apply acos_cos. lra.
  - unfold x, y. apply atan2_inv; auto.
Qed.
Open Scope nat_scope.
(** No point at the origin: the coordinates are the spherical ones and
    spherical_to_cartesian recovers the array. *)
Theorem C31_to_spherical_partial : forall a k sh axis, shp a = put k 3 sh -> k <= length sh -> axis_is axis k (ndim a) ->
  (forall pre, valid sh pre -> vec_on a k pre <> V3 0 0 0) ->
  exists p c, cartesian_to_spherical a axis = Ok p /\ spherical_to_cartesian p axis = Ok c /\ shp p = shp a /\ nd_eq c a /\
    forall pre, valid sh pre -> spherical_of (at_ a k 0 pre) (at_ a k 1 pre) (at_ a k 2 pre) (at_ p k 0 pre) (at_ p k 1 pre) (at_ p k 2 pre).
Proof.
  intros a k sh axis Hs Hk Ha Hnz.
  assert (Hn : forall pre, valid sh pre -> len3 a k pre <> 0%R).
  { intros pre Hp H. apply (Hnz pre Hp). unfold len3 in H. apply sqrt_eq_0 in H.
    - pose proof (Rle_0_sqr (at_ a k 0 pre)) as T1. pose proof (Rle_0_sqr (at_ a k 1 pre)) as T2. pose proof (Rle_0_sqr (at_ a k 2 pre)) as T3.
      unfold Rsqr in *. unfold vec_on. fold (at_ a k 0 pre) (at_ a k 1 pre) (at_ a k 2 pre).
      f_equal; apply Rsqr_0_uniq; unfold Rsqr; lra.
    - pose proof (Rle_0_sqr (at_ a k 0 pre)) as T1. pose proof (Rle_0_sqr (at_ a k 1 pre)) as T2. pose proof (Rle_0_sqr (at_ a k 2 pre)) as T3.
      unfold Rsqr in *. lra. }
  destruct (c2s a k 3 sh axis Hs Hk Ha eq_refl Hn) as (p & Ep & Sp & Dp).
  destruct (s2c p k 3 sh axis) as (c & Ec & Sc & Dc); auto; [congruence|unfold ndim; rewrite Sp; exact Ha|].
  exists p, c. split; auto. split; auto. split; auto.
  assert (S : forall pre, valid sh pre -> spherical_of (at_ a k 0 pre) (at_ a k 1 pre) (at_ a k 2 pre) (at_ p k 0 pre) (at_ p k 1 pre) (at_ p k 2 pre)).
  { intros pre Hp. destruct (Dp pre Hp) as (D0 & D1 & D2). rewrite D0, D1, D2. apply spherical_ok. apply (Hn pre Hp). }
  split; auto. apply (nd_eq_at c a k 3 sh); auto; [congruence|]. intros i pre Hi Hp. destruct (Dc pre Hp) as (E0 & E1 & E2).
  destruct (S pre Hp) as (_ & _ & _ & X & Y & Z & _). destruct i as [|[|[|i]]]; [congruence|congruence|congruence|lia].
Qed.
Theorem C31_from_spherical : forall p k sh axis, shp p = put k 3 sh -> k <= length sh -> axis_is axis k (ndim p) ->
  (forall pre, valid sh pre -> (0 < at_ p k 0 pre /\ 0 < at_ p k 1 pre < PI /\ - PI < at_ p k 2 pre <= PI)%R) ->
  exists c p', spherical_to_cartesian p axis = Ok c /\ cartesian_to_spherical c axis = Ok p' /\ shp c = shp p /\ nd_eq p' p.
Proof.
  intros p k sh axis Hs Hk Ha Hb. destruct (s2c p k 3 sh axis Hs Hk Ha eq_refl) as (c & Ec & Sc & Dc).
  destruct (c2s c k 3 sh axis) as (p' & Ep & Sp & Dp); auto; [congruence|unfold ndim; rewrite Sc; exact Ha| |].
  { intros pre Hp. destruct (Dc pre Hp) as (E0 & E1 & E2). destruct (Hb pre Hp) as (B0 & B1 & B2). unfold len3. rewrite E0, E1, E2.
    destruct (spherical_inv _ _ _ B0 B1 B2) as (-> & _). lra. }
  exists c, p'. split; auto. split; auto. split; auto. apply (nd_eq_at p' p k 3 sh); auto; [congruence|].
  intros i pre Hi Hp. destruct (Dp pre Hp) as (D0 & D1 & D2). destruct (Dc pre Hp) as (E0 & E1 & E2). destruct (Hb pre Hp) as (B0 & B1 & B2).
  destruct (spherical_inv _ _ _ B0 B1 B2) as (A & B & C). unfold len3 in D0, D1. rewrite E0, E1, E2 in D0, D1. rewrite E0, E1 in D2.
  rewrite A in D0, D1. destruct i as [|[|[|i]]]; [congruence|congruence|congruence|lia].
Qed.
(** "Everywhere" fails: a point at the origin yields NaN. *)
Theorem C31_refuted : forall a k sh axis, shp a = put k 3 sh -> k <= length sh -> axis_is axis k (ndim a) ->
  (exists pre, valid sh pre /\ vec_on a k pre = V3 0 0 0) -> cartesian_to_spherical a axis = Raise NaNValue.
Proof.
  intros a k sh axis Hs Hk Ha (pre & Hp & Hv). apply (c2s_nan a k 3 sh axis); auto. exists pre. split; auto.
  unfold vec_on in Hv. fold (at_ a k 0 pre) (at_ a k 1 pre) (at_ a k 2 pre) in Hv. injection Hv as X Y Z. unfold len3. rewrite X, Y, Z.
  replace (0 * 0 + 0 * 0 + 0 * 0)%R with 0%R by ring. apply sqrt_0.
Qed.
Theorem C31_refuse : forall a axis,
  (forall k, norm_axis axis (ndim a) = Ok k -> nth k (shp a) 0 <> 3) ->
  (exists e, cartesian_to_spherical a axis = Raise e) /\ (exists e, spherical_to_cartesian a axis = Raise e).
Proof.
  intros a axis H. unfold cartesian_to_spherical, spherical_to_cartesian, check_len. destruct (norm_axis axis (ndim a)) as [k|e]; cbn [bind]; [|eauto].
  specialize (H k eq_refl). apply Nat.eqb_neq in H. rewrite H. cbn. eauto.
Qed.
Example C31_example : let p := Nd [3; 2] (fun ix => match ix with [i; j] => INR (i + j + 1) | _ => 0%R end) in
  shp p = put 0 3 [2] /\ axis_is 0 0 (ndim p) /\ (forall pre, valid [2] pre -> vec_on p 0 pre <> V3 0 0 0) /\
  let p' := Nd [3; 2] (fun _ => 1%R) in
  forall pre, valid [2] pre -> (0 < at_ p' 0 0 pre /\ 0 < at_ p' 0 1 pre < PI /\ - PI < at_ p' 0 2 pre <= PI)%R.
Proof.
  cbv zeta. split; [reflexivity|]. split; [left; reflexivity|]. split.
  - intros pre Hp. assert (exists i, pre = [i]) as (i & ->). { inversion Hp as [|i ? ? ? ? H2]; subst. inversion H2; subst. eauto. }
    cbn -[INR]. intros H. injection H as H _ _. revert H. apply not_0_INR. lia.
  - intros pre _. unfold at_. cbn [dat]. pose proof PI2_1. lra.
Qed.
