(** Kabsch: the trace bound behind best_fit_transform. *)
From Coq Require Import Reals List Arith Bool ZArith Lia Lra Psatz.
From Verif Require Import Base Quat SpecQuat QuatProofs NdArray Transform Utils Velocity Estim SpecEstim.
Import ListNotations.
Open Scope R_scope.

Definition ex : vec3 := V3 1 0 0.
Definition ey : vec3 := V3 0 1 0.
Definition ez : vec3 := V3 0 0 1.
Definition col0 (m : mat3) : vec3 := mapply m ex.
Definition col1 (m : mat3) : vec3 := mapply m ey.
Definition col2 (m : mat3) : vec3 := mapply m ez.
Ltac mcomp := cbv [mapply mdot transpose madd mzero outer flip_last vsub vadd vopp vscale vdot vcross triple det3 col0 col1 col2 ex ey ez v0
  vx vy vz r0 r1 r2].

Lemma vdot_sym v w : vdot v w = vdot w v.
Proof. destruct v, w. mcomp. ring. Qed.
Lemma vdot_nonneg v : 0 <= vdot v v.
Proof. destruct v. unfold vdot. cbn. nra. Qed.
Lemma sq_ge0 x : 0 <= x * x.
Proof. nra. Qed.
Lemma le1 x y z : x * x + y * y + z * z = 1 -> x <= 1.
Proof. intros H. nra. Qed.
Lemma vdot_zero v : vdot v v = 0 -> v = v0.
Proof. destruct v as [a b c]. unfold vdot. cbn. intros H. apply vec3_eq; cbn; nra. Qed.
Lemma cs v w : vdot v v = 1 -> vdot w w = 1 -> vdot v w <= 1.
Proof.
  intros Hv Hw. pose proof (vdot_nonneg (vsub v w)) as H.
  assert (E : vdot (vsub v w) (vsub v w) = vdot v v + vdot w w - 2 * vdot v w) by (destruct v, w; mcomp; ring). lra.
Qed.

(** Orthonormal triples. *)
Definition onb (a b c : vec3) : Prop :=
  vdot a a = 1 /\ vdot b b = 1 /\ vdot c c = 1 /\ vdot a b = 0 /\ vdot a c = 0 /\ vdot b c = 0.
Lemma onb_triple a b c : onb a b c -> triple a b c * triple a b c = 1.
Proof.
  intros (H1 & H2 & H3 & H4 & H5 & H6).
  assert (E : triple a b c * triple a b c =
    vdot a a * (vdot b b * vdot c c - vdot b c * vdot b c) - vdot a b * (vdot a b * vdot c c - vdot b c * vdot a c)
    + vdot a c * (vdot a b * vdot b c - vdot b b * vdot a c)) by (destruct a, b, c; mcomp; ring).
  rewrite E, H1, H2, H3, H4, H5, H6. ring.
Qed.
Lemma onb_cross a b c : onb a b c -> vcross b c = vscale (triple a b c) a.
Proof.
  intros H. pose proof (onb_triple a b c H) as T. destruct H as (H1 & H2 & H3 & H4 & H5 & H6).
  assert (E : vdot (vsub (vcross b c) (vscale (triple a b c) a)) (vsub (vcross b c) (vscale (triple a b c) a)) = 0).
  { set (d := triple a b c) in *.
    assert (E : vdot (vsub (vcross b c) (vscale d a)) (vsub (vcross b c) (vscale d a)) =
      (vdot b b * vdot c c - vdot b c * vdot b c) - 2 * d * vdot a (vcross b c) + d * d * vdot a a) by (destruct a, b, c; mcomp; ring).
    rewrite E. change (vdot a (vcross b c)) with d. rewrite H1, H2, H3, H6. lra. }
  apply vdot_zero in E. revert E. generalize (vcross b c) (vscale (triple a b c) a). intros u v E.
  destruct u, v. unfold vsub in E. cbn in E. injection E as E1 E2 E3. apply vec3_eq; cbn; lra.
Qed.
Lemma onb_rot a b c : onb a b c -> onb b c a.
Proof. unfold onb. rewrite (vdot_sym b a), (vdot_sym c a). tauto. Qed.
Lemma triple_rot a b c : triple b c a = triple a b c.
Proof. destruct a, b, c; mcomp; ring. Qed.
(** The trace of a rotation is at least -1. *)
Lemma trace_ge a b c : onb a b c -> triple a b c = 1 -> -1 <= vx a + vy b + vz c.
Proof.
  intros H T. pose proof (onb_cross a b c H) as E1. pose proof (onb_cross b c a (onb_rot _ _ _ H)) as E2.
  pose proof (onb_cross c a b (onb_rot _ _ _ (onb_rot _ _ _ H))) as E3. rewrite (triple_rot a b c) in E2. rewrite (triple_rot b c a), (triple_rot a b c) in E3. rewrite T in *.
  destruct H as (H1 & H2 & H3 & _). destruct a as [a1 a2 a3], b as [b1 b2 b3], c as [c1 c2 c3].
  unfold vcross, vscale, vdot in *. cbn in *. injection E1 as A1 A2 A3. injection E2 as B1 B2 B3. injection E3 as C1 C2 C3.
  set (t := a1 + b2 + c3).
  assert (E : (b3 - c2) * (b3 - c2) + (c1 - a3) * (c1 - a3) + (a2 - b1) * (a2 - b1) = (3 - t) * (1 + t)) by (unfold t; lra).
  assert (P : 0 <= (3 - t) * (1 + t)) by (rewrite <- E; pose proof (sq_ge0 (b3 - c2)); pose proof (sq_ge0 (c1 - a3)); pose proof (sq_ge0 (a2 - b1)); lra).
  assert (t <= 3) by (unfold t; pose proof (le1 _ _ _ H1); pose proof (le1 b2 b1 b3 ltac:(lra)); pose proof (le1 c3 c1 c2 ltac:(lra)); lra).
  clearbody t. clear - P H. destruct (Rle_dec (-1) t); auto. exfalso.
  assert (N : 0 < (3 - t) * (- (1 + t))) by (apply Rmult_lt_0_compat; lra). lra.
Qed.
Lemma trace_le a b c : onb a b c -> triple a b c = -1 -> vx a + vy b + vz c <= 1.
Proof.
  intros H T. assert (Hn : onb (vopp a) (vopp b) (vopp c)).
  { destruct H as (H1 & H2 & H3 & H4 & H5 & H6). 
    assert (E : forall u v, vdot (vopp u) (vopp v) = vdot u v) by (intros [] []; mcomp; ring).
    unfold onb. rewrite !E. repeat split; auto. }
  assert (Tn : triple (vopp a) (vopp b) (vopp c) = 1) by (replace 1 with (- triple a b c) by lra; destruct a, b, c; mcomp; ring).
  pose proof (trace_ge _ _ _ Hn Tn) as E. destruct a, b, c. cbn in *. lra.
Qed.
(** The bound: for singular values in descending order. *)
Lemma trace_bound a b c s1 s2 s3 : onb a b c -> s1 >= s2 -> s2 >= s3 -> s3 >= 0 ->
  s1 * vx a + s2 * vy b + s3 * vz c <= s1 + s2 + (if Rlt_b (triple a b c) 0 then - s3 else s3).
Proof.
  intros H S1 S2 S3. pose proof (onb_triple _ _ _ H) as T.
  assert (Ha : vx a <= 1) by (destruct H as (H & _); destruct a as [x y z]; unfold vdot in H; cbn in *; nra).
  assert (Hb : vy b <= 1) by (destruct H as (_ & H & _); destruct b as [x y z]; unfold vdot in H; cbn in *; nra).
  assert (Hc : vz c <= 1) by (destruct H as (_ & _ & H & _); destruct c as [x y z]; unfold vdot in H; cbn in *; nra).
  destruct (Rlt_b (triple a b c) 0) eqn:E.
  - apply Rlt_b_true in E. assert (E1 : triple a b c = -1) by nra. pose proof (trace_le _ _ _ H E1). nra.
  - nra.
Qed.

(* ------------------------------------------------------------------ matrices *)
Lemma mapply_mdot a b v : mapply (mdot a b) v = mapply a (mapply b v).
Proof. destruct a as [[] [] []], b as [[] [] []], v. apply vec3_eq; mcomp; ring. Qed.
Lemma mapply_add m v w : mapply m (vadd v w) = vadd (mapply m v) (mapply m w).
Proof. destruct m as [[] [] []], v, w. apply vec3_eq; mcomp; ring. Qed.
Lemma mapply_scale m k v : mapply m (vscale k v) = vscale k (mapply m v).
Proof. destruct m as [[] [] []], v. apply vec3_eq; mcomp; ring. Qed.
Lemma mapply_sub m v w : mapply m (vsub v w) = vsub (mapply m v) (mapply m w).
Proof. destruct m as [[] [] []], v, w. apply vec3_eq; mcomp; ring. Qed.
Lemma det_mdot a b : det3 (mdot a b) = det3 a * det3 b.
Proof. destruct a as [[] [] []], b as [[] [] []]. mcomp. ring. Qed.
Lemma det_transpose m : det3 (transpose m) = det3 m.
Proof. destruct m as [[] [] []]. mcomp. ring. Qed.
Lemma det_flip m : det3 (flip_last m) = - det3 m.
Proof. destruct m as [[] [] []]. mcomp. ring. Qed.
Lemma det_cols m : triple (col0 m) (col1 m) (col2 m) = det3 m.
Proof. destruct m as [[] [] []]. mcomp. ring. Qed.
Lemma transpose_dot m v w : vdot (mapply (transpose m) v) w = vdot v (mapply m w).
Proof. destruct m as [[] [] []], v, w. mcomp. ring. Qed.
Lemma orthogonal_onb m : orthogonal m -> onb (col0 m) (col1 m) (col2 m).
Proof. intros H. unfold onb, col0, col1, col2. rewrite !H. mcomp. repeat split; ring. Qed.
Lemma orthogonal_det m : orthogonal m -> det3 m * det3 m = 1.
Proof. intros H. rewrite <- det_cols. apply onb_triple, orthogonal_onb, H. Qed.
Lemma onb_complete a b c v : onb a b c ->
  v = vadd (vadd (vscale (vdot v a) a) (vscale (vdot v b) b)) (vscale (vdot v c) c).
Proof.
  intros H. pose proof (onb_triple _ _ _ H) as T. destruct H as (H1 & H2 & H3 & H4 & H5 & H6).
  set (u := vadd (vadd (vscale (vdot v a) a) (vscale (vdot v b) b)) (vscale (vdot v c) c)).
  set (w := vsub v u).
  assert (Lin : forall z, vdot w z = vdot v z - (vdot v a * vdot a z + vdot v b * vdot b z + vdot v c * vdot c z)).
  { intros z. unfold w, u. generalize (vdot v a) (vdot v b) (vdot v c). intros x y t. destruct a, b, c, v, z. mcomp. ring. }
  assert (Wa : vdot w a = 0) by (rewrite Lin, H1, (vdot_sym b a), (vdot_sym c a), H4, H5; ring).
  assert (Wb : vdot w b = 0) by (rewrite Lin, H2, (vdot_sym c b), H4, H6; ring).
  assert (Wc : vdot w c = 0) by (rewrite Lin, H3, H5, H6; ring).
  assert (C : vscale (triple a b c) w =
    vadd (vadd (vscale (vdot w a) (vcross b c)) (vscale (vdot w b) (vcross c a))) (vscale (vdot w c) (vcross a b))).
  { clearbody w. clear. destruct a, b, c, w. apply vec3_eq; mcomp; ring. }
  rewrite Wa, Wb, Wc in C.
  assert (W : w = v0).
  { assert (D : triple a b c <> 0) by nra. clearbody w. destruct w as [x y z]. revert C. generalize (vcross b c) (vcross c a) (vcross a b). intros [b1 b2 b3] [c1 c2 c3] [d1 d2 d3] C.
    cbv [vadd vscale vx vy vz v0] in C. injection C as C1 C2 C3. apply vec3_eq; cbn; apply (Rmult_eq_reg_l (triple a b c)); auto; lra. }
  unfold w in W. clearbody u. destruct u, v. unfold vsub, v0 in W. cbn in W. injection W as W1 W2 W3. apply vec3_eq; cbn; lra.
Qed.
Lemma orthogonal_transpose m : orthogonal m -> orthogonal (transpose m).
Proof.
  intros H v w. pose proof (orthogonal_onb m H) as B.
  assert (E : forall z, mapply (transpose m) z = V3 (vdot z (col0 m)) (vdot z (col1 m)) (vdot z (col2 m)))
    by (intros z; destruct m as [[] [] []], z; apply vec3_eq; mcomp; ring).
  rewrite !E. pose proof (onb_complete _ _ _ v B) as Hv.
  assert (L : forall a b c x y z, vdot (vadd (vadd (vscale x a) (vscale y b)) (vscale z c)) w = x * vdot w a + y * vdot w b + z * vdot w c)
    by (intros [] [] [] x y z; destruct w; mcomp; ring).
  rewrite Hv at 4. rewrite L. mcomp. reflexivity.
Qed.
Lemma orthogonal_mdot a b : orthogonal a -> orthogonal b -> orthogonal (mdot a b).
Proof. intros Ha Hb v w. rewrite !mapply_mdot, Ha, Hb. reflexivity. Qed.
Lemma orthogonal_flip m : orthogonal m -> orthogonal (flip_last m).
Proof.
  intros H v w. rewrite <- (H v w). destruct m as [[] [] []], v, w. mcomp. ring.
Qed.
Lemma orthogonal_inv_l m v : orthogonal m -> mapply (transpose m) (mapply m v) = v.
Proof.
  intros H. assert (E : forall w, vdot (mapply (transpose m) (mapply m v)) w = vdot v w) by (intros w; rewrite transpose_dot; apply H).
  pose proof (E ex) as E1. pose proof (E ey) as E2. pose proof (E ez) as E3. revert E1 E2 E3. generalize (mapply (transpose m) (mapply m v)).
  intros [] E1 E2 E3. destruct v. revert E1 E2 E3. mcomp. intros. apply vec3_eq; cbn; lra.
Qed.

(* ---- the matrix of a quaternion ---- *)
Definition qmat (q : quat) : mat3 := transpose (M3 (srot q ex) (srot q ey) (srot q ez)).
Lemma vec_basis v : v = vadd (vadd (vscale (vx v) ex) (vscale (vy v) ey)) (vscale (vz v) ez).
Proof. destruct v. apply vec3_eq; mcomp; ring. Qed.
Lemma qmat_apply q v : mapply (qmat q) v = srot q v.
Proof.
  rewrite (vec_basis v) at 2. rewrite !srot_add, !srot_scale. unfold qmat. generalize (srot q ex) (srot q ey) (srot q ez).
  intros [] [] []. destruct v. apply vec3_eq; mcomp; ring.
Qed.
Lemma qmat_orthogonal q : hn2 q <> 0 -> orthogonal (qmat q).
Proof. intros H v w. rewrite !qmat_apply. apply srot_dot, H. Qed.
Lemma qmat_det q : hn2 q <> 0 -> det3 (qmat q) = 1.
Proof.
  intros H. rewrite <- det_cols. unfold col0, col1, col2. rewrite !qmat_apply. unfold triple. rewrite srot_cross, srot_dot by auto. mcomp. ring.
Qed.

(* ---- the cross covariance ---- *)
(** Sum of b . f(a) over corresponding points. *)
Fixpoint corr (f : vec3 -> vec3) (l : list (vec3 * vec3)) : R :=
  match l with [] => 0 | (a, b) :: l => vdot b (f a) + corr f l end.
Definition tr_prod (q h : mat3) : R := vx (mapply q (col0 h)) + vy (mapply q (col1 h)) + vz (mapply q (col2 h)).
Lemma corr_cov q l : corr (mapply q) l = tr_prod q (cross_cov l).
Proof.
  induction l as [|[a b] l IH]; unfold tr_prod in *; cbn [corr cross_cov fold_right].
  - destruct q as [[] [] []]. mcomp. ring.
  - rewrite IH. change (fold_right (fun p m => madd (outer (fst p) (snd p)) m) mzero l) with (cross_cov l).
    generalize (cross_cov l). intros [[] [] []]. cbn [fst snd]. destruct q as [[] [] []], a, b. mcomp. ring.
Qed.
Definition stretch (sv w : vec3) : vec3 := V3 (vx sv * vx w) (vy sv * vy w) (vz sv * vz w).
Lemma tr_svd q h u sv vt : (forall v, mapply h v = mapply u (stretch sv (mapply vt v))) ->
  tr_prod q h = let z := mdot vt (mdot q u) in vx sv * vx (col0 z) + vy sv * vy (col1 z) + vz sv * vz (col2 z).
Proof.
  intros H. unfold tr_prod, col0, col1, col2. rewrite !H. destruct q as [[] [] []], u as [[] [] []], vt as [[] [] []], sv.
  cbv zeta. rewrite !mapply_mdot. unfold stretch. mcomp. ring.
Qed.

(* ------------------------------------------------------------------ optimality *)
Lemma flip_transpose m v : mapply (transpose (flip_last m)) v = mapply (transpose m) (V3 (vx v) (vy v) (- vz v)).
Proof. destruct m as [[] [] []], v. apply vec3_eq; mcomp; ring. Qed.
Lemma transpose_invol m : transpose (transpose m) = m.
Proof. destruct m as [[] [] []]. reflexivity. Qed.
Lemma orthogonal_inv_r m v : orthogonal m -> mapply m (mapply (transpose m) v) = v.
Proof. intros H. rewrite <- (transpose_invol m) at 1. apply orthogonal_inv_l, orthogonal_transpose, H. Qed.

(** The matrix best_fit_transform computes from the decomposition. *)
Definition kabsch (U Vt : mat3) : mat3 :=
  let Rm := mdot (transpose Vt) (transpose U) in
  if Rlt_b (det3 Rm) 0 then mdot (transpose (flip_last Vt)) (transpose U) else Rm.
Lemma kabsch_rotation U Vt : orthogonal U -> orthogonal Vt -> orthogonal (kabsch U Vt) /\ det3 (kabsch U Vt) = 1.
Proof.
  intros HU HV. unfold kabsch.
  assert (HR : orthogonal (mdot (transpose Vt) (transpose U))) by (apply orthogonal_mdot; apply orthogonal_transpose; auto).
  pose proof (orthogonal_det _ HR) as D. destruct (Rlt_b _ 0) eqn:E.
  - apply Rlt_b_true in E. split; [apply orthogonal_mdot; apply orthogonal_transpose; auto; apply orthogonal_flip; auto|].
    assert (Ed : det3 (mdot (transpose (flip_last Vt)) (transpose U)) = - det3 (mdot (transpose Vt) (transpose U)))
      by (rewrite !det_mdot, !det_transpose, det_flip; ring).
    rewrite Ed. nra.
  - apply Rlt_b_false in E. split; auto. nra.
Qed.
Lemma kabsch_best H U Sv Vt q : is_svd H (U, Sv, Vt) -> hn2 q <> 0 -> tr_prod (qmat q) H <= tr_prod (kabsch U Vt) H.
Proof.
  intros (HU & HV & S1 & S2 & S3 & HH) Hq.
  rewrite (tr_svd (qmat q) H U Sv Vt), (tr_svd (kabsch U Vt) H U Sv Vt) by exact HH. cbv zeta.
  set (z := mdot Vt (mdot (qmat q) U)).
  assert (Hz : orthogonal z) by (apply orthogonal_mdot; auto; apply orthogonal_mdot; auto; apply qmat_orthogonal; auto).
  pose proof (trace_bound _ _ _ _ _ _ (orthogonal_onb _ Hz) S1 S2 S3) as B. rewrite det_cols in B.
  assert (Dz : det3 z = det3 (mdot (transpose Vt) (transpose U))) by (unfold z; rewrite !det_mdot, !det_transpose, qmat_det by auto; ring).
  rewrite Dz in B. unfold kabsch. unfold col0, col1, col2 in *. rewrite !mapply_mdot in *.
  destruct (Rlt_b _ 0).
  - rewrite !mapply_mdot, !flip_transpose, !orthogonal_inv_l, !orthogonal_inv_r by auto. cbn in *. lra.
  - rewrite !mapply_mdot, !orthogonal_inv_l, !orthogonal_inv_r by auto. cbn in *. lra.
Qed.

(* ---- residuals ---- *)
Definition shift (m1 m2 : vec3) (l : list (vec3 * vec3)) : list (vec3 * vec3) :=
  map (fun p => (vsub (fst p) m1, vsub (snd p) m2)) l.
Lemma sq_error_shift t q m1 m2 l : let d := vsub (vsub m2 (srot q m1)) t in
  sq_error t q l = sq_error v0 q (shift m1 m2 l)
    + 2 * vdot d (vsub (vsum (map snd (shift m1 m2 l))) (srot q (vsum (map fst (shift m1 m2 l)))))
    + INR (List.length l) * vdot d d.
Proof.
  intros d. induction l as [|[a b] l IH].
  - cbn. rewrite srot_0. destruct d. mcomp. ring.
  - cbn [sq_error shift map fst snd vsum fold_right List.length]. rewrite IH. unfold dist2.
    fold (shift m1 m2 l). fold (vsum (map snd (shift m1 m2 l))). fold (vsum (map fst (shift m1 m2 l))).
    rewrite S_INR. rewrite srot_add, srot_sub.
    subst d. generalize (sq_error v0 q (shift m1 m2 l)) (vsum (map snd (shift m1 m2 l))) (srot q (vsum (map fst (shift m1 m2 l)))) (INR (List.length l)).
    generalize (srot q a) (srot q m1). intros [] [] x [] [] n. destruct b, t, m2. mcomp. ring.
Qed.
Lemma sq_error_corr q l : hn2 q <> 0 ->
  sq_error v0 q l = fold_right (fun p s => vdot (fst p) (fst p) + vdot (snd p) (snd p) + s) 0 l - 2 * corr (srot q) l.
Proof.
  intros Hq. induction l as [|[a b] l IH]; cbn [sq_error corr fold_right fst snd]; [ring|]. rewrite IH. unfold dist2.
  rewrite <- (srot_dot q a a Hq). generalize (srot q a). intros []. destruct b. mcomp. ring.
Qed.
Lemma corr_ext f g l : (forall v, f v = g v) -> corr f l = corr g l.
Proof. intros H. induction l as [|[a b] l IH]; cbn; [reflexivity|]. rewrite H, IH. reflexivity. Qed.
Lemma sq_error_nonneg t q l : 0 <= sq_error t q l.
Proof. induction l as [|[a b] l IH]; cbn; [lra|]. pose proof (vdot_nonneg (vsub b (vadd (srot q a) t))). unfold dist2. lra. Qed.

(* ---- centroids ---- *)
Lemma vsum_shift m l : vsum (map (fun v => vsub v m) l) = vsub (vsum l) (vscale (INR (List.length l)) m).
Proof.
  induction l as [|a l IH]; cbn [map vsum fold_right List.length].
  - cbn. destruct m. apply vec3_eq; mcomp; ring.
  - fold (vsum (map (fun v => vsub v m) l)). fold (vsum l). rewrite IH, S_INR. destruct a, m, (vsum l). apply vec3_eq; mcomp; ring.
Qed.
Lemma centroid_zero l m : centroid l = Ok m -> vsum (map (fun v => vsub v m) l) = v0.
Proof.
  intros H. destruct l as [|a l]; [discriminate|]. unfold centroid in H. assert (Hm : m = vscale (/ INR (List.length (a :: l))) (vsum (a :: l))) by congruence. rewrite vsum_shift, Hm. clear H Hm.
  assert (N : INR (List.length (a :: l)) <> 0) by (apply not_0_INR; discriminate).
  revert N. generalize (vsum (a :: l)). generalize (INR (List.length (a :: l))). intros n [x y z] N. unfold vsub, vscale, v0. cbn [vx vy vz].
  apply vec3_eq; cbn [vx vy vz]; field; auto.
Qed.
Lemma combine_shift m1 m2 (p1 p2 : list vec3) : List.length p1 = List.length p2 ->
  combine (map (fun v => vsub v m1) p1) (map (fun v => vsub v m2) p2) = shift m1 m2 (combine p1 p2).
Proof. revert p2; induction p1 as [|a p1 IH]; intros [|b p2] H; try discriminate; auto. injection H as H. cbn. f_equal. apply IH, H. Qed.
Lemma map_fst_combine {A B} (a : list A) (b : list B) : List.length a = List.length b -> map fst (combine a b) = a.
Proof. revert b; induction a as [|x a IH]; intros [|y b] H; try discriminate; auto. injection H as H. cbn. f_equal. auto. Qed.
Lemma map_snd_combine {A B} (a : list A) (b : list B) : List.length a = List.length b -> map snd (combine a b) = b.
Proof. revert b; induction a as [|x a IH]; intros [|y b] H; try discriminate; auto. injection H as H. cbn. f_equal. auto. Qed.

(** The covariance best_fit_transform decomposes. *)
Definition centred_cov (p1 p2 : list vec3) : mat3 :=
  match centroid p1, centroid p2 with
  | Ok m1, Ok m2 => cross_cov (shift m1 m2 (combine p1 p2))
  | _, _ => mzero
  end.
Lemma fit_transform_optimal svd frm p1 p2 : List.length p1 = List.length p2 -> p1 <> [] ->
  is_svd (centred_cov p1 p2) (svd (centred_cov p1 p2)) -> is_frm frm ->
  exists t r, fit_transform svd frm p1 p2 = Ok (t, r) /\ hunit r /\
    forall t' q, hn2 q <> 0 -> sq_error t r (combine p1 p2) <= sq_error t' q (combine p1 p2).
Proof.
  intros Hl Hne Hsvd Hfrm. unfold centred_cov in Hsvd. unfold fit_transform.
  destruct (centroid p1) as [m1|] eqn:E1; [|destruct p1; [contradiction|discriminate]].
  destruct (centroid p2) as [m2|] eqn:E2; [|destruct p1, p2; try discriminate; contradiction].
  cbn [bind]. rewrite combine_shift by auto. set (l' := shift m1 m2 (combine p1 p2)) in *.
  destruct (svd (cross_cov l')) as [[U Sv] Vt]. fold (kabsch U Vt).
  pose proof Hsvd as (HU & HV & _). destruct (kabsch_rotation U Vt HU HV) as (HO & HD).
  destruct (Hfrm _ HO HD) as (Hr & Ha). set (r := frm (kabsch U Vt)) in *.
  exists (vsub m2 (mapply (kabsch U Vt) m1)), r. split; [reflexivity|]. split; auto. intros t' q Hq.
  assert (Nr : hn2 r <> 0) by (unfold hunit in Hr; rewrite Hr; lra).
  assert (Z1 : vsum (map fst l') = v0).
  { unfold l', shift. rewrite map_map. cbn [fst]. rewrite <- (map_map fst (fun v => vsub v m1)), map_fst_combine by auto. apply centroid_zero, E1. }
  assert (Z2 : vsum (map snd l') = v0).
  { unfold l', shift. rewrite map_map. cbn [snd]. rewrite <- (map_map snd (fun v => vsub v m2)), map_snd_combine by auto. apply centroid_zero, E2. }
  rewrite (sq_error_shift _ r m1 m2), (sq_error_shift t' q m1 m2). cbv zeta. fold l'. rewrite Z1, Z2, !srot_0, !sq_error_corr by auto.
  rewrite Ha. rewrite <- (corr_ext (mapply (qmat q)) (srot q) l' (qmat_apply q)), (corr_ext (srot r) (mapply (kabsch U Vt)) l' Ha), !corr_cov.
  pose proof (kabsch_best _ U Sv Vt q Hsvd Hq) as B.
  replace (vsub (vsub m2 (mapply (kabsch U Vt) m1)) (vsub m2 (mapply (kabsch U Vt) m1))) with v0
    by (generalize (mapply (kabsch U Vt) m1); intros []; destruct m2; apply vec3_eq; mcomp; ring).
  set (d := vsub (vsub m2 (srot q m1)) t'). pose proof (vdot_nonneg d) as Dn.
  pose proof (pos_INR (List.length (combine p1 p2))) as Nn.
  replace (vdot v0 (vsub v0 v0)) with 0 by (mcomp; ring). replace (vdot d (vsub v0 v0)) with 0 by (destruct d; mcomp; ring).
  replace (vdot v0 v0) with 0 by (mcomp; ring). assert (0 <= INR (List.length (combine p1 p2)) * vdot d d) by (apply Rmult_le_pos; auto).
  lra.
Qed.

(* ---- best_fit_rotation, when no reflection occurs ---- *)
Lemma fit_rotation_optimal svd frm p1 p2 : 0 < det3 (cross_cov (combine p1 p2)) ->
  is_svd (cross_cov (combine p1 p2)) (svd (cross_cov (combine p1 p2))) -> is_frm frm ->
  hunit (fit_rotation svd frm p1 p2) /\
  forall q, hn2 q <> 0 -> sq_error v0 (fit_rotation svd frm p1 p2) (combine p1 p2) <= sq_error v0 q (combine p1 p2).
Proof.
  intros Hd Hsvd Hfrm. unfold fit_rotation. set (l := combine p1 p2) in *. destruct (svd (cross_cov l)) as [[U Sv] Vt].
  assert (Ek : kabsch U Vt = mdot (transpose Vt) (transpose U)).
  { unfold kabsch. destruct (Rlt_b _ 0) eqn:E; auto. exfalso. apply Rlt_b_true in E. rewrite det_mdot, !det_transpose in E.
    destruct Hsvd as (HU & HV & S1 & S2 & S3 & HH).
    assert (Ed : det3 (cross_cov l) = det3 U * (vx Sv * vy Sv * vz Sv) * det3 Vt).
    { rewrite <- !det_cols. unfold col0, col1, col2. rewrite !HH. destruct U as [[] [] []], Vt as [[] [] []], Sv. mcomp. ring. }
    rewrite Ed in Hd. assert (0 <= vx Sv * vy Sv * vz Sv) by (apply Rmult_le_pos; [apply Rmult_le_pos|]; lra). nra. }
  rewrite <- Ek. pose proof Hsvd as (HU & HV & _). destruct (kabsch_rotation U Vt HU HV) as (HO & HD).
  destruct (Hfrm _ HO HD) as (Hr & Ha). set (r := frm (kabsch U Vt)) in *. split; auto. intros q Hq.
  assert (Nr : hn2 r <> 0) by (unfold hunit in Hr; rewrite Hr; lra).
  rewrite !sq_error_corr by auto.
  rewrite <- (corr_ext (mapply (qmat q)) (srot q) l (qmat_apply q)), (corr_ext (srot r) (mapply (kabsch U Vt)) l Ha), !corr_cov.
  pose proof (kabsch_best _ U Sv Vt q Hsvd Hq) as B. lra.
Qed.
