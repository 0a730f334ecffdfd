(** Derivatives of rotations. *)
From Coq Require Import Reals List Lra Lia.
From Verif Require Import Base Quat SpecQuat QuatProofs SpecMotion.
Open Scope R_scope.

Lemma dlim_ext f g x l : (forall t, f t = g t) -> derivable_pt_lim f x l -> derivable_pt_lim g x l.
Proof.
  intros H D eps He. destruct (D eps He) as (d & Hd). exists d. intros h Hh Hd'. rewrite <- !H. apply Hd; auto.
Qed.
Lemma dlim_eq f x l l' : l = l' -> derivable_pt_lim f x l -> derivable_pt_lim f x l'.
Proof. intros ->; auto. Qed.
Lemma dlim_add f g x a b : derivable_pt_lim f x a -> derivable_pt_lim g x b -> derivable_pt_lim (fun t => f t + g t) x (a + b).
Proof. apply derivable_pt_lim_plus. Qed.
Lemma dlim_sub f g x a b : derivable_pt_lim f x a -> derivable_pt_lim g x b -> derivable_pt_lim (fun t => f t - g t) x (a - b).
Proof. apply derivable_pt_lim_minus. Qed.
Lemma dlim_opp f x a : derivable_pt_lim f x a -> derivable_pt_lim (fun t => - f t) x (- a).
Proof. apply derivable_pt_lim_opp. Qed.
Lemma dlim_mul f g x a b : derivable_pt_lim f x a -> derivable_pt_lim g x b -> derivable_pt_lim (fun t => f t * g t) x (a * g x + f x * b).
Proof. apply derivable_pt_lim_mult. Qed.
Lemma dlim_const c x : derivable_pt_lim (fun _ => c) x 0.
Proof. apply derivable_pt_lim_const. Qed.
(** Derivative of a polynomial in curves with known derivatives. *)
Ltac dlim := first
  [ eassumption
  | apply dlim_const
  | apply dlim_add; dlim
  | apply dlim_sub; dlim
  | apply dlim_opp; dlim
  | apply dlim_mul; dlim ].

(** Without the normalisation: the vector part of q (0,v) q*. *)
Definition sand (q : quat) (v : vec3) : vec3 := ve (hmul (hmul q (mkq 0 v)) (hconj q)).
Lemma srot_sand q v : hunit q -> srot q v = sand q v.
Proof. intros H. unfold srot. rewrite H. fold (sand q v). destruct (sand q v). unfold vscale. cbn. f_equal; field. Qed.

Lemma unit_orth q t d : (forall x, hunit (q x)) -> qderiv q t d ->
  qw (q t) * qw d + qx (q t) * qx d + qy (q t) * qy d + qz (q t) * qz d = 0.
Proof.
  intros Hu (Dw & Dx & Dy & Dz).
  assert (D : derivable_pt_lim (fun x => qw (q x) * qw (q x) + qx (q x) * qx (q x) + qy (q x) * qy (q x) + qz (q x) * qz (q x)) t
    ((qw d * qw (q t) + qw (q t) * qw d) + (qx d * qx (q t) + qx (q t) * qx d) + (qy d * qy (q t) + qy (q t) * qy d) + (qz d * qz (q t) + qz (q t) * qz d))).
  { dlim. }
  apply (dlim_ext _ (fun _ => 1)) in D.
  - pose proof (uniqueness_limite _ _ _ _ D (dlim_const 1 t)). lra.
  - intros x. pose proof (Hu x) as H. unfold hunit, hn2, sc, ve, vdot in H. cbn in H. lra.
Qed.
(** Product rule for quaternion curves. *)
Definition hadd (a b : quat) : quat := Qt (qw a + qw b) (qx a + qx b) (qy a + qy b) (qz a + qz b).
Lemma qderiv_mul p q t dp dq : qderiv p t dp -> qderiv q t dq ->
  qderiv (fun x => hmul (p x) (q x)) t (hadd (hmul dp (q t)) (hmul (p t) dq)).
Proof.
  intros (Pw & Px & Py & Pz) (Qw & Qx & Qy & Qz). unfold qderiv, hadd.
  cbn [qw qx qy qz hmul mkq vadd vscale vcross vdot ve sc vx vy vz].
  split; [|split; [|split]]; (eapply dlim_eq; [|dlim]); cbv beta; unfold vadd, vscale, vcross, vdot, ve, sc; cbn [vx vy vz qw qx qy qz]; ring.
Qed.
Lemma qderiv_conj q t dq : qderiv q t dq -> qderiv (fun x => hconj (q x)) t (hconj dq).
Proof.
  intros (Qw & Qx & Qy & Qz). unfold qderiv. cbn [qw qx qy qz hconj mkq vopp ve sc vx vy vz].
  split; [|split; [|split]]; dlim.
Qed.
Lemma qderiv_pure p t dp : vderiv p t dp -> qderiv (fun x => mkq 0 (p x)) t (mkq 0 dp).
Proof. intros (Px & Py & Pz). unfold qderiv. cbn [qw qx qy qz mkq]. split; [|split; [|split]]; dlim. Qed.
(** d/dt of the sandwich with a moving point. *)
Lemma sand_deriv q p t dq dp : qderiv q t dq -> vderiv p t dp ->
  vderiv (fun x => sand (q x) (p x)) t
    (ve (hadd (hmul (hadd (hmul dq (mkq 0 (p t))) (hmul (q t) (mkq 0 dp))) (hconj (q t)))
              (hmul (hmul (q t) (mkq 0 (p t))) (hconj dq)))).
Proof.
  intros Dq Dp.
  pose proof (qderiv_mul _ _ _ _ _ (qderiv_mul _ _ _ _ _ Dq (qderiv_pure _ _ _ Dp)) (qderiv_conj _ _ _ Dq)) as (_ & Hx & Hy & Hz).
  split; [exact Hx|split; [exact Hy|exact Hz]].
Qed.
Lemma hmul_add_l a b c : hmul (hadd a b) c = hadd (hmul a c) (hmul b c).
Proof.
  destruct a as [a0 a1 a2 a3], b as [b0 b1 b2 b3], c as [c0 c1 c2 c3]. unfold hadd, hmul, mkq, ve, sc, vdot, vadd, vscale, vcross. cbn [vx vy vz qw qx qy qz]. apply quat_eq; cbn [qw qx qy qz]; ring.
Qed.
Lemma ve_add a b : ve (hadd a b) = vadd (ve a) (ve b).
Proof. reflexivity. Qed.
(** conj(q) dq for a unit curve is the pure quaternion w/2. *)
Lemma hconj_unit_r q : hunit q -> hmul q (hconj q) = hone.
Proof.
  destruct q as [a b c d]. unfold hunit, hn2, hmul, hconj, mkq, hone, ve, sc, vdot, vadd, vscale, vcross, vopp, v0. cbn [vx vy vz qw qx qy qz].
  intros H. apply quat_eq; cbn [vx vy vz qw qx qy qz mkq]; [rewrite <- H|..]; ring.
Qed.
Lemma pure_split q : sc q = 0 -> q = mkq 0 (ve q).
Proof. destruct q as [a b c d]. unfold sc, mkq, ve. cbn. intros ->. reflexivity. Qed.
Lemma half_rate q dq : hunit q -> qw q * qw dq + qx q * qx dq + qy q * qy dq + qz q * qz dq = 0 ->
  dq = hmul q (mkq 0 (ve (hmul (hconj q) dq))).
Proof.
  intros Hu H0. rewrite <- pure_split.
  - rewrite <- hmul_assoc, hconj_unit_r by auto. symmetry. apply hmul_1_l.
  - rewrite <- H0. unfold hmul, hconj, mkq, ve, sc, vdot, vopp. cbn [vx vy vz qw qx qy qz]. ring.
Qed.
Lemma hconj_mul a b : hconj (hmul a b) = hmul (hconj b) (hconj a).
Proof.
  destruct a as [a0 a1 a2 a3], b as [b0 b1 b2 b3]. unfold hconj, hmul, mkq, ve, sc, vdot, vadd, vscale, vcross, vopp. cbn [vx vy vz qw qx qy qz]. apply quat_eq; cbn [qw qx qy qz]; ring.
Qed.
Lemma hmul_add_r a b c : hmul c (hadd a b) = hadd (hmul c a) (hmul c b).
Proof.
  destruct a as [a0 a1 a2 a3], b as [b0 b1 b2 b3], c as [c0 c1 c2 c3]. unfold hadd, hmul, mkq, ve, sc, vdot, vadd, vscale, vcross. cbn [vx vy vz qw qx qy qz]. apply quat_eq; cbn [qw qx qy qz]; ring.
Qed.
Lemma pure_comm u p : hadd (hmul (mkq 0 u) (mkq 0 p)) (hmul (mkq 0 p) (hconj (mkq 0 u))) = mkq 0 (vcross (vscale 2 u) p).
Proof.
  destruct u as [u0 u1 u2], p as [p0 p1 p2]. unfold hadd, hmul, hconj, mkq, ve, sc, vdot, vadd, vscale, vcross, vopp. cbn [vx vy vz qw qx qy qz].
  apply quat_eq; cbn [qw qx qy qz]; ring.
Qed.
Lemma sand_rate q u p : vadd (ve (hmul (hmul (hmul q (mkq 0 u)) (mkq 0 p)) (hconj q)))
    (ve (hmul (hmul q (mkq 0 p)) (hconj (hmul q (mkq 0 u))))) = sand q (vcross (vscale 2 u) p).
Proof.
  unfold sand. rewrite <- pure_comm, <- ve_add. f_equal. rewrite hconj_mul.
  rewrite hmul_add_r, hmul_add_l, !hmul_assoc. reflexivity.
Qed.
Lemma pure_add a b : mkq 0 (vadd a b) = hadd (mkq 0 a) (mkq 0 b).
Proof. unfold hadd, mkq, vadd. cbn. f_equal. ring. Qed.
Lemma sand_lin q a b : sand q (vadd a b) = vadd (sand q a) (sand q b).
Proof. unfold sand. rewrite pure_add, hmul_add_r, hmul_add_l. reflexivity. Qed.
(** Twice the vector part of conj(q) dq is the body rate. *)
Definition rate_of (q dq : quat) : vec3 := vscale 2 (ve (hmul (hconj q) dq)).
Lemma moving_point q p t dq dp : (forall x, hunit (q x)) -> qderiv q t dq -> vderiv p t dp ->
  vderiv (fun x => srot (q x) (p x)) t (srot (q t) (vadd (vcross (rate_of (q t) dq) (p t)) dp)).
Proof.
  intros Hu Dq Dp. rewrite srot_sand by auto.
  assert (E : forall x, sand (q x) (p x) = srot (q x) (p x)) by (intros; symmetry; apply srot_sand; auto).
  pose proof (half_rate _ _ (Hu t) (unit_orth q t dq Hu Dq)) as HR.
  pose proof (sand_deriv q p t dq dp Dq Dp) as D.
  set (u := ve (hmul (hconj (q t)) dq)) in *.
  rewrite hmul_add_l, !ve_add in D. fold (sand (q t) dp) in D.
  assert (Ev : vadd (vadd (ve (hmul (hmul dq (mkq 0 (p t))) (hconj (q t)))) (sand (q t) dp))
      (ve (hmul (hmul (q t) (mkq 0 (p t))) (hconj dq))) = sand (q t) (vadd (vcross (rate_of (q t) dq) (p t)) dp)).
  { rewrite sand_lin. unfold rate_of. fold u. rewrite <- sand_rate. rewrite <- HR.
    generalize (ve (hmul (hmul dq (mkq 0 (p t))) (hconj (q t)))) (ve (hmul (hmul (q t) (mkq 0 (p t))) (hconj dq))) (sand (q t) dp).
    intros [] [] []. unfold vadd; cbn. f_equal; ring. }
  rewrite Ev in D. destruct D as (D1 & D2 & D3). split; [|split]; (eapply dlim_ext; [|eassumption]); intros x; cbv beta; rewrite E; reflexivity.
Qed.
Lemma vderiv_const c t : vderiv (fun _ => c) t v0.
Proof. split; [|split]; apply dlim_const. Qed.
Lemma body_rate_of q t dq : (forall x, hunit (q x)) -> qderiv q t dq -> body_rate q t (rate_of (q t) dq).
Proof.
  intros Hu Dq p. pose proof (moving_point q (fun _ => p) t dq v0 Hu Dq (vderiv_const p t)) as D. cbv beta in D.
  replace (vadd (vcross (rate_of (q t) dq) p) v0) with (vcross (rate_of (q t) dq) p) in D; auto.
  destruct (vcross _ _). unfold vadd; cbn. f_equal; ring.
Qed.

(* ---- sums and compositions of motions ---- *)
Lemma vderiv_eq f t d d' : d = d' -> vderiv f t d -> vderiv f t d'.
Proof. intros ->. auto. Qed.
Lemma vderiv_ext f g t d : (forall x, f x = g x) -> vderiv f t d -> vderiv g t d.
Proof.
  intros E (D1 & D2 & D3). split; [|split]; (eapply dlim_ext; [|eassumption]); intros x; cbv beta; rewrite E; reflexivity.
Qed.
Lemma vderiv_add f g t a b : vderiv f t a -> vderiv g t b -> vderiv (fun x => vadd (f x) (g x)) t (vadd a b).
Proof. intros (A1 & A2 & A3) (B1 & B2 & B3). split; [|split]; cbn [vx vy vz vadd]; apply dlim_add; auto. Qed.
Lemma vderiv_scale (f : R -> R) g t a b : derivable_pt_lim f t a -> vderiv g t b ->
  vderiv (fun x => vscale (f x) (g x)) t (vadd (vscale a (g t)) (vscale (f t) b)).
Proof. intros A (B1 & B2 & B3). split; [|split]; cbn [vx vy vz vadd vscale]; apply dlim_mul; auto. Qed.
Definition mix (v e1 e2 e3 : vec3) : vec3 := vadd (vadd (vscale (vx v) e1) (vscale (vy v) e2)) (vscale (vz v) e3).
Lemma srot_mix q v : srot q v = mix v (srot q (V3 1 0 0)) (srot q (V3 0 1 0)) (srot q (V3 0 0 1)).
Proof.
  unfold mix. rewrite <- !srot_scale, <- !srot_add. f_equal. apply vec3_eq; cbn; ring.
Qed.
Lemma lin_moving q u t (D : vec3 -> vec3) du :
  (forall p, vderiv (fun x => srot (q x) p) t (D p)) ->
  (forall v, D v = mix v (D (V3 1 0 0)) (D (V3 0 1 0)) (D (V3 0 0 1))) ->
  vderiv u t du -> vderiv (fun x => srot (q x) (u x)) t (vadd (D (u t)) (srot (q t) du)).
Proof.
  intros HD HL (U1 & U2 & U3).
  apply (vderiv_ext (fun x => mix (u x) (srot (q x) (V3 1 0 0)) (srot (q x) (V3 0 1 0)) (srot (q x) (V3 0 0 1)))).
  { intros x. symmetry. apply srot_mix. }
  eapply vderiv_eq; [|unfold mix; apply vderiv_add; [apply vderiv_add|]; apply vderiv_scale; eauto].
  rewrite (HL (u t)), (srot_mix (q t) du). unfold mix.
  generalize (srot (q t) (V3 1 0 0)) (srot (q t) (V3 0 1 0)) (srot (q t) (V3 0 0 1)) (D (V3 1 0 0)) (D (V3 0 1 0)) (D (V3 0 0 1)).
  intros. apply vec3_eq; cbn; ring.
Qed.
Lemma space_moving q u t w du : space_rate q t w -> vderiv u t du ->
  vderiv (fun x => srot (q x) (u x)) t (vadd (vcross w (srot (q t) (u t))) (srot (q t) du)).
Proof.
  intros Hw Hu. apply (lin_moving q u t (fun p => vcross w (srot (q t) p)) du Hw); auto.
  intros v. rewrite (srot_mix (q t) v). unfold mix. apply vec3_eq; cbn; ring.
Qed.
Lemma body_moving q u t w du : body_rate q t w -> vderiv u t du ->
  vderiv (fun x => srot (q x) (u x)) t (srot (q t) (vadd (vcross w (u t)) du)).
Proof.
  intros Hw Hu. eapply vderiv_eq; [|apply (lin_moving q u t (fun p => srot (q t) (vcross w p)) du Hw); auto].
  - rewrite srot_add. reflexivity.
  - intros v. unfold mix. rewrite <- !srot_scale, <- !srot_add. f_equal. apply vec3_eq; cbn; ring.
Qed.
(** Angular velocities of composed rotations. *)
Lemma space_compose qR qM t wR wM : (forall x, hunit (qR x)) -> (forall x, hunit (qM x)) ->
  space_rate qR t wR -> space_rate qM t wM ->
  space_rate (fun x => hmul (qR x) (qM x)) t (vadd (srot (qR t) wM) wR).
Proof.
  intros UR UM HR HM p. assert (N : forall q, hunit q -> hn2 q <> 0) by (intros q; unfold hunit; lra).
  apply (vderiv_ext (fun x => srot (qR x) (srot (qM x) p))). { intros x. rewrite srot_hmul by auto. reflexivity. }
  eapply vderiv_eq; [|apply (space_moving qR (fun x => srot (qM x) p) t wR _ HR (HM p))].
  rewrite srot_hmul, <- srot_cross by auto. apply vec3_eq; cbn; ring.
Qed.
Lemma body_compose qI qJ t wI wJ r : (forall x, hunit (qI x)) -> (forall x, hunit (qJ x)) ->
  (forall v, srot (qJ t) (srot r v) = v) -> body_rate qI t wI -> body_rate qJ t wJ ->
  body_rate (fun x => hmul (qI x) (qJ x)) t (vadd (srot r wI) wJ).
Proof.
  intros UI UJ Hr HI HJ p. assert (N : forall q, hunit q -> hn2 q <> 0) by (intros q; unfold hunit; lra).
  apply (vderiv_ext (fun x => srot (qI x) (srot (qJ x) p))). { intros x. rewrite srot_hmul by auto. reflexivity. }
  eapply vderiv_eq; [|apply (body_moving qI (fun x => srot (qJ x) p) t wI _ HI (HJ p))].
  rewrite srot_hmul by auto. f_equal. rewrite <- !srot_cross by auto. rewrite srot_add, Hr. apply vec3_eq; cbn; ring.
Qed.
