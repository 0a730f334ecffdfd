(** The tf2 model: its arithmetic, its caches and its walks. *)
From Coq Require Import Reals List String ZArith Bool Arith Lia Lra Sorted.
From Verif Require Import Base Quat SpecQuat QuatProofs NdArray Frames SpecForest FrameProofs WalkProofs Matcher SpecLookup LookupProofs
  RegistryProofs MovingProofs TimeProofs RosMsg PropRosMsg Broadcast TfTree Tf2.
Import ListNotations.
Open Scope R_scope.
Open Scope list_scope.

(* ---- arithmetic on unit quaternions ---- *)
Definition gunit (g : rigid) : Prop := hunit (snd g).
Lemma gunit_nz g : gunit g -> gnz g.
Proof. intros H. unfold gnz. apply hunit_nz. exact H. Qed.
Lemma gunit_one : gunit gone.
Proof. unfold gunit. cbn. apply hn2_one. Qed.
Lemma gunit_mul g h : gunit g -> gunit h -> gunit (gmul g h).
Proof. unfold gunit, hunit. intros A B. cbn. rewrite hn2_hmul, A, B. ring. Qed.
Lemma gunit_inv g : gunit g -> gunit (ginv g).
Proof. intros H. apply hunit_inv. exact H. Qed.
Lemma hinv_unit q : hunit q -> hinv q = qconj q.
Proof. intros H. unfold hinv. unfold hunit in H. rewrite H, Rinv_1. clear H. veq. Qed.
Lemma tf_rotate_unit q v : hunit q -> tf_rotate q v = srot q v.
Proof.
  intros H. unfold tf_rotate, srot. unfold hunit in H. rewrite H, Rinv_1, !qmulq_hmul.
  replace (qconj q) with (hconj q) by (clear H; veq). replace (Qt 0 (vx v) (vy v) (vz v)) with (mkq 0 v) by reflexivity.
  generalize (hmul (hmul q (mkq 0 v)) (hconj q)). clear. intros. veq.
Qed.
Lemma accum_unit e g : hunit (snd e) -> accum e g = gmul e g.
Proof. intros H. unfold accum, gmul. rewrite tf_rotate_unit by exact H. rewrite qmulq_hmul. reflexivity. Qed.
Lemma tf_inv_unit g : gunit g -> tf_inv g = ginv g.
Proof.
  intros H. unfold tf_inv, ginv. cbv zeta. rewrite <- hinv_unit by exact H. rewrite tf_rotate_unit by (apply hunit_inv; exact H). rewrite srot_opp. reflexivity.
Qed.
Lemma full_path_unit a b : gunit b -> full_path a b = gmul (ginv b) a.
Proof.
  intros H. unfold full_path. rewrite tf_inv_unit by exact H. pose proof (gunit_inv b H) as U. destruct (ginv b) as (v & q). unfold gmul. cbn [fst snd].
  rewrite tf_rotate_unit by exact U. rewrite qmulq_hmul. reflexivity.
Qed.
(** Common factors cancel. *)
Lemma gcancel h a b : gunit h -> gunit a -> gunit b -> gmul (ginv (gmul h b)) (gmul h a) = gmul (ginv b) a.
Proof.
  intros Hh Ha Hb. assert (Nh := gunit_nz h Hh). assert (Nb := gunit_nz b Hb). assert (Ni := gnz_inv h Nh). assert (Nj := gnz_inv b Nb).
  rewrite ginv_mul by auto. rewrite gmul_assoc by auto. rewrite <- (gmul_assoc (ginv h) h a) by auto. rewrite gmul_inv_l by auto. rewrite gmul_1_l. reflexivity.
Qed.

(* ---- slerp ---- *)
Lemma qdot_bound a b : hunit a -> hunit b -> -1 <= qdot a b <= 1.
Proof.
  intros A B. unfold hunit in *.
  assert (P : 0 <= hn2 (Qt (qw a - qw b) (qx a - qx b) (qy a - qy b) (qz a - qz b))) by apply hn2_nonneg.
  assert (M : 0 <= hn2 (Qt (qw a + qw b) (qx a + qx b) (qy a + qy b) (qz a + qz b))) by apply hn2_nonneg.
  unfold qdot. destruct a, b. vcomp. lra.
Qed.
Lemma half_angle_unit a b : hunit a -> hunit b -> cos (half_angle a b) = Rabs (qdot a b) /\ 0 <= half_angle a b <= PI / 2.
Proof.
  intros A B. pose proof (qdot_bound a b A B) as Q. unfold half_angle. rewrite <- !hn2_qnorm2. unfold hunit in A, B. rewrite A, B, Rmult_1_l, sqrt_1. unfold Rdiv at 1 2 3. rewrite Rinv_1, !Rmult_1_r.
  assert (R1 : 0 <= Rabs (qdot a b) <= 1). { split; [apply Rabs_pos|]. apply Rabs_le. exact Q. }
  split; [apply cos_acos; lra|]. split; [apply acos_bound|].
  destruct (Rle_lt_dec (acos (Rabs (qdot a b))) (PI / 2)) as [H|H]; auto. exfalso.
  pose proof (acos_bound (Rabs (qdot a b))) as (_ & U). pose proof PI_RGT_0.
  assert (C : cos (acos (Rabs (qdot a b))) < 0) by (apply cos_lt_0; lra). rewrite cos_acos in C by lra. lra.
Qed.
Lemma slerp_0 a b : hunit a -> hunit b -> slerp a b 0 = a.
Proof.
  intros A B. unfold slerp. cbv zeta. destruct (Req_b (half_angle a b) 0) eqn:E; auto. apply Req_b_false in E.
  destruct (half_angle_unit a b A B) as (_ & L & U). pose proof PI_RGT_0. assert (S : 0 < sin (half_angle a b)) by (apply sin_gt_0; lra).
  rewrite Rmult_0_l, sin_0, Ropp_0. rewrite Rminus_0_r, Rmult_1_l. destruct a as [w x y z]. cbn [qw qx qy qz].
  replace (if Rlt_b _ 0 then 0 else 0) with 0 by (destruct (Rlt_b _ 0); auto). f_equal; field; lra.
Qed.
Lemma slerp_unit a b x : hunit a -> hunit b -> hunit (slerp a b x).
Proof.
  intros A B. unfold slerp. cbv zeta. destruct (Req_b (half_angle a b) 0) eqn:E; auto. apply Req_b_false in E.
  destruct (half_angle_unit a b A B) as (C & L & U). pose proof PI_RGT_0. assert (S : 0 < sin (half_angle a b)) by (apply sin_gt_0; lra).
  set (th := half_angle a b) in *. set (s1 := if Rlt_b (qdot a b) 0 then - sin (x * th) else sin (x * th)). set (s0 := sin ((1 - x) * th)).
  assert (K : s0 * s0 + s1 * s1 + 2 * s0 * s1 * qdot a b = sin th * sin th).
  { assert (K0 : forall p q, sin p * sin p + sin q * sin q + 2 * sin p * sin q * cos (p + q) = sin (p + q) * sin (p + q)).
    { intros p q. rewrite cos_plus, sin_plus. pose proof (sin2_cos2 p) as P. pose proof (sin2_cos2 q) as Q. unfold Rsqr in P, Q.
      assert (Cp : cos p * cos p = 1 - sin p * sin p) by lra. assert (Cq : cos q * cos q = 1 - sin q * sin q) by lra.
      replace ((sin p * cos q + cos p * sin q) * (sin p * cos q + cos p * sin q)) with
        (sin p * sin p * (cos q * cos q) + sin q * sin q * (cos p * cos p) + 2 * sin p * sin q * (cos p * cos q)) by ring. rewrite Cp, Cq. ring. }
    specialize (K0 ((1 - x) * th) (x * th)). replace ((1 - x) * th + x * th) with th in K0 by ring. rewrite C in K0. unfold s1, s0.
    destruct (Rlt_b (qdot a b) 0) eqn:D; [apply Rlt_b_true in D; rewrite Rabs_left in K0 by exact D|apply Rlt_b_false in D; rewrite Rabs_pos_eq in K0 by exact D]; rewrite <- K0; ring. }
  clearbody s0 s1. unfold hunit in *. assert (N : sin th <> 0) by lra. clear C E L U. clearbody th.
  set (d := / sin th). assert (D : d * d * (sin th * sin th) = 1) by (unfold d; field; exact N). rewrite <- K in D. rewrite <- D. clear D K N S.
  replace (s0 * s0 + s1 * s1 + 2 * s0 * s1 * qdot a b) with (s0 * s0 * hn2 a + s1 * s1 * hn2 b + 2 * s0 * s1 * qdot a b) by (rewrite A, B; ring).
  clear A B. clearbody d. unfold qdot. destruct a, b. vcomp. ring.
Qed.

(* ---- caches ---- *)
(** Newest first, strictly. *)
Definition newer (a b : stored) : Prop := (sd_stamp b < sd_stamp a)%Z.
Definition descending (l : list stored) : Prop := StronglySorted newer l.
Lemma straddle_at : forall l n y, descending (n :: l) -> In y l -> exists w, straddle n l (sd_stamp y) = Some (y, w) /\ In w (n :: l) /\ (sd_stamp y < sd_stamp w)%Z.
Proof.
  induction l as [|a l IH]; intros n y D I; [destruct I|]. inversion D as [|? ? D' F]; subst. cbn [straddle]. rewrite Forall_forall in F.
  destruct I as [->|I].
  - rewrite Z.leb_refl. exists n. split; auto. split; [left; auto|]. apply F. left. auto.
  - inversion D' as [|? ? D'' F']; subst. rewrite Forall_forall in F'. pose proof (F' y I) as L. unfold newer in L. destruct (Z.leb_spec (sd_stamp a) (sd_stamp y)); [lia|].
    destruct (IH a y D' I) as (w & E & Iw & Lw). exists w. split; auto. split; auto. right. exact Iw.
Qed.
Lemma straddle_in : forall l n z a b, straddle n l z = Some (a, b) -> In a l /\ In b (n :: l).
Proof.
  induction l as [|y l IH]; intros n z a b E; [discriminate|]. cbn [straddle] in E. destruct (Z.leb (sd_stamp y) z).
  - injection E as <- <-. split; left; auto.
  - destruct (IH _ _ _ _ E) as (A & B). split; right; auto.
Qed.
Lemma last_cons {A} (l : list A) a d : last (a :: l) d = last l a.
Proof. revert a d. induction l as [|b l IH]; intros a d; [reflexivity|]. change (last (b :: l) d = last (b :: l) a). rewrite !IH. reflexivity. Qed.
Lemma last_in {A} (l : list A) d : In (last l d) (d :: l).
Proof. revert d. induction l as [|a l IH]; intros d; [left; auto|]. right. rewrite last_cons. apply IH. Qed.
Lemma last_older : forall l x, descending (x :: l) -> forall y, In y (x :: l) -> (sd_stamp (last l x) <= sd_stamp y)%Z.
Proof.
  intros l. induction l as [|a l IH]; intros x D y Hy.
  - destruct Hy as [<-|[]]. cbn. lia.
  - rewrite last_cons.
    inversion D as [|? ? D' F]; subst. rewrite Forall_forall in F. destruct Hy as [<-|Hy]; [|apply IH; auto].
    pose proof (IH a D' a (or_introl eq_refl)). pose proof (F a (or_introl eq_refl)) as G. unfold newer in G. lia.
Qed.
Lemma desc_inj l a b : descending l -> In a l -> In b l -> sd_stamp a = sd_stamp b -> a = b.
Proof.
  intros D. induction D as [|x l D IH F]; intros Ha Hb E; [destruct Ha|]. rewrite Forall_forall in F. unfold newer in F.
  destruct Ha as [->|Ha], Hb as [->|Hb]; auto; [pose proof (F _ Hb); lia|pose proof (F _ Ha); lia].
Qed.
(** At the stamp of an entry, the cache returns that entry. *)
Lemma get_data_at l y : descending l -> In y l -> sd_stamp y <> 0%Z -> Forall (fun x => hunit (sd_r x)) l ->
  get_data (CTime l) (sd_stamp y) = Some (entry_of y).
Proof.
  intros D I Z U. destruct l as [|x rest]; [destruct I|]. cbn [get_data]. destruct (Z.eqb_spec (sd_stamp y) 0); [contradiction|].
  destruct rest as [|x' rest']. { destruct I as [->|[]]. rewrite Z.eqb_refl. reflexivity. }
  remember (x' :: rest') as rest eqn:Er. replace (match rest with [] => true | _ => false end) with false by (subst; reflexivity). clear Er.
  destruct (Z.eqb_spec (sd_stamp y) (sd_stamp x)) as [E|Nx]. { rewrite (desc_inj _ x y D (or_introl eq_refl) I); auto. }
  destruct (Z.eqb_spec (sd_stamp y) (sd_stamp (last rest x))) as [E|Nl]. { rewrite (desc_inj _ (last rest x) y D (last_in _ _) I); auto. }
  assert (I' : In y rest) by (destruct I as [->|I]; [congruence|auto]).
  inversion D as [|? ? D' F]; subst. rewrite Forall_forall in F. pose proof (F y I') as L. unfold newer in L.
  pose proof (last_older rest x D y I) as L2. destruct (Z.ltb_spec (sd_stamp x) (sd_stamp y)); [lia|]. destruct (Z.ltb_spec (sd_stamp y) (sd_stamp (last rest x))); [lia|]. cbn [orb].
  destruct (straddle_at rest x y D I') as (w & -> & Iw & Lw).
  assert (X : interpolate y w (sd_stamp y) = (sd_t y, sd_r y)).
  { unfold interpolate. destruct (Z.eqb_spec (sd_stamp y) (sd_stamp w)); [lia|]. cbv zeta. rewrite Z.sub_diag. unfold Rdiv. rewrite Rmult_0_l. rewrite Forall_forall in U.
    rewrite slerp_0 by (apply U; auto). f_equal. destruct (sd_t y), (sd_t w). unfold vadd, vscale. cbn. f_equal; ring. }
  rewrite X. destruct (String.eqb (sd_parent y) (sd_parent w)); reflexivity.
Qed.
(** At any time, what it returns has the parent and a unit rotation. *)
Definition cache_ok (p : string) (c : tcache) : Prop :=
  match c with
  | CStatic x => sd_parent x = p /\ hunit (sd_r x)
  | CTime l => Forall (fun x => sd_parent x = p /\ hunit (sd_r x)) l /\ l <> []
  end.
Lemma get_data_ok p c z q e : cache_ok p c -> get_data c z = Some (q, e) -> q = p /\ hunit (snd e).
Proof.
  intros C E. destruct c as [x|l].
  - cbn in E. injection E as <- <-. exact C.
  - destruct C as (C & _). rewrite Forall_forall in C. destruct l as [|x rest]; [discriminate|]. cbn [get_data] in E.
    assert (EE : forall y, In y (x :: rest) -> Some (entry_of y) = Some (q, e) -> q = p /\ hunit (snd e)). { intros y Hy H. injection H as <- <-. apply C. exact Hy. }
    destruct (Z.eqb z 0); [apply (EE x); [left|]; auto|]. destruct (match rest with [] => true | _ => false end).
    { destruct (Z.eqb (sd_stamp x) z); [apply (EE x); [left|]; auto|discriminate]. }
    destruct (Z.eqb z (sd_stamp x)); [apply (EE x); [left|]; auto|]. destruct (Z.eqb z (sd_stamp (last rest x))); [apply (EE (last rest x)); [apply last_in|]; auto|].
    destruct (Z.ltb (sd_stamp x) z || Z.ltb z (sd_stamp (last rest x)))%bool; [discriminate|].
    destruct (straddle x rest z) as [(a & b)|] eqn:S; [|discriminate]. apply straddle_in in S as (Ia & Ib).
    destruct (String.eqb (sd_parent a) (sd_parent b)); [|apply (EE a); [right|]; auto]. injection E as <- <-. destruct (C a (or_intror Ia)) as (P & U). split; auto.
    unfold interpolate. destruct (C b Ib) as (_ & Ub). destruct (Z.eqb (sd_stamp a) (sd_stamp b)); cbn [snd]; [exact Ub|]. apply slerp_unit; auto.
Qed.
Lemma latest_ok p c : cache_ok p c -> exists t, latest_of c = Some (t, p).
Proof. destruct c as [x|[|x l]]; cbn; intros C; [destruct C as (<- & _); eauto|destruct C; congruence|destruct C as (C & _); inversion C as [|? ? (<- & _)]; eauto]. Qed.
