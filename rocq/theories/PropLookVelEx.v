(** Property C81: a concrete recording. *)
From Coq Require Import Reals String List Arith Bool ZArith Lia Lra Sorted.
From Coquelicot Require Import Coquelicot.
From Verif Require Import Base Quat SpecQuat QuatProofs NdArray Frames SpecForest FrameProofs WalkProofs
  Matcher SpecLookup LookupProofs RegistryProofs MovingProofs TimeProofs CtorProofs InverseProofs RouteProofs
  Examples PropForest PropLookup PropMoving
  Transform SpecArray NdProofs RotProofs ArrProofs ArrTransProofs ArrStaticProofs PropTransform PropRotate
  UtilsProofs Velocity VelProofs PropVelocity SpecMotion MotionProofs PropAngular VelFrames VelFrameProofs PropVelFrames VelExamples
  Squad SquadProofs PropSquad Spline PropConverge LookVelProofs PropLookVel.
Import ListNotations.
Open Scope R_scope.

(** Frame s runs around the unit circle, one radian per second, facing outwards;
    five samples. *)
Section Any.
  Variables (c s a b : R -> R) (T1 T2 T3 T4 : R).
  Definition arc_ops : list op :=
    [ ORegisterFrame (root "world"%string) false;
      ORegisterFrame (mov "s"%string "world"%string [0;T1;T2;T3;T4] [[c 0;s 0;0];[c T1;s T1;0];[c T2;s T2;0];[c T3;s T3;0];[c T4;s T4;0]]
        [[a 0;0;0;b 0];[a T1;0;0;b T1];[a T2;0;0;b T2];[a T3;0;0;b T3];[a T4;0;0;b T4]] false) false ].
  Definition arc_lit : state := State
    [ Node (Some "world"%string) None [1%nat] BRoot;
      Node (Some "s"%string) (Some 0%nat) []
        (BTf (TMoving [0;T1;T2;T3;T4] [V3 (c 0) (s 0) 0; V3 (c T1) (s T1) 0; V3 (c T2) (s T2) 0; V3 (c T3) (s T3) 0; V3 (c T4) (s T4) 0]
          [Qt (a 0) 0 0 (b 0); Qt (a T1) 0 0 (b T1); Qt (a T2) 0 0 (b T2); Qt (a T3) 0 0 (b T3); Qt (a T4) 0 0 (b T4)] false)) ]
    [("world"%string, 0%nat); ("s"%string, 1%nat)].
  Lemma arc_reachable : reachable arc_lit.
  Proof. exists arc_ops. symmetry. vm_compute. reflexivity. Qed.
End Any.
Definition on_circle (k : nat) (t : R) : vec3 := V3 (cos (t + INR k * (PI / 2))) (sin (t + INR k * (PI / 2))) 0.
Lemma circle_derivatives n : vderivatives on_circle n.
Proof.
  intros k t _. unfold on_circle. assert (SH : forall x, x + INR (S k) * (PI / 2) = (x + INR k * (PI / 2)) + PI / 2) by (intros; rewrite S_INR; ring).
  split; [|split]; cbn [vx vy vz].
  - rewrite SH, shift_cos. apply is_derive_Reals. auto_derive; [exact Logic.I|ring].
  - rewrite SH, shift_sin. apply is_derive_Reals. auto_derive; [exact Logic.I|ring].
  - apply derivable_pt_lim_const.
Qed.
Lemma circle_norm k t : vnorm (on_circle k t) <= 1.
Proof.
  apply Req_le. unfold vnorm, vnorm2, vdot, on_circle. cbn [vx vy vz]. set (u := t + INR k * (PI / 2)). pose proof (sin2_cos2 u) as Q. unfold Rsqr in Q.
  replace (cos u * cos u + sin u * sin u + 0 * 0) with 1 by lra. apply sqrt_1.
Qed.
Definition arc : state := arc_lit (fun t => vx (on_circle 0 t)) (fun t => vy (on_circle 0 t)) (fun t => qw (turn 0 t)) (fun t => qz (turn 0 t)) (1/8) (2/8) (3/8) (4/8).
Lemma arc_data : transform_of arc 1 = Some (TMoving eighths (map (on_circle 0) eighths) (map (turn 0) eighths) false).
Proof. reflexivity. Qed.
Lemma eighths_inc : increasing eighths.
Proof. apply C80_example. Qed.
Lemma turn_units : List.Forall hunit (map (turn 0) eighths).
Proof. apply Forall_map, Forall_forall. intros x _. apply C80_example. Qed.
Lemma arc_root i : (i < 2)%nat -> root_of (parent_of arc) i 0.
Proof. intros Hi. split; [|reflexivity]. destruct i as [|[|i]]; try lia; [constructor|econstructor; [reflexivity|constructor]]. Qed.
Lemma arc_good i j : (i < 2)%nat -> (j < 2)%nat -> good_way arc i j.
Proof.
  intros Hi Hj. split; [exists 0%nat; split; apply arc_root; auto|]. intros k Hk.
  assert (A : forall a, ancestor (parent_of arc) a k -> (a < 2)%nat -> (k < 2)%nat).
  { clear. intros a Ha. induction Ha as [|a b c E1 E2 IH]; auto. intros Hle. destruct a as [|[|a]]; try lia; simpl in E1; try discriminate; injection E1 as <-; apply IH; lia. }
  assert (Hk' : (k < 2)%nat /\ k <> 0%nat).
  { destruct Hk as [(H1 & H2)|(H1 & H2)]; (split; [apply (A _ H1); auto|]); intros ->; apply H2; apply arc_root; auto. }
  replace k with 1%nat by lia. eexists. split; [exact arc_data|]. split; [apply turn_units|]. split; [apply eighths_inc|cbn; lia].
Qed.
Lemma arc_in_range x f tf : In x eighths -> cont_of arc f = Some tf -> exists a b, hd_error tf = Some a /\ nth_error tf (List.length tf - 1) = Some b /\ a <= x <= b.
Proof.
  intros Hx Hc. assert (Hf : f = 1%nat) by (destruct f as [|[|f]]; cbn in Hc; try discriminate; [auto|destruct f; discriminate]).
  subst f. cbn in Hc. injection Hc as <-. exists 0, (4/8). split; auto. split; auto. destruct Hx as [ <- | [ <- | [ <- | [ <- | [ <- | [] ] ] ] ] ]; lra.
Qed.
Lemma arc_two i j : two_in_range arc i j eighths.
Proof.
  intros rt _. exists 0, (4/8). split; [lra|]. assert (I0 : In 0 eighths) by (left; reflexivity). assert (I4 : In (4/8) eighths) by (do 4 right; left; reflexivity). split; auto. split; auto.
  intros f tf _ Hc. destruct (arc_in_range 0 f tf I0 Hc) as (a & b & Ha & Hb & H1). destruct (arc_in_range (4/8) f tf I4 Hc) as (a' & b' & Ha' & Hb' & H2).
  exists a, b. rewrite Ha in Ha'. injection Ha' as <-. rewrite Hb in Hb'. injection Hb' as <-. auto.
Qed.
Lemma arc_lookup : lookup_transform np_squad arc 1 (PFrame 0) = Ok (TrRows eighths (combine (map (on_circle 0) eighths) (map (turn 0) eighths))).
Proof.
  apply (lookup_parent_moving np_squad arc 0 1 eighths _ _ false).
  - apply reachable_Inv, arc_reachable.
  - cbn; lia.
  - reflexivity.
  - exact arc_data.
  - apply C79_contract.
  - split; [apply eighths_inc|cbn; lia].
  - reflexivity.
  - reflexivity.
  - apply turn_units.
Qed.
Lemma between_left a b u v : between a b u v a = u.
Proof. unfold between. destruct u as [u1 u2 u3], v as [w1 w2 w3]. cbv [vadd vscale vsub vx vy vz]. f_equal; unfold Rdiv; ring. Qed.
Lemma between_right a b u v : a < b -> between a b u v b = v.
Proof. intros H. unfold between. destruct u as [u1 u2 u3], v as [w1 w2 w3]. cbv [vadd vscale vsub vx vy vz]. f_equal; field; lra. Qed.
Lemma arc_coords x p P : In x eighths -> coords np_squad arc x 1 p 0 P -> P = smove (on_circle 0 x) (turn 0 x) p.
Proof.
  intros Hx H. inversion H as [|i k d t r p' a P' Hp Hd Ho Hn Hc]; subst. cbn in Hp. injection Hp as <-. rewrite arc_data in Hd. injection Hd as <-.
  assert (Z : forall p P, coords np_squad arc x 0 p 0 P -> P = p). { intros p0 P0 HC. inversion HC; subst; [reflexivity|]. cbn in *. discriminate. }
  apply Z in Hc. subst P. inversion Ho as [| |ts tt rr x' n a b u v r' Hi Hu Hv Hs]; subst.
  apply In_nth_error in Hx as (m & Hm). f_equal.
  - destruct Hi as (Ha & Hb & Hab & Hx'). change (nth_error (map (on_circle 0) eighths) n = Some u) in Hu. change (nth_error (map (on_circle 0) eighths) (S n) = Some v) in Hv. rewrite nth_error_map in Hu, Hv. rewrite Ha in Hu. rewrite Hb in Hv. injection Hu as <-. injection Hv as <-.
    assert (L : (S n < 5)%nat) by (apply (proj1 (nth_error_Some eighths (S n))); congruence).
    assert (E : x = a \/ x = b).
    { assert (K : forall y z d, (y < z)%nat -> nth_error eighths y = Some d -> forall e, nth_error eighths z = Some e -> d < e) by (intros y z d Hyz Hd e He; apply (eighths_inc y z d e Hyz Hd He)).
      destruct (Nat.lt_trichotomy m n) as [C|[C|C]]; [pose proof (K m n x C Hm a Ha); lra|left; subst m; congruence|].
      destruct (Nat.eq_dec m (S n)) as [->|N]; [right; congruence|]. pose proof (K (S n) m b ltac:(lia) Hb x Hm). lra. }
    destruct E as [ -> | -> ]; [apply between_left|apply between_right, Hab].
  - assert (E : np_squad eighths (map (turn 0) eighths) x = Ok (turn 0 x)).
    { apply (proj1 (proj2 C79_contract) eighths (map (turn 0) eighths) m x); [apply eighths_inc|cbn; lia|reflexivity|apply turn_units|exact Hm|]. rewrite nth_error_map, Hm. reflexivity. }
    change (np_squad eighths (map (turn 0) eighths) x = Ok r) in Hs. congruence.
Qed.
Lemma arc_maps x t r : In x eighths -> maps_at np_squad arc x 1 0 t r -> forall v, srot r v = srot (turn 0 x) v.
Proof.
  intros Hx (_ & c & _ & H0 & Hp). assert (c = 0%nat) by (inversion H0; subst; [reflexivity|cbn in *; discriminate]). subst c.
  assert (K : t = on_circle 0 x /\ forall v, srot r v = srot (turn 0 x) v); [|apply K]. apply smove_same. intros p.
  destruct (Hp p) as (P & H1 & H2). apply arc_coords in H1; auto. inversion H2; subst; [congruence|cbn in *; discriminate].
Qed.
(** With the interpolation and differentiation that numpy-quaternion and scipy
    provide: the linear velocity is off by at most 1/16 m/s (1/384 inside the
    recording), the angular velocity by at most 1/512 rad/s. *)
Example C81_example : exists lin ang l,
  lookup_twist np_squad np_derivative arc 1 (Some (PFrame 0)) (Some (PFrame 0)) false true = Ok (lin, ang, Some (Some l)) /\
  shp lin = [5; 3]%nat /\ shp ang = [5; 3]%nat /\ l = eighths /\
  forall n x, nth_error l n = Some x -> exists v w,
    vderiv (on_circle 0) x v /\ vnorm (vsub (vec_at lin [n]) v) <= (if Nat.eqb n 0 || Nat.eqb n 4 then 1 / 16 else 1 / 384) /\
    space_rate (turn 0) x w /\ vnorm (vsub (vec_at ang [n]) w) <= 1 / 512.
Proof.
  destruct C79_contract as (U & _ & T & _). destruct C80_example as (Inc & HU & HD & HB & _).
  assert (D0 : denotes arc (PFrame 0) 0) by (left; split; [reflexivity|cbv; lia]). assert (F1 : frame arc 1) by (cbv; lia).
  destruct (C81_twist np_squad np_derivative arc 1 (PFrame 0) (PFrame 0) 0 0 eighths _ false on_circle turn 1 1 (1/16) (1/8) 1
    (arc_reachable _ _ _ _ _ _ _ _) T U (proj1 C80_contract) F1 D0 D0 ltac:(discriminate) ltac:(discriminate) (arc_good 1 0 ltac:(lia) ltac:(lia)) (arc_good 1 0 ltac:(lia) ltac:(lia)) (arc_good 0 0 ltac:(lia) ltac:(lia)) arc_lookup)
    as (lin & ang & l & E & SL & SA & (f & Ef) & (r1 & r2 & R1 & R2 & Hin) & Hv).
  - cbn; lia.
  - intros i Hi. do 4 (destruct i as [|i]; [cbn [nth eighths]; lra|]). cbn in Hi. lia.
  - unfold even_ends. cbn. lra.
  - apply arc_two.
  - apply arc_two.
  - apply circle_derivatives.
  - intros t. apply circle_norm.
  - intros t. apply circle_norm.
  - exact HU.
  - exact HD.
  - exact HB.
  - intros m x t r Hm Hr. do 5 (destruct m as [|m]; [cbn in Hm; injection Hm as <-; cbn [combine map eighths nth_error] in Hr; split; congruence|]). destruct m; discriminate.
  - assert (El : l = eighths).
    { rewrite Ef. apply filter_id. intros x Hx. assert (K : In x (filter f eighths)) by (rewrite <- Ef; apply Hin; split; auto; intros g tg _ Hg; apply (arc_in_range x g tg Hx Hg)). apply filter_In in K. apply K. }
    exists lin, ang, l. split; [exact E|]. rewrite El in *. split; [exact SL|]. split; [exact SA|]. split; [reflexivity|].
    intros n x Hx. destruct (Hv n x Hx) as (m & t & r & t' & r' & wb & Hm & Hmap & C1 & Hmap' & Hbr & C2).
    assert (Emn : m = n). { apply (proj1 (NoDup_nth_error eighths)); [|apply nth_error_Some; congruence|congruence]. apply NoDup_nth_error. intros u v Hu Huv. destruct (Nat.lt_trichotomy u v) as [C|[C|C]]; [|exact C|]; exfalso.
      - destruct (nth_error eighths u) as [y|] eqn:E1; [|apply nth_error_Some in Hu; congruence]. pose proof (Inc u v y y C E1 (eq_sym Huv)). lra.
      - destruct (nth_error eighths u) as [y|] eqn:E1; [|apply nth_error_Some in Hu; congruence]. pose proof (Inc v u y y C (eq_sym Huv) E1). lra. }
    subst m.
    assert (ER : forall t r, maps_at np_squad arc x 0 0 t r -> forall v, srot r v = v).
    { intros t0 r0 HM v. destruct HM as (_ & c & A0 & _ & HP). assert (c = 0%nat) by (inversion A0; subst; [reflexivity|cbn in *; discriminate]). subst c.
      assert (Z : forall p P, coords np_squad arc x 0 p 0 P -> P = p). { intros p P HC. inversion HC; subst; [reflexivity|]. cbn in *. discriminate. }
      destruct (HP v) as (P & HC & HC'). apply Z in HC, HC'. subst P. destruct (HP v0) as (P & HD0 & HD'). apply Z in HD0, HD'. subst P. unfold smove in *. rewrite srot_0 in HD'. revert HC' HD'. generalize (srot r0 v). intros u HC' HD'.
      destruct t0 as [t1 t2 t3], u as [u1 u2 u3], v as [v1 v2 v3]. cbv [v0 vadd vx vy vz] in HC', HD'. injection HC' as K1 K2 K3. injection HD' as J1 J2 J3. f_equal; lra. }
    exists (on_circle 1 x), (srot (turn 0 x) wb). split; [apply (circle_derivatives 1); lia|]. split.
    + rewrite (ER t r Hmap) in C1. eapply Rle_trans; [exact C1|]. unfold lin_err. cbn [List.length eighths]. change (Nat.eqb (S n) 5) with (Nat.eqb n 4). destruct (_ || _); lra.
    + split; [apply body_space; auto|]. eapply Rle_trans; [|eapply Rle_trans; [exact C2|unfold ang_err; lra]].
      apply Req_le. rewrite (arc_maps x t' r' (nth_error_In _ _ Hx) Hmap'). reflexivity.
Qed.
