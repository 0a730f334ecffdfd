(** Property C81: velocities looked up between recorded frames converge to the true
    relative velocities, and errors of velocities transformed between frames do not
    grow beyond the sum of the errors put in. *)
From Coq Require Import Reals List Arith Bool ZArith Lia Lra Sorted.
From Coq Require String.
From Coquelicot Require Import Coquelicot.
From Verif Require Import Base Quat SpecQuat QuatProofs NdArray Frames SpecForest FrameProofs WalkProofs
  Matcher SpecLookup LookupProofs RegistryProofs MovingProofs TimeProofs CtorProofs InverseProofs RouteProofs
  Examples PropForest PropLookup PropMoving
  Transform SpecArray NdProofs RotProofs ArrProofs ArrTransProofs ArrStaticProofs PropTransform PropRotate
  UtilsProofs Velocity VelProofs PropVelocity SpecMotion MotionProofs PropAngular VelFrames VelFrameProofs PropVelFrames
  Squad SquadProofs Spline PropConverge LookVelProofs PropConsist.
Import ListNotations.
Open Scope R_scope.

(** The error bound for the m-th sample of ts (C80_linear). *)
Definition lin_err (ts : list R) (m : nat) (M2 M3 H : R) : R :=
  if Nat.eqb m 0 || Nat.eqb (S m) (List.length ts) then M2 * H / 2 else M3 * H ^ 2 / 6.
(** The error bound of C80_angular. *)
Definition ang_err (M H rho : R) : R := 4 * ((1 + rho) ^ 2 * M * H ^ 3).

(** lookup_linear_velocity.  o is the motion in the reference frame j of the origin
    of frame i, with acceleration at most M2 and jerk at most M3; the looked-up
    transformation samples it at times ts, at most H apart.  The result has one row
    for every sample in range of the moving frames between j and the representation
    frame k: the velocity, in the axes of k, up to the stated error. *)
Theorem C81_linear : forall squad s i ref rep j k ts rows allow (o : nat -> R -> vec3) M2 M3 H,
  reachable s -> squad_total squad -> squad_unit squad -> frame s i -> denotes s ref j -> denotes s rep k ->
  ref <> PName String.EmptyString -> rep <> PName String.EmptyString -> good_way s i j -> good_way s j k ->
  lookup_transform squad s i ref = Ok (TrRows ts rows) -> (2 <= List.length ts)%nat -> spaced_by ts H ->
  vderivatives o 3 -> (forall t, vnorm (o 2%nat t) <= M2) -> (forall t, vnorm (o 3%nat t) <= M3) ->
  (forall m x t r, nth_error ts m = Some x -> nth_error rows m = Some (t, r) -> t = o 0%nat x) ->
  exists w l, lookup_linear_velocity squad s i (Some ref) (Some rep) allow true = Ok (w, Some (Some l)) /\
    shp w = [List.length l; 3%nat] /\ kept_samples s j k ts [] l /\
    forall n x, nth_error l n = Some x -> exists m t r, nth_error ts m = Some x /\ maps_at squad s x j k t r /\
      vnorm (vsub (vec_at w [n]) (srot r (o 1%nat x))) <= lin_err ts m M2 M3 H.
Proof.
  intros squad s i ref rep j k ts rows allow o M2 M3 H HR Htot Hun Hi Hj Hk Nj Nk Gj Gk Hl Hn HH HD B2 B3 Hrow.
  pose proof (denotes_frame s _ _ HR Hj) as Fj. pose proof (denotes_frame s _ _ HR Hk) as Fk.
  assert (Hl' : lookup_transform squad s i (PFrame j) = Ok (TrRows ts rows)).
  { rewrite <- Hl. unfold lookup_transform. rewrite (denotes_resolve s ref j Hj), (denotes_resolve s (PFrame j) j (or_introl (conj eq_refl Fj))). reflexivity. }
  pose proof (lookup_kinds squad s HR Hun i j _ Hi Fj Gj Hl') as K. cbn [tr_ts] in K. destruct K as (Hinc & rows' & Er & Lr & _).
  injection Er as <-.
  assert (Hq : forall m, (m < List.length ts)%nat -> rowv rows m = o 0%nat (nth m ts 0)).
  { intros m Hm. unfold rowv. destruct (nth_len rows m ltac:(lia)) as ((t & r) & E). rewrite (nth_error_nth _ _ _ E). cbn [fst].
    apply (Hrow m _ t r); auto. apply nth_error_nth'; auto. }
  assert (Hg : exists g, gradient_nd (tr_t (TrRows ts rows)) ts 0 = Ok g /\ shp g = [List.length ts; 3%nat] /\
    forall m, (m < List.length ts)%nat -> vec_at g [m] = vgrad ts (rowv rows) m).
  { unfold gradient_nd. cbn [tr_t shp nth]. rewrite grad_check_ok by auto. cbn [bind]. eexists. split; [reflexivity|]. split; [reflexivity|].
    intros m Hm. unfold vec_at. cbn [dat app nth setn tr_t hd]. reflexivity. }
  destruct Hg as (g & Eg & Sg & Hg).
  destruct (vectors_rows squad s HR Htot Hun j (PFrame k) k g ts Fj (or_introl (conj eq_refl Fk)) Gk (conj Hinc Hn) Sg) as (w & l & Ev & Sw & Hr & Hw).
  exists w, l. split.
  { unfold lookup_linear_velocity. rewrite (resolve_ref_some s i ref j Hj Nj), (resolve_ref_some s i rep k Hk Nk). cbn [bind]. rewrite Hl'. cbn [bind tr_ts].
    rewrite Eg. cbn [bind]. rewrite Ev. reflexivity. }
  split; auto. split.
  { apply (keep_both s j k ts l l []); auto.
    - exists (fun _ => true). clear. induction l; cbn; congruence.
    - intros x. split; [intros H0; split; auto; intros p' t' []|tauto]. }
  intros n x Hx. destruct (Hw n x Hx) as (m & t & r & Hm & Hmap & E). exists m, t, r. split; auto. split; auto.
  pose proof (nth_lt _ _ _ Hm) as Lm. rewrite E, Hg by auto. rewrite srot_sub, vnorm_srot by apply Hmap.
  pose proof (nth_error_nth _ _ 0 Hm) as Ex. rewrite <- Ex.
  apply (vgrad_close ts (rowv rows) o M2 M3 H Hinc Hn Hq HD B2 B3 HH m Lm).
Qed.

(** lookup_angular_velocity.  q is the orientation curve of frame i in the reference
    frame j, its fourth derivative bounded by M. *)
Theorem C81_angular : forall squad deriv s i ref rep j k ts rows allow (q : nat -> R -> quat) M H rho,
  reachable s -> squad_total squad -> squad_unit squad -> spline_derivative deriv -> frame s i -> denotes s ref j -> denotes s rep k ->
  ref <> PName String.EmptyString -> rep <> PName String.EmptyString -> good_way s i j -> good_way s i k ->
  lookup_transform squad s i ref = Ok (TrRows ts rows) -> (4 <= List.length ts)%nat -> spaced_by ts H -> even_ends ts rho ->
  (forall t, hunit (q 0%nat t)) -> qderivatives q 4 -> (forall t c, (c < 4)%nat -> Rabs (comp4 c (q 4%nat t)) <= M) ->
  (forall m x t r, nth_error ts m = Some x -> nth_error rows m = Some (t, r) -> r = q 0%nat x) ->
  exists w l, lookup_angular_velocity squad deriv s i (Some ref) (Some rep) allow true = Ok (w, Some (Some l)) /\
    shp w = [List.length l; 3%nat] /\ kept_samples s i k ts [] l /\
    forall n x, nth_error l n = Some x -> exists t r wb, maps_at squad s x i k t r /\ body_rate (q 0%nat) x wb /\
      vnorm (vsub (vec_at w [n]) (srot r wb)) <= ang_err M H rho.
Proof.
  intros squad deriv s i ref rep j k ts rows allow q M H rho HR Htot Hun HS Hi Hj Hk Nj Nk Gj Gk Hl H4 HH Hev Hu Hd HB Hrow.
  pose proof (denotes_frame s _ _ HR Hj) as Fj. pose proof (denotes_frame s _ _ HR Hk) as Fk.
  assert (Hl' : lookup_transform squad s i (PFrame j) = Ok (TrRows ts rows)).
  { rewrite <- Hl. unfold lookup_transform. rewrite (denotes_resolve s ref j Hj), (denotes_resolve s (PFrame j) j (or_introl (conj eq_refl Fj))). reflexivity. }
  pose proof (lookup_kinds squad s HR Hun i j _ Hi Fj Gj Hl') as K. cbn [tr_ts] in K. destruct K as (Hinc & rows' & Er & Lr & _).
  injection Er as <-.
  set (a := tr_r_opt (TrRows ts rows)).
  assert (Hq : forall m, (m < List.length ts)%nat -> rowq rows m = q 0%nat (nth m ts 0)).
  { intros m Hm. unfold rowq. destruct (nth_len rows m ltac:(lia)) as ((t & r) & E). rewrite (nth_error_nth _ _ _ E). cbn.
    apply (Hrow m _ t r); auto. apply nth_error_nth'; auto. }
  assert (Nn : forall m, ~ nan_at a 0 m) by (intros m (ix & _ & _ & H0); discriminate).
  destruct (C80_angular deriv a ts (-1) 0 1 0 (fun _ => q) M H rho) as (b & Eb & Sb & Hb).
  - exact HS.
  - exact Hinc.
  - unfold ndim; cbn; lia.
  - unfold ndim; cbn; lia.
  - lia.
  - right. cbn. lia.
  - left. reflexivity.
  - reflexivity.
  - reflexivity.
  - auto.
  - intros ix Hix _. cbn in Hix. inversion Hix as [|i0 n0 ix0 s0 H0 Hix0]; subst. inversion Hix0 as [|i1 n1 ix1 s1 H1 Hix1]; subst.
    inversion Hix1; subst. cbn. f_equal. rewrite Hq by auto. reflexivity.
  - intros gts (G & HSo & HG & ->). rewrite (sorted_seq G (List.length ts)); auto.
    + rewrite map_seq_nth. auto.
    + intros m. rewrite HG. pose proof (Nn m). tauto.
  - assert (Hnn : exists ang, no_nan b = Ok ang /\ shp ang = [List.length ts; 3%nat] /\
      forall m, (m < List.length ts)%nat -> exists wb, body_rate (q 0%nat) (nth m ts 0) wb /\ vnorm (vsub (vec_at ang [m]) wb) <= ang_err M H rho).
    { unfold no_nan. destruct (existsb _ _) eqn:E.
      - exfalso. apply existsb_exists in E as (ix & Hix & E). apply in_indices in Hix. rewrite Sb in Hix. cbn in Hix.
        inversion Hix as [|i0 n0 ix0 s0 H0 Hix0]; subst. inversion Hix0 as [|i1 n1 ix1 s1 H1 Hix1]; subst. inversion Hix1; subst.
        destruct (Hb [i0; 0%nat]) as (_ & Hg). { repeat constructor; auto; lia. }
        destruct Hg as (w & w' & Hw & _); [apply Nn|]. specialize (Hw i1 H1). cbn in Hw. rewrite Hw in E. discriminate.
      - eexists. split; [reflexivity|]. split; [cbn [shp]; rewrite Sb; reflexivity|]. intros m Hm.
        destruct (Hb [m; 0%nat]) as (_ & Hg). { repeat constructor; auto; lia. }
        destruct Hg as (w & w' & Hw & Hbr & Hc); [apply Nn|]. cbn [nth] in Hbr. exists w'. split; [exact Hbr|].
        replace (vec_at _ [m]) with w; [exact Hc|]. unfold vec_at. cbn [dat app].
        pose proof (Hw 0%nat ltac:(lia)) as W0. pose proof (Hw 1%nat ltac:(lia)) as W1. pose proof (Hw 2%nat ltac:(lia)) as W2.
        cbn in W0, W1, W2. rewrite W0, W1, W2. destruct w; reflexivity. }
    destruct Hnn as (ang & En & Sa & Ha).
    assert (L2 : (2 <= List.length ts)%nat) by lia.
    destruct (vectors_rows squad s HR Htot Hun i (PFrame k) k ang ts Hi (or_introl (conj eq_refl Fk)) Gk (conj Hinc L2) Sa) as (w & l & Ev & Sw & Hr & Hw).
    exists w, l. split.
    { unfold lookup_angular_velocity. rewrite (resolve_ref_some s i ref j Hj Nj), (resolve_ref_some s i rep k Hk Nk). cbn [bind]. rewrite Hl'. cbn [bind tr_ts].
      fold a. rewrite Eb. cbn [bind]. rewrite En. cbn [bind]. rewrite Ev. reflexivity. }
    split; auto. split.
    { apply (keep_both s i k ts l l []); auto.
      - exists (fun _ => true). clear. induction l; cbn; congruence.
      - intros x. split; [intros H0; split; auto; intros p t' []|tauto]. }
    intros n x Hx. destruct (Hw n x Hx) as (m & t & r & Hm & Hmap & E).
    pose proof (nth_lt _ _ _ Hm) as Lm. apply (nth_error_nth _ _ 0) in Hm. destruct (Ha m Lm) as (wb & Hbr & Hc). exists t, r, wb. rewrite Hm in Hbr. split; auto. split; auto.
    rewrite E, srot_sub, vnorm_srot by apply Hmap. exact Hc.
Qed.

(** lookup_twist: both velocities at the samples in range of the moving frames on the
    ways from i and from j to the representation frame. *)
Lemma filter_two {A} (f g : A -> bool) l : filter f (filter g l) = filter (fun x => g x && f x) l.
Proof. induction l as [|x l IH]; cbn; auto. destruct (g x); cbn; [destruct (f x)|]; rewrite ?IH; auto. Qed.
Lemma kept_range s i j ts l : kept_samples s i j ts [] l -> in_range_way s i j ts l.
Proof.
  intros (Hf & rt & Hrt & H). split; auto. exists rt. split; auto. intros x. rewrite (H x). split.
  - intros (A & B & _). auto.
  - intros (A & B). split; auto. split; auto. intros t' [].
Qed.
Lemma in_bounds_in l x : increasing l -> In x l -> exists a b, hd_error l = Some a /\ nth_error l (List.length l - 1) = Some b /\ a <= x <= b.
Proof.
  intros Hi Hx. apply In_nth with (d := 0) in Hx as (n & Hn & <-). exists (nth 0 l 0), (nth (List.length l - 1) l 0).
  split; [destruct l; [cbn in Hn; lia|reflexivity]|]. split; [apply nth_error_nth'; lia|]. split.
  - destruct n as [|n]; [lra|]. apply Rlt_le, inc_nth; auto. lia.
  - destruct (Nat.eq_dec n (List.length l - 1)) as [->|N]; [lra|]. apply Rlt_le, inc_nth; auto. lia.
Qed.
Lemma last_in {A} (l : list A) b : nth_error l (List.length l - 1) = Some b -> In b l.
Proof. apply nth_error_In. Qed.
Theorem C81_twist : forall squad deriv s i ref rep j k ts rows allow (o : nat -> R -> vec3) (q : nat -> R -> quat) M2 M3 M H rho,
  reachable s -> squad_total squad -> squad_unit squad -> spline_derivative deriv -> frame s i -> denotes s ref j -> denotes s rep k ->
  ref <> PName String.EmptyString -> rep <> PName String.EmptyString -> good_way s i j -> good_way s i k -> good_way s j k ->
  lookup_transform squad s i ref = Ok (TrRows ts rows) -> (4 <= List.length ts)%nat -> spaced_by ts H -> even_ends ts rho ->
  two_in_range s i k ts -> two_in_range s j k ts ->
  vderivatives o 3 -> (forall t, vnorm (o 2%nat t) <= M2) -> (forall t, vnorm (o 3%nat t) <= M3) ->
  (forall t, hunit (q 0%nat t)) -> qderivatives q 4 -> (forall t c, (c < 4)%nat -> Rabs (comp4 c (q 4%nat t)) <= M) ->
  (forall m x t r, nth_error ts m = Some x -> nth_error rows m = Some (t, r) -> t = o 0%nat x /\ r = q 0%nat x) ->
  exists lin ang l, lookup_twist squad deriv s i (Some ref) (Some rep) allow true = Ok (lin, ang, Some (Some l)) /\
    shp lin = [List.length l; 3%nat] /\ shp ang = [List.length l; 3%nat] /\ (exists f, l = filter f ts) /\
    (exists r1 r2, route (parent_of s) i k r1 /\ route (parent_of s) j k r2 /\
      forall x, In x l <-> In x ts /\ forall f tf, In f r1 \/ In f r2 -> cont_of s f = Some tf ->
        exists a b, hd_error tf = Some a /\ nth_error tf (List.length tf - 1) = Some b /\ a <= x <= b) /\
    forall n x, nth_error l n = Some x -> exists m t r t' r' wb, nth_error ts m = Some x /\
      maps_at squad s x j k t r /\ vnorm (vsub (vec_at lin [n]) (srot r (o 1%nat x))) <= lin_err ts m M2 M3 H /\
      maps_at squad s x i k t' r' /\ body_rate (q 0%nat) x wb /\ vnorm (vsub (vec_at ang [n]) (srot r' wb)) <= ang_err M H rho.
Proof.
  intros squad deriv s i ref rep j k ts rows allow o q M2 M3 M H rho HR Htot Hun HS Hi Hj Hk Nj Nk Gij Gik Gjk Hl H4 HH Hev T1 T2 HD B2 B3 Hu Hd HB Hrow.
  pose proof (denotes_frame s _ _ HR Hj) as Fj.
  destruct (C81_linear squad s i ref rep j k ts rows allow o M2 M3 H HR Htot Hun Hi Hj Hk Nj Nk Gij Gjk Hl ltac:(lia) HH HD B2 B3) as (lin & ll & EL & SL & KL & VL).
  { intros m x t r Hm Hr. apply (Hrow m x t r Hm Hr). }
  destruct (C81_angular squad deriv s i ref rep j k ts rows allow q M H rho HR Htot Hun HS Hi Hj Hk Nj Nk Gij Gik Hl H4 HH Hev Hu Hd HB) as (ang & la & EA & SA & KA & VA).
  { intros m x t r Hm Hr. apply (Hrow m x t r Hm Hr). }
  pose proof (kept_range _ _ _ _ _ KL) as RL. pose proof (kept_range _ _ _ _ _ KA) as RA.
  destruct (C37_twist squad deriv s i ref rep j k allow true lin ll ang la HR Htot Hun Hi Hj Hk Nj Nk Gij Gik Gjk EL EA (two_length _ _ _ _ _ T2 RL) (two_length _ _ _ _ _ T1 RA))
    as (lin' & ang' & l & ET & SL' & SA' & (f & Ef) & Hin & Hv).
  assert (Hl' : lookup_transform squad s i (PFrame j) = Ok (TrRows ts rows)).
  { rewrite <- Hl. unfold lookup_transform. rewrite (denotes_resolve s ref j Hj), (denotes_resolve s (PFrame j) j (or_introl (conj eq_refl Fj))). reflexivity. }
  pose proof (lookup_kinds squad s HR Hun i j _ Hi Fj Gij Hl') as K. cbn [tr_ts] in K. destruct K as (Hinc & _).
  destruct RL as ((fl & Efl) & r2 & R2 & ML). destruct RA as ((fa & Efa) & r1 & R1 & MA).
  assert (Incl : increasing ll) by (rewrite Efl; apply filter_increasing, Hinc).
  assert (InL : forall x, In x ts -> (exists a b, hd_error ll = Some a /\ nth_error ll (List.length ll - 1) = Some b /\ a <= x <= b) -> In x ll).
  { intros x Hx (a & b & Ha & Hb & Hab). apply ML. split; auto. intros g tg Hg Htg. destruct ll as [|a' ll']; [discriminate|]. cbn in Ha. injection Ha as <-.
    destruct (proj1 (ML a') (or_introl eq_refl)) as (_ & A). destruct (proj1 (ML b) (last_in _ _ Hb)) as (_ & B).
    destruct (A g tg Hg Htg) as (u & v & Eu & Ev & Hu'). destruct (B g tg Hg Htg) as (u' & v' & Eu' & Ev' & Hv').
    exists u, v. split; auto. split; auto. rewrite Eu in Eu'. injection Eu' as <-. rewrite Ev in Ev'. injection Ev' as <-. lra. }
  assert (InB : forall x, In x ll -> exists a b, hd_error ll = Some a /\ nth_error ll (List.length ll - 1) = Some b /\ a <= x <= b).
  { intros x Hx. apply in_bounds_in; auto. }
  exists lin', ang', l. split; [exact ET|]. split; auto. split; auto. split; [rewrite Ef, Efa, filter_two; eauto|]. split.
  - exists r1, r2. split; auto. split; auto. intros x. rewrite Hin, MA. split.
    + intros ((A & B) & C). split; auto. intros g tg [Hg|Hg] Htg; [apply (B g tg Hg Htg)|]. apply (proj2 (proj1 (ML x) (InL x A C)) g tg Hg Htg).
    + intros (A & B). split; [split; auto; intros; eapply B; eauto|]. apply InB. apply ML. split; auto. intros; eapply B; eauto.
  - intros n x Hx. destruct (Hv n x Hx) as (VL' & VA'). pose proof (nth_error_In _ _ Hx) as Ix. apply Hin in Ix as (Ia & Ib).
    pose proof (proj1 (MA x) Ia) as (Its & _). pose proof (InL x Its Ib) as Il.
    apply In_nth_error in Ia as (na & Hna). apply In_nth_error in Il as (nl & Hnl).
    destruct (VL nl x Hnl) as (m & t & r & Hm & Hmap & Hc). destruct (VA na x Hna) as (t' & r' & wb & Hmap' & Hbr & Hc').
    exists m, t, r, t', r', wb. split; auto. split; auto. split.
    { rewrite (value_at_sample lin ll x _ nl Incl Hnl VL'). exact Hc. }
    split; auto. split; auto. rewrite (VA' na Hna). exact Hc'.
Qed.

(* ------------------------------------------------------------------ transforms *)
Lemma sub_add a b c d : vsub (vadd a b) (vadd c d) = vadd (vsub a c) (vsub b d).
Proof. destruct a as [a1 a2 a3], b as [b1 b2 b3], c as [c1 c2 c3], d as [d1 d2 d3]. cbv [vadd vsub vx vy vz]. f_equal; ring. Qed.
Lemma sum_close a b c d e1 e2 : vnorm (vsub a c) <= e1 -> vnorm (vsub b d) <= e2 -> vnorm (vsub (vadd a b) (vadd c d)) <= e1 + e2.
Proof. intros A B. rewrite sub_add. eapply Rle_trans; [apply vnorm_tri|]. lra. Qed.

(** transform_angular_velocity, what="reference_frame": the given velocities are off
    by at most e1, the looked-up ones by at most e2; the result is off by at most
    e1 + e2. *)
Theorem C81_reference_frame : forall squad deriv s i to j arr ts w wts (qM qR : R -> quat) e1 e2,
  reachable s -> squad_total squad -> squad_unit squad -> frame s i -> denotes s to j -> to <> PName String.EmptyString ->
  good_way s i j -> two_up ts -> two_in_range s i j ts -> shp arr = [List.length ts; 3%nat] ->
  lookup_angular_velocity squad deriv s i (Some to) (Some to) true true = Ok (w, Some wts) -> enough wts ->
  (forall x, hunit (qM x)) -> oriented squad s i j ts qR ->
  (forall m x, nth_error ts m = Some x -> exists v, space_rate qM x v /\ vnorm (vsub (vec_at arr [m]) v) <= e1) ->
  (forall x v, In x ts -> value_at w wts x v -> exists v', space_rate qR x v' /\ vnorm (vsub v v') <= e2) ->
  exists out l,
    transform_angular_velocity squad deriv s i arr to WReference (-1) (Some 0%Z) (Some (stamps_nd ts)) = Ok (out, Some l) /\
    shp out = [List.length l; 3%nat] /\ kept_samples s i j ts [wts] l /\
    forall k x, nth_error l k = Some x -> exists v, space_rate (fun y => hmul (qR y) (qM y)) x v /\ vnorm (vsub (vec_at out [k]) v) <= e1 + e2.
Proof.
  intros squad deriv s i to j arr ts w wts qM qR e1 e2 HR Htot Hun Hi Hj Hne Hg H2 Hr2 Hs Hw Hen UM (UR & HqR) Harr Hww.
  destruct (ang_proper squad s HR Htot Hun deriv i to to j j w (Some wts) Hi Hj Hj Hne Hne Hg Hg Hw) as (wts' & E & Hp & _).
  injection E as <-.
  destruct (angular_sum squad s HR Htot Hun i to j arr ts w wts Hi Hj Hg H2 Hr2 Hs (Hp Hen)) as (out & l & Eo & So & Hk & Ho).
  exists out, l. split; [unfold transform_angular_velocity; rewrite Hw; exact Eo|]. split; [exact So|]. split; [exact Hk|].
  intros k x Hx. destruct (Ho k x Hx) as (m & t & r & v & Hm & Hmap & Hv & ->).
  assert (Hin : In x ts) by (eapply nth_error_In; eauto). destruct (Harr m x Hm) as (a & Ha & Ca). destruct (Hww x v Hin Hv) as (b & Hb & Cb).
  rewrite (HqR x t r Hin Hmap). exists (vadd (srot (qR x) a) b). split; [apply space_compose; auto|].
  apply sum_close; [|exact Cb]. rewrite srot_sub, vnorm_srot by auto. exact Ca.
Qed.
Theorem C81_moving_frame : forall squad deriv s i to j arr ts w wts (qI qJ : R -> quat) e1 e2,
  reachable s -> squad_total squad -> squad_unit squad -> frame s i -> denotes s to j -> to <> PName String.EmptyString ->
  good_way s i j -> good_way s j i -> two_up ts -> two_in_range s i j ts -> shp arr = [List.length ts; 3%nat] ->
  lookup_angular_velocity squad deriv s j (Some (PFrame i)) (Some to) true true = Ok (w, Some wts) -> enough wts ->
  (forall x, hunit (qI x)) -> (forall x, hunit (qJ x)) ->
  (forall x t r, In x ts -> maps_at squad s x i j t r -> forall v, srot (qJ x) (srot r v) = v) ->
  (forall m x, nth_error ts m = Some x -> exists v, body_rate qI x v /\ vnorm (vsub (vec_at arr [m]) v) <= e1) ->
  (forall x v, In x ts -> value_at w wts x v -> exists v', body_rate qJ x v' /\ vnorm (vsub v v') <= e2) ->
  exists out l,
    transform_angular_velocity squad deriv s i arr to WMoving (-1) (Some 0%Z) (Some (stamps_nd ts)) = Ok (out, Some l) /\
    shp out = [List.length l; 3%nat] /\ kept_samples s i j ts [wts] l /\
    forall k x, nth_error l k = Some x -> exists v, body_rate (fun y => hmul (qI y) (qJ y)) x v /\ vnorm (vsub (vec_at out [k]) v) <= e1 + e2.
Proof.
  intros squad deriv s i to j arr ts w wts qI qJ e1 e2 HR Htot Hun Hi Hj Hne Hg Hg' H2 Hr2 Hs Hw Hen UI UJ Hinv Harr Hww.
  pose proof (denotes_frame s to j HR Hj) as Fj.
  assert (Gjj : good_way s j j).
  { split; [|intros k [(A & B)|(A & B)]; contradiction]. destruct Hg' as ((rt & A & B) & _). exists rt. auto. }
  destruct (ang_proper squad s HR Htot Hun deriv j (PFrame i) to i j w (Some wts) Fj (or_introl (conj eq_refl Hi)) Hj ltac:(discriminate) Hne Hg' Gjj Hw)
    as (wts' & E & Hp & _).
  injection E as <-.
  destruct (angular_sum squad s HR Htot Hun i to j arr ts w wts Hi Hj Hg H2 Hr2 Hs (Hp Hen)) as (out & l & Eo & So & Hk & Ho).
  exists out, l. split; [unfold transform_angular_velocity; rewrite (denotes_resolve s to j Hj); cbn [bind]; rewrite Hw; exact Eo|].
  split; [exact So|]. split; [exact Hk|].
  intros k x Hx. destruct (Ho k x Hx) as (m & t & r & v & Hm & Hmap & Hv & ->).
  assert (Hin : In x ts) by (eapply nth_error_In; eauto). destruct (Harr m x Hm) as (a & Ha & Ca). destruct (Hww x v Hin Hv) as (b & Hb & Cb).
  exists (vadd (srot r a) b). split; [apply body_compose; auto; eapply Hinv; eauto|].
  apply sum_close; [|exact Cb]. rewrite srot_sub, vnorm_srot by apply Hmap. exact Ca.
Qed.
Lemma cross_close w p w' p' e3 e4 W L : vnorm (vsub w w') <= e3 -> vnorm (vsub p p') <= e4 -> vnorm w' <= W -> vnorm p' <= L ->
  vnorm (vsub (vcross w p) (vcross w' p')) <= e3 * L + (W + e3) * e4.
Proof.
  intros A B C D. replace (vsub (vcross w p) (vcross w' p')) with (vadd (vcross (vsub w w') p') (vcross w (vsub p p'))).
  2:{ destruct w as [a1 a2 a3], p as [b1 b2 b3], w' as [c1 c2 c3], p' as [d1 d2 d3]. cbv [vadd vsub vcross vx vy vz]. f_equal; ring. }
  eapply Rle_trans; [apply vnorm_tri|]. pose proof (vnorm_pos w). pose proof (vnorm_pos p'). pose proof (vnorm_pos (vsub w w')). pose proof (vnorm_pos (vsub p p')).
  assert (Ew : vnorm w <= W + e3).
  { replace w with (vadd w' (vsub w w')) by (destruct w as [a1 a2 a3], w' as [c1 c2 c3]; cbv [vadd vsub vx vy vz]; f_equal; ring). eapply Rle_trans; [apply vnorm_tri|]. lra. }
  apply Rplus_le_compat; (eapply Rle_trans; [apply vnorm_cross|]); apply Rmult_le_compat; lra.
Qed.
(** transform_linear_velocity, what="reference_frame": given velocities off by e1,
    looked-up linear and angular velocities off by e2 and e3, looked-up translation
    off by e4; W bounds the angular velocity of frame i, L the distance of the moving
    frame. *)
Theorem C81_reference_frame_linear : forall squad deriv s i to j mf m arr ts lin ang wts tr t' tts (oM oR : R -> vec3) (qR : R -> quat) e1 e2 e3 e4 W L,
  reachable s -> squad_total squad -> squad_unit squad -> frame s i -> denotes s to j -> to <> PName String.EmptyString ->
  denotes s mf m -> good_way s i j -> good_way s m i -> two_up ts -> two_in_range s i j ts -> shp arr = [List.length ts; 3%nat] ->
  lookup_twist squad deriv s i (Some to) (Some to) true true = Ok (lin, ang, Some wts) -> enough wts ->
  lookup_transform squad s m (PFrame i) = Ok tr ->
  transform_vectors squad s i (tr_t tr) to (-1) (Some 0%Z) (option_map stamps_nd (tr_ts tr)) = Ok (t', tts) -> enough tts ->
  oriented squad s i j ts qR ->
  (forall n x, nth_error ts n = Some x -> exists v, vderiv oM x v /\ vnorm (vsub (vec_at arr [n]) v) <= e1) ->
  (forall x v, In x ts -> value_at lin wts x v -> exists v', vderiv oR x v' /\ vnorm (vsub v v') <= e2) ->
  (forall x w, In x ts -> value_at ang wts x w -> exists w', space_rate qR x w' /\ vnorm (vsub w w') <= e3 /\ vnorm w' <= W) ->
  (forall x p, In x ts -> value_at t' tts x p -> vnorm (vsub p (srot (qR x) (oM x))) <= e4 /\ vnorm (oM x) <= L) ->
  exists out l,
    transform_linear_velocity squad deriv s i arr to WReference (Some mf) None (-1) (Some 0%Z) (Some (stamps_nd ts)) = Ok (out, Some l) /\
    shp out = [List.length l; 3%nat] /\ kept_samples s i j ts [wts; wts; tts] l /\
    forall k x, nth_error l k = Some x -> exists v, vderiv (fun y => vadd (oR y) (srot (qR y) (oM y))) x v /\
      vnorm (vsub (vec_at out [k]) v) <= e1 + e2 + (e3 * L + (W + e3) * e4).
Proof.
  intros squad deriv s i to j mf m arr ts lin ang wts tr t' tts oM oR qR e1 e2 e3 e4 W L HR Htot Hun Hi Hj Hne Hmf Hg Gm H2 Hr2 Hs Hw Hen Htr Ht Hent
    (UR & HqR) Harr Hlin Hang Htrue.
  pose proof (denotes_frame s to j HR Hj) as Fj. pose proof (denotes_frame s mf m HR Hmf) as Fm.
  assert (Gjj : good_way s j j).
  { split; [|intros k [(A & B)|(A & B)]; contradiction]. destruct Hg as ((rt & A & B) & _). exists rt. auto. }
  destruct (twist_proper squad s HR Htot Hun deriv i to to j j lin ang (Some wts) Hi Hj Hj Hne Hne Hg Hg Gjj Hw) as (wts' & E & Hp & _).
  injection E as <-. destruct (Hp Hen) as (Pl & Pa).
  pose proof (trans_proper squad s HR Htot Hun i j m to tr t' tts Hi Fm Hj Gm Hg Htr Ht Hent) as Pt.
  destruct (linear_sum squad s HR Htot Hun i to j arr ts lin ang wts wts tr t' tts Hi Hj Hg H2 Hr2 Hs Pl Pa Pt Ht) as (out & l & Eo & So & Hk & Ho).
  exists out, l. split.
  { unfold transform_linear_velocity. rewrite Hw. cbn [bind]. rewrite (denotes_resolve s mf m Hmf). cbn [bind]. rewrite Htr. exact Eo. }
  split; [exact So|]. split; [exact Hk|].
  intros k x Hx. destruct (Ho k x Hx) as (n & t & r & v & w & p & Hn & Hmap & Hv & Hw' & Hp' & ->).
  assert (Hin : In x ts) by (eapply nth_error_In; eauto).
  destruct (Harr n x Hn) as (a & Da & Ca). destruct (Hlin x v Hin Hv) as (v' & Dv & Cv). destruct (Hang x w Hin Hw') as (w' & Dw & Cw & BW). destruct (Htrue x p Hin Hp') as (Cp & BL).
  exists (vadd (vadd (srot (qR x) a) v') (vcross w' (srot (qR x) (oM x)))). split.
  - eapply vderiv_eq; [|apply vderiv_add; [exact Dv|apply (space_moving qR oM x w' _ Dw Da)]]. apply vec3_eq; cbn; ring.
  - rewrite (HqR x t r Hin Hmap). apply sum_close; [apply sum_close; [rewrite srot_sub, vnorm_srot by auto; exact Ca|exact Cv]|].
    apply cross_close; auto. rewrite vnorm_srot by auto. exact BL.
Qed.
Theorem C81_moving_frame_linear : forall squad deriv s i to j ref jr arr ts lin ang lts ats tr t' tts (oI oJ : R -> vec3) (qI qJ : R -> quat) e1 e2 e3 e4 W L,
  reachable s -> squad_total squad -> squad_unit squad -> frame s i -> denotes s to j ->
  denotes s ref jr -> ref <> PName String.EmptyString ->
  good_way s i j -> good_way s j i -> good_way s i jr -> two_up ts -> two_in_range s i j ts -> shp arr = [List.length ts; 3%nat] ->
  lookup_linear_velocity squad s j (Some (PFrame i)) (Some (PFrame j)) true true = Ok (lin, Some lts) -> enough lts ->
  lookup_angular_velocity squad deriv s i (Some ref) (Some (PFrame j)) true true = Ok (ang, Some ats) -> enough ats ->
  lookup_transform squad s j (PFrame i) = Ok tr ->
  transform_vectors squad s i (tr_t tr) (PFrame j) (-1) (Some 0%Z) (option_map stamps_nd (tr_ts tr)) = Ok (t', tts) -> enough tts ->
  (forall x, hunit (qI x)) -> (forall x, hunit (qJ x)) ->
  (forall x t r, In x ts -> maps_at squad s x i j t r -> forall v, srot (qJ x) (srot r v) = v) ->
  (forall n x, nth_error ts n = Some x -> exists v, vderiv oI x (srot (qI x) v) /\ vnorm (vsub (vec_at arr [n]) v) <= e1) ->
  (forall x v, In x ts -> value_at lin lts x v -> exists v', vderiv oJ x (srot (qJ x) v') /\ vnorm (vsub v v') <= e2) ->
  (forall x w, In x ts -> value_at ang ats x w -> exists w', body_rate qI x (srot (qJ x) w') /\ vnorm (vsub w w') <= e3 /\ vnorm w' <= W) ->
  (forall x p, In x ts -> value_at t' tts x p -> exists p', srot (qJ x) p' = oJ x /\ vnorm (vsub p p') <= e4 /\ vnorm (oJ x) <= L) ->
  exists out l,
    transform_linear_velocity squad deriv s i arr to WMoving None (Some ref) (-1) (Some 0%Z) (Some (stamps_nd ts)) = Ok (out, Some l) /\
    shp out = [List.length l; 3%nat] /\ kept_samples s i j ts [lts; ats; tts] l /\
    forall k x, nth_error l k = Some x -> exists v,
      vderiv (fun y => vadd (oI y) (srot (qI y) (oJ y))) x (srot (hmul (qI x) (qJ x)) v) /\
      vnorm (vsub (vec_at out [k]) v) <= e1 + e2 + (e3 * L + (W + e3) * e4).
Proof.
  intros squad deriv s i to j ref jr arr ts lin ang lts ats tr t' tts oI oJ qI qJ e1 e2 e3 e4 W L HR Htot Hun Hi Hj Href Hne Hg Hg' Gr H2 Hr2 Hs
    Hl Henl Hw Hena Htr Ht Hent UI UJ Hinv Harr Hlin Hang Htrue.
  pose proof (denotes_frame s to j HR Hj) as Fj.
  assert (Dj : denotes s (PFrame j) j) by (left; auto). assert (Di : denotes s (PFrame i) i) by (left; auto).
  destruct (ang_proper squad s HR Htot Hun deriv i ref (PFrame j) jr j ang (Some ats) Hi Href Dj Hne ltac:(discriminate) Gr Hg Hw) as (ats' & E & Pa & _).
  injection E as <-. specialize (Pa Hena).
  destruct (lin_proper squad s HR Htot Hun j (PFrame i) (PFrame j) i j lin (Some lts) Fj Di Dj ltac:(discriminate) ltac:(discriminate) Hg' Hg Hl) as (lts' & E & Pl & _).
  injection E as <-. specialize (Pl Henl).
  pose proof (trans_proper squad s HR Htot Hun i j j (PFrame j) tr t' tts Hi Fj Dj Hg' Hg Htr Ht Hent) as Pt.
  destruct (linear_sum squad s HR Htot Hun i (PFrame j) j arr ts lin ang lts ats tr t' tts Hi Dj Hg H2 Hr2 Hs Pl Pa Pt Ht) as (out & l & Eo & So & Hk & Ho).
  exists out, l. split.
  { unfold transform_linear_velocity. rewrite (denotes_resolve s to j Hj). cbn [bind]. rewrite Hl. cbn [bind unpack2 fst snd]. rewrite Hw. cbn [bind unpack2 fst snd].
    rewrite Htr. exact Eo. }
  split; [exact So|]. split; [exact Hk|].
  intros k x Hx. destruct (Ho k x Hx) as (n & t & r & v & w & p & Hn & Hmap & Hv & Hw' & Hp' & ->).
  assert (Hin : In x ts) by (eapply nth_error_In; eauto).
  assert (N : forall q, hunit q -> hn2 q <> 0) by (intros q; unfold hunit; lra).
  destruct (Harr n x Hn) as (a & Da & Ca). destruct (Hlin x v Hin Hv) as (v' & Dv & Cv). destruct (Hang x w Hin Hw') as (w' & Dw & Cw & BW). destruct (Htrue x p Hin Hp') as (p' & Ep & Cp & BL).
  exists (vadd (vadd (srot r a) v') (vcross w' p')). split.
  - eapply vderiv_eq; [|apply vderiv_add; [exact Da|apply (body_moving qI oJ x _ _ Dw Dv)]].
    rewrite srot_hmul by auto. rewrite <- srot_add. f_equal. rewrite !srot_add, <- srot_cross by auto. rewrite (Hinv x t r Hin Hmap).
    rewrite Ep. apply vec3_eq; cbn; ring.
  - apply sum_close; [apply sum_close; [rewrite srot_sub, vnorm_srot by apply Hmap; exact Ca|exact Cv]|].
    apply cross_close; auto. rewrite <- (vnorm_srot (qJ x) p') by auto. rewrite Ep. exact BL.
Qed.

(* ------------------------------------------------------------------ from recording to result *)
(** At a time of ts in range of the kept samples, the value is one of the samples. *)
Lemma value_sample s i j ts l w x v : increasing ts -> kept_samples s i j ts [] l -> In x ts -> value_at w (Some l) x v ->
  exists n, nth_error l n = Some x /\ v = vec_at w [n].
Proof.
  intros Hinc HK Hx HV. destruct (kept_range _ _ _ _ _ HK) as ((f & Ef) & rt & Hrt & HM).
  assert (Il : increasing l) by (rewrite Ef; apply filter_increasing, Hinc).
  assert (Inl : In x l).
  { apply HM. split; auto. intros g tg Hg Htg. destruct HV as (n & a & b & (Ha & Hb & Hab) & _). apply nth_error_In in Ha, Hb.
    destruct (proj2 (proj1 (HM a) Ha) g tg Hg Htg) as (u & u' & Eu & Eu' & Hu). destruct (proj2 (proj1 (HM b) Hb) g tg Hg Htg) as (z & z' & Ez & Ez' & Hz).
    exists u, u'. split; auto. split; auto. rewrite Eu in Ez. injection Ez as <-. rewrite Eu' in Ez'. injection Ez' as <-. lra. }
  apply In_nth_error in Inl as (n & Hn). exists n. split; auto. eapply value_at_sample; eauto.
Qed.
Lemma body_space q x w : hunit (q x) -> body_rate q x w -> space_rate q x (srot (q x) w).
Proof. intros U H p. rewrite srot_cross by (unfold hunit in U; lra). apply H. Qed.
(** transform_angular_velocity to a new reference frame in whose motion frame i was
    recorded: off by the error of the input plus C80's. *)
Theorem C81_recorded : forall squad deriv s i to j arr ts rows (qM : R -> quat) (q : nat -> R -> quat) M H rho e,
  reachable s -> squad_total squad -> squad_unit squad -> spline_derivative deriv -> frame s i -> denotes s to j -> to <> PName String.EmptyString ->
  good_way s i j ->
  lookup_transform squad s i to = Ok (TrRows ts rows) -> (4 <= List.length ts)%nat -> spaced_by ts H -> even_ends ts rho ->
  two_in_range s i j ts -> shp arr = [List.length ts; 3%nat] ->
  oriented squad s i j ts (q 0%nat) -> qderivatives q 4 -> (forall t c, (c < 4)%nat -> Rabs (comp4 c (q 4%nat t)) <= M) ->
  (forall m x t r, nth_error ts m = Some x -> nth_error rows m = Some (t, r) -> r = q 0%nat x) ->
  (forall x, hunit (qM x)) ->
  (forall m x, nth_error ts m = Some x -> exists v, space_rate qM x v /\ vnorm (vsub (vec_at arr [m]) v) <= e) ->
  exists out l,
    transform_angular_velocity squad deriv s i arr to WReference (-1) (Some 0%Z) (Some (stamps_nd ts)) = Ok (out, Some l) /\
    shp out = [List.length l; 3%nat] /\ kept_samples s i j ts [] l /\
    forall k x, nth_error l k = Some x -> exists v, space_rate (fun y => hmul (q 0%nat y) (qM y)) x v /\ vnorm (vsub (vec_at out [k]) v) <= e + ang_err M H rho.
Proof.
  intros squad deriv s i to j arr ts rows qM q M H rho e HR Htot Hun HS Hi Hj Hne Hg Hl H4 HH Hev T1 Sa (UR & HqR) Hd HB Hrow UM Harr.
  pose proof (denotes_frame s to j HR Hj) as Fj.
  destruct (C81_angular squad deriv s i to to j j ts rows true q M H rho HR Htot Hun HS Hi Hj Hj Hne Hne Hg Hg Hl H4 HH Hev UR Hd HB Hrow) as (w & l0 & EA & SA & KA & VA).
  assert (Hl' : lookup_transform squad s i (PFrame j) = Ok (TrRows ts rows)).
  { rewrite <- Hl. unfold lookup_transform. rewrite (denotes_resolve s to j Hj), (denotes_resolve s (PFrame j) j (or_introl (conj eq_refl Fj))). reflexivity. }
  pose proof (lookup_kinds squad s HR Hun i j _ Hi Fj Hg Hl') as K. cbn [tr_ts] in K. destruct K as (Hinc & _).
  pose proof (kept_range _ _ _ _ _ KA) as RA. pose proof (two_length _ _ _ _ _ T1 RA) as L2.
  destruct (C81_reference_frame squad deriv s i to j arr ts w (Some l0) qM (q 0%nat) e (ang_err M H rho) HR Htot Hun Hi Hj Hne Hg) as (out & l & Eo & So & Hk & Ho); auto.
  - split; [exact Hinc|lia].
  - intros l1 E1. injection E1 as <-. exact L2.
  - split; auto.
  - intros x v Hx Hv. destruct (value_sample s i j ts l0 w x v Hinc KA Hx Hv) as (n & Hn & ->). destruct (VA n x Hn) as (t & r & wb & Hmap & Hbr & Hc).
    exists (srot (q 0%nat x) wb). split; [apply body_space; auto|]. rewrite <- (HqR x t r Hx Hmap). exact Hc.
  - exists out, l. split; auto. split; auto. split; auto.
    destruct Hk as (Hf & rt & Hrt & HM). split; auto. exists rt. split; auto. intros x. rewrite HM. split; [intros (A & B & _); split; auto; split; auto; intros t' []|].
    intros (A & B & _). split; auto. split; auto. intros t' [E|[]]. injection E as <-. apply in_bounds_in.
    + destruct RA as ((f & Ef) & _). rewrite Ef. apply filter_increasing, Hinc.
    + destruct RA as (_ & rt' & Hrt' & HM'). apply HM'. split; auto. intros g tg Hg' Htg. apply (B g tg); auto. apply (PropConsist.route_way s i j rt HR Hi Fj Hrt). apply (PropConsist.route_way s i j rt' HR Hi Fj Hrt'). exact Hg'.
Qed.
