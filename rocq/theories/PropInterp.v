(** Property C86: between its samples a recorded frame is near its actual motion, and so is
    everything looked up or transformed through a tree of recorded frames. *)
From Coq Require Import Reals List Arith Bool ZArith Lia Lra.
From Coquelicot Require Import Coquelicot.
From Verif Require Import Base Quat SpecQuat QuatProofs NdArray Frames Matcher SpecForest SpecLookup FrameProofs LookupProofs MovingProofs TimeProofs InverseProofs RouteProofs
  PropForest PropLookup PropMoving RelProofs Transform SpecArray NdProofs ArrProofs ArrTransProofs PropTransform Coord RotVec PropRotVec Squad SquadProofs SpecMotion MotionProofs
  LookVelProofs PropSquad PropConverge QuatDist SquadError.
Import ListNotations.
Open Scope R_scope.

(* ------------------------------------------------------------------ specification *)
(** A motion m (position and orientation at every time) is smooth: its acceleration is at
    most A, and the first and second derivative of the quaternion at most L and B (L is
    half the angular velocity). *)
Definition smooth (m : R -> vec3 * quat) (A L B : R) : Prop :=
  exists o q, vderivatives o 2 /\ qderivatives q 2 /\ (forall t, m t = (o 0%nat t, q 0%nat t)) /\ (forall t, hunit (q 0%nat t)) /\
    (forall t, vnorm (o 2%nat t) <= A) /\ (forall t, qlen (q 1%nat t) <= L) /\ (forall t, qlen (q 2%nat t) <= B).
(** Sampled at increasing times at most H apart. *)
Definition sampled (ts : list R) (H : R) : Prop := increasing ts /\ (2 <= length ts)%nat /\ spaced_by ts H.
(** The data of a frame record its actual motion m: it does not move, or they are samples. *)
Definition tracks (m : R -> vec3 * quat) (d : tfdata) (A L B H : R) : Prop :=
  match d with
  | TStatic t r => hunit r /\ forall x, m x = (t, r)
  | TMoving ts tr rr disc => disc = false /\ sampled ts H /\ smooth m A L B /\ tr = map (fun t => fst (m t)) ts /\ rr = map (fun t => snd (m t)) ts
  end.
(** The errors of position and orientation between samples. *)
Definition pos_err (A H : R) : R := A * (H * H) / 8.
Definition rot_err (L B H : R) : R := 8 * ((L * L + B) * (H * H)).
(** c is n levels above i. *)
Inductive above (par : nat -> option nat) : nat -> nat -> nat -> Prop :=
| above_here i : above par i 0 i
| above_up i k n c : par i = Some k -> above par k n c -> above par i (S n) c.
(** The error after n frames for a point at distance d, the frames being at most D from their parents. *)
Definition way_err (n : nat) (d D A L B H : R) : R :=
  INR n * (pos_err A H + 2 * rot_err L B H * (d + 2 * INR n * (D + pos_err A H))).
(** p, given in frame i, and p', given in frame j, are nearly the same point at time x: where
    they actually are, in a common ancestor of the two frames n levels from i and n' from j,
    they are no further apart than allowed. *)
Definition nearly (M : nat -> R -> vec3 * quat) (s : state) (x : R) (i j c n n' : nat) (p p' : vec3) (D A L B H : R) : Prop :=
  exists P Q, actual M s x i p c P /\ actual M s x j p' c Q /\ vnorm (vsub P Q) <= way_err (n + n') (vnorm p) D A L B H.

(* ------------------------------------------------------------------ one frame *)
Lemma pure_derivs o n : vderivatives o n -> qderivatives (fun k t => mkq 0 (o k t)) n.
Proof.
  intros Ho k t Hk. destruct (Ho k t Hk) as (D1 & D2 & D3). split; [apply derivable_pt_lim_const|]. cbn [mkq qx qy qz]. auto.
Qed.
Lemma between_near o A H a b x : vderivatives o 2 -> (forall t, vnorm (o 2%nat t) <= A) -> a < b -> b - a <= H -> a <= x <= b ->
  vnorm (vsub (between a b (o 0%nat a) (o 0%nat b) x) (o 0%nat x)) <= pos_err A H.
Proof.
  intros Ho HA Hab Hg Hx. assert (P : 0 <= A) by (pose proof (HA 0); pose proof (vnorm_pos (o 2%nat 0)); lra).
  pose proof (curve_lerp (fun k t => mkq 0 (o k t)) A (pure_derivs o 2 Ho) ltac:(intros t; cbv beta; rewrite pure_len; apply HA) a b x Hab Hx) as C. cbv beta in C.
  replace (qdist _ _) with (vnorm (vsub (between a b (o 0%nat a) (o 0%nat b) x) (o 0%nat x))) in C.
  - eapply Rle_trans; [exact C|]. unfold pos_err. assert ((b - a) * (b - a) <= H * H) by (apply Rmult_le_compat; lra). assert (A * ((b - a) * (b - a)) <= A * (H * H)) by (apply Rmult_le_compat_l; lra). lra.
  - rewrite qdist_len, <- pure_len. f_equal. unfold between, lerp. generalize ((x - a) / (b - a)) as tau. intros tau.
    destruct (o 0%nat a) as [a1 a2 a3], (o 0%nat b) as [b1 b2 b3], (o 0%nat x) as [x1 x2 x3]. unfold qsub, qaddq. vcomp. f_equal; ring.
Qed.
Lemma err_pos A L B H : 0 <= A -> 0 <= B -> 0 <= pos_err A H /\ 0 <= rot_err L B H.
Proof.
  intros PA PB. unfold pos_err, rot_err. pose proof (Rle_0_sqr H) as Q. pose proof (Rle_0_sqr L) as Q'. unfold Rsqr in *.
  assert (0 <= A * (H * H)) by (apply Rmult_le_pos; lra). assert (0 <= (L * L + B) * (H * H)) by (apply Rmult_le_pos; lra). lra.
Qed.
(** At any time within the recording the frame's own transform, as the library interpolates it,
    is near the actual one. *)
Lemma tracks_own m d A L B H x t r : 0 <= A -> 0 <= B -> tracks m d A L B H -> own_at np_squad d x t r ->
  hunit r /\ hunit (snd (m x)) /\ vnorm (vsub t (fst (m x))) <= pos_err A H /\ qdist r (snd (m x)) <= rot_err L B H.
Proof.
  intros PA PB Ht Ho. destruct (err_pos A L B H PA PB) as (P1 & P2). destruct Ho as [t r x|ts tt rr x k t r He Hk Hr|ts tt rr x k a b u v r Hi Hu Hv Hs].
  - destruct Ht as (Hr & Hm). rewrite Hm. cbn [fst snd]. split; [exact Hr|]. split; [exact Hr|]. rewrite qdist_self. split; [|exact P2].
    replace (vsub t t) with v0 by (destruct t as [t1 t2 t3]; unfold vsub, v0; cbn; f_equal; ring). replace (vnorm v0) with 0; [exact P1|]. unfold vnorm. replace (vnorm2 v0) with 0 by (unfold vnorm2, vdot, v0; cbn; ring). symmetry. apply sqrt_0.
  - destruct Ht as (F & _). discriminate.
  - destruct Ht as (_ & (Inc & Len & Sp) & (o & q & Dv & Dq & Hm & HU & HA & HL & HB) & -> & ->).
    assert (Em : map (fun t => snd (m t)) ts = map (q 0%nat) ts) by (apply map_ext; intros y; rewrite Hm; reflexivity).
    rewrite Em in Hs. rewrite np_squad_ok in Hs; [|exact Inc|exact Len|apply map_length|apply (rr_units q ts HU)]. injection Hs as <-.
    destruct Hi as (Ha & Hb & Hab & Hx). rewrite nth_error_map, Ha in Hu. injection Hu as <-. rewrite nth_error_map, Hb in Hv. injection Hv as <-.
    assert (Lk : (S k < length ts)%nat) by (apply nth_error_Some; rewrite Hb; discriminate).
    apply nth_error_nth with (d := 0) in Ha. apply nth_error_nth with (d := 0) in Hb. pose proof (Sp k Lk) as G. rewrite Ha, Hb in G.
    assert (Hx' : a <= x <= b) by lra. rewrite !Hm. cbn [fst snd].
    split; [apply squad_at_unit, (rr_units q ts HU)|]. split; [apply HU|]. split; [apply between_near; assumption|].
    apply squad_error; try assumption. split.
    + destruct (Nat.eq_dec k 0) as [->|N]; [lra|]. pose proof (increasing_nth ts 0 k Inc ltac:(lia)). lra.
    + destruct (Nat.eq_dec (S k) (length ts - 1)) as [El|N]; [rewrite <- El; lra|]. pose proof (increasing_nth ts (S k) (length ts - 1) Inc ltac:(lia)). lra.
Qed.

(* ------------------------------------------------------------------ trees *)
Lemma above_ancestor par i n c : above par i n c -> ancestor par i c.
Proof. induction 1 as [|i k n c Hp H IH]; [constructor|]. econstructor; eauto. Qed.
Lemma ancestor_above par i c : ancestor par i c -> exists n, above par i n c.
Proof. induction 1 as [i|i k c Hp H (n & IH)]; [exists 0%nat; constructor|]. exists (S n). econstructor; eauto. Qed.
Lemma above_fun par i n c : rooted par i -> above par i n c -> forall n', above par i n' c -> n' = n.
Proof.
  intros Hr H. induction H as [i|i k n c Hp H IH]; intros n' H'.
  - inversion H' as [|? k ? ? Hk A]; subst; [reflexivity|]. exfalso. eapply no_cycle; [exact Hr|exact Hk|eapply above_ancestor; exact A].
  - inversion H' as [|? k' n2 ? Hk A]; subst; [exfalso; eapply no_cycle; [exact Hr|exact Hp|eapply above_ancestor; exact H]|].
    assert (k' = k) by congruence. subst k'. f_equal. apply IH; [|exact A]. inversion Hr as [? E0|? p0 E0 Hp0]; subst; [congruence|]. replace k with p0 by congruence. exact Hp0.
Qed.
Section Tree.
  Variables (M : nat -> R -> vec3 * quat) (s : state) (x D A L B H : R).
  Hypothesis PA : 0 <= A.
  Hypothesis PB : 0 <= B.
  Hypothesis PD : 0 <= D.
  Let e := pos_err A H.
  Let g := rot_err L B H.
  Lemma eg_pos : 0 <= e /\ 0 <= g.
  Proof. apply err_pos; assumption. Qed.
  Definition known (i : nat) : Prop := forall k d, ancestor (parent_of s) i k -> transform_of s k = Some d -> tracks (M k) d A L B H /\ vnorm (fst (M k x)) <= D.
  Lemma vsub_as u v : vadd (vsub u v) v = u.
  Proof. destruct u as [u1 u2 u3], v as [w1 w2 w3]. unfold vadd, vsub. cbn. f_equal; ring. Qed.
  Lemma vnorm_sub_tri u v w : vnorm (vsub u w) <= vnorm (vsub u v) + vnorm (vsub v w).
  Proof. replace (vsub u w) with (vadd (vsub u v) (vsub v w)); [apply vnorm_tri|]. destruct u as [u1 u2 u3], v as [v1 v2 v3], w as [w1 w2 w3]. unfold vadd, vsub. cbn. f_equal; ring. Qed.
  Lemma vnorm_sub_sym u v : vnorm (vsub u v) = vnorm (vsub v u).
  Proof. unfold vnorm, vnorm2. f_equal. destruct u as [u1 u2 u3], v as [v1 v2 v3]. unfold vdot, vsub. cbn. ring. Qed.
  Lemma norm_near u v : vnorm u <= vnorm v + vnorm (vsub u v).
  Proof. rewrite <- (vsub_as u v) at 1. pose proof (vnorm_tri (vsub u v) v). lra. Qed.
  Lemma smove_norm t r p : hunit r -> vnorm (smove t r p) <= vnorm p + vnorm t /\ vnorm p <= vnorm (smove t r p) + vnorm t.
  Proof.
    intros Hr. unfold smove. split; [pose proof (vnorm_tri (srot r p) t) as T; rewrite vnorm_srot in T by exact Hr; exact T|].
    pose proof (norm_near (srot r p) (vadd (srot r p) t)) as T. rewrite vnorm_srot in T by exact Hr.
    replace (vnorm (vsub (srot r p) (vadd (srot r p) t))) with (vnorm t) in T; [exact T|]. unfold vnorm, vnorm2. f_equal. destruct (srot r p) as [s1 s2 s3], t as [t1 t2 t3]. unfold vdot, vsub, vadd. cbn. ring.
  Qed.
  Lemma smove_near t r t' r' p p' : hunit r -> hunit r' -> vnorm (vsub (smove t r p) (smove t' r' p')) <= vnorm (vsub p p') + 2 * qdist r r' * vnorm p' + vnorm (vsub t t').
  Proof.
    intros Hr Hr'. replace (vsub (smove t r p) (smove t' r' p')) with (vadd (vadd (srot r (vsub p p')) (vsub (srot r p') (srot r' p'))) (vsub t t')).
    - pose proof (vnorm_tri (vadd (srot r (vsub p p')) (vsub (srot r p') (srot r' p'))) (vsub t t')) as T1. pose proof (vnorm_tri (srot r (vsub p p')) (vsub (srot r p') (srot r' p'))) as T2.
      rewrite vnorm_srot in T2 by exact Hr. pose proof (srot_near r r' p' Hr Hr'). lra.
    - rewrite <- srot_sub. unfold smove. destruct (srot r p) as [a1 a2 a3], (srot r p') as [b1 b2 b3], (srot r' p') as [c1 c2 c3], t as [t1 t2 t3], t' as [u1 u2 u3]. unfold vadd, vsub. cbn. f_equal; ring.
  Qed.
  (** p: what the library works with; pa: the actual point. *)
  Lemma coords_near i p c P : coords np_squad s x i p c P -> known i -> exists n, above (parent_of s) i n c /\
    vnorm P <= vnorm p + INR n * (D + e) /\ vnorm p <= vnorm P + INR n * (D + e) /\
    forall pa, exists Pa, actual M s x i pa c Pa /\ vnorm (vsub Pa P) <= vnorm (vsub pa p) + INR n * (e + 2 * g * (vnorm pa + INR n * D)).
  Proof.
    destruct eg_pos as (Pe & Pg). induction 1 as [i p|i k d t r p c P Hp Hd Ho Hn Hc IH]; intros Hk.
    - exists 0%nat. split; [constructor|]. cbn [INR]. split; [lra|]. split; [lra|]. intros pa. exists pa. split; [constructor|]. lra.
    - destruct (Hk i d (anc_refl _ i) Hd) as (Ht & HD'). destruct (tracks_own (M i) d A L B H x t r PA PB Ht Ho) as (Hr & Hr' & E1 & E2).
      fold e in E1. fold g in E2. destruct IH as (n & N & B1 & B2 & Step). { intros k' d' A'. apply Hk. apply (anc_up _ i k k' Hp A'). }
      exists (S n). split; [econstructor; eauto|]. rewrite S_INR. destruct (smove_norm t r p Hr) as (F1 & F2).
      assert (Tn : vnorm t <= D + e). { pose proof (norm_near t (fst (M i x))). lra. }
      pose proof (pos_INR n) as Pn.
      split; [lra|]. split; [lra|]. intros pa. destruct (Step (smove (fst (M i x)) (snd (M i x)) pa)) as (Pa & Ac & Er). exists Pa. split; [eapply actual_up; eauto|].
      eapply Rle_trans; [exact Er|]. destruct (smove_norm (fst (M i x)) (snd (M i x)) pa Hr') as (F3 & _).
      pose proof (smove_near t r (fst (M i x)) (snd (M i x)) p pa Hr Hr') as SN. rewrite vnorm_sub_sym in SN. rewrite (vnorm_sub_sym p pa) in SN.
      assert (G1 : 2 * qdist r (snd (M i x)) * vnorm pa <= 2 * g * vnorm pa) by (apply Rmult_le_compat_r; [apply vnorm_pos|lra]).
      assert (G2 : 2 * g * (vnorm (smove (fst (M i x)) (snd (M i x)) pa) + INR n * D) <= 2 * g * (vnorm pa + (INR n + 1) * D)) by (apply Rmult_le_compat_l; lra).
      assert (G3 : INR n * (2 * g * (vnorm (smove (fst (M i x)) (snd (M i x)) pa) + INR n * D)) <= INR n * (2 * g * (vnorm pa + (INR n + 1) * D))) by (apply Rmult_le_compat_l; lra).
      assert (G4 : 0 <= 2 * g * ((INR n + 1) * D)) by (apply Rmult_le_pos; [lra|apply Rmult_le_pos; lra]). lra.
  Qed.
  Lemma coords_both i j t r p c P n n' : rooted (parent_of s) i -> rooted (parent_of s) j ->
    coords np_squad s x i p c P -> coords np_squad s x j (smove t r p) c P -> known i -> known j ->
    above (parent_of s) i n c -> above (parent_of s) j n' c -> nearly M s x i j c n n' p (smove t r p) D A L B H.
  Proof.
    intros Ri Rj Ci Cj Ki Kj Ni Nj. destruct eg_pos as (Pe & Pg).
    destruct (coords_near i p c P Ci Ki) as (m & Am & A1 & A2 & A3). destruct (coords_near j _ c P Cj Kj) as (m' & Am' & B1 & B2 & B3).
    pose proof (above_fun _ _ _ _ Ri Ni _ Am) as ->. pose proof (above_fun _ _ _ _ Rj Nj _ Am') as ->.
    destruct (A3 p) as (Pa & Aa & Ea). destruct (B3 (smove t r p)) as (Qa & Ab & Eb). exists Pa, Qa. split; [exact Aa|]. split; [exact Ab|].
    assert (Z : forall v, vnorm (vsub v v) = 0). { intros v. unfold vnorm. replace (vnorm2 (vsub v v)) with 0; [apply sqrt_0|]. destruct v as [v1 v2 v3]. unfold vnorm2, vdot, vsub. cbn. ring. }
    rewrite Z in Ea, Eb. pose proof (vnorm_sub_tri Pa P Qa) as T. rewrite (vnorm_sub_sym P Qa) in T.
    unfold way_err. fold e g. rewrite plus_INR. pose proof (pos_INR n) as Pn. pose proof (pos_INR n') as Pn'. set (a := INR n) in *. set (b := INR n') in *. set (w := vnorm p) in *. pose proof (vnorm_pos p : 0 <= w) as Pw.
    assert (W' : vnorm (smove t r p) <= w + (a + b) * (D + e)) by lra.
    assert (Q0 : 0 <= a * e /\ 0 <= b * e /\ 0 <= a * D /\ 0 <= b * D) by (repeat split; apply Rmult_le_pos; lra). 
    assert (X1 : 2 * g * (w + a * D) <= 2 * g * (w + 2 * (a + b) * (D + e))) by (apply Rmult_le_compat_l; lra).
    assert (X2 : 2 * g * (vnorm (smove t r p) + b * D) <= 2 * g * (w + 2 * (a + b) * (D + e))) by (apply Rmult_le_compat_l; lra).
    apply (Rmult_le_compat_l a) in X1; [|exact Pn]. apply (Rmult_le_compat_l b) in X2; [|exact Pn']. lra.
  Qed.
End Tree.

(* ------------------------------------------------------------------ C86 *)
Lemma tracks_unit m d A L B H : tracks m d A L B H -> unit_data d.
Proof.
  destruct d as [t r|ts tr rr disc]; [intros (U & _); exact U|]. intros (_ & _ & (o & q & _ & _ & Hm & HU & _) & _ & ->).
  cbn. apply List.Forall_forall. intros r Hr. apply in_map_iff in Hr as (t & <- & _). rewrite Hm. apply HU.
Qed.
(** A recorded frame at any times within the recording: position and orientation are near
    the actual ones. *)
Theorem C86_frame : forall m ts A L B H l, sampled ts H -> smooth m A L B -> (forall x, In x l -> in_bounds ts x = true) ->
  exists rows, rows_from_frame np_squad (TMoving ts (map (fun t => fst (m t)) ts) (map (fun t => snd (m t)) ts) false) l = Ok rows /\
  length rows = length l /\
  forall k x t r, nth_error l k = Some x -> nth_error rows k = Some (t, r) ->
    hunit r /\ vnorm (vsub t (fst (m x))) <= A * H ^ 2 / 8 /\ qdist r (snd (m x)) <= 8 * (L ^ 2 + B) * H ^ 2.
Proof.
  intros m ts A L B H l Sa Sm Bd. pose proof Sa as (Inc & Len & Sp). pose proof Sm as (o & q & Dv & Dq & Hm & HU & HA & HL & HB).
  assert (PA : 0 <= A) by (pose proof (HA 0); pose proof (vnorm_pos (o 2%nat 0)); lra). assert (PB : 0 <= B) by (pose proof (HB 0); pose proof (qlen_nonneg (q 2%nat 0)); lra).
  set (d := TMoving ts (map (fun t => fst (m t)) ts) (map (fun t => snd (m t)) ts) false).
  assert (T : tracks m d A L B H) by (repeat split; auto).
  destruct (interp1d_ok ts (map (fun t => fst (m t)) ts) l Inc Len (map_length _ _) Bd) as (tr & E & _).
  assert (Q : exists rr, traverse (np_squad ts (map (fun t => snd (m t)) ts)) l = Ok rr).
  { clear Bd E. induction l as [|x l (rr & IH)]; [eexists; reflexivity|]. unfold traverse in *. cbn [map sequence].
    rewrite np_squad_ok; [|exact Inc|exact Len|apply map_length|exact (tracks_unit _ _ _ _ _ _ T)]. cbn [bind]. rewrite IH. cbn [bind]. eexists. reflexivity. }
  destruct Q as (rr & Q). assert (Hr : rows_from_frame np_squad d l = Ok (combine tr rr)) by (cbn [rows_from_frame d]; rewrite E; cbn [bind]; rewrite Q; reflexivity).
  exists (combine tr rr). split; [exact Hr|].
  destruct (own_from_frame np_squad d l _ (conj (map_length _ _) (map_length _ _) : rows_ok d) ltac:(intros ? ? ? ? Eq; injection Eq as <- _ _ _; apply increasing_not_decreasing, Inc) Hr) as (Ll & O).
  split; [exact Ll|]. intros k x t r Hx Ht. destruct (tracks_own m d A L B H x t r PA PB T (O k x (t, r) Hx Ht)) as (U & _ & E1 & E2).
  split; [exact U|]. unfold pos_err, rot_err in *. split; [replace (A * H ^ 2 / 8) with (A * (H * H) / 8) by field; exact E1|].
  replace (8 * (L ^ 2 + B) * H ^ 2) with (8 * ((L * L + B) * (H * H))) by ring. exact E2.
Qed.
(** Every frame above i or j records its actual motion M and is within D of its parent at
    the times xs. *)
Definition all_tracked (M : nat -> R -> vec3 * quat) (s : state) (i j : nat) (xs : list R) (D A L B H : R) : Prop :=
  forall k d, ancestor (parent_of s) i k \/ ancestor (parent_of s) j k -> transform_of s k = Some d ->
    tracks (M k) d A L B H /\ forall x, In x xs -> vnorm (fst (M k x)) <= D.
Lemma maps_nearly M s x xs i j t r D A L B H : reachable s -> frame s i -> frame s j -> 0 <= A -> 0 <= B -> 0 <= D -> all_tracked M s i j xs D A L B H -> In x xs ->
  maps_at np_squad s x i j t r ->
  exists c n n', above (parent_of s) i n c /\ above (parent_of s) j n' c /\ forall p, nearly M s x i j c n n' p (smove t r p) D A L B H.
Proof.
  intros HR Fi Fj PA PB PD Tr Hx (_ & c & Ai & Aj & Co). destruct (ancestor_above _ _ _ Ai) as (n & Ni). destruct (ancestor_above _ _ _ Aj) as (n' & Nj).
  exists c, n, n'. split; [exact Ni|]. split; [exact Nj|]. intros p. destruct (Co p) as (P & C1 & C2).
  pose proof (reachable_Inv s HR) as HI.
  apply (coords_both M s x D A L B H PA PB PD i j t r p c P n n'); auto.
  - apply wf_root; [apply HI|exact Fi].
  - apply wf_root; [apply HI|exact Fj].
  - intros k d Ak Hd. destruct (Tr k d (or_introl Ak) Hd) as (T & Bd). auto.
  - intros k d Ak Hd. destruct (Tr k d (or_intror Ak) Hd) as (T & Bd). auto.
Qed.
(** lookup_transform: at each of its times, the point that its row assigns to p is near p. *)
Theorem C86_lookup : forall M s i to j ts rows D A L B H, reachable s -> frame s i -> denotes s to j -> 0 <= A -> 0 <= B -> 0 <= D ->
  all_tracked M s i j ts D A L B H -> lookup_transform np_squad s i to = Ok (TrRows ts rows) ->
  length rows = length ts /\
  forall k x t r, nth_error ts k = Some x -> nth_error rows k = Some (t, r) ->
    exists c n n', above (parent_of s) i n c /\ above (parent_of s) j n' c /\ forall p, nearly M s x i j c n n' p (smove t r p) D A L B H.
Proof.
  intros M s i to j ts rows D A L B H HR Hi Hto PA PB PD Tr Hl.
  assert (U : unit_way s i j) by (intros k d [(Ak & _)|(Ak & _)] Hd; apply (tracks_unit (M k) d A L B H), Tr; auto).
  destruct (C17_moving_lookup np_squad s i to j ts rows HR (proj1 C79_contract) Hi Hto U Hl) as (Ll & Row). split; [exact Ll|].
  intros k x t r Hx Hr. destruct (Row k x t r Hx Hr) as (Ur & c & Ai & Aj & Co).
  apply (maps_nearly M s x ts); auto; [exact (denotes_frame _ _ _ HR Hto)|exact (nth_error_In _ _ Hx)|]. split; [exact Ur|]. exists c. auto.
Qed.
(** transform_points of a timestamped array: every kept sample of the result is near the
    sample it comes from, at the time of that sample (in between the samples of the frames). *)
Theorem C86_points : forall M s i to j arr ta tsa tau n sh out o D A L B H, reachable s -> frame s i -> denotes s to j -> 0 <= A -> 0 <= B -> 0 <= D ->
  all_tracked M s i j (map (fun m => dat tsa [m]) (seq 0 n)) D A L B H -> stamped arr 3 ta tsa tau n sh ->
  transform_points np_squad s i arr to (-1) (Some ta) (Some tsa) = Ok (out, o) ->
  exists l, o = Some l /\ shp out = (put tau (length l) sh ++ [3%nat])%list /\
  forall k x, nth_error l k = Some x -> exists m, (m < n)%nat /\ dat tsa [m] = x /\
    exists c a b, above (parent_of s) i a c /\ above (parent_of s) j b c /\
    forall pre, valid sh pre -> nearly M s x i j c a b (vec_at arr (put tau m pre)) (vec_at out (put tau k pre)) D A L B H.
Proof.
  intros M s i to j arr ta tsa tau n sh out o D A L B H HR Hi Hto PA PB PD Tr St E.
  assert (U : unit_way s i j) by (intros k d [(Ak & _)|(Ak & _)] Hd; apply (tracks_unit (M k) d A L B H), Tr; auto).
  destruct (C22_points np_squad s i to j arr ta tsa tau n sh out o HR (proj1 C79_contract) Hi Hto U St E) as (l & -> & _ & _ & So & Row).
  exists l. split; [reflexivity|]. split; [exact So|]. intros k x Hx. destruct (Row k x Hx) as (m & t & r & Hm & Ex & Mp & Im). exists m. split; [exact Hm|]. split; [exact Ex|].
  assert (Ix : In x (map (fun m => dat tsa [m]) (seq 0 n))) by (rewrite <- Ex; apply (in_map (fun m => dat tsa [m])), in_seq; lia).
  destruct (maps_nearly M s x _ i j t r D A L B H HR Hi (denotes_frame _ _ _ HR Hto) PA PB PD Tr Ix Mp) as (c & a & b & Na & Nb & Near).
  exists c, a, b. split; [exact Na|]. split; [exact Nb|]. intros pre Hp. rewrite (Im pre Hp). apply Near.
Qed.
(** Any accuracy is reached by sampling densely enough: eps for points within rho of the
    frame and at most N frames in between. *)
Theorem C86_converges : forall A L B D N rho eps, 0 <= A -> 0 <= B -> 0 <= D -> 0 <= rho -> 0 < eps ->
  exists H, 0 < H /\ forall h n d, 0 <= h <= H -> (n <= N)%nat -> 0 <= d <= rho -> way_err n d D A L B h <= eps.
Proof.
  intros A L B D N rho eps PA PB PD Pr Pe. pose proof (Rle_0_sqr L) as QL. unfold Rsqr in QL.
  set (C := INR N * (A / 8 + 16 * (L * L + B) * (rho + 2 * INR N * (D + A / 8)))).
  pose proof (pos_INR N) as PN. assert (PC : 0 <= C).
  { unfold C. apply Rmult_le_pos; [exact PN|]. apply Rplus_le_le_0_compat; [lra|]. apply Rmult_le_pos; [lra|]. apply Rplus_le_le_0_compat; [exact Pr|]. apply Rmult_le_pos; lra. }
  exists (Rmin 1 (eps / (C + 1))). assert (PQ : 0 < eps / (C + 1)) by (apply Rdiv_lt_0_compat; lra). split; [apply Rmin_glb_lt; lra|].
  intros h n d Hh Hn Hd. pose proof (Rmin_l 1 (eps / (C + 1))). pose proof (Rmin_r 1 (eps / (C + 1))).
  assert (H2 : 0 <= h * h <= h) by nra. assert (H1 : h * h <= 1) by lra.
  assert (In : INR n <= INR N) by (apply le_INR, Hn). pose proof (pos_INR n) as Pn.
  assert (E : way_err n d D A L B h <= C * (h * h)).
  { unfold way_err, pos_err, rot_err, C. set (y := h * h) in *.
    assert (X0 : A * y / 8 <= A / 8) by nra. assert (X0' : 0 <= A * y / 8) by (apply Rmult_le_pos; [apply Rmult_le_pos; lra|lra]).
    assert (X1 : d + 2 * INR n * (D + A * y / 8) <= rho + 2 * INR N * (D + A / 8)).
    { apply Rplus_le_compat; [lra|]. apply Rmult_le_compat; lra. }
    assert (X2 : 0 <= d + 2 * INR n * (D + A * y / 8)) by (apply Rplus_le_le_0_compat; [lra|apply Rmult_le_pos; lra]).
    assert (X3 : 2 * (8 * ((L * L + B) * y)) * (d + 2 * INR n * (D + A * y / 8)) <= 2 * (8 * ((L * L + B) * y)) * (rho + 2 * INR N * (D + A / 8))).
    { apply Rmult_le_compat_l; [|exact X1]. apply Rmult_le_pos; [lra|]. apply Rmult_le_pos; [lra|]. apply Rmult_le_pos; lra. }
    replace (INR N * (A / 8 + 16 * (L * L + B) * (rho + 2 * INR N * (D + A / 8))) * y) with (INR N * (A * y / 8 + 2 * (8 * ((L * L + B) * y)) * (rho + 2 * INR N * (D + A / 8)))) by field.
    apply Rmult_le_compat; [exact Pn| |exact In|lra]. apply Rplus_le_le_0_compat; [exact X0'|]. apply Rmult_le_pos; [|exact X2]. apply Rmult_le_pos; [lra|]. apply Rmult_le_pos; [lra|]. apply Rmult_le_pos; lra. }
  eapply Rle_trans; [exact E|]. apply Rle_trans with (C * h); [apply Rmult_le_compat_l; lra|].
  apply Rle_trans with (C * (eps / (C + 1))); [apply Rmult_le_compat_l; lra|].
  apply Rmult_le_reg_r with (C + 1); [lra|]. replace (C * (eps / (C + 1)) * (C + 1)) with (C * eps) by (field; lra). nra.
Qed.
