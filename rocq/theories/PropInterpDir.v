(** Property C86 for directions and orientations. *)
From Coq Require Import Reals List Arith Bool ZArith Lia Lra.
From Coquelicot Require Import Coquelicot.
From Verif Require Import Base Quat SpecQuat QuatProofs NdArray Frames Matcher SpecForest SpecLookup FrameProofs LookupProofs MovingProofs TimeProofs InverseProofs RouteProofs
  PropForest PropLookup PropMoving RelProofs Transform SpecArray NdProofs ArrProofs ArrTransProofs PropTransform Coord RotVec PropRotVec Squad SquadProofs SpecMotion MotionProofs
  LookVelProofs PropSquad PropConverge QuatDist SquadError PropInterp.
Import ListNotations.
Open Scope R_scope.

(* ------------------------------------------------------------------ specification *)
(** Q is the actual orientation of frame i with respect to its ancestor c at time x. *)
Inductive heading (M : nat -> R -> vec3 * quat) (s : state) (x : R) : nat -> nat -> quat -> Prop :=
| heading_here i : heading M s x i i (Qt 1 0 0 0)
| heading_up i k c Q : parent_of s i = Some k -> heading M s x k c Q -> heading M s x i c (hmul Q (snd (M i x))).
(** v, given in frame i, and v', given in frame j, are nearly the same vector at time x:
    actually, in a common ancestor n levels above i and n' above j, they differ by no more than allowed. *)
Definition nearly_along (M : nat -> R -> vec3 * quat) (s : state) (x : R) (i j c n n' : nat) (v v' : vec3) (L B H : R) : Prop :=
  exists Q Q', heading M s x i c Q /\ heading M s x j c Q' /\
    vnorm (vsub (srot Q v) (srot Q' v')) <= 2 * INR (n + n') * rot_err L B H * vnorm v.
(** Every frame above i or j records its actual motion. *)
Definition all_recorded (M : nat -> R -> vec3 * quat) (s : state) (i j : nat) (A L B H : R) : Prop :=
  forall k d, ancestor (parent_of s) i k \/ ancestor (parent_of s) j k -> transform_of s k = Some d -> tracks (M k) d A L B H.

(* ------------------------------------------------------------------ proofs *)
Lemma qdist_hmul a b a' b' : hunit a -> hunit b' -> qdist (hmul a b) (hmul a' b') <= qdist a a' + qdist b b'.
Proof.
  intros Ha Hb. eapply Rle_trans; [apply (qdist_tri _ (hmul a b'))|]. rewrite qdist_left by exact Ha.
  enough (qdist (hmul a b') (hmul a' b') = qdist a a') by lra. rewrite !qdist_len.
  replace (qsub (hmul a b') (hmul a' b')) with (hmul (qsub a a') b').
  - rewrite qlen_hmul, (hunit_len b' Hb). ring.
  - destruct a as [a0 a1 a2 a3], a' as [c0 c1 c2 c3], b' as [b0 b1 b2 b3]. unfold qsub. vcomp. f_equal; ring.
Qed.
Lemma tracks_order m d A L B H : tracks m d A L B H -> in_order d.
Proof. destruct d as [t r|ts tr rr disc]; [intros _; exact Logic.I|]. intros (-> & (Inc & _) & _). apply increasing_not_decreasing, Inc. Qed.
Section Tree.
  Variables (M : nat -> R -> vec3 * quat) (s : state) (x A L B H : R).
  Hypothesis PA : 0 <= A.
  Hypothesis PB : 0 <= B.
  Let g := rot_err L B H.
  Lemma coords_turn i p c P : coords np_squad s x i p c P -> rooted (parent_of s) i ->
    (forall k d, ancestor (parent_of s) i k -> transform_of s k = Some d -> tracks (M k) d A L B H) ->
    forall p' P', coords np_squad s x i p' c P' ->
    exists n G Q, above (parent_of s) i n c /\ hunit G /\ hunit Q /\ heading M s x i c Q /\ qdist G Q <= INR n * g /\ vsub P' P = srot G (vsub p' p).
  Proof.
    induction 1 as [i p|i k d t r p c P Hp Hd Ho Hn Hc IH]; intros Ri Hk p' P' C'.
    - inversion C' as [|? k d t r ? ? ? E1 E2 E3 E4 E5]; subst.
      + exists 0%nat, (Qt 1 0 0 0), (Qt 1 0 0 0). split; [constructor|]. split; [apply hunit_one|]. split; [apply hunit_one|]. split; [constructor|]. split; [rewrite qdist_self; cbn; lra|].
        change (Qt 1 0 0 0) with hone. rewrite srot_one. reflexivity.
      + exfalso. apply (no_cycle _ i k Ri E1). exact (coords_ancestor _ _ _ _ _ _ _ E5).
    - inversion C' as [? ? E1 E2 E3 E4|? k' d' t' r' ? ? ? E1 E2 E3 E4 E5]; subst.
      + exfalso. apply (no_cycle _ c k Ri Hp). exact (coords_ancestor _ _ _ _ _ _ _ Hc).
      + rewrite Hp in E1. injection E1 as <-. rewrite Hd in E2. injection E2 as <-. pose proof (Hk i d (anc_refl _ i) Hd) as Ht.
        destruct (own_fun np_squad d x t r t' r' (tracks_order _ _ _ _ _ _ Ht) Ho E3) as (<- & <-).
        destruct (tracks_own (M i) d A L B H x t r PA PB Ht Ho) as (Hr & Hr' & _ & E7). fold g in E7.
        assert (Rk : rooted (parent_of s) k) by (inversion Ri as [? E|? q E Rq]; subst; [congruence|rewrite Hp in E; injection E as <-; exact Rq]).
        destruct (IH Rk (fun k' d' A' => Hk k' d' (anc_up _ i k k' Hp A')) _ _ E5) as (n & G & Q & N & UG & UQ & HQ & Dq & V).
        exists (S n), (hmul G r), (hmul Q (snd (M i x))). split; [econstructor; eauto|]. split; [apply hunit_hmul; auto|]. split; [apply hunit_hmul; auto|]. split; [eapply heading_up; eauto|].
        split.
        * pose proof (qdist_hmul G r Q (snd (M i x)) UG Hr') as Tr. rewrite S_INR. lra.
        * rewrite V, smove_diff, srot_hmul; [reflexivity| |]; unfold hunit in *; lra.
  Qed.
  Lemma maps_along i j t r : reachable s -> frame s i -> frame s j -> all_recorded M s i j A L B H -> maps_at np_squad s x i j t r ->
    exists c n n', above (parent_of s) i n c /\ above (parent_of s) j n' c /\ forall v, nearly_along M s x i j c n n' v (srot r v) L B H.
  Proof.
    intros HR Fi Fj Tr (Ur & c & Ai & Aj & Co). destruct (ancestor_above _ _ _ Ai) as (n & Ni). destruct (ancestor_above _ _ _ Aj) as (n' & Nj).
    exists c, n, n'. split; [exact Ni|]. split; [exact Nj|]. intros v. pose proof (reachable_Inv s HR) as HI.
    assert (Ri : rooted (parent_of s) i) by (apply wf_root; [apply HI|exact Fi]). assert (Rj : rooted (parent_of s) j) by (apply wf_root; [apply HI|exact Fj]).
    destruct (Co v0) as (P0 & C1 & C2). destruct (Co v) as (P & C3 & C4).
    destruct (coords_turn i _ c P0 C1 Ri (fun k d Ak => Tr k d (or_introl Ak)) _ _ C3) as (m & G & Q & Am & UG & UQ & HQ & Dq & V).
    destruct (coords_turn j _ c P0 C2 Rj (fun k d Ak => Tr k d (or_intror Ak)) _ _ C4) as (m' & G' & Q' & Am' & UG' & UQ' & HQ' & Dq' & V').
    pose proof (above_fun _ _ _ _ Ri Ni _ Am) as ->. pose proof (above_fun _ _ _ _ Rj Nj _ Am') as ->.
    exists Q, Q'. split; [exact HQ|]. split; [exact HQ'|]. fold g.
    rewrite smove_diff in V'. replace (vsub v v0) with v in V, V' by (destruct v as [v1 v2 v3]; unfold vsub, v0; cbn; f_equal; ring).
    assert (E : srot G v = srot G' (srot r v)) by congruence.
    pose proof (srot_near G Q v UG UQ) as N1. pose proof (srot_near G' Q' (srot r v) UG' UQ') as N2. rewrite (vnorm_srot r v Ur), <- E in N2.
    pose proof (vnorm_sub_tri (srot Q v) (srot G v) (srot Q' (srot r v))) as T. rewrite (vnorm_sub_sym (srot Q v) (srot G v)) in T.
    pose proof (vnorm_pos v) as Pv. apply (Rmult_le_compat_r (vnorm v)) in Dq, Dq'; [|exact Pv|exact Pv]. rewrite plus_INR. lra.
  Qed.
End Tree.

(* ------------------------------------------------------------------ C86 *)
(** The rotation of each row of a lookup. *)
Theorem C86_lookup_turn : forall M s i to j ts rows A L B H, reachable s -> frame s i -> denotes s to j -> 0 <= A -> 0 <= B ->
  all_recorded M s i j A L B H -> lookup_transform np_squad s i to = Ok (TrRows ts rows) ->
  length rows = length ts /\
  forall k x t r, nth_error ts k = Some x -> nth_error rows k = Some (t, r) ->
    exists c n n', above (parent_of s) i n c /\ above (parent_of s) j n' c /\ forall v, nearly_along M s x i j c n n' v (srot r v) L B H.
Proof.
  intros M s i to j ts rows A L B H HR Hi Hto PA PB Tr Hl.
  assert (U : unit_way s i j) by (intros k d [(Ak & _)|(Ak & _)] Hd; apply (tracks_unit (M k) d A L B H), Tr; auto).
  destruct (C17_moving_lookup np_squad s i to j ts rows HR (proj1 C79_contract) Hi Hto U Hl) as (Ll & Row). split; [exact Ll|].
  intros k x t r Hx Hr. destruct (Row k x t r Hx Hr) as (Ur & c & Ai & Aj & Co).
  apply (maps_along M s x A L B H PA PB i j t r); auto; [exact (denotes_frame _ _ _ HR Hto)|]. split; [exact Ur|]. exists c. auto.
Qed.
(** transform_vectors. *)
Theorem C86_vectors : forall M s i to j arr ta tsa tau n sh out o A L B H, reachable s -> frame s i -> denotes s to j -> 0 <= A -> 0 <= B ->
  all_recorded M s i j A L B H -> stamped arr 3 ta tsa tau n sh ->
  transform_vectors np_squad s i arr to (-1) (Some ta) (Some tsa) = Ok (out, o) ->
  exists l, o = Some l /\ shp out = (put tau (length l) sh ++ [3%nat])%list /\
  forall k x, nth_error l k = Some x -> exists m, (m < n)%nat /\ dat tsa [m] = x /\
    exists c a b, above (parent_of s) i a c /\ above (parent_of s) j b c /\
    forall pre, valid sh pre -> nearly_along M s x i j c a b (vec_at arr (put tau m pre)) (vec_at out (put tau k pre)) L B H.
Proof.
  intros M s i to j arr ta tsa tau n sh out o A L B H HR Hi Hto PA PB Tr St E.
  assert (U : unit_way s i j) by (intros k d [(Ak & _)|(Ak & _)] Hd; apply (tracks_unit (M k) d A L B H), Tr; auto).
  destruct (C22_vectors np_squad s i to j arr ta tsa tau n sh out o HR (proj1 C79_contract) Hi Hto U St E) as (l & -> & _ & _ & So & Row).
  exists l. split; [reflexivity|]. split; [exact So|]. intros k x Hx. destruct (Row k x Hx) as (m & t & r & Hm & Ex & Mp & Im). exists m. split; [exact Hm|]. split; [exact Ex|].
  destruct (maps_along M s x A L B H PA PB i j t r HR Hi (denotes_frame _ _ _ HR Hto) Tr Mp) as (c & a & b & Na & Nb & Near).
  exists c, a, b. split; [exact Na|]. split; [exact Nb|]. intros pre Hp. rewrite (Im pre Hp). apply Near.
Qed.
(** transform_quaternions: what points along w in the body points nearly the same way, for every w. *)
Theorem C86_orientations : forall M s i to j arr ta tsa tau n sh out o A L B H, reachable s -> frame s i -> denotes s to j -> 0 <= A -> 0 <= B ->
  all_recorded M s i j A L B H -> stamped arr 4 ta tsa tau n sh -> (forall m pre, (m < n)%nat -> valid sh pre -> hunit (quat_at arr (put tau m pre))) ->
  transform_quaternions np_squad s i arr to (-1) (Some ta) (Some tsa) = Ok (out, o) ->
  exists l, o = Some l /\ shp out = (put tau (length l) sh ++ [4%nat])%list /\
  forall k x, nth_error l k = Some x -> exists m, (m < n)%nat /\ dat tsa [m] = x /\
    exists c a b, above (parent_of s) i a c /\ above (parent_of s) j b c /\
    forall pre w, valid sh pre -> hunit (quat_at out (put tau k pre)) /\
      nearly_along M s x i j c a b (srot (quat_at arr (put tau m pre)) w) (srot (quat_at out (put tau k pre)) w) L B H.
Proof.
  intros M s i to j arr ta tsa tau n sh out o A L B H HR Hi Hto PA PB Tr St Un E.
  assert (U : unit_way s i j) by (intros k d [(Ak & _)|(Ak & _)] Hd; apply (tracks_unit (M k) d A L B H), Tr; auto).
  destruct (C22_quaternions np_squad s i to j arr ta tsa tau n sh out o HR (proj1 C79_contract) (proj1 (proj2 C79_contract)) Hi Hto U St Un E) as (l & -> & _ & _ & So & Row).
  exists l. split; [reflexivity|]. split; [exact So|]. intros k x Hx. destruct (Row k x Hx) as (m & t & r & Hm & Ex & Mp & Im). exists m. split; [exact Hm|]. split; [exact Ex|].
  destruct (maps_along M s x A L B H PA PB i j t r HR Hi (denotes_frame _ _ _ HR Hto) Tr Mp) as (c & a & b & Na & Nb & Near).
  exists c, a, b. split; [exact Na|]. split; [exact Nb|]. intros pre w Hp. rewrite (Im pre Hp). pose proof (Un m pre Hm Hp) as Uq. destruct Mp as (Ur & _).
  split; [apply hunit_hmul; auto|]. rewrite srot_hmul; [apply Near| |]; unfold hunit in *; lra.
Qed.
