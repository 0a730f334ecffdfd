(** Properties C35-C37: transforming and looking up velocities. *)
From Coq Require Import Reals List Arith Bool ZArith Lia Lra Sorted.
From Coq Require String.
From Verif Require Import Base Quat SpecQuat QuatProofs NdArray Frames SpecForest FrameProofs WalkProofs
  Matcher SpecLookup LookupProofs RegistryProofs MovingProofs TimeProofs CtorProofs InverseProofs RouteProofs
  Examples PropForest PropLookup PropMoving
  Transform SpecArray NdProofs RotProofs ArrProofs ArrTransProofs ArrStaticProofs PropTransform PropRotate
  UtilsProofs Velocity VelProofs SpecMotion MotionProofs PropAngular VelFrames VelFrameProofs.
Import ListNotations.
Open Scope R_scope.

(** The samples of ts in range of the moving frames between i and j and of every
    other series in os. *)
Definition kept_samples (s : state) (i j : nat) (ts : list R) (os : list (option (list R))) (l : list R) : Prop :=
  (exists f, l = filter f ts) /\
  exists rt, route (parent_of s) i j rt /\
    forall x, In x l <-> In x ts /\
      (forall f tf, In f rt -> cont_of s f = Some tf ->
        exists a b, hd_error tf = Some a /\ nth_error tf (List.length tf - 1) = Some b /\ a <= x <= b) /\
      (forall t', In (Some t') os ->
        exists a b, hd_error t' = Some a /\ nth_error t' (List.length t' - 1) = Some b /\ a <= x <= b).

Lemma keep_both s i j ts l0 l rest : in_range_way s i j ts l0 -> (exists f, l = filter f l0) ->
  (forall x, In x l <-> In x l0 /\ forall p t', In p rest -> snd p = Some t' -> in_bounds t' x = true) ->
  kept_samples s i j ts (map (@snd (nd R) _) rest) l.
Proof.
  intros ((f & ->) & rt & Hrt & Hx) (g & ->) Hl. split.
  - exists (fun x => f x && g x). clear. induction ts as [|a ts IH]; cbn; auto. destruct (f a); cbn; [destruct (g a)|]; rewrite ?IH; auto.
  - exists rt. split; auto. intros x. rewrite Hl, Hx. split.
    + intros ((H1 & H2) & H3). split; auto. split; auto. intros t' Ht. apply in_map_iff in Ht as (p & Hp & Hin).
      apply in_bounds_spec. eapply H3; eauto.
    + intros (H1 & H2 & H3). split; auto. intros p t' Hp Ht. apply in_bounds_spec. apply H3. rewrite <- Ht. apply in_map; auto.
Qed.

(** At least two samples are in range of the moving frames between i and j. *)
Definition two_in_range (s : state) (i j : nat) (ts : list R) : Prop :=
  forall rt, route (parent_of s) i j rt -> exists x y, x <> y /\ In x ts /\ In y ts /\
    forall f tf, In f rt -> cont_of s f = Some tf ->
      exists a b, hd_error tf = Some a /\ nth_error tf (List.length tf - 1) = Some b /\ a <= x <= b /\ a <= y <= b.
Lemma two_length s i j ts l : two_in_range s i j ts -> in_range_way s i j ts l -> (2 <= List.length l)%nat.
Proof.
  intros H2 (_ & rt & Hrt & Hx). destruct (H2 rt Hrt) as (x & y & Hne & Ix & Iy & Hf).
  assert (In x l). { apply Hx. split; auto. intros f tf Hi Hc. destruct (Hf f tf Hi Hc) as (a & b & ? & ? & ? & ?). eauto. }
  assert (In y l). { apply Hx. split; auto. intros f tf Hi Hc. destruct (Hf f tf Hi Hc) as (a & b & ? & ? & ? & ?). eauto. }
  destruct l as [|a [|b l]]; cbn in *; try lia; try contradiction. destruct H, H0; try contradiction. congruence.
Qed.

Section Angular.
  Variable squad : list R -> list quat -> R -> res quat.
  Variable s : state.
  Hypothesis HR : reachable s.
  Hypothesis Htot : squad_total squad.
  Hypothesis Hun : squad_unit squad.

  (** What the code computes, given the looked-up angular velocity w. *)
  Definition finish_angular i arr to ts (w : nd R) (wts : option (list R)) : res (nd R * option (list R)) :=
    '(a, o) <- transform_vectors squad s i arr to (-1) (Some 0%Z) (Some (stamps_nd ts)) ;;
    '(bs, o') <- match_arrays squad [(a, o); (w, wts)] ;;
    match bs with
    | [a; g] => out <- add_inplace a g ;; Ok (out, o')
    | _ => Raise ValueError
    end.
  Lemma angular_sum i to j arr ts w wts : frame s i -> denotes s to j -> good_way s i j -> two_up ts ->
    two_in_range s i j ts -> shp arr = [List.length ts; 3%nat] -> proper (w, wts) ->
    exists out l, finish_angular i arr to ts w wts = Ok (out, Some l) /\ shp out = [List.length l; 3%nat] /\
      kept_samples s i j ts [wts] l /\
      forall k x, nth_error l k = Some x -> exists m t r v, nth_error ts m = Some x /\ maps_at squad s x i j t r /\
         value_at w wts x v /\ vec_at out [k] = vadd (srot r (vec_at arr [m])) v.
  Proof.
    intros Hi Hj Hg H2 Hr2 Hs Hp. unfold finish_angular.
    destruct (vectors_rows squad s HR Htot Hun i to j arr ts Hi Hj Hg H2 Hs) as (a & l0 & Ev & Sa & Hr & Ha).
    rewrite Ev. cbn [bind]. pose proof (two_length _ _ _ _ _ Hr2 Hr) as L0. destruct H2 as (Hinc & H2).
    pose proof (range_proper s i j ts a l0 Hr Hinc Sa L0) as Pa.
    destruct (match_proper squad a l0 [(w, wts)]) as (bs & l & Em & Hf & Hl & Lb & Hb); [repeat constructor; auto; apply Pa|].
    rewrite Em. cbn [bind]. destruct bs as [|b1 [|b2 [|? ?]]]; cbn in Lb; try lia.
    destruct (Hb 0%nat _ _ eq_refl eq_refl) as (S1 & V1). destruct (Hb 1%nat _ _ eq_refl eq_refl) as (S2 & V2). cbn [fst snd] in V1, V2.
    destruct (inplace_rows b1 b2 (List.length l) S1 S2) as (c & Ec & Sc & Vc). rewrite Ec. cbn [bind].
    exists c, l. split; [reflexivity|]. split; [exact Sc|]. split; [exact (keep_both s i j ts l0 l [(w, wts)] Hr Hf Hl)|].
    intros k x Hk. pose proof (nth_lt _ _ _ Hk) as Lk. rewrite (Vc k Lk).
    assert (Hin : In x l0) by (apply Hl; eapply nth_error_In; eauto). apply In_nth_error in Hin as (m0 & Hm0).
    destruct (Ha m0 x Hm0) as (m & t & r & Hm & Hmap & Er). exists m, t, r, (vec_at b2 [k]).
    split; auto. split; auto. split; [auto|]. f_equal. rewrite <- Er.
    apply (value_at_sample a l0 x _ m0); [apply Pa|auto|]. apply V1; auto.
  Qed.

  (** Orientation of frame i in frame j, at the times ts. *)
  Definition oriented i j (ts : list R) (q : R -> quat) : Prop :=
    (forall x, hunit (q x)) /\
    forall x t r, In x ts -> maps_at squad s x i j t r -> forall v, srot r v = srot (q x) v.
End Angular.

(** C35, what="reference_frame".  arr holds the angular velocity of a moving frame M
    in frame i, in the axes of i, at the times ts; qM is the orientation of M in i and
    qR that of i in the new reference frame j.  If arr and the looked-up angular
    velocity of i in j are true at the times ts, so is the result: the angular
    velocity of M in j, in the axes of j. *)
Theorem C35_reference_frame : forall squad deriv s i to j arr ts w wts (qM qR : R -> quat),
  reachable s -> squad_total squad -> squad_unit squad -> frame s i -> denotes s to j -> to <> PName String.EmptyString ->
  good_way s i j -> two_up ts -> two_in_range s i j ts -> shp arr = [List.length ts; 3%nat] ->
  lookup_angular_velocity squad deriv s i (Some to) (Some to) true true = Ok (w, Some wts) -> enough wts ->
  (forall x, hunit (qM x)) -> oriented squad s i j ts qR ->
  (forall m x, nth_error ts m = Some x -> space_rate qM x (vec_at arr [m])) ->
  (forall x v, In x ts -> value_at w wts x v -> space_rate qR x v) ->
  exists out l,
    transform_angular_velocity squad deriv s i arr to WReference (-1) (Some 0%Z) (Some (stamps_nd ts)) = Ok (out, Some l) /\
    shp out = [List.length l; 3%nat] /\ kept_samples s i j ts [wts] l /\
    forall k x, nth_error l k = Some x -> space_rate (fun y => hmul (qR y) (qM y)) x (vec_at out [k]).
Proof.
  intros squad deriv s i to j arr ts w wts qM qR HR Htot Hun Hi Hj Hne Hg H2 Hr2 Hs Hw Hen UM (UR & HqR) Harr Hww.
  destruct (ang_proper squad s HR Htot Hun deriv i to to j j w (Some wts) Hi Hj Hj Hne Hne Hg Hg Hw) as (wts' & E & Hp & _).
  injection E as <-.
  destruct (angular_sum squad s HR Htot Hun i to j arr ts w wts Hi Hj Hg H2 Hr2 Hs (Hp Hen)) as (out & l & Eo & So & Hk & Ho).
  exists out, l. split; [unfold transform_angular_velocity; rewrite Hw; exact Eo|]. split; [exact So|]. split; [exact Hk|].
  intros k x Hx. destruct (Ho k x Hx) as (m & t & r & v & Hm & Hmap & Hv & ->).
  assert (Hin : In x ts) by (eapply nth_error_In; eauto).
  rewrite (HqR x t r Hin Hmap). apply space_compose; auto.
Qed.
(** C35, what="moving_frame".  arr holds the angular velocity of frame i in a
    reference frame R, in the axes of i; qI is the orientation of i in R and qJ that of
    the new moving frame j in i.  The result is the angular velocity of j in R, in the
    axes of j. *)
Theorem C35_moving_frame : forall squad deriv s i to j arr ts w wts (qI qJ : R -> quat),
  reachable s -> squad_total squad -> squad_unit squad -> frame s i -> denotes s to j -> to <> PName String.EmptyString ->
  good_way s i j -> good_way s j i -> two_up ts -> two_in_range s i j ts -> shp arr = [List.length ts; 3%nat] ->
  lookup_angular_velocity squad deriv s j (Some (PFrame i)) (Some to) true true = Ok (w, Some wts) -> enough wts ->
  (forall x, hunit (qI x)) -> (forall x, hunit (qJ x)) ->
  (forall x t r, In x ts -> maps_at squad s x i j t r -> forall v, srot (qJ x) (srot r v) = v) ->
  (forall m x, nth_error ts m = Some x -> body_rate qI x (vec_at arr [m])) ->
  (forall x v, In x ts -> value_at w wts x v -> body_rate qJ x v) ->
  exists out l,
    transform_angular_velocity squad deriv s i arr to WMoving (-1) (Some 0%Z) (Some (stamps_nd ts)) = Ok (out, Some l) /\
    shp out = [List.length l; 3%nat] /\ kept_samples s i j ts [wts] l /\
    forall k x, nth_error l k = Some x -> body_rate (fun y => hmul (qI y) (qJ y)) x (vec_at out [k]).
Proof.
  intros squad deriv s i to j arr ts w wts qI qJ HR Htot Hun Hi Hj Hne Hg Hg' H2 Hr2 Hs Hw Hen UI UJ Hinv Harr Hww.
  pose proof (denotes_frame s to j HR Hj) as Fj.
  assert (Gjj : good_way s j j).
  { split; [|intros k [(A & B)|(A & B)]; contradiction]. destruct Hg' as ((rt & A & B) & _). exists rt. auto. }
  destruct (ang_proper squad s HR Htot Hun deriv j (PFrame i) to i j w (Some wts) Fj (or_introl (conj eq_refl Hi)) Hj ltac:(discriminate) Hne Hg' Gjj Hw)
    as (wts' & E & Hp & _).
  injection E as <-.
  destruct (angular_sum squad s HR Htot Hun i to j arr ts w wts Hi Hj Hg H2 Hr2 Hs (Hp Hen)) as (out & l & Eo & So & Hk & Ho).
  exists out, l. split; [unfold transform_angular_velocity; rewrite (denotes_resolve s to j Hj); cbn [bind]; rewrite Hw; exact Eo|].
  split; [exact So|]. split; [exact Hk|].
  intros k x Hx. destruct (Ho k x Hx) as (m & t & r & v & Hm & Hmap & Hv & ->).
  assert (Hin : In x ts) by (eapply nth_error_In; eauto).
  apply body_compose; auto. eapply Hinv; eauto.
Qed.

(* ------------------------------------------------------------------ C36 *)
Section Linear.
  Variable squad : list R -> list quat -> R -> res quat.
  Variable s : state.
  Hypothesis HR : reachable s.
  Hypothesis Htot : squad_total squad.
  Hypothesis Hun : squad_unit squad.

  (** A looked-up translation, represented in another frame. *)
  Lemma trans_proper i j m to tr t' tts : frame s i -> frame s m -> denotes s to j -> good_way s m i -> good_way s i j ->
    lookup_transform squad s m (PFrame i) = Ok tr ->
    transform_vectors squad s i (tr_t tr) to (-1) (Some 0%Z) (option_map stamps_nd (tr_ts tr)) = Ok (t', tts) ->
    enough tts -> proper (t', tts).
  Proof.
    intros Hi Hm Hj Gm Gj Hl Hv Hen. pose proof (denotes_frame s to j HR Hj) as Fj.
    pose proof (lookup_kinds squad s HR Hun m i tr Hm Hi Gm Hl) as K. destruct (tr_ts tr) as [ts|] eqn:Ets; cbn [option_map] in Hv.
    - destruct K as (Hinc & rows & -> & Lr & Hrow). assert (St : shp (tr_t (TrRows ts rows)) = [List.length ts; 3%nat]) by reflexivity.
      destruct (vectors_few squad s i to _ ts t' tts St Hv) as (l & -> & Hle). specialize (Hen l eq_refl).
      assert (H2 : two_up ts) by (split; auto; lia).
      destruct (vectors_rows squad s HR Htot Hun i to j _ ts Hi Hj Gj H2 St) as (o & l' & E & So & Hr & _).
      rewrite Hv in E. injection E as <- <-. eapply range_proper; eauto.
    - destruct K as (t & r & ->). change (tr_t (TrStatic t r)) with (point t) in Hv.
      destruct (C18_lookup_succeeds squad s i j HR Htot Hun Hi Fj (proj1 Gj) (proj2 Gj)) as (tj & Ej).
      assert (Ej' : lookup_transform squad s i to = Ok tj).
      { rewrite <- Ej. unfold lookup_transform. rewrite (denotes_resolve s to j Hj), (denotes_resolve s (PFrame j) j (or_introl (conj eq_refl Fj))). reflexivity. }
      pose proof (lookup_kinds squad s HR Hun i j tj Hi Fj Gj Ej) as Kj. destruct (tr_ts tj) as [l|] eqn:El.
      + destruct Kj as (Hinc & rows & -> & _).
        destruct (C22_single squad s i to j l rows HR Hun Hi Hj (good_unit _ _ _ Gj) Ej' t q1) as (op & ov & oq & _ & _ & E & So & _).
        rewrite Hv in E. injection E as <- ->. specialize (Hen l eq_refl). split; [exact So|]. split; auto.
      + destruct Kj as (t2 & r2 & ->).
        destruct (C22_static_vectors squad s i to j t2 r2 (point t) [] HR Hi Hj Ej' eq_refl) as (o & E & So & _).
        rewrite Hv in E. injection E as <- ->. exact So.
  Qed.

  (** What the code computes, given the velocities and the translation. *)
  Definition finish_linear i arr to ts (lin ang : nd R) (lts ats : option (list R)) (tr : transf) : res (nd R * option (list R)) :=
    '(a, o) <- transform_vectors squad s i arr to (-1) (Some 0%Z) (Some (stamps_nd ts)) ;;
    '(t, t_ts) <- transform_vectors squad s i (tr_t tr) to (-1) (Some 0%Z) (option_map stamps_nd (tr_ts tr)) ;;
    '(bs, o') <- match_arrays squad [(a, o); (lin, lts); (ang, ats); (t, t_ts)] ;;
    match bs with
    | [a; l; g; t] => al <- op2 Rplus a l ;; c <- np_cross g t ;; out <- op2 Rplus al c ;; Ok (out, o')
    | _ => Raise ValueError
    end.
  Lemma linear_sum i to j arr ts lin ang lts ats tr t' tts : frame s i -> denotes s to j -> good_way s i j -> two_up ts ->
    two_in_range s i j ts -> shp arr = [List.length ts; 3%nat] -> proper (lin, lts) -> proper (ang, ats) -> proper (t', tts) ->
    transform_vectors squad s i (tr_t tr) to (-1) (Some 0%Z) (option_map stamps_nd (tr_ts tr)) = Ok (t', tts) ->
    exists out l, finish_linear i arr to ts lin ang lts ats tr = Ok (out, Some l) /\ shp out = [List.length l; 3%nat] /\
      kept_samples s i j ts [lts; ats; tts] l /\
      forall k x, nth_error l k = Some x -> exists m t r v w p, nth_error ts m = Some x /\ maps_at squad s x i j t r /\
         value_at lin lts x v /\ value_at ang ats x w /\ value_at t' tts x p /\
         vec_at out [k] = vadd (vadd (srot r (vec_at arr [m])) v) (vcross w p).
  Proof.
    intros Hi Hj Hg H2 Hr2 Hs Pl Pw Pt Ht. unfold finish_linear.
    destruct (vectors_rows squad s HR Htot Hun i to j arr ts Hi Hj Hg H2 Hs) as (a & l0 & Ev & Sa & Hr & Ha).
    rewrite Ev, Ht. cbn [bind]. pose proof (two_length _ _ _ _ _ Hr2 Hr) as L0. destruct H2 as (Hinc & H2).
    pose proof (range_proper s i j ts a l0 Hr Hinc Sa L0) as Pa.
    destruct (match_proper squad a l0 [(lin, lts); (ang, ats); (t', tts)]) as (bs & l & Em & Hf & Hl & Lb & Hb).
    { constructor; [apply Pa|]. constructor; [apply Pl|]. constructor; [apply Pw|]. constructor; [apply Pt|]. constructor. }
    rewrite Em. cbn [bind]. destruct bs as [|b1 [|b2 [|b3 [|b4 [|? ?]]]]]; cbn in Lb; try lia.
    destruct (Hb 0%nat _ _ eq_refl eq_refl) as (S1 & V1). destruct (Hb 1%nat _ _ eq_refl eq_refl) as (S2 & V2).
    destruct (Hb 2%nat _ _ eq_refl eq_refl) as (S3 & V3). destruct (Hb 3%nat _ _ eq_refl eq_refl) as (S4 & V4). cbn [fst snd] in V1, V2, V3, V4.
    destruct (add_rows b1 b2 (List.length l) S1 S2) as (c & Ec & Sc & Vc). rewrite Ec. cbn [bind].
    destruct (cross_rows b3 b4 (List.length l) S3 S4) as (d & Ed & Sd & Vd). rewrite Ed. cbn [bind].
    destruct (add_rows c d (List.length l) Sc Sd) as (e & Ee & Se & Ve). rewrite Ee. cbn [bind].
    exists e, l. split; [reflexivity|]. split; [exact Se|].
    split; [exact (keep_both s i j ts l0 l [(lin, lts); (ang, ats); (t', tts)] Hr Hf Hl)|].
    intros k x Hk. pose proof (nth_lt _ _ _ Hk) as Lk. rewrite (Ve k Lk), (Vc k Lk), (Vd k Lk).
    assert (Hin : In x l0) by (apply Hl; eapply nth_error_In; eauto). apply In_nth_error in Hin as (m0 & Hm0).
    destruct (Ha m0 x Hm0) as (m & t & r & Hm & Hmap & Er). exists m, t, r, (vec_at b2 [k]), (vec_at b3 [k]), (vec_at b4 [k]).
    split; auto. split; auto. split; [auto|]. split; [auto|]. split; [auto|]. do 2 f_equal. rewrite <- Er.
    apply (value_at_sample a l0 x _ m0); [apply Pa|auto|]. apply V1; auto.
  Qed.
End Linear.

(** C36, what="reference_frame".  oM is the position of the moving frame in frame i,
    arr its velocity in i; (oR, qR) is the motion of i in the new reference frame j.
    If arr, the looked-up twist of i in j and the looked-up translation are true at the
    times ts, the result is the velocity in j of the moving frame's origin. *)
Theorem C36_reference_frame : forall squad deriv s i to j mf m arr ts lin ang wts tr t' tts (oM oR : R -> vec3) (qR : R -> quat),
  reachable s -> squad_total squad -> squad_unit squad -> frame s i -> denotes s to j -> to <> PName String.EmptyString ->
  denotes s mf m -> good_way s i j -> good_way s m i -> two_up ts -> two_in_range s i j ts -> shp arr = [List.length ts; 3%nat] ->
  lookup_twist squad deriv s i (Some to) (Some to) true true = Ok (lin, ang, Some wts) -> enough wts ->
  lookup_transform squad s m (PFrame i) = Ok tr ->
  transform_vectors squad s i (tr_t tr) to (-1) (Some 0%Z) (option_map stamps_nd (tr_ts tr)) = Ok (t', tts) -> enough tts ->
  oriented squad s i j ts qR ->
  (forall n x, nth_error ts n = Some x -> vderiv oM x (vec_at arr [n])) ->
  (forall x v, In x ts -> value_at lin wts x v -> vderiv oR x v) ->
  (forall x w, In x ts -> value_at ang wts x w -> space_rate qR x w) ->
  (forall x p, In x ts -> value_at t' tts x p -> p = srot (qR x) (oM x)) ->
  exists out l,
    transform_linear_velocity squad deriv s i arr to WReference (Some mf) None (-1) (Some 0%Z) (Some (stamps_nd ts)) = Ok (out, Some l) /\
    shp out = [List.length l; 3%nat] /\ kept_samples s i j ts [wts; wts; tts] l /\
    forall k x, nth_error l k = Some x -> vderiv (fun y => vadd (oR y) (srot (qR y) (oM y))) x (vec_at out [k]).
Proof.
  intros squad deriv s i to j mf m arr ts lin ang wts tr t' tts oM oR qR HR Htot Hun Hi Hj Hne Hmf Hg Gm H2 Hr2 Hs Hw Hen Htr Ht Hent
    (UR & HqR) Harr Hlin Hang Htrue.
  pose proof (denotes_frame s to j HR Hj) as Fj. pose proof (denotes_frame s mf m HR Hmf) as Fm.
  assert (Gjj : good_way s j j).
  { split; [|intros k [(A & B)|(A & B)]; contradiction]. destruct Hg as ((rt & A & B) & _). exists rt. auto. }
  destruct (twist_proper squad s HR Htot Hun deriv i to to j j lin ang (Some wts) Hi Hj Hj Hne Hne Hg Hg Gjj Hw) as (wts' & E & Hp & _).
  injection E as <-. destruct (Hp Hen) as (Pl & Pa).
  pose proof (trans_proper squad s HR Htot Hun i j m to tr t' tts Hi Fm Hj Gm Hg Htr Ht Hent) as Pt.
  destruct (linear_sum squad s HR Htot Hun i to j arr ts lin ang wts wts tr t' tts Hi Hj Hg H2 Hr2 Hs Pl Pa Pt Ht) as (out & l & Eo & So & Hk & Ho).
  exists out, l. split.
  { unfold transform_linear_velocity. rewrite Hw. cbn [bind]. rewrite (denotes_resolve s mf m Hmf). cbn [bind]. rewrite Htr. exact Eo. }
  split; [exact So|]. split; [exact Hk|].
  intros k x Hx. destruct (Ho k x Hx) as (n & t & r & v & w & p & Hn & Hmap & Hv & Hw' & Hp' & ->).
  assert (Hin : In x ts) by (eapply nth_error_In; eauto).
  rewrite (HqR x t r Hin Hmap), (Htrue x p Hin Hp').
  eapply vderiv_eq; [|apply vderiv_add; [apply (Hlin x v Hin Hv)|apply (space_moving qR oM x w _ (Hang x w Hin Hw') (Harr n x Hn))]].
  apply vec3_eq; cbn; ring.
Qed.
(** C36, what="moving_frame".  (oI, qI) is the motion of frame i in the reference frame
    R, (oJ, qJ) that of the new moving frame j in i; arr is the velocity of i in R in the
    axes of i.  The result is the velocity in R of the origin of j, in the axes of j. *)
Theorem C36_moving_frame : forall squad deriv s i to j ref jr arr ts lin ang lts ats tr t' tts (oI oJ : R -> vec3) (qI qJ : R -> quat),
  reachable s -> squad_total squad -> squad_unit squad -> frame s i -> denotes s to j ->
  denotes s ref jr -> ref <> PName String.EmptyString ->
  good_way s i j -> good_way s j i -> good_way s i jr -> two_up ts -> two_in_range s i j ts -> shp arr = [List.length ts; 3%nat] ->
  lookup_linear_velocity squad s j (Some (PFrame i)) (Some (PFrame j)) true true = Ok (lin, Some lts) -> enough lts ->
  lookup_angular_velocity squad deriv s i (Some ref) (Some (PFrame j)) true true = Ok (ang, Some ats) -> enough ats ->
  lookup_transform squad s j (PFrame i) = Ok tr ->
  transform_vectors squad s i (tr_t tr) (PFrame j) (-1) (Some 0%Z) (option_map stamps_nd (tr_ts tr)) = Ok (t', tts) -> enough tts ->
  (forall x, hunit (qI x)) -> (forall x, hunit (qJ x)) ->
  (forall x t r, In x ts -> maps_at squad s x i j t r -> forall v, srot (qJ x) (srot r v) = v) ->
  (forall n x, nth_error ts n = Some x -> vderiv oI x (srot (qI x) (vec_at arr [n]))) ->
  (forall x v, In x ts -> value_at lin lts x v -> vderiv oJ x (srot (qJ x) v)) ->
  (forall x w, In x ts -> value_at ang ats x w -> body_rate qI x (srot (qJ x) w)) ->
  (forall x p, In x ts -> value_at t' tts x p -> srot (qJ x) p = oJ x) ->
  exists out l,
    transform_linear_velocity squad deriv s i arr to WMoving None (Some ref) (-1) (Some 0%Z) (Some (stamps_nd ts)) = Ok (out, Some l) /\
    shp out = [List.length l; 3%nat] /\ kept_samples s i j ts [lts; ats; tts] l /\
    forall k x, nth_error l k = Some x ->
      vderiv (fun y => vadd (oI y) (srot (qI y) (oJ y))) x (srot (hmul (qI x) (qJ x)) (vec_at out [k])).
Proof.
  intros squad deriv s i to j ref jr arr ts lin ang lts ats tr t' tts oI oJ qI qJ HR Htot Hun Hi Hj Href Hne Hg Hg' Gr H2 Hr2 Hs
    Hl Henl Hw Hena Htr Ht Hent UI UJ Hinv Harr Hlin Hang Htrue.
  pose proof (denotes_frame s to j HR Hj) as Fj.
  assert (Dj : denotes s (PFrame j) j) by (left; auto). assert (Di : denotes s (PFrame i) i) by (left; auto).
  destruct (ang_proper squad s HR Htot Hun deriv i ref (PFrame j) jr j ang (Some ats) Hi Href Dj Hne ltac:(discriminate) Gr Hg Hw) as (ats' & E & Pa & _).
  injection E as <-. specialize (Pa Hena).
  destruct (lin_proper squad s HR Htot Hun j (PFrame i) (PFrame j) i j lin (Some lts) Fj Di Dj ltac:(discriminate) ltac:(discriminate) Hg' Hg Hl) as (lts' & E & Pl & _).
  injection E as <-. specialize (Pl Henl).
  pose proof (trans_proper squad s HR Htot Hun i j j (PFrame j) tr t' tts Hi Fj Dj Hg' Hg Htr Ht Hent) as Pt.
  destruct (linear_sum squad s HR Htot Hun i (PFrame j) j arr ts lin ang lts ats tr t' tts Hi Dj Hg H2 Hr2 Hs Pl Pa Pt Ht) as (out & l & Eo & So & Hk & Ho).
  exists out, l. split.
  { unfold transform_linear_velocity. rewrite (denotes_resolve s to j Hj). cbn [bind]. rewrite Hl. cbn [bind unpack2 fst snd]. rewrite Hw. cbn [bind unpack2 fst snd].
    rewrite Htr. exact Eo. }
  split; [exact So|]. split; [exact Hk|].
  intros k x Hx. destruct (Ho k x Hx) as (n & t & r & v & w & p & Hn & Hmap & Hv & Hw' & Hp' & ->).
  assert (Hin : In x ts) by (eapply nth_error_In; eauto).
  assert (N : forall q, hunit q -> hn2 q <> 0) by (intros q; unfold hunit; lra).
  eapply vderiv_eq; [|apply vderiv_add; [apply (Harr n x Hn)|apply (body_moving qI oJ x _ _ (Hang x w Hin Hw') (Hlin x v Hin Hv))]].
  rewrite srot_hmul by auto. rewrite <- srot_add. f_equal. rewrite !srot_add, <- srot_cross by auto. rewrite (Hinv x t r Hin Hmap).
  rewrite (Htrue x p Hin Hp'). apply vec3_eq; cbn; ring.
Qed.

(* ------------------------------------------------------------------ what the lookups return *)
Lemma sorted_seq G n : StronglySorted lt G -> (forall m, In m G <-> (m < n)%nat) -> G = seq 0 n.
Proof.
  intros HG Hin. apply (List.nth_ext _ _ O O).
  - apply Nat.le_antisymm.
    + apply NoDup_incl_length.
      * clear Hin. induction HG as [|a G HS IH HF]; constructor; auto. rewrite Forall_forall in HF. intros H. apply HF in H. lia.
      * intros m Hm. apply in_seq. apply Hin in Hm. lia.
    + apply NoDup_incl_length; [apply seq_NoDup|]. intros m Hm. apply in_seq in Hm. apply Hin. lia.
  - assert (Hlen : List.length G = n).
    { apply Nat.le_antisymm.
      - rewrite <- (seq_length n 0). apply NoDup_incl_length.
        + clear Hin. induction HG as [|a G HS IH HF]; constructor; auto. rewrite Forall_forall in HF. intros H. apply HF in H. lia.
        + intros m Hm. apply in_seq. apply Hin in Hm. lia.
      - rewrite <- (seq_length n 0) at 1. apply NoDup_incl_length; [apply seq_NoDup|]. intros m Hm. apply in_seq in Hm. apply Hin. lia. }
    intros k Hk. rewrite seq_nth by lia. cbn.
    assert (HL : forall i j, (i < j < List.length G)%nat -> (nth i G O < nth j G O)%nat).
    { clear -HG. induction HG as [|a G HS IH HF]; cbn; intros i j Hij; [lia|]. destruct j as [|j]; [lia|]. destruct i as [|i].
      - rewrite Forall_forall in HF. apply HF. apply nth_In. lia.
      - apply IH. lia. }
    assert (Hup : forall i, (i < List.length G)%nat -> (i <= nth i G O)%nat).
    { induction i as [|i IHi]; intros Hi; [lia|]. specialize (IHi ltac:(lia)). specialize (HL i (S i) ltac:(lia)). lia. }
    assert (Hdn : forall d i, (i + d = List.length G - 1)%nat -> (i < List.length G)%nat -> (nth i G O <= i)%nat).
    { induction d as [|d IHd]; intros i Hd Hi.
      - assert (X : (nth i G O < n)%nat) by (apply Hin, nth_In; auto). lia.
      - specialize (IHd (S i) ltac:(lia) ltac:(lia)). specialize (HL i (S i) ltac:(lia)). lia. }
    specialize (Hup k Hk). specialize (Hdn (List.length G - 1 - k)%nat k ltac:(lia) Hk). lia.
Qed.

(** lookup_angular_velocity between frames in relative motion, with samples of the
    orientation curve q of frame i in the reference frame and a differentiator that is
    exact on them: the true angular velocity, in the axes of the representation frame. *)
Theorem C34_lookup : forall squad deriv s i ref rep j k ts rows allow (q dq : R -> quat),
  reachable s -> squad_total squad -> squad_unit squad -> frame s i -> denotes s ref j -> denotes s rep k ->
  ref <> PName String.EmptyString -> rep <> PName String.EmptyString -> good_way s i j -> good_way s i k ->
  lookup_transform squad s i ref = Ok (TrRows ts rows) -> (2 <= List.length ts)%nat ->
  (forall x, hunit (q x)) -> (forall x, qderiv q x (dq x)) ->
  (forall m x t r, nth_error ts m = Some x -> nth_error rows m = Some (t, r) -> r = q x) ->
  (forall c, (c < 4)%nat -> exact_on deriv ts (seq 0 (List.length ts)) (fun x => comp4 c (q x)) (fun x => comp4 c (dq x))) ->
  exists w l, lookup_angular_velocity squad deriv s i (Some ref) (Some rep) allow true = Ok (w, Some (Some l)) /\
    shp w = [List.length l; 3%nat] /\ kept_samples s i k ts [] l /\
    forall n x, nth_error l n = Some x -> exists t r wb, maps_at squad s x i k t r /\ body_rate q x wb /\
      vec_at w [n] = srot r wb.
Proof.
  intros squad deriv s i ref rep j k ts rows allow q dq HR Htot Hun Hi Hj Hk Nj Nk Gj Gk Hl Hn Hu Hd Hrow Hex.
  pose proof (denotes_frame s _ _ HR Hj) as Fj. pose proof (denotes_frame s _ _ HR Hk) as Fk.
  assert (Hl' : lookup_transform squad s i (PFrame j) = Ok (TrRows ts rows)).
  { rewrite <- Hl. unfold lookup_transform. rewrite (denotes_resolve s ref j Hj), (denotes_resolve s (PFrame j) j (or_introl (conj eq_refl Fj))). reflexivity. }
  pose proof (lookup_kinds squad s HR Hun i j _ Hi Fj Gj Hl') as K. cbn [tr_ts] in K. destruct K as (Hinc & rows' & Er & Lr & _).
  injection Er as <-.
  set (a := tr_r_opt (TrRows ts rows)).
  assert (Hq : forall m, (m < List.length ts)%nat -> rowq rows m = q (nth m ts 0)).
  { intros m Hm. unfold rowq. destruct (nth_len rows m ltac:(lia)) as ((t & r) & E). rewrite (nth_error_nth _ _ _ E). cbn.
    apply (Hrow m _ t r); auto. apply nth_error_nth'; auto. }
  assert (Nn : forall m, ~ nan_at a 0 m) by (intros m (ix & _ & _ & H); discriminate).
  destruct (C34_body_rate deriv a ts (-1) 0 1 0 (fun _ => q) (fun _ => dq)) as (b & Eb & Sb & Hb).
  - unfold ndim; cbn; lia.
  - unfold ndim; cbn; lia.
  - lia.
  - right. cbn. lia.
  - left. reflexivity.
  - reflexivity.
  - reflexivity.
  - auto.
  - auto.
  - intros ix Hix _. cbn in Hix. inversion Hix as [|i0 n0 ix0 s0 H0 Hix0]; subst. inversion Hix0 as [|i1 n1 ix1 s1 H1 Hix1]; subst.
    inversion Hix1; subst. cbn. f_equal. rewrite Hq by auto. reflexivity.
  - intros G c jj HS HG Hjj. rewrite (sorted_seq G (List.length ts)); auto. intros m. rewrite HG. pose proof (Nn m). tauto.
  - assert (Hnn : exists ang, no_nan b = Ok ang /\ shp ang = [List.length ts; 3%nat] /\
      forall m, (m < List.length ts)%nat -> body_rate q (nth m ts 0) (vec_at ang [m])).
    { unfold no_nan. destruct (existsb _ _) eqn:E.
      - exfalso. apply existsb_exists in E as (ix & Hix & E). apply in_indices in Hix. rewrite Sb in Hix. cbn in Hix.
        inversion Hix as [|i0 n0 ix0 s0 H0 Hix0]; subst. inversion Hix0 as [|i1 n1 ix1 s1 H1 Hix1]; subst. inversion Hix1; subst.
        destruct (Hb [i0; 0%nat]) as (_ & Hg). { repeat constructor; auto; lia. }
        destruct Hg as (w & Hw & _); [apply Nn|]. specialize (Hw i1 H1). cbn in Hw. rewrite Hw in E. discriminate.
      - eexists. split; [reflexivity|]. split; [cbn [shp]; rewrite Sb; reflexivity|]. intros m Hm.
        destruct (Hb [m; 0%nat]) as (_ & Hg). { repeat constructor; auto; lia. }
        destruct Hg as (w & Hw & Hbr); [apply Nn|]. cbn in Hbr.
        replace (vec_at _ [m]) with w; auto. unfold vec_at. cbn [dat app].
        pose proof (Hw 0%nat ltac:(lia)) as W0. pose proof (Hw 1%nat ltac:(lia)) as W1. pose proof (Hw 2%nat ltac:(lia)) as W2.
        cbn in W0, W1, W2. rewrite W0, W1, W2. destruct w; reflexivity. }
    destruct Hnn as (ang & En & Sa & Ha).
    destruct (vectors_rows squad s HR Htot Hun i (PFrame k) k ang ts Hi (or_introl (conj eq_refl Fk)) Gk (conj Hinc Hn) Sa) as (w & l & Ev & Sw & Hr & Hw).
    exists w, l. split.
    { unfold lookup_angular_velocity. rewrite (resolve_ref_some s i ref j Hj Nj), (resolve_ref_some s i rep k Hk Nk). cbn [bind]. rewrite Hl'. cbn [bind tr_ts].
      fold a. rewrite Eb. cbn [bind]. rewrite En. cbn [bind]. rewrite Ev. reflexivity. }
    split; auto. split.
    { apply (keep_both s i k ts l l []); auto.
      - exists (fun _ => true). clear. induction l; cbn; congruence.
      - intros x. split; [intros H; split; auto; intros p t' []|tauto]. }
    intros n x Hx. destruct (Hw n x Hx) as (m & t & r & Hm & Hmap & E). exists t, r, (vec_at ang [m]). split; auto. split; auto.
    pose proof (nth_lt _ _ _ Hm) as Lm. apply (nth_error_nth _ _ 0) in Hm. rewrite <- Hm. apply Ha; auto.
Qed.

(** lookup_linear_velocity of a frame whose samples move uniformly in the reference
    frame: that velocity, in the axes of the representation frame. *)
Theorem C32_lookup : forall squad s i ref rep j k ts rows allow (p v : vec3),
  reachable s -> squad_total squad -> squad_unit squad -> frame s i -> denotes s ref j -> denotes s rep k ->
  ref <> PName String.EmptyString -> rep <> PName String.EmptyString -> good_way s i j -> good_way s j k ->
  lookup_transform squad s i ref = Ok (TrRows ts rows) -> (2 <= List.length ts)%nat ->
  (forall m x t r, nth_error ts m = Some x -> nth_error rows m = Some (t, r) -> t = vadd p (vscale x v)) ->
  exists w l, lookup_linear_velocity squad s i (Some ref) (Some rep) allow true = Ok (w, Some (Some l)) /\
    shp w = [List.length l; 3%nat] /\ kept_samples s j k ts [] l /\
    forall n x, nth_error l n = Some x -> exists t r, maps_at squad s x j k t r /\ vec_at w [n] = srot r v.
Proof.
  intros squad s i ref rep j k ts rows allow p v HR Htot Hun Hi Hj Hk Nj Nk Gj Gk Hl Hn Hrow.
  pose proof (denotes_frame s _ _ HR Hj) as Fj. pose proof (denotes_frame s _ _ HR Hk) as Fk.
  assert (Hl' : lookup_transform squad s i (PFrame j) = Ok (TrRows ts rows)).
  { rewrite <- Hl. unfold lookup_transform. rewrite (denotes_resolve s ref j Hj), (denotes_resolve s (PFrame j) j (or_introl (conj eq_refl Fj))). reflexivity. }
  pose proof (lookup_kinds squad s HR Hun i j _ Hi Fj Gj Hl') as K. cbn [tr_ts] in K. destruct K as (Hinc & rows' & Er & Lr & _).
  injection Er as <-.
  assert (Hq : forall m, (m < List.length ts)%nat -> rowv rows m = vadd p (vscale (nth m ts 0) v)).
  { intros m Hm. unfold rowv. destruct (nth_len rows m ltac:(lia)) as ((t & r) & E). rewrite (nth_error_nth _ _ _ E). cbn [fst].
    apply (Hrow m _ t r); auto. apply nth_error_nth'; auto. }
  assert (Hg : exists g, gradient_nd (tr_t (TrRows ts rows)) ts 0 = Ok g /\ shp g = [List.length ts; 3%nat] /\
    forall m, (m < List.length ts)%nat -> vec_at g [m] = v).
  { unfold gradient_nd. cbn [tr_t shp nth]. rewrite grad_check_ok by auto. cbn [bind]. eexists. split; [reflexivity|]. split; [reflexivity|].
    intros m Hm. unfold vec_at. cbn [dat app nth setn tr_t hd].
    apply vec3_eq; cbn [vx vy vz]; cbn [tr_t dat hd nth comp3];
      [apply (grad_line ts _ (vx p) (vx v) m)|apply (grad_line ts _ (vy p) (vy v) m)|apply (grad_line ts _ (vz p) (vz v) m)];
      auto; intros n' Hn'; rewrite (Hq n' Hn'); cbn; ring. }
  destruct Hg as (g & Eg & Sg & Hg).
  destruct (vectors_rows squad s HR Htot Hun j (PFrame k) k g ts Fj (or_introl (conj eq_refl Fk)) Gk (conj Hinc Hn) Sg) as (w & l & Ev & Sw & Hr & Hw).
  exists w, l. split.
  { unfold lookup_linear_velocity. rewrite (resolve_ref_some s i ref j Hj Nj), (resolve_ref_some s i rep k Hk Nk). cbn [bind]. rewrite Hl'. cbn [bind tr_ts].
    rewrite Eg. cbn [bind]. rewrite Ev. reflexivity. }
  split; auto. split.
  { apply (keep_both s j k ts l l []); auto.
    - exists (fun _ => true). clear. induction l; cbn; congruence.
    - intros x. split; [intros H; split; auto; intros p' t' []|tauto]. }
  intros n x Hx. destruct (Hw n x Hx) as (m & t & r & Hm & Hmap & E). exists t, r. split; auto. rewrite E, Hg; auto. eapply nth_lt; eauto.
Qed.

(* ------------------------------------------------------------------ C37 *)
(** Frames at rest relative to each other: ValueError without allow_static; with it,
    zero velocities.  But a timestamps element (None) is returned in any case. *)
Theorem C37_static : forall squad deriv s i ref rep j k t r allow ret,
  denotes s ref j -> denotes s rep k -> ref <> PName String.EmptyString -> rep <> PName String.EmptyString ->
  lookup_transform squad s i (PFrame j) = Ok (TrStatic t r) ->
  lookup_linear_velocity squad s i (Some ref) (Some rep) allow ret = (if allow then Ok (zeros3, Some None) else Raise ValueError) /\
  lookup_angular_velocity squad deriv s i (Some ref) (Some rep) allow ret = (if allow then Ok (zeros3, Some None) else Raise ValueError) /\
  lookup_twist squad deriv s i (Some ref) (Some rep) allow ret = (if allow then Ok (zeros3, zeros3, Some None) else Raise ValueError).
Proof.
  intros squad deriv s i ref rep j k t r allow ret Hj Hk Nj Nk Hl.
  unfold lookup_linear_velocity, lookup_angular_velocity, lookup_twist.
  rewrite (resolve_ref_some s i ref j Hj Nj), (resolve_ref_some s i rep k Hk Nk). cbn [bind]. rewrite Hl. cbn [bind tr_ts].
  destruct allow; auto.
Qed.
(** "Timestamps iff asked for" fails: a static lookup with allow_static and without
    return_timestamps returns them. *)
Theorem C37_refuted : exists squad deriv s i ref w, reachable s /\
  lookup_linear_velocity squad s i (Some ref) (Some ref) true false = Ok (w, Some None) /\
  lookup_angular_velocity squad deriv s i (Some ref) (Some ref) true false = Ok (w, Some None) /\
  lookup_twist squad deriv s i (Some ref) (Some ref) true false = Ok (w, w, Some None).
Proof.
  destruct C13_example as (t & r & _ & Hd & Hl). exists hold_squad, deriv_ex, ex_lit, 2%nat, (PFrame 3), zeros3.
  split; [apply ex_lit_reachable|].
  exact (C37_static hold_squad deriv_ex ex_lit 2 (PFrame 3) (PFrame 3) 3 3 t r true false Hd Hd ltac:(discriminate) ltac:(discriminate) Hl).
Qed.
(** It holds between frames in relative motion.  Missing: static frames (refuted). *)
Theorem C37_moving_partial : forall squad deriv s i ref rep j k l rows allow ret,
  denotes s ref j -> denotes s rep k -> ref <> PName String.EmptyString -> rep <> PName String.EmptyString ->
  lookup_transform squad s i (PFrame j) = Ok (TrRows l rows) ->
  (forall w o, lookup_linear_velocity squad s i (Some ref) (Some rep) allow ret = Ok (w, o) -> (o <> None <-> ret = true)) /\
  (forall w o, lookup_angular_velocity squad deriv s i (Some ref) (Some rep) allow ret = Ok (w, o) -> (o <> None <-> ret = true)) /\
  (forall v w o, lookup_twist squad deriv s i (Some ref) (Some rep) allow ret = Ok (v, w, o) -> (o <> None <-> ret = true)).
Proof.
  intros squad deriv s i ref rep j k l rows allow ret Hj Hk Nj Nk Hl.
  unfold lookup_linear_velocity, lookup_angular_velocity, lookup_twist.
  rewrite (resolve_ref_some s i ref j Hj Nj), (resolve_ref_some s i rep k Hk Nk). cbn [bind]. rewrite Hl. cbn [bind tr_ts].
  assert (G : forall A B (o : option A) (b : B), (if ret then Some b else None) = Some b \/ (if ret then Some b else None) = None) by (intros; destruct ret; auto).
  split; [|split].
  - intros w o H. apply bind_ok in H as (g & _ & H). apply bind_ok in H as (r & _ & H). injection H as _ <-. destruct ret; split; congruence.
  - intros w o H. apply bind_ok in H as (e & _ & H). apply bind_ok in H as (g & _ & H). apply bind_ok in H as (r & _ & H). injection H as _ <-. destruct ret; split; congruence.
  - intros v w o H. apply bind_ok in H as (g & _ & H). apply bind_ok in H as (e & _ & H). apply bind_ok in H as (g' & _ & H).
    apply bind_ok in H as (r & _ & H). apply bind_ok in H as (r' & _ & H). apply bind_ok in H as ((bs & o') & _ & H).
    destruct bs as [|? [|? [|? ?]]]; try discriminate. injection H as _ _ <-. destruct ret; split; congruence.
Qed.
(** And the values do not depend on the flag. *)
Theorem C37_values : forall squad deriv s i ref rep allow,
  let val {A} (r : res (A * option (option (list R)))) := match r with Ok (w, _) => Ok w | Raise e => Raise e end in
  val (lookup_linear_velocity squad s i ref rep allow true) = val (lookup_linear_velocity squad s i ref rep allow false) /\
  val (lookup_angular_velocity squad deriv s i ref rep allow true) = val (lookup_angular_velocity squad deriv s i ref rep allow false) /\
  val (lookup_twist squad deriv s i ref rep allow true) = val (lookup_twist squad deriv s i ref rep allow false).
Proof.
  intros. unfold lookup_linear_velocity, lookup_angular_velocity, lookup_twist.
  destruct (resolve_ref s i ref) as [j|e]; cbn [bind]; auto. destruct (resolve_ref s i rep) as [k|e]; cbn [bind]; auto.
  destruct (lookup_transform squad s i (PFrame j)) as [tr|e]; cbn [bind]; auto. destruct (tr_ts tr); [|auto].
  split; [|split].
  - destruct (gradient_nd _ _ _); cbn [bind]; auto. destruct (transform_vectors _ _ _ _ _ _ _ _); auto.
  - destruct (estimate_angular _ _ _ _ _); cbn [bind]; auto. destruct (no_nan _); cbn [bind]; auto. destruct (transform_vectors _ _ _ _ _ _ _ _); auto.
  - destruct (gradient_nd _ _ _); cbn [bind]; auto. destruct (estimate_angular _ _ _ _ _); cbn [bind]; auto. destruct (no_nan _); cbn [bind]; auto.
    destruct (transform_vectors _ _ _ _ _ _ _ _); cbn [bind]; auto. destruct (transform_vectors _ _ _ _ _ _ _ _); cbn [bind]; auto.
    destruct (match_arrays _ _) as [(bs & o)|]; cbn [bind]; auto. destruct bs as [|? [|? [|? ?]]]; auto.
Qed.

(** lookup_twist returns the two individual lookups, matched: the timestamps of the
    angular velocity that are in range of the linear one, the linear velocity
    interpolated there. *)
Theorem C37_twist : forall squad deriv s i ref rep j k allow ret lin ll ang la,
  reachable s -> squad_total squad -> squad_unit squad -> frame s i -> denotes s ref j -> denotes s rep k ->
  ref <> PName String.EmptyString -> rep <> PName String.EmptyString -> good_way s i j -> good_way s i k -> good_way s j k ->
  lookup_linear_velocity squad s i (Some ref) (Some rep) allow true = Ok (lin, Some (Some ll)) ->
  lookup_angular_velocity squad deriv s i (Some ref) (Some rep) allow true = Ok (ang, Some (Some la)) ->
  (2 <= List.length ll)%nat -> (2 <= List.length la)%nat ->
  exists lin' ang' l, lookup_twist squad deriv s i (Some ref) (Some rep) allow ret = Ok (lin', ang', if ret then Some (Some l) else None) /\
    shp lin' = [List.length l; 3%nat] /\ shp ang' = [List.length l; 3%nat] /\
    (exists f, l = filter f la) /\
    (forall x, In x l <-> In x la /\ exists a b, hd_error ll = Some a /\ nth_error ll (List.length ll - 1) = Some b /\ a <= x <= b) /\
    forall n x, nth_error l n = Some x -> value_at lin (Some ll) x (vec_at lin' [n]) /\
      forall m, nth_error la m = Some x -> vec_at ang' [n] = vec_at ang [m].
Proof.
  intros squad deriv s i ref rep j k allow ret lin ll ang la HR Htot Hun Hi Hj Hk Nj Nk Gj Gik Gk HL HA L2 A2.
  pose proof (denotes_frame s _ _ HR Hj) as Fj. pose proof (denotes_frame s _ _ HR Hk) as Fk.
  assert (PL : proper (lin, Some ll)).
  { destruct (lin_proper squad s HR Htot Hun i ref rep j k lin (Some (Some ll)) Hi Hj Hk Nj Nk Gj Gk) as (w & E & P & _).
    - unfold lookup_linear_velocity in *. rewrite (resolve_ref_some s i ref j Hj Nj), (resolve_ref_some s i rep k Hk Nk) in *. cbn [bind] in *.
      destruct (lookup_transform squad s i (PFrame j)) as [tr|]; [|discriminate]. cbn [bind] in *. destruct (tr_ts tr); [exact HL|].
      destruct allow; [exact HL|discriminate].
    - injection E as <-. apply P. intros l0 E. injection E as <-. auto. }
  assert (PA : proper (ang, Some la)).
  { destruct (ang_proper squad s HR Htot Hun deriv i ref rep j k ang (Some (Some la)) Hi Hj Hk Nj Nk Gj Gik) as (w & E & P & _).
    - unfold lookup_angular_velocity in *. rewrite (resolve_ref_some s i ref j Hj Nj), (resolve_ref_some s i rep k Hk Nk) in *. cbn [bind] in *.
      destruct (lookup_transform squad s i (PFrame j)) as [tr|]; [|discriminate]. cbn [bind] in *. destruct (tr_ts tr); [exact HA|].
      destruct allow; [exact HA|discriminate].
    - injection E as <-. apply P. intros l0 E. injection E as <-. auto. }
  assert (HF : Forall proper ((ang, Some la) :: [(lin, Some ll)])) by (constructor; [apply PA|constructor; [apply PL|constructor]]).
  destruct (match_proper squad ang la [(lin, Some ll)] HF) as (bs & l & Em & Hf & Hl & Lb & Hb).
  destruct bs as [|ba [|bl [|? ?]]]; cbn in Lb; try lia. exists bl, ba, l.
  destruct (Hb 0%nat _ _ eq_refl eq_refl) as (S1 & V1). destruct (Hb 1%nat _ _ eq_refl eq_refl) as (S2 & V2). cbn [fst snd] in V1, V2.
  split.
  { unfold lookup_linear_velocity in HL. unfold lookup_angular_velocity in HA. unfold lookup_twist.
    rewrite (resolve_ref_some s i ref j Hj Nj), (resolve_ref_some s i rep k Hk Nk) in *. cbn [bind] in *.
    destruct (lookup_transform squad s i (PFrame j)) as [tr|]; [|discriminate]. cbn [bind] in *.
    destruct (tr_ts tr) as [ts|]; [|destruct allow; discriminate].
    apply bind_ok in HL as (g & Eg & HL). apply bind_ok in HL as ((r1 & o1) & Er & HL). unfold with_ts in HL. cbn [fst snd] in HL. injection HL as -> ->.
    apply bind_ok in HA as (e & Ee & HA). apply bind_ok in HA as (n & En & HA). apply bind_ok in HA as ((r2 & o2) & Er2 & HA).
    unfold with_ts in HA. cbn [fst snd] in HA. injection HA as -> ->.
    rewrite Eg, Ee. cbn [bind]. rewrite En. cbn [bind]. rewrite Er, Er2. cbn [bind]. rewrite Em. cbn [bind]. destruct ret; reflexivity. }
  split; [exact S2|]. split; [exact S1|]. split; [exact Hf|]. split.
  { intros x. rewrite Hl. split; intros (A & B); (split; [exact A|]).
    - apply in_bounds_spec. eapply B; [left; reflexivity|reflexivity].
    - intros p t' [<-|[]] Ep. cbn in Ep. injection Ep as <-. apply in_bounds_spec. exact B. }
  intros n x Hx. split; [apply V2; auto|]. intros m Hm. eapply value_at_sample; [apply PA|exact Hm|apply V1; auto].
Qed.
