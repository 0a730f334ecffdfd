(** Properties C17-C21: lookups through moving frames. *)
From Coq Require Import Reals List String Arith Bool Lia Lra Sorted.
From Verif Require Import Base Quat SpecQuat QuatProofs NdArray Frames SpecForest
  FrameProofs WalkProofs Matcher SpecLookup LookupProofs RegistryProofs MovingProofs TimeProofs
  CtorProofs InverseProofs RouteProofs Examples PropForest PropLookup.
Import ListNotations.
Open Scope R_scope.

(** k lies between i and j: above exactly one of them. *)
Definition on_way (s : state) (i j k : nat) : Prop :=
  (ancestor (parent_of s) i k /\ ~ ancestor (parent_of s) j k) \/
  (ancestor (parent_of s) j k /\ ~ ancestor (parent_of s) i k).
Definition unit_way (s : state) (i j : nat) : Prop :=
  forall k d, on_way s i j k -> transform_of s k = Some d -> unit_data d.

(* ------------------------------------------------------------------ C17 *)
(** One row per timestamp; row k maps coordinates of the same physical point at
    the k-th timestamp.  squad_unit: squad of unit rotations is a unit rotation. *)
Theorem C17_moving_lookup : forall squad s i to j ts rows, reachable s -> squad_unit squad ->
  frame s i -> denotes s to j -> unit_way s i j ->
  lookup_transform squad s i to = Ok (TrRows ts rows) ->
  List.length rows = List.length ts /\
  forall k x t r, nth_error ts k = Some x -> nth_error rows k = Some (t, r) ->
    hunit r /\
    exists c, ancestor (parent_of s) i c /\ ancestor (parent_of s) j c /\
    forall p, exists P, coords squad s x i p c P /\ coords squad s x j (smove t r p) c P.
Proof.
  intros squad s i to j ts rows Hs Hsq Hi Hto Hu H.
  exact (lookup_rows_sound squad s i to j ts rows (reachable_Inv s Hs) (reachable_BodyOk s Hs) Hsq Hi
           (denotes_resolve s to j Hto) Hu H).
Qed.
(** A lookup never returns timestamps without rows. *)
Theorem C17_no_bare : forall squad s i to ts, reachable s -> lookup_transform squad s i to <> Ok (TrBare ts).
Proof.
  intros squad s i to ts Hs H. unfold lookup_transform in H. apply bind_ok in H as (j & _ & H).
  apply bind_ok in H as (fs & _ & H). unfold get_transformation in H. apply bind_ok in H as (o & Ho & H).
  unfold transformation_at in H. destruct o as [l|].
  - simpl in H. destruct fs as [|f fs].
    + discriminate Ho.
    + apply bind_ok in H as (? & _ & E). discriminate.
  - apply bind_ok in H as ([? ?] & _ & E). discriminate.
Qed.

Lemma increasing3 a b c : a < b -> b < c -> increasing [a; b; c].
Proof.
  intros H1 H2 i j x y Hij Hx Hy.
  destruct i as [|[|[|i]]]; simpl in Hx; try (destruct i; discriminate);
  destruct j as [|[|[|j]]]; simpl in Hy; try (destruct j; discriminate); try lia;
  injection Hx as <-; injection Hy as <-; lra.
Qed.
Lemma mov_unit k d : transform_of mov_lit k = Some d -> unit_data d.
Proof.
  intros H. destruct k as [|[|[|[|[|k]]]]]; cbn in H; try discriminate; injection H as <-; cbn [unit_data];
    repeat constructor; vcomp; lra.
Qed.
Lemma mov_well k d : transform_of mov_lit k = Some d -> well_sampled d.
Proof.
  intros H. split; [apply (mov_unit k d H)|]. destruct k as [|[|[|[|[|k]]]]]; cbn in H; try discriminate; injection H as <-; auto.
  - split; [apply increasing3; lra|simpl; lia].
  - split; [discriminate|]. simpl. rewrite (proj2 (Rlt_b_false (2 - 0) 0)); [reflexivity|lra].
Qed.
Lemma mov_root i : (i < 4)%nat -> root_of (parent_of mov_lit) i 0.
Proof.
  intros Hi. split; [|reflexivity]. destruct i as [|[|[|[|i]]]]; try lia.
  - constructor.
  - econstructor; [reflexivity|constructor].
  - econstructor; [reflexivity|]. econstructor; [reflexivity|constructor].
  - econstructor; [reflexivity|constructor].
Qed.
(** From the discrete frame d to c (static below the continuous m). *)
Example C17_example : squad_unit hold_squad /\ unit_way mov_lit 3 2 /\
  exists ts rows, lookup_transform hold_squad mov_lit 3 (PFrame 2) = Ok (TrRows ts rows).
Proof.
  split; [apply hold_squad_unit|]. split; [intros k d _ H; apply (mov_unit k d H)|].
  assert (HI : Inv mov_lit) by (apply reachable_Inv, mov_lit_reachable).
  destruct (lookup_moving_succeeds hold_squad mov_lit 3 2 HI (reachable_BodyOk _ mov_lit_reachable) hold_squad_total
    hold_squad_unit) as (tr & H).
  - unfold size; simpl; lia.
  - unfold size; simpl; lia.
  - exists 0%nat. split; apply mov_root; lia.
  - intros k Hk. 
    assert (B : forall m, (m < 4)%nat -> ancestor (parent_of mov_lit) m k -> (k < 4)%nat).
    { intros m Hm Ha. clear -Hm Ha. remember (parent_of mov_lit) as par eqn:E. induction Ha as [|m q a Hp Ha IH]; auto.
      apply IH; auto. subst par. destruct m as [|[|[|[|m]]]]; try lia; simpl in Hp; try discriminate; injection Hp as <-; lia. }
    assert (Hk4 : (k < 4)%nat) by (destruct Hk as [(Ha & _)|(Ha & _)]; [apply (B 3%nat)|apply (B 2%nat)]; auto; lia).
    destruct k as [|[|[|[|k]]]]; try lia.
    + exfalso. destruct Hk as [(_ & Hb)|(_ & Hb)]; apply Hb; apply mov_root; lia.
    + eexists. split; [reflexivity|]. apply (mov_well 1). reflexivity.
    + eexists. split; [reflexivity|]. apply (mov_well 2). reflexivity.
    + eexists. split; [reflexivity|]. apply (mov_well 3). reflexivity.
  - destruct tr as [t r|ts|ts rows]; [exfalso|exfalso; revert H; apply C17_no_bare, mov_lit_reachable|eauto].
    assert (H3 : (3 < size mov_lit)%nat) by (unfold size; simpl; lia).
    apply (lookup_static_iff hold_squad mov_lit 3 (PFrame 2) 2 t r HI H3 eq_refl) in H as (up & dn & c & gi & gj & W & G1 & _ & _).
    destruct W as (C1 & C2 & C3).
    inversion G1 as [|? ? ? ? ? ? ? E1 E2]; subst.
    + inversion C2 as [|? ? ? ? F1 F2]; subst. injection F1 as <-. inversion F2 as [|? ? ? ? F3 F4]; subst.
      injection F3 as <-. inversion F4; discriminate.
    + discriminate E2.
Qed.

(* ------------------------------------------------------------------ C18 *)
(** The timestamps of a lookup.  With a continuous frame on the way they are the
    samples of the first such frame (in the order of the walk) that lie in the
    range of every continuous frame on the way, in order; with only discrete
    frames they are the sorted union of the events. *)
Theorem C18_lookup_timestamps : forall squad s i to j ts rows, reachable s -> frame s i -> denotes s to j ->
  lookup_transform squad s i to = Ok (TrRows ts rows) ->
  exists l, route (parent_of s) i j l /\
  ((exists l1 k l2 ts0, l = (l1 ++ k :: l2)%list /\ cont_of s k = Some ts0 /\
      (forall m, In m l1 -> cont_of s m = None) /\
      (exists f, ts = filter f ts0) /\ decreasing_somewhere ts = false /\
      forall x, In x ts <-> In x ts0 /\
        forall m tm, In m l -> cont_of s m = Some tm ->
          exists a b, hd_error tm = Some a /\ nth_error tm (List.length tm - 1) = Some b /\ a <= x <= b)
   \/ ((forall m, In m l -> cont_of s m = None) /\ StronglySorted Rlt ts /\
       forall x, In x ts <-> exists m tm, In m l /\ disc_of s m = Some tm /\ In x tm)).
Proof.
  intros squad s i to j ts rows Hs Hi Hto H.
  destruct (lookup_timestamps s i to j ts rows squad (reachable_Inv s Hs) Hi (denotes_resolve s to j Hto) H) as (l & Hl & Hc).
  exists l. split; auto. destruct Hc as [(l1 & k & l2 & ts0 & E & C & Hp & Hf & Hd & Hx)|Hc]; [left|right; auto].
  exists l1, k, l2, ts0. split; [auto|split; [auto|split; [auto|split; [auto|split; [auto|]]]]].
  intros x. rewrite Hx. split; intros (A & B); split; auto; intros m tm Hm Hcm; apply in_bounds_spec; eauto.
Qed.
(** The same for any set of frames and timestamped arrays handed to the matcher;
    arrays_first chooses which samples are used. *)
Theorem C18_matcher_timestamps : forall m arrays_first o, get_timestamps m arrays_first = Ok o ->
  match o with
  | None => cont_list m = [] /\ arr_list m = [] /\ disc_list m = []
  | Some l =>
      (exists ts0 rest,
        (if arrays_first then (arr_list m ++ cont_list m)%list else (cont_list m ++ arr_list m)%list) = (ts0 :: rest)%list /\
        (exists f, l = filter f ts0) /\
        forall x, In x l <-> In x ts0 /\ forall ts, In ts (cont_list m ++ arr_list m)%list -> 
          exists a b, hd_error ts = Some a /\ nth_error ts (List.length ts - 1) = Some b /\ a <= x <= b)
      \/ (cont_list m = [] /\ arr_list m = [] /\ disc_list m <> [] /\ StronglySorted Rlt l /\
          forall x, In x l <-> exists ts, In ts (disc_list m) /\ In x ts)
  end.
Proof.
  intros m af o H. apply timestamps_spec in H. destruct o as [l|]; auto.
  destruct H as [(ts0 & rest & E & Hf & Hx)|H]; [left|right; auto]. exists ts0, rest. split; [auto|split; [auto|]].
  intros x. rewrite Hx. split; intros (A & B); split; auto; intros ts Hts; apply in_bounds_spec; auto.
Qed.
(** Hence no out-of-range error: through frames with unit rotations, where
    discrete frames have an event (in order) and continuous ones two increasing
    samples, a lookup inside one tree always succeeds. *)
Theorem C18_lookup_succeeds : forall squad s i j, reachable s -> squad_total squad -> squad_unit squad ->
  frame s i -> frame s j -> same_tree (parent_of s) i j ->
  (forall k, on_way s i j k -> exists d, transform_of s k = Some d /\ well_sampled d) ->
  exists tr, lookup_transform squad s i (PFrame j) = Ok tr.
Proof.
  intros squad s i j Hs. apply (lookup_moving_succeeds squad s i j (reachable_Inv s Hs) (reachable_BodyOk s Hs)).
Qed.
Example C18_example : squad_total hold_squad /\ squad_unit hold_squad /\
  same_tree (parent_of mov_lit) 3 2 /\
  forall k d, transform_of mov_lit k = Some d -> well_sampled d.
Proof.
  split; [apply hold_squad_total|]. split; [apply hold_squad_unit|].
  split; [exists 0%nat; split; apply mov_root; lia|exact mov_well].
Qed.

(* ------------------------------------------------------------------ C19 *)
(** A discrete frame (as many rows as timestamps, at least one) sampled at times
    l gives, for each of them, the row of the event in force. *)
Theorem C19_discrete_hold : forall squad ts t r l,
  List.length t = List.length ts -> List.length r = List.length ts -> ts <> [] ->
  exists rows, rows_from_frame squad (TMoving ts t r true) l = Ok rows /\ List.length rows = List.length l /\
  forall k x, nth_error l k = Some x ->
    exists e te re, event_in_force ts x e /\ nth_error t e = Some te /\ nth_error r e = Some re /\
      nth_error rows k = Some (te, re).
Proof. exact discrete_rows. Qed.
(** The event in force is unique. *)
Theorem C19_event_unique : forall ts x k k', event_in_force ts x k -> event_in_force ts x k' -> k = k'.
Proof. exact event_fun. Qed.
(** Every discrete frame of a reachable state has as many rows as events. *)
Theorem C19_rows : forall s i ts t r d, reachable s -> transform_of s i = Some (TMoving ts t r d) ->
  List.length t = List.length ts /\ List.length r = List.length ts.
Proof. intros s i ts t r d Hs H. exact (reachable_BodyOk s Hs i _ H). Qed.
Example C19_example : event_in_force [0; 2] 1 0 /\ event_in_force [0; 2] (-1) 0 /\ event_in_force [0; 2] 2 1.
Proof.
  split; [|split].
  - left. exists 0. repeat split; [lra|]. intros m tm Hm H. destruct m as [|[|m]]; try lia; [injection H as <-; lra|destruct m; discriminate].
  - right. repeat split; [discriminate|]. intros m tm H. destruct m as [|[|m]]; simpl in H; [injection H as <-; lra|injection H as <-; lra|destruct m; discriminate].
  - left. exists 2. repeat split; [lra|]. intros m tm Hm H. destruct m as [|[|m]]; try lia; destruct m; discriminate.
Qed.

(* ------------------------------------------------------------------ C20 *)
(** Interpolated translations: exact at the samples, on the straight line
    between neighbouring samples, defined (no NaN) everywhere in range. *)
Theorem C20_interpolation : forall ts ys l, increasing ts -> (2 <= List.length ts)%nat -> List.length ys = List.length ts ->
  (forall x, In x l -> exists a b, hd_error ts = Some a /\ nth_error ts (List.length ts - 1) = Some b /\ a <= x <= b) ->
  exists rows, interp1d lin_vec ts ys l = Ok rows /\ List.length rows = List.length l /\
  (forall k x i u, nth_error l k = Some x -> nth_error ts i = Some x -> nth_error ys i = Some u -> nth_error rows k = Some u) /\
  (forall k x i a b u v, nth_error l k = Some x -> nth_error ts i = Some a -> nth_error ts (S i) = Some b -> a <= x <= b ->
     nth_error ys i = Some u -> nth_error ys (S i) = Some v -> nth_error rows k = Some (between a b u v x)).
Proof. intros ts ys l H1 H2 H3 H4. apply interp1d_ok; auto. intros x Hx. apply in_bounds_spec. auto. Qed.
(** The translation of a continuous frame sampled at l is that interpolation. *)
Theorem C20_frame : forall squad ts t r l rows, increasing ts -> (2 <= List.length ts)%nat -> List.length t = List.length ts ->
  rows_from_frame squad (TMoving ts t r false) l = Ok rows ->
  forall k x, nth_error l k = Some x ->
    exists i a b u v q, nth_error ts i = Some a /\ nth_error ts (S i) = Some b /\ a <= x <= b /\
      nth_error t i = Some u /\ nth_error t (S i) = Some v /\ nth_error rows k = Some (between a b u v x, q) /\
      squad ts r x = Ok q.
Proof.
  intros squad ts t r l rows Hinc Hn Ht H k x Hx. simpl in H. apply bind_ok in H as (tt' & H1 & H).
  apply bind_ok in H as (rr & H2 & H). injection H as <-.
  unfold interp1d in H1. destruct (forallb (in_bounds ts) l) eqn:Eb; [|discriminate].
  rewrite forallb_forall in Eb.
  destruct (nth_len tt' k) as (y & Hy); [rewrite (traverse_length _ _ _ H1); apply (nth_lt _ _ _ Hx)|].
  destruct (nth_len rr k) as (q & Hq); [rewrite (traverse_length _ _ _ H2); apply (nth_lt _ _ _ Hx)|].
  pose proof (proj1 (traverse_nth _ _ _ _ _ H1) Hy) as (x1 & E1 & F1). assert (x1 = x) by congruence. subst x1.
  pose proof (proj1 (traverse_nth _ _ _ _ _ H2) Hq) as (x2 & E2 & F2). assert (x2 = x) by congruence. subst x2.
  destruct (interp_at_interval lin_vec ts t x y (increasing_not_decreasing ts Hinc) (Eb x (nth_error_In _ _ Hx)) F1)
    as (i & a & b & u & v & (I1 & I2 & I3 & I4) & U & V & ->).
  exists i, a, b, u, v, q. repeat split; auto; [lra|lra|]. rewrite <- lin_vec_between by lra. apply nth_combine; auto.
Qed.
Example C20_example : increasing [0;1;3] /\ between 1 3 (V3 1 0 0) (V3 1 2 0) 2 = V3 1 1 0.
Proof. split; [apply increasing3; lra|]. unfold between. vcomp. f_equal; field. Qed.

(* ------------------------------------------------------------------ C21 *)
(** s' is s with some static transforms replaced by the same transform repeated
    at timestamps. *)
Definition same_but_sampled (s s' : state) : Prop :=
  List.length (heap s') = List.length (heap s) /\
  (forall k, parent_of s' k = parent_of s k) /\
  (forall k d, transform_of s k = Some d -> exists d', transform_of s' k = Some d' /\ same_or_const d d').
(** The property fails for rotations that are not unit quaternions: the same
    chain gives (0,-1,0) with a static and (0,-3,0) with a sampled frame. *)
Theorem C21_refuted : exists s s' i j t r ts rows, reachable s /\ reachable s' /\ same_but_sampled s s' /\
  lookup_transform hold_squad s i (PFrame j) = Ok (TrStatic t r) /\
  lookup_transform hold_squad s' i (PFrame j) = Ok (TrRows ts rows) /\
  exists k row, nth_error rows k = Some row /\ row <> (t, r).
Proof.
  exists (len2_lit false), (len2_lit true), 2%nat, 0%nat, (V3 0 (-1) 0), (Qt 0 2 0 0), [0], [(V3 0 (-3) 0, Qt 0 2 0 0)].
  split; [apply len2_reachable|]. split; [apply len2_reachable|]. split.
  { split; [reflexivity|]. split.
    - intros [|[|[|k]]]; reflexivity.
    - intros k d H. destruct k as [|[|[|k]]]; cbn in H; try discriminate.
      + injection H as <-. eexists. split; [reflexivity|]. right. exists (V3 0 0 0), (Qt 0 2 0 0), [0], 1%nat, 1%nat, true. split; reflexivity.
      + injection H as <-. eexists. split; [reflexivity|]. left; reflexivity.
      + destruct k; discriminate. }
  assert (HI : Inv (len2_lit false)) by (apply reachable_Inv, len2_reachable).
  split.
  { apply (lookup_static_iff hold_squad (len2_lit false) 2 (PFrame 0) 0 _ _ HI ltac:(unfold size; simpl; lia) eq_refl).
    exists [2%nat; 1%nat], [], 0%nat, (gmul (gmul gone (V3 0 0 0, Qt 0 2 0 0)) (V3 0 1 0, Qt 1 0 0 0)), gone.
    split.
    { split; [|split].
      - econstructor; [reflexivity|]. econstructor; [reflexivity|]. constructor.
      - constructor.
      - intros a _ Ha. exact Ha. }
    split.
    { econstructor; [reflexivity|reflexivity| |].
      - vcomp. lra.
      - econstructor; [reflexivity|reflexivity| |constructor]. vcomp. lra. }
    split; [constructor|].
    unfold gmul, ginv, gone, hinv. cbn [fst snd]. vcomp. f_equal; f_equal; field. }
  split.
  { assert (Hq : qlen (Qt 0 2 0 0) = 2).
    { unfold qlen. replace (qnorm2 (Qt 0 2 0 0)) with (2 * 2) by (vcomp; ring). apply sqrt_square. lra. }
    assert (H1 : rot1 (Qt 1 0 0 0) v0 = Ok v0).
    { rewrite rot1_unit by (vcomp; ring). f_equal. apply srot_0. }
    assert (H2 : rot1 (Qt 0 2 0 0) (V3 0 1 0) = Ok (V3 0 (-3) 0)).
    { rewrite rot1_general by (vcomp; lra). rewrite Hq. f_equal. vcomp. f_equal; field. }
    assert (E0 : vadd v0 (V3 0 1 0) = V3 0 1 0) by (vcomp; f_equal; ring).
    assert (E1 : vadd (V3 0 (-3) 0) (V3 0 0 0) = V3 0 (-3) 0) by (vcomp; f_equal; ring).
    assert (E2 : qmulq (Qt 0 2 0 0) (qmulq (Qt 1 0 0 0) q1) = Qt 0 2 0 0) by (vcomp; f_equal; ring).
    unfold lookup_transform, frames_between.
    replace (resolve_rf (len2_lit true) (PFrame 0)) with (Ok 0%nat) by reflexivity. cbn [bind].
    replace (walk (len2_lit true) 2 0) with (Ok ([2%nat; 1%nat], @nil nat)) by reflexivity. cbn [bind].
    unfold traverse at 1 2. cbn [map sequence]. 
    replace (body_at (len2_lit true) 2) with (BTf (TStatic (V3 0 1 0) (Qt 1 0 0 0))) by reflexivity.
    replace (body_at (len2_lit true) 1) with (BTf (TMoving [0] [V3 0 0 0] [Qt 0 2 0 0] true)) by reflexivity.
    cbn [add_frame check_timestamps decreasing_somewhere bind List.length Nat.eqb app].
    unfold get_transformation.
    replace (get_timestamps _ true) with (Ok (Some [0])) by reflexivity. cbn [bind transformation_at m_frames foldM map].
    unfold step_rows at 1. cbn [mf_data rows_from_frame map bind combine]. unfold traverse at 1. cbn [map sequence fst snd mf_inv step_with].
    rewrite H1. cbn [bind]. rewrite E0.
    unfold step_rows at 1. cbn [mf_data rows_from_frame map bind combine hold fold_left]. unfold traverse at 1 2.
    cbn [map sequence bind hold combine fold_left fst snd]. 
    replace (if Rle_b 0 0 then V3 0 0 0 else V3 0 0 0) with (V3 0 0 0) by (destruct (Rle_b 0 0); reflexivity).
    replace (if Rle_b 0 0 then Qt 0 2 0 0 else Qt 0 2 0 0) with (Qt 0 2 0 0) by (destruct (Rle_b 0 0); reflexivity).
    unfold traverse. cbn [map sequence combine fst snd mf_inv step_with].
    rewrite H2. cbn [bind]. rewrite E1, E2. reflexivity. }
  exists 0%nat, (V3 0 (-3) 0, Qt 0 2 0 0). split; [reflexivity|]. intros H. injection H as H. lra.
Qed.
(** With unit rotations it holds.  Missing: rotations of other lengths (refuted). *)
Theorem C21_unit_partial : forall squad s s' i j t r ts rows, reachable s -> reachable s' ->
  squad_unit squad -> squad_const squad -> same_but_sampled s s' ->
  (forall k d, transform_of s' k = Some d -> unit_data d) ->
  frame s i -> frame s j ->
  lookup_transform squad s i (PFrame j) = Ok (TrStatic t r) ->
  lookup_transform squad s' i (PFrame j) = Ok (TrRows ts rows) ->
  forall k row, nth_error rows k = Some row -> row = (t, r).
Proof.
  intros squad s s' i j t r ts rows Hs Hs' Hsu Hsc (Hsz & Hp & Hd) Hu Hi Hj.
  apply (constant_moving squad s s' i j t r ts rows (reachable_Inv s Hs) (reachable_Inv s' Hs') (reachable_BodyOk s' Hs') Hsu Hsc Hsz Hi Hj Hp Hd Hu).
Qed.
Example C21_example : squad_unit hold_squad /\ squad_const hold_squad /\ same_but_sampled (len2_lit false) (len2_lit true).
Proof.
  split; [apply hold_squad_unit|]. split; [apply hold_squad_const|]. split; [reflexivity|]. split.
  - intros [|[|[|k]]]; reflexivity.
  - intros k d H. destruct k as [|[|[|k]]]; cbn in H; try discriminate.
    + injection H as <-. eexists. split; [reflexivity|]. right. exists (V3 0 0 0), (Qt 0 2 0 0), [0], 1%nat, 1%nat, true. split; reflexivity.
    + injection H as <-. eexists. split; [reflexivity|]. left; reflexivity.
    + destruct k; discriminate.
Qed.

Print Assumptions C17_moving_lookup.
Print Assumptions C17_no_bare.
Print Assumptions C18_lookup_timestamps.
Print Assumptions C18_matcher_timestamps.
Print Assumptions C18_lookup_succeeds.
Print Assumptions C19_discrete_hold.
Print Assumptions C20_interpolation.
Print Assumptions C20_frame.
Print Assumptions C21_refuted.
Print Assumptions C21_unit_partial.
