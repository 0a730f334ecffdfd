(** Properties C08-C11, C15, C16: lookups through static frames, construction. *)
From Coq Require Import Reals List String Arith Bool Lia Lra.
From Verif Require Import Base Quat SpecQuat QuatProofs NdArray Frames SpecForest
  FrameProofs WalkProofs Matcher SpecLookup LookupProofs RegistryProofs MovingProofs TimeProofs
  CtorProofs InverseProofs RouteProofs Examples PropForest.
Import ListNotations.
Open Scope R_scope.

(** A frame argument denotes frame j: the object itself or its registered name. *)
Definition denotes (s : state) (a : pref) (j : nat) : Prop :=
  (a = PFrame j /\ frame s j) \/ exists n, a = PName n /\ lookup n (reg s) = Some j.
Lemma denotes_resolve s a j : denotes s a j -> resolve_rf s a = Ok j.
Proof.
  intros [(-> & H)|(n & -> & H)].
  - apply resolve_frame; auto.
  - simpl. rewrite H. reflexivity.
Qed.
Lemma denotes_frame s a j : reachable s -> denotes s a j -> frame s j.
Proof. intros Hs H. apply (resolve_lt s a j (proj2 (reachable_Inv s Hs)) (denotes_resolve s a j H)). Qed.

(* ------------------------------------------------------------------ C08 *)
(** The looked-up transform (t, r) maps coordinates of every physical point:
    there is a common ancestor in which p (given in i) and rot(r,p)+t (given in
    j) have the same coordinates; and in every common ancestor in which p has
    coordinates P, rot(r,p)+t has them too. *)
Theorem C08_static_lookup : forall squad s i to j t r, reachable s -> frame s i -> denotes s to j ->
  lookup_transform squad s i to = Ok (TrStatic t r) ->
  hnonzero r /\
  (exists c, ancestor (parent_of s) i c /\ ancestor (parent_of s) j c /\
     forall x p, exists P, coords squad s x i p c P /\ coords squad s x j (smove t r p) c P) /\
  (forall x p a P, coords squad s x i p a P -> ancestor (parent_of s) j a ->
     coords squad s x j (smove t r p) a P).
Proof.
  intros squad s i to j t r Hs Hi Hto H. pose proof (denotes_resolve s to j Hto) as Hr.
  destruct (lookup_static_sound squad s i to j t r (reachable_Inv s Hs) Hi Hr H) as (H1 & H2).
  split; auto. split; auto. apply (lookup_static_meet squad s i to j t r (reachable_Inv s Hs) Hi Hr H).
Qed.
(** Coordinates in an ancestor are unique when the frames are static, so the
    statement above determines the point. *)
Theorem C08_coords_unique : forall squad s x i p a P Q, reachable s -> frame s i ->
  (forall k, ancestor (parent_of s) i k -> k = a \/ exists t r, transform_of s k = Some (TStatic t r)) ->
  coords squad s x i p a P -> coords squad s x i p a Q -> P = Q.
Proof.
  intros squad s x i p a P Q Hs Hi Hst H1. revert Q Hst. pose proof (reachable_Inv s Hs) as (W & _).
  induction H1 as [i p|i k d t r p a P Hp Hd Ho Hr H IH]; intros Q Hst H2.
  - inversion H2; subst; auto. exfalso.
    match goal with Hc : coords _ _ _ ?k _ i _ |- _ => apply coords_ancestor in Hc;
      apply (climb_not_above s i [i] k i W Hi) in Hc; auto; [|left; auto] end.
    + econstructor; eauto. constructor.
  - inversion H2; subst.
    + exfalso. apply coords_ancestor in H. apply (climb_not_above s a [a] k a W Hi) in H; auto; [|left; auto].
      econstructor; eauto. constructor.
    + rewrite Hp in H0. injection H0 as <-. rewrite Hd in H1. injection H1 as <-.
      destruct (Hst i (anc_refl _ i)) as [->|(t' & r' & Ht)].
      { exfalso. apply coords_ancestor in H. apply (climb_not_above s a [a] k a W Hi) in H; auto; [|left; auto].
        econstructor; eauto. constructor. }
      assert (d = TStatic t' r') by congruence. subst d. inversion Ho; subst. inversion H3; subst.
      apply IH; auto. { apply (wf_par s W i k Hp). }
      intros m Hm. apply Hst. econstructor; eauto.
Qed.
Example C08_example : exists t r, denotes ex_lit (PName "c") 3 /\
  lookup_transform hold_squad ex_lit 2 (PName "c") = Ok (TrStatic t r) /\ r = Qt (-1) 1 (-2) 1.
Proof.
  assert (HI : Inv ex_lit) by (apply reachable_Inv, ex_lit_reachable).
  assert (H2 : (2 < size ex_lit)%nat) by (unfold size; simpl; lia).
  exists (V3 (-4) 2 2), (Qt (-1) 1 (-2) 1). split; [right; exists "c"%string; auto|]. split; auto.
  apply (lookup_static_iff hold_squad ex_lit 2 (PName "c") 3 _ _ HI H2 eq_refl).
  exists [2%nat; 1%nat], [3%nat], 0%nat.
  exists (gmul (gmul gone (V3 1 2 3, Qt 0 1 0 0)) (V3 0 0 1, Qt 1 1 1 2)), (gmul gone (V3 5 0 0, Qt 1 0 0 0)).
  split.
  { split; [|split].
    - econstructor; [reflexivity|]. econstructor; [reflexivity|]. constructor.
    - econstructor; [reflexivity|]. constructor.
    - intros a Ha0 Ha. inversion Ha as [|? ? ? E1 E2]; subst.
      + exfalso. match goal with Hx : ancestor _ 2 3 |- _ => inversion Hx as [|? ? ? E1 E2]; subst end.
        injection E1 as <-. inversion E2 as [|? ? ? E3 E4]; subst. injection E3 as <-. inversion E4 as [|? ? ? E5 E6]; subst. discriminate.
      + injection E1 as <-. exact E2. }
  split.
  { econstructor; [reflexivity|reflexivity| |].
    - vcomp. lra.
    - econstructor; [reflexivity|reflexivity| |constructor]. vcomp. lra. }
  split.
  { econstructor; [reflexivity|reflexivity| |constructor]. vcomp. lra. }
  unfold gmul, ginv, gone, hinv. cbn [fst snd]. vcomp. f_equal; f_equal; field.
Qed.

(* ------------------------------------------------------------------ C09 *)
Theorem C09_self_lookup : forall squad s i to, reachable s -> frame s i -> denotes s to i ->
  lookup_transform squad s i to = Ok (TrStatic (V3 0 0 0) (Qt 1 0 0 0)).
Proof.
  intros squad s i to Hs Hi H. exact (lookup_self squad s i to (reachable_Inv s Hs) Hi (denotes_resolve s to i H)).
Qed.
(** Also for a moving frame and for a frame whose constructor raised. *)
Example C09_example : frame mov_lit 1 /\ denotes mov_lit (PName "m") 1.
Proof. split; [unfold frame; simpl; lia|right; exists "m"%string; auto]. Qed.

(* ------------------------------------------------------------------ C10 *)
(** The reverse lookup succeeds too and is the two-sided inverse. *)
Theorem C10_inverse : forall squad s i j t r, reachable s -> frame s i -> frame s j ->
  lookup_transform squad s i (PFrame j) = Ok (TrStatic t r) ->
  exists t' r', lookup_transform squad s j (PFrame i) = Ok (TrStatic t' r') /\
    hmul r r' = hone /\ hmul r' r = hone /\
    forall p, smove t' r' (smove t r p) = p /\ smove t r (smove t' r' p) = p.
Proof.
  intros squad s i j t r Hs Hi Hj H. pose proof (reachable_Inv s Hs) as HI.
  apply (lookup_static_iff squad s i (PFrame j) j t r HI Hi (resolve_frame s j Hj)) in H.
  apply static_link_sym in H as (H & Hnz). destruct (ginv (t, r)) as [t' r'] eqn:E. exists t', r'.
  split; [apply (lookup_static_iff squad s j (PFrame i) i t' r' HI Hj (resolve_frame s i Hi)); auto|].
  pose proof (gmul_inv_r (t, r) Hnz) as Er. pose proof (gmul_inv_l (t, r) Hnz) as El. rewrite E in Er, El.
  pose proof (gnz_inv (t, r) Hnz) as Hnz'. rewrite E in Hnz'.
  split; [exact (f_equal snd Er)|]. split; [exact (f_equal snd El)|]. intros p. split.
  - change (gact (t', r') (gact (t, r) p) = p). rewrite <- gact_mul by auto. rewrite El. apply gact_one.
  - change (gact (t, r) (gact (t', r') p) = p). rewrite <- gact_mul by auto. rewrite Er. apply gact_one.
Qed.

(* ------------------------------------------------------------------ C11 *)
(** Lookups compose, for any three frames, on the nose. *)
Theorem C11_compose : forall squad s a b c tab rab tbc rbc, reachable s -> frame s a -> frame s b -> frame s c ->
  lookup_transform squad s a (PFrame b) = Ok (TrStatic tab rab) ->
  lookup_transform squad s b (PFrame c) = Ok (TrStatic tbc rbc) ->
  lookup_transform squad s a (PFrame c) = Ok (TrStatic (smove tbc rbc tab) (hmul rbc rab)).
Proof.
  intros squad s a b c tab rab tbc rbc Hs Ha Hb Hc H1 H2. pose proof (reachable_Inv s Hs) as HI.
  apply (lookup_static_iff squad s a (PFrame b) b _ _ HI Ha (resolve_frame s b Hb)) in H1.
  apply (lookup_static_iff squad s b (PFrame c) c _ _ HI Hb (resolve_frame s c Hc)) in H2.
  apply (lookup_static_iff squad s a (PFrame c) c _ _ HI Ha (resolve_frame s c Hc)).
  exact (static_link_trans s a b c _ _ HI Ha Hb Hc H1 H2).
Qed.
(** In the example tree the three frames b, c, a exist with c not between them. *)
Example C11_example : exists t1 r1 t2 r2,
  lookup_transform hold_squad ex_lit 2 (PFrame 3) = Ok (TrStatic t1 r1) /\
  lookup_transform hold_squad ex_lit 3 (PFrame 1) = Ok (TrStatic t2 r2).
Proof.
  assert (HI : Inv ex_lit) by (apply reachable_Inv, ex_lit_reachable).
  assert (R : forall i, (i < 4)%nat -> root_of (parent_of ex_lit) i 0).
  { intros i Hi. split; [|reflexivity]. destruct i as [|[|[|[|i]]]]; try lia.
    - constructor.
    - econstructor; [reflexivity|constructor].
    - econstructor; [reflexivity|]. econstructor; [reflexivity|constructor].
    - econstructor; [reflexivity|constructor]. }
  assert (D : forall k, (k < 6)%nat -> k <> 0%nat -> k <> 4%nat -> exists t r, transform_of ex_lit k = Some (TStatic t r) /\ hnonzero r).
  { intros k Hk H0 H4. destruct k as [|[|[|[|[|[|k]]]]]]; try lia; eexists; eexists; (split; [reflexivity|]); vcomp; lra. }
  assert (L : forall i j, (i < 4)%nat -> (j < 4)%nat -> exists t r, lookup_transform hold_squad ex_lit i (PFrame j) = Ok (TrStatic t r)).
  { intros i j Hi Hj. apply (lookup_succeeds hold_squad ex_lit i j HI); [unfold size; simpl; lia|unfold size; simpl; lia| |].
    - exists 0%nat. auto.
    - intros k Hk. assert (B : forall m, (m < 4)%nat -> ancestor (parent_of ex_lit) m k -> (k < 4)%nat).
      { intros m Hm Ha. clear -Hm Ha. remember (parent_of ex_lit) as par eqn:E. induction Ha as [|m q a Hp Ha IH]; auto.
        apply IH; auto. subst par. destruct m as [|[|[|[|m]]]]; try lia; simpl in Hp; try discriminate; injection Hp as <-; lia. }
      destruct Hk as [(Ha & Hb)|(Ha & Hb)]; (apply D; [apply B in Ha; auto; lia| |apply B in Ha; auto; lia]);
        intros ->; apply Hb; apply R; auto. }
  destruct (L 2%nat 3%nat) as (t1 & r1 & L1); try lia. destruct (L 3%nat 1%nat) as (t2 & r2 & L2); try lia.
  exists t1, r1, t2, r2. auto.
Qed.

(* ------------------------------------------------------------------ C15 *)
(** ReferenceFrame(parent=p, translation=ta, rotation=ra, inverse=True):
    looking up from the parent into the frame gives back (ta, ra). *)
Theorem C15_static : forall squad s c p k ta ra, reachable s -> c_parent c = Some p -> denotes s p k ->
  c_inverse c = true -> c_ts c = None -> c_discrete c = false ->
  c_tr c = Some ta -> shp ta = [3%nat] -> c_ro c = Some ra -> shp ra = [4%nat] ->
  hnonzero (quat_at ra []) ->
  exists s' i, new_frame s c = (s', Ok i) /\
    lookup_transform squad s' k (PFrame i) = Ok (TrStatic (vec_at ta []) (quat_at ra [])).
Proof.
  intros squad s c p k ta ra Hs Hp Hd. apply (inverse_static squad s c p k ta ra (reachable_Inv s Hs) Hp (denotes_resolve s p k Hd)).
Qed.
(** The same for a moving frame with unit rotations: the stored timestamps,
    translations and rotations come back row by row.  Continuous frames need two
    strictly increasing samples, discrete ones an event; squad must return the
    samples at the sampling times. *)
Theorem C15_moving : forall squad s c p k tsa ta ra n, reachable s -> c_parent c = Some p -> denotes s p k ->
  c_inverse c = true -> squad_exact squad ->
  c_ts c = Some tsa -> shp tsa = [n] ->
  c_tr c = Some ta -> shp ta = [n; 3%nat] -> c_ro c = Some ra -> shp ra = [n; 4%nat] ->
  sampled (map (fun i => dat tsa [i]) (seq 0 n)) (c_discrete c) ->
  (forall i, (i < n)%nat -> hunit (quat_at ra [i])) ->
  exists s' i, new_frame s c = (s', Ok i) /\
    lookup_transform squad s' k (PFrame i) =
      Ok (TrRows (map (fun i => dat tsa [i]) (seq 0 n))
                 (map (fun i => (vec_at ta [i], quat_at ra [i])) (seq 0 n))).
Proof.
  intros squad s c p k tsa ta ra n Hs Hp Hd.
  apply (inverse_moving squad s c p k tsa ta ra n (reachable_Inv s Hs) Hp (denotes_resolve s p k Hd)).
Qed.
Definition inv_ctor (disc : bool) : ctor :=
  Ctor None (Some (PName "a")) (Some (arr2 3 [[1;2;3];[4;5;6]])) (Some (arr2 4 [[0;1;0;0];[0;0;0;1]]))
       (Some (arr1 [3;5])) true disc.
Example C15_example : forall disc, denotes ex_lit (PName "a") 1 /\ squad_exact hold_squad /\
  sampled (map (fun i => dat (arr1 [3;5]) [i]) (seq 0 2)) disc /\
  (forall i, (i < 2)%nat -> hunit (quat_at (arr2 4 [[0;1;0;0];[0;0;0;1]]) [i])).
Proof.
  intros disc. split; [right; exists "a"%string; auto|]. split; [apply hold_squad_exact|]. split.
  - split; [|destruct disc; simpl; [discriminate|lia]].
    intros i j a b Hij Ha Hb. cbn in Ha, Hb.
    destruct i as [|[|i]]; simpl in Ha; try (destruct i; discriminate);
    destruct j as [|[|j]]; simpl in Hb; try (destruct j; discriminate); try lia.
    injection Ha as <-. injection Hb as <-. lra.
  - intros i Hi. destruct i as [|[|i]]; try lia; cbv [quat_at arr2 dat nth hd app]; vcomp; lra.
Qed.

(* ------------------------------------------------------------------ C16 *)
(** With a parent that resolves: success iff the documented shapes, otherwise
    ValueError. *)
Theorem C16_with_parent : forall s c p k, reachable s -> c_parent c = Some p -> denotes s p k ->
  ((exists i, snd (new_frame s c) = Ok i) <-> parent_shapes c) /\
  ((exists i, snd (new_frame s c) = Ok i) \/ snd (new_frame s c) = Raise ValueError).
Proof. intros s c p k _ Hp Hd. exact (ctor_shapes s c p k Hp (denotes_resolve s p k Hd)). Qed.
Theorem C16_without_parent : forall s c, reachable s -> c_parent c = None ->
  ((exists i, snd (new_frame s c) = Ok i) <-> root_shapes c) /\
  ((exists i, snd (new_frame s c) = Ok i) \/ snd (new_frame s c) = Raise ValueError).
Proof. intros s c _ Hp. exact (ctor_root s c Hp). Qed.
Example C16_example : parent_shapes (inv_ctor true) /\ root_shapes (root "w").
Proof.
  split; [|repeat split]. exists (Some 2%nat). split; [reflexivity|]. split; [|split; [|discriminate]]; intros x H; injection H as <-; reflexivity.
Qed.

Print Assumptions C08_static_lookup.
Print Assumptions C08_coords_unique.
Print Assumptions C09_self_lookup.
Print Assumptions C10_inverse.
Print Assumptions C11_compose.
Print Assumptions C15_static.
Print Assumptions C15_moving.
Print Assumptions C16_with_parent.
Print Assumptions C16_without_parent.
