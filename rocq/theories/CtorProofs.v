(** The constructor: accepted shapes, inverse=True. *)
From Coq Require Import Reals List String Arith Bool Lia Lra Sorted.
From Verif Require Import Base Quat SpecQuat QuatProofs NdArray Frames SpecForest
  FrameProofs WalkProofs Matcher SpecLookup LookupProofs RegistryProofs MovingProofs TimeProofs.
Import ListNotations.
Open Scope R_scope.

(** The documented shapes. *)
Definition ts_len (c : ctor) (on : option nat) : Prop :=
  match c_ts c, on with
  | None, None => True
  | Some a, Some n => shp a = [n]
  | _, _ => False
  end.
Definition shape_or_none (a : option (nd R)) (s : list nat) : Prop :=
  forall x, a = Some x -> shp x = s.
Definition parent_shapes (c : ctor) : Prop :=
  exists on, ts_len c on /\
    shape_or_none (c_tr c) (match on with None => [3%nat] | Some n => [n; 3%nat] end) /\
    shape_or_none (c_ro c) (match on with None => [4%nat] | Some n => [n; 4%nat] end) /\
    (c_discrete c = true -> on <> None).
Definition root_shapes (c : ctor) : Prop :=
  c_tr c = None /\ c_ro c = None /\ c_ts c = None /\ c_discrete c = false.

Lemma shape_eqb_true a b : shape_eqb a b = true <-> a = b.
Proof. unfold shape_eqb. destruct (list_eq_dec Nat.eq_dec a b); split; congruence. Qed.

Lemma arg_vecs_iff a n : (exists l, arg_vecs a n = Ok l) <->
  shape_or_none a (match n with None => [3%nat] | Some n => [n; 3%nat] end).
Proof. unfold arg_vecs, shape_or_none. destruct a as [a|].
  - split.
    + intros (l & H) x E. injection E as <-. destruct n; (destruct (shape_eqb (shp a) _) eqn:E; [|discriminate]); apply shape_eqb_true in E; auto.
    + intros H. specialize (H a eq_refl). destruct n; apply shape_eqb_true in H; rewrite H; eauto.
  - split; [intros _ x; discriminate|eauto]. Qed.
Lemma arg_quats_iff a n : (exists l, arg_quats a n = Ok l) <->
  shape_or_none a (match n with None => [4%nat] | Some n => [n; 4%nat] end).
Proof. unfold arg_quats, shape_or_none. destruct a as [a|].
  - split.
    + intros (l & H) x E. injection E as <-. destruct n; (destruct (shape_eqb (shp a) _) eqn:E; [|discriminate]); apply shape_eqb_true in E; auto.
    + intros H. specialize (H a eq_refl). destruct n; apply shape_eqb_true in H; rewrite H; eauto.
  - split; [intros _ x; discriminate|eauto]. Qed.

Lemma arg_ts_spec c o : arg_ts (c_ts c) = Ok o -> ts_len c (option_map (@List.length R) o).
Proof. unfold arg_ts, ts_len. destruct (c_ts c) as [a|].
  - destruct (shp a) as [|n [|m l]]; try discriminate. intros H. injection H as <-. simpl.
    rewrite map_length, seq_length. reflexivity.
  - intros H. injection H as <-. exact I. Qed.
Lemma ts_len_fun c a b : ts_len c a -> ts_len c b -> a = b.
Proof. unfold ts_len. destruct (c_ts c), a, b; try contradiction; auto. congruence. Qed.

Lemma ctor_shapes s c p k : c_parent c = Some p -> resolve_rf s p = Ok k ->
  ((exists i, snd (new_frame s c) = Ok i) <-> parent_shapes c) /\
  ((exists i, snd (new_frame s c) = Ok i) \/ snd (new_frame s c) = Raise ValueError).
Proof.
  intros Hp Hr. unfold new_frame. rewrite Hp, Hr.
  assert (HE : forall e, snd (new_frame s c) = Raise e -> e = ValueError).
  { intros e He. destruct (new_frame_exc s c e He) as [|(_ & Hb)]; auto.
    rewrite Hp in Hb. destruct p as [i|n|]; simpl in *; try contradiction; try discriminate.
    destruct (get s i) eqn:E; [|discriminate]. apply get_some_lt in E. unfold size in *. lia. }
  unfold new_frame in HE. rewrite Hp, Hr in HE.
  destruct (init_arrays _ _ _ _) as [d|e] eqn:Ei.
  - assert (Hd : exists on, ts_len c on /\
        shape_or_none (c_tr c) (match on with None => [3%nat] | Some n => [n; 3%nat] end) /\
        shape_or_none (c_ro c) (match on with None => [4%nat] | Some n => [n; 4%nat] end) /\
        ((exists t r, d = TStatic t r) /\ on = None \/ (exists ts t r b, d = TMoving ts t r b) /\ on <> None)).
    { unfold init_arrays in Ei. destruct (arg_ts (c_ts c)) as [o|] eqn:Eo; [|discriminate]. simpl in Ei.
      destruct (arg_vecs (c_tr c) _) as [t|] eqn:Et; [|discriminate]. simpl in Ei.
      destruct (arg_quats (c_ro c) _) as [r|] eqn:Er; [|discriminate]. simpl in Ei.
      exists (option_map (@List.length R) o). split; [apply arg_ts_spec; auto|].
      split; [apply arg_vecs_iff; eauto|]. split; [apply arg_quats_iff; eauto|].
      destruct o as [l|].
      - right. split; [|discriminate]. destruct (c_inverse c).
        + apply bind_ok in Ei as (rows & _ & Ei). injection Ei as <-. eauto.
        + injection Ei as <-. eauto.
      - left. split; auto. destruct t as [|t0 t], r as [|r0 r]; try discriminate. destruct (c_inverse c).
        + apply bind_ok in Ei as ([t1 r1] & _ & Ei). injection Ei as <-. eauto.
        + injection Ei as <-. eauto. }
    destruct Hd as (on & H1 & H2 & H3 & H4).
    destruct H4 as [((t & r & ->) & ->)|((ts & t & r & b & ->) & Hon)]; simpl.
    + destruct (c_discrete c) eqn:Ed; simpl.
      * split; [|right; auto]. split; [intros (i & H); discriminate|].
        intros (on & T1 & _ & _ & T4). rewrite Ed in T4. rewrite (ts_len_fun c on None T1 H1) in T4.
        exfalso. apply T4; auto.
      * split; [|left; eauto]. split; [|eauto]. intros _. exists None. repeat split; auto. rewrite Ed. discriminate.
    + split; [|left; eauto]. split; [|eauto]. intros _. exists on. repeat split; auto.
  - destruct (init_arrays_exc _ _ _ _ _ Ei) as [->| ->]; simpl.
    + split; [|auto]. split; [intros (i & H); discriminate|]. intros (on & T1 & T2 & T3 & _). exfalso.
      unfold init_arrays in Ei. unfold ts_len in T1. unfold arg_ts in Ei.
      assert (Eo : exists o, arg_ts (c_ts c) = Ok o /\ option_map (@List.length R) o = on).
      { unfold arg_ts. destruct (c_ts c) as [a|], on as [n|]; try contradiction.
        - rewrite T1. eexists. split; [reflexivity|]. simpl. rewrite map_length, seq_length. reflexivity.
        - eauto. }
      destruct Eo as (o & Eo & Elen). unfold arg_ts in Eo. rewrite Eo in Ei. simpl in Ei. rewrite Elen in Ei.
      apply arg_vecs_iff in T2 as (t & T2). apply arg_quats_iff in T3 as (r & T3). rewrite T2 in Ei. simpl in Ei.
      rewrite T3 in Ei. simpl in Ei. destruct o as [l|].
      * destruct (c_inverse c); [|discriminate]. 
        destruct (traverse inv_row (combine t r)) as [rows|e4] eqn:E4; simpl in Ei; [discriminate|].
        assert (e4 = NaNValue). { revert E4. apply (traverse_exc _ _ _ (fun e => e = NaNValue)). apply inv_row_exc. }
        congruence.
      * simpl in Elen. subst on. apply arg_vecs_len in T2. apply arg_quats_len in T3.
        destruct t as [|t0 t], r as [|r0 r]; try discriminate. destruct (c_inverse c); [|discriminate].
        destruct (inv_static t0 r0) as [[t1 r1]|e5] eqn:E5; simpl in Ei; [discriminate|].
        apply inv_static_exc in E5. congruence.
    + (* NaN: constructed, unless discrete without timestamps *)
      assert (HS : exists on, ts_len c on /\
        shape_or_none (c_tr c) (match on with None => [3%nat] | Some n => [n; 3%nat] end) /\
        shape_or_none (c_ro c) (match on with None => [4%nat] | Some n => [n; 4%nat] end)).
      { unfold init_arrays in Ei. destruct (arg_ts (c_ts c)) as [o|e0] eqn:Eo; simpl in Ei.
        2:{ exfalso. unfold arg_ts in Eo. destruct (c_ts c) as [a|]; [|discriminate]. destruct (shp a) as [|n [|m l]]; congruence. }
        destruct (arg_vecs (c_tr c) _) as [t|e1] eqn:Et; simpl in Ei; [|apply arg_vecs_exc in Et; congruence].
        destruct (arg_quats (c_ro c) _) as [r|e2] eqn:Er; simpl in Ei; [|apply arg_quats_exc in Er; congruence].
        exists (option_map (@List.length R) o). split; [apply arg_ts_spec; auto|].
        split; [apply arg_vecs_iff; eauto|apply arg_quats_iff; eauto]. }
      destruct HS as (on & H1 & H2 & H3). unfold discrete_static. unfold ts_len in H1.
      destruct (c_discrete c) eqn:Ed; simpl.
      * destruct (c_ts c) as [a|] eqn:Ets; simpl.
        -- split; [|left; eauto]. split; [|eauto]. intros _. exists on. unfold ts_len. rewrite Ets. 
           repeat split; auto. intros _ ->. contradiction.
        -- split; [|auto]. split; [intros (i & H); discriminate|]. intros (on' & T1 & _ & _ & T4). exfalso.
           unfold ts_len in T1. rewrite Ets in T1. destruct on'; [contradiction|]. apply T4; auto.
      * split; [|left; eauto]. split; [|eauto]. intros _. exists on. repeat split; auto. rewrite Ed; discriminate.
Qed.

Lemma ctor_root s c : c_parent c = None ->
  ((exists i, snd (new_frame s c) = Ok i) <-> root_shapes c) /\
  ((exists i, snd (new_frame s c) = Ok i) \/ snd (new_frame s c) = Raise ValueError).
Proof.
  intros Hp. unfold new_frame, root_shapes. rewrite Hp. unfold verify_root.
  destruct (c_tr c); simpl; [split; [split; [intros (i & H); discriminate|intros (H & _); discriminate]|auto]|].
  destruct (c_ro c); simpl; [split; [split; [intros (i & H); discriminate|intros (_ & H & _); discriminate]|auto]|].
  destruct (c_ts c); simpl; [split; [split; [intros (i & H); discriminate|intros (_ & _ & H & _); discriminate]|auto]|].
  destruct (c_discrete c); simpl; [split; [split; [intros (i & H); discriminate|intros (_ & _ & _ & H); discriminate]|auto]|].
  split; [|left; eauto]. split; eauto.
Qed.
