(** inverse=True, and lookups across one moving frame at its own timestamps. *)
From Coq Require Import Reals List String Arith Bool Lia Lra Sorted.
From Verif Require Import Base Quat SpecQuat QuatProofs NdArray Frames SpecForest
  FrameProofs WalkProofs Matcher SpecLookup LookupProofs RegistryProofs MovingProofs TimeProofs CtorProofs.
Import ListNotations.
Open Scope R_scope.

Lemma nth_ext {A} (l l' : list A) : (forall k, nth_error l k = nth_error l' k) -> l = l'.
Proof.
  revert l'; induction l as [|a l IH]; intros [|b l'] H; auto.
  - specialize (H O). discriminate.
  - specialize (H O). discriminate.
  - pose proof (H O) as H0. injection H0 as ->. f_equal. apply IH. intros k. exact (H (S k)).
Qed.
Lemma nth_ext_len {A} (l l' : list A) : List.length l = List.length l' ->
  (forall k a, nth_error l k = Some a -> nth_error l' k = Some a) -> l = l'.
Proof.
  intros Hl H. apply nth_ext. intros k. destruct (nth_error l k) as [a|] eqn:E.
  - symmetry. apply H; auto.
  - symmetry. apply nth_error_None. apply nth_error_None in E. lia.
Qed.

Lemma increasing_tail a l : increasing (a :: l) -> increasing l.
Proof. intros H i j x y Hij Hx Hy. exact (H (S i) (S j) x y ltac:(lia) Hx Hy). Qed.
Lemma unique_increasing ts : increasing ts -> unique ts = ts.
Proof.
  unfold unique. induction ts as [|a l IH]; intros H; simpl; auto.
  rewrite (IH (increasing_tail _ _ H)). destruct l as [|b l]; simpl; auto.
  assert (Hab : a < b) by exact (H 0%nat 1%nat a b ltac:(lia) eq_refl eq_refl).
  rewrite (proj2 (Rlt_b_true a b) Hab). reflexivity.
Qed.
Lemma increasing_bounds ts x : increasing ts -> In x ts -> in_bounds ts x = true.
Proof.
  intros H Hx. apply In_nth_error in Hx as (k & Hk). apply in_bounds_spec.
  destruct ts as [|a l]; [destruct k; discriminate|].
  exists a, (last l a). split; [reflexivity|].
  replace (List.length (a :: l) - 1)%nat with (List.length l) by (simpl; lia).
  split; [apply nth_last|]. pose proof (nth_lt _ _ _ Hk) as Hlt. simpl in Hlt. split.
  - destruct (Nat.eq_dec k 0) as [->|Hn]; [injection Hk as ->; lra|].
    apply Rlt_le. exact (H 0%nat k a x ltac:(lia) eq_refl Hk).
  - destruct (Nat.eq_dec k (List.length l)) as [->|Hn].
    + rewrite nth_last in Hk. injection Hk as ->. lra.
    + apply Rlt_le. exact (H k (List.length l) x (last l a) ltac:(lia) Hk (nth_last a l)).
Qed.
Lemma filter_id {A} (f : A -> bool) l : (forall a, In a l -> f a = true) -> filter f l = l.
Proof. induction l as [|a l IH]; intros H; simpl; auto. rewrite (H a) by (left; auto). f_equal. apply IH. intros b Hb. apply H. right; auto. Qed.

(** A frame's own samples are the timestamps when it is the only moving frame. *)
Lemma single_timestamps ts t r disc inv : increasing ts -> ts <> [] ->
  get_timestamps (Mat [MF (TMoving ts t r disc) inv] []) true = Ok (Some ts).
Proof.
  intros Hinc Hne. unfold get_timestamps.
  destruct (get_range _) as [[lo hi]|e] eqn:Er.
  - simpl. destruct disc; simpl.
    + unfold disc_list. simpl. rewrite app_nil_r. rewrite unique_increasing by auto. reflexivity.
    + unfold arr_list, cont_list. simpl. do 2 f_equal. apply filter_id. intros x Hx.
      apply (proj2 (range_spec _ _ _ x Er)). intros l Hl. unfold cont_list, arr_list in Hl. simpl in Hl.
      destruct Hl as [<-|[]]. apply increasing_bounds; auto.
  - exfalso. assert (Hg : get_timestamps (Mat [MF (TMoving ts t r disc) inv] []) true = Raise e).
    { unfold get_timestamps. rewrite Er. reflexivity. }
    apply timestamps_raise in Hg as (_ & l & Hl & ->). unfold cont_list, arr_list in Hl.
    destruct disc; simpl in Hl; [contradiction|]. destruct Hl as [Hl|[]]; congruence.
Qed.

Lemma own_event ts k x : increasing ts -> nth_error ts k = Some x -> event_in_force ts x k.
Proof. intros H Hk. left. exists x. repeat split; auto; [lra|]. intros m tm Hm Htm. exact (H k m x tm Hm Hk Htm). Qed.

Section S.
Variable squad : list R -> list quat -> R -> res quat.
(** squad reproduces the samples at the sampling times. *)
Definition squad_exact : Prop := forall ts rr k x r,
  increasing ts -> (2 <= List.length ts)%nat -> List.length rr = List.length ts -> Forall hunit rr ->
  nth_error ts k = Some x -> nth_error rr k = Some r -> squad ts rr x = Ok r.

Definition sampled (ts : list R) (disc : bool) : Prop :=
  increasing ts /\ if disc then ts <> [] else (2 <= List.length ts)%nat.
Lemma sampled_ne ts disc : sampled ts disc -> ts <> [].
Proof. intros (_ & H). destruct disc; auto. intros ->. simpl in H. lia. Qed.

Lemma rows_at_samples ts t r disc : squad_exact -> sampled ts disc ->
  List.length t = List.length ts -> List.length r = List.length ts -> Forall hunit r ->
  rows_from_frame squad (TMoving ts t r disc) ts = Ok (combine t r).
Proof.
  intros Hsq (Hinc & Hn) Ht Hr Hu. destruct disc.
  - destruct (discrete_rows squad ts t r ts Ht Hr Hn) as (rows & -> & Hlen & H).
    f_equal. apply nth_ext_len; [rewrite combine_length; lia|]. intros k [a b] Hk.
    destruct (nth_len ts k) as (x & Hx); [apply nth_lt in Hk; lia|].
    destruct (H k x Hx) as (e & te & re & He & Hte & Hre & Hk'). rewrite Hk' in Hk. injection Hk as -> ->.
    rewrite (event_fun ts x e k He (own_event ts k x Hinc Hx)) in *. apply nth_combine; auto.
  - simpl. destruct (interp1d_ok ts t ts Hinc Hn Ht) as (rows & -> & Hlen & H & _).
    { intros x Hx. apply increasing_bounds; auto. }
    simpl. assert (Hrows : rows = t).
    { apply nth_ext_len; [lia|]. intros k a Hk.
      destruct (nth_len ts k) as (x & Hx); [apply nth_lt in Hk; lia|].
      destruct (nth_len t k) as (u & Hku); [apply nth_lt in Hk; lia|].
      specialize (H k x k u Hx Hx Hku). congruence. }
    subst rows.
    destruct (traverse_ok_ex (squad ts r) ts) as (rr & Hrr).
    { intros x Hx. apply In_nth_error in Hx as (k & Hk). destruct (nth_len r k) as (q & Hq); [apply nth_lt in Hk; lia|].
      exists q. apply (Hsq ts r k x q); auto. }
    rewrite Hrr. simpl. do 2 f_equal. apply nth_ext_len; [apply traverse_length in Hrr; lia|].
    intros k a Hk. pose proof (proj1 (traverse_nth _ _ _ _ _ Hrr) Hk) as (x & Hx & Hs).
    destruct (nth_len r k) as (q & Hq); [apply nth_lt in Hx; lia|].
    rewrite (Hsq ts r k x q) in Hs; auto. congruence.
Qed.

(** Lookup from the parent into its child and back, child moving. *)
Lemma walks_child s k i : parent_of s i = Some k -> walks s k i [] [i] k.
Proof. intros H. split; [constructor|]. split; [simpl; econstructor; eauto; constructor|]. auto. Qed.

Lemma lookup_child_moving s k i ts t r disc : Inv s -> (i < size s)%nat -> parent_of s i = Some k ->
  transform_of s i = Some (TMoving ts t r disc) ->
  squad_exact -> sampled ts disc -> List.length t = List.length ts -> List.length r = List.length ts ->
  Forall hunit r ->
  lookup_transform squad s k (PFrame i) = Ok (TrRows ts (map ginv (combine t r))).
Proof.
  intros (W & HR) Hi Hp Hd Hsq Hsa Ht Hr Hu.
  assert (Hk : (k < size s)%nat) by exact (proj1 (wf_par s W i k Hp)).
  unfold lookup_transform. rewrite (resolve_frame s i Hi). simpl. unfold frames_between.
  rewrite (walk_unique s k i [] [i] k W Hk Hi (walks_child s k i Hp)). simpl.
  apply body_at_transform in Hd. unfold traverse. simpl. rewrite Hd. simpl.
  rewrite (increasing_not_decreasing ts) by apply Hsa. rewrite Ht, Nat.eqb_refl. simpl.
  unfold get_transformation. rewrite single_timestamps; [|apply Hsa|apply (sampled_ne ts disc Hsa)]. simpl.
  unfold step_rows. cbn [mf_data]. rewrite (rows_at_samples ts t r disc); auto. cbn [bind].
  rewrite (traverse_ok _ (fun p => ginv (snd p))).
  - simpl. do 2 f_equal. clear Hd Hsa. revert t r Ht Hr Hu; induction ts as [|a ts IH]; intros [|t0 t] [|r0 r] Ht Hr Hu;
      simpl in *; try discriminate; auto. f_equal. inversion Hu; subst. apply IH; auto.
  - intros [acc [t0 r0]] Hin. cbn [fst snd mf_inv].
    assert (Ha : acc = gone). { apply in_combine_l in Hin. apply in_map_iff in Hin as (? & <- & _). rewrite q1_hone. reflexivity. }
    assert (H0 : hunit r0). { apply in_combine_r in Hin. apply in_combine_r in Hin. revert Hin. apply Forall_forall. auto. }
    subst acc. rewrite row_step_bwd by auto. rewrite gmul_1_r. reflexivity.
Qed.

Lemma lookup_child_static s k i t r : Inv s -> (i < size s)%nat -> parent_of s i = Some k ->
  transform_of s i = Some (TStatic t r) -> hn2 r <> 0 ->
  lookup_transform squad s k (PFrame i) = Ok (TrStatic (fst (ginv (t, r))) (snd (ginv (t, r)))).
Proof.
  intros HI Hi Hp Hd Hr. pose proof HI as (W & HR).
  assert (Hk : (k < size s)%nat) by exact (proj1 (wf_par s W i k Hp)).
  apply (lookup_static_iff squad s k (PFrame i) i _ _ HI Hk (resolve_frame s i Hi)).
  exists [], [i], k, gone, (gmul gone (t, r)). split; [apply walks_child; auto|].
  split; [constructor|]. split.
  - simpl. econstructor; eauto. constructor.
  - rewrite gmul_1_l, gmul_1_r. destruct (ginv (t, r)); reflexivity.
Qed.

(* ---- construction with inverse=True ---- *)
Lemma new_attached s c p k d : Inv s -> c_parent c = Some p -> resolve_rf s p = Ok k ->
  init_arrays (c_tr c) (c_ro c) (c_ts c) (c_inverse c) = Ok d ->
  (c_discrete c = true -> c_ts c <> None) -> (c_ts c <> None <-> exists ts t r b, d = TMoving ts t r b) ->
  exists s', new_frame s c = (s', Ok (size s)) /\ Inv s' /\ size s' = S (size s) /\
    parent_of s' (size s) = Some k /\ transform_of s' (size s) = Some (set_disc (c_discrete c) d).
Proof.
  intros HI Hp Hr Hd Hdisc Hts.
  assert (HE : exists b, new_frame s c = (attach (alloc s (Node (c_name c) None [] b)) (size s) k, Ok (size s)) /\
                b = BTf (set_disc (c_discrete c) d)).
  { unfold new_frame. rewrite Hp, Hr, Hd. unfold finish. destruct d as [t r|ts t r b].
    - destruct (c_discrete c) eqn:Ed.
      + exfalso. apply Hts in Hdisc as (? & ? & ? & ? & H); auto. discriminate.
      + eexists. split; reflexivity.
    - eexists. split; reflexivity. }
  destruct HE as (b & HE & ->). eexists. split; [exact HE|].
  pose proof (Inv_new s c HI) as (H1 & _). rewrite HE in H1. simpl in H1. split; auto.
  split; [rewrite size_attach, size_alloc; auto|].
  split.
  - rewrite parent_attach; [|rewrite size_alloc; lia]. rewrite Nat.eqb_refl. reflexivity.
  - rewrite transform_body, body_attach. unfold body_of. rewrite get_alloc, Nat.eqb_refl. reflexivity.
Qed.

Lemma inv_static_ginv t r : hn2 r <> 0 -> inv_static t r = Ok (ginv (t, r)).
Proof.
  intros H. unfold inv_static. rewrite qrecip_hinv by auto. simpl.
  rewrite quat_rv_ok by (rewrite <- hn2_qnorm2; apply hn2_hinv_nz; auto). reflexivity.
Qed.
Lemma inv_row_ginv t r : hunit r -> inv_row (t, r) = Ok (ginv (t, r)).
Proof.
  intros H. unfold inv_row. cbn [fst snd]. rewrite qrecip_hinv by (apply hunit_nz; auto). simpl.
  rewrite rot1_hunit by (apply hunit_inv; auto). reflexivity.
Qed.

Lemma inverse_static s c p k ta ra : Inv s -> c_parent c = Some p -> resolve_rf s p = Ok k ->
  c_inverse c = true -> c_ts c = None -> c_discrete c = false ->
  c_tr c = Some ta -> shp ta = [3%nat] -> c_ro c = Some ra -> shp ra = [4%nat] ->
  hnonzero (quat_at ra []) ->
  exists s' i, new_frame s c = (s', Ok i) /\
    lookup_transform squad s' k (PFrame i) = Ok (TrStatic (vec_at ta []) (quat_at ra [])).
Proof.
  intros HI Hp Hr Hinv Hts Hdi Hta Hsa Hra Hsr Hnz.
  set (t := vec_at ta []) in *. set (r := quat_at ra []) in *.
  destruct (new_attached s c p k (TStatic (fst (ginv (t, r))) (snd (ginv (t, r)))) HI Hp Hr) as (s' & HE & HI' & Hsz & Hpar & Htf).
  - rewrite Hta, Hra, Hts, Hinv. unfold init_arrays, arg_ts, arg_vecs, arg_quats. simpl.
    rewrite (proj2 (shape_eqb_true _ _) Hsa). rewrite (proj2 (shape_eqb_true _ _) Hsr). simpl.
    change (vec_at ta []) with t. change (quat_at ra []) with r.
    rewrite inv_static_ginv by exact Hnz. reflexivity.
  - rewrite Hdi. discriminate.
  - rewrite Hts. split; [congruence|]. intros (? & ? & ? & ? & H); discriminate.
  - exists s', (size s). split; auto. 
    assert (Hg : gnz (t, r)) by exact Hnz. 
    cbv [set_disc] in Htf.
    rewrite (lookup_child_static s' k (size s) (fst (ginv (t, r))) (snd (ginv (t, r))) HI'); [| lia | exact Hpar | exact Htf |].
    + rewrite <- (surjective_pairing (ginv (t, r))). rewrite ginv_ginv by auto. reflexivity.
    + apply (gnz_inv (t, r) Hg).
Qed.

Lemma inverse_moving s c p k tsa ta ra n : Inv s -> c_parent c = Some p -> resolve_rf s p = Ok k ->
  c_inverse c = true -> squad_exact ->
  c_ts c = Some tsa -> shp tsa = [n] ->
  c_tr c = Some ta -> shp ta = [n; 3%nat] -> c_ro c = Some ra -> shp ra = [n; 4%nat] ->
  sampled (map (fun i => dat tsa [i]) (seq 0 n)) (c_discrete c) ->
  (forall i, (i < n)%nat -> hunit (quat_at ra [i])) ->
  exists s' i, new_frame s c = (s', Ok i) /\
    lookup_transform squad s' k (PFrame i) =
      Ok (TrRows (map (fun i => dat tsa [i]) (seq 0 n)) (map (fun i => (vec_at ta [i], quat_at ra [i])) (seq 0 n))).
Proof.
  intros HI Hp Hr Hinv Hsq Hts Hsts Hta Hsa Hra Hsr Hsam Hu.
  set (ts := map (fun i => dat tsa [i]) (seq 0 n)) in *.
  set (rows := map (fun i => (vec_at ta [i], quat_at ra [i])) (seq 0 n)).
  assert (Hrows : combine (map (fun i => vec_at ta [i]) (seq 0 n)) (map (fun i => quat_at ra [i]) (seq 0 n)) = rows).
  { unfold rows. generalize (seq 0 n). intros l. induction l; simpl; congruence. }
  assert (Hur : Forall (fun g => hunit (snd g)) rows).
  { unfold rows. apply Forall_forall. intros g Hg. apply in_map_iff in Hg as (i & <- & Hi). apply in_seq in Hi. apply Hu. lia. }
  assert (Hlen : List.length ts = n) by (unfold ts; rewrite map_length, seq_length; auto).
  assert (Hlr : List.length rows = n) by (unfold rows; rewrite map_length, seq_length; auto).
  destruct (new_attached s c p k (TMoving ts (map fst (map ginv rows)) (map snd (map ginv rows)) false) HI Hp Hr) as (s' & HE & HI' & Hsz & Hpar & Htf).
  - rewrite Hta, Hra, Hts, Hinv. unfold init_arrays, arg_ts, arg_vecs, arg_quats. rewrite Hsts. simpl bind. fold ts. 
    simpl option_map. rewrite Hlen. cbv zeta. rewrite (proj2 (shape_eqb_true _ _) Hsa). simpl bind.
    rewrite (proj2 (shape_eqb_true _ _) Hsr). simpl bind. rewrite Hrows.
    rewrite (traverse_ok inv_row ginv). reflexivity.
    intros [t r] Hin. apply inv_row_ginv. rewrite Forall_forall in Hur. exact (Hur _ Hin).
  - rewrite Hts. discriminate.
  - rewrite Hts. split; [|discriminate]. intros _. eauto.
  - exists s', (size s). split; auto. cbv [set_disc] in Htf.
    rewrite (lookup_child_moving s' k (size s) ts (map fst (map ginv rows)) (map snd (map ginv rows)) (c_discrete c) HI'); [| lia | exact Hpar | exact Htf | exact Hsq | exact Hsam | | | ].
    + do 2 f_equal. fold rows. clear -Hur. induction rows as [|[t r] l IH]; simpl; auto. inversion Hur; subst.
      f_equal; [|apply IH; auto]. apply (ginv_ginv (t, r)). apply hunit_nz. auto.
    + rewrite Hlen, (map_length _ (map ginv rows)), (map_length ginv rows). exact Hlr.
    + rewrite Hlen, (map_length _ (map ginv rows)), (map_length ginv rows). exact Hlr.
    + apply Forall_forall. intros q Hq. apply in_map_iff in Hq as (g & <- & Hg). apply in_map_iff in Hg as (h & <- & Hh).
      rewrite Forall_forall in Hur. destruct h as [t r]. simpl. apply hunit_inv. exact (Hur _ Hh).
Qed.
End S.
