(** Property C34: the angular velocity estimate is the body angular velocity. *)
From Coq Require Import Reals List Arith Bool ZArith Lia Lra Sorted.
From Verif Require Import Base Quat SpecQuat QuatProofs NdArray Frames Matcher SpecLookup MovingProofs TimeProofs
  Transform SpecArray NdProofs PropRotate Velocity VelProofs PropVelocity SpecMotion MotionProofs.
Import ListNotations.
Open Scope R_scope.

(** Some entry of the array at time index m is NaN. *)
Definition nan_at (a : nd (option R)) (tau m : nat) : Prop :=
  exists ix, valid (shp a) ix /\ nth tau ix O = m /\ dat a ix = None.
(** Which series an entry belongs to: its index with the time and coordinate
    positions set to zero. *)
Definition series (tau k : nat) (ix : list nat) : list nat := setn tau 0 (setn k 0 ix).
(** The differentiator is exact on the samples, at the times in G, of the function
    f with derivative f'. *)
Definition exact_on (deriv : list R -> list R -> res (list R)) (ts : list R) (G : list nat) (f f' : R -> R) : Prop :=
  deriv (map (fun m => f (nth m ts 0)) G) (map (fun m => nth m ts 0) G) = Ok (map (fun m => f' (nth m ts 0)) G).

(* ---- index lemmas ---- *)
Lemma setn_setn k x y l : setn k x (setn k y l) = setn k x l.
Proof. revert k; induction l as [|z l IH]; intros [|k]; simpl; auto. rewrite IH. reflexivity. Qed.
Lemma setn_comm i j x y l : i <> j -> setn i x (setn j y l) = setn j y (setn i x l).
Proof.
  revert i j; induction l as [|z l IH]; intros [|i] [|j] H; simpl; auto; try lia. rewrite IH by lia. reflexivity.
Qed.
Lemma setn_id k l : setn k (nth k l O) l = l.
Proof. revert k; induction l as [|z l IH]; intros [|k]; simpl; auto. rewrite IH. reflexivity. Qed.
Lemma swapl_setn i j x v l : (i < length l)%nat -> (j < length l)%nat -> (x < length l)%nat ->
  swapl i j (setn x v l) = setn (transp i j x) v (swapl i j l).
Proof.
  intros Hi Hj Hx. apply list_nth_ext; [rewrite length_swapl, !length_setn, length_swapl; auto|].
  intros n Hn. rewrite length_swapl, length_setn in Hn. rewrite nth_swapl by (rewrite length_setn; auto).
  destruct (Nat.eq_dec (transp i j n) x) as [E|E].
  - subst x. rewrite nth_setn_same by auto. rewrite transp_invol. rewrite nth_setn_same by (rewrite length_swapl; auto). reflexivity.
  - rewrite nth_setn_other by auto. rewrite nth_setn_other; [rewrite nth_swapl by auto; reflexivity|].
    intros ->. apply E. apply transp_invol.
Qed.
Lemma valid_setn s ix k c : valid s ix -> (c < nth k s O)%nat -> valid s (setn k c ix).
Proof.
  intros H. revert k. induction H as [|i n ix s Hi H IH]; intros k Hc; [destruct k; constructor|].
  destruct k as [|k]; simpl in *; constructor; auto. apply IH. auto.
Qed.
Lemma valid_setn2 s ix k c n : valid s ix -> (c < n)%nat -> valid (setn k n s) (setn k c ix).
Proof.
  intros H. revert k. induction H as [|i m ix s Hi H IH]; intros k Hc; [destruct k; constructor|].
  destruct k as [|k]; simpl in *; constructor; auto. apply IH. auto.
Qed.
Lemma pos_in_nth (f : nat -> R) G m : In m G -> nth (pos_in m G) (map f G) 0 = f m.
Proof.
  induction G as [|g G IH]; intros H; [destruct H|]. simpl. destruct (Nat.eqb_spec g m) as [->|Hne]; [reflexivity|].
  apply IH. destruct H; [contradiction|auto].
Qed.
Lemma filter_seq_sorted f n m : StronglySorted lt (filter f (seq n m)).
Proof.
  revert n; induction m as [|m IH]; intros n; simpl; [constructor|]. destruct (f n); auto. constructor; auto.
  apply Forall_forall. intros x Hx. apply filter_In in Hx as (Hx & _). apply in_seq in Hx. lia.
Qed.
Lemma comp4_cases (P : nat -> Prop) : P 0%nat -> P 1%nat -> P 2%nat -> P 3%nat -> forall c, (c < 4)%nat -> P c.
Proof. intros H0 H1 H2 H3 c Hc. destruct c as [|[|[|[|c]]]]; auto. lia. Qed.
Lemma rate_of_model q dq : qvec (qmulq (qmulq (Qt 2 0 0 0) (qconj q)) dq) = rate_of q dq.
Proof.
  destruct q as [a b c d], dq as [e f g h]. unfold rate_of, qvec, qmulq, qconj, hmul, hconj, mkq, ve, sc, vdot, vadd, vscale, vcross, vopp.
  cbn [vx vy vz qw qx qy qz]. apply vec3_eq; cbn [vx vy vz]; ring.
Qed.

(** The values of the estimate, from those the differentiator returns. *)
Lemma angular_values : forall deriv (a : nd (option R)) ts axis time_axis k tau (Q : list nat -> R -> quat) (E : list nat -> list nat -> nat -> quat),
  (k < ndim a)%nat -> (tau < ndim a)%nat -> k <> tau -> axis_is axis k (ndim a) -> axis_is time_axis tau (ndim a) ->
  nth k (shp a) O = 4%nat -> nth tau (shp a) O = List.length ts ->
  (forall ix, valid (shp a) ix -> ~ nan_at a tau (nth tau ix O) ->
     dat a ix = Some (comp4 (nth k ix O) (Q (series tau k ix) (nth (nth tau ix O) ts 0)))) ->
  (forall G c j, StronglySorted lt G -> (forall m, In m G <-> (m < List.length ts)%nat /\ ~ nan_at a tau m) -> (j < 4)%nat ->
     deriv (map (fun m => comp4 j (Q c (nth m ts 0))) G) (map (fun m => nth m ts 0) G) = Ok (map (fun m => comp4 j (E G c m)) G)) ->
  exists b G, StronglySorted lt G /\ (forall m, In m G <-> (m < List.length ts)%nat /\ ~ nan_at a tau m) /\
  estimate_angular deriv a ts axis time_axis = Ok b /\ shp b = setn k 3 (shp a) /\
  forall ix, valid (shp a) ix ->
    let m := nth tau ix O in
    (nan_at a tau m -> forall j, (j < 3)%nat -> dat b (setn k j ix) = None) /\
    (~ nan_at a tau m -> forall j, (j < 3)%nat ->
        dat b (setn k j ix) = Some (comp3 j (rate_of (Q (series tau k ix) (nth m ts 0)) (E G (series tau k ix) m)))).
Proof.
  intros deriv a ts axis time_axis k t0 Q E Hk Ht Hne Hax Hta H4 HN Hdat HG.
  unfold estimate_angular. destruct (ndim a) as [|n1] eqn:En; [lia|].
  cbv zeta. rewrite (axis_is_mod axis k (S n1) Hk Hax), (axis_is_mod time_axis t0 (S n1) Ht Hta). rewrite !Nat2Z.id.
  assert (Hls : List.length (shp a) = S n1) by exact En.
  set (tau := if Nat.eqb t0 n1 then k else t0).
  assert (Htau : (tau < S n1)%nat /\ tau <> n1 /\ transp k n1 tau = t0).
  { unfold tau. destruct (Nat.eqb_spec t0 n1) as [->|Hn].
    - split; [lia|]. split; [lia|]. unfold transp. rewrite Nat.eqb_refl. reflexivity.
    - split; [lia|]. split; [lia|]. unfold transp.
      destruct (Nat.eqb_spec t0 k); [lia|]. destruct (Nat.eqb_spec t0 n1); [lia|]. reflexivity. }
  destruct Htau as (Htl & Htn & Htr).
  assert (Htr' : transp k n1 t0 = tau) by (rewrite <- Htr; apply transp_invol).
  assert (Hkn : transp k n1 n1 = k) by (unfold transp; rewrite Nat.eqb_refl; destruct (Nat.eqb_spec n1 k); auto).
  assert (Hkn' : transp k n1 k = n1) by (unfold transp; rewrite Nat.eqb_refl; auto).
  assert (Hnth : forall ix x, List.length ix = S n1 -> (x < S n1)%nat -> nth x (swapl k n1 ix) O = nth (transp k n1 x) ix O)
    by (intros; apply nth_swapl; lia).
  cbv zeta.
  replace (nth tau (shp (swap_nd k n1 a)) O) with (List.length ts)
    by (cbn [shp swap_nd]; rewrite Hnth by (auto; lia); rewrite Htr; auto).
  rewrite Nat.eqb_refl. change (negb true) with false. cbv iota.
  replace (nth n1 (shp (swap_nd k n1 a)) O) with 4%nat
    by (cbn [shp swap_nd]; rewrite Hnth by (auto; lia); rewrite Hkn; auto).
  change (negb (Nat.eqb 4 4)) with false. cbv iota.
  set (r := swap_nd k n1 a).
  set (bad := fun m => existsb (fun ix => Nat.eqb (nth tau ix O) m && is_nan (dat r ix)) (indices (shp r))).
  assert (Hbad : forall m, bad m = true <-> nan_at a t0 m).
  { intros m. unfold bad, nan_at. rewrite existsb_exists. split.
    - intros (ix & Hix & E'). apply in_indices in Hix. apply andb_true_iff in E' as (E1 & E2). apply Nat.eqb_eq in E1.
      exists (swapl k n1 ix). pose proof (valid_length _ _ Hix) as L. cbn [r swap_nd shp] in L. rewrite length_swapl in L.
      split; [|split].
      + apply valid_swapl_inv; auto; lia.
      + rewrite Hnth by (auto; lia). rewrite Htr'. auto.
      + cbn [r swap_nd dat] in E2. destruct (dat a (swapl k n1 ix)); [discriminate|auto].
    - intros (ix & Hix & E1 & E2). exists (swapl k n1 ix). pose proof (valid_length _ _ Hix) as L.
      split; [apply in_indices; apply valid_swapl; auto; lia|]. apply andb_true_iff. split.
      + apply Nat.eqb_eq. rewrite Hnth by (auto; lia). rewrite Htr. auto.
      + cbn [r swap_nd dat]. rewrite swapl_invol by lia. rewrite E2. reflexivity. }
  set (good := filter (fun m => negb (bad m)) (seq 0 (List.length ts))).
  change (filter (fun m0 => negb (existsb (fun ix0 => Nat.eqb (nth tau ix0 O) m0 && is_nan (dat r ix0)) (indices (shp r)))) (seq 0 (List.length ts))) with good.
  assert (Hgood : forall m, In m good <-> (m < List.length ts)%nat /\ ~ nan_at a t0 m).
  { intros m. unfold good. rewrite filter_In, in_seq, negb_true_iff, <- Hbad. destruct (bad m); intuition (try lia; try discriminate). }
  pose proof (filter_seq_sorted (fun m => negb (bad m)) 0 (List.length ts) : StronglySorted lt good) as Hsort.
  (* the series of an index of the swapped array *)
  assert (Hser : forall jx, valid (shp r) jx ->
     let ix := swapl k n1 jx in
     map (fun m => num (dat r (setn tau m jx))) good =
     map (fun m => comp4 (nth k ix O) (Q (series t0 k ix) (nth m ts 0))) good).
  { intros jx Hjx ix. apply map_ext_in. intros m Hm. apply Hgood in Hm as (Hm1 & Hm2).
    pose proof (valid_length _ _ Hjx) as L. cbn [r swap_nd shp] in L. rewrite length_swapl in L.
    assert (Hix : valid (shp a) ix) by (apply valid_swapl_inv; auto; lia).
    assert (Li : List.length ix = S n1) by (unfold ix; rewrite length_swapl; lia).
    cbn [r swap_nd dat]. rewrite swapl_setn by lia. rewrite Htr. fold ix.
    rewrite Hdat.
    - cbn [num]. rewrite nth_setn_same by lia. rewrite (nth_setn_other t0 m ix k) by auto.
      unfold series. f_equal. f_equal. rewrite (setn_comm k t0) by auto. rewrite setn_setn. rewrite (setn_comm t0 k) by auto. reflexivity.
    - apply valid_setn; auto. rewrite HN. auto.
    - rewrite nth_setn_same by lia. auto. }
  assert (Hderiv : forall jx, valid (shp r) jx ->
     let ix := swapl k n1 jx in
     deriv (map (fun m => num (dat r (setn tau m jx))) good) (map (fun m => nth m ts 0) good) =
     Ok (map (fun m => comp4 (nth k ix O) (E good (series t0 k ix) m)) good)).
  { intros jx Hjx ix. rewrite Hser by auto. apply (HG good (series t0 k ix) (nth k ix O) Hsort Hgood).
    pose proof (valid_length _ _ Hjx) as L. cbn [r swap_nd shp] in L. rewrite length_swapl in L.
    assert (Hix : valid (shp a) ix) by (apply valid_swapl_inv; auto; lia).
    apply valid_nth in Hix as (_ & Hix). specialize (Hix k ltac:(lia)). lia. }
  rewrite (traverse_ok _ (fun jx => map (fun m => comp4 (nth k (swapl k n1 jx) O) (E good (series t0 k (swapl k n1 jx)) m)) good))
    by (intros jx Hjx; apply Hderiv, in_indices, Hjx).
  cbn [bind]. eexists. exists good. split; [exact Hsort|]. split; [exact Hgood|]. split; [reflexivity|]. split.
  { cbn [shp swap_nd]. rewrite swapl_setn by (unfold r; cbn [shp swap_nd]; rewrite length_swapl; lia). rewrite Hkn.
    unfold r. cbn [shp swap_nd]. rewrite swapl_invol by lia. reflexivity. }
  intros ix Hix. set (m := nth t0 ix O). pose proof (valid_length _ _ Hix) as Lix. rewrite Hls in Lix.
  assert (E1 : forall j, nth tau (swapl k n1 (setn k j ix)) O = m).
  { intros j. rewrite Hnth by (rewrite ?length_setn; auto; lia). rewrite Htr. apply nth_setn_other. auto. }
  assert (E2 : forall j, nth n1 (swapl k n1 (setn k j ix)) O = j).
  { intros j. rewrite Hnth by (rewrite ?length_setn; auto; lia). rewrite Hkn. apply nth_setn_same. lia. }
  assert (E3 : forall j c, setn n1 c (swapl k n1 (setn k j ix)) = swapl k n1 (setn k c ix)).
  { intros j c. rewrite (swapl_setn k n1 k) by lia. rewrite Hkn', setn_setn. rewrite (swapl_setn k n1 k) by lia. rewrite Hkn'. reflexivity. }
  assert (V4 : forall c, (c < 4)%nat -> valid (shp r) (swapl k n1 (setn k c ix))).
  { intros c Hc. apply valid_swapl; try lia. apply valid_setn; auto. rewrite H4. auto. }
  split.
  - intros Hnan j Hj. cbn [dat swap_nd]. rewrite E1. change (existsb (fun ix0 => Nat.eqb (nth tau ix0 O) m && is_nan (dat r ix0)) (indices (shp r))) with (bad m). apply Hbad in Hnan. rewrite Hnan. reflexivity.
  - intros Hnn. assert (Hb : bad m = false) by (destruct (bad m) eqn:E'; auto; apply Hbad in E'; contradiction).
    assert (Hm : (m < List.length ts)%nat).
    { apply valid_nth in Hix as (_ & Hix). specialize (Hix t0 ltac:(lia)). unfold m. lia. }
    set (c0 := series t0 k ix) in *. set (t := nth m ts 0) in *.
    intros j Hj. cbn [dat swap_nd]. rewrite E1, E2. change (existsb (fun ix0 => Nat.eqb (nth tau ix0 O) m && is_nan (dat r ix0)) (indices (shp r))) with (bad m). rewrite Hb. f_equal. f_equal. rewrite rate_of_model. f_equal.
    + (* q *)
      assert (EQ : forall c, (c < 4)%nat -> num (dat r (setn n1 c (swapl k n1 (setn k j ix)))) = comp4 c (Q c0 t)).
      { intros c Hc. rewrite E3. cbn [r swap_nd dat]. rewrite swapl_invol by (rewrite length_setn; lia).
        rewrite Hdat; [|apply valid_setn; auto; lia|rewrite nth_setn_other by auto; exact Hnn].
        cbn [num]. rewrite nth_setn_same by lia. rewrite nth_setn_other by auto. unfold series. rewrite setn_setn. reflexivity. }
      rewrite !EQ by lia. destruct (Q c0 t); reflexivity.
    + assert (EQ : forall c, (c < 4)%nat ->
         match deriv (map (fun m => num (dat r (setn tau m (setn n1 c (swapl k n1 (setn k j ix)))))) good) (map (fun m => nth m ts 0) good) with
         | Ok l => nth (pos_in m good) l 0 | Raise _ => 0 end = comp4 c (E good c0 m)).
      { intros c Hc. rewrite E3. rewrite Hderiv by auto. rewrite swapl_invol by (rewrite length_setn; lia).
        rewrite (pos_in_nth (fun m => comp4 (nth k (setn k c ix) O) (E good (series t0 k (setn k c ix)) m))) by (apply Hgood; auto).
        rewrite nth_setn_same by lia. unfold series. rewrite setn_setn. reflexivity. }
      rewrite !EQ by lia. destruct (E good c0 m); reflexivity.
Qed.
(** For every array of unit quaternion curves Q(c) (c: the index on the other axes)
    sampled along any time axis, with the coordinates on any other axis and NaNs
    anywhere: if the differentiator is exact on the samples that are not NaN, the
    result has the same shape with three coordinates, NaN at exactly the times
    where some input entry is NaN, and elsewhere the body angular velocity. *)
Theorem C34_body_rate : forall deriv (a : nd (option R)) ts axis time_axis k tau (Q dQ : list nat -> R -> quat),
  (k < ndim a)%nat -> (tau < ndim a)%nat -> k <> tau -> axis_is axis k (ndim a) -> axis_is time_axis tau (ndim a) ->
  nth k (shp a) O = 4%nat -> nth tau (shp a) O = List.length ts ->
  (forall c t, hunit (Q c t)) -> (forall c t, qderiv (Q c) t (dQ c t)) ->
  (forall ix, valid (shp a) ix -> ~ nan_at a tau (nth tau ix O) ->
     dat a ix = Some (comp4 (nth k ix O) (Q (series tau k ix) (nth (nth tau ix O) ts 0)))) ->
  (forall G c j, StronglySorted lt G -> (forall m, In m G <-> (m < List.length ts)%nat /\ ~ nan_at a tau m) -> (j < 4)%nat ->
     exact_on deriv ts G (fun t => comp4 j (Q c t)) (fun t => comp4 j (dQ c t))) ->
  exists b, estimate_angular deriv a ts axis time_axis = Ok b /\ shp b = setn k 3 (shp a) /\
  forall ix, valid (shp a) ix ->
    let m := nth tau ix O in
    (nan_at a tau m -> forall j, (j < 3)%nat -> dat b (setn k j ix) = None) /\
    (~ nan_at a tau m -> exists w, (forall j, (j < 3)%nat -> dat b (setn k j ix) = Some (comp3 j w)) /\
        body_rate (Q (series tau k ix)) (nth m ts 0) w).
Proof.
  intros deriv a ts axis time_axis k t0 Q dQ Hk Ht Hne Hax Hta H4 HN HU HD Hdat HG.
  destruct (angular_values deriv a ts axis time_axis k t0 Q (fun _ c m => dQ c (nth m ts 0)) Hk Ht Hne Hax Hta H4 HN Hdat) as (b & G0 & _ & _ & Hb & Hs & Hv).
  { intros G c j HS HGm Hj. apply (HG G c j HS HGm Hj). }
  exists b. split; [exact Hb|]. split; [exact Hs|]. intros ix Hix m. destruct (Hv ix Hix) as (H1 & H2). split; [exact H1|].
  intros Hn. eexists. split; [exact (H2 Hn)|]. apply body_rate_of; auto.
Qed.

(** Concrete case: rotation about z with unit rate, two samples, and a
    differentiator that is exact on them. *)
Definition zspin (t : R) : quat := Qt (cos (t / 2)) 0 0 (sin (t / 2)).
Definition zspin' (t : R) : quat := Qt (- sin (t / 2) / 2) 0 0 (cos (t / 2) / 2).
Definition two_times : list R := [0; 1].
Definition deriv_ex (s t : list R) : res (list R) :=
  Ok (if list_eq_dec Req_EM_T s (map (fun x => cos (x / 2)) t) then map (fun x => - sin (x / 2) / 2) t
      else if list_eq_dec Req_EM_T s (map (fun x => sin (x / 2)) t) then map (fun x => cos (x / 2) / 2) t
      else map (fun _ => 0) t).
Definition spin_arr : nd (option R) := Nd [2;4]%nat (fun ix => Some (comp4 (nth 1 ix O) (zspin (nth (nth 0 ix O) two_times 0)))).
Lemma half_deriv f f' t : derivable_pt_lim f (t / 2) f' -> derivable_pt_lim (fun x => f (x / 2)) t (f' / 2).
Proof.
  intros H. apply (dlim_eq _ _ (f' * (/2))); [lra|].
  apply (derivable_pt_lim_comp (fun x => x / 2) f); auto.
  apply (dlim_ext (fun x => /2 * x)); [intros; lra|].
  apply (dlim_eq _ _ (0 * t + /2 * 1)); [lra|]. apply (dlim_mul (fun _ => /2) (fun x => x)); [apply dlim_const|apply derivable_pt_lim_id].
Qed.
Example C34_example : (forall t, hunit (zspin t)) /\ (forall t, qderiv zspin t (zspin' t)) /\
  (forall ix, valid (shp spin_arr) ix -> dat spin_arr ix = Some (comp4 (nth 1 ix O) (zspin (nth (nth 0 ix O) two_times 0)))) /\
  (forall m, ~ nan_at spin_arr 0 m) /\
  (forall G j, StronglySorted lt G -> (forall m, In m G <-> (m < List.length two_times)%nat /\ ~ nan_at spin_arr 0 m) -> (j < 4)%nat ->
     exact_on deriv_ex two_times G (fun t => comp4 j (zspin t)) (fun t => comp4 j (zspin' t))).
Proof.
  split. { intros t. unfold hunit, hn2, zspin, sc, ve, vdot. cbn. pose proof (sin2_cos2 (t / 2)) as H. unfold Rsqr in H. lra. }
  split.
  { intros t. unfold qderiv, zspin, zspin'. cbn [qw qx qy qz]. split; [apply half_deriv, derivable_pt_lim_cos|].
    split; [apply dlim_const|]. split; [apply dlim_const|]. apply half_deriv, derivable_pt_lim_sin. }
  split; [reflexivity|]. split; [intros m (ix & _ & _ & H); discriminate|].
  intros G j HS HG Hj.
  assert (EG : G = [0;1]%nat).
  { assert (N : forall m, ~ nan_at spin_arr 0 m) by (intros m (ix & _ & _ & H); discriminate).
    assert (I : forall m, In m G <-> (m < 2)%nat) by (intros m; rewrite HG; simpl; intuition; eapply N; eauto).
    destruct G as [|g G]; [destruct (proj2 (I 0%nat) ltac:(lia))|]. inversion HS as [|? ? HS' HF]; subst.
    rewrite Forall_forall in HF.
    assert (g = 0)%nat. { destruct (proj2 (I 0%nat) ltac:(lia)) as [|Hin]; auto. apply HF in Hin. lia. } subst g.
    destruct G as [|g G]; [destruct (proj2 (I 1%nat) ltac:(lia)) as [H|[]]; lia|]. 
    assert (g < 2)%nat by (apply I; right; left; auto). assert (0 < g)%nat by (apply HF; left; auto).
    assert (g = 1)%nat by lia. subst g. f_equal. f_equal.
    destruct G as [|g G]; auto. exfalso. inversion HS' as [|? ? _ HF']; subst. rewrite Forall_forall in HF'.
    assert (g < 2)%nat by (apply I; right; right; left; auto). specialize (HF' g (or_introl eq_refl)). lia. }
  subst G. unfold exact_on. cbn [map nth two_times].
  assert (S1 : 0 < sin (1 / 2)). { apply sin_gt_0; [lra|]. pose proof PI2_1. lra. }
  assert (S0 : sin (0 / 2) = 0) by (replace (0 / 2) with 0 by lra; apply sin_0).
  assert (C0 : cos (0 / 2) = 1) by (replace (0 / 2) with 0 by lra; apply cos_0).
  unfold deriv_ex. cbn [map]. f_equal. destruct j as [|[|[|[|j]]]]; try lia; cbn [comp4 zspin zspin' qw qx qy qz].
  - destruct (list_eq_dec Req_EM_T _ _) as [_|Hn]; [reflexivity|exfalso; apply Hn; reflexivity].
  - destruct (list_eq_dec Req_EM_T _ _) as [E|_]; [injection E; intros; lra|].
    destruct (list_eq_dec Req_EM_T _ _) as [E|_]; [injection E; intros; lra|reflexivity].
  - destruct (list_eq_dec Req_EM_T _ _) as [E|_]; [injection E; intros; lra|].
    destruct (list_eq_dec Req_EM_T _ _) as [E|_]; [injection E; intros; lra|reflexivity].
  - destruct (list_eq_dec Req_EM_T _ _) as [E|_]; [injection E; intros; lra|].
    destruct (list_eq_dec Req_EM_T _ _) as [_|Hn]; [reflexivity|exfalso; apply Hn; reflexivity].
Qed.
