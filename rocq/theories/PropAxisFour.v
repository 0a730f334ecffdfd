(** Property C23 for timestamped arrays whose last axis has length four: these are resampled by
    quaternion interpolation whatever the data mean (core.py:95-105). *)
From Coq Require Import Reals List Arith Bool ZArith Lia Lra.
From Verif Require Import Base Quat SpecQuat QuatProofs NdArray Frames SpecForest FrameProofs WalkProofs
  Matcher SpecLookup LookupProofs RegistryProofs MovingProofs TimeProofs CtorProofs InverseProofs RouteProofs
  Examples PropForest PropLookup PropMoving
  Transform SpecArray NdProofs RotProofs ArrProofs ArrTransProofs ArrStaticProofs PropTransform PropRotate AxisProofs PropAxisMoving
  Velocity VelProofs PropAngular Squad SquadProofs PropSquad.
Import ListNotations.
Open Scope nat_scope.

(* ------------------------------------------------------------------ specification *)

(** The axis that is last once the time axis t and the first axis have been exchanged. *)
Definition last_axis (arr : nd R) (t : nat) : nat := if Nat.eqb (S t) (ndim arr) then 0 else ndim arr - 1.
(** The four entries along axis q at ix (whose entry at q is ignored) are all zero. *)
Definition zero_block (arr : nd R) (q : nat) (ix : list nat) : Prop := forall d, d < 4 -> dat arr (setn q d ix) = 0%R.
(** Either nothing is resampled in fours, or no four entries taken together are all zero. *)
Definition resamples (arr : nd R) (t : nat) : Prop :=
  last_length arr t = 4 -> forall ix, valid (shp arr) ix -> ~ zero_block arr (last_axis arr t) ix.

(* ------------------------------------------------------------------ squad at a sample *)

Lemma power_zero q : np_power q 0 = q1.
Proof.
  unfold np_power. replace (qscale 0 (np_log q)) with (mkq 0 v0); [apply exp_zero|].
  destruct (np_log q) as [a b c d]. cbv [qscale mkq v0 qw qx qy qz vx vy vz]. rewrite !Rmult_0_l. reflexivity.
Qed.
Lemma one_left a : qmulq q1 a = a.
Proof. destruct a as [a b c d]. cbv [qmulq q1 qw qx qy qz]. f_equal; ring. Qed.
Lemma slerp_zero a b : np_slerp a b 0 = a.
Proof. unfold np_slerp. rewrite !power_zero, !one_left. destruct (Rle_b _ _); reflexivity. Qed.
Lemma evaluate_zero q a b p : squad_evaluate 0 q a b p = q.
Proof. unfold squad_evaluate. replace (2 * 0 * (1 - 0))%R with 0%R by ring. rewrite !slerp_zero. reflexivity. Qed.
Definition qzero : quat := Qt 0 0 0 0.
Lemma norm_zero q : qnorm2 q = 0%R <-> q = qzero.
Proof.
  destruct q as [a b c d]. cbv [qnorm2 qzero qw qx qy qz]. split.
  - intros H. assert (a = 0 /\ b = 0 /\ c = 0 /\ d = 0)%R as (-> & -> & -> & ->); [|reflexivity].
    repeat split; apply Rsqr_0_uniq; unfold Rsqr; nra.
  - intros H. injection H as -> -> -> ->. ring.
Qed.
Lemma zero_in rr : existsb (fun q => Req_b (qnorm2 q) 0) rr = true <-> In qzero rr.
Proof.
  rewrite existsb_exists. split.
  - intros (q & Hq & E). apply Req_b_true in E. apply norm_zero in E. subst. exact Hq.
  - intros H. exists qzero. split; [exact H|]. apply Req_b_true. apply norm_zero. reflexivity.
Qed.
(** At the time of a sample squad gives the sample, if no sample is zero. *)
Lemma np_squad_sample ts rr m x r : increasing ts -> 2 <= length ts -> length rr = length ts -> ~ In qzero rr ->
  nth_error ts m = Some x -> nth_error rr m = Some r -> np_squad ts rr x = Ok r.
Proof.
  intros Hi Hn Hl Hz Hm Hr. unfold np_squad. rewrite Hl, Nat.eqb_refl. cbn [negb]. destruct (Nat.ltb_spec (length ts) 2); [lia|].
  destruct (existsb _ rr) eqn:E; [apply zero_in in E; tauto|]. rewrite strictly_inc by assumption. cbn [orb negb]. f_equal.
  pose proof (nth_lt _ _ _ Hm) as Lm. pose proof (nth_error_nth _ _ 0%R Hm) as Ex. pose proof (nth_error_nth _ _ q1 Hr) as Er.
  assert (I : interval_of ts x = m).
  { apply interval_is; auto; [lra|]. intros Hs. rewrite <- Ex. apply increasing_nth; auto. }
  unfold squad_at. rewrite I. unfold stime at 1. rewrite Ex. replace ((x - x) / duration ts m)%R with 0%R by (unfold Rdiv; ring).
  rewrite evaluate_zero. exact Er.
Qed.
(** A zero among the samples. *)
Lemma np_squad_zero ts rr x : 2 <= length ts -> length rr = length ts -> In qzero rr -> np_squad ts rr x = Raise NaNValue.
Proof.
  intros Hn Hl Hz. unfold np_squad. rewrite Hl, Nat.eqb_refl. cbn [negb]. destruct (Nat.ltb_spec (length ts) 2); [lia|].
  apply zero_in in Hz. rewrite Hz. reflexivity.
Qed.
Lemma np_squad_either ts rr x : 2 <= length ts -> length rr = length ts ->
  (exists q, np_squad ts rr x = Ok q) \/ np_squad ts rr x = Raise NaNValue.
Proof.
  intros Hn Hl. unfold np_squad. rewrite Hl, Nat.eqb_refl. cbn [negb]. destruct (Nat.ltb_spec (length ts) 2); [lia|].
  destruct (existsb _ rr || negb (strictly ts)); eauto.
Qed.

(* ------------------------------------------------------------------ arrays *)

Lemma squad_nd_blocks ts (a : nd R) l n mid : increasing ts -> 2 <= length ts ->
  shp a = n :: mid ++ [4] -> length ts = n ->
  (forall m pre, m < n -> valid mid pre -> quat_at a (m :: pre) <> qzero) ->
  (forall x, In x l -> In x ts) ->
  exists b, squad_nd np_squad ts a l = Ok b /\ shp b = length l :: mid ++ [4] /\
    forall k x m pre, nth_error l k = Some x -> nth_error ts m = Some x -> valid mid pre ->
      quat_at b (k :: pre) = quat_at a (m :: pre).
Proof.
  intros Hi Hn Hs Hl Hu Hin. unfold squad_nd. rewrite Hs.
  destruct (mid ++ [4]) as [|z rest] eqn:Em; [destruct mid; discriminate|].
  cbn [tl]. rewrite <- Em. rewrite removelast_snoc.
  assert (K : forall x m pre, nth_error ts m = Some x -> valid mid pre ->
     np_squad ts (map (fun i => quat_at a (i :: pre)) (seq 0 n)) x = Ok (quat_at a (m :: pre))).
  { intros x m pre Hm Hp. pose proof (nth_lt _ _ _ Hm) as Lm. apply (np_squad_sample ts _ m); auto.
    - rewrite map_length, seq_length. auto.
    - intros Hq. apply in_map_iff in Hq as (i & Hz & Hi'). apply in_seq in Hi'. apply (Hu i pre); [lia|auto|auto].
    - rewrite nth_error_map. rewrite (nth_error_nth' (seq 0 n) 0) by (rewrite seq_length; lia).
      rewrite seq_nth by lia. reflexivity. }
  rewrite (traverse_ok _ (fun x => map (fun pre => match np_squad ts (map (fun i => quat_at a (i :: pre)) (seq 0 n)) x with Ok q => q | Raise _ => q1 end) (indices mid))).
  2:{ intros x Hx. apply traverse_ok. intros pre Hp. apply in_indices in Hp. apply Hin, In_nth_error in Hx as (m & Hm).
      rewrite (K x m pre Hm Hp). reflexivity. }
  cbn [bind]. eexists. split; [reflexivity|]. cbn [shp dat]. split; [reflexivity|].
  intros k x m pre Hk Hm Hp.
  assert (D : forall c, c < 4 -> dat (Nd (length l :: mid ++ [4]) (fun ix => match nth_error l (hd 0 ix) with None => 0%R | Some x => match np_squad ts (map (fun i => quat_at a (i :: removelast (tl ix))) (seq 0 n)) x with Ok q => comp4 (last ix 0) q | Raise _ => 0%R end end)) ((k :: pre) ++ [c]) = comp4 c (quat_at a (m :: pre))).
  { intros c Hc. cbn [dat]. rewrite last_snoc. cbn [app hd tl]. rewrite removelast_snoc.
    rewrite Hk. rewrite (K x m pre Hm Hp). reflexivity. }
  unfold quat_at at 1. apply quat_eq; cbn [qw qx qy qz]; [apply (D 0)|apply (D 1)|apply (D 2)|apply (D 3)]; lia.
Qed.

Lemma traverse_first_exc {A B} (f : A -> res B) l e x : In x l -> f x = Raise e ->
  (forall y, In y l -> (exists b, f y = Ok b) \/ f y = Raise e) -> traverse f l = Raise e.
Proof.
  unfold traverse. induction l as [|y l IH]; intros Hx Hf Ha; [destruct Hx|]. simpl.
  destruct (Ha y (or_introl eq_refl)) as [(b & Eb) | Ey].
  - destruct Hx as [<- | Hx]; [congruence|]. rewrite Eb. cbn [bind]. rewrite IH; auto. intros z Hz. apply Ha. right; auto.
  - rewrite Ey. reflexivity.
Qed.
Lemma traverse_cases {A B} (f : A -> res B) l e : (forall y, In y l -> (exists b, f y = Ok b) \/ f y = Raise e) ->
  (exists b, traverse f l = Ok b) \/ traverse f l = Raise e.
Proof.
  unfold traverse. induction l as [|y l IH]; intros Ha; [left; eexists; reflexivity|]. simpl.
  destruct (Ha y (or_introl eq_refl)) as [(b & Eb) | Ey].
  - rewrite Eb. cbn [bind]. destruct IH as [(c & Ec) | Ec]; [intros z Hz; apply Ha; right; auto|rewrite Ec; cbn [bind]; eauto..].
  - right. rewrite Ey. reflexivity.
Qed.
Lemma squad_nd_nan ts (a : nd R) l n mid m pre : 2 <= length ts -> shp a = n :: mid ++ [4] -> length ts = n ->
  m < n -> valid mid pre -> quat_at a (m :: pre) = qzero -> l <> [] -> squad_nd np_squad ts a l = Raise NaNValue.
Proof.
  intros Hn Hs Hl Hm Hp Hz Hne. unfold squad_nd. rewrite Hs.
  destruct (mid ++ [4]) as [|z rest] eqn:Em; [destruct mid; discriminate|].
  cbn [tl]. rewrite <- Em. rewrite removelast_snoc.
  set (f := fun x jx => np_squad ts (map (fun i => quat_at a (i :: jx)) (seq 0 n)) x).
  assert (F : forall x jx, (exists b, f x jx = Ok b) \/ f x jx = Raise NaNValue).
  { intros x jx. unfold f. apply np_squad_either; auto. rewrite map_length, seq_length. auto. }
  assert (Z : forall x, f x pre = Raise NaNValue).
  { intros x. unfold f. apply np_squad_zero; auto; [rewrite map_length, seq_length; auto|]. rewrite <- Hz.
    apply in_map_iff. exists m. split; auto. apply in_seq. lia. }
  destruct l as [|x l]; [congruence|].
  assert (T : traverse (fun x => traverse (f x) (indices mid)) (x :: l) = Raise NaNValue).
  2:{ unfold f in T. rewrite T. reflexivity. }
  apply (traverse_first_exc _ (x :: l) NaNValue x); [left; reflexivity| |].
  - apply (traverse_first_exc (f x) _ NaNValue pre); auto. apply in_indices. exact Hp.
  - intros y _. apply traverse_cases. intros jx _. apply F.
Qed.

(** Setting the last entry before the exchange sets that axis after it. *)
Lemma swap_block t N m pre c : length pre = N -> t < S (S N) ->
  swapl 0 t (m :: pre ++ [c]) = setn (if Nat.eqb (S t) (S (S N)) then 0 else S N) c (swapl 0 t (m :: pre ++ [0])).
Proof.
  intros L Ht. apply (List.nth_ext _ _ 0 0).
  - rewrite length_setn, !length_swapl. simpl. rewrite !app_length. reflexivity.
  - assert (Ll : forall c, length (m :: pre ++ [c]) = S (S N)) by (intros; simpl; rewrite app_length; simpl; lia).
    intros q Hq. rewrite length_swapl, Ll in Hq.
    assert (E : forall j, j < S N -> nth j (m :: pre ++ [c]) 0 = nth j (m :: pre ++ [0]) 0).
    { intros j Hj. change (m :: pre ++ [c]) with ((m :: pre) ++ [c]). change (m :: pre ++ [0]) with ((m :: pre) ++ [0]).
      rewrite !app_nth1 by (simpl; lia). reflexivity. }
    assert (E2 : nth (S N) (m :: pre ++ [c]) 0 = c).
    { simpl. rewrite app_nth2 by lia. rewrite L, Nat.sub_diag. reflexivity. }
    rewrite nth_swapl by (rewrite Ll; auto). unfold transp.
    destruct (Nat.eqb_spec (S t) (S (S N))) as [Et | Et].
    + destruct (Nat.eqb_spec q 0) as [-> | Nq].
      * rewrite nth_setn_same by (rewrite length_swapl, Ll; lia). replace t with (S N) by lia. exact E2.
      * rewrite nth_setn_other by auto. rewrite nth_swapl by (rewrite Ll; auto). unfold transp.
        destruct (Nat.eqb_spec q 0); [lia|]. destruct (Nat.eqb_spec q t); apply E; lia.
    + destruct (Nat.eq_dec q (S N)) as [-> | Nq].
      * rewrite nth_setn_same by (rewrite length_swapl, Ll; lia). destruct (Nat.eqb_spec (S N) 0); [lia|].
        destruct (Nat.eqb_spec (S N) t); [lia|]. exact E2.
      * rewrite nth_setn_other by auto. rewrite nth_swapl by (rewrite Ll; auto). unfold transp.
        destruct (Nat.eqb_spec q 0); [apply E; lia|]. destruct (Nat.eqb_spec q t); apply E; lia.
Qed.

Section Arr.
Variables (arr : nd R) (nn : nat) (axis ta : Z) (tsa : nd R) (n k tau : nat) (sh : list nat).
Hypothesis Hon : on_axes arr nn axis ta tsa (S k) tau n sh.
Let t := beside (S k) tau.
Let a := swap_nd 0 t arr.

Lemma facts : increasing (times tsa n) /\ 2 <= n /\ ndim arr = S (S (length sh)) /\ t < ndim arr /\ shp a = n :: insert_at k nn (mv tau sh) /\
  length (insert_at k nn (mv tau sh)) = S (length sh) /\ k <= length sh /\ tau <= length sh.
Proof.
  pose proof Hon as (_ & _ & _ & _ & _ & Hts & Hn & Hinc). destruct (on_facts tsa n Hn arr nn axis ta k tau sh Hon) as (F1 & F2 & F3 & F4 & F5 & F6 & F7).
  split; [apply stamps_increasing; auto|]. split; auto. split; auto. split; auto. split; [apply sh_a'; auto|].
  split; [rewrite length_insert by (rewrite length_mv; auto); rewrite length_mv by auto; lia|]. auto.
Qed.
Lemma four_mid : last (shp a) 0 = 4 -> exists mid, insert_at k nn (mv tau sh) = mid ++ [4] /\ length mid = length sh.
Proof.
  destruct facts as (_ & _ & _ & _ & Sa & Lr & _). rewrite Sa. intros H4.
  destruct (exists_last (l := insert_at k nn (mv tau sh))) as (mid & z & E). { intros E. rewrite E in Lr. discriminate. }
  exists mid. rewrite E in *. rewrite app_length in Lr. simpl in Lr. rewrite app_comm_cons, last_snoc in H4. subst z. split; [reflexivity|lia].
Qed.
Lemma block_at (mid : list nat) m pre c : length mid = length sh -> length pre = length mid ->
  dat a (m :: pre ++ [c]) = dat arr (setn (last_axis arr t) c (swapl 0 t (m :: pre ++ [0]))).
Proof.
  destruct facts as (_ & _ & Nd & Ht & _). intros Lm Lp. unfold a. cbn [swap_nd dat]. rewrite (swap_block t (length pre)) by lia.
  unfold last_axis. rewrite Nd, Lp, Lm. cbn [Nat.sub]. reflexivity.
Qed.
Lemma valid_block mid m pre c : insert_at k nn (mv tau sh) = mid ++ [4] -> m < n -> valid mid pre -> c < 4 ->
  valid (shp arr) (swapl 0 t (m :: pre ++ [c])).
Proof.
  destruct facts as (_ & _ & Nd & Ht & Sa & _). intros E Hm Hp Hc. apply valid_swapl_inv; [unfold ndim in *; lia..|].
  change (swapl 0 t (shp arr)) with (shp a). rewrite Sa, E. constructor; auto. apply Forall2_app; auto.
Qed.
Lemma quat_block (mid : list nat) m pre : length mid = length sh -> length pre = length mid ->
  (quat_at a (m :: pre) = qzero <-> zero_block arr (last_axis arr t) (swapl 0 t (m :: pre ++ [0]))).
Proof.
  intros Lm Lp. unfold quat_at, zero_block, qzero. cbn [app]. rewrite !(block_at mid) by auto. split.
  - intros H. injection H as H0 H1 H2 H3. intros d Hd. destruct d as [|[|[|[|d]]]]; auto; lia.
  - intros H. rewrite !H by lia. reflexivity.
Qed.
Lemma last_eq : last (shp a) 0 = last_length arr (time_pos (S k) tau).
Proof.
  destruct facts as (_ & _ & Nd & Ht & _). unfold a. rewrite last_swapped by lia. destruct (Nat.eqb_spec (ndim arr) 1); [lia|]. reflexivity.
Qed.
Lemma resample_any l : resamples arr (time_pos (S k) tau) -> (forall x, In x l -> In x (times tsa n)) ->
  exists b, resample_array np_squad (MA a (Some (times tsa n))) (Some l) = Ok b /\ resampled_axis arr nn tsa n k tau sh b l.
Proof.
  intros HZ Hin. pose proof Hon as (_ & _ & _ & _ & _ & Hts & Hn & Hinc).
  destruct (on_facts tsa n Hn arr nn axis ta k tau sh Hon) as (F1 & F2 & F3 & F4 & F5 & F6 & F7).
  destruct facts as (Hi & _ & Nd & Ht & Sa & Lr & Lk & Lt).
  destruct (Nat.eq_dec (last (shp a) 0) 4) as [E4 | N4].
  2:{ apply (resample_axis np_squad arr nn tsa n k tau sh F1 F2 F3 Hi Hn l); auto. }
  destruct (four_mid E4) as (mid & Em & Lm).
  destruct (squad_nd_blocks (times tsa n) a l n mid Hi) as (b & Eb & Sb & Db); auto.
  { rewrite length_times. auto. } { rewrite Sa, Em. reflexivity. } { apply length_times. }
  { intros m pre Hm Hp Hq. pose proof (valid_length _ _ Hp) as Lp.
    apply (quat_block mid m pre Lm Lp) in Hq. revert Hq. apply HZ.
    - rewrite <- last_eq. exact E4.
    - apply (valid_block mid); auto. }
  exists b. split.
  - unfold resample_array. cbn [ma_ts ma_data]. rewrite E4. exact Eb.
  - split; [rewrite Sb, Em; reflexivity|]. intros c x m pre d Hc Hm Hv Hd. pose proof (valid_length _ _ Hv) as Lp.
    rewrite <- (dat_a' arr n k tau sh) by auto. fold t. fold a.
    assert (V : valid (mid ++ [4]) (insert_at k d (mv tau pre))).
    { rewrite <- Em. apply valid_insert; auto; [rewrite length_mv; lia|apply valid_mv; auto]. }
    apply Forall2_app_inv_r in V as (p1 & p2 & V1 & V2 & E). rewrite E. inversion V2 as [|e z p3 z3 He V3]; subst. inversion V3; subst.
    specialize (Db c x m p1 Hc Hm V1).
    rewrite !app_comm_cons, <- (quat_at_comp b), <- (quat_at_comp a) by auto. rewrite Db. reflexivity.
Qed.
End Arr.

Lemma vectors_any s i to j tsa n fs l rows arr axis ta k tau sh :
  denotes s to j -> frames_between s i j = Ok fs ->
  (forall a, get_timestamps (Mat fs [MA a (Some (times tsa n))]) true = Ok (Some l)) ->
  foldM (step_rows np_squad l) fs (map (fun _ => (v0, q1)) l) = Ok rows -> kept s i j tsa n l ->
  length rows = length l -> (forall k, k < length l -> hunit (rowq rows k)) ->
  on_axes arr 3 axis ta tsa (S k) tau n sh -> resamples arr (time_pos (S k) tau) ->
  exists out, transform_vectors np_squad s i arr to axis (Some ta) (Some tsa) = Ok (out, Some l) /\
    shp out = put (S k) 3 (put tau (length l) sh) /\
    forall c x m pre, nth_error l c = Some x -> m < n -> dat tsa [m] = x -> valid sh pre ->
      vec_on out (S k) (put tau c pre) = srot (rowq rows c) (vec_on arr (S k) (put tau m pre)).
Proof.
  intros Hj Hf Hl Hr HK L Hu Hon H4.
  pose proof Hon as (_ & _ & _ & _ & _ & Hts & Hn & Hinc).
  destruct (on_facts _ _ Hn _ _ _ _ _ _ _ Hon) as (F1 & F2 & F3 & F4 & F5 & F6 & F7).
  destruct (resample_any arr 3 axis ta tsa n k tau sh Hon l H4) as (b & Eb & Rb).
  { intros x Hx. eapply PropAxisMoving.kept_in; eauto. }
  destruct (prepared np_squad s i to j tsa n Hj Hts Hn Hinc arr 3 axis ta k tau sh Hon fs l rows b Hf Hl Hr Eb) as (tr & Hp & Htr).
  destruct (vectors_axis np_squad s i arr to 3 axis ta tsa n k tau sh F1 F2 F3 F4 F5 Hn tr l rows b eq_refl Hp Htr L Hu Rb) as (out & Eo & So & Do).
  exists out. split; [exact Eo|]. split.
  { rewrite So, (put_insert tau), put_insert by (rewrite ?length_insert; lia). reflexivity. }
  intros c x m pre Hc Hm Hx Hv. pose proof (valid_length _ _ Hv) as Lp.
  rewrite !(put_insert tau) by lia. rewrite !vec_on_along by (rewrite length_insert; lia).
  apply (Do c x m pre Hc); auto. apply nth_times. auto.
Qed.
Lemma quats_any s i to j tsa n fs l rows arr axis ta k tau sh :
  denotes s to j -> frames_between s i j = Ok fs ->
  (forall a, get_timestamps (Mat fs [MA a (Some (times tsa n))]) true = Ok (Some l)) ->
  foldM (step_rows np_squad l) fs (map (fun _ => (v0, q1)) l) = Ok rows -> kept s i j tsa n l ->
  length rows = length l ->
  on_axes arr 4 axis ta tsa (S k) tau n sh -> resamples arr (time_pos (S k) tau) ->
  exists out, transform_quaternions np_squad s i arr to axis (Some ta) (Some tsa) = Ok (out, Some l) /\
    shp out = put (S k) 4 (put tau (length l) sh) /\
    forall c x m pre, nth_error l c = Some x -> m < n -> dat tsa [m] = x -> valid sh pre ->
      quat_on out (S k) (put tau c pre) = hmul (rowq rows c) (quat_on arr (S k) (put tau m pre)).
Proof.
  intros Hj Hf Hl Hr HK L Hon H4.
  pose proof Hon as (_ & _ & _ & _ & _ & Hts & Hn & Hinc).
  destruct (on_facts _ _ Hn _ _ _ _ _ _ _ Hon) as (F1 & F2 & F3 & F4 & F5 & F6 & F7).
  destruct (resample_any arr 4 axis ta tsa n k tau sh Hon l H4) as (b & Eb & Rb).
  { intros x Hx. eapply PropAxisMoving.kept_in; eauto. }
  destruct (prepared np_squad s i to j tsa n Hj Hts Hn Hinc arr 4 axis ta k tau sh Hon fs l rows b Hf Hl Hr Eb) as (tr & Hp & Htr).
  destruct (quats_axis np_squad s i arr to 4 axis ta tsa n k tau sh F1 F2 F3 F4 F5 Hn tr l rows b eq_refl Hp Htr L Rb) as (out & Eo & So & Do).
  exists out. split; [exact Eo|]. split.
  { rewrite So, (put_insert tau), put_insert by (rewrite ?length_insert; lia). reflexivity. }
  intros c x m pre Hc Hm Hx Hv. pose proof (valid_length _ _ Hv) as Lp.
  rewrite !(put_insert tau) by lia. rewrite !quat_on_along by (rewrite length_insert; lia).
  apply (Do c x m pre Hc); auto. apply nth_times. auto.
Qed.

(* ------------------------------------------------------------------ theorems *)

(** Coordinates of vectors (or orientations, not necessarily of unit length) on any axis k but the first,
    any lengths of the other axes: the kept samples are rotated by the transform at their time. *)
Theorem C23_any_shape_partial : forall s i to j arr nn axis ta tsa k tau n sh,
  reachable s -> frame s i -> denotes s to j -> good_way s i j ->
  on_axes arr nn axis ta tsa k tau n sh -> 0 < k -> resamples arr (time_pos k tau) ->
  exists l, kept s i j tsa n l /\
  (nn = 3 -> exists out, transform_vectors np_squad s i arr to axis (Some ta) (Some tsa) = Ok (out, Some l) /\
    shp out = put k 3 (put tau (length l) sh) /\
    forall c x, nth_error l c = Some x -> exists m t r, m < n /\ dat tsa [m] = x /\ maps_at np_squad s x i j t r /\
      forall pre, valid sh pre -> vec_on out k (put tau c pre) = srot r (vec_on arr k (put tau m pre))) /\
  (nn = 4 -> exists out, transform_quaternions np_squad s i arr to axis (Some ta) (Some tsa) = Ok (out, Some l) /\
    shp out = put k 4 (put tau (length l) sh) /\
    forall c x, nth_error l c = Some x -> exists m t r, m < n /\ dat tsa [m] = x /\ maps_at np_squad s x i j t r /\
      forall pre, valid sh pre -> quat_on out k (put tau c pre) = hmul r (quat_on arr k (put tau m pre))).
Proof.
  intros s i to j arr nn axis ta tsa k tau n sh HR Hi Hj Hg Hon Hk H4. destruct k as [|k]; [lia|].
  pose proof Hon as (_ & _ & _ & _ & _ & Hts & Hn & Hinc). destruct C79_contract as (Csu & _ & Cst & _).
  destruct (shared np_squad s i to j tsa n HR Cst Csu Hi Hj Hg Hts Hn Hinc) as (fs & l & rows & Hf & Hl & Hr & HK & L & HM & Hu).
  exists l. split; [exact HK|]. split; intros ->.
  - destruct (vectors_any s i to j tsa n fs l rows arr axis ta k tau sh Hj Hf Hl Hr HK L Hu Hon H4) as (out & Eo & So & Do).
    exists out. split; [exact Eo|]. split; [exact So|]. intros c x Hc.
    destruct (sample_index tsa n l c x (proj1 HK) Hc) as (m & Hm & Hx & _).
    exists m, (rowv rows c), (rowq rows c). split; auto. split; auto. split; [apply HM; auto|]. intros pre Hv. eapply Do; eauto.
  - destruct (quats_any s i to j tsa n fs l rows arr axis ta k tau sh Hj Hf Hl Hr HK L Hon H4) as (out & Eo & So & Do).
    exists out. split; [exact Eo|]. split; [exact So|]. intros c x Hc.
    destruct (sample_index tsa n l c x (proj1 HK) Hc) as (m & Hm & Hx & _).
    exists m, (rowv rows c), (rowq rows c). split; auto. split; auto. split; [apply HM; auto|]. intros pre Hv. eapply Do; eauto.
Qed.

(** Moving the coordinates from axis k to axis k' moves them in the result, whatever the lengths. *)
Theorem C23_move_any_partial : forall s i to j arr arr' nn axis axis' ta ta' tsa k k' tau n sh,
  reachable s -> frame s i -> denotes s to j -> good_way s i j -> 0 < k -> 0 < k' ->
  on_axes arr nn axis ta tsa k tau n sh -> on_axes arr' nn axis' ta' tsa k' tau n sh ->
  resamples arr (time_pos k tau) -> resamples arr' (time_pos k' tau) ->
  (nn = 3 -> (forall m pre, m < n -> valid sh pre -> vec_on arr k (put tau m pre) = vec_on arr' k' (put tau m pre)) ->
   exists out out' l, transform_vectors np_squad s i arr to axis (Some ta) (Some tsa) = Ok (out, Some l) /\
     transform_vectors np_squad s i arr' to axis' (Some ta') (Some tsa) = Ok (out', Some l) /\
     forall c pre, c < length l -> valid sh pre -> vec_on out k (put tau c pre) = vec_on out' k' (put tau c pre)) /\
  (nn = 4 -> (forall m pre, m < n -> valid sh pre -> quat_on arr k (put tau m pre) = quat_on arr' k' (put tau m pre)) ->
   exists out out' l, transform_quaternions np_squad s i arr to axis (Some ta) (Some tsa) = Ok (out, Some l) /\
     transform_quaternions np_squad s i arr' to axis' (Some ta') (Some tsa) = Ok (out', Some l) /\
     forall c pre, c < length l -> valid sh pre -> quat_on out k (put tau c pre) = quat_on out' k' (put tau c pre)).
Proof.
  intros s i to j arr arr' nn axis axis' ta ta' tsa k k' tau n sh HR Hi Hj Hg Hk Hk' Hon Hon' H4 H4'.
  destruct k as [|k]; [lia|]. destruct k' as [|k']; [lia|].
  pose proof Hon as (_ & _ & _ & _ & _ & Hts & Hn & Hinc). destruct C79_contract as (Csu & _ & Cst & _).
  destruct (shared np_squad s i to j tsa n HR Cst Csu Hi Hj Hg Hts Hn Hinc) as (fs & l & rows & Hf & Hl & Hr & HK & L & HM & Hu).
  split; intros -> He.
  - destruct (vectors_any s i to j tsa n fs l rows arr axis ta k tau sh Hj Hf Hl Hr HK L Hu Hon H4) as (out & Eo & So & Do).
    destruct (vectors_any s i to j tsa n fs l rows arr' axis' ta' k' tau sh Hj Hf Hl Hr HK L Hu Hon' H4') as (out' & Eo' & So' & Do').
    exists out, out', l. split; [exact Eo|]. split; [exact Eo'|]. intros c pre Hc Hv.
    destruct (nth_error l c) as [x|] eqn:E; [|apply nth_error_None in E; lia].
    destruct (sample_index tsa n l c x (proj1 HK) E) as (m & Hm & Hx & _).
    rewrite (Do c x m pre E Hm Hx Hv), (Do' c x m pre E Hm Hx Hv), He by auto. reflexivity.
  - destruct (quats_any s i to j tsa n fs l rows arr axis ta k tau sh Hj Hf Hl Hr HK L Hon H4) as (out & Eo & So & Do).
    destruct (quats_any s i to j tsa n fs l rows arr' axis' ta' k' tau sh Hj Hf Hl Hr HK L Hon' H4') as (out' & Eo' & So' & Do').
    exists out, out', l. split; [exact Eo|]. split; [exact Eo'|]. intros c pre Hc Hv.
    destruct (nth_error l c) as [x|] eqn:E; [|apply nth_error_None in E; lia].
    destruct (sample_index tsa n l c x (proj1 HK) E) as (m & Hm & Hx & _).
    rewrite (Do c x m pre E Hm Hx Hv), (Do' c x m pre E Hm Hx Hv), He by auto. reflexivity.
Qed.

(** Four zeros together on such an axis, e.g. a coordinate that is zero for four points: NaN, as soon
    as any sample is kept. *)
Theorem C23_zero_refuted : forall s i to j arr axis ta tsa k tau n sh ix,
  reachable s -> frame s i -> denotes s to j -> good_way s i j ->
  on_axes arr 3 axis ta tsa k tau n sh -> 0 < k -> last_length arr (time_pos k tau) = 4 ->
  valid (shp arr) ix -> zero_block arr (last_axis arr (time_pos k tau)) ix ->
  exists l, kept s i j tsa n l /\
    (l <> [] -> transform_vectors np_squad s i arr to axis (Some ta) (Some tsa) = Raise NaNValue).
Proof.
  intros s i to j arr axis ta tsa k tau n sh ix HR Hi Hj Hg Hon Hk H4 Hix HZ. destruct k as [|k]; [lia|].
  pose proof Hon as (_ & _ & _ & _ & _ & Hts & Hn & Hinc). destruct C79_contract as (Csu & _ & Cst & _).
  destruct (shared np_squad s i to j tsa n HR Cst Csu Hi Hj Hg Hts Hn Hinc) as (fs & l & rows & Hf & Hl & Hr & HK & L & HM & Hu).
  exists l. split; [exact HK|]. intros Hne.
  destruct (on_facts _ _ Hn _ _ _ _ _ _ _ Hon) as (F1 & F2 & F3 & F4 & F5 & F6 & F7).
  destruct (facts arr 3 axis ta tsa n k tau sh Hon) as (Hin & _ & _ & Ht & Sa & Lr & Lk & Lt).
  set (t := beside (S k) tau) in *. set (a := swap_nd 0 t arr) in *.
  assert (E4 : last (shp a) 0 = 4) by (rewrite <- H4; eapply last_eq; eauto).
  destruct (four_mid arr 3 axis ta tsa n k tau sh Hon E4) as (mid & Em & Lm).
  assert (B : exists m pre, m < n /\ valid mid pre /\ quat_at a (m :: pre) = qzero).
  { assert (V : valid (n :: mid ++ [4]) (swapl 0 t ix)).
    { rewrite <- Em, <- Sa. unfold a. cbn [swap_nd shp]. apply valid_swapl; auto; unfold ndim in *; lia. }
    inversion V as [|m z jx z' Hm V' Ejx]; subst. apply Forall2_app_inv_r in V' as (p1 & p2 & V1 & V2 & E).
    inversion V2 as [|e z p3 z3 He V3]; subst. inversion V3; subst.
    exists m, p1. split; [auto|]. split; [auto|]. pose proof (valid_length _ _ V1) as Lp.
    apply (quat_block arr 3 axis ta tsa n k tau sh Hon mid m p1 Lm Lp).
    intros d Hd. fold t. rewrite <- (HZ d Hd). f_equal.
    assert (Eix : ix = swapl 0 t (m :: p1 ++ [e])).
    { rewrite Ejx. symmetry. apply swapl_invol; rewrite (valid_length _ _ Hix); unfold ndim in *; lia. }
    rewrite Eix. change (time_pos (S k) tau) with t. unfold last_axis. rewrite F6.
    rewrite (swap_block t (length sh) m p1 e) by lia. replace (S (S (length sh)) - 1) with (S (length sh)) by lia.
    rewrite setn_setn. reflexivity. }
  destruct B as (m & pre & Hm & Hp & Hq).
  assert (Rz : resample_array np_squad (MA a (Some (times tsa n))) (Some l) = Raise NaNValue).
  { unfold resample_array. cbn [ma_ts ma_data]. rewrite E4. cbn [Nat.eqb].
    apply (squad_nd_nan (times tsa n) a l n mid m pre); auto.
    - rewrite length_times. auto.
    - rewrite Sa, Em. reflexivity.
    - apply length_times. }
  pose proof (nn_arr' arr 3 n k tau sh F1 F2 F3 Hn) as Hnn.
  pose proof (n_arr' arr 3 n k tau sh F1 F2 F3 Hn) as Hna.
  unfold transform_vectors, prepare. rewrite (validate_ts arr axis 3 ta tsa n _ _ F4 Hnn Hts F5 Hna). cbn [bind].
  rewrite (denotes_resolve s to j Hj). cbn [bind]. rewrite Hf. cbn [bind].
  assert (Hadd : add_array a (Some (times tsa n)) = Ok (MA a (Some (times tsa n)))).
  { unfold add_array, check_timestamps. rewrite (increasing_not_decreasing _ Hin). rewrite Sa.
    rewrite length_times, Nat.eqb_refl. cbn [bind]. reflexivity. }
  fold t. fold a. rewrite Hadd. cbn [bind]. unfold get_transformation. rewrite Hl. cbn [bind]. unfold transformation_at. cbn [m_frames].
  destruct fs as [|f fs].
  - cbn [bind tr_ts]. rewrite Rz. reflexivity.
  - rewrite Hr. cbn [bind tr_ts]. rewrite Rz. reflexivity.
Qed.

(** Three samples (at times 0, 1/2, 4) of four points each, coordinates on the middle axis: shape (3, 3, 4). *)
Example C23_four_example : good_way mov_lit 3 2 /\ frame mov_lit 3 /\ denotes mov_lit (PFrame 2) 2 /\
  (forall f, on_axes (Nd [3;3;4] f) 3 1 0 ex_stamps 1 0 3 [4] /\ last_length (Nd [3;3;4] f) (time_pos 1 0) = 4) /\
  resamples (Nd [3;3;4] (fun ix => INR (1 + nth 1 ix 0))) (time_pos 1 0) /\
  zero_block (Nd [3;3;4] (fun ix => INR (nth 1 ix 0))) (last_axis (Nd [3;3;4] (fun ix => INR (nth 1 ix 0))) (time_pos 1 0)) [0; 0; 0].
Proof.
  destruct C22_example as (H1 & _ & H2 & H3 & (_ & _ & _ & _ & _ & H4) & _). split; auto. split; auto. split; auto.
  split; [|split].
  - intros f. split; [|reflexivity]. unfold on_axes, axis_is. cbn. repeat apply conj; auto.
  - intros _ ix Hv HZ. specialize (HZ 0 ltac:(lia)). cbn [dat] in HZ.
    revert HZ. apply not_0_INR. lia.
  - intros d _. reflexivity.
Qed.
