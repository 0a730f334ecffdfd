(** Property C82: missing samples (NaN) in transformed arrays. *)
From Coq Require Import Reals List Arith Bool ZArith Lia Lra.
From Verif Require Import Base Quat SpecQuat QuatProofs NdArray Frames SpecForest FrameProofs WalkProofs
  Matcher SpecLookup LookupProofs RegistryProofs MovingProofs TimeProofs CtorProofs InverseProofs RouteProofs
  Examples PropForest PropLookup PropMoving
  Transform SpecArray NdProofs RotProofs ArrProofs ArrTransProofs ArrStaticProofs PropTransform Velocity NanArr PropConsist.
Import ListNotations.
Open Scope nat_scope.

(* ------------------------------------------------------------------ specification *)
(** The vector at position pre: a NaN among its coordinates, or the vector v. *)
Definition missing (a : nd (option R)) (pre : list nat) : Prop := exists c, c < 3 /\ dat a (pre ++ [c]) = None.
Definition holds (a : nd (option R)) (pre : list nat) (v : vec3) : Prop :=
  dat a (pre ++ [0]) = Some (vx v) /\ dat a (pre ++ [1]) = Some (vy v) /\ dat a (pre ++ [2]) = Some (vz v).
(** All three coordinates are NaN. *)
Definition lost (a : nd (option R)) (pre : list nat) : Prop := forall c, c < 3 -> dat a (pre ++ [c]) = None.
(** The sample before m; for the first sample, the second. *)
Definition neighbour (m : nat) : nat := match m with O => 1 | S k => k end.
(** [stamped] for arrays with NaN. *)
Definition stamped_nan (arr : nd (option R)) (ta : Z) (tsa : nd R) (tau n : nat) (sh : list nat) : Prop :=
  stamped (Nd (shp arr) (fun _ => 0%R)) 3 ta tsa tau n sh.
(** The outcome for sample m of arr at position k of out, move the map at that time. *)
Definition image_nan (arr out : nd (option R)) (tau k m : nat) (pre : list nat) (move : vec3 -> vec3) : Prop :=
  (missing arr (put tau m pre) -> lost out (put tau k pre)) /\
  (missing arr (put tau (neighbour m) pre) -> lost out (put tau k pre)) /\
  (forall v, holds arr (put tau m pre) v -> ~ missing arr (put tau (neighbour m) pre) -> holds out (put tau k pre) (move v)).

(* ------------------------------------------------------------------ proofs *)
Lemma some_missing a pre : missing a pre \/ exists v, holds a pre v.
Proof.
  destruct (dat a (pre ++ [0])) as [x|] eqn:E0; [|left; exists 0; auto].
  destruct (dat a (pre ++ [1])) as [y|] eqn:E1; [|left; exists 1; auto].
  destruct (dat a (pre ++ [2])) as [z|] eqn:E2; [|left; exists 2; auto].
  right. exists (V3 x y z). split; auto.
Qed.
Lemma holds_vec a pre v : holds a pre v -> vec_at (blank a) pre = v.
Proof. intros (H0 & H1 & H2). unfold vec_at, blank. cbn [dat]. rewrite H0, H1, H2. destruct v. reflexivity. Qed.

Lemma interp_idx_at ts m x : increasing ts -> 2 <= length ts -> nth_error ts m = Some x ->
  interp_idx ts x = match m with O => (0, 1) | S k => (k, S k) end.
Proof.
  intros Hi Hn Hm. pose proof (nth_lt _ _ _ Hm) as Lm.
  destruct (searchsorted_spec ts x) as (S1 & S2 & S3).
  assert (E : searchsorted ts x = m).
  { destruct (Nat.lt_trichotomy (searchsorted ts x) m) as [H|[H|H]]; auto.
    - destruct (nth_len ts (searchsorted ts x)) as (a & Ha); [lia|]. specialize (S2 a Ha).
      pose proof (Hi _ _ _ _ H Ha Hm). lra.
    - specialize (S1 m x H Hm). lra. }
  unfold interp_idx. rewrite E. unfold clip1. destruct m as [|k].
  - replace (Nat.min (Nat.max 0 1) (length ts - 1)) with 1 by lia. reflexivity.
  - replace (Nat.min (Nat.max (S k) 1) (length ts - 1)) with (S k) by lia. reflexivity.
Qed.

Lemma interp_mask_samples ts (a : nd bool) l n mid : increasing ts -> 2 <= length ts -> shp a = n :: mid -> length ts = n ->
  (forall x, In x l -> In x ts) ->
  exists b, interp_mask ts a l = Ok b /\ shp b = length l :: mid /\
    forall k x m, nth_error l k = Some x -> nth_error ts m = Some x ->
      forall jx, dat b (k :: jx) = dat a (neighbour m :: jx) || dat a (m :: jx).
Proof.
  intros Hi Hn Hs Hl Hin. unfold interp_mask. rewrite Hs. cbn [hd tl].
  set (ys := map (fun i jx => dat a (i :: jx)) (seq 0 n)).
  assert (Ly : length ys = length ts) by (unfold ys; rewrite map_length, seq_length; auto).
  assert (Ny : forall m, m < n -> nth_error ys m = Some (fun jx => dat a (m :: jx))).
  { intros m Hm. unfold ys. rewrite nth_error_map.
    rewrite (nth_error_nth' (seq 0 n) 0) by (rewrite seq_length; auto). rewrite seq_nth by auto. reflexivity. }
  assert (At : forall x m, nth_error ts m = Some x -> exists w, interp_at or_fun ts ys x = Ok w /\
      forall jx, w jx = dat a (neighbour m :: jx) || dat a (m :: jx)).
  { intros x m Hm. pose proof (nth_lt _ _ _ Hm) as Lm. unfold interp_at. rewrite (interp_idx_at ts m x Hi Hn Hm).
    destruct m as [|k].
    - destruct (nth_len ts 1) as (b & Hb); [lia|]. rewrite Hm, Hb, (Ny 0), (Ny 1) by lia.
      destruct (Req_b x b) eqn:Ee; [apply Req_b_true in Ee; pose proof (Hi 0 1 _ _ ltac:(lia) Hm Hb); lra|].
      eexists. split; [reflexivity|]. intros jx. unfold or_fun. cbn [neighbour]. apply orb_comm.
    - destruct (nth_len ts k) as (b & Hb); [lia|]. rewrite Hm, Hb, (Ny k), (Ny (S k)) by lia.
      destruct (Req_b b x) eqn:Ee; [apply Req_b_true in Ee; pose proof (Hi k (S k) _ _ ltac:(lia) Hb Hm); lra|].
      eexists. split; [reflexivity|]. intros jx. reflexivity. }
  unfold interp1d.
  replace (forallb (in_bounds ts) l) with true.
  2:{ symmetry. apply forallb_forall. intros x Hx. apply increasing_bounds; auto. }
  destruct (traverse (interp_at or_fun ts ys) l) as [rows|e] eqn:E.
  2:{ exfalso. unfold traverse in E. clear -E Hin At. revert E Hin. generalize e. induction l as [|x l IH]; intros e' E H; [discriminate|].
      simpl in E. pose proof (H x (or_introl eq_refl)) as Hx. apply In_nth_error in Hx as (m & Hm).
      destruct (At x m Hm) as (w & Ew & _). rewrite Ew in E. simpl in E.
      destruct (sequence (map (interp_at or_fun ts ys) l)) eqn:E2; [discriminate|]. eapply (IH e0); eauto.
      intros y Hy. apply H. right; auto. }
  cbn [bind]. eexists. split; [reflexivity|]. simpl. split; auto.
  intros k x m Hk Hm jx. destruct (At x m Hm) as (w & Ew & Hw).
  pose proof (traverse_nth_eq _ _ _ k x (fun _ => false) E Hk) as E'. rewrite Ew in E'. injection E' as E'.
  rewrite <- E'. apply Hw.
Qed.

Lemma removelast_snoc {A} (l : list A) x : removelast (l ++ [x]) = l.
Proof. rewrite removelast_app by discriminate. apply app_nil_r. Qed.
Lemma swapaxes_back {A} (e : nd A) N sh nn ta tau : shp e = N :: mv tau sh ++ [nn] -> tau <= length sh ->
  norm_axis ta (ndim e) = Ok tau ->
  exists out, swapaxes e 0 ta = Ok out /\ shp out = insert_at tau N sh ++ [nn] /\
    forall k pre c, length pre = length sh -> dat out (insert_at tau k pre ++ [c]) = dat e (k :: mv tau pre ++ [c]).
Proof.
  intros Hs Ht Hta. unfold swapaxes.
  assert (Hnd : 0 < ndim e) by (unfold ndim; rewrite Hs; simpl; lia).
  rewrite (norm_axis_pos 0 _ Hnd : norm_axis 0 (ndim e) = Ok 0), Hta. cbn [bind]. eexists. split; [reflexivity|].
  cbn [swap_nd shp dat]. split.
  - rewrite Hs. rewrite app_comm_cons, swapl_app by (simpl; rewrite length_mv; lia). rewrite swapl_mv by lia. reflexivity.
  - intros k pre c Hp. f_equal. rewrite swapl_app by (rewrite length_insert; lia). rewrite swapl_insert0 by lia. reflexivity.
Qed.

(** The places of the NaN in the output. *)
Lemma spread_stamped arr ta tsa tau n sh l : stamped_nan arr ta tsa tau n sh -> (exists f, l = filter f (times tsa n)) ->
  exists m, spread arr (Some ta) (Some tsa) (Some l) = Ok m /\
    forall k x j pre c, nth_error l k = Some x -> nth_error (times tsa n) j = Some x -> valid sh pre -> c < 3 ->
      (dat m (put tau k pre ++ [c]) = true <-> missing arr (put tau (neighbour j) pre) \/ missing arr (put tau j pre)).
Proof.
  intros Hst (f & Hf). pose proof Hst as (_ & Ht & _ & Hts & Hn & _). destruct (stamped_facts _ _ _ _ _ _ _ Hst) as (Hs & Hta & Hinc).
  cbn [shp] in Hs, Hta. unfold ndim in Hta. cbn [shp] in Hta.
  unfold spread, to_front. unfold ndim. cbn [nans shp]. rewrite Hta. cbn [bind].
  assert (Nn : nth tau (shp arr) 0 = n).
  { rewrite Hs, app_nth1 by (rewrite length_insert; lia). apply nth_insert; auto. }
  rewrite Nn. fold (times tsa n). set (a := swap_nd 0 tau (nans arr)).
  assert (Sa : shp a = n :: mv tau sh ++ [3]).
  { unfold a. cbn [swap_nd shp nans]. rewrite Hs. rewrite swapl_app by (rewrite length_insert; lia).
    rewrite swapl_insert0 by auto. reflexivity. }
  assert (Da : forall j pre c, length pre = length sh -> dat a (j :: mv tau pre ++ [c]) = is_nan (dat arr (insert_at tau j pre ++ [c]))).
  { intros j pre c H. unfold a. cbn [swap_nd dat nans]. do 2 f_equal. rewrite app_comm_cons, swapl_app by (simpl; rewrite length_mv; lia).
    rewrite swapl_mv by lia. reflexivity. }
  destruct (interp_mask_samples (times tsa n) a l n (mv tau sh ++ [3]) Hinc) as (b & Eb & Sb & Db); auto.
  { rewrite length_times. auto. } { apply length_times. }
  { intros x Hx. subst l. apply filter_In in Hx. tauto. }
  cbn [resample_mask]. rewrite Eb. cbn [bind].
  destruct (swapaxes_back (rot_mask b) (length l) sh 3 ta tau) as (out & Eo & So & Do); auto.
  { rewrite <- Hta. f_equal. unfold ndim. cbn [rot_mask shp]. rewrite Sb, Hs. simpl. rewrite !app_length, length_mv, length_insert by auto. simpl. lia. }
  exists out. split; [exact Eo|]. intros k x j pre c Hk Hj Hp Hc. pose proof (valid_length _ _ Hp) as Lp.
  rewrite put_insert by lia. rewrite Do by auto. cbn [rot_mask dat].
  replace (removelast (k :: mv tau pre ++ [c])) with (k :: mv tau pre) by (rewrite app_comm_cons, removelast_snoc; reflexivity).
  rewrite existsb_exists. split.
  - intros (d & Hd & E). apply in_seq in Hd. rewrite <- app_comm_cons in E. rewrite (Db k x j Hk Hj) in E. rewrite !Da in E by auto.
    apply orb_prop in E as [E|E]; [left|right]; exists d; (split; [lia|]); rewrite put_insert by lia; 
      (destruct (dat arr _) eqn:Q in E; [discriminate E|exact Q]).
  - intros [(d & Hd & E)|(d & Hd & E)]; exists d; (split; [apply in_seq; lia|]); rewrite <- app_comm_cons, (Db k x j Hk Hj), !Da by auto;
      rewrite put_insert in E by lia; rewrite E; cbn [is_nan]; [reflexivity|apply orb_true_r].
Qed.

Lemma blank_stamped arr ta tsa tau n sh : stamped_nan arr ta tsa tau n sh -> stamped (blank arr) 3 ta tsa tau n sh.
Proof. exact (fun H => H). Qed.

Lemma transform_nan_spec squad s i j arr ta tsa tau n sh f (move : vec3 -> quat -> vec3 -> vec3) out o :
  stamped_nan arr ta tsa tau n sh ->
  (forall c o', f (blank arr) = Ok (c, o') -> exists l, o' = Some l /\ per_sample squad s i j tsa tau n sh 3 l c
     (fun k m pre t r => vec_at c (put tau k pre) = move t r (vec_at (blank arr) (put tau m pre)))) ->
  transform_nan f arr (Some ta) (Some tsa) = Ok (out, o) ->
  exists l, o = Some l /\ per_sample squad s i j tsa tau n sh 3 l (Nd (shp out) (fun _ => 0%R))
    (fun k m pre t r => image_nan arr out tau k m pre (move t r)).
Proof.
  intros Hst Hf H. unfold transform_nan in H. apply bind_ok in H as ((c & o') & Hc & H).
  destruct (Hf c o' Hc) as (l & -> & T1 & T2 & So & Hk). apply bind_ok in H as (m & Hm & H). injection H as <- <-.
  exists l. split; [reflexivity|]. split; [exact T1|]. split; [exact T2|]. split; [exact So|].
  destruct (spread_stamped arr ta tsa tau n sh l Hst T1) as (m' & Em & Dm). rewrite Em in Hm. injection Hm as ->.
  intros k x Hx. destruct (Hk k x Hx) as (j' & t & r & Hj & Ht & Hmap & Him). exists j', t, r. split; [auto|]. split; [auto|]. split; [auto|].
  intros pre Hp. specialize (Him pre Hp). assert (Hx' : nth_error (times tsa n) j' = Some x) by (apply nth_times; auto).
  assert (D : forall d, d < 3 -> (dat m (put tau k pre ++ [d]) = true <-> missing arr (put tau (neighbour j') pre) \/ missing arr (put tau j' pre))).
  { intros d Hd. apply (Dm k x j' pre d); auto. }
  split; [|split].
  - intros Hmi d Hd. cbn [with_nans dat]. rewrite (proj2 (D d Hd)) by auto. reflexivity.
  - intros Hmi d Hd. cbn [with_nans dat]. rewrite (proj2 (D d Hd)) by auto. reflexivity.
  - intros v Hv Hnm. rewrite (holds_vec _ _ _ Hv) in Him.
    assert (F : forall d, d < 3 -> dat m (put tau k pre ++ [d]) = false).
    { intros d Hd. destruct (dat m (put tau k pre ++ [d])) eqn:E; [|reflexivity]. apply D in E; auto. destruct E as [E|(e & He & E)]; [contradiction|].
      destruct Hv as (V0 & V1 & V2). destruct e as [|[|[|e]]]; [congruence..|lia]. }
    unfold holds. cbn [with_nans dat]. rewrite !F by lia. rewrite <- Him. cbn [vec_at vx vy vz]. auto.
Qed.

(** Timestamped arrays of any shape with NaN entries: sample k of the output belongs to
    a sample m in range, at the same time.  It is NaN (all coordinates) if sample m has
    a NaN, and also if the sample before m (for the first sample: the second) has one;
    otherwise it is the image of sample m. *)
Theorem C82_vectors : forall squad s i to j arr ta tsa tau n sh out o, reachable s -> squad_unit squad ->
  frame s i -> denotes s to j -> unit_way s i j -> stamped_nan arr ta tsa tau n sh ->
  transform_vectors_nan squad s i arr to (Some ta) (Some tsa) = Ok (out, o) ->
  exists l, o = Some l /\ per_sample squad s i j tsa tau n sh 3 l (Nd (shp out) (fun _ => 0%R))
    (fun k m pre t r => image_nan arr out tau k m pre (srot r)).
Proof.
  intros squad s i to j arr ta tsa tau n sh out o HR Hsq Hi Hj Hw Hst H.
  apply (transform_nan_spec squad s i j arr ta tsa tau n sh _ (fun _ r => srot r) out o Hst) with (2 := H).
  intros c o' Hc. exact (C22_vectors squad s i to j (blank arr) ta tsa tau n sh c o' HR Hsq Hi Hj Hw (blank_stamped _ _ _ _ _ _ Hst) Hc).
Qed.
Theorem C82_points : forall squad s i to j arr ta tsa tau n sh out o, reachable s -> squad_unit squad ->
  frame s i -> denotes s to j -> unit_way s i j -> stamped_nan arr ta tsa tau n sh ->
  transform_points_nan squad s i arr to (Some ta) (Some tsa) = Ok (out, o) ->
  exists l, o = Some l /\ per_sample squad s i j tsa tau n sh 3 l (Nd (shp out) (fun _ => 0%R))
    (fun k m pre t r => image_nan arr out tau k m pre (smove t r)).
Proof.
  intros squad s i to j arr ta tsa tau n sh out o HR Hsq Hi Hj Hw Hst H.
  apply (transform_nan_spec squad s i j arr ta tsa tau n sh _ (fun t r => smove t r) out o Hst) with (2 := H).
  intros c o' Hc. exact (C22_points squad s i to j (blank arr) ta tsa tau n sh c o' HR Hsq Hi Hj Hw (blank_stamped _ _ _ _ _ _ Hst) Hc).
Qed.

(** Such transforms succeed. *)
Theorem C82_succeed : forall squad s i to j arr ta tsa tau n sh, reachable s -> squad_total squad -> squad_unit squad ->
  frame s i -> denotes s to j -> good_way s i j -> stamped_nan arr ta tsa tau n sh ->
  (exists out l, transform_vectors_nan squad s i arr to (Some ta) (Some tsa) = Ok (out, Some l)) /\
  (exists out l, transform_points_nan squad s i arr to (Some ta) (Some tsa) = Ok (out, Some l)).
Proof.
  intros squad s i to j arr ta tsa tau n sh HR Hto Hsq Hi Hj Hg Hst. pose proof (good_unit _ _ _ Hg) as Hw.
  pose proof (blank_stamped _ _ _ _ _ _ Hst) as Hb.
  destruct (C22_vectors_succeed squad s i to j (blank arr) ta tsa tau n sh HR Hto Hsq Hi Hj Hg Hb) as (c & l & Hc).
  destruct (C22_points_succeed squad s i to j (blank arr) ta tsa tau n sh HR Hto Hsq Hi Hj Hg Hb) as (c' & l' & Hc').
  destruct (C22_vectors squad s i to j (blank arr) ta tsa tau n sh c (Some l) HR Hsq Hi Hj Hw Hb Hc) as (l1 & E1 & T1 & _).
  destruct (C22_points squad s i to j (blank arr) ta tsa tau n sh c' (Some l') HR Hsq Hi Hj Hw Hb Hc') as (l2 & E2 & T2 & _).
  injection E1 as <-. injection E2 as <-.
  destruct (spread_stamped arr ta tsa tau n sh l Hst T1) as (m & Em & _).
  destruct (spread_stamped arr ta tsa tau n sh l' Hst T2) as (m' & Em' & _).
  split; [exists (with_nans c m), l|exists (with_nans c' m'), l'].
  - unfold transform_vectors_nan, transform_nan. rewrite Hc. cbn [bind]. rewrite Em. reflexivity.
  - unfold transform_points_nan, transform_nan. rewrite Hc'. cbn [bind]. rewrite Em'. reflexivity.
Qed.

(** An array without NaN is transformed as before. *)
Definition all_numbers (a : nd R) : nd (option R) := Nd (shp a) (fun ix => Some (dat a ix)).
Lemma numbers_hold a pre : holds (all_numbers a) pre (vec_at a pre).
Proof. split; [|split]; reflexivity. Qed.
Lemma numbers_nothing a pre : ~ missing (all_numbers a) pre.
Proof. intros (c & _ & H). discriminate H. Qed.
Lemma numbers_spread a ta tsa tau n sh l : stamped a 3 ta tsa tau n sh -> (exists f, l = filter f (times tsa n)) ->
  exists m, spread (all_numbers a) (Some ta) (Some tsa) (Some l) = Ok m /\
    forall k pre c, k < length l -> valid sh pre -> c < 3 -> dat m (put tau k pre ++ [c]) = false.
Proof.
  intros Hst Hf. destruct (spread_stamped (all_numbers a) ta tsa tau n sh l Hst Hf) as (m & Em & Dm). exists m. split; auto.
  intros k pre c Hk Hp Hc. destruct (nth_len l k Hk) as (x & Hx).
  assert (Hin : In x (times tsa n)). { apply nth_error_In in Hx. destruct Hf as (f & ->). apply filter_In in Hx. tauto. }
  apply In_nth_error in Hin as (j & Hj). destruct (dat m (put tau k pre ++ [c])) eqn:E; [|reflexivity].
  apply (Dm k x j pre c Hx Hj Hp Hc) in E. destruct E as [E|E]; destruct (numbers_nothing _ _ E).
Qed.
Theorem C82_numbers : forall squad s i to j a ta tsa tau n sh c o, reachable s -> squad_unit squad ->
  frame s i -> denotes s to j -> unit_way s i j -> stamped a 3 ta tsa tau n sh ->
  (transform_vectors squad s i a to (-1) (Some ta) (Some tsa) = Ok (c, o) ->
   exists out, transform_vectors_nan squad s i (all_numbers a) to (Some ta) (Some tsa) = Ok (out, o) /\ shp out = shp c /\
     forall k pre, k < nth tau (shp c) 0 -> valid sh pre -> holds out (put tau k pre) (vec_at c (put tau k pre))) /\
  (transform_points squad s i a to (-1) (Some ta) (Some tsa) = Ok (c, o) ->
   exists out, transform_points_nan squad s i (all_numbers a) to (Some ta) (Some tsa) = Ok (out, o) /\ shp out = shp c /\
     forall k pre, k < nth tau (shp c) 0 -> valid sh pre -> holds out (put tau k pre) (vec_at c (put tau k pre))).
Proof.
  intros squad s i to j a ta tsa tau n sh c o HR Hsq Hi Hj Hw Hst. pose proof Hst as (_ & Ht & _).
  assert (G : forall l, (exists f, l = filter f (times tsa n)) -> shp c = (put tau (length l) sh ++ [3])%list ->
    exists m, spread (all_numbers a) (Some ta) (Some tsa) (Some l) = Ok m /\
      forall k pre, k < nth tau (shp c) 0 -> valid sh pre -> holds (with_nans c m) (put tau k pre) (vec_at c (put tau k pre))).
  { intros l Hf Hs. destruct (numbers_spread a ta tsa tau n sh l Hst Hf) as (m & Em & Dm). exists m. split; auto.
    intros k pre Hk Hp. rewrite Hs, put_insert, app_nth1, nth_insert in Hk by (try rewrite length_insert; lia).
    split; [|split]; cbn [with_nans dat]; rewrite Dm by auto; reflexivity. }
  assert (B : blank (all_numbers a) = a) by (destruct a; reflexivity).
  split; intros H.
  - destruct (C22_vectors squad s i to j a ta tsa tau n sh c o HR Hsq Hi Hj Hw Hst H) as (l & -> & T1 & _ & So & _).
    destruct (G l T1 So) as (m & Em & Dm). exists (with_nans c m). unfold transform_vectors_nan, transform_nan. rewrite B, H. cbn [bind].
    rewrite Em. cbn [bind]. split; [reflexivity|]. split; [reflexivity|exact Dm].
  - destruct (C22_points squad s i to j a ta tsa tau n sh c o HR Hsq Hi Hj Hw Hst H) as (l & -> & T1 & _ & So & _).
    destruct (G l T1 So) as (m & Em & Dm). exists (with_nans c m). unfold transform_points_nan, transform_nan. rewrite B, H. cbn [bind].
    rewrite Em. cbn [bind]. split; [reflexivity|]. split; [reflexivity|exact Dm].
Qed.

(** Without timestamps, between frames connected through static frames: exactly the
    samples with a NaN are lost. *)
Lemma spread_none arr sh : shp arr = (sh ++ [3])%list -> exists m, spread arr (Some 0%Z) None None = Ok m /\
  forall pre c, valid sh pre -> c < 3 -> (dat m (pre ++ [c]) = true <-> missing arr pre).
Proof.
  intros Hs. unfold spread, to_front. cbn [bind resample_mask]. unfold swapaxes.
  assert (Hnd : 0 < ndim (rot_mask (nans arr))) by (unfold ndim; cbn [rot_mask nans shp]; rewrite Hs, app_length; simpl; lia).
  rewrite (norm_axis_pos 0 _ Hnd : norm_axis 0 _ = Ok 0). cbn [bind]. eexists. split; [reflexivity|].
  intros pre c Hp Hc. cbn [swap_nd dat]. rewrite swapl_same. cbn [rot_mask dat nans]. rewrite removelast_snoc, existsb_exists. split.
  - intros (d & Hd & E). apply in_seq in Hd. exists d. split; [lia|]. destruct (dat arr (pre ++ [d])); [discriminate E|reflexivity].
  - intros (d & Hd & E). exists d. split; [apply in_seq; lia|]. rewrite E. reflexivity.
Qed.
Lemma static_combine arr sh c m (move : vec3 -> vec3) :
  (forall pre d, valid sh pre -> d < 3 -> (dat m (pre ++ [d]) = true <-> missing arr pre)) ->
  (forall pre, valid sh pre -> vec_at c pre = move (vec_at (blank arr) pre)) ->
  forall pre, valid sh pre -> (missing arr pre -> lost (with_nans c m) pre) /\ (forall v, holds arr pre v -> holds (with_nans c m) pre (move v)).
Proof.
  intros Dm Dc pre Hp. split.
  - intros Hmi d Hd. cbn [with_nans dat]. rewrite (proj2 (Dm pre d Hp Hd) Hmi). reflexivity.
  - intros v Hv. specialize (Dc pre Hp). rewrite (holds_vec _ _ _ Hv) in Dc.
    assert (F : forall d, d < 3 -> dat m (pre ++ [d]) = false).
    { intros d Hd. destruct (dat m (pre ++ [d])) eqn:E; [|reflexivity]. apply Dm in E as (e & He & E); auto.
      destruct Hv as (V0 & V1 & V2). destruct e as [|[|[|e]]]; [congruence..|lia]. }
    unfold holds. cbn [with_nans dat]. rewrite !F by lia. rewrite <- Dc. cbn [vec_at vx vy vz]. auto.
Qed.
Theorem C82_static : forall squad s i to j t r arr sh, reachable s -> frame s i -> denotes s to j ->
  lookup_transform squad s i to = Ok (TrStatic t r) -> shp arr = (sh ++ [3])%list ->
  (exists out, transform_vectors_nan squad s i arr to (Some 0%Z) None = Ok (out, None) /\ shp out = shp arr /\
     forall pre, valid sh pre -> (missing arr pre -> lost out pre) /\ (forall v, holds arr pre v -> holds out pre (srot r v))) /\
  (exists out, transform_points_nan squad s i arr to (Some 0%Z) None = Ok (out, None) /\ shp out = shp arr /\
     forall pre, valid sh pre -> (missing arr pre -> lost out pre) /\ (forall v, holds arr pre v -> holds out pre (smove t r v))).
Proof.
  intros squad s i to j t r arr sh HR Hi Hj H Hs. destruct (spread_none arr sh Hs) as (m & Em & Dm). split.
  - destruct (C22_static_vectors squad s i to j t r (blank arr) sh HR Hi Hj H Hs) as (c & Hc & Sc & Dc).
    exists (with_nans c m). unfold transform_vectors_nan, transform_nan. rewrite Hc. cbn [bind]. rewrite Em. cbn [bind].
    split; [reflexivity|]. split; [exact Sc|]. apply static_combine; auto.
  - destruct (C22_static_points squad s i to j t r (blank arr) sh HR Hi Hj H Hs) as (c & Hc & Sc & Dc).
    exists (with_nans c m). unfold transform_points_nan, transform_nan. rewrite Hc. cbn [bind]. rewrite Em. cbn [bind].
    split; [reflexivity|]. split; [exact Sc|]. apply static_combine; auto.
Qed.

(** The sample after a missing one, at a time in range of all moving frames on the way,
    is lost in the output, whatever its value. *)
Theorem C82_next_lost : forall squad s i to j arr ta tsa tau n sh m pre, reachable s -> squad_total squad -> squad_unit squad ->
  frame s i -> denotes s to j -> good_way s i j -> stamped_nan arr ta tsa tau n sh ->
  S m < n -> valid sh pre -> missing arr (put tau m pre) ->
  (forall f tf, on_way s i j f -> cont_of s f = Some tf ->
     exists a b, hd_error tf = Some a /\ nth_error tf (length tf - 1) = Some b /\ (a <= dat tsa [S m] <= b)%R) ->
  exists out l k, transform_vectors_nan squad s i arr to (Some ta) (Some tsa) = Ok (out, Some l) /\
    nth_error l k = Some (dat tsa [S m]) /\ lost out (put tau k pre).
Proof.
  intros squad s i to j arr ta tsa tau n sh m pre HR Hto Hsq Hi Hj Hg Hst Hm Hp Hmi Hin.
  destruct (C82_succeed squad s i to j arr ta tsa tau n sh HR Hto Hsq Hi Hj Hg Hst) as ((out & l & Ho) & _).
  destruct (C82_vectors squad s i to j arr ta tsa tau n sh out (Some l) HR Hsq Hi Hj (good_unit _ _ _ Hg) Hst Ho) as (l' & El & T1 & (rt & Hrt & T2) & So & Hk).
  injection El as <-. pose proof (denotes_frame s to j HR Hj) as Hjf.
  assert (Hl : In (dat tsa [S m]) l).
  { apply T2; auto. intros f tf Hf Hc. apply Hin with f; auto. apply (PropConsist.route_way s i j rt HR Hi Hjf Hrt). exact Hf. }
  apply In_nth_error in Hl as (k & Hl). exists out, l, k. split; auto. split; auto.
  destruct (Hk k _ Hl) as (m' & t & r & Hm' & Et & _ & Him). destruct (Him pre Hp) as (_ & Hn & _).
  destruct Hst as (_ & _ & _ & _ & _ & Hinc).
  assert (m' = S m). { destruct (Nat.lt_trichotomy m' (S m)) as [G|[G|G]]; auto; [pose proof (Hinc m' (S m) ltac:(lia))|pose proof (Hinc (S m) m' ltac:(lia))]; lra. }
  subst m'. apply Hn. exact Hmi.
Qed.

(** So the transform does not simply keep missing samples missing: from frame d of the
    example tree to its parent, the third of three samples, a number, is lost because
    the second is NaN. *)
Definition gap_stamps : nd R := arr1 [0; 1; 2]%R.
Definition gap_arr : nd (option R) := Nd [3; 3] (fun ix => if Nat.eqb (hd 0 ix) 1 then None else Some (INR (nth 1 ix 0))).
Theorem C82_refuted : exists s i to j, reachable s /\ frame s i /\ denotes s to j /\ good_way s i j /\
  exists arr tsa n v, stamped_nan arr 0 tsa 0 n [] /\ holds arr [2] v /\
  forall squad, squad_total squad -> squad_unit squad -> exists out l k,
    transform_vectors_nan squad s i arr to (Some 0%Z) (Some tsa) = Ok (out, Some l) /\
    nth_error l k = Some (dat tsa [2]) /\ lost out [k].
Proof.
  exists mov_lit, 3, (PFrame 0), 0. split; [apply mov_lit_reachable|].
  assert (Hf : frame mov_lit 3) by (unfold frame; simpl; lia). split; [exact Hf|].
  assert (Hd : denotes mov_lit (PFrame 0) 0) by (left; split; auto; unfold frame; simpl; lia). split; [exact Hd|].
  assert (W : forall k, on_way mov_lit 3 0 k -> k = 3).
  { assert (A : forall a, ancestor (parent_of mov_lit) 0 a -> a = 0).
    { intros a Ha. inversion Ha as [|? ? ? E1 E2]; auto. discriminate E1. }
    intros k [(H1 & H2)|(H1 & H2)].
    - inversion H1 as [|? b ? E1 E2]; auto; subst. simpl in E1. injection E1 as <-. apply A in E2. subst. exfalso. apply H2. constructor.
    - apply A in H1. subst. exfalso. apply H2. econstructor; [reflexivity|constructor]. }
  assert (Hg : good_way mov_lit 3 0).
  { split; [exists 0; split; apply mov_root; lia|]. intros k Hk. apply W in Hk. subst k. eexists. split; [reflexivity|]. apply (mov_well 3). reflexivity. }
  split; [exact Hg|]. exists gap_arr, gap_stamps, 3, (V3 0 1 2).
  assert (Hst : stamped_nan gap_arr 0 gap_stamps 0 3 []).
  { repeat split; auto. intros a b Hab. destruct a as [|[|[|a]]]; destruct b as [|[|[|b]]]; try lia; simpl; lra. }
  split; [exact Hst|]. split; [split; [|split]; cbn; f_equal; lra|]. intros squad Hto Hsq.
  apply (C82_next_lost squad mov_lit 3 (PFrame 0) 0 gap_arr 0 gap_stamps 0 3 [] 1 [] mov_lit_reachable Hto Hsq Hf Hd Hg Hst); auto.
  - constructor.
  - exists 0. split; [lia|]. reflexivity.
  - intros f tf Hon Hc. apply W in Hon. subst f. discriminate Hc.
Qed.
Example C82_example : squad_total hold_squad /\ squad_unit hold_squad /\ missing gap_arr [1] /\ ~ missing gap_arr [0] /\
  exists t r, frame ex_lit 2 /\ denotes ex_lit (PFrame 3) 3 /\ lookup_transform hold_squad ex_lit 2 (PFrame 3) = Ok (TrStatic t r) /\ shp gap_arr = ([3] ++ [3])%list.
Proof.
  split; [exact hold_squad_total|]. split; [exact hold_squad_unit|]. split; [exists 0; split; [lia|reflexivity]|]. split; [intros (c & _ & H); discriminate H|].
  destruct C13_example as (t & r & H1 & H2 & H3). exists t, r. auto.
Qed.
