(** Property C82: missing samples (NaN) in transformed orientations. *)
From Coq Require Import Reals List Arith Bool ZArith Lia Lra.
From Verif Require Import Base Quat SpecQuat QuatProofs NdArray Frames SpecForest FrameProofs WalkProofs
  Matcher SpecLookup LookupProofs RegistryProofs MovingProofs TimeProofs CtorProofs InverseProofs RouteProofs
  Examples PropForest PropLookup PropMoving
  Transform SpecArray NdProofs RotProofs ArrProofs ArrTransProofs ArrStaticProofs PropTransform Velocity NanArr PropConsist
  PropNan Squad PropSquad NanQuat.
Import ListNotations.
Open Scope nat_scope.

(* ------------------------------------------------------------------ specification *)
(** The quaternion at position pre: a NaN among its components, or the quaternion q. *)
Definition missing4 (a : nd (option R)) (pre : list nat) : Prop := exists c, c < 4 /\ dat a (pre ++ [c]) = None.
Definition holds4 (a : nd (option R)) (pre : list nat) (q : quat) : Prop :=
  dat a (pre ++ [0]) = Some (qw q) /\ dat a (pre ++ [1]) = Some (qx q) /\
  dat a (pre ++ [2]) = Some (qy q) /\ dat a (pre ++ [3]) = Some (qz q).
Definition lost4 (a : nd (option R)) (pre : list nat) : Prop := forall c, c < 4 -> dat a (pre ++ [c]) = None.
Definition stamped_nan4 (arr : nd (option R)) (ta : Z) (tsa : nd R) (tau n : nat) (sh : list nat) : Prop :=
  stamped (Nd (shp arr) (fun _ => 0%R)) 4 ta tsa tau n sh.
(** From the sample before m to the second after it. *)
Definition around (n m j : nat) : Prop := j < n /\ m <= j + 1 /\ j <= m + 2.
(** The samples that are not missing are unit quaternions. *)
Definition unit_samples (arr : nd (option R)) (tau n : nat) (sh : list nat) : Prop :=
  forall m pre q, m < n -> valid sh pre -> holds4 arr (put tau m pre) q -> hunit q.
Definition image_nan4 (arr out : nd (option R)) (tau n k m : nat) (pre : list nat) (r : quat) : Prop :=
  (forall j, around n m j -> missing4 arr (put tau j pre) -> lost4 out (put tau k pre)) /\
  (forall q, holds4 arr (put tau m pre) q -> (forall j, around n m j -> ~ missing4 arr (put tau j pre)) ->
     holds4 out (put tau k pre) (hmul r q)).

(* ------------------------------------------------------------------ proofs *)
Lemma last_snoc {A} (l : list A) x d : last (l ++ [x]) d = x.
Proof. apply last_last. Qed.
Lemma has_nan_spec a pre : has_nan (nans a) pre = true <-> missing4 a pre.
Proof.
  unfold has_nan. rewrite existsb_exists. split.
  - intros (c & Hc & E). apply in_seq in Hc. exists c. split; [lia|]. cbn [nans dat] in E. destruct (dat a (pre ++ [c])); [discriminate E|reflexivity].
  - intros (c & Hc & E). exists c. split; [apply in_seq; lia|]. cbn [nans dat]. rewrite E. reflexivity.
Qed.
Lemma some_missing4 a pre : missing4 a pre \/ exists q, holds4 a pre q.
Proof.
  destruct (dat a (pre ++ [0])) as [w|] eqn:E0; [|left; exists 0; split; [lia|auto]].
  destruct (dat a (pre ++ [1])) as [x|] eqn:E1; [|left; exists 1; split; [lia|auto]].
  destruct (dat a (pre ++ [2])) as [y|] eqn:E2; [|left; exists 2; split; [lia|auto]].
  destruct (dat a (pre ++ [3])) as [z|] eqn:E3; [|left; exists 3; split; [lia|auto]].
  right. exists (Qt w x y z). unfold holds4. auto.
Qed.
Lemma holds_not_missing a pre q : holds4 a pre q -> ~ missing4 a pre.
Proof. intros (A & B & C & D) (c & Hc & E). destruct c as [|[|[|[|c]]]]; [congruence..|lia]. Qed.
Lemma blank_dat a pre c : dat (blank_quats a) (pre ++ [c]) = if has_nan (nans a) pre then comp4 c q1 else num (dat a (pre ++ [c])).
Proof. cbn [blank_quats dat]. rewrite removelast_snoc, last_snoc. reflexivity. Qed.
Lemma blank_missing a pre : missing4 a pre -> quat_at (blank_quats a) pre = q1.
Proof.
  intros H. apply has_nan_spec in H. unfold quat_at. rewrite !blank_dat, H. reflexivity.
Qed.
Lemma blank_holds a pre q : holds4 a pre q -> quat_at (blank_quats a) pre = q.
Proof.
  intros H. pose proof (holds_not_missing _ _ _ H) as N. destruct H as (A & B & C & D).
  unfold quat_at. rewrite !blank_dat. destruct (has_nan (nans a) pre) eqn:E; [apply has_nan_spec in E; contradiction|].
  rewrite A, B, C, D. destruct q; reflexivity.
Qed.
Lemma blank_unit arr tau n sh : unit_samples arr tau n sh ->
  forall m pre, m < n -> valid sh pre -> hunit (quat_at (blank_quats arr) (put tau m pre)).
Proof.
  intros U m pre Hm Hp. destruct (some_missing4 arr (put tau m pre)) as [Hx|(q & Hq)].
  - rewrite blank_missing by auto. apply hunit_one.
  - rewrite (blank_holds _ _ _ Hq). eapply U; eauto.
Qed.
(** At a sample squad is in the interval that begins there. *)
Lemma count_le ts m x : increasing ts -> nth_error ts m = Some x -> length (filter (fun t => Rle_b t x) ts) = S m.
Proof.
  revert m. induction ts as [|a ts IH]; intros m Hi Hm; [destruct m; discriminate|].
  assert (Hi' : increasing ts). { intros p q u v Hpq Hu Hv. apply (Hi (S p) (S q) u v); auto. lia. }
  destruct m as [|m]; cbn [nth_error] in Hm.
  - injection Hm as ->. cbn [filter]. replace (Rle_b x x) with true by (symmetry; apply Rle_b_true; lra).
    simpl. f_equal. replace (filter (fun t => Rle_b t x) ts) with (@nil R); [reflexivity|]. symmetry.
    assert (F : forall t, In t ts -> Rle_b t x = false).
    { intros t Ht. apply In_nth_error in Ht as (q & Hq). pose proof (Hi 0 (S q) x t ltac:(lia) eq_refl Hq).
      destruct (Rle_b t x) eqn:E; [apply Rle_b_true in E; lra|reflexivity]. }
    clear -F. induction ts as [|t ts IH]; [reflexivity|]. simpl. rewrite F by (left; auto). apply IH. intros u Hu. apply F. right; auto.
  - cbn [filter]. pose proof (Hi 0 (S m) a x ltac:(lia) eq_refl Hm).
    replace (Rle_b a x) with true by (symmetry; apply Rle_b_true; lra). simpl. f_equal. apply IH; auto.
Qed.
Lemma interval_sample ts m x : increasing ts -> nth_error ts m = Some x -> interval_of ts x = m.
Proof. intros Hi Hm. unfold interval_of. rewrite (count_le ts m x Hi Hm). reflexivity. Qed.
Lemma near_around n m j : j < n -> (near m j = true <-> around n m j).
Proof.
  intros Hj. unfold near, around. rewrite andb_true_iff, !Nat.leb_le. lia.
Qed.

Lemma spread4_stamped arr ta tsa tau n sh l : stamped_nan4 arr ta tsa tau n sh -> (exists f, l = filter f (times tsa n)) ->
  exists m, spread_quats arr (Some ta) (Some tsa) (Some l) = Ok m /\
    forall k x i pre c, nth_error l k = Some x -> nth_error (times tsa n) i = Some x -> valid sh pre -> c < 4 ->
      (dat m (put tau k pre ++ [c]) = true <-> exists j, around n i j /\ missing4 arr (put tau j pre)).
Proof.
  intros Hst (f & Hf). pose proof Hst as (_ & Ht & _ & Hts & Hn & _). destruct (stamped_facts _ _ _ _ _ _ _ Hst) as (Hs & Hta & Hinc).
  cbn [shp] in Hs, Hta. unfold ndim in Hta. cbn [shp] in Hta.
  unfold spread_quats, to_front. unfold ndim. cbn [nans shp]. rewrite Hta. cbn [bind].
  assert (Nn : nth tau (shp arr) 0 = n).
  { rewrite Hs, app_nth1 by (rewrite length_insert; lia). apply nth_insert; auto. }
  rewrite Nn. fold (times tsa n). set (a := swap_nd 0 tau (nans arr)).
  assert (Sa : shp a = n :: mv tau sh ++ [4]).
  { unfold a. cbn [swap_nd shp nans]. rewrite Hs. rewrite swapl_app by (rewrite length_insert; lia).
    rewrite swapl_insert0 by auto. reflexivity. }
  assert (Da : forall j pre c, length pre = length sh -> dat a (j :: mv tau pre ++ [c]) = is_nan (dat arr (insert_at tau j pre ++ [c]))).
  { intros j pre c H. unfold a. cbn [swap_nd dat nans]. do 2 f_equal. rewrite app_comm_cons, swapl_app by (simpl; rewrite length_mv; lia).
    rewrite swapl_mv by lia. reflexivity. }
  assert (Ha : forall j pre, length pre = length sh -> (has_nan a (j :: mv tau pre) = true <-> missing4 arr (put tau j pre))).
  { intros j pre Hp. rewrite <- has_nan_spec. unfold has_nan. rewrite !existsb_exists.
    split; intros (c & Hc & E); exists c; (split; [exact Hc|]); rewrite <- app_comm_cons, Da in * by auto; cbn [nans dat] in *;
      rewrite put_insert in * by lia; exact E. }
  cbn [resample_quat_mask bind]. set (b := squad_mask (times tsa n) a l).
  destruct (swapaxes_back (mul_mask b) (length l) sh 4 ta tau) as (out & Eo & So & Do); auto.
  { unfold b. cbn [mul_mask squad_mask shp]. rewrite Sa. reflexivity. }
  { rewrite <- Hta. f_equal. unfold ndim. unfold b. cbn [mul_mask squad_mask shp]. rewrite Sa, Hs. simpl. rewrite !app_length, length_mv, length_insert by auto. simpl. lia. }
  exists out. split; [exact Eo|]. intros k x i pre c Hk Hi Hp Hc. pose proof (valid_length _ _ Hp) as Lp.
  rewrite put_insert by lia. rewrite Do by auto. cbn [mul_mask dat].
  replace (removelast (k :: mv tau pre ++ [c])) with (k :: mv tau pre) by (rewrite app_comm_cons, removelast_snoc; reflexivity).
  assert (Db : forall d, dat b (k :: mv tau pre ++ [d]) = true <-> exists j, around n i j /\ missing4 arr (put tau j pre)).
  { intros d. unfold b. cbn [squad_mask dat hd tl]. rewrite removelast_snoc.
    rewrite (nth_error_nth _ _ _ Hk), (interval_sample _ _ _ Hinc Hi). rewrite existsb_exists, length_times. split.
    - intros (j & Hj & E). apply in_seq in Hj. apply andb_prop in E as (E1 & E2). exists j. split.
      + apply near_around; [lia|exact E1].
      + apply Ha; auto.
    - intros (j & Hj & E). exists j. split; [apply in_seq; destruct Hj; lia|]. apply andb_true_intro. split.
      + apply (near_around n); [apply Hj|exact Hj].
      + apply Ha; auto. }
  unfold has_nan. rewrite existsb_exists. split.
  - intros (d & Hd & E). apply (Db d). exact E.
  - intros H. exists 0. split; [apply in_seq; lia|]. rewrite <- app_comm_cons. apply Db. exact H.
Qed.
Lemma blank_stamped4 arr ta tsa tau n sh : stamped_nan4 arr ta tsa tau n sh -> stamped (blank_quats arr) 4 ta tsa tau n sh.
Proof. exact (fun H => H). Qed.

(** Timestamped arrays of orientations: sample k of the output belongs to a sample m in range, at the same
    time.  It is NaN (all components) if any sample from the one before m to the second after it has a NaN;
    otherwise it is the image of sample m. *)
Theorem C82_quaternions : forall s i to j arr ta tsa tau n sh out o, reachable s ->
  frame s i -> denotes s to j -> unit_way s i j -> stamped_nan4 arr ta tsa tau n sh -> unit_samples arr tau n sh ->
  transform_quaternions_nan s i arr to (Some ta) (Some tsa) = Ok (out, o) ->
  exists l, o = Some l /\ per_sample np_squad s i j tsa tau n sh 4 l (Nd (shp out) (fun _ => 0%R))
    (fun k m pre t r => image_nan4 arr out tau n k m pre r).
Proof.
  intros s i to j arr ta tsa tau n sh out o HR Hi Hj Hw Hst U H. destruct C79_contract as (SU & SE & _).
  unfold transform_quaternions_nan in H. apply bind_ok in H as ((c & o') & Hc & H).
  destruct (C22_quaternions np_squad s i to j (blank_quats arr) ta tsa tau n sh c o' HR SU SE Hi Hj Hw (blank_stamped4 _ _ _ _ _ _ Hst) (blank_unit _ _ _ _ U) Hc)
    as (l & -> & T1 & T2 & So & Hk).
  apply bind_ok in H as (m & Hm & H). injection H as <- <-.
  exists l. split; [reflexivity|]. split; [exact T1|]. split; [exact T2|]. split; [exact So|].
  destruct (spread4_stamped arr ta tsa tau n sh l Hst T1) as (m' & Em & Dm). rewrite Em in Hm. injection Hm as ->.
  intros k x Hx. destruct (Hk k x Hx) as (i' & t & r & Hi' & Ht & Hmap & Him). exists i', t, r. split; [auto|]. split; [auto|]. split; [auto|].
  intros pre Hp. specialize (Him pre Hp). assert (Hx' : nth_error (times tsa n) i' = Some x) by (apply nth_times; auto).
  assert (D : forall d, d < 4 -> (dat m (put tau k pre ++ [d]) = true <-> exists j, around n i' j /\ missing4 arr (put tau j pre))).
  { intros d Hd. apply (Dm k x i' pre d); auto. }
  split.
  - intros j' Hj' Hmi d Hd. cbn [with_nans dat]. rewrite (proj2 (D d Hd)) by eauto. reflexivity.
  - intros q Hq Hnm. rewrite (blank_holds _ _ _ Hq) in Him.
    assert (F : forall d, d < 4 -> dat m (put tau k pre ++ [d]) = false).
    { intros d Hd. destruct (dat m (put tau k pre ++ [d])) eqn:E; [|reflexivity]. apply D in E; auto. destruct E as (j' & Hj' & E).
      exfalso. exact (Hnm j' Hj' E). }
    unfold holds4. cbn [with_nans dat]. rewrite !F by lia. rewrite <- Him. cbn [quat_at qw qx qy qz]. auto.
Qed.
(** Such transforms succeed. *)
Theorem C82_quaternions_succeed : forall s i to j arr ta tsa tau n sh, reachable s ->
  frame s i -> denotes s to j -> good_way s i j -> stamped_nan4 arr ta tsa tau n sh -> unit_samples arr tau n sh ->
  exists out l, transform_quaternions_nan s i arr to (Some ta) (Some tsa) = Ok (out, Some l).
Proof.
  intros s i to j arr ta tsa tau n sh HR Hi Hj Hg Hst U. destruct C79_contract as (SU & SE & ST & _).
  destruct (C22_quaternions_succeed np_squad s i to j (blank_quats arr) ta tsa tau n sh HR ST SU SE Hi Hj Hg (blank_stamped4 _ _ _ _ _ _ Hst) (blank_unit _ _ _ _ U))
    as (c & l & Hc).
  destruct (C22_quaternions np_squad s i to j (blank_quats arr) ta tsa tau n sh c (Some l) HR SU SE Hi Hj (good_unit _ _ _ Hg) (blank_stamped4 _ _ _ _ _ _ Hst) (blank_unit _ _ _ _ U) Hc)
    as (l' & E & T1 & _). injection E as <-.
  destruct (spread4_stamped arr ta tsa tau n sh l Hst T1) as (m & Em & _).
  unfold transform_quaternions_nan. rewrite Hc. cbn [bind]. rewrite Em. cbn [bind]. eauto.
Qed.

(** Without timestamps, between frames connected through static frames: exactly the samples with a NaN are
    lost. *)
Lemma spread4_none arr sh : shp arr = (sh ++ [4])%list -> exists m, spread_quats arr (Some 0%Z) None None = Ok m /\
  forall pre c, valid sh pre -> c < 4 -> (dat m (pre ++ [c]) = true <-> missing4 arr pre).
Proof.
  intros Hs. unfold spread_quats, to_front. cbn [bind resample_quat_mask]. unfold swapaxes.
  assert (Hnd : 0 < ndim (mul_mask (nans arr))) by (unfold ndim; cbn [mul_mask nans shp]; rewrite Hs, app_length; simpl; lia).
  rewrite (norm_axis_pos 0 _ Hnd : norm_axis 0 _ = Ok 0). cbn [bind]. eexists. split; [reflexivity|].
  intros pre c Hp Hc. cbn [swap_nd dat]. rewrite swapl_same. cbn [mul_mask dat]. rewrite removelast_snoc. apply has_nan_spec.
Qed.
Theorem C82_quaternions_static : forall s i to j t r arr sh, reachable s -> frame s i -> denotes s to j ->
  lookup_transform np_squad s i to = Ok (TrStatic t r) -> shp arr = (sh ++ [4])%list ->
  exists out, transform_quaternions_nan s i arr to (Some 0%Z) None = Ok (out, None) /\ shp out = shp arr /\
    forall pre, valid sh pre -> (missing4 arr pre -> lost4 out pre) /\ (forall q, holds4 arr pre q -> holds4 out pre (hmul r q)).
Proof.
  intros s i to j t r arr sh HR Hi Hj H Hs. destruct (spread4_none arr sh Hs) as (m & Em & Dm).
  destruct (C22_static_quaternions np_squad s i to j t r (blank_quats arr) sh HR Hi Hj H Hs) as (c & Hc & Sc & Dc).
  exists (with_nans c m). unfold transform_quaternions_nan. rewrite Hc. cbn [bind]. rewrite Em. cbn [bind].
  split; [reflexivity|]. split; [exact Sc|]. intros pre Hp. split.
  - intros Hmi d Hd. cbn [with_nans dat]. rewrite (proj2 (Dm pre d Hp Hd) Hmi). reflexivity.
  - intros q Hq. pose proof (Dc pre Hp) as D. rewrite (blank_holds _ _ _ Hq) in D.
    assert (F : forall d, d < 4 -> dat m (pre ++ [d]) = false).
    { intros d Hd. destruct (dat m (pre ++ [d])) eqn:E; [|reflexivity]. apply Dm in E; auto. exfalso. exact (holds_not_missing _ _ _ Hq E). }
    unfold holds4. cbn [with_nans dat]. rewrite !F by lia. rewrite <- D. cbn [quat_at qw qx qy qz]. auto.
Qed.

(** One missing orientation of four can cost all four: from frame d of the example tree to its parent, the
    samples 0, 1 and 3 are numbers and nothing but NaN remains. *)
Definition four_stamps : nd R := arr1 [0; 1; 2; 3]%R.
Definition four_arr : nd (option R) := Nd [4; 4] (fun ix => if Nat.eqb (hd 0 ix) 2 then None else Some (comp4 (nth 1 ix 0) q1)).
Theorem C82_quaternions_refuted : exists s i to j arr tsa n out l, reachable s /\ frame s i /\ denotes s to j /\ good_way s i j /\
  stamped_nan4 arr 0 tsa 0 n [] /\ unit_samples arr 0 n [] /\
  holds4 arr [0] q1 /\ holds4 arr [1] q1 /\ holds4 arr [3] q1 /\
  transform_quaternions_nan s i arr to (Some 0%Z) (Some tsa) = Ok (out, Some l) /\
  (forall m, m < n -> In (dat tsa [m]) l) /\ forall k, k < length l -> lost4 out [k].
Proof.
  exists mov_lit, 3, (PFrame 0), 0, four_arr, four_stamps, 4.
  pose proof mov_lit_reachable as HR.
  assert (Hf : frame mov_lit 3) by (unfold frame; simpl; lia).
  assert (Hd : denotes mov_lit (PFrame 0) 0) by (left; split; auto; unfold frame; simpl; lia).
  assert (W : forall k, on_way mov_lit 3 0 k -> k = 3).
  { assert (A : forall a, ancestor (parent_of mov_lit) 0 a -> a = 0).
    { intros a Ha. inversion Ha as [|? ? ? E1 E2]; auto. discriminate E1. }
    intros k [(H1 & H2)|(H1 & H2)].
    - inversion H1 as [|? b ? E1 E2]; auto; subst. simpl in E1. injection E1 as <-. apply A in E2. subst. exfalso. apply H2. constructor.
    - apply A in H1. subst. exfalso. apply H2. econstructor; [reflexivity|constructor]. }
  assert (Hg : good_way mov_lit 3 0).
  { split; [exists 0; split; apply mov_root; lia|]. intros k Hk. apply W in Hk. subst k. eexists. split; [reflexivity|]. apply (mov_well 3). reflexivity. }
  assert (Hst : stamped_nan4 four_arr 0 four_stamps 0 4 []).
  { repeat split; auto. intros a b Hab. destruct a as [|[|[|[|a]]]]; destruct b as [|[|[|[|b]]]]; try lia; simpl; lra. }
  assert (Hh : forall m, m <> 2 -> holds4 four_arr [m] q1).
  { intros m Hm. unfold holds4, four_arr. cbn [dat hd app nth]. destruct (Nat.eqb_spec m 2); [contradiction|]. auto. }
  assert (Hm2 : missing4 four_arr [2]) by (exists 0; split; [lia|reflexivity]).
  assert (U : unit_samples four_arr 0 4 []).
  { intros m pre q Hm Hp Hq. assert (pre = []) by (inversion Hp; reflexivity). subst pre. change (put 0 m []) with [m] in Hq.
    destruct (Nat.eq_dec m 2) as [->|Hne]; [exfalso; exact (holds_not_missing _ _ _ Hq Hm2)|].
    pose proof (Hh m Hne) as (A & B & C & D). destruct Hq as (A' & B' & C' & D'). rewrite A in A'. rewrite B in B'. rewrite C in C'. rewrite D in D'.
    injection A' as A'. injection B' as B'. injection C' as C'. injection D' as D'. destruct q as [w x y z]. cbn [qw qx qy qz q1] in *. subst. apply hunit_one. }
  destruct (C82_quaternions_succeed mov_lit 3 (PFrame 0) 0 four_arr 0 four_stamps 0 4 [] HR Hf Hd Hg Hst U) as (out & l & E).
  exists out, l. split; [exact HR|]. split; [exact Hf|]. split; [exact Hd|]. split; [exact Hg|]. split; [exact Hst|]. split; [exact U|].
  split; [apply Hh; lia|]. split; [apply Hh; lia|]. split; [apply Hh; lia|]. split; [exact E|].
  destruct (C82_quaternions mov_lit 3 (PFrame 0) 0 four_arr 0 four_stamps 0 4 [] out (Some l) HR Hf Hd (good_unit _ _ _ Hg) Hst U E) as (l' & El & _ & (rt & Hrt & T2) & _ & Hk).
  injection El as <-. split.
  { intros m Hm. apply T2; [exact Hm|]. intros f tf Hin Hc. apply (PropConsist.route_way mov_lit 3 0 rt HR Hf (denotes_frame _ _ _ HR Hd) Hrt) in Hin.
    apply W in Hin. subst f. discriminate Hc. }
  intros k Hkl. destruct (nth_error l k) as [x|] eqn:Ex; [|apply nth_error_None in Ex; lia].
  destruct (Hk k x Ex) as (m & t & r & Hm & _ & _ & Him). destruct (Him [] (Forall2_nil _)) as (L & _).
  apply (L 2); [unfold around; lia|exact Hm2].
Qed.
Example C82_quaternions_example : missing4 four_arr [2] /\ ~ missing4 four_arr [0] /\
  exists t r, frame ex_lit 2 /\ denotes ex_lit (PFrame 3) 3 /\ lookup_transform np_squad ex_lit 2 (PFrame 3) = Ok (TrStatic t r) /\ shp four_arr = ([4] ++ [4])%list.
Proof.
  split; [exists 0; split; [lia|reflexivity]|]. split; [intros (c & _ & H); discriminate H|].
  destruct C13_example as (t & r & H1 & H2 & H3). exists t, r. split; [exact H1|]. split; [exact H2|]. split; [exact H3|reflexivity].
Qed.
