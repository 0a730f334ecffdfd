(** Properties C23-C26: the axis and time_axis arguments, rotate_vectors. *)
From Coq Require Import Reals List Arith Bool ZArith Lia Lra.
From Verif Require Import Base Quat SpecQuat QuatProofs NdArray Frames SpecForest FrameProofs WalkProofs
  Matcher SpecLookup LookupProofs RegistryProofs MovingProofs TimeProofs CtorProofs InverseProofs RouteProofs
  Examples PropForest PropLookup PropMoving
  Transform SpecArray NdProofs RotProofs ArrProofs ArrTransProofs ArrStaticProofs PropTransform.
Import ListNotations.
Open Scope nat_scope.

(** The vector / quaternion at position pre of an array whose coordinates are on
    axis k. *)
Definition vec_on (a : nd R) (k : nat) (pre : list nat) : vec3 :=
  V3 (dat a (put k 0 pre)) (dat a (put k 1 pre)) (dat a (put k 2 pre)).
Definition quat_on (a : nd R) (k : nat) (pre : list nat) : quat :=
  Qt (dat a (put k 0 pre)) (dat a (put k 1 pre)) (dat a (put k 2 pre)) (dat a (put k 3 pre)).
(** Python integers that denote axis k of an n-dimensional array. *)
Definition axis_is (a : Z) (k n : nat) : Prop := a = Z.of_nat k \/ a = (Z.of_nat k - Z.of_nat n)%Z.

Lemma vec_on_along a k pre : k <= length pre -> vec_on a k pre = vec_along a k pre.
Proof. intros H. unfold vec_on, vec_along. rewrite !put_insert by auto. reflexivity. Qed.
Lemma quat_on_along a k pre : k <= length pre -> quat_on a k pre = quat_along a k pre.
Proof. intros H. unfold quat_on, quat_along. rewrite !put_insert by auto. reflexivity. Qed.
Lemma axis_is_norm a k n : k < n -> axis_is a k n -> norm_axis a n = Ok k.
Proof. intros H [-> | ->]; [apply norm_axis_pos|apply norm_axis_neg]; auto. Qed.
Lemma along_facts (arr : nd R) k m sh a : shp arr = put k m sh -> k <= length sh -> axis_is a k (ndim arr) ->
  shp arr = insert_at k m sh /\ ndim arr = S (length sh) /\ norm_axis a (ndim arr) = Ok k /\ nth k (shp arr) 0 = m /\
  remove_at k (shp arr) = sh.
Proof.
  intros Hs Hk Ha. rewrite put_insert in Hs by auto.
  assert (Hn : ndim arr = S (length sh)) by (unfold ndim; rewrite Hs, length_insert; auto).
  split; auto. split; auto. split; [apply axis_is_norm; auto; lia|]. rewrite Hs. split; [apply nth_insert|apply remove_insert]; auto.
Qed.
Lemma undo_none (e : nd R) : undo_swap e None = Ok e.
Proof. reflexivity. Qed.

(* ------------------------------------------------------------------ C23 *)
(** Through static frames, vectors and orientations: coordinates on any axis k. *)
Theorem C23_vectors_partial : forall squad s i to j t r arr axis k sh, reachable s -> frame s i -> denotes s to j ->
  lookup_transform squad s i to = Ok (TrStatic t r) ->
  shp arr = put k 3 sh -> k <= length sh -> axis_is axis k (ndim arr) ->
  exists out, transform_vectors squad s i arr to axis (Some 0%Z) None = Ok (out, None) /\ shp out = shp arr /\
    forall pre, valid sh pre -> vec_on out k pre = srot r (vec_on arr k pre).
Proof.
  intros squad s i to j t r arr axis k sh HR Hi Hj H Hs Hk Ha. pose proof (static_nz _ _ _ _ _ _ _ HR Hi Hj H) as Hr.
  destruct (along_facts arr k 3 sh axis Hs Hk Ha) as (Hs' & Hn & Hax & H3 & _).
  destruct (vectors_static squad s i arr to axis k t r Hax H Hr (Some 0%Z) H3) as (out & E & So & Do).
  destruct (undo0 out) as (d & Ed & Sd & Dd); [unfold ndim; rewrite So; fold (ndim arr); lia|].
  rewrite Ed in E. cbn [bind] in E. exists d. split; [exact E|]. split; [congruence|]. intros pre Hp.
  pose proof (valid_length _ _ Hp) as Lp. rewrite !vec_on_along by lia. rewrite <- Do by lia.
  unfold vec_along. rewrite !Dd. reflexivity.
Qed.
Theorem C23_quaternions_partial : forall squad s i to j t r arr axis k sh, reachable s -> frame s i -> denotes s to j ->
  lookup_transform squad s i to = Ok (TrStatic t r) ->
  shp arr = put k 4 sh -> k <= length sh -> axis_is axis k (ndim arr) ->
  exists out, transform_quaternions squad s i arr to axis (Some 0%Z) None = Ok (out, None) /\ shp out = shp arr /\
    forall pre, valid sh pre -> quat_on out k pre = hmul r (quat_on arr k pre).
Proof.
  intros squad s i to j t r arr axis k sh HR Hi Hj H Hs Hk Ha. pose proof (static_nz _ _ _ _ _ _ _ HR Hi Hj H) as Hr.
  destruct (along_facts arr k 4 sh axis Hs Hk Ha) as (Hs' & Hn & Hax & H3 & Hrem).
  destruct (quats_static squad s i arr to axis k t r Hax H (Some 0%Z) H3) as (out & E & So & Do).
  destruct (undo0 out) as (d & Ed & Sd & Dd); [unfold ndim; rewrite So; fold (ndim arr); lia|].
  rewrite Ed in E. cbn [bind] in E. exists d. split; [exact E|]. split; [congruence|]. intros pre Hp.
  pose proof (valid_length _ _ Hp) as Lp. rewrite !quat_on_along by lia. rewrite Hrem in Do. rewrite <- Do by auto.
  unfold quat_along. rewrite !Dd. reflexivity.
Qed.
(** Hence moving the coordinate axis from k to k' moves it in the result. *)
Theorem C23_move_partial : forall squad s i to j t r arr arr' axis axis' k k' sh, reachable s -> frame s i -> denotes s to j ->
  lookup_transform squad s i to = Ok (TrStatic t r) ->
  k <= length sh -> k' <= length sh -> axis_is axis k (ndim arr) -> axis_is axis' k' (ndim arr') ->
  (shp arr = put k 3 sh -> shp arr' = put k' 3 sh -> 
   (forall pre, valid sh pre -> vec_on arr k pre = vec_on arr' k' pre) ->
   exists out out', transform_vectors squad s i arr to axis (Some 0%Z) None = Ok (out, None) /\
     transform_vectors squad s i arr' to axis' (Some 0%Z) None = Ok (out', None) /\
     forall pre, valid sh pre -> vec_on out k pre = vec_on out' k' pre) /\
  (shp arr = put k 4 sh -> shp arr' = put k' 4 sh -> 
   (forall pre, valid sh pre -> quat_on arr k pre = quat_on arr' k' pre) ->
   exists out out', transform_quaternions squad s i arr to axis (Some 0%Z) None = Ok (out, None) /\
     transform_quaternions squad s i arr' to axis' (Some 0%Z) None = Ok (out', None) /\
     forall pre, valid sh pre -> quat_on out k pre = quat_on out' k' pre).
Proof.
  intros squad s i to j t r arr arr' axis axis' k k' sh HR Hi Hj H Hk Hk' Ha Ha'. split; intros Hs Hs' Heq.
  - destruct (C23_vectors_partial squad s i to j t r arr axis k sh HR Hi Hj H Hs Hk Ha) as (o1 & E1 & _ & D1).
    destruct (C23_vectors_partial squad s i to j t r arr' axis' k' sh HR Hi Hj H Hs' Hk' Ha') as (o2 & E2 & _ & D2).
    exists o1, o2. split; auto. split; auto. intros pre Hp. rewrite D1, D2, Heq by auto. reflexivity.
  - destruct (C23_quaternions_partial squad s i to j t r arr axis k sh HR Hi Hj H Hs Hk Ha) as (o1 & E1 & _ & D1).
    destruct (C23_quaternions_partial squad s i to j t r arr' axis' k' sh HR Hi Hj H Hs' Hk' Ha') as (o2 & E2 & _ & D2).
    exists o1, o2. split; auto. split; auto. intros pre Hp. rewrite D1, D2, Heq by auto. reflexivity.
Qed.

(** Frame c of the example is at (5,0,0) in world, unrotated. *)
Lemma c_to_world : lookup_transform hold_squad ex_lit 3 (PFrame 0) = Ok (TrStatic (V3 5 0 0) (Qt 1 0 0 0)).
Proof.
  assert (HI : Inv ex_lit) by (apply reachable_Inv, ex_lit_reachable).
  apply (lookup_static_iff hold_squad ex_lit 3 (PFrame 0) 0 _ _ HI ltac:(unfold size; simpl; lia) eq_refl).
  exists [3], [], 0, (gmul gone (V3 5 0 0, Qt 1 0 0 0)), gone.
  split.
  { split; [|split].
    - econstructor; [reflexivity|]. constructor.
    - constructor.
    - intros a _ Ha. exact Ha. }
  split; [econstructor; [reflexivity|reflexivity|vcomp; lra|constructor]|].
  split; [constructor|]. unfold gmul, ginv, gone, hinv. cbn [fst snd]. vcomp. f_equal; f_equal; field.
Qed.
Lemma c_world_frames : frame ex_lit 3 /\ denotes ex_lit (PFrame 0) 0.
Proof. split; [unfold frame; simpl; lia|left; split; auto; unfold frame; simpl; lia]. Qed.
Example C23_example : frame ex_lit 3 /\ denotes ex_lit (PFrame 0) 0 /\
  lookup_transform hold_squad ex_lit 3 (PFrame 0) = Ok (TrStatic (V3 5 0 0) (Qt 1 0 0 0)) /\
  shp (Nd [2;3;5] (fun _ => 0%R)) = put 1 3 [2;5] /\ axis_is (-2) 1 3 /\ axis_is 1 1 3.
Proof. destruct c_world_frames. repeat split; auto; [apply c_to_world|right; reflexivity|left; reflexivity]. Qed.

(** Points: the translation is added along the last axis whatever [axis] says.
    Frame c is at (5,0,0); three points at the origin of c, coordinates first. *)
Definition zeros33 : nd R := Nd [3;3] (fun _ => 0%R).
Theorem C23_refuted : exists s i to out out', reachable s /\ frame s i /\
  transform_points hold_squad s i zeros33 to (-1) (Some 0%Z) None = Ok (out, None) /\
  transform_points hold_squad s i zeros33 to 0 (Some 0%Z) None = Ok (out', None) /\
  (forall pre, valid [3] pre -> vec_on zeros33 1 pre = vec_on zeros33 0 pre) /\
  vec_on out 1 [1] = V3 5 0 0 /\ vec_on out' 0 [1] = V3 0 0 0.
Proof.
  assert (Hr : hn2 (Qt 1 0 0 0) <> 0%R) by (vcomp; lra).
  destruct c_world_frames as (Hf & Hd).
  destruct (C22_static_points hold_squad ex_lit 3 (PFrame 0) 0 _ _ zeros33 [3] ex_lit_reachable Hf Hd c_to_world eq_refl) as (out & E & So & Do).
  destruct (rotate_scalar (Qt 1 0 0 0) zeros33 0 0 eq_refl eq_refl Hr) as ([sc' dc] & Ec & Sc & Dc). simpl in Sc. subst sc'.
  assert (E' : exists out', transform_points hold_squad ex_lit 3 zeros33 (PFrame 0) 0 (Some 0%Z) None = Ok (out', None) /\
     forall a b, dat out' [a; b] = (dc [a; b] + comp3 b (V3 5 0 0))%R \/ 3 <= a \/ 3 <= b).
  { unfold transform_points.
    rewrite (prepare_static hold_squad ex_lit 3 zeros33 (PFrame 0) 0 0 _ _ eq_refl c_to_world 3 (Some 0%Z) eq_refl).
    cbn [bind tr_r tr_t expand_r expand_t shp ndim tr_ts]. rewrite Ec. cbn [bind].
    eexists. split; [reflexivity|]. intros a b. cbn.
    destruct (le_lt_dec 3 a); [auto|]. destruct (le_lt_dec 3 b); [auto|]. left. reflexivity. }
  destruct E' as (out' & E' & D'). exists ex_lit, 3, (PFrame 0), out, out'.
  split; [apply ex_lit_reachable|]. split; [exact Hf|]. split; [exact E|]. split; [exact E'|].
  split; [reflexivity|]. split.
  - change (vec_on out 1 [1]) with (vec_at out [1]). rewrite Do by (constructor; [lia|constructor]).
    unfold vec_at. cbn [dat zeros33]. vcomp. f_equal; field.
  - specialize (Dc [1] eq_refl). 
    change (vec_along zeros33 0 [1]) with v0 in Dc. rewrite srot_0 in Dc. unfold vec_along in Dc. cbn [insert_at dat] in Dc.
    injection Dc as D0 D1 D2. unfold vec_on. cbn [put].
    destruct (D' 0 1) as [->|[?|?]]; try lia. destruct (D' 1 1) as [->|[?|?]]; try lia. destruct (D' 2 1) as [->|[?|?]]; try lia.
    rewrite D0, D1, D2. cbn [comp3 vx vy vz v0]. f_equal; ring.
Qed.

(* ------------------------------------------------------------------ C24 *)
(** Without timestamps a time axis other than the first transposes the result. *)
Definition zeros23 : nd R := Nd [2;3] (fun _ => 0%R).
Theorem C24_refuted : exists s i to out out', reachable s /\ frame s i /\
  transform_points hold_squad s i zeros23 to (-1) (Some 0%Z) None = Ok (out, None) /\ shp out = [2;3] /\
  transform_points hold_squad s i zeros23 to (-1) (Some 1%Z) None = Ok (out', None) /\ shp out' = [3;2].
Proof.
  destruct c_world_frames as (Hf & Hd). assert (Hr : hn2 (Qt 1 0 0 0) <> 0%R) by (vcomp; lra).
  destruct (C22_static_points hold_squad ex_lit 3 (PFrame 0) 0 _ _ zeros23 [2] ex_lit_reachable Hf Hd c_to_world eq_refl) as (out & E & So & _).
  destruct (points_static hold_squad ex_lit 3 zeros23 (PFrame 0) (-1) 1 _ _ eq_refl c_to_world Hr (Some 1%Z) [2] eq_refl eq_refl) as ([sc' dc] & E' & S' & _).
  simpl in S'. subst sc'. cbn in E'. exists ex_lit, 3, (PFrame 0), out. eexists. split; [apply ex_lit_reachable|]. split; [exact Hf|].
  split; [exact E|]. split; [exact So|]. split; [exact E'|]. reflexivity.
Qed.
(** In general the result with time_axis = a is the result without one with axes 0
    and a swapped; None and 0 have no effect, whatever the frames.
    Missing: other time axes (refuted). *)
Definition swapped_result (a : Z) (x y : res (nd R * option (list R))) : Prop :=
  match x with
  | Ok (d, l) => y = (d' <- swapaxes d 0 a ;; Ok (d', l))
  | Raise e => y = Raise e
  end.
Theorem C24_partial : forall squad s i arr to axis a,
  swapped_result a (transform_points squad s i arr to axis None None) (transform_points squad s i arr to axis (Some a) None) /\
  swapped_result a (transform_vectors squad s i arr to axis None None) (transform_vectors squad s i arr to axis (Some a) None) /\
  swapped_result a (transform_quaternions squad s i arr to axis None None) (transform_quaternions squad s i arr to axis (Some a) None).
Proof.
  intros squad s i arr to axis a.
  assert (P : forall n, prepare squad s i arr to axis n (Some a) None = prepare squad s i arr to axis n None None).
  { intros n. unfold prepare. replace (validate_input arr axis n None (Some a)) with (validate_input arr axis n None None) by reflexivity. reflexivity. }
  unfold transform_points, transform_vectors, transform_quaternions. rewrite !P.
  split; [|split].
  - destruct (prepare squad s i arr to axis 3 None None) as [[tr b]|e]; cbn [bind]; [|reflexivity].
    destruct (rotate_vectors _ b axis); cbn [bind]; [|reflexivity].
    destruct (op2 Rplus _ _); cbn [bind undo_swap]; [|reflexivity]. cbn. destruct (swapaxes _ 0 a); reflexivity.
  - destruct (prepare squad s i arr to axis 3 None None) as [[tr b]|e]; cbn [bind]; [|reflexivity].
    destruct (rotate_vectors _ b axis); cbn [bind undo_swap]; [|reflexivity]. cbn. destruct (swapaxes _ 0 a); reflexivity.
  - destruct (prepare squad s i arr to axis 4 None None) as [[tr b]|e]; cbn [bind]; [|reflexivity].
    destruct (swapaxes b axis (-1)); cbn [bind]; [|reflexivity]. destruct (as_quat _); cbn [bind]; [|reflexivity].
    destruct (op2 qmulq _ _); cbn [bind]; [|reflexivity]. destruct (swapaxes _ (-1) axis); cbn [bind undo_swap]; [|reflexivity].
    cbn. destruct (swapaxes _ 0 a); reflexivity.
Qed.
(** time_axis 0 is no time axis: swapping axis 0 with itself. *)
Theorem C24_default_partial : forall (d : nd R), 0 < ndim d -> exists d', swapaxes d 0 0 = Ok d' /\ nd_eq d' d.
Proof. intros d H. apply (undo_default d H). Qed.

(* ------------------------------------------------------------------ C25 *)
Definition q22 : nd quat := Nd [2;2] (fun ix =>
  match ix with [1; 0] => Qt 0 0 0 1 | _ => Qt 1 0 0 0 end).
Definition v322 : nd R := Nd [3;2;2] (fun ix => match hd 0 ix with 0 => 1%R | _ => 0%R end).
(** Coordinates first, a 2x2 array of quaternions: the scalar parts are paired
    with the transposed position. *)
Theorem C25_refuted : exists out, rotate_vectors q22 v322 0 = Ok out /\ shp out = [3;2;2] /\
  (forall ix, valid [2;2] ix -> hunit (dat q22 ix)) /\
  vec_on out 0 [1;0] = V3 (-1) 2 0 /\ srot (dat q22 [1;0]) (vec_on v322 0 [1;0]) = V3 (-1) 0 0.
Proof.
  assert (Hu : forall ix, hunit (dat q22 ix)).
  { intros ix. cbn [dat q22]. repeat (match goal with |- context [match ?x with _ => _ end] => destruct x end; try (vcomp; ring)). }
  assert (Hq : forall ix, qlen (dat q22 ix) = 1%R).
  { intros ix. apply qlen_unit. rewrite <- hn2_qnorm2. apply Hu. }
  assert (Hex : existsb (fun ix => Req_b (qlen (dat q22 ix)) 0) (indices (shp q22)) = false).
  { apply existsb_false_all. intros ix _. rewrite Hq. apply Req_b_false. lra. }
  unfold rotate_vectors. cbn [shp q22]. 
  replace (norm_axis 0 (ndim v322)) with (Ok 0) by reflexivity. cbn [bind].
  replace (negb (nth 0 (shp v322) 0 =? 3)) with false by reflexivity.
  replace (negb (ndim q22 =? ndim v322 - 1) || negb (axes_match [2; 2] (remove_at 0 (shp v322)))) with false by reflexivity.
  unfold rot_arrays. fold q22. rewrite Hex.
  eexists. split; [reflexivity|]. split; [reflexivity|]. split; [auto|]. split.
  - assert (Hl : qlen (Qt 1 0 0 0) = 1%R) by (apply (Hq [0;1])).
    cbv -[IZR Rplus Rmult Rminus Ropp Rdiv qlen]. rewrite Hl. f_equal; field.
  - unfold vec_on. cbn [put dat v322 q22 hd]. vcomp. f_equal; field.
Qed.
(** A 0-d quaternion pairs with every vector, for every position of the
    coordinate axis. *)
Theorem C25_single_partial : forall q v axis k sh, hnonzero q -> shp v = put k 3 sh -> k <= length sh -> axis_is axis k (ndim v) ->
  exists out, rotate_vectors (Nd [] (fun _ => q)) v axis = Ok out /\ shp out = shp v /\
    forall pre, valid sh pre -> vec_on out k pre = srot q (vec_on v k pre).
Proof.
  intros q v axis k sh Hq Hs Hk Ha. destruct (along_facts v k 3 sh axis Hs Hk Ha) as (Hs' & Hn & Hax & H3 & _).
  destruct (rotate_scalar q v k axis Hax H3 Hq) as (out & E & So & Do). exists out. split; auto. split; auto.
  intros pre Hp. pose proof (valid_length _ _ Hp). rewrite !vec_on_along by lia. apply Do. lia.
Qed.
(** Arrays of unit quaternions with the coordinates on one of the last two axes:
    every position of the common shape is rotated by its quaternion.  sh and the
    shape of q agree up to axes of length one; [zb] picks the entry of a stretched
    axis. *)
Theorem C25_arrays_partial : forall (q : nd quat) v axis k sh, shp q <> [] ->
  shp v = put k 3 sh -> k <= length sh -> length sh <= S k -> axis_is axis k (ndim v) ->
  agree (shp q) sh -> (forall ix, valid (shp q) ix -> hunit (dat q ix)) ->
  exists out, rotate_vectors q v axis = Ok out /\ shp out = put k 3 (bs (shp q) sh) /\
    forall pre, valid (bs (shp q) sh) pre ->
      vec_on out k pre = srot (dat q (zb (shp q) pre)) (vec_on v k (zb sh pre)).
Proof.
  intros q v axis k sh Hq0 Hs Hk Hk2 Ha Hag Hu. destruct (along_facts v k 3 sh axis Hs Hk Ha) as (Hs' & Hn & Hax & H3 & Hrem).
  apply agree_match in Hag as (Lq & Hm).
  assert (Hsw : swap_is_insert (ndim v) k).
  { assert (k = length sh \/ S k = length sh) as [E|E] by lia.
    - replace k with (ndim v - 1) by lia. apply swap_is_insert_last. lia.
    - replace k with (ndim v - 2) by lia. apply swap_is_insert_last2. lia. }
  assert (Hnd : ndim q = ndim v - 1) by (unfold ndim at 1; lia).
  destruct (rot_arrays_ok q v k) as (out & E & So & Do); auto; try lia.
  { rewrite Hrem. exact Hm. }
  { apply swap_is_insert_ok; auto. lia. }
  { intros ix Hi. rewrite qlen_unit; [lra|]. rewrite <- hn2_qnorm2. apply Hu, Hi. }
  rewrite Hrem in So, Do. exists out.
  assert (Lb : length (bs (shp q) sh) = length sh) by (rewrite length_bs; lia).
  split.
  - unfold rotate_vectors. destruct (shp q) as [|n0 sq] eqn:Esq; [congruence|]. rewrite Hax. cbn [bind].
    rewrite H3. cbn [Nat.eqb negb]. rewrite Hnd, Nat.eqb_refl, Hrem, Hm. exact E.
  - split; [rewrite put_insert; auto; lia|]. intros pre Hp. specialize (Do pre Hp).
    pose proof (valid_length _ _ Hp) as Lp.
    assert (Hv : valid (shp q) (zb (shp q) pre)) by (apply (valid_zb _ _ _ Lq Hm Hp)).
    rewrite rot1_unit in Do by (rewrite <- hn2_qnorm2; apply Hu; auto). apply Ok_inj in Do.
    rewrite !vec_on_along by (rewrite ?length_zb; lia). congruence.
Qed.
Example C25_example : agree [2;1] [1;4] /\ bs [2;1] [1;4] = [2;4] /\ zb [2;1] [1;3] = [1;0] /\ zb [1;4] [1;3] = [0;3].
Proof. split; [|auto]. constructor; [auto|]. constructor; auto. Qed.

(* ------------------------------------------------------------------ C26 *)
(** One quaternion, any array of vectors: q = (cos(a/2), sin(a/2) u) turns by the
    angle a about u. *)
Theorem C26_turn : forall u a v axis k sh, vdot u u = 1%R ->
  shp v = put k 3 sh -> k <= length sh -> axis_is axis k (ndim v) ->
  exists out, rotate_vectors (Nd [] (fun _ => Qt (cos (a/2)) (sin (a/2) * vx u) (sin (a/2) * vy u) (sin (a/2) * vz u))) v axis = Ok out /\
    shp out = shp v /\ forall pre, valid sh pre -> vec_on out k pre = turn u a (vec_on v k pre).
Proof.
  intros u a v axis k sh Hu Hs Hk Ha. set (q := Qt _ _ _ _).
  assert (Eq : q = mkq (cos (a/2)) (vscale (sin (a/2)) u)) by (unfold q; destruct u; reflexivity).
  assert (Hq : hnonzero q).
  { assert (hn2 q = 1)%R; [|unfold hnonzero; lra]. rewrite Eq. clear -Hu. unfold hn2. destruct u as [x y z]. vcomp.
    replace (_ + _)%R with (cos (a/2) * cos (a/2) + sin (a/2) * sin (a/2) * (x*x+y*y+z*z))%R by ring. rewrite Hu.
    pose proof (sin2_cos2 (a/2)) as T. unfold Rsqr in T. lra. }
  destruct (C25_single_partial q v axis k sh Hq Hs Hk Ha) as (out & E & So & Do). exists out. split; auto. split; auto.
  intros pre Hp. rewrite Do by auto. rewrite Eq. apply srot_turn; auto.
Qed.
(** Angles and lengths are preserved; q and -q (and every multiple) agree. *)
Theorem C26_isometry : forall q v axis k sh out, hnonzero q -> shp v = put k 3 sh -> k <= length sh -> axis_is axis k (ndim v) ->
  rotate_vectors (Nd [] (fun _ => q)) v axis = Ok out ->
  (forall p1 p2, valid sh p1 -> valid sh p2 ->
    vdot (vec_on out k p1) (vec_on out k p2) = vdot (vec_on v k p1) (vec_on v k p2)) /\
  (forall p1 p2 p3, valid sh p1 -> valid sh p2 -> valid sh p3 ->
    triple (vec_on out k p1) (vec_on out k p2) (vec_on out k p3) = triple (vec_on v k p1) (vec_on v k p2) (vec_on v k p3)).
Proof.
  intros q v axis k sh out Hq Hs Hk Ha H. destruct (C25_single_partial q v axis k sh Hq Hs Hk Ha) as (out' & E & So & Do).
  rewrite E in H. injection H as <-. split; intros; rewrite !Do by auto; [apply srot_dot|apply triple_srot]; auto.
Qed.
Theorem C26_scale : forall q c v axis k sh, hnonzero q -> c <> 0%R -> shp v = put k 3 sh -> k <= length sh -> axis_is axis k (ndim v) ->
  exists out out', rotate_vectors (Nd [] (fun _ => q)) v axis = Ok out /\
    rotate_vectors (Nd [] (fun _ => Qt (c * qw q) (c * qx q) (c * qy q) (c * qz q))) v axis = Ok out' /\
    forall pre, valid sh pre -> vec_on out k pre = vec_on out' k pre.
Proof.
  intros q c v axis k sh Hq Hc Hs Hk Ha.
  assert (Hq' : hnonzero (qscale c q)).
  { unfold hnonzero. replace (hn2 (qscale c q)) with (c * c * hn2 q)%R by (clear; veq; ring). intros H.
    apply Rmult_integral in H as [H|H]; [apply Rmult_integral in H; tauto|auto]. }
  destruct (C25_single_partial q v axis k sh Hq Hs Hk Ha) as (o1 & E1 & _ & D1).
  destruct (C25_single_partial (qscale c q) v axis k sh Hq' Hs Hk Ha) as (o2 & E2 & _ & D2).
  exists o1, o2. split; auto. split; [exact E2|]. intros pre Hp. rewrite D1, D2 by auto. symmetry. apply srot_qscale; auto.
Qed.
(** Rotating by q2 and then by q1 is rotating by q1*q2. *)
Theorem C26_compose : forall q1' q2 v axis k sh w, hnonzero q1' -> hnonzero q2 -> shp v = put k 3 sh -> k <= length sh -> axis_is axis k (ndim v) ->
  rotate_vectors (Nd [] (fun _ => q2)) v axis = Ok w ->
  exists o1 o2, rotate_vectors (Nd [] (fun _ => q1')) w axis = Ok o1 /\
    rotate_vectors (Nd [] (fun _ => qmulq q1' q2)) v axis = Ok o2 /\
    forall pre, valid sh pre -> vec_on o1 k pre = vec_on o2 k pre.
Proof.
  intros q1' q2 v axis k sh w H1 H2 Hs Hk Ha Hw.
  destruct (C25_single_partial q2 v axis k sh H2 Hs Hk Ha) as (w' & Ew & Sw & Dw). rewrite Ew in Hw. injection Hw as <-.
  assert (Ha' : axis_is axis k (ndim w')) by (unfold ndim; rewrite Sw; exact Ha).
  destruct (C25_single_partial q1' w' axis k sh H1 ltac:(congruence) Hk Ha') as (o1 & E1 & _ & D1).
  assert (Hm : hnonzero (qmulq q1' q2)) by (rewrite qmulq_hmul; apply hmul_nz; auto).
  destruct (C25_single_partial (qmulq q1' q2) v axis k sh Hm Hs Hk Ha) as (o2 & E2 & _ & D2).
  exists o1, o2. split; auto. split; auto. intros pre Hp. rewrite D1, D2, Dw by auto. rewrite qmulq_hmul. symmetry. apply srot_hmul; auto.
Qed.
(** Arrays of quaternions that are not of unit length: the formula divides by the
    length, not its square, so q=(0,2,0,0) sends (0,1,0) to (0,-3,0), not (0,-1,0). *)
Theorem C26_refuted : exists out, rotate_vectors (Nd [1] (fun _ => Qt 0 2 0 0)) (Nd [1;3] (fun ix => comp3 (last ix 0) (V3 0 1 0))) (-1) = Ok out /\
  vec_on out 1 [0] = V3 0 (-3) 0 /\ srot (Qt 0 2 0 0) (V3 0 1 0) = V3 0 (-1) 0 /\ srot (Qt 0 1 0 0) (V3 0 1 0) = V3 0 (-1) 0.
Proof.
  assert (Hq : qlen (Qt 0 2 0 0) = 2%R).
  { unfold qlen. replace (qnorm2 (Qt 0 2 0 0)) with (2 * 2)%R by (vcomp; ring). apply sqrt_square. lra. }
  set (q := Nd [1] (fun _ : list nat => Qt 0 2 0 0)). set (v := Nd [1;3] _).
  assert (Hex : existsb (fun ix => Req_b (qlen (dat q ix)) 0) (indices (shp q)) = false).
  { apply existsb_false_all. intros ix _. cbn [dat q]. rewrite Hq. apply Req_b_false. lra. }
  unfold rotate_vectors. replace (shp q) with [1] by reflexivity.
  replace (norm_axis (-1) (ndim v)) with (Ok 1) by reflexivity. cbn [bind].
  replace (negb (nth 1 (shp v) 0 =? 3)) with false by reflexivity.
  replace (negb (ndim q =? ndim v - 1) || negb (axes_match [1] (remove_at 1 (shp v)))) with false by reflexivity.
  unfold rot_arrays. rewrite Hex. eexists. split; [reflexivity|].
  split; [|split].
  - cbv -[IZR Rplus Rmult Rminus Ropp Rdiv qlen]. rewrite Hq. f_equal; field.
  - vcomp. f_equal; field.
  - vcomp. f_equal; field.
Qed.
(** For arrays of unit quaternions the rotation is the same as element by element
    (C25_arrays_partial), so the laws above hold there too; missing are arrays of
    quaternions of other lengths (refuted) and 3-d or larger v with an early
    coordinate axis (C25_refuted). *)
Theorem C26_arrays_partial : forall (q : nd quat) v axis k sh, shp q <> [] ->
  shp v = put k 3 sh -> k <= length sh -> length sh <= S k -> axis_is axis k (ndim v) ->
  agree (shp q) sh -> (forall ix, valid (shp q) ix -> hunit (dat q ix)) ->
  exists out, rotate_vectors q v axis = Ok out /\
    forall pre, valid (bs (shp q) sh) pre ->
      exists out1, rotate_vectors (Nd [] (fun _ => dat q (zb (shp q) pre))) (point (vec_on v k (zb sh pre))) (-1) = Ok out1 /\
        vec_on out k pre = vec_at out1 [].
Proof.
  intros q v axis k sh Hq0 Hs Hk Hk2 Ha Hag Hu.
  destruct (C25_arrays_partial q v axis k sh Hq0 Hs Hk Hk2 Ha Hag Hu) as (out & E & So & Do).
  exists out. split; auto. intros pre Hp. apply agree_match in Hag as (Lq & Hm).
  assert (Hv : valid (shp q) (zb (shp q) pre)) by (apply (valid_zb _ _ _ Lq Hm Hp)).
  assert (Hnz : hnonzero (dat q (zb (shp q) pre))) by (unfold hnonzero; rewrite (Hu _ Hv); lra).
  destruct (rotate_scalar (dat q (zb (shp q) pre)) (point (vec_on v k (zb sh pre))) 0 (-1) eq_refl eq_refl Hnz) as (o1 & E1 & _ & D1).
  exists o1. split; auto. specialize (D1 [] eq_refl). rewrite Do by auto.
  change (vec_along o1 0 []) with (vec_at o1 []) in D1. rewrite D1.
  change (vec_along (point (vec_on v k (zb sh pre))) 0 []) with (vec_at (point (vec_on v k (zb sh pre))) []). rewrite point_vec. reflexivity.
Qed.
