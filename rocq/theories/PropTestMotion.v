(** Property C85: the motion made for tests, and its inverse. *)
From Coq Require Import Reals List Arith Bool ZArith Lia Lra.
From Verif Require Import Base Quat SpecQuat QuatProofs NdArray Frames SpecForest FrameProofs WalkProofs
  Matcher SpecLookup LookupProofs RegistryProofs MovingProofs TimeProofs CtorProofs InverseProofs RouteProofs
  PropForest PropLookup PropMoving Transform SpecArray NdProofs RotProofs ArrProofs PropRotate
  Utils PropRotVec Squad SquadProofs PropSquad VelExamples TestMotion.
Import ListNotations.
Open Scope R_scope.

(* ------------------------------------------------------------------ specification *)

(** Displacement along the axis at sample k. *)
Definition swing (freq angle fs : R) (k : nat) : R := angle * sin (2 * PI * freq * INR k / fs).
(** The direction at sample k of n: all three axes together, or stack: the first third about x, the
    second about y, the last about z (thirds rounded up, up, down as in 4 + 4 + 3, 4 + 3 + 3). *)
Definition direction (stack : bool) (n k : nat) : vec3 :=
  if stack then
    if Nat.ltb k (Nat.div (n + 2) 3) then V3 1 0 0
    else if Nat.ltb k (Nat.div (n + 2) 3 + Nat.div (n + 1) 3) then V3 0 1 0 else V3 0 0 1
  else V3 1 1 1.
(** q is the rotation about v, by as many radians as v is long. *)
Definition rotates_by (v : vec3) (q : quat) : Prop :=
  hunit q /\ forall u a, vdot u u = 1 -> v = vscale a u -> forall w, srot q w = turn u a w.
Definition offset_vec (o : option (list R)) : vec3 :=
  match o with Some [a; b; c] => V3 a b c | _ => v0 end.
Definition three (o : option (list R)) : Prop := match o with Some l => length l = 3%nat | None => True end.
(** The samples of an array as a frame keeps them. *)
Definition vectors (a : nd R) (n : nat) : list vec3 := map (fun k => vec_at a [k]) (seq 0 n).
Definition quaternions (a : nd R) (n : nat) : list quat := map (fun k => quat_at a [k]) (seq 0 n).

(* ------------------------------------------------------------------ rotations *)

Lemma from_rotvec_form v : exists c k, from_rotvec v = mkq c (vscale k v) /\ from_rotvec (vopp v) = mkq c (vscale (- k) v) /\
  hunit (from_rotvec v).
Proof.
  unfold from_rotvec. replace (vdot (vopp v) (vopp v)) with (vdot v v) by (vcomp; ring).
  set (h := sqrt (vdot v v) / 2).
  assert (P : 0 <= vdot v v) by (destruct v as [a b c]; cbv [vdot vx vy vz]; nra).
  destruct (Req_b h 0) eqn:E.
  - exists 1, 0. assert (Z : forall z, vscale z v = vscale z v) by reflexivity.
    split; [|split].
    + destruct v as [a b c]. cbv [mkq vscale q1 vx vy vz]. f_equal; ring.
    + destruct v as [a b c]. cbv [mkq vscale q1 vx vy vz]. f_equal; ring.
    + cbv [hunit hn2 sc ve vdot vx vy vz qw qx qy qz qvec q1]. ring.
  - apply Req_b_false in E. exists (cos h), (sin h / h / 2). split; [|split].
    + destruct v as [a b c]. cbv [mkq vscale vx vy vz]. f_equal; field; exact E.
    + destruct v as [a b c]. cbv [mkq vscale vopp vx vy vz]. f_equal; field; exact E.
    + assert (H4 : vdot v v = 4 * (h * h)).
      { unfold h. pose proof (sqrt_sqrt _ P). lra. }
      pose proof (sin2_cos2 h) as T. unfold Rsqr in T.
      destruct v as [a b c]. cbv [hunit hn2 sc ve vdot vx vy vz qw qx qy qz qvec] in *.
      replace (cos h * cos h + (sin h / h * (a / 2) * (sin h / h * (a / 2)) + sin h / h * (b / 2) * (sin h / h * (b / 2)) +
         sin h / h * (c / 2) * (sin h / h * (c / 2)))) with (cos h * cos h + sin h * sin h * ((a * a + b * b + c * c) / (4 * (h * h)))) by (field; exact E).
      rewrite H4. replace (4 * (h * h) / (4 * (h * h))) with 1 by (field; exact E). lra.
Qed.
Lemma from_rotvec_unit v : hunit (from_rotvec v).
Proof. destruct (from_rotvec_form v) as (_ & _ & _ & _ & H). exact H. Qed.
Lemma from_rotvec_opp v : from_rotvec (vopp v) = hconj (from_rotvec v).
Proof.
  destruct (from_rotvec_form v) as (c & k & E1 & E2 & _). rewrite E1, E2. destruct v as [x y z].
  cbv [hconj mkq vscale vopp sc ve vx vy vz qw qx qy qz qvec]. f_equal; ring.
Qed.
Lemma from_rotvec_fixes v : srot (from_rotvec v) v = v.
Proof.
  destruct (from_rotvec_form v) as (c & k & E1 & _ & U). rewrite E1 in *. destruct v as [x y z].
  cbv [srot hunit hn2 hmul hconj mkq vscale vadd vcross vdot vopp vsub sc ve vx vy vz qw qx qy qz qvec] in *.
  rewrite U. rewrite Rinv_1. f_equal.
  - transitivity ((c * c + (k * x * (k * x) + k * y * (k * y) + k * z * (k * z))) * x); [ring|rewrite U; ring].
  - transitivity ((c * c + (k * x * (k * x) + k * y * (k * y) + k * z * (k * z))) * y); [ring|rewrite U; ring].
  - transitivity ((c * c + (k * x * (k * x) + k * y * (k * y) + k * z * (k * z))) * z); [ring|rewrite U; ring].
Qed.
Lemma from_rotvec_rotates v : rotates_by v (from_rotvec v).
Proof.
  split; [apply from_rotvec_unit|]. intros u a Hu -> w. rewrite <- srot_turn by exact Hu. f_equal.
  unfold from_rotvec. replace (vdot (vscale a u) (vscale a u)) with (Rsqr a).
  2:{ transitivity (a * a * vdot u u); [rewrite Hu; unfold Rsqr; ring|vcomp; ring]. }
  rewrite sqrt_Rsqr_abs. destruct (Req_b (Rabs a / 2) 0) eqn:E.
  - apply Req_b_true in E. assert (Z : a = 0). { destruct (Req_dec a 0) as [|N]; auto. apply Rabs_no_R0 in N. lra. }
    subst a. replace (0 / 2) with 0 by field. rewrite cos_0, sin_0. destruct u as [u1 u2 u3]. cbv [q1 mkq vscale vx vy vz]. f_equal; ring.
  - apply Req_b_false in E. assert (N : a <> 0). { intros ->. rewrite Rabs_R0 in E. lra. }
    destruct (Rcase_abs a) as [L|L].
    + rewrite Rabs_left in * by lra. replace (- a / 2) with (- (a / 2)) by field. rewrite cos_neg, sin_neg.
      destruct u as [u1 u2 u3]. cbv [mkq vscale vx vy vz]. f_equal; field; exact N.
    + rewrite Rabs_right in * by lra. destruct u as [u1 u2 u3]. cbv [mkq vscale vx vy vz]. f_equal; field; exact N.
Qed.

(* ------------------------------------------------------------------ rows *)

Lemma third_sizes n : let q := Nat.div n 3 in let r := Nat.modulo n 3 in
  (if Nat.ltb 0 r then S q else q) = Nat.div (n + 2) 3 /\ (if Nat.ltb 1 r then S q else q) = Nat.div (n + 1) 3.
Proof.
  cbv zeta. pose proof (Nat.div_mod n 3 ltac:(lia)) as E. pose proof (Nat.mod_upper_bound n 3 ltac:(lia)) as B.
  set (q := Nat.div n 3) in *. set (r := Nat.modulo n 3) in *. clearbody q r. subst n.
  destruct r as [|[|[|r]]]; [| | |lia]; cbn [Nat.ltb Nat.leb]; (split; [|]).
  - apply (Nat.div_unique _ 3 q 2); lia.
  - apply (Nat.div_unique _ 3 q 1); lia.
  - apply (Nat.div_unique _ 3 (S q) 0); lia.
  - apply (Nat.div_unique _ 3 q 2); lia.
  - apply (Nat.div_unique _ 3 (S q) 1); lia.
  - apply (Nat.div_unique _ 3 (S q) 0); lia.
Qed.
Lemma nth_along u l k : nth k (along u l) v0 = vscale (nth k l 0) u.
Proof.
  unfold along. destruct (Nat.lt_ge_cases k (length l)) as [H|H].
  - rewrite (nth_indep _ _ (V3 (0 * vx u) (0 * vy u) (0 * vz u))) by (rewrite map_length; exact H).
    rewrite (map_nth (fun x => V3 (x * vx u) (x * vy u) (x * vz u)) l 0 k). reflexivity.
  - rewrite !nth_overflow by (rewrite ?map_length; exact H). destruct u as [u1 u2 u3]. cbv [vscale v0 vx vy vz]. f_equal; ring.
Qed.
Lemma length_along u l : length (along u l) = length l.
Proof. apply map_length. Qed.
Lemma length_motion stack l : length (motion_rows stack l) = length l.
Proof.
  unfold motion_rows. destruct stack; [|apply map_length]. unfold array_split3. rewrite !app_length, !length_along.
  set (a := if Nat.ltb 0 _ then _ else _). set (b := if Nat.ltb 1 _ then _ else _).
  rewrite <- (app_length (firstn b (skipn a l))), firstn_skipn, <- app_length, firstn_skipn. reflexivity.
Qed.
Lemma nth_firstn_lt {A} (l : list A) a k d : (k < a)%nat -> nth k (firstn a l) d = nth k l d.
Proof. revert a k; induction l as [|x l IH]; intros [|a] [|k] H; simpl; auto; try lia. apply IH. lia. Qed.
Lemma nth_skipn_add {A} (l : list A) a k d : nth k (skipn a l) d = nth (a + k) l d.
Proof. revert a; induction l as [|x l IH]; intros [|a]; simpl; auto. destruct k; reflexivity. Qed.
Lemma nth_motion stack l k : (k < length l)%nat -> nth k (motion_rows stack l) v0 = vscale (nth k l 0) (direction stack (length l) k).
Proof.
  intros H. unfold motion_rows, direction. destruct stack.
  2:{ rewrite (nth_indep _ _ (V3 0 0 0)) by (rewrite map_length; exact H). rewrite (map_nth (fun x => V3 x x x) l 0 k).
      cbv [vscale vx vy vz]. f_equal; ring. }
  unfold array_split3. destruct (third_sizes (length l)) as (E1 & E2). cbv zeta in E1, E2. rewrite E1, E2.
  set (a := Nat.div (length l + 2) 3). set (b := Nat.div (length l + 1) 3).
  assert (Lab : (a + b <= length l)%nat).
  { unfold a, b. rewrite <- E1, <- E2. pose proof (Nat.div_mod (length l) 3 ltac:(lia)) as E. pose proof (Nat.mod_upper_bound (length l) 3 ltac:(lia)) as B.
    destruct (Nat.ltb_spec 0 (length l mod 3)), (Nat.ltb_spec 1 (length l mod 3)); lia. }
  destruct (Nat.ltb_spec k a) as [Ka|Ka].
  - rewrite app_nth1 by (rewrite length_along, firstn_length; lia). rewrite nth_along, nth_firstn_lt by auto. reflexivity.
  - rewrite app_nth2 by (rewrite length_along, firstn_length; lia). rewrite length_along, firstn_length, Nat.min_l by lia.
    destruct (Nat.ltb_spec k (a + b)) as [Kb|Kb].
    + rewrite app_nth1 by (rewrite length_along, firstn_length, skipn_length; lia). rewrite nth_along, nth_firstn_lt, nth_skipn_add by lia.
      do 2 f_equal. lia.
    + rewrite app_nth2 by (rewrite length_along, firstn_length, skipn_length; lia).
      rewrite length_along, firstn_length, skipn_length, Nat.min_l by lia. rewrite nth_along, !nth_skipn_add. do 2 f_equal. lia.
Qed.
Lemma length_traj n f a fs inv : length (trajectory n f a fs inv) = n.
Proof. unfold trajectory. rewrite map_length, seq_length. reflexivity. Qed.
Lemma nth_traj n f a fs inv k : (k < n)%nat -> nth k (trajectory n f a fs inv) 0 = swing f (if inv then - a else a) fs k.
Proof.
  intros H. unfold trajectory. set (g := fun k => _). rewrite (nth_indep _ _ (g 0%nat)) by (rewrite map_length, seq_length; exact H).
  rewrite map_nth, seq_nth by exact H. reflexivity.
Qed.
Lemma vec_rows3 l k : vec_at (rows3 l) [k] = nth k l v0.
Proof. unfold vec_at, rows3. cbn. destruct (nth k l v0); reflexivity. Qed.
Lemma quat_rows4 l k : quat_at (rows4 l) [k] = nth k l q1.
Proof. unfold quat_at, rows4. cbn. destruct (nth k l q1); reflexivity. Qed.
Lemma nth_rot l k : (k < length l)%nat -> nth k (map from_rotvec l) q1 = from_rotvec (nth k l v0).
Proof. intros H. rewrite (nth_indep _ _ (from_rotvec v0)) by (rewrite map_length; exact H). apply map_nth. Qed.

(** Displaced by the rotated offset. *)
Lemma add_offset (t : list vec3) (r : list quat) (o : list R) : length r = length t -> Forall hunit r -> length o = 3%nat ->
  exists q d e, as_quat (rows4 r) = Ok q /\ rotate_vectors q (Nd [1%nat; length o] (fun ix => nth (nth 1 ix O) o 0)) (-1) = Ok d /\
    op2 Rplus (rows3 t) d = Ok e /\ shp e = [length t; 3%nat] /\
    forall k, (k < length t)%nat -> vec_at e [k] = vadd (nth k t v0) (srot (nth k r q1) (offset_vec (Some o))).
Proof.
  intros Lr Hu Lo. unfold as_quat, rows4. cbn [shp last Nat.eqb removelast]. fold (rows4 r).
  eexists. set (q := Nd [length r] (fun ix => quat_at (rows4 r) ix)). set (v := Nd [1%nat; length o] (fun ix : list nat => nth (nth 1 ix O) o 0)).
  destruct (C25_arrays_partial q v (-1) 1 [1%nat]) as (d & Ed & Sd & Dd).
  - discriminate.
  - unfold v. rewrite Lo. reflexivity.
  - cbn. lia.
  - cbn. lia.
  - right. unfold ndim, v. cbn. reflexivity.
  - constructor; [right; right; reflexivity|constructor].
  - intros ix Hv. unfold q in Hv. cbn [shp] in Hv. inversion Hv as [|k z ix' z' Hk Hv']; subst. inversion Hv'; subst. unfold q. cbn [dat].
    rewrite quat_rows4. revert Hu. rewrite Forall_forall. intros Hu. apply Hu, nth_In. exact Hk.
  - assert (Sd' : shp d = [length t; 3%nat]).
    { rewrite Sd. unfold q. cbn [shp bs put]. rewrite <- Lr. destruct (Nat.eqb_spec (length r) 1) as [->|]; reflexivity. }
    destruct (op2_ok Rplus (rows3 t) d) as (e & Ee & Se & De).
    { rewrite Sd'. reflexivity. } { rewrite Sd'. cbn [rows3 shp axes_match]. rewrite !Nat.eqb_refl. reflexivity. }
    exists d, e. split; [reflexivity|]. split; [exact Ed|]. split; [exact Ee|].
    assert (Se' : shp e = [length t; 3%nat]).
    { rewrite Se, Sd'. cbn [rows3 shp bs]. destruct (Nat.eqb_spec (length t) 1) as [->|]; reflexivity. }
    split; [exact Se'|]. intros k Hk.
    assert (V : valid (bs (shp q) [1%nat]) [k]).
    { unfold q. cbn [shp bs]. constructor; [|constructor]. rewrite Lr. destruct (Nat.eqb_spec (length t) 1); lia. }
    assert (Z : forall (b : nat), (k < b)%nat -> (if Nat.eqb b 1 then 0%nat else k) = k).
    { intros b Hb. destruct (Nat.eqb_spec b 1); lia. }
    assert (Ev : vec_at e [k] = vadd (vec_at (rows3 t) [k]) (vec_at d [k])).
    { unfold vec_at. cbn [app]. rewrite !De by reflexivity. rewrite Sd'. unfold rows3. cbn [shp zb Nat.eqb dat]. rewrite (Z _ Hk). reflexivity. }
    specialize (Dd [k] V). rewrite Ev, vec_rows3. f_equal. change (vec_at d [k]) with (vec_on d 1 [k]). rewrite Dd.
    assert (Zq : zb (shp q) [k] = [k]) by (unfold q; cbn [shp zb]; rewrite Lr, (Z _ Hk); reflexivity).
    rewrite Zq. unfold q. cbn [dat]. rewrite quat_rows4. f_equal.
    unfold vec_on, v. cbn. destruct o as [|x [|y [|z [|]]]]; try discriminate. reflexivity.
Qed.

Lemma motion_facts : forall n freq angle fs stack inverse offset, fs <> 0 -> three offset ->
  exists t r, make_test_motion n freq angle fs stack inverse offset = Ok (t, r) /\ shp t = [n; 3%nat] /\ shp r = [n; 4%nat] /\
  forall k, (k < n)%nat ->
    let v := vscale (swing freq (if inverse then - angle else angle) fs k) (direction stack n k) in
    quat_at r [k] = from_rotvec v /\ vec_at t [k] = vadd v (srot (quat_at r [k]) (offset_vec offset)).
Proof.
  intros n freq angle fs stack inverse offset Hfs Ho. unfold make_test_motion.
  set (T := motion_rows stack _). set (rr := map from_rotvec T).
  assert (LT : length T = n) by (unfold T; rewrite length_motion; apply length_traj).
  assert (Lr : length rr = length T) by apply map_length.
  assert (NT : forall k, (k < n)%nat -> nth k T v0 = vscale (swing freq (if inverse then - angle else angle) fs k) (direction stack n k)).
  { intros k Hk. unfold T. rewrite nth_motion by (rewrite length_traj; exact Hk). rewrite length_traj, nth_traj by exact Hk. reflexivity. }
  assert (NR : forall k, (k < n)%nat -> nth k rr q1 = from_rotvec (nth k T v0)) by (intros k Hk; apply nth_rot; lia).
  assert (Hr : shp (rows4 rr) = [n; 4%nat]) by (unfold rows4; cbn [shp]; rewrite Lr, LT; reflexivity).
  destruct (Req_b fs 0) eqn:Ef; [apply Req_b_true in Ef; contradiction|].
  destruct offset as [o|].
  - destruct (add_offset T rr o Lr) as (q & d & e & Eq & Ed & Ee & Se & De); auto.
    { apply Forall_forall. intros x Hx. apply in_map_iff in Hx as (y & <- & _). apply from_rotvec_unit. }
    rewrite Eq. cbn [bind]. rewrite Ed. cbn [bind]. rewrite Ee. cbn [bind].
    exists e, (rows4 rr). split; [reflexivity|]. split; [rewrite Se, LT; reflexivity|]. split; [exact Hr|]. intros k Hk. cbv zeta. set (v := vscale _ (direction stack n k)).
    rewrite quat_rows4, De by lia. rewrite NR, NT by exact Hk. fold v. split; reflexivity.
  - cbn [bind]. exists (rows3 T), (rows4 rr). split; [reflexivity|]. split; [unfold rows3; cbn [shp]; rewrite LT; reflexivity|]. split; [exact Hr|].
    intros k Hk. cbv zeta. set (v := vscale _ (direction stack n k)). rewrite quat_rows4, vec_rows3. rewrite NR, NT by exact Hk. fold v. split; [reflexivity|].
    cbn [offset_vec]. rewrite srot_0. destruct v as [x y z]. cbv [vadd v0 vx vy vz]. f_equal; ring.
Qed.

(* ------------------------------------------------------------------ C85 *)

(** n samples of a motion on a sine: at sample k displaced by v along the axis of its third, turned about
    the same axis by as many radians, and moved by the turned offset; for inverse the other way. *)
Theorem C85_motion : forall n freq angle fs stack inverse offset, fs <> 0 -> three offset ->
  exists t r, make_test_motion n freq angle fs stack inverse offset = Ok (t, r) /\ shp t = [n; 3%nat] /\ shp r = [n; 4%nat] /\
  forall k, (k < n)%nat ->
    let v := vscale (swing freq (if inverse then - angle else angle) fs k) (direction stack n k) in
    rotates_by v (quat_at r [k]) /\ vec_at t [k] = vadd v (srot (quat_at r [k]) (offset_vec offset)).
Proof.
  intros n freq angle fs stack inverse offset Hfs Ho. destruct (motion_facts n freq angle fs stack inverse offset Hfs Ho) as (t & r & E & Ht & Hr & H).
  exists t, r. split; [exact E|]. split; [exact Ht|]. split; [exact Hr|]. intros k Hk. cbv zeta. destruct (H k Hk) as (H1 & H2).
  split; [rewrite H1; apply from_rotvec_rotates|exact H2].
Qed.

(** An offset that is not three numbers is refused; so is a sampling rate of zero. *)
Theorem C85_refused : forall n freq angle fs stack inverse offset,
  (~ three offset -> make_test_motion n freq angle fs stack inverse offset = Raise ValueError) /\
  (three offset -> fs = 0 -> make_test_motion n freq angle fs stack inverse offset = Raise ZeroDivisionError).
Proof.
  intros n freq angle fs stack inverse offset. unfold make_test_motion. set (T := motion_rows stack _). set (rr := map from_rotvec T). split.
  - intros Ho. destruct offset as [o|]; [|elim Ho; exact I]. unfold three in Ho. unfold as_quat, rows4. cbn [shp last Nat.eqb bind removelast].
    unfold rotate_vectors, ndim. cbn [shp]. change (length [1%nat; length o]) with 2%nat. change (norm_axis (-1) 2) with (Ok 1%nat : res nat). cbn [bind nth].
    apply Nat.eqb_neq in Ho. rewrite Ho. reflexivity.
  - intros Ho Ef. apply Req_b_true in Ef. rewrite Ef. destruct offset as [o|]; [|reflexivity].
    destruct (add_offset T rr o) as (q & d & e & Eq & Ed & Ee & _); auto.
    { apply map_length. }
    { apply Forall_forall. intros x Hx. apply in_map_iff in Hx as (y & <- & _). apply from_rotvec_unit. }
    rewrite Eq. cbn [bind]. rewrite Ed. cbn [bind]. rewrite Ee. reflexivity.
Qed.


Lemma map_const_len' {A B C} (c : C) (l : list A) (l' : list B) : length l = length l' -> map (fun _ => c) l = map (fun _ => c) l'.
Proof. revert l'; induction l as [|x l IH]; intros [|y l'] H; simpl in *; try discriminate; auto. f_equal. apply IH. lia. Qed.
Lemma two_timestamps ts t r t' r' inv inv' : increasing ts -> ts <> [] ->
  get_timestamps (Mat [MF (TMoving ts t r false) inv; MF (TMoving ts t' r' false) inv'] []) true = Ok (Some ts).
Proof.
  intros Hinc Hne. unfold get_timestamps.
  destruct (get_range _) as [[lo hi]|e] eqn:Er.
  - cbn [bind]. unfold arr_list, cont_list. simpl. do 2 f_equal. apply filter_id. intros x Hx.
    apply (proj2 (range_spec _ _ _ x Er)). intros l Hl. unfold cont_list, arr_list in Hl. simpl in Hl.
    destruct Hl as [<- | [<- | []]]; apply increasing_bounds; auto.
  - exfalso. assert (Hg : get_timestamps (Mat [MF (TMoving ts t r false) inv; MF (TMoving ts t' r' false) inv'] []) true = Raise e).
    { unfold get_timestamps. rewrite Er. reflexivity. }
    apply timestamps_raise in Hg as (_ & l & Hl & ->). unfold cont_list, arr_list in Hl.
    simpl in Hl. destruct Hl as [Hl | [Hl | []]]; congruence.
Qed.
Lemma walks_two s w h e : parent_of s e = Some h -> parent_of s h = Some w -> walks s e w [e; h] [] w.
Proof. intros H1 H2. split; [econstructor; eauto; econstructor; eauto; constructor|]. split; [constructor|]. auto. Qed.
(** Two sampled frames on top of each other, same timestamps: sample by sample. *)
Lemma lookup_two s w h e ts t r t' r' : Inv s -> (e < size s)%nat -> parent_of s e = Some h -> parent_of s h = Some w ->
  transform_of s h = Some (TMoving ts t r false) -> transform_of s e = Some (TMoving ts t' r' false) ->
  increasing ts -> (2 <= length ts)%nat -> length t = length ts -> length r = length ts -> length t' = length ts -> length r' = length ts ->
  Forall hunit r -> Forall hunit r' ->
  lookup_transform np_squad s e (PFrame w) = Ok (TrRows ts (map (fun p => gmul (snd p) (fst p)) (combine (combine t' r') (combine t r)))).
Proof.
  intros (W & HR) He Hp Hp2 Hd Hd' Hi Hn Ht Hr Ht' Hr' Hu Hu'.
  assert (Hh : (h < size s)%nat) by exact (proj1 (wf_par s W e h Hp)).
  assert (Hw : (w < size s)%nat) by exact (proj1 (wf_par s W h w Hp2)).
  destruct C79_contract as (_ & Csx & _).
  assert (Hsa : sampled ts false) by (split; auto).
  unfold lookup_transform. rewrite (resolve_frame s w Hw). simpl. unfold frames_between.
  rewrite (walk_unique s e w [e; h] [] w W He Hw (walks_two s w h e Hp Hp2)). simpl.
  apply body_at_transform in Hd, Hd'. unfold traverse. simpl. rewrite Hd, Hd'. simpl.
  rewrite (increasing_not_decreasing ts) by exact Hi. rewrite Ht, Ht', Nat.eqb_refl. simpl.
  unfold get_transformation. rewrite two_timestamps; [|exact Hi|intros ->; cbn in Hn; lia]. simpl.
  unfold step_rows at 1. cbn [mf_data]. rewrite (rows_at_samples np_squad ts t' r' false); auto. cbn [bind].
  rewrite (traverse_ok _ (fun p => snd p)).
  2:{ intros [acc [t0 r0]] Hin. cbn [fst snd mf_inv].
      assert (Ha : acc = gone). { apply in_combine_l in Hin. apply in_map_iff in Hin as (? & <- & _). rewrite q1_hone. reflexivity. }
      assert (H0 : hunit r0). { apply in_combine_r in Hin. apply in_combine_r in Hin. revert Hin. apply Forall_forall. auto. }
      subst acc. rewrite row_step_fwd by auto. rewrite gmul_1_r. reflexivity. }
  cbn [bind foldM].
  assert (Em : map (fun p => snd p) (combine (map (fun _ : R => (v0, q1)) ts) (combine t' r')) = combine t' r').
  { clear - Ht' Hr'. revert t' r' Ht' Hr'; induction ts as [|a l IH]; intros [|x t'] [|y r'] Ht' Hr'; simpl in *; try discriminate; auto.
    f_equal. apply IH; lia. }
  rewrite Em. unfold step_rows. cbn [mf_data]. rewrite (rows_at_samples np_squad ts t r false); auto. cbn [bind].
  rewrite (traverse_ok _ (fun p => gmul (snd p) (fst p))); [reflexivity|].
  intros [acc [t0 r0]] Hin. cbn [fst snd mf_inv]. apply row_step_fwd. apply in_combine_r in Hin. apply in_combine_r in Hin. revert Hin. apply Forall_forall. auto.
Qed.

(** A frame with the inverse motion, mounted on a frame with the motion itself, stands still: seen from
    where the motion takes place it stays at the offset, not rotated, at all samples. *)
Theorem C85_compensated : forall s w h e ts n freq angle fs stack offset t r t' r',
  reachable s -> frame s e -> parent_of s e = Some h -> parent_of s h = Some w -> fs <> 0 -> three offset ->
  make_test_motion n freq angle fs stack false None = Ok (t, r) ->
  make_test_motion n freq angle fs stack true offset = Ok (t', r') ->
  increasing ts -> length ts = n -> (2 <= n)%nat ->
  transform_of s h = Some (TMoving ts (vectors t n) (quaternions r n) false) ->
  transform_of s e = Some (TMoving ts (vectors t' n) (quaternions r' n) false) ->
  lookup_transform np_squad s e (PFrame w) = Ok (TrRows ts (map (fun _ => (offset_vec offset, hone)) ts)).
Proof.
  intros s w h e ts n freq angle fs stack offset t r t' r' HR He Hp Hp2 Hfs Ho E1 E2 Hi Hl Hn Hd Hd'.
  destruct (motion_facts n freq angle fs stack false None Hfs Logic.I) as (t1 & r1 & E1' & _ & _ & F). rewrite E1 in E1'. injection E1' as <- <-.
  destruct (motion_facts n freq angle fs stack true offset Hfs Ho) as (t2 & r2 & E2' & _ & _ & F'). rewrite E2 in E2'. injection E2' as <- <-.
  assert (L3 : forall a : nd R, length (vectors a n) = length ts) by (intros a; unfold vectors; rewrite map_length, seq_length; auto).
  assert (L4 : forall a : nd R, length (quaternions a n) = length ts) by (intros a; unfold quaternions; rewrite map_length, seq_length; auto).
  assert (In2 : forall k, In k (seq 0 n) -> (k < n)%nat) by (intros k Hk; apply in_seq in Hk; lia).
  rewrite (lookup_two s w h e ts _ _ _ _ (reachable_Inv s HR) He Hp Hp2 Hd Hd' Hi); auto; [|lia| |].
  2:{ apply Forall_forall. intros q Hq. apply in_map_iff in Hq as (k & <- & Hk). destruct (F k (In2 k Hk)) as (-> & _). apply from_rotvec_unit. }
  2:{ apply Forall_forall. intros q Hq. apply in_map_iff in Hq as (k & <- & Hk). destruct (F' k (In2 k Hk)) as (-> & _). apply from_rotvec_unit. }
  do 2 f_equal. unfold vectors, quaternions.
  assert (C : forall {A B} (f : nat -> A) (g : nat -> B) l, combine (map f l) (map g l) = map (fun k => (f k, g k)) l).
  { intros A B f g l. induction l as [|x l IH]; simpl; [reflexivity|]. rewrite IH. reflexivity. }
  rewrite !C, map_map. cbn [fst snd].
  rewrite (map_ext_in _ (fun _ => (offset_vec offset, hone))).
  - apply map_const_len'. rewrite seq_length. auto.
  - intros k Hk. apply In2 in Hk. destruct (F k Hk) as (Q & V). destruct (F' k Hk) as (Q' & V'). cbv zeta in Q, V, Q', V'.
    rewrite V, V', Q, Q'. clear V V' Q Q'.
    assert (So : vscale (swing freq (- angle) fs k) (direction stack n k) = vopp (vscale (swing freq angle fs k) (direction stack n k))).
    { unfold swing. vcomp. f_equal; ring. }
    rewrite So. set (v := vscale (swing freq angle fs k) (direction stack n k)). rewrite from_rotvec_opp.
    pose proof (from_rotvec_unit v) as U. pose proof (from_rotvec_fixes v) as X. set (q := from_rotvec v) in *.
    unfold gmul. cbn [fst snd]. rewrite hconj_r by exact U. f_equal.
    rewrite srot_0, srot_add, srot_opp, X. assert (Nz : hn2 q <> 0) by (unfold hunit in U; lra).
    rewrite <- srot_hmul, hconj_r, srot_one; auto; [|pose proof (hunit_conj q U) as U'; unfold hunit in U'; lra].
    destruct (offset_vec offset) as [a b c]. destruct v as [x y z]. cbv [vadd vopp v0 vx vy vz vscale]. f_equal; ring.
Qed.
