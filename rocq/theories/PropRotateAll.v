(** Property C64: rotate_vectors for all combinations, and with float quaternions. *)
From Coq Require Import Reals List Arith Bool ZArith Lia Lra.
From Verif Require Import Base Quat SpecQuat QuatProofs NdArray Frames SpecForest FrameProofs WalkProofs
  Matcher SpecLookup LookupProofs RegistryProofs MovingProofs TimeProofs CtorProofs InverseProofs RouteProofs
  Examples PropForest PropLookup PropMoving
  Transform SpecArray NdProofs RotProofs ArrProofs ArrTransProofs ArrStaticProofs PropTransform PropRotate Rotate.
Import ListNotations.
Open Scope nat_scope.

Lemma put_app (iq pre : list nat) k c : k <= length pre -> put (length iq + k) c (iq ++ pre) = iq ++ put k c pre.
Proof. intros H. rewrite !put_insert; [|auto|rewrite app_length; lia]. induction iq; cbn; congruence. Qed.
Lemma three_there k sh : k <= length sh -> existsb (Nat.eqb 3) (put k 3 sh) = true.
Proof. intros H. apply existsb_exists. exists 3. split; auto. rewrite put_insert by auto. revert k H. induction sh as [|x sh IH]; intros [|k] H; cbn in *; auto; try lia. right. apply IH. lia. Qed.

(** Every vector is rotated by every quaternion: position iq ++ pre of the result is the
    vector at pre of v rotated by the quaternion at iq of q, in the layout of v. *)
Definition all_combinations (q : list nat -> quat) (sq : list nat) (v : nd R) (k : nat) (sh : list nat) (out : nd R) : Prop :=
  shp out = sq ++ shp v /\
  forall iq pre, valid sq iq -> valid sh pre ->
    vec_on out (length sq + k) (iq ++ pre) = srot (q iq) (vec_on v k pre).

Lemma rv_all_ok (q : nd quat) v axis k sh : shp v = put k 3 sh -> k <= length sh -> axis_is axis k (ndim v) ->
  (forall iq, valid (shp q) iq -> hnonzero (dat q iq)) ->
  exists out, rv_all q v axis = Ok out /\ all_combinations (dat q) (shp q) v k sh out.
Proof.
  intros Hs Hk Ha Hq. destruct (along_facts v k 3 sh axis Hs Hk Ha) as (Hs' & Hn & Hax & H3 & Hr).
  assert (Z : existsb (fun ix => Req_b (qnorm2 (dat q ix)) 0) (indices (shp q)) = false).
  { apply existsb_false_all. intros ix Hi. apply in_indices in Hi. apply Req_b_false. rewrite <- hn2_qnorm2. apply Hq, Hi. }
  unfold rv_all. replace (existsb (Nat.eqb 3) (shp v)) with true by (rewrite Hs, three_there; auto). cbn [negb]. rewrite Hax. cbn [bind]. rewrite H3. cbn [Nat.eqb negb]. rewrite Z.
  eexists. split; [reflexivity|]. split; [reflexivity|]. intros iq pre Hi Hp. pose proof (valid_length _ _ Hi) as Li. pose proof (valid_length _ _ Hp) as Lp.
  assert (N : qnorm2 (dat q iq) <> 0%R) by (rewrite <- hn2_qnorm2; apply Hq, Hi).
  assert (X : forall c, c < 3 -> dat (Nd (shp q ++ shp v) (fun ix => match quat_rv (dat q (firstn (ndim q) ix)) (vec_along v k (remove_at k (skipn (ndim q) ix))) with
      | Ok w => comp3 (nth k (skipn (ndim q) ix) 0) w | Raise _ => 0%R end)) (put (length (shp q) + k) c (iq ++ pre)) = comp3 c (srot (dat q iq) (vec_on v k pre))).
  { intros c Hc. cbn [dat]. rewrite <- Li, put_app by lia. unfold ndim. rewrite <- Li, firstn_app, Nat.sub_diag, firstn_all, firstn_O, app_nil_r.
    rewrite skipn_app, Nat.sub_diag, skipn_all. cbn [app skipn]. rewrite put_insert, remove_insert, nth_insert by lia. rewrite quat_rv_ok by exact N. rewrite vec_on_along by lia. reflexivity. }
  unfold vec_on at 1. rewrite !X by lia. destruct (srot (dat q iq) (vec_on v k pre)); reflexivity.
Qed.

(* ------------------------------------------------------------------ C64 *)
(** one_to_one=False, quaternions of any shape, vectors on any axis. *)
Theorem C64_all : forall q v axis qaxis k sh, shp v = put k 3 sh -> k <= length sh -> axis_is axis k (ndim v) ->
  (forall iq, valid (shp q) iq -> hnonzero (dat q iq)) ->
  exists out, rotate_vectors_full (QQuat q) v axis qaxis false = Ok out /\ all_combinations (dat q) (shp q) v k sh out.
Proof. intros. apply rv_all_ok; auto. Qed.

Lemma to_quats_ok (a : nd R) qaxis kq sq : shp a = put kq 4 sq -> kq <= length sq -> length sq <= S kq -> axis_is qaxis kq (ndim a) ->
  exists q, to_quats (QFloat a) qaxis = Ok q /\ shp q = sq /\ forall ix, valid sq ix -> dat q ix = quat_on a kq ix.
Proof.
  intros Hs Hk Hk2 Ha. destruct (along_facts a kq 4 sq qaxis Hs Hk Ha) as (Hs' & Hn & Hax & H4 & Hr).
  assert (Hsw : swap_is_insert (ndim a) kq).
  { assert (kq = length sq \/ S kq = length sq) as [E|E] by lia.
    - replace kq with (ndim a - 1) by lia. apply swap_is_insert_last. lia.
    - replace kq with (ndim a - 2) by lia. apply swap_is_insert_last2. lia. }
  assert (Hl : norm_axis (-1) (ndim a) = Ok (ndim a - 1)).
  { apply norm_axis_last. lia. }
  assert (Sw : swapl kq (ndim a - 1) (shp a) = sq ++ [4]).
  { rewrite swapl_comm, Hs'. rewrite <- (Hsw sq 4) by lia. apply swapl_invol; rewrite app_length; cbn; lia. }
  unfold to_quats, swapaxes. rewrite Hax, Hl. cbn [bind]. unfold as_quat, swap_nd. cbn [shp dat]. rewrite Sw, last_last, removelast_last. cbn [Nat.eqb].
  eexists. split; [reflexivity|]. split; [reflexivity|]. intros ix Hi. pose proof (valid_length _ _ Hi) as Li. cbn [dat]. unfold quat_at, quat_on. cbn [dat].
  rewrite !(swapl_comm kq), !Hsw, !put_insert by lia. reflexivity.
Qed.
(** Quaternions as floats, their components on the last or the last but one axis. *)
Theorem C64_floats_partial : forall a v axis qaxis k kq sh sq, shp v = put k 3 sh -> k <= length sh -> axis_is axis k (ndim v) ->
  shp a = put kq 4 sq -> kq <= length sq -> length sq <= S kq -> axis_is qaxis kq (ndim a) ->
  (forall iq, valid sq iq -> hnonzero (quat_on a kq iq)) ->
  exists out, rotate_vectors_full (QFloat a) v axis qaxis false = Ok out /\ all_combinations (quat_on a kq) sq v k sh out.
Proof.
  intros a v axis qaxis k kq sh sq Hs Hk Ha Hsa Hkq Hkq2 Hqa Hnz. destruct (to_quats_ok a qaxis kq sq Hsa Hkq Hkq2 Hqa) as (q & Eq & Sq & Dq).
  destruct (rv_all_ok q v axis k sh Hs Hk Ha) as (out & E & So & Do).
  { intros iq Hi. rewrite Sq in Hi. rewrite Dq by auto. apply Hnz, Hi. }
  exists out. split; [unfold rotate_vectors_full; rewrite Eq; exact E|]. rewrite Sq in *. split; auto. intros iq pre Hi Hp. rewrite Do by auto. rewrite Dq by auto. reflexivity.
Qed.
(** The same with one_to_one=True (unit quaternions, C25): by position. *)
Theorem C64_pairs_partial : forall a v axis qaxis k kq sh sq, sq <> [] -> shp v = put k 3 sh -> k <= length sh -> length sh <= S k -> axis_is axis k (ndim v) ->
  shp a = put kq 4 sq -> kq <= length sq -> length sq <= S kq -> axis_is qaxis kq (ndim a) ->
  agree sq sh -> (forall iq, valid sq iq -> hunit (quat_on a kq iq)) ->
  exists out, rotate_vectors_full (QFloat a) v axis qaxis true = Ok out /\ shp out = put k 3 (bs sq sh) /\
    forall pre, valid (bs sq sh) pre -> vec_on out k pre = srot (quat_on a kq (zb sq pre)) (vec_on v k (zb sh pre)).
Proof.
  intros a v axis qaxis k kq sh sq Nq Hs Hk Hk2 Ha Hsa Hkq Hkq2 Hqa Hag Hu. destruct (to_quats_ok a qaxis kq sq Hsa Hkq Hkq2 Hqa) as (q & Eq & Sq & Dq).
  destruct (C25_arrays_partial q v axis k sh) as (out & E & So & Do); auto; rewrite ?Sq in *; auto.
  { intros ix Hi. rewrite Dq by auto. apply Hu, Hi. }
  exists out. split.
  - unfold rotate_vectors_full. rewrite Eq. cbn [bind negb orb]. unfold ndim. rewrite Sq. destruct sq; [congruence|]. exact E.
  - split; auto. intros pre Hp. rewrite Do by auto. apply agree_match in Hag as (Lq & Hm). rewrite Dq; auto. apply (valid_zb _ _ _ Lq Hm Hp).
Qed.
(** For unit quaternions and as many vectors, the pairs are the diagonal of the combinations. *)
Theorem C64_diagonal : forall (q : nd quat) v axis qaxis, shp q <> [] -> shp v = shp q ++ [3] -> axis_is axis (length (shp q)) (ndim v) ->
  (forall iq, valid (shp q) iq -> hunit (dat q iq)) ->
  exists out out', rotate_vectors_full (QQuat q) v axis qaxis true = Ok out /\ rotate_vectors_full (QQuat q) v axis qaxis false = Ok out' /\
    forall pre, valid (shp q) pre -> vec_on out (length pre) pre = vec_on out' (length pre + length pre) (pre ++ pre).
Proof.
  intros q v axis qaxis Nq Hs Ha Hu. assert (Hs' : shp v = put (length (shp q)) 3 (shp q)) by (rewrite put_insert, insert_end; auto).
  assert (Hag : agree (shp q) (shp q)) by (unfold agree; clear; induction (shp q); constructor; auto).
  assert (Eb : bs (shp q) (shp q) = shp q) by (clear; induction (shp q) as [|a l IH]; cbn; auto; rewrite IH; destruct (Nat.eqb_spec a 1); congruence).
  destruct (C25_arrays_partial q v axis (length (shp q)) (shp q)) as (out & E & So & Do); auto.
  destruct (rv_all_ok q v axis (length (shp q)) (shp q)) as (out' & E' & So' & Do'); auto.
  { intros iq Hi. unfold hnonzero. rewrite (Hu iq Hi). lra. }
  exists out, out'. split.
  - unfold rotate_vectors_full. cbn [to_quats bind negb orb]. unfold ndim. destruct (shp q); [congruence|]. exact E.
  - split; [exact E'|]. intros pre Hp. pose proof (valid_length _ _ Hp) as Lp. rewrite Lp, Do' by auto. rewrite Eb in Do. rewrite Do by auto.
    assert (Z : zb (shp q) pre = pre). { clear - Hp. induction Hp as [|i n ix s H Hp IH]; cbn; auto. rewrite IH. destruct (Nat.eqb_spec n 1); auto. f_equal. lia. }
    rewrite Z. reflexivity.
Qed.
(** Refused arguments. *)
Theorem C64_refused : forall q v axis qaxis k sh n, shp v = put k n sh -> k <= length sh -> axis_is axis k (ndim v) ->
  (n <> 3 -> rotate_vectors_full (QQuat q) v axis qaxis false = Raise ValueError) /\
  (n = 3 -> (exists iq, valid (shp q) iq /\ ~ hnonzero (dat q iq)) -> rotate_vectors_full (QQuat q) v axis qaxis false = Raise ZeroDivisionError).
Proof.
  intros q v axis qaxis k sh n Hs Hk Ha. destruct (along_facts v k n sh axis Hs Hk Ha) as (Hs' & Hn & Hax & H3 & Hr).
  unfold rotate_vectors_full, rv_all. cbn [to_quats bind negb orb]. rewrite Hax. cbn [bind]. rewrite H3. split.
  - intros N. destruct (existsb _ _); cbn [negb]; auto. destruct (Nat.eqb_spec n 3); [contradiction|]. reflexivity.
  - intros -> (iq & Hi & Z). replace (existsb (Nat.eqb 3) (shp v)) with true by (rewrite Hs, three_there; auto). cbn [negb Nat.eqb].
    replace (existsb _ (indices (shp q))) with true; [reflexivity|]. symmetry. apply existsb_exists. exists iq. split; [apply in_indices, Hi|].
    apply Req_b_true. rewrite <- hn2_qnorm2. unfold hnonzero in Z. destruct (Req_dec (hn2 (dat q iq)) 0); auto. contradiction.
Qed.
(** With the components on an earlier axis the quaternions are transposed: components
    first, 2 x 2 quaternions, of which only the one at (0, 1) is not the identity. *)
Definition q422 : nd R := Nd [4;2;2] (fun ix => match ix with [0;0;1] => 0%R | [0;_;_] => 1%R | [1;0;1] => 1%R | _ => 0%R end).
Theorem C64_qaxis_refuted : exists out v, shp v = put 0 3 [] /\ rotate_vectors_full (QFloat q422) v (-1) 0 false = Ok out /\
  shp q422 = put 0 4 [2;2] /\ (forall iq, valid [2;2] iq -> hunit (quat_on q422 0 iq)) /\
  vec_on out 2 [0;1] <> srot (quat_on q422 0 [0;1]) (vec_on v 0 []).
Proof.
  assert (U : forall iq, valid [2;2] iq -> hunit (quat_on q422 0 iq)).
  { intros iq H. inversion H as [|a ? l ? Ha H']; subst. inversion H' as [|b ? l' ? Hb H'']; subst. inversion H''; subst.
    destruct a as [|[|a]]; try lia; destruct b as [|[|b]]; try lia; unfold quat_on; cbn [put dat q422]; vcomp; ring. }
  assert (E : exists out, rotate_vectors_full (QFloat q422) (point (V3 0 1 0)) (-1) 0 false = Ok out /\ vec_on out 2 [0;1] = V3 0 1 0).
  { pose (q := Nd [2;2] (fun ix => quat_at (swap_nd 0 2 q422) ix)).
    destruct (rv_all_ok q (point (V3 0 1 0)) (-1) 0 []) as (out & E & So & Do); auto.
    - right. reflexivity.
    - intros iq H. unfold hnonzero. assert (hunit (dat q iq)) as ->; [|lra]. cbn [shp q] in H. inversion H as [|a ? l ? Ha H']; subst. inversion H' as [|b ? l' ? Hb H'']; subst. inversion H''; subst.
      destruct a as [|[|a]]; try lia; destruct b as [|[|b]]; try lia; cbv [q quat_at swap_nd swapl transp q422 dat app length seq map nth Nat.eqb]; vcomp; ring.
    - exists out. split; [exact E|]. specialize (Do [0;1] []). rewrite app_nil_r in Do. cbn [length shp q Nat.add] in Do. rewrite Do; [|repeat constructor|constructor].
      cbv [q quat_at swap_nd swapl transp q422 dat app length seq map nth Nat.eqb vec_on point put hd comp3]. vcomp. f_equal; field. }
  destruct E as (out & E & V). exists out, (point (V3 0 1 0)). split; [reflexivity|]. split; [exact E|]. split; [reflexivity|]. split; [exact U|].
  rewrite V. cbv [quat_on q422 dat put vec_on point hd comp3]. vcomp. intros H. injection H as H1 H2 H3. revert H2.
  match goal with |- 1%R = ?a -> _ => replace a with (-1)%R by field end. lra.
Qed.
(** Two quaternions, components first, and 5 x 2 vectors, coordinates in the middle. *)
Example C64_example : shp (Nd [4;2] (fun _ => 1%R)) = put 0 4 [2] /\ axis_is 0 0 2 /\ (forall iq, valid [2] iq -> hnonzero (quat_on (Nd [4;2] (fun _ => 1%R)) 0 iq)) /\ shp (Nd [5;3;2] (fun _ => 1%R)) = put 1 3 [5;2] /\ axis_is (-2) 1 3.
Proof.
  split; [reflexivity|]. split; [left; reflexivity|]. split; [|split; [reflexivity|right; reflexivity]].
  intros iq _. unfold hnonzero, quat_on. cbn [dat]. vcomp. lra.
Qed.
