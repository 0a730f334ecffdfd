(** rotate_vectors on arrays is rot1 at every position, for coordinate axes where
    swapping equals inserting. *)
From Coq Require Import Reals List Arith Bool ZArith Lia Lra.
From Verif Require Import Base Quat SpecQuat QuatProofs NdArray Frames Matcher Transform SpecArray NdProofs.
Import ListNotations.
Open Scope nat_scope.

Lemma op2_ok {A B C} (f : A -> B -> C) (a : nd A) (b : nd B) :
  length (shp a) = length (shp b) -> axes_match (shp a) (shp b) = true ->
  exists c, op2 f a b = Ok c /\ shp c = bs (shp a) (shp b) /\
    forall ix, length ix = length (shp a) -> dat c ix = f (dat a (zb (shp a) ix)) (dat b (zb (shp b) ix)).
Proof.
  intros H Hm. unfold op2. rewrite bshape_eq by auto. simpl. eexists. split; [reflexivity|]. simpl. split; [reflexivity|].
  intros ix Hix. rewrite !bix_zb by lia. reflexivity.
Qed.

Lemma vec_along_comp (a : nd R) k pre c : c < 3 -> comp3 c (vec_along a k pre) = dat a (insert_at k c pre).
Proof. intros H. destruct c as [|[|[|c]]]; [reflexivity..|lia]. Qed.

Lemma removelast_snoc {A} (l : list A) x : removelast (l ++ [x]) = l.
Proof. apply removelast_last. Qed.

Lemma existsb_false_all {A} (f : A -> bool) l : (forall x, In x l -> f x = false) -> existsb f l = false.
Proof. induction l; simpl; intros H; auto. rewrite (H a), IHl; auto. Qed.

Lemma valid_bs_len Q V pre : length Q = length V -> valid (bs Q V) pre -> length pre = length Q.
Proof. intros H Hp. apply valid_length in Hp. rewrite length_bs in Hp; auto. Qed.

(** The scalars of q with a new last axis that is swapped with axis k sit at the position of
    their quaternion. *)
Definition swap_ok (q : nd quat) (n k : nat) : Prop :=
  forall f : quat -> R, let s := swap_nd (n - 1) k (Nd (shp q ++ [1]) (fun ix => f (dat q (removelast ix)))) in
    shp s = insert_at k 1 (shp q) /\
    forall c pre, length pre = length (shp q) -> dat s (insert_at k c pre) = f (dat q pre).
Lemma swap_is_insert_ok (q : nd quat) n k : k < n -> ndim q = n - 1 -> swap_is_insert n k -> swap_ok q n k.
Proof.
  intros Hk Hq Hs f s. unfold ndim in Hq. unfold s. cbn [shp dat swap_nd]. split; [apply Hs; exact Hq|].
  intros c pre Hp. rewrite <- (Hs pre c) by congruence.
  rewrite swapl_invol, removelast_snoc; auto; rewrite app_length; simpl; rewrite Hp, Hq; lia.
Qed.

Section Rot.
  Variables (q : nd quat) (v : nd R) (k : nat).
  Let Q := shp q. Let V := remove_at k (shp v).
  Hypothesis Hk : k < ndim v.
  Hypothesis H3 : nth k (shp v) 0 = 3.
  Hypothesis Hnd : ndim q = ndim v - 1.
  Hypothesis Hm : axes_match Q V = true.
  Hypothesis Hs : swap_ok q (ndim v) k.

  Lemma lenV : length V = ndim v - 1.
  Proof. unfold V. rewrite length_remove; auto. Qed.
  Lemma lenQ : length Q = ndim v - 1.
  Proof. exact Hnd. Qed.
  Lemma lenQV : length Q = length V.
  Proof. rewrite lenQ, lenV. reflexivity. Qed.
  Lemma shv : shp v = insert_at k 3 V.
  Proof. unfold V. rewrite <- H3 at 1. symmetry. apply insert_remove. exact Hk. Qed.
  Lemma kQ : k <= length Q.
  Proof. rewrite lenQ. lia. Qed.
  Lemma lenB : length (bs Q V) = length Q.
  Proof. apply length_bs, lenQV. Qed.

  Lemma swapped (f : quat -> R) : exists s,
    swap_nd (ndim v - 1) k (Nd (Q ++ [1]) (fun ix => f (dat q (removelast ix)))) = s /\
    shp s = insert_at k 1 Q /\
    forall c pre, length pre = length Q -> dat s (insert_at k c pre) = f (dat q pre).
  Proof.
    eexists. split; [reflexivity|]. destruct (Hs f) as (H1 & H2). split; [exact H1|exact H2].
  Qed.

  Lemma cross_ok (r : nd vec3) (w : nd R) W : shp r = Q -> shp w = insert_at k 3 W -> length W = length Q ->
    axes_match Q W = true -> exists c,
    cross_nd r w k = Ok c /\ shp c = insert_at k 3 (bs Q W) /\
    forall pre, length pre = length Q -> forall j, j < 3 ->
      dat c (insert_at k j pre) = comp3 j (vcross (dat r (zb Q pre)) (vec_along w k (zb W pre))).
  Proof.
    intros E1 E2 E3 E4. unfold cross_nd. rewrite E1, E2, remove_insert by (rewrite E3; exact kQ).
    rewrite bshape_eq by auto. simpl. eexists. split; [reflexivity|]. simpl. split; [reflexivity|].
    intros pre Hp j Hj. rewrite nth_insert, remove_insert by (rewrite Hp; exact kQ).
    rewrite !bix_zb by congruence. reflexivity.
  Qed.

  Lemma rot_arrays_ok : (forall ix, valid Q ix -> qlen (dat q ix) <> 0%R) ->
    exists out, rot_arrays q v k = Ok out /\ shp out = insert_at k 3 (bs Q V) /\
      forall pre, valid (bs Q V) pre ->
        rot1 (dat q (zb Q pre)) (vec_along v k (zb V pre)) = Ok (vec_along out k pre).
  Proof.
    intros Hz. pose proof lenQV as LQV. pose proof kQ as KQ. pose proof lenB as LB.
    assert (KV : k <= length V) by (rewrite <- LQV; exact KQ).
    unfold rot_arrays. fold Q.
    rewrite existsb_false_all.
    2:{ intros ix Hix. apply in_indices in Hix. apply Req_b_false. apply Hz, Hix. }
    destruct (swapped qw) as (s & Es & Ss & Ds). destruct (swapped qlen) as (m & Em & Sm & Dm).
    rewrite Es, Em. cbv zeta.
    destruct (cross_ok (Nd Q (fun ix => qvec (dat q ix))) v V eq_refl shv (eq_sym LQV) Hm) as (rxv & E1 & S1 & D1).
    rewrite E1. cbn [bind].
    assert (A1 : axes_match (shp s) (shp v) = true).
    { rewrite Ss, shv, axes_match_insert by auto. rewrite Hm. reflexivity. }
    destruct (op2_ok Rmult s v) as (sv & E2 & S2 & D2); [rewrite Ss, shv, !length_insert; auto|exact A1|].
    rewrite E2. cbn [bind].
    assert (S2' : shp sv = insert_at k 3 (bs Q V)).
    { rewrite S2, Ss, shv. rewrite bs_insert by auto. reflexivity. }
    destruct (op2_ok Rplus sv rxv) as (w & E3 & S3 & D3); [congruence|rewrite S2', S1; apply axes_match_refl|].
    rewrite E3. cbn [bind]. rewrite S2', S1, bs_refl in S3. rewrite S2', S1 in D3.
    destruct (cross_ok (Nd Q (fun ix => qvec (dat q ix))) w (bs Q V) eq_refl S3 LB) as (c & E4 & S4 & D4).
    { apply axes_match_bs_l; auto. }
    rewrite E4. cbn [bind]. rewrite bs_absorb_l in S4 by auto.
    destruct (op2_ok Rdiv (Nd (shp c) (fun ix => (2 * dat c ix)%R)) m) as (d & E5 & S5 & D5).
    { cbn [shp]. rewrite S4, Sm, !length_insert by lia. rewrite LB. reflexivity. }
    { cbn [shp]. rewrite S4, Sm, axes_match_insert by lia. rewrite axes_match_comm, axes_match_bs_l by auto. reflexivity. }
    rewrite E5. cbn [bind]. cbn [shp dat] in S5, D5.
    assert (S5' : shp d = insert_at k 3 (bs Q V)).
    { rewrite S5, S4, Sm, bs_insert by lia. cbn [Nat.eqb]. f_equal.
      rewrite bs_comm; [apply bs_absorb_l; auto|auto|]. rewrite axes_match_comm. apply axes_match_bs_l; auto. }
    destruct (op2_ok Rplus v d) as (o & E6 & S6 & D6).
    { rewrite S5', shv, !length_insert by lia. lia. }
    { rewrite S5', shv, axes_match_insert by lia. rewrite axes_match_bs_r by auto. reflexivity. }
    exists o. split; [exact E6|]. split.
    { rewrite S6, shv, S5', bs_insert by lia. cbn [Nat.eqb]. rewrite bs_absorb_r by auto. reflexivity. }
    intros pre Hp. pose proof (valid_bs_len _ _ _ LQV Hp) as Lp.
    destruct (valid_zb Q V pre LQV Hm Hp) as (HQ & HV).
    pose proof (zb_valid _ _ Hp) as Zp.
    unfold rot1. assert (Hql : Req_b (qlen (dat q (zb Q pre))) 0 = false) by (apply Req_b_false, Hz, HQ).
    rewrite Hql. f_equal.
    (* the entries *)
    assert (Lzq : length (zb Q pre) = length Q) by (apply length_zb; lia).
    assert (Lzv : length (zb V pre) = length Q) by (rewrite length_zb; lia).
    assert (W : vec_along w k pre = vadd (vscale (qw (dat q (zb Q pre))) (vec_along v k (zb V pre)))
                  (vcross (qvec (dat q (zb Q pre))) (vec_along v k (zb V pre)))).
    { assert (HW : forall j, j < 3 -> dat w (insert_at k j pre) =
         (qw (dat q (zb Q pre)) * dat v (insert_at k j (zb V pre)) +
          comp3 j (vcross (qvec (dat q (zb Q pre))) (vec_along v k (zb V pre))))%R).
      { intros j Hj. rewrite D3 by (rewrite !length_insert; lia).
        rewrite !(zb_insert k 3 (bs Q V)) by lia. cbn [Nat.eqb]. rewrite Zp.
        rewrite D2 by (rewrite Ss, !length_insert; lia).
        rewrite Ss, shv, !zb_insert by lia. cbn [Nat.eqb]. rewrite Ds by lia. rewrite D1 by lia. reflexivity. }
      unfold vec_along. rewrite !HW by lia. apply vec3_eq; reflexivity. }
    assert (HD : forall j, j < 3 -> dat o (insert_at k j pre) =
       (dat v (insert_at k j (zb V pre)) +
        2 * comp3 j (vcross (qvec (dat q (zb Q pre))) (vec_along w k pre)) / qlen (dat q (zb Q pre)))%R).
    { intros j Hj. rewrite D6 by (rewrite shv, !length_insert; lia). rewrite shv, S5', !zb_insert by lia. cbn [Nat.eqb].
      rewrite Zp. f_equal. rewrite D5 by (rewrite S4, !length_insert; lia).
      rewrite S4, Sm, !zb_insert by lia. cbn [Nat.eqb]. rewrite Zp, Dm by lia. rewrite D4 by lia. rewrite Zp. reflexivity. }
    rewrite W in HD. symmetry. apply vec3_eq; [apply (HD 0)|apply (HD 1)|apply (HD 2)]; lia.
  Qed.
End Rot.
