(** Properties C38-C41: estimated rotations and transforms. *)
From Coq Require Import Reals List Arith Bool ZArith Lia Lra Psatz Permutation.
From Verif Require Import Base Quat SpecQuat QuatProofs NdArray Frames FrameProofs Transform SpecArray NdProofs RotProofs ArrProofs ArrTransProofs ArrStaticProofs
  PropTransform PropRotate Utils UtilsProofs Velocity Estim SpecEstim EstimProofs SvdExist ArcProofs IcpProofs.
Import ListNotations.
Open Scope R_scope.

(* ---- the vectors of an array ---- *)
(** The axis argument of the estimators denotes axis k of an n-dimensional array.
    (0 is left out: C42.) *)
Definition axis_arg_is (axis : option Z) (k n : nat) : Prop :=
  match axis with None => S k = n | Some z => z <> 0%Z /\ axis_is z k n end.
Lemma axis_arg_norm axis k n : axis_arg_is axis k n -> (k < n)%nat -> norm_axis (or_default axis (-1)) n = Ok k.
Proof.
  intros H Hk. destruct axis as [z|]; cbn in H.
  - destruct H as (Hz & H). unfold or_default. replace (z =? 0)%Z with false by (symmetry; apply Z.eqb_neq; auto).
    apply axis_is_norm; auto.
  - cbn [or_default]. apply axis_is_norm; auto. right. lia.
Qed.
Lemma NoDup_app_dis {A} (l m : list A) : NoDup l -> NoDup m -> (forall x, In x l -> ~ In x m) -> NoDup (l ++ m).
Proof.
  induction l as [|a l IH]; intros Hl Hm H; cbn; auto. inversion Hl; subst. constructor.
  - intros Hin. apply in_app_or in Hin as [Hin|Hin]; [contradiction|]. apply (H a); [left; auto|auto].
  - apply IH; auto. intros x Hx. apply H. right; auto.
Qed.
Lemma NoDup_cons_prod (l : list nat) (L : list (list nat)) : NoDup l -> NoDup L -> NoDup (flat_map (fun i => map (cons i) L) l).
Proof.
  intros Hl HL. induction l as [|a l IH]; cbn; [constructor|]. inversion Hl; subst. apply NoDup_app_dis; auto.
  - apply FinFun.Injective_map_NoDup; auto. intros x y E. injection E; auto.
  - intros x Hx Hx'. apply in_map_iff in Hx as (y & <- & _). apply in_flat_map in Hx' as (b & Hb & Hx'). apply in_map_iff in Hx' as (z & E & _).
    injection E as -> _. contradiction.
Qed.
Lemma NoDup_indices s : NoDup (indices s).
Proof. induction s as [|n s IH]; cbn; [constructor; auto; constructor|]. apply NoDup_cons_prod; auto. apply seq_NoDup. Qed.
Lemma mvl_inj k p q : (k <= List.length p)%nat -> List.length p = List.length q -> mvl k p = mvl k q -> p = q.
Proof.
  intros Hk Hl E. rewrite <- (remove_insert k 0 p), <- (remove_insert k 0 q) by lia. rewrite <- (swapl_mvl k 0 p), <- (swapl_mvl k 0 q) by lia.
  rewrite E, Hl. reflexivity.
Qed.
Lemma NoDup_map_on {A B} (f : A -> B) l : NoDup l -> (forall x y, In x l -> In y l -> f x = f y -> x = y) -> NoDup (map f l).
Proof.
  intros Hl H. induction Hl as [|a l Ha Hl IH]; cbn; constructor.
  - intros Hin. apply in_map_iff in Hin as (y & E & Hy). apply Ha. rewrite <- (H y a); auto; [right; auto|left; auto].
  - apply IH. intros x y Hx Hy. apply H; right; auto.
Qed.
Lemma perm_mvl k sh : (k <= List.length sh)%nat -> Permutation (indices (mvl k sh)) (map (mvl k) (indices sh)).
Proof.
  intros Hk. apply NoDup_Permutation.
  - apply NoDup_indices.
  - apply NoDup_map_on; [apply NoDup_indices|]. intros x y Hx Hy. apply in_indices in Hx, Hy. apply valid_length in Hx, Hy. apply mvl_inj; lia.
  - intros x. rewrite in_indices, in_map_iff. split.
    + intros H. destruct (mvl_surj k sh x Hk H) as (p & -> & Hp). exists p. split; auto. apply in_indices, Hp.
    + intros (p & <- & Hp). apply in_indices in Hp. apply valid_mvl; auto.
Qed.
(** The points of an array, in an order that only depends on its shape. *)
Lemma points_list k sh : (k <= List.length sh)%nat -> exists ps, Permutation ps (indices sh) /\
  forall a, shp a = put k 3 sh -> points_of a k = map (vec_on a k) ps.
Proof.
  intros Hk.
  assert (P : exists ps, Permutation ps (indices sh) /\ indices (mvl k sh) = map (mvl k) ps).
  { destruct (Permutation_map_inv (mvl k) (indices sh) (perm_mvl k sh Hk)) as (ps & E & Hp). exists ps. split; [apply Permutation_sym, Hp|exact E]. }
  destruct P as (ps & Hp & E). exists ps. split; auto. intros a Ha. rewrite put_insert in Ha by auto. unfold points_of.
  assert (Hn : (ndim a - 1 = List.length sh)%nat) by (unfold ndim; rewrite Ha, length_insert by auto; lia).
  rewrite Hn. cbn [swap_nd shp]. rewrite Ha, (swapl_comm k), swapl_insert_end by auto. rewrite removelast_snoc, E, map_map.
  apply map_ext_in. intros pre Hin. apply (Permutation_in _ Hp) in Hin. apply in_indices in Hin. apply valid_length in Hin.
  rewrite vec_on_along by lia. unfold vec_along. cbn [swap_nd dat].
  assert (Hi : forall c, insert_at (List.length sh) c (mvl k pre) = (mvl k pre ++ [c])%list)
    by (intros c; rewrite <- Hin, <- (length_mvl k pre) by lia; apply insert_end).
  rewrite !Hi, <- Hin, !swapl_mvl by lia. reflexivity.
Qed.

(* ------------------------------------------------------------------ C38 *)
Lemma vecs_along_shape a k sh : shp a = put k 3 sh -> (k <= List.length sh)%nat -> shp (vecs_along a k) = sh.
Proof. intros H Hk. cbn. rewrite H, put_insert by auto. apply remove_insert; auto. Qed.
Section ShortestArc.
  Variables (v1 v2 : nd R) (k : nat) (sh : list nat) (axis : option Z).
  Hypotheses (H1 : shp v1 = put k 3 sh) (H2 : shp v2 = put k 3 sh) (Hk : (k <= List.length sh)%nat)
    (Ha : axis_arg_is axis k (ndim v1)).
  Lemma arc_unfold : exists pairs, shp pairs = sh /\ (forall pre, valid sh pre -> dat pairs pre = (vec_on v1 k pre, vec_on v2 k pre)) /\
    shortest_arc_rotation v1 v2 axis = (q <- map_res (fun p => arc (fst p) (snd p)) q1 pairs ;; Ok (quats_along q k)).
  Proof.
    assert (N : ndim v1 = S (List.length sh)) by (unfold ndim; rewrite H1, put_insert, length_insert; auto).
    assert (N2 : ndim v2 = S (List.length sh)) by (unfold ndim; rewrite H2, put_insert, length_insert; auto).
    destruct (op2_same pair (vecs_along v1 k) (vecs_along v2 k) sh) as (c & E & Sc & D); [apply vecs_along_shape; auto|apply vecs_along_shape; auto|].
    exists c. split; auto. split.
    - intros pre Hp. rewrite D by auto. pose proof (valid_length _ _ Hp). rewrite !vec_on_along by lia. reflexivity.
    - unfold shortest_arc_rotation. rewrite (axis_arg_norm axis k (ndim v1) Ha) by lia. cbn [bind].
      rewrite N, N2, Nat.eqb_refl. cbn [negb]. rewrite H1, H2, put_insert, nth_insert, Nat.eqb_refl by auto. cbn [negb andb]. rewrite E. reflexivity.
  Qed.
End ShortestArc.
(** No pair of vectors points in exactly opposite directions.  Missing: those pairs
    (refuted below). *)
Theorem C38_partial : forall v1 v2 k sh axis, shp v1 = put k 3 sh -> shp v2 = put k 3 sh -> (k <= List.length sh)%nat ->
  axis_arg_is axis k (ndim v1) ->
  (forall pre, valid sh pre -> vec_on v1 k pre <> v0 /\ vec_on v2 k pre <> v0 /\ ~ against (vec_on v1 k pre) (vec_on v2 k pre)) ->
  exists out, shortest_arc_rotation v1 v2 axis = Ok out /\ shp out = put k 4 sh /\
    forall pre, valid sh pre -> let a := vec_on v1 k pre in let b := vec_on v2 k pre in let r := quat_on out k pre in
      hunit r /\ vscale (/ vlen a) (srot r a) = vscale (/ vlen b) b /\
      exists u th, vdot u u = 1 /\ 0 <= th <= PI /\ cos th = vdot a b / (vlen a * vlen b) /\ forall v, srot r v = turn u th v.
Proof.
  intros v1 v2 k sh axis H1 H2 Hk Ha Hv. destruct (arc_unfold v1 v2 k sh axis H1 H2 Hk Ha) as (c & Sc & D & ->).
  destruct (map_res_ok (fun p => arc (fst p) (snd p)) q1 c (fun p => qscale (/ qlen (arc_raw (fst p) (snd p))) (arc_raw (fst p) (snd p)))) as (q & Eq & Sq & Dq).
  { intros ix Hix. rewrite Sc in Hix. rewrite D by auto. cbn [fst snd]. destruct (Hv ix Hix) as (A & B & C). apply arc_ok; auto. }
  rewrite Eq. cbn [bind]. exists (quats_along q k). split; auto. rewrite Sc in *.
  split; [cbn; rewrite Sq, put_insert; auto|]. intros pre Hp. set (a := vec_on v1 k pre) in *. set (b := vec_on v2 k pre) in *. set (r := quat_on (quats_along q k) k pre). pose proof (valid_length _ _ Hp) as Lp.
  assert (Er : r = qscale (/ qlen (arc_raw a b)) (arc_raw a b)).
  { unfold r, quat_on, quats_along. cbn [dat]. rewrite !put_insert, !nth_insert, !remove_insert by lia. rewrite Dq, D by auto. cbn [comp4 fst snd].
    reflexivity. }
  destruct (Hv pre Hp) as (A & B & C). fold a b in A, B, C. rewrite Er. split; [apply arc_unit; auto|]. split; [|apply arc_angle; auto].
  rewrite arc_maps by auto. pose proof (vlen_pos a A). pose proof (vlen_pos b B). revert H H0. generalize (vlen a) (vlen b). intros x y Hx Hy.
  destruct b. apply vec3_eq; mcomp; field; lra.
Qed.
(** An array with a pair of opposite vectors has NaN entries in the result. *)
Theorem C38_refuted : forall v1 v2 k sh axis, shp v1 = put k 3 sh -> shp v2 = put k 3 sh -> (k <= List.length sh)%nat ->
  axis_arg_is axis k (ndim v1) ->
  (exists pre, valid sh pre /\ vec_on v1 k pre <> v0 /\ vec_on v2 k pre <> v0 /\ against (vec_on v1 k pre) (vec_on v2 k pre)) ->
  shortest_arc_rotation v1 v2 axis = Raise NaNValue.
Proof.
  intros v1 v2 k sh axis H1 H2 Hk Ha (pre & Hp & A & B & C). destruct (arc_unfold v1 v2 k sh axis H1 H2 Hk Ha) as (c & Sc & D & ->).
  unfold map_res.
  assert (N : forall l, (forall ix, In ix l -> valid sh ix) -> In pre l -> traverse (fun ix => arc (fst (dat c ix)) (snd (dat c ix))) l = Raise NaNValue).
  { induction l as [|i l IH]; intros Hl Hin; [destruct Hin|]. unfold traverse. cbn [map sequence].
    destruct (arc (fst (dat c i)) (snd (dat c i))) as [q|e] eqn:E.
    - cbn [bind]. destruct Hin as [->|Hin]; [rewrite D in E by auto; cbn [fst snd] in E; rewrite arc_against in E by auto; discriminate|].
      unfold traverse in IH. rewrite IH; auto. intros ix Hx. apply Hl. right; auto.
    - cbn [bind]. f_equal. unfold arc in E. destruct (Req_b _ 0); congruence. }
  rewrite N; auto.
  - intros ix Hx. rewrite Sc in Hx. apply in_indices, Hx.
  - rewrite Sc. apply in_indices, Hp.
Qed.
Example C38_example : let v1 := Nd [2;3]%nat (fun ix => match ix with [0;0]%nat => 1 | [1;1]%nat => 2 | _ => 0 end) in
  let v2 := Nd [2;3]%nat (fun ix => match ix with [0;1]%nat => 3 | [1;1]%nat => 1 | [1;2]%nat => 1 | _ => 0 end) in
  shp v1 = put 1 3 [2%nat] /\ shp v2 = put 1 3 [2%nat] /\ axis_arg_is None 1 (ndim v1) /\ axis_arg_is (Some 1%Z) 1 (ndim v1) /\
  forall pre, valid [2%nat] pre -> vec_on v1 1 pre <> v0 /\ vec_on v2 1 pre <> v0 /\ ~ against (vec_on v1 1 pre) (vec_on v2 1 pre).
Proof.
  cbv zeta. split; [reflexivity|]. split; [reflexivity|]. split; [reflexivity|]. split; [split; [discriminate|left; reflexivity]|].
  intros pre Hp. inversion Hp as [|i n l s Hi Hl]; subst. inversion Hl; subst. destruct i as [|[|i]]; try lia; cbn.
  - split; [intros E; injection E; lra|]. split; [intros E; injection E; lra|]. intros (m & Hm & E). injection E; lra.
  - split; [intros E; injection E; lra|]. split; [intros E; injection E; lra|]. intros (m & Hm & E). injection E; lra.
Qed.

(* ------------------------------------------------------------------ C39, C40 *)
(** The corresponding vectors of two arrays of the same shape. *)
Definition pairs_of (v1 v2 : nd R) (k : nat) (sh : list nat) : list (vec3 * vec3) :=
  map (fun pre => (vec_on v1 k pre, vec_on v2 k pre)) (indices sh).
Lemma sq_error_perm t q l m : Permutation l m -> sq_error t q l = sq_error t q m.
Proof.
  induction 1 as [|[] l m _ IH|[] [] l|l m n _ IH1 _ IH2]; cbn [sq_error]; [reflexivity|rewrite IH; reflexivity|ring|congruence].
Qed.
Lemma combine_map {A B C} (f : A -> B) (g : A -> C) l : combine (map f l) (map g l) = map (fun x => (f x, g x)) l.
Proof. induction l as [|x l IH]; cbn; [reflexivity|rewrite IH; reflexivity]. Qed.
Section Arrays.
  Variables (v1 v2 : nd R) (k : nat) (sh : list nat) (axis : option Z).
  Hypotheses (H1 : shp v1 = put k 3 sh) (H2 : shp v2 = put k 3 sh) (Hk : (0 < k <= List.length sh)%nat)
    (Ha : axis_arg_is axis k (ndim v1)).
  Lemma reshape_ok same : exists p1 p2, reshape_vectors v1 v2 axis same = Ok (p1, p2) /\ List.length p1 = List.length p2 /\
    Permutation (combine p1 p2) (pairs_of v1 v2 k sh).
  Proof.
    assert (N1 : ndim v1 = S (List.length sh)) by (unfold ndim; rewrite H1, put_insert, length_insert; lia).
    assert (N2 : ndim v2 = S (List.length sh)) by (unfold ndim; rewrite H2, put_insert, length_insert; lia).
    assert (Ek : norm_axis (or_default axis (-1)) (ndim v1) = Ok k) by (apply axis_arg_norm; auto; lia).
    assert (Em : Z.eqb ((or_default axis (-1)) mod Z.of_nat (ndim v1)) 0 = false).
    { apply Z.eqb_neq. unfold axis_arg_is, axis_is, or_default in *. destruct axis as [z|]; rewrite N1 in *.
      - destruct Ha as (Hz & Hax). destruct (Z.eqb z 0) eqn:E0; [apply Z.eqb_eq in E0; contradiction|].
        destruct Hax as [E|E]; [subst z; rewrite Z.mod_small by lia; lia|].
        replace z with (Z.of_nat k + (-1) * Z.of_nat (S (List.length sh)))%Z by lia. rewrite Z_mod_plus_full, Z.mod_small by lia. lia.
      - replace (-1)%Z with (Z.of_nat k + (-1) * Z.of_nat (S (List.length sh)))%Z by lia. rewrite Z_mod_plus_full, Z.mod_small by lia. lia. }
    destruct (points_list k sh) as (ps & Hp & Hpts); [lia|].
    exists (map (vec_on v1 k) ps), (map (vec_on v2 k) ps). split; [|split; [rewrite !map_length; reflexivity|]].
    - unfold reshape_vectors. rewrite Em. replace (Nat.eqb (ndim v1) 0) with false by (rewrite N1; reflexivity).
      rewrite N2, <- N1, Ek. cbn [bind]. rewrite !H1, !H2, put_insert, nth_insert by lia. cbn [Nat.eqb negb].
      rewrite !Hpts by auto. rewrite !map_length, Nat.eqb_refl, andb_false_r. reflexivity.
    - rewrite combine_map. unfold pairs_of. apply Permutation_map. exact Hp.
  Qed.
End Arrays.
Lemma cov_moments l : cross_cov l = M3 (V3 (moment vx vx l) (moment vx vy l) (moment vx vz l))
  (V3 (moment vy vx l) (moment vy vy l) (moment vy vz l)) (V3 (moment vz vx l) (moment vz vy l) (moment vz vz l)).
Proof.
  induction l as [|[a b] l IH]; [reflexivity|]. unfold cross_cov in *. cbn [fold_right fst snd]. rewrite IH.
  unfold moment. cbn [fold_right fst snd]. destruct a, b. mcomp. reflexivity.
Qed.
Lemma cov_chirality l : det3 (cross_cov l) = chirality l.
Proof. rewrite cov_moments. unfold chirality. mcomp. ring. Qed.
Lemma moment_perm f g l m : Permutation l m -> moment f g l = moment f g m.
Proof.
  induction 1 as [|p l m _ IH|p p' l|l m n _ IH1 _ IH2]; unfold moment in *; cbn [fold_right]; [reflexivity|rewrite IH; reflexivity|ring|congruence].
Qed.
Lemma cov_perm l m : Permutation l m -> cross_cov l = cross_cov m.
Proof. intros H. rewrite !cov_moments, !(moment_perm _ _ l m H). reflexivity. Qed.

Theorem C39 : forall svd frm, (forall H, is_svd H (svd H)) -> is_frm frm ->
  forall v1 v2 k sh axis, shp v1 = put k 3 sh -> shp v2 = put k 3 sh -> (0 < k <= List.length sh)%nat -> axis_arg_is axis k (ndim v1) ->
  indices sh <> [] ->
  exists t r, best_fit_transform svd frm v1 v2 axis = Ok (t, r) /\ hunit r /\
    forall t' q, hn2 q <> 0 -> sq_error t r (pairs_of v1 v2 k sh) <= sq_error t' q (pairs_of v1 v2 k sh).
Proof.
  intros svd frm Hsvd Hfrm v1 v2 k sh axis H1 H2 Hk Ha Hne.
  destruct (reshape_ok v1 v2 k sh axis H1 H2 Hk Ha true) as (p1 & p2 & Hr & Hl & Hp).
  assert (N : p1 <> []).
  { intros ->. cbn in Hp. apply Permutation_nil in Hp. unfold pairs_of in Hp. apply map_eq_nil in Hp. contradiction. }
  destruct (fit_transform_optimal svd frm p1 p2 Hl N (Hsvd _) Hfrm) as (t & r & E & U & O).
  exists t, r. split; [unfold best_fit_transform; rewrite Hr; exact E|]. split; [exact U|].
  intros t' q Hq. rewrite <- !(sq_error_perm _ _ _ _ Hp). apply O, Hq.
Qed.

(** Such svd and from_rotation_matrix exist; two points mirrored in a plane (covariance
    of rank 1) meet the other hypotheses and are matched exactly. *)
Example C39_example : (forall H, is_svd H (some_svd H)) /\ is_frm shepperd /\
  let v1 := Nd [2;3]%nat (fun ix => match ix with [0;0]%nat => 1 | [1;1]%nat => 2 | _ => 0 end) in
  let v2 := Nd [2;3]%nat (fun ix => match ix with [0;0]%nat => - 1 | [1;1]%nat => 2 | _ => 0 end) in
  shp v1 = put 1 3 [2%nat] /\ shp v2 = put 1 3 [2%nat] /\ (0 < 1 <= 1)%nat /\ axis_arg_is (Some (-1)%Z) 1 (ndim v1) /\ indices [2%nat] <> [] /\
  exists t r, best_fit_transform some_svd shepperd v1 v2 (Some (-1)%Z) = Ok (t, r) /\ hunit r /\ sq_error t r (pairs_of v1 v2 1 [2%nat]) = 0.
Proof.
  split; [exact some_svd_ok|]. split; [exact shepperd_ok|]. intros v1 v2.
  assert (A : shp v1 = put 1 3 [2%nat]) by reflexivity. assert (B : shp v2 = put 1 3 [2%nat]) by reflexivity.
  assert (C : axis_arg_is (Some (-1)%Z) 1 (ndim v1)) by (split; [lia|right; reflexivity]).
  assert (D : indices [2%nat] <> []) by discriminate.
  repeat (split; [auto; lia|]). 
  destruct (C39 some_svd shepperd some_svd_ok shepperd_ok v1 v2 1 [2%nat] (Some (-1)%Z) A B ltac:(cbn; lia) C D) as (t & r & E & U & O).
  exists t, r. split; [exact E|]. split; [exact U|]. apply Rle_antisym; [|apply sq_error_nonneg].
  assert (Q : hn2 (Qt 0 0 1 0) <> 0) by (vunf; lra).
  eapply Rle_trans; [apply (O v0 _ Q)|]. unfold pairs_of, v1, v2. cbn [indices flat_map map app seq].
  assert (S1 : forall v, srot (Qt 0 0 1 0) v = V3 (- vx v) (vy v) (- vz v)).
  { intros [x y z]. unfold srot. replace (hn2 (Qt 0 0 1 0)) with 1 by (vunf; ring). apply vec3_eq; vunf; field. }
  cbn [sq_error]. rewrite !S1. cbv -[IZR Rplus Rmult Rminus Ropp Rle]. lra.
Qed.

(** Missing: vectors whose moments do not have a positive determinant (refuted below
    for negative ones). *)
Theorem C40_partial : forall svd frm, (forall H, is_svd H (svd H)) -> is_frm frm ->
  forall v1 v2 k sh axis, shp v1 = put k 3 sh -> shp v2 = put k 3 sh -> (0 < k <= List.length sh)%nat -> axis_arg_is axis k (ndim v1) ->
  0 < chirality (pairs_of v1 v2 k sh) ->
  exists r, best_fit_rotation svd frm v1 v2 axis = Ok r /\ hunit r /\
    forall q, hn2 q <> 0 -> sq_error v0 r (pairs_of v1 v2 k sh) <= sq_error v0 q (pairs_of v1 v2 k sh).
Proof.
  intros svd frm Hsvd Hfrm v1 v2 k sh axis H1 H2 Hk Ha Hc.
  destruct (reshape_ok v1 v2 k sh axis H1 H2 Hk Ha true) as (p1 & p2 & Hr & Hl & Hp).
  destruct (fit_rotation_optimal svd frm p1 p2) as (U & O); auto.
  { rewrite (cov_perm _ _ Hp), cov_chirality. exact Hc. }
  exists (fit_rotation svd frm p1 p2). split; [unfold best_fit_rotation; rewrite Hr; reflexivity|]. split; auto.
  intros q Hq. rewrite <- !(sq_error_perm _ _ _ _ Hp). auto.
Qed.
Example C40_example : let v1 := Nd [3;3]%nat (fun ix => match ix with [0;0]%nat => 1 | [1;1]%nat => 2 | [2;2]%nat => 1 | [2;0]%nat => 5 | _ => 0 end) in
  let v2 := Nd [3;3]%nat (fun ix => match ix with [0;1]%nat => 1 | [1;2]%nat => 2 | [2;0]%nat => 3 | _ => 0 end) in
  shp v1 = put 1 3 [3%nat] /\ shp v2 = put 1 3 [3%nat] /\ (0 < 1 <= 1)%nat /\ axis_arg_is None 1 (ndim v1) /\
  0 < chirality (pairs_of v1 v2 1 [3%nat]).
Proof.
  intros v1 v2. split; [reflexivity|]. split; [reflexivity|]. split; [lia|]. split; [reflexivity|].
  replace (chirality _) with 12; [lra|]. unfold chirality, moment, pairs_of, v1, v2. cbv -[IZR Rplus Rmult Rminus Ropp]. ring.
Qed.

(* ---- the refutation ---- *)
Definition diag3 (x y z : R) : mat3 := M3 (V3 x 0 0) (V3 0 y 0) (V3 0 0 z).
(** Whatever decomposition svd picks, the matrix best_fit_rotation forms from a diagonal
    H with distinct absolute values is diag(sign). *)
Lemma polar_diag U Sv Vt x y : 0 < x -> 0 < y -> forall z, z < 0 -> x <> y -> x <> - z -> y <> - z -> is_svd (diag3 x y z) (U, Sv, Vt) ->
  forall v, mapply (mdot (transpose Vt) (transpose U)) v = V3 (vx v) (vy v) (- vz v).
Proof.
  intros Hx Hy z Hz N1 N2 N3 (OU & OV & S1 & S2 & S3 & E). set (h := diag3 x y z) in *. set (r := mdot (transpose Vt) (transpose U)).
  set (P := fun v => mapply r (mapply h v)).
  assert (EP : forall v, P v = mapply (transpose Vt) (stretch Sv (mapply Vt v))).
  { intros v. unfold P, r. rewrite mapply_mdot, E, orthogonal_inv_l by auto. reflexivity. }
  assert (Sym : forall v w, vdot (P v) w = vdot v (P w)).
  { intros v w. rewrite !EP, transpose_dot, (vdot_sym v), transpose_dot. unfold stretch. destruct (mapply Vt v), (mapply Vt w), Sv. mcomp. ring. }
  assert (Pos : forall v, 0 <= vdot (P v) v).
  { intros v. rewrite EP, transpose_dot. unfold stretch. destruct (mapply Vt v) as [p q s], Sv as [a b c]. mcomp. cbn in S1, S2, S3.
    pose proof (sq_ge0 p). pose proof (sq_ge0 q). pose proof (sq_ge0 s).
    pose proof (Rmult_le_pos a (p * p)). pose proof (Rmult_le_pos b (q * q)). pose proof (Rmult_le_pos c (s * s)). lra. }
  assert (Or : orthogonal r) by (unfold r; apply orthogonal_mdot; apply orthogonal_transpose; auto).
  assert (Sq : forall v w, vdot (P v) (P w) = vdot (mapply h v) (mapply h w)) by (intros; unfold P; apply Or).
  assert (Lin : forall v, P v = vadd (vadd (vscale (vx v) (P ex)) (vscale (vy v) (P ey))) (vscale (vz v) (P ez))).
  { intros v. unfold P. rewrite (vec_basis v) at 1. rewrite !mapply_add, !mapply_scale. reflexivity. }
  destruct (P ex) as [a b c] eqn:Pa, (P ey) as [d e f] eqn:Pb, (P ez) as [g j i] eqn:Pc.
  pose proof (Sym ex ey) as Y1. pose proof (Sym ex ez) as Y2. pose proof (Sym ey ez) as Y3. rewrite Pa, Pb, Pc in *.
  pose proof (Pos ex) as Q1. pose proof (Pos ey) as Q2. pose proof (Pos ez) as Q3. rewrite Pa in Q1. rewrite Pb in Q2. rewrite Pc in Q3.
  pose proof (Sq ex ex) as T1. pose proof (Sq ey ey) as T2. pose proof (Sq ez ez) as T3.
  pose proof (Sq ex ey) as T4. pose proof (Sq ex ez) as T5. pose proof (Sq ey ez) as T6. rewrite Pa, Pb, Pc in *.
  (* P commutes with its square, which is diagonal with distinct entries *)
  assert (PP : forall v, P (P v) = mapply h (mapply h v)).
  { intros v. assert (Z : forall w, vdot (vsub (P (P v)) (mapply h (mapply h v))) w = 0).
    { intros w. replace (vdot (vsub (P (P v)) (mapply h (mapply h v))) w) with (vdot (P (P v)) w - vdot (mapply h (mapply h v)) w)
        by (destruct (P (P v)), (mapply h (mapply h v)), w; mcomp; ring).
      rewrite Sym, Sq. unfold h. destruct v, w. unfold diag3. mcomp. ring. }
    specialize (Z (vsub (P (P v)) (mapply h (mapply h v)))). apply vdot_zero in Z.
    destruct (P (P v)) as [l m n], (mapply h (mapply h v)) as [l' m' n']. revert Z. mcomp. intros Z. injection Z as Z1 Z2 Z3. f_equal; lra. }
  assert (Com : forall v, P (mapply h (mapply h v)) = mapply h (mapply h (P v))) by (intros v; rewrite <- !PP; reflexivity).
  pose proof (Com ex) as C1. pose proof (Com ey) as C2. rewrite Pa in C1. rewrite Pb in C2. rewrite Lin in C1, C2.
  assert (G : (a = x /\ b = 0 /\ c = 0) /\ (d = 0 /\ e = y /\ f = 0) /\ g = 0 /\ j = 0 /\ i = - z).
  { clear Pa Pb Pc Lin Com PP Sq Pos Sym EP E.
  revert Y1 Y2 Y3 Q1 Q2 Q3 T1 T2 T3 C1 C2. unfold h, diag3. mcomp. intros Y1 Y2 Y3 Q1 Q2 Q3 T1 T2 T3 C1 C2.
  injection C1 as _ C12 C13. injection C2 as _ _ C23.
  assert (D : forall u v, u * u <> v * v -> forall w, (u * u) * w = v * v * w -> w = 0).
  { intros u v N w Ew. destruct (Req_dec w 0) as [|Nw]; auto. exfalso. apply N. apply (Rmult_eq_reg_r w); auto. }
  assert (K : forall u v, 0 < u -> 0 < v -> u <> v -> u * u <> v * v).
  { intros u v Pu Pv N Es. apply N. apply Rsqr_inj; unfold Rsqr; lra. }
  assert (Zb : b = 0). { apply (D x y); [apply K; auto|]. lra. }
  assert (Zc : c = 0). { apply (D x (- z)); [apply K; auto; lra|]. lra. }
  assert (Zf : f = 0). { apply (D y (- z)); [apply K; auto; lra|]. lra. }
  subst b c f. assert (d = 0) by lra. assert (g = 0) by lra. assert (j = 0) by lra. subst d g j.
  assert (Ea : a = x) by (apply Rsqr_inj; unfold Rsqr; lra). assert (Ee : e = y) by (apply Rsqr_inj; unfold Rsqr; lra).
  assert (Ei : i = - z) by (apply Rsqr_inj; unfold Rsqr; lra). auto. }
  destruct G as ((-> & -> & ->) & (-> & -> & ->) & -> & -> & ->).
  intros [p q s]. cbn [vx vy vz].
  assert (V : V3 p q s = mapply h (V3 (p / x) (q / y) (s / z))) by (unfold h, diag3; apply vec3_eq; mcomp; field; lra).
  rewrite V. change (mapply r (mapply h (V3 (p / x) (q / y) (s / z)))) with (P (V3 (p / x) (q / y) (s / z))). rewrite Lin.
  apply vec3_eq; mcomp; field; lra.
Qed.
Lemma mat3_ext a b : (forall v, mapply a v = mapply b v) -> a = b.
Proof.
  intros H. pose proof (H ex) as H1. pose proof (H ey) as H2. pose proof (H ez) as H3. clear H.
  destruct a as [[a b' c] [d e f] [g h i]], b as [[a' b'' c'] [d' e' f'] [g' h' i']]. revert H1 H2 H3. mcomp. intros H1 H2 H3.
  injection H1 as X1 X2 X3. injection H2 as X4 X5 X6. injection H3 as X7 X8 X9. f_equal; f_equal; lra.
Qed.
(** Three vectors along the axes. *)
Definition axes3 (x y z : R) : nd R :=
  Nd [3;3]%nat (fun ix => match ix with [0;0]%nat => x | [1;1]%nat => y | [2;2]%nat => z | _ => 0 end).
Lemma axes3_cov x y z : cross_cov (pairs_of (axes3 x y z) (axes3 1 1 (-1)) 1 [3%nat]) = diag3 x y (- z).
Proof. rewrite cov_moments. unfold moment, pairs_of, axes3, diag3. cbv -[IZR Rplus Rmult Rminus Ropp]. f_equal; f_equal; ring. Qed.
Lemma axes3_error x y z r : hn2 r <> 0 -> sq_error v0 r (pairs_of (axes3 x y z) (axes3 1 1 (-1)) 1 [3%nat]) =
  x * x + y * y + z * z + 3 - 2 * (x * vx (srot r ex) + y * vy (srot r ey) - z * vz (srot r ez)).
Proof.
  intros Hr. unfold pairs_of. cbn [indices map flat_map seq app sq_error].
  assert (L : forall a b, dist2 b (vadd (srot r a) v0) = vdot b b - 2 * vdot b (srot r a) + vdot a a).
  { intros a b. rewrite <- (srot_dot r a a Hr). destruct b, (srot r a). unfold dist2. mcomp. ring. }
  rewrite !L.
  replace (vec_on (axes3 x y z) 1 [0%nat]) with (vscale x ex) by (apply vec3_eq; cbv -[IZR Rmult]; ring).
  replace (vec_on (axes3 x y z) 1 [1%nat]) with (vscale y ey) by (apply vec3_eq; cbv -[IZR Rmult]; ring).
  replace (vec_on (axes3 x y z) 1 [2%nat]) with (vscale z ez) by (apply vec3_eq; cbv -[IZR Rmult]; ring).
  rewrite !srot_scale. destruct (srot r ex), (srot r ey), (srot r ez).
  cbv -[IZR Rplus Rmult Rminus Ropp]. ring.
Qed.
(** The two data sets give best_fit_rotation the same matrix, but no rotation is the
    best for both. *)
Theorem C40_refuted : forall svd frm, (forall H, is_svd H (svd H)) ->
  exists v1 v2 r, shp v1 = [3;3]%nat /\ shp v2 = [3;3]%nat /\ best_fit_rotation svd frm v1 v2 None = Ok r /\
    ~ (hn2 r <> 0 /\ forall q, hn2 q <> 0 -> sq_error v0 r (pairs_of v1 v2 1 [3%nat]) <= sq_error v0 q (pairs_of v1 v2 1 [3%nat])).
Proof.
  intros svd frm Hsvd.
  assert (B : forall x y z, 0 < x -> 0 < y -> 0 < z -> x <> y -> x <> z -> y <> z ->
    best_fit_rotation svd frm (axes3 x y z) (axes3 1 1 (-1)) None = Ok (frm (diag3 1 1 (-1)))).
  { intros x y z Hx Hy Hz N1 N2 N3.
    destruct (reshape_ok (axes3 x y z) (axes3 1 1 (-1)) 1 [3%nat] None eq_refl eq_refl ltac:(cbn; lia) eq_refl true) as (p1 & p2 & Hr & Hl & Hp).
    unfold best_fit_rotation. rewrite Hr. cbn [bind]. f_equal. unfold fit_rotation. rewrite (cov_perm _ _ Hp), axes3_cov.
    pose proof (Hsvd (diag3 x y (- z))) as Hs. destruct (svd (diag3 x y (- z))) as [[U Sv] Vt].
    f_equal. apply mat3_ext. intros v. rewrite (polar_diag U Sv Vt x y Hx Hy (- z)) by (auto; lra). destruct v. apply vec3_eq; unfold diag3; mcomp; ring. }
  set (r := frm (diag3 1 1 (-1))) in *.
  assert (I : hn2 (Qt 1 0 0 0) <> 0) by (vunf; lra). assert (J : hn2 (Qt 0 0 1 0) <> 0) by (vunf; lra).
  destruct (Rle_dec (sq_error v0 r (pairs_of (axes3 3 2 1) (axes3 1 1 (-1)) 1 [3%nat])) (sq_error v0 (Qt 1 0 0 0) (pairs_of (axes3 3 2 1) (axes3 1 1 (-1)) 1 [3%nat]))) as [LA|LA].
  - exists (axes3 1 2 3), (axes3 1 1 (-1)), r. split; [reflexivity|]. split; [reflexivity|]. split; [apply B; lra|].
    intros (Hr & O). specialize (O _ J). rewrite !axes3_error in LA, O by auto.
    assert (T : vx (srot r ex) + vy (srot r ey) + - vz (srot r ez) <= 1).
    { pose proof (qmat_orthogonal r Hr) as Om. pose proof (orthogonal_onb _ Om) as On. unfold col0, col1, col2 in On. rewrite !qmat_apply in On.
      pose proof (qmat_det r Hr) as Dt. rewrite <- det_cols in Dt. unfold col0, col1, col2 in Dt. rewrite !qmat_apply in Dt.
      pose proof (trace_le (V3 (vx (srot r ex)) (vy (srot r ex)) (- vz (srot r ex))) (V3 (vx (srot r ey)) (vy (srot r ey)) (- vz (srot r ey)))
        (V3 (vx (srot r ez)) (vy (srot r ez)) (- vz (srot r ez)))) as T. cbn [vx vy vz] in T. apply T.
      - destruct (srot r ex), (srot r ey), (srot r ez). revert On. clear. unfold onb. mcomp. intros (O1 & O2 & O3 & O4 & O5 & O6). repeat split; lra.
      - destruct (srot r ex), (srot r ey), (srot r ez). revert Dt. clear. mcomp. lra. }
    assert (E1 : forall v, srot (Qt 1 0 0 0) v = v) by (intros v; exact (srot_one v)).
    assert (E2 : forall v, srot (Qt 0 0 1 0) v = V3 (- vx v) (vy v) (- vz v)).
    { intros [x y z]. unfold srot. replace (hn2 (Qt 0 0 1 0)) with 1 by (vunf; ring). apply vec3_eq; vunf; field. }
    rewrite !E1 in LA. rewrite !E2 in O. cbn [vx vy vz ex ey ez] in LA, O. lra.
  - exists (axes3 3 2 1), (axes3 1 1 (-1)), r. split; [reflexivity|]. split; [reflexivity|]. split; [apply B; lra|].
    intros (Hr & O). apply LA, O, I.
Qed.

(* ------------------------------------------------------------------ C41 *)
Lemma axis_arg_mod axis k n : axis_arg_is axis k n -> (0 < k < n)%nat -> Z.eqb ((or_default axis (-1)) mod Z.of_nat n) 0 = false.
Proof.
  intros H Hk. apply Z.eqb_neq. unfold axis_arg_is, axis_is, or_default in *. destruct axis as [z|].
  - destruct H as (Hz & Hax). destruct (Z.eqb z 0) eqn:E0; [apply Z.eqb_eq in E0; contradiction|].
    destruct Hax as [E|E]; [subst z; rewrite Z.mod_small by lia; lia|].
    replace z with (Z.of_nat k + (-1) * Z.of_nat n)%Z by lia. rewrite Z_mod_plus_full, Z.mod_small by lia. lia.
  - replace (-1)%Z with (Z.of_nat k + (-1) * Z.of_nat n)%Z by lia. rewrite Z_mod_plus_full, Z.mod_small by lia. lia.
Qed.
(** The vectors of an array, in some order. *)
Definition lists_points (v : nd R) (k : nat) (sh : list nat) (ps : list vec3) : Prop :=
  Permutation ps (map (vec_on v k) (indices sh)).
Lemma reshape_any v1 v2 k1 k2 sh1 sh2 axis : shp v1 = put k1 3 sh1 -> shp v2 = put k2 3 sh2 -> (0 < k1 <= List.length sh1)%nat -> (k2 <= List.length sh2)%nat ->
  axis_arg_is axis k1 (ndim v1) -> axis_arg_is axis k2 (ndim v2) ->
  exists p1 p2, reshape_vectors v1 v2 axis false = Ok (p1, p2) /\ lists_points v1 k1 sh1 p1 /\ lists_points v2 k2 sh2 p2.
Proof.
  intros H1 H2 Hk1 Hk2 A1 A2.
  assert (N1 : ndim v1 = S (List.length sh1)) by (unfold ndim; rewrite H1, put_insert, length_insert; lia).
  assert (N2 : ndim v2 = S (List.length sh2)) by (unfold ndim; rewrite H2, put_insert, length_insert; lia).
  destruct (points_list k1 sh1) as (ps1 & P1 & Hp1); [lia|]. destruct (points_list k2 sh2) as (ps2 & P2 & Hp2); [lia|].
  exists (map (vec_on v1 k1) ps1), (map (vec_on v2 k2) ps2). split; [|split; apply Permutation_map; auto].
  unfold reshape_vectors. rewrite (axis_arg_mod axis k1 (ndim v1) A1) by (rewrite N1; lia).
  rewrite (axis_arg_norm axis k1 (ndim v1) A1) by (rewrite N1; lia). rewrite (axis_arg_norm axis k2 (ndim v2) A2) by (rewrite N2; lia).
  replace (Nat.eqb (ndim v1) 0) with false by (rewrite N1; reflexivity). cbn [bind].
  rewrite !H1, !H2, !put_insert, !nth_insert by lia. cbn [Nat.eqb negb]. rewrite Hp1, Hp2 by auto. reflexivity.
Qed.
Theorem C41 : forall svd frm nearest, (forall H, is_svd H (svd H)) -> is_frm frm -> is_nearest nearest ->
  forall v1 v2 k1 k2 sh1 sh2 axis init max_iterations tolerance,
  shp v1 = put k1 3 sh1 -> shp v2 = put k2 3 sh2 -> (0 < k1 <= List.length sh1)%nat -> (k2 <= List.length sh2)%nat ->
  axis_arg_is axis k1 (ndim v1) -> axis_arg_is axis k2 (ndim v2) -> indices sh1 <> [] -> indices sh2 <> [] ->
  (forall t r, init = Some (t, r) -> hn2 r <> 0) ->
  exists t r p1 p2 later, iterative_closest_point svd frm nearest v1 v2 axis init max_iterations tolerance = Ok (t, r) /\ hunit r /\
    lists_points v1 k1 sh1 p1 /\ lists_points v2 k2 sh2 p2 /\
    let start := match init with None => p1 | Some (t0, r0) => map (smove t0 r0) p1 end in
    icp_run p2 tolerance (Z.to_nat max_iterations) 0 (start :: later) /\
    (List.length later <= Z.to_nat max_iterations)%nat /\
    (forall i a b, nth_error (start :: later) i = Some a -> nth_error (start :: later) (S i) = Some b -> nn_error p2 b <= nn_error p2 a) /\
    map (smove t r) p1 = last (start :: later) [].
Proof.
  intros svd frm nearest Hsvd Hfrm Hnear v1 v2 k1 k2 sh1 sh2 axis init maxit tol H1 H2 Hk1 Hk2 A1 A2 I1 I2 Hi.
  destruct (reshape_any v1 v2 k1 k2 sh1 sh2 axis H1 H2 Hk1 Hk2 A1 A2) as (p1 & p2 & E & L1 & L2).
  assert (NE : forall v k sh p, lists_points v k sh p -> indices sh <> [] -> p <> []).
  { intros v k sh p L I ->. apply Permutation_nil in L. apply map_eq_nil in L. contradiction. }
  destruct (icp_points_ok svd frm nearest Hsvd Hfrm Hnear p1 p2 init maxit tol (NE _ _ _ _ L1 I1) (NE _ _ _ _ L2 I2) Hi) as (t & r & tr & E1 & U & R1 & R2 & R3).
  exists t, r, p1, p2, tr. split; [unfold iterative_closest_point; rewrite E; exact E1|]. split; [exact U|]. split; [exact L1|]. split; [exact L2|].
  cbv zeta. split; [exact R1|]. split; [exact R2|]. split; [|exact R3]. intros i a b Ha Hb. apply (icp_run_better _ _ _ _ _ R1 i a b Ha Hb).
Qed.
Example C41_example : (forall H, is_svd H (some_svd H)) /\ is_frm shepperd /\ is_nearest nearest_first /\
  let v1 := Nd [2;3]%nat (fun ix => match ix with [0;0]%nat => 1 | [1;1]%nat => 2 | _ => 0 end) in
  shp v1 = put 1 3 [2%nat] /\ axis_arg_is None 1 (ndim v1) /\ indices [2%nat] <> [] /\
  let v2 := Nd [4;3]%nat (fun ix => match ix with [0;0]%nat => - 1 | [1;1]%nat => 2 | _ => 0 end) in
  shp v2 = put 1 3 [4%nat] /\ axis_arg_is None 1 (ndim v2) /\ indices [4%nat] <> [] /\
  (forall t r, Some (V3 1 0 0, Qt 1 1 0 0) = Some (t, r) -> hn2 r <> 0).
Proof.
  split; [exact some_svd_ok|]. split; [exact shepperd_ok|]. split; [exact nearest_first_ok|]. intros v1.
  repeat split; try reflexivity; try discriminate. intros t r E. injection E as <- <-. vunf. lra.
Qed.
