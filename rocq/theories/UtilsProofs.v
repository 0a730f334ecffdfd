(** qinv and qmul entry by entry. *)
From Coq Require Import Reals List Arith Bool ZArith Lia Lra.
From Verif Require Import Base Quat SpecQuat QuatProofs NdArray Frames Matcher LookupProofs
  Transform SpecArray NdProofs RotProofs ArrProofs ArrStaticProofs Utils.
Import ListNotations.
Open Scope nat_scope.

Lemma valid_mvl k s pre : k <= length s -> valid s pre -> valid (mvl k s) (mvl k pre).
Proof.
  intros H Hv. pose proof (valid_length _ _ Hv) as L.
  assert (G : valid (mvl k s ++ [1]) (mvl k pre ++ [0])).
  { rewrite <- !swapl_insert_end by lia. rewrite L. apply valid_swapl; rewrite ?length_insert; try lia. apply valid_insert; auto. }
  apply (valid_app_inv _ [1] _ [0]); auto. rewrite !length_mvl; lia.
Qed.
Lemma mvl_surj k s pre : k <= length s -> valid (mvl k s) pre -> exists p, pre = mvl k p /\ valid s p.
Proof.
  intros Hk Hv. pose proof (valid_length _ _ Hv) as L. rewrite length_mvl in L by auto.
  assert (G : valid (swapl k (length s) (mvl k s ++ [1])) (swapl k (length s) (pre ++ [0]))).
  { apply valid_swapl; rewrite ?app_length, ?length_mvl; simpl; try lia. apply valid_app; auto. constructor; auto. }
  rewrite swapl_mvl in G by auto. apply valid_insert_inv in G as (c & p & E & Hc & Hp); auto.
  exists p. split; auto. pose proof (valid_length _ _ Hp) as Lp.
  assert (E2 : pre ++ [0] = swapl (length s) k (insert_at k c p)).
  { rewrite <- E. rewrite (swapl_comm k). rewrite swapl_invol; auto; rewrite app_length; simpl; lia. }
  rewrite <- Lp in E2. rewrite swapl_insert_end in E2 by lia. apply app_inj_tail in E2 as (E2 & _). exact E2.
Qed.

Lemma to_quat_ok a qaxis k sh : shp a = insert_at k 4 sh -> k <= length sh -> norm_axis qaxis (ndim a) = Ok k ->
  exists b, to_quat a qaxis = Ok b /\ shp b = mvl k sh /\
    forall pre, length pre = length sh -> dat b (mvl k pre) = quat_along a k pre.
Proof.
  intros Hs Hk Hax. assert (Hn : ndim a = S (length sh)) by (unfold ndim; rewrite Hs, length_insert; auto).
  unfold to_quat, swapaxes. rewrite Hax, norm_axis_last by lia. cbn [bind]. unfold as_quat. cbn [swap_nd shp dat].
  rewrite Hs. replace (ndim a - 1) with (length sh) by lia. rewrite (swapl_comm k), swapl_insert_end by auto.
  rewrite last_snoc. cbn [Nat.eqb]. rewrite removelast_snoc. eexists. split; [reflexivity|]. split; [reflexivity|].
  intros pre Lp. cbn [dat]. unfold quat_at, quat_along. cbn [dat swap_nd]. rewrite <- Lp. rewrite !swapl_mvl by lia. reflexivity.
Qed.
Lemma from_quat_ok q qaxis k sh : shp q = mvl k sh -> k <= length sh -> norm_axis qaxis (S (length sh)) = Ok k ->
  exists d, from_quat q qaxis = Ok d /\ shp d = insert_at k 4 sh /\
    forall pre, length pre = length sh -> quat_along d k pre = dat q (mvl k pre).
Proof.
  intros Hs Hk Hax. unfold from_quat, swapaxes.
  assert (Nf : ndim (as_float q) = S (length sh)).
  { unfold ndim, as_float. cbn [shp]. rewrite Hs, app_length, length_mvl by auto. simpl. lia. }
  rewrite Nf, Hax, norm_axis_last by lia. cbn [bind]. replace (S (length sh) - 1) with (length sh) by lia.
  eexists. split; [reflexivity|]. cbn [swap_nd shp dat as_float]. split.
  - rewrite Hs, swapl_comm. apply swapl_mvl; auto.
  - intros pre Lp. unfold quat_along. cbn [dat swap_nd as_float]. rewrite <- Lp.
    rewrite !swapl_insert_end, !last_snoc, !removelast_snoc by lia. cbn [comp4]. destruct (dat q (mvl k pre)); reflexivity.
Qed.

Lemma traverse_all_ok {A B} (f : A -> res B) l : (forall x, In x l -> exists y, f x = Ok y) -> exists l', traverse f l = Ok l'.
Proof.
  unfold traverse. induction l as [|x l IH]; intros H; simpl; [eauto|].
  destruct (H x) as (y & ->); [left; auto|]. destruct IH as (l' & ->); [intros; apply H; right; auto|]. simpl. eauto.
Qed.
Lemma map_res_ok {A B} (f : A -> res B) d a (g : A -> B) : (forall ix, valid (shp a) ix -> f (dat a ix) = Ok (g (dat a ix))) ->
  exists b, map_res f d a = Ok b /\ shp b = shp a /\ forall ix, valid (shp a) ix -> dat b ix = g (dat a ix).
Proof.
  intros H. unfold map_res. destruct (traverse_all_ok (fun ix => f (dat a ix)) (indices (shp a))) as (l & ->).
  { intros ix Hi. apply in_indices in Hi. eauto. }
  cbn [bind]. eexists. split; [reflexivity|]. split; [reflexivity|]. intros ix Hi. cbn [dat]. rewrite H by auto. reflexivity.
Qed.

Lemma op2_same {A B C} (f : A -> B -> C) a b sh : shp a = sh -> shp b = sh ->
  exists c, op2 f a b = Ok c /\ shp c = sh /\ forall ix, valid sh ix -> dat c ix = f (dat a ix) (dat b ix).
Proof.
  intros Ha Hb. destruct (op2_ok f a b) as (c & E & S & D); rewrite ?Ha, ?Hb; auto; [apply axes_match_refl|].
  exists c. split; auto. split; [rewrite S, Ha, Hb; apply bs_refl|]. intros ix Hi.
  rewrite D by (rewrite Ha; apply (valid_length _ _ Hi)). rewrite Ha, Hb, zb_valid by auto. reflexivity.
Qed.
Lemma hprod_app l l' : hprod (l ++ l') = hmul (hprod l) (hprod l').
Proof. induction l as [|q l IH]; simpl; [rewrite hmul_1_l; auto|]. rewrite IH. symmetry. apply hmul_assoc. Qed.
Lemma reduce_from l sh acc : shp acc = sh -> Forall (fun q => shp q = sh) l ->
  exists m, foldM (fun acc q => op2 qmulq acc q) l acc = Ok m /\ shp m = sh /\
    forall ix, valid sh ix -> dat m ix = hmul (dat acc ix) (hprod (map (fun q => dat q ix) l)).
Proof.
  revert acc; induction l as [|q l IH]; intros acc Ha Hf; simpl.
  - exists acc. split; auto. split; auto. intros. rewrite hmul_1_r. reflexivity.
  - inversion Hf; subst. destruct (op2_same qmulq acc q (shp acc)) as (c & E & Sc & D); auto. rewrite E. cbn [bind].
    destruct (IH c Sc) as (m & Em & Sm & Dm); auto. exists m. split; auto. split; auto. intros ix Hi.
    rewrite Dm, D, qmulq_hmul, hmul_assoc by auto. reflexivity.
Qed.
Lemma reduce_ok l sh : l <> [] -> Forall (fun q => shp q = sh) l ->
  exists m, reduce_mul l = Ok m /\ shp m = sh /\ forall ix, valid sh ix -> dat m ix = hprod (map (fun q => dat q ix) l).
Proof.
  intros Hn Hf. destruct l as [|q l]; [congruence|]. unfold reduce_mul. cbn [foldM].
  inversion Hf; subst. destruct (op2_scalar_l qmulq q1 q) as (c & E & Sc & D). rewrite E. cbn [bind].
  destruct (reduce_from l (shp q) c Sc) as (m & Em & Sm & Dm); auto. exists m. split; auto. split; auto. intros ix Hi.
  rewrite Dm by auto. simpl. rewrite D by (apply (valid_length _ _ Hi)). rewrite zb_valid by auto. rewrite qmulq_hmul.
  change q1 with hone. rewrite hmul_1_l. reflexivity.
Qed.
Lemma forallb_quat l : forallb (fun q => negb (is_quat q)) (map QQ l) = match l with [] => true | _ => false end.
Proof. destruct l; reflexivity. Qed.
Lemma forallb_quat' l : forallb is_quat (map QQ l) = true.
Proof. induction l; simpl; auto. Qed.
Lemma quats_of_map l : quats_of (map QQ l) = l.
Proof. unfold quats_of. induction l; simpl; auto. rewrite IHl. reflexivity. Qed.
Lemma floats_of_map l : floats_of (map QF l) = l.
Proof. unfold floats_of. induction l; simpl; auto. rewrite IHl. reflexivity. Qed.
Lemma forallb_float l : forallb (fun q => negb (is_quat q)) (map QF l) = true.
Proof. induction l; simpl; auto. Qed.
