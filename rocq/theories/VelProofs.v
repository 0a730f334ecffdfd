(** Lemmas about numpy.gradient and boolean-mask resampling. *)
From Coq Require Import Reals List Arith Bool ZArith Lia Lra.
From Verif Require Import Base Quat SpecQuat QuatProofs NdArray Frames Matcher SpecLookup MovingProofs TimeProofs
  Transform SpecArray NdProofs PropRotate Velocity.
Import ListNotations.
Open Scope R_scope.

(* ---- setn ---- *)
Lemma length_setn k x l : List.length (setn k x l) = List.length l.
Proof. revert k; induction l as [|y l IH]; intros [|k]; simpl; auto. Qed.
Lemma setn_insert k x y l : (k <= List.length l)%nat -> setn k x (insert_at k y l) = insert_at k x l.
Proof.
  revert k; induction l as [|z l IH]; intros [|k] H; simpl in *; auto; try lia. rewrite IH by lia. reflexivity.
Qed.
Lemma nth_setn_same k x l : (k < List.length l)%nat -> nth k (setn k x l) O = x.
Proof. revert k; induction l as [|z l IH]; intros [|k] H; simpl in *; auto; try lia. apply IH. lia. Qed.
Lemma nth_setn_other k x l j : j <> k -> nth j (setn k x l) O = nth j l O.
Proof. revert k j; induction l as [|z l IH]; intros [|k] [|j] H; simpl in *; auto; try lia. Qed.

(* ---- increasing ---- *)
Lemma inc_nth ts i j : increasing ts -> (i < j < List.length ts)%nat -> nth i ts 0 < nth j ts 0.
Proof.
  intros H Hij. apply (H i j); [lia| |]; apply nth_error_nth'; lia.
Qed.
Lemma length_diffs ts : List.length (diffs ts) = (List.length ts - 1)%nat.
Proof.
  induction ts as [|a ts IH]; [reflexivity|]. destruct ts as [|b ts]; [reflexivity|].
  change (S (List.length (diffs (b :: ts))) = (List.length (a :: b :: ts) - 1)%nat). rewrite IH. simpl. lia.
Qed.
Lemma nth_diffs ts i : (S i < List.length ts)%nat -> nth i (diffs ts) 0 = nth (S i) ts 0 - nth i ts 0.
Proof.
  revert i; induction ts as [|a ts IH]; intros i H; [simpl in H; lia|]. destruct ts as [|b ts]; [simpl in H; lia|].
  change (diffs (a :: b :: ts)) with ((b - a) :: diffs (b :: ts)). destruct i as [|i]; [reflexivity|].
  change (nth i (diffs (b :: ts)) 0 = nth (S i) (b :: ts) 0 - nth i (b :: ts) 0). apply IH. simpl in *. lia.
Qed.
Lemma diffs_pos ts d : increasing ts -> In d (diffs ts) -> 0 < d.
Proof.
  intros Hi Hd. apply (In_nth _ _ 0) in Hd as (i & Hl & <-). rewrite length_diffs in Hl.
  rewrite nth_diffs by lia. pose proof (inc_nth ts i (S i) Hi ltac:(lia)). lra.
Qed.
Lemma uniform_nth ts i : uniform ts = true -> (S i < List.length ts)%nat ->
  nth (S i) ts 0 - nth i ts 0 = nth 1 ts 0 - nth 0 ts 0.
Proof.
  intros Hu Hi. rewrite <- !nth_diffs by lia. unfold uniform in Hu.
  pose proof (length_diffs ts) as Hl. destruct (diffs ts) as [|a l] eqn:E; [simpl in Hl; lia|].
  destruct i as [|i]; [reflexivity|]. change (nth i l 0 = a). rewrite forallb_forall in Hu.
  assert (Hi' : In (nth i l 0) l) by (apply nth_In; simpl in Hl; lia).
  apply Hu in Hi'. apply Req_b_true in Hi'. auto.
Qed.
Lemma grad_check_ok ts : increasing ts -> (2 <= List.length ts)%nat -> grad_check ts (List.length ts) = Ok tt.
Proof.
  intros Hi H2. unfold grad_check. rewrite Nat.eqb_refl. cbn [negb].
  replace (Nat.ltb (List.length ts) 2) with false by (symmetry; apply Nat.ltb_ge; lia).
  replace (existsb _ (diffs ts)) with false.
  2:{ symmetry. apply not_true_is_false. intros H. apply existsb_exists in H as (d & Hd & E). apply Req_b_true in E.
      pose proof (diffs_pos ts d Hi Hd). lra. }
  replace (existsb _ (combine _ _)) with false; [reflexivity|].
  symmetry. apply not_true_is_false. intros H. apply existsb_exists in H as ((a,b) & Hd & E). apply Req_b_true in E. simpl in E.
  pose proof (in_combine_l _ _ _ _ Hd) as Ha. pose proof (in_combine_r _ _ _ _ Hd) as Hb.
  assert (Hb' : In b (diffs ts)) by (destruct (diffs ts); [destruct Hb|right; exact Hb]).
  pose proof (diffs_pos ts a Hi Ha). pose proof (diffs_pos ts b Hi Hb'). lra.
Qed.

(** The gradient of a line is its slope, at every sample; of a parabola the slope at
    the inner samples. *)
Lemma grad_line ts f p v i : increasing ts -> (2 <= List.length ts)%nat -> (i < List.length ts)%nat ->
  (forall m, (m < List.length ts)%nat -> f m = p + v * nth m ts 0) -> grad_at ts f i = v.
Proof.
  intros Hi H2 Hlt Hf. unfold grad_at.
  assert (Hs : forall m, (S m < List.length ts)%nat -> nth m ts 0 < nth (S m) ts 0) by (intros m Hm; apply inc_nth; auto; lia).
  destruct (Nat.eqb i 0) eqn:E0.
  { rewrite !Hf by lia. pose proof (Hs 0%nat ltac:(lia)). field. lra. }
  apply Nat.eqb_neq in E0. destruct i as [|i]; [lia|]. replace (S i - 1)%nat with i by lia.
  pose proof (Hs i ltac:(lia)) as H1.
  destruct (Nat.eqb (S (S i)) (List.length ts)) eqn:E1.
  { rewrite !Hf by lia. field. lra. }
  apply Nat.eqb_neq in E1. pose proof (Hs (S i) ltac:(lia)) as H3.
  destruct (uniform ts) eqn:EU.
  - pose proof (uniform_nth ts i EU ltac:(lia)) as U1. pose proof (uniform_nth ts (S i) EU ltac:(lia)) as U2.
    rewrite !Hf by lia. rewrite <- U1.
    replace (p + v * nth (S (S i)) ts 0 - (p + v * nth i ts 0)) with (v * (2 * (nth (S i) ts 0 - nth i ts 0)))
      by (replace (nth (S (S i)) ts 0) with (nth (S i) ts 0 + (nth (S i) ts 0 - nth i ts 0)) by lra; ring).
    field. lra.
  - rewrite !Hf by lia. field. lra.
Qed.
Lemma grad_parabola ts f p v a i : increasing ts -> (0 < i)%nat -> (S i < List.length ts)%nat ->
  (forall m, (m < List.length ts)%nat -> f m = p + v * nth m ts 0 + a / 2 * (nth m ts 0 * nth m ts 0)) ->
  grad_at ts f i = v + a * nth i ts 0.
Proof.
  intros Hi H0 Hlt Hf. unfold grad_at.
  assert (Hs : forall m, (S m < List.length ts)%nat -> nth m ts 0 < nth (S m) ts 0) by (intros m Hm; apply inc_nth; auto; lia).
  replace (Nat.eqb i 0) with false by (symmetry; apply Nat.eqb_neq; lia).
  replace (Nat.eqb (S i) (List.length ts)) with false by (symmetry; apply Nat.eqb_neq; lia).
  destruct i as [|i]; [lia|]. replace (S i - 1)%nat with i by lia.
  pose proof (Hs i ltac:(lia)) as H1. pose proof (Hs (S i) ltac:(lia)) as H3.
  destruct (uniform ts) eqn:EU.
  - pose proof (uniform_nth ts i EU ltac:(lia)) as U1. pose proof (uniform_nth ts (S i) EU ltac:(lia)) as U2.
    rewrite !Hf by lia. rewrite <- U1 in *.
    replace (nth (S (S i)) ts 0) with (2 * nth (S i) ts 0 - nth i ts 0) by lra.
    field. lra.
  - rewrite !Hf by lia. field. lra.
Qed.

(* ---- masks ---- *)
Lemma combine_seq {A B} (l1 : list A) (l2 : list B) d1 d2 : List.length l1 = List.length l2 ->
  combine l1 l2 = map (fun i => (nth i l1 d1, nth i l2 d2)) (seq 0 (List.length l2)).
Proof.
  intros H. apply (nth_ext _ _ (d1, d2) (d1, d2)).
  - rewrite combine_length, map_length, seq_length. lia.
  - intros n Hn. rewrite combine_length in Hn. rewrite combine_nth by auto.
    rewrite (nth_indep (map _ _) (d1,d2) ((fun i => (nth i l1 d1, nth i l2 d2)) O)) by (rewrite map_length, seq_length; lia).
    rewrite (map_nth (fun i => (nth i l1 d1, nth i l2 d2))), seq_nth by lia. reflexivity.
Qed.
Lemma filter_map {A B} (f : A -> B) (g : B -> bool) l : filter g (map f l) = map f (filter (fun x => g (f x)) l).
Proof. induction l as [|a l IH]; simpl; [reflexivity|]. destruct (g (f a)); simpl; rewrite IH; reflexivity. Qed.
Definition kept_idx (thresh : R) (fl : list R) : list nat :=
  filter (fun i => Rle_b (nth i fl 0) thresh) (seq 0 (List.length fl)).
Lemma keep_idx {A} thresh fl (l : list A) d : List.length fl = List.length l ->
  keep thresh fl l = map (fun i => nth i l d) (kept_idx thresh fl).
Proof.
  intros H. unfold keep, kept_idx. rewrite (combine_seq fl l 0 d H), filter_map, map_map. rewrite H. reflexivity.
Qed.
Lemma kept_in thresh fl i : In i (kept_idx thresh fl) <-> (i < List.length fl)%nat /\ nth i fl 0 <= thresh.
Proof. unfold kept_idx. rewrite filter_In, in_seq, Rle_b_true. intuition lia. Qed.
Lemma sorted_filter_seq (f : nat -> bool) n m i j a b : (i < j)%nat ->
  nth_error (filter f (seq n m)) i = Some a -> nth_error (filter f (seq n m)) j = Some b -> (a < b)%nat.
Proof.
  revert n i j; induction m as [|m IH]; intros n i j Hij Ha Hb; simpl in *; [destruct i; discriminate|].
  destruct (f n) eqn:E.
  - destruct j as [|j]; [lia|]. destruct i as [|i]; simpl in *.
    + injection Ha as <-. apply nth_error_In in Hb. apply filter_In in Hb as (Hb & _). apply in_seq in Hb. lia.
    + apply (IH (S n) i j); auto. lia.
  - apply (IH (S n) i j); auto.
Qed.
Lemma kept_sorted thresh fl i j a b : (i < j)%nat ->
  nth_error (kept_idx thresh fl) i = Some a -> nth_error (kept_idx thresh fl) j = Some b -> (a < b)%nat.
Proof. apply sorted_filter_seq. Qed.
(** Consecutive kept samples are consecutive in the list. *)
Lemma kept_next thresh fl l r : In l (kept_idx thresh fl) -> In r (kept_idx thresh fl) -> (l < r)%nat ->
  (forall m, (l < m < r)%nat -> ~ In m (kept_idx thresh fl)) ->
  exists j, nth_error (kept_idx thresh fl) j = Some l /\ nth_error (kept_idx thresh fl) (S j) = Some r.
Proof.
  intros Hl Hr Hlr Hno. apply In_nth_error in Hl as (j & Hj). apply In_nth_error in Hr as (k & Hk).
  exists j. split; auto.
  assert (Hjk : (j < k)%nat).
  { destruct (Nat.lt_trichotomy j k) as [H|[H|H]]; auto; [subst k; rewrite Hj in Hk; injection Hk; lia|].
    pose proof (kept_sorted _ _ _ _ _ _ H Hk Hj). lia. }
  destruct (Nat.eq_dec k (S j)) as [->|Hne]; auto. exfalso.
  destruct (nth_len (kept_idx thresh fl) (S j)) as (m & Hm); [apply nth_lt in Hk; lia|].
  pose proof (kept_sorted _ _ j (S j) _ _ ltac:(lia) Hj Hm). pose proof (kept_sorted _ _ (S j) k _ _ ltac:(lia) Hm Hk).
  apply (Hno m); [lia|]. eapply nth_error_In; eauto.
Qed.
Lemma nth_error_map_nth {A} (l : list A) d K j i : nth_error K j = Some i -> nth_error (map (fun i => nth i l d) K) j = Some (nth i l d).
Proof. intros H. rewrite nth_error_map, H. reflexivity. Qed.
Lemma kept_increasing thresh fl ts : increasing ts -> List.length fl = List.length ts ->
  increasing (map (fun i => nth i ts 0) (kept_idx thresh fl)).
Proof.
  intros Hi Hl j k a b Hjk Ha Hb. rewrite nth_error_map in Ha, Hb.
  destruct (nth_error (kept_idx thresh fl) j) as [a'|] eqn:Ea; [|discriminate].
  destruct (nth_error (kept_idx thresh fl) k) as [b'|] eqn:Eb; [|discriminate].
  simpl in *. injection Ha as <-. injection Hb as <-.
  pose proof (kept_sorted _ _ _ _ _ _ Hjk Ea Eb). apply inc_nth; auto. split; auto.
  apply nth_error_In, kept_in in Eb. lia.
Qed.

Lemma inc_in_bounds xs i a x j b : increasing xs -> nth_error xs i = Some a -> nth_error xs j = Some b -> a <= x <= b -> in_bounds xs x = true.
Proof.
  intros Hi Ha Hb Hx. apply in_bounds_spec.
  destruct (nth_len xs 0) as (f & Hf); [apply nth_lt in Ha; lia|].
  destruct (nth_len xs (List.length xs - 1)) as (l & Hl); [apply nth_lt in Ha; lia|].
  exists f, l. split; [destruct xs; auto|]. split; auto. split.
  - destruct i as [|i]; [assert (f = a) by congruence; lra|]. pose proof (Hi 0%nat (S i) _ _ ltac:(lia) Hf Ha). lra.
  - pose proof (nth_lt _ _ _ Hb). destruct (Nat.eq_dec j (List.length xs - 1)) as [E|E]; [subst j; assert (l = b) by congruence; lra|].
    pose proof (Hi j (List.length xs - 1)%nat _ _ ltac:(lia) Hb Hl). lra.
Qed.

(** interp_keep at a grid point and between two neighbouring grid points. *)
Lemma interp_keep_at xs ys i x u : increasing xs -> (2 <= List.length xs)%nat -> List.length ys = List.length xs ->
  nth_error xs i = Some x -> nth_error ys i = Some u -> interp_keep xs ys x = Some u.
Proof.
  intros Hi H2 Hl Hx Hu. unfold interp_keep. rewrite (inc_in_bounds xs i x x i x) by (auto; lra).
  destruct (interp1d_ok xs ys [x] Hi H2 Hl) as (rows & E & _ & H & _).
  { intros y [<-|[]]. apply (inc_in_bounds xs i x x i x); auto; lra. }
  unfold interp1d in E. cbn [forallb] in E. rewrite (inc_in_bounds xs i x x i x) in E by (auto; lra). cbn in E.
  destruct (interp_at lin_vec xs ys x) as [v|]; [|discriminate]. cbn in E. injection E as <-.
  exact (H 0%nat x i u eq_refl Hx Hu).
Qed.
Lemma interp_keep_between xs ys i a b x u v : increasing xs -> (2 <= List.length xs)%nat -> List.length ys = List.length xs ->
  nth_error xs i = Some a -> nth_error xs (S i) = Some b -> a <= x <= b ->
  nth_error ys i = Some u -> nth_error ys (S i) = Some v -> interp_keep xs ys x = Some (between a b u v x).
Proof.
  intros Hi H2 Hl Ha Hb Hx Hu Hv. unfold interp_keep.
  assert (HB : in_bounds xs x = true) by (apply (inc_in_bounds xs i a x (S i) b); auto). rewrite HB.
  destruct (interp1d_ok xs ys [x] Hi H2 Hl) as (rows & E & _ & _ & H).
  { intros y [<-|[]]. auto. }
  unfold interp1d in E. cbn [forallb] in E. rewrite HB in E. cbn in E.
  destruct (interp_at lin_vec xs ys x) as [w|]; [|discriminate]. cbn in E. injection E as <-.
  exact (H 0%nat x i a b u v eq_refl Ha Hb Hx Hu Hv).
Qed.

(* ---- flags ---- *)
Lemma length_diff2 rows : List.length (diff2 rows) = (List.length rows - 2)%nat.
Proof.
  induction rows as [|a rows IH]; [reflexivity|]. destruct rows as [|b rows]; [reflexivity|]. destruct rows as [|c rows]; [reflexivity|].
  change (S (List.length (diff2 (b :: c :: rows))) = (List.length (a :: b :: c :: rows) - 2)%nat). rewrite IH. simpl. lia.
Qed.
Lemma nth_diff2 rows i : (S (S i) < List.length rows)%nat ->
  nth i (diff2 rows) 0 = vnorm (vsub (vsub (nth (S (S i)) rows v0) (nth (S i) rows v0)) (vsub (nth (S i) rows v0) (nth i rows v0))).
Proof.
  revert i; induction rows as [|a rows IH]; intros i H; [simpl in H; lia|]. destruct rows as [|b rows]; [simpl in H; lia|].
  destruct rows as [|c rows]; [simpl in H; lia|].
  change (diff2 (a :: b :: c :: rows)) with (vnorm (vsub (vsub c b) (vsub b a)) :: diff2 (b :: c :: rows)).
  destruct i as [|i]; [reflexivity|]. change (nth (S i) (?x :: ?l) 0) with (nth i l 0). rewrite IH by (simpl in *; lia). reflexivity.
Qed.
Lemma nth_flags d i : (i < 2 + List.length d)%nat ->
  nth i (flags d) 0 = (if Nat.ltb i (List.length d) then nth i d 0 else 0) +
                      (if Nat.eqb i 0 then 0 else if Nat.leb i (List.length d) then nth (i - 1) d 0 else 0).
Proof.
  intros H. unfold flags. rewrite (combine_seq (d ++ [0;0]) (0 :: d ++ [0]) 0 0) by (simpl; rewrite !app_length; simpl; lia).
  rewrite map_map. rewrite (nth_indep _ 0 ((fun x => fst (nth x (d ++ [0; 0]) 0, nth x (0 :: d ++ [0]) 0) + snd (nth x (d ++ [0; 0]) 0, nth x (0 :: d ++ [0]) 0)) 0%nat))
    by (rewrite map_length, seq_length; simpl; rewrite app_length; simpl; lia).
  rewrite (map_nth (fun x => fst (nth x (d ++ [0; 0]) 0, nth x (0 :: d ++ [0]) 0) + snd (nth x (d ++ [0; 0]) 0, nth x (0 :: d ++ [0]) 0))).
  rewrite seq_nth by (simpl; rewrite app_length; simpl; lia). cbn [Nat.add fst snd]. f_equal.
  - destruct (Nat.ltb_spec i (List.length d)); [apply app_nth1; auto|].
    rewrite app_nth2 by lia. destruct (i - List.length d)%nat as [|[|n]] eqn:E; auto. lia.
  - destruct i as [|i]; [reflexivity|]. cbn [Nat.eqb nth]. replace (S i - 1)%nat with i by lia.
    destruct (Nat.leb_spec (S i) (List.length d)); [apply app_nth1; lia|].
    rewrite app_nth2 by lia. destruct (i - List.length d)%nat as [|n] eqn:E; auto. lia.
Qed.
Lemma length_flags d : List.length (flags d) = (2 + List.length d)%nat.
Proof. unfold flags. rewrite map_length, combine_length. simpl. rewrite !app_length. simpl. lia. Qed.
