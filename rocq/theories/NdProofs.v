(** Index arithmetic of arrays: swaps, insertion of an axis, broadcasting. *)
From Coq Require Import Reals List Arith Bool ZArith Lia Lra.
From Verif Require Import Base Quat SpecQuat QuatProofs NdArray Frames Matcher Transform SpecArray.
Import ListNotations.
Open Scope nat_scope.

(* ---- axes ---- *)
Lemma norm_axis_ok a n k : norm_axis a n = Ok k ->
  k < n /\ (a = Z.of_nat k \/ a = (Z.of_nat k - Z.of_nat n)%Z).
Proof.
  unfold norm_axis. destruct ((a <? - Z.of_nat n)%Z || (Z.of_nat n <=? a)%Z) eqn:E; [discriminate|].
  apply orb_false_iff in E as (E1 & E2). apply Z.ltb_ge in E1. apply Z.leb_gt in E2.
  intros H. injection H as <-. destruct (Z.ltb_spec a 0); lia.
Qed.
Lemma norm_axis_pos k n : k < n -> norm_axis (Z.of_nat k) n = Ok k.
Proof.
  intros H. unfold norm_axis.
  replace ((Z.of_nat k <? - Z.of_nat n)%Z || (Z.of_nat n <=? Z.of_nat k)%Z) with false.
  - destruct (Z.ltb_spec (Z.of_nat k) 0); [lia|]. rewrite Nat2Z.id. reflexivity.
  - symmetry. apply orb_false_iff. split; [apply Z.ltb_ge|apply Z.leb_gt]; lia.
Qed.
Lemma norm_axis_neg k n : k < n -> norm_axis (Z.of_nat k - Z.of_nat n) n = Ok k.
Proof.
  intros H. unfold norm_axis.
  replace ((Z.of_nat k - Z.of_nat n <? - Z.of_nat n)%Z || (Z.of_nat n <=? Z.of_nat k - Z.of_nat n)%Z) with false.
  - destruct (Z.ltb_spec (Z.of_nat k - Z.of_nat n) 0); [|lia]. f_equal. lia.
  - symmetry. apply orb_false_iff. split; [apply Z.ltb_ge|apply Z.leb_gt]; lia.
Qed.
Lemma norm_axis_last n : 0 < n -> norm_axis (-1) n = Ok (n - 1).
Proof. intros H. replace (-1)%Z with (Z.of_nat (n - 1) - Z.of_nat n)%Z by lia. apply norm_axis_neg. lia. Qed.

(* ---- lists ---- *)
Lemma list_nth_ext (l l' : list nat) : length l = length l' -> (forall k, k < length l -> nth k l 0 = nth k l' 0) -> l = l'.
Proof. intros H1 H2. apply (List.nth_ext l l' 0 0); auto. Qed.

Lemma length_swapl i j l : length (swapl i j l) = length l.
Proof. unfold swapl. rewrite map_length, seq_length. reflexivity. Qed.
Lemma nth_swapl i j l k : k < length l -> nth k (swapl i j l) 0 = nth (transp i j k) l 0.
Proof.
  intros H. unfold swapl.
  rewrite nth_indep with (d' := nth (transp i j 0) l 0); [|rewrite map_length, seq_length; auto].
  rewrite (map_nth (fun k => nth (transp i j k) l 0) (seq 0 (length l)) 0 k). rewrite seq_nth by auto. reflexivity.
Qed.
Lemma transp_lt i j k n : i < n -> j < n -> k < n -> transp i j k < n.
Proof. unfold transp. intros. destruct (Nat.eqb k i); auto. destruct (Nat.eqb k j); auto. Qed.
Lemma transp_invol i j k : transp i j (transp i j k) = k.
Proof.
  unfold transp. destruct (Nat.eqb_spec k i) as [->|Ki].
  - destruct (Nat.eqb_spec j i) as [->|Ji]; auto. rewrite Nat.eqb_refl. reflexivity.
  - destruct (Nat.eqb_spec k j) as [->|Kj].
    + rewrite Nat.eqb_refl. reflexivity.
    + apply Nat.eqb_neq in Ki. apply Nat.eqb_neq in Kj. rewrite Ki, Kj. reflexivity.
Qed.
Lemma swapl_invol i j l : i < length l -> j < length l -> swapl i j (swapl i j l) = l.
Proof.
  intros Hi Hj. apply list_nth_ext; [rewrite !length_swapl; auto|]. intros k Hk. rewrite !length_swapl in Hk.
  rewrite nth_swapl by (rewrite length_swapl; auto). rewrite nth_swapl by (apply transp_lt; auto).
  rewrite transp_invol. reflexivity.
Qed.
Lemma swapl_same i l : swapl i i l = l.
Proof.
  apply list_nth_ext; [apply length_swapl|]. intros k Hk. rewrite length_swapl in Hk. rewrite nth_swapl by auto.
  unfold transp. destruct (Nat.eqb_spec k i); subst; reflexivity.
Qed.
Lemma swapl_comm i j l : swapl i j l = swapl j i l.
Proof.
  apply list_nth_ext; [rewrite !length_swapl; auto|]. intros k Hk. rewrite length_swapl in Hk. rewrite !nth_swapl by auto.
  unfold transp. destruct (Nat.eqb_spec k i); destruct (Nat.eqb_spec k j); subst; reflexivity.
Qed.

Lemma valid_nth s ix : valid s ix <-> length ix = length s /\ forall k, k < length s -> nth k ix 0 < nth k s 0.
Proof.
  unfold valid. split.
  - intros H. split; [apply (valid_length _ _ H)|]. induction H as [|i n ix s Hi H IH]; intros k Hk; simpl in *; [lia|].
    destruct k; auto. apply IH. lia.
  - revert ix; induction s as [|n s IH]; intros [|i ix] (Hl & H); try discriminate; constructor.
    + apply (H 0). simpl; lia.
    + apply IH. split; [simpl in Hl; lia|]. intros k Hk. apply (H (S k)). simpl; lia.
Qed.
Lemma valid_swapl s ix i j : i < length s -> j < length s -> valid s ix -> valid (swapl i j s) (swapl i j ix).
Proof.
  intros Hi Hj H. apply valid_nth in H as (Hl & H). apply valid_nth. rewrite !length_swapl. split; auto.
  intros k Hk. rewrite !nth_swapl by lia. apply H. apply transp_lt; auto.
Qed.
Lemma valid_swapl_inv s ix i j : i < length s -> j < length s -> valid (swapl i j s) ix -> valid s (swapl i j ix).
Proof.
  intros Hi Hj H. pose proof (valid_length _ _ H) as Hl. rewrite length_swapl in Hl.
  rewrite <- (swapl_invol i j s) by auto. apply valid_swapl; auto; rewrite length_swapl; auto.
Qed.
Lemma valid_app s t ix jx : valid s ix -> valid t jx -> valid (s ++ t) (ix ++ jx).
Proof. apply Forall2_app. Qed.

(* insertion *)
Lemma length_insert k x l : k <= length l -> length (insert_at k x l) = S (length l).
Proof. revert k; induction l as [|a l IH]; intros [|k] H; simpl in *; auto; try lia. rewrite IH; lia. Qed.
Lemma remove_insert k x l : k <= length l -> remove_at k (insert_at k x l) = l.
Proof. revert k; induction l as [|a l IH]; intros [|k] H; simpl in *; auto; try lia. f_equal. apply IH; lia. Qed.
Lemma nth_insert k x l : k <= length l -> nth k (insert_at k x l) 0 = x.
Proof. revert k; induction l as [|a l IH]; intros [|k] H; simpl in *; auto; try lia. apply IH; lia. Qed.
Lemma insert_remove k l : k < length l -> insert_at k (nth k l 0) (remove_at k l) = l.
Proof. revert k; induction l as [|a l IH]; intros [|k] H; simpl in *; auto; try lia. f_equal. apply IH; lia. Qed.
Lemma length_remove k l : k < length l -> length (remove_at k l) = length l - 1.
Proof. revert k; induction l as [|a l IH]; intros [|k] H; simpl in *; auto; try lia. rewrite IH by lia. lia. Qed.
Lemma insert_end x l : insert_at (length l) x l = l ++ [x].
Proof. induction l as [|a l IH]; simpl; auto. f_equal. auto. Qed.
Lemma valid_insert k s ix n c : k <= length s -> valid s ix -> c < n -> valid (insert_at k n s) (insert_at k c ix).
Proof.
  intros Hk H. revert k Hk. induction H as [|i m ix s Hi H IH]; intros k Hk Hc.
  - simpl in Hk. destruct k; [|lia]. simpl. constructor; auto.
  - destruct k; simpl.
    + constructor; auto.
    + constructor; auto. apply IH; auto. simpl in Hk. lia.
Qed.
Lemma valid_remove k s ix : k < length s -> valid s ix -> valid (remove_at k s) (remove_at k ix).
Proof.
  intros Hk H. revert k Hk. induction H as [|i m ix s Hi H IH]; intros k Hk; simpl in Hk; [lia|].
  destruct k; simpl; auto. constructor; auto. apply IH. lia.
Qed.

(* ---- broadcasting between lists of the same length ---- *)
Lemma length_bs s t : length s = length t -> length (bs s t) = length s.
Proof. revert t; induction s; intros [|b t] H; simpl in *; try discriminate; auto. Qed.
Lemma length_zb s t : length s = length t -> length (zb s t) = length s.
Proof. revert t; induction s; intros [|b t] H; simpl in *; try discriminate; auto. Qed.
Lemma bs_app s t u v : length s = length t -> bs (s ++ u) (t ++ v) = bs s t ++ bs u v.
Proof. revert t; induction s; intros [|b t] H; simpl in *; try discriminate; auto. f_equal. auto. Qed.
Lemma zb_app s t u v : length s = length t -> zb (s ++ u) (t ++ v) = zb s t ++ zb u v.
Proof. revert t; induction s; intros [|b t] H; simpl in *; try discriminate; auto. f_equal. auto. Qed.
Lemma bs_rev s t : length s = length t -> bs (rev s) (rev t) = rev (bs s t).
Proof.
  revert t; induction s as [|a s IH]; intros [|b t] H; simpl in *; try discriminate; auto.
  rewrite bs_app by (rewrite !rev_length; lia). rewrite IH by lia. reflexivity.
Qed.
Lemma zb_rev s t : length s = length t -> zb (rev s) (rev t) = rev (zb s t).
Proof.
  revert t; induction s as [|a s IH]; intros [|b t] H; simpl in *; try discriminate; auto.
  rewrite zb_app by (rewrite !rev_length; lia). rewrite IH by lia. reflexivity.
Qed.
Lemma axes_match_app s t u v : length s = length t -> axes_match (s ++ u) (t ++ v) = axes_match s t && axes_match u v.
Proof. revert t; induction s; intros [|b t] H; simpl in *; try discriminate; auto. rewrite IHs by lia. rewrite andb_assoc. reflexivity. Qed.
Lemma axes_match_rev s t : length s = length t -> axes_match (rev s) (rev t) = axes_match s t.
Proof.
  revert t; induction s as [|a s IH]; intros [|b t] H; simpl in *; try discriminate; auto.
  rewrite axes_match_app by (rewrite !rev_length; lia). rewrite IH by lia. simpl. rewrite andb_true_r. apply andb_comm.
Qed.
Lemma brev_eq s t : length s = length t -> axes_match s t = true -> brev s t = Some (bs s t).
Proof.
  revert t; induction s as [|a s IH]; intros [|b t] H Hm; simpl in *; try discriminate; auto.
  apply andb_true_iff in Hm as (H1 & H2). rewrite IH by (auto; lia).
  destruct (Nat.eqb_spec a b); [subst; destruct (Nat.eqb b 1); reflexivity|].
  destruct (Nat.eqb_spec a 1); auto. destruct (Nat.eqb_spec b 1); auto. discriminate.
Qed.
Lemma bshape_eq s t : length s = length t -> axes_match s t = true -> bshape s t = Ok (bs s t).
Proof.
  intros H Hm. unfold bshape. rewrite brev_eq by (rewrite ?rev_length, ?axes_match_rev; auto).
  rewrite bs_rev by auto. rewrite rev_involutive. reflexivity.
Qed.
Lemma bixr_zb s ix : length s = length ix -> bixr s ix = zb s ix.
Proof. revert ix; induction s; intros [|b t] H; simpl in *; try discriminate; auto. f_equal. auto. Qed.
Lemma bix_zb s ix : length s = length ix -> bix s ix = zb s ix.
Proof.
  intros H. unfold bix. rewrite bixr_zb by (rewrite !rev_length; auto). rewrite zb_rev by auto. apply rev_involutive.
Qed.
(** Right alignment in general: only the last [length s] indices matter. *)
Lemma bixr_app s ix jx : length s = length ix -> bixr s (ix ++ jx) = zb s ix.
Proof. revert ix; induction s; intros [|b t] H; simpl in *; try discriminate; auto. f_equal. auto. Qed.
Lemma bix_suffix s pre ix : length s = length ix -> bix s (pre ++ ix) = zb s ix.
Proof.
  intros H. unfold bix. rewrite rev_app_distr. rewrite bixr_app by (rewrite !rev_length; auto).
  rewrite zb_rev by auto. apply rev_involutive.
Qed.
Lemma brev_longer s t u : length s = length t -> axes_match s t = true -> brev (s ++ u) t = Some (bs s t ++ u).
Proof.
  revert t; induction s as [|a s IH]; intros [|b t] H Hm; simpl in *; try discriminate.
  - destruct u; reflexivity.
  - apply andb_true_iff in Hm as (H1 & H2). rewrite IH by (auto; lia).
    destruct (Nat.eqb_spec a b); [subst; destruct (Nat.eqb b 1); reflexivity|].
    destruct (Nat.eqb_spec a 1); auto. destruct (Nat.eqb_spec b 1); auto. discriminate.
Qed.
Lemma bshape_longer u s t : length s = length t -> axes_match s t = true -> bshape (u ++ s) t = Ok (u ++ bs s t).
Proof.
  intros H Hm. unfold bshape. rewrite rev_app_distr. rewrite brev_longer by (rewrite ?rev_length, ?axes_match_rev; auto).
  rewrite bs_rev by auto. rewrite rev_app_distr, !rev_involutive. reflexivity.
Qed.

Lemma axes_match_refl s : axes_match s s = true.
Proof. induction s; simpl; auto. rewrite Nat.eqb_refl. auto. Qed.
Lemma bs_refl s : bs s s = s.
Proof. induction s as [|a s IH]; simpl; auto. rewrite IH. destruct (Nat.eqb a 1); reflexivity. Qed.
Lemma zb_valid s ix : valid s ix -> zb s ix = ix.
Proof.
  intros H. induction H as [|i n ix s Hi H IH]; simpl; auto. rewrite IH.
  destruct (Nat.eqb_spec n 1); auto. f_equal. lia.
Qed.
Lemma valid_zb s t ix : length s = length t -> axes_match s t = true -> valid (bs s t) ix ->
  valid s (zb s ix) /\ valid t (zb t ix).
Proof.
  revert t ix; induction s as [|a s IH]; intros [|b t] ix H Hm Hv; simpl in *; try discriminate.
  - inversion Hv. split; constructor.
  - apply andb_true_iff in Hm as (H1 & H2). inversion Hv as [|i n ix' s' Hi Hv']; subst.
    destruct (IH t ix' ltac:(lia) H2 Hv') as (V1 & V2). simpl. split; constructor; auto.
    + destruct (Nat.eqb_spec a 1); lia.
    + destruct (Nat.eqb_spec b 1); [lia|]. destruct (Nat.eqb_spec a 1); auto.
      destruct (Nat.eqb_spec a b); [lia|]. discriminate.
Qed.
Lemma axes_match_bs_l s t : length s = length t -> axes_match s t = true -> axes_match s (bs s t) = true.
Proof.
  revert t; induction s as [|a s IH]; intros [|b t] H Hm; simpl in *; try discriminate; auto.
  apply andb_true_iff in Hm as (H1 & H2). rewrite IH by (auto; lia). rewrite andb_true_r.
  destruct (Nat.eqb_spec a 1); subst.
  - rewrite orb_true_r. reflexivity.
  - rewrite Nat.eqb_refl. reflexivity.
Qed.
Lemma axes_match_bs_r s t : length s = length t -> axes_match s t = true -> axes_match t (bs s t) = true.
Proof.
  revert t; induction s as [|a s IH]; intros [|b t] H Hm; simpl in *; try discriminate; auto.
  apply andb_true_iff in Hm as (H1 & H2). rewrite IH by (auto; lia). rewrite andb_true_r.
  destruct (Nat.eqb_spec a 1); subst.
  - rewrite Nat.eqb_refl. reflexivity.
  - destruct (Nat.eqb_spec b a); auto. destruct (Nat.eqb_spec b 1); auto. simpl.
    destruct (Nat.eqb_spec a b); [lia|]. destruct (Nat.eqb_spec a 1); [lia|]. discriminate.
Qed.
Lemma bs_absorb_l s t : length s = length t -> axes_match s t = true -> bs s (bs s t) = bs s t.
Proof.
  revert t; induction s as [|a s IH]; intros [|b t] H Hm; simpl in *; try discriminate; auto.
  apply andb_true_iff in Hm as (H1 & H2). rewrite IH by (auto; lia). destruct (Nat.eqb a 1); auto.
Qed.
Lemma bs_absorb_r s t : length s = length t -> axes_match s t = true -> bs t (bs s t) = bs s t.
Proof.
  revert t; induction s as [|a s IH]; intros [|b t] H Hm; simpl in *; try discriminate; auto.
  apply andb_true_iff in Hm as (H1 & H2). rewrite IH by (auto; lia). f_equal.
  destruct (Nat.eqb_spec a 1); destruct (Nat.eqb_spec b 1); auto. destruct (Nat.eqb_spec a b); auto. discriminate.
Qed.
Lemma bs_comm s t : length s = length t -> axes_match s t = true -> bs s t = bs t s.
Proof.
  revert t; induction s as [|a s IH]; intros [|b t] H Hm; simpl in *; try discriminate; auto.
  apply andb_true_iff in Hm as (H1 & H2). rewrite IH by (auto; lia). f_equal.
  destruct (Nat.eqb_spec a 1); destruct (Nat.eqb_spec b 1); auto; [lia|]. destruct (Nat.eqb_spec a b); auto. discriminate.
Qed.
Lemma axes_match_comm s t : axes_match s t = axes_match t s.
Proof.
  revert t; induction s as [|a s IH]; intros [|b t]; simpl; auto. rewrite IH. f_equal.
  rewrite (Nat.eqb_sym a b). rewrite <- !orb_assoc. f_equal. apply orb_comm.
Qed.
Lemma zb_insert k n s c ix : length s = length ix -> k <= length s ->
  zb (insert_at k n s) (insert_at k c ix) = insert_at k (if Nat.eqb n 1 then 0 else c) (zb s ix).
Proof.
  revert k ix; induction s as [|a s IH]; intros [|k] [|i ix] H Hk; simpl in *; try discriminate; try lia; auto.
  f_equal. apply IH; lia.
Qed.
Lemma bs_insert k n m s t : length s = length t -> k <= length s ->
  bs (insert_at k n s) (insert_at k m t) = insert_at k (if Nat.eqb n 1 then m else n) (bs s t).
Proof.
  revert k t; induction s as [|a s IH]; intros [|k] [|i ix] H Hk; simpl in *; try discriminate; try lia; auto.
  f_equal. apply IH; lia.
Qed.
Lemma axes_match_insert k n m s t : length s = length t -> k <= length s ->
  axes_match (insert_at k n s) (insert_at k m t) = (Nat.eqb n m || Nat.eqb n 1 || Nat.eqb m 1) && axes_match s t.
Proof.
  revert k t; induction s as [|a s IH]; intros [|k] [|i ix] H Hk; simpl in *; try discriminate; try lia; auto.
  rewrite IH by lia. rewrite !andb_assoc. f_equal. apply andb_comm.
Qed.

Lemma valid_insert_inv k n s ix : k <= length s -> valid (insert_at k n s) ix ->
  exists c pre, ix = insert_at k c pre /\ c < n /\ valid s pre.
Proof.
  intros Hk H. pose proof (valid_length _ _ H) as Hl. rewrite length_insert in Hl by auto.
  exists (nth k ix 0), (remove_at k ix). split; [symmetry; apply insert_remove; lia|].
  pose proof H as H'. apply valid_nth in H' as (_ & H'). split.
  - specialize (H' k). rewrite length_insert in H' by auto. rewrite nth_insert in H' by auto. apply H'. lia.
  - rewrite <- (remove_insert k n s) by auto. apply valid_remove; auto. rewrite length_insert; auto. lia.
Qed.

Lemma agree_match s t : agree s t <-> length s = length t /\ axes_match s t = true.
Proof.
  unfold agree. split.
  - intros H. induction H as [|a b s t Hab H (IH1 & IH2)]; simpl; auto. split; [lia|]. rewrite IH2, andb_true_r.
    destruct Hab as [ -> | [ -> | -> ] ]; [rewrite Nat.eqb_refl; auto| |]; rewrite ?orb_true_r; auto.
  - revert t; induction s as [|a s IH]; intros [|b t] (H & Hm); simpl in *; try discriminate; constructor.
    + apply andb_true_iff in Hm as (Hm & _). destruct (Nat.eqb_spec a b); auto. destruct (Nat.eqb_spec a 1); auto.
      destruct (Nat.eqb_spec b 1); auto. discriminate.
    + apply IH. apply andb_true_iff in Hm as (_ & Hm). split; auto.
Qed.
Lemma put_insert k x l : k <= length l -> put k x l = insert_at k x l.
Proof. revert k; induction l as [|a l IH]; intros [|k] H; simpl in *; auto; try lia. f_equal. apply IH. lia. Qed.

(** swapaxes of a fresh last axis with axis k is the insertion of an axis at k. *)
Definition swap_is_insert (n k : nat) : Prop :=
  forall l x, length l = n - 1 -> swapl (n - 1) k (l ++ [x]) = insert_at k x l.
Lemma swap_is_insert_last n : 0 < n -> swap_is_insert n (n - 1).
Proof. intros H l x Hl. rewrite swapl_same, <- Hl. symmetry. apply insert_end. Qed.
Lemma insert_before_last x l y : insert_at (length l) x (l ++ [y]) = l ++ [x; y].
Proof. induction l as [|a l IH]; simpl; auto. f_equal. auto. Qed.
Lemma swap_is_insert_last2 n : 2 <= n -> swap_is_insert n (n - 2).
Proof.
  intros H l x Hl. destruct (exists_last (l := l)) as (l' & y & ->).
  { intros ->. simpl in Hl. lia. }
  rewrite app_length in Hl. simpl in Hl.
  replace (n - 2) with (length l') by lia. rewrite insert_before_last.
  apply list_nth_ext; [rewrite length_swapl, !app_length; simpl; lia|].
  intros m Hm. rewrite length_swapl in Hm. rewrite nth_swapl by auto. rewrite <- app_assoc in *. simpl in *.
  rewrite app_length in Hm. simpl in Hm. unfold transp.
  destruct (Nat.eqb_spec m (n - 1)) as [->|H1].
  - rewrite app_nth2 by lia. rewrite Nat.sub_diag. rewrite app_nth2 by lia. replace (n - 1 - length l') with 1 by lia. reflexivity.
  - destruct (Nat.eqb_spec m (length l')) as [->|H2].
    + rewrite app_nth2 by lia. rewrite app_nth2 by lia. replace (n - 1 - length l') with 1 by lia. rewrite Nat.sub_diag. reflexivity.
    + rewrite !app_nth1 by lia. reflexivity.
Qed.
