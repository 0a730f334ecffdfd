(** Lookups through moving frames. *)
From Coq Require Import Reals List String Arith Bool Lia Lra.
From Verif Require Import Base Quat SpecQuat QuatProofs NdArray Frames SpecForest
  FrameProofs WalkProofs Matcher SpecLookup LookupProofs RegistryProofs.
Import ListNotations.
Open Scope R_scope.

(* ---- constructed frames have as many rows as timestamps ---- *)
Definition rows_ok (d : tfdata) : Prop :=
  match d with
  | TStatic _ _ => True
  | TMoving ts t r _ => List.length t = List.length ts /\ List.length r = List.length ts
  end.
Definition BodyOk (s : state) : Prop := forall i d, transform_of s i = Some d -> rows_ok d.

Lemma arg_vecs_len a n l : arg_vecs a n = Ok l -> List.length l = match n with None => 1%nat | Some n => n end.
Proof. unfold arg_vecs. destruct a as [a|].
  - destruct n as [n|]; destruct (shape_eqb _ _); intros H; try discriminate; injection H as <-.
    + rewrite map_length, seq_length. reflexivity.
    + reflexivity.
  - intros H. injection H as <-. apply repeat_length. Qed.
Lemma arg_quats_len a n l : arg_quats a n = Ok l -> List.length l = match n with None => 1%nat | Some n => n end.
Proof. unfold arg_quats. destruct a as [a|].
  - destruct n as [n|]; destruct (shape_eqb _ _); intros H; try discriminate; injection H as <-.
    + rewrite map_length, seq_length. reflexivity.
    + reflexivity.
  - intros H. injection H as <-. apply repeat_length. Qed.

Lemma init_arrays_rows tr ro ts inv d : init_arrays tr ro ts inv = Ok d -> rows_ok d.
Proof.
  unfold init_arrays. destruct (arg_ts ts) as [o|e]; simpl; [|discriminate].
  destruct (arg_vecs tr _) as [t|e] eqn:Et; simpl; [|discriminate].
  destruct (arg_quats ro _) as [r|e] eqn:Er; simpl; [|discriminate].
  apply arg_vecs_len in Et. apply arg_quats_len in Er.
  destruct o as [l|]; simpl in *.
  - destruct inv.
    + destruct (traverse inv_row (combine t r)) as [rows|e] eqn:E; simpl; [|discriminate].
      intros H. injection H as <-. simpl. rewrite !map_length. apply traverse_length in E.
      rewrite combine_length in E. lia.
    + intros H. injection H as <-. simpl. lia.
  - destruct t as [|t0 t], r as [|r0 r]; try discriminate. destruct inv.
    + destruct (inv_static t0 r0) as [[t1 r1]|e]; simpl; [|discriminate]. intros H. injection H as <-. exact I.
    + intros H. injection H as <-. exact I.
Qed.

Lemma transform_body s i : transform_of s i = match body_of s i with Some (BTf d) => Some d | _ => None end.
Proof. unfold transform_of, body_of. destruct (get s i) as [n|]; simpl; auto. Qed.

Lemma finish_rows c d b r : rows_ok d -> finish c d = (b, r) -> forall d', b = BTf d' -> rows_ok d'.
Proof. unfold finish. destruct d as [t r0|ts t r0 dd]; simpl; intros Hd H d' ->.
  - destruct (c_discrete c); [discriminate|]. injection H as <- _. exact I.
  - injection H as <- _. simpl. exact Hd. Qed.

Lemma new_frame_body s c s' r : Inv s -> new_frame s c = (s', r) ->
  exists b, body_of s' (size s) = Some b /\ forall d, b = BTf d -> rows_ok d.
Proof.
  intros I H. unfold new_frame in H. fold (size s) in H.
  assert (HA : forall b, body_of (State (heap s ++ [Node (c_name c) None [] b]) (reg s)) (size s) = Some b).
  { intros b. change (State (heap s ++ [Node (c_name c) None [] b]) (reg s)) with (alloc s (Node (c_name c) None [] b)).
    unfold body_of. rewrite get_alloc, Nat.eqb_refl. reflexivity. }
  destruct (c_parent c) as [pp|].
  - destruct (resolve_rf s pp) as [p|e].
    + destruct (init_arrays _ _ _ _) as [d|e] eqn:Ei.
      * apply init_arrays_rows in Ei. destruct (finish c d) as [b r0] eqn:Ef. injection H as <- _.
        exists b. rewrite body_attach, HA. split; auto. eapply finish_rows; eauto.
      * destruct e; try destruct (discrete_static c); injection H as <- _; (eexists; rewrite body_attach, HA; split; [reflexivity|discriminate]).
    + injection H as <- _. exists BPartial. rewrite HA. split; [reflexivity|discriminate].
  - destruct (verify_root c).
    + destruct (c_discrete c); injection H as <- _; (eexists; rewrite HA; split; [reflexivity|discriminate]).
    + injection H as <- _. exists BPartial. rewrite HA. split; [reflexivity|discriminate].
Qed.

Lemma BodyOk_new s c s' r : Inv s -> BodyOk s -> new_frame s c = (s', r) -> BodyOk s'.
Proof.
  intros I B H i d Hd. destruct (new_frame_effect s c s' r I H) as (_ & Hs & Hk & _).
  rewrite transform_body in Hd. destruct (Nat.lt_trichotomy i (size s)) as [Hi|[->|Hi]].
  - destruct (Hk i Hi) as (_ & Hb & _). rewrite Hb in Hd. apply (B i). rewrite transform_body. exact Hd.
  - destruct (new_frame_body s c s' r I H) as (b & Hb & Hok). rewrite Hb in Hd.
    destruct b; try discriminate. injection Hd as ->. auto.
  - unfold body_of in Hd. destruct (get s' i) eqn:E; [|discriminate]. apply get_some_lt in E. lia.
Qed.
Lemma BodyOk_ext s s' : BodyOk s -> (forall k, body_of s' k = body_of s k) -> BodyOk s'.
Proof. intros B E i d Hd. rewrite transform_body, E, <- transform_body in Hd. eauto. Qed.
Lemma set_parent_body s i v k : body_of (fst (set_parent s i v)) k = body_of s k.
Proof. unfold set_parent. destruct (opt_eqb _ _); auto. destruct v as [p|].
  - destruct (rpath s p); auto. destruct (existsb _ _); auto. simpl. rewrite body_attach, body_detach. reflexivity.
  - simpl. apply body_detach. Qed.
Lemma register_body s i u k : body_of (fst (register s i u)) k = body_of s k.
Proof. unfold register. destruct (name_of s i); auto. destruct (lookup s0 (reg s)); auto.
  destruct u; auto. simpl. apply (set_parent_body s n None k). Qed.

Lemma BodyOk_step s o : Inv s -> BodyOk s -> BodyOk (fst (step s o)).
Proof.
  intros I B. destruct o as [c|c u|i u|n|i| |i p]; simpl.
  - destruct (new_frame s c) as [s' r] eqn:E. simpl. eapply BodyOk_new; eauto.
  - unfold register_frame. destruct (new_frame s c) as [s' r] eqn:E.
    pose proof (BodyOk_new s c s' r I B E) as B'. destruct r as [i|e]; auto.
    pose proof (register_body s' i u) as Hb. destruct (register s' i u) as [s2 [x|e]]; simpl in *; eapply BodyOk_ext; eauto.
  - destruct (get s i); auto. eapply BodyOk_ext; [exact B|]. intros; apply register_body.
  - unfold deregister. destruct (lookup n (reg s)); auto.
  - destruct (get s i); auto. unfold deregister_obj. destruct (name_of s i); auto. unfold deregister. destruct (lookup _ _); auto.
  - exact B.
  - destruct (get s i); auto. destruct p as [k|]; [destruct (get s k); auto|];
      (eapply BodyOk_ext; [exact B|]; intros; apply set_parent_body).
Qed.
Lemma BodyOk_run ops : BodyOk (run ops).
Proof.
  unfold run. assert (H : forall s, Inv s -> BodyOk s -> BodyOk (fold_left (fun s o => fst (step s o)) ops s)).
  { induction ops as [|o ops IH]; simpl; auto. intros s Hs Hb. apply IH; [apply Inv_step|apply BodyOk_step]; auto. }
  apply H; [apply Inv_init|]. intros i d. unfold transform_of, get. simpl. destruct i; discriminate.
Qed.
Lemma reachable_BodyOk s : reachable s -> BodyOk s.
Proof. intros (ops & ->). apply BodyOk_run. Qed.

(* ---- monotonic timestamps ---- *)
Lemma decreasing_false ts : decreasing_somewhere ts = false ->
  forall i j a b, (i <= j)%nat -> nth_error ts i = Some a -> nth_error ts j = Some b -> a <= b.
Proof.
  induction ts as [|x ts IH]; intros H i j a b Hij Ha Hb; [destruct i; discriminate|].
  assert (Hd : decreasing_somewhere ts = false /\ forall y, hd_error ts = Some y -> x <= y).
  { destruct ts as [|y ts]; [split; auto; discriminate|]. simpl in H. apply orb_false_iff in H as (H1 & H2).
    split; auto. intros z Hz. injection Hz as <-. apply Rlt_b_false in H1. lra. }
  destruct Hd as (Hd & Hx). specialize (IH Hd).
  destruct i as [|i], j as [|j]; simpl in *.
  - injection Ha as <-. injection Hb as <-. lra.
  - injection Ha as <-. destruct ts as [|y ts]; [destruct j; discriminate|].
    apply Rle_trans with y; [apply Hx; reflexivity|]. apply (IH 0%nat j); auto; lia.
  - lia.
  - apply (IH i j); auto. lia.
Qed.

(* ---- hold ---- *)
Lemma hold_acc {A} (l : list (R * A)) x (a0 : A) :
  let r := fold_left (fun acc p => if Rle_b (fst p) x then snd p else acc) l a0 in
  (exists k p, nth_error l k = Some p /\ fst p <= x /\ r = snd p /\
     forall m q, (k < m)%nat -> nth_error l m = Some q -> x < fst q)
  \/ (r = a0 /\ forall m q, nth_error l m = Some q -> x < fst q).
Proof.
  revert a0; induction l as [|p l IH]; intros a0; simpl.
  - right. split; auto. intros [|m] q; discriminate.
  - destruct (Rle_b (fst p) x) eqn:E.
    + apply Rle_b_true in E. destruct (IH (snd p)) as [(k & q & Hk & Hq & Hr & Hm)|(Hr & Hm)].
      * left. exists (S k), q. repeat split; auto. intros [|m] q' Hlt Hn; [lia|]. apply (Hm m); auto. lia.
      * left. exists 0%nat, p. repeat split; auto. intros [|m] q' Hlt Hn; [lia|]. apply (Hm m); auto.
    + apply Rle_b_false in E. destruct (IH a0) as [(k & q & Hk & Hq & Hr & Hm)|(Hr & Hm)].
      * left. exists (S k), q. repeat split; auto. intros [|m] q' Hlt Hn; [lia|]. apply (Hm m); auto. lia.
      * right. split; auto. intros [|m] q' Hn; [injection Hn as <-; auto|]. apply (Hm m); auto.
Qed.
Lemma nth_combine {A B} (l1 : list A) (l2 : list B) k a b :
  nth_error l1 k = Some a -> nth_error l2 k = Some b -> nth_error (combine l1 l2) k = Some (a, b).
Proof. revert l2 k; induction l1 as [|x l1 IH]; intros [|y l2] [|k]; simpl; intros H1 H2; try discriminate; auto. congruence. Qed.
Lemma nth_combine_inv {A B} (l1 : list A) (l2 : list B) k a b :
  nth_error (combine l1 l2) k = Some (a, b) -> nth_error l1 k = Some a /\ nth_error l2 k = Some b.
Proof. revert l2 k; induction l1 as [|x l1 IH]; intros [|y l2] [|k]; simpl; intros H; try discriminate; auto.
  injection H as -> ->. auto. Qed.
Lemma nth_len {A} (l : list A) k : (k < List.length l)%nat -> exists a, nth_error l k = Some a.
Proof. intros H. destruct (nth_error l k) eqn:E; eauto. apply nth_error_None in E. lia. Qed.
Lemma nth_lt {A} (l : list A) k a : nth_error l k = Some a -> (k < List.length l)%nat.
Proof. intros H. apply nth_error_Some. congruence. Qed.

Lemma hold_in_force {A} ts (rows : list A) x a : List.length rows = List.length ts ->
  hold ts rows x = Ok a -> exists k, event_in_force ts x k /\ nth_error rows k = Some a.
Proof.
  unfold hold. destruct rows as [|a0 rows]; [discriminate|]. intros Hl H. injection H as <-.
  assert (Hpair : forall m tm, nth_error ts m = Some tm -> exists q, nth_error (combine ts (a0 :: rows)) m = Some (tm, q)).
  { intros m tm Hm. destruct (nth_len (a0 :: rows) m) as (q & Hq); [rewrite Hl; eapply nth_lt; eauto|].
    exists q. apply nth_combine; auto. }
  destruct (hold_acc (combine ts (a0 :: rows)) x a0) as [(k & [tk a] & Hk & Hle & Hr & Hm)|(Hr & Hm)].
  - exists k. apply nth_combine_inv in Hk as (H1 & H2). split.
    + left. exists tk. repeat split; auto. intros m tm Hlt Hn. destruct (Hpair m tm Hn) as (q & Hq).
      exact (Hm m _ Hlt Hq).
    + change (nth_error (a0 :: rows) k = Some (fold_left (fun acc p => if Rle_b (fst p) x then snd p else acc) (combine ts (a0 :: rows)) a0)).
      rewrite Hr. exact H2.
  - exists 0%nat. split.
    + right. split; auto. split; [destruct ts; [discriminate Hl|discriminate]|].
      intros m tm Hn. destruct (Hpair m tm Hn) as (q & Hq). exact (Hm m _ Hq).
    + change (Some a0 = Some (fold_left (fun acc p => if Rle_b (fst p) x then snd p else acc) (combine ts (a0 :: rows)) a0)).
      rewrite Hr. reflexivity.
Qed.
Lemma event_fun ts x k k' : event_in_force ts x k -> event_in_force ts x k' -> k = k'.
Proof.
  intros [(a & Ha & Hle & Hm)|(-> & Hn & Hm)] [(b & Hb & Hle' & Hm')|(-> & Hn' & Hm')]; auto.
  - destruct (Nat.lt_trichotomy k k') as [H|[H|H]]; auto; exfalso.
    + specialize (Hm k' b H Hb). lra.
    + specialize (Hm' k a H Ha). lra.
  - specialize (Hm' k a Ha). lra.
  - specialize (Hm k' b Hb). lra.
Qed.
Lemma hold_ok {A} ts (rows : list A) x : rows <> [] -> exists a, hold ts rows x = Ok a.
Proof. destruct rows; [congruence|]. unfold hold. eauto. Qed.

(* ---- interpolation ---- *)
Lemma searchsorted_spec xs x : 
  (forall i a, (i < searchsorted xs x)%nat -> nth_error xs i = Some a -> a < x) /\
  (forall a, nth_error xs (searchsorted xs x) = Some a -> x <= a) /\ (searchsorted xs x <= List.length xs)%nat.
Proof.
  induction xs as [|y xs (IH1 & IH2 & IH3)]; simpl.
  - split; [intros i a Hi; lia|]. split; [discriminate|lia].
  - destruct (Rlt_b y x) eqn:E.
    + apply Rlt_b_true in E. split; [|split; [exact IH2|lia]].
      intros [|i] a Hi Ha; simpl in Ha; [injection Ha as <-; auto|]. eapply IH1; eauto. lia.
    + apply Rlt_b_false in E. split; [intros i a Hi; lia|]. split; [|lia].
      intros a Ha. injection Ha as <-. auto.
Qed.
Lemma last_cons {A} (l : list A) b a : last (b :: l) a = last l b.
Proof. revert b a; induction l as [|c l IH]; intros b a; auto.
  change (last (c :: l) a = last (c :: l) b). rewrite !IH. reflexivity. Qed.
Lemma nth_last {A} (a : A) l : nth_error (a :: l) (List.length l) = Some (last l a).
Proof. revert a; induction l as [|b l IH]; intros a; [reflexivity|].
  change (nth_error (b :: l) (List.length l) = Some (last (b :: l) a)).
  rewrite IH, last_cons. reflexivity. Qed.
Lemma in_bounds_spec xs x : in_bounds xs x = true <->
  exists a b, hd_error xs = Some a /\ nth_error xs (List.length xs - 1) = Some b /\ a <= x <= b.
Proof.
  destruct xs as [|a l]; simpl.
  - split; [discriminate|]. intros (a & b & H & _). discriminate.
  - rewrite andb_true_iff, Rle_b_true, Rle_b_true. rewrite Nat.sub_0_r. split.
    + intros (H1 & H2). exists a, (last l a). repeat split; auto. apply nth_last.
    + intros (a' & b & Ha & Hb & H). injection Ha as <-. pose proof (nth_last a l) as E. simpl in *.
      rewrite E in Hb. injection Hb as <-. exact H.
Qed.

Lemma interp_idx_spec xs x k a b : in_bounds xs x = true ->
  interp_idx xs x = (k, S k) -> nth_error xs k = Some a -> nth_error xs (S k) = Some b -> a <> b ->
  a < b -> in_interval xs x k a b.
Proof.
  intros Hin Hi Ha Hb Hne Hab. split; auto. split; auto. split; auto.
  destruct (searchsorted_spec xs x) as (S1 & S2 & S3). unfold interp_idx, clip1 in Hi.
  apply in_bounds_spec in Hin as (f & la & Hf & Hla & Hx).
  destruct (searchsorted xs x) as [|n] eqn:E.
  - (* x <= first, so x = first *)
    right. assert (k = 0%nat).
    { destruct (Nat.min (Nat.max 0 1) (List.length xs - 1)) as [|m] eqn:Em; [injection Hi; lia|]. injection Hi as <-. lia. }
    subst k. split; auto. destruct xs as [|y xs]; [discriminate|]. simpl in *. injection Ha as <-. injection Hf as <-.
    specialize (S2 y eq_refl). lra.
  - left. assert (Hlen : (S k < List.length xs)%nat) by (eapply nth_lt; eauto).
    destruct (Nat.min (Nat.max (S n) 1) (List.length xs - 1)) as [|m] eqn:Em; [injection Hi; lia|].
    injection Hi as <-. 
    assert (Hn : (S n < List.length xs)%nat \/ S n = List.length xs) by lia. destruct Hn as [Hn|Hn].
    + assert (m = n) by lia. subst m. split.
      * apply (S1 n); auto.
      * apply S2; auto.
    + (* x beyond last: contradiction *)
      exfalso. rewrite <- Hn in Hla. simpl in Hla. rewrite Nat.sub_0_r in Hla.
      specialize (S1 n la ltac:(lia) Hla). lra.
Qed.

Lemma lin_vec_between a b u v x : a <> b -> lin_vec a b u v x = between a b u v x.
Proof. intros H. unfold lin_vec, lin1, between. apply vec3_eq; simpl; field; lra. Qed.

Lemma interp_at_interval {A} (lin : R -> R -> A -> A -> R -> A) ts ys x y :
  decreasing_somewhere ts = false -> in_bounds ts x = true -> interp_at lin ts ys x = Ok y ->
  exists k a b u v, in_interval ts x k a b /\ nth_error ys k = Some u /\ nth_error ys (S k) = Some v /\ y = lin a b u v x.
Proof.
  intros Hd Hin. unfold interp_at. destruct (interp_idx ts x) as [lo hi] eqn:E.
  destruct (nth_error ts lo) as [xl|] eqn:E1; [|discriminate].
  destruct (nth_error ts hi) as [xh|] eqn:E2; [|discriminate].
  destruct (nth_error ys lo) as [yl|] eqn:E3; [|discriminate].
  destruct (nth_error ys hi) as [yh|] eqn:E4; [|discriminate].
  destruct (Req_b xl xh) eqn:Ee; [discriminate|]. intros H. injection H as <-.
  apply Req_b_false in Ee.
  assert (Hlohi : hi = S lo).
  { unfold interp_idx in E. destruct (clip1 _ _); injection E as <- <-; auto. congruence. }
  subst hi. exists lo, xl, xh, yl, yh. split; [|auto].
  apply interp_idx_spec; auto.
  pose proof (decreasing_false ts Hd lo (S lo) xl xh ltac:(lia) E1 E2). lra.
Qed.

Section S.
Variable squad : list R -> list quat -> R -> res quat.

Lemma own_from_frame d l rows : rows_ok d ->
  (forall ts t r disc, d = TMoving ts t r disc -> decreasing_somewhere ts = false) ->
  rows_from_frame squad d l = Ok rows ->
  List.length rows = List.length l /\
  forall k x tr, nth_error l k = Some x -> nth_error rows k = Some tr -> own_at squad d x (fst tr) (snd tr).
Proof.
  intros Hok Hmono H. destruct d as [t r|ts t r disc]; simpl in H.
  - injection H as <-. rewrite map_length. split; auto. intros k x tr Hx Htr.
    rewrite nth_error_map, Hx in Htr. injection Htr as <-. constructor.
  - specialize (Hmono ts t r disc eq_refl). destruct Hok as (Ht & Hr). destruct disc.
    + apply bind_ok in H as (_ & _ & H). apply bind_ok in H as (_ & _ & H).
      apply bind_ok in H as (tt' & Htt & H). apply bind_ok in H as (rr' & Hrr & H). injection H as <-.
      pose proof (traverse_length _ _ _ Htt). pose proof (traverse_length _ _ _ Hrr).
      rewrite combine_length. split; [lia|]. intros k x [t1 r1] Hx Htr. simpl.
      apply nth_combine_inv in Htr as (H1 & H2).
      apply (traverse_nth _ _ _ _ _ Htt) in H1 as (x1 & Hx1 & H1). apply (traverse_nth _ _ _ _ _ Hrr) in H2 as (x2 & Hx2 & H2).
      assert (x1 = x) by congruence. assert (x2 = x) by congruence. subst x1 x2.
      apply hold_in_force in H1 as (k1 & F1 & N1); auto. apply hold_in_force in H2 as (k2 & F2 & N2); auto.
      rewrite (event_fun _ _ _ _ F2 F1) in N2. exact (own_discrete squad ts t r x k1 t1 r1 F1 N1 N2).
    + apply bind_ok in H as (tt' & Htt & H). apply bind_ok in H as (rr' & Hrr & H). injection H as <-.
      unfold interp1d in Htt. destruct (forallb (in_bounds ts) l) eqn:Eb; [|discriminate].
      rewrite forallb_forall in Eb.
      pose proof (traverse_length _ _ _ Htt). pose proof (traverse_length _ _ _ Hrr).
      rewrite combine_length. split; [lia|]. intros k x [t1 r1] Hx Htr. simpl.
      apply nth_combine_inv in Htr as (H1 & H2).
      apply (traverse_nth _ _ _ _ _ Htt) in H1 as (x1 & Hx1 & H1). apply (traverse_nth _ _ _ _ _ Hrr) in H2 as (x2 & Hx2 & H2).
      assert (x1 = x) by congruence. assert (x2 = x) by congruence. subst x1 x2.
      apply interp_at_interval in H1 as (k1 & a & b & u & v & Hi & Hu & Hv & ->); auto.
      2:{ apply Eb. eapply nth_error_In; eauto. }
      rewrite lin_vec_between by (destruct Hi as (_ & _ & Hab & _); lra).
      econstructor; eauto.
Qed.

(* ---- the fold over the frames, one row at a time ---- *)
Definition row_step (x : R) (acc : vec3 * quat) (f : mframe) (acc' : vec3 * quat) : Prop :=
  exists t r, own_at squad (mf_data f) x t r /\ step_with rot1 (mf_inv f) acc (t, r) = Ok acc'.
Inductive row_fold (x : R) : vec3 * quat -> list mframe -> vec3 * quat -> Prop :=
| rf_nil acc : row_fold x acc [] acc
| rf_cons acc f acc' fs acc'' : row_step x acc f acc' -> row_fold x acc' fs acc'' ->
    row_fold x acc (f :: fs) acc''.

Definition frame_good (f : mframe) : Prop := rows_ok (mf_data f) /\
  forall ts t r disc, mf_data f = TMoving ts t r disc -> decreasing_somewhere ts = false.

Lemma fold_rows l fs accs rows : Forall frame_good fs -> List.length accs = List.length l ->
  foldM (step_rows squad l) fs accs = Ok rows ->
  List.length rows = List.length l /\
  forall k x acc row, nth_error l k = Some x -> nth_error accs k = Some acc -> nth_error rows k = Some row ->
    row_fold x acc fs row.
Proof.
  revert accs; induction fs as [|f fs IH]; intros accs Hg Hl H; simpl in H.
  - injection H as <-. split; auto. intros k x acc row Hx Ha Hr.
    assert (acc = row) by congruence. subst. constructor.
  - inversion Hg as [|f' fs' (G1 & G2) Hg']; subst. apply bind_ok in H as (accs' & Hs & H).
    unfold step_rows in Hs. apply bind_ok in Hs as (rws & Hrw & Hs).
    destruct (own_from_frame (mf_data f) l rws G1 G2 Hrw) as (Hlen & Hown).
    pose proof (traverse_length _ _ _ Hs) as Hlen'. rewrite combine_length in Hlen'.
    destruct (IH accs' Hg' ltac:(lia) H) as (Hlr & Hrow). split; auto.
    intros k x acc row Hx Ha Hr.
    destruct (nth_len accs' k) as (acc' & Ha'). { apply nth_lt in Hx. lia. }
    econstructor; [|eapply Hrow; eauto].
    apply (traverse_nth _ _ _ _ _ Hs) in Ha' as ([a1 tr] & Hc & Hst).
    apply nth_combine_inv in Hc as (Hc1 & Hc2). simpl in Hst.
    assert (a1 = acc) by congruence. subst a1. exists (fst tr), (snd tr). split; [eapply Hown; eauto|].
    destruct tr; exact Hst.
Qed.

(* ---- unit rotations: each row step is a multiplication ---- *)
Definition squad_unit : Prop := forall ts rr x r,
  Forall hunit rr -> squad ts rr x = Ok r -> hunit r.
Definition unit_data (d : tfdata) : Prop :=
  match d with TStatic _ r => hunit r | TMoving _ _ rr _ => Forall hunit rr end.
Lemma hunit_nz r : hunit r -> hn2 r <> 0.
Proof. unfold hunit. lra. Qed.

Lemma own_unit d x t r : squad_unit -> unit_data d -> own_at squad d x t r -> hunit r.
Proof. intros Hsq Hd H. inversion H; subst; simpl in *; auto.
  - rewrite Forall_forall in Hd. apply Hd. eapply nth_error_In; eauto.
  - eapply Hsq; eauto. Qed.

Lemma hunit_qnorm2 r : hunit r -> qnorm2 r = 1.
Proof. unfold hunit. rewrite hn2_qnorm2. auto. Qed.
Lemma rot1_hunit r v : hunit r -> rot1 r v = Ok (srot r v).
Proof. intros H. apply rot1_unit. rewrite <- hn2_qnorm2. exact H. Qed.
Lemma hunit_inv r : hunit r -> hunit (hinv r).
Proof. unfold hunit. intros H. rewrite hn2_hinv by lra. rewrite H. field. Qed.

Lemma row_step_fwd acc t r : hunit r -> step_with rot1 false acc (t, r) = Ok (gmul (t, r) acc).
Proof. intros H. simpl. rewrite rot1_hunit by auto. simpl. unfold gmul; simpl. rewrite qmulq_hmul. reflexivity. Qed.
Lemma row_step_bwd acc t r : hunit r -> step_with rot1 true acc (t, r) = Ok (gmul (ginv (t, r)) acc).
Proof. intros H. simpl. rewrite qrecip_hinv by (apply hunit_nz, H). simpl.
  rewrite rot1_hunit by (apply hunit_inv, H). simpl.
  unfold gmul, ginv; simpl. rewrite qmulq_hmul, vsub_def, srot_add, srot_opp. reflexivity. Qed.

(** Product of the edges from i up to c at time x. *)
Inductive xclimb (s : state) (x : R) : nat -> list nat -> nat -> rigid -> Prop :=
| xc_nil i : xclimb s x i [] i gone
| xc_cons i k d t r l c g : parent_of s i = Some k -> transform_of s i = Some d ->
    own_at squad d x t r -> hunit r -> xclimb s x k l c g -> xclimb s x i (i :: l) c (gmul g (t, r)).
Lemma xclimb_nz s x i l c g : xclimb s x i l c g -> gnz g.
Proof. intros H. induction H; [apply gnz_one|apply gnz_mul; auto; apply hunit_nz; auto]. Qed.
Lemma xclimb_coords s x i l c g p : xclimb s x i l c g -> coords squad s x i p c (gact g p).
Proof. intros H; revert p; induction H as [i|i k d t r l c g Hp Ht Ho Hr Hg IH]; intros p.
  - rewrite gact_one. constructor.
  - rewrite gact_mul by (eauto using xclimb_nz; apply hunit_nz; auto). econstructor; eauto. apply hunit_nz; auto. Qed.

Lemma row_fold_app x acc fs gs acc'' : row_fold x acc (fs ++ gs) acc'' <->
  exists acc', row_fold x acc fs acc' /\ row_fold x acc' gs acc''.
Proof. revert acc; induction fs as [|f fs IH]; intros acc; simpl.
  - split; [intros H; exists acc; split; auto; constructor|]. intros (a & H1 & H2). inversion H1; subst; auto.
  - split.
    + intros H. inversion H; subst. apply IH in H5 as (a & H1 & H2). exists a. split; auto. econstructor; eauto.
    + intros (a & H1 & H2). inversion H1; subst. econstructor; eauto. apply IH. eauto. Qed.

Lemma add_frame_inv b inv f : add_frame b inv = Ok f ->
  exists d, b = BTf d /\ mf_data f = d /\ mf_inv f = inv /\
    forall ts t r disc, d = TMoving ts t r disc -> decreasing_somewhere ts = false.
Proof.
  destruct b as [|d| |t r|]; simpl; try discriminate. destruct d as [t r|ts t r disc].
  - intros H. injection H as <-. exists (TStatic t r). repeat split; auto. discriminate.
  - destruct (decreasing_somewhere ts) eqn:E; [discriminate|]. simpl.
    destruct (Nat.eqb _ _); simpl; [|discriminate]. intros H. injection H as <-.
    eexists. repeat split; auto. intros ts' t' r' d' H. injection H as <- <- <- <-. exact E. Qed.

Definition unit_state (s : state) : Prop := forall k d, transform_of s k = Some d -> unit_data d.

Lemma row_up s x i up c fu acc acc' : squad_unit ->
  (forall k d, In k up -> transform_of s k = Some d -> unit_data d) ->
  climb (parent_of s) i up c ->
  traverse (fun k => add_frame (body_at s k) false) up = Ok fu ->
  row_fold x acc fu acc' -> exists g, xclimb s x i up c g /\ acc' = gmul g acc.
Proof.
  intros Hsq Hu Hc; revert Hu fu acc acc'; induction Hc as [i|i k l c Hp Hc IH]; intros Hu fu acc acc' Hf Ha.
  - injection Hf as <-. inversion Ha; subst. exists gone. split; [constructor|]. symmetry; apply gmul_1_l.
  - unfold traverse in Hf. simpl in Hf. apply bind_ok in Hf as (f & Hf1 & Hf). apply bind_ok in Hf as (fs & Hf2 & Hf).
    injection Hf as <-. inversion Ha as [|a f' a1 fs' a2 (t & r & Ho & Hst) Hrest]; subst.
    apply add_frame_inv in Hf1 as (d & Hd & Hd2 & Hinv & _). apply body_at_transform in Hd. subst d.
    assert (Hr : hunit r) by (eapply own_unit; eauto; eapply Hu; [left; reflexivity|eauto]).
    rewrite Hinv in Hst. rewrite row_step_fwd in Hst by auto. injection Hst as <-.
    destruct (IH ltac:(intros; eapply Hu; eauto; right; auto) fs _ _ Hf2 Hrest) as (g & Hg & ->).
    exists (gmul g (t, r)). split; [econstructor; eauto|].
    rewrite gmul_assoc; auto; [eapply xclimb_nz; eauto|apply hunit_nz, Hr].
Qed.
Lemma row_down s x j dn c fd acc acc' : squad_unit ->
  (forall k d, In k dn -> transform_of s k = Some d -> unit_data d) ->
  climb (parent_of s) j dn c ->
  traverse (fun k => add_frame (body_at s k) true) (rev dn) = Ok fd ->
  row_fold x acc fd acc' -> exists g, xclimb s x j dn c g /\ acc' = gmul (ginv g) acc.
Proof.
  intros Hsq Hu Hc; revert Hu fd acc acc'; induction Hc as [i|i k l c Hp Hc IH]; intros Hu fd acc acc' Hf Ha.
  - injection Hf as <-. inversion Ha; subst. exists gone. split; [constructor|]. rewrite ginv_one, gmul_1_l. reflexivity.
  - simpl in Hf. rewrite traverse_app in Hf. apply bind_ok in Hf as (fs & Hf1 & Hf). apply bind_ok in Hf as (fl & Hf2 & Hf).
    injection Hf as <-. unfold traverse in Hf2. simpl in Hf2. apply bind_ok in Hf2 as (f & Hf2 & Hf3). injection Hf3 as <-.
    apply row_fold_app in Ha as (a1 & Ha1 & Ha2). inversion Ha2 as [|a f' a2 fs' a3 (t & r & Ho & Hst) Hrest]; subst.
    inversion Hrest; subst.
    apply add_frame_inv in Hf2 as (d & Hd & Hd2 & Hinv & _). apply body_at_transform in Hd. subst d.
    assert (Hr : hunit r) by (eapply own_unit; eauto; eapply Hu; [left; reflexivity|eauto]).
    rewrite Hinv in Hst. rewrite row_step_bwd in Hst by auto. injection Hst as <-.
    destruct (IH ltac:(intros; eapply Hu; eauto; right; auto) fs _ _ Hf1 Ha1) as (g & Hg & ->).
    exists (gmul g (t, r)). split; [econstructor; eauto|].
    assert (Hnz := hunit_nz r Hr). assert (Hgz := xclimb_nz _ _ _ _ _ _ Hg).
    rewrite ginv_mul by auto. rewrite gmul_assoc by auto using gnz_inv. reflexivity.
Qed.

Lemma frames_good s i j fs : BodyOk s -> frames_between s i j = Ok fs -> Forall frame_good fs.
Proof.
  intros B H. unfold frames_between in H. apply bind_ok in H as ([up down] & _ & H).
  apply bind_ok in H as (fu & Hu & H). apply bind_ok in H as (fd & Hd & H). injection H as <-.
  assert (G : forall inv l r, traverse (fun k => add_frame (body_at s k) inv) l = Ok r -> Forall frame_good r).
  { intros inv l r Ht. apply Forall_forall. intros f Hf. apply In_nth_error in Hf as (n & Hn).
    apply (traverse_nth _ _ _ _ _ Ht) in Hn as (k & _ & Hk). apply add_frame_inv in Hk as (d & Hb & Hd' & _ & Hm).
    split.
    - rewrite Hd'. eapply B. apply body_at_transform; eauto.
    - intros ts t r' disc E. apply (Hm ts t r' disc). congruence. }
  apply Forall_app. split; eapply G; eauto.
Qed.

(* ---- soundness of the rows of a transformation between two frames ---- *)
Lemma rows_sound s i j fs l rows : Inv s -> BodyOk s -> squad_unit -> (i < size s)%nat -> (j < size s)%nat ->
  (forall k d, (ancestor (parent_of s) i k /\ ~ ancestor (parent_of s) j k) \/
               (ancestor (parent_of s) j k /\ ~ ancestor (parent_of s) i k) -> transform_of s k = Some d -> unit_data d) ->
  frames_between s i j = Ok fs ->
  foldM (step_rows squad l) fs (map (fun _ => (v0, q1)) l) = Ok rows ->
  List.length rows = List.length l /\
  forall k x t r, nth_error l k = Some x -> nth_error rows k = Some (t, r) ->
    hunit r /\
    exists c, ancestor (parent_of s) i c /\ ancestor (parent_of s) j c /\
    forall p, exists P, coords squad s x i p c P /\ coords squad s x j (smove t r p) c P.
Proof.
  intros I B Hsq Hi Hj Hu Hf Hfold. pose proof I as (W & _).
  destruct (fold_rows l fs _ rows (frames_good s i j fs B Hf) ltac:(apply map_length) Hfold) as (Hlen & Hrow).
  split; auto. intros k x t r Hx Hr.
  assert (Ha : nth_error (map (fun _ : R => (v0, q1)) l) k = Some (v0, q1)) by (rewrite nth_error_map, Hx; reflexivity).
  specialize (Hrow k x _ _ Hx Ha Hr).
  unfold frames_between in Hf. apply bind_ok in Hf as ([up down] & Hw & Hf).
  apply bind_ok in Hf as (fu & Hfu & Hf). apply bind_ok in Hf as (fd & Hfd & Hf). injection Hf as <-.
  destruct (walk_ok_inv s i j up down W Hi Hj Hw) as (_ & c & C1 & C2 & C3).
  apply row_fold_app in Hrow as (a1 & R1 & R2).
  destruct (row_up s x i up c fu _ _ Hsq ltac:(intros k' d Hin; apply Hu; left; split;
     [eapply climb_in_ancestor; eauto|intros Hz; eapply (climb_not_above s i up c k'); eauto; apply C3; auto; eapply climb_in_ancestor; eauto]) C1 Hfu R1) as (gi & G1 & ->).
  rewrite <- (rev_involutive down) in Hfd.
  destruct (row_down s x j (rev down) c fd _ _ Hsq ltac:(intros k' d Hin; apply Hu; right; split;
     [eapply climb_in_ancestor; eauto|intros Hz; eapply (climb_not_above s j (rev down) c k'); eauto; apply C3; auto; eapply climb_in_ancestor; eauto]) C2 Hfd R2) as (gj & G2 & E).
  change (v0, q1) with gone in E. rewrite gmul_1_r in E.
  assert (Hgi := xclimb_nz _ _ _ _ _ _ G1). assert (Hgj := xclimb_nz _ _ _ _ _ _ G2).
  assert (Hun : forall i l g, xclimb s x i l c g -> hunit (snd g)).
  { clear. intros i l g H. induction H; [unfold hunit; simpl; apply hn2_one|]. simpl. unfold hunit in *.
    rewrite hn2_hmul. simpl. rewrite IHxclimb, H2. ring. }
  split.
  { change r with (snd (t, r)). rewrite E. simpl. unfold hunit. rewrite hn2_hmul.
    rewrite (Hun _ _ _ G1). rewrite (hunit_inv _ (Hun _ _ _ G2)). ring. }
  exists c. split; [eapply climb_ancestor; eauto|]. split; [eapply climb_ancestor; eauto|].
  intros p. exists (gact gi p). split; [apply (xclimb_coords s x i up c gi); auto|].
  replace (gact gi p) with (gact gj (smove t r p)); [apply (xclimb_coords s x j (rev down) c gj); auto|].
  change (smove t r p) with (gact (t, r) p). rewrite E.
  rewrite <- gact_mul by auto using gnz_mul, gnz_inv.
  rewrite <- gmul_assoc by auto using gnz_inv. rewrite gmul_inv_r by auto. rewrite gmul_1_l. reflexivity.
Qed.

Lemma get_rows_inv m af ts rows : get_transformation squad m af = Ok (TrRows ts rows) ->
  get_timestamps m af = Ok (Some ts) /\ m_frames m <> [] /\
  foldM (step_rows squad ts) (m_frames m) (map (fun _ => (v0, q1)) ts) = Ok rows.
Proof.
  unfold get_transformation. intros H. apply bind_ok in H as (o & Ho & H). unfold transformation_at in H.
  destruct o as [l|].
  - destruct (m_frames m) as [|f fs]; [discriminate|]. apply bind_ok in H as (rows' & Hf & H). injection H as -> ->.
    split; auto. split; [discriminate|exact Hf].
  - apply bind_ok in H as ([? ?] & _ & H). discriminate.
Qed.
Lemma lookup_rows_inv s i to j ts rows : resolve_rf s to = Ok j -> lookup_transform squad s i to = Ok (TrRows ts rows) ->
  exists fs, frames_between s i j = Ok fs /\ fs <> [] /\ get_timestamps (Mat fs []) true = Ok (Some ts) /\
  foldM (step_rows squad ts) fs (map (fun _ => (v0, q1)) ts) = Ok rows.
Proof.
  intros Hr H. unfold lookup_transform in H. rewrite Hr in H. simpl in H. apply bind_ok in H as (fs & Hf & H).
  apply get_rows_inv in H as (H1 & H2 & H3). exists fs. auto.
Qed.
Lemma lookup_rows_sound s i to j ts rows : Inv s -> BodyOk s -> squad_unit -> (i < size s)%nat -> resolve_rf s to = Ok j ->
  (forall k d, (ancestor (parent_of s) i k /\ ~ ancestor (parent_of s) j k) \/
               (ancestor (parent_of s) j k /\ ~ ancestor (parent_of s) i k) -> transform_of s k = Some d -> unit_data d) ->
  lookup_transform squad s i to = Ok (TrRows ts rows) ->
  List.length rows = List.length ts /\
  forall k x t r, nth_error ts k = Some x -> nth_error rows k = Some (t, r) ->
    hunit r /\
    exists c, ancestor (parent_of s) i c /\ ancestor (parent_of s) j c /\
    forall p, exists P, coords squad s x i p c P /\ coords squad s x j (smove t r p) c P.
Proof.
  intros I B Hsq Hi Hr Hu H. assert (Hj := resolve_lt s to j (proj2 I) Hr).
  apply (lookup_rows_inv s i to j) in H as (fs & Hf & _ & _ & Hfold); auto.
  eapply rows_sound; eauto.
Qed.
End S.
