(** Property C46: writing and reading bags. *)
From Coq Require Import Reals List String ZArith Bool Arith Lia Lra.
From Verif Require Import Base NdArray RosMsg Rosbag PropRosMsg.
Import ListNotations.
Open Scope R_scope.

(* ---- specification ---- *)
(** A call of write_transform_stamped. *)
Record wcall := WCall { w_ts : nd R; w_t : nd R; w_r : nd R; w_topic : string; w_frame : option string; w_child : option string }.
Definition well_shaped (c : wcall) (n : nat) : Prop := shp (w_ts c) = [n] /\ shp (w_t c) = [n; 3%nat] /\ shp (w_r c) = [n; 4%nat].
Definition valid_call (c : wcall) : Prop :=
  (exists n, well_shaped c n /\ forall i, (i < n)%nat -> 0 <= dat (w_ts c) [i] < 2 ^ 32) /\ w_topic c <> ""%string.
(** Its samples: time, translation, rotation. *)
Record sample := Sample { s_time : R; s_pos : list R; s_ori : list R }.
Definition samples (c : wcall) : list sample :=
  map (fun i => Sample (dat (w_ts c) [i]) [dat (w_t c) [i; 0%nat]; dat (w_t c) [i; 1%nat]; dat (w_t c) [i; 2%nat]]
                       [dat (w_r c) [i; 0%nat]; dat (w_r c) [i; 1%nat]; dat (w_r c) [i; 2%nat]; dat (w_r c) [i; 3%nat]])
      (seq 0 (hd 0%nat (shp (w_ts c)))).
Definition write_call clock (b : bag) (c : wcall) := write_transform_stamped clock b (w_ts c) (w_t c) (w_r c) (w_topic c) (w_frame c) (w_child c).
Fixpoint write_calls clock (b : bag) (l : list wcall) : bag * res unit :=
  match l with
  | [] => (b, Ok tt)
  | c :: l => match write_call clock b c with (b', Ok _) => write_calls clock b' l | (b', Raise e) => (b', Raise e) end
  end.
(** Less than a nanosecond later or equal. *)
Definition within_ns (t t' : R) : Prop := t' <= t < t' + 1 / 1000000000.
Definition monotone (clock : nat -> Z) : Prop := forall i j, (i <= j)%nat -> (clock i <= clock j)%Z.

(* ---- reading a bag in time order ---- *)
Lemma insort_last e l : (forall x, In x l -> (e_time x <= e_time e)%Z) -> insort e l = (l ++ [e])%list.
Proof.
  induction l as [|x l IH]; intros H; [reflexivity|]. cbn [insort app]. destruct (Z.ltb_spec (e_time e) (e_time x)) as [G|G].
  - specialize (H x (or_introl eq_refl)). lia.
  - rewrite IH; auto. intros y Hy. apply H. right; auto.
Qed.
Definition ordered (b : bag) : Prop := forall l1 e l2 f l3, b = (l1 ++ e :: l2 ++ f :: l3)%list -> (e_time e <= e_time f)%Z.
Lemma fold_insort l acc : (forall x y, In x acc -> In y l -> (e_time x <= e_time y)%Z) -> ordered l ->
  fold_left (fun l e => insort e l) l acc = (acc ++ l)%list.
Proof.
  revert acc. induction l as [|e l IH]; intros acc H O; [rewrite app_nil_r; reflexivity|]. cbn [fold_left].
  rewrite insort_last by (intros x Hx; apply H; auto; left; auto). rewrite IH, <- app_assoc; [reflexivity| |].
  - intros x y Hx Hy. apply in_app_or in Hx as [Hx|[<-|[]]]; [apply H; auto; right; auto|].
    apply in_split in Hy as (l2 & l3 & ->). apply (O [] e l2 y l3). reflexivity.
  - intros l1 a l2 f l3 E. apply (O (e :: l1) a l2 f l3). rewrite E. reflexivity.
Qed.
Lemma filter_split {A} (f : A -> bool) b l1 e l2 : filter f b = (l1 ++ e :: l2)%list ->
  exists k1 k2, b = (k1 ++ e :: k2)%list /\ filter f k2 = l2.
Proof.
  revert l1. induction b as [|x b IH]; intros l1 E; [destruct l1; discriminate|]. cbn [filter] in E. destruct (f x) eqn:Fx.
  - destruct l1 as [|y l1]; cbn in E; injection E as -> E.
    + exists [], b. auto.
    + destruct (IH l1 E) as (k1 & k2 & -> & H). exists (y :: k1), k2. auto.
  - destruct (IH l1 E) as (k1 & k2 & -> & H). exists (x :: k1), k2. auto.
Qed.
Lemma filter_ordered f b : ordered b -> ordered (filter f b).
Proof.
  intros O l1 e l2 g l3 E. destruct (filter_split f b l1 e _ E) as (k1 & k2 & -> & H).
  destruct (filter_split f k2 l2 g l3 H) as (k3 & k4 & -> & _). eapply O. reflexivity.
Qed.
Lemma read_ordered b topic : ordered b -> read_messages b topic = filter (on_topic topic) b.
Proof.
  intros O. unfold read_messages. rewrite fold_insort; [reflexivity|intros x y []|apply filter_ordered; auto].
Qed.

(* ---- one call ---- *)
(** The entry that records a sample. *)
Definition records (c : wcall) (s : sample) (e : entry) : Prop :=
  e_topic e = w_topic c /\ exists m, e_msg e = MTransform m /\ unpack_transform_stamped m = (s_pos s, s_ori s) /\
    within_ns (s_time s) (to_sec (fst (ts_header m))) /\ snd (ts_header m) = w_frame c /\ ts_child m = w_child c.
Lemma secs_small t st : from_sec t = Ok st -> 0 <= t < 2 ^ 32 -> (secs st < 2 ^ 32)%Z.
Proof.
  intros E H. destruct (from_sec_spec t) as (st' & E' & (A & B) & C); [lra|]. assert (st' = st) by congruence. subst st'.
  apply lt_IZR. unfold to_sec in C. assert (0 <= IZR (nsecs st) / IZR giga).
  { apply Rmult_le_pos; [apply (IZR_le 0); lia|]. apply Rlt_le, Rinv_0_lt_compat. apply (IZR_lt 0). reflexivity. }
  change (IZR (2 ^ 32)) with 4294967296. lra.
Qed.
Lemma write_rows_ok clock c l : w_topic c <> ""%string -> forall b,
  Forall (fun s => 0 <= s_time s < 2 ^ 32 /\ List.length (s_pos s) = 3%nat /\ List.length (s_ori s) = 4%nat) l ->
  exists es, write_rows clock b (map s_time l) (map s_pos l) (map s_ori l) (w_topic c) (w_frame c) (w_child c) = ((b ++ es)%list, Ok tt) /\
    Forall2 (records c) l es /\ map e_time es = map clock (seq (List.length b) (List.length es)).
Proof.
  intros Ht. induction l as [|s l IH]; intros b H.
  - exists []. cbn. rewrite app_nil_r. auto.
  - inversion H as [|? ? (H1 & H2 & H3) H4]; subst. cbn [map write_rows].
    destruct (s_pos s) as [|x [|y [|z [|? ?]]]] eqn:Ep; try discriminate. destruct (s_ori s) as [|w [|i [|j [|k [|? ?]]]]] eqn:Eo; try discriminate.
    destruct (C45_transform x y z w i j k (w_frame c) (w_child c) (s_time s)) as (m & Em & U & _ & _ & _ & (Hd1 & Hd2) & Hc); [lra|].
    rewrite Em. unfold bag_write. destruct (String.eqb_spec (w_topic c) ""); [contradiction|].
    assert (Hs : (secs (fst (ts_header m)) < 2 ^ 32)%Z).
    { unfold make_transform_msg in Em. destruct (from_sec (s_time s)) as [st|e] eqn:Es; cbn [bind] in Em; [|discriminate].
      cbn in Em. injection Em as <-. cbn. eapply secs_small; eauto. }
    destruct (Z.leb_spec (2 ^ 32) (secs (fst (ts_header m)))); [lia|].
    destruct (IH (b ++ [Entry (w_topic c) (MTransform m) (clock (List.length b))])%list H4) as (es & E & R & T).
    rewrite E, <- app_assoc. exists (Entry (w_topic c) (MTransform m) (clock (List.length b)) :: es).
    split; [reflexivity|]. split.
    + constructor; auto. split; [reflexivity|]. exists m. rewrite Ep, Eo. repeat (split; auto).
    + cbn [map seq List.length e_time]. f_equal. rewrite T, app_length. cbn [List.length]. rewrite Nat.add_1_r. reflexivity.
Qed.
Lemma samples_rows c n : well_shaped c n ->
  map s_time (samples c) = map (fun i => dat (w_ts c) [i]) (seq 0 n) /\ map s_pos (samples c) = map (row (w_t c) 3) (seq 0 n) /\
  map s_ori (samples c) = map (row (w_r c) 4) (seq 0 n).
Proof. intros (H & _). unfold samples. rewrite H. cbn [hd]. rewrite !map_map. repeat split. Qed.
Lemma shape_is_iff a s : shape_is a s = true <-> shp a = s.
Proof. unfold shape_is. destruct (list_eq_dec _ _ _); split; congruence. Qed.
Lemma write_call_ok clock c b : valid_call c -> exists es, write_call clock b c = ((b ++ es)%list, Ok tt) /\ Forall2 (records c) (samples c) es /\
  map e_time es = map clock (seq (List.length b) (List.length es)).
Proof.
  intros ((n & Hs & Hb) & Ht). pose proof Hs as (H1 & H2 & H3). destruct (samples_rows c n Hs) as (S1 & S2 & S3).
  unfold write_call, write_transform_stamped. rewrite H1, (proj2 (shape_is_iff _ _) H2), (proj2 (shape_is_iff _ _) H3). cbn [negb].
  rewrite <- S1, <- S2, <- S3. apply write_rows_ok; auto.
  unfold samples. rewrite H1. cbn [hd]. apply Forall_forall. intros s Hin. apply in_map_iff in Hin as (i & <- & Hi). apply in_seq in Hi. cbn. split; [|auto]. apply Hb. lia.
Qed.

(* ---- all calls ---- *)
Lemma records_topic c l es T : Forall2 (records c) l es -> filter (on_topic T) es = if String.eqb (w_topic c) T then es else [].
Proof.
  induction 1 as [|s e l es (H & _) Hl IH]; [destruct (String.eqb _ _); reflexivity|]. cbn [filter]. unfold on_topic at 1. rewrite H, IH.
  destruct (String.eqb (w_topic c) T); reflexivity.
Qed.
Definition kept (s : sample) (e : entry) : Prop :=
  exists m, e_msg e = MTransform m /\ unpack_transform_stamped m = (s_pos s, s_ori s) /\ within_ns (s_time s) (to_sec (fst (ts_header m))).
Lemma records_kept c l es : Forall2 (records c) l es -> Forall2 kept l es.
Proof. induction 1 as [|s e l es (_ & m & A & B & C & _) Hl IH]; constructor; auto. exists m; auto. Qed.
Lemma write_calls_ok clock T l : Forall valid_call l -> forall b, map e_time b = map clock (seq 0 (List.length b)) ->
  exists es, write_calls clock b l = ((b ++ es)%list, Ok tt) /\
    map e_time (b ++ es) = map clock (seq 0 (List.length (b ++ es))) /\
    Forall2 kept (flat_map samples (filter (fun c => String.eqb (w_topic c) T) l)) (filter (on_topic T) es).
Proof.
  induction 1 as [|c l Hc Hl IH]; intros b Hb.
  - exists []. cbn. rewrite app_nil_r. auto.
  - destruct (write_call_ok clock c b Hc) as (es & E & R & Tm). cbn [write_calls]. rewrite E.
    assert (Hb' : map e_time (b ++ es) = map clock (seq 0 (List.length (b ++ es)))).
    { rewrite map_app, app_length, seq_app, map_app, Hb, Tm. reflexivity. }
    destruct (IH _ Hb') as (es' & E' & T' & K'). exists (es ++ es')%list. rewrite app_assoc. split; auto. split; auto.
    rewrite filter_app, (records_topic c _ _ T R). cbn [filter]. destruct (String.eqb (w_topic c) T); [|exact K'].
    cbn [flat_map]. apply Forall2_app; auto. eapply records_kept; eauto.
Qed.
Lemma times_ordered clock b : monotone clock -> map e_time b = map clock (seq 0 (List.length b)) -> ordered b.
Proof.
  intros M H l1 e l2 f l3 ->.
  assert (N : forall i, (i < List.length (l1 ++ e :: l2 ++ f :: l3))%nat -> nth_error (map e_time (l1 ++ e :: l2 ++ f :: l3)) i = Some (clock i)).
  { intros i Hi. rewrite H, nth_error_map. rewrite (nth_error_nth' _ 0%nat) by (rewrite seq_length; auto). rewrite seq_nth by auto. reflexivity. }
  pose proof (N (List.length l1)) as N1. pose proof (N (List.length l1 + S (List.length l2))%nat) as N2. clear N.
  rewrite app_length in N1, N2. cbn [List.length] in N1, N2. rewrite app_length in N1, N2. cbn [List.length] in N1, N2.
  rewrite map_app in N1, N2. rewrite nth_error_app2 in N1 by (rewrite map_length; lia). rewrite nth_error_app2 in N2 by (rewrite map_length; lia).
  rewrite map_length in N1, N2. rewrite Nat.sub_diag in N1. replace (List.length l1 + S (List.length l2) - List.length l1)%nat with (S (List.length l2)) in N2 by lia.
  cbn [map nth_error] in N1, N2. rewrite map_app in N2. rewrite nth_error_app2 in N2 by (rewrite map_length; lia). rewrite map_length, Nat.sub_diag in N2.
  cbn [map nth_error] in N2. specialize (N1 ltac:(lia)). specialize (N2 ltac:(lia)). injection N1 as ->. injection N2 as ->. apply M. lia.
Qed.
Lemma kept_rows l es : Forall2 kept l es -> exists rows, traverse transform_row es = Ok rows /\
  map (fun r => snd (fst r)) rows = map s_pos l /\ map snd rows = map s_ori l /\ Forall2 within_ns (map s_time l) (map (fun r => fst (fst r)) rows).
Proof.
  induction 1 as [|s e l es (m & A & B & C) Hl (rows & E & R1 & R2 & R3)].
  - exists []. repeat split; constructor.
  - unfold traverse in *. cbn [map sequence]. unfold transform_row at 1. rewrite A. cbn [bind]. rewrite E. cbn [bind].
    unfold unpack_transform_stamped, unpack_transform_msg in B. injection B as B1 B2.
    eexists. split; [reflexivity|]. cbn [map fst snd]. rewrite R1, R2. change (unpack_xyz (tm_translation (ts_transform m)) = s_pos s) in B1. split; [congruence|]. split; [change (unpack_xyzw (tm_rotation (ts_transform m)) = s_ori s) in B2; congruence|]. constructor; auto.
Qed.

(** All sequences of writes, wall clock that does not step back: every topic is read back,
    sample by sample and in order; timestamps are truncated to nanoseconds. *)
Theorem C46_partial : forall clock calls T, monotone clock -> Forall valid_call calls ->
  let written := flat_map samples (filter (fun c => String.eqb (w_topic c) T) calls) in
  written <> [] ->
  exists b m, write_calls clock [] calls = (b, Ok tt) /\ load_messages (Some b) T = Ok m /\
    mo_position m = map s_pos written /\ mo_orientation m = map s_ori written /\
    Forall2 within_ns (map s_time written) (mo_time m) /\ mo_velocity m = None.
Proof.
  intros clock calls T M V written Hne. destruct (write_calls_ok clock T calls V [] eq_refl) as (b & E & Tm & K). cbn [app] in *. fold written in K.
  exists b. unfold load_messages. rewrite read_ordered by (eapply times_ordered; eauto).
  destruct (kept_rows _ _ K) as (rows & Er & R1 & R2 & R3).
  assert (Ht : exists m, topic_type b T = Ok (MTransform m)).
  { unfold topic_type. clear - K Hne. destruct written as [|s l]; [congruence|]. remember (filter (on_topic T) b) as fb eqn:H. symmetry in H. inversion K as [|? e ? es (m & A & _) Hes Ea Eb]; rewrite <- Eb in H.
    exists m. replace (find (on_topic T) b) with (Some e); [rewrite A; reflexivity|]. clear - H. revert H. induction b as [|x b IH]; intros H; [discriminate|].
    cbn [filter find] in *. destruct (on_topic T x); [congruence|auto]. }
  destruct Ht as (m0 & Ht). rewrite Ht. cbn [bind]. rewrite Er. cbn [bind].
  eexists. split; [exact E|]. split; [reflexivity|]. cbn. auto.
Qed.
(** Arrays of the wrong shape are refused before anything is written. *)
Theorem C46_refused : forall clock b c, (forall n, ~ well_shaped c n) -> write_call clock b c = (b, Raise ValueError).
Proof.
  intros clock b c H. unfold write_call, write_transform_stamped. destruct (shp (w_ts c)) as [|n [|? ?]] eqn:E; auto.
  destruct (shape_is (w_t c) [n; 3%nat]) eqn:E1; cbn [negb]; auto. destruct (shape_is (w_r c) [n; 4%nat]) eqn:E2; cbn [negb]; auto.
  exfalso. apply (H n). apply shape_is_iff in E1, E2. split; auto.
Qed.
(** Whatever is written, and whether or not it is refused, other topics are unaffected. *)
Theorem C46_others : forall clock b c T, T <> w_topic c ->
  load_messages (Some (fst (write_call clock b c))) T = load_messages (Some b) T.
Proof.
  intros clock b c T HT.
  assert (G : exists es, fst (write_call clock b c) = (b ++ es)%list /\ Forall (fun e => e_topic e = w_topic c) es).
  { unfold write_call, write_transform_stamped.
    assert (R : forall ts t r b, exists es, fst (write_rows clock b ts t r (w_topic c) (w_frame c) (w_child c)) = (b ++ es)%list /\ Forall (fun e => e_topic e = w_topic c) es).
    { induction ts as [|ts0 ts IH]; intros t r b0; [exists []; rewrite app_nil_r; auto|]. destruct t as [|t0 t]; [exists []; rewrite app_nil_r; auto|].
      destruct r as [|r0 r]; [exists []; rewrite app_nil_r; auto|]. cbn [write_rows].
      destruct (make_transform_msg t0 r0 (w_frame c) (w_child c) ts0) as [m|e]; [|exists []; rewrite app_nil_r; auto].
      unfold bag_write. destruct (String.eqb (w_topic c) ""); [exists []; rewrite app_nil_r; auto|].
      destruct (Z.leb _ _); [exists []; rewrite app_nil_r; auto|]. destruct (IH t r (b0 ++ [Entry (w_topic c) (MTransform m) (clock (List.length b0))])%list) as (es & E & H).
      rewrite E, <- app_assoc. eexists. split; [reflexivity|]. constructor; auto. }
    destruct (shp (w_ts c)) as [|n [|? ?]]; [exists []; rewrite app_nil_r; auto| |exists []; rewrite app_nil_r; auto].
    destruct (negb _); [exists []; rewrite app_nil_r; auto|]. destruct (negb _); [exists []; rewrite app_nil_r; auto|]. apply R. }
  destruct G as (es & -> & H).
  assert (F : filter (on_topic T) (b ++ es) = filter (on_topic T) b).
  { rewrite filter_app. replace (filter (on_topic T) es) with (@nil entry); [apply app_nil_r|]. symmetry. clear - H HT.
    induction H as [|e es He Hes IH]; auto. cbn [filter]. unfold on_topic at 1. rewrite He. destruct (String.eqb_spec (w_topic c) T); [congruence|auto]. }
  assert (D : topic_type (b ++ es) T = topic_type b T).
  { unfold topic_type. replace (find (on_topic T) (b ++ es)) with (find (on_topic T) b); auto. clear - H HT. induction b as [|x b IH]; cbn [app find].
    - induction H as [|e es He Hes IH]; auto. cbn [find]. unfold on_topic at 1. rewrite He. destruct (String.eqb_spec (w_topic c) T); [congruence|auto].
    - destruct (on_topic T x); auto. }
  unfold load_messages, read_messages. rewrite F, D. reflexivity.
Qed.
(** Two topics, two writes on one of them. *)
Definition ex_call (topic : string) (n : nat) : wcall :=
  WCall (Nd [n] (fun ix => INR (hd 0%nat ix))) (Nd [n; 3%nat] (fun ix => INR (nth 1 ix 0%nat))) (Nd [n; 4%nat] (fun _ => 1)) topic (Some "a"%string) (Some "b"%string).
Example C46_example : let calls := [ex_call "/x" 2; ex_call "/y" 1; ex_call "/x" 3] in
  monotone Z.of_nat /\ Forall valid_call calls /\
  List.length (flat_map samples (filter (fun c => String.eqb (w_topic c) "/x") calls)) = 5%nat /\
  (forall n, ~ well_shaped (WCall (Nd [2%nat] (fun _ => 0)) (Nd [3%nat; 3%nat] (fun _ => 0)) (Nd [2%nat; 4%nat] (fun _ => 0)) "/x" None None) n).
Proof.
  cbv zeta. split; [intros i j; lia|]. split.
  - assert (V : forall t n, (n <= 3)%nat -> t <> ""%string -> valid_call (ex_call t n)).
    { intros t n Hn Ht. split; auto. exists n. split; [repeat split|]. intros i Hi. cbn. split; [apply pos_INR|].
      apply Rlt_le_trans with (INR 3); [apply lt_INR; lia|]. cbn. lra. }
    repeat constructor; apply V; try lia; discriminate.
  - split; [reflexivity|]. intros n (A & B & _). cbn in A, B. congruence.
Qed.
(** rosbag orders messages by the wall clock at the time of writing: if it steps back, a
    topic is read back in another order. *)
Theorem C46_refuted : exists clock c b m, valid_call c /\ write_calls clock [] [c] = (b, Ok tt) /\ load_messages (Some b) (w_topic c) = Ok m /\
  map s_pos (samples c) = [[0; 0; 0]; [1; 1; 1]] /\ mo_position m = [[1; 1; 1]; [0; 0; 0]].
Proof.
  set (c := WCall (Nd [2%nat] (fun ix => INR (hd 0%nat ix))) (Nd [2%nat; 3%nat] (fun ix => INR (hd 0%nat ix))) (Nd [2%nat; 4%nat] (fun _ => 1)) "/x" None None).
  assert (V : valid_call c).
  { split; [|discriminate]. exists 2%nat. split; [repeat split|]. intros i Hi. cbn. split; [apply pos_INR|]. apply Rlt_le_trans with (INR 2); [apply lt_INR; lia|]. cbn. lra. }
  destruct (write_calls_ok (fun k => (- Z.of_nat k)%Z) "/x" [c] (Forall_cons _ V (Forall_nil _)) [] eq_refl) as (b & E & T & K).
  cbn [app] in *. cbn [filter flat_map w_topic c] in K. change (String.eqb "/x" "/x") with true in K. cbn [flat_map] in K. rewrite app_nil_r in K.
  exists (fun k => (- Z.of_nat k)%Z), c, b. 
  assert (S2 : map s_pos (samples c) = [[0; 0; 0]; [1; 1; 1]]) by reflexivity.
  destruct (write_call_ok (fun k => (- Z.of_nat k)%Z) c [] V) as (es & E1 & R & Tm). cbn [write_calls] in E. rewrite E1 in E. cbn [app] in E. injection E as <-.
  remember (samples c) as l eqn:El. unfold samples, c in El. cbn in El. subst l.
  inversion R as [|? e1 ? es1 R1 R2]; subst. inversion R2 as [|? e2 ? es2 R3 R4]; subst. inversion R4; subst. clear R R2 R4 K.
  cbn in Tm. injection Tm as T1 T2. destruct R1 as (P1 & m1 & M1 & U1 & _). destruct R3 as (P2 & m2 & M2 & U2 & _).
  cbn [w_topic c] in P1, P2.
  assert (Rd : read_messages [e1; e2] "/x" = [e2; e1]).
  { unfold read_messages. cbn [filter]. unfold on_topic. rewrite P1, P2. change (String.eqb "/x" "/x") with true. cbn [fold_left insort]. rewrite T1, T2. reflexivity. }
  eexists. split; [exact V|]. split; [cbn [write_calls]; rewrite E1; reflexivity|]. split.
  - unfold load_messages, topic_type. cbn [find]. unfold on_topic at 1. rewrite P1. change (String.eqb "/x" (w_topic c)) with true. cbn iota. rewrite M1. cbn [bind].
    change (w_topic c) with "/x"%string. rewrite Rd. unfold traverse. cbn [map sequence]. unfold transform_row. rewrite M1, M2. cbn [bind]. reflexivity.
  - split; [reflexivity|]. cbn [map mo_position fst snd]. unfold unpack_transform_stamped, unpack_transform_msg in U1, U2.
    apply (f_equal fst) in U1, U2. cbn [fst s_pos] in U1, U2. rewrite U1, U2. reflexivity.
Qed.
(** Nothing is left of a write of zero samples. *)
Theorem C46_empty_refuted : forall clock c, well_shaped c 0 -> exists b, write_calls clock [] [c] = (b, Ok tt) /\ load_messages (Some b) (w_topic c) = Raise KeyError.
Proof.
  intros clock c (H1 & H2 & H3). exists []. split; [|reflexivity]. cbn [write_calls]. unfold write_call, write_transform_stamped.
  rewrite H1, (proj2 (shape_is_iff _ _) H2), (proj2 (shape_is_iff _ _) H3). reflexivity.
Qed.
