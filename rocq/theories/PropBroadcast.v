(** Properties C49, C54, C57: the transform broadcaster. *)
From Coq Require Import Reals List String ZArith Bool Arith Lia Lra.
From Verif Require Import Base Quat NdArray Frames Matcher RosMsg PropRosMsg Broadcast.
Import ListNotations.
Open Scope R_scope.

(* ---- specification ---- *)
(** The time of a timestamp in seconds. *)
Definition in_seconds (dt64 : bool) (t : R) : R := if dt64 then t / 1000000000 else t.
(** The k-th sample: timestamp (seconds), translation, rotation. *)
Definition sample (b : broadcaster) (k : nat) (time : R) (t : vec3) (r : quat) : Prop :=
  exists dt64 ts rows x, b_series b = SMoving dt64 ts rows /\ nth_error ts k = Some x /\ nth_error rows k = Some (t, r) /\ time = in_seconds dt64 x.
Definition pose_of (t : vec3) (r : quat) : xyz * xyzw :=
  ({| m_x := vx t; m_y := vy t; m_z := vz t |}, {| q_x := qx r; q_y := qy r; q_z := qz r; q_w := qw r |}).
(** What publishing a transform means: the tf message, the pose message if there is a pose
    publisher, then [tail] (the twist). *)
Definition announces (b : broadcaster) (time : R) (t : vec3) (r : quat) (tail l : list sent) : Prop :=
  exists m, header_at (ts_header m) (b_base b) time /\ ts_child m = b_frame b /\
    ts_transform m = TransformMsg (fst (pose_of t r)) (snd (pose_of t r)) /\
    if b_pose b
    then exists p, header_at (ps_header p) (b_base b) time /\ ps_pose p = PoseMsg (fst (pose_of t r)) (snd (pose_of t r)) /\
         l = STf m :: SPose p :: tail
    else l = STf m :: tail.
(** The twist of sample k. *)
Definition twist_part (b : broadcaster) (k : nat) (l : list sent) : Prop :=
  match b_twist b with
  | None => l = []
  | Some (v, w) => exists v' w' m, nth_error v k = Some v' /\ nth_error w k = Some w' /\ l = [STwist m] /\ snd (ws_header m) = b_frame b /\
      ws_twist m = TwistMsg {| m_x := vx v'; m_y := vy v'; m_z := vz v' |} {| m_x := vx w'; m_y := vy w'; m_z := vz w' |}
  end.
(** The call sends exactly sample k and returns. *)
Definition sends_sample (b : broadcaster) (k : nat) (l : list sent) : Prop :=
  exists time t r tail, sample b k time t r /\ twist_part b k tail /\ announces b time t r tail l.
(** The number of samples. *)
Definition samples_of (b : broadcaster) : nat := match b_series b with SStatic _ _ => 0 | SMoving _ ts _ => List.length ts end.
(** A broadcaster of datetime samples: as many rows as timestamps, none before 1970, twist
    arrays of that length. *)
Definition proper (b : broadcaster) : Prop :=
  exists ts rows, b_series b = SMoving true ts rows /\ List.length rows = List.length ts /\ Forall (fun t => 0 <= t) ts /\
    match b_twist b with None => True | Some (v, w) => List.length v = List.length ts /\ List.length w = List.length ts end.
(** i is a (possibly negative) index of sample k among n. *)
Definition indexes (n k : nat) (i : Z) : Prop := (k < n)%nat /\ (i = Z.of_nat k \/ i = Z.of_nat k - Z.of_nat n)%Z.

(* ---- indexing ---- *)
Lemma at_index_ok {A} (l : list A) k i : indexes (List.length l) k i -> exists a, nth_error l k = Some a /\ at_index l i = Ok a.
Proof.
  intros (H & Hi). destruct (nth_error l k) as [a|] eqn:E; [|apply nth_error_None in E; lia]. exists a. split; auto. unfold at_index.
  destruct Hi as [->| ->].
  - destruct (Z.ltb_spec (Z.of_nat k) 0); [lia|]. destruct (Z.ltb_spec (Z.of_nat k) 0); [lia|]. rewrite Nat2Z.id, E. reflexivity.
  - destruct (Z.ltb_spec (Z.of_nat k - Z.of_nat (List.length l)) 0); [|lia].
    replace (Z.of_nat k - Z.of_nat (List.length l) + Z.of_nat (List.length l))%Z with (Z.of_nat k) by lia.
    destruct (Z.ltb_spec (Z.of_nat k) 0); [lia|]. rewrite Nat2Z.id, E. reflexivity.
Qed.
Lemma at_index_out {A} (l : list A) i : (i < - Z.of_nat (List.length l) \/ Z.of_nat (List.length l) <= i)%Z -> at_index l i = Raise IndexError.
Proof.
  intros H. unfold at_index. destruct (Z.ltb_spec i 0).
  - destruct (Z.ltb_spec (i + Z.of_nat (List.length l)) 0); [reflexivity|lia].
  - destruct (Z.ltb_spec i 0); [lia|]. destruct (nth_error l (Z.to_nat i)) eqn:E; [|reflexivity].
    assert (Z.to_nat i < List.length l)%nat by (apply nth_error_Some; congruence). lia.
Qed.
Lemma from_sec_ok t : 0 <= t -> exists st, from_sec t = Ok st /\ to_sec st <= t < to_sec st + 1 / 1000000000.
Proof. intros H. destruct (from_sec_spec t H) as (st & E & _ & B). exists st. auto. Qed.

(* ---- one call ---- *)
Lemma twist_sends b k i : (match b_twist b with None => True | Some (v, w) => indexes (List.length v) k i /\ indexes (List.length w) k i end) ->
  exists l, twist_msg_of b (Some i) = Ok l /\ twist_part b k l.
Proof.
  unfold twist_msg_of, twist_part. destruct (b_twist b) as [(v & w)|]; [|eauto]. intros (Hv & Hw).
  destruct (at_index_ok v k i Hv) as (v' & Ev & ->), (at_index_ok w k i Hw) as (w' & Ew & ->). cbn [bind]. unfold make_twist_msg.
  destruct (from_sec_ok 0 ltac:(lra)) as (st & -> & _). cbn [bind vlist mk_xyz]. eexists. split; [reflexivity|]. exists v', w'. eexists. split; [exact Ev|]. split; [exact Ew|]. split; [reflexivity|]. split; reflexivity.
Qed.
Lemma raw_sends b t r time idx tail : 0 <= time -> twist_msg_of b idx = Ok tail ->
  exists l, publish_raw b t r time idx = (l, Ok tt) /\ announces b time t r tail l.
Proof.
  intros H Ht. unfold publish_raw, make_transform_msg, make_pose_msg, announces. destruct (from_sec_ok time H) as (st & -> & B).
  cbn [bind vlist qlist mk_xyz mk_xyzw]. rewrite Ht.
  set (m := TransformStamped (st, b_base b) (b_frame b) (TransformMsg (fst (pose_of t r)) (snd (pose_of t r)))).
  set (p := PoseStamped (st, b_base b) (PoseMsg (fst (pose_of t r)) (snd (pose_of t r)))).
  assert (Hh : header_at (st, b_base b) (b_base b) time) by (split; [reflexivity|exact B]).
  destruct (b_pose b); cbn [bind app]; eexists; (split; [reflexivity|]); exists m; (split; [exact Hh|]); (split; [reflexivity|]); (split; [reflexivity|]).
  - exists p. split; [exact Hh|]. split; reflexivity.
  - reflexivity.
Qed.
Lemma publish_sends b k idx : proper b -> indexes (samples_of b) k (effective_idx b idx) ->
  exists l, publish b idx = (l, Ok tt) /\ sends_sample b k l.
Proof.
  intros (ts & rows & E & Hl & Hp & Ht) H. unfold publish, samples_of in *. rewrite E in H |- *.
  destruct (at_index_ok ts k _ H) as (x & Ex & ->). rewrite <- Hl in H. destruct (at_index_ok rows k _ H) as ((t & r) & Er & ->). cbn [bind].
  destruct (twist_sends b k (effective_idx b idx)) as (tail & Et & Tp).
  { destruct (b_twist b) as [(v & w)|]; auto. destruct Ht as (-> & ->). rewrite Hl in H. auto. }
  assert (0 <= x) by (rewrite Forall_forall in Hp; apply Hp; eapply nth_error_In; eauto).
  destruct (raw_sends b t r (stamp_of x) (Some (effective_idx b idx)) tail) as (l & El & An); auto. { unfold stamp_of. lra. }
  exists l. split; [exact El|]. exists (stamp_of x), t, r, tail. split; [|auto]. exists true, ts, rows, x. auto.
Qed.

(* ------------------------------------------------------------------ C49 *)
(** publish(i), for an index other than 0 or when the current index is 0, sends exactly
    sample i (negative indices count from the end).  Missing: 0 when the current index is
    not 0, and timestamps that are numbers of seconds (both refuted below). *)
Theorem C49_partial : forall b k i, proper b -> indexes (samples_of b) k i -> (i <> 0%Z \/ b_idx b = 0%Z) ->
  exists l, publish b (Some i) = (l, Ok tt) /\ sends_sample b k l.
Proof.
  intros b k i H Hi H0. apply publish_sends; auto. replace (effective_idx b (Some i)) with i; auto. cbn. destruct (Z.eqb_spec i 0); auto. destruct H0; congruence.
Qed.
(** publish() sends the current one. *)
Theorem C49_current : forall b k, proper b -> indexes (samples_of b) k (b_idx b) ->
  exists l, publish b None = (l, Ok tt) /\ sends_sample b k l.
Proof. intros b k H Hi. apply publish_sends; auto. Qed.
(** Any other index is refused, and nothing is sent. *)
Theorem C49_refused : forall b i, (forall t r, b_series b <> SStatic t r) ->
  (i < - Z.of_nat (samples_of b) \/ Z.of_nat (samples_of b) <= i)%Z -> i <> 0%Z ->
  publish b (Some i) = ([], Raise IndexError).
Proof.
  intros b i Hs H H0. unfold publish, samples_of in *. destruct (b_series b) as [t r|dt ts rows]; [destruct (Hs t r); reflexivity|].
  cbn [effective_idx]. destruct (Z.eqb_spec i 0); [congruence|]. rewrite at_index_out by exact H. reflexivity.
Qed.
(** A static frame: its transform, whatever the index. *)
Theorem C49_static : forall b t r i, b_series b = SStatic t r -> b_twist b = None ->
  exists l, publish b i = (l, Ok tt) /\ announces b 0 t r [] l.
Proof. intros b t r i E Ht. unfold publish. rewrite E. apply raw_sends; [lra|]. unfold twist_msg_of. rewrite Ht. reflexivity. Qed.
(** Where the samples come from: the transform of the frame with respect to the base, by
    default the parent. *)
Theorem C49_lookup : forall squad s frame base dt64 pose twist sub b,
  make_broadcaster squad s frame base dt64 pose twist sub = Ok b ->
  exists i j, resolve_rf s frame = Ok i /\
    (match base with Some p => p <> PName "" -> resolve_rf s p = Ok j | None => parent_of s i = Some j end) /\
    b_frame b = name_of s i /\ b_base b = name_of s j /\ b_idx b = 0%Z /\
    (lookup_transform squad s i (PFrame j) = match b_series b with SStatic t r => Ok (TrStatic t r) | SMoving _ ts rows => Ok (TrRows ts rows) end) /\
    (forall dt ts rows, b_series b = SMoving dt ts rows -> dt = dt64).
Proof.
  intros squad s frame base dt64 pose twist sub b. unfold make_broadcaster. destruct (resolve_rf s frame) as [i|e]; [|discriminate]. cbn [bind].
  set (base' := match base with Some (PName n) => if String.eqb n "" then None else base | _ => base end).
  destruct (match base' with Some p => resolve_rf s p | None => match parent_of s i with Some p => Ok p | None => Raise TypeError end end) as [j|e] eqn:Ej; [|discriminate].
  cbn [bind]. destruct (lookup_transform squad s i (PFrame j)) as [tr|e] eqn:El; [|discriminate]. cbn [bind].
  assert (J : match base with Some p => p <> PName "" -> resolve_rf s p = Ok j | None => parent_of s i = Some j end).
  { destruct base as [p|].
    - intros Hp. unfold base' in Ej. destruct p as [k|n|]; auto. destruct (String.eqb_spec n ""); [subst; congruence|exact Ej].
    - cbn in Ej. destruct (parent_of s i); [injection Ej as ->; reflexivity|discriminate]. }
  destruct tr as [t r|ts|ts rows]; cbn [bind]; [|discriminate|]; intros E; injection E as <-; exists i, j; cbn [b_frame b_base b_idx b_series];
    (split; [reflexivity|]); (split; [exact J|]); (split; [reflexivity|]); (split; [reflexivity|]); (split; [reflexivity|]); (split; [exact El|]).
  - intros; discriminate.
  - intros dt ts' rows' E. injection E as <- _ _. reflexivity.
Qed.
(** False of the code: after one round of the loop, publish(0) sends sample 1. *)
Lemma round_ok b k : proper b -> b_idx b = Z.of_nat k -> (k < samples_of b)%nat ->
  exists l dt, round b = (l, Ok (dt, set_idx b (Z.of_nat ((k + 1) mod samples_of b)))) /\ sends_sample b k l /\
    (dt = 0 /\ ((k + 1) mod samples_of b = 0)%nat \/
     exists t0 t1 p0 q0 p1 q1', ((k + 1) mod samples_of b = k + 1)%nat /\ sample b k t0 p0 q0 /\ sample b (k + 1) t1 p1 q1' /\ dt = t1 - t0).
Proof.
  intros P Ei Hk. destruct (C49_current b k P) as (l & El & Sl). { split; auto. }
  destruct P as (ts & rows & E & Hl & Hp & _). unfold round, samples_of in *. rewrite E in *. rewrite El, Ei.
  assert (M : ((Z.of_nat k + 1) mod Z.of_nat (List.length ts) = Z.of_nat ((k + 1) mod List.length ts))%Z) by (rewrite Nat2Z.inj_mod, Nat2Z.inj_add; reflexivity).
  rewrite M. exists l. unfold dt_of. cbn [b_series b_idx set_idx]. rewrite E.
  destruct (Nat.eq_dec (k + 1) (List.length ts)) as [W|W].
  - rewrite W, Nat.mod_same by lia. cbn. exists 0. split; [reflexivity|]. auto.
  - rewrite Nat.mod_small by lia. destruct (Z.ltb_spec 0 (Z.of_nat (k + 1))); [|lia].
    destruct (at_index_ok ts (k + 1) (Z.of_nat (k + 1))) as (x1 & E1 & ->); [split; [lia|auto]|].
    destruct (at_index_ok ts k (Z.of_nat (k + 1) - 1)) as (x0 & E0 & ->); [split; [lia|left; lia]|]. cbn [bind].
    eexists. split; [reflexivity|]. split; [exact Sl|]. right.
    destruct (nth_error rows k) as [(p0 & q0)|] eqn:R0; [|apply nth_error_None in R0; lia].
    destruct (nth_error rows (k + 1)) as [(p1 & q1')|] eqn:R1; [|apply nth_error_None in R1; lia].
    exists (x0 / 1000000000), (x1 / 1000000000), p0, q0, p1, q1'. split; [lia|]. split; [exists true, ts, rows, x0; auto|]. split; [exists true, ts, rows, x1; auto|reflexivity].
Qed.
Lemma set_idx_proper b i : proper b -> proper (set_idx b i).
Proof. exact (fun H => H). Qed.
Theorem C49_refuted : forall b, proper b -> b_subscribed b = None -> b_idx b = 0%Z -> (2 <= samples_of b)%nat ->
  let b' := bc_run b [DoSpin 1] in
  publish b' (Some 0%Z) = publish b' (Some 1%Z) /\ exists l, publish b' (Some 0%Z) = (l, Ok tt) /\ sends_sample b' 1 l.
Proof.
  intros b P Hs H0 Hn. destruct (round_ok b 0 P H0 ltac:(lia)) as (l & dt & E & _).
  assert (E' : bc_run b [DoSpin 1] = set_idx b 1).
  { cbn [bc_run fold_left bc_step rounds]. rewrite Hs, E. cbn [bind fst snd]. rewrite Nat.mod_small by lia. reflexivity. }
  cbv zeta. rewrite E'. split; [destruct P as (ts & rows & Es & _); unfold publish; cbn [set_idx b_series]; rewrite Es; reflexivity|]. apply publish_sends; [apply set_idx_proper; auto|]. split; [|left; reflexivity]. unfold samples_of in *. cbn [set_idx b_series]. lia.
Qed.
(** False of the code: timestamps in seconds are divided by 1e9 as well. *)
Theorem C49_float_refuted : forall b ts rows k x t r, b_series b = SMoving false ts rows -> List.length rows = List.length ts ->
  b_twist b = None -> nth_error ts k = Some x -> nth_error rows k = Some (t, r) -> 1 <= x -> k <> 0%nat ->
  exists l m, publish b (Some (Z.of_nat k)) = (STf m :: l, Ok tt) /\ to_sec (fst (ts_header m)) < x / 1000.
Proof.
  intros b ts rows k x t r E Hl Ht Ex Er Hx Hk. unfold publish. rewrite E.
  assert (Ei : effective_idx b (Some (Z.of_nat k)) = Z.of_nat k) by (cbn [effective_idx]; destruct (Z.eqb_spec (Z.of_nat k) 0); auto; lia). rewrite Ei.
  assert (Lk : (k < List.length ts)%nat) by (apply nth_error_Some; congruence).
  destruct (at_index_ok ts k (Z.of_nat k)) as (x' & Ex' & ->); [split; auto|]. destruct (at_index_ok rows k (Z.of_nat k)) as (p & Ep & ->); [split; [lia|auto]|].
  rewrite Ex in Ex'. injection Ex' as <-. rewrite Er in Ep. injection Ep as <-. cbn [bind].
  destruct (raw_sends b t r (stamp_of x) (Some (Z.of_nat k)) []) as (l & El & (m & Hm & _ & _ & Hl')).
  { unfold stamp_of. lra. } { unfold twist_msg_of. rewrite Ht. reflexivity. }
  rewrite El. destruct Hm as (_ & Hm). unfold stamp_of in Hm.
  destruct (b_pose b); [destruct Hl' as (p & _ & _ & ->)|rewrite Hl']; eexists; eexists; (split; [reflexivity|]); lra.
Qed.

(* ------------------------------------------------------------------ C54 *)
Lemma rounds_ok k : forall b j, proper b -> b_idx b = Z.of_nat j -> (j < samples_of b)%nat ->
  exists out, rounds k b = Ok (out, set_idx b (Z.of_nat ((j + k) mod samples_of b))) /\ List.length out = k /\
    forall m l dt, nth_error out m = Some (l, dt) ->
      sends_sample b ((j + m) mod samples_of b) l /\
      (dt = 0 /\ ((j + m + 1) mod samples_of b = 0)%nat \/
       exists t0 t1 p0 q0 p1 q1', ((j + m + 1) mod samples_of b = (j + m) mod samples_of b + 1)%nat /\
         sample b ((j + m) mod samples_of b) t0 p0 q0 /\ sample b ((j + m) mod samples_of b + 1) t1 p1 q1' /\ dt = t1 - t0).
Proof.
  induction k as [|k IH]; intros b j P Ei Hj.
  - exists []. cbn [rounds]. rewrite Nat.add_0_r, Nat.mod_small by lia. split; [|split; [reflexivity|intros [|m]; discriminate]].
    rewrite <- Ei. destruct b; reflexivity.
  - destruct (round_ok b j P Ei Hj) as (l & dt & E & Sl & D). cbn [rounds]. rewrite E.
    set (n := samples_of b) in *. assert (N : n <> 0%nat) by lia.
    destruct (IH (set_idx b (Z.of_nat ((j + 1) mod n))) ((j + 1) mod n)%nat) as (out & Eo & Lo & Ho); [apply set_idx_proper; auto|reflexivity|apply Nat.mod_upper_bound; auto|].
    change (samples_of (set_idx b (Z.of_nat ((j + 1) mod n)))) with n in Eo, Ho. rewrite Eo. cbn [bind].
    assert (M : forall a, ((((j + 1) mod n) + a) mod n = (j + 1 + a) mod n)%nat) by (intros a; rewrite Nat.add_mod_idemp_l by auto; reflexivity).
    exists ((l, dt) :: out). split; [|split].
    + rewrite M. replace (j + 1 + k)%nat with (j + S k)%nat by lia. reflexivity.
    + cbn. lia.
    + intros [|m] l' dt' Hm.
      * injection Hm as <- <-. rewrite Nat.add_0_r, (Nat.mod_small j) by lia. auto.
      * cbn [nth_error] in Hm. destruct (Ho m l' dt' Hm) as (A & B). rewrite M in A, B. 
        replace ((j + 1) mod n + m + 1)%nat with ((j + 1) mod n + (m + 1))%nat in B by lia. rewrite M in B.
        replace (j + 1 + m)%nat with (j + S m)%nat in A, B by lia. replace (j + 1 + (m + 1))%nat with (j + S m + 1)%nat in B by lia. auto.
Qed.
(** A fresh broadcaster spinning for any number of rounds: the m-th round sends sample
    m modulo the number of samples and then waits for the time to the next sample, not at
    all after the last. *)
Theorem C54_spin : forall b k, proper b -> b_idx b = 0%Z -> (0 < samples_of b)%nat ->
  exists out b', rounds k b = Ok (out, b') /\ List.length out = k /\
    forall m l dt, nth_error out m = Some (l, dt) ->
      sends_sample b (m mod samples_of b) l /\
      (((m + 1) mod samples_of b = 0)%nat -> dt = 0) /\
      (((m + 1) mod samples_of b <> 0)%nat -> exists t0 t1 p0 q0 p1 q1',
         sample b (m mod samples_of b) t0 p0 q0 /\ sample b (m mod samples_of b + 1) t1 p1 q1' /\ dt = t1 - t0).
Proof.
  intros b k P H0 Hn. destruct (rounds_ok k b 0 P H0 Hn) as (out & E & L & H). exists out. eexists. split; [exact E|]. split; [exact L|].
  intros m l dt Hm. destruct (H m l dt Hm) as (A & B). rewrite Nat.add_0_l in A, B. split; [exact A|]. split.
  - intros Z. destruct B as [[-> _]|(t0 & t1 & p0 & q0 & p1 & q1' & C & _)]; auto. rewrite Z in C. lia.
  - intros Z. destruct B as [[_ C]|(t0 & t1 & p0 & q0 & p1 & q1' & _ & B)]; [contradiction|]. exists t0, t1, p0, q0, p1, q1'. exact B.
Qed.
(** Spinning can be resumed: it continues with the next sample. *)
Theorem C54_resume : forall b k k', proper b -> b_idx b = 0%Z -> (0 < samples_of b)%nat ->
  exists out1 out2 b1 b2, rounds k b = Ok (out1, b1) /\ rounds k' b1 = Ok (out2, b2) /\ rounds (k + k') b = Ok ((out1 ++ out2)%list, b2).
Proof.
  assert (G : forall k k' b out1 b1, rounds k b = Ok (out1, b1) -> rounds (k + k') b = bind (rounds k' b1) (fun p => Ok ((out1 ++ fst p)%list, snd p))).
  { induction k as [|k IH]; intros k' b out1 b1 E.
    - cbn in E. injection E as <- <-. cbn. destruct (rounds k' b) as [(o & b')|e]; reflexivity.
    - cbn [rounds plus] in E |- *. destruct (round b) as (l & [(dt & b')|e]); [|discriminate]. destruct (rounds k b') as [(o & b'')|e] eqn:Er; [|discriminate].
      cbn [bind] in E. injection E as <- <-. rewrite (IH k' b' o b'' Er). destruct (rounds k' b'') as [(o' & b3)|e]; reflexivity. }
  intros b k k' P H0 Hn. destruct (rounds_ok k b 0 P H0 Hn) as (out1 & E1 & _).
  destruct (rounds_ok k' (set_idx b (Z.of_nat ((0 + k) mod samples_of b))) ((0 + k) mod samples_of b)%nat) as (out2 & E2 & _);
    [apply set_idx_proper; auto|reflexivity|exact (Nat.mod_upper_bound (0 + k) (samples_of b) ltac:(lia))|].
  exists out1, out2. do 2 eexists. split; [exact E1|]. split; [exact E2|]. rewrite (G k k' b out1 _ E1), E2. reflexivity.
Qed.
(** A broadcaster without samples raises at once. *)
Theorem C54_empty : forall b dt rows k, b_series b = SMoving dt [] rows -> rounds (S k) b = Raise IndexError.
Proof.
  intros b dt rows k E. cbn [rounds]. unfold round, publish. rewrite E. assert (A : forall i, at_index (@nil R) i = Raise IndexError).
  { intros i. apply at_index_out. cbn. lia. }
  rewrite A. reflexivity.
Qed.

(* ------------------------------------------------------------------ C57 *)
(** Sample k is nearest to x: no other one is nearer, and of equally near ones it is the
    later. *)
Definition nearest (ts : list R) (x : R) (k : nat) : Prop :=
  exists t, nth_error ts k = Some t /\ forall j u, nth_error ts j = Some u -> Rabs (t - x) <= Rabs (u - x) /\ (Rabs (t - x) = Rabs (u - x) -> (j <= k)%nat).
Definition increasing_ts (ts : list R) : Prop := forall i j a b, nth_error ts i = Some a -> nth_error ts j = Some b -> (i < j)%nat -> a < b.

Lemma inc_tail a ts : increasing_ts (a :: ts) -> increasing_ts ts.
Proof. intros H i j x y Hi Hj L. apply (H (S i) (S j) x y); auto. lia. Qed.
Lemma inc_strict ts : increasing_ts ts -> strictly_increasing ts = true.
Proof.
  induction ts as [|a ts IH]; intros H; auto. destruct ts as [|b ts]; auto. cbn [strictly_increasing]. cbn [strictly_increasing] in IH. rewrite IH by (eapply inc_tail; eauto).
  rewrite andb_true_r. apply Rlt_b_true. apply (H 0%nat 1%nat a b); auto.
Qed.
Lemma filter_prefix (f : R -> bool) ts : increasing_ts ts -> (forall a b, a < b -> f b = true -> f a = true) ->
  forall i t, nth_error ts i = Some t -> (f t = true <-> (i < List.length (filter f ts))%nat).
Proof.
  intros H F. induction ts as [|a ts IH]; intros i t Hi; [destruct i; discriminate|]. cbn [filter].
  specialize (IH (inc_tail _ _ H)). destruct i as [|i]; cbn in Hi.
  - injection Hi as ->. destruct (f t) eqn:E; [split; auto; intros; cbn; lia|]. split; [discriminate|]. intros L. exfalso.
    assert (N : filter f ts <> []) by (intros N; rewrite N in L; cbn in L; lia). destruct (filter f ts) as [|b l] eqn:Ef; [congruence|].
    assert (I : In b (filter f ts)) by (rewrite Ef; left; auto). apply filter_In in I as (I & J). apply In_nth_error in I as (j & Hj).
    assert (t < b) by (apply (H 0%nat (S j) t b); auto; lia). rewrite (F t b) in E; auto. discriminate.
  - destruct (f a) eqn:E.
    + rewrite (IH i t Hi). cbn. lia.
    + assert (f t = false). { destruct (f t) eqn:Et; auto. assert (a < t) by (apply (H 0%nat (S i) a t); auto; lia). rewrite (F a t) in E; auto. }
      rewrite H0. split; [discriminate|]. intros L. exfalso. assert (G : f t = true) by (apply (IH i t Hi); lia). congruence.
Qed.
Lemma filter_len_le (f : R -> bool) ts : (List.length (filter f ts) <= List.length ts)%nat.
Proof. induction ts as [|a ts IH]; cbn; auto. destruct (f a); cbn; lia. Qed.
Lemma get_loc_ok ts x : increasing_ts ts -> ts <> [] -> exists k, get_loc_nearest ts x = Ok (Z.of_nat k) /\ nearest ts x k.
Proof.
  intros H N. unfold get_loc_nearest. rewrite (inc_strict ts H). cbn [negb].
  set (fl := fun t => Rlt_b t x). set (fe := fun t => Rle_b t x).
  assert (Pl : forall i t, nth_error ts i = Some t -> (t < x <-> (i < List.length (filter fl ts))%nat)).
  { intros i t Hi. rewrite <- (filter_prefix fl ts H); [unfold fl; rewrite Rlt_b_true; reflexivity| |exact Hi]. unfold fl. intros a b L. rewrite !Rlt_b_true. lra. }
  assert (Pe : forall i t, nth_error ts i = Some t -> (t <= x <-> (i < List.length (filter fe ts))%nat)).
  { intros i t Hi. rewrite <- (filter_prefix fe ts H); [unfold fe; rewrite Rle_b_true; reflexivity| |exact Hi]. unfold fe. intros a b L. rewrite !Rle_b_true. lra. }
  set (lo := List.length (filter fl ts)) in *. set (up := List.length (filter fe ts)) in *.
  assert (Lu : (up <= List.length ts)%nat) by apply filter_len_le. assert (Ll : (lo <= List.length ts)%nat) by apply filter_len_le.
  assert (Nn : (0 < List.length ts)%nat) by (destruct ts; [congruence|cbn; lia]).
  destruct (nth_error ts (pred up)) as [l|] eqn:El; [|apply nth_error_None in El; lia].
  assert (Ord : forall i j a b, nth_error ts i = Some a -> nth_error ts j = Some b -> (i <= j)%nat -> a <= b).
  { intros i j a b Hi Hj L. destruct (Nat.eq_dec i j) as [->|]; [rewrite Hi in Hj; injection Hj as ->; lra|]. assert (a < b) by (eapply H; eauto; lia). lra. }
  assert (Near : forall i a, nth_error ts i = Some a -> 
     (forall j u, nth_error ts j = Some u -> (u < x -> a - x <= x - u /\ x - a <= x - u /\ ((x - a = x - u \/ a - x = x - u) -> (j <= i)%nat)) /\
                                       (x <= u -> a - x <= u - x /\ x - a <= u - x /\ ((x - a = u - x \/ a - x = u - x) -> (j <= i)%nat))) -> nearest ts x i).
  { intros i a Hi G. exists a. split; [exact Hi|]. intros j u Hj. destruct (G j u Hj) as (G1 & G2).
    destruct (Rlt_le_dec u x) as [L|L]; [destruct (G1 L) as (A & B & C)|destruct (G2 L) as (A & B & C)]; unfold Rabs; destruct (Rcase_abs (a - x)), (Rcase_abs (u - x)); split; try lra; intros E; apply C; lra. }
  destruct (nth_error ts lo) as [r|] eqn:Er.
  - assert (R1 : x <= r) by (destruct (Rlt_le_dec r x) as [L|L]; auto; apply (Pl lo r Er) in L; lia).
    destruct (Nat.eqb_spec up 0) as [U0|U0].
    + exists lo. split; [reflexivity|]. apply (Near lo r Er). intros j u Hj. split.
      * intros L. assert (u <= x) by lra. apply (Pe j u Hj) in H0. lia.
      * intros L. destruct (le_lt_dec lo j) as [J|J]; [|apply (Pl j u Hj) in J; lra]. assert (r <= u) by (eapply Ord; eauto).
        split; [lra|]. split; [lra|]. intros E. assert (u = r) by lra. destruct (Nat.eq_dec j lo); [lia|]. assert (r < u) by (eapply H; eauto; lia). lra.
    + assert (L1 : l <= x) by (apply (Pe (pred up) l El); lia).
      destruct (Rlt_b (x - l) (r - x)) eqn:Ec.
      * apply Rlt_b_true in Ec. exists (pred up). split; [reflexivity|]. apply (Near (pred up) l El). intros j u Hj. split.
        -- intros L. assert (K : u <= x) by lra. apply (Pe j u Hj) in K. assert (u <= l) by (eapply Ord; eauto; lia). split; [lra|]. split; [lra|]. intros; lia.
        -- intros L. destruct (Req_EM_T u x) as [->|Nx].
           ++ assert (K : x <= x) by lra. apply (Pe j x Hj) in K. assert (x <= l) by (eapply Ord; eauto; lia). split; [lra|]. split; [lra|]. intros; lia.
           ++ destruct (le_lt_dec lo j) as [J|J]; [|apply (Pl j u Hj) in J; lra]. assert (r <= u) by (eapply Ord; eauto). split; [lra|]. split; [lra|]. intros E. lra.
      * apply Rlt_b_false in Ec. exists lo. split; [reflexivity|]. apply (Near lo r Er). intros j u Hj. split.
        -- intros L. assert (K : u <= x) by lra. apply (Pe j u Hj) in K. assert (u <= l) by (eapply Ord; eauto; lia). split; [lra|]. split; [lra|]. intros E. apply (Pl j u Hj) in L. lia.
        -- intros L. destruct (le_lt_dec lo j) as [J|J]; [|apply (Pl j u Hj) in J; lra]. assert (r <= u) by (eapply Ord; eauto).
           split; [lra|]. split; [lra|]. intros E. destruct (Nat.eq_dec j lo); [lia|]. assert (r < u) by (eapply H; eauto; lia). lra.
  - assert (U : up = List.length ts).
    { apply nth_error_None in Er. assert (lo = List.length ts) by lia. destruct (nth_error ts (pred (List.length ts))) as [z|] eqn:Ez; [|apply nth_error_None in Ez; lia].
      assert (z < x) by (apply (Pl _ z Ez); lia). assert (z <= x) by lra. apply (Pe _ z Ez) in H2. lia. }
    destruct (Nat.eqb_spec up 0); [lia|]. exists (pred up). split; [reflexivity|]. apply (Near (pred up) l El). intros j u Hj.
    assert (Hj' : (j < List.length ts)%nat) by (apply nth_error_Some; congruence).
    assert (u < x) by (apply (Pl j u Hj); apply nth_error_None in Er; lia). assert (u <= l) by (eapply Ord; eauto; lia).
    assert (l < x) by (apply (Pl _ l El); apply nth_error_None in Er; lia).
    split; intros; [|lra]. split; [lra|]. split; [lra|]. intros; lia.
Qed.
Lemma name_eqb_eq a b : name_eqb a b = true <-> a = b.
Proof. destruct a, b; cbn; split; try congruence; try discriminate; intros E; [apply String.eqb_eq in E; congruence|injection E as ->; apply String.eqb_refl]. Qed.

Lemma run_sub b ops f : b_subscribed b = Some f -> bc_run b ops = b.
Proof.
  intros H. induction ops as [|o ops IH]; auto. cbn [bc_run fold_left] in *. assert (bc_step b o = b) as -> by (destruct o; cbn; auto; rewrite H; auto). exact IH.
Qed.
(** One sent group per matching transform, in order. *)
Inductive follows (b : broadcaster) (ts : list R) (f : option string) : list transform_stamped -> list sent -> Prop :=
| follows_nil : follows b ts f [] []
| follows_other m ms l : ts_child m <> f -> follows b ts f ms l -> follows b ts f (m :: ms) l
| follows_match m ms l0 l k : ts_child m = f -> nearest ts (to_sec (fst (ts_header m)) * 1000000000) k -> sends_sample b k l0 ->
    follows b ts f ms l -> follows b ts f (m :: ms) (l0 ++ l).
(** A subscribed broadcaster of a moving frame, after any calls and messages: for the
    transforms of an incoming message, in order, those of the subscribed frame make it
    publish the sample nearest in time, the others nothing.  (The index 0 is no problem
    here because a subscribed broadcaster never advances its index.) *)
Theorem C57_follow : forall b ts rows f ops ms, proper b -> b_series b = SMoving true ts rows -> ts <> [] -> increasing_ts ts ->
  b_subscribed b = Some f -> b_idx b = 0%Z ->
  exists l, handle_msg (bc_run b ops) ms = (l, Ok tt) /\ follows b ts f ms l.
Proof.
  intros b ts rows f ops ms P E N I Hs H0. rewrite (run_sub b ops f Hs). induction ms as [|m ms (l & El & Fl)]; [exists []; split; [reflexivity|constructor]|].
  cbn [handle_msg]. unfold handle_one. rewrite Hs. destruct (name_eqb (ts_child m) f) eqn:Em.
  - apply name_eqb_eq in Em. rewrite E. destruct (get_loc_ok ts (to_sec (fst (ts_header m)) * 1000000000) I N) as (k & -> & Nk).
    destruct (C49_partial b k (Z.of_nat k) P) as (l0 & -> & S0); auto.
    { split; auto. unfold samples_of. rewrite E. destruct Nk as (t & Ht & _). apply nth_error_Some. congruence. }
    rewrite El. eexists. split; [reflexivity|]. eapply follows_match; eauto.
  - rewrite El. exists l. split; [reflexivity|]. constructor; auto. intros C. apply name_eqb_eq in C. congruence.
Qed.
(** With a static frame every matching transform publishes it again. *)
Theorem C57_static : forall b t r f m, b_series b = SStatic t r -> b_twist b = None -> b_subscribed b = Some f ->
  exists l, handle_msg b [m] = (l, Ok tt) /\ (ts_child m = f -> announces b 0 t r [] l) /\ (ts_child m <> f -> l = []).
Proof.
  intros b t r f m E Ht Hs. cbn [handle_msg]. unfold handle_one. rewrite Hs, E. destruct (name_eqb (ts_child m) f) eqn:Em.
  - apply name_eqb_eq in Em. destruct (C49_static b t r None E Ht) as (l & -> & A). exists l. rewrite app_nil_r. split; [reflexivity|]. split; [auto|congruence].
  - exists []. split; [reflexivity|]. split; auto. intros C. apply name_eqb_eq in C. congruence.
Qed.

(* ------------------------------------------------------------------ example *)
Definition ex_bc : broadcaster :=
  Bc (Some "a"%string) (Some "world"%string) (SMoving true [1000000000; 2000000000; 4000000000] [(V3 1 0 0, Qt 1 0 0 0); (V3 2 0 0, Qt 0 1 0 0); (V3 3 0 0, Qt 0 0 1 0)])
    true (Some ([V3 1 0 0; V3 1 0 0; V3 1 0 0], [V3 0 0 1; V3 0 0 2; V3 0 0 3])) (Some (Some "world"%string)) 0.
Example C49_example : proper ex_bc /\ indexes (samples_of ex_bc) 2 (-1) /\ b_idx ex_bc = 0%Z /\ (2 <= samples_of ex_bc)%nat.
Proof.
  split; [|split; [split; [cbn; lia|right; reflexivity]|split; [reflexivity|cbn; lia]]].
  do 2 eexists. split; [reflexivity|]. split; [reflexivity|]. split; [|split; reflexivity]. repeat (apply Forall_cons; [lra|]). apply Forall_nil.
Qed.
Example C57_example : proper ex_bc /\ exists ts rows f, b_series ex_bc = SMoving true ts rows /\ ts <> [] /\ increasing_ts ts /\ b_subscribed ex_bc = Some f.
Proof.
  split; [apply C49_example|]. do 3 eexists. split; [reflexivity|]. split; [discriminate|]. split; [|reflexivity].
  intros [|[|[|i]]] [|[|[|j]]] a b Hi Hj L; cbn in Hi, Hj; try lia; try (destruct i; discriminate); try (destruct j; discriminate); injection Hi as <-; injection Hj as <-; lra.
Qed.
