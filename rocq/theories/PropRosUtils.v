(** Property C77: starting a node and the playing speed. *)
From Coq Require Import Reals ZArith List String Bool Lia Lra Arith.
From Verif Require Import Base RosMsg PropRosMsg Velocity VelProofs TimeProofs Estim RosUtils.
Import ListNotations.
Open Scope R_scope.
Open Scope list_scope.

(* ------------------------------------------------------------------ specification *)
(** Every other field of the world. *)
Definition same_but_node (w w' : rosworld) : Prop :=
  running w' = running w /\ launches w' = launches w /\ hooks w' = hooks w /\ warned w' = warned w.

Definition Inv (w : rosworld) : Prop :=
  (forall k, In k (hooks w) <-> (k < launches w)%nat) /\ (forall k, running w = Some (Launched k) -> (k < launches w)%nat).
Lemma inv_rospy w name : Inv w -> Inv (fst (rospy_init w name)).
Proof. intros H. unfold rospy_init. destruct (node w); auto. Qed.
Lemma inv_stop w k : Inv w -> Inv (stop_launched w k).
Proof.
  intros H. unfold stop_launched. destruct (running w) as [[|j]|]; [exact H| |exact H].
  destruct (Nat.eqb j k); [|exact H]. destruct H as (A & B). split; [exact A|discriminate].
Qed.
Lemma inv_step w e : Inv w -> Inv (step w e).
Proof.
  intros H. destruct e as [name st|h| |]; cbn [step].
  - unfold init_node. destruct (running w) as [m|] eqn:E.
    + pose proof (inv_rospy w name H) as I. destruct (rospy_init w name). exact I.
    + destruct st; [|exact H].
      assert (I : Inv (World (Some (Launched (launches w))) (S (launches w)) (launches w :: hooks w) (node w) (warned w))).
      { destruct H as (A & B). split; cbn.
        - intros k. rewrite A. lia.
        - intros k Hk. injection Hk as <-. lia. }
      apply (inv_rospy _ name) in I. destruct (rospy_init _ name). exact I.
  - destruct h; [apply inv_stop; auto|exact H].
  - destruct (running w); [exact H|]. destruct H as (A & B). split; [exact A|discriminate].
  - destruct H as (A & B). split; [exact A|discriminate].
Qed.
Lemma inv_history l : Inv (history l).
Proof.
  unfold history. assert (G : forall w, Inv w -> Inv (fold_left step l w)).
  { induction l as [|e l IH]; intros w H; auto. cbn. apply IH, inv_step, H. }
  apply G. split; [|discriminate]. intros k. cbn. split; [tauto|lia].
Qed.
Lemma rospy_fields w name : same_but_node w (fst (rospy_init w name)).
Proof. unfold rospy_init, same_but_node. destruct (node w); cbn; auto. Qed.
Lemma rospy_named w name : snd (rospy_init w name) = true -> node (fst (rospy_init w name)) = Some name.
Proof. unfold rospy_init. destruct (node w) as [n|] eqn:E; cbn; auto. intros H. apply String.eqb_eq in H. subst. exact E. Qed.
Lemma rospy_ok w name : snd (rospy_init w name) = true <-> node w = None \/ node w = Some name.
Proof.
  unfold rospy_init. destruct (node w) as [n|]; cbn; [|tauto]. rewrite String.eqb_eq. split; [intros ->; auto|].
  intros [H|H]; [discriminate|congruence].
Qed.

(** Without a master and without start_master the call is refused and changes nothing. *)
Theorem C77_refused : forall w name, running w = None -> init_node w name false = (w, NotRunning).
Proof. intros w name H. unfold init_node. rewrite H. reflexivity. Qed.
(** Otherwise, if the process has no node of another name, the node runs under the name; if a
    master was running it is left as it is and the stub is returned; if none was, exactly one
    new master is started, which the returned handle stops. *)
Theorem C77_init : forall l name st, let w := history l in
  (running w <> None \/ st = true) -> (node w = None \/ node w = Some name) ->
  exists w' h, init_node w name st = (w', Returned h) /\ node w' = Some name /\ running w' <> None /\ warned w' = warned w /\
    (forall m, running w = Some m -> h = Stub /\ running w' = Some m /\ launches w' = launches w) /\
    (running w = None -> exists k, h = Parent k /\ running w' = Some (Launched k) /\ launches w' = S (launches w) /\
       running (shutdown w' h) = None /\ forall j, In j (hooks w) -> j <> k).
Proof.
  intros l name st w Hr Hn. pose proof (inv_history l) as I. fold w in I. unfold init_node. destruct (running w) as [m|] eqn:E.
  - pose proof (rospy_fields w name) as (A & B & C & D). pose proof (proj2 (rospy_ok w name) Hn) as K. pose proof (rospy_named w name K) as N.
    destruct (rospy_init w name) as (w' & b). cbn [fst snd] in *. subst b. exists w', Stub. split; [reflexivity|]. split; [exact N|].
    split; [rewrite A, E; discriminate|]. split; [exact D|]. split; [|discriminate]. intros m' Hm. injection Hm as <-. rewrite A. auto.
  - destruct Hr as [Hr|Hr]; [congruence|]. subst st.
    set (w1 := World (Some (Launched (launches w))) (S (launches w)) (launches w :: hooks w) (node w) (warned w)).
    pose proof (rospy_fields w1 name) as (A & B & C & D). pose proof (proj2 (rospy_ok w1 name) Hn) as K. pose proof (rospy_named w1 name K) as N.
    destruct (rospy_init w1 name) as (w' & b). cbn [fst snd] in *. subst b. exists w', (Parent (launches w)). split; [reflexivity|]. split; [exact N|].
    split; [rewrite A; discriminate|]. split; [exact D|]. split; [discriminate|]. intros _. exists (launches w). split; [reflexivity|]. split; [exact A|]. split; [exact B|]. split.
    + cbn [shutdown]. unfold stop_launched. rewrite A. cbn [running w1]. rewrite Nat.eqb_refl. reflexivity.
    + intros j Hj. apply (proj1 I) in Hj. lia.
Qed.
(** The stub's shutdown stops nothing and warns once. *)
Theorem C77_stub : forall w, running (shutdown w Stub) = running w /\ node (shutdown w Stub) = node w /\ warned (shutdown w Stub) = S (warned w).
Proof. intros w. repeat split. Qed.
(** Whatever happened before, no master started by init_node outlives the process. *)
Theorem C77_exit : forall l k, running (exit_process (history l)) <> Some (Launched k).
Proof.
  intros l k. destruct (inv_history l) as (A & B). unfold exit_process.
  assert (G : forall hs w, (running w = Some (Launched k) -> In k hs) -> running (fold_left stop_launched hs w) <> Some (Launched k)).
  { induction hs as [|h hs IH]; intros w H; [exact H|]. cbn [fold_left]. apply IH. intros Hk. unfold stop_launched in Hk.
    destruct (running w) as [[|j]|] eqn:E; try congruence. destruct (Nat.eqb_spec j h); [discriminate|].
    rewrite E in Hk. injection Hk as ->. destruct (H eq_refl); [congruence|auto]. }
  apply G. intros Hk. apply A, B, Hk.
Qed.
(** And masters of others are never stopped by init_node, the handles or the exit. *)
Theorem C77_external : forall w, running w = Some External ->
  (forall name st, running (fst (init_node w name st)) = Some External) /\
  (forall h, running (shutdown w h) = Some External) /\ running (exit_process w) = Some External.
Proof.
  intros w H. split; [|split].
  - intros name st. unfold init_node. rewrite H. pose proof (rospy_fields w name) as (A & _). destruct (rospy_init w name). cbn in *. congruence.
  - intros [k|]; cbn; [unfold stop_launched; rewrite H; exact H|exact H].
  - unfold exit_process. revert H. generalize (hooks w). intros hs. revert w. induction hs as [|h hs IH]; intros w H; auto. cbn. apply IH. unfold stop_launched. rewrite H. exact H.
Qed.
(** False of the code: a call that raises can leave a master running that nobody has a
    handle for (until the process ends). *)
Theorem C77_raise_refuted : let w := history [Init "a" true; Shutdown (Parent 0)] in
  running w = None /\ snd (init_node w "b" true) = OtherNode /\ running (fst (init_node w "b" true)) = Some (Launched 1).
Proof. repeat split. Qed.
Example C77_example : let w := history [OtherStarts; Init "a" true; OtherStops] in
  running w = None /\ node w = Some "a"%string /\ snd (init_node w "a" true) = Returned (Parent 0).
Proof. repeat split. Qed.

(* ------------------------------------------------------------------ playing speed *)
Lemma last_nthR (l : list R) : last l 0 = nth (List.length l - 1) l 0.
Proof.
  induction l as [|a [|b l] IH]; [reflexivity|reflexivity|]. cbn [last List.length]. cbn [List.length] in IH.
  replace (S (S (List.length l)) - 1)%nat with (S (S (List.length l) - 1)) by lia. cbn [nth]. exact IH.
Qed.
Lemma sum_diffs ts d : fold_right Rplus 0 (diffs ts) = last ts d - hd d ts.
Proof.
  induction ts as [|a [|b l] IH]; cbn [diffs fold_right hd last]; [lra|lra|].
  cbn [diffs hd] in IH. rewrite IH. cbn [last]. lra.
Qed.
(** The interval between two shown messages is the mean time between them, divided by the
    speed, cut to whole milliseconds. *)
Theorem C77_interval : forall ts speed step, (2 <= List.length ts)%nat -> increasing ts -> 0 < speed -> (1 <= step)%Z ->
  exists iv, play_interval ts speed step = Ok iv /\ (0 <= iv)%Z /\
    let wanted := (nth (List.length ts - 1) ts 0 - nth 0 ts 0) / INR (List.length ts - 1) / 1000000 / speed * IZR step in
    IZR iv <= wanted < IZR iv + 1.
Proof.
  intros ts speed step H2 Hi Hs Hst. unfold play_interval, mean.
  assert (L : List.length (diffs (map (fun t => t / 1000000) ts)) = (List.length ts - 1)%nat) by (rewrite length_diffs, map_length; reflexivity).
  destruct (diffs (map (fun t => t / 1000000) ts)) as [|x xs] eqn:E; [cbn in L; lia|]. rewrite <- E in *. rewrite L.
  replace (Req_b speed 0) with false by (symmetry; apply Req_b_false; lra).
  rewrite (sum_diffs _ 0). replace (last (map (fun t => t / 1000000) ts) 0) with (nth (List.length ts - 1) ts 0 / 1000000).
  2:{ rewrite last_nthR, map_length. rewrite (nth_indep (map (fun t => t / 1000000) ts) 0 (0 / 1000000)) by (rewrite map_length; lia). rewrite (map_nth (fun t => t / 1000000)). reflexivity. }
  replace (hd 0 (map (fun t => t / 1000000) ts)) with (nth 0 ts 0 / 1000000) by (destruct ts; [cbn in H2; lia|reflexivity]).
  set (N := INR (List.length ts - 1)). assert (HN : 0 < N) by (apply lt_0_INR; lia).
  set (wanted := (nth (List.length ts - 1) ts 0 - nth 0 ts 0) / N / 1000000 / speed * IZR step).
  replace ((nth (List.length ts - 1) ts 0 / 1000000 - nth 0 ts 0 / 1000000) / N / speed * IZR step) with wanted by (unfold wanted; field; lra).
  assert (HW : 0 <= wanted).
  { unfold wanted. pose proof (inc_nth ts 0 (List.length ts - 1) Hi ltac:(lia)) as G. apply IZR_le in Hst.
    apply Rmult_le_pos; [|lra]. repeat (apply Rmult_le_pos; [|left; apply Rinv_0_lt_compat; lra]). lra. }
  destruct (trunc_nonneg _ HW) as (A & B). exists (trunc wanted). split; [reflexivity|]. split; [exact A|]. exact B.
Qed.
(** False of the code in general: recordings at more than 1 kHz are played with no delay at
    all, whatever the number of messages, so not at the requested speed. *)
Theorem C77_interval_refuted : forall ts, (2 <= List.length ts)%nat -> increasing ts ->
  nth (List.length ts - 1) ts 0 - nth 0 ts 0 < 1000000 * INR (List.length ts - 1) -> play_interval ts 1 1 = Ok 0%Z.
Proof.
  intros ts H2 Hi H. destruct (C77_interval ts 1 1 H2 Hi ltac:(lra) ltac:(lia)) as (iv & E & P & A & B). rewrite E. f_equal.
  assert (HN : 0 < INR (List.length ts - 1)) by (apply lt_0_INR; lia). set (N := INR (List.length ts - 1)) in *. set (d := nth (List.length ts - 1) ts 0 - nth 0 ts 0) in *.
  assert (W : d / N / 1000000 / 1 * IZR 1 < 1).
  { replace (d / N / 1000000 / 1 * IZR 1) with (d * / (1000000 * N)) by (field; lra). apply (Rmult_lt_reg_r (1000000 * N)); [lra|]. rewrite Rmult_assoc, Rinv_l by lra. lra. }
  assert (IZR iv < IZR 1) by lra. apply lt_IZR in H0. lia.
Qed.
(** Fewer than two timestamps are refused. *)
Theorem C77_single : forall ts speed step, (List.length ts < 2)%nat -> play_interval ts speed step = Raise ValueError.
Proof. intros [|a [|b ts]] speed step H; cbn in H; try lia; reflexivity. Qed.
Example C77_interval_example : increasing [0; 20000000; 40000000] /\ play_interval [0; 20000000; 40000000] 2 3 = Ok 30%Z.
Proof.
  split.
  - intros i j x y Hij Hx Hy. destruct i as [|[|[|i]]]; destruct j as [|[|[|j]]]; simpl in *; try discriminate; try lia;
     try (destruct i; discriminate); try (destruct j; discriminate); injection Hx as <-; injection Hy as <-; lra.
  - unfold play_interval. cbn [map diffs mean fold_right List.length INR]. replace (Req_b 2 0) with false by (symmetry; apply Req_b_false; lra).
    match goal with |- Ok (trunc ?x) = _ => replace x with (IZR 30) by lra end. rewrite trunc_IZR. reflexivity.
Qed.
