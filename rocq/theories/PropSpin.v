(** Property C50: stop(). *)
From Coq Require Import List Bool Arith Lia.
From Verif Require Import Spin.
Import ListNotations.

(* ---- specification ---- *)
Definition finished (p : pc) : Prop := p = PDone \/ p = PDead.
Definition all_finished (g : gstate) : Prop := forall i p, nth_error (threads g) i = Some p -> finished p.
(** Every thread has begun its loop. *)
Definition all_started (g : gstate) : Prop := forall i, nth_error (threads g) i <> Some PInit.
(** An infinite execution. *)
Definition infinite (sub : bool) (run : nat -> gstate) (ev : nat -> event) : Prop := forall n, gstep sub (run n) (ev n) (run (S n)).
(** Every thread that has not finished gets to run again. *)
Definition fair (run : nat -> gstate) (ev : nat -> event) : Prop :=
  forall n i p, nth_error (threads (run n)) i = Some p -> ~ finished p -> exists m, n <= m /\ ev m = EThread i.
Definition is_thread (e : event) : bool := match e with EThread _ => true | _ => false end.

(* ---- the measure ---- *)
Definition left_of (p : pc) : nat :=
  match p with
  | PInit | PSpin => 0 (* excluded *)
  | PPublish => 5 | PSleep => 4 | PShut => 3 | PStopped => 2 | PEnd => 1
  | PDone | PDead => 0
  end.
Fixpoint total (l : list pc) : nat := match l with [] => 0 | p :: l => left_of p + total l end.
Definition tame (g : gstate) : Prop := stopped g = true /\ forall p, In p (threads g) -> p <> PInit /\ p <> PSpin.

Lemma upd_total l i p q : nth_error l i = Some p -> total (upd_pc l i q) + left_of p = total l + left_of q.
Proof. revert i. induction l as [|a l IH]; intros [|i] E; cbn in E; try discriminate; cbn [upd_pc total]; [injection E as ->; lia|]. specialize (IH i E). lia. Qed.
Lemma upd_in l i p q : In q (upd_pc l i p) -> In q l \/ q = p.
Proof. revert i. induction l as [|a l IH]; intros [|i] H; cbn in H; auto; destruct H as [->|H]; cbn; auto. destruct (IH i H); auto. Qed.
Lemma upd_nth l i p j : nth_error (upd_pc l i p) j = if Nat.eqb i j then option_map (fun _ => p) (nth_error l j) else nth_error l j.
Proof. revert i j. induction l as [|a l IH]; intros [|i] [|j]; cbn; auto. destruct (Nat.eqb i j); reflexivity. Qed.
Lemma upd_length l i p : length (upd_pc l i p) = length l.
Proof. revert i. induction l; intros [|i]; cbn; auto. Qed.
Lemma tame_step g e g' : tame g -> gstep false g e g' -> e <> ESpin ->
  tame g' /\ length (threads g') = length (threads g) /\ total (threads g') + (if is_thread e then 1 else 0) <= total (threads g).
Proof.
  intros (Hs & Ht) H NE. destruct H as [st sh ts|st sh ts|st sh ts|st sh ts i p st' p' Hi T]; cbn [stopped threads is_thread] in *; [congruence| | |].
  - split; [split; auto|]. split; [reflexivity|]. cbn. lia.
  - split; [split; auto|]. split; [reflexivity|]. cbn. lia.
  - assert (Pi : In p ts) by (eapply nth_error_In; eauto). destruct (Ht p Pi) as (N1 & N2). pose proof (upd_total ts i p p' Hi) as U.
    assert (G : st' = true /\ p' <> PInit /\ p' <> PSpin /\ left_of p' < left_of p).
    { destruct T; subst; try congruence; repeat (split; try destruct sh; try discriminate; try (cbn; lia); auto). }
    destruct G as (G1 & G2 & G3 & G4). split; [split; [exact G1|]|split; [cbn; apply upd_length|cbn; lia]].
    cbn [threads]. intros q Hq. destruct (upd_in _ _ _ _ Hq) as [Hq'| ->]; auto.
Qed.
(** Without a subscription there is no thread in rospy.spin. *)
Definition no_spin (g : gstate) : Prop := ~ In PSpin (threads g).
Lemma no_spin_step g e g' : no_spin g -> gstep false g e g' -> no_spin g'.
Proof.
  intros N H. destruct H as [st sh ts|st sh ts|st sh ts|st sh ts i p st' p' Hi T]; cbn [threads]; auto; unfold no_spin in *; cbn [threads] in *.
  - intros I. apply in_app_or in I as [I|[I|[]]]; [auto|discriminate].
  - intros I. apply upd_in in I as [I|I]; auto. assert (p <> PSpin) by (intros ->; apply N; eapply nth_error_In; eauto).
    destruct T; try congruence; try destruct sh; try destruct st; try discriminate; congruence.
Qed.
Lemma no_spin_exec evs : forall g g', no_spin g -> exec false g evs g' -> no_spin g'.
Proof. induction evs as [|e evs IH]; intros g g' N H; inversion H; subst; auto. eapply IH; [|eauto]. eapply no_spin_step; eauto. Qed.
Lemma no_spin_reach evs g : exec false ginit evs g -> no_spin g.
Proof. apply no_spin_exec. intros []. Qed.
Lemma tame_stop g : all_started g -> no_spin g -> stopped g = true -> tame g.
Proof.
  intros A N S. split; auto. intros p Hp. split; [|intros ->; auto]. intros ->. apply In_nth_error in Hp as (i & Hi). exact (A i Hi).
Qed.

(* ---- C50 ---- *)
(** After any history of spin(), stop(), shutdown and thread steps, stop() is called when
    every started thread has begun its loop, and spin() is not called again: then in every
    fair schedule all threads finish. *)
Theorem C50_partial : forall hist g run ev, exec false ginit hist g -> all_started g ->
  gstep false g EStop (run 0) -> infinite false run ev -> fair run ev -> (forall n, ev n <> ESpin) ->
  exists n, forall m, n <= m -> all_finished (run m).
Proof.
  intros hist g run ev Hh Hs H0 I F NS.
  assert (T0 : tame (run 0)).
  { apply no_spin_reach in Hh. inversion H0; subst. apply tame_stop; cbn; auto. }
  assert (T : forall n, tame (run n)) by (induction n as [|n IH]; auto; apply (tame_step (run n) (ev n)); auto).
  assert (Mono : forall n m, n <= m -> total (threads (run m)) <= total (threads (run n))).
  { intros n m H. induction H as [|m H IH]; auto. destruct (tame_step (run m) (ev m) (run (S m)) (T m) (I m) (NS m)) as (_ & _ & D). lia. }
  assert (Fin : forall n, total (threads (run n)) = 0 -> all_finished (run n)).
  { intros n Z i p Hi. destruct (T n) as (_ & Tn). destruct (Tn p (nth_error_In _ _ Hi)) as (N1 & N2).
    assert (L : forall l j, nth_error l j = Some p -> left_of p <= total l).
    { induction l as [|a l IH]; intros [|j] E; cbn in E; try discriminate; cbn; [injection E as ->; lia|]. specialize (IH j E). lia. }
    specialize (L _ _ Hi). destruct p; cbn in L; try lia; try congruence; [left|right]; auto. }
  assert (Prog : forall k n, total (threads (run n)) <= k -> exists m, n <= m /\ total (threads (run m)) = 0).
  { induction k as [|k IH]; intros n Hk; [exists n; split; lia|].
    destruct (Nat.eq_dec (total (threads (run n))) 0) as [Z|Z]; [exists n; split; auto|].
    assert (Ex : exists i p, nth_error (threads (run n)) i = Some p /\ left_of p <> 0).
    { revert Z. generalize (threads (run n)). induction l as [|a l IHl]; cbn; [lia|]. intros Z. destruct (Nat.eq_dec (left_of a) 0) as [E|E].
      - destruct IHl as (i & p & A & B); [lia|]. exists (S i), p. auto.
      - exists 0, a. auto. }
    destruct Ex as (i & p & Hi & Hp). destruct (F n i p Hi) as (m & Lm & Em). { intros [->| ->]; auto. }
    destruct (tame_step (run m) (ev m) (run (S m)) (T m) (I m) (NS m)) as (_ & _ & D). rewrite Em in D. cbn [is_thread] in D. pose proof (Mono n m Lm).
    destruct (IH (S m)) as (m' & L' & Z'); [lia|]. exists m'. split; [lia|exact Z']. }
  destruct (Prog (total (threads (run 0))) 0 (le_n _)) as (n & _ & Z). exists n. intros m Hm. apply Fin. specialize (Mono n m Hm). lia.
Qed.
(** With a bound: the threads together take at most five steps each, and publish at most
    once each, in any schedule whatsoever; a thread that has not finished can always run. *)
Theorem C50_bound_partial : forall hist g evs g', exec false ginit hist g -> all_started g -> ~ In ESpin evs ->
  exec false g (EStop :: evs) g' ->
  length (filter is_thread evs) <= 5 * length (threads g) /\
  (forall i p, nth_error (threads g') i = Some p -> ~ finished p -> exists g'', gstep false g' (EThread i) g'').
Proof.
  intros hist g evs g' Hh Hs NS H. apply no_spin_reach in Hh. inversion H as [|? ? g1 ? ? S1 E1]; subst.
  assert (T1 : tame g1 /\ threads g1 = threads g). { inversion S1; subst. split; [apply tame_stop; cbn; auto|reflexivity]. }
  destruct T1 as (T1 & Th).
  assert (G : forall evs g1, tame g1 -> ~ In ESpin evs -> exec false g1 evs g' -> tame g' /\ length (filter is_thread evs) + total (threads g') <= total (threads g1)).
  { clear. induction evs as [|e evs IH]; intros g1 T N E; inversion E; subst; [split; auto; cbn; lia|].
    destruct (tame_step g1 e g'0 T) as (T' & _ & D); auto. { intros ->. apply N. left. auto. }
    destruct (IH g'0 T') as (A & B); auto. { intros I. apply N. right. auto. } split; auto. cbn [filter]. destruct (is_thread e); cbn [length]; lia. }
  destruct (G evs g1 T1 NS E1) as (T' & B). split.
  - assert (U : forall l, total l <= 5 * length l). { induction l as [|a l IH]; cbn [total length]; auto. assert (left_of a <= 5) by (destruct a; cbn; lia). lia. }
    specialize (U (threads g1)). rewrite Th in *. lia.
  - intros i p Hi Np. destruct g' as [st sh ts]. destruct T' as (_ & T'). cbn [threads] in *. destruct (T' p (nth_error_In _ _ Hi)) as (N1 & N2).
    assert (Ex : exists st' p', tstep false st sh p st' p').
    { destruct p; try congruence; try (do 2 eexists; constructor); exfalso; apply Np; [left|right]; auto. }
    destruct Ex as (st' & p' & Tp). eexists. eapply g_thread; eauto.
Qed.
(** The hypotheses are met: two threads in their loops. *)
Example C50_example : exists hist g, exec false ginit hist g /\ all_started g /\ threads g = [PPublish; PSleep].
Proof.
  exists [ESpin; EThread 0; ESpin; EThread 1; EThread 0; EThread 0; EThread 1; EThread 1; EThread 1]. eexists. split; [|split].
  - eapply exec_cons; [constructor|]. eapply exec_cons; [eapply g_thread; [reflexivity|constructor]|]. eapply exec_cons; [constructor|].
    eapply exec_cons; [eapply g_thread; [reflexivity|constructor]|]. eapply exec_cons; [eapply g_thread; [reflexivity|constructor]|].
    eapply exec_cons; [eapply g_thread; [reflexivity|constructor]|]. eapply exec_cons; [eapply g_thread; [reflexivity|constructor]|].
    eapply exec_cons; [eapply g_thread; [reflexivity|constructor]|]. eapply exec_cons; [eapply g_thread; [reflexivity|apply t_publish]|]. apply exec_nil.
  - intros [|[|[|i]]]; cbn; discriminate.
  - reflexivity.
Qed.

(* ---- refutations ---- *)
Definition loop_pc (k : nat) : pc := match k mod 4 with 0 => PShut | 1 => PStopped | 2 => PPublish | _ => PSleep end.
Lemma loop_step k : tstep false false false (loop_pc k) false (loop_pc (S k)).
Proof.
  unfold loop_pc. assert (M : S k mod 4 = match k mod 4 with 0 => 1 | 1 => 2 | 2 => 3 | _ => 0 end).
  { replace (S k) with (1 + k) by lia. rewrite Nat.add_mod by lia. pose proof (Nat.mod_upper_bound k 4 ltac:(lia)). destruct (k mod 4) as [|[|[|[|]]]]; try reflexivity; lia. }
  rewrite M. pose proof (Nat.mod_upper_bound k 4 ltac:(lia)). destruct (k mod 4) as [|[|[|[|]]]]; try lia.
  - apply (t_shut false false false).
  - apply (t_stopped false false false).
  - apply t_publish.
  - apply (t_sleep false false false).
Qed.
Lemma loop_again k : exists m, k <= m /\ loop_pc m = PPublish.
Proof. exists (4 * k + 2). split; [lia|]. unfold loop_pc. replace (4 * k + 2) with (2 + k * 4) by lia. rewrite Nat.mod_add by lia. reflexivity. Qed.
Lemma loop_unfinished k : ~ finished (loop_pc k).
Proof. unfold loop_pc, finished. destruct (k mod 4) as [|[|[|]]]; intros [|]; discriminate. Qed.
(** False of the code: spin() starts the thread, stop() is called before the thread has
    executed its first line, which then undoes it.  The thread publishes forever. *)
Theorem C50_refuted : exists run ev, run 0 = ginit /\ infinite false run ev /\ fair run ev /\
  ev 0 = ESpin /\ ev 1 = EStop /\ (forall n, 2 <= n -> ev n = EThread 0) /\
  (forall n, exists m, n <= m /\ nth_error (threads (run m)) 0 = Some PPublish) /\ (forall n, 1 <= n -> ~ all_finished (run n)).
Proof.
  exists (fun n => match n with 0 => ginit | 1 => GS false false [PInit] | 2 => GS true false [PInit] | S (S (S k)) => GS false false [loop_pc k] end).
  exists (fun n => match n with 0 => ESpin | 1 => EStop | _ => EThread 0 end).
  split; [reflexivity|]. split; [|split; [|split; [reflexivity|split; [reflexivity|split; [|split]]]]].
  - intros [|[|[|k]]].
    + apply (g_spin false false false []).
    + apply g_stop.
    + apply (g_thread false true false [PInit] 0 PInit false PShut); [reflexivity|]. apply (t_init false).
    + apply (g_thread false false false [loop_pc k] 0 (loop_pc k) false (loop_pc (S k))); [reflexivity|apply loop_step].
  - intros n i p Hi Np. assert (i = 0) as ->. { destruct n as [|[|[|k]]]; destruct i as [|i]; auto; destruct i; discriminate. }
    exists (n + 2). split; [lia|]. destruct n as [|[|n]]; reflexivity.
  - intros [|[|n]]; [lia|lia|reflexivity].
  - intros n. destruct (loop_again n) as (m & L & E). exists (S (S (S m))). split; [lia|]. cbn. rewrite E. reflexivity.
  - intros n Hn A. destruct n as [|[|[|k]]]; [lia| | |].
    + destruct (A 0 PInit eq_refl); discriminate.
    + destruct (A 0 PInit eq_refl); discriminate.
    + exact (loop_unfinished k (A 0 (loop_pc k) eq_refl)).
Qed.
(** False of the code: stop() while the loop sleeps, followed by spin() before it wakes up:
    the old thread goes on as well, so that two of them publish. *)
Theorem C50_restart_refuted : exists hist g g1 g2 g3, exec false ginit hist g /\ all_started g /\ threads g = [PSleep] /\
  gstep false g EStop g1 /\ gstep false g1 ESpin g2 /\ gstep false g2 (EThread 1) g3 /\
  exists run ev, run 0 = g3 /\ infinite false run ev /\ fair run ev /\ (forall n, exists i, ev n = EThread i) /\
    forall n i, i < 2 -> exists m, n <= m /\ nth_error (threads (run m)) i = Some PPublish.
Proof.
  exists [ESpin; EThread 0; EThread 0; EThread 0; EThread 0], (GS false false [PSleep]), (GS true false [PSleep]), (GS true false [PSleep; PInit]), (GS false false [PSleep; PShut]).
  split. { eapply exec_cons; [apply (g_spin false false false [])|]. eapply exec_cons; [eapply (g_thread _ _ _ _ 0); [reflexivity|apply t_init]|].
    eapply exec_cons; [eapply (g_thread _ _ _ _ 0); [reflexivity|apply t_shut]|]. eapply exec_cons; [eapply (g_thread _ _ _ _ 0); [reflexivity|apply t_stopped]|].
    eapply exec_cons; [eapply (g_thread _ _ _ _ 0); [reflexivity|apply t_publish]|]. apply exec_nil. }
  split; [intros [|[|i]]; cbn; discriminate|]. split; [reflexivity|]. split; [apply g_stop|]. split; [apply (g_spin false true false [PSleep])|].
  split; [apply (g_thread false true false [PSleep; PInit] 1 PInit false PShut); [reflexivity|apply (t_init false)]|].
  (* the two threads take turns *)
  exists (fun n => GS false false [loop_pc (3 + (n + 1) / 2); loop_pc (n / 2)]), (fun n => EThread (n mod 2)).
  assert (D : forall n, (n mod 2 = 0 /\ (S n + 1) / 2 = S (n / 2) /\ (n + 1) / 2 = n / 2 /\ S n / 2 = n / 2) \/
                        (n mod 2 = 1 /\ (S n + 1) / 2 = (n + 1) / 2 /\ S n / 2 = S (n / 2))).
  { intros n. pose proof (Nat.div_mod_eq n 2) as E. pose proof (Nat.mod_upper_bound n 2 ltac:(lia)) as U. destruct (n mod 2) as [|[|]] eqn:M; [left|right|lia].
    - split; auto. split; [symmetry; apply (Nat.div_unique _ 2 _ 0); lia|]. split; symmetry; [apply (Nat.div_unique _ 2 _ 1)|apply (Nat.div_unique _ 2 _ 1)]; lia.
    - split; auto. split; symmetry.
      + rewrite <- (Nat.div_unique (n + 1) 2 (n / 2 + 1) 0) by lia. apply (Nat.div_unique _ 2 _ 1); lia.
      + apply (Nat.div_unique _ 2 _ 0); lia. }
  split; [reflexivity|]. split; [|split; [|split; [eauto|]]].
  - intros n. destruct (D n) as [(M & A & A' & B)|(M & A & B)]; rewrite M, A, B.
    + rewrite A'. exact (g_thread false false false [loop_pc (3 + n / 2); loop_pc (n / 2)] 0 (loop_pc (3 + n / 2)) false (loop_pc (S (3 + n / 2))) eq_refl (loop_step (3 + n / 2))).
    + exact (g_thread false false false [loop_pc (3 + (n + 1) / 2); loop_pc (n / 2)] 1 (loop_pc (n / 2)) false (loop_pc (S (n / 2))) eq_refl (loop_step (n / 2))).
  - intros n i p Hi _. destruct i as [|[|i]]; [| |destruct i; discriminate].
    + exists (n * 2). split; [lia|]. rewrite Nat.mod_mul by lia. reflexivity.
    + exists (1 + n * 2). split; [lia|]. rewrite Nat.mod_add by lia. reflexivity.
  - intros n [|[|i]] Hi; [| |lia].
    + destruct (loop_again (3 + n)) as (m & L & E). exists ((m - 3) * 2). split; [lia|]. cbn [threads nth_error].
      replace (((m - 3) * 2 + 1) / 2) with (m - 3) by (apply (Nat.div_unique _ 2 _ 1); lia). replace (3 + (m - 3)) with m by lia. rewrite E. reflexivity.
    + destruct (loop_again n) as (m & L & E). exists (m * 2). split; [lia|]. cbn [threads nth_error]. rewrite Nat.div_mul by lia. rewrite E. reflexivity.
Qed.
(** False of the code: with a subscription (rospy.spin instead of the loop), stop() has no
    effect: no thread finishes before the node is shut down. *)
Theorem C50_subscribe_refuted : forall hist evs g g', exec true ginit hist g -> shutdown g = false -> ~ In EShutdown evs ->
  exec true g (EStop :: evs) g' -> forall i p, nth_error (threads g') i = Some p -> ~ finished p.
Proof.
  intros hist evs g g' Hh Sh NS H.
  assert (Stay : forall evs g g', exec true g evs g' -> shutdown g' = false -> (forall p, In p (threads g) -> p = PInit \/ p = PSpin) -> shutdown g = false /\ forall p, In p (threads g') -> p = PInit \/ p = PSpin).
  { clear. induction evs as [|e evs IH]; intros g g' E S G; inversion E as [|? ? g1 ? ? S1 E1]; subst; [auto|].
    assert (Hsh : shutdown g1 = false -> shutdown g = false) by (inversion S1; subst; cbn; congruence).
    assert (G1 : shutdown g1 = false -> forall p, In p (threads g1) -> p = PInit \/ p = PSpin).
    { intros S1'. inversion S1 as [| | |? ? ? i p st' p' Hi T]; subst; cbn [threads shutdown] in *; auto.
      - intros p Hp. apply in_app_or in Hp as [Hp|[<-|[]]]; auto.
      - intros q Hq. apply upd_in in Hq as [Hq| ->]; auto. destruct (G p (nth_error_In _ _ Hi)) as [->| ->]; inversion T; subst; auto; congruence. }
    assert (Back : forall evs g1, exec true g1 evs g' -> shutdown g1 = false \/ shutdown g' = true).
    { clear. induction evs as [|e evs IH]; intros g1 E; inversion E as [|? ? g2 ? ? S E2]; subst; [destruct (shutdown g'); auto|].
      destruct (IH _ E2) as [H|H]; auto. left. inversion S; subst; cbn in *; congruence. }
    destruct (Back _ _ E1) as [B|B]; [|congruence]. split; [auto|]. apply (IH g1 g'); auto. }
  assert (Sh' : shutdown g' = false).
  { inversion H as [|? ? g1 ? ? S1 E1]; subst. assert (S1' : shutdown g1 = false) by (inversion S1; subst; auto). clear -S1' E1 NS. revert g1 S1' E1.
    induction evs as [|e evs IH]; intros g1 S1 E; inversion E as [|? ? g2 ? ? S E2]; subst; auto. apply (IH ltac:(intros I; apply NS; right; auto) g2); auto.
    inversion S; subst; cbn in *; auto. exfalso. apply NS. left. auto. }
  destruct (Stay hist ginit g Hh Sh) as (_ & G); [intros p []|]. destruct (Stay (EStop :: evs) g g' H Sh' G) as (_ & G').
  intros i p Hi [->| ->]; destruct (G' _ (nth_error_In _ _ Hi)); discriminate.
Qed.
Example C50_subscribe_example : exists g g', exec true ginit [ESpin; EThread 0] g /\ shutdown g = false /\ exec true g [EStop] g' /\ threads g' = [PSpin].
Proof.
  exists (GS false false [PSpin]), (GS true false [PSpin]). split; [|split; [reflexivity|split; [|reflexivity]]].
  - eapply exec_cons; [apply (g_spin true false false [])|]. eapply exec_cons; [|apply exec_nil]. apply (g_thread true false false [PInit] 0 PInit false PSpin); [reflexivity|apply (t_init true)].
  - eapply exec_cons; [apply g_stop|apply exec_nil].
Qed.
