(** C92: what a name denotes after any history, and what of a frame never changes. *)
From Coq Require Import Reals List String Arith Bool ZArith Lia.
From Verif Require Import Base Quat NdArray Frames SpecForest FrameProofs WalkProofs Matcher SpecLookup LookupProofs RegistryProofs
  PropForest PropLookup PropLocal Transform Velocity VelFrames Examples.
Import ListNotations.
Open Scope list_scope.
Open Scope nat_scope.

(* ------------------------------------------------------------------ specification *)
(** The state after further calls. *)
Definition after (s : state) (h : list op) : state := fold_left (fun s o => fst (step s o)) h s.
(** The call x, made in s, returns without an exception and is about the name n: it gives the
    name to a frame (v = Some i) or takes it away (v = None).  [register_frame] gives it to the
    frame it creates, which is the next one to be numbered. *)
Definition assigns (s : state) (x : op) (n : string) (v : option nat) : Prop :=
  snd (step s x) = Ok tt /\
  match x with
  | ORegister i _ => name_of s i = Some n /\ v = Some i
  | ORegisterFrame c _ => c_name c = Some n /\ v = Some (size s)
  | ODeregister m => m = n /\ v = None
  | ODeregisterObj i => name_of s i = Some n /\ v = None
  | OClear => v = None
  | ONew _ | OSetParent _ _ => False
  end.
(** No call of the history h, made from s on, is about n. *)
Fixpoint silent (s : state) (h : list op) (n : string) : Prop :=
  match h with
  | [] => True
  | x :: h => (forall v, ~ assigns s x n v) /\ silent (fst (step s x)) h n
  end.
(** What a name passed as a frame argument stands for. *)
Definition meaning (s : state) (n : string) (v : option nat) : Prop :=
  forall j, denotes s (PName n) j <-> v = Some j.

(* ------------------------------------------------------------------ proofs *)
Lemma meaning_lookup s n v : meaning s n v <-> lookup n (reg s) = v.
Proof.
  assert (D : forall j, denotes s (PName n) j <-> lookup n (reg s) = Some j).
  { intros j. split; [intros [(X & _)|(m & X & L)]; [discriminate|]; injection X as <-; exact L|]. intros L. right. exists n. split; [reflexivity|exact L]. }
  split.
  - intros M. destruct v as [j|]; [apply D, M; reflexivity|]. destruct (lookup n (reg s)) as [j|] eqn:E; [|reflexivity]. pose proof (proj1 (M j) (proj2 (D j) eq_refl)). discriminate.
  - intros <- j. apply D.
Qed.
Lemma meaning_step s x n : Inv s ->
  (exists v, assigns s x n v /\ lookup n (reg (fst (step s x))) = v) \/
  (forall v, ~ assigns s x n v) /\ lookup n (reg (fst (step s x))) = lookup n (reg s).
Proof.
  intros I. pose proof I as [W Rg]. unfold assigns. destruct x as [c|c u|i u|m|i| |i p]; cbn [step].
  - right. split; [intros v (_ & [])|]. destruct (new_frame s c) as [s' r] eqn:E. destruct (new_frame_effect s c s' r I E) as (Rs & _). cbn [fst]. rewrite Rs. reflexivity.
  - unfold register_frame. destruct (new_frame s c) as [s1 r] eqn:E. destruct (new_frame_effect s c s1 r I E) as (Rs & Z & K & Nm & _). destruct r as [i|e].
    2: { right. cbn [fst snd]. split; [intros v (X & _); discriminate|]. rewrite Rs. reflexivity. }
    assert (Ei : i = size s). { destruct (new_frame_cases s c s1 (Ok i) I E) as (b & [(_ & [(X & _)|(e & X)])|(p & pp & _ & _ & _ & _ & [X|(e & X)])]); congruence. }
    subst i. pose proof (Inv_new s c I) as (I1 & _). rewrite E in I1. cbn [fst] in I1. pose proof I1 as [W1 Rg1].
    unfold register. rewrite Nm. destruct (c_name c) as [m|]; [|right; cbn [fst snd]; split; [intros v (X & _); discriminate|rewrite Rs; reflexivity]].
    destruct (lookup m (reg s1)) as [old|] eqn:El; [destruct u|].
    + destruct (reg_lt s1 m old Rg1 El) as (Lo & _). destruct (set_parent s1 old None) as [s2 r] eqn:Ep.
      destruct (set_parent_spec s1 old None s2 r W1 Lo ltac:(discriminate) Ep) as (_ & _ & R2 & _).
      cbn [fst snd reg]. rewrite lookup_set, R2, Rs. destruct (String.eqb_spec n m) as [<-|Ne].
      * left. exists (Some (size s)). repeat split.
      * right. split; [intros v (_ & X & _); congruence|reflexivity].
    + right. cbn [fst snd]. split; [intros v (X & _); discriminate|]. rewrite Rs. reflexivity.
    + cbn [fst snd reg]. rewrite lookup_set, Rs. destruct (String.eqb_spec n m) as [<-|Ne].
      * left. exists (Some (size s)). repeat split.
      * right. split; [intros v (_ & X & _); congruence|reflexivity].
  - destruct (get s i) eqn:G; [|right; split; [intros v (X & _); discriminate|reflexivity]]. apply get_some_lt in G.
    unfold register. destruct (name_of s i) as [m|]; [|right; split; [intros v (X & _); discriminate|reflexivity]].
    destruct (lookup m (reg s)) as [old|] eqn:El; [destruct u|].
    + destruct (reg_lt s m old Rg El) as (Lo & _). destruct (set_parent s old None) as [s2 r] eqn:Ep.
      destruct (set_parent_spec s old None s2 r W Lo ltac:(discriminate) Ep) as (_ & _ & R2 & _).
      cbn [fst snd reg]. rewrite lookup_set, R2. destruct (String.eqb_spec n m) as [<-|Ne].
      * left. exists (Some i). repeat split.
      * right. split; [intros v (_ & X & _); congruence|reflexivity].
    + right. split; [intros v (X & _); discriminate|reflexivity].
    + cbn [fst snd reg]. rewrite lookup_set. destruct (String.eqb_spec n m) as [<-|Ne].
      * left. exists (Some i). repeat split.
      * right. split; [intros v (_ & X & _); congruence|reflexivity].
  - unfold deregister. destruct (lookup m (reg s)) eqn:El; [|right; split; [intros v (X & _); discriminate|reflexivity]].
    cbn [fst snd reg]. rewrite lookup_pop. destruct (String.eqb_spec n m) as [<-|Ne].
    + left. exists None. repeat split.
    + right. split; [intros v (_ & X & _); congruence|reflexivity].
  - destruct (get s i) eqn:G; [|right; split; [intros v (X & _); discriminate|reflexivity]].
    unfold deregister_obj. destruct (name_of s i) as [m|]; [|right; split; [intros v (X & _); discriminate|reflexivity]].
    unfold deregister. destruct (lookup m (reg s)) eqn:El; [|right; split; [intros v (X & _); discriminate|reflexivity]].
    cbn [fst snd reg]. rewrite lookup_pop. destruct (String.eqb_spec n m) as [<-|Ne].
    + left. exists None. repeat split.
    + right. split; [intros v (_ & X & _); congruence|reflexivity].
  - left. exists None. repeat split.
  - right. split; [intros v (_ & [])|]. destruct (get s i) eqn:G; [|reflexivity]. apply get_some_lt in G.
    assert (X : forall v, (forall q, v = Some q -> q < size s) -> reg (fst (set_parent s i v)) = reg s).
    { intros v Hv. destruct (set_parent s i v) as [s1 r] eqn:E. apply (set_parent_spec s i v s1 r W G Hv E). }
    destruct p as [q|]; [|rewrite X by discriminate; reflexivity]. destruct (get s q) eqn:Gq; [|reflexivity]. apply get_some_lt in Gq.
    rewrite X; [reflexivity|]. intros z Ez. injection Ez as <-. exact Gq.
Qed.
Lemma Inv_after h : forall s, Inv s -> Inv (after s h).
Proof. induction h as [|x h IH]; intros s I; [exact I|]. apply IH, Inv_step, I. Qed.
Lemma meaning_history h : forall s n, Inv s ->
  (silent s h n /\ lookup n (reg (after s h)) = lookup n (reg s)) \/
  exists h1 x h2 v, h = h1 ++ x :: h2 /\ assigns (after s h1) x n v /\ silent (after s (h1 ++ [x])) h2 n /\ lookup n (reg (after s h)) = v.
Proof.
  induction h as [|x h IH]; intros s n I; [left; split; [exact Logic.I|reflexivity]|].
  destruct (IH (fst (step s x)) n (Inv_step s x I)) as [(Q & E)|(h1 & y & h2 & v & -> & A & Q & E)].
  - destruct (meaning_step s x n I) as [(v & A & E1)|(A & E1)].
    + right. exists [], x, h, v. split; [reflexivity|]. split; [exact A|]. split; [exact Q|]. change (after s (x :: h)) with (after (fst (step s x)) h). congruence.
    + left. split; [split; assumption|]. change (after s (x :: h)) with (after (fst (step s x)) h). congruence.
  - right. exists (x :: h1), y, h2, v. repeat split; try reflexivity; try apply A; assumption.
Qed.
Lemma register_names s i u : Inv s -> i < size s -> forall k, name_of (fst (register s i u)) k = name_of s k.
Proof.
  intros [W Rg] Hi k. unfold register. destruct (name_of s i) as [m|]; [|reflexivity]. destruct (lookup m (reg s)) as [old|] eqn:El; [destruct u|]; try reflexivity.
  destruct (reg_lt s m old Rg El) as (Lo & _). destruct (set_parent s old None) as [s2 r] eqn:Ep.
  destruct (set_parent_spec s old None s2 r W Lo ltac:(discriminate) Ep) as (_ & _ & _ & N & _). exact (N k).
Qed.
Lemma step_names s x k : Inv s -> k < size s -> name_of (fst (step s x)) k = name_of s k.
Proof.
  intros I Hk. pose proof I as [W Rg]. destruct x as [c|c u|i u|m|i| |i p]; cbn [step].
  - destruct (new_frame s c) as [s' r] eqn:E. destruct (new_frame_effect s c s' r I E) as (_ & _ & K & _). apply K, Hk.
  - unfold register_frame. destruct (new_frame s c) as [s1 r] eqn:E. destruct (new_frame_effect s c s1 r I E) as (_ & _ & K & _). destruct r as [i|e]; [|apply K, Hk].
    pose proof (Inv_new s c I) as (I1 & Hi). rewrite E in I1, Hi. cbn [fst snd] in I1, Hi. pose proof (register_names s1 i u I1 (Hi i eq_refl) k) as X.
    destruct (register s1 i u) as [s2 r2]. cbn [fst] in X. destruct r2; cbn [fst]; rewrite X; apply K, Hk.
  - destruct (get s i) eqn:G; [|reflexivity]. apply get_some_lt in G. apply register_names; assumption.
  - unfold deregister. destruct (lookup m (reg s)); reflexivity.
  - destruct (get s i); [|reflexivity]. unfold deregister_obj, deregister. destruct (name_of s i) as [m|]; [|reflexivity]. destruct (lookup m (reg s)); reflexivity.
  - reflexivity.
  - destruct (get s i) eqn:G; [|reflexivity]. apply get_some_lt in G.
    assert (X : forall v, (forall q, v = Some q -> q < size s) -> name_of (fst (set_parent s i v)) k = name_of s k).
    { intros v Hv. destruct (set_parent s i v) as [s1 r] eqn:E. apply (set_parent_spec s i v s1 r W G Hv E). }
    destruct p as [q|]; [|apply X; discriminate]. destruct (get s q) eqn:Gq; [|reflexivity]. apply get_some_lt in Gq.
    apply X. intros z Ez. injection Ez as <-. exact Gq.
Qed.
Lemma after_reachable h : forall s, reachable s -> reachable (after s h).
Proof. induction h as [|x h IH]; intros s R; [exact R|]. apply IH, reachable_step, R. Qed.

(* ------------------------------------------------------------------ C92 *)
(** After any history a name means what the last call that was about it said, and what it meant
    before if there was none: nothing else a program does (creating frames, moving them,
    registering other names, calls that raise) changes it. *)
Theorem C92_names : forall s h n v, reachable s -> meaning s n v ->
  (silent s h n /\ meaning (after s h) n v) \/
  exists h1 x h2 w, h = h1 ++ x :: h2 /\ assigns (after s h1) x n w /\ silent (after s (h1 ++ [x])) h2 n /\
    meaning (after s h) n w.
Proof.
  intros s h n v R M. apply reachable_Inv in R. apply meaning_lookup in M. destruct (meaning_history h s n R) as [(Q & E)|(h1 & x & h2 & w & X & A & Q & E)].
  - left. split; [exact Q|]. apply meaning_lookup. congruence.
  - right. exists h1, x, h2, w. repeat split; try assumption; try apply A. all: apply meaning_lookup in E; apply E.
Qed.
(** A program that registers nothing under a name and does not take it away can rely on it. *)
Theorem C92_kept : forall s h n i, reachable s -> denotes s (PName n) i -> silent s h n ->
  forall j, denotes (after s h) (PName n) j <-> j = i.
Proof.
  intros s h n i R D Q j. apply reachable_Inv in R. assert (L : lookup n (reg s) = Some i) by (destruct D as [(X & _)|(m & X & L)]; [discriminate|]; injection X as <-; exact L).
  assert (E : lookup n (reg (after s h)) = Some i).
  { rewrite <- L. clear L D. revert s R Q. induction h as [|x h IH]; intros s R Q; [reflexivity|]. destruct Q as (N & Q). change (after s (x :: h)) with (after (fst (step s x)) h). rewrite IH; [|apply Inv_step, R|exact Q].
    destruct (meaning_step s x n R) as [(v & A & _)|(_ & E)]; [destruct (N v A)|exact E]. }
  apply meaning_lookup in E. rewrite (E j). split; [intros X; injection X as <-; reflexivity|intros ->; reflexivity].
Qed.
(** Frames are never destroyed, renamed or given another transform. *)
Theorem C92_frames : forall s h i, reachable s -> frame s i ->
  frame (after s h) i /\ name_of (after s h) i = name_of s i /\ body_of (after s h) i = body_of s i.
Proof.
  intros s h i R F. apply reachable_Inv in R. revert s R F. induction h as [|x h IH]; intros s R F; [repeat split; exact F|].
  change (after s (x :: h)) with (after (fst (step s x)) h). destruct (step_effect s x R) as (Z & B & _).
  destruct (IH (fst (step s x)) (Inv_step s x R)) as (F' & N & Y); [exact (Nat.lt_le_trans _ _ _ F Z)|]. split; [exact F'|]. split; [rewrite N; apply step_names; assumption|rewrite Y; apply B; exact F].
Qed.
(** The parent of a frame changes only by assigning it or by giving the frame's name away. *)
Fixpoint still (s : state) (h : list op) (i : nat) : Prop :=
  match h with
  | [] => True
  | x :: h => ~ moves s x i /\ still (fst (step s x)) h i
  end.
Lemma still_parent h : forall s i, Inv s -> frame s i -> still s h i -> parent_of (after s h) i = parent_of s i.
Proof.
  induction h as [|x h IH]; intros s i R F Q; [reflexivity|]. destruct Q as (N & Q). change (after s (x :: h)) with (after (fst (step s x)) h).
  destruct (step_effect s x R) as (Z & _ & P). rewrite IH; [|apply Inv_step, R|exact (Nat.lt_le_trans _ _ _ F Z)|exact Q]. destruct (P i F) as [E|(M & _)]; [exact E|destruct (N M)].
Qed.
Theorem C92_parents : forall s h i, reachable s -> frame s i -> still s h i ->
  parent_of (after s h) i = parent_of s i.
Proof. intros s h i R. apply still_parent, reachable_Inv, R. Qed.
Lemma still_untouched s h i j : reachable s -> frame s i -> frame s j -> same_tree (parent_of s) i j ->
  (forall k, on_way s i j k -> still s h k) -> untouched s (after s h) i j.
Proof.
  intros R Fi Fj T Q. split; [exact T|]. split; [apply C92_frames; assumption|]. split; [apply C92_frames; assumption|]. intros k K.
  assert (Fk : frame s k). { pose proof (reachable_Inv s R) as [W _]. destruct K as [(B & _)|(B & _)]; [apply (ancestor_lt s i k W Fi B)|apply (ancestor_lt s j k W Fj B)]. }
  split; [apply C92_parents; auto|apply C92_frames; assumption].
Qed.
(** The answers about two frames survive any history, of any length, that moves no frame on the
    way between them; the second frame may be given by name if no call is about that name. *)
Theorem C92_answers : forall s h i j, reachable s -> frame s i -> frame s j -> same_tree (parent_of s) i j ->
  (forall k, on_way s i j k -> still s h k) ->
  same_transforms s (after s h) i (PFrame j) (PFrame j) /\
  forall n, denotes s (PName n) j -> silent s h n -> same_transforms s (after s h) i (PName n) (PName n).
Proof.
  intros s h i j R Fi Fj T Q.
  pose proof (still_untouched s h i j R Fi Fj T Q) as U.
  destruct (C89_between s (after s h) i j R (after_reachable h s R) Fi Fj U) as (A & _ & B). split; [exact A|].
  intros n D S. apply B; [exact D|]. apply (C92_kept s h n j R D S). reflexivity.
Qed.
(** The same for velocities, between three frames: the moving one, the one it moves relative to
    and the one whose axes are used. *)
Theorem C92_answers_velocities : forall s h i j m, reachable s ->
  (forall a b, In a [i; j; m] -> In b [i; j; m] -> frame s a /\ same_tree (parent_of s) a b /\
     forall k, on_way s a b k -> still s h k) ->
  same_velocities s (after s h) i j m.
Proof.
  intros s h i j m R H. apply C89_between_velocities; [exact R|apply after_reachable, R|]. intros a b A B.
  destruct (H a b A B) as (Fa & T & Q). destruct (H b a B A) as (Fb & _). split; [exact Fa|]. apply still_untouched; assumption.
Qed.
(** A frame e is created under b; a second frame c is refused; d is hung under b; hanging
    world under c would make a loop and is refused; the name d is given to a new
    frame; w2 is deregistered, the second time in vain.  The names world, b and c keep their
    meaning, d does not, and the frames between b and c are not moved. *)
Definition later : list op :=
  [ ORegisterFrame (Ctor (Some "e"%string) (Some (PName "b"%string)) None None None false false) false;
    ORegisterFrame (Ctor (Some "c"%string) (Some (PName "b"%string)) None None None false false) false;
    OSetParent 5 (Some 2); OSetParent 0 (Some 3);
    ORegisterFrame (Ctor (Some "d"%string) None None None None false false) true;
    ODeregister "w2"%string; ODeregister "w2"%string ].
Example C92_example :
  map (fun n => lookup n (reg (after ex_lit later))) ["world"; "b"; "c"; "d"; "w2"; "e"]%string =
    [Some 0; Some 2; Some 3; Some 8; None; Some 6] /\
  denotes ex_lit (PName "c"%string) 3 /\ silent ex_lit later "c"%string /\ ~ silent ex_lit later "d"%string /\
  same_tree (parent_of ex_lit) 2 3 /\ (forall k, on_way ex_lit 2 3 k -> still ex_lit later k) /\
  on_way ex_lit 2 3 1 /\ ~ still ex_lit later 5.
Proof.
  split; [vm_compute; reflexivity|]. split; [right; exists "c"%string; split; reflexivity|].
  split. { repeat split; intros v (H & K); vm_compute in H, K; try discriminate; destruct K; discriminate. }
  split. { intros (_ & _ & _ & _ & N & _). apply (N (Some 8)). split; [vm_compute; reflexivity|]. split; vm_compute; reflexivity. }
  split; [exact (proj1 C12_example)|].
  assert (B2 : forall k, below ex_lit 2 k -> k = 2 \/ k = 1 \/ k = 0).
  { intros k A. inversion A as [|? p ? E A1]; subst; [tauto|]. cbn in E. injection E as <-. inversion A1 as [|? p ? E A2]; subst; [tauto|]. cbn in E. injection E as <-. inversion A2 as [|? p ? E A3]; subst; [tauto|discriminate]. }
  assert (B3 : forall k, below ex_lit 3 k -> k = 3 \/ k = 0).
  { intros k A. inversion A as [|? p ? E A1]; subst; [tauto|]. cbn in E. injection E as <-. inversion A1 as [|? p ? E A2]; subst; [tauto|discriminate]. }
  assert (Q : forall k, k = 2 \/ k = 1 \/ k = 3 -> still ex_lit later k).
  { intros k K. repeat split; intros M; try exact M.
    - vm_compute in M. lia.
    - vm_compute in M. lia.
    - destruct M as (n & E & M). vm_compute in E. injection E as <-. vm_compute in M. injection M as <-. lia. }
  split.
  { intros k [(A & N)|(A & N)]; [destruct (B2 k A) as [->|[->| ->]]|destruct (B3 k A) as [->| ->]]; try (apply Q; tauto); destruct N.
    - eapply anc_up; [reflexivity|]. constructor.
    - do 2 (eapply anc_up; [reflexivity|]). constructor. }
  split; [left; split; [eapply anc_up; [reflexivity|]; constructor|intros A; destruct (B3 1 A); discriminate]|].
  intros (_ & _ & N & _). apply N. reflexivity.
Qed.
(** The velocity of b relative to c in the axes of c. *)
Example C92_velocities_example : forall a b, In a [2; 3; 3] -> In b [2; 3; 3] ->
  frame ex_lit a /\ same_tree (parent_of ex_lit) a b /\ forall k, on_way ex_lit a b k -> still ex_lit later k.
Proof.
  destruct C92_example as (_ & _ & _ & _ & (r & T2 & T3) & Q & _).
  intros a b A B. assert (EA : a = 2 \/ a = 3) by (cbn in A; intuition). assert (EB : b = 2 \/ b = 3) by (cbn in B; intuition).
  split; [unfold frame; cbn; destruct EA as [->| ->]; lia|]. split; [exists r; destruct EA as [->| ->], EB as [->| ->]; split; assumption|].
  intros k K. destruct EA as [->| ->], EB as [->| ->].
  - destruct K as [(X & N)|(X & N)]; destruct (N X).
  - apply Q, K.
  - apply Q. destruct K as [K|K]; [right|left]; exact K.
  - destruct K as [(X & N)|(X & N)]; destruct (N X).
Qed.
