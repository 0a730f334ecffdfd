(** C89: answers depend only on the frames between the ones a call names. *)
From Coq Require Import Reals List String Arith Bool ZArith Lia.
From Verif Require Import Base Quat NdArray Frames SpecForest FrameProofs WalkProofs Matcher SpecLookup LookupProofs RegistryProofs
  PropForest PropLookup Transform Velocity VelFrames Examples.
Import ListNotations.
Open Scope nat_scope.

(* ------------------------------------------------------------------ specification *)
(** k is on the way between i and j: i or j, but not both, is k or below k. *)
Definition on_way (s : state) (i j k : nat) : Prop :=
  (below s i k /\ ~ below s j k) \/ (below s j k /\ ~ below s i k).
(** i and j belong to one tree in s, they are frames in s', and the frames on the way between
    them have in s' the parent and the transform they have in s.  (Nothing is said about any
    other frame, in particular about the common ancestor and what is above it.) *)
Definition untouched (s s' : state) (i j : nat) : Prop :=
  same_tree (parent_of s) i j /\ frame s' i /\ frame s' j /\
  forall k, on_way s i j k -> parent_of s' k = parent_of s k /\ body_of s' k = body_of s k.
(** Every question about i and j (and the frame m as point of view) has the same answer, a
    result or an exception, in both states. *)
Definition same_transforms (s s' : state) (i : nat) (to to' : pref) : Prop :=
  forall squad,
  lookup_transform squad s' i to' = lookup_transform squad s i to /\
  forall arr axis time_axis ts,
    transform_points squad s' i arr to' axis time_axis ts = transform_points squad s i arr to axis time_axis ts /\
    transform_vectors squad s' i arr to' axis time_axis ts = transform_vectors squad s i arr to axis time_axis ts /\
    transform_quaternions squad s' i arr to' axis time_axis ts = transform_quaternions squad s i arr to axis time_axis ts.
Definition same_velocities (s s' : state) (i j m : nat) : Prop :=
  forall squad deriv allow ret,
  lookup_linear_velocity squad s' i (Some (PFrame j)) (Some (PFrame m)) allow ret =
    lookup_linear_velocity squad s i (Some (PFrame j)) (Some (PFrame m)) allow ret /\
  lookup_angular_velocity squad deriv s' i (Some (PFrame j)) (Some (PFrame m)) allow ret =
    lookup_angular_velocity squad deriv s i (Some (PFrame j)) (Some (PFrame m)) allow ret /\
  lookup_twist squad deriv s' i (Some (PFrame j)) (Some (PFrame m)) allow ret =
    lookup_twist squad deriv s i (Some (PFrame j)) (Some (PFrame m)) allow ret /\
  forall arr w axis time_axis ts,
    transform_angular_velocity squad deriv s' i arr (PFrame j) w axis time_axis ts =
      transform_angular_velocity squad deriv s i arr (PFrame j) w axis time_axis ts /\
    transform_linear_velocity squad deriv s' i arr (PFrame j) w (Some (PFrame m)) (Some (PFrame m)) axis time_axis ts =
      transform_linear_velocity squad deriv s i arr (PFrame j) w (Some (PFrame m)) (Some (PFrame m)) axis time_axis ts.
(** The frame whose parent a call may change: the frame itself for [rf.parent = p], and the
    frame that loses its name for a registration with update=True. *)
Definition moves (s : state) (x : op) (k : nat) : Prop :=
  match x with
  | OSetParent i _ => k = i
  | ORegister i true => exists n, name_of s i = Some n /\ lookup n (reg s) = Some k
  | ORegisterFrame c true => exists n, c_name c = Some n /\ lookup n (reg s) = Some k
  | _ => False
  end.

(* ------------------------------------------------------------------ proofs *)
Lemma no_loop par k p : rooted par k -> par k = Some p -> ~ ancestor par p k.
Proof.
  intros R E A. apply rooted_chain in R as (l & C). pose proof (chain_nodup _ _ _ C) as N.
  inversion C as [? E'|? p' l' E' C']; subst; [congruence|]. rewrite E in E'. injection E' as <-. apply (chain_in _ _ _ k C') in A. inversion N; contradiction.
Qed.
Lemma climb_in par i l c k : climb par i l c -> In k l -> ancestor par i k /\ exists p, par k = Some p /\ ancestor par p c.
Proof.
  induction 1 as [|i p l c E C IH]; [intros []|]. intros [<-|H].
  - split; [constructor|]. exists p. split; [exact E|]. eapply climb_ancestor, C.
  - destruct (IH H) as (A & B). split; [|exact B]. eapply anc_up; eassumption.
Qed.
Lemma climb_same par par' i l c : climb par i l c -> (forall k, In k l -> par' k = par k) -> climb par' i l c.
Proof.
  induction 1 as [|i p l c E C IH]; intros H; [constructor|]. econstructor; [rewrite H by (left; reflexivity); exact E|]. apply IH. intros k K. apply H. right. exact K.
Qed.
Lemma climb_anc par i l c a : climb par i l c -> ancestor par i a -> In a l \/ ancestor par c a.
Proof.
  induction 1 as [|i p l c E C IH]; intros A; [right; exact A|]. inversion A as [|? p' ? E' A']; subst; [left; left; reflexivity|].
  rewrite E in E'. injection E' as <-. destruct (IH A'); [left; right|right]; assumption.
Qed.
Lemma walks_way s i j up down c k : WF s -> i < size s -> j < size s -> walks s i j up down c -> In k (up ++ down) -> on_way s i j k.
Proof.
  intros W Hi Hj (U & D & L) K. unfold on_way, below.
  assert (X : forall a b l, a < size s -> climb (parent_of s) a l c -> In k l -> (forall x, ancestor (parent_of s) a x -> ancestor (parent_of s) b x -> ancestor (parent_of s) c x) -> ancestor (parent_of s) a k /\ ~ ancestor (parent_of s) b k).
  { intros a b l Ha C I M. destruct (climb_in _ _ _ _ _ C I) as (A & p & E & B). split; [exact A|]. intros A'. pose proof (M k A A') as Z.
    apply (no_loop (parent_of s) k p); [|exact E|eapply ancestor_trans; eassumption]. apply (wf_root s W). eapply ancestor_lt; eassumption. }
  apply in_app_or in K as [K|K].
  - left. eapply X; try eassumption. 
  - right. eapply X with (l := rev down); try eassumption; [apply in_rev in K; exact K|]. intros x A B. apply L; assumption.
Qed.
Lemma untouched_between s s' i j : WF s -> WF s' -> i < size s -> j < size s -> untouched s s' i j -> frames_between s' i j = frames_between s i j.
Proof.
  intros W W' Hi Hj (T & Hi' & Hj' & K). destruct (walk_same s i j W Hi Hj T) as (up & down & c & E & WK).
  assert (O : forall k, In k (up ++ down) -> on_way s i j k) by (intros k; eapply walks_way; eassumption).
  destruct WK as (U & D & L).
  assert (U' : climb (parent_of s') i up c) by (eapply climb_same; [exact U|]; intros k Hk; apply K, O, in_or_app; left; exact Hk).
  assert (D' : climb (parent_of s') j (rev down) c) by (eapply climb_same; [exact D|]; intros k Hk; apply K, O, in_or_app; right; apply in_rev; exact Hk).
  assert (E' : walk s' i j = Ok (up, down)).
  { apply (walk_unique s' i j up down c W' Hi' Hj'). split; [exact U'|]. split; [exact D'|]. intros a A B.
    destruct (climb_anc _ _ _ _ _ U' A) as [IA|]; [|assumption]. destruct (climb_anc _ _ _ _ _ D' B) as [IB|]; [|assumption]. exfalso.
    assert (WK : walks s i j up down c) by (split; [exact U|split; [exact D|exact L]]).
    destruct (climb_in _ _ _ _ _ U IA) as (A1 & _). destruct (climb_in _ _ _ _ _ D IB) as (A2 & _).
    destruct (O a) as [[_ N]|[_ N]]; [apply in_or_app; left; exact IA| |]; contradiction. }
  unfold frames_between. rewrite E, E'. cbn [bind].
  assert (B : forall k, In k (up ++ down) -> body_at s' k = body_at s k) by (intros k Hk; rewrite !body_at_of; rewrite (proj2 (K k (O k Hk))); reflexivity).
  rewrite (traverse_ext (fun k => add_frame (body_at s' k) false) (fun k => add_frame (body_at s k) false) up) by (intros k Hk; rewrite B by (apply in_or_app; left; exact Hk); reflexivity).
  rewrite (traverse_ext (fun k => add_frame (body_at s' k) true) (fun k => add_frame (body_at s k) true) down) by (intros k Hk; rewrite B by (apply in_or_app; right; exact Hk); reflexivity).
  reflexivity.
Qed.
(** What is computed from the frames between. *)
Lemma transforms_from s s' i to to' j : resolve_rf s to = Ok j -> resolve_rf s' to' = Ok j -> frames_between s' i j = frames_between s i j -> same_transforms s s' i to to'.
Proof.
  intros R R' E squad.
  assert (P : forall arr axis n ta ts, prepare squad s' i arr to' axis n ta ts = prepare squad s i arr to axis n ta ts).
  { intros. unfold prepare. rewrite R, R'. cbn [bind]. rewrite E. reflexivity. }
  split; [unfold lookup_transform; rewrite R, R'; cbn [bind]; rewrite E; reflexivity|]. intros arr axis ta ts.
  unfold transform_points, transform_vectors, transform_quaternions. rewrite !P. repeat split.
Qed.
Lemma resolve_frame s i : i < size s -> resolve_rf s (PFrame i) = Ok i.
Proof. intros H. unfold resolve_rf. destruct (get_lt s i H) as (n & E). rewrite E. reflexivity. Qed.
Lemma resolve_ref_frame s i j : j < size s -> resolve_ref s i (Some (PFrame j)) = Ok j.
Proof. intros H. unfold resolve_ref. rewrite resolve_frame by exact H. reflexivity. Qed.
Lemma velocities_from s s' i j m : 
  (forall a, In a [i; j; m] -> a < size s /\ a < size s') ->
  (forall a b, In a [i; j; m] -> In b [i; j; m] -> frames_between s' a b = frames_between s a b) -> same_velocities s s' i j m.
Proof.
  intros Z E squad deriv allow ret.
  assert (I : In i [i; j; m]) by (left; reflexivity). assert (J : In j [i; j; m]) by (right; left; reflexivity). assert (M : In m [i; j; m]) by (right; right; left; reflexivity).
  assert (T : forall a b, In a [i; j; m] -> In b [i; j; m] -> same_transforms s s' a (PFrame b) (PFrame b)).
  { intros a b A B. apply (transforms_from s s' a _ _ b); [apply resolve_frame, Z, B..|apply E; assumption]. }
  assert (LK : forall a b, In a [i; j; m] -> In b [i; j; m] -> lookup_transform squad s' a (PFrame b) = lookup_transform squad s a (PFrame b)) by (intros a b A B; apply (T a b A B squad)).
  assert (V : forall a b arr ax ta ts, In a [i; j; m] -> In b [i; j; m] -> transform_vectors squad s' a arr (PFrame b) ax ta ts = transform_vectors squad s a arr (PFrame b) ax ta ts) by (intros a b arr ax ta ts A B; apply (T a b A B squad)).
  assert (R : forall a b, In b [i; j; m] -> resolve_ref s' a (Some (PFrame b)) = Ok b /\ resolve_ref s a (Some (PFrame b)) = Ok b) by (intros a b B; split; apply resolve_ref_frame, Z, B).
  assert (F : forall b, In b [i; j; m] -> resolve_rf s' (PFrame b) = Ok b /\ resolve_rf s (PFrame b) = Ok b) by (intros b B; split; apply resolve_frame, Z, B).
  assert (LL : forall a b c al rt, In a [i; j; m] -> In b [i; j; m] -> In c [i; j; m] -> lookup_linear_velocity squad s' a (Some (PFrame b)) (Some (PFrame c)) al rt = lookup_linear_velocity squad s a (Some (PFrame b)) (Some (PFrame c)) al rt).
  { intros a b c al rt A B C. unfold lookup_linear_velocity. destruct (R a b B) as [-> ->]. destruct (R a c C) as [-> ->]. cbn [bind]. rewrite LK by assumption.
    destruct (lookup_transform squad s a (PFrame b)) as [tr|]; [|reflexivity]. cbn [bind]. destruct (tr_ts tr); [|reflexivity]. destruct (gradient_nd _ _ _); [|reflexivity]. cbn [bind]. rewrite V by assumption. reflexivity. }
  assert (LA : forall a b c al rt, In a [i; j; m] -> In b [i; j; m] -> In c [i; j; m] -> lookup_angular_velocity squad deriv s' a (Some (PFrame b)) (Some (PFrame c)) al rt = lookup_angular_velocity squad deriv s a (Some (PFrame b)) (Some (PFrame c)) al rt).
  { intros a b c al rt A B C. unfold lookup_angular_velocity. destruct (R a b B) as [-> ->]. destruct (R a c C) as [-> ->]. cbn [bind]. rewrite LK by assumption.
    destruct (lookup_transform squad s a (PFrame b)) as [tr|]; [|reflexivity]. cbn [bind]. destruct (tr_ts tr); [|reflexivity]. destruct (estimate_angular _ _ _ _ _); [|reflexivity]. cbn [bind]. destruct (no_nan _); [|reflexivity]. cbn [bind]. rewrite V by assumption. reflexivity. }
  assert (LT : forall a b c al rt, In a [i; j; m] -> In b [i; j; m] -> In c [i; j; m] -> lookup_twist squad deriv s' a (Some (PFrame b)) (Some (PFrame c)) al rt = lookup_twist squad deriv s a (Some (PFrame b)) (Some (PFrame c)) al rt).
  { intros a b c al rt A B C. unfold lookup_twist. destruct (R a b B) as [-> ->]. destruct (R a c C) as [-> ->]. cbn [bind]. rewrite LK by assumption.
    destruct (lookup_transform squad s a (PFrame b)) as [tr|]; [|reflexivity]. cbn [bind]. destruct (tr_ts tr); [|reflexivity]. destruct (gradient_nd _ _ _); [|reflexivity]. cbn [bind]. destruct (estimate_angular _ _ _ _ _); [|reflexivity]. cbn [bind]. destruct (no_nan _); [|reflexivity]. cbn [bind]. rewrite !V by assumption. reflexivity. }
  split; [apply LL; assumption|]. split; [apply LA; assumption|]. split; [apply LT; assumption|]. intros arr w ax ta ts. split.
  - unfold transform_angular_velocity. cbv zeta. destruct (F j J) as [-> ->]. cbn [bind]. rewrite !V by assumption. destruct w; try reflexivity.
    + rewrite LA by assumption. reflexivity.
    + rewrite LA by assumption. reflexivity.
  - unfold transform_linear_velocity. cbv zeta. destruct (F j J) as [-> ->]. destruct (F m M) as [-> ->]. cbn [bind]. destruct w; try reflexivity.
    + rewrite LT by assumption. destruct (lookup_twist squad deriv s i _ _ _ _) as [[[l a] o]|]; [|reflexivity]. cbn [bind]. destruct o; [|reflexivity]. cbn [bind]. rewrite LK by assumption.
      destruct (lookup_transform squad s m (PFrame i)) as [tr|]; [|reflexivity]. cbn [bind]. rewrite !V by assumption. reflexivity.
    + rewrite LL by assumption. destruct (lookup_linear_velocity squad s j _ _ _ _) as [rl|]; [|reflexivity]. cbn [bind]. destruct (unpack2 rl) as [[l lt]|]; [|reflexivity]. cbn [bind].
      rewrite LA by assumption. destruct (lookup_angular_velocity squad deriv s i _ _ _ _) as [ra|]; [|reflexivity]. cbn [bind]. destruct (unpack2 ra) as [[a lt2]|]; [|reflexivity]. cbn [bind].
      rewrite LK by assumption. destruct (lookup_transform squad s j (PFrame i)) as [tr|]; [|reflexivity]. cbn [bind]. rewrite !V by assumption. reflexivity.
    + apply V; assumption.
Qed.
(* ---- what a call changes ---- *)
Lemma set_reg_same s r : (forall k, body_of (State (heap s) r) k = body_of s k) /\ (forall k, parent_of (State (heap s) r) k = parent_of s k) /\ size (State (heap s) r) = size s.
Proof. repeat split. Qed.
Lemma register_effect s i u : Inv s -> i < size s -> let s' := fst (register s i u) in
  size s' = size s /\ (forall k, body_of s' k = body_of s k) /\
  forall k, parent_of s' k = parent_of s k \/ parent_of s' k = None /\ u = true /\ exists n, name_of s i = Some n /\ lookup n (reg s) = Some k.
Proof.
  intros [W Rg] Hi. cbv zeta. unfold register. destruct (name_of s i) as [n|] eqn:En; [|split; [reflexivity|split; [reflexivity|left; reflexivity]]].
  destruct (lookup n (reg s)) as [old|] eqn:El; [|split; [reflexivity|split; [reflexivity|left; reflexivity]]].
  destruct u; [|split; [reflexivity|split; [reflexivity|left; reflexivity]]].
  destruct (reg_lt s n old Rg El) as (Lo & _). destruct (set_parent s old None) as [s1 r] eqn:E.
  destruct (set_parent_spec s old None s1 r W Lo ltac:(discriminate) E) as (_ & S1 & _ & _ & B1 & P1 & [->|(-> & _ & p & X & _)]); [|discriminate].
  cbn [fst]. split; [exact S1|]. split; [exact B1|]. intros k. change (parent_of (State (heap s1) (dict_set n i (reg s1))) k) with (parent_of s1 k). rewrite P1.
  destruct (Nat.eqb_spec old k) as [<-|_]; [|left; reflexivity]. right. split; [reflexivity|]. split; [reflexivity|]. exists n. split; [reflexivity|exact El].
Qed.
(** A call keeps every frame with its transform, and the parents of the frames it does not
    move; the frames it moves lose their parent, except by assignment to [parent]. *)
Lemma step_effect s x : Inv s -> let s' := fst (step s x) in
  size s <= size s' /\ (forall k, k < size s -> body_of s' k = body_of s k) /\
  forall k, k < size s -> parent_of s' k = parent_of s k \/ moves s x k /\ (parent_of s' k = None \/ exists i p, x = OSetParent i p).
Proof.
  intros I. pose proof I as [W Rg]. cbv zeta. destruct x as [c|c u|i u|n|i| |i p]; cbn [step moves].
  - destruct (new_frame s c) as [s' r] eqn:E. destruct (new_frame_effect s c s' r I E) as (_ & Z & K & _). cbn [fst]. split; [lia|]. split; [intros k H; apply K, H|]. intros k H. left. apply K, H.
  - unfold register_frame. destruct (new_frame s c) as [s1 r] eqn:E. destruct (new_frame_effect s c s1 r I E) as (Rs & Z & K & Nm & _). destruct r as [i|e].
    + pose proof (Inv_new s c I) as (I1 & Hi). rewrite E in I1, Hi. cbn [fst snd] in I1, Hi. specialize (Hi i eq_refl).
      assert (Ei : i = size s). { destruct (new_frame_cases s c s1 (Ok i) I E) as (b & [(_ & [(X & _)|(e & X)])|(p & pp & _ & _ & _ & _ & [X|(e & X)])]); congruence. }
      pose proof (register_effect s1 i u I1 Hi) as X. cbv zeta in X. destruct (register s1 i u) as [s2 r2]. cbn [fst] in X.
      replace (fst (let '(s0, r0) := match r2 with Ok _ => (s2, Ok i) | Raise e => (s2, Raise e) end in (s0, match r0 with Ok _ => Ok tt | Raise e => Raise e end))) with s2 by (destruct r2; reflexivity).
      destruct X as (Z2 & B2 & P2). split; [lia|]. split; [intros k H; rewrite B2; apply K, H|]. intros k H. destruct (P2 k) as [->|(-> & -> & n & Nn & L)]; [left; apply K, H|].
      right. split; [|left; reflexivity]. exists n. rewrite Ei, Nm in Nn. rewrite Rs in L. split; assumption.
    + cbn [fst]. split; [lia|]. split; [intros k H; apply K, H|]. intros k H. left. apply K, H.
  - destruct (get s i) eqn:G; [|split; [reflexivity|split; [reflexivity|left; reflexivity]]]. apply get_some_lt in G.
    destruct (register_effect s i u I G) as (Z & B & P). split; [lia|]. split; [intros k _; apply B|]. intros k _. destruct (P k) as [->|(-> & -> & X)]; [left; reflexivity|]. right. split; [exact X|left; reflexivity].
  - unfold deregister. destruct (lookup n (reg s)); (split; [reflexivity|split; [reflexivity|left; reflexivity]]).
  - destruct (get s i); [|split; [reflexivity|split; [reflexivity|left; reflexivity]]]. unfold deregister_obj, deregister. destruct (name_of s i) as [z|]; [|split; [reflexivity|split; [reflexivity|left; reflexivity]]]. destruct (lookup z (reg s)); (split; [reflexivity|split; [reflexivity|left; reflexivity]]).
  - split; [reflexivity|split; [reflexivity|left; reflexivity]].
  - destruct (get s i) eqn:G; [|split; [reflexivity|split; [reflexivity|left; reflexivity]]]. apply get_some_lt in G.
    assert (X : forall v, (forall q, v = Some q -> q < size s) -> size s <= size (fst (set_parent s i v)) /\ (forall k, k < size s -> body_of (fst (set_parent s i v)) k = body_of s k) /\
      forall k, k < size s -> parent_of (fst (set_parent s i v)) k = parent_of s k \/ k = i /\ (parent_of (fst (set_parent s i v)) k = None \/ exists i0 p0, OSetParent i p = OSetParent i0 p0)).
    { intros v Hv. destruct (set_parent s i v) as [s1 r] eqn:E. destruct (set_parent_spec s i v s1 r W G Hv E) as (_ & Z & _ & _ & B & P & _). cbn [fst]. split; [lia|]. split; [intros k _; apply B|].
      intros k _. rewrite P. destruct (Nat.eqb_spec i k) as [->|_]; [|left; reflexivity]. right. split; [reflexivity|]. right. eauto. }
    destruct p as [q|]; [|apply X; discriminate]. destruct (get s q) eqn:Gq; [|split; [reflexivity|split; [reflexivity|left; reflexivity]]]. apply get_some_lt in Gq. apply X. intros z Ez. injection Ez as <-. exact Gq.
Qed.

(* ------------------------------------------------------------------ C89 *)
(** Two histories that agree on the frames on the way between i and j (whatever else they
    contain, however they got there) answer every question about i and j alike. *)
Theorem C89_between : forall s s' i j, reachable s -> reachable s' -> frame s i -> frame s j ->
  untouched s s' i j ->
  same_transforms s s' i (PFrame j) (PFrame j) /\ same_transforms s s' j (PFrame i) (PFrame i) /\
  forall to to', denotes s to j -> denotes s' to' j -> same_transforms s s' i to to'.
Proof.
  intros s s' i j R R' Hi Hj U. pose proof (reachable_Inv s R) as [W _]. pose proof (reachable_Inv s' R') as [W' _].
  assert (E : frames_between s' i j = frames_between s i j) by (apply untouched_between; assumption).
  pose proof U as (T & Hi' & Hj' & K).
  split; [eapply transforms_from; [apply resolve_frame..|]; assumption|]. split.
  - eapply transforms_from; [apply resolve_frame..|]; try assumption. apply untouched_between; try assumption.
    split; [apply same_tree_sym, T|]. split; [exact Hj'|]. split; [exact Hi'|]. intros k O. apply K. unfold on_way in *. tauto.
  - intros to to' D D'. eapply transforms_from; [apply denotes_resolve; exact D|apply denotes_resolve; exact D'|exact E].
Qed.
Theorem C89_between_velocities : forall s s' i j m, reachable s -> reachable s' ->
  (forall a b, In a [i; j; m] -> In b [i; j; m] -> frame s a /\ untouched s s' a b) ->
  same_velocities s s' i j m.
Proof.
  intros s s' i j m R R' U. pose proof (reachable_Inv s R) as [W _]. pose proof (reachable_Inv s' R') as [W' _].
  apply velocities_from.
  - intros a A. destruct (U a a A A) as (F & _ & F' & _). split; assumption.
  - intros a b A B. apply untouched_between; try assumption; [apply (U a b A B)|apply (U b a B A)|apply (U a b A B)].
Qed.
(** No API call changes the answers about frames of one tree, unless it moves a frame (by
    assigning its parent or by giving its name away) that is on the way between them. *)
Lemma step_untouched : forall s x a b, reachable s -> frame s a -> frame s b -> same_tree (parent_of s) a b ->
  (forall k, moves s x k -> (below s a k <-> below s b k)) -> untouched s (fst (step s x)) a b.
Proof.
  intros s x a b R Ha Hb T M. pose proof (reachable_Inv s R) as I. pose proof I as [W _]. destruct (step_effect s x I) as (Z & B & P).
  split; [exact T|]. split; [unfold frame, size in *; lia|]. split; [unfold frame, size in *; lia|]. intros k O.
  assert (L : k < size s). { destruct O as [[A _]|[A _]]; [apply (ancestor_lt s a k W Ha A)|apply (ancestor_lt s b k W Hb A)]. }
  split; [|apply B, L]. destruct (P k L) as [E|(Mk & _)]; [exact E|]. specialize (M k Mk). unfold on_way in O. tauto.
Qed.
Theorem C89_calls : forall s x i j, reachable s -> frame s i -> frame s j -> same_tree (parent_of s) i j ->
  (forall k, moves s x k -> (below s i k <-> below s j k)) ->
  same_transforms s (fst (step s x)) i (PFrame j) (PFrame j).
Proof.
  intros s x i j R Hi Hj T M. exact (proj1 (C89_between s _ i j R (reachable_step s x R) Hi Hj (step_untouched s x i j R Hi Hj T M))).
Qed.
Theorem C89_calls_velocities : forall s x i j m, reachable s -> frame s i -> frame s j -> frame s m ->
  same_tree (parent_of s) i j -> same_tree (parent_of s) i m ->
  (forall k, moves s x k -> (below s i k <-> below s j k) /\ (below s i k <-> below s m k)) ->
  same_velocities s (fst (step s x)) i j m.
Proof.
  intros s x i j m R Hi Hj Hm T T' M. pose proof (reachable_Inv s R) as [W _]. apply C89_between_velocities; [exact R|apply reachable_step, R|].
  assert (Fr : forall a, In a [i; j; m] -> frame s a /\ same_tree (parent_of s) i a /\ forall k, moves s x k -> (below s i k <-> below s a k)).
  { intros a [<-|[<-|[<-|[]]]]; (split; [assumption|]); (split; [assumption || (apply same_tree_refl; assumption)|]); intros k Mk; destruct (M k Mk); tauto. }
  intros a b A B. destruct (Fr a A) as (Fa & Ta & Ma). destruct (Fr b B) as (Fb & Tb & Mb). split; [exact Fa|]. apply step_untouched; try assumption.
  - apply (same_tree_trans s a i b W Hi); [apply same_tree_sym, Ta|exact Tb].
  - intros k Mk. specialize (Ma k Mk). specialize (Mb k Mk). tauto.
Qed.
(** Trees are only ever joined by assigning a parent. *)
Theorem C89_apart : forall s x i j, reachable s -> frame s i -> frame s j ->
  ~ same_tree (parent_of s) i j -> same_tree (parent_of (fst (step s x))) i j -> exists k p, x = OSetParent k p.
Proof.
  intros s x i j R Hi Hj N T. pose proof (reachable_Inv s R) as I. pose proof I as [W _]. destruct (step_effect s x I) as (Z & _ & P).
  assert (D : (exists k p, x = OSetParent k p) \/ forall k p, x <> OSetParent k p) by (destruct x; try (right; discriminate); left; eauto).
  destruct D as [D|D]; [exact D|]. exfalso. apply N.
  assert (A : forall a r, frame s a -> ancestor (parent_of (fst (step s x))) a r -> ancestor (parent_of s) a r /\ r < size s).
  { intros a r Fa A. induction A as [a|a p r E A IH]; [split; [constructor|exact Fa]|]. destruct (P a Fa) as [Q|(_ & [Q|(k & q & Q)])]; [|congruence|destruct (D k q Q)].
    rewrite Q in E. destruct IH as (IA & IL); [apply (wf_par s W a p E)|]. split; [eapply anc_up; eassumption|exact IL]. }
  destruct T as (r & (A1 & _) & (A2 & _)). destruct (A i r Hi A1) as (B1 & Lr). destruct (A j r Hj A2) as (B2 & _).
  destruct (rooted_chain _ _ (wf_root s W r Lr)) as (l & C).
  assert (X : exists t, root_of (parent_of s) r t).
  { clear - C. induction C as [r E|r p l E C IH]; [exists r; split; [constructor|exact E]|]. destruct IH as (t & A & Et). exists t. split; [eapply anc_up; eassumption|exact Et]. }
  destruct X as (t & At & Et). exists t. split; split; try exact Et; eapply ancestor_trans; eassumption.
Qed.

(** The tree of world is hung below d, which belongs to another tree: b and c are still in one
    tree, both below the frame that is moved, and the two trees are joined. *)
Example C89_example :
  snd (step ex_lit (OSetParent 0 (Some 5))) = Ok tt /\
  same_tree (parent_of ex_lit) 2 3 /\
  (forall k, moves ex_lit (OSetParent 0 (Some 5)) k -> (below ex_lit 2 k <-> below ex_lit 3 k)) /\
  on_way ex_lit 2 3 1 /\ ~ on_way ex_lit 2 3 0 /\
  ~ same_tree (parent_of ex_lit) 2 5 /\ same_tree (parent_of (fst (step ex_lit (OSetParent 0 (Some 5))))) 2 5.
Proof.
  pose proof ex_lit_reachable as R. pose proof (reachable_Inv _ R) as [W _].
  assert (B2 : below ex_lit 2 0) by (eapply anc_up; [reflexivity|]; eapply anc_up; [reflexivity|]; constructor).
  assert (B3 : below ex_lit 3 0) by (eapply anc_up; [reflexivity|]; constructor).
  assert (N3 : ~ below ex_lit 3 1).
  { intros A. inversion A as [|? p ? E A']; subst. cbn in E. injection E as <-. inversion A' as [|? p ? E A'']; subst. discriminate. }
  split; [reflexivity|]. split; [exact (proj1 C12_example)|]. split; [intros k ->; tauto|].
  split; [left; split; [eapply anc_up; [reflexivity|]; constructor|exact N3]|]. split; [unfold on_way; tauto|]. split; [exact (proj2 C12_example)|].
  exists 4. split; (split; [|reflexivity]).
  - do 4 (eapply anc_up; [reflexivity|]). constructor.
  - eapply anc_up; [reflexivity|]. constructor.
Qed.
