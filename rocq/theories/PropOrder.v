(** C91: answers depend on the trees only, not on the order in which frames were created. *)
From Coq Require Import Reals List String Arith Bool ZArith Lia.
From Verif Require Import Base Quat NdArray Frames SpecForest FrameProofs WalkProofs Matcher SpecLookup LookupProofs RegistryProofs
  PropForest PropLookup Transform Velocity VelFrames Examples PropLocal.
Import ListNotations.
Open Scope nat_scope.

(* ------------------------------------------------------------------ specification *)
(** The frames of s and the frames of s' that [f] makes of them have the same transforms and corresponding
    parents: the same trees, built in any order and among any other frames. *)
Definition same_trees (f : nat -> nat) (s s' : state) : Prop :=
  (forall a b, frame s a -> frame s b -> f a = f b -> a = b) /\
  forall k, frame s k -> frame s' (f k) /\ parent_of s' (f k) = option_map f (parent_of s k) /\ body_of s' (f k) = body_of s k.
(** Every question about i and j (and the frame m as point of view) has in s the answer that it has in s'
    for the corresponding frames. *)
Definition same_transforms_as (f : nat -> nat) (s s' : state) (i : nat) (to to' : pref) : Prop :=
  forall squad,
  lookup_transform squad s' (f i) to' = lookup_transform squad s i to /\
  forall arr axis time_axis ts,
    transform_points squad s' (f i) arr to' axis time_axis ts = transform_points squad s i arr to axis time_axis ts /\
    transform_vectors squad s' (f i) arr to' axis time_axis ts = transform_vectors squad s i arr to axis time_axis ts /\
    transform_quaternions squad s' (f i) arr to' axis time_axis ts = transform_quaternions squad s i arr to axis time_axis ts.
Definition same_velocities_as (f : nat -> nat) (s s' : state) (i j m : nat) : Prop :=
  forall squad deriv allow ret,
  lookup_linear_velocity squad s' (f i) (Some (PFrame (f j))) (Some (PFrame (f m))) allow ret =
    lookup_linear_velocity squad s i (Some (PFrame j)) (Some (PFrame m)) allow ret /\
  lookup_angular_velocity squad deriv s' (f i) (Some (PFrame (f j))) (Some (PFrame (f m))) allow ret =
    lookup_angular_velocity squad deriv s i (Some (PFrame j)) (Some (PFrame m)) allow ret /\
  lookup_twist squad deriv s' (f i) (Some (PFrame (f j))) (Some (PFrame (f m))) allow ret =
    lookup_twist squad deriv s i (Some (PFrame j)) (Some (PFrame m)) allow ret /\
  forall arr w axis time_axis ts,
    transform_angular_velocity squad deriv s' (f i) arr (PFrame (f j)) w axis time_axis ts =
      transform_angular_velocity squad deriv s i arr (PFrame j) w axis time_axis ts /\
    transform_linear_velocity squad deriv s' (f i) arr (PFrame (f j)) w (Some (PFrame (f m))) (Some (PFrame (f m))) axis time_axis ts =
      transform_linear_velocity squad deriv s i arr (PFrame j) w (Some (PFrame m)) (Some (PFrame m)) axis time_axis ts.

(* ------------------------------------------------------------------ proofs *)
Section Trees.
Variables (f : nat -> nat) (s s' : state).
Hypotheses (W : WF s) (W' : WF s') (T : same_trees f s s').
Let par := parent_of s.
Let par' := parent_of s'.
Lemma par_lt k p : k < size s -> par k = Some p -> p < size s.
Proof. intros _ E. exact (proj1 (wf_par s W k p E)). Qed.
Lemma par_img k : k < size s -> par' (f k) = option_map f (par k).
Proof. intros H. exact (proj1 (proj2 (proj2 T k H))). Qed.
Lemma anc_lt i a : i < size s -> ancestor par i a -> a < size s.
Proof. intros H A. revert H. induction A as [|i p a E A IH]; intros H; [exact H|]. apply IH. eapply par_lt; eassumption. Qed.
Lemma climb_img i l c : i < size s -> climb par i l c -> climb par' (f i) (map f l) (f c).
Proof.
  intros Hi C. revert Hi. induction C as [|i p l c E C IH]; intros Hi; cbn [map]; [constructor|]. econstructor; [rewrite par_img by exact Hi; rewrite E; reflexivity|].
  apply IH. eapply par_lt; eassumption.
Qed.
Lemma anc_img i a' : i < size s -> ancestor par' (f i) a' -> exists a, a' = f a /\ ancestor par i a.
Proof.
  intros Hi A. remember (f i) as x eqn:Ex. revert i Hi Ex. induction A as [x|x p a E A IH]; intros i Hi ->; [exists i; split; [reflexivity|constructor]|].
  rewrite par_img in E by exact Hi. destruct (par i) as [q|] eqn:Eq; [|discriminate]. injection E as <-.
  destruct (IH q (par_lt _ _ Hi Eq) eq_refl) as (b & -> & B). exists b. split; [reflexivity|]. eapply anc_up; eassumption.
Qed.
Lemma anc_fwd i a : i < size s -> ancestor par i a -> ancestor par' (f i) (f a).
Proof.
  intros Hi A. revert Hi. induction A as [|i p a E A IH]; intros Hi; [constructor|]. apply anc_up with (p := f p); [rewrite par_img by exact Hi; rewrite E; reflexivity|].
  apply IH. eapply par_lt; eassumption.
Qed.
Lemma between_img i j : i < size s -> j < size s -> frames_between s' (f i) (f j) = frames_between s i j.
Proof.
  intros Hi Hj. destruct T as (Inj & K). pose proof (proj1 (K i Hi)) as Fi. pose proof (proj1 (K j Hj)) as Fj.
  assert (B : forall k, k < size s -> body_at s' (f k) = body_at s k) by (intros k Hk; rewrite !body_at_of; rewrite (proj2 (proj2 (K k Hk))); reflexivity).
  assert (TR : forall l b, (forall k, In k l -> k < size s) -> traverse (fun k => add_frame (body_at s' k) b) (map f l) = traverse (fun k => add_frame (body_at s k) b) l).
  { intros l b Hl. unfold traverse. rewrite map_map. f_equal. apply map_ext_in. intros k Hk. rewrite B by (apply Hl; exact Hk). reflexivity. }
  destruct (walk s i j) as [[up down]|e] eqn:E.
  - destruct (walk_ok_inv s i j up down W Hi Hj E) as (_ & c & U & D & L).
    assert (IU : forall k, In k up -> k < size s) by (intros k Hk; destruct (climb_in _ _ _ _ _ U Hk) as (A & _); eapply anc_lt; [exact Hi|exact A]).
    assert (ID : forall k, In k down -> k < size s) by (intros k Hk; apply in_rev in Hk; destruct (climb_in _ _ _ _ _ D Hk) as (A & _); eapply anc_lt; [exact Hj|exact A]).
    assert (E' : walk s' (f i) (f j) = Ok (map f up, map f down)).
    { apply (walk_unique s' (f i) (f j) (map f up) (map f down) (f c) W' Fi Fj). split; [exact (climb_img i up c Hi U)|]. split.
      - rewrite <- map_rev. exact (climb_img j (rev down) c Hj D).
      - intros a' A1 A2. destruct (anc_img i a' Hi A1) as (a & -> & B1). destruct (anc_img j _ Hj A2) as (b & Eb & B2).
        assert (a = b) as <- by (apply Inj; [eapply anc_lt; [exact Hi|exact B1]|eapply anc_lt; [exact Hj|exact B2]|exact Eb]).
        apply anc_fwd; [|apply L; assumption]. pose proof (climb_ancestor _ _ _ _ U) as Z. exact (anc_lt _ _ Hi Z). }
    unfold frames_between. rewrite E, E'. cbn [bind]. rewrite !TR by assumption. reflexivity.
  - assert (NT : ~ same_tree par i j) by (intros X; destruct (walk_same s i j W Hi Hj X) as (u & d & c & Y & _); congruence).
    rewrite (walk_diff s i j W Hi Hj NT) in E.
    assert (NT' : ~ same_tree par' (f i) (f j)).
    { intros (r & (A1 & R1) & (A2 & R2)). destruct (anc_img i r Hi A1) as (a & -> & B1). destruct (anc_img j _ Hj A2) as (b & Eb & B2).
      pose proof (anc_lt _ _ Hi B1) as La. pose proof (anc_lt _ _ Hj B2) as Lb.
      assert (a = b) as <- by (apply Inj; assumption). apply NT. exists a. rewrite par_img in R1 by exact La.
      assert (Ra : par a = None) by (destruct (par a); [discriminate R1|reflexivity]). split; split; assumption. }
    unfold frames_between. rewrite (walk_diff s i j W Hi Hj NT), (walk_diff s' (f i) (f j) W' Fi Fj NT'). reflexivity.
Qed.
Lemma transforms_img i to to' j : i < size s -> j < size s -> resolve_rf s to = Ok j -> resolve_rf s' to' = Ok (f j) -> same_transforms_as f s s' i to to'.
Proof.
  intros Hi Hj R R' squad. pose proof (between_img i j Hi Hj) as E.
  assert (P : forall arr axis n ta ts, prepare squad s' (f i) arr to' axis n ta ts = prepare squad s i arr to axis n ta ts).
  { intros. unfold prepare. rewrite R, R'. cbn [bind]. rewrite E. reflexivity. }
  split; [unfold lookup_transform; rewrite R, R'; cbn [bind]; rewrite E; reflexivity|]. intros arr axis ta ts.
  unfold transform_points, transform_vectors, transform_quaternions. rewrite !P. repeat split.
Qed.
Lemma velocities_img i j m : (forall a, In a [i; j; m] -> a < size s) -> same_velocities_as f s s' i j m.
Proof.
  intros Z squad deriv allow ret. assert (Z' : forall a, In a [i; j; m] -> f a < size s') by (intros a A; exact (proj1 (proj2 T a (Z a A)))).
  assert (I : In i [i; j; m]) by (left; reflexivity). assert (J : In j [i; j; m]) by (right; left; reflexivity). assert (M : In m [i; j; m]) by (right; right; left; reflexivity).
  assert (TT : forall a b, In a [i; j; m] -> In b [i; j; m] -> same_transforms_as f s s' a (PFrame b) (PFrame (f b))).
  { intros a b A B. apply (transforms_img a _ _ b); [apply Z, A|apply Z, B|apply resolve_frame, Z, B|apply resolve_frame, Z', B]. }
  assert (LK : forall a b, In a [i; j; m] -> In b [i; j; m] -> lookup_transform squad s' (f a) (PFrame (f b)) = lookup_transform squad s a (PFrame b)) by (intros a b A B; apply (TT a b A B squad)).
  assert (V : forall a b arr ax ta ts, In a [i; j; m] -> In b [i; j; m] -> transform_vectors squad s' (f a) arr (PFrame (f b)) ax ta ts = transform_vectors squad s a arr (PFrame b) ax ta ts) by (intros a b arr ax ta ts A B; apply (TT a b A B squad)).
  assert (R : forall a b, In b [i; j; m] -> resolve_ref s' (f a) (Some (PFrame (f b))) = Ok (f b) /\ resolve_ref s a (Some (PFrame b)) = Ok b) by (intros a b B; split; [apply resolve_ref_frame, Z', B|apply resolve_ref_frame, Z, B]).
  assert (F : forall b, In b [i; j; m] -> resolve_rf s' (PFrame (f b)) = Ok (f b) /\ resolve_rf s (PFrame b) = Ok b) by (intros b B; split; [apply resolve_frame, Z', B|apply resolve_frame, Z, B]).
  assert (LL : forall a b c al rt, In a [i; j; m] -> In b [i; j; m] -> In c [i; j; m] -> lookup_linear_velocity squad s' (f a) (Some (PFrame (f b))) (Some (PFrame (f c))) al rt = lookup_linear_velocity squad s a (Some (PFrame b)) (Some (PFrame c)) al rt).
  { intros a b c al rt A B C. unfold lookup_linear_velocity. destruct (R a b B) as [-> ->]. destruct (R a c C) as [-> ->]. cbn [bind]. rewrite LK by assumption.
    destruct (lookup_transform squad s a (PFrame b)) as [tr|]; [|reflexivity]. cbn [bind]. destruct (tr_ts tr); [|reflexivity]. destruct (gradient_nd _ _ _); [|reflexivity]. cbn [bind]. rewrite V by assumption. reflexivity. }
  assert (LA : forall a b c al rt, In a [i; j; m] -> In b [i; j; m] -> In c [i; j; m] -> lookup_angular_velocity squad deriv s' (f a) (Some (PFrame (f b))) (Some (PFrame (f c))) al rt = lookup_angular_velocity squad deriv s a (Some (PFrame b)) (Some (PFrame c)) al rt).
  { intros a b c al rt A B C. unfold lookup_angular_velocity. destruct (R a b B) as [-> ->]. destruct (R a c C) as [-> ->]. cbn [bind]. rewrite LK by assumption.
    destruct (lookup_transform squad s a (PFrame b)) as [tr|]; [|reflexivity]. cbn [bind]. destruct (tr_ts tr); [|reflexivity]. destruct (estimate_angular _ _ _ _ _); [|reflexivity]. cbn [bind]. destruct (no_nan _); [|reflexivity]. cbn [bind]. rewrite V by assumption. reflexivity. }
  assert (LT : forall a b c al rt, In a [i; j; m] -> In b [i; j; m] -> In c [i; j; m] -> lookup_twist squad deriv s' (f a) (Some (PFrame (f b))) (Some (PFrame (f c))) al rt = lookup_twist squad deriv s a (Some (PFrame b)) (Some (PFrame c)) al rt).
  { intros a b c al rt A B C. unfold lookup_twist. destruct (R a b B) as [-> ->]. destruct (R a c C) as [-> ->]. cbn [bind]. rewrite LK by assumption.
    destruct (lookup_transform squad s a (PFrame b)) as [tr|]; [|reflexivity]. cbn [bind]. destruct (tr_ts tr); [|reflexivity]. destruct (gradient_nd _ _ _); [|reflexivity]. cbn [bind]. destruct (estimate_angular _ _ _ _ _); [|reflexivity]. cbn [bind]. destruct (no_nan _); [|reflexivity]. cbn [bind]. rewrite !V by assumption. reflexivity. }
  split; [apply LL; assumption|]. split; [apply LA; assumption|]. split; [apply LT; assumption|]. intros arr w ax ta ts. split.
  - unfold transform_angular_velocity. cbv zeta. destruct (F j J) as [-> ->]. cbn [bind]. rewrite !V by assumption. destruct w; try reflexivity.
    + rewrite LA by assumption. reflexivity.
    + rewrite LA by assumption. reflexivity.
  - unfold transform_linear_velocity. cbv zeta. destruct (F j J) as [-> ->]. destruct (F m M) as [-> ->]. cbn [bind]. destruct w; try reflexivity.
    + rewrite LT by assumption. destruct (lookup_twist squad deriv s i _ _ _ _) as [[[l a] o]|]; [|reflexivity]. cbn [bind]. destruct o; [|reflexivity]. cbn [bind]. rewrite LK by assumption.
      destruct (lookup_transform squad s m (PFrame i)) as [tr|]; [|reflexivity]. cbn [bind]. rewrite !V by assumption. reflexivity.
    + rewrite LL by assumption. destruct (lookup_linear_velocity squad s j _ _ _ _) as [rl|]; [|reflexivity]. cbn [bind]. destruct (unpack2 rl) as [[l lt]|]; [|reflexivity]. cbn [bind].
      rewrite LA by assumption. destruct (lookup_angular_velocity squad deriv s i _ _ _ _) as [ra|]; [|reflexivity]. cbn [bind]. destruct (unpack2 ra) as [[a lt2]|]; [|reflexivity]. cbn [bind].
      rewrite LK by assumption. destruct (lookup_transform squad s j (PFrame i)) as [tr|]; [|reflexivity]. cbn [bind]. rewrite !V by assumption. reflexivity.
    + apply V; assumption.
Qed.
End Trees.

(* ------------------------------------------------------------------ C91 *)
Theorem C91_trees : forall f s s' i j m, reachable s -> reachable s' -> same_trees f s s' -> frame s i -> frame s j -> frame s m ->
  same_transforms_as f s s' i (PFrame j) (PFrame (f j)) /\
  (forall to to', denotes s to j -> denotes s' to' (f j) -> same_transforms_as f s s' i to to') /\
  same_velocities_as f s s' i j m.
Proof.
  intros f s s' i j m HR HR' T Hi Hj Hm. destruct (reachable_Inv s HR) as (W & _). destruct (reachable_Inv s' HR') as (W' & _).
  assert (Fj : frame s' (f j)) by exact (proj1 (proj2 T j Hj)). split; [|split].
  - apply (transforms_img f s s' W W' T i _ _ j Hi Hj); apply resolve_frame; assumption.
  - intros to to' D D'. apply (transforms_img f s s' W W' T i to to' j Hi Hj); apply denotes_resolve; assumption.
  - apply velocities_img; auto. intros a [<-|[<-|[<-|[]]]]; assumption.
Qed.
Print Assumptions C91_trees.
