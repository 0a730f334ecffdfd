(** Properties C01-C07 and C12: the frame forest and the registry. *)
From Coq Require Import Reals List String Arith Bool Lia Lra.
From Verif Require Import Base Quat SpecQuat QuatProofs NdArray Frames SpecForest
  FrameProofs WalkProofs Matcher SpecLookup LookupProofs RegistryProofs Examples.
Import ListNotations.
Open Scope nat_scope.

(** [frame s i]: i is a frame object of state s. *)
Definition frame (s : state) (i : nat) : Prop := i < List.length (heap s).

(* ------------------------------------------------------------------ C01 *)
Theorem C01_forest : forall ops,
  forest (List.length (heap (run ops))) (parent_of (run ops)) (children_of (run ops)).
Proof. exact forest_run. Qed.

(* ------------------------------------------------------------------ C02 *)
Theorem C02_registry : forall ops,
  registry_ok (reg (run ops)) (List.length (heap (run ops))) (name_of (run ops)).
Proof. exact registry_run. Qed.

(* ------------------------------------------------------------------ C03 *)
(** Without update, a taken name or no name is refused with ValueError, and the
    whole state is as before. *)
Theorem C03_register_refused : forall s i, reachable s -> frame s i ->
  (name_of s i = None \/ exists n k, name_of s i = Some n /\ lookup n (reg s) = Some k) ->
  step s (ORegister i false) = (s, Raise ValueError).
Proof.
  intros s i _ Hi H. simpl. destruct (get_lt s i Hi) as (nd & ->).
  apply register_refused. intros n Hn. destruct H as [H|(m & k & Hm & Hk)]; congruence.
Qed.
(** register_frame: ValueError (TypeError if the parent argument is not a frame
    or a name), and the registry is exactly what it was. *)
Theorem C03_register_frame_refused : forall s c, reachable s ->
  (c_name c = None \/ exists n k, c_name c = Some n /\ lookup n (reg s) = Some k) ->
  reg (fst (step s (ORegisterFrame c false))) = reg s /\
  (snd (step s (ORegisterFrame c false)) = Raise ValueError \/
   snd (step s (ORegisterFrame c false)) = Raise TypeError /\ bad_type s (c_parent c)).
Proof.
  intros s c Hs H. simpl. destruct (register_frame s c false) as [s' r] eqn:E.
  destruct (register_frame_refused s c s' r (reachable_Inv s Hs)) as (H1 & H2); auto.
  - intros n Hn. destruct H as [H|(m & k & Hm & Hk)]; congruence.
  - simpl. split; auto. destruct H2 as [->|(-> & Hb)]; auto.
Qed.
(** Conversely, with a free name registering succeeds. *)
Theorem C03_free_name_accepted : forall s i n u, reachable s -> frame s i ->
  name_of s i = Some n -> lookup n (reg s) = None ->
  exists s', step s (ORegister i u) = (s', Ok tt) /\
    forall m, lookup m (reg s') = if String.eqb m n then Some i else lookup m (reg s).
Proof.
  intros s i n u _ Hi Hn Hl. simpl. destruct (get_lt s i Hi) as (nd & ->).
  unfold register. rewrite Hn, Hl. eexists. split; [reflexivity|].
  intros m. simpl. rewrite lookup_set. reflexivity.
Qed.
Example C03_example : frame ex_lit 1 /\
  exists n k, name_of ex_lit 1 = Some n /\ lookup n (reg ex_lit) = Some k.
Proof. split; [unfold frame; simpl; lia|]. exists "a"%string, 1. split; reflexivity. Qed.

(* ------------------------------------------------------------------ C04 *)
(** The property: a raising constructor or register_frame changes neither the
    registry nor any link. *)
Definition leaves_no_trace (s s' : state) : Prop :=
  reg s' = reg s /\
  forall k, frame s k -> parent_of s' k = parent_of s k /\ children_of s' k = children_of s k.
(** It is false: a child with a malformed translation stays attached, and so
    does a complete child whose name is taken. *)
Theorem C04_refuted :
  (exists s c e, reachable s /\ snd (step s (ONew c)) = Raise e /\ ~ leaves_no_trace s (fst (step s (ONew c)))) /\
  (exists s c e, reachable s /\ snd (step s (ORegisterFrame c false)) = Raise e /\
     ~ leaves_no_trace s (fst (step s (ORegisterFrame c false)))).
Proof.
  split.
  - exists ex_lit, (stat "x" "world" [1%R; 2%R] [1%R; 0%R; 0%R; 0%R]), ValueError. split; [apply ex_lit_reachable|].
    split; [reflexivity|]. intros (_ & H). destruct (H 0) as (_ & H'); [unfold frame; simpl; lia|].
    apply (f_equal (@List.length nat)) in H'. discriminate H'.
  - exists ex_lit, (stat "a" "world" [1%R; 2%R; 3%R] [1%R; 0%R; 0%R; 0%R]), ValueError. split; [apply ex_lit_reachable|].
    split; [reflexivity|]. intros (_ & H). destruct (H 0) as (_ & H'); [unfold frame; simpl; lia|].
    apply (f_equal (@List.length nat)) in H'. discriminate H'.
Qed.
(** What does hold: registry and parents are unchanged, at most the one new,
    incomplete object is appended to a children list, and all lookups between
    existing frames are unchanged.
    Missing: children lists (refuted above). *)
Theorem C04_constructor_partial : forall squad s c e, reachable s -> snd (step s (ONew c)) = Raise e ->
  let s' := fst (step s (ONew c)) in
  reg s' = reg s /\
  (forall k, frame s k -> parent_of s' k = parent_of s k) /\
  (forall k, children_of s' k = children_of s k \/
             children_of s' k = (children_of s k ++ [List.length (heap s)])%list) /\
  (forall i j, frame s i -> frame s j ->
     lookup_transform squad s' i (PFrame j) = lookup_transform squad s i (PFrame j)).
Proof.
  intros squad s c e Hs. simpl. destruct (new_frame s c) as [s' [i|e']] eqn:E; simpl; [discriminate|].
  intros _. exact (raising_new_effect squad s c s' e' (reachable_Inv s Hs) E).
Qed.
Theorem C04_register_frame_partial : forall squad s c u e, reachable s ->
  snd (step s (ORegisterFrame c u)) = Raise e ->
  let s' := fst (step s (ORegisterFrame c u)) in
  reg s' = reg s /\
  (forall k, frame s k -> parent_of s' k = parent_of s k) /\
  (forall k, children_of s' k = children_of s k \/
             children_of s' k = (children_of s k ++ [List.length (heap s)])%list) /\
  (forall i j, frame s i -> frame s j ->
     lookup_transform squad s' i (PFrame j) = lookup_transform squad s i (PFrame j)).
Proof.
  intros squad s c u e Hs. simpl. destruct (register_frame s c u) as [s' [i|e']] eqn:E; simpl; [discriminate|].
  intros _. exact (raising_register_frame_effect squad s c u s' e' (reachable_Inv s Hs) E).
Qed.
(** Without a (resolvable) parent argument the full property holds. *)
Theorem C04_no_parent_partial : forall s c e, reachable s -> snd (step s (ONew c)) = Raise e ->
  (forall p k, c_parent c = Some p -> resolve_rf s p <> Ok k) ->
  leaves_no_trace s (fst (step s (ONew c))).
Proof.
  intros s c e Hs. simpl. destruct (new_frame s c) as [s' [i|e']] eqn:E; simpl; [discriminate|].
  intros _ Hp. destruct (raising_new_effect (fun _ _ _ => Raise ValueError) s c s' e' (reachable_Inv s Hs) E) as (H1 & H2 & _).
  split; auto. intros k Hk. split; [apply H2; auto|].
  exact (raising_no_parent s c s' e' (reachable_Inv s Hs) E Hp k).
Qed.
Example C04_example : snd (step ex_lit (ONew (Ctor None (Some (PName "nope")) None None None false false))) = Raise ValueError
  /\ forall p k, c_parent (Ctor None (Some (PName "nope")) None None None false false) = Some p -> resolve_rf ex_lit p <> Ok k.
Proof. split; [reflexivity|]. intros p k H. injection H as <-. discriminate. Qed.

(* ------------------------------------------------------------------ C05 *)
(** frame b is in the subtree of frame a *)
Definition below (s : state) (b a : nat) : Prop := ancestor (parent_of s) b a.

Theorem C05_update_register : forall squad s i n old, reachable s -> frame s i ->
  name_of s i = Some n -> lookup n (reg s) = Some old -> i <> old ->
  let s' := fst (step s (ORegister i true)) in
  snd (step s (ORegister i true)) = Ok tt /\
  List.length (heap s') = List.length (heap s) /\
  (forall m, lookup m (reg s') = if String.eqb m n then Some i else lookup m (reg s)) /\
  (forall k, parent_of s' k = if Nat.eqb old k then None else parent_of s k) /\
  (forall a b, frame s a -> frame s b -> (below s a old <-> below s b old) ->
     lookup_transform squad s' a (PFrame b) = lookup_transform squad s a (PFrame b)) /\
  (forall a b, frame s a -> frame s b -> below s a old -> ~ below s b old ->
     lookup_transform squad s' a (PFrame b) = Raise WalkError /\
     lookup_transform squad s' b (PFrame a) = Raise WalkError).
Proof.
  intros squad s i n old Hs Hi Hn Hl _. simpl. destruct (get_lt s i Hi) as (nd & ->).
  destruct (register s i true) as [s' r] eqn:E. simpl. pose proof (reachable_Inv s Hs) as I.
  destruct (register_update_effect s i n old s' r I Hi Hn Hl E) as (-> & _ & Hsz & Hm & Hp & _).
  destruct (register_update_lookups squad s i n old s' (Ok tt) I Hi Hn Hl E) as (U1 & U2).
  pose proof (register_update_inside squad s i n old s' (Ok tt) I Hi Hn Hl E) as U3.
  repeat split; auto.
  - intros a b Ha Hb Hiff. destruct (ancestor_dec (parent_of s) a old (wf_root _ (proj1 I) a Ha)) as [Y|Y].
    + apply U3; auto. apply Hiff, Y.
    + apply U1; auto. intros Z. apply Y, Hiff, Z.
  - apply (U2 a b); auto.
  - apply (U2 a b); auto.
Qed.
Theorem C05_update_register_frame : forall squad s c n old, reachable s ->
  c_name c = Some n -> lookup n (reg s) = Some old ->
  snd (step s (ORegisterFrame c true)) = Ok tt ->
  let s' := fst (step s (ORegisterFrame c true)) in
  let i := List.length (heap s) in  (* the new object *)
  (forall m, lookup m (reg s') = if String.eqb m n then Some i else lookup m (reg s)) /\
  (forall k, frame s k -> parent_of s' k = if Nat.eqb old k then None else parent_of s k) /\
  (forall a b, frame s a -> frame s b -> (below s a old <-> below s b old) ->
     lookup_transform squad s' a (PFrame b) = lookup_transform squad s a (PFrame b)) /\
  (forall a b, frame s a -> frame s b -> below s a old -> ~ below s b old ->
     lookup_transform squad s' a (PFrame b) = Raise WalkError /\
     lookup_transform squad s' b (PFrame a) = Raise WalkError).
Proof.
  intros squad s c n old Hs Hn Hl. simpl. destruct (register_frame s c true) as [s' [i|e]] eqn:E; simpl; [|discriminate].
  intros _. destruct (register_frame_update squad s c n old s' i (reachable_Inv s Hs) Hn Hl E) as (-> & _ & H).
  exact H.
Qed.
(** The hypotheses are met: a is replaced in a tree where b is below a and c is not. *)
Example C05_example :
  snd (step ex_lit (ORegisterFrame (stat "a" "c" [1%R;2%R;3%R] [0%R;0%R;0%R;1%R]) true)) = Ok tt /\
  lookup "a"%string (reg ex_lit) = Some 1 /\ below ex_lit 2 1 /\ ~ below ex_lit 3 1.
Proof.
  split; [reflexivity|]. split; [reflexivity|]. split.
  - apply (anc_up _ 2 1 1); [reflexivity|constructor].
  - intros H. inversion H; subst. simpl in H0. injection H0 as <-. inversion H1; subst. discriminate.
Qed.

(* ------------------------------------------------------------------ C06 *)
(** False: registering an already registered frame again with update=True
    detaches it, and the lookup to its parent raises afterwards. *)
Theorem C06_refuted : forall squad,
  exists s i j t r, reachable s /\ frame s i /\ frame s j /\
    lookup_transform squad s i (PFrame j) = Ok (TrStatic t r) /\
    snd (step s (ORegister i true)) = Ok tt /\
    lookup_transform squad (fst (step s (ORegister i true))) i (PFrame j) = Raise WalkError.
Proof.
  intros squad. 
  destruct (lookup_succeeds squad ex_lit 3 0) as (t & r & E).
  - apply reachable_Inv, ex_reachable.
  - unfold size; simpl; lia.
  - unfold size; simpl; lia.
  - exists 0. split; split; try reflexivity; try constructor.
    apply (anc_up _ 3 0 0); [reflexivity|constructor].
  - intros k [(H1 & H2)|(H1 & H2)].
    + inversion H1; subst.
      * exists (V3 5 0 0), (Qt 1 0 0 0). split; [reflexivity|]. unfold hnonzero, hn2, sc, ve, vdot; simpl. lra.
      * simpl in H. injection H as <-. inversion H0; subst; [|discriminate]. exfalso. apply H2. constructor.
    + inversion H1; subst; [|discriminate]. exfalso. apply H2. apply (anc_up _ 3 0 0); [reflexivity|constructor].
  - exists ex_lit, 3, 0, t, r. split; [apply ex_lit_reachable|]. split; [unfold frame; simpl; lia|].
    split; [unfold frame; simpl; lia|]. split; [exact E|]. split; reflexivity.
Qed.
(** It holds whenever the name does not currently denote the frame itself or a
    frame above it: unless a frame in the way between i and j is unlinked. *)
Theorem C06_partial : forall squad s i j, reachable s -> frame s i -> frame s j ->
  (forall n old, name_of s i = Some n -> lookup n (reg s) = Some old -> (below s i old <-> below s j old)) ->
  let s' := fst (step s (ORegister i true)) in
  lookup_transform squad s' i (PFrame j) = lookup_transform squad s i (PFrame j) /\
  lookup_transform squad s' j (PFrame i) = lookup_transform squad s j (PFrame i).
Proof.
  intros squad s i j Hs Hi Hj H. simpl. destruct (get_lt s i Hi) as (nd & E0).
  pose proof (reachable_Inv s Hs) as I.
  pose proof (reachable_Inv _ (reachable_step s (ORegister i true) Hs)) as I'. simpl in I'.
  rewrite E0 in *. destruct (register s i true) as [s' r] eqn:E. simpl in *.
  destruct (name_of s i) as [n|] eqn:En.
  - destruct (lookup n (reg s)) as [old|] eqn:El.
    + specialize (H n old eq_refl El).
      destruct (register_update_lookups squad s i n old s' r I Hi En El E) as (U1 & _).
      pose proof (register_update_inside squad s i n old s' r I Hi En El E) as U3.
      destruct (ancestor_dec (parent_of s) i old (wf_root _ (proj1 I) i Hi)) as [Y|Y].
      * assert (Yj := proj1 H Y). split; apply U3; auto.
      * assert (Yj : ~ ancestor (parent_of s) j old) by (intros Z; apply Y, H, Z). split; apply U1; auto.
    + assert (Hh : heap s' = heap s).
      { apply (register_free_lookups s i true s' r I Hi); auto. intros m Em. congruence. }
      split; apply same_heap_lookup; auto.
  - assert (Hh : heap s' = heap s).
    { apply (register_free_lookups s i true s' r I Hi); auto. intros m Em. congruence. }
    split; apply same_heap_lookup; auto.
Qed.

(* ------------------------------------------------------------------ C07 *)
Theorem C07_deregister_frame : forall squad s n, reachable s ->
  let s' := fst (step s (ODeregister n)) in
  (forall m, lookup m (reg s') = if String.eqb m n then None else lookup m (reg s)) /\
  snd (step s (ODeregister n)) = (match lookup n (reg s) with Some _ => Ok tt | None => Raise ValueError end) /\
  forall a b, frame s a -> frame s b ->
    lookup_transform squad s' a (PFrame b) = lookup_transform squad s a (PFrame b).
Proof.
  intros squad s n Hs. pose proof (reachable_Inv s Hs) as I.
  pose proof (reachable_Inv _ (reachable_step s (ODeregister n) Hs)) as I'. simpl in *.
  unfold deregister in *. destruct (lookup n (reg s)) as [k|] eqn:E; simpl in *.
  - split; [intros m; apply lookup_pop|]. split; auto. intros a b Ha Hb. apply same_heap_lookup; auto.
  - split; [intros m; destruct (String.eqb_spec m n) as [->|]; auto|]. split; auto.
Qed.
Theorem C07_clear_registry : forall squad s, reachable s ->
  let s' := fst (step s OClear) in
  (forall m, lookup m (reg s') = None) /\ snd (step s OClear) = Ok tt /\
  forall a b, frame s a -> frame s b ->
    lookup_transform squad s' a (PFrame b) = lookup_transform squad s a (PFrame b).
Proof.
  intros squad s Hs. pose proof (reachable_Inv s Hs) as I.
  pose proof (reachable_Inv _ (reachable_step s OClear Hs)) as I'. simpl in *.
  split; auto. split; auto. intros a b Ha Hb. apply same_heap_lookup; auto.
Qed.
(** rf.deregister() removes another frame that is registered under its name. *)
Theorem C07_object_deregister_refuted : exists s i k n, reachable s /\ frame s i /\
  lookup n (reg s) = Some k /\ k <> i /\
  snd (step s (ODeregisterObj i)) = Ok tt /\ lookup n (reg (fst (step s (ODeregisterObj i)))) = None.
Proof.
  exists (fst (step ex_lit (ONew (stat "a" "c" [0%R;0%R;0%R] [1%R;0%R;0%R;0%R])))), 6, 1, "a"%string.
  split; [apply reachable_after, ex_lit_reachable|]. split; [unfold frame; simpl; lia|]. repeat split. discriminate.
Qed.
(** It is deregister_frame of the frame's name, so it removes only this frame
    when the name denotes it. *)
Theorem C07_object_deregister_partial : forall squad s i n, reachable s -> frame s i ->
  name_of s i = Some n -> lookup n (reg s) = Some i ->
  let s' := fst (step s (ODeregisterObj i)) in
  (forall m k, k <> i -> lookup m (reg s) = Some k -> lookup m (reg s') = Some k) /\
  (forall m, lookup m (reg s') <> Some i) /\
  forall a b, frame s a -> frame s b ->
    lookup_transform squad s' a (PFrame b) = lookup_transform squad s a (PFrame b).
Proof.
  intros squad s i n Hs Hi Hn Hl. pose proof (reachable_Inv s Hs) as I.
  pose proof (reachable_Inv _ (reachable_step s (ODeregisterObj i) Hs)) as I'. simpl in *.
  destruct (get_lt s i Hi) as (nd & E). rewrite E in *. unfold deregister_obj, deregister in *. rewrite Hn, Hl in *.
  simpl in *. split; [|split].
  - intros m k Hk Hm. rewrite lookup_pop. destruct (String.eqb_spec m n) as [->|]; [congruence|auto].
  - intros m. rewrite lookup_pop. destruct (String.eqb_spec m n) as [->|]; [discriminate|].
    intros Hm. destruct (reg_lt s m i (proj2 I) Hm) as (_ & Hmn). congruence.
  - intros a b Ha Hb. apply same_heap_lookup; auto.
Qed.
Example C07_example : name_of ex_lit 2 = Some "b"%string /\ lookup "b"%string (reg ex_lit) = Some 2.
Proof. split; reflexivity. Qed.

(* ------------------------------------------------------------------ C12 *)
Theorem C12_different_trees_raise : forall squad s i j, reachable s -> frame s i -> frame s j ->
  ~ same_tree (parent_of s) i j -> lookup_transform squad s i (PFrame j) = Raise WalkError.
Proof. intros squad s i j Hs. exact (lookup_diff squad s i j (reachable_Inv s Hs)). Qed.
(** Same tree, and every frame that is above exactly one of i and j (these are
    the frames on the way) is static with a non-zero rotation. *)
Theorem C12_same_tree_succeeds : forall squad s i j, reachable s -> frame s i -> frame s j ->
  same_tree (parent_of s) i j ->
  (forall k, (below s i k /\ ~ below s j k) \/ (below s j k /\ ~ below s i k) ->
     exists t r, transform_of s k = Some (TStatic t r) /\ hnonzero r) ->
  exists t r, lookup_transform squad s i (PFrame j) = Ok (TrStatic t r).
Proof. intros squad s i j Hs. exact (lookup_succeeds squad s i j (reachable_Inv s Hs)). Qed.
Example C12_example : same_tree (parent_of ex_lit) 2 3 /\ ~ same_tree (parent_of ex_lit) 2 5.
Proof.
  assert (H2 : root_of (parent_of ex_lit) 2 0).
  { split; [|reflexivity]. apply (anc_up _ 2 1 0); [reflexivity|]. apply (anc_up _ 1 0 0); [reflexivity|constructor]. }
  split.
  - exists 0. split; auto. split; [|reflexivity]. apply (anc_up _ 3 0 0); [reflexivity|constructor].
  - intros (r & H & H'). assert (r = 0).
    { apply (root_fun (parent_of ex_lit) 2 r 0); auto. apply (proj1 (reachable_Inv _ ex_lit_reachable)). unfold size; simpl; lia. }
    subst r. destruct H' as (H' & _). inversion H'; subst. simpl in H0. injection H0 as <-.
    inversion H1; subst. discriminate.
Qed.

Print Assumptions C01_forest.
Print Assumptions C02_registry.
Print Assumptions C03_register_refused.
Print Assumptions C03_register_frame_refused.
Print Assumptions C03_free_name_accepted.
Print Assumptions C04_refuted.
Print Assumptions C04_constructor_partial.
Print Assumptions C04_register_frame_partial.
Print Assumptions C04_no_parent_partial.
Print Assumptions C05_update_register.
Print Assumptions C05_update_register_frame.
Print Assumptions C06_refuted.
Print Assumptions C06_partial.
Print Assumptions C07_deregister_frame.
Print Assumptions C07_clear_registry.
Print Assumptions C07_object_deregister_refuted.
Print Assumptions C07_object_deregister_partial.
Print Assumptions C12_different_trees_raise.
Print Assumptions C12_same_tree_succeeds.
