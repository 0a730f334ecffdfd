(** Properties C17, C18 for the library's own interpolation of orientations: the theorems
    of PropMoving.v for the model np_squad of quaternion.squad, of which C79 proves what they assume.
    Concrete cases stand beside those theorems, and with np_squad in ClosedMoving.v and PropSquadEx.v. *)
From Coq Require Import Reals List String Arith Bool Lia Lra Sorted.
From Verif Require Import Base Quat SpecQuat QuatProofs NdArray Frames SpecForest
  FrameProofs WalkProofs Matcher SpecLookup LookupProofs RegistryProofs MovingProofs TimeProofs
  CtorProofs InverseProofs RouteProofs Examples PropForest PropLookup PropMoving.
Import ListNotations.
Open Scope R_scope.
From Verif Require Squad PropSquad Spline PropConverge.
Ltac close G :=
  destruct PropSquad.C79_contract as (?Hu & ?He & ?Ht & ?Hc); pose proof (proj1 PropConverge.C80_contract) as ?Hs;
  repeat match type of G with
  | MovingProofs.squad_unit Squad.np_squad -> _ => specialize (G Hu)
  | InverseProofs.squad_exact Squad.np_squad -> _ => specialize (G He)
  | RouteProofs.squad_total Squad.np_squad -> _ => specialize (G Ht)
  | Spline.spline_derivative Spline.np_derivative -> _ => specialize (G Hs)
  | forall _, _ => let y := fresh in intro y; specialize (G y)
  end; exact G.

(** One row per timestamp; row k maps coordinates of the same physical point at
    the k-th timestamp. *)
Theorem C17_moving_lookup_closed : forall s i to j ts rows, reachable s ->
  frame s i -> denotes s to j -> unit_way s i j ->
  lookup_transform Squad.np_squad s i to = Ok (TrRows ts rows) ->
  List.length rows = List.length ts /\
  forall k x t r, nth_error ts k = Some x -> nth_error rows k = Some (t, r) ->
    hunit r /\
    exists c, ancestor (parent_of s) i c /\ ancestor (parent_of s) j c /\
    forall p, exists P, coords Squad.np_squad s x i p c P /\ coords Squad.np_squad s x j (smove t r p) c P.
Proof. pose proof (C17_moving_lookup Squad.np_squad) as G. close G. Qed.

(** Hence no out-of-range error: through frames with unit rotations, where
    discrete frames have an event (in order) and continuous ones two increasing
    samples, a lookup inside one tree always succeeds. *)
Theorem C18_lookup_succeeds_closed : forall s i j, reachable s ->
  frame s i -> frame s j -> same_tree (parent_of s) i j ->
  (forall k, on_way s i j k -> exists d, transform_of s k = Some d /\ well_sampled d) ->
  exists tr, lookup_transform Squad.np_squad s i (PFrame j) = Ok tr.
Proof. pose proof (C18_lookup_succeeds Squad.np_squad) as G. close G. Qed.

(** From the discrete frame d to c (static below the continuous m). *)
Example C17_example_closed : reachable mov_lit /\ unit_way mov_lit 3 2 /\
  exists ts rows, lookup_transform Squad.np_squad mov_lit 3 (PFrame 2) = Ok (TrRows ts rows).
Proof.
  split; [apply mov_lit_reachable|].
  split; [intros k d _ H; apply (mov_unit k d H)|].
  assert (HI : Inv mov_lit) by (apply reachable_Inv, mov_lit_reachable).
  destruct (lookup_moving_succeeds Squad.np_squad mov_lit 3 2 HI (reachable_BodyOk _ mov_lit_reachable) (proj1 (proj2 (proj2 PropSquad.C79_contract)))
    (proj1 PropSquad.C79_contract)) as (tr & H).
  - unfold size; simpl; lia.
  - unfold size; simpl; lia.
  - exists 0%nat. split; apply mov_root; lia.
  - intros k Hk. 
    assert (B : forall m, (m < 4)%nat -> ancestor (parent_of mov_lit) m k -> (k < 4)%nat).
    { intros m Hm Ha. clear -Hm Ha. remember (parent_of mov_lit) as par eqn:E. induction Ha as [|m q a Hp Ha IH]; auto.
      apply IH; auto. subst par. destruct m as [|[|[|[|m]]]]; try lia; simpl in Hp; try discriminate; injection Hp as <-; lia. }
    assert (Hk4 : (k < 4)%nat) by (destruct Hk as [(Ha & _)|(Ha & _)]; [apply (B 3%nat)|apply (B 2%nat)]; auto; lia).
    destruct k as [|[|[|[|k]]]]; try lia.
    + exfalso. destruct Hk as [(_ & Hb)|(_ & Hb)]; apply Hb; apply mov_root; lia.
    + eexists. split; [reflexivity|]. apply (mov_well 1). reflexivity.
    + eexists. split; [reflexivity|]. apply (mov_well 2). reflexivity.
    + eexists. split; [reflexivity|]. apply (mov_well 3). reflexivity.
  - destruct tr as [t r|ts|ts rows]; [exfalso|exfalso; revert H; apply C17_no_bare, mov_lit_reachable|eauto].
    assert (H3 : (3 < size mov_lit)%nat) by (unfold size; simpl; lia).
    apply (lookup_static_iff Squad.np_squad mov_lit 3 (PFrame 2) 2 t r HI H3 eq_refl) in H as (up & dn & c & gi & gj & W & G1 & _ & _).
    destruct W as (C1 & C2 & C3).
    inversion G1 as [|? ? ? ? ? ? ? E1 E2]; subst.
    + inversion C2 as [|? ? ? ? F1 F2]; subst. injection F1 as <-. inversion F2 as [|? ? ? ? F3 F4]; subst.
      injection F3 as <-. inversion F4; discriminate.
    + discriminate E2.
Qed.
