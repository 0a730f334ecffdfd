(** Property C84: batches without timestamps between frames that move; the hypotheses are met. *)
From Coq Require Import Reals String List Arith Bool ZArith Lia Lra.
From Verif Require Import Base Quat SpecQuat QuatProofs NdArray Frames SpecForest FrameProofs WalkProofs
  Matcher SpecLookup LookupProofs RegistryProofs MovingProofs TimeProofs CtorProofs InverseProofs RouteProofs
  Examples PropForest PropLookup PropMoving
  Transform SpecArray NdProofs RotProofs ArrProofs ArrTransProofs ArrStaticProofs PropTransform PropRotate
  Squad PropSquad PropConverge PropLookVelEx PropBatch.
Import ListNotations.
Open Scope nat_scope.

(** One discrete event: one returned time. *)
Section Once.
  Variables T A : R.
  Definition once_ops : list op :=
    [ ORegisterFrame (root "world"%string) false;
      ORegisterFrame (mov "s"%string "world"%string [T] [[A; 0; 0]%R] [[1; 0; 0; 0]%R] true) false ].
  Definition once_lit : state := State
    [ Node (Some "world"%string) None [1] BRoot;
      Node (Some "s"%string) (Some 0) [] (BTf (TMoving [T] [V3 A 0 0] [Qt 1 0 0 0] true)) ]
    [("world"%string, 0); ("s"%string, 1)].
  Lemma once_reachable : reachable once_lit.
  Proof. exists once_ops. symmetry. vm_compute. reflexivity. Qed.
  Lemma once_lookup : exists row, lookup_transform np_squad once_lit 1 (PFrame 0) = Ok (TrRows [T] [row]).
  Proof.
    eexists. cbv -[IZR Rplus Rmult Rminus Ropp Rdiv qlen Rle_dec Req_EM_T].
    destruct (Rle_dec T T) as [_|N]; [|exfalso; lra].
    destruct (Req_EM_T (qlen (Qt 1 0 0 0)) 0) as [E|_]; [exfalso; apply qlen_zero in E; revert E; cbv [qnorm2 qw qx qy qz]; lra|]. reflexivity.
  Qed.
End Once.
Example C84_example :
  (exists l rows, lookup_transform np_squad arc 1 (PFrame 0) = Ok (TrRows l rows) /\ 2 <= List.length l) /\ reachable arc /\ unit_way arc 1 0 /\
  exists row, lookup_transform np_squad (once_lit 2 1) 1 (PFrame 0) = Ok (TrRows [2%R] [row]) /\ reachable (once_lit 2 1) /\ unit_way (once_lit 2 1) 1 0.
Proof.
  split; [eexists; eexists; split; [exact arc_lookup|cbn; lia]|]. split; [apply arc_reachable|]. split; [apply good_unit, arc_good; lia|].
  destruct (once_lookup 2 1) as (row & E). exists row. split; [exact E|]. split; [apply once_reachable|].
  intros k d Hk Hd. assert (K : d = TMoving [2%R] [V3 1 0 0] [Qt 1 0 0 0] true).
  { destruct k as [|[|k]]; cbn in Hd; [discriminate|congruence|destruct k; discriminate]. }
  subst d. apply Forall_cons; [apply hunit_one|apply Forall_nil].
Qed.
