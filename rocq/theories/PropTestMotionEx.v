(** Frames that meet the hypotheses of C85: the tree of the package's own tests, two samples. *)
From Coq Require Import Reals String List Arith Bool ZArith Lia Lra.
From Verif Require Import Base Quat SpecQuat NdArray Frames SpecForest Matcher SpecLookup TimeProofs
  Examples PropForest PropLookup VelFrameProofs VelExamples Squad TestMotion PropTestMotion.
Import ListNotations.
Open Scope R_scope.

Section Any.
  Variables t r t' r' : nat -> nat -> R.
  Definition comp_ops : list op :=
    [ ORegisterFrame (root "world"%string) false;
      ORegisterFrame (mov "head"%string "world"%string [0;1] [[t 0 0; t 0 1; t 0 2]; [t 1 0; t 1 1; t 1 2]]%nat
        [[r 0 0; r 0 1; r 0 2; r 0 3]; [r 1 0; r 1 1; r 1 2; r 1 3]]%nat false) false;
      ORegisterFrame (mov "eyes"%string "head"%string [0;1] [[t' 0 0; t' 0 1; t' 0 2]; [t' 1 0; t' 1 1; t' 1 2]]%nat
        [[r' 0 0; r' 0 1; r' 0 2; r' 0 3]; [r' 1 0; r' 1 1; r' 1 2; r' 1 3]]%nat false) false ].
  Definition comp_lit : state := State
    [ Node (Some "world"%string) None [1%nat] BRoot;
      Node (Some "head"%string) (Some 0%nat) [2%nat]
        (BTf (TMoving [0;1] [V3 (t 0 0) (t 0 1) (t 0 2); V3 (t 1 0) (t 1 1) (t 1 2)]%nat
           [Qt (r 0 0) (r 0 1) (r 0 2) (r 0 3); Qt (r 1 0) (r 1 1) (r 1 2) (r 1 3)]%nat false));
      Node (Some "eyes"%string) (Some 1%nat) []
        (BTf (TMoving [0;1] [V3 (t' 0 0) (t' 0 1) (t' 0 2); V3 (t' 1 0) (t' 1 1) (t' 1 2)]%nat
           [Qt (r' 0 0) (r' 0 1) (r' 0 2) (r' 0 3); Qt (r' 1 0) (r' 1 1) (r' 1 2) (r' 1 3)]%nat false)) ]
    [("world"%string, 0%nat); ("head"%string, 1%nat); ("eyes"%string, 2%nat)].
  Lemma comp_reachable : reachable comp_lit.
  Proof. exists comp_ops. symmetry. vm_compute. reflexivity. Qed.
End Any.

(** A swing by up to half a radian; the second sample (k = 1) is not the identity. *)
Example C85_example : exists s t r t' r', reachable s /\ frame s 2 /\ parent_of s 2 = Some 1%nat /\ parent_of s 1 = Some 0%nat /\
  make_test_motion 2 1 (1/2) 4 false false None = Ok (t, r) /\
  make_test_motion 2 1 (1/2) 4 false true (Some [1;0;0]) = Ok (t', r') /\ increasing [0;1] /\
  transform_of s 1 = Some (TMoving [0;1] (vectors t 2) (quaternions r 2) false) /\
  transform_of s 2 = Some (TMoving [0;1] (vectors t' 2) (quaternions r' 2) false) /\
  vec_at t [1%nat] = V3 (1/2) (1/2) (1/2) /\
  lookup_transform np_squad s 2 (PFrame 0) = Ok (TrRows [0;1] [(V3 1 0 0, hone); (V3 1 0 0, hone)]).
Proof.
  destruct (C85_motion 2 1 (1/2) 4 false false None ltac:(lra) Logic.I) as (t & r & E & _ & _ & H).
  destruct (C85_motion 2 1 (1/2) 4 false true (Some [1;0;0]) ltac:(lra) eq_refl) as (t' & r' & E' & _).
  set (s := comp_lit (fun i j => dat t [i; j]) (fun i j => dat r [i; j]) (fun i j => dat t' [i; j]) (fun i j => dat r' [i; j])).
  assert (Inc : increasing [0;1]).
  { intros i j a b Hij Ha Hb. destruct j as [|[|j]]; try lia; destruct i as [|i]; try lia; cbn in *; [injection Ha as <-; injection Hb as <-; lra|destruct j; discriminate|destruct i; [|destruct i]; destruct j; discriminate]. }
  exists s, t, r, t', r'. split; [apply comp_reachable|]. split; [unfold frame, s; cbn; lia|].
  split; [reflexivity|]. split; [reflexivity|]. split; [exact E|]. split; [exact E'|]. split; [exact Inc|].
  split; [reflexivity|]. split; [reflexivity|]. split.
  - destruct (H 1%nat ltac:(lia)) as (_ & ->). cbn [offset_vec]. rewrite QuatProofs.srot_0. unfold swing, direction.
    replace (2 * PI * 1 * INR 1 / 4) with (PI / 2) by (cbn; field). rewrite sin_PI2. cbv [vadd vscale v0 vx vy vz]. f_equal; field.
  - change [(V3 1 0 0, hone); (V3 1 0 0, hone)] with (map (fun _ : R => (offset_vec (Some [1;0;0]), hone)) [0;1]).
    eapply (C85_compensated s 0 1 2 [0;1] 2 1 (1/2) 4 false (Some [1;0;0])); eauto; try reflexivity; try lra.
    + apply comp_reachable.
    + unfold frame, s; cbn; lia.
Qed.
