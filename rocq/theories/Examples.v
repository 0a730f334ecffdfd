(** Concrete frames used to show that the hypotheses of the property theorems
    are met by non-trivial reachable states. *)
From Coq Require Import Reals List String Arith Bool Lia Lra.
From Verif Require Import Base Quat SpecQuat QuatProofs NdArray Frames Matcher.
Import ListNotations.
Open Scope R_scope.
Open Scope string_scope.

Definition arr1 (l : list R) : nd R := Nd [List.length l] (fun ix => nth (hd O ix) l 0).
Definition arr2 (c : nat) (l : list (list R)) : nd R :=
  Nd [List.length l; c] (fun ix => nth (nth 1 ix O) (nth (hd O ix) l []) 0).
Definition root (n : string) : ctor := Ctor (Some n) None None None None false false.
Definition stat (n p : string) (t r : list R) : ctor :=
  Ctor (Some n) (Some (PName p)) (Some (arr1 t)) (Some (arr1 r)) None false false.
Definition statinv (n p : string) (t r : list R) : ctor :=
  Ctor (Some n) (Some (PName p)) (Some (arr1 t)) (Some (arr1 r)) None true false.
Definition mov (n p : string) (ts : list R) (t r : list (list R)) (disc : bool) : ctor :=
  Ctor (Some n) (Some (PName p)) (Some (arr2 3 t)) (Some (arr2 4 r)) (Some (arr1 ts)) false disc.

(** world <- a <- b, world <- c, and a second tree w2 <- d; b has a non-unit
    rotation. *)
Definition ex_ops : list op :=
  [ ORegisterFrame (root "world") false;
    ORegisterFrame (stat "a" "world" [1;2;3] [0;1;0;0]) false;
    ORegisterFrame (stat "b" "a" [0;0;1] [1;1;1;2]) false;
    ORegisterFrame (stat "c" "world" [5;0;0] [1;0;0;0]) false;
    ORegisterFrame (root "w2") false;
    ORegisterFrame (stat "d" "w2" [0;1;0] [0;0;0;1]) false ].
Definition ex_state : state := run ex_ops.
Lemma ex_reachable : reachable ex_state.
Proof. exists ex_ops. reflexivity. Qed.

Definition nodeS (n : string) (p : option nat) (ch : list nat) (t : vec3) (r : quat) : node :=
  Node (Some n) p ch (BTf (TStatic t r)).
Definition ex_lit : state := State
  [ Node (Some "world") None [1%nat; 3%nat] BRoot;
    nodeS "a" (Some 0%nat) [2%nat] (V3 1 2 3) (Qt 0 1 0 0);
    nodeS "b" (Some 1%nat) [] (V3 0 0 1) (Qt 1 1 1 2);
    nodeS "c" (Some 0%nat) [] (V3 5 0 0) (Qt 1 0 0 0);
    Node (Some "w2") None [5%nat] BRoot;
    nodeS "d" (Some 4%nat) [] (V3 0 1 0) (Qt 0 0 0 1) ]
  [("world", 0%nat); ("a", 1%nat); ("b", 2%nat); ("c", 3%nat); ("w2", 4%nat); ("d", 5%nat)].
Lemma ex_state_eq : ex_state = ex_lit.
Proof. vm_compute. reflexivity. Qed.
Lemma ex_lit_reachable : reachable ex_lit.
Proof. rewrite <- ex_state_eq. apply ex_reachable. Qed.
Lemma reachable_after s o : reachable s -> reachable (fst (step s o)).
Proof. intros (ops & ->). exists (ops ++ [o])%list. unfold run. rewrite fold_left_app. reflexivity. Qed.

(** world <- m (continuous) <- c (static), world <- d (discrete), world <- e (static). *)
Definition mov_ops : list op :=
  [ ORegisterFrame (root "world") false;
    ORegisterFrame (mov "m" "world" [0;1;3] [[0;0;0];[1;0;0];[1;2;0]] [[1;0;0;0];[0;1;0;0];[0;0;1;0]] false) false;
    ORegisterFrame (stat "c" "m" [0;0;1] [0;0;0;1]) false;
    ORegisterFrame (mov "d" "world" [0;2] [[5;0;0];[6;0;0]] [[1;0;0;0];[0;0;1;0]] true) false ].
Definition mov_lit : state := State
  [ Node (Some "world") None [1%nat; 3%nat] BRoot;
    Node (Some "m") (Some 0%nat) [2%nat]
      (BTf (TMoving [0;1;3] [V3 0 0 0; V3 1 0 0; V3 1 2 0] [Qt 1 0 0 0; Qt 0 1 0 0; Qt 0 0 1 0] false));
    nodeS "c" (Some 1%nat) [] (V3 0 0 1) (Qt 0 0 0 1);
    Node (Some "d") (Some 0%nat) []
      (BTf (TMoving [0;2] [V3 5 0 0; V3 6 0 0] [Qt 1 0 0 0; Qt 0 0 1 0] true)) ]
  [("world", 0%nat); ("m", 1%nat); ("c", 2%nat); ("d", 3%nat)].
Lemma mov_lit_eq : run mov_ops = mov_lit.
Proof. vm_compute. reflexivity. Qed.
Lemma mov_lit_reachable : reachable mov_lit.
Proof. exists mov_ops. symmetry. apply mov_lit_eq. Qed.

(** The same static and "moving" frame with a rotation of length 2, and a child. *)
Definition len2_ops (moving : bool) : list op :=
  [ ORegisterFrame (root "world") false;
    ORegisterFrame (if moving then mov "m" "world" [0] [[0;0;0]] [[0;2;0;0]] true
                    else stat "m" "world" [0;0;0] [0;2;0;0]) false;
    ORegisterFrame (stat "c" "m" [0;1;0] [1;0;0;0]) false ].
Definition len2_lit (moving : bool) : state := State
  [ Node (Some "world") None [1%nat] BRoot;
    Node (Some "m") (Some 0%nat) [2%nat]
      (BTf (if moving then TMoving [0] [V3 0 0 0] [Qt 0 2 0 0] true else TStatic (V3 0 0 0) (Qt 0 2 0 0)));
    nodeS "c" (Some 1%nat) [] (V3 0 1 0) (Qt 1 0 0 0) ]
  [("world", 0%nat); ("m", 1%nat); ("c", 2%nat)].
Lemma len2_reachable b : reachable (len2_lit b).
Proof. exists (len2_ops b). symmetry. destruct b; vm_compute; reflexivity. Qed.
