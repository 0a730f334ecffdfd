(** C90: q and -q are the same orientation; the theorems. *)
From Coq Require Import Reals List Arith Bool ZArith Lra Lia FunctionalExtensionality.
From Verif Require Import Base Quat NdArray Frames Matcher Transform Squad Velocity VelFrames Spline NdProofs RotProofs PropClock PropClockVel PropSign PropSignArr PropSignVel.
Import ListNotations.
Open Scope R_scope.

Lemma cross_rel a a' b b' : nd_rel eq a a' -> nd_rel eq b b' -> rrel (nd_rel eq) (np_cross a b) (np_cross a' b').
Proof.
  intros [S1 D1] [S2 D2]. unfold np_cross. rewrite S1, S2. destruct (Nat.eqb_spec (last (shp a) 0%nat) 3) as [L1|]; [|reflexivity]. destruct (Nat.eqb_spec (last (shp b) 0%nat) 3) as [L2|]; [|reflexivity]. cbn [negb orb].
  destruct (bshape (removelast (shp a)) (removelast (shp b))) as [u|] eqn:B; [|reflexivity]. cbn [bind rrel]. split; [reflexivity|]. cbn [shp dat]. intros ix V. apply Forall2_app_inv_r in V as (l1 & l2 & V1 & V2 & ->). inversion V2 as [|i n jx s' I V']; subst. inversion V'; subst.
  rewrite removelast_last, last_last. destruct (bix_valid _ _ _ _ B V1) as [W1 W2].
  assert (VV : forall (x x' : nd R) pre, (forall ix, valid (shp x) ix -> dat x ix = dat x' ix) -> last (shp x) 0%nat = 3%nat -> valid (removelast (shp x)) pre -> vec_at x pre = vec_at x' pre).
  { intros x x' pre Dx Lx Vx. assert (Sx : shp x = removelast (shp x) ++ [3%nat]) by (rewrite <- Lx; apply app_removelast_last; intros N; rewrite N in Lx; discriminate).
    assert (Q : forall c, (c < 3)%nat -> dat x (pre ++ [c]) = dat x' (pre ++ [c])) by (intros c C; apply Dx; rewrite Sx; apply valid_app; [exact Vx|constructor; [exact C|constructor]]).
    unfold vec_at. rewrite !Q by lia. reflexivity. }
  rewrite (VV a a' _ D1 L1 W1), (VV b b' _ D2 L2 W2). reflexivity.
Qed.
Lemma plus_rel a a' b b' : nd_rel eq a a' -> nd_rel eq b b' -> rrel (nd_rel eq) (op2 Rplus a b) (op2 Rplus a' b').
Proof. intros A B. apply (op2_rel eq eq eq); [exact A|exact B|]. intros; subst; reflexivity. Qed.
Lemma inplace_rel a a' b b' : nd_rel eq a a' -> nd_rel eq b b' -> rrel (nd_rel eq) (add_inplace a b) (add_inplace a' b').
Proof. intros A B. unfold add_inplace. eapply rrel_bind; [apply plus_rel; eassumption|]. intros c c' C. rewrite (proj1 C), (proj1 A). destruct (shape_eqb _ _); [exact C|reflexivity]. Qed.
Section Pair.
  Variables s s' : state.
  Hypothesis H : state_sign s s'.
  Lemma sg_lookup_twist i rf ri al rt : same_twist (lookup_twist np_squad np_derivative s i rf ri al rt) (lookup_twist np_squad np_derivative s' i rf ri al rt).
  Proof.
    unfold same_twist, lookup_twist. rewrite !(sg_resolve_ref s s' H). apply rrel_bind_same. intros j. apply rrel_bind_same. intros k. destruct (sg_lookup s s' i (PFrame j) H) as (e & E & ->).
    destruct (lookup_transform np_squad s i (PFrame j)) as [tr|] eqn:L; [|reflexivity]. cbn [outcome bind]. rewrite sg_tr_ts, sg_tr_t. destruct (tr_ts tr) as [ts|] eqn:T.
    2:{ destruct al; [|reflexivity]. cbn [rrel fst snd]. split; [apply nd_rel_refl|]. split; [apply nd_rel_refl|reflexivity]. }
    rewrite (sg_estimate s i _ tr ts e L T E). apply rrel_bind_same. intros lin. apply rrel_bind_same. intros est. apply rrel_bind_same. intros ang.
    pose proof (sg_vectors s s' j lin (PFrame k) (Some 0%Z) (Some (stamps_nd ts)) H) as P1. pose proof (sg_vectors s s' i ang (PFrame k) (Some 0%Z) (Some (stamps_nd ts)) H) as P2. unfold results in P1, P2.
    destruct (transform_vectors np_squad s j lin _ _ _ _) as [[l ol]|] eqn:E1, (transform_vectors np_squad s' j lin _ _ _ _) as [[l' ol']|]; cbn [rrel] in P1; try contradiction; [|exact P1]. cbn [bind].
    destruct (transform_vectors np_squad s i ang _ _ _ _) as [[g og]|] eqn:E2, (transform_vectors np_squad s' i ang _ _ _ _) as [[g' og']|]; cbn [rrel] in P2; try contradiction; [|exact P2]. cbn [bind fst snd] in *. destruct P1 as [P1 ->], P2 as [P2 ->]. apply vectors_last in E1, E2.
    eapply rrel_bind.
    { apply match_rel. repeat constructor; cbn [fst snd]; try assumption; try (rewrite ?E1, ?E2; discriminate); auto; try apply P1; try apply P2. }
    intros [bs o] [bs' o'] [B Oo]. cbn [fst snd] in *. subst o'. destruct B as [|x x' bs bs' X B]; [reflexivity|]. destruct B as [|y y' bs bs' Y B]; [reflexivity|]. destruct B as [|z z' bs bs' Z B]; [|reflexivity].
    cbn [rrel fst snd]. auto.
  Qed.
  Lemma sg_transform_angular i a to w ts : results eq (transform_angular_velocity np_squad np_derivative s i a to w (-1) (Some 0%Z) ts) (transform_angular_velocity np_squad np_derivative s' i a to w (-1) (Some 0%Z) ts).
  Proof.
    unfold results, transform_angular_velocity. cbv zeta.
    assert (Fin : forall r r' : nd R * option (option (list R)), nd_rel eq (fst r) (fst r') -> snd r' = snd r -> last (shp (fst r)) O = 3%nat ->
      results eq (bind (unpack2 r) (fun '(ang, ang_ts) => bind (transform_vectors np_squad s i a to (-1) (Some 0%Z) ts) (fun '(a0, o0) => bind (match_arrays np_squad [(a0, o0); (ang, ang_ts)]) (fun '(bs, o') =>
        match bs with [a; g] => bind (add_inplace a g) (fun out => Ok (out, o')) | _ => Raise ValueError end))))
      (bind (unpack2 r') (fun '(ang, ang_ts) => bind (transform_vectors np_squad s' i a to (-1) (Some 0%Z) ts) (fun '(a0, o0) => bind (match_arrays np_squad [(a0, o0); (ang, ang_ts)]) (fun '(bs, o') =>
        match bs with [a; g] => bind (add_inplace a g) (fun out => Ok (out, o')) | _ => Raise ValueError end))))).
    { intros [g og] [g' og'] G O L3. cbn [fst snd] in *. subst og'. unfold unpack2. cbn [snd fst]. destruct og as [og|]; [|reflexivity]. cbn [bind].
      pose proof (sg_vectors s s' i a to (Some 0%Z) ts H) as P1. unfold results in P1. destruct (transform_vectors np_squad s i a _ _ _ _) as [[l ol]|] eqn:E1, (transform_vectors np_squad s' i a _ _ _ _) as [[l' ol']|]; cbn [rrel] in P1; try contradiction; [|exact P1].
      cbn [bind fst snd] in *. destruct P1 as [P1 ->]. apply vectors_last in E1. unfold results. eapply rrel_bind.
      { apply match_rel. repeat constructor; cbn [fst snd]; try assumption; try (rewrite ?E1, ?L3; discriminate); try apply P1; try apply G. }
      intros [bs o] [bs' o'] [B Oo]. cbn [fst snd] in *. subst o'. destruct B as [|x x' bs bs' X B]; [reflexivity|]. destruct B as [|y y' bs bs' Y B]; [reflexivity|]. destruct B as [|z z' bs bs' Z B]; [|reflexivity].
      eapply rrel_bind; [apply inplace_rel; eassumption|]. intros u u' U. cbn [rrel fst snd]. auto. }
    destruct w; [| |apply (sg_vectors s s' _ _ _ _ _ H)|reflexivity].
    - pose proof (sg_lookup_angular s s' H i (Some to) (Some to) true true) as P. unfold same_velocity in P.
      destruct (lookup_angular_velocity np_squad np_derivative s i _ _ _ _) as [r|] eqn:E, (lookup_angular_velocity np_squad np_derivative s' i _ _ _ _) as [r'|]; cbn [rrel] in P; try contradiction; [|exact P]. cbn [bind]. destruct P. apply Fin; try assumption. eapply lookup_angular_last, E.
    - rewrite (sg_resolve s s' H). apply rrel_bind_same. intros j. pose proof (sg_lookup_angular s s' H j (Some (PFrame i)) (Some to) true true) as P. unfold same_velocity in P.
      destruct (lookup_angular_velocity np_squad np_derivative s j _ _ _ _) as [r|] eqn:E, (lookup_angular_velocity np_squad np_derivative s' j _ _ _ _) as [r'|]; cbn [rrel] in P; try contradiction; [|exact P]. cbn [bind]. destruct P. apply Fin; try assumption. eapply lookup_angular_last, E.
  Qed.
  Lemma sg_transform_linear i a to w mf rf ts : results eq (transform_linear_velocity np_squad np_derivative s i a to w mf rf (-1) (Some 0%Z) ts) (transform_linear_velocity np_squad np_derivative s' i a to w mf rf (-1) (Some 0%Z) ts).
  Proof.
    unfold results, transform_linear_velocity. cbv zeta.
    assert (Fin : forall to lin lin' ang ang' lts ats tr e, nd_rel eq lin lin' -> nd_rel eq ang ang' -> last (shp lin) O = 3%nat -> last (shp ang) O = 3%nat ->
      results eq (bind (transform_vectors np_squad s i a to (-1) (Some 0%Z) ts) (fun '(a0, o0) =>
        bind (transform_vectors np_squad s i (tr_t tr) to (-1) (Some 0%Z) (option_map stamps_nd (tr_ts tr))) (fun '(t, t_ts) =>
        bind (match_arrays np_squad [(a0, o0); (lin, lts); (ang, ats); (t, t_ts)]) (fun '(bs, o') =>
          match bs with [a; l; g; t] => bind (op2 Rplus a l) (fun al => bind (np_cross g t) (fun c => bind (op2 Rplus al c) (fun out => Ok (out, o')))) | _ => Raise ValueError end))))
      (bind (transform_vectors np_squad s' i a to (-1) (Some 0%Z) ts) (fun '(a0, o0) =>
        bind (transform_vectors np_squad s' i (tr_t (tr_sign e tr)) to (-1) (Some 0%Z) (option_map stamps_nd (tr_ts (tr_sign e tr)))) (fun '(t, t_ts) =>
        bind (match_arrays np_squad [(a0, o0); (lin', lts); (ang', ats); (t, t_ts)]) (fun '(bs, o') =>
          match bs with [a; l; g; t] => bind (op2 Rplus a l) (fun al => bind (np_cross g t) (fun c => bind (op2 Rplus al c) (fun out => Ok (out, o')))) | _ => Raise ValueError end))))).
    { intros to' lin lin' ang ang' lts ats tr e Rl Ra L1 L2. rewrite sg_tr_t, sg_tr_ts. pose proof (sg_vectors s s' i a to' (Some 0%Z) ts H) as P1. pose proof (sg_vectors s s' i (tr_t tr) to' (Some 0%Z) (option_map stamps_nd (tr_ts tr)) H) as P2. unfold results in P1, P2.
      destruct (transform_vectors np_squad s i a _ _ _ _) as [[l ol]|] eqn:E1, (transform_vectors np_squad s' i a _ _ _ _) as [[l' ol']|]; cbn [rrel] in P1; try contradiction; [|exact P1]. cbn [bind].
      destruct (transform_vectors np_squad s i (tr_t tr) _ _ _ _) as [[g og]|] eqn:E2, (transform_vectors np_squad s' i (tr_t tr) _ _ _ _) as [[g' og']|]; cbn [rrel] in P2; try contradiction; [|exact P2]. cbn [bind fst snd] in *. destruct P1 as [P1 ->], P2 as [P2 ->]. apply vectors_last in E1, E2.
      unfold results. eapply rrel_bind.
      { apply match_rel. repeat constructor; cbn [fst snd]; try assumption; try (rewrite ?E1, ?E2, ?L1, ?L2; discriminate); try apply P1; try apply P2; try apply Rl; try apply Ra. }
      intros [bs o] [bs' o'] [B Oo]. cbn [fst snd] in *. subst o'. destruct B as [|x x' bs bs' X B]; [reflexivity|]. destruct B as [|y y' bs bs' Y B]; [reflexivity|]. destruct B as [|z z' bs bs' Z B]; [reflexivity|]. destruct B as [|v v' bs bs' V B]; [reflexivity|]. destruct B as [|? ? bs bs' ? B]; [|reflexivity].
      eapply rrel_bind; [apply plus_rel; eassumption|]. intros u u' U. eapply rrel_bind; [apply cross_rel; eassumption|]. intros c c' C. eapply rrel_bind; [apply plus_rel; eassumption|]. intros r r' Rr. cbn [rrel fst snd]. auto. }
    destruct w; [| |apply (sg_vectors s s' _ _ _ _ _ H)|reflexivity].
    - pose proof (sg_lookup_twist i (Some to) (Some to) true true) as P. unfold same_twist in P.
      destruct (lookup_twist np_squad np_derivative s i _ _ _ _) as [[[lin ang] w]|] eqn:E, (lookup_twist np_squad np_derivative s' i _ _ _ _) as [[[lin' ang'] w']|]; cbn [rrel] in P; try contradiction; [|exact P]. cbn [bind fst snd] in *. destruct P as (P1 & P2 & ->). apply lookup_twist_last in E as [L1 L2].
      destruct w as [w|]; [|reflexivity]. cbn [bind]. destruct mf as [p|]; [|reflexivity]. rewrite (sg_resolve s s' H). destruct (resolve_rf s p) as [m|]; [|reflexivity]. cbn [bind].
      destruct (sg_lookup s s' m (PFrame i) H) as (e & E & ->). destruct (lookup_transform np_squad s m (PFrame i)) as [tr|]; [|reflexivity]. cbn [outcome bind]. apply Fin; assumption.
    - rewrite (sg_resolve s s' H). destruct (resolve_rf s to) as [j|]; [|reflexivity]. cbn [bind]. pose proof (sg_lookup_linear s s' H j (Some (PFrame i)) (Some (PFrame j)) true true) as P. unfold same_velocity in P.
      destruct (lookup_linear_velocity np_squad s j _ _ _ _) as [[lin lts]|] eqn:E1, (lookup_linear_velocity np_squad s' j _ _ _ _) as [[lin' lts']|]; cbn [rrel] in P; try contradiction; [|exact P]. cbn [bind fst snd] in *. destruct P as [P1 ->]. apply lookup_linear_last in E1. unfold unpack2 at 1 3. cbn [fst snd] in *.
      destruct lts as [lts|]; [|reflexivity]. cbn [bind].
      pose proof (sg_lookup_angular s s' H i rf (Some (PFrame j)) true true) as P. unfold same_velocity in P.
      destruct (lookup_angular_velocity np_squad np_derivative s i _ _ _ _) as [[ang ats]|] eqn:E2, (lookup_angular_velocity np_squad np_derivative s' i _ _ _ _) as [[ang' ats']|]; cbn [rrel] in P; try contradiction; [|exact P]. cbn [bind fst snd] in *. destruct P as [P2 ->]. apply lookup_angular_last in E2. unfold unpack2. cbn [fst snd] in *.
      destruct ats as [ats|]; [|reflexivity]. cbn [bind].
      destruct (sg_lookup s s' j (PFrame i) H) as (e & E & ->). destruct (lookup_transform np_squad s j (PFrame i)) as [tr|]; [|reflexivity]. cbn [outcome bind]. apply Fin; assumption.
  Qed.
End Pair.

(* ------------------------------------------------------------------ C90 *)
(** A program of API calls, run again with the rotation arrays of some frames negated: every
    call has the same outcome, and the registry and the forest are the same. *)
Theorem C90_history : forall ops ops' x x', Forall2 resigned ops ops' -> resigned x x' ->
  snd (step (run ops') x') = snd (step (run ops) x) /\
  reg (run ops') = reg (run ops) /\
  forall i, name_of (run ops') i = name_of (run ops) i /\ parent_of (run ops') i = parent_of (run ops) i /\ children_of (run ops') i = children_of (run ops) i.
Proof.
  intros ops ops' x x' F X. apply sg_run in F. split; [apply (sg_step _ _ x x' X F)|]. split; [apply (sg_reg _ _ F)|]. intros i. split; [apply (sg_name _ _ F)|]. split; [apply (sg_parent _ _ F)|apply (sg_children _ _ F)].
Qed.
(** Lookups give the same translations at the same times, and the same rotations up to one
    sign for all of them. *)
Theorem C90_lookup : forall ops ops' i to, Forall2 resigned ops ops' ->
  exists e, is_sign e /\ lookup_transform np_squad (run ops') i to = outcome (tr_sign e) (lookup_transform np_squad (run ops) i to).
Proof. intros ops ops' i to F. apply sg_lookup, sg_run, F. Qed.
(** Points and directions (coordinates last) are transformed to the same values, orientations
    to the same ones up to one sign for all of them. *)
Theorem C90_arrays : forall ops ops' i arr to axis time_axis ts, Forall2 resigned ops ops' ->
  results eq (transform_points np_squad (run ops) i arr to (-1) time_axis ts) (transform_points np_squad (run ops') i arr to (-1) time_axis ts) /\
  results eq (transform_vectors np_squad (run ops) i arr to (-1) time_axis ts) (transform_vectors np_squad (run ops') i arr to (-1) time_axis ts) /\
  exists e, is_sign e /\
    results (fun x y => y = e * x) (transform_quaternions np_squad (run ops) i arr to axis time_axis ts) (transform_quaternions np_squad (run ops') i arr to axis time_axis ts).
Proof.
  intros ops ops' i arr to ax ta ts F. apply sg_run in F. split; [apply sg_points, F|]. split; [apply sg_vectors, F|apply sg_quaternions, F].
Qed.
(** All velocities are the same. *)
Theorem C90_velocities : forall ops ops' i reference represent_in allow_static return_timestamps, Forall2 resigned ops ops' ->
  same_velocity (lookup_linear_velocity np_squad (run ops) i reference represent_in allow_static return_timestamps)
                (lookup_linear_velocity np_squad (run ops') i reference represent_in allow_static return_timestamps) /\
  same_velocity (lookup_angular_velocity np_squad np_derivative (run ops) i reference represent_in allow_static return_timestamps)
                (lookup_angular_velocity np_squad np_derivative (run ops') i reference represent_in allow_static return_timestamps) /\
  same_twist (lookup_twist np_squad np_derivative (run ops) i reference represent_in allow_static return_timestamps)
             (lookup_twist np_squad np_derivative (run ops') i reference represent_in allow_static return_timestamps).
Proof.
  intros ops ops' i rf ri al rt F. apply sg_run in F. split; [apply sg_lookup_linear, F|]. split; [apply sg_lookup_angular, F|apply sg_lookup_twist, F].
Qed.
Theorem C90_transformed_velocities : forall ops ops' i arr to w moving_frame reference_frame ts, Forall2 resigned ops ops' ->
  results eq (transform_linear_velocity np_squad np_derivative (run ops) i arr to w moving_frame reference_frame (-1) (Some 0%Z) ts)
             (transform_linear_velocity np_squad np_derivative (run ops') i arr to w moving_frame reference_frame (-1) (Some 0%Z) ts) /\
  results eq (transform_angular_velocity np_squad np_derivative (run ops) i arr to w (-1) (Some 0%Z) ts)
             (transform_angular_velocity np_squad np_derivative (run ops') i arr to w (-1) (Some 0%Z) ts).
Proof.
  intros ops ops' i arr to w mf rf ts F. apply sg_run in F. split; [apply sg_transform_linear, F|apply sg_transform_angular, F].
Qed.
