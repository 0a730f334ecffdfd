(** C90: q and -q are the same orientation: negating all quaternions given for a frame
    changes no result but the sign of quaternions. *)
From Coq Require Import Reals List Arith Bool ZArith Lra Lia FunctionalExtensionality.
From Verif Require Import Base Quat NdArray Frames Matcher Transform Squad Velocity VelFrames Spline PropClock PropClockVel.
Import ListNotations.
Open Scope R_scope.

(* ------------------------------------------------------------------ specification *)
Definition is_sign (e : R) : Prop := e = 1 \/ e = -1.
(** The constructor call with the rotation array times e ([scale_nd], PropClockVel). *)
Definition ctor_sign (e : R) (x : ctor) : ctor :=
  Ctor (c_name x) (c_parent x) (c_tr x) (option_map (scale_nd e) (c_ro x)) (c_ts x) (c_inverse x) (c_discrete x).
(** The same API call; a call that makes a frame may be given the negated rotation array. *)
Inductive resigned : op -> op -> Prop :=
| resigned_new x e : is_sign e -> resigned (ONew x) (ONew (ctor_sign e x))
| resigned_register x e u : is_sign e -> resigned (ORegisterFrame x u) (ORegisterFrame (ctor_sign e x) u)
| resigned_other x : resigned x x.
(** The same transformation, all its rotations times e. *)
Definition tr_sign (e : R) (tr : transf) : transf :=
  match tr with
  | TrStatic t r => TrStatic t (qscale e r)
  | TrBare ts => TrBare ts
  | TrRows ts rows => TrRows ts (map (fun p => (fst p, qscale e (snd p))) rows)
  end.

(* ------------------------------------------------------------------ quaternions *)
Section Sign.
  Variable e : R.
  Hypothesis E : is_sign e.
  Lemma ee : e * e = 1.
  Proof. destruct E as [-> | ->]; ring. Qed.
  Lemma norm_sign q : qnorm2 (qscale e q) = qnorm2 q.
  Proof. unfold qnorm2, qscale. cbn [qw qx qy qz]. destruct E as [-> | ->]; ring. Qed.
  Lemma len_sign q : qlen (qscale e q) = qlen q.
  Proof. unfold qlen. rewrite norm_sign. reflexivity. Qed.
  Lemma recip_sign q : qrecip (qscale e q) = outcome (qscale e) (qrecip q).
  Proof. unfold qrecip. rewrite norm_sign. destruct (Req_b _ 0); [reflexivity|]. cbn [outcome]. f_equal. unfold qscale. cbn [qw qx qy qz]. unfold Rdiv. f_equal; ring. Qed.
  Lemma rot1_sign q v : rot1 (qscale e q) v = rot1 q v.
  Proof.
    unfold rot1. rewrite len_sign. destruct (Req_b _ 0); [reflexivity|]. f_equal. unfold qscale, qvec, vcross, vadd, vscale. cbn [qw qx qy qz vx vy vz]. destruct E as [-> | ->]; unfold Rdiv; f_equal; ring.
  Qed.
  Lemma rv_sign q v : quat_rv (qscale e q) v = quat_rv q v.
  Proof.
    unfold quat_rv. rewrite norm_sign. destruct (Req_b _ 0); [reflexivity|]. f_equal. unfold qscale. cbn [qw qx qy qz]. destruct E as [-> | ->]; unfold Rdiv; f_equal; ring.
  Qed.
  Lemma mul_sign_l a b : qmulq (qscale e a) b = qscale e (qmulq a b).
  Proof. unfold qmulq, qscale. cbn [qw qx qy qz]. f_equal; ring. Qed.
  Lemma mul_sign_r a b : qmulq a (qscale e b) = qscale e (qmulq a b).
  Proof. unfold qmulq, qscale. cbn [qw qx qy qz]. f_equal; ring. Qed.
  Lemma scale_scale d q : qscale d (qscale e q) = qscale (d * e) q.
  Proof. unfold qscale. cbn [qw qx qy qz]. f_equal; ring. Qed.
  Lemma scale_twice q : qscale e (qscale e q) = q.
  Proof. rewrite scale_scale, ee. destruct q as [a b c d]. unfold qscale. cbn [qw qx qy qz]. f_equal; ring. Qed.
  Lemma conj_sign q : qconj (qscale e q) = qscale e (qconj q).
  Proof. unfold qconj, qscale. cbn [qw qx qy qz]. f_equal; ring. Qed.
  Lemma mul_sign2 a b : qmulq (qscale e a) (qscale e b) = qmulq a b.
  Proof. rewrite mul_sign_l, mul_sign_r. apply scale_twice. Qed.
  (* ---- squad ---- *)
  Lemma div_sign a b : qdivq (qscale e a) (qscale e b) = qdivq a b.
  Proof.
    unfold qdivq. rewrite norm_sign, conj_sign. replace (qscale (/ qnorm2 b) (qscale e (qconj b))) with (qscale e (qscale (/ qnorm2 b) (qconj b))) by (unfold qscale; cbn [qw qx qy qz]; f_equal; ring).
    apply mul_sign2.
  Qed.
  Lemma slerp_sign a b tau : np_slerp (qscale e a) (qscale e b) tau = qscale e (np_slerp a b tau).
  Proof.
    unfold np_slerp. replace (qscale (-1) (qscale e b)) with (qscale e (qscale (-1) b)) by (unfold qscale; cbn [qw qx qy qz]; f_equal; ring).
    replace (qaddq (qscale e a) (qscale e (qscale (-1) b))) with (qscale e (qaddq a (qscale (-1) b))) by (unfold qscale, qaddq; cbn [qw qx qy qz]; f_equal; ring).
    rewrite norm_sign, !div_sign, !mul_sign_r. destruct (Rle_b _ 2); reflexivity.
  Qed.
  Lemma evaluate_sign tau q a b p : squad_evaluate tau (qscale e q) (qscale e a) (qscale e b) (qscale e p) = qscale e (squad_evaluate tau q a b p).
  Proof. unfold squad_evaluate. rewrite !slerp_sign. reflexivity. Qed.
  Section Rows.
    Variables (ts : list R) (rr : list quat).
    Hypothesis Len : length rr = length ts.
    Hypothesis Len2 : (2 <= length ts)%nat.
    Lemma sample_sign n : (n < length ts)%nat -> sample (map (qscale e) rr) n = qscale e (sample rr n).
    Proof. intros H. unfold sample. rewrite (nth_indep _ q1 (qscale e q1)) by (rewrite map_length; lia). apply map_nth. Qed.
    Lemma log_sign n : (S n < length ts)%nat -> turn_log (map (qscale e) rr) n = turn_log rr n.
    Proof. intros H. unfold turn_log. rewrite !sample_sign by lia. rewrite conj_sign, mul_sign2. reflexivity. Qed.
    Lemma beyond_sign : beyond ts (map (qscale e) rr) = qscale e (beyond ts rr).
    Proof. unfold beyond, final. rewrite !sample_sign by lia. rewrite conj_sign, mul_sign2, mul_sign_r. reflexivity. Qed.
    Lemma ctrl_a_sign i : (i < length ts)%nat -> ctrl_a ts (map (qscale e) rr) i = qscale e (ctrl_a ts rr i).
    Proof.
      intros H. unfold ctrl_a. rewrite sample_sign by exact H. destruct (Nat.eqb_spec i 0) as [|I]; [reflexivity|]. destruct (Nat.eqb_spec i (final ts)) as [|F]; [reflexivity|]. cbn [orb].
      unfold final in F. rewrite !log_sign by lia. apply mul_sign_l.
    Qed.
    Lemma ctrl_b_sign i : (i < length ts)%nat -> ctrl_b ts (map (qscale e) rr) i = qscale e (ctrl_b ts rr i).
    Proof.
      intros H. unfold ctrl_b. destruct (Nat.eqb_spec i (final ts)) as [|F]; [apply beyond_sign|]. destruct (Nat.eqb_spec (S i) (final ts)) as [|G]; [apply sample_sign; unfold final; lia|].
      unfold final in F, G. rewrite !log_sign by lia. rewrite sample_sign by lia. apply mul_sign_l.
    Qed.
    Lemma following_sign i : (i < length ts)%nat -> following ts (map (qscale e) rr) i = qscale e (following ts rr i).
    Proof. intros H. unfold following. destruct (Nat.eqb_spec i (final ts)) as [|F]; [apply beyond_sign|apply sample_sign; unfold final in F; lia]. Qed.
    Lemma interval_in x : (interval_of ts x < length ts)%nat.
    Proof.
      unfold interval_of. destruct (length (filter (fun t => Rle_b t x) ts)) as [|n] eqn:L; [unfold final; lia|].
      assert (F : (length (filter (fun t => Rle_b t x) ts) <= length ts)%nat) by (clear; induction ts as [|a l IH]; [reflexivity|]; cbn [filter]; destruct (Rle_b a x); cbn [length]; lia). lia.
    Qed.
    Lemma squad_at_sign x : squad_at ts (map (qscale e) rr) x = qscale e (squad_at ts rr x).
    Proof. unfold squad_at. cbv zeta. pose proof (interval_in x) as I. rewrite sample_sign, ctrl_a_sign, ctrl_b_sign, following_sign by exact I. apply evaluate_sign. Qed.
  End Rows.
  Lemma squad_sign ts rr x : np_squad ts (map (qscale e) rr) x = outcome (qscale e) (np_squad ts rr x).
  Proof.
    unfold np_squad. rewrite map_length. destruct (Nat.eqb_spec (length rr) (length ts)) as [L|]; [|reflexivity]. cbn [negb].
    destruct (Nat.ltb_spec (length ts) 2); [reflexivity|].
    replace (existsb (fun q => Req_b (qnorm2 q) 0) (map (qscale e) rr)) with (existsb (fun q => Req_b (qnorm2 q) 0) rr).
    2:{ clear - E. induction rr as [|a l IH]; [reflexivity|]. cbn [map existsb]. rewrite norm_sign, IH. reflexivity. }
    destruct (_ || _)%bool; [reflexivity|]. cbn [outcome]. f_equal. apply squad_at_sign; assumption.
  Qed.
  (* ---- arrays of quaternions ---- *)
  Lemma quat_at_sign a pre : quat_at (scale_nd e a) pre = qscale e (quat_at a pre).
  Proof. reflexivity. Qed.
End Sign.

(* ------------------------------------------------------------------ states *)
Lemma sign_one : is_sign 1.
Proof. left; reflexivity. Qed.
Lemma sign_mul a b : is_sign a -> is_sign b -> is_sign (a * b).
Proof. intros [-> | ->] [-> | ->]; [left|right|right|left]; ring. Qed.
Lemma scale1 q : qscale 1 q = q.
Proof. destruct q as [a b c d]. unfold qscale. cbn [qw qx qy qz]. f_equal; ring. Qed.
Lemma map_scale1 l : map (qscale 1) l = l.
Proof. rewrite <- (map_id l) at 2. apply map_ext, scale1. Qed.
Definition data_sign (e : R) (d : tfdata) : tfdata :=
  match d with TStatic t r => TStatic t (qscale e r) | TMoving ts t r b => TMoving ts t (map (qscale e) r) b end.
Definition body_sign (e : R) (b : body) : body :=
  match b with BTf d => BTf (data_sign e d) | BNoDiscrete t r => BNoDiscrete t (qscale e r) | b => b end.
Definition node_sign (n n' : node) : Prop :=
  exists e, is_sign e /\ n' = Node (nname n) (nparent n) (nchildren n) (body_sign e (nbody n)).
Definition state_sign (s s' : state) : Prop := reg s' = reg s /\ Forall2 node_sign (heap s) (heap s').
Definition rrel {A B} (P : A -> B -> Prop) (x : res A) (y : res B) : Prop :=
  match x, y with Ok a, Ok b => P a b | Raise e, Raise e' => e = e' | _, _ => False end.
Lemma rrel_bind {A B C D} (P : A -> B -> Prop) (Q : C -> D -> Prop) x y f g : rrel P x y -> (forall a b, P a b -> rrel Q (f a) (g b)) -> rrel Q (bind x f) (bind y g).
Proof. destruct x, y; cbn [rrel bind]; intros H K; try contradiction; [apply K, H|exact H]. Qed.
Lemma rrel_bind_same {A C D} (Q : C -> D -> Prop) (x : res A) f g : (forall a, rrel Q (f a) (g a)) -> rrel Q (bind x f) (bind x g).
Proof. destruct x; cbn [bind]; intros H; [apply H|reflexivity]. Qed.
Lemma rrel_traverse {A B C} (P : B -> C -> Prop) (f : A -> res B) (g : A -> res C) l : (forall a, rrel P (f a) (g a)) -> rrel (Forall2 P) (traverse f l) (traverse g l).
Proof.
  intros H. unfold traverse. induction l as [|a l IH]; cbn [map sequence]; [constructor|]. eapply rrel_bind; [apply H|]. intros b c Pb. eapply rrel_bind; [exact IH|]. intros bs cs F. cbn [rrel]. constructor; assumption.
Qed.
Lemma rrel_refl {A} (x : res A) : rrel eq x x.
Proof. destruct x; reflexivity. Qed.

Section State.
  Variables s s' : state.
  Hypothesis H : state_sign s s'.
  Lemma sg_get i : match get s i, get s' i with Some n, Some n' => node_sign n n' | None, None => True | _, _ => False end.
  Proof.
    destruct H as [_ F]. unfold get. revert F i. generalize (heap s) (heap s'). intros h h' F. induction F as [|n n' l l' N F IH]; intros [|i]; cbn [nth_error]; auto. apply IH.
  Qed.
  Ltac by_get i := pose proof (sg_get i) as G; destruct (get s i) as [n|], (get s' i) as [n'|]; try contradiction; [destruct G as (e & E & ->)|]; reflexivity.
  Lemma sg_parent i : parent_of s' i = parent_of s i.
  Proof. unfold parent_of. by_get i. Qed.
  Lemma sg_name i : name_of s' i = name_of s i.
  Proof. unfold name_of. by_get i. Qed.
  Lemma sg_children i : children_of s' i = children_of s i.
  Proof. unfold children_of. by_get i. Qed.
  Lemma sg_reg : reg s' = reg s.
  Proof. exact (proj1 H). Qed.
  Lemma sg_length : length (heap s') = length (heap s).
  Proof. destruct H as [_ F]. induction F as [|n n' l l' N F IH]; cbn [length]; congruence. Qed.
  Lemma sg_resolve p : resolve_rf s' p = resolve_rf s p.
  Proof. destruct p as [i|n|]; cbn [resolve_rf]; [by_get i|rewrite sg_reg; reflexivity|reflexivity]. Qed.
  Lemma sg_rpath i : rpath s' i = rpath s i.
  Proof.
    unfold rpath. rewrite sg_length. generalize (S (length (heap s))). intros m. revert i. induction m as [|m IH]; intros i; [reflexivity|]. cbn [path_up]. rewrite sg_parent. destruct (parent_of s i); [rewrite IH|]; reflexivity.
  Qed.
  Lemma sg_walk i j : walk s' i j = walk s i j.
  Proof. unfold walk. rewrite !sg_rpath. reflexivity. Qed.
End State.
Lemma sg_upd s s' i F : state_sign s s' -> (forall n n', node_sign n n' -> node_sign (F n) (F n')) -> state_sign (upd_node s i F) (upd_node s' i F).
Proof.
  intros [A B] K. split; [exact A|]. unfold upd_node. cbn [heap]. revert B i. generalize (heap s) (heap s'). intros h h' B. induction B as [|n n' l l' N B IH]; intros [|i]; cbn [upd]; constructor; auto.
Qed.
Ltac upd_tac := let m := fresh in let m' := fresh in let d := fresh in let D := fresh in intros m m' (d & D & ->); exists d; split; [exact D|reflexivity].
Lemma sg_detach s s' i : state_sign s s' -> state_sign (detach s i) (detach s' i).
Proof. intros H. unfold detach. rewrite (sg_parent s s' H). destruct (parent_of s i); [|exact H]. apply sg_upd; [apply sg_upd; [exact H|]|]; upd_tac. Qed.
Lemma sg_attach s s' i p : state_sign s s' -> state_sign (attach s i p) (attach s' i p).
Proof. intros H. unfold attach. apply sg_upd; [apply sg_upd; [exact H|]|]; upd_tac. Qed.
(** Corresponding states, the same result. *)
Definition sboth {A} (p p' : state * res A) : Prop := state_sign (fst p) (fst p') /\ snd p' = snd p.
Lemma sg_set_parent s s' i v : state_sign s s' -> sboth (set_parent s i v) (set_parent s' i v).
Proof.
  intros H. unfold set_parent. rewrite (sg_parent s s' H). destruct (opt_eqb (parent_of s i) v); [split; [exact H|reflexivity]|]. destruct v as [p|].
  - rewrite (sg_rpath s s' H). destruct (rpath s p) as [l|]; [|split; [exact H|reflexivity]]. destruct (existsb _ l); (split; [|reflexivity]); [exact H|]. apply sg_attach, sg_detach, H.
  - split; [apply sg_detach, H|reflexivity].
Qed.
Lemma sg_with_reg s s' r : state_sign s s' -> state_sign (State (heap s) r) (State (heap s') r).
Proof. intros [A B]. split; [reflexivity|exact B]. Qed.
Lemma sg_register s s' i u : state_sign s s' -> sboth (register s i u) (register s' i u).
Proof.
  intros H. unfold register. rewrite (sg_name s s' H). destruct (name_of s i) as [n|]; [|split; [exact H|reflexivity]]. rewrite (sg_reg s s' H).
  destruct (lookup n (reg s)) as [old|].
  - destruct u; [|split; [exact H|reflexivity]]. pose proof (sg_set_parent s s' old None H) as K. destruct (set_parent s old None) as [s1 r1], (set_parent s' old None) as [s2 r2]. destruct K as [K1 K2]. cbn [fst snd] in K1, K2.
    subst r2. cbn [fst snd]. rewrite ?(sg_reg s1 s2 K1). split; cbn [fst snd]; [|reflexivity]. apply sg_with_reg, K1.
  - split; [apply sg_with_reg, H|reflexivity].
Qed.
Lemma sg_deregister s s' n : state_sign s s' -> sboth (deregister s n) (deregister s' n).
Proof. intros H. unfold deregister. rewrite (sg_reg s s' H). destruct (lookup n (reg s)); (split; [|reflexivity]); [apply sg_with_reg, H|exact H]. Qed.
Lemma sg_deregister_obj s s' i : state_sign s s' -> sboth (deregister_obj s i) (deregister_obj s' i).
Proof. intros H. unfold deregister_obj. rewrite (sg_name s s' H). destruct (name_of s i); [apply sg_deregister, H|split; [exact H|reflexivity]]. Qed.

(* ---- constructors ---- *)
Section Init.
  Variable e : R.
  Hypothesis E : is_sign e.
  (** The quaternions of an argument: negated, or the default. *)
  Lemma sg_arg_quats a n : exists d, is_sign d /\ arg_quats (option_map (scale_nd e) a) n = outcome (map (qscale d)) (arg_quats a n).
  Proof.
    destruct a as [a|]; cbn [option_map arg_quats].
    - exists e. split; [exact E|]. change (shp (scale_nd e a)) with (shp a). destruct n as [n|]; (destruct (shape_eqb _ _); [|reflexivity]); cbn [outcome]; rewrite ?map_map; reflexivity.
    - exists 1. split; [apply sign_one|]. cbn [outcome]. rewrite map_scale1. reflexivity.
  Qed.
  Lemma sg_inv_row p : inv_row (fst p, qscale e (snd p)) = outcome (fun q => (fst q, qscale e (snd q))) (inv_row p).
  Proof.
    destruct p as [t r]. unfold inv_row. cbn [fst snd]. rewrite (recip_sign e E). apply outcome_bind. intros r'. rewrite (rot1_sign e E). apply outcome_bind_same. reflexivity.
  Qed.
  Lemma sg_inv_static t r : inv_static t (qscale e r) = outcome (fun q => (fst q, qscale e (snd q))) (inv_static t r).
  Proof. unfold inv_static. rewrite (recip_sign e E). apply outcome_bind. intros r'. rewrite (rv_sign e E). apply outcome_bind_same. reflexivity. Qed.
  Lemma combine_sign (t : list vec3) r : combine t (map (qscale e) r) = map (fun p => (fst p, qscale e (snd p))) (combine t r).
  Proof. revert r; induction t as [|a t IH]; intros [|b r]; try reflexivity. cbn [map combine fst snd]. rewrite IH. reflexivity. Qed.
End Init.
Lemma sg_init e tr ro ts inv : is_sign e -> exists d, is_sign d /\ init_arrays tr (option_map (scale_nd e) ro) ts inv = outcome (data_sign d) (init_arrays tr ro ts inv).
Proof.
  intros E. unfold init_arrays. destruct (arg_ts ts) as [ot|]; cbn [bind]; [|exists 1; split; [apply sign_one|reflexivity]]. cbv zeta.
  destruct (sg_arg_quats e E ro (option_map (@length R) ot)) as (d & D & Q). exists d. split; [exact D|]. apply outcome_bind_same. intros t. rewrite Q. apply outcome_bind. intros r. destruct ot as [l|].
  - destruct inv; [|reflexivity]. rewrite combine_sign. rewrite (traverse_outcome (fun q => (fst q, qscale d (snd q))) (fun p => (fst p, qscale d (snd p))) inv_row inv_row) by apply sg_inv_row, D.
    apply outcome_bind. intros rows. cbn [outcome data_sign]. rewrite !map_map. reflexivity.
  - destruct t as [|t0 t]; [reflexivity|]. destruct r as [|r0 r]; [reflexivity|]. cbn [map]. destruct inv; [|reflexivity]. rewrite sg_inv_static by exact D. apply outcome_bind. intros [t1 r1]. reflexivity.
Qed.
Lemma sg_alloc s s' nm b b' : state_sign s s' -> (exists e, is_sign e /\ b' = body_sign e b) -> state_sign (State (heap s ++ [Node nm None [] b]) (reg s)) (State (heap s' ++ [Node nm None [] b']) (reg s')).
Proof.
  intros [A B] (e & E & ->). split; [exact A|]. cbn [heap]. apply Forall2_app; [exact B|]. constructor; [|constructor]. exists e. split; [exact E|reflexivity].
Qed.
Lemma sg_new s s' e x : is_sign e -> state_sign s s' -> sboth (new_frame s x) (new_frame s' (ctor_sign e x)).
Proof.
  intros E H. assert (One : forall b, (forall d, body_sign d b = b) -> exists d, is_sign d /\ b = body_sign d b) by (intros b B; exists 1; split; [apply sign_one|symmetry; apply B]).
  unfold new_frame. rewrite (sg_length s s' H). cbn [ctor_sign c_parent c_name c_discrete c_tr c_ro c_ts c_inverse]. destruct (c_parent x) as [p|].
  - rewrite (sg_resolve s s' H). destruct (resolve_rf s p) as [pi|e'].
    2:{ split; [|reflexivity]. apply sg_alloc; [exact H|]. apply One. reflexivity. }
    destruct (sg_init e (c_tr x) (c_ro x) (c_ts x) (c_inverse x) E) as (d & D & ->).
    destruct (init_arrays (c_tr x) (c_ro x) (c_ts x) (c_inverse x)) as [dd|e']; cbn [outcome].
    + assert (F : finish (ctor_sign e x) (data_sign d dd) = (body_sign d (fst (finish x dd)), snd (finish x dd))).
      { destruct dd as [t r|ts t r b]; cbn [data_sign finish ctor_sign c_discrete]; [destruct (c_discrete x)|]; reflexivity. }
      rewrite F. destruct (finish x dd) as [b r]. cbn [fst snd]. split; [|reflexivity]. apply sg_attach, sg_alloc; [exact H|]. exists d. split; [exact D|reflexivity].
    + change (discrete_static (ctor_sign e x)) with (discrete_static x).
      destruct e'; try (split; [|reflexivity]; apply sg_attach, sg_alloc; [exact H|]; apply One; reflexivity).
      destruct (discrete_static x); (split; [|reflexivity]; apply sg_attach, sg_alloc; [exact H|]; apply One; reflexivity).
  - assert (V : verify_root (ctor_sign e x) = verify_root x) by (unfold verify_root; cbn [ctor_sign c_tr c_ro c_ts]; destruct (c_ro x); reflexivity).
    rewrite V. destruct (verify_root x); [|split; [|reflexivity]; apply sg_alloc; [exact H|]; apply One; reflexivity].
    destruct (c_discrete x); (split; [|reflexivity]; apply sg_alloc; [exact H|]; apply One; reflexivity).
Qed.
Lemma sg_register_frame s s' e x u : is_sign e -> state_sign s s' -> sboth (register_frame s x u) (register_frame s' (ctor_sign e x) u).
Proof.
  intros E H. unfold register_frame. destruct (sg_new s s' e x E H) as [A B]. destruct (new_frame s x) as [s1 r1], (new_frame s' (ctor_sign e x)) as [s2 r2]. cbn [fst snd] in A, B. subst r2.
  destruct r1 as [i|]; [|split; [exact A|reflexivity]]. destruct (sg_register s1 s2 i u A) as [C D]. destruct (register s1 i u) as [s3 r3], (register s2 i u) as [s4 r4]. cbn [fst snd] in C, D. subst r4. destruct r3; (split; [exact C|reflexivity]).
Qed.
Lemma ctor_sign_one x : ctor_sign 1 x = x.
Proof. destruct x as [a b c d f g h]. unfold ctor_sign. cbn. f_equal. destruct d as [d|]; [|reflexivity]. cbn [option_map]. rewrite scale_one. reflexivity. Qed.
Lemma sg_step s s' x x' : resigned x x' -> state_sign s s' -> sboth (step s x) (step s' x').
Proof.
  intros X H. assert (N : forall e c, is_sign e -> sboth (step s (ONew c)) (step s' (ONew (ctor_sign e c)))).
  { intros e c E. cbn [step]. destruct (sg_new s s' e c E H) as [A B]. destruct (new_frame s c) as [s1 r1], (new_frame s' (ctor_sign e c)) as [s2 r2]. cbn [fst snd] in A, B. subst r2. destruct r1; (split; [exact A|reflexivity]). }
  assert (G : forall e c u, is_sign e -> sboth (step s (ORegisterFrame c u)) (step s' (ORegisterFrame (ctor_sign e c) u))).
  { intros e c u E. cbn [step]. destruct (sg_register_frame s s' e c u E H) as [A B]. destruct (register_frame s c u) as [s1 r1], (register_frame s' (ctor_sign e c) u) as [s2 r2]. cbn [fst snd] in A, B. subst r2. destruct r1; (split; [exact A|reflexivity]). }
  destruct X as [c e E|c e u E|x]; [apply N, E|apply G, E|].
  destruct x as [c|c u|i u|n|i| |i p].
  - rewrite <- (ctor_sign_one c) at 2. apply N, sign_one.
  - rewrite <- (ctor_sign_one c) at 2. apply G, sign_one.
  - cbn [step]. pose proof (sg_get s s' H i) as K. destruct (get s i), (get s' i); try contradiction; [apply sg_register, H|split; [exact H|reflexivity]].
  - apply sg_deregister, H.
  - cbn [step]. pose proof (sg_get s s' H i) as K. destruct (get s i), (get s' i); try contradiction; [apply sg_deregister_obj, H|split; [exact H|reflexivity]].
  - cbn [step]. split; [|reflexivity]. apply sg_with_reg, H.
  - cbn [step]. pose proof (sg_get s s' H i) as K. destruct (get s i), (get s' i); try contradiction; [|split; [exact H|reflexivity]]. destruct p as [p|]; [|apply sg_set_parent, H].
    pose proof (sg_get s s' H p) as K2. destruct (get s p), (get s' p); try contradiction; [apply sg_set_parent, H|split; [exact H|reflexivity]].
Qed.
Lemma sg_run ops ops' : Forall2 resigned ops ops' -> state_sign (run ops) (run ops').
Proof.
  intros F. unfold run. assert (I : state_sign init init) by (split; [reflexivity|constructor]). revert I. generalize init at 1 3. generalize init. 
  induction F as [|x x' l l' X F IH]; intros s' s I; [exact I|]. cbn [fold_left]. apply IH. apply (sg_step s s' x x' X I).
Qed.

(* ------------------------------------------------------------------ lookups *)
Definition mf_sign (f f' : mframe) : Prop := exists e, is_sign e /\ f' = MF (data_sign e (mf_data f)) (mf_inv f).
Definition row_sign (e : R) (p : vec3 * quat) : vec3 * quat := (fst p, qscale e (snd p)).
Lemma sg_body s s' i : state_sign s s' -> exists e, is_sign e /\ body_at s' i = body_sign e (body_at s i).
Proof.
  intros H. unfold body_at. pose proof (sg_get s s' H i) as K. destruct (get s i), (get s' i); try contradiction; [destruct K as (e & E & ->); exists e; split; [exact E|reflexivity]|exists 1; split; [apply sign_one|reflexivity]].
Qed.
Lemma sg_add_frame e b inv : is_sign e -> rrel mf_sign (add_frame b inv) (add_frame (body_sign e b) inv).
Proof.
  intros E. destruct b as [|[t r|ts t r d]| | |]; try reflexivity; cbn [body_sign data_sign add_frame].
  - exists e. split; [exact E|reflexivity].
  - apply rrel_bind_same. intros _. exists e. split; [exact E|reflexivity].
Qed.
Lemma sg_between s s' i j : state_sign s s' -> rrel (Forall2 mf_sign) (frames_between s i j) (frames_between s' i j).
Proof.
  intros H. unfold frames_between. rewrite (sg_walk s s' H). apply rrel_bind_same. intros [up down].
  eapply rrel_bind; [apply rrel_traverse; intros m; destruct (sg_body s s' m H) as (e & E & ->); apply sg_add_frame, E|]. intros fu fu' Fu.
  eapply rrel_bind; [apply rrel_traverse; intros m; destruct (sg_body s s' m H) as (e & E & ->); apply sg_add_frame, E|]. intros fd fd' Fd.
  cbn [rrel]. apply Forall2_app; assumption.
Qed.
Lemma sg_timestamps fs fs' ms af : Forall2 mf_sign fs fs' -> get_timestamps (Mat fs' ms) af = get_timestamps (Mat fs ms) af.
Proof.
  intros F. assert (C : map cont_ts fs' = map cont_ts fs /\ map disc_ts fs' = map disc_ts fs).
  { induction F as [|f f' l l' (e & E & ->) F [IH1 IH2]]; [split; reflexivity|]. cbn [map]. rewrite IH1, IH2. destruct f as [[t r|ts t r [|]] inv]; split; reflexivity. }
  unfold get_timestamps, get_range, arr_list, cont_list, disc_list. cbn [m_frames m_arrays]. destruct C as [-> ->]. reflexivity.
Qed.
Section Row.
  Variable e : R.
  Hypothesis E : is_sign e.
  Lemma sg_hold ts rows x : hold ts (map (qscale e) rows) x = outcome (qscale e) (hold ts rows x).
  Proof.
    unfold hold. destruct rows as [|a rows]; [reflexivity|]. cbn [map outcome]. f_equal. change (qscale e a :: map (qscale e) rows) with (map (qscale e) (a :: rows)). generalize (a :: rows). intros rr. revert rr a. clear rows.
    induction ts as [|t ts IH]; intros rows a; [reflexivity|]. destruct rows as [|b rows]; [reflexivity|]. cbn [map combine fold_left fst snd]. destruct (Rle_b t x); apply IH.
  Qed.
  Lemma sg_rows d l : rows_from_frame np_squad (data_sign e d) l = outcome (map (row_sign e)) (rows_from_frame np_squad d l).
  Proof.
    destruct d as [t r|ts t r [|]]; cbn [data_sign rows_from_frame].
    - cbn [outcome]. rewrite map_map. reflexivity.
    - apply outcome_bind_same. intros _. rewrite sg_hold. destruct (hold ts r 0) as [h|]; [|reflexivity]. cbn [outcome bind]. apply outcome_bind_same. intros tt.
      rewrite (traverse_outcome_in (qscale e) (hold ts r)) by (intros; apply sg_hold). apply outcome_bind. intros rr. cbn [outcome]. rewrite combine_sign. reflexivity.
    - apply outcome_bind_same. intros tt. rewrite (traverse_outcome_in (qscale e) (np_squad ts r)) by (intros; apply squad_sign, E). apply outcome_bind. intros rr. cbn [outcome]. rewrite combine_sign. reflexivity.
  Qed.
  Lemma sg_step_with d rot inv acc tr : is_sign d -> (forall q v, rot (qscale e q) v = rot q v) ->
    step_with rot inv (row_sign d acc) (row_sign e tr) = outcome (row_sign (e * d)) (step_with rot inv acc tr).
  Proof.
    intros D H. destruct acc as [ta ra]. destruct tr as [t r]. unfold step_with, row_sign. cbn [fst snd]. destruct inv.
    - rewrite (recip_sign e E). apply outcome_bind. intros ri. rewrite H. apply outcome_bind_same. intros v. cbn [outcome fst snd]. rewrite mul_sign_l, mul_sign_r, scale_scale. reflexivity.
    - rewrite H. apply outcome_bind_same. intros v. cbn [outcome fst snd]. rewrite mul_sign_l, mul_sign_r, scale_scale. reflexivity.
  Qed.
End Row.
Lemma sg_fold_static fs fs' : Forall2 mf_sign fs fs' -> forall d acc, is_sign d -> exists e, is_sign e /\ foldM step_static fs' (row_sign d acc) = outcome (row_sign e) (foldM step_static fs acc).
Proof.
  intros F. induction F as [|f f' l l' (e & E & ->) F IH]; intros d acc D; [exists d; split; [exact D|reflexivity]|].
  assert (K : step_static (row_sign d acc) (MF (data_sign e (mf_data f)) (mf_inv f)) = outcome (row_sign (e * d)) (step_static acc f)).
  { unfold step_static. cbn [mf_data mf_inv]. destruct (mf_data f) as [t r|ts t r b]; [|reflexivity]. cbn [data_sign static_from_frame bind]. apply (sg_step_with e E d quat_rv (mf_inv f) acc (t, r) D). intros. apply rv_sign, E. }
  cbn [foldM]. rewrite K. destruct (step_static acc f) as [acc'|]; [|exists 1; split; [apply sign_one|reflexivity]]. cbn [outcome bind]. apply IH, sign_mul; assumption.
Qed.
Lemma combine_maps {A B C D} (f : A -> B) (g : C -> D) l m : combine (map f l) (map g m) = map (fun p => (f (fst p), g (snd p))) (combine l m).
Proof. revert m; induction l as [|a l IH]; intros [|b m]; try reflexivity. cbn [map combine fst snd]. rewrite IH. reflexivity. Qed.
Lemma sg_fold_rows ts fs fs' : Forall2 mf_sign fs fs' -> forall d acc, is_sign d -> exists e, is_sign e /\ foldM (step_rows np_squad ts) fs' (map (row_sign d) acc) = outcome (map (row_sign e)) (foldM (step_rows np_squad ts) fs acc).
Proof.
  intros F. induction F as [|f f' l l' (e & E & ->) F IH]; intros d acc D; [exists d; split; [exact D|reflexivity]|].
  assert (K : step_rows np_squad ts (map (row_sign d) acc) (MF (data_sign e (mf_data f)) (mf_inv f)) = outcome (map (row_sign (e * d))) (step_rows np_squad ts acc f)).
  { unfold step_rows. cbn [mf_data mf_inv]. rewrite (sg_rows e E). apply outcome_bind. intros rows. rewrite combine_maps. apply traverse_outcome. intros [a b]. cbn [fst snd]. apply (sg_step_with e E d); [exact D|]. intros. apply rot1_sign, E. }
  cbn [foldM]. rewrite K. destruct (step_rows np_squad ts acc f) as [acc'|]; [|exists 1; split; [apply sign_one|reflexivity]]. cbn [outcome bind]. apply IH, sign_mul; assumption.
Qed.
Lemma row_sign_one p : row_sign 1 p = p.
Proof. destruct p as [t r]. unfold row_sign. cbn [fst snd]. rewrite scale1. reflexivity. Qed.
Lemma sg_transformation fs fs' ms w : Forall2 mf_sign fs fs' -> exists e, is_sign e /\ transformation_at np_squad (Mat fs' ms) w = outcome (tr_sign e) (transformation_at np_squad (Mat fs ms) w).
Proof.
  intros F. destruct w as [l|]; cbn [transformation_at m_frames].
  - destruct (sg_fold_rows l fs fs' F 1 (map (fun _ => (v0, q1)) l) sign_one) as (e & E & K). exists e. split; [exact E|].
    replace (map (row_sign 1) (map (fun _ => (v0, q1)) l)) with (map (fun _ : R => (v0, q1)) l) in K by (rewrite map_map; apply map_ext; intros; symmetry; apply row_sign_one).
    destruct F as [|f f' fs fs' A F]; [reflexivity|]. rewrite K. apply outcome_bind. reflexivity.
  - destruct (sg_fold_static fs fs' F 1 (v0, q1) sign_one) as (e & E & K). exists e. split; [exact E|]. rewrite row_sign_one in K. rewrite K. apply outcome_bind. intros [t r]. reflexivity.
Qed.
Lemma sg_get_transformation fs fs' ms af : Forall2 mf_sign fs fs' -> exists e, is_sign e /\ get_transformation np_squad (Mat fs' ms) af = outcome (tr_sign e) (get_transformation np_squad (Mat fs ms) af).
Proof.
  intros F. unfold get_transformation. rewrite (sg_timestamps fs fs' ms af F). destruct (get_timestamps (Mat fs ms) af) as [w|]; [|exists 1; split; [apply sign_one|reflexivity]]. cbn [bind]. apply sg_transformation, F.
Qed.
Lemma sg_lookup s s' i to : state_sign s s' -> exists e, is_sign e /\ lookup_transform np_squad s' i to = outcome (tr_sign e) (lookup_transform np_squad s i to).
Proof.
  intros H. assert (One : forall er, exists e, is_sign e /\ @Raise transf er = outcome (tr_sign e) (Raise er)) by (intros er; exists 1; split; [apply sign_one|reflexivity]).
  unfold lookup_transform. rewrite (sg_resolve s s' H). destruct (resolve_rf s to) as [j|]; [|apply One]. cbn [bind]. pose proof (sg_between s s' i j H) as B.
  destruct (frames_between s i j) as [fs|], (frames_between s' i j) as [fs'|]; cbn [rrel] in B; try contradiction; [|subst; apply One]. cbn [bind]. apply sg_get_transformation, B.
Qed.
