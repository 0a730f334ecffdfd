(** Effects of the registry operations on names, links and lookups. *)
From Coq Require Import Reals List String Arith Bool Lia Lra.
From Verif Require Import Base Quat SpecQuat QuatProofs NdArray Frames SpecForest
  FrameProofs WalkProofs Matcher SpecLookup LookupProofs.
Import ListNotations.
Open Scope nat_scope.

Section S.
Variable squad : list R -> list quat -> R -> res quat.

(* ---- when two states give the same lookups ---- *)
Lemma chain_ext (par par' : nat -> option nat) i l : chain par i l ->
  (forall k, ancestor par i k -> par' k = par k) -> chain par' i l.
Proof.
  intros H. induction H as [i H|i p l H Hc IH]; intros E.
  - constructor. rewrite E; auto. constructor.
  - econstructor.
    + rewrite E; eauto. constructor.
    + apply IH. intros k Hk. apply E. econstructor; eauto.
Qed.
Lemma rpath_ext s s' i : WF s -> WF s' -> i < size s -> i < size s' ->
  (forall k, ancestor (parent_of s) i k -> parent_of s' k = parent_of s k) -> rpath s' i = rpath s i.
Proof.
  intros W W' Hi Hi' E. destruct (rpath_ok s i W Hi) as (l & -> & C).
  destruct (rpath_ok s' i W' Hi') as (l' & -> & C'). f_equal.
  eapply chain_fun; [exact C'|]. eapply chain_ext; eauto.
Qed.
Lemma walk_ext s s' i j : WF s -> WF s' -> i < size s -> i < size s' -> j < size s -> j < size s' ->
  (forall k, ancestor (parent_of s) i k \/ ancestor (parent_of s) j k -> parent_of s' k = parent_of s k) ->
  walk s' i j = walk s i j.
Proof. intros W W' Hi Hi' Hj Hj' E. unfold walk.
  rewrite (rpath_ext s s' i), (rpath_ext s s' j); auto. Qed.

Lemma body_at_of s k : body_at s k = match body_of s k with Some b => b | None => BPartial end.
Proof. unfold body_at, body_of. destruct (get s k); reflexivity. Qed.

Lemma traverse_ext {A B} (f g : A -> res B) l : (forall a, In a l -> f a = g a) -> traverse f l = traverse g l.
Proof. intros H. unfold traverse. f_equal. apply map_ext_in. exact H. Qed.

Lemma climb_in_lt s i l c k : WF s -> i < size s -> climb (parent_of s) i l c -> In k l -> k < size s.
Proof. intros W Hi H. revert Hi. induction H as [|i p l c Hp Hc IH]; simpl; intros Hi [].
  - subst; auto.
  - apply IH; auto. apply (wf_par _ W) in Hp. tauto. Qed.

Lemma lookup_ext s s' i j : WF s -> WF s' -> i < size s -> j < size s -> size s <= size s' ->
  (forall k, ancestor (parent_of s) i k \/ ancestor (parent_of s) j k -> parent_of s' k = parent_of s k) ->
  (forall k, k < size s -> body_of s' k = body_of s k) ->
  lookup_transform squad s' i (PFrame j) = lookup_transform squad s i (PFrame j).
Proof.
  intros W W' Hi Hj Hs Hp Hb. unfold lookup_transform.
  rewrite !resolve_frame by lia. simpl. unfold frames_between.
  rewrite (walk_ext s s' i j) by (auto; lia).
  destruct (walk s i j) as [[up down]|e] eqn:Ew; auto. simpl.
  destruct (walk_ok_inv s i j up down W Hi Hj Ew) as (_ & c & C1 & C2 & _).
  rewrite (traverse_ext _ (fun k => add_frame (body_at s k) false) up).
  2:{ intros k Hk. rewrite !body_at_of, Hb; [reflexivity|]. apply (climb_in_lt s i up c k W Hi C1 Hk). }
  rewrite (traverse_ext _ (fun k => add_frame (body_at s k) true) down).
  2:{ intros k Hk. rewrite !body_at_of, Hb; [reflexivity|]. apply (climb_in_lt s j (rev down) c k W Hj C2).
      apply -> in_rev. exact Hk. }
  reflexivity.
Qed.

(* ---- constructor ---- *)
Lemma new_frame_effect s c s' r : Inv s -> new_frame s c = (s', r) ->
  reg s' = reg s /\ size s' = S (size s) /\
  (forall k, k < size s -> parent_of s' k = parent_of s k /\ body_of s' k = body_of s k /\ name_of s' k = name_of s k) /\
  name_of s' (size s) = c_name c /\
  (forall k, children_of s' k = children_of s k \/
             (children_of s' k = children_of s k ++ [size s] /\
              exists pp, c_parent c = Some pp /\ resolve_rf s pp = Ok k)).
Proof.
  intros I H. destruct (new_frame_cases s c s' r I H) as (b & [(-> & Hr)|(p & pp & Ep & Er & Hp & -> & Hr)]).
  - split; [reflexivity|]. split; [apply size_alloc|]. split; [|split].
    + intros k Hk. split; [apply parent_alloc; auto|]. split; [apply body_alloc; auto|apply name_alloc; auto].
    + unfold name_of. rewrite get_alloc, Nat.eqb_refl. reflexivity.
    + intros k. left. apply children_alloc. reflexivity.
  - assert (H1 : size s < size (alloc s (Node (c_name c) None [] b))) by (rewrite size_alloc; lia).
    assert (H2 : p < size (alloc s (Node (c_name c) None [] b))) by (rewrite size_alloc; lia).
    split; [reflexivity|]. split; [rewrite size_attach, size_alloc; reflexivity|]. split; [|split].
    + intros k Hk. rewrite parent_attach by auto. rewrite body_attach, name_attach.
      destruct (Nat.eqb_spec (size s) k); [lia|].
      split; [apply parent_alloc; auto|]. split; [apply body_alloc; auto|apply name_alloc; auto].
    + rewrite name_attach. unfold name_of. rewrite get_alloc, Nat.eqb_refl. reflexivity.
    + intros k. rewrite children_attach by auto. rewrite children_alloc by reflexivity.
      destruct (Nat.eqb_spec p k) as [<-|]; [right|left; auto]. split; auto. exists pp; auto.
Qed.

(** Exceptions the constructor can raise. *)
Lemma arg_vecs_exc a n e : arg_vecs a n = Raise e -> e = ValueError.
Proof. unfold arg_vecs. destruct a as [a|]; [|discriminate].
  destruct n; destruct (shape_eqb _ _); intros H; try discriminate; congruence. Qed.
Lemma arg_quats_exc a n e : arg_quats a n = Raise e -> e = ValueError.
Proof. unfold arg_quats. destruct a as [a|]; [|discriminate].
  destruct n; destruct (shape_eqb _ _); intros H; try discriminate; congruence. Qed.
Lemma inv_row_exc p e : inv_row p = Raise e -> e = NaNValue.
Proof. unfold inv_row. destruct (qrecip (snd p)) as [q|e1] eqn:E; simpl.
  - apply qrecip_hinv_inv in E as (Hn & ->). rewrite rot1_general.
    + simpl. discriminate.
    + rewrite <- hn2_qnorm2. apply hn2_hinv_nz, Hn.
  - intros H. injection H as <-. unfold qrecip in E. destruct (Req_b _ _); congruence. Qed.
Lemma inv_static_exc t r e : inv_static t r = Raise e -> e = NaNValue.
Proof. unfold inv_static. destruct (qrecip r) as [q|e1] eqn:E; simpl.
  - apply qrecip_hinv_inv in E as (Hn & ->). rewrite quat_rv_ok.
    + simpl. discriminate.
    + rewrite <- hn2_qnorm2. apply hn2_hinv_nz, Hn.
  - intros H. injection H as <-. unfold qrecip in E. destruct (Req_b _ _); congruence. Qed.
Lemma traverse_exc {A B} (f : A -> res B) l e (P : exc -> Prop) :
  (forall a e, f a = Raise e -> P e) -> traverse f l = Raise e -> P e.
Proof. intros Hf. unfold traverse. induction l as [|a l IH]; simpl; [discriminate|].
  destruct (f a) eqn:E; simpl.
  - destruct (sequence (map f l)); simpl; [discriminate|]. intros H. apply IH. congruence.
  - intros H. injection H as <-. eapply Hf; eauto. Qed.
Lemma init_arrays_exc tr ro ts inv e : init_arrays tr ro ts inv = Raise e -> e = ValueError \/ e = NaNValue.
Proof.
  unfold init_arrays. destruct (arg_ts ts) as [o|e1] eqn:E1; simpl.
  2:{ intros H. injection H as <-. left. unfold arg_ts in E1. destruct ts as [a|]; [|discriminate].
      destruct (shp a) as [|n [|m l]]; congruence. }
  destruct (arg_vecs tr _) as [t|e2] eqn:E2; simpl.
  2:{ intros H. injection H as <-. left. eapply arg_vecs_exc; eauto. }
  destruct (arg_quats ro _) as [r|e3] eqn:E3; simpl.
  2:{ intros H. injection H as <-. left. eapply arg_quats_exc; eauto. }
  destruct o as [l|].
  - destruct inv; [|discriminate]. destruct (traverse inv_row (combine t r)) as [rows|e4] eqn:E4; simpl; [discriminate|].
    intros H. injection H as <-. right. revert E4. apply (traverse_exc _ _ _ (fun e => e = NaNValue)).
    apply inv_row_exc.
  - destruct t as [|t0 t], r as [|r0 r]; try (intros H; left; congruence).
    destruct inv; [|discriminate]. destruct (inv_static t0 r0) as [[t1 r1]|e5] eqn:E5; simpl; [discriminate|].
    intros H. injection H as <-. right. eapply inv_static_exc; eauto.
Qed.
(** A parent argument that denotes neither a frame nor a name. *)
Definition bad_type (s : state) (p : option pref) : Prop :=
  match p with
  | Some (PFrame i) => size s <= i
  | Some POther => True
  | _ => False
  end.
Lemma new_frame_exc s c e : snd (new_frame s c) = Raise e ->
  e = ValueError \/ e = TypeError /\ bad_type s (c_parent c).
Proof.
  unfold new_frame. destruct (c_parent c) as [pp|].
  - destruct (resolve_rf s pp) as [p|e1] eqn:Er.
    + destruct (init_arrays _ _ _ _) as [d|e2] eqn:Ei.
      * unfold finish. destruct d; simpl; [destruct (c_discrete c); simpl|]; intros H; try discriminate. left; congruence.
      * apply init_arrays_exc in Ei as [->| ->]; [|destruct (discrete_static c)]; simpl; intros H; [left; congruence|left; congruence|discriminate].
    + simpl. intros H. injection H as <-. destruct pp as [i|n|]; simpl in *.
      * destruct (get s i) eqn:E; [discriminate|]. right. split; [congruence|]. apply nth_error_None in E. exact E.
      * destruct (lookup n (reg s)); [discriminate|]. left; congruence.
      * right. split; auto. congruence.
  - unfold verify_root. destruct (c_tr c), (c_ro c), (c_ts c); simpl; try (intros H; left; congruence).
    destruct (c_discrete c); simpl; intros H; [left; congruence|discriminate].
Qed.

(* ---- C03 ---- *)
Lemma register_refused s i : (forall n, name_of s i = Some n -> lookup n (reg s) <> None) ->
  register s i false = (s, Raise ValueError).
Proof. intros H. unfold register. destruct (name_of s i) as [n|] eqn:E; auto.
  specialize (H n eq_refl). destruct (lookup n (reg s)); auto. contradiction. Qed.
Lemma register_frame_refused s c s' r : Inv s ->
  (forall n, c_name c = Some n -> lookup n (reg s) <> None) ->
  register_frame s c false = (s', r) ->
  reg s' = reg s /\
  (r = Raise ValueError \/ r = Raise TypeError /\ bad_type s (c_parent c)).
Proof.
  intros I Hn. unfold register_frame. destruct (new_frame s c) as [s1 r1] eqn:E.
  destruct (new_frame_effect s c s1 r1 I E) as (Hr & Hs & _ & Hnm & _).
  destruct r1 as [i|e].
  - assert (i = size s).
    { destruct (new_frame_cases s c s1 (Ok i) I E) as (b & [(_ & [(H & _)|(e & H)])|(p & pp & _ & _ & _ & _ & [H|(e & H)])]); congruence. }
    subst i. rewrite register_refused.
    + intros H. injection H as <- <-. auto.
    + intros n. rewrite Hnm, Hr. apply Hn.
  - intros H. injection H as <- <-. split; auto.
    destruct (new_frame_exc s c e) as [->|(-> & Hb)]; [rewrite E; reflexivity|auto|auto].
Qed.

(* ---- C04 ---- *)
Lemma raising_new_effect s c s' e : Inv s -> new_frame s c = (s', Raise e) ->
  reg s' = reg s /\
  (forall k, k < size s -> parent_of s' k = parent_of s k) /\
  (forall k, children_of s' k = children_of s k \/ children_of s' k = children_of s k ++ [size s]) /\
  (forall i j, i < size s -> j < size s ->
     lookup_transform squad s' i (PFrame j) = lookup_transform squad s i (PFrame j)).
Proof.
  intros I H. assert (I' : Inv s') by (pose proof (Inv_new s c I) as (X & _); rewrite H in X; exact X).
  destruct (new_frame_effect s c s' _ I H) as (Hr & Hs & Hk & _ & Hc).
  split; auto. split; [intros k Hlt; apply Hk; auto|]. split.
  - intros k. destruct (Hc k) as [X|(X & _)]; auto.
  - intros i j Hi Hj. apply lookup_ext; auto; try apply I; try apply I'; try lia.
    + intros k [Ha|Ha]; apply Hk; eapply ancestor_lt; [apply I|exact Hi|exact Ha|apply I|exact Hj|exact Ha].
    + intros k Hlt. apply Hk; auto.
Qed.
Lemma raising_register_frame_effect s c u s' e : Inv s -> register_frame s c u = (s', Raise e) ->
  reg s' = reg s /\
  (forall k, k < size s -> parent_of s' k = parent_of s k) /\
  (forall k, children_of s' k = children_of s k \/ children_of s' k = children_of s k ++ [size s]) /\
  (forall i j, i < size s -> j < size s ->
     lookup_transform squad s' i (PFrame j) = lookup_transform squad s i (PFrame j)).
Proof.
  intros I. unfold register_frame. destruct (new_frame s c) as [s1 [i|e1]] eqn:E.
  - assert (I1 : Inv s1) by (pose proof (Inv_new s c I) as (X & _); rewrite E in X; exact X).
    destruct (new_frame_effect s c s1 _ I E) as (Hr & Hs & Hk & _ & Hc).
    intros H. assert (s' = s1).
    { unfold register in H. destruct (name_of s1 i); [|congruence]. destruct (lookup s0 (reg s1)).
      - destruct u; congruence.
      - congruence. }
    subst s'. split; auto. split; [intros k Hlt; apply Hk; auto|]. split.
    + intros k. destruct (Hc k) as [X|(X & _)]; auto.
    + intros a b Ha Hb. apply lookup_ext; auto; try apply I; try apply I1; try lia.
      * intros k [X|X]; apply Hk; eapply ancestor_lt; [apply I|exact Ha|exact X|apply I|exact Hb|exact X].
      * intros k Hlt. apply Hk; auto.
  - intros H. injection H as <- <-. eapply raising_new_effect; eauto.
Qed.
(** No parent, or an unresolvable one: nothing at all changes. *)
Lemma raising_no_parent s c s' e : Inv s -> new_frame s c = (s', Raise e) ->
  (forall p k, c_parent c = Some p -> resolve_rf s p <> Ok k) ->
  forall k, children_of s' k = children_of s k.
Proof.
  intros I H Hn k. destruct (new_frame_effect s c s' _ I H) as (_ & _ & _ & _ & Hc).
  destruct (Hc k) as [X|(X & pp & Ep & Er)]; auto. exfalso. eapply Hn; eauto.
Qed.

(* ---- C05, C06 ---- *)
Lemma ancestor_dec par i k : rooted par i -> ancestor par i k \/ ~ ancestor par i k.
Proof. intros H. destruct (rooted_chain _ _ H) as (l & C).
  destruct (in_dec Nat.eq_dec k l) as [X|X]; [left|right]; rewrite <- (chain_in _ _ _ _ C); auto. Qed.

Lemma register_update_effect s i n old s' r : Inv s -> i < size s -> name_of s i = Some n ->
  lookup n (reg s) = Some old -> register s i true = (s', r) ->
  r = Ok tt /\ Inv s' /\ size s' = size s /\
  (forall m, lookup m (reg s') = if String.eqb m n then Some i else lookup m (reg s)) /\
  (forall k, parent_of s' k = if Nat.eqb old k then None else parent_of s k) /\
  (forall k, body_of s' k = body_of s k) /\ (forall k, name_of s' k = name_of s k).
Proof.
  intros I Hi En El H. pose proof (Inv_register s i true I Hi) as I'. rewrite H in I'. simpl in I'.
  unfold register in H. rewrite En, El in H. destruct (set_parent s old None) as [s1 r1] eqn:Es. simpl in H.
  injection H as <- <-. destruct I as (W & Hreg). destruct (reg_lt s n old Hreg El) as (Ho & _).
  destruct (set_parent_spec s old None s1 r1 W Ho ltac:(discriminate) Es) as (W1 & Hs1 & Hr1 & Hn1 & Hb1 & Hp1 & Hres).
  split; auto. split; auto. split; [exact Hs1|]. split.
  { intros m. simpl. rewrite lookup_set, Hr1. reflexivity. }
  split.
  { intros k. change (parent_of s1 k = (if old =? k then None else parent_of s k)). rewrite Hp1.
    destruct (Nat.eqb old k); auto. destruct Hres as [->|(_ & _ & p & Hp & _)]; [reflexivity|discriminate]. }
  split; [exact Hb1|exact Hn1].
Qed.

Lemma register_update_lookups s i n old s' r : Inv s -> i < size s -> name_of s i = Some n ->
  lookup n (reg s) = Some old -> register s i true = (s', r) ->
  (forall a b, a < size s -> b < size s -> ~ ancestor (parent_of s) a old -> ~ ancestor (parent_of s) b old ->
     lookup_transform squad s' a (PFrame b) = lookup_transform squad s a (PFrame b)) /\
  (forall a b, a < size s -> b < size s -> ancestor (parent_of s) a old -> ~ ancestor (parent_of s) b old ->
     lookup_transform squad s' a (PFrame b) = Raise WalkError /\
     lookup_transform squad s' b (PFrame a) = Raise WalkError).
Proof.
  intros I Hi En El H. destruct (register_update_effect s i n old s' r I Hi En El H) as (_ & I' & Hs & _ & Hp & Hb & _).
  pose proof I as (W & Hreg). pose proof I' as (W' & _). split.
  - intros a b Ha Hb' Hna Hnb. apply lookup_ext; auto; try lia.
    intros k Hk. rewrite Hp. destruct (Nat.eqb_spec old k) as [<-|]; auto. destruct Hk; contradiction.
  - intros a b Ha Hb' Han Hnb.
    assert (Hra : root_of (parent_of s') a old).
    { split.
      - clear -Han Hp. induction Han as [a|a p o Hpa Han IH]; [constructor|].
        destruct (Nat.eq_dec o a) as [->|Hne]; [constructor|]. econstructor; [|apply IH].
        + rewrite Hp. destruct (Nat.eqb_spec o a); [congruence|exact Hpa].
        + exact Hp.
      - rewrite Hp, Nat.eqb_refl. reflexivity. }
    assert (Hnst : ~ same_tree (parent_of s') a b).
    { intros (q & H1 & H2). assert (Hroot : rooted (parent_of s') a) by (apply W'; lia).
      rewrite (root_fun _ _ _ _ Hroot H1 Hra) in H2. destruct H2 as (H2 & _). apply Hnb.
      clear -H2 Hp. induction H2 as [|b p o Hpb Hb IH]; [constructor|].
      rewrite Hp in Hpb. destruct (Nat.eqb o b); [discriminate|]. econstructor; eauto. }
    unfold lookup_transform. rewrite !resolve_frame by lia. simpl. unfold frames_between.
    rewrite (walk_diff s' a b), (walk_diff s' b a); auto; try lia.
    intros X. apply Hnst, same_tree_sym, X.
Qed.

(** The name is free (or the frame has no name): registering touches no link. *)
Lemma register_free_lookups s i u s' r : Inv s -> i < size s ->
  (forall n, name_of s i = Some n -> lookup n (reg s) = None) -> register s i u = (s', r) ->
  heap s' = heap s.
Proof. intros I Hi Hn. unfold register. destruct (name_of s i) as [n|]; [|congruence].
  rewrite (Hn n eq_refl). intros H. injection H as <- <-. reflexivity. Qed.

Lemma same_heap_lookup s s' a b : Inv s -> Inv s' -> heap s' = heap s -> a < size s -> b < size s ->
  lookup_transform squad s' a (PFrame b) = lookup_transform squad s a (PFrame b).
Proof.
  intros (W & _) (W' & _) Hh Ha Hb. assert (Hs : size s' = size s) by (unfold size; congruence).
  assert (Hg : forall k, get s' k = get s k) by (intros k; unfold get; congruence).
  apply lookup_ext; auto; try lia.
  - intros k _. unfold parent_of. rewrite Hg. reflexivity.
  - intros k _. unfold body_of. rewrite Hg. reflexivity.
Qed.

(* ---- C12 ---- *)
Lemma lookup_diff s i j : Inv s -> i < size s -> j < size s -> ~ same_tree (parent_of s) i j ->
  lookup_transform squad s i (PFrame j) = Raise WalkError.
Proof. intros (W & _) Hi Hj Hn. unfold lookup_transform. rewrite resolve_frame by auto. simpl.
  unfold frames_between. rewrite walk_diff; auto. Qed.

Lemma climb_not_above s i l c k : WF s -> i < size s -> climb (parent_of s) i l c -> In k l -> ~ ancestor (parent_of s) c k.
Proof.
  intros W Hi Hc Hin Ha. apply in_split in Hin as (l1 & l2 & ->).
  assert (Hk : climb (parent_of s) k (k :: l2) c /\ k < size s).
  { clear Ha. revert i Hi Hc. induction l1 as [|a l1 IH]; simpl; intros i Hi Hc; inversion Hc; subst.
    - split; auto.
    - eapply IH; [|eauto]. match goal with X : parent_of s _ = Some _ |- _ => apply (wf_par _ W) in X end. tauto. }
  destruct Hk as (Hk & Hks). destruct (ancestor_climb _ _ _ Ha) as (m & Hm).
  pose proof (climb_app _ _ _ _ _ _ Hk Hm) as Hcl.
  destruct (rooted_chain _ _ (wf_root _ W k Hks)) as (q & Hq). pose proof (climb_chain _ _ _ _ _ Hcl Hq) as K.
  pose proof (chain_fun _ _ _ _ K Hq) as E. apply (f_equal (@List.length nat)) in E.
  rewrite !app_length in E. simpl in E. lia.
Qed.

Lemma climb_in_ancestor s i l c k : climb (parent_of s) i l c -> In k l -> ancestor (parent_of s) i k.
Proof. intros H. induction H as [|i p l c Hp Hc IH]; simpl; intros [].
  - subst; constructor.
  - econstructor; eauto. Qed.

Lemma gclimb_exists s i l c : climb (parent_of s) i l c ->
  (forall k, In k l -> exists t r, transform_of s k = Some (TStatic t r) /\ (hn2 r <> 0)%R) ->
  exists g, gclimb s i l c g.
Proof. intros H. induction H as [|i p l c Hp Hc IH]; intros Hk.
  - exists gone. constructor.
  - destruct (Hk i (or_introl eq_refl)) as (t & r & Ht & Hr). destruct IH as (g & Hg); [intros; apply Hk; right; auto|].
    exists (gmul g (t, r)). econstructor; eauto. Qed.

Lemma lookup_succeeds s i j : Inv s -> i < size s -> j < size s -> same_tree (parent_of s) i j ->
  (forall k, (ancestor (parent_of s) i k /\ ~ ancestor (parent_of s) j k) \/
             (ancestor (parent_of s) j k /\ ~ ancestor (parent_of s) i k) ->
     exists t r, transform_of s k = Some (TStatic t r) /\ hnonzero r) ->
  exists t r, lookup_transform squad s i (PFrame j) = Ok (TrStatic t r).
Proof.
  intros I Hi Hj Hst Hk. pose proof I as (W & _).
  destruct (walk_same s i j W Hi Hj Hst) as (up & down & c & _ & Hw). pose proof Hw as (C1 & C2 & C3).
  destruct (gclimb_exists s i up c C1) as (gi & G1).
  { intros k Hin. apply Hk. left. split; [eapply climb_in_ancestor; eauto|]. intros Ha.
    apply (climb_not_above s i up c k W Hi C1 Hin). apply C3; auto. eapply climb_in_ancestor; eauto. }
  destruct (gclimb_exists s j (rev down) c C2) as (gj & G2).
  { intros k Hin. apply Hk. right. split; [eapply climb_in_ancestor; eauto|]. intros Ha.
    apply (climb_not_above s j (rev down) c k W Hj C2 Hin). apply C3; auto. eapply climb_in_ancestor; eauto. }
  destruct (gmul (ginv gj) gi) as [t r] eqn:E. exists t, r.
  apply (lookup_static_iff squad s i (PFrame j) j); auto; [apply resolve_frame; auto|].
  exists up, down, c, gi, gj. auto.
Qed.

(* ---- C05: lookups inside the subtree of the replaced frame ---- *)
Lemma climb_ext (par par' : nat -> option nat) i l c : climb par i l c ->
  (forall k, In k l -> par' k = par k) -> climb par' i l c.
Proof. intros H. induction H as [|i p l c Hp Hc IH]; intros E; [constructor|].
  econstructor; [rewrite E; [eassumption|left; auto]|]. apply IH. intros; apply E; right; auto. Qed.

Lemma cut_inside_walk s s' old a b : WF s -> WF s' -> size s' = size s ->
  (forall k, parent_of s' k = if Nat.eqb old k then None else parent_of s k) ->
  a < size s -> b < size s -> ancestor (parent_of s) a old -> ancestor (parent_of s) b old ->
  walk s' a b = walk s a b.
Proof.
  intros W W' Hs Hp Ha Hb Aa Ab.
  assert (Hsub : forall x y, ancestor (parent_of s') x y -> ancestor (parent_of s) x y).
  { intros x y H. induction H as [|x p y Hx Hy IH]; [constructor|]. rewrite Hp in Hx.
    destruct (Nat.eqb old x); [discriminate|]. econstructor; eauto. }
  assert (Hold : old < size s) by (eapply ancestor_lt; eauto).
  destruct (same_tree_refl s old W Hold) as (r & Hr & _).
  assert (Hst : same_tree (parent_of s) a b).
  { exists r. destruct Hr as (R1 & R2). split; split; auto; eapply ancestor_trans; eauto. }
  destruct (walk_same s a b W Ha Hb Hst) as (up & down & c & E & (C1 & C2 & C3)). rewrite E.
  assert (Hco : ancestor (parent_of s) c old) by auto.
  assert (N1 : forall k, In k up -> parent_of s' k = parent_of s k).
  { intros k Hk. rewrite Hp. destruct (Nat.eqb_spec old k) as [<-|]; auto.
    exfalso. eapply (climb_not_above s a up c old); eauto. }
  assert (N2 : forall k, In k (rev down) -> parent_of s' k = parent_of s k).
  { intros k Hk. rewrite Hp. destruct (Nat.eqb_spec old k) as [<-|]; auto.
    exfalso. eapply (climb_not_above s b (rev down) c old); eauto. }
  pose proof (climb_ext _ _ _ _ _ C1 N1) as D1. pose proof (climb_ext _ _ _ _ _ C2 N2) as D2.
  apply (walk_unique s' a b up down c); auto; try lia. split; auto. split; auto.
  intros k H1 H2. pose proof (C3 k (Hsub _ _ H1) (Hsub _ _ H2)) as Hck.
  destruct (ancestor_linear _ _ _ _ H1 (climb_ancestor _ _ _ _ D1)) as [X|X]; auto.
  assert (k = c).
  { destruct (ancestor_climb _ _ _ (Hsub _ _ X)) as (l & Hl). destruct l as [|z l]; [inversion Hl; auto|].
    exfalso. assert (z = k) by (inversion Hl; auto). subst z.
    assert (Hks : k < size s) by (eapply ancestor_lt; [exact W|exact Ha|apply Hsub; exact H1]).
    apply (climb_not_above s k (k :: l) c k W Hks Hl); [left; auto|exact Hck]. }
  subst k. constructor.
Qed.

Lemma lookup_same_walk s s' a b : WF s -> a < size s -> b < size s -> size s' = size s ->
  walk s' a b = walk s a b -> (forall k, body_of s' k = body_of s k) ->
  lookup_transform squad s' a (PFrame b) = lookup_transform squad s a (PFrame b).
Proof.
  intros W Ha Hb Hs E Hbo. unfold lookup_transform. rewrite !resolve_frame by lia. simpl.
  unfold frames_between. rewrite E. destruct (walk s a b) as [[up down]|e]; auto. simpl.
  rewrite (traverse_ext _ (fun k => add_frame (body_at s k) false) up).
  2:{ intros k Hk. rewrite !body_at_of, Hbo. reflexivity. }
  rewrite (traverse_ext _ (fun k => add_frame (body_at s k) true) down).
  2:{ intros k Hk. rewrite !body_at_of, Hbo. reflexivity. }
  reflexivity.
Qed.

Lemma register_update_inside s i n old s' r : Inv s -> i < size s -> name_of s i = Some n ->
  lookup n (reg s) = Some old -> register s i true = (s', r) ->
  forall a b, a < size s -> b < size s -> ancestor (parent_of s) a old -> ancestor (parent_of s) b old ->
     lookup_transform squad s' a (PFrame b) = lookup_transform squad s a (PFrame b).
Proof.
  intros I Hi En El H a b Ha Hb Aa Ab.
  destruct (register_update_effect s i n old s' r I Hi En El H) as (_ & I' & Hs & _ & Hp & Hbo & _).
  destruct I as (W & _). destruct I' as (W' & _).
  apply lookup_same_walk; auto. apply (cut_inside_walk s s' old); auto.
Qed.

(* ---- C08, the physical statement with an explicit meeting point ---- *)
Lemma lookup_static_meet s i to j t r : Inv s -> i < size s -> resolve_rf s to = Ok j ->
  lookup_transform squad s i to = Ok (TrStatic t r) ->
  exists c, ancestor (parent_of s) i c /\ ancestor (parent_of s) j c /\
    forall x p, exists P, coords squad s x i p c P /\ coords squad s x j (smove t r p) c P.
Proof.
  intros I Hi Hres H. apply (lookup_static_iff squad s i to j) in H; auto.
  destruct H as (up & down & c & gi & gj & (C1 & C2 & C3) & G1 & G2 & E).
  exists c. split; [eapply climb_ancestor; eauto|]. split; [eapply climb_ancestor; eauto|].
  intros x p. exists (gact gi p). split; [apply (gclimb_coords squad s i up c gi); auto|].
  assert (Hgj := gclimb_nz _ _ _ _ _ G2). assert (Hgi := gclimb_nz _ _ _ _ _ G1).
  replace (gact gi p) with (gact gj (smove t r p)); [apply (gclimb_coords squad s j (rev down) c gj); auto|].
  change (smove t r p) with (gact (t, r) p). rewrite E.
  rewrite <- gact_mul by auto using gnz_mul, gnz_inv.
  rewrite <- gmul_assoc by auto using gnz_inv. rewrite gmul_inv_r by auto. rewrite gmul_1_l. reflexivity.
Qed.

Lemma ancestor_same s s1 a k : WF s -> a < size s ->
  (forall j, j < size s -> parent_of s1 j = parent_of s j) ->
  ancestor (parent_of s1) a k <-> ancestor (parent_of s) a k.
Proof.
  intros W Ha E. split; intros H.
  - induction H as [|a p k Hp Hk IH]; [constructor|]. rewrite E in Hp by auto. econstructor; [exact Hp|].
    apply IH. apply (wf_par _ W) in Hp. tauto.
  - revert Ha. induction H as [|a p k Hp Hk IH]; intros Ha; [constructor|]. econstructor; [rewrite E; eauto|].
    apply IH. apply (wf_par _ W) in Hp. tauto.
Qed.

Lemma register_frame_update s c n old s' i : Inv s -> c_name c = Some n -> lookup n (reg s) = Some old ->
  register_frame s c true = (s', Ok i) ->
  i = size s /\ size s' = S (size s) /\
  (forall m, lookup m (reg s') = if String.eqb m n then Some i else lookup m (reg s)) /\
  (forall k, k < size s -> parent_of s' k = if Nat.eqb old k then None else parent_of s k) /\
  (forall a b, a < size s -> b < size s -> (ancestor (parent_of s) a old <-> ancestor (parent_of s) b old) ->
     lookup_transform squad s' a (PFrame b) = lookup_transform squad s a (PFrame b)) /\
  (forall a b, a < size s -> b < size s -> ancestor (parent_of s) a old -> ~ ancestor (parent_of s) b old ->
     lookup_transform squad s' a (PFrame b) = Raise WalkError /\
     lookup_transform squad s' b (PFrame a) = Raise WalkError).
Proof.
  intros I En El. unfold register_frame. destruct (new_frame s c) as [s1 [i1|e1]] eqn:E; [|discriminate].
  assert (I1 : Inv s1) by (pose proof (Inv_new s c I) as (X & _); rewrite E in X; exact X).
  destruct (new_frame_effect s c s1 _ I E) as (Hr & Hs & Hk & Hnm & _).
  assert (i1 = size s).
  { destruct (new_frame_cases s c s1 (Ok i1) I E) as (b & [(_ & [(H & _)|(e & H)])|(p & pp & _ & _ & _ & _ & [H|(e & H)])]); congruence. }
  subst i1. destruct (register s1 (size s) true) as [s2 r2] eqn:E2. destruct r2 as [[]|e2]; [|discriminate].
  intros H. injection H as <- <-.
  assert (Hi1 : size s < size s1) by lia.
  assert (El1 : lookup n (reg s1) = Some old) by congruence.
  assert (En1 : name_of s1 (size s) = Some n) by congruence.
  destruct (register_update_effect s1 (size s) n old s2 (Ok tt) I1 Hi1 En1 El1 E2) as (_ & I2 & Hs2 & Hl2 & Hp2 & _ & _).
  pose proof I as (W & _).
  assert (HA : forall a k, a < size s -> ancestor (parent_of s1) a k <-> ancestor (parent_of s) a k).
  { intros a k Ha. apply ancestor_same; auto. intros j Hj. apply Hk; auto. }
  assert (HL : forall a b, a < size s -> b < size s ->
     lookup_transform squad s1 a (PFrame b) = lookup_transform squad s a (PFrame b)).
  { intros a b Ha Hb. apply lookup_ext; auto; try apply I; try apply I1; try lia.
    + intros k [X|X]; apply Hk; eapply ancestor_lt; [apply I|exact Ha|exact X|apply I|exact Hb|exact X].
    + intros k Hlt. apply Hk; auto. }
  destruct (register_update_lookups s1 (size s) n old s2 (Ok tt) I1 Hi1 En1 El1 E2) as (U1 & U2).
  pose proof (register_update_inside s1 (size s) n old s2 (Ok tt) I1 Hi1 En1 El1 E2) as U3.
  destruct (reg_lt s n old (proj2 I) El) as (Ho & _).
  split; [reflexivity|]. split; [lia|]. split; [intros m; rewrite Hl2, Hr; reflexivity|].
  split; [intros k Hlt; rewrite Hp2; destruct (Nat.eqb old k); auto; apply Hk; auto|]. split.
  - intros a b Ha Hb Hiff. rewrite <- HL by auto.
    destruct (ancestor_dec (parent_of s) a old (wf_root _ W a Ha)) as [Y|Y].
    + apply U3; try lia; rewrite HA by auto; auto. apply Hiff, Y.
    + apply U1; try lia; rewrite HA by auto; auto. intros Z. apply Y, Hiff, Z.
  - intros a b Ha Hb Y N. apply U2; try lia; rewrite HA by auto; auto.
Qed.
End S.
