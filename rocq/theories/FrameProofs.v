(** Invariants of the frame forest and the registry. *)
From Coq Require Import Reals List String Arith Bool Lia Permutation.
From Verif Require Import Base Quat NdArray Frames SpecForest.
Import ListNotations.
Open Scope nat_scope.

Definition size (s : state) := List.length (heap s).

(** Internal form of the invariant. *)
Record WF (s : state) : Prop := {
  wf_par : forall i p, parent_of s i = Some p -> p < size s /\ In i (children_of s p);
  wf_ch : forall i p, In i (children_of s p) -> i < size s /\ parent_of s i = Some p;
  wf_nodup : forall p, NoDup (children_of s p);
  wf_root : forall i, i < size s -> rooted (parent_of s) i }.

Definition RegOk (s : state) : Prop := registry_ok (reg s) (size s) (name_of s).

(* ---- heap access lemmas ---- *)
Lemma nth_upd {A} (l : list A) i f j :
  nth_error (upd l i f) j = if Nat.eqb i j then option_map f (nth_error l j) else nth_error l j.
Proof.
  revert i j; induction l as [|a l IH]; intros i j; simpl.
  - destruct (Nat.eqb i j), j; reflexivity.
  - destruct i as [|i], j as [|j]; simpl; try reflexivity. apply IH.
Qed.
Lemma length_upd {A} (l : list A) i f : List.length (upd l i f) = List.length l.
Proof. revert i; induction l as [|a l IH]; intros [|i]; simpl; auto. Qed.

Lemma get_upd s i f j :
  get (upd_node s i f) j = if Nat.eqb i j then option_map f (get s j) else get s j.
Proof. apply nth_upd. Qed.
Lemma size_upd s i f : size (upd_node s i f) = size s.
Proof. apply length_upd. Qed.
Lemma get_some_lt s i n : get s i = Some n -> i < size s.
Proof. intros H. apply nth_error_Some. unfold get in H. congruence. Qed.
Lemma get_lt s i : i < size s -> exists n, get s i = Some n.
Proof. intros H. destruct (get s i) eqn:E; eauto. apply nth_error_None in E. unfold size in H. lia. Qed.

Lemma parent_of_lt s i p : parent_of s i = Some p -> i < size s.
Proof. unfold parent_of. destruct (get s i) eqn:E; [|discriminate]. intros _. eapply get_some_lt; eauto. Qed.

Definition alloc (s : state) (n : node) : state := State (heap s ++ [n]) (reg s).
Lemma get_alloc s n j :
  get (alloc s n) j = if Nat.eqb j (size s) then Some n else get s j.
Proof.
  unfold get, alloc, size; simpl. destruct (Nat.eqb_spec j (List.length (heap s))) as [->|H].
  - rewrite nth_error_app2, Nat.sub_diag by lia. reflexivity.
  - destruct (Nat.lt_ge_cases j (List.length (heap s))).
    + apply nth_error_app1; auto.
    + rewrite (proj2 (nth_error_None _ _)); [|rewrite app_length; simpl; lia].
      symmetry. apply nth_error_None. lia.
Qed.
Lemma size_alloc s n : size (alloc s n) = S (size s).
Proof. unfold size, alloc; simpl. rewrite app_length; simpl; lia. Qed.

Section Attach.
  Variables (s : state) (i p : nat).
  Hypothesis Hi : i < size s.
  Hypothesis Hp : p < size s.
  Lemma parent_attach j :
    parent_of (attach s i p) j = if Nat.eqb i j then Some p else parent_of s j.
  Proof using Hi.
    unfold attach, parent_of. rewrite !get_upd.
    destruct (Nat.eqb_spec i j) as [<-|H].
    - destruct (get_lt s i Hi) as (n & E). rewrite E. destruct (Nat.eqb p i); reflexivity.
    - destruct (Nat.eqb p j); destruct (get s j); reflexivity.
  Qed.
  Lemma children_attach j :
    children_of (attach s i p) j =
    if Nat.eqb p j then children_of s j ++ [i] else children_of s j.
  Proof using Hp.
    unfold attach, children_of. rewrite !get_upd.
    destruct (Nat.eqb_spec p j) as [<-|H].
    - destruct (get_lt s p Hp) as (n & E). rewrite E. destruct (Nat.eqb i p); reflexivity.
    - destruct (Nat.eqb i j); destruct (get s j); reflexivity.
  Qed.
  Lemma name_attach j : name_of (attach s i p) j = name_of s j.
  Proof. unfold attach, name_of. rewrite !get_upd.
    destruct (Nat.eqb i j), (Nat.eqb p j); destruct (get s j); reflexivity. Qed.
  Lemma size_attach : size (attach s i p) = size s.
  Proof. unfold attach. rewrite !size_upd. reflexivity. Qed.
  Lemma reg_attach : reg (attach s i p) = reg s.
  Proof. reflexivity. Qed.
End Attach.

Lemma parent_detach s i j :
  parent_of (detach s i) j = if Nat.eqb i j then None else parent_of s j.
Proof.
  unfold detach. destruct (parent_of s i) as [p|] eqn:E.
  - unfold parent_of in *. rewrite !get_upd. destruct (Nat.eqb_spec i j) as [<-|H].
    + destruct (get s i); [|discriminate]. destruct (Nat.eqb p i); reflexivity.
    + destruct (Nat.eqb p j); destruct (get s j); reflexivity.
  - destruct (Nat.eqb_spec i j) as [<-|H]; auto.
Qed.
Lemma children_detach s i j :
  children_of (detach s i) j =
  match parent_of s i with
  | Some p => if Nat.eqb p j then filter (fun c => negb (Nat.eqb c i)) (children_of s j)
              else children_of s j
  | None => children_of s j
  end.
Proof.
  unfold detach. destruct (parent_of s i) as [p|] eqn:E; [|reflexivity].
  unfold children_of. rewrite !get_upd.
  destruct (Nat.eqb p j), (Nat.eqb i j); destruct (get s j); reflexivity.
Qed.
Lemma name_detach s i j : name_of (detach s i) j = name_of s j.
Proof. unfold detach. destruct (parent_of s i) as [p|]; [|reflexivity].
  unfold name_of. rewrite !get_upd.
  destruct (Nat.eqb p j), (Nat.eqb i j); destruct (get s j); reflexivity. Qed.
Lemma size_detach s i : size (detach s i) = size s.
Proof. unfold detach. destruct (parent_of s i); [|reflexivity]. rewrite !size_upd. reflexivity. Qed.
Lemma reg_detach s i : reg (detach s i) = reg s.
Proof. unfold detach. destruct (parent_of s i); reflexivity. Qed.
Definition body_of (s : state) (i : nat) : option body := option_map nbody (get s i).
Lemma body_attach s i p j : body_of (attach s i p) j = body_of s j.
Proof. unfold attach, body_of. rewrite !get_upd.
  destruct (Nat.eqb i j), (Nat.eqb p j); destruct (get s j); reflexivity. Qed.
Lemma body_detach s i j : body_of (detach s i) j = body_of s j.
Proof. unfold detach. destruct (parent_of s i) as [p|]; [|reflexivity].
  unfold body_of. rewrite !get_upd.
  destruct (Nat.eqb p j), (Nat.eqb i j); destruct (get s j); reflexivity. Qed.

(* ---- paths ---- *)
Inductive chain (par : nat -> option nat) : nat -> list nat -> Prop :=
| chain_root i : par i = None -> chain par i [i]
| chain_up i p l : par i = Some p -> chain par p l -> chain par i (i :: l).

Lemma chain_fun par i l1 l2 : chain par i l1 -> chain par i l2 -> l1 = l2.
Proof.
  intros H; revert l2; induction H as [i H|i p l H Hc IH]; intros l2 H2;
    inversion H2; subst; try congruence.
  f_equal. apply IH. replace p with p0 by congruence. assumption.
Qed.
Lemma chain_hd par i l : chain par i l -> exists l', l = i :: l'.
Proof. intros H; inversion H; eauto. Qed.
Lemma chain_in par i l j : chain par i l -> In j l <-> ancestor par i j.
Proof.
  intros H. induction H as [i H|i p l H Hc IH]; simpl.
  - split.
    + intros [<-|[]]. constructor.
    + intros Ha. inversion Ha; subst; auto. congruence.
  - split.
    + intros [<-|Hj]; [constructor|]. econstructor; [eauto|apply IH; auto].
    + intros Ha. inversion Ha; subst; auto. right. apply IH. congruence.
Qed.
Lemma chain_suffix par i l j l1 l2 : chain par i l -> l = l1 ++ j :: l2 -> chain par j (j :: l2).
Proof.
  intros H; revert l1; induction H as [i H|i p l H Hc IH]; intros l1 E.
  - destruct l1 as [|a [|b l1]]; simpl in E; inversion E; subst. constructor; auto.
  - destruct l1 as [|a l1]; simpl in E; injection E as <- E.
    + subst. econstructor; eauto.
    + eapply IH; eauto.
Qed.
Lemma chain_nodup par i l : chain par i l -> NoDup l.
Proof.
  intros H. induction H as [i H|i p l H Hc IH].
  - repeat constructor. intros [].
  - constructor; auto. intros Hin. apply in_split in Hin as (l1 & l2 & ->).
    pose proof (chain_suffix _ _ _ _ _ _ Hc eq_refl) as Hs.
    assert (Hc' : chain par i (i :: l1 ++ i :: l2)) by (econstructor; eauto).
    pose proof (chain_fun _ _ _ _ Hs Hc') as E. apply (f_equal (@List.length nat)) in E.
    simpl in E. rewrite app_length in E. simpl in E. lia.
Qed.
Lemma rooted_chain par i : rooted par i -> exists l, chain par i l.
Proof. intros H. induction H as [i H|i p H Hr (l & IH)].
  - exists [i]. constructor; auto.
  - exists (i :: l). econstructor; eauto. Qed.
Lemma chain_rooted par i l : chain par i l -> rooted par i.
Proof. intros H. induction H; [apply rooted_root|eapply rooted_up]; eauto. Qed.

Lemma chain_lt s i l : WF s -> i < size s -> chain (parent_of s) i l -> Forall (fun j => j < size s) l.
Proof.
  intros W Hi H. induction H as [i H|i p l H Hc IH]; constructor; auto.
  apply IH. apply (wf_par _ W) in H. tauto.
Qed.
Lemma nodup_lt_length n l : NoDup l -> Forall (fun j => j < n) l -> List.length l <= n.
Proof.
  intros Hn Hl. rewrite <- (seq_length n 0). apply NoDup_incl_length; auto.
  intros x Hx. apply in_seq. rewrite Forall_forall in Hl. specialize (Hl x Hx). lia.
Qed.
Lemma path_up_chain s i l : chain (parent_of s) i l ->
  forall fuel, List.length l <= fuel -> path_up fuel s i = Some l.
Proof.
  intros H. induction H as [i H|i p l H Hc IH]; intros fuel Hf; destruct fuel as [|fuel];
    simpl in *; try lia; rewrite H; [reflexivity|].
  rewrite IH by lia. reflexivity.
Qed.
Lemma path_up_sound s fuel i l : path_up fuel s i = Some l -> chain (parent_of s) i l.
Proof.
  revert i l; induction fuel as [|fuel IH]; simpl; intros i l H; [discriminate|].
  destruct (parent_of s i) as [p|] eqn:E.
  - destruct (path_up fuel s p) as [l'|] eqn:E'; simpl in H; [|discriminate].
    injection H as <-. econstructor; eauto.
  - injection H as <-. constructor; auto.
Qed.
Lemma rpath_ok s i : WF s -> i < size s -> exists l, rpath s i = Some l /\ chain (parent_of s) i l.
Proof.
  intros W Hi. destruct (rooted_chain _ _ (wf_root _ W i Hi)) as (l & Hl).
  exists l. split; auto. apply path_up_chain; auto.
  pose proof (nodup_lt_length (size s) l (chain_nodup _ _ _ Hl) (chain_lt _ _ _ W Hi Hl)).
  unfold size in *. lia.
Qed.

(* ---- preservation ---- *)
Lemma rooted_ext (par par' : nat -> option nat) i :
  rooted par i -> (forall j, ancestor par i j -> par' j = par j) -> rooted par' i.
Proof.
  intros H. induction H as [i H|i p H Hr IH]; intros E.
  - apply rooted_root. rewrite E; auto. constructor.
  - eapply rooted_up.
    + rewrite E; eauto. constructor.
    + apply IH. intros j Hj. apply E. econstructor; eauto.
Qed.

Lemma WF_same s s' : WF s -> size s' = size s ->
  (forall i, parent_of s' i = parent_of s i) ->
  (forall i, children_of s' i = children_of s i) -> WF s'.
Proof.
  intros W Hs Hp Hc. constructor.
  - intros i p. rewrite Hp, Hs, Hc. apply W.
  - intros i p. rewrite Hp, Hs, Hc. apply W.
  - intros p. rewrite Hc. apply W.
  - intros i. rewrite Hs. intros Hi. eapply rooted_ext; [apply W; auto|]. auto.
Qed.

Lemma WF_init : WF init.
Proof. constructor; unfold parent_of, children_of, get, size; simpl; intros;
  try (destruct i; discriminate); try (destruct p; [constructor|]; constructor); try lia.
  destruct p; contradiction. Qed.

Lemma WF_alloc s n : WF s -> nparent n = None -> nchildren n = [] -> WF (alloc s n).
Proof.
  intros W Hn1 Hn2.
  assert (Hp : forall j, parent_of (alloc s n) j = parent_of s j).
  { intros j. unfold parent_of. rewrite get_alloc. destruct (Nat.eqb_spec j (size s)) as [->|]; auto.
    rewrite Hn1. destruct (get s (size s)) eqn:E; auto. apply get_some_lt in E. lia. }
  assert (Hc : forall j, children_of (alloc s n) j = children_of s j).
  { intros j. unfold children_of. rewrite get_alloc. destruct (Nat.eqb_spec j (size s)) as [->|]; auto.
    rewrite Hn2. destruct (get s (size s)) eqn:E; auto. apply get_some_lt in E. lia. }
  constructor; intros *; rewrite ?Hp, ?Hc, ?size_alloc.
  - intros H. apply (wf_par _ W) in H. intuition lia.
  - intros H. apply (wf_ch _ W) in H. intuition lia.
  - apply W.
  - intros H. destruct (Nat.eq_dec i (size s)) as [->|Hne].
    + apply rooted_root. rewrite Hp. destruct (parent_of s (size s)) eqn:E; auto.
      apply parent_of_lt in E. lia.
    + eapply rooted_ext; [apply (wf_root _ W i); lia|]. intros; apply Hp.
Qed.

Lemma WF_detach s i : WF s -> WF (detach s i).
Proof.
  intros W. destruct (parent_of s i) as [p|] eqn:E.
  2:{ unfold detach. rewrite E. exact W. }
  constructor.
  - intros j q. rewrite parent_detach, children_detach, size_detach, E.
    destruct (Nat.eqb_spec i j) as [<-|Hij]; [discriminate|]. intros H.
    destruct (wf_par _ W _ _ H) as (Hq & Hin). split; auto.
    destruct (Nat.eqb_spec p q) as [<-|]; auto. apply filter_In. split; auto.
    destruct (Nat.eqb_spec j i); auto; congruence.
  - intros j q. rewrite parent_detach, children_detach, size_detach, E. intros H.
    assert (Hin : In j (children_of s q) /\ (p = q -> j <> i)).
    { destruct (Nat.eqb_spec p q) as [Heq|Hne]; [subst q|].
      - apply filter_In in H as (H & H'). split; auto. intros _ ->. rewrite Nat.eqb_refl in H'. discriminate.
      - split; auto; intros; congruence. }
    destruct Hin as (Hin & Hne). destruct (wf_ch _ W _ _ Hin) as (Hj & Hpar). split; auto.
    destruct (Nat.eqb_spec i j) as [<-|]; auto. exfalso. apply Hne; congruence.
  - intros q. rewrite children_detach, E. destruct (Nat.eqb p q); [apply NoDup_filter|]; apply W.
  - intros j. rewrite size_detach. intros Hj. pose proof (wf_root _ W j Hj) as Hr.
    clear Hj. induction Hr as [j H|j q H Hr IH].
    + apply rooted_root. rewrite parent_detach. destruct (Nat.eqb i j); auto.
    + destruct (Nat.eq_dec i j) as [<-|Hne].
      * apply rooted_root. rewrite parent_detach, Nat.eqb_refl. reflexivity.
      * eapply rooted_up; [|exact IH]. rewrite parent_detach.
        destruct (Nat.eqb_spec i j); auto; congruence.
Qed.

Lemma NoDup_snoc {A} (l : list A) a : NoDup l -> ~ In a l -> NoDup (l ++ [a]).
Proof.
  intros Hn Hi. apply (Permutation_NoDup (l := a :: l)).
  - apply Permutation_cons_append.
  - constructor; auto.
Qed.

Lemma WF_attach s i p : WF s -> i < size s -> p < size s -> parent_of s i = None ->
  ~ ancestor (parent_of s) p i -> WF (attach s i p).
Proof.
  intros W Hi Hp Hn Hloop.
  assert (Hrp : rooted (parent_of (attach s i p)) p).
  { eapply rooted_ext; [apply (wf_root _ W p Hp)|]. intros j Hj. rewrite parent_attach by auto.
    destruct (Nat.eqb_spec i j) as [<-|]; auto; contradiction. }
  constructor.
  - intros j q. rewrite parent_attach, children_attach, size_attach by auto.
    destruct (Nat.eqb_spec i j) as [<-|Hij].
    + intros E; injection E as <-. split; auto. rewrite Nat.eqb_refl. apply in_or_app. right; left; auto.
    + intros H. destruct (wf_par _ W _ _ H) as (Hq & Hin). split; auto.
      destruct (Nat.eqb p q); auto. apply in_or_app; auto.
  - intros j q. rewrite parent_attach, children_attach, size_attach by auto.
    destruct (Nat.eqb_spec p q) as [<-|Hpq].
    + intros H. apply in_app_or in H as [H|[<-|[]]].
      * destruct (wf_ch _ W _ _ H) as (Hj & Hpar). split; auto.
        destruct (Nat.eqb_spec i j) as [<-|]; auto.
      * rewrite Nat.eqb_refl. auto.
    + intros H. destruct (wf_ch _ W _ _ H) as (Hj & Hpar). split; auto.
      destruct (Nat.eqb_spec i j) as [<-|]; auto; congruence.
  - intros q. rewrite children_attach by auto. destruct (Nat.eqb_spec p q) as [<-|]; [|apply W].
    apply NoDup_snoc; [apply W|]. intros H. apply (wf_ch _ W) in H. destruct H; congruence.
  - intros j. rewrite size_attach. intros Hj. pose proof (wf_root _ W j Hj) as Hr.
    assert (Hri : rooted (parent_of (attach s i p)) i).
    { eapply rooted_up; [rewrite parent_attach by auto; rewrite Nat.eqb_refl; reflexivity|exact Hrp]. }
    clear Hj. induction Hr as [j H|j q H Hr IH].
    + destruct (Nat.eq_dec i j) as [<-|Hne]; auto. apply rooted_root.
      rewrite parent_attach by auto. destruct (Nat.eqb_spec i j); auto; congruence.
    + destruct (Nat.eq_dec i j) as [<-|Hne]; auto. eapply rooted_up; [|exact IH].
      rewrite parent_attach by auto. destruct (Nat.eqb_spec i j); auto; congruence.
Qed.

Lemma ancestor_detach s i j k : ancestor (parent_of (detach s i)) j k -> ancestor (parent_of s) j k.
Proof.
  intros H. induction H as [j|j p a H Ha IH]; [constructor|].
  rewrite parent_detach in H. destruct (Nat.eqb i j); [discriminate|].
  econstructor; eauto.
Qed.

Lemma set_parent_spec s i v s' r : WF s -> i < size s -> (forall p, v = Some p -> p < size s) ->
  set_parent s i v = (s', r) ->
  WF s' /\ size s' = size s /\ reg s' = reg s /\ (forall j, name_of s' j = name_of s j) /\
  (forall j, body_of s' j = body_of s j) /\
  (forall j, parent_of s' j = if Nat.eqb i j then (match r with Ok _ => v | Raise _ => parent_of s j end) else parent_of s j) /\
  (r = Ok tt \/ s' = s /\ r = Raise LoopError /\ exists p, v = Some p /\ ancestor (parent_of s) p i).
Proof.
  intros W Hi Hv. unfold set_parent.
  destruct (opt_eqb (parent_of s i) v) eqn:Eo.
  { intros H; injection H as <- <-. split; [exact W|]. repeat split; auto.
    intros j. destruct (Nat.eqb_spec i j) as [<-|]; auto.
    destruct (parent_of s i) as [a|], v as [b|]; simpl in Eo; try discriminate; auto.
    apply Nat.eqb_eq in Eo. congruence. }
  destruct v as [p|].
  - specialize (Hv p eq_refl). destruct (rpath_ok s p W Hv) as (l & El & Hl). rewrite El.
    destruct (existsb (Nat.eqb i) l) eqn:Ex.
    + intros H; injection H as <- <-. apply existsb_exists in Ex as (x & Hx & E).
      apply Nat.eqb_eq in E as <-. split; [exact W|]. repeat split; auto.
      * intros j. destruct (Nat.eqb i j); auto.
      * right. repeat split. exists p. split; auto. eapply chain_in; eauto.
    + intros H; injection H as <- <-.
      assert (Hna : ~ ancestor (parent_of s) p i).
      { intros Ha. apply (chain_in _ _ _ _ Hl) in Ha.
        assert (existsb (Nat.eqb i) l = true); [|congruence].
        apply existsb_exists. exists i. split; auto. apply Nat.eqb_refl. }
      assert (Hi' : i < size (detach s i)) by (rewrite size_detach; auto).
      assert (Hp' : p < size (detach s i)) by (rewrite size_detach; auto).
      split; [|split; [|split; [|split; [|split; [|split]]]]].
      * apply WF_attach; auto.
        -- apply WF_detach; auto.
        -- rewrite parent_detach, Nat.eqb_refl. reflexivity.
        -- intros Ha. apply Hna. eapply ancestor_detach; eauto.
      * rewrite size_attach, size_detach. reflexivity.
      * rewrite reg_attach, reg_detach. reflexivity.
      * intros j. rewrite name_attach, name_detach. reflexivity.
      * intros j. rewrite body_attach, body_detach. reflexivity.
      * intros j. rewrite parent_attach by auto. rewrite parent_detach. destruct (Nat.eqb i j); auto.
      * left; auto.
  - intros H; injection H as <- <-.
    split; [|split; [|split; [|split; [|split; [|split]]]]].
    + apply WF_detach; auto.
    + apply size_detach.
    + apply reg_detach.
    + intros j; apply name_detach.
    + intros j; apply body_detach.
    + intros j. rewrite parent_detach. reflexivity.
    + left; auto.
Qed.

(* ---- dicts ---- *)
Lemma lookup_in {A} k (m : list (string * A)) v : lookup k m = Some v -> In (k, v) m.
Proof. induction m as [|[k' v'] m IH]; simpl; [discriminate|].
  destruct (String.eqb_spec k k') as [<-|]; intros H; [injection H as <-|]; auto. Qed.
Lemma lookup_none {A} k (m : list (string * A)) : lookup k m = None <-> ~ In k (map fst m).
Proof. induction m as [|[k' v'] m IH]; simpl; [intuition|].
  destruct (String.eqb_spec k k') as [<-|Hne]; split; intros H.
  - discriminate.
  - exfalso; apply H; auto.
  - intros [E|E]; [congruence|]. apply IH in H; auto.
  - apply IH. intros E. apply H; auto. Qed.
Lemma in_lookup {A} k v (m : list (string * A)) : NoDup (map fst m) -> In (k, v) m -> lookup k m = Some v.
Proof. induction m as [|[k' v'] m IH]; simpl; [contradiction|]. intros Hn [E|Hin].
  - injection E as -> ->. rewrite String.eqb_refl. reflexivity.
  - inversion Hn; subst. destruct (String.eqb_spec k k') as [<-|]; auto.
    exfalso. apply H1. apply (in_map fst) in Hin. exact Hin. Qed.
Lemma lookup_set {A} k (v : A) m k' :
  lookup k' (dict_set k v m) = if String.eqb k' k then Some v else lookup k' m.
Proof. induction m as [|[a b] m IH]; simpl.
  - reflexivity.
  - destruct (String.eqb_spec k a) as [<-|Hne]; simpl.
    + destruct (String.eqb k' k); reflexivity.
    + rewrite IH. destruct (String.eqb_spec k' a) as [->|]; auto.
      destruct (String.eqb_spec a k); congruence. Qed.
Lemma keys_set {A} k (v : A) m :
  map fst (dict_set k v m) = map fst m ++ (if lookup k m then [] else [k]).
Proof. induction m as [|[a b] m IH]; simpl; auto.
  destruct (String.eqb k a); simpl; [rewrite app_nil_r|rewrite IH]; reflexivity. Qed.
Lemma nodup_set {A} k (v : A) m : NoDup (map fst m) -> NoDup (map fst (dict_set k v m)).
Proof. intros H. rewrite keys_set. destruct (lookup k m) eqn:E.
  - rewrite app_nil_r; auto.
  - apply NoDup_snoc; auto. apply lookup_none; auto. Qed.
Lemma in_set {A} k (v : A) m k' v' :
  NoDup (map fst m) -> In (k', v') (dict_set k v m) -> (k' = k /\ v' = v) \/ (k' <> k /\ In (k', v') m).
Proof. intros Hn H. apply in_lookup in H; [|apply nodup_set; auto]. rewrite lookup_set in H.
  destruct (String.eqb_spec k' k) as [->|]; [left|right].
  - split; auto. congruence.
  - split; auto. apply lookup_in; auto. Qed.
Lemma lookup_pop {A} k (m : list (string * A)) k' :
  lookup k' (dict_pop k m) = if String.eqb k' k then None else lookup k' m.
Proof. unfold dict_pop. induction m as [|[a b] m IH]; simpl.
  - destruct (String.eqb k' k); auto.
  - destruct (String.eqb_spec k a) as [<-|]; simpl; rewrite IH.
    + destruct (String.eqb k' k); auto.
    + destruct (String.eqb_spec k' a) as [->|]; auto; destruct (String.eqb_spec a k); congruence. Qed.
Lemma nodup_pop {A} k (m : list (string * A)) : NoDup (map fst m) -> NoDup (map fst (dict_pop k m)).
Proof. unfold dict_pop. induction m as [|[a b] m IH]; simpl; auto. intros H. inversion H; subst.
  destruct (negb (String.eqb k a)); simpl; auto. constructor; auto.
  intros Hin. apply H2. apply in_map_iff in Hin as ([c d] & <- & Hin). apply filter_In in Hin as (Hin & _).
  apply (in_map fst) in Hin. exact Hin. Qed.

(* ---- the whole invariant, step by step ---- *)
Definition Inv (s : state) : Prop := WF s /\ RegOk s.

Lemma RegOk_ext s s' : RegOk s -> reg s' = reg s -> size s <= size s' ->
  (forall i, i < size s -> name_of s' i = name_of s i) -> RegOk s'.
Proof. intros (H1 & H2) Hr Hs Hn. split; rewrite Hr; auto.
  intros k i Hin. destruct (H2 k i Hin) as (Hi & Hk). split; [lia|]. rewrite Hn; auto. Qed.
Lemma reg_lt s n i : RegOk s -> lookup n (reg s) = Some i -> i < size s /\ name_of s i = Some n.
Proof. intros (_ & H) E. apply lookup_in in E. apply H; auto. Qed.

Lemma resolve_lt s p i : RegOk s -> resolve_rf s p = Ok i -> i < size s.
Proof. intros Hr. destruct p as [j|n|]; simpl.
  - destruct (get s j) eqn:E; [|discriminate]. intros H; injection H as <-. eapply get_some_lt; eauto.
  - destruct (lookup n (reg s)) eqn:E; [|discriminate]. intros H; injection H as <-. eapply reg_lt; eauto.
  - discriminate. Qed.

Lemma name_alloc s n i : i < size s -> name_of (alloc s n) i = name_of s i.
Proof. intros H. unfold name_of. rewrite get_alloc. destruct (Nat.eqb_spec i (size s)); auto; lia. Qed.
Lemma parent_alloc s n i : nparent n = None -> parent_of (alloc s n) i = parent_of s i.
Proof. intros Hn. unfold parent_of. rewrite get_alloc. destruct (Nat.eqb_spec i (size s)) as [->|]; auto.
  rewrite Hn. destruct (get s (size s)) eqn:E; auto. apply get_some_lt in E. lia. Qed.
Lemma children_alloc s n i : nchildren n = [] -> children_of (alloc s n) i = children_of s i.
Proof. intros Hn. unfold children_of. rewrite get_alloc. destruct (Nat.eqb_spec i (size s)) as [->|]; auto.
  rewrite Hn. destruct (get s (size s)) eqn:E; auto. apply get_some_lt in E. lia. Qed.
Lemma body_alloc s n i : i < size s -> body_of (alloc s n) i = body_of s i.
Proof. intros H. unfold body_of. rewrite get_alloc. destruct (Nat.eqb_spec i (size s)); auto; lia. Qed.
Lemma Inv_alloc s n : Inv s -> nparent n = None -> nchildren n = [] -> Inv (alloc s n).
Proof. intros (W & Hr) H1 H2. split; [apply WF_alloc; auto|].
  eapply RegOk_ext; eauto. rewrite size_alloc; lia. intros; apply name_alloc; auto. Qed.

Lemma ancestor_lt s i j : WF s -> i < size s -> ancestor (parent_of s) i j -> j < size s.
Proof. intros W Hi H. induction H as [i|i p a H Ha IH]; auto. apply IH. apply (wf_par _ W) in H. tauto. Qed.

Lemma Inv_alloc_attach s n p : Inv s -> nparent n = None -> nchildren n = [] -> p < size s ->
  Inv (attach (alloc s n) (size s) p).
Proof.
  intros I H1 H2 Hp. pose proof (Inv_alloc s n I H1 H2) as (W' & Hr'). destruct I as (W & Hr).
  assert (Hsz : size s < size (alloc s n)) by (rewrite size_alloc; lia).
  assert (Hp' : p < size (alloc s n)) by (rewrite size_alloc; lia).
  split.
  - apply WF_attach; auto.
    + rewrite parent_alloc by auto. destruct (parent_of s (size s)) eqn:E; auto. apply parent_of_lt in E. lia.
    + intros Ha. assert (Ha' : ancestor (parent_of s) p (size s)).
      { clear -Ha H1. remember (size s) as k. clear Heqk. induction Ha as [i|i q a H Ha IH]; [constructor|].
        rewrite parent_alloc in H by auto. econstructor; eauto. }
      apply (ancestor_lt _ _ _ W Hp) in Ha'. lia.
  - eapply RegOk_ext; eauto. rewrite size_attach; auto. intros; apply name_attach; auto.
Qed.

Lemma Inv_register s i u : Inv s -> i < size s -> Inv (fst (register s i u)).
Proof.
  intros (W & Hr) Hi. unfold register. destruct (name_of s i) as [n|] eqn:En; [|split; auto].
  assert (Hset : forall s1, WF s1 -> size s1 = size s -> reg s1 = reg s ->
            (forall j, name_of s1 j = name_of s j) ->
            Inv (State (heap s1) (dict_set n i (reg s1)))).
  { intros s1 W1 Hs1 Hr1 Hn1. split.
    - eapply WF_same; eauto.
    - destruct Hr as (Hd & Hr). split; simpl; rewrite Hr1.
      + apply nodup_set; auto.
      + intros k j Hin. apply in_set in Hin as [(-> & ->)|(_ & Hin)]; auto.
        * change (i < size s1 /\ name_of s1 i = Some n). rewrite Hs1, Hn1; auto.
        * apply Hr in Hin. change (j < size s1 /\ name_of s1 j = Some k). rewrite Hs1, Hn1; auto. }
  destruct (lookup n (reg s)) as [old|] eqn:El.
  - destruct u; [|split; auto]. destruct (set_parent s old None) as [s1 r] eqn:Es.
    destruct (reg_lt s n old Hr El) as (Ho & _).
    destruct (set_parent_spec s old None s1 r W Ho ltac:(discriminate) Es) as (W1 & Hs1 & Hr1 & Hn1 & _).
    simpl. apply Hset; auto.
  - simpl. apply Hset; auto.
Qed.

Lemma new_frame_cases s c s' r : Inv s -> new_frame s c = (s', r) ->
  exists b, let n := Node (c_name c) None [] b in
    (s' = alloc s n /\ (r = Ok (size s) /\ b = BRoot /\ c_parent c = None \/ exists e, r = Raise e)) \/
    exists p pp, c_parent c = Some pp /\ resolve_rf s pp = Ok p /\ p < size s /\
      s' = attach (alloc s n) (size s) p /\ (r = Ok (size s) \/ exists e, r = Raise e).
Proof.
  intros (W & Hr) H. unfold new_frame in H. destruct (c_parent c) as [pp|] eqn:Ep.
  - destruct (resolve_rf s pp) as [p|e] eqn:Er.
    + pose proof (resolve_lt s pp p Hr Er) as Hp.
      destruct (init_arrays _ _ _ _) as [d|e].
      * destruct (finish c d) as [b r0]. injection H as <- <-. exists b. right. exists p, pp.
        repeat split; auto. destruct r0; eauto.
      * destruct e; try destruct (discrete_static c); injection H as <- <-; (eexists; right; exists p, pp; repeat split; eauto).
    + injection H as <- <-. exists BPartial. left. split; eauto.
  - destruct (verify_root c) as [u|e].
    + destruct (c_discrete c); injection H as <- <-.
      * exists BPartial; left; split; eauto.
      * exists BRoot; left; split; auto.
    + injection H as <- <-. exists BPartial; left; split; eauto.
Qed.

Lemma Inv_new s c : Inv s -> Inv (fst (new_frame s c)) /\
  (forall i, snd (new_frame s c) = Ok i -> i < size (fst (new_frame s c))).
Proof.
  intros I. destruct (new_frame s c) as [s' r] eqn:E.
  destruct (new_frame_cases s c s' r I E) as (b & [(-> & H)|(p & pp & Ep & Er & Hp & -> & H)]); simpl.
  - split; [apply Inv_alloc; auto|]. intros i ->. rewrite size_alloc.
    destruct H as [(H & _)|(e & H)]; [injection H as <-; lia|discriminate].
  - split; [apply Inv_alloc_attach; auto|]. intros i ->. rewrite size_attach, size_alloc.
    destruct H as [H|(e & H)]; [injection H as <-; lia|discriminate].
Qed.

Lemma Inv_step s o : Inv s -> Inv (fst (step s o)).
Proof.
  intros I. destruct o as [c|c u|i u|n|i| |i p]; simpl.
  - pose proof (Inv_new s c I) as (H & _). destruct (new_frame s c) as [s' r]; exact H.
  - unfold register_frame. pose proof (Inv_new s c I) as (H & Hi).
    destruct (new_frame s c) as [s' [i|e]]; simpl in *; auto.
    pose proof (Inv_register s' i u H (Hi i eq_refl)) as H'.
    destruct (register s' i u) as [s'' [x|e]]; exact H'.
  - destruct (get s i) eqn:E; auto. apply Inv_register; auto. eapply get_some_lt; eauto.
  - unfold deregister. destruct (lookup n (reg s)); auto. destruct I as (W & Hd & Hr). split.
    + eapply WF_same; eauto.
    + split; simpl.
      * apply nodup_pop; auto.
      * intros k j Hin. apply filter_In in Hin as (Hin & _). apply Hr; auto.
  - destruct (get s i) eqn:E; auto. unfold deregister_obj. destruct (name_of s i) as [n'|]; auto.
    unfold deregister. destruct (lookup n' (reg s)); auto. destruct I as (W & Hd & Hr). split.
    + eapply WF_same; eauto.
    + split; simpl.
      * apply nodup_pop; auto.
      * intros k j Hin. apply filter_In in Hin as (Hin & _). apply Hr; auto.
  - destruct I as (W & Hd & Hr). split; [eapply WF_same; eauto|]. split; simpl; [constructor|contradiction].
  - destruct (get s i) eqn:E; auto. apply get_some_lt in E.
    assert (Hgen : forall v, (forall k, v = Some k -> k < size s) -> Inv (fst (set_parent s i v))).
    { intros v Hv. destruct (set_parent s i v) as [s' r] eqn:Es. destruct I as (W & Hr).
      destruct (set_parent_spec s i v s' r W E Hv Es) as (W' & Hs & Hre & Hn & _).
      split; auto. eapply RegOk_ext; eauto. simpl; lia. }
    destruct p as [k|].
    + destruct (get s k) eqn:Ek; auto. apply Hgen. intros k' Hk'. injection Hk' as <-. eapply get_some_lt; eauto.
    + apply Hgen. discriminate.
Qed.

Lemma Inv_init : Inv init.
Proof. split; [apply WF_init|]. split; simpl; [constructor|contradiction]. Qed.
Lemma Inv_run ops : Inv (run ops).
Proof.
  unfold run. assert (H : forall s, Inv s -> Inv (fold_left (fun s o => fst (step s o)) ops s)).
  { induction ops as [|o ops IH]; simpl; auto. intros s Hs. apply IH, Inv_step, Hs. }
  apply H, Inv_init.
Qed.
Lemma reachable_Inv s : reachable s -> Inv s.
Proof. intros (ops & ->). apply Inv_run. Qed.
Lemma reachable_step s o : reachable s -> reachable (fst (step s o)).
Proof. intros (ops & ->). exists (ops ++ [o]). unfold run. rewrite fold_left_app. reflexivity. Qed.

Lemma count_one (l : list nat) i : NoDup l -> In i l -> count_occ Nat.eq_dec l i = 1.
Proof. intros Hn Hin. apply (NoDup_count_occ' Nat.eq_dec); auto. Qed.

Lemma forest_run ops : forest (List.length (heap (run ops))) (parent_of (run ops)) (children_of (run ops)).
Proof.
  destruct (Inv_run ops) as (W & _). constructor.
  - intros i p H. destruct (wf_par _ W _ _ H) as (Hp & Hin). split; auto.
    apply count_one; auto. apply W.
  - apply W.
  - apply W.
Qed.
Lemma registry_run ops : registry_ok (reg (run ops)) (List.length (heap (run ops))) (name_of (run ops)).
Proof. exact (proj2 (Inv_run ops)). Qed.
