(** C46: the topics of a bag. *)
From Coq Require Import Reals List String ZArith Bool Arith Lia Lra.
From Verif Require Import Base NdArray RosMsg Rosbag PropRosMsg PropRosbag.
Import ListNotations.
Open Scope R_scope.

Lemma find_some_iff (b : bag) t : (exists e, find (on_topic t) b = Some e) <-> In t (map e_topic b).
Proof.
  split.
  - intros (e & H). apply find_some in H as (I & T). apply String.eqb_eq in T. apply in_map_iff. eauto.
  - intros H. apply in_map_iff in H as (e & T & I). destruct (find (on_topic t) b) eqn:F; [eauto|]. pose proof (find_none _ _ F e I) as N. unfold on_topic in N. rewrite T, String.eqb_refl in N. discriminate.
Qed.
Lemma first_split {A} (f : A -> bool) l x : find f l = Some x <-> exists l1 l2, l = (l1 ++ x :: l2)%list /\ f x = true /\ forall y, In y l1 -> f y = false.
Proof.
  induction l as [|a l IH]; cbn [find].
  - split; [discriminate|]. intros ([|] & l2 & E & _); discriminate.
  - destruct (f a) eqn:F.
    + split.
      * intros [= <-]. exists [], l. split; [reflexivity|]. split; [exact F|intros y []].
      * intros (l1 & l2 & E & Fx & N). destruct l1 as [|z l1]; injection E as <- E; [reflexivity|]. rewrite (N a (or_introl eq_refl)) in F. discriminate.
    + rewrite IH. split.
      * intros (l1 & l2 & -> & Fx & N). exists (a :: l1), l2. split; [reflexivity|]. split; [exact Fx|]. intros y [<-|Y]; auto.
      * intros (l1 & l2 & E & Fx & N). destruct l1 as [|z l1]; injection E as <- E; [congruence|]. exists l1, l2. split; [exact E|]. split; [exact Fx|]. intros y Y. apply N. right. exact Y.
Qed.
Lemma types_list b l : (forall t, In t l -> In t (map e_topic b)) ->
  exists d, traverse (fun t => m <- topic_type b t ;; Ok (t, msg_type m)) l = Ok d /\ map fst d = l /\
    forall t ty, In (t, ty) d -> exists e, find (on_topic t) b = Some e /\ ty = msg_type (e_msg e).
Proof.
  induction l as [|t l IH]; intros H; [exists []; split; [reflexivity|split; [reflexivity|intros t ty []]]|].
  destruct IH as (d & E & M & D); [intros x X; apply H; right; exact X|]. destruct (proj2 (find_some_iff b t) (H t (or_introl eq_refl))) as (e & F).
  exists ((t, msg_type (e_msg e)) :: d). unfold traverse in *. cbn [map sequence]. rewrite E. unfold topic_type at 1. rewrite F. cbn [bind]. split; [reflexivity|]. split; [cbn; f_equal; exact M|].
  intros x ty [[= <- <-]|X]; [eauto|apply D, X].
Qed.
(** Each topic is listed once, with the type of its first message, and nothing else is. *)
Theorem C46_topics : forall b, exists d, get_topics_and_types (Some b) = Ok d /\ NoDup (map fst d) /\
  (forall t, In t (map fst d) <-> exists e, In e b /\ e_topic e = t) /\
  forall t ty, In (t, ty) d -> exists l1 e l2, b = (l1 ++ e :: l2)%list /\ e_topic e = t /\ ty = msg_type (e_msg e) /\ forall e', In e' l1 -> e_topic e' <> t.
Proof.
  intros b. unfold get_topics_and_types. destruct (types_list b (nodup string_dec (map e_topic b))) as (d & E & M & D); [intros t; apply nodup_In|].
  exists d. split; [exact E|]. rewrite M. split; [apply NoDup_nodup|]. split.
  - intros t. rewrite nodup_In, in_map_iff. split; intros (e & A & B); eauto.
  - intros t ty H. destruct (D t ty H) as (e & F & T). apply first_split in F as (l1 & l2 & -> & Fx & N). apply String.eqb_eq in Fx. exists l1, e, l2. split; [reflexivity|]. split; [exact Fx|]. split; [exact T|].
    intros e' I X. specialize (N e' I). unfold on_topic in N. rewrite X, String.eqb_refl in N. discriminate.
Qed.
(** A topic can be loaded only if it is listed, as one of the two supported types. *)
Theorem C46_listed : forall b d, get_topics_and_types (Some b) = Ok d ->
  (forall t m, load_messages (Some b) t = Ok m -> In (t, "geometry_msgs/TransformStamped"%string) d \/ In (t, "nav_msgs/Odometry"%string) d) /\
  (forall t, load_messages (Some b) t = Raise KeyError <-> ~ In t (map fst d)).
Proof.
  intros b d E. unfold get_topics_and_types in E. destruct (types_list b (nodup string_dec (map e_topic b))) as (d' & E' & M & D); [intros t; apply nodup_In|].
  rewrite E in E'. injection E' as <-.
  assert (L : forall t e, find (on_topic t) b = Some e -> In (t, msg_type (e_msg e)) d).
  { intros t e F. assert (I : In t (map fst d)) by (rewrite M, nodup_In; apply find_some_iff; eauto). apply in_map_iff in I as ([t' ty] & T & I). cbn in T. subst t'.
    destruct (D t ty I) as (e' & F' & ->). rewrite F in F'. injection F' as <-. exact I. }
  split.
  - intros t m H. unfold load_messages, topic_type in H. destruct (find (on_topic t) b) as [e|] eqn:F; [|discriminate]. cbn [bind] in H. pose proof (L t e F) as I. destruct (e_msg e); [left; exact I|right; exact I|discriminate].
  - intros t. rewrite M, nodup_In, <- find_some_iff. unfold load_messages, topic_type. destruct (find (on_topic t) b) as [e|] eqn:F.
    + cbn [bind]. split; [|intros N; destruct N; eauto]. intros H N. clear N.
      assert (X : forall {A} (f : entry -> res A) l, (forall x e', f x = Raise e' -> e' = AttributeError) -> traverse f l = Raise KeyError -> False).
      { intros A f l Hf. unfold traverse. induction l as [|x l IH]; [discriminate|]. cbn [map sequence]. destruct (f x) eqn:Fx; cbn [bind]; [|intros [= ->]; discriminate (Hf _ _ Fx)]. destruct (sequence (map f l)); cbn [bind]; [discriminate|]. intros [= ->]. apply IH. reflexivity. }
      destruct (e_msg e).
      * destruct (traverse transform_row _) eqn:T; [discriminate|]. cbn [bind] in H. injection H as ->. refine (X _ _ _ _ T). intros x e' U. unfold transform_row in U. destruct (e_msg x); congruence.
      * destruct (traverse odom_row _) eqn:T; [discriminate|]. cbn [bind] in H. injection H as ->. refine (X _ _ _ _ T). intros x e' U. unfold odom_row in U. destruct (e_msg x); congruence.
      * discriminate.
    + cbn [bind]. split; [intros _ (e & N); discriminate|reflexivity].
Qed.
(** After any writes the listed topics are those on which samples were written. *)
Theorem C46_written_topics : forall clock calls, Forall valid_call calls ->
  exists b d, write_calls clock [] calls = (b, Ok tt) /\ get_topics_and_types (Some b) = Ok d /\ NoDup (map fst d) /\
    forall t ty, In (t, ty) d <-> ty = "geometry_msgs/TransformStamped"%string /\ exists c, In c calls /\ w_topic c = t /\ samples c <> [].
Proof.
  intros clock calls V.
  assert (W : forall b, exists es, write_calls clock b calls = ((b ++ es)%list, Ok tt) /\
    (forall e, In e es -> (exists m, e_msg e = MTransform m) /\ exists c, In c calls /\ w_topic c = e_topic e /\ samples c <> []) /\
    forall c, In c calls -> samples c <> [] -> exists e, In e es /\ e_topic e = w_topic c).
  { induction V as [|c l Vc V IH]; intros b.
    - exists []. rewrite app_nil_r. split; [reflexivity|]. split; [intros e []|intros c []].
    - cbn [write_calls]. destruct (write_call_ok clock c b Vc) as (es & E & F & _). rewrite E. destruct (IH (b ++ es)%list) as (es' & E' & G & K). exists (es ++ es')%list. rewrite app_assoc. split; [exact E'|]. split.
      + intros e I. apply in_app_or in I as [I|I].
        * destruct (In_nth_error _ _ I) as (k & Nk).
          assert (X : exists s, nth_error (samples c) k = Some s /\ records c s e).
          { clear - F Nk. revert k Nk. induction F as [|s e0 ss es0 Hr F IHF]; intros [|k] Nk; try discriminate; [injection Nk as <-; exists s; split; [reflexivity|exact Hr]|apply IHF, Nk]. }
          destruct X as (s & Ns & T & m & Em & _). split; [eauto|]. exists c. split; [left; reflexivity|]. split; [symmetry; exact T|]. intros N. rewrite N in Ns. destruct k; discriminate.
        * destruct (G e I) as (A & c' & B & C). split; [exact A|]. exists c'. split; [right; exact B|exact C].
      + intros c' [<-|I] N.
        * inversion F as [Fs Fe|s e ss es0 Hr F' Fs Fe]; [congruence|]. subst. destruct Hr as (T & _). exists e. split; [left; reflexivity|exact T].
        * destruct (K c' I N) as (e & A & B). exists e. split; [apply in_or_app; right; exact A|exact B]. }
  destruct (W []) as (es & E & G & K). cbn [app] in E. destruct (C46_topics es) as (d & Ed & ND & In1 & In2). exists es, d. split; [exact E|]. split; [exact Ed|]. split; [exact ND|].
  intros t ty. split.
  - intros I. destruct (In2 t ty I) as (l1 & e & l2 & B & T & -> & _). destruct (G e) as ((m & Em) & c & Ic & Tc & Nc); [rewrite B; apply in_or_app; right; left; reflexivity|].
    split; [rewrite Em; reflexivity|]. exists c. split; [exact Ic|]. split; [congruence|exact Nc].
  - intros (-> & c & Ic & Tc & Nc). destruct (K c Ic Nc) as (e & Ie & Te).
    assert (I : In t (map fst d)) by (apply In1; exists e; split; [exact Ie|congruence]). apply in_map_iff in I as ([t' ty] & T & I). cbn in T. subst t'.
    destruct (In2 t ty I) as (l1 & e' & l2 & B & _ & -> & _). destruct (G e') as ((m & Em) & _); [rewrite B; apply in_or_app; right; left; reflexivity|]. rewrite Em in I. exact I.
Qed.
Example C46_example_topics : let calls := [ex_call "/x" 2; ex_call "/y" 1; ex_call "/x" 3] in
  Forall valid_call calls /\ samples (ex_call "/x" 2) <> [].
Proof. split; [apply C46_example|discriminate]. Qed.
