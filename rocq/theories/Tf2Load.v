(** Filling the tf2 buffer from a tree. *)
From Coq Require Import Reals List String Ascii ZArith Bool Arith Lia Lra Sorted.
From Verif Require Import Base Quat SpecQuat QuatProofs NdArray Frames SpecForest FrameProofs WalkProofs Matcher SpecLookup LookupProofs
  RegistryProofs MovingProofs TimeProofs PropForest PropMoving RosMsg PropRosMsg Broadcast TfTree PropTfTree Tf2 Tf2Proofs Tf2Walk SpecTf2.
Import ListNotations.
Open Scope nat_scope.
Open Scope list_scope.

Definition nm_of (s : state) (k : nat) : string := match name_of s k with Some n => n | None => ""%string end.
(** The entries for the samples of a frame, the oldest first. *)
Fixpoint srows (p : string) (ts : list R) (t : list vec3) (r : list quat) : list stored :=
  match ts, t, r with
  | x :: ts, t0 :: t, r0 :: r => Stored (trunc x) p t0 r0 :: srows p ts t r
  | _, _, _ => []
  end.
(** The cache of a frame with parent p. *)
Definition cache_of (s : state) (k p : nat) : tcache :=
  match transform_of s k with
  | Some (TStatic t r) => CStatic (Stored 0 (nm_of s p) t r)
  | Some (TMoving ts t r _) => CTime (rev (srows (nm_of s p) ts t r))
  | None => CTime []
  end.
Lemma srows_nth p : forall ts t r n, List.length t = List.length ts -> List.length r = List.length ts -> forall e,
  nth_error (srows p ts t r) n = Some e <->
  exists x t0 r0, nth_error ts n = Some x /\ nth_error t n = Some t0 /\ nth_error r n = Some r0 /\ e = Stored (trunc x) p t0 r0.
Proof.
  induction ts as [|x ts IH]; intros [|t0 t] [|r0 r] n Lt Lr e; try discriminate; cbn [srows].
  - destruct n; split; try discriminate; intros (? & ? & ? & X & _); discriminate.
  - destruct n as [|n]; cbn [nth_error].
    + split; [intros E; injection E as <-; eauto 10|intros (? & ? & ? & A & B & C & ->); congruence].
    + apply IH; cbn in *; lia.
Qed.
Lemma srows_length p : forall ts t r, List.length t = List.length ts -> List.length r = List.length ts -> List.length (srows p ts t r) = List.length ts.
Proof. induction ts as [|x ts IH]; intros [|t0 t] [|r0 r] Lt Lr; try discriminate; cbn; auto. Qed.
Lemma nanos_at st f x z : header_at (st, f) x (IZR z / 1000000000) -> nanos st = z.
Proof.
  intros (_ & A & B). cbn [fst] in *. unfold to_sec in *. assert (G : IZR giga = 1000000000%R) by reflexivity. rewrite G in *.
  unfold nanos. assert (X : (IZR (secs st * giga + nsecs st) <= IZR z < IZR (secs st * giga + nsecs st) + 1)%R).
  { rewrite plus_IZR, mult_IZR, G. lra. }
  destruct X as (X1 & X2). apply le_IZR in X1. rewrite <- plus_IZR in X2. apply lt_IZR in X2. lia.
Qed.
Lemma strip_fine n : tf_name n -> strip_slash n = n.
Proof. intros (_ & H). destruct n as [|c n]; auto. cbn. destruct (Ascii.eqb_spec c "/"); auto. subst c. exfalso. exact (H n eq_refl). Qed.
Lemma valid_fine k p r : tf_name k -> tf_name p -> k <> p -> hunit r -> tf_valid k p r = true.
Proof.
  intros (Nk & _) (Np & _) N U. unfold tf_valid. apply String.eqb_neq in N, Nk, Np. rewrite N, Nk, Np. cbn [negb andb].
  unfold hunit in U. rewrite hn2_qnorm2 in U. rewrite U. apply Rlt_b_true. rewrite Rminus_diag_eq by reflexivity. rewrite Rabs_R0. lra.
Qed.
(** One message. *)
Definition stored_cache (mx : Z) (static : bool) (o : option tcache) (x : stored) : tcache :=
  match o with
  | None => if static then CStatic x else CTime (insert_data mx x [])
  | Some (CStatic _) => CStatic x
  | Some (CTime l) => CTime (insert_data mx x l)
  end.
Lemma set_one static m b p k z t r : tf_msg m (Some p) (Some k) (IZR z / 1000000000) t r -> tf_name p -> tf_name k -> k <> p -> hunit r ->
  set_transform static m b = Ok (Buffer (bf_max b) (dict_set k (stored_cache (bf_max b) static (lookup k (bf_caches b)) (Stored z p t r)) (bf_caches b))
                                        (know p (know k (bf_known b)))).
Proof.
  intros (Hh & Hc & Ht) Np Nk N U. unfold set_transform. pose proof Hh as (Hf & _). rewrite Hf, Hc. cbv zeta. rewrite !strip_fine by auto.
  destruct m as [(st & f) ch tm]. cbn [ts_header ts_child ts_transform fst snd] in *. subst f ch tm. cbn [tm_rotation tm_translation].
  rewrite (nanos_at st _ _ z Hh). unfold xyzw_quat, xyz_vec. cbn. rewrite valid_fine; auto; destruct r, t; auto.
Qed.
Lemma know_in n l x : In x (know n l) <-> x = n \/ In x l.
Proof.
  unfold know. destruct (existsb (String.eqb n) l) eqn:E; [|cbn; intuition congruence].
  apply existsb_exists in E as (y & I & E). apply String.eqb_eq in E. subst y. split; auto. intros [->|]; auto.
Qed.
Lemma prune_id mx z : forall l, (forall y, In y l -> (z <= sd_stamp y + mx)%Z) -> prune mx z l = l.
Proof.
  induction l as [|x l IH]; intros H; auto. cbn [prune]. rewrite IH by (intros; apply H; right; auto). destruct l; auto.
  destruct (Z.ltb_spec (sd_stamp x + mx) z); auto. pose proof (H x (or_introl eq_refl)). lia.
Qed.
Definition ascending (l : list stored) : Prop := StronglySorted (fun a b => (sd_stamp a < sd_stamp b)%Z) l.
Lemma sorted_app {A} (P : A -> A -> Prop) l1 l2 : StronglySorted P (l1 ++ l2) -> StronglySorted P l1 /\ StronglySorted P l2 /\ forall a b, In a l1 -> In b l2 -> P a b.
Proof.
  induction l1 as [|x l1 IH]; cbn; intros H; [split; [constructor|]; split; auto; intros ? ? []|]. inversion H as [|? ? H' F]; subst.
  destruct (IH H') as (A1 & A2 & A3). rewrite Forall_forall in F. split; [constructor; auto; apply Forall_forall; intros; apply F, in_or_app; auto|].
  split; auto. intros a b [<-|Ia] Ib; [apply F, in_or_app; auto|auto].
Qed.
Lemma sorted_rev l : ascending l -> descending (rev l).
Proof.
  induction l as [|x l IH]; intros H; cbn; [constructor|]. inversion H as [|? ? H' F]; subst. specialize (IH H'). rewrite Forall_forall in F.
  assert (G : forall l', descending l' -> (forall y, In y l' -> newer y x) -> descending (l' ++ [x])).
  { induction l' as [|y l' IH']; intros D N; cbn; [constructor; constructor|]. inversion D as [|? ? D' F']; subst. constructor; [apply IH'; auto; intros; apply N; right; auto|].
    apply Forall_forall. rewrite Forall_forall in F'. intros w Iw. apply in_app_or in Iw as [Iw|[<-|[]]]; auto. apply N. left. auto. }
  apply G; auto. intros y Iy. apply in_rev in Iy. apply F. exact Iy.
Qed.
(** The samples of one frame. *)
Lemma load_moving mx p k : tf_name p -> tf_name k -> k <> p -> forall calls xs done b,
  Forall2 (fun c x => exists m, c = SetTransform m /\ tf_msg m (Some p) (Some k) (IZR (sd_stamp x) / 1000000000) (sd_t x) (sd_r x) /\ sd_parent x = p /\ hunit (sd_r x)) calls xs ->
  bf_max b = mx -> lookup k (bf_caches b) = match done with [] => None | _ => Some (CTime (rev done)) end ->
  ascending (done ++ xs) -> (forall x y, In x (done ++ xs) -> In y (done ++ xs) -> (sd_stamp y - sd_stamp x <= mx)%Z) ->
  exists b', foldM do_call calls b = Ok b' /\ bf_max b' = mx /\
    lookup k (bf_caches b') = match done ++ xs with [] => None | _ => Some (CTime (rev (done ++ xs))) end /\
    (forall n, n <> k -> lookup n (bf_caches b') = lookup n (bf_caches b)) /\
    (forall n, In n (bf_known b) -> In n (bf_known b')) /\
    (xs <> [] -> In k (bf_known b') /\ In p (bf_known b')).
Proof.
  intros Np Nk Nkp calls xs. revert calls. induction xs as [|x xs IH]; intros calls done b F Hmx Hlk As Sp.
  - inversion F; subst. exists b. cbn [foldM]. rewrite app_nil_r. split; auto. split; auto. split; auto. split; auto. split; auto. congruence.
  - inversion F as [|c ? calls' ? (m & -> & Hm & Hp & Hu) F']; subst. clear F. cbn [foldM do_call].
    rewrite (set_one _ _ _ _ _ _ _ _ Hm Np Nk Nkp Hu). cbn [bind].
    assert (Ex : Stored (sd_stamp x) (sd_parent x) (sd_t x) (sd_r x) = x) by (destruct x; reflexivity). rewrite Ex.
    assert (Sc : stored_cache (bf_max b) false (lookup k (bf_caches b)) x = CTime (rev (done ++ [x]))).
    { rewrite Hlk. rewrite rev_app_distr. cbn [rev app]. destruct (sorted_app _ _ _ As) as (_ & _ & Lt).
      assert (Pr : pruned (bf_max b) (x :: rev done) = x :: rev done).
      { unfold pruned. apply prune_id. intros y Iy. assert (I : In y (done ++ x :: xs)). { apply in_or_app. destruct Iy as [<-|Iy]; [right; left; auto|left; apply in_rev; auto]. }
        pose proof (Sp y x I ltac:(apply in_or_app; right; left; auto)). lia. }
      unfold stored_cache. destruct done as [|d0 done].
      - cbn [insert_data rev app] in *. rewrite Pr. reflexivity.
      - f_equal. destruct (rev (d0 :: done)) as [|y l] eqn:R.
        + apply (f_equal (@List.length _)) in R. rewrite rev_length in R. discriminate.
        + assert (Iy : In y (d0 :: done)) by (apply in_rev; rewrite R; left; auto). pose proof (Lt y x Iy (or_introl eq_refl)) as L. cbv beta in L.
          unfold insert_data. destruct (Z.ltb_spec (sd_stamp x + bf_max b) (sd_stamp y)) as [H|H].
          { pose proof (Sp x x ltac:(apply in_or_app; right; left; auto) ltac:(apply in_or_app; right; left; auto)). lia. }
          cbn [place]. destruct (Z.leb_spec (sd_stamp y) (sd_stamp x)); [|lia]. exact Pr. }
    rewrite Sc. set (b1 := Buffer _ _ _).
    destruct (IH calls' (done ++ [x]) b1) as (b' & E & M & L1 & L2 & K1 & K2); auto.
    + unfold b1. cbn [bf_caches]. rewrite lookup_set, String.eqb_refl. destruct done; reflexivity.
    + rewrite <- app_assoc. exact As.
    + rewrite <- app_assoc. exact Sp.
    + rewrite <- app_assoc in L1. exists b'. split; auto. split; auto. split; auto. split; [|split].
      * intros n N. rewrite L2 by auto. unfold b1. cbn [bf_caches]. rewrite lookup_set. apply String.eqb_neq in N. rewrite N. reflexivity.
      * intros n I. apply K1. unfold b1. cbn [bf_known]. rewrite !know_in. auto.
      * intros _. split; apply K1; unfold b1; cbn [bf_known]; rewrite !know_in; auto.
Qed.
Lemma foldM_app {A B} (f : A -> B -> res A) l1 l2 a : foldM f (l1 ++ l2) a = (a' <- foldM f l1 a ;; foldM f l2 a').
Proof. revert a. induction l1 as [|x l1 IH]; intros a; auto. cbn. destruct (f a x); cbn; auto. Qed.

(* ---- the whole tree ---- *)
Section Load.
Variables (s : state) (i : nat).
Hypothesis Rs : reachable s.
Hypothesis Fi : frame s i.
Hypothesis Rdy : tf_ready s i.
Notation T := (same_tree (parent_of s) i).
Lemma ready_name k : T k -> name_of s k = Some (nm_of s k) /\ tf_name (nm_of s k).
Proof. intros H. destruct Rdy as (A & _). destruct (A k H) as (n & E & N). unfold nm_of. rewrite E. auto. Qed.
Lemma ready_inj k k' : T k -> T k' -> nm_of s k = nm_of s k' -> k = k'.
Proof. intros H H' E. destruct Rdy as (_ & A & _). apply A; auto. rewrite (proj1 (ready_name k H)), (proj1 (ready_name k' H')). f_equal. exact E. Qed.
Lemma ready_usable : usable s i.
Proof.
  intros k H. destruct Rdy as (_ & _ & A & _). destruct (A k H) as [?|(d & E & U & F)]; auto. right. exists d. split; auto.
  destruct d as [|ts t r disc]; auto. destruct F as (N & _ & F). split; auto. rewrite Forall_forall in *. intros x I. destruct (F x I) as (z & P & ->). apply (IZR_le 0). lia.
Qed.
Lemma ready_fine k p : T k -> parent_of s k = Some p -> exists d, transform_of s k = Some d /\ fine d.
Proof. intros H P. destruct Rdy as (_ & _ & A & _). destruct (A k H) as [(N & _)|?]; auto. congruence. Qed.
Lemma tree_parent k p : T k -> parent_of s k = Some p -> T p.
Proof.
  intros (r & A & B) P. exists r. split; auto. destruct B as (B & N). split; auto. inversion B; subst; [congruence|]. congruence.
Qed.
Lemma tree_lt k : T k -> k < size s.
Proof.
  pose proof (proj1 (reachable_Inv s Rs)) as Wf. intros (r & (A & N) & (B & _)).
  assert (Hr : r < size s). { clear - A Wf Fi. unfold frame in Fi. induction A; auto. apply IHA. apply (wf_par _ Wf) in H. tauto. }
  inversion B; subst; auto. eapply parent_of_lt; eauto.
Qed.
Lemma trunc_mono x y : whole_ns x -> whole_ns y -> (x < y)%R -> (trunc x < trunc y)%Z.
Proof. intros (z & _ & ->) (w & _ & ->) L. rewrite !trunc_IZR. apply lt_IZR. exact L. Qed.
Lemma whole_trunc x : whole_ns x -> IZR (trunc x) = x /\ (0 <= trunc x)%Z.
Proof. intros (z & P & ->). rewrite trunc_IZR. auto. Qed.
Lemma whole_pos x : whole_ns x -> x <> 0%R -> (0 < trunc x)%Z.
Proof. intros H N. destruct (whole_trunc x H) as (E & P). assert (trunc x <> 0%Z) by (intros X; rewrite X in E; apply N; symmetry; exact E). lia. Qed.
Lemma srows_ascending p : forall ts t r, List.length t = List.length ts -> List.length r = List.length ts -> increasing ts -> Forall whole_ns ts -> ascending (srows p ts t r).
Proof.
  induction ts as [|x ts IH]; intros [|t0 t] [|r0 r] Lt Lr In_ F; try discriminate; cbn [srows]; [constructor|]. cbn in Lt, Lr. inversion F as [|? ? Wx F']; subst.
  constructor. { apply IH; auto; try lia. intros a b u v L A B. apply (In_ (S a) (S b) u v); auto. lia. }
  apply Forall_forall. intros e Ie. apply In_nth_error in Ie as (n & E). apply srows_nth in E as (y & t1 & r1 & E & _ & _ & ->); [|lia|lia]. cbn [sd_stamp].
  apply trunc_mono; auto; [rewrite Forall_forall in F'; apply F'; eapply nth_error_In; eauto|]. apply (In_ 0 (S n) x y); auto. lia.
Qed.

(** The cache time of the buffer is large enough. *)
Definition wide (mx : Z) : Prop := forall k ts t r d x y, T k -> transform_of s k = Some (TMoving ts t r d) -> In x ts -> In y ts -> (trunc y - trunc x <= mx)%Z.
Definition Loaded (mx : Z) (done : list nat) (b : buffer) : Prop :=
  bf_max b = mx /\
  (forall k p, In k done -> parent_of s k = Some p -> lookup (nm_of s k) (bf_caches b) = Some (cache_of s k p)) /\
  (forall k, T k -> ~ In k done -> lookup (nm_of s k) (bf_caches b) = None) /\
  (forall k p, In k done -> parent_of s k = Some p -> In (nm_of s k) (bf_known b) /\ In (nm_of s p) (bf_known b)).
Lemma load_group mx done b k p g : wide mx -> Loaded mx done b -> (forall k', In k' done -> T k') -> ~ In k done -> T k -> parent_of s k = Some p -> handed_over s k p g ->
  exists b', foldM do_call g b = Ok b' /\ Loaded mx (done ++ [k]) b'.
Proof.
  intros Wd (L1 & L2 & L3 & L4) Td Nk Hk P H. assert (Hp := tree_parent k p Hk P). pose proof (reachable_Inv s Rs) as In_.
  destruct (ready_name k Hk) as (Ek & Fk). destruct (ready_name p Hp) as (Ep & Fp).
  assert (Nkp : nm_of s k <> nm_of s p).
  { intros E. apply (ready_inj k p Hk Hp) in E. subst p. apply (anc_no_cycle s k k (proj1 In_) (tree_lt k Hk) P). constructor. }
  destruct (ready_fine k p Hk P) as (d & Ed & U & F).
  assert (Step : forall b', bf_max b' = mx -> lookup (nm_of s k) (bf_caches b') = Some (cache_of s k p) ->
    (forall n, n <> nm_of s k -> lookup n (bf_caches b') = lookup n (bf_caches b)) ->
    (forall n, In n (bf_known b) -> In n (bf_known b')) -> In (nm_of s k) (bf_known b') -> In (nm_of s p) (bf_known b') -> Loaded mx (done ++ [k]) b').
  { intros b' M C O K1 K2 K3. split; auto. split; [|split].
    - intros k' q I Q. apply in_app_or in I as [I|[<-|[]]]; [|congruence]. rewrite O; [apply L2; auto|]. intros E. apply Nk. rewrite <- (ready_inj k' k); auto.
    - intros k' Hk' N. rewrite O; [apply L3; auto|]; [intros I; apply N; apply in_or_app; auto|]. intros E. apply N. rewrite (ready_inj k' k); auto. apply in_or_app. right. left. auto.
    - intros k' q I Q. apply in_app_or in I as [I|[<-|[]]]; [destruct (L4 k' q I Q); auto|]. rewrite P in Q. injection Q as <-. auto. }
  unfold handed_over in H. rewrite Ed in H. destruct d as [t r|ts t r disc].
  - destruct H as (m & -> & Hm). rewrite Ek, Ep in Hm. cbn [foldM do_call].
    assert (Hm' : tf_msg m (Some (nm_of s p)) (Some (nm_of s k)) (IZR 0 / 1000000000) t r) by (replace (IZR 0 / 1000000000)%R with 0%R by lra; exact Hm).
    rewrite (set_one true m b _ _ 0%Z t r Hm' Fp Fk Nkp U). cbn [bind]. eexists. split; [reflexivity|]. apply Step; cbn [bf_max bf_caches bf_known]; auto.
    + rewrite lookup_set, String.eqb_refl. f_equal. rewrite (L3 k Hk Nk). unfold cache_of. rewrite Ed. reflexivity.
    + intros n N. rewrite lookup_set. apply String.eqb_neq in N. rewrite N. reflexivity.
    + intros n I. rewrite !know_in. auto.
    + rewrite !know_in. auto.
    + rewrite !know_in. auto.
  - destruct F as (Nts & Inc & Wh). destruct (reachable_BodyOk s Rs k _ Ed) as (Lt & Lr). destruct H as (Lg & H).
    destruct (load_moving mx (nm_of s p) (nm_of s k) Fp Fk Nkp g (srows (nm_of s p) ts t r) [] b) as (b' & E & M & C & O & K1 & K2); auto.
    + assert (G : forall n, n < List.length ts -> exists c x, nth_error g n = Some c /\ nth_error (srows (nm_of s p) ts t r) n = Some x /\
        exists m, c = SetTransform m /\ tf_msg m (Some (nm_of s p)) (Some (nm_of s k)) (IZR (sd_stamp x) / 1000000000) (sd_t x) (sd_r x) /\ sd_parent x = nm_of s p /\ hunit (sd_r x)).
      { intros n L. destruct (nth_error ts n) as [x|] eqn:X; [|apply nth_error_None in X; lia]. destruct (H n x X) as (m & t0 & r0 & A & B & C & D).
        exists (SetTransform m), (Stored (trunc x) (nm_of s p) t0 r0). split; auto. split; [apply srows_nth; eauto 10|]. exists m. split; auto. cbn [sd_stamp sd_t sd_r sd_parent].
        rewrite Ek, Ep in D. rewrite Forall_forall in Wh. destruct (whole_trunc x) as (-> & _); [apply Wh; eapply nth_error_In; eauto|]. split; auto. split; auto.
        cbn in U. rewrite Forall_forall in U. apply U. eapply nth_error_In; eauto. }
      assert (Lx : List.length (srows (nm_of s p) ts t r) = List.length ts) by (apply srows_length; auto).
      assert (Gen : forall (Q : tf_call -> stored -> Prop) l1 l2, List.length l1 = List.length l2 -> (forall n, n < List.length l1 -> exists c x, nth_error l1 n = Some c /\ nth_error l2 n = Some x /\ Q c x) -> Forall2 Q l1 l2).
      { clear. intros Q. induction l1 as [|a l1 IH]; intros [|b l2] L G; try discriminate; constructor.
        - destruct (G 0) as (c & x & A & B & C); [cbn; lia|]. cbn in A, B. congruence.
        - apply IH; [cbn in L; lia|]. intros n Ln. apply (G (S n)). cbn. lia. }
      apply Gen; [lia|]. intros n L. apply G. lia.
    + apply srows_ascending; auto.
    + intros x y Ix Iy. cbn [app] in *. apply In_nth_error in Ix as (a & Ix), Iy as (c & Iy). apply srows_nth in Ix as (x' & ? & ? & X & _ & _ & ->); auto.
      apply srows_nth in Iy as (y' & ? & ? & Y & _ & _ & ->); auto. cbn [sd_stamp]. eapply Wd; [exact Hk|exact Ed| |]; eapply nth_error_In; eauto.
    + cbn [app] in C. exists b'. split; auto.
      assert (Nx : srows (nm_of s p) ts t r <> []). { intros X. apply (f_equal (@List.length _)) in X. rewrite srows_length in X by auto. destruct ts; [congruence|discriminate]. }
      destruct (K2 Nx). apply Step; auto. rewrite C. unfold cache_of. rewrite Ed. destruct (srows (nm_of s p) ts t r); [congruence|reflexivity].
Qed.
Lemma load_all mx : wide mx -> forall order groups done b, Loaded mx done b -> NoDup (done ++ order) -> (forall k, In k (done ++ order) -> T k) ->
  Forall2 (fun k g => exists p, parent_of s k = Some p /\ handed_over s k p g) order groups ->
  exists b', foldM do_call (List.concat groups) b = Ok b' /\ Loaded mx (done ++ order) b'.
Proof.
  intros Wd order. induction order as [|k order IH]; intros groups done b L N Tt F; inversion F as [|? g ? gs (p & P & H) F']; subst.
  - exists b. rewrite app_nil_r. split; auto.
  - cbn [List.concat]. rewrite foldM_app.
    destruct (load_group mx done b k p g Wd L) as (b1 & E & L'); auto.
    + intros k' I. apply Tt, in_or_app. auto.
    + apply NoDup_remove_2 in N. intros I. apply N, in_or_app. auto.
    + apply Tt, in_or_app. right. left. auto.
    + rewrite E. cbn [bind]. destruct (IH gs (done ++ [k]) b1 L') as (b' & E' & L''); auto.
      * rewrite <- app_assoc. exact N.
      * intros k' I. apply Tt. rewrite <- app_assoc in I. exact I.
      * exists b'. split; auto. rewrite <- app_assoc in L''. exact L''.
Qed.
Lemma nanos_exact z : (0 <= z)%Z -> exists st, from_sec (IZR z / IZR giga) = Ok st /\ nanos st = z.
Proof.
  intros H. destruct (from_sec_exact z H) as (st & E & T0). exists st. split; auto. apply (nanos_at st None None). split; auto. cbn [fst].
  rewrite T0. assert (G : IZR giga = 1000000000%R) by reflexivity. rewrite G. lra.
Qed.
(** The buffer of a tree. *)
Theorem transformer_loaded : exists b, transformer_of s i = Ok b /\
  (forall k p, T k -> parent_of s k = Some p -> lookup (nm_of s k) (bf_caches b) = Some (cache_of s k p)) /\
  (forall k, T k -> parent_of s k = None -> lookup (nm_of s k) (bf_caches b) = None) /\
  (forall k p, T k -> parent_of s k = Some p -> In (nm_of s k) (bf_known b) /\ In (nm_of s p) (bf_known b)).
Proof.
  destruct (C52_partial s i Rs Fi ready_usable) as (cache & calls & order & groups & E & (Nd & Or & _) & F & -> & C).
  assert (exists b0, new_buffer cache = Ok b0 /\ bf_caches b0 = [] /\ wide (bf_max b0)) as (b0 & B0 & Ca & Wd).
  { destruct cache as [v|].
    - destruct C as (k1 & k2 & a1 & z1 & a2 & z2 & T1 & T2 & S1 & S2 & -> & Bd).
      assert (Sp : forall k a z, T k -> spans s k a z -> whole_ns a /\ whole_ns z /\ (a <= z)%R).
      { intros k a z Hk (ts & t & r & d & Et & Ha & Hz). destruct Rdy as (_ & _ & R3 & _). destruct (R3 k Hk) as [(_ & Hb)|(d' & Ed & U & Fn)].
        - unfold transform_of in Et. unfold body_at in Hb. destruct (get s k); [rewrite Hb in Et|]; discriminate.
        - rewrite Et in Ed. injection Ed as <-. destruct Fn as (N & Inc & Wh). rewrite Forall_forall in Wh.
          assert (Ia : nth_error ts 0 = Some a) by (destruct ts; auto). split; [apply Wh; eapply nth_error_In; eauto|]. split; [apply Wh; eapply nth_error_In; eauto|].
          destruct (Nat.eq_dec (List.length ts - 1) 0) as [Z|Z]; [rewrite Z in Hz; right; congruence|]. left. apply (Inc 0 (List.length ts - 1)); auto. lia. }
      destruct (Sp k1 a1 z1 T1 S1) as ((A1 & P1 & ->) & _ & L1). destruct (Sp k2 a2 z2 T2 S2) as (_ & (Z2 & P2 & ->) & L2).
      assert (Le : (A1 <= Z2)%Z). { apply le_IZR. destruct (Bd k1 _ z1 T1 S1). lra. }
      replace (IZR Z2 / 1000000000 - IZR A1 / 1000000000)%R with (IZR (Z2 - A1) / IZR giga)%R by (rewrite minus_IZR; change (IZR giga) with 1000000000%R; lra).
      destruct (nanos_exact (Z2 - A1)) as (st & Es & Ns); [lia|]. unfold new_buffer. rewrite Es. cbn [bind]. eexists. split; [reflexivity|]. split; auto. cbn [bf_max]. rewrite Ns.
      intros k ts t r d x y Hk Ed Ix Iy. destruct Rdy as (_ & _ & R3 & _). destruct (R3 k Hk) as [(_ & Hb)|(d' & Ed' & U & Fn)].
      { unfold transform_of in Ed. unfold body_at in Hb. destruct (get s k); [rewrite Hb in Ed|]; discriminate. }
      rewrite Ed in Ed'. injection Ed' as <-. destruct Fn as (N & Inc & Wh). rewrite Forall_forall in Wh. destruct (Wh x Ix) as (zx & _ & ->), (Wh y Iy) as (zy & _ & ->).
      rewrite !trunc_IZR. pose proof (C52_no_expiry s i _ _ k ts t r d _ _ Rs Fi ready_usable E Hk Ed (increasing_not_decreasing _ Inc) Ix Iy) as X.
      apply le_IZR. rewrite !minus_IZR. lra.
    - eexists. split; [reflexivity|]. split; auto. intros k ts t r d x y Hk Ed Ix Iy. exfalso. destruct ts as [|a ts]; [destruct Ix|].
      destruct (nth_error (a :: ts) (List.length (a :: ts) - 1)) as [z|] eqn:Z; [|apply nth_error_None in Z; cbn in Z; lia].
      apply (C k a z Hk). exists (a :: ts), t, r, d. auto. }
  destruct (load_all (bf_max b0) Wd order groups [] b0) as (b & Eb & L1 & L2 & L3 & L4); auto.
  - split; auto. split; [intros k p []|]. split; [intros; rewrite Ca; reflexivity|intros k p []].
  - intros k I. apply Or in I. tauto.
  - exists b. unfold transformer_of. rewrite E. cbn [bind]. rewrite B0. cbn [bind]. split; auto. cbn [app] in *. split; [|split].
    + intros k p Hk P. apply L2; auto. apply Or. split; auto. congruence.
    + intros k Hk P. apply L3; auto. intros I. apply Or in I. tauto.
    + intros k p Hk P. apply L4; auto. apply Or. split; auto. congruence.
Qed.
End Load.
