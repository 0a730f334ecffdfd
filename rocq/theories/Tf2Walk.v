(** The walks of tf2 on a buffer that holds a tree. *)
From Coq Require Import Reals List String ZArith Bool Arith Lia Lra.
From Verif Require Import Base Quat SpecQuat QuatProofs NdArray Frames SpecForest FrameProofs WalkProofs Matcher SpecLookup LookupProofs
  RegistryProofs MovingProofs TimeProofs RosMsg PropRosMsg Broadcast TfTree Tf2 Tf2Proofs.
Import ListNotations.
Open Scope nat_scope.
Open Scope list_scope.

Section Walk.
Variable s : state.
Variable nm : nat -> string.
Variable T : nat -> Prop.
Variable b : buffer.
Hypothesis W : WF s.
Hypothesis TL : forall k, T k -> k < size s.
Hypothesis TP : forall k p, T k -> parent_of s k = Some p -> T p.
Hypothesis NI : forall k k', T k -> T k' -> nm k = nm k' -> k = k'.
Hypothesis Edge : forall k p, T k -> parent_of s k = Some p -> exists c, lookup (nm k) (bf_caches b) = Some c /\ cache_ok (nm p) c.
Hypothesis Root : forall k, T k -> parent_of s k = None -> lookup (nm k) (bf_caches b) = None.

Lemma T_anc k a : T k -> ancestor (parent_of s) k a -> T a.
Proof. intros H A. induction A; eauto. Qed.
Lemma anc_antisym k a : T k -> ancestor (parent_of s) k a -> ancestor (parent_of s) a k -> k = a.
Proof.
  intros H A B. destruct (ancestor_climb _ _ _ A) as (l & C). destruct l as [|x l]; [inversion C; auto|].
  exfalso. inversion C; subst. apply (climb_not_above s x (x :: l) a x W (TL _ H) C); [left; auto|exact B].
Qed.
Lemma eqb_nm k k' : T k -> T k' -> String.eqb (nm k) (nm k') = Nat.eqb k k'.
Proof.
  intros A B. destruct (Nat.eqb_spec k k') as [->|N]; [apply String.eqb_refl|]. apply String.eqb_neq. intros E. apply N, NI; auto.
Qed.
(** The frames below an ancestor. *)
Lemma climb_below i l c k : T i -> climb (parent_of s) i l c -> ancestor (parent_of s) i k -> ancestor (parent_of s) k c -> k <> c -> In k l.
Proof.
  intros Hi C. induction C as [i|i p l c E C IH]; intros A B N.
  - exfalso. apply N. symmetry. eapply anc_antisym; eauto.
  - inversion A as [|? q ? E' A']; subst; [left; auto|]. right. rewrite E' in E. injection E as ->. apply IH; eauto.
Qed.
Lemma climb_same i l l' c : T i -> climb (parent_of s) i l c -> climb (parent_of s) i l' c -> l = l'.
Proof.
  intros Hi C C'. destruct (climb_split _ _ _ _ c l' (wf_root _ W i (TL _ Hi)) C (anc_refl _ _) C') as (m & -> & M).
  destruct m; [symmetry; apply app_nil_r|]. exfalso. assert (c = n) by (inversion M; auto). subst n.
  apply (climb_not_above s c (c :: m) c c W (TL _ (T_anc _ _ Hi (climb_ancestor _ _ _ _ C))) M); [left; auto|constructor].
Qed.

Section Time.
Variable time : Z.
(** What the buffer says about a frame at the time. *)
Definition data (k : nat) : option rigid :=
  match lookup (nm k) (bf_caches b) with Some c => option_map snd (get_data c time) | None => None end.
Definition dat (k : nat) : rigid := match data k with Some g => g | None => gone end.
Definition have (l : list nat) : Prop := Forall (fun k => data k <> None) l.
(** The product of the edges of a climb. *)
Fixpoint prod (l : list nat) : rigid := match l with [] => gone | k :: l => gmul (prod l) (dat k) end.

Lemma dat_unit k : T k -> gunit (dat k).
Proof.
  intros H. unfold dat, data. destruct (lookup (nm k) (bf_caches b)) as [c|] eqn:L; [|apply gunit_one].
  destruct (get_data c time) as [(q & e)|] eqn:D; [|apply gunit_one]. cbn.
  destruct (parent_of s k) as [p|] eqn:P; [|rewrite (Root k H P) in L; discriminate].
  destruct (Edge k p H P) as (c' & L' & O). rewrite L in L'. injection L' as <-. destruct (get_data_ok _ _ _ _ _ O D). assumption.
Qed.
Lemma prod_unit i l c : T i -> climb (parent_of s) i l c -> gunit (prod l).
Proof. intros H C. induction C; cbn; [apply gunit_one|]. apply gunit_mul; [apply IHC; eauto|apply dat_unit; auto]. Qed.
Lemma prod_app i l c l' d : T i -> climb (parent_of s) i l c -> climb (parent_of s) c l' d -> prod (l ++ l') = gmul (prod l') (prod l).
Proof.
  intros H C. induction C as [i|i p l c E C IH]; intros C'; cbn [prod app].
  - change (gone) with gone. rewrite gmul_1_r. reflexivity.
  - assert (Hp : T p) by eauto. rewrite IH by auto. rewrite gmul_assoc; [reflexivity| |]; apply gunit_nz; try apply dat_unit; auto;
    try (eapply prod_unit; [|eassumption]; auto). eapply T_anc; [|eapply climb_ancestor; eauto]; auto.
Qed.
Lemma data_step k p : T k -> parent_of s k = Some p -> data k <> None ->
  exists c, lookup (nm k) (bf_caches b) = Some c /\ get_data c time = Some (nm p, dat k).
Proof.
  intros H P D. destruct (Edge k p H P) as (c & L & O). exists c. split; auto. unfold dat, data in D |- *. rewrite L in D |- *.
  destruct (get_data c time) as [(q & e)|] eqn:G; [|exfalso; apply D; reflexivity]. cbn. destruct (get_data_ok _ _ _ _ _ O G) as (-> & _). reflexivity.
Qed.
Lemma data_root k : T k -> parent_of s k = None -> data k = None.
Proof. intros H P. unfold data. rewrite (Root k H P). reflexivity. Qed.
Lemma data_dec k : {data k = None} + {data k <> None}.
Proof. destruct (data k); [right; discriminate|left; auto]. Qed.

Lemma source_run j : T j -> forall i l, chain (parent_of s) i l -> forall fuel acc, List.length l <= S fuel -> T i -> gunit acc ->
  exists up m, climb (parent_of s) i up m /\ have up /\ ~ In j up /\
    ((m = j /\ data j <> None /\ walk_source fuel b time (nm j) (nm i) acc = Ok (Early (gmul (prod up) acc))) \/
     (data m = None /\ walk_source fuel b time (nm j) (nm i) acc = Ok (Top (nm m) (gmul (prod up) acc)))).
Proof.
  intros Hj i l C. induction C as [i E|i p l E C IH]; intros fuel acc L Hi Ha.
  - exists [], i. split; [constructor|]. split; [constructor|]. split; [intros []|]. right. split; [apply data_root; auto|].
    cbn [prod]. rewrite gmul_1_l. destruct fuel; cbn [walk_source]; rewrite (Root i Hi E); reflexivity.
  - destruct (data_dec i) as [D|D].
    + exists [], i. split; [constructor|]. split; [constructor|]. split; [intros []|]. right. split; auto.
      cbn [prod]. rewrite gmul_1_l. destruct (Edge i p Hi E) as (c & Lk & _). unfold data in D. rewrite Lk in D.
      destruct (get_data c time) as [(q & e)|] eqn:G; [discriminate|]. destruct fuel; cbn [walk_source]; rewrite Lk, G; reflexivity.
    + destruct (data_step i p Hi E D) as (c & Lk & G). destruct (Nat.eq_dec i j) as [->|N].
      * exists [], j. split; [constructor|]. split; [constructor|]. split; [intros []|]. left. split; auto. split; auto.
        cbn [prod]. rewrite gmul_1_l. destruct fuel; cbn [walk_source]; rewrite Lk, G, String.eqb_refl; reflexivity.
      * destruct fuel as [|fuel]; [destruct (chain_hd _ _ _ C) as (? & ->); cbn in L; lia|]. cbn in L.
        assert (U : gunit (dat i)) by (apply dat_unit; auto).
        destruct (IH fuel (gmul (dat i) acc)) as (up & m & C' & Hv & Nj & Hw); [lia|eauto|apply gunit_mul; auto|].
        exists (i :: up), m. split; [econstructor; eauto|]. split; [constructor; auto|]. split; [intros [->|X]; [congruence|auto]|].
        assert (X : walk_source (S fuel) b time (nm j) (nm i) acc = walk_source fuel b time (nm j) (nm p) (gmul (dat i) acc)).
        { cbn [walk_source]. rewrite Lk, G. rewrite eqb_nm by auto. destruct (Nat.eqb_spec i j); [contradiction|]. rewrite accum_unit by exact U. reflexivity. }
        rewrite X. cbn [prod]. assert (Up : gunit (prod up)) by (eapply prod_unit; [|eassumption]; eauto).
        rewrite gmul_assoc by (apply gunit_nz; auto). exact Hw.
Qed.
Lemma target_run i m : T i -> T m -> forall j l, chain (parent_of s) j l -> forall fuel acc, List.length l <= S fuel -> T j -> gunit acc ->
  exists dn k, climb (parent_of s) j dn k /\ have dn /\ ~ In m dn /\
    ((k = m /\ walk_target fuel b time (nm i) (nm m) (nm j) acc = Ok (Top (nm m) (gmul (prod dn) acc))) \/
     (k = i /\ k <> m /\ walk_target fuel b time (nm i) (nm m) (nm j) acc = Ok (Early (gmul (prod dn) acc))) \/
     (k <> m /\ data k = None /\ walk_target fuel b time (nm i) (nm m) (nm j) acc = Raise RuntimeError)).
Proof.
  intros Hi Hm j l C. induction C as [j E|j p l E C IH]; intros fuel acc L Hj Ha.
  - exists [], j. split; [constructor|]. split; [constructor|]. split; [intros []|]. cbn [prod]. rewrite gmul_1_l. destruct (Nat.eq_dec j m) as [->|N].
    + left. split; auto. destruct fuel; cbn [walk_target]; rewrite String.eqb_refl; reflexivity.
    + right. right. split; auto. split; [apply data_root; auto|].
      destruct fuel; cbn [walk_target]; rewrite eqb_nm by auto; (destruct (Nat.eqb_spec j m); [contradiction|]); rewrite (Root j Hj E); reflexivity.
  - destruct (Nat.eq_dec j m) as [->|N].
    { exists [], m. split; [constructor|]. split; [constructor|]. split; [intros []|]. cbn [prod]. rewrite gmul_1_l. left. split; auto.
      destruct fuel; cbn [walk_target]; rewrite String.eqb_refl; reflexivity. }
    destruct (data_dec j) as [D|D].
    { exists [], j. split; [constructor|]. split; [constructor|]. split; [intros []|]. right. right. split; auto. split; auto.
      destruct (Edge j p Hj E) as (c & Lk & _). unfold data in D. rewrite Lk in D.
      destruct (get_data c time) as [(q & e)|] eqn:G; [discriminate|].
      destruct fuel; cbn [walk_target]; rewrite eqb_nm by auto; (destruct (Nat.eqb_spec j m); [contradiction|]); rewrite Lk, G; reflexivity. }
    destruct (data_step j p Hj E D) as (c & Lk & G). destruct (Nat.eq_dec j i) as [->|Ni].
    { exists [], i. split; [constructor|]. split; [constructor|]. split; [intros []|]. cbn [prod]. rewrite gmul_1_l. right. left. split; auto. split; auto.
      destruct fuel; cbn [walk_target]; rewrite eqb_nm by auto; (destruct (Nat.eqb_spec i m); [contradiction|]); rewrite Lk, G, String.eqb_refl; reflexivity. }
    destruct fuel as [|fuel]; [destruct (chain_hd _ _ _ C) as (? & ->); cbn in L; lia|]. cbn in L.
    assert (U : gunit (dat j)) by (apply dat_unit; auto).
    destruct (IH fuel (gmul (dat j) acc)) as (dn & k & C' & Hv & Nm & Hw); [lia|eauto|apply gunit_mul; auto|].
    exists (j :: dn), k. split; [econstructor; eauto|]. split; [constructor; auto|]. split; [intros [->|X]; [congruence|auto]|].
    assert (X : walk_target (S fuel) b time (nm i) (nm m) (nm j) acc = walk_target fuel b time (nm i) (nm m) (nm p) (gmul (dat j) acc)).
    { cbn [walk_target]. rewrite eqb_nm by auto. destruct (Nat.eqb_spec j m); [contradiction|]. rewrite Lk, G. rewrite eqb_nm by auto.
      destruct (Nat.eqb_spec j i); [contradiction|]. rewrite accum_unit by exact U. reflexivity. }
    rewrite X. cbn [prod]. assert (Up : gunit (prod dn)) by (eapply prod_unit; [|eassumption]; eauto).
    rewrite gmul_assoc by (apply gunit_nz; auto). exact Hw.
Qed.

(** The lowest common ancestor is the target, if the target is above the source. *)
Lemma low_eq i j up dn c : T i -> T j -> climb (parent_of s) i up c -> climb (parent_of s) j dn c ->
  (forall a, ancestor (parent_of s) i a -> ancestor (parent_of s) j a -> ancestor (parent_of s) c a) ->
  ancestor (parent_of s) i j -> c = j /\ dn = [].
Proof.
  intros Hi Hj Cu Cd Lo A. assert (c = j).
  { symmetry. apply anc_antisym; auto; [eapply climb_ancestor; eauto|]. apply Lo; auto. constructor. }
  subst c. split; auto. eapply climb_same; eauto. constructor.
Qed.
Lemma walk_data i j up dn c li lj : T i -> T j ->
  chain (parent_of s) i li -> List.length li <= 1001 -> chain (parent_of s) j lj -> List.length lj <= 1001 ->
  climb (parent_of s) i up c -> climb (parent_of s) j dn c ->
  (forall a, ancestor (parent_of s) i a -> ancestor (parent_of s) j a -> ancestor (parent_of s) c a) ->
  (have up /\ have dn /\ walk_at b (nm j) (nm i) time = Ok (gmul (ginv (prod dn)) (prod up))) \/
  (~ (have up /\ have dn) /\ walk_at b (nm j) (nm i) time = Raise RuntimeError).
Proof.
  intros Hi Hj Li Ni Lj Nj Cu Cd Lo.
  assert (Hc : T c) by (eapply T_anc; [|eapply climb_ancestor; eauto]; auto).
  assert (Uu := prod_unit _ _ _ Hi Cu). assert (Ud := prod_unit _ _ _ Hj Cd).
  destruct (source_run j Hj i li Li max_depth gone Ni Hi gunit_one) as (up' & m & C' & Hv & Nj' & [(-> & Dj & E)|(Dm & E)]).
  - (* the target is above the source *)
    destruct (low_eq i j up dn c) as (-> & ->); auto; [eapply climb_ancestor; eauto|].
    rewrite <- (climb_same _ _ _ _ Hi C' Cu) in *. left. split; auto. split; [constructor|].
    unfold walk_at. change (v0, q1) with gone. rewrite E. cbn [bind]. cbn [prod].
    rewrite gmul_1_r. replace (ginv gone) with gone; [rewrite gmul_1_l; reflexivity|].
    rewrite <- (gmul_1_r (ginv gone)). symmetry. apply gmul_inv_l. apply gunit_nz, gunit_one.
  - assert (Hm : T m) by (eapply T_anc; [|eapply climb_ancestor; eauto]; auto).
    rewrite gmul_1_r in E.
    destruct (target_run i m Hi Hm j lj Lj max_depth gone Nj Hj gunit_one) as (dn' & k & Cd' & Hv' & Nm & E'). rewrite gmul_1_r in E'.
    unfold walk_at. change (v0, q1) with gone. rewrite E. cbn [bind].
    destruct (ancestor_linear (parent_of s) i c m) as [A|A]; [eapply climb_ancestor; eauto|eapply climb_ancestor; eauto| |].
    + (* the source reached the lowest common ancestor *)
      destruct (climb_split _ _ _ _ m up' (wf_root _ W i (TL _ Hi)) Cu A C') as (u2 & -> & C2).
      apply Forall_app in Hv as (Hu & H2). rewrite (prod_app _ _ _ _ _ Hi Cu C2) in *. assert (U2 := prod_unit _ _ _ Hc C2).
      destruct E' as [(-> & E')|[(-> & Nk & E')|(Nk & Dk & E')]]; rewrite E'; cbn [bind].
      * destruct (climb_split _ _ _ _ m dn' (wf_root _ W j (TL _ Hj)) Cd A Cd') as (u3 & -> & C3).
        rewrite (climb_same _ _ _ _ Hc C3 C2) in *. apply Forall_app in Hv' as (Hd & _). left. split; auto. split; auto.
        rewrite (prod_app _ _ _ _ _ Hj Cd C2). rewrite full_path_unit by (apply gunit_mul; auto). rewrite gcancel; auto.
      * destruct (low_eq j i dn up c) as (-> & ->); auto; [eapply climb_ancestor; eauto|].
        rewrite <- (climb_same _ _ _ _ Hj Cd' Cd) in *. left. split; auto. split; auto. rewrite tf_inv_unit by exact Ud. cbn [prod]. rewrite gmul_1_r. reflexivity.
      * right. split; auto. intros (_ & Hd). assert (Ak := climb_ancestor _ _ _ _ Cd').
        assert (Hk : T k) by exact (T_anc j k Hj Ak).
        destruct (ancestor_linear (parent_of s) j c k) as [B|B]; [eapply climb_ancestor; eauto|auto| |].
        -- destruct (ancestor_linear (parent_of s) c m k) as [B'|B']; auto.
           ++ apply Nm. eapply climb_below; [|exact Cd'| |exact B'|congruence]; auto. eapply ancestor_trans; [exact (climb_ancestor _ _ _ _ Cd)|exact A].
           ++ assert (Ik : In k u2) by (eapply climb_below; [|exact C2| |exact B'|congruence]; auto). unfold have in H2. rewrite Forall_forall in H2. exact (H2 k Ik Dk).
        -- destruct (Nat.eq_dec k c) as [->|Nkc].
           ++ destruct u2 as [|x u2]; [inversion C2; subst; congruence|]. assert (x = c) by (inversion C2; auto). subst x. inversion H2; subst; congruence.
           ++ assert (Ik : In k dn) by (eapply climb_below; [|exact Cd| |exact B|exact Nkc]; auto). unfold have in Hd. rewrite Forall_forall in Hd. exact (Hd k Ik Dk).
    + destruct (Nat.eq_dec m c) as [->|Nc].
      { destruct (climb_split _ _ _ _ c up' (wf_root _ W i (TL _ Hi)) Cu (anc_refl _ _) C') as (u2 & Eu & C2).
        rewrite <- (climb_same _ _ _ _ Hi C' Cu) in *.
        destruct E' as [(-> & E')|[(-> & Nk & E')|(Nk & Dk & E')]]; rewrite E'; cbn [bind].
        - rewrite <- (climb_same _ _ _ _ Hj Cd' Cd) in *. left. split; auto. split; auto. rewrite full_path_unit by auto. reflexivity.
        - destruct (low_eq j i dn up' c) as (-> & ->); auto; [eapply climb_ancestor; eauto|]. congruence.
        - right. split; auto. intros (_ & Hd). assert (Ak := climb_ancestor _ _ _ _ Cd').
          destruct (ancestor_linear (parent_of s) j c k) as [B|B]; [eapply climb_ancestor; eauto|auto| |].
          + apply Nm. eapply climb_below; [|exact Cd'| |exact B|congruence]; auto. exact (climb_ancestor _ _ _ _ Cd).
          + assert (Ik : In k dn) by (eapply climb_below; [|exact Cd| |exact B|congruence]; auto). unfold have in Hd. rewrite Forall_forall in Hd. exact (Hd k Ik Dk). }
      (* the source stopped below *)
      assert (Im : In m up) by exact (climb_below i up c m Hi Cu (climb_ancestor _ _ _ _ C') A Nc).
      assert (Na : ~ ancestor (parent_of s) c m) by exact (climb_not_above s i up c m W (TL _ Hi) Cu Im).
      right. split. { intros (Hu & _). unfold have in Hu. rewrite Forall_forall in Hu. exact (Hu m Im Dm). }
      destruct E' as [(-> & E')|[(-> & Nk & E')|(Nk & Dk & E')]]; rewrite E'; cbn [bind]; auto.
      * exfalso. apply Na, Lo; eapply climb_ancestor; eauto.
      * exfalso. destruct (low_eq j i dn up c) as (-> & ->); auto. eapply climb_ancestor; eauto.
Qed.
End Time.

(* ---- the latest common time ---- *)
Definition newest (k : nat) : Z :=
  match lookup (nm k) (bf_caches b) with Some c => match latest_of c with Some (t, _) => t | None => 0%Z end | None => 0%Z end.
Definition soonest (l : list nat) (o : option Z) : option Z := fold_left (fun o k => earlier (newest k) o) l o.
Definition ent (k : nat) : Z * string := (newest k, match parent_of s k with Some p => nm p | None => ""%string end).
Lemma newest_step k p : T k -> parent_of s k = Some p ->
  exists c, lookup (nm k) (bf_caches b) = Some c /\ latest_of c = Some (newest k, nm p).
Proof.
  intros H P. destruct (Edge k p H P) as (c & L & O). exists c. split; auto. unfold newest. rewrite L.
  destruct (latest_ok _ _ O) as (t & ->). reflexivity.
Qed.
Lemma common_source_run j : T j -> forall i l, chain (parent_of s) i l -> forall fuel common seen, List.length l <= S fuel -> T i ->
  (forall up, climb (parent_of s) i up j -> up <> [] -> common_source fuel b (nm j) (nm i) common seen = Ok (inl (soonest up common))) /\
  (~ ancestor (parent_of s) i j -> exists up r, climb (parent_of s) i up r /\ parent_of s r = None /\
     common_source fuel b (nm j) (nm i) common seen = Ok (inr (rev seen ++ map ent up))).
Proof.
  intros Hj i l C. induction C as [i E|i p l E C IH]; intros fuel common seen L Hi.
  - split.
    + intros up Cu N. destruct up; [congruence|]. inversion Cu; subst. congruence.
    + intros _. exists [], i. split; [constructor|]. split; auto. rewrite app_nil_r. destruct fuel; cbn [common_source]; rewrite (Root i Hi E); reflexivity.
  - destruct (newest_step i p Hi E) as (c & Lk & G). assert (Hp : T p) by eauto. split.
    + intros up Cu N. destruct up as [|x up]; [congruence|]. assert (x = i) by (inversion Cu; auto). subst x.
      assert (Cu' : climb (parent_of s) p up j) by (inversion Cu; subst; congruence). destruct up as [|y up].
      * assert (p = j) by (inversion Cu'; auto). subst p. destruct fuel; cbn [common_source]; rewrite Lk, G; cbv zeta; rewrite String.eqb_refl; reflexivity.
      * assert (Nj : p <> j). { intros ->. inversion Cu'; subst. eapply (climb_not_above s y (y :: up) y y W (TL _ Hj) Cu'); [left; auto|constructor]. }
        destruct fuel as [|fuel]; [destruct (chain_hd _ _ _ C) as (? & ->); cbn in L; lia|]. cbn in L.
        cbn [common_source]. rewrite Lk, G. cbv zeta. rewrite eqb_nm by auto. destruct (Nat.eqb_spec p j); [contradiction|].
        destruct (IH fuel (earlier (newest i) common) ((newest i, nm p) :: seen)) as (A & _); [lia|auto|]. rewrite (A _ Cu'); [|discriminate]. reflexivity.
    + intros N. assert (N' : ~ ancestor (parent_of s) p j) by (intros A; apply N; econstructor; eauto).
      assert (Nj : p <> j) by (intros ->; apply N'; constructor).
      destruct fuel as [|fuel]; [destruct (chain_hd _ _ _ C) as (? & ->); cbn in L; lia|]. cbn in L.
      destruct (IH fuel (earlier (newest i) common) ((newest i, nm p) :: seen)) as (_ & A); [lia|auto|]. destruct (A N') as (up & r & Cu & Er & X).
      exists (i :: up), r. split; [econstructor; eauto|]. split; auto.
      cbn [common_source]. rewrite Lk, G. cbv zeta. rewrite eqb_nm by auto. destruct (Nat.eqb_spec p j); [contradiction|]. rewrite X.
      cbn [rev map]. rewrite <- app_assoc. unfold ent at 2. rewrite E. reflexivity.
Qed.
(** The parents of a climb. *)
Lemma seen_parents i up r p : T i -> climb (parent_of s) i up r -> T p ->
  existsb (fun x => String.eqb (snd x) (nm p)) (map ent up) = true <-> exists k, In k up /\ parent_of s k = Some p.
Proof.
  intros Hi C Hp. rewrite existsb_exists. split.
  - intros (x & I & E). apply in_map_iff in I as (k & <- & I). exists k. split; auto. cbn in E. apply String.eqb_eq in E.
    assert (Hk : T k) by exact (T_anc _ _ Hi (climb_in_ancestor s _ _ _ _ C I)).
    assert (exists q, parent_of s k = Some q) as (q & Q). { clear - C I. induction C; [destruct I|]. destruct I as [<-|I]; eauto. }
    rewrite Q in E. rewrite Q. f_equal. apply NI; eauto.
  - intros (k & I & E). exists (ent k). split; [apply in_map; auto|]. cbn. rewrite E. apply String.eqb_refl.
Qed.
Lemma common_target_run i c ups r : T i -> climb (parent_of s) i ups r -> parent_of s r = None -> ancestor (parent_of s) i c ->
  forall j dn, climb (parent_of s) j dn c -> dn <> [] -> (forall k, In k dn -> ~ ancestor (parent_of s) i k) ->
  forall l fuel common, chain (parent_of s) j l -> List.length l <= S fuel -> T j ->
  common_target fuel b (nm i) (nm j) common (map ent ups) =
    Ok (if Nat.eqb c i then soonest dn common else common_until (nm c) (soonest dn common) (map ent ups)).
Proof.
  intros Hi Cr Er Ac j dn C. assert (Hc : T c) by exact (T_anc _ _ Hi Ac). induction C as [j|j p dn c E C IH]; intros N Na l fuel common Cl L Hj; [congruence|].
  destruct (newest_step j p Hj E) as (ca & Lk & G). assert (Hp : T p) by eauto.
  assert (Anc : forall k, In k ups -> parent_of s k = Some p -> ancestor (parent_of s) i p).
  { intros k I Q. eapply ancestor_trans; [eapply climb_in_ancestor; [exact Cr|exact I]|]. econstructor; [exact Q|constructor]. }
  destruct dn as [|x dn].
  - assert (p = c) by (inversion C; auto). subst p.
    destruct (Nat.eqb_spec c i) as [->|Nc].
    + destruct (existsb (fun x => String.eqb (snd x) (nm i)) (map ent ups)) eqn:X.
      { exfalso. apply (seen_parents i ups r i Hi Cr Hi) in X as (k & I & Q). apply (climb_not_above s k [k] i k W); [|econstructor; [exact Q|constructor]|left; auto|exact (climb_in_ancestor s _ _ _ _ Cr I)].
        apply TL. exact (T_anc _ _ Hi (climb_in_ancestor s _ _ _ _ Cr I)). }
      destruct fuel; cbn [common_target]; rewrite Lk, G; cbv zeta; rewrite X, String.eqb_refl; reflexivity.
    + assert (X : existsb (fun x => String.eqb (snd x) (nm c)) (map ent ups) = true).
      { apply (seen_parents i ups r c Hi Cr Hc). destruct (ancestor_climb _ _ _ Ac) as (l' & C').
        assert (exists k l'', l' = l'' ++ [k] /\ parent_of s k = Some c) as (k & l'' & -> & Q).
        { assert (Nl : l' <> []) by (intros ->; inversion C'; congruence). clear - C' Nl. induction C' as [|a q l d Ea C IH]; [congruence|]. destruct l as [|y l].
          - inversion C; subst. exists a, []. auto.
          - destruct IH as (k & l'' & X & Q); [discriminate|]. rewrite X. exists k, (a :: l''). auto. }
        exists k. split; auto.
        assert (Ar : ancestor (parent_of s) c r).
        { destruct (ancestor_linear (parent_of s) i c r) as [A|A]; auto; [eapply climb_ancestor; eauto|]. inversion A; subst; [constructor|congruence]. }
        destruct (climb_split _ _ _ _ r ups (wf_root _ W i (TL _ Hi)) C' Ar Cr) as (u2 & -> & _). apply in_or_app. left. apply in_or_app. right. left. auto. }
      destruct fuel; cbn [common_target]; rewrite Lk, G; cbv zeta; rewrite X; reflexivity.
  - assert (x = p) by (inversion C; auto). subst x. assert (Nap : ~ ancestor (parent_of s) i p) by (apply Na; right; left; auto).
    destruct (existsb (fun x => String.eqb (snd x) (nm p)) (map ent ups)) eqn:X.
    { exfalso. apply (seen_parents i ups r p Hi Cr Hp) in X as (k & I & Q). exact (Nap (Anc k I Q)). }
    inversion Cl as [|? q l' Eq Cl']; subst; [congruence|]. rewrite E in Eq. injection Eq as <-.
    destruct fuel as [|fuel]; [destruct (chain_hd _ _ _ Cl') as (? & ->); cbn in L; lia|]. cbn in L.
    cbn [common_target]. rewrite Lk, G. cbv zeta. rewrite X. rewrite eqb_nm by auto. destruct (Nat.eqb_spec p i) as [->|_]; [exfalso; apply Nap; constructor|].
    rewrite (IH Ac Hc ltac:(discriminate) ltac:(intros; apply Na; right; auto) l' fuel (earlier (newest j) common) Cl' ltac:(lia) Hp). reflexivity.
Qed.
Lemma until_run i up c rest o : T i -> climb (parent_of s) i up c -> up <> [] -> common_until (nm c) o (map ent (up ++ rest)) = soonest up o.
Proof.
  intros Hi C. revert o. induction C as [i|i p l c E C IH]; intros o N; [congruence|]. cbn [map app common_until]. unfold ent at 1. rewrite E.
  assert (Hp : T p) by eauto. assert (Hc : T c) by (eapply T_anc; [|eapply climb_ancestor; eauto]; auto). rewrite eqb_nm by auto. cbv zeta. destruct l as [|x l].
  - inversion C; subst. rewrite Nat.eqb_refl. reflexivity.
  - assert (x = p) by (inversion C; auto). subst x. destruct (Nat.eqb_spec p c) as [->|Np].
    { exfalso. apply (climb_not_above s c (c :: l) c c W (TL _ Hc) C); [left; auto|constructor]. }
    rewrite IH; auto; discriminate.
Qed.
Lemma latest_common_run i j up dn c li lj : T i -> T j -> i <> j ->
  chain (parent_of s) i li -> List.length li <= 1001 -> chain (parent_of s) j lj -> List.length lj <= 1001 ->
  climb (parent_of s) i up c -> climb (parent_of s) j dn c ->
  (forall a, ancestor (parent_of s) i a -> ancestor (parent_of s) j a -> ancestor (parent_of s) c a) ->
  latest_common b (nm j) (nm i) = Ok (some_time (soonest (dn ++ up) None)).
Proof.
  intros Hi Hj Nij Li Ni Lj Nj Cu Cd Lo. unfold latest_common.
  destruct (common_source_run j Hj i li Li max_depth None [] Ni Hi) as (S1 & S2).
  destruct dn as [|x dn].
  - assert (j = c) by (inversion Cd; auto). subst c. rewrite (S1 up Cu); [reflexivity|]. intros ->. inversion Cu; congruence.
  - assert (x = j) by (inversion Cd; auto). subst x. assert (N : ~ ancestor (parent_of s) i j).
    { intros A. destruct (low_eq i j up (j :: dn) c) as (_ & X); auto. discriminate. }
    destruct (S2 N) as (ups & r & Cr & Er & ->). cbn [bind rev app].
    assert (Ac := climb_ancestor _ _ _ _ Cu).
    rewrite (common_target_run i c ups r Hi Cr Er Ac j (j :: dn) Cd ltac:(discriminate)) with (l := lj); auto.
    + cbn [bind]. f_equal. f_equal. destruct (Nat.eqb_spec c i) as [->|Nc].
      * assert (up = []) by (eapply climb_same; [exact Hi|exact Cu|constructor]). subst up. rewrite app_nil_r. reflexivity.
      * assert (Nu : up <> []) by (intros ->; inversion Cu; congruence).
        assert (Ar : ancestor (parent_of s) c r).
        { destruct (ancestor_linear (parent_of s) i c r) as [A|A]; auto; [eapply climb_ancestor; eauto|]. inversion A; subst; [constructor|congruence]. }
        destruct (climb_split _ _ _ _ r ups (wf_root _ W i (TL _ Hi)) Cu Ar Cr) as (u2 & -> & _). rewrite (until_run i up c u2 _ Hi Cu Nu).
        symmetry. apply (fold_left_app (fun o k => earlier (newest k) o) (j :: dn) up None).
    + intros k I A. apply (climb_not_above s j (j :: dn) c k W (TL _ Hj) Cd I). apply Lo; auto. eapply climb_in_ancestor; eauto.
Qed.
(** It is 0 if no frame moves, and otherwise the smallest of the latest times. *)
Lemma soonest_spec l : forall o, match soonest l o with
  | None => o = None /\ forall k, In k l -> newest k = 0%Z
  | Some z => (o = Some z \/ exists k, In k l /\ newest k = z /\ z <> 0%Z) /\ (forall z', o = Some z' -> (z <= z')%Z) /\
              (forall k, In k l -> newest k <> 0%Z -> (z <= newest k)%Z)
  end.
Proof.
  induction l as [|k l IH]; intros o; cbn [soonest fold_left].
  - destruct o; split; auto; [split; [intros z' E; injection E as <-; lia|intros k []]|intros k []].
  - specialize (IH (earlier (newest k) o)). unfold soonest in IH. destruct (fold_left _ l _) as [z|].
    + destruct IH as (A & B & C). unfold earlier in A, B. destruct (Z.eqb_spec (newest k) 0) as [E|E].
      * split; [destruct A as [A|(k' & I & A)]; [left|right; exists k'; split; [right|]]; auto|]. split; auto. intros k' [<-|I] N; auto; congruence.
      * destruct o as [u|].
        -- split; [|split].
           ++ destruct A as [A|(k' & I & A)]; [|right; exists k'; split; [right|]; auto]. injection A as A. destruct (Z.min_spec (newest k) u) as [(L & M)|(L & M)]; rewrite M in A; [right; exists k; split; [left; auto|split; auto; lia]|left; congruence].
           ++ intros z' X. injection X as <-. specialize (B _ eq_refl). lia.
           ++ intros k' [<-|I] N; auto. specialize (B _ eq_refl). lia.
        -- split; [|split].
           ++ destruct A as [A|(k' & I & A)]; [|right; exists k'; split; [right|]; auto]. injection A as A. right. exists k. split; [left; auto|split; auto; lia].
           ++ discriminate.
           ++ intros k' [<-|I] N; auto.
    + destruct IH as (A & B). unfold earlier in A. destruct (Z.eqb_spec (newest k) 0) as [E|E]; [|destruct o; discriminate].
      split; auto. intros k' [<-|I]; auto.
Qed.
End Walk.
