(** Which timestamps a lookup returns in terms of the frames on the route, and
    that lookups through well-sampled moving frames succeed. *)
From Coq Require Import Reals List String Arith Bool Lia Lra Sorted.
From Verif Require Import Base Quat SpecQuat QuatProofs NdArray Frames SpecForest
  FrameProofs WalkProofs Matcher SpecLookup LookupProofs RegistryProofs MovingProofs TimeProofs
  CtorProofs InverseProofs.
Import ListNotations.
Open Scope R_scope.

Definition cont_of (s : state) (k : nat) : option (list R) :=
  match transform_of s k with Some (TMoving ts _ _ false) => Some ts | _ => None end.
Definition disc_of (s : state) (k : nat) : option (list R) :=
  match transform_of s k with Some (TMoving ts _ _ true) => Some ts | _ => None end.

Lemma traverse_frames s inv l fs : traverse (fun k => add_frame (body_at s k) inv) l = Ok fs ->
  map cont_ts fs = map (cont_of s) l /\ map disc_ts fs = map (disc_of s) l.
Proof.
  revert fs; induction l as [|k l IH]; intros fs H.
  - injection H as <-. auto.
  - unfold traverse in *. simpl in H. apply bind_ok in H as (f & Hf & H). apply bind_ok in H as (fs' & H' & E).
    injection E as <-. apply add_frame_inv in Hf as (d & Hb & Hd & _). apply body_at_transform in Hb.
    destruct (IH fs' H') as (H1 & H2). simpl. rewrite H1, H2. unfold cont_of, disc_of, cont_ts, disc_ts.
    rewrite Hb, Hd. split; f_equal; destruct d as [|? ? ? []]; reflexivity.
Qed.

Lemma frames_lists s i j up down fs : walk s i j = Ok (up, down) -> frames_between s i j = Ok fs ->
  cont_list (Mat fs []) = somes (map (cont_of s) (up ++ down)) /\
  disc_list (Mat fs []) = somes (map (disc_of s) (up ++ down)).
Proof.
  intros Hw H. unfold frames_between in H. rewrite Hw in H. simpl in H.
  apply bind_ok in H as (fu & Hu & H). apply bind_ok in H as (fd & Hd & H). injection H as <-.
  apply traverse_frames in Hu as (U1 & U2). apply traverse_frames in Hd as (D1 & D2).
  unfold cont_list, disc_list. simpl. rewrite !map_app, U1, U2, D1, D2. auto.
Qed.

Lemma somes_first {A} (l : list (option A)) a rest : somes l = a :: rest ->
  exists pre post, l = pre ++ Some a :: post /\ forall x, In x pre -> x = None.
Proof.
  induction l as [|[b|] l IH]; simpl; intros H; [discriminate| |].
  - injection H as <- _. exists [], l. split; auto. intros x [].
  - destruct (IH H) as (pre & post & -> & Hp). exists (None :: pre), post. split; auto.
    intros x [<-|Hx]; auto.
Qed.
Lemma map_first {A B} (f : A -> B) l pre b post : map f l = pre ++ b :: post ->
  exists l1 k l2, l = l1 ++ k :: l2 /\ map f l1 = pre /\ f k = b /\ map f l2 = post.
Proof.
  revert pre; induction l as [|a l IH]; intros pre H.
  - destruct pre; discriminate.
  - destruct pre as [|c pre]; simpl in H; injection H as H1 H2.
    + exists [], a, l. auto.
    + destruct (IH pre H2) as (l1 & k & l2 & -> & <- & H4 & H5). exists (a :: l1), k, l2. simpl. rewrite H1. auto.
Qed.

(** The frames between i and j in order: up from i, then down to j. *)
Definition route (par : nat -> option nat) (i j : nat) (l : list nat) : Prop :=
  exists up dn c, climb par i up c /\ climb par j dn c /\ l = up ++ rev dn /\
    forall a, ancestor par i a -> ancestor par j a -> ancestor par c a.

Lemma lookup_route s i to j ts rows squad : Inv s -> (i < size s)%nat -> resolve_rf s to = Ok j ->
  lookup_transform squad s i to = Ok (TrRows ts rows) ->
  exists l fs, route (parent_of s) i j l /\ frames_between s i j = Ok fs /\
    get_timestamps (Mat fs []) true = Ok (Some ts) /\
    cont_list (Mat fs []) = somes (map (cont_of s) l) /\ disc_list (Mat fs []) = somes (map (disc_of s) l).
Proof.
  intros HI Hi Hr H. pose proof HI as (W & HR). pose proof (resolve_lt s to j HR Hr) as Hj.
  destruct (lookup_rows_inv squad s i to j ts rows Hr H) as (fs & Hf & _ & Hts & _).
  pose proof Hf as Hf'. unfold frames_between in Hf'. apply bind_ok in Hf' as ([up down] & Hw & _).
  destruct (frames_lists s i j up down fs Hw Hf) as (H1 & H2).
  destruct (walk_ok_inv s i j up down W Hi Hj Hw) as (_ & c & C1 & C2 & C3).
  exists (up ++ down), fs. repeat split; auto. exists up, (rev down), c. rewrite rev_involutive. auto.
Qed.

Lemma lookup_timestamps s i to j ts rows squad : Inv s -> (i < size s)%nat -> resolve_rf s to = Ok j ->
  lookup_transform squad s i to = Ok (TrRows ts rows) ->
  exists l, route (parent_of s) i j l /\
  ((exists l1 k l2 ts0, l = l1 ++ k :: l2 /\ cont_of s k = Some ts0 /\ (forall m, In m l1 -> cont_of s m = None) /\
      (exists f, ts = filter f ts0) /\ decreasing_somewhere ts = false /\
      forall x, In x ts <-> In x ts0 /\ forall m tm, In m l -> cont_of s m = Some tm -> in_bounds tm x = true)
   \/ ((forall m, In m l -> cont_of s m = None) /\ StronglySorted Rlt ts /\
       forall x, In x ts <-> exists m tm, In m l /\ disc_of s m = Some tm /\ In x tm)).
Proof.
  intros HI Hi Hr H. destruct (lookup_route s i to j ts rows squad HI Hi Hr H) as (l & fs & Hl & Hfs & Hts & H1 & H2).
  exists l. split; auto. apply timestamps_spec in Hts. rewrite H1, H2 in Hts. simpl in Hts.
  assert (Hin : forall (f : nat -> option (list R)) tm, In tm (somes (map f l)) <-> exists m, In m l /\ f m = Some tm).
  { intros f tm. rewrite somes_in, in_map_iff. split; intros (m & A & B); exists m; auto. }
  destruct Hts as [(ts0 & rest & E & Hf & Hx)|(E & _ & _ & Hs & Hx)].
  - left. change (arr_list (Mat fs [])) with (@nil (list R)) in *. simpl in E. rewrite app_nil_r in Hx.
    destruct (somes_first _ _ _ E) as (pre & post & Em & Hpre).
    apply map_first in Em as (l1 & k & l2 & -> & E1 & E2 & E3). exists l1, k, l2, ts0.
    split; auto. split; auto. split.
    { intros m Hm. apply Hpre. rewrite <- E1. apply in_map; auto. }
    split; auto. split.
    { destruct Hf as (f & ->). apply filter_sorted.
      assert (Hc : In ts0 (cont_list (Mat fs []))) by (rewrite H1, E; left; auto).
      unfold cont_list in Hc. apply somes_in, in_map_iff in Hc as (mf & Hmf & Hin').
      simpl in Hin'. clear -Hmf Hin' Hfs.
      unfold frames_between in Hfs. apply bind_ok in Hfs as ([up down] & _ & Hfs).
      apply bind_ok in Hfs as (fu & Hu & Hfs). apply bind_ok in Hfs as (fd & Hd & Hfs). injection Hfs as <-.
      assert (Hg : exists k inv, add_frame (body_at s k) inv = Ok mf).
      { apply in_app_or in Hin' as [Hin'|Hin']; apply In_nth_error in Hin' as (n & Hn).
        - apply (traverse_nth _ _ _ _ _ Hu) in Hn as (k & _ & Hk). eauto.
        - apply (traverse_nth _ _ _ _ _ Hd) in Hn as (k & _ & Hk). eauto. }
      destruct Hg as (k & inv & Hg). apply add_frame_inv in Hg as (d & _ & Hd' & _ & Hdec).
      unfold cont_ts in Hmf. rewrite Hd' in Hmf. destruct d as [|tt a b []]; try discriminate. injection Hmf as <-.
      apply (Hdec _ _ _ _ eq_refl). }
    intros x. rewrite Hx. split; intros (A & B); split; auto.
    + intros m tm Hm Hc. apply B, Hin. eauto.
    + intros tm Ht. apply Hin in Ht as (m & Hm & Hc). eauto.
  - right. split.
    { intros m Hm. destruct (cont_of s m) as [tm|] eqn:Ec; auto. exfalso.
      assert (Hn : In tm (somes (map (cont_of s) l))) by (apply Hin; eauto). rewrite E in Hn. contradiction. }
    split; auto. intros x. rewrite Hx. split.
    + intros (tm & Ht & Hxm). apply Hin in Ht as (m & Hm & Hd). eauto.
    + intros (m & tm & Hm & Hd & Hxm). exists tm. split; auto. apply Hin. eauto.
Qed.

(* ---- success ---- *)
Section S.
Variable squad : list R -> list quat -> R -> res quat.
(** squad returns a value at every time inside the sampled range. *)
Definition squad_total : Prop := forall ts rr x,
  increasing ts -> (2 <= List.length ts)%nat -> List.length rr = List.length ts -> Forall hunit rr ->
  in_bounds ts x = true -> exists r, squad ts rr x = Ok r.

(** Well-sampled: unit rotations; events present and in order; at least two
    strictly increasing samples. *)
Definition well_sampled (d : tfdata) : Prop :=
  unit_data d /\
  match d with
  | TStatic _ _ => True
  | TMoving ts _ _ true => ts <> [] /\ decreasing_somewhere ts = false
  | TMoving ts _ _ false => increasing ts /\ (2 <= List.length ts)%nat
  end.
Lemma well_nodec ts t r disc : well_sampled (TMoving ts t r disc) -> decreasing_somewhere ts = false /\ ts <> [].
Proof.
  intros (_ & H). destruct disc; destruct H as (H1 & H2); split; auto.
  - apply increasing_not_decreasing; auto.
  - intros ->; simpl in H2; lia.
Qed.

Lemma rows_succeed d l : squad_total -> well_sampled d -> rows_ok d ->
  (forall ts t r, d = TMoving ts t r false -> forall x, In x l -> in_bounds ts x = true) ->
  exists rows, rows_from_frame squad d l = Ok rows.
Proof.
  intros Hsq Hw Hr Hb. destruct d as [t r|ts t r [|]]; simpl.
  - eauto.
  - destruct Hw as (_ & Hne & _). destruct Hr as (Ht & Hr).
    destruct (discrete_rows squad ts t r l Ht Hr Hne) as (rows & H & _). simpl in H. eauto.
  - destruct Hw as (Hu & Hinc & Hn). destruct Hr as (Ht & Hr). simpl in Hu.
    destruct (interp1d_ok ts t l Hinc Hn Ht (Hb ts t r eq_refl)) as (rows & -> & _). simpl.
    destruct (traverse_ok_ex (squad ts r) l) as (rr & ->); [|simpl; eauto].
    intros x Hx. apply Hsq; auto. exact (Hb ts t r eq_refl x Hx).
Qed.

Lemma fold_succeeds l fs accs : squad_total -> squad_unit squad ->
  Forall frame_good fs -> Forall (fun f => well_sampled (mf_data f)) fs ->
  (forall f ts, In f fs -> cont_ts f = Some ts -> forall x, In x l -> in_bounds ts x = true) ->
  List.length accs = List.length l ->
  exists rows, foldM (step_rows squad l) fs accs = Ok rows.
Proof.
  intros Hsq Hsu. revert accs; induction fs as [|f fs IH]; intros accs Hg Hw Hb Hlen; simpl; [eauto|].
  inversion Hg as [|? ? Hgf Hg']; subst. inversion Hw as [|? ? Hwf Hw']; subst.
  destruct (rows_succeed (mf_data f) l Hsq Hwf (proj1 Hgf)) as (rows & Hrows).
  { intros ts t r Ed x Hx. apply (Hb f ts); [left; auto| |auto]. unfold cont_ts. rewrite Ed. reflexivity. }
  unfold step_rows at 1. rewrite Hrows. simpl.
  destruct (own_from_frame squad (mf_data f) l rows (proj1 Hgf) (proj2 Hgf) Hrows) as (Hl & Hown).
  destruct (traverse_ok_ex (fun p => step_with rot1 (mf_inv f) (fst p) (snd p)) (combine accs rows)) as (accs' & Hacc).
  { intros [acc [t r]] Hin. cbn [fst snd]. apply In_nth_error in Hin as (k & Hk).
    apply nth_combine_inv in Hk as (K1 & K2). destruct (nth_len l k) as (x & Hx); [apply nth_lt in K2; lia|].
    specialize (Hown k x (t, r) Hx K2). simpl in Hown.
    pose proof (own_unit squad (mf_data f) x t r Hsu (proj1 Hwf) Hown) as Hu.
    destruct (mf_inv f); [rewrite row_step_bwd by auto|rewrite row_step_fwd by auto]; eauto. }
  rewrite Hacc. simpl. apply IH; auto.
  - intros g ts Hin Hc x Hx. apply (Hb g ts); auto. right; auto.
  - apply traverse_length in Hacc. rewrite combine_length in Hacc. lia.
Qed.

Lemma add_ok s k d inv : BodyOk s -> transform_of s k = Some d -> well_sampled d ->
  add_frame (body_at s k) inv = Ok (MF d inv).
Proof.
  intros HB Hd Hw. pose proof (HB k d Hd) as Hr. apply body_at_transform in Hd. rewrite Hd.
  destruct d as [t r|ts t r disc]; simpl; auto. destruct (well_nodec _ _ _ _ Hw) as (-> & _). 
  destruct Hr as (Ht & _). rewrite Ht, Nat.eqb_refl. reflexivity.
Qed.

Lemma frames_succeed s i j : Inv s -> BodyOk s ->
  (i < size s)%nat -> (j < size s)%nat -> same_tree (parent_of s) i j ->
  (forall k, (ancestor (parent_of s) i k /\ ~ ancestor (parent_of s) j k) \/
             (ancestor (parent_of s) j k /\ ~ ancestor (parent_of s) i k) ->
     exists d, transform_of s k = Some d /\ well_sampled d) ->
  exists fs, frames_between s i j = Ok fs /\ Forall (fun f => well_sampled (mf_data f)) fs /\ Forall frame_good fs /\
    (forall f ts, In f fs -> cont_ts f = Some ts -> ts <> []).
Proof.
  intros HI HB Hi Hj Hst Hd. pose proof HI as (W & HR).
  destruct (walk_same s i j W Hi Hj Hst) as (up & down & c & Hw & C1 & C2 & C3).
  assert (Hup : forall k, In k up -> exists d, transform_of s k = Some d /\ well_sampled d).
  { intros k Hk. apply Hd. left. split; [apply (climb_in_ancestor s i up c); auto|].
    intros Ha. apply (climb_not_above s i up c k W Hi C1 Hk). apply C3; auto. apply (climb_in_ancestor s i up c); auto. }
  assert (Hdn : forall k, In k down -> exists d, transform_of s k = Some d /\ well_sampled d).
  { intros k Hk. apply in_rev in Hk. apply Hd. right. split; [apply (climb_in_ancestor s j (rev down) c); auto|].
    intros Ha. apply (climb_not_above s j (rev down) c k W Hj C2 Hk). apply C3; auto. apply (climb_in_ancestor s j (rev down) c); auto. }
  destruct (traverse_ok_ex (fun k => add_frame (body_at s k) false) up) as (fu & Hu).
  { intros k Hk. destruct (Hup k Hk) as (d & Hd1 & Hd2). exists (MF d false). apply add_ok; auto. }
  destruct (traverse_ok_ex (fun k => add_frame (body_at s k) true) down) as (fd & Hdd).
  { intros k Hk. destruct (Hdn k Hk) as (d & Hd1 & Hd2). exists (MF d true). apply add_ok; auto. }
  assert (Hfs : frames_between s i j = Ok (fu ++ fd)).
  { unfold frames_between. rewrite Hw. simpl. rewrite Hu. simpl. rewrite Hdd. reflexivity. }
  assert (Hws : Forall (fun f => well_sampled (mf_data f)) (fu ++ fd)).
  { apply Forall_forall. intros f Hf. apply in_app_or in Hf as [Hf|Hf]; apply In_nth_error in Hf as (n & Hn).
    - apply (traverse_nth _ _ _ _ _ Hu) in Hn as (k & Hk & E). apply nth_error_In in Hk.
      destruct (Hup k Hk) as (d & Hd1 & Hd2). rewrite (add_ok s k d false HB Hd1 Hd2) in E. injection E as <-. auto.
    - apply (traverse_nth _ _ _ _ _ Hdd) in Hn as (k & Hk & E). apply nth_error_In in Hk.
      destruct (Hdn k Hk) as (d & Hd1 & Hd2). rewrite (add_ok s k d true HB Hd1 Hd2) in E. injection E as <-. auto. }
  pose proof (frames_good s i j (fu ++ fd) HB Hfs) as Hgood.
  exists (fu ++ fd). split; auto. split; auto. split; auto.
  intros f ts Hf Hc. rewrite Forall_forall in Hws. specialize (Hws f Hf). unfold cont_ts in Hc.
  destruct (mf_data f) as [|tt a b []]; try discriminate. injection Hc as <-. apply (well_nodec _ _ _ _ Hws).
Qed.
Lemma lookup_moving_succeeds s i j : Inv s -> BodyOk s -> squad_total -> squad_unit squad ->
  (i < size s)%nat -> (j < size s)%nat -> same_tree (parent_of s) i j ->
  (forall k, (ancestor (parent_of s) i k /\ ~ ancestor (parent_of s) j k) \/
             (ancestor (parent_of s) j k /\ ~ ancestor (parent_of s) i k) ->
     exists d, transform_of s k = Some d /\ well_sampled d) ->
  exists tr, lookup_transform squad s i (PFrame j) = Ok tr.
Proof.
  intros HI HB Hsq Hsu Hi Hj Hst Hd.
  destruct (frames_succeed s i j HI HB Hi Hj Hst Hd) as (fs & Hfs & Hws & Hgood & Hcw).
  unfold lookup_transform. rewrite (resolve_frame s j Hj). simpl. rewrite Hfs. simpl. unfold get_transformation.
  destruct (get_timestamps (Mat fs []) true) as [o|e] eqn:Eo.
  - simpl. pose proof (timestamps_spec _ _ _ Eo) as Hts. destruct o as [l|].
    + assert (Hb : forall f ts, In f fs -> cont_ts f = Some ts -> forall x, In x l -> in_bounds ts x = true).
      { intros f ts Hf Hc x Hx.
        assert (Hin : In ts (cont_list (Mat fs []))). { unfold cont_list. apply somes_in. simpl. rewrite <- Hc. apply in_map; auto. }
        destruct Hts as [(ts0 & rest & _ & _ & H)|(E & _)].
        - apply H in Hx as (_ & Hx). apply Hx. apply in_or_app. left; auto.
        - rewrite E in Hin. contradiction. }
      destruct (fold_succeeds l fs (map (fun _ => (v0, q1)) l) Hsq Hsu Hgood Hws Hb (map_length _ _)) as (rows & Hrows).
      unfold transformation_at. cbn [m_frames]. destruct fs as [|f fs']; [eauto|].
      rewrite Hrows. cbn [bind]. eauto.
    + assert (Hstat : Forall (fun f => exists t r, mf_data f = TStatic t r /\ hunit r) fs).
      { apply Forall_forall. intros f Hf. rewrite Forall_forall in Hws. specialize (Hws f Hf).
        destruct Hts as (E1 & _ & E2). destruct (mf_data f) as [t r|ts t r disc] eqn:Ed.
        - exists t, r. split; auto. apply Hws.
        - exfalso. destruct disc.
          + assert (Hin : In ts (disc_list (Mat fs []))). { unfold disc_list. apply somes_in. simpl. apply in_map_iff. exists f. unfold disc_ts. rewrite Ed. auto. }
            rewrite E2 in Hin. contradiction.
          + assert (Hin : In ts (cont_list (Mat fs []))). { unfold cont_list. apply somes_in. simpl. apply in_map_iff. exists f. unfold cont_ts. rewrite Ed. auto. }
            rewrite E1 in Hin. contradiction. }
      simpl. assert (Hf : forall acc, exists acc', foldM step_static fs acc = Ok acc').
      { clear -Hstat. induction fs as [|f fs IH]; intros acc; simpl; [eauto|]. inversion Hstat as [|? ? (t & r & Ed & Hr) Hst']; subst.
        unfold step_static at 1. rewrite Ed. cbn [bind static_from_frame]. destruct (mf_inv f).
        - rewrite step_bwd by (apply hunit_nz; auto). simpl. apply IH; auto.
        - rewrite step_fwd by (apply hunit_nz; auto). simpl. apply IH; auto. }
      destruct (Hf (v0, q1)) as ([t r] & ->). simpl. eauto.
  - exfalso. apply timestamps_raise in Eo as (_ & ts & Hin & ->). apply in_app_or in Hin as [Hin|[]].
    unfold cont_list in Hin. apply somes_in, in_map_iff in Hin as (f & Hc & Hf). exact (Hcw f [] Hf Hc eq_refl).
Qed.

(* ---- an oracle satisfying all contracts: the last sample at or before x ---- *)
End S.

Definition hold_squad (ts : list R) (rr : list quat) (x : R) : res quat := hold ts rr x.
Lemma hold_member {A} ts (rr : list A) x r : hold ts rr x = Ok r -> In r rr.
Proof.
  destruct rr as [|a rr]; [discriminate|]. cbn [hold]. intros H. injection H as <-.
  destruct (hold_acc (combine ts (a :: rr)) x a) as [(k & p & Hk & _ & -> & _)|(-> & _)].
  - destruct p as [t q]. apply nth_combine_inv in Hk as (_ & Hk). apply nth_error_In in Hk. exact Hk.
  - left; auto.
Qed.
Lemma hold_squad_unit : squad_unit hold_squad.
Proof. intros ts rr x r Hu H. rewrite Forall_forall in Hu. apply Hu. apply (hold_member ts rr x). exact H. Qed.
Lemma hold_squad_const : squad_const hold_squad.
Proof. intros ts rr x r r' _ Hc H. apply Hc. apply (hold_member ts rr x). exact H. Qed.
Lemma hold_squad_exact : squad_exact hold_squad.
Proof.
  intros ts rr k x r Hinc _ Hlen _ Hx Hr. unfold hold_squad.
  assert (Hne : rr <> []) by (intros ->; destruct k; discriminate).
  destruct (hold_ok ts rr x Hne) as (a & Ha). rewrite Ha. destruct (hold_in_force ts rr x a Hlen Ha) as (e & He & Hn).
  rewrite (event_fun ts x e k He (own_event ts k x Hinc Hx)) in Hn. congruence.
Qed.
Lemma hold_squad_total : squad_total hold_squad.
Proof.
  intros ts rr x _ Hn Hlen _ _. apply hold_ok. intros ->. simpl in Hlen. lia.
Qed.
