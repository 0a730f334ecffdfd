(** Transforms of arrays through static frames, with and without timestamps, and the
    DataArrays built from them. *)
From Coq Require Import Reals String List Arith Bool ZArith Lia Lra.
From Verif Require Import Base Quat SpecQuat QuatProofs NdArray Frames SpecForest FrameProofs WalkProofs
  Matcher SpecLookup LookupProofs RegistryProofs MovingProofs TimeProofs CtorProofs InverseProofs RouteProofs
  Examples PropForest PropLookup PropMoving
  Transform SpecArray NdProofs RotProofs ArrProofs ArrTransProofs ArrStaticProofs PropTransform PropRotate
  Coord Velocity TopLevel.
Import ListNotations.
Open Scope nat_scope.

Lemma anc_dec par i k : rooted par i -> (ancestor par i k \/ ~ ancestor par i k).
Proof.
  intros H. induction H as [i E|i p E H IH].
  - destruct (Nat.eq_dec i k) as [->|N]; [left; constructor|right]. intros A. inversion A; subst; congruence.
  - destruct (Nat.eq_dec i k) as [->|N]; [left; constructor|]. destruct IH as [IH|IH]; [left; econstructor; eauto|right].
    intros A. inversion A; subst; [congruence|]. assert (p0 = p) by congruence. subst. contradiction.
Qed.
Lemma unit_way_trans s a b c : Inv s -> frame s b -> unit_way s a b -> unit_way s b c -> unit_way s a c.
Proof.
  intros (W & _) Hb H1 H2 k d Hk Hd.
  assert (D : ancestor (parent_of s) b k \/ ~ ancestor (parent_of s) b k).
  { apply anc_dec. apply (wf_root _ W). exact Hb. }
  destruct Hk as [(A & B)|(A & B)]; destruct D as [D|D].
  - apply (H2 k d); auto. left; auto.
  - apply (H1 k d); auto. left; auto.
  - apply (H1 k d); auto. right; auto.
  - apply (H2 k d); auto. right; auto.
Qed.

Section Squad.
Variable squad : list R -> list quat -> R -> res quat.

(** A static transformation repeated at every timestamp. *)
Lemma const_rows fs l acc acc' : Forall (fun f => exists t r, mf_data f = TStatic t r /\ hunit r) fs ->
  foldM step_static fs acc = Ok acc' ->
  foldM (step_rows squad l) fs (map (fun _ => acc) l) = Ok (map (fun _ => acc') l).
Proof.
  intros H. revert acc. induction H as [|f fs (t & r & E & U) _ IH]; intros acc Hf.
  - simpl in *. injection Hf as <-. reflexivity.
  - cbn [foldM] in *. apply bind_ok in Hf as (a1 & H1 & H2).
    unfold step_static in H1. rewrite E in H1. cbn [static_from_frame bind] in H1.
    assert (Hs : step_rows squad l (map (fun _ => acc) l) f = Ok (map (fun _ => a1) l)).
    { unfold step_rows. rewrite E. cbn [rows_from_frame bind].
      assert (Hone : step_with rot1 (mf_inv f) acc (t, r) = Ok a1).
      { destruct (mf_inv f); [rewrite step_bwd in H1 by (apply hunit_nz; auto); rewrite row_step_bwd by auto
                             |rewrite step_fwd in H1 by (apply hunit_nz; auto); rewrite row_step_fwd by auto]; auto. }
      clear - Hone. unfold traverse. induction l as [|x l IH]; [reflexivity|]. cbn [map combine sequence fst snd]. rewrite Hone. cbn [bind]. rewrite IH. reflexivity. }
    rewrite Hs. cbn [bind]. apply IH. exact H2.
Qed.

Lemma static_frames s i j t r : reachable s -> frame s i -> frame s j -> unit_way s i j ->
  lookup_transform squad s i (PFrame j) = Ok (TrStatic t r) ->
  exists fs, frames_between s i j = Ok fs /\ foldM step_static fs (v0, q1) = Ok (t, r) /\
    Forall (fun f => exists t r, mf_data f = TStatic t r /\ hunit r) fs.
Proof.
  intros HR Hi Hj Hu H. pose proof (reach_inv _ HR) as I. pose proof I as (W & _).
  assert (Hres : resolve_rf s (PFrame j) = Ok j) by (apply denotes_resolve; left; auto).
  unfold lookup_transform in H. rewrite Hres in H. cbn [bind] in H. apply bind_ok in H as (fs & Hf & Hg).
  exists fs. split; auto. unfold get_transformation in Hg. apply bind_ok in Hg as (o & Ho & Hg).
  destruct o as [l|].
  { simpl in Hg. destruct fs; [discriminate|]. apply bind_ok in Hg as (? & _ & E). discriminate. }
  cbn [transformation_at m_frames] in Hg. apply bind_ok in Hg as ([t' r'] & Hst & E). injection E as <- <-.
  split; auto. pose proof (timestamps_spec _ _ _ Ho) as (Hc & _ & Hd).
  unfold frames_between in Hf. apply bind_ok in Hf as ([up down] & Hw & Hf).
  apply bind_ok in Hf as (fu & Hfu & Hf). apply bind_ok in Hf as (fd & Hfd & Hf). injection Hf as <-.
  destruct (walk_ok_inv s i j up down W Hi Hj Hw) as (_ & c & C1 & C2 & C3).
  assert (Hstat : forall f, In f (fu ++ fd) -> exists t r, mf_data f = TStatic t r).
  { intros f Hin. destruct (mf_data f) as [t0 r0|ts t0 r0 [|]] eqn:E; [eauto| |]; exfalso.
    - assert (K : In ts (disc_list (Mat (fu ++ fd) []))).
      { unfold disc_list. apply somes_in. apply in_map_iff. exists f. split; auto. unfold disc_ts. rewrite E. auto. }
      rewrite Hd in K. contradiction.
    - assert (K : In ts (cont_list (Mat (fu ++ fd) []))).
      { unfold cont_list. apply somes_in. apply in_map_iff. exists f. split; auto. unfold cont_ts. rewrite E. auto. }
      rewrite Hc in K. contradiction. }
  assert (Htrav : forall l inv fs f, traverse (fun k => add_frame (body_at s k) inv) l = Ok fs -> In f fs ->
             exists k, In k l /\ transform_of s k = Some (mf_data f)).
  { clear. intros l inv. induction l as [|a l IH]; intros fs f H Hin.
    - injection H as <-. contradiction.
    - unfold traverse in H. simpl in H. apply bind_ok in H as (f0 & H0 & H). apply bind_ok in H as (fs' & H1 & H). injection H as <-.
      destruct Hin as [<-|Hin].
      + apply add_frame_inv in H0 as (d & Hb & Hd & _). exists a. split; [left; auto|]. rewrite Hd. apply body_at_transform. auto.
      + destruct (IH fs' f H1 Hin) as (k & A & B). exists k. split; [right|]; auto. }
  apply Forall_forall. intros f Hin. destruct (Hstat f Hin) as (t0 & r0 & E). exists t0, r0. split; auto.
  assert (Hk : exists k, on_way s i j k /\ transform_of s k = Some (mf_data f)).
  { apply in_app_or in Hin as [Hin|Hin].
    - destruct (Htrav _ _ _ _ Hfu Hin) as (k & A & B). exists k. split; auto. left. split.
      + eapply climb_in_ancestor; eauto.
      + intros Hz. eapply (climb_not_above s i up c k); eauto. apply C3; auto. eapply climb_in_ancestor; eauto.
    - destruct (Htrav _ _ _ _ Hfd Hin) as (k & A & B). exists k. split; auto. right. apply in_rev in A. split.
      + eapply climb_in_ancestor; eauto.
      + intros Hz. eapply (climb_not_above s j (rev down) c k); eauto. apply C3; auto. eapply climb_in_ancestor; eauto. }
  destruct Hk as (k & Hk & Ht). specialize (Hu k _ Hk Ht). rewrite E in Hu. exact Hu.
Qed.

(** Number of coordinates, and what a transform (t, r) does to the item at pre. *)
Definition ncomp (m : method) : nat := match m with Quaternions => 4 | _ => 3 end.
Definition moved (m : method) (t : vec3) (r : quat) (x y : nd R) (pre : list nat) : Prop :=
  match m with
  | Vectors => vec_at y pre = srot r (vec_at x pre)
  | Points => vec_at y pre = smove t r (vec_at x pre)
  | Quaternions => quat_at y pre = hmul r (quat_at x pre)
  end.

Lemma last_axis (arr : nd R) sh nn ax : shp arr = (sh ++ [nn])%list -> axis_is ax (length sh) (ndim arr) ->
  norm_axis ax (ndim arr) = Ok (length sh) /\ nth (length sh) (shp arr) 0 = nn /\ ndim arr = S (length sh).
Proof.
  intros Hs Ha. assert (Hn : ndim arr = S (length sh)) by (unfold ndim; rewrite Hs, app_length; simpl; lia).
  split; [apply axis_is_norm; auto; lia|]. split; auto. rewrite Hs, app_nth2 by lia. rewrite Nat.sub_diag. reflexivity.
Qed.
Lemma vec_along_end (a : nd R) pre : vec_along a (length pre) pre = vec_at a pre.
Proof. unfold vec_along, vec_at. rewrite !insert_end. reflexivity. Qed.
Lemma quat_along_end (a : nd R) pre : quat_along a (length pre) pre = quat_at a pre.
Proof. unfold quat_along, quat_at. rewrite !insert_end. reflexivity. Qed.

Lemma call_static s i j t r m arr sh ax ta : reachable s -> frame s i -> frame s j ->
  lookup_transform squad s i (PFrame j) = Ok (TrStatic t r) -> shp arr = (sh ++ [ncomp m])%list ->
  axis_is ax (length sh) (ndim arr) -> ta = None ->
  exists out, call_method squad m s i arr j ax ta None = Ok (out, None) /\ shp out = shp arr /\
    forall pre, valid sh pre -> moved m t r arr out pre.
Proof.
  intros HR Hi Hj Hl Hs Ha ->. destruct (last_axis _ _ _ _ Hs Ha) as (Hax & Hnn & Hnd).
  assert (Hz : hn2 r <> 0%R) by (eapply static_nz; [exact HR|exact Hi|left; split; [reflexivity|exact Hj]|exact Hl]).
  destruct m; cbn [ncomp] in *.
  - destruct (vectors_static squad s i arr (PFrame j) ax _ t r Hax Hl Hz None Hnn) as (out & E & So & Do).
    rewrite undo_none in E. exists out. split; [exact E|]. split; auto. intros pre Hp. cbn [moved].
    specialize (Do pre). rewrite (valid_length _ _ Hp), Hnd in Do. rewrite <- (valid_length _ _ Hp) in Do. rewrite !vec_along_end in Do. apply Do. lia.
  - destruct (points_static squad s i arr (PFrame j) ax _ t r Hax Hl Hz None sh Hs eq_refl) as (out & E & So & Do).
    rewrite undo_none in E. exists out. split; [exact E|]. split; auto.
  - destruct (quats_static squad s i arr (PFrame j) ax _ t r Hax Hl None Hnn) as (out & E & So & Do).
    rewrite undo_none in E. exists out. split; [exact E|]. split; auto. intros pre Hp. cbn [moved].
    specialize (Do pre). assert (Hrm : remove_at (length sh) (shp arr) = sh) by (rewrite Hs, <- insert_end, remove_insert; auto).
    rewrite Hrm in Do. rewrite <- (valid_length _ _ Hp) in Do. rewrite !quat_along_end in Do. apply Do. auto.
Qed.

Lemma filter_all {A} (f : A -> bool) L : (forall x, In x L -> In x (filter f L)) -> filter f L = L.
Proof.
  intros H. assert (G : forall x, In x L -> f x = true) by (intros x Hx; apply H in Hx; apply filter_In in Hx; tauto).
  clear H. induction L as [|a L IH]; auto. simpl. rewrite (G a) by (left; auto). f_equal. apply IH. intros x Hx. apply G. right; auto.
Qed.
Lemma static_no_cont fs : Forall (fun f => exists t r, mf_data f = TStatic t r /\ hunit r) fs -> cont_list (Mat fs []) = [].
Proof.
  intros H. unfold cont_list; cbn [m_frames]. induction H as [|f fs (t & r & E & _) _ IH]; auto.
  simpl. unfold cont_ts at 1. rewrite E. auto.
Qed.
Lemma static_times fs arr nn ta tsa tau n sh : Forall (fun f => exists t r, mf_data f = TStatic t r /\ hunit r) fs ->
  stamped arr nn ta tsa tau n sh ->
  get_timestamps (Mat fs [MA (swap_nd 0 tau arr) (Some (times tsa n))]) true = Ok (Some (times tsa n)).
Proof.
  intros Hf Hst. destruct (stamped_facts _ _ _ _ _ _ _ Hst) as (_ & _ & Hinc). pose proof Hst as (_ & _ & _ & _ & Hn & _).
  set (m := Mat fs [MA (swap_nd 0 tau arr) (Some (times tsa n))]).
  pose proof (static_no_cont _ Hf) as Hc.
  destruct (get_timestamps m true) as [o|e] eqn:Eo.
  - destruct o as [l|].
    + destruct (prepare_times squad arr tsa n tau fs l Eo) as ((f & ->) & _ & H2). f_equal. f_equal. apply filter_all.
      intros x Hx. apply H2. split; auto. rewrite Hc. split; [apply increasing_bounds; auto|intros ts []].
    + apply timestamps_spec in Eo as (_ & E & _). discriminate.
  - apply timestamps_raise in Eo as (_ & ts & Hin & ->). exfalso. apply in_app_or in Hin as [Hin|Hin].
    + change (cont_list m) with (cont_list (Mat fs [])) in Hin. rewrite Hc in Hin. contradiction.
    + simpl in Hin. destruct Hin as [E|[]]. unfold times in E. apply (f_equal (@length R)) in E. rewrite map_length, seq_length in E. simpl in E. lia.
Qed.
Lemma row_const t r (l : list R) k : k < length l -> rowv (map (fun _ => (t, r)) l) k = t /\ rowq (map (fun _ => (t, r)) l) k = r.
Proof.
  intros Hk. unfold rowv, rowq. destruct (nth_len l k Hk) as (x & Hx).
  assert (E : nth_error (map (fun _ => (t, r)) l) k = Some (t, r)) by (rewrite nth_error_map, Hx; reflexivity).
  rewrite (nth_error_nth _ _ _ E). auto.
Qed.
Lemma way_unit_static s i j t r : reachable s -> frame s i -> frame s j -> unit_way s i j ->
  lookup_transform squad s i (PFrame j) = Ok (TrStatic t r) -> hunit r.
Proof.
  intros HR Hi Hj Hu Hl. destruct (static_frames s i j t r HR Hi Hj Hu Hl) as (fs & _ & Hf & Ha).
  assert (G : forall fs acc acc', Forall (fun f => exists t r, mf_data f = TStatic t r /\ hunit r) fs ->
     foldM step_static fs acc = Ok acc' -> hunit (snd acc) -> hunit (snd acc')).
  { clear. intros fs acc acc' H. revert acc. induction H as [|f fs (t & r & E & U) _ IH]; intros acc Hf Hu.
    - injection Hf as <-. auto.
    - cbn [foldM] in Hf. apply bind_ok in Hf as (a1 & H1 & H2). apply (IH a1 H2).
      unfold step_static in H1. rewrite E in H1. cbn [static_from_frame bind] in H1.
      assert (M : forall a b, hunit a -> hunit b -> hunit (hmul a b)) by (intros a b; unfold hunit; rewrite hn2_hmul; intros -> ->; ring).
      destruct (mf_inv f); [rewrite step_bwd in H1 by (apply hunit_nz; auto)|rewrite step_fwd in H1 by (apply hunit_nz; auto)];
        injection H1 as <-; cbn [gmul snd ginv]; apply M; auto using hunit_inv. }
  apply (G fs (v0, q1) (t, r) Ha Hf). apply hunit_one.
Qed.

(** Positions along the time axis. *)
Lemma valid_put tau n sh ix : tau <= length sh -> valid (put tau n sh) ix ->
  exists k pre, ix = put tau k pre /\ k < n /\ valid sh pre.
Proof.
  intros Ht H. rewrite put_insert in H by auto. destruct (valid_insert_inv _ _ _ _ Ht H) as (k & pre & -> & Hk & Hp).
  exists k, pre. rewrite put_insert by (rewrite (valid_length _ _ Hp); auto). auto.
Qed.
Lemma call_stamped_last s i j t r m arr ta tsa tau n sh : reachable s -> frame s i -> frame s j -> unit_way s i j ->
  lookup_transform squad s i (PFrame j) = Ok (TrStatic t r) -> stamped arr (ncomp m) ta tsa tau n sh ->
  (m = Quaternions -> squad_exact squad /\ forall ix, valid (put tau n sh) ix -> hunit (quat_at arr ix)) ->
  exists out, call_method squad m s i arr j (-1) (Some ta) (Some tsa) = Ok (out, Some (times tsa n)) /\ shp out = shp arr /\
    forall pre, valid (put tau n sh) pre -> moved m t r arr out pre.
Proof.
  intros HR Hi Hj Hw Hl Hst Hq.
  assert (Hd : denotes s (PFrame j) j) by (left; auto).
  destruct (static_frames s i j t r HR Hi Hj Hw Hl) as (fs & Hf & Hfold & Hall).
  pose proof (way_unit_static s i j t r HR Hi Hj Hw Hl) as Hur.
  set (l := times tsa n).
  pose proof (static_times fs arr (ncomp m) ta tsa tau n sh Hall Hst) as Hts.
  pose proof (const_rows fs l _ _ Hall Hfold) as Hrows. set (rows := map (fun _ => (t, r)) l) in *.
  pose proof Hst as (Hsp & Ht & _ & Htsa & Hn & _). destruct (stamped_facts _ _ _ _ _ _ _ Hst) as (Hs & Hta & Hinc).
  destruct (ax_facts _ _ _ _ _ _ _ Hst) as (Hax & Hnn).
  assert (L : length rows = length l) by apply map_length.
  assert (Ll : length l = n) by apply length_times.
  assert (HV : forall k, k < length l -> rowv rows k = t /\ rowq rows k = r) by (intros k Hk; apply row_const; auto).
  assert (Hun : forall k, k < length l -> hunit (rowq rows k)) by (intros k Hk; rewrite (proj2 (HV k Hk)); auto).
  assert (Hb : exists b, resample_array squad (MA (swap_nd 0 tau arr) (Some (times tsa n))) (Some l) = Ok b /\
                 resampled arr (ncomp m) tsa n tau sh b l).
  { destruct m; [apply resample3; auto|apply resample3; auto|]. destruct (Hq eq_refl) as (Hex & Hu). apply resample4; auto.
    intros k pre Hk Hp. rewrite <- put_insert by (rewrite (valid_length _ _ Hp); auto). apply Hu.
    rewrite !put_insert by (rewrite ?(valid_length _ _ Hp); auto). apply valid_insert; auto. }
  destruct Hb as (b & Eb & Rb).
  destruct (prepare_ok squad s i arr (PFrame j) (-1) (ncomp m) ta tsa n tau _ Hax Hnn Htsa Hta (n_arr arr _ n tau sh Hs Ht Hn) j fs l rows b
     (increasing_not_decreasing _ Hinc) (denotes_resolve s _ j Hd) Hf Hts Hrows Eb) as (tr & Hp).
  destruct (prep_frames squad s i (PFrame j) j arr _ ta tsa tau n sh Hd Hst _ tr b Hax Hnn Hp) as (fs' & l' & rows' & Hf' & Hl' & Hr' & Htr & _).
  rewrite Hf in Hf'. injection Hf' as <-. rewrite Hts in Hl'. injection Hl' as <-. fold l in Hr', Htr. rewrite Hrows in Hr'. injection Hr' as <-.

  assert (Hix : forall k pre, k < n -> valid sh pre -> nth_error l k = nth_error (times tsa n) k /\ exists x, nth_error l k = Some x).
  { intros k pre Hk _. split; auto. apply nth_len. lia. }
  destruct m; cbn [ncomp] in *.
  - destruct (vectors_ok squad s i arr (PFrame j) 3 ta tsa n tau sh Hs Ht Hta Hn tr l rows b eq_refl Hp Htr L Hun Rb) as (out & Eo & So & Do).
    exists out. split; [exact Eo|]. rewrite Ll in So. split; [rewrite So, Hs; reflexivity|].
    intros ix Hv. destruct (valid_put _ _ _ _ Ht Hv) as (k & pre & -> & Hk & Hpre). destruct (Hix k pre Hk Hpre) as (_ & x & Hx).
    rewrite put_insert by (rewrite (valid_length _ _ Hpre); auto). cbn [moved]. rewrite (Do k x k pre Hx Hx Hpre). 
    rewrite (proj2 (HV k ltac:(lia))). reflexivity.
  - destruct (points_ok squad s i arr (PFrame j) 3 ta tsa n tau sh Hs Ht Hta Hn tr l rows b eq_refl Hp Htr L Hun Rb) as (out & Eo & So & Do).
    exists out. split; [exact Eo|]. rewrite Ll in So. split; [rewrite So, Hs; reflexivity|].
    intros ix Hv. destruct (valid_put _ _ _ _ Ht Hv) as (k & pre & -> & Hk & Hpre). destruct (Hix k pre Hk Hpre) as (_ & x & Hx).
    rewrite put_insert by (rewrite (valid_length _ _ Hpre); auto). cbn [moved]. rewrite (Do k x k pre Hx Hx Hpre). 
    destruct (HV k ltac:(lia)) as (E1 & E2). rewrite E1, E2. reflexivity.
  - destruct (quats_ok squad s i arr (PFrame j) 4 ta tsa n tau sh Hs Ht Hta Hn tr l rows b eq_refl Hp Htr L Rb) as (out & Eo & So & Do).
    exists out. split; [exact Eo|]. rewrite Ll in So. split; [rewrite So, Hs; reflexivity|].
    intros ix Hv. destruct (valid_put _ _ _ _ Ht Hv) as (k & pre & -> & Hk & Hpre). destruct (Hix k pre Hk Hpre) as (_ & x & Hx).
    rewrite put_insert by (rewrite (valid_length _ _ Hpre); auto). cbn [moved]. rewrite (Do k x k pre Hx Hx Hpre). 
    rewrite (proj2 (HV k ltac:(lia))). reflexivity.
Qed.

(** Any way to write the last axis. *)
Lemma swapaxes_ndim {A} (a b : nd A) x y : swapaxes a x y = Ok b -> ndim b = ndim a.
Proof.
  unfold swapaxes. intros H. apply bind_ok in H as (i & _ & H). apply bind_ok in H as (k & _ & H). injection H as <-.
  unfold ndim, swap_nd; cbn [shp]. apply length_swapl.
Qed.
Lemma undo_ndim a b ta : undo_swap a ta = Ok b -> ndim b = ndim a.
Proof. destruct ta; cbn [undo_swap]; intros H; [eapply swapaxes_ndim; eauto|injection H as <-; auto]. Qed.
Lemma swapaxes_norm {A} (a : nd A) x x' y : norm_axis x (ndim a) = norm_axis x' (ndim a) ->
  swapaxes a x y = swapaxes a x' y /\ swapaxes a y x = swapaxes a y x'.
Proof. intros E. unfold swapaxes. rewrite E. auto. Qed.
Lemma rotate_norm q v x y : norm_axis x (ndim v) = norm_axis y (ndim v) -> rotate_vectors q v x = rotate_vectors q v y.
Proof. intros E. unfold rotate_vectors. rewrite E. reflexivity. Qed.
Lemma resample_ndim a ts l b : 0 < ndim a -> resample_array squad (MA a (Some ts)) (Some l) = Ok b -> ndim b = ndim a.
Proof.
  intros Hn H. unfold resample_array in H; cbn [ma_ts ma_data] in H. unfold ndim in *. destruct (Nat.eqb _ _).
  - unfold squad_nd in H. destruct (shp a) as [|n [|m rest]] eqn:E; try discriminate.
    apply bind_ok in H as (? & _ & H). injection H as <-. reflexivity.
  - unfold interp_nd in H. apply bind_ok in H as (? & _ & H). injection H as <-. cbn [shp].
    destruct (shp a); simpl in *; lia.
Qed.
Lemma swap_ndim {A} i j (a : nd A) : ndim (swap_nd i j a) = ndim a.
Proof. unfold ndim, swap_nd; cbn [shp]. apply length_swapl. Qed.
Lemma rotate_ndim q v ax c : rotate_vectors q v ax = Ok c -> shp q = [] -> ndim c = ndim v.
Proof.
  unfold rotate_vectors. intros H E. rewrite E in H. apply bind_ok in H as (k & _ & H). unfold rv0 in H.
  destruct (Nat.eqb _ _); [|discriminate]. apply bind_ok in H as (? & _ & H). injection H as <-. reflexivity.
Qed.
Lemma call_axis s i j m arr ta tsa tau n sh ax out o : stamped arr (ncomp m) ta tsa tau n sh -> frame s j ->
  axis_is ax (ndim arr - 1) (ndim arr) ->
  call_method squad m s i arr j (-1) (Some ta) (Some tsa) = Ok (out, o) -> ndim out = ndim arr ->
  call_method squad m s i arr j ax (Some ta) (Some tsa) = Ok (out, o).
Proof.
  intros Hst Hj Ha H Eo. destruct (ax_facts _ _ _ _ _ _ _ Hst) as (Hax & Hnn).
  assert (Hd : denotes s (PFrame j) j) by (left; auto).
  assert (Hpos : 0 < ndim arr) by (destruct (Nat.eq_dec (ndim arr) 0) as [E|E]; [rewrite E in Hax; discriminate|lia]).
  assert (En : norm_axis ax (ndim arr) = norm_axis (-1) (ndim arr)).
  { rewrite norm_axis_last by auto. apply axis_is_norm; auto; lia. }
  assert (Ep : prepare squad s i arr (PFrame j) ax (ncomp m) (Some ta) (Some tsa) =
               prepare squad s i arr (PFrame j) (-1) (ncomp m) (Some ta) (Some tsa)).
  { unfold prepare, validate_input. rewrite En. reflexivity. }
  assert (Hb : forall tr b, prepare squad s i arr (PFrame j) (-1) (ncomp m) (Some ta) (Some tsa) = Ok (tr, b) -> ndim b = ndim arr).
  { intros tr b Hp. destruct (prep_frames squad s i (PFrame j) j arr _ ta tsa tau n sh Hd Hst _ tr b Hax Hnn Hp) as (_ & l & _ & _ & _ & _ & _ & E).
    apply resample_ndim in E; [|rewrite swap_ndim; auto]. rewrite E. apply swap_ndim. }
  destruct m; cbn [call_method ncomp] in *.
  - unfold transform_vectors in *. rewrite Ep. destruct (prepare _ _ _ _ _ _ _ _ _) as [[tr b]|e] eqn:Hp; [|discriminate]. cbn [bind] in *.
    rewrite (rotate_norm _ _ ax (-1)); auto. rewrite (Hb _ _ eq_refl). exact En.
  - unfold transform_points in *. rewrite Ep. destruct (prepare _ _ _ _ _ _ _ _ _) as [[tr b]|e] eqn:Hp; [|discriminate]. cbn [bind] in *.
    rewrite (rotate_norm _ _ ax (-1)); auto. rewrite (Hb _ _ eq_refl). exact En.
  - unfold transform_quaternions in *. rewrite Ep. destruct (prepare _ _ _ _ _ _ _ _ _) as [[tr b]|e] eqn:Hp; [|discriminate]. cbn [bind] in *.
    rewrite (proj1 (swapaxes_norm b ax (-1) (-1) ltac:(rewrite (Hb _ _ eq_refl); exact En))).
    destruct (swapaxes b _ _) as [b'|e] eqn:Eb'; [|discriminate]. cbn [bind] in *.
    destruct (as_quat b') as [qa|e]; [|discriminate]. cbn [bind] in *.
    destruct (op2 qmulq _ qa) as [c|e]; [|discriminate]. cbn [bind] in *.
    assert (Ec : ndim (as_float c) = ndim arr).
    { apply bind_ok in H as (e & He & H). apply bind_ok in H as (d & Hdd & H). injection H as <- <-.
      rewrite <- (swapaxes_ndim _ _ _ _ He), <- (undo_ndim _ _ _ Hdd). exact Eo. }
    rewrite (proj2 (swapaxes_norm (as_float c) ax (-1) (-1) ltac:(rewrite Ec; exact En))). exact H.
Qed.
Lemma call_stamped s i j t r m arr ta tsa tau n sh ax : reachable s -> frame s i -> frame s j -> unit_way s i j ->
  lookup_transform squad s i (PFrame j) = Ok (TrStatic t r) -> stamped arr (ncomp m) ta tsa tau n sh ->
  axis_is ax (ndim arr - 1) (ndim arr) ->
  (m = Quaternions -> squad_exact squad /\ forall ix, valid (put tau n sh) ix -> hunit (quat_at arr ix)) ->
  exists out, call_method squad m s i arr j ax (Some ta) (Some tsa) = Ok (out, Some (times tsa n)) /\ shp out = shp arr /\
    forall pre, valid (put tau n sh) pre -> moved m t r arr out pre.
Proof.
  intros HR Hi Hj Hw Hl Hst Ha Hq. destruct (call_stamped_last s i j t r m arr ta tsa tau n sh HR Hi Hj Hw Hl Hst Hq) as (out & E & So & Do).
  exists out. split; auto. eapply call_axis; eauto. unfold ndim; rewrite So; auto.
Qed.
End Squad.
