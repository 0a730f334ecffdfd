(** Property C69: labelled time series through moving frames. *)
From Coq Require Import Reals String List Arith Bool ZArith Lia Lra.
From Verif Require Import Base Quat SpecQuat QuatProofs NdArray Frames SpecForest FrameProofs WalkProofs
  Matcher SpecLookup LookupProofs RegistryProofs MovingProofs TimeProofs CtorProofs InverseProofs RouteProofs
  Examples PropForest PropLookup PropMoving SpecConsist RelProofs PropConsist
  Transform SpecArray NdProofs RotProofs ArrProofs ArrTransProofs ArrStaticProofs PropTransform PropRotate
  Coord Velocity TopLevel TopProofs SpecTop TopStep SpecSeries SeriesProofs PropTop.
Import ListNotations.
Open Scope nat_scope.
Open Scope list_scope.

(** d is expressed in frame i: outof says so, or the attribute of d if outof is omitted. *)
Definition expressed_in (m : method) (w : world) (d : darr) (outof : option pref) (i : nat) : Prop :=
  match outof with
  | Some o => denotes (frames w) o i
  | None => exists v, attr w d (frame_attr m) = Some (Some v) /\ lookup v (reg (frames w)) = Some i
  end.
Lemma expressed_from m w d outof i : expressed_in m w d outof i -> from m w d outof i.
Proof. destruct outof; destruct m; auto. Qed.
Lemma expressed_frame m w d outof i : reachable (frames w) -> expressed_in m w d outof i -> frame (frames w) i.
Proof.
  intros HR. destruct outof as [o|]; cbn [expressed_in].
  - intros H. eapply denotes_frame; eauto.
  - intros (v & _ & H). apply (denotes_frame _ (PName v) i HR). right. exists v. auto.
Qed.
(** The item at sample k of y is the image of the item at sample q of x: vectors are
    rotated, points are also shifted, orientations are multiplied. *)
Definition maps_item (m : method) (x y : nd R) (tau q k : nat) (t : vec3) (r : quat) (pre : list nat) : Prop :=
  match m with
  | Vectors => vec_at y (put tau k pre) = srot r (vec_at x (put tau q pre))
  | Points => vec_at y (put tau k pre) = vadd (srot r (vec_at x (put tau q pre))) t
  | Quaternions => quat_at y (put tau k pre) = hmul r (quat_at x (put tau q pre))
  end.
(** Orientations are unit quaternions, and squad returns the samples at their times. *)
Definition orientations_ok squad (m : method) (x : nd R) (sh : list nat) : Prop :=
  m = Quaternions -> squad_exact squad /\ forall ix, valid sh ix -> hunit (quat_at x ix).

(* ------------------------------------------------------------------ C69 *)
(** d: a DataArray with n samples on axis tau, labelled with increasing times, coordinates of
    the vectors, points or orientations on the last axis, any other axes; frame i and j in
    one tree, any mixture of static, discrete and continuous frames on the way.  The
    transform succeeds.  The result has exactly the samples whose times are in the range of
    all continuous frames on the way, in order, each of them mapped by the transform at its
    time, with its time, and with its values of all coordinates along the time dimension;
    all other coordinates, the dimensions and the name are kept; the frame attributes name
    j, the others are kept; no dictionary that existed before is changed. *)
Theorem C69_series : forall squad m w d into outof dim axis ts time_axis i j sh tau n tsa,
  reachable (frames w) -> squad_total squad -> squad_unit squad -> data_array w d -> proper_coords d ->
  expressed_in m w d outof i -> denotes (frames w) into j -> good_way (frames w) i j ->
  shp (da_data d) = (put tau n sh ++ [ncomp m])%list -> tau <= length sh ->
  picks d dim axis (S (length sh)) -> timed d ts time_axis tau n tsa -> orientations_ok squad m (da_data d) (put tau n sh) ->
  exists w' d' td l, transform squad m w (Lab d) into outof dim axis ts time_axis = (w', Ok (RLab d')) /\
    nth_error (da_dims d) tau = Some td /\
    (exists f, l = filter f (map (fun q => dat tsa [q]) (seq 0 n))) /\
    (exists rt, route (parent_of (frames w)) i j rt /\
       forall q, q < n -> (In (dat tsa [q]) l <->
         forall f tf, In f rt -> cont_of (frames w) f = Some tf ->
           exists a b, hd_error tf = Some a /\ nth_error tf (length tf - 1) = Some b /\ (a <= dat tsa [q] <= b)%R)) /\
    shp (da_data d') = (put tau (length l) sh ++ [ncomp m])%list /\
    (forall k x, nth_error l k = Some x -> exists q t r, q < n /\ dat tsa [q] = x /\ maps_at squad (frames w) x i j t r /\
      forall pre, valid sh pre -> maps_item m (da_data d) (da_data d') tau q k t r pre) /\
    subseries d d' td tsa n l /\ data_array w' d' /\ attrs_kept w w' /\
    attr w' d' (frame_attr m) = Some (name_of (frames w) j) /\ attr w' d' "representation_frame" = Some (name_of (frames w) j) /\
    forall key, key <> frame_attr m -> key <> "representation_frame"%string -> attr w' d' key = attr w d key.
Proof.
  intros squad m w d into outof dim axis ts time_axis i j sh tau n tsa HR Hto Hsq Hda Hpc Hex Hj Hg Hsh Htau Hp Htm Hq.
  destruct (series_step squad m w d into outof dim axis ts time_axis i j sh tau n tsa HR Hsq Hda Hpc (expressed_from _ _ _ _ _ Hex)
     (expressed_frame _ _ _ _ _ HR Hex) Hj (good_unit _ _ _ Hg) Hsh Htau Hp Htm Hq (or_intror (conj Hto Hg)))
    as (w' & d' & td & l & E & Hk & Hda' & _ & _ & Hat & Htd & Hss & _ & T1 & T2 & So & Do).
  exists w', d', td, l. split; [exact E|]. split; [exact Htd|]. split; [exact T1|]. split; [exact T2|]. split; [exact So|]. split.
  { intros k x Hx. destruct (sample_index tsa n l k x T1 Hx) as (q & Hqn & Hqx & _). subst x.
    destruct (Do k q Hqn Hx) as (t & r & Hrel & Him). exists q, t, r. split; auto. split; auto. split; [|exact Him].
    destruct (rel_coords squad _ _ _ _ _ _ Hrel) as (U & c & A & B & C). split; auto. exists c. auto. }
  split; [exact Hss|]. split; [exact Hda'|]. split; [exact Hk|]. unfold attr. rewrite Hat. unfold relabel.
  split; [destruct m; rewrite ?lookup_set; reflexivity|]. split; [rewrite lookup_set, String.eqb_refl; reflexivity|].
  intros key K1 K2. rewrite !lookup_set. destruct (String.eqb_spec key "representation_frame"); [contradiction|].
  destruct (String.eqb_spec key (what_of m)) as [E'|]; [|reflexivity]. exfalso. apply K1. rewrite E'. destruct m; reflexivity.
Qed.

(** Time coordinate of a DataArray along dimension td. *)
Definition time_coord (d : darr) (td : string) (n : nat) (tsa : nd R) : Prop :=
  lookup td (da_coords d) = Some (Co [td] (CNum tsa)) /\ shp tsa = [n].
Lemma put_len k x l : k <= length l -> length (put k x l) = S (length l).
Proof. intros H. rewrite put_insert, length_insert; auto. Qed.
Lemma nth_put_app k x l t : k <= length l -> nth k (put k x l ++ t) 0 = x.
Proof. intros H. rewrite put_insert by auto. rewrite app_nth1 by (rewrite length_insert; lia). apply nth_insert. auto. Qed.
Lemma filter_increasing f l : increasing l -> increasing (filter f l).
Proof.
  assert (F : forall (l : list R), increasing l <-> Sorted.StronglySorted Rlt l).
  { clear. intros l. split.
    - induction l as [|a l IH]; intros H; constructor.
      + apply IH. intros i j x y Hij Hx Hy. apply (H (S i) (S j)); auto. lia.
      + apply Forall_forall. intros x Hx. apply In_nth_error in Hx as (k & Hk). apply (H 0 (S k)); auto. lia.
    - intros H. induction H as [|a l S IH F]; intros i j x y Hij Hx Hy; [destruct i; discriminate|].
      rewrite Forall_forall in F. destruct j as [|j]; [lia|]. cbn in Hy. destruct i as [|i]; cbn in Hx.
      + injection Hx as <-. apply F. eapply nth_error_In; eauto.
      + apply (IH i j); auto. lia. }
  intros H. apply F. apply F in H. induction H as [|a l S IH Fa]; cbn; [constructor|]. destruct (f a); auto. constructor; auto.
  rewrite Forall_forall in *. intros x Hx. apply filter_In in Hx. apply Fa. tauto.
Qed.
Lemma times_dat tsa n l k : times tsa n = l -> k < n -> nth_error l k = Some (dat tsa [k]).
Proof. intros <- H. apply nth_times. auto. Qed.
Lemma increasing_inj l a b x : increasing l -> nth_error l a = Some x -> nth_error l b = Some x -> a = b.
Proof.
  intros H A B. destruct (Nat.lt_trichotomy a b) as [L|[L|L]]; auto; exfalso; [pose proof (H a b _ _ L A B)|pose proof (H b a _ _ L B A)]; lra.
Qed.
Lemma image_dat m (x y z : nd R) tau q k b t r t2 r2 x1 k1 pre c : hn2 r <> 0%R -> hn2 r2 <> 0%R ->
  image m x x1 tau q k1 t r pre -> image m x1 y tau k1 k t2 r2 pre -> image m x z tau q b (smove t2 r2 t) (hmul r2 r) pre ->
  c < ncomp m -> dat y (put tau k pre ++ [c]) = dat z (put tau b pre ++ [c]).
Proof.
  intros N1 N2 H1 H2 H3 Hc.
  assert (C3 : forall a b : nd R, forall p p', vec_at a p = vec_at b p' -> c < 3 -> dat a (p ++ [c]) = dat b (p' ++ [c])).
  { intros a0 b0 p p' E L. unfold vec_at in E. injection E as E0 E1 E2. destruct c as [|[|[|c]]]; auto; lia. }
  assert (C4 : forall a b : nd R, forall p p', quat_at a p = quat_at b p' -> c < 4 -> dat a (p ++ [c]) = dat b (p' ++ [c])).
  { intros a0 b0 p p' E L. unfold quat_at in E. injection E as E0 E1 E2 E3. destruct c as [|[|[|[|c]]]]; auto; lia. }
  destruct m; cbn [image ncomp] in *.
  - apply C3; auto. rewrite H3, H2, H1. symmetry. apply srot_hmul; auto.
  - apply C3; auto. rewrite H3, H2, H1. symmetry. pose proof (gact_mul (t2, r2) (t, r) (vec_at x (put tau q pre)) N2 N1) as G. exact G.
  - apply C4; auto. rewrite H3, H2, H1. symmetry. apply hmul_assoc.
Qed.
Lemma in_dec_rt l (k : nat) : In k l \/ ~ In k l.
Proof. destruct (in_dec Nat.eq_dec k l); auto. Qed.
(** Transforming into j and then into k (outof omitted) agrees with transforming into k
    directly: every sample of the chained result is a sample of the direct one, with the
    same time and the same values. *)
Theorem C69_chain : forall squad m w d a outof b dim axis ts time_axis i j k sh tau n tsa w1 d1 w2 d2 w3 d3,
  reachable (frames w) -> squad_unit squad -> data_array w d -> proper_coords d ->
  expressed_in m w d outof i -> denotes (frames w) a j -> denotes (frames w) b k -> named (frames w) j ->
  unit_way (frames w) i j -> unit_way (frames w) j k ->
  shp (da_data d) = (put tau n sh ++ [ncomp m])%list -> tau <= length sh ->
  picks d dim axis (S (length sh)) -> timed d ts time_axis tau n tsa -> orientations_ok squad m (da_data d) (put tau n sh) ->
  transform squad m w (Lab d) a outof dim axis ts time_axis = (w1, Ok (RLab d1)) -> 2 <= nth tau (shp (da_data d1)) 0 ->
  transform squad m w1 (Lab d1) b None dim axis ts time_axis = (w2, Ok (RLab d2)) ->
  transform squad m w (Lab d) b outof dim axis ts time_axis = (w3, Ok (RLab d3)) ->
  exists td n2 n3 t2 t3, nth_error (da_dims d) tau = Some td /\ time_coord d2 td n2 t2 /\ time_coord d3 td n3 t3 /\
    shp (da_data d2) = (put tau n2 sh ++ [ncomp m])%list /\ shp (da_data d3) = (put tau n3 sh ++ [ncomp m])%list /\
    forall u, u < n2 -> exists v, v < n3 /\ dat t2 [u] = dat t3 [v] /\
      forall pre c, valid sh pre -> c < ncomp m -> dat (da_data d2) (put tau u pre ++ [c]) = dat (da_data d3) (put tau v pre ++ [c]).
Proof.
  intros squad m w d a outof b dim axis ts time_axis i j k sh tau n tsa w1 d1 w2 d2 w3 d3 HR Hsq Hda Hpc Hex Ha Hb (nm & Nm & Nreg) U1 U2 Hsh Htau Hp Htm Hq E1 Hn2 E2 E3.
  pose proof (expressed_frame _ _ _ _ _ HR Hex) as Fi. pose proof (denotes_frame _ _ _ HR Ha) as Fj. pose proof (denotes_frame _ _ _ HR Hb) as Fk.
  pose proof (reachable_Inv _ HR) as HI. pose proof (expressed_from _ _ _ _ _ Hex) as Hfr.
  assert (U3 : unit_way (frames w) i k) by (exact (unit_way_trans (frames w) i j k HI Fj U1 U2)).
  pose proof Htm as (td0 & K1 & K2 & K3 & K4 & K5 & K6).
  (* first step *)
  destruct (series_step squad m w d a outof dim axis ts time_axis i j sh tau n tsa HR Hsq Hda Hpc Hfr Fi Ha U1 Hsh Htau Hp Htm Hq (or_introl (ex_intro _ w1 (ex_intro _ _ E1))))
    as (w1' & d1' & td & l1 & E1' & Kp1 & Hda1 & Hpc1 & _ & Hat1 & Htd & Hss1 & (ts1 & Hc1 & Hs1 & Ht1) & T1 & (rt1 & R1 & X1) & So1 & Do1).
  rewrite E1 in E1'. injection E1' as <- <-. assert (td0 = td) by congruence. subst td0.
  rewrite So1 in Hn2. rewrite nth_put_app in Hn2 by auto.
  destruct Hss1 as (Hdm1 & _).
  assert (Hinc : increasing (times tsa n)).
  { intros p q x y Hpq Hx Hy. apply nth_times in Hx as (? & <-). apply nth_times in Hy as (? & <-). apply K6. lia. }
  assert (Hinc1 : increasing l1) by (destruct T1 as (f & ->); apply filter_increasing; auto).
  destruct Kp1 as (Kf1 & _).
  assert (Hnd : ndim (da_data d1) = ndim (da_data d)) by (unfold ndim; rewrite So1, Hsh, !app_length, !put_len by auto; reflexivity).
  assert (Hp1 : picks d1 dim axis (S (length sh))) by (unfold picks in *; rewrite Hdm1, Hnd; exact Hp).
  assert (Htm1 : timed d1 ts time_axis tau (length l1) ts1).
  { exists td. rewrite Hdm1, Hnd. split; auto. split; [exact Hc1|]. split; [exact K3|]. split; auto. split; [lia|].
    intros p q Hpq. apply (Hinc1 p q); [lia|apply (times_dat ts1 (length l1)); auto; lia|apply (times_dat ts1 (length l1)); auto; lia]. }
  assert (Hsub1 : forall x q, nth_error l1 q = Some x -> exists q0, q0 < n /\ dat tsa [q0] = x /\ nth_error (times tsa n) q0 = Some x).
  { intros x q Hx. exact (sample_index tsa n l1 q x T1 Hx). }
  assert (Hq1 : m = Quaternions -> squad_exact squad /\ forall ix, valid (put tau (length l1) sh) ix -> hunit (quat_at (da_data d1) ix)).
  { intros ->. destruct (Hq eq_refl) as (Q1 & Q2). split; auto. intros ix Hv. destruct (valid_put tau (length l1) sh ix Htau Hv) as (q & pre & -> & Hql & Hv').
    destruct (nth_error l1 q) as [x|] eqn:Ex; [|apply nth_error_None in Ex; lia]. destruct (Hsub1 _ _ Ex) as (q0 & Hq0 & Hx & _). subst x.
    destruct (Do1 q q0 Hq0 Ex) as (t & r & Hrel & Him). specialize (Him pre Hv'). cbn [image] in Him. rewrite Him. unfold hunit. rewrite hn2_hmul, (rel_unit squad _ _ _ _ _ Hrel : hn2 r = 1%R).
    rewrite (Q2 (put tau q0 pre)); [ring|]. pose proof (valid_length _ _ Hv') as Lp. rewrite !put_insert by lia. apply valid_insert; auto. }
  assert (Hf1 : from m w1 d1 None j).
  { exists nm. rewrite Kf1. split; auto. unfold attr. rewrite Hat1. unfold relabel. rewrite !lookup_set, String.eqb_refl.
    destruct (String.eqb (what_of m) "representation_frame"); rewrite Nm; reflexivity. }
  destruct (series_step squad m w1 d1 b None dim axis ts time_axis j k sh tau (length l1) ts1) as (w2' & d2' & td2 & l2 & E2' & Kp2 & Hda2 & Hpc2 & _ & Hat2 & Htd2 & Hss2 & (ts2 & Hc2 & Hs2 & Ht2) & T2 & (rt2 & R2 & X2) & So2 & Do2);
    rewrite ?Kf1; auto; [left; exists w2, (RLab d2); exact E2|].
  rewrite E2 in E2'. injection E2' as <- <-. rewrite Hdm1 in Htd2. assert (td2 = td) by congruence. subst td2.
  destruct (series_step squad m w d b outof dim axis ts time_axis i k sh tau n tsa HR Hsq Hda Hpc Hfr Fi Hb U3 Hsh Htau Hp Htm Hq (or_introl (ex_intro _ w3 (ex_intro _ _ E3))))
    as (w3' & d3' & td3 & l3 & E3' & Kp3 & Hda3 & Hpc3 & _ & Hat3 & Htd3 & Hss3 & (ts3 & Hc3 & Hs3 & Ht3) & T3 & (rt3 & R3 & X3) & So3 & Do3).
  rewrite E3 in E3'. injection E3' as <- <-. assert (td3 = td) by congruence. subst td3.
  exists td, (length l2), (length l3), ts2, ts3. split; auto. split; [split; auto|]. split; [split; auto|]. split; auto. split; auto.
  intros u Hu. pose proof (times_dat ts2 (length l2) l2 u Ht2 Hu) as Nu.
  destruct (sample_index ts1 (length l1) l2 u _ T2 Nu) as (q1 & Hq1n & Hq1x & _).
  pose proof (times_dat ts1 (length l1) l1 q1 Ht1 Hq1n) as Nq1.
  destruct (Hsub1 _ _ Nq1) as (q0 & Hq0 & Hq0x & Nq0).
  (* the time is kept by the direct transform *)
  assert (In3 : In (dat tsa [q0]) l3).
  { apply X3; auto. intros f tf Hf Hcf. rewrite (route_way (frames w) i k rt3 HR Fi Fk R3) in Hf.
    assert (Hor : In f rt1 \/ In f rt2).
    { rewrite (route_way (frames w) i j rt1 HR Fi Fj R1). rewrite Kf1 in R2. rewrite (route_way (frames w) j k rt2 HR Fj Fk R2).
      destruct (ancestor_dec (parent_of (frames w)) j f (wf_root _ (proj1 HI) j Fj)) as [D|D]; destruct Hf as [(A & B)|(A & B)];
        [right; left; auto|left; right; auto|left; left; auto|right; right; auto]. }
    destruct Hor as [Hor|Hor].
    - apply (proj1 (X1 q0 Hq0)) with (f := f); auto. rewrite Hq0x. eapply nth_error_In; eauto.
    - assert (Y : In (dat ts1 [q1]) l2) by (rewrite Hq1x; eapply nth_error_In; eauto).
      destruct (proj1 (X2 q1 Hq1n) Y f tf Hor) as (lo & hi & G1 & G2 & G3); [rewrite Kf1; exact Hcf|]. exists lo, hi. split; auto. split; auto. rewrite Hq0x. exact G3. }
  apply In_nth_error in In3 as (v & Nv). exists v. pose proof (nth_lt _ _ _ Nv) as Lv. split; auto.
  assert (Ev : dat ts3 [v] = dat tsa [q0]) by (pose proof (times_dat ts3 (length l3) l3 v Ht3 Lv); congruence).
  split; [rewrite Ev; congruence|].
  rewrite <- Hq0x in Nq1. rewrite <- Hq1x in Nu.
  destruct (Do1 q1 q0 Hq0 Nq1) as (t & r & Rel1 & I1). destruct (Do2 u q1 Hq1n Nu) as (t2 & r2 & Rel2 & I2). destruct (Do3 v q0 Hq0 Nv) as (t3 & r3 & Rel3 & I3).
  rewrite Kf1, <- Hq0x in Rel2. pose proof (rel_trans squad _ _ i j k _ _ HI Fj Rel1 Rel2) as Rel12.
  pose proof (rel_fun squad _ _ i k _ _ HI Fi Fk Rel3 Rel12) as Eg. unfold gmul in Eg. cbn [fst snd] in Eg.
  assert (Et : t3 = smove t2 r2 t) by (apply (f_equal fst) in Eg; exact Eg). assert (Er : r3 = hmul r2 r) by (apply (f_equal snd) in Eg; exact Eg).
  intros pre c Hv Hc. apply (image_dat m (da_data d) (da_data d2) (da_data d3) tau q0 u v t r t2 r2 (da_data d1) q1 pre c); auto.
  - exact (rel_nz squad _ _ _ _ _ Rel1).
  - exact (rel_nz squad _ _ _ _ _ Rel2).
  - specialize (I3 pre Hv). rewrite Et, Er in I3. exact I3.
Qed.

(* ---- example: four points in frame c at times -1, 0, 2, 4, into the discrete frame d ---- *)
Definition ex_series : darr :=
  DA (Nd [4; 3] (fun ix => INR (3 * nth 0 ix 0 + nth 1 ix 0))) ["time"%string; "cartesian_axis"%string]
     [("time"%string, Co ["time"%string] (CNum (arr1 [-1; 0; 2; 4]%R)));
      ("phase"%string, Co ["time"%string] (CStr ["p"; "q"; "r"; "s"]%string));
      ("cartesian_axis"%string, Co ["cartesian_axis"%string] (CStr ["x"; "y"; "z"]%string))] None 0.
Lemma mov_good i j : i < 4 -> j < 4 -> good_way mov_lit i j.
Proof.
  intros Hi Hj. split; [exists 0; split; apply mov_root; lia|].
  intros k Hk. assert (Hk4 : (k < 4)%nat) by (destruct Hk as [(Ha & _)|(Ha & _)]; [apply (mov_anc i)|apply (mov_anc j)]; auto).
  destruct k as [|[|[|[|k]]]]; try lia.
  - exfalso. destruct Hk as [(_ & Hb)|(_ & Hb)]; apply Hb; apply mov_root; lia.
  - eexists. split; [reflexivity|]. apply (mov_well 1). reflexivity.
  - eexists. split; [reflexivity|]. apply (mov_well 2). reflexivity.
  - eexists. split; [reflexivity|]. apply (mov_well 3). reflexivity.
Qed.
Example C69_example :
  reachable (frames ex_mworld) /\ squad_total hold_squad /\ squad_unit hold_squad /\ data_array ex_mworld ex_series /\ proper_coords ex_series /\
  expressed_in Points ex_mworld ex_series None 2 /\ denotes mov_lit (PName "d"%string) 3 /\ good_way mov_lit 2 3 /\ named mov_lit 1 /\
  shp (da_data ex_series) = (put 0 4 [] ++ [ncomp Points])%list /\
  picks ex_series (Some "cartesian_axis"%string) None 1 /\ timed ex_series TNone None 0 4 (arr1 [-1; 0; 2; 4]%R) /\
  orientations_ok hold_squad Points (da_data ex_series) (put 0 4 []).
Proof.
  split; [exact mov_lit_reachable|]. split; [apply hold_squad_total|]. split; [apply hold_squad_unit|]. split.
  { split; [reflexivity|]. split; [repeat constructor; cbn; intuition discriminate|]. split; [|cbn; lia].
    intros nm c [H|[H|[H|[]]]]; injection H as <- <-; (constructor; [|constructor]); [exists 0|exists 0|exists 1]; auto. }
  split. { split; [cbn; repeat constructor; cbn; intuition discriminate|]. intros nm c [H|[H|[H|[]]]]; injection H as <- <-; constructor; auto; constructor. }
  split. { exists "c"%string. split; reflexivity. }
  split. { right. exists "d"%string. split; reflexivity. }
  split; [apply mov_good; lia|]. split; [exists "m"%string; split; reflexivity|]. split; [reflexivity|]. split; [reflexivity|]. split.
  - exists "time"%string. split; [reflexivity|]. split; [reflexivity|]. split; [right; split; [reflexivity|]; split; [cbn; lia|]; split; [cbn; lia|reflexivity]|].
    split; [reflexivity|]. split; [lia|]. intros a b Hab. destruct b as [|[|[|[|b]]]]; try lia; destruct a as [|[|[|a]]]; try lia; cbn; lra.
  - intros H; discriminate.
Qed.
Print Assumptions C69_series.
Print Assumptions C69_chain.
