(** Property C59: frames built from labelled data and from rotation matrices. *)
From Coq Require Import Reals String List Arith Bool ZArith Lia Lra.
From Verif Require Import Base Quat SpecQuat QuatProofs NdArray Frames SpecForest FrameProofs WalkProofs
  Matcher SpecLookup LookupProofs RegistryProofs MovingProofs TimeProofs CtorProofs InverseProofs RouteProofs
  Examples PropForest PropLookup PropMoving Transform Estim SpecEstim SvdExist TopLevel VelExamples FrameCtors.
Import ListNotations.
Open Scope nat_scope.
Open Scope list_scope.

(* ---- specification ---- *)
(** The rows of n samples of translation and rotation; a missing array means no
    translation, or no rotation. *)
Definition sample_row (ta ra : option (nd R)) (i : nat) : vec3 * quat :=
  (match ta with Some a => vec_at a [i] | None => V3 0 0 0 end, match ra with Some a => quat_at a [i] | None => Qt 1 0 0 0 end).
Definition sample_rows (ta ra : option (nd R)) (n : nat) : list (vec3 * quat) := map (sample_row ta ra) (seq 0 n).
Definition stamp_list (x : nd R) (n : nat) : list R := map (fun i => dat x [i]) (seq 0 n).
(** n samples of translations and unit rotations, at strictly increasing times; at least two
    of them (one if they are events). *)
Definition good_samples (ta ra : option (nd R)) (x : nd R) (n : nat) (discrete : bool) : Prop :=
  shp x = [n] /\ (forall a, ta = Some a -> shp a = [n; 3]) /\ (forall a, ra = Some a -> shp a = [n; 4] /\ forall i, i < n -> hunit (quat_at a [i])) /\
  (forall i j, i < j < n -> (dat x [i] < dat x [j])%R) /\ (if discrete then 1 <= n else 2 <= n).
(** Frame i is a new child of k, and looking up the transform between them gives the
    samples: from the frame to its parent, or with inverse from the parent to the frame. *)
Definition child_with_samples squad (s : state) (i k : nat) (inverse : bool) (ts : list R) (rows : list (vec3 * quat)) : Prop :=
  parent_of s i = Some k /\
  (if inverse then lookup_transform squad s k (PFrame i) else lookup_transform squad s i (PFrame k)) = Ok (TrRows ts rows).
(** All variables of the dataset have the coordinate x along the dimension n. *)
Definition shared_coord (ds : dataset) (n : string) (x : nd R) : Prop :=
  ds <> [] /\ lookup n ds = None /\ forall v d, In (v, d) ds -> lookup n (da_coords d) = Some (Co [n] (CNum x)).

(* ---- proofs ---- *)
Lemma stamps_sampled x n (disc : bool) : (forall i j, i < j < n -> (dat x [i] < dat x [j])%R) -> (if disc then 1 <= n else 2 <= n) -> sampled (stamp_list x n) disc.
Proof.
  intros H N. assert (L : List.length (stamp_list x n) = n) by (unfold stamp_list; rewrite map_length, seq_length; auto). split.
  - assert (E : forall k y, nth_error (stamp_list x n) k = Some y -> k < n /\ y = dat x [k]).
    { intros k y E. assert (k < n) by (rewrite <- L; apply nth_error_Some; congruence). split; auto.
      unfold stamp_list in E. rewrite nth_error_map, (nth_error_nth' _ 0) in E by (rewrite seq_length; auto). rewrite seq_nth in E by auto. cbn in E. congruence. }
    intros i j a b Hij Ha Hb. apply E in Ha as (A1 & ->). apply E in Hb as (B1 & ->). apply H. lia.
  - destruct disc; [|lia]. intros E. rewrite E in L. cbn in L. lia.
Qed.
Lemma made_moving squad s c p k x n : reachable s -> c_parent c = Some p -> denotes s p k -> squad_exact squad -> c_ts c = Some x ->
  good_samples (c_tr c) (c_ro c) x n (c_discrete c) ->
  exists s' i, new_frame s c = (s', Ok i) /\ child_with_samples squad s' i k (c_inverse c) (stamp_list x n) (sample_rows (c_tr c) (c_ro c) n).
Proof.
  intros Rs Hp Hd Hsq Hx (Sx & St & Sr & Inc & Nn). pose proof (reachable_Inv s Rs) as HI. pose proof (denotes_resolve s p k Hd) as Hr.
  set (ts := stamp_list x n) in *. set (rows := sample_rows (c_tr c) (c_ro c) n).
  assert (Lt : List.length ts = n) by (unfold ts, stamp_list; rewrite map_length, seq_length; auto).
  assert (Lr : List.length rows = n) by (unfold rows, sample_rows; rewrite map_length, seq_length; auto).
  assert (Sam : sampled ts (c_discrete c)) by (apply stamps_sampled; auto).
  assert (Hu : Forall (fun g => hunit (snd g)) rows).
  { apply Forall_forall. intros g Hg. unfold rows, sample_rows in Hg. apply in_map_iff in Hg as (i & <- & Hi). apply in_seq in Hi. unfold sample_row. cbn [snd].
    destruct (c_ro c) as [a|]; [apply (Sr a eq_refl); lia|]. vcomp; lra. }
  assert (ET : arg_vecs (c_tr c) (Some n) = Ok (map fst rows)).
  { unfold arg_vecs. unfold rows, sample_rows. rewrite map_map. destruct (c_tr c) as [a|].
    - rewrite (proj2 (shape_eqb_true _ _) (St a eq_refl)). reflexivity.
    - f_equal. clear. generalize 0. induction n as [|n IH]; intros j; [reflexivity|]. cbn [repeat seq map]. f_equal. apply IH. }
  assert (ER : arg_quats (c_ro c) (Some n) = Ok (map snd rows)).
  { unfold arg_quats. unfold rows, sample_rows. rewrite map_map. destruct (c_ro c) as [a|].
    - rewrite (proj2 (shape_eqb_true _ _) (proj1 (Sr a eq_refl))). reflexivity.
    - f_equal. clear. generalize 0. induction n as [|n IH]; intros j; [reflexivity|]. cbn [repeat seq map]. f_equal. apply IH. }
  assert (EC : forall l : list (vec3 * quat), combine (map fst l) (map snd l) = l) by (intros l; induction l as [|(a & b) l IH]; cbn; congruence).
  assert (EX : arg_ts (c_ts c) = Ok (Some ts)) by (rewrite Hx; unfold arg_ts; rewrite Sx; reflexivity).
  destruct (c_inverse c) eqn:Inv0.
  - destruct (new_attached s c p k (TMoving ts (map fst (map ginv rows)) (map snd (map ginv rows)) false) HI Hp Hr) as (s' & HE & HI' & Hsz & Hpar & Htf).
    + rewrite Inv0. unfold init_arrays. rewrite EX. cbn [bind option_map]. rewrite Lt, ET. cbn [bind]. rewrite ER. cbn [bind]. rewrite EC.
      rewrite (traverse_ok inv_row ginv); [reflexivity|]. intros (t & r) I. apply inv_row_ginv. rewrite Forall_forall in Hu. exact (Hu _ I).
    + congruence.
    + split; [|congruence]. intros _. eauto.
    + exists s', (size s). split; auto. split; auto. cbn [set_disc] in Htf.
      rewrite (lookup_child_moving squad s' k (size s) ts (map fst (map ginv rows)) (map snd (map ginv rows)) (c_discrete c) HI'); auto; try lia.
      * do 2 f_equal. rewrite EC. clear -Hu. induction Hu as [|(t & r) l H _ IH]; cbn [map]; auto. f_equal; auto. apply (ginv_ginv (t, r)). apply hunit_nz. auto.
      * rewrite !map_length. exact (eq_trans Lr (eq_sym Lt)).
      * rewrite !map_length. exact (eq_trans Lr (eq_sym Lt)).
      * apply Forall_forall. intros q Hq. apply in_map_iff in Hq as (g & <- & Hg). apply in_map_iff in Hg as ((t & r) & <- & Hh).
        rewrite Forall_forall in Hu. cbn [ginv snd]. apply hunit_inv. exact (Hu _ Hh).
  - destruct (new_attached s c p k (TMoving ts (map fst rows) (map snd rows) false) HI Hp Hr) as (s' & HE & HI' & Hsz & Hpar & Htf).
    + rewrite Inv0. unfold init_arrays. rewrite EX. cbn [bind option_map]. rewrite Lt, ET. cbn [bind]. rewrite ER. reflexivity.
    + congruence.
    + split; [|congruence]. intros _. eauto.
    + exists s', (size s). split; auto. split; auto. cbn [set_disc] in Htf.
      rewrite (lookup_parent_moving squad s' k (size s) ts (map fst rows) (map snd rows) (c_discrete c) HI'); auto; try lia.
      * rewrite EC. reflexivity.
      * rewrite map_length. exact (eq_trans Lr (eq_sym Lt)).
      * rewrite map_length. exact (eq_trans Lr (eq_sym Lt)).
      * apply Forall_forall. intros q Hq. apply in_map_iff in Hq as (g & <- & Hg). rewrite Forall_forall in Hu. auto.
Qed.

Lemma ds_coord_ok ds n x : shared_coord ds n x -> ds_get ds n = Ok x.
Proof.
  intros (N & L & H). unfold ds_get. rewrite L. destruct ds as [|(v & d) ds]; [congruence|]. cbn [ds_coord]. unfold da_get.
  rewrite (H v d (or_introl eq_refl)). reflexivity.
Qed.
(* ------------------------------------------------------------------ C59 *)
(** from_dataset: the frame has the samples of the two variables. *)
Theorem C59_dataset : forall squad s ds tn rn xn dt dr x n p k name inverse discrete,
  reachable s -> squad_exact squad -> denotes s p k ->
  lookup tn ds = Some dt -> lookup rn ds = Some dr -> shared_coord ds xn x ->
  good_samples (Some (da_data dt)) (Some (da_data dr)) x n discrete ->
  exists s' i, from_dataset s ds tn rn xn (Some p) name inverse discrete = (s', Ok i) /\
    child_with_samples squad s' i k inverse (stamp_list x n) (sample_rows (Some (da_data dt)) (Some (da_data dr)) n).
Proof.
  intros squad s ds tn rn xn dt dr x n p k name inverse discrete Rs Hsq Hd Ht Hr Hx G. unfold from_dataset.
  assert (E1 : ds_get ds tn = Ok (da_data dt)) by (unfold ds_get; rewrite Ht; reflexivity).
  assert (E2 : ds_get ds rn = Ok (da_data dr)) by (unfold ds_get; rewrite Hr; reflexivity).
  rewrite E1. cbn [bind]. rewrite E2. cbn [bind]. rewrite (ds_coord_ok ds xn x Hx). cbn [bind].
  apply (made_moving squad s (Ctor name (Some p) (Some (da_data dt)) (Some (da_data dr)) (Some x) inverse discrete) p k x n Rs eq_refl Hd Hsq eq_refl G).
Qed.
(** from_translation_dataarray: no rotation. *)
Theorem C59_translation : forall squad s d xn x n p k name inverse discrete,
  reachable s -> squad_exact squad -> denotes s p k -> lookup xn (da_coords d) = Some (Co [xn] (CNum x)) ->
  good_samples (Some (da_data d)) None x n discrete ->
  exists s' i, from_translation_dataarray s d xn (Some p) name inverse discrete = (s', Ok i) /\
    child_with_samples squad s' i k inverse (stamp_list x n) (sample_rows (Some (da_data d)) None n).
Proof.
  intros squad s d xn x n p k name inverse discrete Rs Hsq Hd Hx G. unfold from_translation_dataarray, da_get. rewrite Hx. cbn [stamps_of co_vals].
  apply (made_moving squad s (Ctor name (Some p) (Some (da_data d)) None (Some x) inverse discrete) p k x n Rs eq_refl Hd Hsq eq_refl G).
Qed.
(** from_rotation_dataarray: no translation. *)
Theorem C59_rotation : forall squad s d xn x n p k name inverse discrete,
  reachable s -> squad_exact squad -> denotes s p k -> lookup xn (da_coords d) = Some (Co [xn] (CNum x)) ->
  good_samples None (Some (da_data d)) x n discrete ->
  exists s' i, from_rotation_dataarray s d xn (Some p) name inverse discrete = (s', Ok i) /\
    child_with_samples squad s' i k inverse (stamp_list x n) (sample_rows None (Some (da_data d)) n).
Proof.
  intros squad s d xn x n p k name inverse discrete Rs Hsq Hd Hx G. unfold from_rotation_dataarray, da_get. rewrite Hx. cbn [stamps_of co_vals].
  apply (made_moving squad s (Ctor name (Some p) None (Some (da_data d)) (Some x) inverse discrete) p k x n Rs eq_refl Hd Hsq eq_refl G).
Qed.

(** A frame rebuilt from the dataset of a looked-up moving transform coincides with the
    frame it was looked up for: same lookup into the reference frame.  Missing: lookups
    without timestamps (refuted below). *)
Theorem C59_rebuild_partial : forall squad w outof i into j ts rows name discrete,
  reachable (frames w) -> squad_unit squad -> squad_exact squad ->
  denotes (frames w) outof i -> denotes (frames w) into j -> unit_way (frames w) i j ->
  lookup_transform squad (frames w) i into = Ok (TrRows ts rows) ->
  (forall a b x y, a < b -> nth_error ts a = Some x -> nth_error ts b = Some y -> (x < y)%R) -> 2 <= List.length ts ->
  exists w1 tr ro s' i', lookup_transform_ds squad w outof into = (w1, Ok (tr, ro)) /\ frames w1 = frames w /\
    from_dataset (frames w1) [("translation", tr); ("rotation", ro)]%string "translation" "rotation" "time" (Some into) name false discrete = (s', Ok i') /\
    parent_of s' i' = Some j /\ lookup_transform squad s' i' (PFrame j) = Ok (TrRows ts rows).
Proof.
  intros squad w outof i into j ts rows name discrete Rs Hsu Hse Di Dj U L Inc N.
  destruct (C17_moving_lookup squad (frames w) i into j ts rows Rs Hsu) as (Len & Un); auto. { destruct Di as [(-> & H)|(n & -> & H)]; [exact H|]. apply denotes_frame with (a := PName n); auto. right; eauto. }
  assert (Lk : lookup_transform squad (frames w) i (PFrame j) = Ok (TrRows ts rows)).
  { unfold lookup_transform in L |- *. rewrite (denotes_resolve _ _ _ Dj) in L. rewrite resolve_frame by (apply denotes_frame with (a := into); auto). exact L. }
  unfold lookup_transform_ds. rewrite (denotes_resolve _ _ _ Dj), (denotes_resolve _ _ _ Di). cbn [bind]. rewrite Lk. cbn [bind].
  unfold make_dataset. destruct (alloc w _) as [w1 l1] eqn:A1. destruct (alloc w1 _) as [w2 l2] eqn:A2. cbn [tr_ts].
  eexists w2, _, _. 
  assert (F : frames w2 = frames w). { unfold alloc in *. injection A1 as <- _. injection A2 as <- _. reflexivity. }
  rewrite F.
  set (dt := DA (tr_t (TrRows ts rows)) _ _ _ _). set (dr := DA (as_float (tr_r (TrRows ts rows))) _ _ _ _).
  destruct (C59_dataset squad (frames w) [("translation", dt); ("rotation", dr)]%string "translation" "rotation" "time" dt dr (of_list ts) (List.length ts) into j name false discrete)
    as (s' & i' & E & Hp & Hl); auto.
  - split; [discriminate|]. split; [reflexivity|]. intros v d [E|[E|[]]]; injection E as <- <-; reflexivity.
  - split; [reflexivity|]. split; [intros a E; injection E as <-; reflexivity|]. split; [|split].
    + intros a E. injection E as <-. split; [reflexivity|]. intros k Hk. unfold dr. cbn [da_data tr_r as_float dat shp quat_at app last removelast hd comp4].
      destruct (nth_error ts k) as [x|] eqn:Ex; [|apply nth_error_None in Ex; lia].
      destruct (nth_error rows k) as [(t & r)|] eqn:Er; [|apply nth_error_None in Er; lia].
      destruct (Un k x t r Ex Er) as (Hr & _). unfold quat_at. cbn. unfold rowq. rewrite (nth_error_nth rows k _ Er). cbn. destruct r. exact Hr.
    + intros a b Hab. cbn [of_list dat hd]. apply (Inc a b); [lia| |]; apply nth_error_nth'; lia.
    + destruct discrete; lia.
  - exists s', i'. split; [reflexivity|]. split; [reflexivity|]. split; [exact E|]. split; [exact Hp|].
    replace (TrRows ts rows) with (TrRows (stamp_list (of_list ts) (List.length ts)) (sample_rows (Some (da_data dt)) (Some (da_data dr)) (List.length ts))); [exact Hl|].
    f_equal.
    + unfold stamp_list. cbn [of_list dat hd]. clear. induction ts as [|a ts IH]; [reflexivity|]. cbn [List.length seq map nth]. f_equal. rewrite <- seq_shift, map_map. exact IH.
    + unfold sample_rows. rewrite <- Len. unfold sample_row, dt, dr. cbn [da_data]. clear. 
      apply nth_ext. intros k. rewrite nth_error_map. destruct (le_lt_dec (List.length rows) k) as [H|H].
      * rewrite (proj2 (nth_error_None (seq 0 _) k)) by (rewrite seq_length; lia). rewrite (proj2 (nth_error_None rows k)) by lia. reflexivity.
      * rewrite (nth_error_nth' (seq 0 (List.length rows)) 0) by (rewrite seq_length; lia). rewrite seq_nth by lia. cbn [option_map].
        rewrite (nth_error_nth' rows (v0, q1) H). unfold vec_at, quat_at. cbn. unfold rowv, rowq.
        destruct (nth k rows (v0, q1)) as [t r] eqn:E. cbn. destruct t, r. cbn. reflexivity.
Qed.
(** A dataset made from a lookup between static frames has no timestamps: it cannot be
    turned back into a frame (KeyError), and nothing changes. *)
Theorem C59_rebuild_static_refuted : forall squad w outof i into j t r p name inverse discrete,
  denotes (frames w) outof i -> denotes (frames w) into j -> reachable (frames w) ->
  lookup_transform squad (frames w) i into = Ok (TrStatic t r) ->
  exists w1 tr ro, lookup_transform_ds squad w outof into = (w1, Ok (tr, ro)) /\
    from_dataset (frames w1) [("translation", tr); ("rotation", ro)]%string "translation" "rotation" "time" p name inverse discrete = (frames w1, Raise KeyError).
Proof.
  intros squad w outof i into j t r p name inverse discrete Di Dj Rs L.
  assert (Lk : lookup_transform squad (frames w) i (PFrame j) = Ok (TrStatic t r)).
  { unfold lookup_transform in L |- *. rewrite (denotes_resolve _ _ _ Dj) in L. rewrite resolve_frame by (apply denotes_frame with (a := into); auto). exact L. }
  unfold lookup_transform_ds. rewrite (denotes_resolve _ _ _ Dj), (denotes_resolve _ _ _ Di). cbn [bind]. rewrite Lk. cbn [bind].
  unfold make_dataset. destruct (alloc w _) as [w1 l1] eqn:A1. destruct (alloc w1 _) as [w2 l2] eqn:A2. cbn [tr_ts].
  eexists w2, _, _. split; reflexivity.
Qed.
(** A missing variable, coordinate or dimension is reported before anything is created. *)
Definition absent (ds : dataset) (n : string) : Prop :=
  lookup n ds = None /\ forall v d, In (v, d) ds -> lookup n (da_coords d) = None /\ ~ In n (da_dims d).
Lemma index_absent n l : ~ In n l -> index_of n l = Raise ValueError.
Proof.
  induction l as [|m l IH]; intros H; [reflexivity|]. cbn [index_of]. destruct (String.eqb_spec n m) as [->|N]; [destruct H; left; auto|].
  rewrite IH; [reflexivity|]. intros I. apply H. right. auto.
Qed.
Lemma absent_get ds n : absent ds n -> ds_get ds n = Raise KeyError.
Proof.
  intros (L & H). unfold ds_get. rewrite L. clear L. induction ds as [|(v & d) ds IH]; [reflexivity|]. cbn [ds_coord]. unfold da_get.
  destruct (H v d (or_introl eq_refl)) as (A & B). rewrite A, index_absent by auto. apply IH. intros v' d' I. apply (H v' d'). right. auto.
Qed.
Theorem C59_missing_refused : forall s ds tn rn xn p name inverse discrete, absent ds tn \/ absent ds rn \/ absent ds xn ->
  exists e, from_dataset s ds tn rn xn p name inverse discrete = (s, Raise e) /\ (absent ds tn -> e = KeyError).
Proof.
  intros s ds tn rn xn p name inverse discrete H. unfold from_dataset.
  destruct (ds_get ds tn) as [t|e] eqn:E1; cbn [bind]; [|exists e; split; auto; intros A; rewrite (absent_get _ _ A) in E1; congruence].
  assert (N : ~ absent ds tn) by (intros A; rewrite (absent_get _ _ A) in E1; discriminate).
  destruct (ds_get ds rn) as [r|e] eqn:E2; cbn [bind]; [|exists e; split; auto; tauto].
  destruct (ds_get ds xn) as [x|e] eqn:E3; cbn [bind]; [|exists e; split; auto; tauto].
  exfalso. destruct H as [A|[A|A]]; apply absent_get in A; congruence.
Qed.

(** from_rotation_matrix: between the frame and its parent, vectors are multiplied with
    the matrix and there is no translation. *)
Definition turned_by squad (s : state) (a b : nat) (m : nd R) : Prop :=
  exists r, hunit r /\ lookup_transform squad s a (PFrame b) = Ok (TrStatic (V3 0 0 0) r) /\
    forall v, srot r v = V3 (dat m [0; 0] * vx v + dat m [0; 1] * vy v + dat m [0; 2] * vz v)
                           (dat m [1; 0] * vx v + dat m [1; 1] * vy v + dat m [1; 2] * vz v)
                           (dat m [2; 0] * vx v + dat m [2; 1] * vy v + dat m [2; 2] * vz v).
Lemma lookup_parent_static squad s k i t r : Inv s -> i < size s -> parent_of s i = Some k ->
  transform_of s i = Some (TStatic t r) -> hn2 r <> 0%R ->
  lookup_transform squad s i (PFrame k) = Ok (TrStatic t r).
Proof.
  intros HI Hi Hp Hd Hr. pose proof HI as (W & HR).
  assert (Hk : k < size s) by exact (proj1 (wf_par s W i k Hp)).
  apply (lookup_static_iff squad s i (PFrame k) k _ _ HI Hi (resolve_frame s k Hk)).
  exists [i], [], k, (gmul gone (t, r)), gone. split; [apply walks_parent; auto|]. split; [econstructor; eauto; constructor|].
  split; [constructor|]. rewrite gmul_1_l. replace (ginv gone) with gone; [symmetry; apply gmul_1_l|].
  rewrite <- (gmul_1_r (ginv gone)). symmetry. apply gmul_inv_l, gnz_one.
Qed.
Theorem C59_matrix : forall squad frm s m p k name inverse, reachable s -> is_frm frm -> denotes s p k ->
  shp m = [3; 3] -> orthogonal (mat_of m) -> det3 (mat_of m) = 1%R ->
  exists s' i, from_rotation_matrix frm s m (Some p) name inverse = (s', Ok i) /\ parent_of s' i = Some k /\
    (if inverse then turned_by squad s' k i m else turned_by squad s' i k m).
Proof.
  intros squad frm s m p k name inverse Rs Hf Hd Sm Om Dm. destruct (Hf _ Om Dm) as (Hu & Hr).
  pose proof (reachable_Inv s Rs) as HI. pose proof (denotes_resolve s p k Hd) as Hk.
  unfold from_rotation_matrix. rewrite (proj2 (shape_eqb_true _ _) Sm). set (q := frm (mat_of m)) in *. clearbody q.
  assert (Hq : quat_at (quat_arr q) [] = q) by (destruct q; reflexivity).
  assert (Hv : forall v, srot q v = V3 (dat m [0; 0] * vx v + dat m [0; 1] * vy v + dat m [0; 2] * vz v)
                           (dat m [1; 0] * vx v + dat m [1; 1] * vy v + dat m [1; 2] * vz v)
                           (dat m [2; 0] * vx v + dat m [2; 1] * vy v + dat m [2; 2] * vz v)) by (intros v; rewrite Hr; reflexivity).
  set (c := Ctor name (Some p) None (Some (quat_arr q)) None inverse false).
  destruct (new_attached s c p k (if inverse then TStatic (fst (ginv (v0, q))) (snd (ginv (v0, q))) else TStatic v0 q) HI eq_refl Hk) as (s' & HE & HI' & Hsz & Hpar & Htf).
  - unfold init_arrays, c. cbn [c_ts c_tr c_ro c_inverse arg_ts bind option_map arg_vecs arg_quats]. cbn [shape_eqb quat_arr shp]. cbn. change (Nd [4] _) with (quat_arr q). rewrite Hq.
    destruct inverse; [|reflexivity]. rewrite inv_static_ginv by (apply hunit_nz; auto). reflexivity.
  - discriminate.
  - split; [intros E; destruct (E eq_refl)|]. intros (? & ? & ? & ? & E). destruct inverse; discriminate.
  - exists s', (size s). split; [exact HE|]. split; [exact Hpar|]. assert (G : gnz (v0, q)) by (apply hunit_nz; auto).
    destruct inverse; cbn [set_disc] in Htf; exists q; (split; [exact Hu|split; [|exact Hv]]).
    + rewrite (lookup_child_static squad s' k (size s) _ _ HI' ltac:(lia) Hpar Htf) by apply (gnz_inv (v0, q) G).
      rewrite <- (surjective_pairing (ginv (v0, q))), ginv_ginv by auto. reflexivity.
    + apply (lookup_parent_static squad s' k (size s) v0 q HI' ltac:(lia) Hpar Htf). auto.
Qed.
(** Matrices of other shapes, such as stacks of matrices, are refused; nothing changes. *)
Theorem C59_matrix_refused : forall frm s m p name inverse, shp m <> [3; 3] -> from_rotation_matrix frm s m p name inverse = (s, Raise ValueError).
Proof.
  intros frm s m p name inverse H. unfold from_rotation_matrix. destruct (shape_eqb (shp m) [3; 3]) eqn:E; [|reflexivity]. apply shape_eqb_true in E. contradiction.
Qed.

(* ---- the hypotheses can be met ---- *)
Definition ex_tr : darr := DA (arr2 3 [[1;2;3];[4;5;6]]%R) ["time"; "cartesian_axis"]%string [("time", Co ["time"] (CNum (arr1 [3;5]%R)))]%string None 0.
Definition ex_ro : darr := DA (arr2 4 [[0;1;0;0];[0;0;0;1]]%R) ["time"; "quaternion_axis"]%string [("time", Co ["time"] (CNum (arr1 [3;5]%R)))]%string None 0.
Example C59_example_dataset : reachable mov_lit /\ squad_exact hold_squad /\ denotes mov_lit (PName "m") 1 /\
  shared_coord [("t", ex_tr); ("r", ex_ro)]%string "time" (arr1 [3;5]%R) /\
  good_samples (Some (da_data ex_tr)) (Some (da_data ex_ro)) (arr1 [3;5]%R) 2 false.
Proof.
  split; [exact mov_lit_reachable|]. split; [exact hold_squad_exact|]. split; [right; exists "m"%string; auto|].
  split; [split; [discriminate|]; split; [reflexivity|]; intros v d [E|[E|[]]]; injection E as <- <-; reflexivity|].
  split; [reflexivity|]. split; [intros a E; injection E as <-; reflexivity|].
  split; [|split; [intros a b Hab; assert (a = 0 /\ b = 1) as (-> & ->) by lia; cbn; lra|lia]].
  intros a E. injection E as <-. split; [reflexivity|]. intros [|[|i]] Hi; [| |lia]; vcomp; cbn; lra.
Qed.
Example C59_example_matrix : reachable ex_lit /\ is_frm shepperd /\ denotes ex_lit (PName "b") 2 /\
  let m := arr2 3 [[0;-1;0];[1;0;0];[0;0;1]]%R in shp m = [3; 3] /\ orthogonal (mat_of m) /\ det3 (mat_of m) = 1%R.
Proof.
  split; [exact ex_lit_reachable|]. split; [exact shepperd_ok|]. split; [right; exists "b"%string; auto|]. cbv zeta. split; [reflexivity|]. split.
  - intros [a b c] [d e f]. unfold mat_of, mapply, vdot, vec_at, arr2. cbn. ring.
  - unfold mat_of, det3, vdot, vcross, vec_at, arr2. cbn. ring.
Qed.
Example C59_example_rebuild : let w := World mov_lit [] in exists ts rows,
  denotes (frames w) (PName "m") 1 /\ denotes (frames w) (PName "world") 0 /\ unit_way (frames w) 1 0 /\
  lookup_transform hold_squad (frames w) 1 (PName "world") = Ok (TrRows ts rows) /\
  (forall a b x y, a < b -> nth_error ts a = Some x -> nth_error ts b = Some y -> (x < y)%R) /\ 2 <= List.length ts.
Proof.
  cbv zeta. cbn [frames]. exists [0;1;3]%R, (combine [V3 0 0 0; V3 1 0 0; V3 1 2 0] [Qt 1 0 0 0; Qt 0 1 0 0; Qt 0 0 1 0])%R.
  split; [right; exists "m"%string; auto|]. split; [right; exists "world"%string; auto|].
  assert (S : sampled [0;1;3]%R false).
  { split; [|cbn; lia]. intros [|[|[|i]]] [|[|[|j]]] a b Hij Ha Hb; cbn in Ha, Hb; try lia; try (injection Ha as <-; injection Hb as <-; lra); try (destruct i; discriminate); destruct j; discriminate. }
  assert (U : Forall hunit [Qt 1 0 0 0; Qt 0 1 0 0; Qt 0 0 1 0]%R) by (repeat constructor; vcomp; lra).
  split; [|split; [|split; [apply S|cbn; lia]]].
  - intros k d _ Hd. eapply mov_unit; eauto.
  - match goal with |- _ = ?r => change (lookup_transform hold_squad mov_lit 1 (PFrame 0) = r) end.
    apply (lookup_parent_moving hold_squad mov_lit 0 1 _ _ _ false (reachable_Inv _ mov_lit_reachable)); auto; try reflexivity; [unfold size; cbn; lia|exact hold_squad_exact].
Qed.

Print Assumptions C59_dataset.
Print Assumptions C59_rebuild_partial.
Print Assumptions C59_matrix.
