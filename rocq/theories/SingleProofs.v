(** A single labelled vector, point or orientation through moving frames. *)
From Coq Require Import Reals String List Arith Bool ZArith Lia Lra.
From Verif Require Import Base Quat SpecQuat QuatProofs NdArray Frames SpecForest FrameProofs WalkProofs
  Matcher SpecLookup LookupProofs RegistryProofs MovingProofs TimeProofs CtorProofs InverseProofs RouteProofs
  Examples PropForest PropLookup PropMoving SpecConsist RelProofs
  Transform SpecArray NdProofs RotProofs ArrProofs ArrTransProofs ArrStaticProofs PropTransform PropRotate
  Coord Velocity TopLevel TopProofs SpecTop TopStep SpecSeries SeriesProofs.
Import ListNotations.
Open Scope nat_scope.
Open Scope list_scope.

Section Squad.
Variable squad : list R -> list quat -> R -> res quat.

(** Image of a single item in row k. *)
Definition image1 (m : method) (x y : nd R) (k : nat) (t : vec3) (r : quat) : Prop :=
  match m with
  | Vectors => vec_at y [k] = srot r (vec_at x [])
  | Points => vec_at y [k] = smove t r (vec_at x [])
  | Quaternions => quat_at y [k] = hmul r (quat_at x [])
  end.

Lemma undo_none (a : nd R) x (o : option (list R)) : (d <- undo_swap a (Some 0%Z) ;; Ok (d, o)) = Ok x -> 0 < ndim a ->
  shp (fst x) = shp a /\ (forall ix, dat (fst x) ix = dat a ix) /\ snd x = o.
Proof.
  intros H Hn. destruct (undo0 a Hn) as (o' & E & S & D). rewrite E in H. cbn [bind] in H. injection H as <-. auto.
Qed.
Lemma swap_dim (a b : nd R) : (d <- undo_swap a (Some 0%Z) ;; Ok d) = Ok b -> 0 < ndim a.
Proof.
  unfold undo_swap, swapaxes. intros H. destruct (ndim a) eqn:E; [|lia]. apply bind_ok in H as (? & H & _). apply bind_ok in H as (? & H & _).
  unfold norm_axis in H. cbn in H. discriminate.
Qed.
(** time_axis=None and time_axis=0 are the same without timestamps. *)
Lemma call_none m s i arr j out o : call_method squad m s i arr j (-1) (Some 0%Z) None = Ok (out, o) ->
  exists out', call_method squad m s i arr j (-1) None None = Ok (out', o) /\ shp out' = shp out /\ forall ix, dat out' ix = dat out ix.
Proof.
  assert (P : forall nn, prepare squad s i arr (PFrame j) (-1) nn (Some 0%Z) None = prepare squad s i arr (PFrame j) (-1) nn None None) by reflexivity.
  assert (G : forall (e : nd R) (t : option (list R)) , (d <- undo_swap e (Some 0%Z) ;; Ok (d, t)) = Ok (out, o) -> 
    exists out', (d <- undo_swap e None ;; Ok (d, t)) = Ok (out', o) /\ shp out' = shp out /\ forall ix, dat out' ix = dat out ix).
  { intros e t H. assert (Hn : 0 < ndim e). { apply bind_ok in H as (b & H & _). apply (swap_dim e b). rewrite H. reflexivity. }
    destruct (undo_none _ _ _ H Hn) as (A & B & C). cbn in A, B, C. exists e. cbn [undo_swap bind]. rewrite C. auto. }
  destruct m; cbn [call_method]; unfold transform_vectors, transform_points, transform_quaternions; rewrite P; clear P; intros H.
  - apply bind_ok in H as ((tr & b) & E & H). rewrite E. cbn [bind].
    apply bind_ok in H as (c & Ec & H). rewrite Ec. cbn [bind]. apply G. exact H.
  - apply bind_ok in H as ((tr & b) & E & H). rewrite E. cbn [bind].
    apply bind_ok in H as (c & Ec & H). rewrite Ec. cbn [bind].
    apply bind_ok in H as (e & Ee & H). rewrite Ee. cbn [bind]. apply G. exact H.
  - apply bind_ok in H as ((tr & b) & E & H). rewrite E. cbn [bind].
    apply bind_ok in H as (b' & Eb & H). rewrite Eb. cbn [bind].
    apply bind_ok in H as (qa & Eq & H). rewrite Eq. cbn [bind].
    apply bind_ok in H as (c & Ec & H). rewrite Ec. cbn [bind].
    apply bind_ok in H as (e & Ee & H). rewrite Ee. cbn [bind]. apply G. exact H.
Qed.
Lemma call_single m s i arr j l rows : lookup_transform squad s i (PFrame j) = Ok (TrRows l rows) -> length rows = length l ->
  (forall k, k < length l -> hunit (rowq rows k)) -> shp arr = [ncomp m] ->
  exists out, call_method squad m s i arr j (-1) None None = Ok (out, Some l) /\ shp out = [length l; ncomp m] /\
    forall k, k < length l -> image1 m arr out k (rowv rows k) (rowq rows k).
Proof.
  intros H L Hu Hs.
  assert (G : exists out, call_method squad m s i arr j (-1) (Some 0%Z) None = Ok (out, Some l) /\ shp out = [length l; ncomp m] /\
    forall k, k < length l -> image1 m arr out k (rowv rows k) (rowq rows k)).
  { destruct m; [exact (vectors_single squad s i arr (PFrame j) l rows H L Hu Hs) | exact (points_single squad s i arr (PFrame j) l rows H L Hu Hs) |
                 exact (quats_single squad s i arr (PFrame j) l rows H L Hs)]. }
  destruct G as (out & E & So & Do). destruct (call_none _ _ _ _ _ _ _ E) as (out' & E' & S' & D'). exists out'. split; [exact E'|]. split; [congruence|].
  intros k Hk. specialize (Do k Hk). destruct m; cbn [image1] in *; rewrite <- Do; unfold vec_at, quat_at; rewrite !D'; reflexivity.
Qed.

(** The result of transforming a one-dimensional DataArray: a new first dimension "time". *)
Lemma single_step (m : method) w d into outof axis ts i j dm l rows : reachable (frames w) -> squad_unit squad ->
  data_array w d -> from m w d outof i -> frame (frames w) i -> denotes (frames w) into j -> unit_way (frames w) i j ->
  shp (da_data d) = [ncomp m] -> da_dims d = [dm] -> dm <> "time"%string -> axis = None \/ axis = Some (-1)%Z -> ts = TNone \/ ts = TFalse ->
  lookup_transform squad (frames w) i (PFrame j) = Ok (TrRows l rows) ->
  exists w' d', transform squad m w (Lab d) into outof None axis ts None = (w', Ok (RLab d')) /\
    attrs_kept w w' /\ data_array w' d' /\ length (dicts w) <= da_attrs d' /\
    dict_at w' (da_attrs d') = relabel m (name_of (frames w) j) (dict_at w (da_attrs d)) /\
    da_dims d' = ["time"%string; dm] /\ da_name d' = da_name d /\
    da_coords d' = dict_set "time"%string (Co ["time"%string] (CNum (of_list l))) (da_coords d) /\
    shp (da_data d') = [length l; ncomp m] /\
    forall k x, nth_error l k = Some x -> exists t r, rel squad (frames w) x i j (t, r) /\ image1 m (da_data d) (da_data d') k t r.
Proof.
  intros HR Hsq Hda Hfrom Hi Hj Hw Hs Hdm Htm Hax Hts Hl.
  pose proof (denotes_frame _ _ _ HR Hj) as Hjf. assert (Hjd : denotes (frames w) (PFrame j) j) by (left; auto).
  destruct (C17_moving_lookup squad (frames w) i (PFrame j) j l rows HR Hsq Hi Hjd Hw Hl) as (L & HM).
  assert (Hu : forall k, k < length l -> hunit (rowq rows k)).
  { intros k Hk. destruct (nth_len l k Hk) as (x & Hx). pose proof (rows_at rows k ltac:(lia)) as Hr. apply (HM k x _ _ Hx Hr). }
  destruct (call_single m (frames w) i (da_data d) j l rows Hl L Hu Hs) as (out & Ec & So & Do).
  unfold transform, maybe_unpack. destruct (alloc w (dict_at w (da_attrs d))) as [w1 l1] eqn:Hal.
  destruct (dict_alloc _ _ _ _ Hal) as (Hfr & El & Hlen & Hd & Hold).
  assert (Hnd : ndim (da_data d) = 1) by (unfold ndim; rewrite Hs; reflexivity).
  replace (or_default axis (-1)) with (-1)%Z by (destruct Hax as [-> | ->]; reflexivity).
  assert (Et : tuple_at (da_dims d) (-1) = Ok dm) by (rewrite Hdm; reflexivity). rewrite Et. cbn [bind].
  replace (match ts with
            | TName n => _ | TNone => _ | TFalse => _ | TArr _ => _ end) with
     (Ok (Un (da_data d) (-1) None None None (Some (da_coords d, da_dims d, da_name d, l1)))).
  2:{ destruct Hts as [-> | ->]; [rewrite Hnd; reflexivity | reflexivity]. }
  cbn [bind same_axis_check u_ts u_lab u_arr u_axis u_time_axis u_time_dim].
  assert (Eo : match outof with
          | Some o => resolve_rf (frames w1) o
          | None => match lookup (what_of m) (dict_at w1 l1) with
                    | Some v => resolve_rf (frames w1) (as_pref v)
                    | None => Raise ValueError
                    end
          end = Ok i).
  { rewrite Hfr. destruct outof as [o|]; cbn [from] in Hfrom.
    - apply denotes_resolve. exact Hfrom.
    - destruct Hfrom as (v & Hv & Hlv). rewrite Hd. unfold attr in Hv. rewrite Hv. cbn [as_pref].
      apply denotes_resolve. right. eauto. }
  rewrite Eo. cbn [bind]. rewrite Hfr. rewrite (denotes_resolve _ _ _ Hj). cbn [bind]. rewrite Ec. cbn [make_dataarray].
  change (write w1 l1 _) with (write w1 l1 (relabel m (name_of (frames w) j))).
  set (w2 := write w1 l1 (relabel m (name_of (frames w) j))).
  pose proof Hda as (D1 & D2 & D3 & D4).
  set (tc := Co ["time"%string] (CNum (of_list l))).
  set (cs := dict_set "time"%string tc (da_coords d)).
  set (dims' := "time"%string :: da_dims d).
  assert (Hfit : forall nm c, In (nm, c) cs -> forall l3, Forall2 (dim_size (DA out dims' cs (da_name d) l3)) (co_dims c) (coord_size c)).
  { intros nm c Hin l3.
    assert (Hc : c = tc \/ In (nm, c) (da_coords d)).
    { unfold cs in Hin. clear - Hin. revert Hin. generalize "time"%string. intros tm Hin. induction (da_coords d) as [|[n0 c0] cs IH]; cbn [dict_set] in Hin.
      - destruct Hin as [E|[]]. left. congruence.
      - destruct (String.eqb _ _).
        + destruct Hin as [E|E]; [left; congruence|right; right; auto].
        + destruct Hin as [E|E]; [right; left; congruence|]. destruct (IH E); auto. right. right. auto. }
    destruct Hc as [->|Hc].
    - constructor; [|constructor]. exists 0. unfold dims'. cbn [da_dims da_data nth_error]. rewrite So. split; [reflexivity|].
      cbn. reflexivity.
    - specialize (D3 _ _ Hc). assert (Imp : forall n0 sz, dim_size d n0 sz -> dim_size (DA out dims' cs (da_name d) l3) n0 sz); [|clear - D3 Imp; induction D3; constructor; auto].
      intros n0 sz (k & A & B). exists (S k). unfold dims'.
      cbn [da_dims da_data nth_error]. rewrite So. rewrite Hdm in *. rewrite Hs in B. destruct k as [|k]; [auto|destruct k; discriminate]. }
  assert (Hnodup : NoDup dims').
  { unfold dims'. rewrite Hdm. constructor; [|constructor; [intros []|constructor]]. intros [E|[]]. congruence. }
  assert (Ex : exists w3 l3, make_xr w2 out cs dims' (da_name d) l1 = (w3, Ok (DA out dims' cs (da_name d) l3)) /\ alloc w2 (dict_at w2 l1) = (w3, l3)).
  { unfold make_xr. replace (length dims' =? ndim out) with true by (symmetry; apply Nat.eqb_eq; unfold dims', ndim; rewrite So, Hdm; reflexivity).
    rewrite (distinct_nodup _ Hnodup). replace (forallb _ cs) with true.
    - cbn [andb]. destruct (alloc w2 (dict_at w2 l1)) as [w3 l3]. eauto.
    - symmetry. apply forallb_forall. intros [nm c] Hin. cbn [snd].
      apply (fits_ok (DA out dims' cs (da_name d) 0)); [exact Hnodup|exact (Hfit nm c Hin 0)|reflexivity]. }
  destruct Ex as (w3 & l3 & Em & Ea). rewrite Em. cbn [bind]. exists w3, (DA out dims' cs (da_name d) l3).
  destruct (dict_alloc _ _ _ _ Ea) as (Hfr3 & El3 & Hlen3 & Hd3 & Hold3). unfold w2 in *. rewrite length_write in *.
  split; [reflexivity|]. split.
  { split; [rewrite Hfr3; exact Hfr|]. split; [lia|]. intros k Hk. rewrite Hold3 by lia. rewrite dict_write.
    replace (l1 =? k) with false by (symmetry; apply Nat.eqb_neq; lia). apply Hold. auto. }
  split.
  { split; [cbn; rewrite Hdm; unfold ndim; rewrite So; reflexivity|]. split; [exact Hnodup|]. split; [|cbn; lia]. intros n c Hn. apply Hfit with (nm := n). exact Hn. }
  split; [cbn; lia|]. split.
  { cbn [da_attrs]. rewrite Hd3, dict_write, Nat.eqb_refl. replace (l1 <? length (dicts w1)) with true by (symmetry; apply Nat.ltb_lt; lia). rewrite Hd. reflexivity. }
  cbn [da_dims da_name da_coords da_data]. unfold dims'. rewrite Hdm. split; [reflexivity|]. split; [reflexivity|]. split; [reflexivity|]. split; [exact So|].
  intros k x Hk. pose proof (nth_lt _ _ _ Hk) as Hlt. exists (rowv rows k), (rowq rows k). split; [|apply Do; auto].
  apply (lookup_rel squad (frames w) i (PFrame j) j _ x _ _ HR Hsq Hi Hjd Hw Hl). exists k. split; auto. apply rows_at. lia.
Qed.
End Squad.
