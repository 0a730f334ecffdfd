(** Property C55: labels under transform_coordinates. *)
From Coq Require Import Reals String List Arith Bool ZArith Lia Lra.
From Verif Require Import Base Quat SpecQuat QuatProofs NdArray Frames SpecForest FrameProofs WalkProofs
  Matcher SpecLookup LookupProofs RegistryProofs MovingProofs TimeProofs CtorProofs InverseProofs RouteProofs
  Examples PropForest PropLookup PropMoving
  Transform SpecArray NdProofs RotProofs ArrProofs ArrTransProofs ArrStaticProofs PropTransform PropRotate
  Coord PropCoord Velocity TopLevel TopProofs SpecTop TopStep.
Import ListNotations.
Open Scope nat_scope.

(* ---- specification ---- *)
(** The supported pairs of systems, the number of coordinates and the function. *)
Inductive conversion : string -> string -> nat -> (nd R -> Z -> res (nd R)) -> Prop :=
| conv_cp : conversion "cartesian" "polar" 2 cartesian_to_polar
| conv_pc : conversion "polar" "cartesian" 2 polar_to_cartesian
| conv_cs : conversion "cartesian" "spherical" 3 cartesian_to_spherical
| conv_sc : conversion "spherical" "cartesian" 3 spherical_to_cartesian.
(** The dimension name and labels of a system. *)
Inductive system_axis : string -> nat -> string -> list string -> Prop :=
| axis_c2 : system_axis "cartesian" 2 "cartesian_axis" ["x"; "y"]%string
| axis_c3 : system_axis "cartesian" 3 "cartesian_axis" ["x"; "y"; "z"]%string
| axis_p : system_axis "polar" 2 "polar_axis" ["r"; "phi"]%string
| axis_s : system_axis "spherical" 3 "spherical_axis" ["r"; "theta"; "phi"]%string.
(** The system the data is in: the argument, else the attribute. *)
Definition system_of (w : world) (d : darr) (outof : option string) (o : string) : Prop :=
  outof = Some o \/ (outof = None /\ attr w d "coordinate_system" = Some (Some o)).

(* ---- proofs ---- *)
Lemma cs_conversion o into n f : conversion o into n f -> cs_func o into = Ok f.
Proof. intros []; reflexivity. Qed.
Lemma cs_refused o into : (forall n f, ~ conversion o into n f) -> cs_func o into = Raise ValueError.
Proof.
  intros H. unfold cs_func.
  destruct (String.eqb_spec o "cartesian") as [ -> |_].
  - destruct (String.eqb_spec into "polar") as [ -> |_]; [exfalso; eapply H; constructor|].
    destruct (String.eqb_spec into "spherical") as [ -> |_]; [exfalso; eapply H; constructor|]. reflexivity.
  - destruct (String.eqb_spec o "polar") as [ -> |_].
    + destruct (String.eqb_spec into "cartesian") as [ -> |_]; [exfalso; eapply H; constructor|reflexivity].
    + destruct (String.eqb_spec o "spherical") as [ -> |_]; [|reflexivity].
      destruct (String.eqb_spec into "cartesian") as [ -> |_]; [exfalso; eapply H; constructor|reflexivity].
Qed.
Lemma check_len_inv a ax n k : check_len a ax n = Ok k -> norm_axis ax (ndim a) = Ok k /\ nth k (shp a) 0 = n.
Proof.
  unfold check_len. destruct (norm_axis ax (ndim a)) as [k'|e]; cbn [bind]; [|discriminate].
  destruct (Nat.eqb_spec (nth k' (shp a) 0) n); cbn [negb]; [|discriminate]. intros H; injection H as <-. auto.
Qed.
Lemma conversion_axis o into n f a ax ay : conversion o into n f -> norm_axis ax (ndim a) = norm_axis ay (ndim a) -> f a ax = f a ay.
Proof.
  intros H E. assert (C : forall m, check_len a ax m = check_len a ay m) by (intros m; unfold check_len; rewrite E; reflexivity).
  destruct H; unfold cartesian_to_polar, polar_to_cartesian, cartesian_to_spherical, spherical_to_cartesian; rewrite C; reflexivity.
Qed.
Lemma conversion_shape o into n f a k b : conversion o into n f -> k < ndim a -> f a (Z.of_nat k) = Ok b ->
  nth k (shp a) 0 = n /\ shp b = shp a.
Proof.
  intros H Hk E. assert (N : norm_axis (Z.of_nat k) (ndim a) = Ok k) by (apply axis_is_norm; auto; left; auto).
  assert (G : exists parts, List.length parts = n /\ nth k (shp a) 0 = n /\ b = stack parts k (remove_at k (shp a))).
  { destruct H; unfold cartesian_to_polar, polar_to_cartesian, cartesian_to_spherical, spherical_to_cartesian in E;
      (match type of E with context [check_len a ?x ?m] => destruct (check_len a x m) as [k'|e] eqn:C; cbn [bind] in E; [|discriminate] end);
      apply check_len_inv in C as (C1 & C2); rewrite N in C1; injection C1 as <-; cbv zeta in E;
      try (match type of E with (if ?c then _ else _) = _ => destruct c; [discriminate|] end);
      injection E as <-; eexists; (split; [|split; [exact C2|reflexivity]]); reflexivity. }
  destruct G as (parts & L & G & ->). split; auto. unfold ndim in Hk. unfold stack. cbn [shp]. rewrite L, <- G. apply insert_remove; auto.
Qed.
Lemma new_axis_ok into n new labels : system_axis into n new labels -> new_axis into n = Ok (new, labels) /\ List.length labels = n.
Proof. intros []; split; reflexivity. Qed.
Lemma conversion_labels o into n f : conversion o into n f -> exists new labels, system_axis into n new labels.
Proof. intros []; eexists; eexists; constructor. Qed.

Definition rename (old new : string) (l : list string) : list string := map (fun d => if String.eqb d old then new else d) l.
Lemma rename_nth old new l k j : NoDup l -> nth_error l k = Some old ->
  nth_error (rename old new l) j = if Nat.eqb j k then Some new else nth_error l j.
Proof.
  intros Hn Hk. unfold rename. rewrite nth_error_map. destruct (nth_error l j) as [x|] eqn:E; cbn [option_map].
  - destruct (String.eqb_spec x old) as [->|Hne].
    + assert (j = k). { eapply (proj1 (NoDup_nth_error l)); eauto; [|congruence]. apply nth_error_Some. congruence. } subst. rewrite Nat.eqb_refl. reflexivity.
    + destruct (Nat.eqb_spec j k) as [->|]; [congruence|reflexivity].
  - destruct (Nat.eqb_spec j k) as [->|]; [congruence|reflexivity].
Qed.
Lemma rename_nodup old new l k : NoDup l -> nth_error l k = Some old -> (forall j, nth_error l j = Some new -> j = k) -> NoDup (rename old new l).
Proof.
  intros Hn Hk Hf. apply NoDup_nth_error. intros i j Hi E. unfold rename in Hi. rewrite map_length in Hi.
  rewrite !(rename_nth old new l k) in E by auto.
  assert (Hi' : exists x, nth_error l i = Some x) by (destruct (nth_error l i) eqn:Q; eauto; apply nth_error_None in Q; lia).
  destruct Hi' as (x & Hx).
  destruct (Nat.eqb_spec i k) as [->|Ni], (Nat.eqb_spec j k) as [->|Nj].
  - reflexivity.
  - symmetry. apply Hf. auto.
  - apply Hf. congruence.
  - eapply (proj1 (NoDup_nth_error l)); eauto.
Qed.
Lemma lookup_filter {A} (f : string * A -> bool) m n c : NoDup (map fst m) ->
  (lookup n (filter f m) = Some c <-> lookup n m = Some c /\ f (n, c) = true).
Proof.
  induction m as [|[k v] m IH]; intros Hn; [cbn; intuition discriminate|]. inversion Hn as [|? ? H1 H2]; subst. cbn [filter lookup].
  destruct (f (k, v)) eqn:E; cbn [lookup]; destruct (String.eqb_spec n k) as [->|Hne]; rewrite ?IH; auto.
  - split; [intros H; injection H as <-; auto|tauto].
  - tauto.
  - split; [intros (H & _)|intros (H & F); injection H as <-; congruence]. exfalso. apply H1. apply in_map_iff. exists (k, c). split; auto. apply lookup_in; auto.
  - tauto.
Qed.

Theorem C55_relabel : forall w d into outof dim axis k o n f a old new labels,
  data_array w d -> NoDup (map fst (da_coords d)) -> picks d dim axis k ->
  system_of w d outof o -> conversion o into n f -> system_axis into n new labels ->
  f (da_data d) (Z.of_nat k) = Ok a ->
  nth_error (da_dims d) k = Some old -> (forall j, nth_error (da_dims d) j = Some new -> j = k) ->
  exists w' d', transform_coordinates w (Lab d) into outof dim axis true = (w', Ok (RLab d')) /\
    data_array w' d' /\ da_data d' = a /\ da_name d' = da_name d /\
    (forall j, nth_error (da_dims d') j = if Nat.eqb j k then Some new else nth_error (da_dims d) j) /\
    lookup new (da_coords d') = Some (Co [new] (CStr labels)) /\
    (forall m c, m <> new -> (lookup m (da_coords d') = Some c <-> lookup m (da_coords d) = Some c /\ ~ In old (co_dims c))) /\
    attr w' d' "coordinate_system" = match attr w d "coordinate_system" with Some _ => Some (Some into) | None => None end /\
    (forall q, q <> "coordinate_system"%string -> attr w' d' q = attr w d q) /\
    attrs_kept w w'.
Proof.
  intros w d into outof dim axis k o n f a old new labels Hda Hnc Hp Hsys Hcv Hax Hf Hold Hnew.
  destruct (picks_axis w d dim axis k Hda Hp) as (ax & Hai & Hk & Hr).
  pose proof Hda as (Hlen & Hnd & Hco & Hat).
  assert (N : norm_axis ax (ndim (da_data d)) = Ok k) by (apply axis_is_norm; auto).
  assert (N' : norm_axis (Z.of_nat k) (ndim (da_data d)) = Ok k) by (apply axis_is_norm; auto; left; auto).
  assert (Hf' : f (da_data d) ax = Ok a) by (rewrite <- Hf; eapply conversion_axis; eauto; congruence).
  destruct (conversion_shape o into n f _ k a Hcv Hk Hf) as (Hn & Hsh).
  assert (Hnda : ndim a = ndim (da_data d)) by (unfold ndim; rewrite Hsh; reflexivity).
  destruct (new_axis_ok _ _ _ _ Hax) as (Hna & Hlab).
  set (coords' := filter (fun c => negb (existsb (String.eqb old) (co_dims (snd c)))) (da_coords d)).
  set (cs := dict_set new (Co [new] (CStr labels)) coords').
  assert (Hrd : replace_dim (da_coords d) (da_dims d) ax into (nth k (shp a) 0) = Ok (cs, rename old new (da_dims d))).
  { unfold replace_dim. rewrite (tuple_at_ok _ _ k) by (rewrite Hlen; auto). cbn [bind]. rewrite (nth_error_nth _ _ EmptyString Hold).
    rewrite Hsh, Hn, Hna. reflexivity. }
  destruct (alloc w (dict_at w (da_attrs d))) as [w1 l1] eqn:Al. destruct (dict_alloc _ _ _ _ Al) as (F1 & L1 & Len1 & D1 & O1).
  set (own := lookup "coordinate_system" (dict_at w1 l1)).
  assert (Hown : own = attr w d "coordinate_system") by (unfold own, attr; rewrite D1; reflexivity).
  set (w2 := match own with Some _ => write w1 l1 (dict_set "coordinate_system" (Some into)) | None => w1 end).
  assert (H2 : frames w2 = frames w /\ length (dicts w2) = S (length (dicts w)) /\
    (forall j, j < length (dicts w) -> dict_at w2 j = dict_at w j) /\
    lookup "coordinate_system" (dict_at w2 l1) = match attr w d "coordinate_system" with Some _ => Some (Some into) | None => None end /\
    (forall q, q <> "coordinate_system"%string -> lookup q (dict_at w2 l1) = attr w d q)).
  { unfold w2. rewrite Hown. destruct (attr w d "coordinate_system") eqn:Eo.
    - rewrite length_write. split; [exact F1|]. split; auto. split.
      + intros j Hj. rewrite dict_write. destruct (Nat.eqb_spec l1 j); [lia|]. apply O1; auto.
      + rewrite dict_write, Nat.eqb_refl. destruct (Nat.ltb_spec l1 (length (dicts w1))); [|lia]. rewrite D1. split.
        * rewrite lookup_set, String.eqb_refl. reflexivity.
        * intros q Hq. rewrite lookup_set. destruct (String.eqb_spec q "coordinate_system"); [contradiction|reflexivity].
    - split; auto. split; auto. split; auto. rewrite D1. split; [exact Eo|reflexivity]. }
  destruct H2 as (F2 & Len2 & O2 & C2 & Q2).
  assert (Hnd' : NoDup (rename old new (da_dims d))) by (eapply rename_nodup; eauto).
  assert (Hlen' : List.length (rename old new (da_dims d)) = ndim a) by (unfold rename; rewrite map_length, Hnda; auto).
  assert (Hin : forall m c, In (m, c) cs -> (m = new /\ c = Co [new] (CStr labels)) \/ (In (m, c) (da_coords d) /\ ~ In old (co_dims c))).
  { intros m c Hin. apply in_set in Hin as [H|(H1 & H)]; auto.
    - right. unfold coords' in H. apply filter_In in H as (H & E). split; auto. intros G. cbn [snd] in E. apply negb_true_iff in E.
      rewrite <- not_true_iff_false in E. apply E. apply existsb_exists. exists old. split; auto. apply String.eqb_refl.
    - unfold coords'. clear - Hnc. induction (da_coords d) as [|[a b] l IH]; cbn; [constructor|]. inversion Hnc; subst.
      destruct (negb _); cbn; auto. constructor; auto. intros G. apply H1. apply in_map_iff in G as (x & E & Hx). apply filter_In in Hx as (Hx & _).
      apply in_map_iff. eauto. }
  assert (Hfit : forall nm l m c, In (m, c) cs -> Forall2 (dim_size (DA a (rename old new (da_dims d)) cs nm l)) (co_dims c) (coord_size c)).
  { intros nm l m c Hc. apply Hin in Hc as [(-> & ->)|(Hc & Ho)].
    - cbn. constructor; [|constructor]. exists k. cbn [da_dims da_data]. split; [rewrite (rename_nth old new _ k) by auto; rewrite Nat.eqb_refl; reflexivity|].
      rewrite Hsh, Hlab. rewrite <- Hn. apply nth_error_nth'. exact Hk.
    - specialize (Hco _ _ Hc). clear - Hco Ho Hnd Hold Hsh. induction Hco as [|x y l1 l2 (j & E1 & E2) H IH]; constructor; [|apply IH; intros G; apply Ho; right; auto].
      exists j. cbn [da_dims da_data]. rewrite Hsh. split; auto. rewrite (rename_nth old new _ k) by auto.
      destruct (Nat.eqb_spec j k) as [->|]; auto. exfalso. apply Ho. left. congruence. }
  destruct (alloc w2 (dict_at w2 l1)) as [w3 l3] eqn:A3. destruct (dict_alloc _ _ _ _ A3) as (F3 & L3 & Len3 & D3 & O3).
  assert (Hmk : make_xr w2 a cs (rename old new (da_dims d)) (da_name d) l1 = (w3, Ok (DA a (rename old new (da_dims d)) cs (da_name d) l3))).
  { unfold make_xr. rewrite Hlen', Nat.eqb_refl, (distinct_nodup _ Hnd').
    assert (G : forallb (fun c => coord_fits a (rename old new (da_dims d)) (snd c)) cs = true).
    { apply forallb_forall. intros [m c] Hc. apply (fits_ok (DA a (rename old new (da_dims d)) cs (da_name d) l3)); cbn [da_dims da_data snd]; auto. eapply Hfit; eauto. }
    rewrite G. cbn [andb]. rewrite A3. reflexivity. }
  exists w3, (DA a (rename old new (da_dims d)) cs (da_name d) l3). split.
  { unfold transform_coordinates, maybe_unpack. rewrite Al. cbv zeta in Hr |- *. rewrite Hr. cbn [bind u_ts u_lab u_arr u_axis same_axis_check].
    fold own. replace (match outof with Some o => Ok o | None => match own with Some (Some o) => Ok o | _ => Raise ValueError end end) with (Ok o).
    2:{ destruct Hsys as [->|(-> & E)]; auto. rewrite Hown, E. reflexivity. }
    cbn [bind]. rewrite (cs_conversion _ _ _ _ Hcv). rewrite Hf'.
    rewrite <- Hnda in N. rewrite N. cbn [bind]. rewrite Hrd. unfold make_dataarray. fold w2.
    replace (match own with Some _ => write w1 l1 (dict_set "coordinate_system" (Some into)) | None => w1 end) with w2 by reflexivity.
    rewrite Hmk. reflexivity. }
  cbn [da_data da_name da_dims da_coords].
  split. { split; [exact Hlen'|]. split; [exact Hnd'|]. split; [intros m c Hc; eapply Hfit; eauto|cbn [da_attrs]; lia]. }
  split; auto. split; auto. split; [intros j; apply rename_nth; auto|].
  split; [unfold cs; rewrite lookup_set, String.eqb_refl; reflexivity|].
  split.
  { intros m c Hm. unfold cs. rewrite lookup_set. destruct (String.eqb_spec m new); [contradiction|]. unfold coords'. rewrite lookup_filter by auto. cbn [snd].
    rewrite negb_true_iff, <- not_true_iff_false, existsb_exists. split; intros (H1 & H2); split; auto; intros G; apply H2.
    - exists old. split; auto. apply String.eqb_refl.
    - destruct G as (x & Hx & E). apply String.eqb_eq in E. subst. auto. }
  unfold attr at 1 3. cbn [da_attrs]. rewrite D3. split; auto. split; auto.
  split; [congruence|]. split; [lia|]. intros j Hj. rewrite O3 by lia. auto.
Qed.
(** replace_dim=False: all labels are kept. *)
Theorem C55_keep : forall w d into outof dim axis k o n f a,
  data_array w d -> picks d dim axis k -> system_of w d outof o -> conversion o into n f ->
  f (da_data d) (Z.of_nat k) = Ok a ->
  exists w' d', transform_coordinates w (Lab d) into outof dim axis false = (w', Ok (RLab d')) /\
    da_data d' = a /\ same_labels d d' /\ attrs_kept w w'.
Proof.
  intros w d into outof dim axis k o n f a Hda Hp Hsys Hcv Hf.
  destruct (picks_axis w d dim axis k Hda Hp) as (ax & Hai & Hk & Hr).
  assert (Hf' : f (da_data d) ax = Ok a).
  { rewrite <- Hf. eapply conversion_axis; eauto. rewrite (axis_is_norm ax k) by auto. rewrite (axis_is_norm (Z.of_nat k) k); auto. left; auto. }
  destruct (conversion_shape o into n f _ k a Hcv Hk Hf) as (Hn & Hsh).
  destruct (alloc w (dict_at w (da_attrs d))) as [w1 l1] eqn:Al. destruct (dict_alloc _ _ _ _ Al) as (F1 & L1 & Len1 & D1 & O1).
  set (own := lookup "coordinate_system" (dict_at w1 l1)).
  assert (Hown : own = attr w d "coordinate_system") by (unfold own, attr; rewrite D1; reflexivity).
  set (w2 := match own with Some _ => write w1 l1 (dict_set "coordinate_system" (Some into)) | None => w1 end).
  destruct (make_ok w w2 d a l1 Hda Hsh) as (w3 & l3 & Hmk & A3). destruct (dict_alloc _ _ _ _ A3) as (F3 & L3 & Len3 & D3 & O3).
  assert (H2 : frames w2 = frames w /\ length (dicts w2) = S (length (dicts w)) /\ (forall j, j < length (dicts w) -> dict_at w2 j = dict_at w j)).
  { unfold w2. destruct own; [rewrite length_write|]; split; auto; split; auto. intros j Hj. rewrite dict_write. destruct (Nat.eqb_spec l1 j); [lia|auto]. }
  destruct H2 as (F2 & Len2 & O2).
  exists w3, (DA a (da_dims d) (da_coords d) (da_name d) l3). split.
  { unfold transform_coordinates, maybe_unpack. rewrite Al. cbv zeta in Hr |- *. rewrite Hr. cbn [bind u_ts u_lab u_arr u_axis same_axis_check].
    fold own. replace (match outof with Some o => Ok o | None => match own with Some (Some o) => Ok o | _ => Raise ValueError end end) with (Ok o).
    2:{ destruct Hsys as [->|(-> & E)]; auto. rewrite Hown, E. reflexivity. }
    cbn [bind]. rewrite (cs_conversion _ _ _ _ Hcv). rewrite Hf'. unfold make_dataarray. fold w2.
    replace (match own with Some _ => write w1 l1 (dict_set "coordinate_system" (Some into)) | None => w1 end) with w2 by reflexivity.
    rewrite Hmk. reflexivity. }
  split; auto. split; [repeat split; auto|]. split; [congruence|]. split; [lia|]. intros j Hj. rewrite O3 by lia. auto.
Qed.
(** An unsupported pair, and an array whose system is not known, are refused; existing attrs
    stay as they are. *)
Theorem C55_refused : forall w d into outof dim axis k replace, data_array w d -> picks d dim axis k ->
  (forall o n f, system_of w d outof o -> ~ conversion o into n f) ->
  exists w', transform_coordinates w (Lab d) into outof dim axis replace = (w', Raise ValueError) /\ attrs_kept w w'.
Proof.
  intros w d into outof dim axis k replace Hda Hp Hno.
  destruct (picks_axis w d dim axis k Hda Hp) as (ax & Hai & Hk & Hr).
  destruct (alloc w (dict_at w (da_attrs d))) as [w1 l1] eqn:Al. destruct (dict_alloc _ _ _ _ Al) as (F1 & L1 & Len1 & D1 & O1).
  exists w1. split.
  - unfold transform_coordinates, maybe_unpack. rewrite Al. cbv zeta in Hr |- *. rewrite Hr. cbn [bind u_ts u_lab u_arr u_axis same_axis_check].
    rewrite D1. fold (attr w d "coordinate_system"). destruct outof as [o|].
    + cbn [bind]. rewrite cs_refused; auto. intros n f. apply Hno. left; auto.
    + destruct (attr w d "coordinate_system") as [[o|]|] eqn:E; cbn [bind]; auto. rewrite cs_refused; auto. intros n f. apply Hno. right; auto.
  - split; auto. split; [lia|auto].
Qed.

(* ---- example: polar coordinates (time, cartesian_axis), from the attribute ---- *)
Definition ex_plane : darr :=
  DA (Nd [2; 2] (fun ix => INR (2 * nth 0 ix 0 + nth 1 ix 0))) ["time"%string; "cartesian_axis"%string]
     [("cartesian_axis"%string, Co ["cartesian_axis"%string] (CStr ["x"; "y"]%string));
      ("time"%string, Co ["time"%string] (CNum (arr1 [0; 2]%R)));
      ("weight"%string, Co ["time"; "cartesian_axis"]%string (CNum (Nd [2; 2] (fun _ => 1%R))))] None 0.
Definition ex_pworld : world := World ex_lit [[("coordinate_system", Some "cartesian"); ("units", Some "m")]%string].
Example C55_example : data_array ex_pworld ex_plane /\ NoDup (map fst (da_coords ex_plane)) /\
  picks ex_plane (Some "cartesian_axis"%string) None 1 /\ picks ex_plane None None 1 /\ picks ex_plane None (Some (-1)%Z) 1 /\
  system_of ex_pworld ex_plane None "cartesian" /\ conversion "cartesian" "polar" 2 cartesian_to_polar /\
  system_axis "polar" 2 "polar_axis" ["r"; "phi"]%string /\ (exists a, cartesian_to_polar (da_data ex_plane) (Z.of_nat 1) = Ok a) /\
  nth_error (da_dims ex_plane) 1 = Some "cartesian_axis"%string /\
  (forall j, nth_error (da_dims ex_plane) j = Some "polar_axis"%string -> j = 1) /\
  (forall o n f, system_of ex_pworld ex_plane None o -> ~ conversion o "quaternion" n f).
Proof.
  split. { split; [reflexivity|]. split; [repeat constructor; cbn; intuition discriminate|]. split; [|cbn; lia].
    intros n c Hin. cbn in Hin. destruct Hin as [E|[E|[E|[]]]]; injection E as <- <-; cbn.
    - constructor; [exists 1; split; reflexivity|constructor].
    - constructor; [exists 0; split; reflexivity|constructor].
    - constructor; [exists 0; split; reflexivity|]. constructor; [exists 1; split; reflexivity|constructor]. }
  split; [cbn; repeat constructor; cbn; intuition discriminate|]. split; [reflexivity|]. split; [reflexivity|].
  split; [split; [lia|]; split; [right; reflexivity|cbn; lia]|]. split; [right; split; reflexivity|]. split; [constructor|]. split; [constructor|].
  split; [eexists; reflexivity|]. split; [reflexivity|]. split.
  - intros j. cbn. destruct j as [|[|[|j]]]; cbn; try discriminate.
  - intros o n f _ H. inversion H.
Qed.
