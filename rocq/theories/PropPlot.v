(** Property C65: what the plotting functions draw, and that it can be seen. *)
From Coq Require Import Reals List String Arith Bool ZArith Lia Lra.
From Verif Require Import Base Quat SpecQuat QuatProofs NdArray Frames SpecForest FrameProofs WalkProofs
  Matcher SpecLookup LookupProofs RegistryProofs MovingProofs TimeProofs CtorProofs InverseProofs RouteProofs
  Examples PropForest PropLookup PropMoving
  Transform SpecArray NdProofs RotProofs ArrProofs ArrTransProofs ArrStaticProofs PropTransform PropRotate
  Broadcast TfTree PropTfTree TopLevel Rotate PropRotateAll PropCtors Plot.
From Verif Require Import Velocity.
Import ListNotations.
Open Scope R_scope.
Open Scope list_scope.

(* ------------------------------------------------------------------ specification *)
(** A point lies within the limits of the axes. *)
Definition within (a : axis3) (x : R) : Prop := lo a <= x <= hi a.
Definition visible (ax : axes) (p : vec3) : Prop := within (ax_x ax) (vx p) /\ within (ax_y ax) (vy p) /\ within (ax_z ax) (vz p).
Definition proper (ax : axes) : Prop := lo (ax_x ax) < hi (ax_x ax) /\ lo (ax_y ax) < hi (ax_y ax) /\ lo (ax_z ax) < hi (ax_z ax).
(** The same length on all three axes. *)
Definition equal_scale (ax : axes) : Prop :=
  hi (ax_x ax) - lo (ax_x ax) = hi (ax_y ax) - lo (ax_y ax) /\ hi (ax_y ax) - lo (ax_y ax) = hi (ax_z ax) - lo (ax_z ax).
(** Autoscaling: the data determines the limits of the axes that are on auto. *)
Definition follows (old new : axis3) (l : list R) : Prop :=
  auto new = auto old /\ lo new < hi new /\ (auto old = false -> new = old) /\ (auto old = true -> forall x, In x l -> within new x).
Definition autoscale (rescale : axes -> list vec3 -> axes) : Prop :=
  forall ax l, proper ax ->
    follows (ax_x ax) (ax_x (rescale ax l)) (map vx l) /\ follows (ax_y ax) (ax_y (rescale ax l)) (map vy l) /\ follows (ax_z ax) (ax_z (rescale ax l)) (map vz l).
Definition keeps_proper (rescale : axes -> list arrow -> axes) : Prop := forall ax l, proper ax -> proper (rescale ax l).
(** A frame that does not move: a root, or a frame with a constant transform. *)
Definition still (s : state) (i : nat) : Prop := body_at s i = BRoot \/ exists t r, transform_of s i = Some (TStatic t r).
Definition e1 := V3 1 0 0. Definition e2 := V3 0 1 0. Definition e3 := V3 0 0 1.

(** Where a point of frame i is drawn: its coordinates in the world frame. *)
Definition drawn_at (squad : list R -> list quat -> R -> res quat) (s : state) (i : nat) (world_frame : option pref) (to : vec3 -> vec3) : Prop :=
  match world_frame with
  | None => to = (fun p => p)
  | Some p => exists j t r, denotes s p j /\ lookup_transform squad s i p = Ok (TrStatic t r) /\ to = smove t r
  end.
(** The three axes of a frame, of length len. *)
Definition frame_arrows (to : vec3 -> vec3) (len : R) : list arrow :=
  [(to v0, to (vscale len e1)); (to v0, to (vscale len e2)); (to v0, to (vscale len e3))].

(** A (3,) or (N, 3) array of points; a (4,) or (N, 4) array of quaternions. *)
Definition point_list (arr : nd R) (l : list vec3) : Prop :=
  (shp arr = [3%nat] /\ l = [vec_at arr []]) \/
  (exists n, shp arr = [n; 3%nat] /\ List.length l = n /\ forall i, (i < n)%nat -> nth i l v0 = vec_at arr [i]).
Definition quat_list (arr : nd R) (l : list quat) : Prop :=
  (shp arr = [4%nat] /\ l = [quat_at arr []]) \/
  (exists n, shp arr = [n; 4%nat] /\ List.length l = n /\ forall i, (i < n)%nat -> nth i l hone = quat_at arr [i]).
(** The base points of n arrows: the origin by default. *)
Definition base_list (base : option (nd R)) (n : nat) (l : list vec3) : Prop :=
  List.length l = n /\ match base with None => forall p, In p l -> p = v0 | Some b => point_list b l end.

(* ------------------------------------------------------------------ proofs *)
Lemma minl_le a l x : In x (a :: l) -> minl a l <= x.
Proof. intros H. pose proof (proj1 (minl_spec a l (minl a l)) (Rle_refl _)) as (A & B). destruct H as [ <- | H]; auto. exact (proj1 (Forall_forall _ _) B x H). Qed.
Lemma maxl_ge a l x : In x (a :: l) -> x <= maxl a l.
Proof. intros H. pose proof (proj1 (maxl_spec a l (maxl a l)) (Rle_refl _)) as (A & B). destruct H as [ <- | H]; auto. exact (proj1 (Forall_forall _ _) B x H). Qed.
(** Equal axes: nothing gets lost. *)
Lemma equal_grows ax : proper ax -> let ax' := set_axes_equal ax in
  proper ax' /\ equal_scale ax' /\ (forall x, within (ax_x ax) x -> within (ax_x ax') x) /\
  (forall x, within (ax_y ax) x -> within (ax_y ax') x) /\ (forall x, within (ax_z ax) x -> within (ax_z ax') x).
Proof.
  intros (A & B & C). unfold proper, equal_scale, within, set_axes_equal, set_lim, middle, extent. cbn [lo hi ax_x ax_y ax_z].
  rewrite !Rabs_pos_eq by lra.
  set (a := hi (ax_x ax) - lo (ax_x ax)). set (b := hi (ax_y ax) - lo (ax_y ax)). set (c := hi (ax_z ax) - lo (ax_z ax)).
  pose proof (Rmax_l (Rmax a b) c). pose proof (Rmax_r (Rmax a b) c). pose proof (Rmax_l a b). pose proof (Rmax_r a b).
  set (m := Rmax (Rmax a b) c) in *. subst a b c.
  repeat split; lra.
Qed.
Lemma equal_visible ax p : proper ax -> visible ax p -> visible (set_axes_equal ax) p.
Proof. intros H (A & B & C). destruct (equal_grows ax H) as (_ & _ & X & Y & Z). repeat split; (apply X || apply Y || apply Z); auto. Qed.
Lemma to_world_ok squad w i wf to x y z : reachable (frames w) -> frame (frames w) i -> drawn_at squad (frames w) i wf to ->
  to_world squad w i wf x y z = Ok (to (V3 x y z)).
Proof.
  intros HR Hi H. unfold to_world. destruct wf as [p|]; [|rewrite H; reflexivity].
  destruct H as (j & t & r & Hj & Hl & ->). unfold transform, maybe_unpack, same_axis_check. cbn [u_ts u_lab].
  change (or_default None (-1)) with (-1)%Z. change (or_default None 0) with 0%Z.
  rewrite (resolve_frame (frames w) i Hi). cbn [bind]. rewrite (denotes_resolve _ _ _ Hj). cbn [bind]. cbn [u_arr u_axis u_time_axis u_ts u_lab call_method].
  assert (Hf : denotes (frames w) (PFrame j) j).
  { left. split; [reflexivity|]. apply (resolve_lt (frames w) p j (proj2 (reachable_Inv _ HR)) (denotes_resolve _ _ _ Hj)). }
  assert (Hl' : lookup_transform squad (frames w) i (PFrame j) = Ok (TrStatic t r)).
  { rewrite <- Hl. unfold lookup_transform. rewrite (denotes_resolve _ _ _ Hj), (denotes_resolve _ _ _ Hf). reflexivity. }
  destruct (C22_static_points squad (frames w) i (PFrame j) j t r (plain_point x y z) [] HR Hi Hf Hl' eq_refl) as (out & E & So & Do).
  rewrite E. cbn [snd bind coordinates]. replace (ndim out) with 1%nat by (unfold ndim; rewrite So; reflexivity). cbn [Nat.eqb].
  specialize (Do [] (Forall2_nil _)). unfold vec_at in Do. cbn [app] in Do. rewrite Do. do 2 f_equal.
Qed.

Lemma still_timestamps s i : still s i -> node_timestamps (body_at s i) = Ok None.
Proof.
  intros [H|(t & r & H)]; [rewrite H; reflexivity|]. unfold transform_of in H. unfold body_at. destruct (get s i) as [n|]; [|discriminate].
  destruct (nbody n); try discriminate. injection H as ->. reflexivity.
Qed.
(** The axes after the arrows, before the scales are made equal. *)
Definition after (ax : axes) (pts : list vec3) : axes :=
  Axes (set_lim (minl (lo (ax_x ax)) (map vx pts)) (maxl (hi (ax_x ax)) (map vx pts)))
       (set_lim (minl (lo (ax_z ax)) (map vz pts)) (maxl (hi (ax_z ax)) (map vz pts))) (ax_z ax).
Definition corners (to : vec3 -> vec3) (len : R) : list vec3 := [to v0; to (vscale len e1); to (vscale len e2); to (vscale len e3)].
Lemma frame_drawn squad w ax frame i world_frame len to : reachable (frames w) -> denotes (frames w) frame i -> still (frames w) i ->
  drawn_at squad (frames w) i world_frame to ->
  plot_reference_frame squad w ax frame world_frame len = (set_axes_equal (after ax (corners to len)), Ok (frame_arrows to len)).
Proof.
  intros HR Hd Hst Hto. pose proof (denotes_resolve _ _ _ Hd) as Hr.
  assert (Hi : PropForest.frame (frames w) i) by exact (resolve_lt (frames w) frame i (proj2 (reachable_Inv _ HR)) Hr).
  unfold plot_reference_frame. rewrite Hr. cbn [bind]. rewrite (still_timestamps _ _ Hst). cbn [bind].
  unfold add_frame_arrows. rewrite !(to_world_ok squad w i world_frame to _ _ _ HR Hi Hto). cbn [bind]. unfold frame_arrows, corners, after, grown.
  replace (vscale len e1) with (V3 len 0 0) by (unfold vscale, e1; cbn; f_equal; ring).
  replace (vscale len e2) with (V3 0 len 0) by (unfold vscale, e2; cbn; f_equal; ring).
  replace (vscale len e3) with (V3 0 0 len) by (unfold vscale, e3; cbn; f_equal; ring).
  reflexivity.
Qed.
Lemma after_proper ax l : proper ax -> proper (after ax l).
Proof.
  intros (A & B & C). unfold proper, after, set_lim. cbn [ax_x ax_y ax_z lo hi].
  pose proof (minl_le (lo (ax_x ax)) (map vx l) _ (or_introl eq_refl)). pose proof (maxl_ge (hi (ax_x ax)) (map vx l) _ (or_introl eq_refl)).
  pose proof (minl_le (lo (ax_z ax)) (map vz l) _ (or_introl eq_refl)). pose proof (maxl_ge (hi (ax_z ax)) (map vz l) _ (or_introl eq_refl)).
  repeat split; lra.
Qed.
Lemma arrow_corners to len a : In a (frame_arrows to len) -> In (fst a) (corners to len) /\ In (snd a) (corners to len).
Proof. intros [ <- |[ <- |[ <- |[]]]]; unfold corners; cbn [fst snd In]; tauto. Qed.
Lemma corner_x ax l p : In p l -> within (ax_x (after ax l)) (vx p).
Proof. intros H. split; [apply minl_le | apply maxl_ge]; right; apply in_map; auto. Qed.

(* ------------------------------------------------------------------ C65 *)
(** A frame that does not move: its three axes of length len from its origin, in the
    coordinates of the world frame (its own without one).  The axes come out with equal
    scale; the first coordinates are always within the limits. *)
Theorem C65_frame : forall squad w ax frame i world_frame len to, reachable (frames w) -> denotes (frames w) frame i -> still (frames w) i ->
  drawn_at squad (frames w) i world_frame to -> proper ax ->
  exists ax', plot_reference_frame squad w ax frame world_frame len = (ax', Ok (frame_arrows to len)) /\
    proper ax' /\ equal_scale ax' /\
    (forall a, In a (frame_arrows to len) -> within (ax_x ax') (vx (fst a)) /\ within (ax_x ax') (vx (snd a))) /\
    (forall x, within (ax_x ax) x -> within (ax_x ax') x).
Proof.
  intros squad w ax frame i wf len to HR Hd Hst Hto P. eexists. split; [apply (frame_drawn squad w ax frame i wf len to); auto|].
  pose proof (after_proper ax (corners to len) P) as P'. destruct (equal_grows _ P') as (A & B & X & _ & _).
  split; [exact A|]. split; [exact B|]. split.
  - intros a Ha. apply arrow_corners in Ha as (H1 & H2). split; apply X, corner_x; auto.
  - intros x (H1 & H2). apply X. split; cbn [after ax_x lo hi set_lim].
    + eapply Rle_trans; [apply minl_le; left; reflexivity|auto].
    + eapply Rle_trans; [|apply maxl_ge; left; reflexivity]; auto.
Qed.
(** Moving frames are refused, and the axes are left alone. *)
Theorem C65_moving : forall squad w ax frame i world_frame len ts t r d, denotes (frames w) frame i ->
  transform_of (frames w) i = Some (TMoving ts t r d) ->
  plot_reference_frame squad w ax frame world_frame len = (ax, Raise NotImplementedError).
Proof.
  intros squad w ax frame i wf len ts t r d Hd Ht. unfold plot_reference_frame. rewrite (denotes_resolve _ _ _ Hd). cbn [bind].
  unfold transform_of in Ht. unfold body_at. destruct (get (frames w) i) as [n|]; [|discriminate]. destruct (nbody n); try discriminate. injection Ht as ->. reflexivity.
Qed.
(** All of the arrows are within the limits if their second and third coordinates are
    within the previous limits of the third axis. *)
Theorem C65_visible_partial : forall squad w ax frame i world_frame len to, reachable (frames w) -> denotes (frames w) frame i -> still (frames w) i ->
  drawn_at squad (frames w) i world_frame to -> proper ax ->
  (forall a p, In a (frame_arrows to len) -> p = fst a \/ p = snd a -> within (ax_z ax) (vy p) /\ within (ax_z ax) (vz p)) ->
  forall a, In a (frame_arrows to len) -> visible (fst (plot_reference_frame squad w ax frame world_frame len)) (fst a) /\ visible (fst (plot_reference_frame squad w ax frame world_frame len)) (snd a).
Proof.
  intros squad w ax frame i wf len to HR Hd Hst Hto P H a Ha. rewrite (frame_drawn squad w ax frame i wf len to HR Hd Hst Hto). cbn [fst].
  pose proof (after_proper ax (corners to len) P) as P'. pose proof (arrow_corners _ _ _ Ha) as (I1 & I2).
  assert (V : forall p, In p (corners to len) -> p = fst a \/ p = snd a -> visible (after ax (corners to len)) p).
  { intros p Hp Hpa. destruct (H a p Ha Hpa) as (Hy & Hz). split; [apply corner_x; auto|]. split; [|exact Hz].
    destruct Hy as (L1 & L2). split; cbn [after ax_y lo hi set_lim].
    - eapply Rle_trans; [apply minl_le; left; reflexivity|auto].
    - eapply Rle_trans; [|apply maxl_ge; left; reflexivity]; auto. }
  split; apply equal_visible; auto.
Qed.
Ltac minmax := repeat match goal with
  | |- context [Rmin ?a ?b] => first [rewrite (Rmin_left a b) by lra | rewrite (Rmin_right a b) by lra]
  | |- context [Rmax ?a ?b] => first [rewrite (Rmax_left a b) by lra | rewrite (Rmax_right a b) by lra]
  | |- context [Rabs ?a] => first [rewrite (Rabs_pos_eq a) by lra]
  end.
Lemma turned x y z : smove (V3 1 2 3) (Qt 0 1 0 0) (V3 x y z) = V3 (1 + x) (2 - y) (3 - z).
Proof. unfold smove. replace (srot (Qt 0 1 0 0) (V3 x y z)) with (V3 x (-y) (-z)) by (vunf; f_equal; field). unfold vadd; cbn. f_equal; ring. Qed.
(** A frame at (1, 2, 3) on fresh axes: its origin is above the third limits.  And the
    second limits are lost, and with them what was visible before. *)
Theorem C65_visible_refuted :
  (exists squad w ax world_frame len to, reachable (frames w) /\ still (frames w) 1 /\ drawn_at squad (frames w) 1 world_frame to /\ proper ax /\
    ~ visible (fst (plot_reference_frame squad w ax (PFrame 1) world_frame len)) (to v0)) /\
  (exists squad w ax len to p, reachable (frames w) /\ still (frames w) 1 /\ drawn_at squad (frames w) 1 None to /\ proper ax /\ visible ax p /\
    ~ visible (fst (plot_reference_frame squad w ax (PFrame 1) None len)) p).
Proof.
  pose proof ex_lit_reachable as HR. assert (St : still ex_lit 1) by (right; exists (V3 1 2 3), (Qt 0 1 0 0); reflexivity).
  assert (D1 : denotes ex_lit (PFrame 1) 1) by (left; split; [reflexivity|unfold frame; simpl; lia]).
  split.
  - pose (unit1 := Ax3 0 1 true). exists hold_squad, (World ex_lit []), (Axes unit1 unit1 unit1), (Some (PFrame 0)), 1, (smove (V3 1 2 3) (Qt 0 1 0 0)).
    assert (Dr : drawn_at hold_squad ex_lit 1 (Some (PFrame 0)) (smove (V3 1 2 3) (Qt 0 1 0 0))).
    { exists 0%nat, (V3 1 2 3), (Qt 0 1 0 0). split; [left; split; [reflexivity|unfold frame; simpl; lia]|]. split; [|reflexivity].
      apply (lookup_parent_static hold_squad ex_lit 0 1 (V3 1 2 3) (Qt 0 1 0 0) (reachable_Inv _ HR)); auto; [unfold size; simpl; lia|vunf; cbn; intro; lra]. }
    assert (P : proper (Axes unit1 unit1 unit1)) by (repeat split; cbn; lra).
    split; [exact HR|]. split; [exact St|]. split; [exact Dr|]. split; [exact P|]. 
    rewrite (frame_drawn hold_squad (World ex_lit []) (Axes unit1 unit1 unit1) (PFrame 1) 1 (Some (PFrame 0)) 1 _ HR D1 St Dr). cbn [fst].
    intros (_ & _ & (_ & H)). revert H. unfold corners, after, set_axes_equal, middle, extent, e1, e2, e3, vscale, v0, minl, maxl, set_lim. cbn [vx vy vz]. rewrite !turned.
    cbn [map fold_left vx vy vz lo hi ax_x ax_y ax_z unit1]. minmax. lra.
  - pose (unit1 := Ax3 0 1 true). exists hold_squad, (World ex_lit []), (Axes unit1 (Ax3 0 10 true) unit1), 1, (fun p => p), (V3 0 10 0).
    assert (P : proper (Axes unit1 (Ax3 0 10 true) unit1)) by (repeat split; cbn; lra).
    split; [exact HR|]. split; [exact St|]. split; [reflexivity|]. split; [exact P|]. split; [repeat split; cbn; lra|].
    rewrite (frame_drawn hold_squad (World ex_lit []) (Axes unit1 (Ax3 0 10 true) unit1) (PFrame 1) 1 None 1 (fun p => p) HR D1 St eq_refl). cbn [fst].
    intros (_ & (_ & H) & _). revert H. unfold corners, after, set_axes_equal, middle, extent, e1, e2, e3, vscale, v0, minl, maxl, set_lim.
    cbn [map fold_left vx vy vz lo hi ax_x ax_y ax_z unit1]. minmax. lra.
Qed.

Lemma point_rows_ok arr l : point_list arr l -> point_rows arr = Ok l.
Proof.
  intros [(Hs & ->)|(n & Hs & Hn & H)]; unfold point_rows; rewrite Hs; cbn [Nat.eqb]; [reflexivity|]. f_equal.
  apply (List.nth_ext _ _ v0 v0); [rewrite map_length, seq_length; auto|]. intros i Hi. rewrite map_length, seq_length in Hi.
  rewrite H by auto. rewrite (nth_indep _ v0 ((fun i => vec_at arr [i]) O)) by (rewrite map_length, seq_length; auto).
  rewrite (map_nth (fun i => vec_at arr [i]) (seq 0 n) O), seq_nth by auto. reflexivity.
Qed.
Lemma point_rows_inv arr l : point_rows arr = Ok l -> point_list arr l.
Proof.
  unfold point_rows. destruct (shp arr) as [|n [|m [|]]] eqn:Hs; try discriminate.
  - destruct (Nat.eqb_spec n 3) as [ -> |]; [|discriminate]. intros [= <-]. left. auto.
  - destruct (Nat.eqb_spec m 3) as [ -> |]; [|discriminate]. intros [= <-]. right. exists n. split; auto. split; [rewrite map_length, seq_length; auto|].
    intros i Hi. rewrite (nth_indep _ v0 ((fun i => vec_at arr [i]) O)) by (rewrite map_length, seq_length; auto). rewrite (map_nth (fun i => vec_at arr [i]) (seq 0 n) O), seq_nth by auto. reflexivity.
Qed.
Lemma autoscale_proper rescale ax l : autoscale rescale -> proper ax -> proper (rescale ax l).
Proof. intros H P. destruct (H ax l P) as ((_ & A & _) & (_ & B & _) & (_ & C & _)). repeat split; auto. Qed.
(** Points are drawn where they are, on axes of equal scale; on axes with autoscaling on,
    such as new ones, all of them are within the limits. *)
Theorem C65_points_partial : forall rescale ax arr l, autoscale rescale -> proper ax -> point_list arr l ->
  exists ax', plot_points rescale ax arr = (ax', Ok l) /\ proper ax' /\ equal_scale ax' /\
    (auto (ax_x ax) = true -> auto (ax_y ax) = true -> auto (ax_z ax) = true -> forall p, In p l -> visible ax' p).
Proof.
  intros rescale ax arr l HA P Hl. unfold plot_points. rewrite (point_rows_ok _ _ Hl). eexists. split; [reflexivity|].
  pose proof (autoscale_proper rescale ax l HA P) as P'. destruct (equal_grows _ P') as (A & B & _ & _ & _). split; auto. split; auto.
  intros Hx Hy Hz p Hp. apply equal_visible; auto. destruct (HA ax l P) as ((_ & _ & _ & X) & (_ & _ & _ & Y) & (_ & _ & _ & Z)).
  split; [apply X|split; [apply Y|apply Z]]; auto using in_map.
Qed.
(** Other arrays are refused, and the axes are left alone. *)
Theorem C65_points_refused : forall rescale ax arr, ndim arr <> O -> (forall l, ~ point_list arr l) ->
  plot_points rescale ax arr = (ax, Raise ValueError).
Proof.
  intros rescale ax arr Hn H. unfold plot_points. destruct (point_rows arr) as [l|e] eqn:E; [elim (H l); apply point_rows_inv; auto|].
  f_equal. unfold point_rows in E. unfold ndim in Hn. destruct (shp arr) as [|n [|m [|]]]; [elim Hn; reflexivity| | |]; [destruct (Nat.eqb n 3)|destruct (Nat.eqb m 3)|]; congruence.
Qed.
(** Plotting twice: the first call fixes the limits, whatever the axes and points; points
    of the second call outside of them are not visible. *)
Theorem C65_points_refuted : forall rescale ax p, autoscale rescale -> proper ax ->
  exists q, let ax1 := fst (plot_points rescale ax (point p)) in
    snd (plot_points rescale ax1 (point q)) = Ok [q] /\ ~ visible (fst (plot_points rescale ax1 (point q))) q.
Proof.
  intros rescale ax p HA P. set (ax1 := fst (plot_points rescale ax (point p))).
  assert (Pl : forall q, point_list (point q) [q]) by (intros q; left; split; [reflexivity|rewrite point_vec; reflexivity]).
  assert (P1 : proper ax1 /\ auto (ax_x ax1) = false).
  { unfold ax1, plot_points. rewrite (point_rows_ok _ _ (Pl p)). cbn [fst]. split; [|reflexivity]. apply equal_grows. apply autoscale_proper; auto. }
  destruct P1 as (P1 & A1).
  assert (B1 : equal_scale ax1 /\ auto (ax_y ax1) = false /\ auto (ax_z ax1) = false).
  { unfold ax1, plot_points. rewrite (point_rows_ok _ _ (Pl p)). cbn [fst]. split; [|split; reflexivity]. apply equal_grows. apply autoscale_proper; auto. }
  destruct B1 as (E1 & A2 & A3). exists (V3 (hi (ax_x ax1) + 1) 0 0). cbv zeta.
  unfold plot_points. rewrite (point_rows_ok _ _ (Pl _)). cbn [fst snd]. split; [reflexivity|].
  destruct (HA ax1 [V3 (hi (ax_x ax1) + 1) 0 0] P1) as ((_ & _ & X & _) & (_ & _ & Y & _) & (_ & _ & Z & _)). specialize (X A1). specialize (Y A2). specialize (Z A3).
  intros ((_ & H) & _). revert H. cbn [vx]. unfold set_axes_equal. cbn [ax_x hi set_lim]. rewrite X, Y, Z. clear -P1 E1.
  destruct P1 as (A & B & C), E1 as (E1 & E2). unfold middle, extent. rewrite <- E2, <- E1. rewrite Rabs_pos_eq by lra. minmax. lra.
Qed.

Lemma base_shapes arr b v l : point_list arr v -> point_list b l -> List.length l = List.length v -> promoted (shp b) = promoted (shp arr).
Proof. intros [(-> & ->)|(n & -> & H1 & _)] [(-> & ->)|(m & -> & H2 & _)] E; cbn in *; subst; congruence. Qed.
(** Vectors v_i with base points b_i: arrows from b_i to b_i + length v_i. *)
Theorem C65_vectors : forall rescale ax arr base len v b, keeps_proper rescale -> proper ax -> point_list arr v -> base_list base (List.length v) b ->
  exists ax' l, plot_vectors rescale ax arr base len = (ax', Ok l) /\ proper ax' /\ equal_scale ax' /\
    List.length l = List.length v /\
    forall i, (i < List.length v)%nat -> nth i l (v0, v0) = (nth i b v0, vadd (nth i b v0) (vscale len (nth i v v0))).
Proof.
  intros rescale ax arr base len v b HK P Hv (Hb & Hbase). unfold plot_vectors. rewrite (point_rows_ok _ _ Hv). cbn [bind].
  assert (E : match base with None => Ok (map (fun _ => v0) v) | Some b => if list_eq_dec Nat.eq_dec (promoted (shp b)) (promoted (shp arr)) then point_rows b else Raise ValueError end = Ok b).
  { destruct base as [a|].
    - destruct (list_eq_dec Nat.eq_dec (promoted (shp a)) (promoted (shp arr))) as [_|N]; [apply point_rows_ok; auto|].
      elim N. exact (base_shapes arr a v b Hv Hbase Hb).
    - f_equal. clear -Hb Hbase. revert b Hb Hbase. induction v as [|x v IH]; intros [|y b] Hb Hbase; cbn in *; try discriminate; [reflexivity|].
      f_equal; [symmetry; apply Hbase; left; auto|]. apply IH; [lia|]. intros p Hp. apply Hbase. right; auto. }
  rewrite E. cbn [bind]. do 2 eexists. split; [reflexivity|]. destruct (equal_grows _ (HK ax (map (fun bv : vec3 * vec3 => (fst bv, vadd (fst bv) (vscale len (snd bv)))) (combine b v)) P)) as (A & B & _).
  split; [exact A|]. split; [exact B|]. assert (L : List.length (combine b v) = List.length v) by (rewrite combine_length; lia). split; [rewrite map_length; auto|].
  intros i Hi. rewrite (nth_indep _ (v0, v0) ((fun bv : vec3 * vec3 => (fst bv, vadd (fst bv) (vscale len (snd bv)))) (v0, v0))) by (rewrite map_length, L; auto).
  rewrite (map_nth (fun bv : vec3 * vec3 => (fst bv, vadd (fst bv) (vscale len (snd bv)))) (combine b v) (v0, v0)), combine_nth by auto. reflexivity.
Qed.
(** Anything else is refused, and the axes are left alone. *)
Theorem C65_vectors_refused : forall rescale ax arr base len, ndim arr <> O -> match base with Some b => ndim b <> O | None => True end ->
  (forall v b, point_list arr v -> ~ base_list base (List.length v) b) ->
  plot_vectors rescale ax arr base len = (ax, Raise ValueError).
Proof.
  intros rescale ax arr base len Hn Hbn H. unfold plot_vectors. destruct (point_rows arr) as [v|e] eqn:E.
  - cbn [bind]. apply point_rows_inv in E. destruct base as [b|].
    + destruct (list_eq_dec Nat.eq_dec (promoted (shp b)) (promoted (shp arr))) as [Y|N]; [|reflexivity]. exfalso.
      destruct (point_rows b) as [l|e] eqn:Eb.
      * apply point_rows_inv in Eb. apply (H v l E). split; auto. revert Y. destruct E as [(Es & ->)|(n & Es & E1 & _)], Eb as [(Fs & ->)|(m & Fs & F1 & _)]; rewrite Es, Fs; cbn; intros [=]; subst; auto; lia.
      * revert Eb Y. unfold point_rows, ndim in *. destruct E as [(-> & ->)|(n & -> & E1 & _)]; destruct (shp b) as [|x [|y [|]]]; cbn in *; try (elim Hbn; reflexivity); intros Eb [=]; subst; cbn in Eb; discriminate.
    + elim (H v (map (fun _ => v0) v) E). split; [apply map_length|]. intros p Hp. apply in_map_iff in Hp as (x & <- & _). reflexivity.
  - cbn [bind]. f_equal. unfold point_rows in E. unfold ndim in Hn. destruct (shp arr) as [|n [|m [|]]]; [elim Hn; reflexivity| | |]; [destruct (Nat.eqb n 3)|destruct (Nat.eqb m 3)|]; congruence.
Qed.

(** The images of a basis vector, as a list of points. *)
Lemma axis_image_ok arr qs e : quat_list arr qs -> (forall q, In q qs -> hnonzero q) ->
  exists out, axis_image arr (vx e) (vy e) (vz e) = Ok out /\ point_list out (map (fun q => srot q e) qs).
Proof.
  intros Hq Hnz. unfold axis_image.
  assert (V0 : vec_on (plain_point (vx e) (vy e) (vz e)) 0 [] = e) by (destruct e; reflexivity).
  destruct Hq as [(Hs & ->)|(n & Hs & Hn & H)].
  - destruct (C64_floats_partial arr (plain_point (vx e) (vy e) (vz e)) (-1) (-1) 0 0 [] []) as (out & E & So & Do); auto; try (cbn; lia).
    + right; cbn; lia.
    + right. unfold ndim. rewrite Hs. cbn. lia.
    + intros iq Hv. inversion Hv; subst. apply Hnz. left. reflexivity.
    + exists out. split; auto. left. split; [rewrite So; reflexivity|]. cbn [map]. f_equal. symmetry.
      specialize (Do [] [] (Forall2_nil _) (Forall2_nil _)). rewrite V0 in Do. exact Do.
  - destruct (C64_floats_partial arr (plain_point (vx e) (vy e) (vz e)) (-1) (-1) 0 1 [] [n]) as (out & E & So & Do); auto; try (cbn; lia).
    + right; cbn; lia.
    + right. unfold ndim. rewrite Hs. cbn. lia.
    + intros iq Hv. inversion Hv as [|i ? ? ? Hi Hv']; subst. inversion Hv'; subst. apply Hnz. change (quat_on arr 1 [i]) with (quat_at arr [i]). rewrite <- H by auto. apply nth_In. auto.
    + exists out. split; auto. right. exists n. split; [rewrite So; reflexivity|]. split; [rewrite map_length; auto|].
      intros i Hi. rewrite (nth_indep _ v0 ((fun q => srot q e) hone)) by (rewrite map_length; lia). rewrite (map_nth (fun q => srot q e)). rewrite H by auto.
      assert (Vi : valid [n] [i]) by (constructor; [auto|constructor]).
      specialize (Do [i] [] Vi (Forall2_nil _)). rewrite V0 in Do. symmetry. exact Do.
Qed.
(** Quaternions: three collections of arrows, for the images of the three axes; each arrow
    of length 1/2. *)
Theorem C65_quaternions : forall rescale ax arr base qs b, keeps_proper rescale -> proper ax -> quat_list arr qs -> (forall q, In q qs -> hnonzero q) ->
  base_list base (List.length qs) b ->
  exists ax' l1 l2 l3, plot_quaternions rescale ax arr base = (ax', Ok [l1; l2; l3]) /\ proper ax' /\ equal_scale ax' /\
    (forall l e, In (l, e) [(l1, e1); (l2, e2); (l3, e3)] -> List.length l = List.length qs /\
      forall i, (i < List.length qs)%nat -> nth i l (v0, v0) = (nth i b v0, vadd (nth i b v0) (vscale 0.5 (srot (nth i qs hone) e)))).
Proof.
  intros rescale ax arr base qs b HK P Hq Hnz Hb. unfold plot_quaternions.
  destruct (axis_image_ok arr qs e1 Hq Hnz) as (o1 & E1 & P1). destruct (axis_image_ok arr qs e2 Hq Hnz) as (o2 & E2 & P2). destruct (axis_image_ok arr qs e3 Hq Hnz) as (o3 & E3 & P3).
  cbn [e1 e2 e3 vx vy vz] in E1, E2, E3. rewrite E1, E2, E3. cbn [bind].
  assert (L : forall e, List.length (map (fun q => srot q e) qs) = List.length qs) by (intros; apply map_length).
  destruct (C65_vectors rescale ax o1 base 0.5 _ b HK P P1) as (ax1 & l1 & F1 & Q1 & _ & L1 & D1); [rewrite L; auto|]. rewrite F1.
  destruct (C65_vectors rescale ax1 o2 base 0.5 _ b HK Q1 P2) as (ax2 & l2 & F2 & Q2 & _ & L2 & D2); [rewrite L; auto|]. rewrite F2.
  destruct (C65_vectors rescale ax2 o3 base 0.5 _ b HK Q2 P3) as (ax3 & l3 & F3 & Q3 & S3 & L3 & D3); [rewrite L; auto|]. rewrite F3.
  exists ax3, l1, l2, l3. split; [reflexivity|]. split; auto. split; auto.
  assert (N : forall e i, (i < List.length qs)%nat -> nth i (map (fun q => srot q e) qs) v0 = srot (nth i qs hone) e).
  { intros e i Hi. rewrite (nth_indep _ v0 ((fun q => srot q e) hone)) by (rewrite map_length; lia). apply (map_nth (fun q => srot q e)). }
  rewrite L in *. intros l e [[= <- <-]|[[= <- <-]|[[= <- <-]|[]]]]; (split; [auto|]); intros i Hi; rewrite <- N by auto; auto.
Qed.

(** matplotlib's autoscaling without margins: the limits are those of the data, kept if
    there is none, and widened by 1 on both sides. *)
Definition rescale1 (a : axis3) (l : list R) : axis3 :=
  if auto a then match l with [] => a | x :: l => Ax3 (minl x l - 1) (maxl x l + 1) true end else a.
Definition rescale_ex (ax : axes) (l : list vec3) : axes := Axes (rescale1 (ax_x ax) (map vx l)) (rescale1 (ax_y ax) (map vy l)) (rescale1 (ax_z ax) (map vz l)).
Lemma rescale1_follows a l : lo a < hi a -> follows a (rescale1 a l) l.
Proof.
  intros H. unfold rescale1, follows. destruct (auto a) eqn:A; [|rewrite A; repeat split; auto; discriminate].
  destruct l as [|x l]; [rewrite A; repeat split; auto; try discriminate; contradiction|]. cbn [auto lo hi].
  pose proof (minl_le x l x (or_introl eq_refl)). pose proof (maxl_ge x l x (or_introl eq_refl)).
  split; [auto|]. split; [lra|]. split; [discriminate|]. intros _ y Hy. pose proof (minl_le x l y Hy). pose proof (maxl_ge x l y Hy). split; cbn [lo hi]; lra.
Qed.
Lemma rescale_ex_auto : autoscale rescale_ex.
Proof. intros ax l (A & B & C). repeat split; apply rescale1_follows; auto. Qed.
Example C65_example : exists ax, autoscale rescale_ex /\ keeps_proper (fun ax l => rescale_ex ax (map fst l)) /\ proper ax /\
  auto (ax_x ax) = true /\ auto (ax_y ax) = true /\ auto (ax_z ax) = true /\ point_list (Nd [2%nat; 3%nat] (fun ix => INR (hd O ix))) [V3 0 0 0; V3 1 1 1] /\
  still ex_lit 1 /\ denotes ex_lit (PName "a") 1 /\ drawn_at hold_squad ex_lit 1 None (fun p => p) /\ transform_of mov_lit 3 <> None.
Proof.
  exists (Axes (Ax3 0 1 true) (Ax3 0 1 true) (Ax3 0 1 true)). split; [apply rescale_ex_auto|]. split; [intros ax l H; apply autoscale_proper; [apply rescale_ex_auto|auto]|].
  split; [repeat split; cbn; lra|]. split; [reflexivity|]. split; [reflexivity|]. split; [reflexivity|].
  split; [right; exists 2%nat; split; [reflexivity|]; split; [reflexivity|]; intros [|[|i]] Hi; [cbv; f_equal|cbv; f_equal|lia]|].
  split; [right; exists (V3 1 2 3), (Qt 0 1 0 0); reflexivity|]. split; [right; exists "a"%string; auto|]. split; [reflexivity|discriminate].
Qed.
