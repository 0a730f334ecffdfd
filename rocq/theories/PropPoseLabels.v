(** Property C44, the labels of the datasets of lookup_pose and lookup_transform: every
    label a user can read, on static and on moving routes. *)
From Coq Require Import Reals String List Arith Bool ZArith Lia Lra.
From Verif Require Import Base Quat SpecQuat NdArray Frames SpecForest FrameProofs Matcher PropForest RouteProofs Examples PropLookup PropMoving
  Transform TopLevel TopProofs SpecTop TopStep PropTop.
Import ListNotations.
Open Scope nat_scope.

(* ------------------------------------------------------------------ specification *)
(** d is called [name], its components along [axis] are labelled [comps], and its rows (if
    [times] are given) with the times; [frame] is the frame it is expressed in. *)
Definition shows (w : world) (d : darr) (name long axis : string) (comps : list string) (unit : option string)
    (frame : option string) (times : option (list R)) : Prop :=
  da_name d = Some name /\
  lookup axis (da_coords d) = Some (Co [axis] (CStr comps)) /\
  match times with
  | None => da_dims d = [axis] /\ shp (da_data d) = [List.length comps] /\ lookup "time"%string (da_coords d) = None
  | Some l => da_dims d = ["time"%string; axis] /\ shp (da_data d) = [List.length l; List.length comps] /\
      exists t, lookup "time"%string (da_coords d) = Some (Co ["time"%string] (CNum t)) /\ shp t = [List.length l] /\
        forall n x, nth_error l n = Some x -> dat t [n] = x
  end /\
  attr w d "representation_frame" = Some frame /\ attr w d "reference_frame" = Some frame /\
  attr w d "motion_type" = Some (Some name) /\ attr w d "long_name" = Some (Some long) /\
  attr w d "units" = option_map Some unit.
(** The k-th component of a vector or a quaternion. *)
Definition vc (v : vec3) (k : nat) : R := match k with 0 => vx v | 1 => vy v | _ => vz v end.
Definition qc (q : quat) (k : nat) : R := match k with 0 => qw q | 1 => qx q | 2 => qy q | _ => qz q end.
(** The two arrays hold the values of the transform. *)
Definition holds (pos ori : darr) (tr : transf) : Prop :=
  match tr with
  | TrStatic t r => (forall k, k < 3 -> dat (da_data pos) [k] = vc t k) /\ (forall k, k < 4 -> dat (da_data ori) [k] = qc r k)
  | TrRows _ rows => forall n t r, nth_error rows n = Some (t, r) ->
      (forall k, k < 3 -> dat (da_data pos) [n; k] = vc t k) /\ (forall k, k < 4 -> dat (da_data ori) [n; k] = qc r k)
  | TrBare _ => False
  end.
Definition times_of (tr : transf) : option (list R) := match tr with TrRows ts _ => Some ts | _ => None end.
(** Labels of a dataset. *)
Definition pose_dataset (w w' : world) (pos ori : darr) (j : nat) (tr : transf) : Prop :=
  shows w' pos "position" "Position" "cartesian_axis" ["x"; "y"; "z"]%string (Some "m"%string) (name_of (frames w) j) (times_of tr) /\
  shows w' ori "orientation" "Orientation" "quaternion_axis" ["w"; "x"; "y"; "z"]%string None (name_of (frames w) j) (times_of tr) /\ holds pos ori tr.
Definition transform_dataset (w w' : world) (pos ori : darr) (i : nat) (tr : transf) : Prop :=
  shows w' pos "translation" "Translation" "cartesian_axis" ["x"; "y"; "z"]%string (Some "m"%string) (name_of (frames w) i) (times_of tr) /\
  shows w' ori "rotation" "Rotation" "quaternion_axis" ["w"; "x"; "y"; "z"]%string None (name_of (frames w) i) (times_of tr) /\ holds pos ori tr.
(** Nothing that existed before is touched. *)
Definition old_labels_kept (w w' : world) : Prop := frames w' = frames w /\
  forall d k, da_attrs d < List.length (dicts w) -> attr w' d k = attr w d k.

(* ------------------------------------------------------------------ theorems *)
Lemma of_list_nth l n x : nth_error l n = Some x -> dat (of_list l) [n] = x.
Proof. intros H. cbn. apply nth_error_nth with (d := 0%R) in H. exact H. Qed.
Lemma comp3_vc v k : k < 3 -> comp3 k v = vc v k.
Proof. intros H. destruct k as [|[|[|k]]]; reflexivity. Qed.
Lemma comp4_qc q k : k < 4 -> comp4 k q = qc q k.
Proof. intros H. destruct k as [|[|[|[|k]]]]; reflexivity. Qed.
Lemma make_dataset_labels w tr fr pose : (forall ts, tr <> TrBare ts) -> exists w' pos ori, make_dataset w tr fr pose = (w', Ok (pos, ori)) /\
  old_labels_kept w w' /\
  shows w' pos (if pose then "position" else "translation") (if pose then "Position" else "Translation") "cartesian_axis" ["x"; "y"; "z"]%string (Some "m"%string) fr (times_of tr) /\
  shows w' ori (if pose then "orientation" else "rotation") (if pose then "Orientation" else "Rotation") "quaternion_axis" ["w"; "x"; "y"; "z"]%string None fr (times_of tr) /\
  holds pos ori tr.
Proof.
  intros NB. unfold make_dataset. destruct (alloc w _) as [w1 l1] eqn:A1. destruct (alloc w1 _) as [w2 l2] eqn:A2.
  destruct (dict_alloc _ _ _ _ A1) as (F1 & E1 & L1 & D1 & O1). destruct (dict_alloc _ _ _ _ A2) as (F2 & E2 & L2 & D2 & O2).
  assert (X1 : dict_at w2 l1 = (ds_attrs fr (if pose then "position" else "translation") (if pose then "Position" else "Translation") ++ [("units", Some "m")])%list%string)
    by (rewrite (O2 l1) by lia; exact D1).
  assert (K : old_labels_kept w w2).
  { split; [congruence|]. intros d k Hd. unfold attr. rewrite (O2 (da_attrs d)) by lia. rewrite (O1 (da_attrs d)) by lia. reflexivity. }
  destruct tr as [t r|ts|ts rows]; [|exfalso; exact (NB ts eq_refl)|]; cbn [tr_ts];
    eexists; eexists; eexists; (split; [reflexivity|]); (split; [exact K|]);
    unfold shows, attr; cbn [da_attrs da_name da_coords da_dims da_data times_of]; rewrite X1, D2.
  - split; [destruct pose; repeat (match goal with |- _ /\ _ => split end); reflexivity|].
    split; [destruct pose; repeat (match goal with |- _ /\ _ => split end); reflexivity|].
    split; [intros k Hk; exact (comp3_vc t k Hk)|intros k Hk; exact (comp4_qc r k Hk)].
  - assert (T : exists t, Some (Co ["time"%string] (CNum (of_list ts))) = Some (Co ["time"%string] (CNum t)) /\ shp t = [List.length ts] /\
      forall n x, nth_error ts n = Some x -> dat t [n] = x).
    { exists (of_list ts). split; [reflexivity|]. split; [reflexivity|]. intros n x Hx. exact (of_list_nth ts n x Hx). }
    assert (V : holds (DA (tr_t (TrRows ts rows)) ["time"; "cartesian_axis"]%string [("time"%string, Co ["time"%string] (CNum (of_list ts))); cart_coord] (Some (if pose then "position"%string else "translation"%string)) l1)
                      (DA (as_float (tr_r (TrRows ts rows))) ["time"; "quaternion_axis"]%string [("time"%string, Co ["time"%string] (CNum (of_list ts))); quat_coord] (Some (if pose then "orientation"%string else "rotation"%string)) l2) (TrRows ts rows)).
    { intros n t r Hn. cbn [da_data tr_t tr_r as_float dat hd nth last removelast]. unfold rowv, rowq. rewrite (nth_error_nth _ _ _ Hn).
      split; intros k Hk; [exact (comp3_vc t k Hk)|exact (comp4_qc r k Hk)]. }
    split; [destruct pose; repeat (match goal with |- _ /\ _ => split end); first [reflexivity|exact T]|].
    split; [destruct pose; repeat (match goal with |- _ /\ _ => split end); first [reflexivity|exact T]|]. exact V.
Qed.

(** lookup_pose(frame, reference, as_dataset=True): values and labels, and nothing else is
    changed; it fails exactly as the lookup fails. *)
Theorem C44_pose_labels : forall squad w fr i reference j, reachable (frames w) ->
  denotes (frames w) fr i -> denotes (frames w) reference j ->
  match lookup_transform squad (frames w) i (PFrame j) with
  | Raise e => lookup_pose_ds squad w fr reference = (w, Raise e)
  | Ok tr => exists w' pos ori, lookup_pose_ds squad w fr reference = (w', Ok (pos, ori)) /\
      old_labels_kept w w' /\ pose_dataset w w' pos ori j tr
  end.
Proof.
  intros squad w fr i reference j HR Hi Hj. unfold lookup_pose_ds. rewrite (denotes_resolve _ _ _ Hj), (denotes_resolve _ _ _ Hi). cbn [bind].
  destruct (lookup_transform squad (frames w) i (PFrame j)) as [tr|e] eqn:L; cbn [bind]; [|reflexivity].
  destruct (make_dataset_labels w tr (name_of (frames w) j) true) as (w' & pos & ori & E & K & P).
  { intros ts ->. exact (C17_no_bare squad (frames w) i (PFrame j) ts HR L). }
  exists w', pos, ori. split; [exact E|]. split; [exact K|exact P].
Qed.
(** lookup_transform(outof, into, as_dataset=True). *)
Theorem C44_transform_labels : forall squad w outof i into j, reachable (frames w) ->
  denotes (frames w) outof i -> denotes (frames w) into j ->
  match lookup_transform squad (frames w) i (PFrame j) with
  | Raise e => lookup_transform_ds squad w outof into = (w, Raise e)
  | Ok tr => exists w' pos ori, lookup_transform_ds squad w outof into = (w', Ok (pos, ori)) /\
      old_labels_kept w w' /\ transform_dataset w w' pos ori i tr
  end.
Proof.
  intros squad w outof i into j HR Hi Hj. unfold lookup_transform_ds. rewrite (denotes_resolve _ _ _ Hj), (denotes_resolve _ _ _ Hi). cbn [bind].
  destruct (lookup_transform squad (frames w) i (PFrame j)) as [tr|e] eqn:L; cbn [bind]; [|reflexivity].
  destruct (make_dataset_labels w tr (name_of (frames w) i) false) as (w' & pos & ori & E & K & P).
  { intros ts ->. exact (C17_no_bare squad (frames w) i (PFrame j) ts HR L). }
  exists w', pos, ori. split; [exact E|]. split; [exact K|exact P].
Qed.
(** A moving case. *)
Example C44_labels_example : let w := World mov_lit [[]] in exists w' pos ori ts rows,
  lookup_pose_ds hold_squad w (PFrame 3) (PFrame 2) = (w', Ok (pos, ori)) /\ pose_dataset w w' pos ori 2 (TrRows ts rows) /\ old_labels_kept w w'.
Proof.
  cbn zeta. pose proof mov_lit_reachable as HR. destruct C17_example as (_ & _ & ts & rows & L).
  pose proof (C44_pose_labels hold_squad (World mov_lit [[]]) (PFrame 3) 3 (PFrame 2) 2 HR) as G. cbn [frames] in G. rewrite L in G.
  destruct G as (w' & pos & ori & E & K & P); [left; split; [reflexivity|unfold PropForest.frame, size; cbn; lia]|left; split; [reflexivity|unfold PropForest.frame, size; cbn; lia]|].
  exists w', pos, ori, ts, rows. auto.
Qed.
Print Assumptions C44_pose_labels.
Print Assumptions C44_transform_labels.
