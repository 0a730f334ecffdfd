(** Properties C43, C44: labels of DataArrays. *)
From Coq Require Import Reals String List Arith Bool ZArith Lia Lra.
From Verif Require Import Base Quat SpecQuat QuatProofs NdArray Frames SpecForest FrameProofs WalkProofs
  Matcher SpecLookup LookupProofs RegistryProofs MovingProofs TimeProofs CtorProofs InverseProofs RouteProofs
  Examples PropForest PropLookup PropMoving
  Transform SpecArray NdProofs RotProofs ArrProofs ArrTransProofs ArrStaticProofs PropTransform PropRotate
  Coord Velocity TopLevel TopProofs SpecTop TopStep.
Import ListNotations.
Open Scope nat_scope.

(** transform_<m>(transform_<m>(d, into=d1), into=d2) ... with outof omitted. *)
Fixpoint transform_chain squad (m : method) (w : world) (d : darr) (dests : list pref) (dim : option string)
    (axis : option Z) (ts : tsarg) (time_axis : option Z) : world * res darr :=
  match dests with
  | [] => (w, Ok d)
  | a :: dests =>
      match transform squad m w (Lab d) a None dim axis ts time_axis with
      | (w', Ok (RLab d')) => transform_chain squad m w' d' dests dim axis ts time_axis
      | (w', Ok (RPlain _ _)) => (w', Raise TypeError)
      | (w', Raise e) => (w', Raise e)
      end
  end.
(** Consecutive frames i, js are connected through static frames (with unit rotations when
    timestamps are used). *)
Fixpoint links squad (s : state) (md : mode) (i : nat) (js : list nat) : Prop :=
  match js with
  | [] => True
  | j :: js => (exists t r, lookup_transform squad s i (PFrame j) = Ok (TrStatic t r)) /\ mode_way s i j md /\ links squad s md j js
  end.
Definition registered (s : state) (j : nat) : Prop := exists n, lookup n (reg s) = Some j.

Lemma moved_one m x pre : moved m v0 hone x x pre.
Proof. destruct m; cbn [moved]; [rewrite srot_one|unfold smove; rewrite srot_one, vadd_0_r|rewrite hmul_1_l]; reflexivity. Qed.
Lemma moved_comp m t1 r1 t2 r2 x y z pre : hn2 r1 <> 0%R -> hn2 r2 <> 0%R ->
  moved m t1 r1 x y pre -> moved m t2 r2 y z pre -> moved m (smove t2 r2 t1) (hmul r2 r1) x z pre.
Proof.
  intros N1 N2. destruct m; cbn [moved]; intros H1 H2; rewrite H2, H1.
  - symmetry. apply srot_hmul; auto.
  - symmetry. change (gact (gmul (t2, r2) (t1, r1)) (vec_at x pre) = gact (t2, r2) (gact (t1, r1) (vec_at x pre))). apply gact_mul; auto.
  - symmetry. apply hmul_assoc.
Qed.
Lemma moved_same m t r x y z sh ix : (forall pre, valid sh pre -> moved m t r x y pre) -> (forall pre, valid sh pre -> moved m t r x z pre) ->
  valid (sh ++ [ncomp m]) ix -> dat y ix = dat z ix.
Proof.
  intros H1 H2 Hv. pose proof (valid_length _ _ Hv) as L. rewrite app_length in L. cbn in L.
  assert (Hne : ix <> []) by (intros ->; cbn in L; lia).
  rewrite (app_removelast_last 0 Hne) in *. set (pre := removelast ix) in *. set (c := last ix 0) in *.
  assert (Lp : length pre = length sh) by (rewrite app_length in L; cbn in L; lia).
  assert (Hp : valid sh pre) by (eapply valid_app_inv; eauto).
  assert (Hc : c < ncomp m).
  { apply valid_nth in Hv as (_ & Hv). specialize (Hv (length sh)). rewrite !app_nth2, Lp, Nat.sub_diag in Hv by lia. cbn in Hv. apply Hv. rewrite app_length; cbn; lia. }
  specialize (H1 pre Hp). specialize (H2 pre Hp). destruct m; cbn [moved ncomp] in *.
  - assert (E : vec_at y pre = vec_at z pre) by congruence. unfold vec_at in E. injection E as E0 E1 E2.
    destruct c as [|[|[|c]]]; auto; lia.
  - assert (E : vec_at y pre = vec_at z pre) by congruence. unfold vec_at in E. injection E as E0 E1 E2.
    destruct c as [|[|[|c]]]; auto; lia.
  - assert (E : quat_at y pre = quat_at z pre) by congruence. unfold quat_at in E. injection E as E0 E1 E2 E3.
    destruct c as [|[|[|[|c]]]]; auto; lia.
Qed.
Lemma kept_trans a b c : attrs_kept a b -> attrs_kept b c -> attrs_kept a c.
Proof. intros (A1 & A2 & A3) (B1 & B2 & B3). split; [congruence|]. split; [lia|]. intros l Hl. rewrite B3 by lia. auto. Qed.
Lemma kept_refl a : attrs_kept a a.
Proof. split; auto. Qed.
Lemma labels_trans a b c : same_labels a b -> same_labels b c -> same_labels a c.
Proof. intros (A1 & A2 & A3 & A4) (B1 & B2 & B3 & B4). repeat split; congruence. Qed.
Lemma picks_labels d d' dim axis k : same_labels d d' -> picks d dim axis k -> picks d' dim axis k.
Proof. intros (H1 & _ & _ & H4) H. unfold picks, ndim in *. rewrite H1, H4. exact H. Qed.
Lemma mode_ok_labels m d d' ts ta md : same_labels d d' -> mode_ok m d ts ta md -> mode_ok m d' ts ta md.
Proof. intros (H1 & H2 & _ & H4) H. unfold mode_ok, untimed, timed, ndim in *. rewrite H1, H2, H4. exact H. Qed.

Lemma f2_cons {A B} (P : A -> B -> Prop) a l b l' : Forall2 P (a :: l) (b :: l') -> P a b /\ Forall2 P l l'.
Proof. intros H. inversion H; auto. Qed.

Section Squad.
Variable squad : list R -> list quat -> R -> res quat.
Lemma links_way s md i js : reachable s -> Forall (frame s) js -> links squad s md i js -> mode_way s i (last js i) md.
Proof.
  intros HR. destruct md as [|tau n tsa]; cbn [mode_way]; auto. revert i. induction js as [|j js IH]; intros i Hf H.
  - cbn [last]. intros k d [(A & B)|(A & B)]; contradiction.
  - apply Forall_cons_iff in Hf as (Hf1 & Hf2). cbn [links mode_way] in H. destruct H as (_ & H1 & H2). rewrite last_cons.
    apply (unit_way_trans s i j); auto. apply reach_inv; auto.
Qed.
Lemma mode_quat_step s i j t r m md sh x y : reachable s -> frame s i -> frame s j -> mode_way s i j md ->
  lookup_transform squad s i (PFrame j) = Ok (TrStatic t r) -> (forall pre, valid sh pre -> moved m t r x y pre) ->
  mode_quat squad m md sh x -> mode_quat squad m md sh y.
Proof.
  intros HR Hi Hj Hw Hl Hm. destruct m; cbn [mode_quat]; auto. destruct md as [|tau n tsa]; auto. cbn [mode_way] in Hw.
  intros (H1 & H2). split; auto. intros ix Hv. rewrite (Hm ix Hv). unfold hunit. rewrite hn2_hmul.
  rewrite (way_unit_static squad s i j t r HR Hi Hj Hw Hl), (H2 ix Hv). ring.
Qed.
Lemma chain_ok m dim axis ts time_axis sh md : forall dests js w d i v,
  reachable (frames w) -> data_array w d -> shp (da_data d) = (sh ++ [ncomp m])%list ->
  picks d dim axis (length sh) -> mode_ok m d ts time_axis md -> mode_quat squad m md sh (da_data d) ->
  attr w d (what_of m) = Some (Some v) -> lookup v (reg (frames w)) = Some i ->
  Forall2 (denotes (frames w)) dests js -> Forall (registered (frames w)) js -> links squad (frames w) md i js ->
  exists w' d' t r n, transform_chain squad m w d dests dim axis ts time_axis = (w', Ok d') /\
    lookup_transform squad (frames w) i (PFrame (last js i)) = Ok (TrStatic t r) /\
    attrs_kept w w' /\ data_array w' d' /\ same_labels d d' /\
    (forall pre, valid sh pre -> moved m t r (da_data d) (da_data d') pre) /\
    lookup n (reg (frames w)) = Some (last js i) /\ attr w' d' (what_of m) = Some (Some n) /\
    (dests <> [] -> attr w' d' "representation_frame" = Some (Some n)).
Proof.
  intros dests. induction dests as [|a dests IH]; intros js w d i v HR Hda Hsh Hp Hmo Hq Hv Hi Hden Hreg Hli.
  - inversion Hden; subst. exists w, d, (V3 0 0 0), (Qt 1 0 0 0), v. split; [reflexivity|].
    pose proof (reg_lt _ _ _ (proj2 (reach_inv _ HR)) Hi) as (Hif & _).
    split; [apply C09_self_lookup; auto; left; auto|]. split; [apply kept_refl|]. split; auto. split; [repeat split; auto|].
    split; [intros pre _; apply moved_one|]. split; auto. split; auto. intros H; contradiction H; reflexivity.
  - destruct js as [|j js]; [inversion Hden|]. apply f2_cons in Hden as (Hj & Hden). apply Forall_cons_iff in Hreg as ((nj & Hnj) & Hreg). cbn [links] in Hli. destruct Hli as ((t1 & r1 & Hl) & Hw & Hli).
    pose proof (reg_lt _ _ _ (proj2 (reach_inv _ HR)) Hi) as (Hif & _). pose proof (denotes_frame _ _ _ HR Hj) as Hjf.
    pose proof (reg_lt _ _ _ (proj2 (reach_inv _ HR)) Hnj) as (_ & Hname).
    destruct (transform_step squad m w d a None dim axis ts time_axis i j t1 r1 sh md HR Hda (ex_intro _ v (conj Hv Hi)) Hif Hj Hl Hsh Hp Hmo Hw Hq)
      as (w1 & d1 & E & Hk & Hda1 & Hsl & Hfresh & Hat & Hmv).
    cbn [transform_chain]. rewrite E.
    assert (Hfr : frames w1 = frames w) by apply Hk.
    assert (Hat1 : attr w1 d1 (what_of m) = Some (Some nj)).
    { unfold attr. rewrite Hat, Hname. unfold relabel. rewrite !lookup_set, String.eqb_refl. destruct m; reflexivity. }
    destruct (IH js w1 d1 j nj) as (w' & d' & t2 & r2 & n & E' & Hl2 & Hk2 & Hda2 & Hsl2 & Hmv2 & Hn & Hat2 & Hrep); rewrite ?Hfr; auto.
    { destruct Hsl as (_ & _ & _ & ->). exact Hsh. }
    { eapply picks_labels; eauto. }
    { eapply mode_ok_labels; eauto. }
    { apply (mode_quat_step (frames w) i j t1 r1 m md sh (da_data d)); auto. }
    rewrite Hfr in *. exists w', d', (smove t2 r2 t1), (hmul r2 r1), n. rewrite last_cons. split; auto.
    assert (Hlf : frame (frames w) (last js j)) by (apply (reg_lt _ _ _ (proj2 (reach_inv _ HR)) Hn)).
    split; [apply (C11_compose squad (frames w) i j (last js j)); auto|].
    split; [eapply kept_trans; eauto|]. split; auto. split; [eapply labels_trans; eauto|]. split.
    { intros pre Hpre. apply (moved_comp m t1 r1 t2 r2 _ (da_data d1)); auto.
      - eapply static_nz; [exact HR|exact Hif|left; split; [reflexivity|exact Hjf]|exact Hl].
      - eapply static_nz; [exact HR|exact Hjf|left; split; [reflexivity|exact Hlf]|exact Hl2]. }
    split; auto. split; auto. intros _. destruct dests as [|b dests]; [|apply Hrep; discriminate].
    inversion Hden; subst. cbn [transform_chain] in E'. injection E' as <- <-. cbn [last] in Hn.
    assert (nj = n) by (destruct (reg_lt _ _ _ (proj2 (reach_inv _ HR)) Hn) as (_ & X); rewrite Hname in X; congruence). subst n.
    unfold attr. rewrite Hat, Hname. unfold relabel. rewrite lookup_set, String.eqb_refl. reflexivity.
Qed.
End Squad.

(* ------------------------------------------------------------------ C43 *)
(** d is a DataArray of vectors, points or orientations (coordinates on the last axis,
    named or by default) whose frame attribute names the registered frame i; the
    destinations denote registered frames js.  The chain succeeds; the data is that of
    one direct transform; the attributes name the last frame; labels are kept; no
    dictionary that existed before is changed.  (Also for every prefix, so after every
    step.) *)
Theorem C43_chain : forall squad m w d dests js dim axis ts time_axis i v sh md,
  reachable (frames w) -> data_array w d -> shp (da_data d) = (sh ++ [ncomp m])%list ->
  picks d dim axis (List.length sh) -> mode_ok m d ts time_axis md -> mode_quat squad m md sh (da_data d) ->
  attr w d (frame_attr m) = Some (Some v) -> lookup v (reg (frames w)) = Some i ->
  Forall2 (denotes (frames w)) dests js -> Forall (registered (frames w)) js -> links squad (frames w) md i js ->
  dests <> [] ->
  exists w' d' w1 d1 n t r,
    transform_chain squad m w d dests dim axis ts time_axis = (w', Ok d') /\
    transform squad m w (Lab d) (last dests POther) (Some (PName v)) dim axis ts time_axis = (w1, Ok (RLab d1)) /\
    (forall ix, valid (shp (da_data d)) ix -> dat (da_data d') ix = dat (da_data d1) ix) /\
    same_labels d d' /\ same_labels d d1 /\
    lookup n (reg (frames w)) = Some (last js i) /\
    attr w' d' (frame_attr m) = Some (Some n) /\ attr w' d' "representation_frame" = Some (Some n) /\
    attrs_kept w w' /\ attrs_kept w w1 /\
    lookup_transform squad (frames w) i (PFrame (last js i)) = Ok (TrStatic t r) /\
    (forall pre, valid sh pre -> moved m t r (da_data d) (da_data d') pre).
Proof.
  assert (EW : forall m, frame_attr m = what_of m) by (intros []; reflexivity).
  intros squad m w d dests js dim axis ts time_axis i v sh md HR Hda Hsh Hp Hmo Hq Hv Hi Hden Hreg Hli Hne. rewrite EW in Hv; rewrite EW.
  destruct (chain_ok squad m dim axis ts time_axis sh md dests js w d i v HR Hda Hsh Hp Hmo Hq Hv Hi Hden Hreg Hli)
    as (w' & d' & t & r & n & E & Hl & Hk & Hda' & Hsl & Hmv & Hn & Hat & Hrep).
  pose proof (reg_lt _ _ _ (proj2 (reach_inv _ HR)) Hi) as (Hif & _).
  assert (Hjf : Forall (frame (frames w)) js).
  { clear - HR Hden. induction Hden; constructor; auto. eapply denotes_frame; eauto. }
  assert (Hlast : denotes (frames w) (last dests POther) (last js i)).
  { clear - Hden Hne. revert i. induction Hden as [|a j dests js Ha Hd IH]; intros i; [congruence|].
    destruct Hd as [|b k dests js Hb Hd]; [exact Ha|]. change (last (a :: b :: dests) POther) with (last (b :: dests) POther).
    change (last (j :: k :: js) i) with (last (k :: js) i). apply IH. discriminate. }
  destruct (transform_step squad m w d (last dests POther) (Some (PName v)) dim axis ts time_axis i (last js i) t r sh md HR Hda) as (w1 & d1 & E1 & K1 & _ & L1 & _ & _ & M1); auto.
  { cbn [from]. right. exists v. auto. }
  { eapply links_way; eauto. }
  exists w', d', w1, d1, n, t, r. repeat (split; [solve [auto]|]).
  split; [intros ix Hix; rewrite Hsh in Hix; eapply (moved_same m t r (da_data d)); eauto|].
  repeat (split; [solve [auto]|]). auto.
Qed.

(* ---- examples ---- *)
Definition no_attrs : attrs := [].
(** Two points in frame b, dims (n, cartesian_axis), chain to c and then to a. *)
Definition ex_points : darr :=
  DA (Nd [2; 3] (fun ix => INR (3 * nth 0 ix 0 + nth 1 ix 0))) ["n"%string; "cartesian_axis"%string]
     [("cartesian_axis"%string, Co ["cartesian_axis"%string] (CStr ["x"; "y"; "z"]%string));
      ("n"%string, Co ["n"%string] (CNum (arr1 [0; 2]%R)))] None 1.
Definition ex_world : world := World ex_lit [no_attrs; [("units", Some "m"); ("reference_frame", Some "b")]%string].
Example C43_example :
  reachable (frames ex_world) /\ data_array ex_world ex_points /\ shp (da_data ex_points) = ([2] ++ [ncomp Points])%list /\
  picks ex_points (Some "cartesian_axis"%string) None 1 /\ picks ex_points None (Some 1%Z) 1 /\
  mode_ok Points ex_points TFalse None Untimed /\ mode_quat hold_squad Points Untimed [2] (da_data ex_points) /\
  attr ex_world ex_points (frame_attr Points) = Some (Some "b"%string) /\ lookup "b"%string (reg ex_lit) = Some 2 /\
  Forall2 (denotes ex_lit) [PName "c"%string; PFrame 1] [3; 1] /\ Forall (registered ex_lit) [3; 1] /\
  links hold_squad ex_lit Untimed 2 [3; 1].
Proof.
  split; [apply ex_lit_reachable|]. split.
  { split; [reflexivity|]. split; [repeat constructor; cbn; intuition discriminate|]. split; [|cbn; lia].
    intros n c Hin. cbn in Hin. destruct Hin as [E|[E|[]]]; injection E as <- <-; cbn; (constructor; [|constructor]); [exists 1|exists 0]; split; reflexivity. }
  split; [reflexivity|]. split; [reflexivity|]. split; [split; [lia|]; split; [left; reflexivity|cbn; lia]|].
  split; [split; [left; reflexivity|reflexivity]|]. split; [exact I|]. split; [reflexivity|]. split; [reflexivity|].
  split; [constructor; [right; exists "c"%string; split; reflexivity|constructor; [left; split; [reflexivity|unfold frame, size; cbn; lia]|constructor]]|].
  split; [constructor; [exists "c"%string; reflexivity|constructor; [exists "a"%string; reflexivity|constructor]]|].
  destruct C11_example as (t1 & r1 & t2 & r2 & E1 & E2). cbn [links mode_way]. split; [eauto|]. split; auto. split; [eauto|]. auto.
Qed.
(** With timestamps: two orientations of frame c, dims (time, quaternion_axis), to m and
    back to c. *)
Definition ex_orient : darr :=
  DA (Nd [2; 4] (fun ix => if Nat.eqb (nth 1 ix 0) (nth 0 ix 0) then 1%R else 0%R)) ["time"%string; "quaternion_axis"%string]
     [("time"%string, Co ["time"%string] (CNum (arr1 [0; 2]%R)))] None 0.
Definition ex_mworld : world := World mov_lit [[("reference_frame", Some "c")]%string].
Example C43_timed_example :
  reachable (frames ex_mworld) /\ data_array ex_mworld ex_orient /\ shp (da_data ex_orient) = ([2] ++ [ncomp Quaternions])%list /\
  picks ex_orient None None 1 /\ mode_ok Quaternions ex_orient TNone None (Timed 0 2 (arr1 [0; 2]%R)) /\
  mode_quat hold_squad Quaternions (Timed 0 2 (arr1 [0; 2]%R)) [2] (da_data ex_orient) /\
  attr ex_mworld ex_orient (frame_attr Quaternions) = Some (Some "c"%string) /\ lookup "c"%string (reg mov_lit) = Some 2 /\
  Forall2 (denotes mov_lit) [PName "m"%string; PFrame 2] [1; 2] /\ Forall (registered mov_lit) [1; 2] /\
  links hold_squad mov_lit (Timed 0 2 (arr1 [0; 2]%R)) 2 [1; 2].
Proof.
  split; [apply mov_lit_reachable|]. split.
  { split; [reflexivity|]. split; [repeat constructor; cbn; intuition discriminate|]. split; [|cbn; lia].
    intros n c Hin. cbn in Hin. destruct Hin as [E|[]]; injection E as <- <-; cbn; (constructor; [|constructor]); exists 0; split; reflexivity. }
  split; [reflexivity|]. split; [reflexivity|]. split.
  { split; [|cbn; lia]. exists "time"%string. split; [reflexivity|]. split; [reflexivity|]. split; [right; repeat split; cbn; lia|].
    split; [reflexivity|]. split; [lia|]. intros a b Hab. assert (a = 0) by lia. assert (b = 1) by lia. subst. cbn. lra. }
  split.
  { split; [apply hold_squad_exact|]. intros ix Hv. destruct ix as [|n0 [|? ?]]; [inversion Hv| |inversion Hv; subst; match goal with H : Forall2 _ (_ :: _) [] |- _ => inversion H end].
    assert (Hn : n0 < 2) by (inversion Hv; subst; assumption). destruct n0 as [|[|n0]]; [| |lia]; unfold hunit, quat_at, ex_orient; cbn; vcomp; lra. }
  split; [reflexivity|]. split; [reflexivity|].
  split; [constructor; [right; exists "m"%string; split; reflexivity|constructor; [left; split; [reflexivity|unfold frame, size; cbn; lia]|constructor]]|].
  split; [constructor; [exists "m"%string; reflexivity|constructor; [exists "c"%string; reflexivity|constructor]]|].
  assert (L : exists t r, lookup_transform hold_squad mov_lit 2 (PFrame 1) = Ok (TrStatic t r)).
  { apply (lookup_succeeds hold_squad mov_lit 2 1); [apply reach_inv, mov_lit_reachable|unfold size; cbn; lia|unfold size; cbn; lia| |].
    - exists 0. split; apply mov_root; lia.
    - intros k [(A & B)|(A & B)].
      + inversion A as [|? p ? E1 E2]; subst; [exists (V3 0 0 1), (Qt 0 0 0 1); split; [reflexivity|vcomp; lra]|]. cbn in E1. injection E1 as <-. contradiction.
      + exfalso. apply B. econstructor; [reflexivity|]. exact A. }
  destruct L as (t & r & L).
  assert (U : forall i j, unit_way mov_lit i j) by (intros i j k d _ Hd; eapply mov_unit; eauto).
  destruct (C10_inverse hold_squad mov_lit 2 1 t r mov_lit_reachable) as (t' & r' & L' & _); [unfold frame, size; cbn; lia|unfold frame, size; cbn; lia|exact L|].
  cbn [links mode_way]. split; [eauto|]. split; [apply U|]. split; [eauto|]. split; [apply U|]. exact I.
Qed.

(* ------------------------------------------------------------------ C44 *)
Definition named (s : state) (j : nat) : Prop := exists n, name_of s j = Some n /\ lookup n (reg s) = Some j.
Lemma pose_array w a dims c name l : List.length dims = ndim a -> NoDup dims -> Forall2 (dim_size (DA a dims [c] name l)) (co_dims (snd c)) (coord_size (snd c)) ->
  l < List.length (dicts w) -> data_array w (DA a dims [c] name l).
Proof. intros H1 H2 H3 H4. split; auto. split; auto. split; auto. intros n c' Hin. cbn in Hin. destruct Hin as [->|[]]. exact H3. Qed.

(** The dataset of lookup_pose, as two DataArrays, or of lookup_transform. *)
Lemma dataset_facts w t r fr pose : exists w1 pos ori, make_dataset w (TrStatic t r) fr pose = (w1, Ok (pos, ori)) /\
  frames w1 = frames w /\ data_array w1 pos /\ data_array w1 ori /\ shp (da_data pos) = [3] /\ shp (da_data ori) = [4] /\
  vec_at (da_data pos) [] = t /\ quat_at (da_data ori) [] = r /\
  attr w1 pos "reference_frame" = Some fr /\ attr w1 ori "reference_frame" = Some fr /\
  (exists n, attr w1 pos "representation_frame" = Some fr /\ da_name pos = Some n).
Proof.
  unfold make_dataset. destruct (alloc w _) as [w1 l1] eqn:A1. destruct (alloc w1 _) as [w2 l2] eqn:A2.
  destruct (dict_alloc _ _ _ _ A1) as (F1 & E1 & L1 & D1 & O1). destruct (dict_alloc _ _ _ _ A2) as (F2 & E2 & L2 & D2 & O2).
  cbn [tr_ts]. eexists; eexists; eexists. split; [reflexivity|]. split; [congruence|].
  split; [apply pose_array; [reflexivity|repeat constructor; cbn; tauto|cbn; constructor; [exists 0; split; reflexivity|constructor]|lia]|].
  split; [apply pose_array; [reflexivity|repeat constructor; cbn; tauto|cbn; constructor; [exists 0; split; reflexivity|constructor]|lia]|].
  split; [reflexivity|]. split; [reflexivity|]. split; [destruct t; reflexivity|]. split; [destruct r; reflexivity|].
  unfold attr. cbn [da_attrs]. rewrite D2. rewrite (O2 l1) by lia. rewrite D1. split; [reflexivity|]. split; [reflexivity|]. eexists. split; reflexivity.
Qed.

(** lookup_pose(frame, reference), then transform_points and transform_quaternions into
    target with outof omitted: origin and orientation of the frame in target. *)
Theorem C44_pose_partial : forall squad w fr i reference j target k tij rij tjk rjk, reachable (frames w) ->
  denotes (frames w) fr i -> denotes (frames w) reference j -> denotes (frames w) target k -> named (frames w) j ->
  lookup_transform squad (frames w) i (PFrame j) = Ok (TrStatic tij rij) ->
  lookup_transform squad (frames w) j (PFrame k) = Ok (TrStatic tjk rjk) ->
  exists w1 pos ori w2 p w3 o t r, lookup_pose_ds squad w fr reference = (w1, Ok (pos, ori)) /\
    transform squad Points w1 (Lab pos) target None None None TNone None = (w2, Ok (RLab p)) /\
    transform squad Quaternions w1 (Lab ori) target None None None TNone None = (w3, Ok (RLab o)) /\
    lookup_transform squad (frames w) i (PFrame k) = Ok (TrStatic t r) /\
    vec_at (da_data p) [] = smove t r (V3 0 0 0) /\ quat_at (da_data o) [] = r.
Proof.
  intros squad w fr i reference j target k tij rij tjk rjk HR Hi Hj Hk (n & Hn1 & Hn2) H1 H2.
  pose proof (denotes_frame _ _ _ HR Hi) as Fi. pose proof (denotes_frame _ _ _ HR Hj) as Fj. pose proof (denotes_frame _ _ _ HR Hk) as Fk.
  destruct (dataset_facts w tij rij (name_of (frames w) j) true) as (w1 & pos & ori & E & F & Dp & Do & Sp & So & Vp & Vo & Ap & Ao & _).
  assert (Hfrom : forall m d, what_of m = "reference_frame"%string -> attr w1 d "reference_frame" = Some (name_of (frames w) j) -> from m w1 d None j).
  { intros m d Hm Ha. exists n. rewrite Hm, Ha, F. split; congruence. }
  destruct (transform_step squad Points w1 pos target None None None TNone None j k tjk rjk [] Untimed) as (w2 & p & E2 & _ & _ & _ & _ & _ & M2); rewrite ?F; auto.
  { unfold picks, ndim. rewrite Sp. reflexivity. }
  { split; auto. right. split; auto. unfold ndim. rewrite Sp. reflexivity. }
  { exact I. } { exact I. }
  destruct (transform_step squad Quaternions w1 ori target None None None TNone None j k tjk rjk [] Untimed) as (w3 & o & E3 & _ & _ & _ & _ & _ & M3); rewrite ?F; auto.
  { unfold picks, ndim. rewrite So. reflexivity. }
  { split; auto. right. split; auto. unfold ndim. rewrite So. reflexivity. }
  { exact I. } { exact I. }
  exists w1, pos, ori, w2, p, w3, o, (smove tjk rjk tij), (hmul rjk rij). split.
  { unfold lookup_pose_ds. rewrite (denotes_resolve _ _ _ Hj), (denotes_resolve _ _ _ Hi). cbn [bind]. rewrite H1. cbn [bind]. exact E. }
  split; auto. split; auto. split; [apply (C11_compose squad (frames w) i j k); auto|].
  specialize (M2 [] (Forall2_nil _)). specialize (M3 [] (Forall2_nil _)). cbn [moved] in M2, M3. rewrite M2, M3, Vp, Vo. split; auto.
  unfold smove at 2. change (V3 0 0 0) with v0. rewrite srot_0, vadd_0_l. reflexivity.
Qed.
Example C44_example : denotes ex_lit (PName "b"%string) 2 /\ denotes ex_lit (PName "c"%string) 3 /\ denotes ex_lit (PFrame 1) 1 /\ named ex_lit 3 /\
  exists t1 r1 t2 r2, lookup_transform hold_squad ex_lit 2 (PFrame 3) = Ok (TrStatic t1 r1) /\ lookup_transform hold_squad ex_lit 3 (PFrame 1) = Ok (TrStatic t2 r2).
Proof.
  split; [right; exists "b"%string; auto|]. split; [right; exists "c"%string; auto|]. split; [left; split; [reflexivity|unfold frame, size; cbn; lia]|].
  split; [exists "c"%string; auto|]. exact C11_example.
Qed.

(** The dataset of lookup_transform(outof, into) is expressed in into but labelled with
    outof.  Given outof=into explicitly the result is right. *)
Theorem C44_transform_partial : forall squad w outof i into j target k tij rij tjk rjk, reachable (frames w) ->
  denotes (frames w) outof i -> denotes (frames w) into j -> denotes (frames w) target k ->
  lookup_transform squad (frames w) i (PFrame j) = Ok (TrStatic tij rij) ->
  lookup_transform squad (frames w) j (PFrame k) = Ok (TrStatic tjk rjk) ->
  exists w1 pos ori w2 p t r, lookup_transform_ds squad w outof into = (w1, Ok (pos, ori)) /\
    attr w1 pos "reference_frame" = Some (name_of (frames w) i) /\
    transform squad Points w1 (Lab pos) target (Some into) None None TNone None = (w2, Ok (RLab p)) /\
    lookup_transform squad (frames w) i (PFrame k) = Ok (TrStatic t r) /\
    vec_at (da_data p) [] = smove t r (V3 0 0 0).
Proof.
  intros squad w outof i into j target k tij rij tjk rjk HR Hi Hj Hk H1 H2.
  pose proof (denotes_frame _ _ _ HR Hi) as Fi. pose proof (denotes_frame _ _ _ HR Hj) as Fj. pose proof (denotes_frame _ _ _ HR Hk) as Fk.
  destruct (dataset_facts w tij rij (name_of (frames w) i) false) as (w1 & pos & ori & E & F & Dp & Do & Sp & So & Vp & Vo & Ap & Ao & _).
  destruct (transform_step squad Points w1 pos target (Some into) None None TNone None j k tjk rjk [] Untimed) as (w2 & p & E2 & _ & _ & _ & _ & _ & M2); cbn [from]; rewrite ?F; auto.
  { unfold picks, ndim. rewrite Sp. reflexivity. }
  { split; auto. right. split; auto. unfold ndim. rewrite Sp. reflexivity. }
  { exact I. } { exact I. }
  exists w1, pos, ori, w2, p, (smove tjk rjk tij), (hmul rjk rij). split.
  { unfold lookup_transform_ds. rewrite (denotes_resolve _ _ _ Hj), (denotes_resolve _ _ _ Hi). cbn [bind]. rewrite H1. cbn [bind]. exact E. }
  split; auto. split; auto. split; [apply (C11_compose squad (frames w) i j k); auto|].
  specialize (M2 [] (Forall2_nil _)). cbn [moved] in M2. rewrite M2, Vp.
  unfold smove at 2. change (V3 0 0 0) with v0. rewrite srot_0, vadd_0_l. reflexivity.
Qed.
(** Frame c is at (5,0,0) in world.  lookup_transform("c","world") as a dataset,
    transformed into world with outof omitted: (10,0,0). *)
Theorem C44_refuted : exists w outof i into target k t r w1 pos ori w2 p, reachable (frames w) /\
  denotes (frames w) outof i /\ denotes (frames w) target k /\ named (frames w) i /\
  lookup_transform hold_squad (frames w) i (PFrame k) = Ok (TrStatic t r) /\
  lookup_transform_ds hold_squad w outof into = (w1, Ok (pos, ori)) /\
  transform hold_squad Points w1 (Lab pos) target None None None TNone None = (w2, Ok (RLab p)) /\
  vec_at (da_data p) [] = V3 10 0 0 /\ smove t r (V3 0 0 0) = V3 5 0 0.
Proof.
  destruct c_world_frames as (F3 & F0). pose proof c_to_world as L.
  assert (Hd : denotes ex_lit (PName "c"%string) 3) by (right; exists "c"%string; auto).
  destruct (dataset_facts (World ex_lit []) (V3 5 0 0) (Qt 1 0 0 0) (Some "c"%string) false) as (w1 & pos & ori & E & F & Dp & Do & Sp & So & Vp & Vo & Ap & Ao & _). cbn [frames] in F.
  destruct (transform_step hold_squad Points w1 pos (PFrame 0) None None None TNone None 3 0 (V3 5 0 0) (Qt 1 0 0 0) [] Untimed) as (w2 & p & E2 & _ & _ & _ & _ & _ & M2); cbn [from]; rewrite ?F; auto.
  { apply ex_lit_reachable. }
  { exists "c"%string. split; auto. }
  { unfold picks, ndim. rewrite Sp. reflexivity. }
  { split; auto. right. split; auto. unfold ndim. rewrite Sp. reflexivity. }
  { exact I. } { exact I. }
  exists (World ex_lit []), (PName "c"%string), 3, (PFrame 0), (PFrame 0), 0, (V3 5 0 0), (Qt 1 0 0 0), w1, pos, ori, w2, p.
  cbn [frames]. split; [apply ex_lit_reachable|]. split; auto. split; auto. split; [exists "c"%string; auto|]. split; auto. split.
  { unfold lookup_transform_ds. cbn [frames]. rewrite (denotes_resolve _ _ _ Hd), (denotes_resolve _ _ _ F0). cbn [bind]. rewrite L. cbn [bind]. exact E. }
  split; auto. specialize (M2 [] (Forall2_nil _)). cbn [moved] in M2. rewrite M2, Vp.
  change (Qt 1 0 0 0) with hone. unfold smove. rewrite !srot_one. split; unfold vadd; cbn [vx vy vz]; f_equal; ring.
Qed.
