(** Properties C13, C14, C22-C26: transforms of points, vectors, orientations. *)
From Coq Require Import Reals List Arith Bool ZArith Lia Lra.
From Verif Require Import Base Quat SpecQuat QuatProofs NdArray Frames SpecForest FrameProofs WalkProofs
  Matcher SpecLookup LookupProofs RegistryProofs MovingProofs TimeProofs CtorProofs InverseProofs RouteProofs
  Examples PropForest PropLookup PropMoving
  Transform SpecArray NdProofs RotProofs ArrProofs ArrTransProofs ArrStaticProofs.
Import ListNotations.
Open Scope nat_scope.

(** A single point or vector and a single orientation as arrays. *)
Definition point (p : vec3) : nd R := Nd [3] (fun ix => comp3 (hd 0 ix) p).
Definition orient (o : quat) : nd R := Nd [4] (fun ix => comp4 (hd 0 ix) o).
Lemma point_vec p : vec_at (point p) [] = p.
Proof. destruct p; reflexivity. Qed.
Lemma orient_quat o : quat_at (orient o) [] = o.
Proof. destruct o; reflexivity. Qed.

Lemma reach_inv s : reachable s -> Inv s.
Proof. apply reachable_Inv. Qed.
Lemma undo_default (e : nd R) : 0 < ndim e -> exists d, undo_swap e (Some 0%Z) = Ok d /\ nd_eq d e.
Proof.
  intros H. destruct (undo0 e H) as (o & E & S & D). exists o. split; auto. split; [auto|]. intros ix _. apply D.
Qed.
Lemma vec_at_nd_eq (a b : nd R) sh pre : nd_eq a b -> shp a = (sh ++ [3])%list -> valid sh pre -> vec_at a pre = vec_at b pre.
Proof.
  intros (_ & H) E Hp. unfold vec_at. rewrite !H; auto; rewrite E; apply valid_app; auto; constructor; auto.
Qed.
Lemma static_nz squad s i to j t r : reachable s -> frame s i -> denotes s to j ->
  lookup_transform squad s i to = Ok (TrStatic t r) -> hn2 r <> 0%R.
Proof.
  intros HR Hi Hj H. apply (C08_static_lookup squad s i to j t r HR Hi Hj H).
Qed.

(* ------------------------------------------------------------------ C22, arrays without timestamps *)
(** Frames connected through static frames; an array of any shape with the
    coordinates last (defaults for axis and time_axis): every point is mapped by
    the looked-up transform. *)
Theorem C22_static_points : forall squad s i to j t r arr sh, reachable s -> frame s i -> denotes s to j ->
  lookup_transform squad s i to = Ok (TrStatic t r) -> shp arr = (sh ++ [3])%list ->
  exists out, transform_points squad s i arr to (-1) (Some 0%Z) None = Ok (out, None) /\ shp out = shp arr /\
    forall pre, valid sh pre -> vec_at out pre = smove t r (vec_at arr pre).
Proof.
  intros squad s i to j t r arr sh HR Hi Hj H Hs. pose proof (static_nz _ _ _ _ _ _ _ HR Hi Hj H) as Hr.
  assert (Nd : ndim arr = S (length sh)) by (unfold ndim; rewrite Hs, app_length; simpl; lia).
  assert (Hax : norm_axis (-1) (ndim arr) = Ok (length sh)) by (rewrite norm_axis_last by lia; f_equal; lia).
  destruct (points_static squad s i arr to (-1) (length sh) t r Hax H Hr (Some 0%Z) sh Hs eq_refl) as (out & E & So & Do).
  destruct (undo_default out) as (d & Ed & Sd & Dd); [unfold ndim; rewrite So; fold (ndim arr); lia|].
  rewrite Ed in E. cbn [bind] in E. exists d. split; [exact E|]. split; [congruence|]. intros pre Hp.
  rewrite <- Do by auto. apply (vec_at_nd_eq _ _ sh); auto; [split; auto|congruence].
Qed.
Theorem C22_static_vectors : forall squad s i to j t r arr sh, reachable s -> frame s i -> denotes s to j ->
  lookup_transform squad s i to = Ok (TrStatic t r) -> shp arr = (sh ++ [3])%list ->
  exists out, transform_vectors squad s i arr to (-1) (Some 0%Z) None = Ok (out, None) /\ shp out = shp arr /\
    forall pre, valid sh pre -> vec_at out pre = srot r (vec_at arr pre).
Proof.
  intros squad s i to j t r arr sh HR Hi Hj H Hs. pose proof (static_nz _ _ _ _ _ _ _ HR Hi Hj H) as Hr.
  assert (Nd : ndim arr = S (length sh)) by (unfold ndim; rewrite Hs, app_length; simpl; lia).
  assert (Hax : norm_axis (-1) (ndim arr) = Ok (length sh)) by (rewrite norm_axis_last by lia; f_equal; lia).
  assert (H3 : nth (length sh) (shp arr) 0 = 3) by (rewrite Hs, app_nth2, Nat.sub_diag by lia; reflexivity).
  destruct (vectors_static squad s i arr to (-1) (length sh) t r Hax H Hr (Some 0%Z) H3) as (out & E & So & Do).
  destruct (undo_default out) as (d & Ed & Sd & Dd); [unfold ndim; rewrite So; fold (ndim arr); lia|].
  rewrite Ed in E. cbn [bind] in E. exists d. split; [exact E|]. split; [congruence|]. intros pre Hp.
  pose proof (valid_length _ _ Hp) as Lp. specialize (Do pre ltac:(lia)). unfold vec_along in Do. rewrite <- Lp, !insert_end in Do.
  fold (vec_at out pre) in Do. fold (vec_at arr pre) in Do.
  rewrite <- Do. apply (vec_at_nd_eq _ _ sh); auto; [split; auto|congruence].
Qed.
Theorem C22_static_quaternions : forall squad s i to j t r arr sh, reachable s -> frame s i -> denotes s to j ->
  lookup_transform squad s i to = Ok (TrStatic t r) -> shp arr = (sh ++ [4])%list ->
  exists out, transform_quaternions squad s i arr to (-1) (Some 0%Z) None = Ok (out, None) /\ shp out = shp arr /\
    forall pre, valid sh pre -> quat_at out pre = hmul r (quat_at arr pre).
Proof.
  intros squad s i to j t r arr sh HR Hi Hj H Hs. pose proof (static_nz _ _ _ _ _ _ _ HR Hi Hj H) as Hr.
  assert (Nd : ndim arr = S (length sh)) by (unfold ndim; rewrite Hs, app_length; simpl; lia).
  assert (Hax : norm_axis (-1) (ndim arr) = Ok (length sh)) by (rewrite norm_axis_last by lia; f_equal; lia).
  assert (H4 : nth (length sh) (shp arr) 0 = 4) by (rewrite Hs, app_nth2, Nat.sub_diag by lia; reflexivity).
  destruct (quats_static squad s i arr to (-1) (length sh) t r Hax H (Some 0%Z) H4) as (out & E & So & Do).
  destruct (undo0 out) as (d & Ed & Sd & Dd); [unfold ndim; rewrite So; fold (ndim arr); lia|].
  rewrite Ed in E. cbn [bind] in E. exists d. split; [exact E|]. split; [congruence|]. intros pre Hp.
  pose proof (valid_length _ _ Hp) as Lp. 
  assert (Erem : remove_at (length sh) (shp arr) = sh).
  { rewrite Hs, <- insert_end. apply remove_insert. lia. }
  rewrite Erem in Do. specialize (Do pre Hp). unfold quat_along in Do. rewrite <- Lp, !insert_end in Do.
  fold (quat_at out pre) in Do. fold (quat_at arr pre) in Do. rewrite <- Do. unfold quat_at. rewrite !Dd. reflexivity.
Qed.

(* ------------------------------------------------------------------ C13 *)
(** With static frames transform_points applies the looked-up transform to a
    point, whatever the point. *)
Theorem C13_point : forall squad s i to j t r, reachable s -> frame s i -> denotes s to j ->
  lookup_transform squad s i to = Ok (TrStatic t r) -> forall p,
  exists out, transform_points squad s i (point p) to (-1) (Some 0%Z) None = Ok (out, None) /\ shp out = [3] /\
    vec_at out [] = vadd (srot r p) t.
Proof.
  intros squad s i to j t r HR Hi Hj H p.
  destruct (C22_static_points squad s i to j t r (point p) [] HR Hi Hj H eq_refl) as (out & E & So & Do).
  exists out. split; auto. split; auto. rewrite (Do [] (Forall2_nil _)), point_vec. reflexivity.
Qed.
Lemma triple_srot q a b c : hn2 q <> 0%R -> triple (srot q a) (srot q b) (srot q c) = triple a b c.
Proof. intros H. unfold triple. rewrite srot_cross by auto. apply srot_dot; auto. Qed.
Lemma smove_diff t r p p' : vsub (smove t r p) (smove t r p') = srot r (vsub p p').
Proof. rewrite srot_sub. unfold smove. generalize (srot r p), (srot r p'). intros a b. veq. Qed.
(** The transform is rigid and orientation preserving, and transform_vectors of a
    difference of points is the difference of the transformed points. *)
Theorem C13_rigid : forall squad s i to j t r, reachable s -> frame s i -> denotes s to j ->
  lookup_transform squad s i to = Ok (TrStatic t r) ->
  forall p1 p2 p3 p4 o1 o2 o3 o4 v,
  transform_points squad s i (point p1) to (-1) (Some 0%Z) None = Ok (o1, None) ->
  transform_points squad s i (point p2) to (-1) (Some 0%Z) None = Ok (o2, None) ->
  transform_points squad s i (point p3) to (-1) (Some 0%Z) None = Ok (o3, None) ->
  transform_points squad s i (point p4) to (-1) (Some 0%Z) None = Ok (o4, None) ->
  transform_vectors squad s i (point (vsub p2 p1)) to (-1) (Some 0%Z) None = Ok (v, None) ->
  let P1 := vec_at o1 [] in let P2 := vec_at o2 [] in let P3 := vec_at o3 [] in let P4 := vec_at o4 [] in
  dist2 P1 P2 = dist2 p1 p2 /\
  triple (vsub P2 P1) (vsub P3 P1) (vsub P4 P1) = triple (vsub p2 p1) (vsub p3 p1) (vsub p4 p1) /\
  vec_at v [] = vsub P2 P1.
Proof.
  intros squad s i to j t r HR Hi Hj H p1 p2 p3 p4 o1 o2 o3 o4 v E1 E2 E3 E4 Ev.
  pose proof (static_nz _ _ _ _ _ _ _ HR Hi Hj H) as Hr.
  assert (G : forall p o, transform_points squad s i (point p) to (-1) (Some 0%Z) None = Ok (o, None) -> vec_at o [] = smove t r p).
  { intros p o E. destruct (C13_point squad s i to j t r HR Hi Hj H p) as (o' & E' & _ & D). rewrite E' in E. injection E as <-. exact D. }
  cbv zeta. rewrite (G _ _ E1), (G _ _ E2), (G _ _ E3), (G _ _ E4). rewrite !smove_diff. split; [|split].
  - unfold dist2. rewrite smove_diff. apply srot_dot; auto.
  - apply triple_srot; auto.
  - destruct (C22_static_vectors squad s i to j t r (point (vsub p2 p1)) [] HR Hi Hj H eq_refl) as (o' & E' & _ & D).
    rewrite E' in Ev. injection Ev as <-. rewrite (D [] (Forall2_nil _)), point_vec. reflexivity.
Qed.
Example C13_example : exists t r, frame ex_lit 2 /\ denotes ex_lit (PFrame 3) 3 /\
  lookup_transform hold_squad ex_lit 2 (PFrame 3) = Ok (TrStatic t r).
Proof.
  destruct C11_example as (t1 & r1 & _ & _ & H & _). exists t1, r1.
  split; [unfold frame; simpl; lia|]. split; [left; split; auto; unfold frame; simpl; lia|]. exact H.
Qed.

(* ------------------------------------------------------------------ C14 *)
(** Transforming an orientation o and rotating v with the result is rotating v by
    o and transforming the rotated vector. *)
Theorem C14_quaternions : forall squad s i to j t r, reachable s -> frame s i -> denotes s to j ->
  lookup_transform squad s i to = Ok (TrStatic t r) -> forall o v, hnonzero o ->
  exists out w w1 w2,
    transform_quaternions squad s i (orient o) to (-1) (Some 0%Z) None = Ok (out, None) /\ shp out = [4] /\
    rotate_vectors (Nd [] (fun _ => o)) (point v) (-1) = Ok w /\
    transform_vectors squad s i (point (vec_at w [])) to (-1) (Some 0%Z) None = Ok (w1, None) /\
    rotate_vectors (Nd [] (fun _ => quat_at out [])) (point v) (-1) = Ok w2 /\
    vec_at w1 [] = vec_at w2 [] /\
    hn2 (quat_at out []) = (hn2 r * hn2 o)%R.
Proof.
  intros squad s i to j t r HR Hi Hj H o v Ho. pose proof (static_nz _ _ _ _ _ _ _ HR Hi Hj H) as Hr.
  destruct (C22_static_quaternions squad s i to j t r (orient o) [] HR Hi Hj H eq_refl) as (out & E & So & Do).
  specialize (Do [] (Forall2_nil _)). rewrite orient_quat in Do.
  destruct (rotate_scalar o (point v) 0 (-1) eq_refl eq_refl Ho) as (w & Ew & Sw & Dw).
  specialize (Dw [] eq_refl).
  destruct (C22_static_vectors squad s i to j t r (point (vec_at w [])) [] HR Hi Hj H eq_refl) as (w1 & E1 & _ & D1).
  specialize (D1 [] (Forall2_nil _)). rewrite point_vec in D1.
  assert (Hm : hn2 (hmul r o) <> 0%R) by (apply hmul_nz; auto).
  destruct (rotate_scalar (hmul r o) (point v) 0 (-1) eq_refl eq_refl Hm) as (w2 & E2 & _ & D2).
  specialize (D2 [] eq_refl).
  exists out, w, w1, w2. split; [exact E|]. split; [exact So|]. split; [exact Ew|]. split; [exact E1|].
  split; [rewrite Do; exact E2|]. split.
  - rewrite D1. change (vec_at w []) with (vec_along w 0 []). change (vec_at w2 []) with (vec_along w2 0 []).
    rewrite Dw, D2. rewrite srot_hmul by auto. reflexivity.
  - rewrite Do. apply hn2_hmul.
Qed.

(* ------------------------------------------------------------------ C22, timestamped arrays *)
(** At time x the rigid transform (t, r) maps coordinates in frame i to
    coordinates in frame j of the same physical point. *)
Definition maps_at squad (s : state) (x : R) (i j : nat) (t : vec3) (r : quat) : Prop :=
  hunit r /\
  exists c, ancestor (parent_of s) i c /\ ancestor (parent_of s) j c /\
    forall p, exists P, coords squad s x i p c P /\ coords squad s x j (smove t r p) c P.

(** arr has n samples on axis tau (before the last one), nn coordinates on the last
    axis and further axes sh; ta is a way to write tau; tsa holds n strictly
    increasing timestamps, at least two. *)
Definition stamped (arr : nd R) (nn : nat) (ta : Z) (tsa : nd R) (tau n : nat) (sh : list nat) : Prop :=
  shp arr = (put tau n sh ++ [nn])%list /\ tau <= length sh /\
  (ta = Z.of_nat tau \/ ta = (Z.of_nat tau - Z.of_nat (ndim arr))%Z) /\
  shp tsa = [n] /\ 2 <= n /\
  (forall a b, a < b < n -> (dat tsa [a] < dat tsa [b])%R).

(** The samples of arr that are in range of all moving continuous frames on the
    way from i to j, in order, and the output: sample k of out is the image of
    sample m of arr, taken at the same time, under the transform at that time. *)
Definition per_sample squad s i j (tsa : nd R) (tau n : nat) (sh : list nat) (nn : nat) (l : list R) (out : nd R)
    (image : nat -> nat -> list nat -> vec3 -> quat -> Prop) : Prop :=
  (exists f, l = filter f (map (fun m => dat tsa [m]) (seq 0 n))) /\
  (exists rt, route (parent_of s) i j rt /\
     forall m, m < n -> (In (dat tsa [m]) l <->
       forall f tf, In f rt -> cont_of s f = Some tf ->
         exists a b, hd_error tf = Some a /\ nth_error tf (length tf - 1) = Some b /\ (a <= dat tsa [m] <= b)%R)) /\
  shp out = (put tau (length l) sh ++ [nn])%list /\
  forall k x, nth_error l k = Some x ->
    exists m t r, m < n /\ dat tsa [m] = x /\ maps_at squad s x i j t r /\
      forall pre, valid sh pre -> image k m pre t r.

Lemma stamped_facts arr nn ta tsa tau n sh : stamped arr nn ta tsa tau n sh ->
  shp arr = (insert_at tau n sh ++ [nn])%list /\ norm_axis ta (ndim arr) = Ok tau /\ increasing (times tsa n).
Proof.
  intros (Hs & Ht & Hta & _ & _ & Hinc).
  assert (Hs' : shp arr = (insert_at tau n sh ++ [nn])%list) by (rewrite Hs, put_insert; auto).
  split; auto. split.
  - assert (Hn : tau < ndim arr) by (unfold ndim; rewrite Hs', app_length, length_insert by auto; simpl; lia).
    destruct Hta as [-> | ->]; [apply norm_axis_pos|apply norm_axis_neg]; auto.
  - intros a b x y Hab Hx Hy. apply nth_times in Hx as (_ & <-). apply nth_times in Hy as (Hb & <-). apply Hinc. lia.
Qed.

Section Stamped.
Variable squad : list R -> list quat -> R -> res quat.
Variables (s : state) (i : nat) (to : pref) (j : nat) (arr : nd R) (nn : nat) (ta : Z) (tsa : nd R) (tau n : nat) (sh : list nat).
Hypothesis HR : reachable s.
Hypothesis Hsq : squad_unit squad.
Hypothesis Hi : frame s i.
Hypothesis Hj : denotes s to j.
Hypothesis Hw : unit_way s i j.
Hypothesis Hst : stamped arr nn ta tsa tau n sh.

Lemma way_rows fs l rows : frames_between s i j = Ok fs ->
  foldM (step_rows squad l) fs (map (fun _ => (v0, q1)) l) = Ok rows ->
  length rows = length l /\
  forall k x, nth_error l k = Some x -> maps_at squad s x i j (rowv rows k) (rowq rows k).
Proof.
  intros Hf Hr. pose proof (denotes_frame s to j HR Hj) as Hjf.
  destruct (rows_sound squad s i j fs l rows (reach_inv _ HR) (reachable_BodyOk _ HR) Hsq Hi Hjf Hw Hf Hr) as (L & H).
  split; auto. intros k x Hk. destruct (nth_len rows k) as ((t & r) & E); [rewrite L; apply (nth_lt _ _ _ Hk)|].
  unfold rowv, rowq. rewrite (nth_error_nth _ _ _ E). simpl. apply (H k x t r Hk E).
Qed.

Lemma way_units fs l rows : frames_between s i j = Ok fs ->
  foldM (step_rows squad l) fs (map (fun _ => (v0, q1)) l) = Ok rows ->
  forall k, k < length l -> hunit (rowq rows k).
Proof.
  intros Hf Hr k Hk. destruct (nth_len l k Hk) as (x & Hx). destruct (way_rows fs l rows Hf Hr) as (_ & H). apply (H k x Hx).
Qed.

Lemma way_times fs l : frames_between s i j = Ok fs ->
  get_timestamps (Mat fs [MA (swap_nd 0 tau arr) (Some (times tsa n))]) true = Ok (Some l) ->
  (exists f, l = filter f (times tsa n)) /\
  (exists rt, route (parent_of s) i j rt /\
     forall m, m < n -> (In (dat tsa [m]) l <->
       forall f tf, In f rt -> cont_of s f = Some tf ->
         exists a b, hd_error tf = Some a /\ nth_error tf (length tf - 1) = Some b /\ (a <= dat tsa [m] <= b)%R)).
Proof.
  intros Hf Hl. destruct (prepare_times squad arr tsa n tau fs l Hl) as (H1 & _ & H2). split; auto.
  pose proof (denotes_frame s to j HR Hj) as Hjf. pose proof (reach_inv _ HR) as (W & _).
  pose proof Hf as Hf'. unfold frames_between in Hf'. apply bind_ok in Hf' as ([up down] & Hwk & _).
  destruct (frames_lists s i j up down fs Hwk Hf) as (Hc & _).
  destruct (walk_ok_inv s i j up down W Hi Hjf Hwk) as (_ & c & C1 & C2 & C3).
  exists (up ++ down). split; [exists up, (rev down), c; rewrite rev_involutive; auto|].
  destruct (stamped_facts _ _ _ _ _ _ _ Hst) as (_ & _ & Hinc).
  intros m Hm. rewrite H2. rewrite Hc.
  assert (Hin : In (dat tsa [m]) (times tsa n)).
  { apply (nth_error_In _ m). apply nth_times. auto. }
  split.
  - intros (_ & _ & G) f tf Hfr Hct. apply in_bounds_spec. apply G. apply somes_in. rewrite <- Hct. apply in_map. exact Hfr.
  - intros G. split; [exact Hin|]. split; [apply increasing_bounds; auto|].
    intros ts Hts. apply somes_in in Hts. apply in_map_iff in Hts as (f & Ef & Hfr). apply in_bounds_spec. apply (G f); auto.
Qed.

Lemma sample_index l k x : (exists f, l = filter f (times tsa n)) -> nth_error l k = Some x ->
  exists m, m < n /\ dat tsa [m] = x /\ nth_error (times tsa n) m = Some x.
Proof.
  intros (f & ->) Hk. apply nth_error_In in Hk. apply filter_In in Hk as (Hk & _). apply In_nth_error in Hk as (m & Hm).
  exists m. pose proof Hm as Hm'. apply nth_times in Hm' as (H1 & H2). auto.
Qed.

Lemma prep_frames axn tr b : norm_axis (-1) (ndim arr) = Ok axn -> nth axn (shp arr) 0 = nn ->
  prepare squad s i arr to (-1) nn (Some ta) (Some tsa) = Ok (tr, b) ->
  exists fs l rows, frames_between s i j = Ok fs /\
    get_timestamps (Mat fs [MA (swap_nd 0 tau arr) (Some (times tsa n))]) true = Ok (Some l) /\
    foldM (step_rows squad l) fs (map (fun _ => (v0, q1)) l) = Ok rows /\ tr_is tr l rows /\
    resample_array squad (MA (swap_nd 0 tau arr) (Some (times tsa n))) (Some l) = Ok b.
Proof.
  intros Hax Hnn H. pose proof Hst as (_ & Ht & _ & Hts & H2n & _). destruct (stamped_facts _ _ _ _ _ _ _ Hst) as (Hs & Hta & _).
  assert (Hn : nth tau (shp arr) 0 = n) by (apply (n_arr arr nn n tau sh); auto).
  destruct (prepare_inv squad s i arr to (-1) nn ta tsa n tau axn Hax Hnn Hts Hta Hn tr b H) as (j' & fs & l & rows & Hj' & R1).
  rewrite (denotes_resolve s to j Hj) in Hj'. injection Hj' as <-. exists fs, l, rows. exact R1.
Qed.

Lemma ax_facts : norm_axis (-1) (ndim arr) = Ok (S (length sh)) /\ nth (S (length sh)) (shp arr) 0 = nn.
Proof.
  pose proof Hst as (_ & Ht & _ & Hts & H2n & _). destruct (stamped_facts _ _ _ _ _ _ _ Hst) as (Hs & _).
  split; [apply (ax_arr arr nn n tau sh)|apply (nn_arr arr nn n tau sh)]; auto.
Qed.
End Stamped.

Theorem C22_points : forall squad s i to j arr ta tsa tau n sh out o, reachable s -> squad_unit squad ->
  frame s i -> denotes s to j -> unit_way s i j -> stamped arr 3 ta tsa tau n sh ->
  transform_points squad s i arr to (-1) (Some ta) (Some tsa) = Ok (out, o) ->
  exists l, o = Some l /\ per_sample squad s i j tsa tau n sh 3 l out
    (fun k m pre t r => vec_at out (put tau k pre) = smove t r (vec_at arr (put tau m pre))).
Proof.
  intros squad s i to j arr ta tsa tau n sh out o HR Hsq Hi Hj Hw Hst H.
  pose proof Hst as (_ & Ht & _ & Hts & Hn & _). destruct (stamped_facts _ _ _ _ _ _ _ Hst) as (Hs & Hta & Hinc).
  destruct (ax_facts _ _ _ _ _ _ _ Hst) as (Hax & Hnn).
  pose proof H as H'. unfold transform_points in H'. apply bind_ok in H' as ((tr & b) & Hp & _).
  destruct (prep_frames squad s i to j arr 3 ta tsa tau n sh Hj Hst _ tr b Hax Hnn Hp) as (fs & l & rows & Hf & Hl & Hr & Htr & Hb).
  destruct (way_times squad s i to j arr 3 ta tsa tau n sh HR Hi Hj Hst fs l Hf Hl) as (T1 & T2).
  destruct (way_rows squad s i to j HR Hsq Hi Hj Hw fs l rows Hf Hr) as (L & HM).
  destruct (resample3 squad arr 3 tsa n tau sh Hs Ht Hinc Hn l eq_refl) as (b' & Eb & Rb).
  { intros x Hx. destruct T1 as (f & ->). apply filter_In in Hx. tauto. }
  rewrite Eb in Hb. injection Hb as <-.
  destruct (points_ok squad s i arr to 3 ta tsa n tau sh Hs Ht Hta Hn tr l rows b' eq_refl Hp Htr L
     (way_units squad s i to j HR Hsq Hi Hj Hw fs l rows Hf Hr) Rb) as (out' & Eo & So & Do).
  rewrite Eo in H. injection H as <- <-. exists l. split; [reflexivity|]. split; [exact T1|]. split; [exact T2|].
  split; [rewrite So, put_insert; auto|]. intros k x Hk. destruct (sample_index tsa n l k x T1 Hk) as (m & Hm & Hx & Hm').
  exists m, (rowv rows k), (rowq rows k). split; auto. split; auto. split; [apply HM; auto|].
  intros pre Hpre. pose proof (valid_length _ _ Hpre) as Lp. rewrite !put_insert by lia. eapply Do; eauto.
Qed.
Theorem C22_vectors : forall squad s i to j arr ta tsa tau n sh out o, reachable s -> squad_unit squad ->
  frame s i -> denotes s to j -> unit_way s i j -> stamped arr 3 ta tsa tau n sh ->
  transform_vectors squad s i arr to (-1) (Some ta) (Some tsa) = Ok (out, o) ->
  exists l, o = Some l /\ per_sample squad s i j tsa tau n sh 3 l out
    (fun k m pre t r => vec_at out (put tau k pre) = srot r (vec_at arr (put tau m pre))).
Proof.
  intros squad s i to j arr ta tsa tau n sh out o HR Hsq Hi Hj Hw Hst H.
  pose proof Hst as (_ & Ht & _ & Hts & Hn & _). destruct (stamped_facts _ _ _ _ _ _ _ Hst) as (Hs & Hta & Hinc).
  destruct (ax_facts _ _ _ _ _ _ _ Hst) as (Hax & Hnn).
  pose proof H as H'. unfold transform_vectors in H'. apply bind_ok in H' as ((tr & b) & Hp & _).
  destruct (prep_frames squad s i to j arr 3 ta tsa tau n sh Hj Hst _ tr b Hax Hnn Hp) as (fs & l & rows & Hf & Hl & Hr & Htr & Hb).
  destruct (way_times squad s i to j arr 3 ta tsa tau n sh HR Hi Hj Hst fs l Hf Hl) as (T1 & T2).
  destruct (way_rows squad s i to j HR Hsq Hi Hj Hw fs l rows Hf Hr) as (L & HM).
  destruct (resample3 squad arr 3 tsa n tau sh Hs Ht Hinc Hn l eq_refl) as (b' & Eb & Rb).
  { intros x Hx. destruct T1 as (f & ->). apply filter_In in Hx. tauto. }
  rewrite Eb in Hb. injection Hb as <-.
  destruct (vectors_ok squad s i arr to 3 ta tsa n tau sh Hs Ht Hta Hn tr l rows b' eq_refl Hp Htr L
     (way_units squad s i to j HR Hsq Hi Hj Hw fs l rows Hf Hr) Rb) as (out' & Eo & So & Do).
  rewrite Eo in H. injection H as <- <-. exists l. split; [reflexivity|]. split; [exact T1|]. split; [exact T2|].
  split; [rewrite So, put_insert; auto|]. intros k x Hk. destruct (sample_index tsa n l k x T1 Hk) as (m & Hm & Hx & Hm').
  exists m, (rowv rows k), (rowq rows k). split; auto. split; auto. split; [apply HM; auto|].
  intros pre Hpre. pose proof (valid_length _ _ Hpre) as Lp. rewrite !put_insert by lia. eapply Do; eauto.
Qed.
(** Orientations must be unit quaternions; squad must return the samples at the
    sampling times. *)
Theorem C22_quaternions : forall squad s i to j arr ta tsa tau n sh out o, reachable s -> squad_unit squad -> squad_exact squad ->
  frame s i -> denotes s to j -> unit_way s i j -> stamped arr 4 ta tsa tau n sh ->
  (forall m pre, m < n -> valid sh pre -> hunit (quat_at arr (put tau m pre))) ->
  transform_quaternions squad s i arr to (-1) (Some ta) (Some tsa) = Ok (out, o) ->
  exists l, o = Some l /\ per_sample squad s i j tsa tau n sh 4 l out
    (fun k m pre t r => quat_at out (put tau k pre) = hmul r (quat_at arr (put tau m pre))).
Proof.
  intros squad s i to j arr ta tsa tau n sh out o HR Hsq Hex Hi Hj Hw Hst Hun H.
  pose proof Hst as (_ & Ht & _ & Hts & Hn & _). destruct (stamped_facts _ _ _ _ _ _ _ Hst) as (Hs & Hta & Hinc).
  destruct (ax_facts _ _ _ _ _ _ _ Hst) as (Hax & Hnn).
  pose proof H as H'. unfold transform_quaternions in H'. apply bind_ok in H' as ((tr & b) & Hp & _).
  destruct (prep_frames squad s i to j arr 4 ta tsa tau n sh Hj Hst _ tr b Hax Hnn Hp) as (fs & l & rows & Hf & Hl & Hr & Htr & Hb).
  destruct (way_times squad s i to j arr 4 ta tsa tau n sh HR Hi Hj Hst fs l Hf Hl) as (T1 & T2).
  destruct (way_rows squad s i to j HR Hsq Hi Hj Hw fs l rows Hf Hr) as (L & HM).
  destruct (resample4 squad arr 4 tsa n tau sh Hs Ht Hinc Hn l eq_refl Hex) as (b' & Eb & Rb).
  { intros m pre Hm Hp'. pose proof (valid_length _ _ Hp') as Lp. rewrite <- put_insert by lia. auto. }
  { intros x Hx. destruct T1 as (f & ->). apply filter_In in Hx. tauto. }
  rewrite Eb in Hb. injection Hb as <-.
  destruct (quats_ok squad s i arr to 4 ta tsa n tau sh Hs Ht Hta Hn tr l rows b' eq_refl Hp Htr L Rb) as (out' & Eo & So & Do).
  rewrite Eo in H. injection H as <- <-. exists l. split; [reflexivity|]. split; [exact T1|]. split; [exact T2|].
  split; [rewrite So, put_insert; auto|]. intros k x Hk. destruct (sample_index tsa n l k x T1 Hk) as (m & Hm & Hx & Hm').
  exists m, (rowv rows k), (rowq rows k). split; auto. split; auto. split; [apply HM; auto|].
  intros pre Hpre. pose proof (valid_length _ _ Hpre) as Lp. rewrite !put_insert by lia. eapply Do; eauto.
Qed.

(** Frames in one tree, with unit rotations and proper samples on the way. *)
Definition good_way (s : state) (i j : nat) : Prop :=
  same_tree (parent_of s) i j /\
  forall k, on_way s i j k -> exists d, transform_of s k = Some d /\ well_sampled d.
Lemma good_unit s i j : good_way s i j -> unit_way s i j.
Proof. intros (_ & H) k d Hk Hd. destruct (H k Hk) as (d' & E & W & _). congruence. Qed.

Lemma stamped_prep squad s i to j arr nn ta tsa tau n sh : reachable s -> squad_total squad -> squad_unit squad ->
  frame s i -> denotes s to j -> good_way s i j -> stamped arr nn ta tsa tau n sh ->
  exists fs l rows, frames_between s i j = Ok fs /\
    get_timestamps (Mat fs [MA (swap_nd 0 tau arr) (Some (times tsa n))]) true = Ok (Some l) /\
    foldM (step_rows squad l) fs (map (fun _ => (v0, q1)) l) = Ok rows.
Proof.
  intros HR Hst Hsu Hi Hj (Hsame & Hd) Hsp. pose proof (denotes_frame s to j HR Hj) as Hjf.
  pose proof Hsp as (_ & _ & _ & _ & Hn & _).
  destruct (frames_succeed s i j (reach_inv _ HR) (reachable_BodyOk _ HR) Hi Hjf Hsame Hd) as (fs & Hfs & Hws & Hgood & Hcw).
  set (m := Mat fs [MA (swap_nd 0 tau arr) (Some (times tsa n))]).
  destruct (get_timestamps m true) as [o|e] eqn:Eo.
  - pose proof (timestamps_spec _ _ _ Eo) as Hts. destruct o as [l|].
    + assert (Hb : forall f ts, In f fs -> cont_ts f = Some ts -> forall x, In x l -> in_bounds ts x = true).
      { intros f ts Hf Hc x Hx.
        assert (Hin : In ts (cont_list m)). { unfold cont_list. apply somes_in. simpl. rewrite <- Hc. apply in_map; auto. }
        destruct Hts as [(ts0 & rest & _ & _ & H)|(E & _)].
        - apply H in Hx as (_ & Hx). apply Hx. apply in_or_app. left; auto.
        - rewrite E in Hin. contradiction. }
      destruct (fold_succeeds squad l fs (map (fun _ => (v0, q1)) l) Hst Hsu Hgood Hws Hb (map_length _ _)) as (rows & Hrows).
      exists fs, l, rows. auto.
    + destruct Hts as (_ & E & _). discriminate.
  - apply timestamps_raise in Eo as (_ & ts & Hin & ->). exfalso. apply in_app_or in Hin as [Hin|Hin].
    + unfold cont_list in Hin. apply somes_in in Hin. apply in_map_iff in Hin as (f & Ef & Hf). exact (Hcw f [] Hf Ef eq_refl).
    + simpl in Hin. destruct Hin as [E|[]]. unfold times in E. apply (f_equal (@length R)) in E. rewrite map_length, seq_length in E. simpl in E. lia.
Qed.

(** And such a transform succeeds: no range error, no refusal. *)
Theorem C22_points_succeed : forall squad s i to j arr ta tsa tau n sh, reachable s -> squad_total squad -> squad_unit squad ->
  frame s i -> denotes s to j -> good_way s i j -> stamped arr 3 ta tsa tau n sh ->
  exists out l, transform_points squad s i arr to (-1) (Some ta) (Some tsa) = Ok (out, Some l).
Proof.
  intros squad s i to j arr ta tsa tau n sh HR Hto Hsq Hi Hj Hg Hst. pose proof (good_unit _ _ _ Hg) as Hw.
  pose proof Hst as (_ & Ht & _ & Hts & Hn & _). destruct (stamped_facts _ _ _ _ _ _ _ Hst) as (Hs & Hta & Hinc).
  destruct (ax_facts _ _ _ _ _ _ _ Hst) as (Hax & Hnn).
  destruct (stamped_prep squad s i to j arr 3 ta tsa tau n sh HR Hto Hsq Hi Hj Hg Hst) as (fs & l & rows & Hf & Hl & Hr).
  destruct (way_times squad s i to j arr 3 ta tsa tau n sh HR Hi Hj Hst fs l Hf Hl) as (T1 & T2).
  destruct (way_rows squad s i to j HR Hsq Hi Hj Hw fs l rows Hf Hr) as (L & HM).
  destruct (resample3 squad arr 3 tsa n tau sh Hs Ht Hinc Hn l eq_refl) as (b' & Eb & Rb).
  { intros x Hx. destruct T1 as (f & ->). apply filter_In in Hx. tauto. }
  destruct (prepare_ok squad s i arr to (-1) 3 ta tsa n tau _ Hax Hnn Hts Hta (n_arr arr 3 n tau sh Hs Ht Hn) j fs l rows b'
     (increasing_not_decreasing _ Hinc) (denotes_resolve s to j Hj) Hf Hl Hr Eb) as (tr & Hp).
  destruct (prep_frames squad s i to j arr 3 ta tsa tau n sh Hj Hst _ tr b' Hax Hnn Hp) as (fs' & l' & rows' & Hf' & Hl' & Hr' & Htr & Hb).
  rewrite Hf in Hf'. injection Hf' as <-. rewrite Hl in Hl'. injection Hl' as <-. rewrite Hr in Hr'. injection Hr' as <-.
  destruct (points_ok squad s i arr to 3 ta tsa n tau sh Hs Ht Hta Hn tr l rows b' eq_refl Hp Htr L
     (way_units squad s i to j HR Hsq Hi Hj Hw fs l rows Hf Hr) Rb) as (out' & Eo & _).
  exists out', l. exact Eo.
Qed.
Theorem C22_vectors_succeed : forall squad s i to j arr ta tsa tau n sh, reachable s -> squad_total squad -> squad_unit squad ->
  frame s i -> denotes s to j -> good_way s i j -> stamped arr 3 ta tsa tau n sh ->
  exists out l, transform_vectors squad s i arr to (-1) (Some ta) (Some tsa) = Ok (out, Some l).
Proof.
  intros squad s i to j arr ta tsa tau n sh HR Hto Hsq Hi Hj Hg Hst. pose proof (good_unit _ _ _ Hg) as Hw.
  pose proof Hst as (_ & Ht & _ & Hts & Hn & _). destruct (stamped_facts _ _ _ _ _ _ _ Hst) as (Hs & Hta & Hinc).
  destruct (ax_facts _ _ _ _ _ _ _ Hst) as (Hax & Hnn).
  destruct (stamped_prep squad s i to j arr 3 ta tsa tau n sh HR Hto Hsq Hi Hj Hg Hst) as (fs & l & rows & Hf & Hl & Hr).
  destruct (way_times squad s i to j arr 3 ta tsa tau n sh HR Hi Hj Hst fs l Hf Hl) as (T1 & T2).
  destruct (way_rows squad s i to j HR Hsq Hi Hj Hw fs l rows Hf Hr) as (L & HM).
  destruct (resample3 squad arr 3 tsa n tau sh Hs Ht Hinc Hn l eq_refl) as (b' & Eb & Rb).
  { intros x Hx. destruct T1 as (f & ->). apply filter_In in Hx. tauto. }
  destruct (prepare_ok squad s i arr to (-1) 3 ta tsa n tau _ Hax Hnn Hts Hta (n_arr arr 3 n tau sh Hs Ht Hn) j fs l rows b'
     (increasing_not_decreasing _ Hinc) (denotes_resolve s to j Hj) Hf Hl Hr Eb) as (tr & Hp).
  destruct (prep_frames squad s i to j arr 3 ta tsa tau n sh Hj Hst _ tr b' Hax Hnn Hp) as (fs' & l' & rows' & Hf' & Hl' & Hr' & Htr & Hb).
  rewrite Hf in Hf'. injection Hf' as <-. rewrite Hl in Hl'. injection Hl' as <-. rewrite Hr in Hr'. injection Hr' as <-.
  destruct (vectors_ok squad s i arr to 3 ta tsa n tau sh Hs Ht Hta Hn tr l rows b' eq_refl Hp Htr L
     (way_units squad s i to j HR Hsq Hi Hj Hw fs l rows Hf Hr) Rb) as (out' & Eo & _).
  exists out', l. exact Eo.
Qed.
Theorem C22_quaternions_succeed : forall squad s i to j arr ta tsa tau n sh, reachable s -> squad_total squad -> squad_unit squad ->
  squad_exact squad -> frame s i -> denotes s to j -> good_way s i j -> stamped arr 4 ta tsa tau n sh ->
  (forall m pre, m < n -> valid sh pre -> hunit (quat_at arr (put tau m pre))) ->
  exists out l, transform_quaternions squad s i arr to (-1) (Some ta) (Some tsa) = Ok (out, Some l).
Proof.
  intros squad s i to j arr ta tsa tau n sh HR Hto Hsq Hex Hi Hj Hg Hst Hun. pose proof (good_unit _ _ _ Hg) as Hw.
  pose proof Hst as (_ & Ht & _ & Hts & Hn & _). destruct (stamped_facts _ _ _ _ _ _ _ Hst) as (Hs & Hta & Hinc).
  destruct (ax_facts _ _ _ _ _ _ _ Hst) as (Hax & Hnn).
  destruct (stamped_prep squad s i to j arr 4 ta tsa tau n sh HR Hto Hsq Hi Hj Hg Hst) as (fs & l & rows & Hf & Hl & Hr).
  destruct (way_times squad s i to j arr 4 ta tsa tau n sh HR Hi Hj Hst fs l Hf Hl) as (T1 & T2).
  destruct (way_rows squad s i to j HR Hsq Hi Hj Hw fs l rows Hf Hr) as (L & HM).
  destruct (resample4 squad arr 4 tsa n tau sh Hs Ht Hinc Hn l eq_refl Hex) as (b' & Eb & Rb).
  { intros m pre Hm Hp'. pose proof (valid_length _ _ Hp') as Lp. rewrite <- put_insert by lia. auto. }
  { intros x Hx. destruct T1 as (f & ->). apply filter_In in Hx. tauto. }
  destruct (prepare_ok squad s i arr to (-1) 4 ta tsa n tau _ Hax Hnn Hts Hta (n_arr arr 4 n tau sh Hs Ht Hn) j fs l rows b'
     (increasing_not_decreasing _ Hinc) (denotes_resolve s to j Hj) Hf Hl Hr Eb) as (tr & Hp).
  destruct (prep_frames squad s i to j arr 4 ta tsa tau n sh Hj Hst _ tr b' Hax Hnn Hp) as (fs' & l' & rows' & Hf' & Hl' & Hr' & Htr & Hb).
  rewrite Hf in Hf'. injection Hf' as <-. rewrite Hl in Hl'. injection Hl' as <-. rewrite Hr in Hr'. injection Hr' as <-.
  destruct (quats_ok squad s i arr to 4 ta tsa n tau sh Hs Ht Hta Hn tr l rows b' eq_refl Hp Htr L Rb) as (out' & Eo & _).
  exists out', l. exact Eo.
Qed.
(** Three samples at times 0, 1/2, 4 on the second axis of a (2,3,3) array, from
    frame d to frame c of the example tree. *)
Definition ex_stamps : nd R := arr1 [0; 1/2; 4]%R.
Definition ex_arr : nd R := Nd [2; 3; 3] (fun ix => INR (9 * nth 0 ix 0 + 3 * nth 1 ix 0 + nth 2 ix 0)).
Example C22_example : good_way mov_lit 3 2 /\ unit_way mov_lit 3 2 /\ frame mov_lit 3 /\ denotes mov_lit (PFrame 2) 2 /\
  stamped ex_arr 3 1 ex_stamps 1 3 [2] /\
  exists out l, transform_points hold_squad mov_lit 3 ex_arr (PFrame 2) (-1) (Some 1%Z) (Some ex_stamps) = Ok (out, Some l).
Proof.
  assert (Hg : good_way mov_lit 3 2).
  { split; [exists 0; split; apply mov_root; lia|]. intros k Hk.
    assert (Hk' : k <= 3 /\ k <> 0).
    { assert (A : forall a, ancestor (parent_of mov_lit) a k -> a <= 3 -> k <= 3).
      { clear. intros a Ha. induction Ha as [|a b c E1 E2 IH]; auto. intros Hle. destruct a as [|[|[|[|a]]]]; try lia; simpl in E1; try discriminate; injection E1 as <-; apply IH; lia. }
      destruct Hk as [(H1 & H2)|(H1 & H2)]; (split; [apply (A _ H1); lia|]); intros ->; apply H2; apply mov_root; lia. }
    assert (Hex : exists d, transform_of mov_lit k = Some d).
    { destruct k as [|[|[|[|k]]]]; try lia; eexists; reflexivity. }
    destruct Hex as (d & Hd'). exists d. split; auto. apply (mov_well k d Hd'). }
  assert (Hf : frame mov_lit 3) by (unfold frame; simpl; lia).
  assert (Hd : denotes mov_lit (PFrame 2) 2) by (left; split; auto; unfold frame; simpl; lia).
  assert (Hst : stamped ex_arr 3 1 ex_stamps 1 3 [2]).
  { repeat split; auto; simpl; auto. intros a b Hab. destruct a as [|[|[|a]]]; destruct b as [|[|[|b]]]; try lia; simpl; lra. }
  split; auto. split; [apply good_unit; auto|]. split; auto. split; auto. split; auto.
  apply (C22_points_succeed hold_squad mov_lit 3 (PFrame 2) 2 ex_arr 1 ex_stamps 1 3 [2] mov_lit_reachable hold_squad_total hold_squad_unit Hf Hd Hg Hst).
Qed.

(** A single point, vector or orientation without timestamps against moving
    frames: one row per timestamp of the looked-up transform. *)
Theorem C22_single : forall squad s i to j l rows, reachable s -> squad_unit squad ->
  frame s i -> denotes s to j -> unit_way s i j ->
  lookup_transform squad s i to = Ok (TrRows l rows) -> forall p o,
  exists op ov oq,
    transform_points squad s i (point p) to (-1) (Some 0%Z) None = Ok (op, Some l) /\ shp op = [length l; 3] /\
    transform_vectors squad s i (point p) to (-1) (Some 0%Z) None = Ok (ov, Some l) /\ shp ov = [length l; 3] /\
    transform_quaternions squad s i (orient o) to (-1) (Some 0%Z) None = Ok (oq, Some l) /\ shp oq = [length l; 4] /\
    forall k x, nth_error l k = Some x -> exists t r, maps_at squad s x i j t r /\
      vec_at op [k] = smove t r p /\ vec_at ov [k] = srot r p /\ quat_at oq [k] = hmul r o.
Proof.
  intros squad s i to j l rows HR Hsq Hi Hj Hw H p o.
  destruct (C17_moving_lookup squad s i to j l rows HR Hsq Hi Hj Hw H) as (L & HM).
  assert (HM' : forall k x, nth_error l k = Some x -> maps_at squad s x i j (rowv rows k) (rowq rows k)).
  { intros k x Hk. destruct (nth_len rows k) as ((t & r) & E); [rewrite L; apply (nth_lt _ _ _ Hk)|].
    unfold rowv, rowq. rewrite (nth_error_nth _ _ _ E). simpl. apply (HM k x t r Hk E). }
  assert (Hu : forall k, k < length l -> hunit (rowq rows k)).
  { intros k Hk. destruct (nth_len l k Hk) as (x & Hx). apply (HM' k x Hx). }
  destruct (points_single squad s i (point p) to l rows H L Hu eq_refl) as (op & E1 & S1 & D1).
  destruct (vectors_single squad s i (point p) to l rows H L Hu eq_refl) as (ov & E2 & S2 & D2).
  destruct (quats_single squad s i (orient o) to l rows H L eq_refl) as (oq & E3 & S3 & D3).
  exists op, ov, oq. repeat (split; [assumption|]). intros k x Hk. exists (rowv rows k), (rowq rows k).
  pose proof (nth_lt _ _ _ Hk) as Hlt. rewrite D1, D2, D3, point_vec, orient_quat by auto. auto.
Qed.
