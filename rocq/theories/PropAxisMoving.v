(** Property C23 for timestamped arrays and moving frames. *)
From Coq Require Import Reals List Arith Bool ZArith Lia Lra.
From Verif Require Import Base Quat SpecQuat QuatProofs NdArray Frames SpecForest FrameProofs WalkProofs
  Matcher SpecLookup LookupProofs RegistryProofs MovingProofs TimeProofs CtorProofs InverseProofs RouteProofs
  Examples PropForest PropLookup PropMoving
  Transform SpecArray NdProofs RotProofs ArrProofs ArrTransProofs ArrStaticProofs PropTransform PropRotate AxisProofs.
Import ListNotations.
Open Scope nat_scope.

(* ------------------------------------------------------------------ specification *)

(** Coordinates (nn of them) on axis k, samples on another axis; without the
    coordinate axis the samples are on axis tau and the further axes are sh.  In the
    whole array the samples are on axis tau, or one later if the coordinate axis
    comes before.  axis and ta are ways to write these positions; tsa holds n
    strictly increasing timestamps, at least two. *)
Definition time_pos (k tau : nat) : nat := if Nat.ltb tau k then tau else S tau.
Definition on_axes (arr : nd R) (nn : nat) (axis ta : Z) (tsa : nd R) (k tau n : nat) (sh : list nat) : Prop :=
  shp arr = put k nn (put tau n sh) /\ k <= S (length sh) /\ tau <= length sh /\
  axis_is axis k (ndim arr) /\ axis_is ta (time_pos k tau) (ndim arr) /\
  shp tsa = [n] /\ 2 <= n /\ (forall a b, a < b < n -> (dat tsa [a] < dat tsa [b])%R).
(** Length of the axis that is last once the time axis and the first axis have been
    exchanged. *)
Definition last_length (arr : nd R) (t : nat) : nat :=
  if Nat.eqb (S t) (ndim arr) then hd 0 (shp arr) else last (shp arr) 0.
(** l: the timestamps in range of all moving continuous frames on the way. *)
Definition kept (s : state) (i j : nat) (tsa : nd R) (n : nat) (l : list R) : Prop :=
  (exists f, l = filter f (map (fun m => dat tsa [m]) (seq 0 n))) /\
  (exists rt, route (parent_of s) i j rt /\
     forall m, m < n -> (In (dat tsa [m]) l <->
       forall f tf, In f rt -> cont_of s f = Some tf ->
         exists a b, hd_error tf = Some a /\ nth_error tf (length tf - 1) = Some b /\ (a <= dat tsa [m] <= b)%R)).

(* ------------------------------------------------------------------ proofs *)

Lemma last_nth (l : list nat) : last l 0 = nth (length l - 1) l 0.
Proof.
  induction l as [|x [|y l] IH]; auto. change (last (x :: y :: l) 0) with (last (y :: l) 0). rewrite IH. simpl. rewrite Nat.sub_0_r. reflexivity.
Qed.
Lemma last_swapped (arr : nd R) t : t < ndim arr -> 0 < ndim arr ->
  last (shp (swap_nd 0 t arr)) 0 = if Nat.eqb (ndim arr) 1 then last (shp arr) 0 else last_length arr t.
Proof.
  intros Ht H0. cbn [swap_nd shp]. rewrite last_nth, length_swapl. unfold ndim in *. rewrite nth_swapl by lia. unfold transp.
  destruct (Nat.eqb_spec (length (shp arr)) 1) as [E1 | N1].
  - rewrite E1 in *. cbn. rewrite last_nth, E1. f_equal. lia.
  - destruct (Nat.eqb_spec (length (shp arr) - 1) 0); [lia|]. unfold last_length, ndim.
    destruct (Nat.eqb_spec (length (shp arr) - 1) t), (Nat.eqb_spec (S t) (length (shp arr))); try lia.
    + destruct (shp arr); reflexivity.
    + rewrite last_nth. reflexivity.
Qed.

Lemma stamps_increasing tsa n : 2 <= n -> (forall a b, a < b < n -> (dat tsa [a] < dat tsa [b])%R) -> increasing (times tsa n).
Proof.
  intros C H.
  destruct (stamped_facts (Nd [n; 3] (fun _ => 0%R)) 3 0 (Nd [n] (dat tsa)) 0 n []) as (_ & _ & X).
  { unfold stamped. cbn. repeat apply conj; auto. }
  exact X.
Qed.

Section Core.
Variable squad : list R -> list quat -> R -> res quat.
Variables (s : state) (i : nat) (to : pref) (j : nat) (tsa : nd R) (n : nat).
Hypothesis HR : reachable s.
Hypothesis Hto : squad_total squad.
Hypothesis Hsq : squad_unit squad.
Hypothesis Hi : frame s i.
Hypothesis Hj : denotes s to j.
Hypothesis Hg : good_way s i j.
Hypothesis Hts : shp tsa = [n].
Hypothesis Hn : 2 <= n.
Hypothesis Hinc : forall a b, a < b < n -> (dat tsa [a] < dat tsa [b])%R.

(** The times and the transforms do not depend on the array. *)
Lemma shared : exists fs l rows, frames_between s i j = Ok fs /\
    (forall a, get_timestamps (Mat fs [MA a (Some (times tsa n))]) true = Ok (Some l)) /\
    foldM (step_rows squad l) fs (map (fun _ => (v0, q1)) l) = Ok rows /\ kept s i j tsa n l /\
    length rows = length l /\ (forall k x, nth_error l k = Some x -> maps_at squad s x i j (rowv rows k) (rowq rows k)) /\
    forall k, k < length l -> hunit (rowq rows k).
Proof.
  set (d := Nd [n; 3] (fun _ : list nat => 0%R)).
  assert (Hd : stamped d 3 0 tsa 0 n []).
  { unfold stamped, d. cbn. repeat apply conj; auto. }
  pose proof (good_unit _ _ _ Hg) as Hw.
  destruct (stamped_prep squad s i to j d 3 0 tsa 0 n [] HR Hto Hsq Hi Hj Hg Hd) as (fs & l & rows & Hf & Hl & Hr).
  destruct (way_times squad s i to j d 3 0 tsa 0 n [] HR Hi Hj Hd fs l Hf Hl) as (T1 & T2).
  destruct (way_rows squad s i to j HR Hsq Hi Hj Hw fs l rows Hf Hr) as (L & HM).
  exists fs, l, rows. split; [exact Hf|]. split; [intros a; exact Hl|]. split; [exact Hr|]. split; [split; auto|].
  split; [exact L|]. split; [exact HM|]. apply (way_units squad s i to j HR Hsq Hi Hj Hw fs l rows Hf Hr).
Qed.

Section Arr.
Variables (arr : nd R) (nn : nat) (axis ta : Z) (k tau : nat) (sh : list nat).
Hypothesis Hon : on_axes arr nn axis ta tsa (S k) tau n sh.

Lemma on_facts : shp arr = insert_at (S k) nn (insert_at tau n sh) /\ k <= length sh /\ tau <= length sh /\
  norm_axis axis (ndim arr) = Ok (S k) /\ norm_axis ta (ndim arr) = Ok (beside (S k) tau) /\ ndim arr = S (S (length sh)) /\
  beside (S k) tau < ndim arr.
Proof.
  destruct Hon as (H1 & H2 & H3 & H4 & H5 & _).
  rewrite (put_insert tau) in H1 by auto. rewrite put_insert in H1 by (rewrite length_insert; lia).
  assert (N : ndim arr = S (S (length sh))).
  { unfold ndim. rewrite H1, !length_insert by (rewrite ?length_insert; lia). reflexivity. }
  assert (B : beside (S k) tau < ndim arr) by (rewrite N; unfold beside; destruct (Nat.ltb_spec tau (S k)); lia).
  split; auto. split; [lia|]. split; auto. split; [apply axis_is_norm; auto; lia|]. split; [apply axis_is_norm; auto|]. auto.
Qed.

(** Given the resampled array, the call comes to the transform. *)
Lemma prepared fs l rows b : frames_between s i j = Ok fs ->
  (forall a, get_timestamps (Mat fs [MA a (Some (times tsa n))]) true = Ok (Some l)) ->
  foldM (step_rows squad l) fs (map (fun _ => (v0, q1)) l) = Ok rows ->
  resample_array squad (MA (swap_nd 0 (beside (S k) tau) arr) (Some (times tsa n))) (Some l) = Ok b ->
  exists tr, prepare squad s i arr to axis nn (Some ta) (Some tsa) = Ok (tr, b) /\ tr_is tr l rows.
Proof.
  intros Hf Hl Hr Eb. destruct on_facts as (F1 & F2 & F3 & F4 & F5 & F6 & F7).
  pose proof (nn_arr' arr nn n k tau sh F1 F2 F3 Hn) as Hnn.
  pose proof (n_arr' arr nn n k tau sh F1 F2 F3 Hn) as Hna.
  destruct (prepare_ok squad s i arr to axis nn ta tsa n _ _ F4 Hnn Hts F5 Hna j fs l rows b
     (increasing_not_decreasing _ (stamps_increasing _ _ Hn Hinc)) (denotes_resolve s to j Hj) Hf (Hl _) Hr Eb) as (tr & Hp).
  exists tr. split; [exact Hp|].
  destruct (prepare_inv squad s i arr to axis nn ta tsa n _ _ F4 Hnn Hts F5 Hna tr b Hp) as (j' & fs' & l' & rows' & Hj' & Hf' & Hl' & Hr' & Htr & _).
  rewrite (denotes_resolve s to j Hj) in Hj'. injection Hj' as <-. rewrite Hf in Hf'. injection Hf' as <-.
  rewrite Hl in Hl'. injection Hl' as <-. rewrite Hr in Hr'. injection Hr' as <-. exact Htr.
Qed.

Lemma last_ok : last_length arr (time_pos (S k) tau) <> 4 -> last (shp (swap_nd 0 (beside (S k) tau) arr)) 0 <> 4.
Proof.
  destruct on_facts as (F1 & F2 & F3 & F4 & F5 & F6 & F7). intros H. rewrite last_swapped by lia.
  destruct (Nat.eqb_spec (ndim arr) 1); [lia|]. exact H.
Qed.
End Arr.
End Core.

Lemma kept_in s i j tsa n l x : kept s i j tsa n l -> In x l -> In x (times tsa n).
Proof. intros ((f & ->) & _) H. apply filter_In in H. tauto. Qed.

Lemma vectors_moving squad s i to j tsa n fs l rows arr axis ta k tau sh : reachable s -> squad_total squad -> squad_unit squad ->
  frame s i -> denotes s to j -> good_way s i j ->
  frames_between s i j = Ok fs ->
  (forall a, get_timestamps (Mat fs [MA a (Some (times tsa n))]) true = Ok (Some l)) ->
  foldM (step_rows squad l) fs (map (fun _ => (v0, q1)) l) = Ok rows -> kept s i j tsa n l ->
  length rows = length l -> (forall k, k < length l -> hunit (rowq rows k)) ->
  on_axes arr 3 axis ta tsa (S k) tau n sh -> last_length arr (time_pos (S k) tau) <> 4 ->
  exists out, transform_vectors squad s i arr to axis (Some ta) (Some tsa) = Ok (out, Some l) /\
    shp out = put (S k) 3 (put tau (length l) sh) /\
    forall c x m pre, nth_error l c = Some x -> m < n -> dat tsa [m] = x -> valid sh pre ->
      vec_on out (S k) (put tau c pre) = srot (rowq rows c) (vec_on arr (S k) (put tau m pre)).
Proof.
  intros HR Hto Hsq Hi Hj Hg Hf Hl Hr HK L Hu Hon H4.
  pose proof Hon as (_ & _ & _ & _ & _ & Hts & Hn & Hinc). pose proof (stamps_increasing _ _ Hn Hinc) as Hin.
  destruct (on_facts _ _ Hn _ _ _ _ _ _ _ Hon) as (F1 & F2 & F3 & F4 & F5 & F6 & F7).
  destruct (resample_axis squad arr 3 tsa n k tau sh F1 F2 F3 Hin Hn l) as (b & Eb & Rb).
  { eapply last_ok; eauto. } { intros x Hx. eapply kept_in; eauto. }
  destruct (prepared squad s i to j tsa n Hj Hts Hn Hinc arr 3 axis ta k tau sh Hon fs l rows b Hf Hl Hr Eb) as (tr & Hp & Htr).
  destruct (vectors_axis squad s i arr to 3 axis ta tsa n k tau sh F1 F2 F3 F4 F5 Hn tr l rows b eq_refl Hp Htr L Hu Rb) as (out & Eo & So & Do).
  exists out. split; [exact Eo|]. split.
  { rewrite So, (put_insert tau), put_insert by (rewrite ?length_insert; lia). reflexivity. }
  intros c x m pre Hc Hm Hx Hv. pose proof (valid_length _ _ Hv) as Lp.
  rewrite !(put_insert tau) by lia. rewrite !vec_on_along by (rewrite length_insert; lia).
  apply (Do c x m pre Hc); auto. apply nth_times. auto.
Qed.

Lemma quats_moving squad s i to j tsa n fs l rows arr axis ta k tau sh : reachable s -> squad_total squad -> squad_unit squad ->
  frame s i -> denotes s to j -> good_way s i j ->
  frames_between s i j = Ok fs ->
  (forall a, get_timestamps (Mat fs [MA a (Some (times tsa n))]) true = Ok (Some l)) ->
  foldM (step_rows squad l) fs (map (fun _ => (v0, q1)) l) = Ok rows -> kept s i j tsa n l ->
  length rows = length l ->
  on_axes arr 4 axis ta tsa (S k) tau n sh ->
  (last_length arr (time_pos (S k) tau) <> 4 \/
   (S k = S (length sh) /\ squad_exact squad /\
    forall m pre, m < n -> valid sh pre -> hunit (quat_on arr (S k) (put tau m pre)))) ->
  exists out, transform_quaternions squad s i arr to axis (Some ta) (Some tsa) = Ok (out, Some l) /\
    shp out = put (S k) 4 (put tau (length l) sh) /\
    forall c x m pre, nth_error l c = Some x -> m < n -> dat tsa [m] = x -> valid sh pre ->
      quat_on out (S k) (put tau c pre) = hmul (rowq rows c) (quat_on arr (S k) (put tau m pre)).
Proof.
  intros HR Hto Hsq Hi Hj Hg Hf Hl Hr HK L Hon H4.
  pose proof Hon as (_ & _ & _ & _ & _ & Hts & Hn & Hinc). pose proof (stamps_increasing _ _ Hn Hinc) as Hin.
  destruct (on_facts _ _ Hn _ _ _ _ _ _ _ Hon) as (F1 & F2 & F3 & F4 & F5 & F6 & F7).
  assert (X : exists b, resample_array squad (MA (swap_nd 0 (beside (S k) tau) arr) (Some (times tsa n))) (Some l) = Ok b /\
    resampled_axis arr 4 tsa n k tau sh b l).
  { destruct H4 as [H4 | (Ek & Hex & Hu)].
    - apply (resample_axis squad arr 4 tsa n k tau sh F1 F2 F3 Hin Hn l).
      + eapply last_ok; eauto.
      + intros x Hx. eapply kept_in; eauto.
    - assert (Ek' : k = length sh) by lia. apply (resample_last4 squad arr 4 tsa n k tau sh F1 F2 F3 Hin Hn l); auto.
      + intros m pre Hm Hv. pose proof (valid_length _ _ Hv) as Lp. specialize (Hu m pre Hm Hv).
        rewrite (put_insert tau) in Hu by lia. rewrite quat_on_along in Hu by (rewrite length_insert; lia). exact Hu.
      + intros x Hx. eapply kept_in; eauto. }
  destruct X as (b & Eb & Rb).
  destruct (prepared squad s i to j tsa n Hj Hts Hn Hinc arr 4 axis ta k tau sh Hon fs l rows b Hf Hl Hr Eb) as (tr & Hp & Htr).
  destruct (quats_axis squad s i arr to 4 axis ta tsa n k tau sh F1 F2 F3 F4 F5 Hn tr l rows b eq_refl Hp Htr L Rb) as (out & Eo & So & Do).
  exists out. split; [exact Eo|]. split.
  { rewrite So, (put_insert tau), put_insert by (rewrite ?length_insert; lia). reflexivity. }
  intros c x m pre Hc Hm Hx Hv. pose proof (valid_length _ _ Hv) as Lp.
  rewrite !(put_insert tau) by lia. rewrite !quat_on_along by (rewrite length_insert; lia).
  apply (Do c x m pre Hc); auto. apply nth_times. auto.
Qed.

(** Vectors with the coordinates on any axis k but the first: the kept samples are
    rotated by the transform at their time, the coordinates stay on axis k.
    Missing: k = 0 (refuted below), an axis of length 4 at the end (the code then
    interpolates quaternions whatever the data is). *)
Theorem C23_vectors_moving_partial : forall squad s i to j arr axis ta tsa k tau n sh,
  reachable s -> squad_total squad -> squad_unit squad -> frame s i -> denotes s to j -> good_way s i j ->
  on_axes arr 3 axis ta tsa k tau n sh -> 0 < k -> last_length arr (time_pos k tau) <> 4 ->
  exists out l, transform_vectors squad s i arr to axis (Some ta) (Some tsa) = Ok (out, Some l) /\
    kept s i j tsa n l /\ shp out = put k 3 (put tau (length l) sh) /\
    forall c x, nth_error l c = Some x -> exists m t r, m < n /\ dat tsa [m] = x /\ maps_at squad s x i j t r /\
      forall pre, valid sh pre -> vec_on out k (put tau c pre) = srot r (vec_on arr k (put tau m pre)).
Proof.
  intros squad s i to j arr axis ta tsa k tau n sh HR Hto Hsq Hi Hj Hg Hon Hk H4. destruct k as [|k]; [lia|].
  pose proof Hon as (_ & _ & _ & _ & _ & Hts & Hn & Hinc).
  destruct (shared squad s i to j tsa n HR Hto Hsq Hi Hj Hg Hts Hn Hinc) as (fs & l & rows & Hf & Hl & Hr & HK & L & HM & Hu).
  destruct (vectors_moving squad s i to j tsa n fs l rows arr axis ta k tau sh HR Hto Hsq Hi Hj Hg Hf Hl Hr HK L Hu Hon H4) as (out & Eo & So & Do).
  exists out, l. split; [exact Eo|]. split; [exact HK|]. split; [exact So|]. intros c x Hc.
  destruct (sample_index tsa n l c x (proj1 HK) Hc) as (m & Hm & Hx & _).
  exists m, (rowv rows c), (rowq rows c). split; auto. split; auto. split; [apply HM; auto|]. intros pre Hv. eapply Do; eauto.
Qed.

(** Orientations likewise; on the last axis they must be unit quaternions. *)
Theorem C23_quaternions_moving_partial : forall squad s i to j arr axis ta tsa k tau n sh,
  reachable s -> squad_total squad -> squad_unit squad -> frame s i -> denotes s to j -> good_way s i j ->
  on_axes arr 4 axis ta tsa k tau n sh -> 0 < k ->
  (last_length arr (time_pos k tau) <> 4 \/
   (k = S (length sh) /\ squad_exact squad /\ forall m pre, m < n -> valid sh pre -> hunit (quat_on arr k (put tau m pre)))) ->
  exists out l, transform_quaternions squad s i arr to axis (Some ta) (Some tsa) = Ok (out, Some l) /\
    kept s i j tsa n l /\ shp out = put k 4 (put tau (length l) sh) /\
    forall c x, nth_error l c = Some x -> exists m t r, m < n /\ dat tsa [m] = x /\ maps_at squad s x i j t r /\
      forall pre, valid sh pre -> quat_on out k (put tau c pre) = hmul r (quat_on arr k (put tau m pre)).
Proof.
  intros squad s i to j arr axis ta tsa k tau n sh HR Hto Hsq Hi Hj Hg Hon Hk H4. destruct k as [|k]; [lia|].
  pose proof Hon as (_ & _ & _ & _ & _ & Hts & Hn & Hinc).
  destruct (shared squad s i to j tsa n HR Hto Hsq Hi Hj Hg Hts Hn Hinc) as (fs & l & rows & Hf & Hl & Hr & HK & L & HM & Hu).
  destruct (quats_moving squad s i to j tsa n fs l rows arr axis ta k tau sh HR Hto Hsq Hi Hj Hg Hf Hl Hr HK L Hon H4) as (out & Eo & So & Do).
  exists out, l. split; [exact Eo|]. split; [exact HK|]. split; [exact So|]. intros c x Hc.
  destruct (sample_index tsa n l c x (proj1 HK) Hc) as (m & Hm & Hx & _).
  exists m, (rowv rows c), (rowq rows c). split; auto. split; auto. split; [apply HM; auto|]. intros pre Hv. eapply Do; eauto.
Qed.

(** Moving the coordinates from axis k to axis k' moves them in the result. *)
Theorem C23_move_moving_partial : forall squad s i to j arr arr' axis axis' ta ta' tsa k k' tau n sh,
  reachable s -> squad_total squad -> squad_unit squad -> frame s i -> denotes s to j -> good_way s i j -> 0 < k -> 0 < k' ->
  (on_axes arr 3 axis ta tsa k tau n sh -> on_axes arr' 3 axis' ta' tsa k' tau n sh ->
   last_length arr (time_pos k tau) <> 4 -> last_length arr' (time_pos k' tau) <> 4 ->
   (forall m pre, m < n -> valid sh pre -> vec_on arr k (put tau m pre) = vec_on arr' k' (put tau m pre)) ->
   exists out out' l, transform_vectors squad s i arr to axis (Some ta) (Some tsa) = Ok (out, Some l) /\
     transform_vectors squad s i arr' to axis' (Some ta') (Some tsa) = Ok (out', Some l) /\
     forall c pre, c < length l -> valid sh pre -> vec_on out k (put tau c pre) = vec_on out' k' (put tau c pre)) /\
  (on_axes arr 4 axis ta tsa k tau n sh -> on_axes arr' 4 axis' ta' tsa k' tau n sh -> squad_exact squad ->
   (last_length arr (time_pos k tau) <> 4 \/ k = S (length sh)) ->
   (last_length arr' (time_pos k' tau) <> 4 \/ k' = S (length sh)) ->
   (forall m pre, m < n -> valid sh pre -> hunit (quat_on arr k (put tau m pre)) /\
      quat_on arr k (put tau m pre) = quat_on arr' k' (put tau m pre)) ->
   exists out out' l, transform_quaternions squad s i arr to axis (Some ta) (Some tsa) = Ok (out, Some l) /\
     transform_quaternions squad s i arr' to axis' (Some ta') (Some tsa) = Ok (out', Some l) /\
     forall c pre, c < length l -> valid sh pre -> quat_on out k (put tau c pre) = quat_on out' k' (put tau c pre)).
Proof.
  intros squad s i to j arr arr' axis axis' ta ta' tsa k k' tau n sh HR Hto Hsq Hi Hj Hg Hk Hk'.
  destruct k as [|k]; [lia|]. destruct k' as [|k']; [lia|]. split.
  - intros Hon Hon' H4 H4' He. pose proof Hon as (_ & _ & _ & _ & _ & Hts & Hn & Hinc).
    destruct (shared squad s i to j tsa n HR Hto Hsq Hi Hj Hg Hts Hn Hinc) as (fs & l & rows & Hf & Hl & Hr & HK & L & HM & Hu).
    destruct (vectors_moving squad s i to j tsa n fs l rows arr axis ta k tau sh HR Hto Hsq Hi Hj Hg Hf Hl Hr HK L Hu Hon H4) as (out & Eo & _ & Do).
    destruct (vectors_moving squad s i to j tsa n fs l rows arr' axis' ta' k' tau sh HR Hto Hsq Hi Hj Hg Hf Hl Hr HK L Hu Hon' H4') as (out' & Eo' & _ & Do').
    exists out, out', l. split; [exact Eo|]. split; [exact Eo'|]. intros c pre Hc Hv.
    destruct (nth_error l c) as [x|] eqn:E; [|apply nth_error_None in E; lia].
    destruct (sample_index tsa n l c x (proj1 HK) E) as (m & Hm & Hx & _).
    rewrite (Do c x m pre E Hm Hx Hv), (Do' c x m pre E Hm Hx Hv), He by auto. reflexivity.
  - intros Hon Hon' Hex H4 H4' He. pose proof Hon as (_ & _ & _ & _ & _ & Hts & Hn & Hinc).
    destruct (shared squad s i to j tsa n HR Hto Hsq Hi Hj Hg Hts Hn Hinc) as (fs & l & rows & Hf & Hl & Hr & HK & L & HM & Hu).
    destruct (quats_moving squad s i to j tsa n fs l rows arr axis ta k tau sh HR Hto Hsq Hi Hj Hg Hf Hl Hr HK L Hon) as (out & Eo & _ & Do).
    { destruct H4 as [H4 | H4]; [left; exact H4|right]. split; auto. split; auto. intros m pre Hm Hv. apply He; auto. }
    destruct (quats_moving squad s i to j tsa n fs l rows arr' axis' ta' k' tau sh HR Hto Hsq Hi Hj Hg Hf Hl Hr HK L Hon') as (out' & Eo' & _ & Do').
    { destruct H4' as [H4' | H4']; [left; exact H4'|right]. split; auto. split; auto. intros m pre Hm Hv.
      destruct (He m pre Hm Hv) as (Hu1 & <-). exact Hu1. }
    exists out, out', l. split; [exact Eo|]. split; [exact Eo'|]. intros c pre Hc Hv.
    destruct (nth_error l c) as [x|] eqn:E; [|apply nth_error_None in E; lia].
    destruct (sample_index tsa n l c x (proj1 HK) E) as (m & Hm & Hx & _).
    rewrite (Do c x m pre E Hm Hx Hv), (Do' c x m pre E Hm Hx Hv). destruct (He m pre Hm Hv) as (_ & ->). reflexivity.
Qed.

(** Samples at times 0, 1/2, 4 on the last axis, coordinates on the middle one. *)
Example C23_moving_example : good_way mov_lit 3 2 /\ frame mov_lit 3 /\ denotes mov_lit (PFrame 2) 2 /\
  on_axes (Nd [2;3;3] (fun ix => INR (nth 1 ix 0))) 3 (-2) 2 ex_stamps 1 1 3 [2] /\
  last_length (Nd [2;3;3] (fun ix => INR (nth 1 ix 0))) (time_pos 1 1) = 2 /\
  on_axes (Nd [2;3;4] (fun ix => match nth 2 ix 0 with 0 => 1%R | _ => 0%R end)) 4 (-1) 1 ex_stamps 2 1 3 [2].
Proof.
  destruct C22_example as (H1 & _ & H2 & H3 & (_ & _ & _ & _ & _ & H4) & _). split; auto. split; auto. split; auto.
  split; [|split].
  - unfold on_axes, axis_is. cbn. repeat apply conj; auto.
  - reflexivity.
  - unfold on_axes, axis_is. cbn. repeat apply conj; auto.
Qed.

(** Coordinates first: the time axis is exchanged with the first one, but the axis
    argument is not, so the call is refused unless exactly three samples are kept. *)
Theorem C23_first_refuted : forall squad s i to j arr axis ta tsa tau n sh,
  reachable s -> squad_total squad -> squad_unit squad -> frame s i -> denotes s to j -> good_way s i j ->
  on_axes arr 3 axis ta tsa 0 tau n sh -> last_length arr (time_pos 0 tau) <> 4 ->
  exists l, kept s i j tsa n l /\
    (length l <> 3 -> transform_vectors squad s i arr to axis (Some ta) (Some tsa) = Raise ValueError).
Proof.
  intros squad s i to j arr axis ta tsa tau n sh HR Hto Hsq Hi Hj Hg (H1 & _ & H3 & H4 & H5 & Hts & Hn & Hinc) Hlast.
  destruct (shared squad s i to j tsa n HR Hto Hsq Hi Hj Hg Hts Hn Hinc) as (fs & l & rows & Hf & Hl & Hr & HK & L & HM & Hu).
  exists l. split; [exact HK|]. intros H3n.
  assert (N : ndim arr = S (S (length sh))).
  { unfold ndim. rewrite H1, put_insert by (rewrite ?length_insert; lia).
    rewrite put_insert by auto. rewrite !length_insert by (rewrite ?length_insert; lia). reflexivity. }
  cbn [time_pos Nat.ltb Nat.leb] in H5, Hlast. change (time_pos 0 tau) with (S tau) in H5, Hlast.
  assert (Hax : norm_axis axis (ndim arr) = Ok 0) by (apply axis_is_norm; auto; lia).
  assert (Hta : norm_axis ta (ndim arr) = Ok (S tau)) by (apply axis_is_norm; auto; lia).
  rewrite put_insert in H1 by lia. rewrite put_insert in H1 by auto. cbn [insert_at] in H1.
  assert (Hnn : nth 0 (shp arr) 0 = 3) by (rewrite H1; reflexivity).
  assert (Hna : nth (S tau) (shp arr) 0 = n) by (rewrite H1; apply nth_insert; auto).
  pose proof (stamps_increasing _ _ Hn Hinc) as Hin.
  set (a := swap_nd 0 (S tau) arr).
  assert (Sa : exists rest, shp a = n :: rest /\ length rest = S (length sh)).
  { assert (La : length (shp a) = S (S (length sh))) by (unfold a; cbn [swap_nd shp]; rewrite length_swapl; exact N).
    destruct (shp a) as [|x rest] eqn:E; [discriminate|]. exists rest. split; [|simpl in La; lia]. f_equal.
    change x with (nth 0 (x :: rest) 0). rewrite <- E. unfold a. cbn [swap_nd shp].
    rewrite nth_swapl by (unfold ndim in N; lia). unfold transp. cbn [Nat.eqb]. exact Hna. }
  destruct Sa as (rest & Sa & Lr).
  destruct (interp_nd_samples (times tsa n) a l n rest Hin) as (b & Eb & Sb & _); auto.
  { rewrite length_times. exact Hn. } { apply length_times. } { intros x Hx. eapply kept_in; eauto. }
  assert (Eb' : resample_array squad (MA a (Some (times tsa n))) (Some l) = Ok b).
  { unfold resample_array. cbn [ma_ts ma_data].
    assert (H4' : last (shp a) 0 <> 4).
    { unfold a. rewrite last_swapped by lia. destruct (Nat.eqb_spec (ndim arr) 1); [lia|]. exact Hlast. }
    apply Nat.eqb_neq in H4'. rewrite H4'. exact Eb. }
  destruct (prepare_ok squad s i arr to axis 3 ta tsa n _ _ Hax Hnn Hts Hta Hna j fs l rows b
     (increasing_not_decreasing _ Hin) (denotes_resolve s to j Hj) Hf (Hl _) Hr Eb') as (tr & Hp).
  destruct (prepare_inv squad s i arr to axis 3 ta tsa n _ _ Hax Hnn Hts Hta Hna tr b Hp) as (j' & fs' & l' & rows' & Hj' & Hf' & Hl' & Hr' & Htr & _).
  unfold transform_vectors. rewrite Hp. cbn [bind].
  assert (Nb : ndim b = ndim arr) by (unfold ndim at 1; rewrite Sb; simpl; lia).
  assert (R0 : nth 0 (shp b) 0 <> 3) by (rewrite Sb; exact H3n).
  assert (Hb0 : norm_axis axis (ndim b) = Ok 0) by (rewrite Nb; exact Hax).
  apply Nat.eqb_neq in R0.
  assert (RV : rotate_vectors (expand_r (tr_r tr) (ndim b)) b axis = Raise ValueError).
  { unfold rotate_vectors. destruct (shp (expand_r (tr_r tr) (ndim b))) as [|y z]; rewrite Hb0; cbn [bind].
    - unfold rv0. rewrite R0. reflexivity.
    - rewrite R0. reflexivity. }
  rewrite RV. reflexivity.
Qed.
(** A (3, 2) array, coordinates first. *)
Example C23_first_example : reachable mov_lit /\ good_way mov_lit 3 2 /\ frame mov_lit 3 /\ denotes mov_lit (PFrame 2) 2 /\
  on_axes (Nd [3;2] (fun _ => 1%R)) 3 0 1 (arr1 [0;1]%R) 0 0 2 [].
Proof.
  destruct C22_example as (H1 & _ & H2 & H3 & _). split; [apply mov_lit_reachable|]. split; auto. split; auto. split; auto.
  unfold on_axes, axis_is. cbn. repeat apply conj; auto. intros a b H. assert (a = 0 /\ b = 1) as (-> & ->) by lia. cbn. lra.
Qed.
