(** Property C78: the low-pass filter of the velocity estimators. *)
From Coq Require Import Reals List Arith Bool ZArith Lia Lra Sorted.
From Verif Require Import Base Quat SpecQuat QuatProofs NdArray Frames Matcher SpecLookup TimeProofs UtilsProofs
  Transform SpecArray NdProofs PropRotate Velocity VelProofs PropVelocity SpecMotion MotionProofs PropAngular TopProofs PropTopFit PropTopEstim RotVec PropRotVec Filter FilterProofs.
Import ListNotations.
Open Scope R_scope.

(* ------------------------------------------------------------------ the filtered array *)
(** f is a, with the series along axis tau filtered. *)
Definition filtered (wn : R) (tau : nat) (a f : nd (option R)) : Prop :=
  let w := tan (PI * wn / 2) in
  shp f = shp a /\ forall ix, valid (shp a) ix ->
    filtfilt (option R) oadd omul None (butter_b w) (butter_a w) (series_of a tau ix) = Ok (series_of f tau ix).
Lemma filtfilt_ok T add mul d w x : (24 < length x)%nat -> exists l, filtfilt T add mul d (butter_b w) (butter_a w) x = Ok l.
Proof. intros H. unfold filtfilt. destruct (Nat.leb_spec (length x) (3 * Nat.max (length (butter_a w)) (length (butter_b w)))) as [L|L]; [cbn in L; lia|eauto]. Qed.
Lemma length_series {A} (a : nd A) tau ix : length (series_of a tau ix) = nth tau (shp a) O.
Proof. unfold series_of. rewrite map_length, seq_length. reflexivity. Qed.
Lemma series_of_setn {A} (a : nd A) tau m ix : series_of a tau (setn tau m ix) = series_of a tau ix.
Proof. unfold series_of. apply map_ext. intros j. rewrite setn_setn. reflexivity. Qed.
Lemma list_seq {A} (l : list A) d : l = map (fun m => nth m l d) (seq 0 (length l)).
Proof.
  apply (List.nth_ext _ _ d d); [rewrite map_length, seq_length; reflexivity|]. intros n Hn.
  rewrite (nth_indep (map (fun m => nth m l d) (seq 0 (length l))) d (nth 0 l d)) by (rewrite map_length, seq_length; exact Hn).
  rewrite (map_nth (fun m => nth m l d)), seq_nth by exact Hn. reflexivity.
Qed.
Lemma low_pass_filtered wn tau a : 0 < wn -> wn < 1 -> (tau < ndim a)%nat -> (24 < nth tau (shp a) O)%nat ->
  exists f, low_pass (Some wn) tau a = Ok f /\ filtered wn tau a f.
Proof.
  intros H0 H1 Ht Hn. destruct (butter_ok wn H0 H1) as (EB & _). unfold low_pass. rewrite EB. cbn [bind fst snd].
  destruct (Nat.leb_spec (nth tau (shp a) O) (3 * Nat.max (length (butter_a (tan (PI * wn / 2)))) (length (butter_b (tan (PI * wn / 2)))))) as [L|_]; [cbn in L; lia|].
  cbn [bind]. set (w := tan (PI * wn / 2)). set (out := fun ix => filtfilt (option R) oadd omul None (butter_b w) (butter_a w) (series_of a tau ix)).
  assert (T : forall ix, exists l, out ix = Ok l) by (intros ix; apply filtfilt_ok; rewrite length_series; exact Hn).
  destruct (traverse_all_ok out (indices (shp a)) (fun ix _ => T ix)) as (l & ->). cbn [bind]. eexists. split; [reflexivity|].
  split; [reflexivity|]. intros ix Hix. destruct (T ix) as (r & Er). fold w. change (out ix = Ok (series_of (Nd (shp a) (fun ix => match out ix with Ok l => nth (nth tau ix O) l None | Raise _ => None end)) tau ix)). rewrite Er. f_equal.
  pose proof (length_filtfilt _ _ _ _ _ _ _ _ Er) as Lr. rewrite length_series in Lr. rewrite (list_seq r None) at 1. unfold series_of. cbn [shp dat]. rewrite Lr.
  apply map_ext_in. intros m Hm. unfold out. rewrite series_of_setn. fold (out ix). rewrite Er.
  rewrite nth_setn_same; [reflexivity|]. rewrite (valid_length _ _ Hix). exact Ht.
Qed.
(** Outside (0, 1), and for at most 24 samples, the filter refuses. *)
Lemma low_pass_refused wn tau a : wn <= 0 \/ 1 <= wn \/ (nth tau (shp a) O <= 24)%nat -> low_pass (Some wn) tau a = Raise ValueError.
Proof.
  intros H. unfold low_pass. destruct (Rle_b wn 0) eqn:A; [unfold butter; rewrite A; reflexivity|]. destruct (Rle_b 1 wn) eqn:B; [unfold butter; rewrite A, B; reflexivity|].
  apply Rle_b_false in A. apply Rle_b_false in B. destruct (butter_ok wn A B) as (-> & _). cbn [bind fst snd].
  destruct (Nat.leb_spec (nth tau (shp a) O) (3 * Nat.max (length (butter_a (tan (PI * wn / 2)))) (length (butter_b (tan (PI * wn / 2)))))) as [L|L]; [reflexivity|].
  cbn in L. destruct H as [H|[H|H]]; [lra|lra|lia].
Qed.

(* ---- series ---- *)
Lemma map_some_inj (l l' : list R) : map Some l = map Some l' -> l = l'.
Proof. revert l'. induction l as [|x l IH]; intros [|y l']; cbn; intros H; try discriminate; auto. injection H as -> H. f_equal. auto. Qed.
Lemma filtfilt_const w v n : 0 < w -> (24 < n)%nat -> filtfilt (option R) oadd omul None (butter_b w) (butter_a w) (repeat (Some v) n) = Ok (repeat (Some v) n).
Proof.
  intros Hw Hn. pose proof (hom_filtfilt R (option R) Rplus Rmult oadd omul (fun u => Some (u * v))
    ltac:(intros; cbn; f_equal; lra) ltac:(intros; cbn; f_equal; lra) 0 None (butter_b w) (butter_a w) (repeat 1 n)) as H.
  rewrite filtfilt_ones in H; [|apply butter_unit; exact Hw|rewrite repeat_length; exact Hn|intros y Hy; apply repeat_spec in Hy; exact Hy].
  assert (E : map (fun u => Some (u * v)) (repeat 1 n) = repeat (Some v) n) by (clear; induction n; cbn; [reflexivity|]; rewrite IHn, Rmult_1_l; reflexivity).
  rewrite E in H. exact H.
Qed.
Lemma series_const {A} (a : nd A) tau ix v : (forall m, (m < nth tau (shp a) O)%nat -> dat a (setn tau m ix) = v) -> series_of a tau ix = repeat v (nth tau (shp a) O).
Proof.
  intros H. unfold series_of. rewrite <- (seq_length (nth tau (shp a) O) 0) at 2.
  assert (G : forall m, In m (seq 0 (nth tau (shp a) O)) -> dat a (setn tau m ix) = v) by (intros m Hm; apply in_seq in Hm; apply H; lia).
  clear H. induction (seq 0 (nth tau (shp a) O)) as [|m l IH]; cbn; [reflexivity|]. rewrite G by (left; reflexivity). f_equal. apply IH. intros; apply G; right; auto.
Qed.
Lemma series_nth {A} (a : nd A) tau ix d : (tau < length ix)%nat -> (nth tau ix O < nth tau (shp a) O)%nat -> nth (nth tau ix O) (series_of a tau ix) d = dat a ix.
Proof.
  intros H Hn. unfold series_of. rewrite (nth_indep _ d (dat a (setn tau 0 ix))) by (rewrite map_length, seq_length; exact Hn).
  rewrite (map_nth (fun m => dat a (setn tau m ix))), seq_nth by exact Hn. cbn [Nat.add]. rewrite setn_id. reflexivity.
Qed.
Lemma valid_nth_lt s ix k : valid s ix -> (k < length s)%nat -> (nth k ix O < nth k s O)%nat.
Proof. intros H. revert k. induction H as [|i n ix s Hi H IH]; intros [|k] Hk; cbn in *; try lia. apply IH. lia. Qed.
(** A series that does not change in time is not changed by the filter. *)
Lemma filtered_const wn tau a f ix v : 0 < wn -> wn < 1 -> filtered wn tau a f -> (tau < ndim a)%nat -> (24 < nth tau (shp a) O)%nat -> valid (shp a) ix ->
  (forall m, (m < nth tau (shp a) O)%nat -> dat a (setn tau m ix) = Some v) -> dat f ix = Some v.
Proof.
  intros H0 H1 (S & F) Ht Hn Hix Hc. destruct (butter_ok wn H0 H1) as (_ & Hw). specialize (F ix Hix). rewrite (series_const a tau ix (Some v) Hc) in F.
  rewrite filtfilt_const in F by assumption. injection F as F. pose proof (valid_nth_lt _ _ tau Hix Ht) as Lt.
  rewrite <- (series_nth f tau ix None) by (rewrite ?S, ?(valid_length _ _ Hix); assumption). rewrite <- F. rewrite nth_indep with (d' := Some v) by (rewrite repeat_length; exact Lt).
  apply List.nth_repeat.
Qed.
(** A series with a NaN becomes NaN altogether. *)
Lemma filtered_nan wn tau a f ix m : filtered wn tau a f -> (tau < ndim a)%nat -> (24 < nth tau (shp a) O)%nat -> valid (shp a) ix ->
  (m < nth tau (shp a) O)%nat -> dat a (setn tau m ix) = None -> dat f ix = None.
Proof.
  intros (S & F) Ht Hn Hix Hm Hc. specialize (F ix Hix). pose proof (valid_nth_lt _ _ tau Hix Ht) as Lt.
  destruct (filtfilt_nan (butter_b (tan (PI * wn / 2))) (butter_a (tan (PI * wn / 2))) (series_of a tau ix)) as (l & E & L & N).
  - cbn. lia.
  - reflexivity.
  - rewrite length_series. cbn. lia.
  - unfold series_of. apply in_map_iff. exists m. split; [exact Hc|apply in_seq; lia].
  - rewrite E in F. injection F as F. rewrite <- (series_nth f tau ix None) by (rewrite ?S, ?(valid_length _ _ Hix); assumption). rewrite <- F.
    apply N, nth_In. rewrite L, length_series. exact Lt.
Qed.
(** Two series that are images of the same data under maps h, h' that keep sums and multiples. *)
Lemma filtered_hom T add mul (d : T) (h : T -> option R) wn tau a f ix (x : nat -> T) :
  (forall u v, h (add u v) = oadd (h u) (h v)) -> (forall c u, h (mul c u) = omul c (h u)) ->
  filtered wn tau a f -> (tau < ndim a)%nat -> (24 < nth tau (shp a) O)%nat -> valid (shp a) ix ->
  (forall m, (m < nth tau (shp a) O)%nat -> dat a (setn tau m ix) = h (x m)) ->
  exists ys, filtfilt T add mul d (butter_b (tan (PI * wn / 2))) (butter_a (tan (PI * wn / 2))) (map x (seq 0 (nth tau (shp a) O))) = Ok ys /\
    dat f ix = h (nth (nth tau ix O) ys d).
Proof.
  intros Ha Hm (S & F) Ht Hn Hix Hx. specialize (F ix Hix). pose proof (valid_nth_lt _ _ tau Hix Ht) as Lt.
  set (xs := map x (seq 0 (nth tau (shp a) O))). assert (Lx : length xs = nth tau (shp a) O) by (unfold xs; rewrite map_length, seq_length; reflexivity).
  destruct (filtfilt_ok T add mul d (tan (PI * wn / 2)) xs ltac:(lia)) as (ys & E). exists ys. split; [exact E|].
  assert (ES : series_of a tau ix = map h xs).
  { unfold series_of, xs. rewrite map_map. apply map_ext_in. intros m Hm'. apply in_seq in Hm'. apply Hx. lia. }
  rewrite ES, (hom_filtfilt T (option R) add mul oadd omul h Ha Hm d None), E in F. injection F as F.
  pose proof (length_filtfilt _ _ _ _ _ _ _ _ E) as Ly.
  rewrite <- (series_nth f tau ix (h d)) by (rewrite ?S, ?(valid_length _ _ Hix); assumption). rewrite <- F, map_nth. reflexivity.
Qed.
(** Filtering a sum or a multiple is the same as adding or multiplying filtered arrays. *)
Theorem C78_superposition : forall wn tau (a b c : nd R) fa fb fc al be,
  (tau < ndim a)%nat -> shp b = shp a -> shp c = shp a ->
  (forall ix, valid (shp a) ix -> dat c ix = al * dat a ix + be * dat b ix) ->
  low_pass (Some wn) tau (numbers a) = Ok fa -> low_pass (Some wn) tau (numbers b) = Ok fb -> low_pass (Some wn) tau (numbers c) = Ok fc ->
  forall ix, valid (shp a) ix -> exists x y, dat fa ix = Some x /\ dat fb ix = Some y /\ dat fc ix = Some (al * x + be * y).
Proof.
  intros wn tau a b c fa fb fc al be Ht Sb Sc Hc Ea Eb Ec ix Hix.
  destruct (Rle_dec wn 0) as [W0|W0]; [rewrite low_pass_refused in Ea by auto; discriminate|].
  destruct (Rle_dec 1 wn) as [W1|W1]; [rewrite low_pass_refused in Ea by auto; discriminate|].
  destruct (le_lt_dec (nth tau (shp a) O) 24) as [N|N]; [rewrite low_pass_refused in Ea by auto; discriminate|].
  destruct (low_pass_filtered wn tau (numbers a)) as (fa' & Ea' & Fa); [lra|lra|exact Ht|exact N|].
  destruct (low_pass_filtered wn tau (numbers b)) as (fb' & Eb' & Fb); [lra|lra|unfold ndim, numbers; cbn; rewrite Sb; exact Ht|cbn; rewrite Sb; exact N|].
  destruct (low_pass_filtered wn tau (numbers c)) as (fc' & Ec' & Fc); [lra|lra|unfold ndim, numbers; cbn; rewrite Sc; exact Ht|cbn; rewrite Sc; exact N|].
  rewrite Ea' in Ea. injection Ea as ->. rewrite Eb' in Eb. injection Eb as ->. rewrite Ec' in Ec. injection Ec as ->.
  set (add := fun u v : R * R => (fst u + fst v, snd u + snd v)). set (mul := fun k (u : R * R) => (k * fst u, k * snd u)).
  set (x := fun m => (dat a (setn tau m ix), dat b (setn tau m ix))).
  destruct (filtered_hom (R * R) add mul (0, 0) (fun u => Some (fst u)) wn tau (numbers a) fa ix x) as (ys & E & A); auto.
  destruct (filtered_hom (R * R) add mul (0, 0) (fun u => Some (snd u)) wn tau (numbers b) fb ix x) as (ys1 & E1 & B); auto.
  { unfold ndim, numbers; cbn; rewrite Sb; exact Ht. } { cbn; rewrite Sb; exact N. } { cbn; rewrite Sb; exact Hix. }
  destruct (filtered_hom (R * R) add mul (0, 0) (fun u => Some (al * fst u + be * snd u)) wn tau (numbers c) fc ix x) as (ys2 & E2 & C).
  { intros. cbn. f_equal. lra. } { intros. cbn. f_equal. lra. } { exact Fc. }
  { unfold ndim, numbers; cbn; rewrite Sc; exact Ht. } { cbn; rewrite Sc; exact N. } { cbn; rewrite Sc; exact Hix. }
  { intros m Hm. cbn in *. rewrite Sc in Hm. f_equal. apply Hc. apply valid_setn; auto. }
  cbn [shp numbers] in E, E1, E2. rewrite Sb, E in E1. rewrite Sc, E in E2. injection E1 as <-. injection E2 as <-.
  rewrite A, B, C. eauto.
Qed.
(** The filter commutes with a fixed rotation of the vectors on axis k: the axes in which
    the velocities are expressed do not matter. *)
Definition vec_at_axis (a : nd R) (k : nat) (ix : list nat) : vec3 :=
  V3 (dat a (setn k 0 ix)) (dat a (setn k 1 ix)) (dat a (setn k 2 ix)).
Theorem C78_rotation : forall wn tau k r (a a' : nd R) f f',
  (tau < ndim a)%nat -> (k < ndim a)%nat -> tau <> k -> nth k (shp a) O = 3%nat -> shp a' = shp a ->
  (forall ix, valid (shp a) ix -> vec_at_axis a' k ix = srot r (vec_at_axis a k ix)) ->
  low_pass (Some wn) tau (numbers a) = Ok f -> low_pass (Some wn) tau (numbers a') = Ok f' ->
  forall ix, valid (shp a) ix -> exists v, forall j, (j < 3)%nat ->
    dat f (setn k j ix) = Some (comp3 j v) /\ dat f' (setn k j ix) = Some (comp3 j (srot r v)).
Proof.
  intros wn tau k r a a' f f' Ht Hk Htk H3 Sa Hr Ea Eb ix Hix.
  destruct (Rle_dec wn 0) as [W0|W0]; [rewrite low_pass_refused in Ea by auto; discriminate|].
  destruct (Rle_dec 1 wn) as [W1|W1]; [rewrite low_pass_refused in Ea by auto; discriminate|].
  destruct (le_lt_dec (nth tau (shp a) O) 24) as [N|N]; [rewrite low_pass_refused in Ea by auto; discriminate|].
  destruct (low_pass_filtered wn tau (numbers a)) as (fa' & Ea' & Fa); [lra|lra|exact Ht|exact N|].
  assert (Ht' : (tau < ndim (numbers a'))%nat) by (unfold ndim, numbers; cbn; rewrite Sa; exact Ht).
  assert (N' : (24 < nth tau (shp (numbers a')) O)%nat) by (cbn; rewrite Sa; exact N).
  destruct (low_pass_filtered wn tau (numbers a')) as (fb' & Eb' & Fb); [lra|lra|exact Ht'|exact N'|].
  rewrite Ea' in Ea. injection Ea as ->. rewrite Eb' in Eb. injection Eb as ->.
  set (x := fun m => vec_at_axis a k (setn tau m ix)).
  destruct (filtfilt_ok vec3 vadd vscale v0 (tan (PI * wn / 2)) (map x (seq 0 (nth tau (shp a) O)))) as (ys & E).
  { rewrite map_length, seq_length. exact N. }
  exists (nth (nth tau ix O) ys v0). intros j Hj.
  assert (V : valid (shp a) (setn k j ix)) by (apply valid_setn; [exact Hix|rewrite H3; exact Hj]).
  assert (C : forall j u, (j < 3)%nat -> dat a (setn k j u) = comp3 j (vec_at_axis a k u)) by (intros [|[|[|i]]] u Hi; try lia; reflexivity).
  assert (C' : forall j u, (j < 3)%nat -> dat a' (setn k j u) = comp3 j (vec_at_axis a' k u)) by (intros [|[|[|i]]] u Hi; try lia; reflexivity).
  assert (NT : nth tau (setn k j ix) O = nth tau ix O) by (apply nth_setn_other; auto).
  split.
  - destruct (filtered_hom vec3 vadd vscale v0 (fun u => Some (comp3 j u)) wn tau (numbers a) f (setn k j ix) x) as (ys1 & E1 & A); auto.
    { intros. cbn. f_equal. destruct j as [|[|j]]; reflexivity. } { intros. cbn. f_equal. destruct j as [|[|j]]; reflexivity. }
    { intros m Hm. cbn. f_equal. rewrite setn_comm by auto. apply C, Hj. }
    cbn [shp numbers] in E1. rewrite E in E1. injection E1 as <-. rewrite A, NT. reflexivity.
  - destruct (filtered_hom vec3 vadd vscale v0 (fun u => Some (comp3 j (srot r u))) wn tau (numbers a') f' (setn k j ix) x) as (ys1 & E1 & A).
    { intros. rewrite srot_add. cbn. f_equal. destruct j as [|[|j]]; reflexivity. } { intros. rewrite srot_scale. cbn. f_equal. destruct j as [|[|j]]; reflexivity. }
    { exact Fb. } { exact Ht'. } { exact N'. } { cbn. rewrite Sa. exact V. }
    { intros m Hm. cbn in *. f_equal. rewrite setn_comm by auto. rewrite C' by exact Hj. f_equal. apply Hr. apply valid_setn; [exact Hix|]. rewrite <- Sa. exact Hm. }
    cbn [shp numbers] in E1. rewrite Sa, E in E1. injection E1 as <-. rewrite A, NT. reflexivity.
Qed.

(* ------------------------------------------------------------------ linear velocity *)
Lemma time_norm time_axis tau n : time_is time_axis tau n -> (tau < n)%nat -> norm_axis (or_default time_axis 0) n = Ok tau.
Proof.
  intros H L. apply axis_is_norm; [exact L|]. destruct time_axis as [z|]; simpl in *; [|left; subst; auto].
  destruct (Z.eqb_spec z 0); [subst; auto|auto].
Qed.
Lemma ndim_put {A} (a : nd A) tau n sh : shp a = put tau n sh -> (tau <= length sh)%nat -> ndim a = S (length sh) /\ nth tau (shp a) O = n.
Proof.
  intros H L. rewrite put_insert in H by exact L. unfold ndim. rewrite H. split; [apply length_insert; exact L|].
  apply nth_insert; exact L.
Qed.
(** Motion with constant velocity: the filtered estimate is the velocity, at every sample and
    for every cutoff. *)
Theorem C78_constant_velocity : forall wn (a : nd R) axis time_axis ts tau sh (p v : list nat -> R),
  0 < wn -> wn < 1 -> increasing ts -> (24 < List.length ts)%nat ->
  shp a = put tau (List.length ts) sh -> (tau <= List.length sh)%nat ->
  time_is time_axis tau (ndim a) -> axis_not axis tau (ndim a) ->
  (forall c m, valid sh c -> (m < List.length ts)%nat -> dat a (put tau m c) = p c + v c * nth m ts 0) ->
  exists b, estimate_linear_full None (Some wn) a axis ts time_axis = Ok b /\ shp b = shp a /\
    forall c m, valid sh c -> (m < List.length ts)%nat -> dat b (put tau m c) = Some (v c).
Proof.
  intros wn a axis time_axis ts tau sh p v H0 H1 Hi Hn Hs Hk Ht Ha Hd. destruct (ndim_put a tau _ sh Hs Hk) as (Na & Nt).
  destruct (C32_constant_velocity a axis time_axis ts tau sh p v) as (g & Eg & Sg & Dg); auto; [lia|].
  unfold estimate_linear_full. rewrite Eg. cbn [bind]. rewrite (time_norm time_axis tau _ Ht) by (rewrite Na; lia). cbn [bind].
  assert (T : (tau < ndim (numbers g))%nat) by (unfold ndim, numbers; cbn; rewrite Sg; unfold ndim in Na; rewrite Na; lia).
  assert (N : (24 < nth tau (shp (numbers g)) O)%nat) by (cbn; rewrite Sg, Nt; exact Hn).
  destruct (low_pass_filtered wn tau (numbers g) H0 H1 T N) as (f & Ef & Ff). exists f. split; [exact Ef|].
  split; [rewrite (proj1 Ff); exact Sg|]. intros c m Hc Hm.
  apply (filtered_const wn tau (numbers g) f (put tau m c) (v c) H0 H1 Ff T N).
  - cbn. rewrite Sg, Hs. rewrite !put_insert by (rewrite ?(valid_length _ _ Hc); exact Hk). apply valid_insert; auto.
  - intros m' Hm'. cbn in *. rewrite Sg, Nt in Hm'. f_equal. rewrite setn_put by (rewrite (valid_length _ _ Hc); exact Hk). apply Dg; auto.
Qed.
(** Any data: the call succeeds exactly when the one without filter does, the cutoff lies
    strictly between 0 and 1 and there are more than 24 samples; otherwise it is refused. *)
Theorem C78_linear_defined : forall wn (a g : nd R) axis time_axis ts tau sh,
  shp a = put tau (List.length ts) sh -> (tau <= List.length sh)%nat ->
  time_is time_axis tau (ndim a) -> axis_not axis tau (ndim a) ->
  estimate_linear_velocity a axis ts time_axis = Ok g ->
  (0 < wn /\ wn < 1 /\ (24 < List.length ts)%nat ->
     exists b, estimate_linear_full None (Some wn) a axis ts time_axis = Ok b /\ shp b = shp a /\
       forall ix, valid (shp a) ix -> dat b ix <> None) /\
  (~ (0 < wn /\ wn < 1 /\ (24 < List.length ts)%nat) -> estimate_linear_full None (Some wn) a axis ts time_axis = Raise ValueError).
Proof.
  intros wn a g axis time_axis ts tau sh Hs Hk Ht Ha Eg. destruct (ndim_put a tau _ sh Hs Hk) as (Na & Nt).
  assert (Sg : shp g = shp a).
  { rewrite (axes_resolved a axis time_axis tau sh _ ts Hs Hk Ht Ha) in Eg. unfold gradient_nd in Eg. destruct (grad_check ts _); [|discriminate]. injection Eg as <-. reflexivity. }
  unfold estimate_linear_full. rewrite Eg. cbn [bind]. rewrite (time_norm time_axis tau _ Ht) by (rewrite Na; lia). cbn [bind].
  assert (T : (tau < ndim (numbers g))%nat) by (unfold ndim, numbers; cbn; rewrite Sg; unfold ndim in Na; rewrite Na; lia).
  split.
  - intros (H0 & H1 & Hn). assert (N : (24 < nth tau (shp (numbers g)) O)%nat) by (cbn; rewrite Sg, Nt; exact Hn).
    destruct (low_pass_filtered wn tau (numbers g) H0 H1 T N) as (f & Ef & Ff). exists f. split; [exact Ef|].
    split; [rewrite (proj1 Ff); exact Sg|]. intros ix Hix.
    destruct (filtered_hom R Rplus Rmult 0 Some wn tau (numbers g) f ix (fun m => dat g (setn tau m ix))) as (ys & _ & ->); auto; [|discriminate].
    cbn. rewrite Sg. exact Hix.
  - intros H. apply low_pass_refused. cbn. rewrite Sg, Nt. destruct (Rle_dec wn 0); [auto|]. destruct (Rle_dec 1 wn); [auto|].
    right. right. apply Nat.nlt_ge. intros Hn. apply H. repeat split; try lra. exact Hn.
Qed.
(** With outlier_thresh and a cutoff: one sample for which the suppression gives NaN makes the
    velocities of all times NaN. *)
Theorem C78_outlier_refuted : forall th wn (a : nd R) g f axis ts time_axis tau m ix,
  estimate_linear_outlier th a axis ts time_axis = Ok g -> estimate_linear_full (Some th) (Some wn) a axis ts time_axis = Ok f ->
  time_is time_axis tau (ndim a) -> (tau < ndim a)%nat -> ndim g = ndim a ->
  (m < nth tau (shp g) O)%nat -> valid (shp g) ix -> dat g (setn tau m ix) = None -> dat f ix = None.
Proof.
  intros th wn a g f axis ts time_axis tau m ix Eg Ef Ht Hl Sg Hm Hix Hd. unfold estimate_linear_full in Ef. rewrite Eg in Ef. cbn [bind] in Ef.
  rewrite (time_norm time_axis tau _ Ht Hl) in Ef. cbn [bind] in Ef.
  destruct (Rle_dec wn 0) as [W0|W0]; [rewrite low_pass_refused in Ef by auto; discriminate|].
  destruct (Rle_dec 1 wn) as [W1|W1]; [rewrite low_pass_refused in Ef by auto; discriminate|].
  destruct (le_lt_dec (nth tau (shp g) O) 24) as [N|N]; [rewrite low_pass_refused in Ef by auto; discriminate|].
  destruct (low_pass_filtered wn tau g) as (f' & E' & F); [lra|lra|lia|exact N|]. rewrite E' in Ef. injection Ef as ->.
  apply (filtered_nan wn tau g f ix m F); auto. lia.
Qed.

(* ------------------------------------------------------------------ angular velocity *)
Lemma filtered_swap wn k n1 t0 (g : nd (option R)) f : ndim g = S n1 -> (k < S n1)%nat -> (t0 < S n1)%nat ->
  filtered wn (transp k n1 t0) (swap_nd k n1 g) f -> filtered wn t0 g (swap_nd k n1 f).
Proof.
  intros Hn Hk Ht (S & F). unfold ndim in Hn. split; [cbn in *; rewrite S; apply swapl_invol; rewrite Hn; lia|].
  intros ix Hix. pose proof (valid_length _ _ Hix) as L. specialize (F (swapl k n1 ix)). cbn [swap_nd shp] in S, F.
  assert (V : valid (swapl k n1 (shp g)) (swapl k n1 ix)) by (apply valid_swapl; auto; rewrite Hn; lia). specialize (F V).
  assert (SS : forall (h : nd (option R)), shp h = swapl k n1 (shp g) -> series_of h (transp k n1 t0) (swapl k n1 ix) = map (fun m => dat h (swapl k n1 (setn t0 m ix))) (seq 0 (nth t0 (shp g) O))).
  { intros h Sh. unfold series_of. rewrite Sh, nth_swapl, transp_invol.
    2:{ rewrite Hn. unfold transp. destruct (Nat.eqb t0 k), (Nat.eqb t0 n1); lia. }
    apply map_ext. intros m. f_equal. symmetry. apply swapl_setn; lia. }
  rewrite (SS f S) in F. rewrite (SS (swap_nd k n1 g) eq_refl) in F.
  replace (series_of g t0 ix) with (map (fun m => dat (swap_nd k n1 g) (swapl k n1 (setn t0 m ix))) (seq 0 (nth t0 (shp g) O))).
  - rewrite F. f_equal. unfold series_of. cbn [swap_nd shp dat]. rewrite S, swapl_invol by (rewrite Hn; lia). reflexivity.
  - unfold series_of. apply map_ext. intros m. cbn [swap_nd dat]. rewrite swapl_invol; [reflexivity| |]; rewrite length_setn; lia.
Qed.
Lemma angular_filtered deriv wn a g ts axis time_axis k tau :
  0 < wn -> wn < 1 -> (k < ndim a)%nat -> (tau < ndim a)%nat -> k <> tau -> axis_is axis k (ndim a) -> axis_is time_axis tau (ndim a) ->
  estimate_angular deriv a ts axis time_axis = Ok g -> ndim g = ndim a -> (24 < nth tau (shp g) O)%nat ->
  exists f, estimate_angular_cutoff deriv (Some wn) a ts axis time_axis = Ok f /\ filtered wn tau g f.
Proof.
  intros H0 H1 Hk Ht Hne Ha Hta Eg Sg Hn. unfold estimate_angular_cutoff. rewrite Eg. cbn [bind].
  destruct (ndim a) as [|n1] eqn:En; [lia|]. rewrite (axis_is_mod _ _ _ Hk Ha), (axis_is_mod _ _ _ Ht Hta), !Nat2Z.id. cbv zeta.
  assert (TT : (if Nat.eqb tau n1 then k else tau) = transp k n1 tau).
  { unfold transp. destruct (Nat.eqb_spec tau k); [congruence|]. reflexivity. }
  rewrite TT. set (t1 := transp k n1 tau). assert (T1 : (t1 < S n1)%nat) by (unfold t1, transp; destruct (Nat.eqb tau k), (Nat.eqb tau n1); lia).
  unfold ndim in *.
  destruct (low_pass_filtered wn t1 (swap_nd k n1 g) H0 H1) as (f & Ef & Ff).
  - unfold ndim. cbn [swap_nd shp]. rewrite length_swapl, Sg. exact T1.
  - cbn [swap_nd shp]. rewrite nth_swapl by (rewrite Sg; exact T1). unfold t1. rewrite transp_invol. exact Hn.
  - rewrite Ef. cbn [bind]. eexists. split; [reflexivity|]. apply filtered_swap; auto.
Qed.
Lemma vderiv_unique u t a b : vderiv u t a -> vderiv u t b -> a = b.
Proof.
  intros (A1 & A2 & A3) (B1 & B2 & B3). apply vec3_eq; eapply uniqueness_limite; eauto.
Qed.
Lemma cross_zero v : (forall p, vcross v p = v0) -> v = v0.
Proof.
  intros H. pose proof (H (V3 1 0 0)) as A. pose proof (H (V3 0 1 0)) as B. destruct v as [x y z]. cbv [vcross v0 vx vy vz] in *.
  injection A as A1 A2 A3. injection B as B1 B2 B3. f_equal; lra.
Qed.
Lemma body_rate_unique q t w w' : hn2 (q t) <> 0 -> body_rate q t w -> body_rate q t w' -> w = w'.
Proof.
  intros Hq A B. assert (E : forall p, vcross w p = vcross w' p).
  { intros p. pose proof (vderiv_unique _ _ _ _ (A p) (B p)) as E. apply (f_equal (srot (hinv (q t)))) in E. rewrite !srot_hinv_l in E by exact Hq. exact E. }
  assert (Z : vsub w w' = v0).
  { apply cross_zero. intros p. pose proof (E p) as Ep. destruct w as [a b c], w' as [a' b' c'], p as [x y z]. cbv [vcross vsub v0 vx vy vz] in *.
    injection Ep as E1 E2 E3. f_equal; lra. }
  destruct w as [a b c], w' as [a' b' c']. cbv [vsub v0 vx vy vz] in Z. injection Z as Z1 Z2 Z3. f_equal; lra.
Qed.
(** Turning at a constant rate: the filtered estimate is the rate (differentiator as in C34). *)
Theorem C78_constant_rate : forall deriv wn (a : nd (option R)) ts axis time_axis k tau (Q dQ : list nat -> R -> quat) (rate : list nat -> vec3),
  0 < wn -> wn < 1 -> (24 < List.length ts)%nat ->
  (k < ndim a)%nat -> (tau < ndim a)%nat -> k <> tau -> axis_is axis k (ndim a) -> axis_is time_axis tau (ndim a) ->
  nth k (shp a) O = 4%nat -> nth tau (shp a) O = List.length ts ->
  (forall c t, hunit (Q c t)) -> (forall c t, qderiv (Q c) t (dQ c t)) -> (forall c t, body_rate (Q c) t (rate c)) ->
  (forall ix, valid (shp a) ix ->
     dat a ix = Some (comp4 (nth k ix O) (Q (series tau k ix) (nth (nth tau ix O) ts 0)))) ->
  (forall c j, (j < 4)%nat -> exact_on deriv ts (seq 0 (List.length ts)) (fun t => comp4 j (Q c t)) (fun t => comp4 j (dQ c t))) ->
  exists b, estimate_angular_cutoff deriv (Some wn) a ts axis time_axis = Ok b /\ shp b = setn k 3 (shp a) /\
    forall ix j, valid (shp a) ix -> (j < 3)%nat -> dat b (setn k j ix) = Some (comp3 j (rate (series tau k ix))).
Proof.
  intros deriv wn a ts axis time_axis k tau Q dQ rate H0 H1 Hn Hk Ht Hne Ha Hta H4 HN Hu Hd Hr Hdat Hex.
  assert (NN : forall m, ~ nan_at a tau m) by (intros m (ix & Hix & _ & E); rewrite Hdat in E by exact Hix; discriminate).
  assert (SG : forall G, StronglySorted lt G -> (forall m, In m G <-> (m < List.length ts)%nat /\ ~ nan_at a tau m) -> G = seq 0 (List.length ts)).
  { intros G SG HG. apply sorted_lt_ext; [exact SG|apply seq_sorted|]. intros m. rewrite HG, in_seq. split; [intros (A & _); lia|intros A; split; [lia|apply NN]]. }
  destruct (C34_body_rate deriv a ts axis time_axis k tau Q dQ) as (g & Eg & Sg & Dg); auto.
  { intros G c j HS HG Hj. rewrite (SG G HS HG). apply Hex, Hj. }
  assert (Ng : ndim g = ndim a) by (unfold ndim; rewrite Sg, length_setn; reflexivity).
  assert (Lg : nth tau (shp g) O = List.length ts) by (rewrite Sg, nth_setn_other by auto; exact HN).
  destruct (angular_filtered deriv wn a g ts axis time_axis k tau) as (f & Ef & Ff); auto; [rewrite Lg; exact Hn|].
  exists f. split; [exact Ef|]. split; [rewrite (proj1 Ff); exact Sg|]. intros ix j Hix Hj.
  apply (filtered_const wn tau g f (setn k j ix) _ H0 H1 Ff).
  - rewrite Ng. exact Ht.
  - rewrite Lg. exact Hn.
  - rewrite Sg. apply valid_setn2; auto.
  - intros m Hm. rewrite Lg in Hm. rewrite setn_comm by auto.
    assert (Hix' : valid (shp a) (setn tau m ix)) by (apply valid_setn; [exact Hix|rewrite HN; exact Hm]).
    destruct (Dg (setn tau m ix) Hix') as (_ & D). destruct (D (NN _)) as (w & Dw & Bw). rewrite (Dw j Hj). f_equal. f_equal.
    assert (ES : series tau k (setn tau m ix) = series tau k ix) by (unfold series; rewrite !(setn_comm tau k) by auto; rewrite setn_setn; reflexivity).
    rewrite ES in Bw. eapply body_rate_unique; [|exact Bw|apply Hr]. rewrite (Hu _ _ : hn2 _ = 1). lra.
Qed.
(** An orientation that is missing (NaN) at one time makes the filtered angular velocities of
    all times NaN: the estimate without filter has a gap there only (C34). *)
Theorem C78_nan_refuted : forall deriv wn (a : nd (option R)) g f ts axis time_axis k tau m ix j,
  (k < ndim a)%nat -> (tau < ndim a)%nat -> k <> tau -> axis_is axis k (ndim a) -> axis_is time_axis tau (ndim a) ->
  estimate_angular deriv a ts axis time_axis = Ok g -> shp g = setn k 3 (shp a) -> estimate_angular_cutoff deriv (Some wn) a ts axis time_axis = Ok f ->
  valid (shp a) ix -> (j < 3)%nat -> (m < nth tau (shp a) O)%nat -> dat g (setn k j (setn tau m ix)) = None -> dat f (setn k j ix) = None.
Proof.
  intros deriv wn a g f ts axis time_axis k tau m ix j Hk Ht Hne Ha Hta Eg Sg Ef Hix Hj Hm Hd.
  assert (Ng : ndim g = ndim a) by (unfold ndim; rewrite Sg, length_setn; reflexivity).
  assert (Lg : nth tau (shp g) O = nth tau (shp a) O) by (rewrite Sg, nth_setn_other by auto; reflexivity).
  assert (RF : wn <= 0 \/ 1 <= wn \/ (nth tau (shp a) O <= 24)%nat -> False).
  { intros H. unfold estimate_angular_cutoff in Ef. rewrite Eg in Ef. cbn [bind] in Ef. destruct (ndim a) as [|n1] eqn:En; [lia|].
    rewrite (axis_is_mod _ _ _ Hk Ha), (axis_is_mod _ _ _ Ht Hta), !Nat2Z.id in Ef. cbv zeta in Ef.
    rewrite low_pass_refused in Ef; [discriminate|]. destruct H as [H|[H|H]]; auto. right. right. cbn [swap_nd shp].
    unfold ndim in *. rewrite nth_swapl.
    2:{ rewrite Ng. destruct (Nat.eqb tau n1); lia. }
    replace (transp k n1 (if Nat.eqb tau n1 then k else tau)) with tau; [rewrite Lg; exact H|].
    unfold transp. destruct (Nat.eqb_spec tau n1) as [->|]; [rewrite Nat.eqb_refl; reflexivity|].
    destruct (Nat.eqb_spec tau k); [congruence|]. destruct (Nat.eqb_spec tau n1); [congruence|reflexivity]. }
  destruct (Rle_dec wn 0); [exfalso; apply RF; auto|]. destruct (Rle_dec 1 wn); [exfalso; apply RF; auto|].
  destruct (le_lt_dec (nth tau (shp a) O) 24); [exfalso; apply RF; auto|].
  destruct (angular_filtered deriv wn a g ts axis time_axis k tau) as (f' & E' & F); auto; try lra; [rewrite Lg; assumption|].
  rewrite E' in Ef. injection Ef as ->. apply (filtered_nan wn tau g f (setn k j ix) m F).
  - rewrite Ng. exact Ht.
  - rewrite Lg. assumption.
  - rewrite Sg. apply valid_setn2; auto.
  - rewrite Lg. exact Hm.
  - rewrite setn_comm by auto. exact Hd.
Qed.

(* ------------------------------------------------------------------ concrete cases *)
(** Samples at the times 0, 1, .., n-1. *)
Definition clock (n : nat) : list R := map INR (seq 0 n).
Lemma length_clock n : length (clock n) = n.
Proof. unfold clock. rewrite map_length, seq_length. reflexivity. Qed.
Lemma clock_inc n : increasing (clock n).
Proof.
  intros i j x y Hij Hx Hy. unfold clock in *. rewrite nth_error_map in *.
  destruct (nth_error (seq 0 n) i) as [a|] eqn:Ea; [|discriminate]. destruct (nth_error (seq 0 n) j) as [b|] eqn:Eb; [|discriminate].
  injection Hx as <-. injection Hy as <-. apply lt_INR.
  assert (La : (i < n)%nat) by (rewrite <- (seq_length n 0); apply nth_error_Some; congruence).
  assert (Lb : (j < n)%nat) by (rewrite <- (seq_length n 0); apply nth_error_Some; congruence).
  apply nth_error_nth with (d := O) in Ea. apply nth_error_nth with (d := O) in Eb. rewrite seq_nth in Ea, Eb by assumption. lia.
Qed.
Lemma nth_clock n m : (m < n)%nat -> nth m (clock n) 0 = INR m.
Proof. intros H. unfold clock. change 0 with (INR 0). rewrite map_nth, seq_nth by exact H. reflexivity. Qed.
(** 30 positions on a line, the time on the second axis of a (3, 30) array. *)
Example C78_example : increasing (clock 30) /\ (24 < List.length (clock 30))%nat /\
  shp (Nd [3;30]%nat (fun ix => 1 + 2 * INR (nth 1 ix O))) = put 1 (List.length (clock 30)) [3%nat] /\
  time_is (Some (-1)%Z) 1 2 /\ axis_not (Some (-2)%Z) 1 2 /\
  (forall c m, valid [3%nat] c -> (m < List.length (clock 30))%nat ->
     dat (Nd [3;30]%nat (fun ix => 1 + 2 * INR (nth 1 ix O))) (put 1 m c) = (fun _ => 1) c + (fun _ => 2) c * nth m (clock 30) 0).
Proof.
  split; [apply clock_inc|]. rewrite length_clock. split; [lia|]. split; [reflexivity|]. split; [right; reflexivity|].
  split; [exists 0%nat; split; [lia|]; split; [right; reflexivity|lia]|].
  intros c m Hc Hm. rewrite nth_clock by exact Hm. apply valid_length in Hc. destruct c as [|x [|? ?]]; try discriminate. reflexivity.
Qed.
(** A jump at the beginning of 26 samples: the first sample is lost in the suppression, and with
    a cutoff nothing is left. *)
Definition jumped : list vec3 := V3 5 0 0 :: repeat v0 25.
Example C78_outlier_example : exists g f, estimate_linear_outlier 1 (samples jumped) None (clock 26) None = Ok g /\
  estimate_linear_full (Some 1) (Some (1/2)) (samples jumped) None (clock 26) None = Ok f /\ shp g = [26; 3]%nat /\
  dat g [0; 0]%nat = None /\ forall m c, (m < 26)%nat -> (c < 3)%nat -> dat f [m; c] = None.
Proof.
  destruct (C33_succeeds 1 jumped (clock 26)) as (lin & out & El & Eo & Lo); [lra|apply clock_inc|reflexivity|cbn; lia|].
  assert (N0 : nth_error out 0 = Some None).
  { apply (C33_leading_lost 1 jumped (clock 26) lin out 0 (clock_inc _) El Eo); [cbn; lia|]. intros m Hm (_ & Hf). assert (m = 0%nat) by lia. subst m.
    unfold flag_of in Hf. change (exists_second jumped 0) with true in Hf. cbv iota in Hf. unfold second_difference in Hf. cbn [nth jumped repeat] in Hf.
    replace (vsub (vsub v0 v0) (vsub v0 (V3 5 0 0))) with (V3 5 0 0) in Hf by (cbv [vsub v0 vx vy vz]; f_equal; lra).
    assert (N5 : vnorm (V3 5 0 0) = 5).
    { cbv [vnorm vnorm2 vdot vx vy vz]. match goal with |- sqrt ?x = _ => replace x with (5 * 5) by lra end. apply sqrt_square. lra. }
    rewrite N5 in Hf. lra. }
  destruct Eo as (g & Eg & Sg & Dg). rewrite Lo in *. change (length jumped) with 26%nat in *.
  assert (D0 : forall c, (c < 3)%nat -> dat g [0%nat; c] = None) by (intros c Hc; rewrite Dg by lia; apply nth_error_nth with (d := None) in N0; rewrite N0; reflexivity).
  destruct (low_pass_filtered (1/2) 0 g) as (f & Ef & Ff); [lra|lra|unfold ndim; rewrite Sg; cbn; lia|rewrite Sg; cbn; lia|].
  assert (EF : estimate_linear_full (Some 1) (Some (1/2)) (samples jumped) None (clock 26) None = Ok f).
  { unfold estimate_linear_full. rewrite Eg. cbn [bind]. exact Ef. }
  exists g, f. split; [exact Eg|]. split; [exact EF|]. split; [exact Sg|]. split; [apply D0; lia|].
  intros m c Hm Hc. apply (C78_outlier_refuted 1 (1/2) (samples jumped) g f None (clock 26) None 0%nat 0%nat [m; c] Eg EF).
  - reflexivity.
  - cbn. lia.
  - unfold ndim. rewrite Sg. reflexivity.
  - rewrite Sg. cbn. lia.
  - rewrite Sg. constructor; [exact Hm|constructor; [exact Hc|constructor]].
  - cbn. apply D0, Hc.
Qed.
(** 30 equal orientations, the fourth of which is missing. *)
Definition missing : nd (option R) :=
  Nd [30;4]%nat (fun ix => if Nat.eqb (nth 0 ix O) 3 then None else Some (comp4 (nth 1 ix O) (Qt 1 0 0 0))).
Definition no_change (s t : list R) : res (list R) := Ok (map (fun _ => 0) t).
Example C78_nan_example : exists g f, estimate_angular no_change missing (clock 30) (-1) 0 = Ok g /\
  estimate_angular_cutoff no_change (Some (1/2)) missing (clock 30) (-1) 0 = Ok f /\
  dat g [5;0]%nat <> None /\ dat g [3;0]%nat = None /\ dat f [5;0]%nat = None.
Proof.
  assert (HN : forall m, nan_at missing 0 m <-> m = 3%nat).
  { intros m. split.
    - intros (ix & _ & E & D). cbn in D. rewrite E in D. destruct (Nat.eqb_spec m 3); [assumption|discriminate].
    - intros ->. exists [3;0]%nat. split; [repeat constructor; lia|]. split; reflexivity. }
  assert (Lc : length (clock 30) = 30%nat) by apply length_clock. generalize dependent (clock 30). intros ts Lc.
  assert (N1 : (1 < ndim missing)%nat) by (cbn; lia). assert (N2 : (0 < ndim missing)%nat) by (cbn; lia).
  assert (A1 : axis_is (-1) 1 (ndim missing)) by (right; reflexivity). assert (A2 : axis_is 0 0 (ndim missing)) by (left; reflexivity).
  destruct (C34_body_rate no_change missing ts (-1) 0 1 0 (fun _ _ => Qt 1 0 0 0) (fun _ _ => Qt 0 0 0 0)) as (g & Eg & Sg & Dg).
  - exact N1.
  - exact N2.
  - discriminate.
  - exact A1.
  - exact A2.
  - reflexivity.
  - rewrite Lc. reflexivity.
  - intros c t. cbv [hunit hn2 sc ve vdot vx vy vz qw qx qy qz qvec]; lra.
  - intros c t. repeat apply conj; cbn; apply derivable_pt_lim_const.
  - intros ix Hix H. cbn [missing dat]. destruct (Nat.eqb_spec (nth 0 ix O) 3) as [E|E]; [exfalso; apply H; apply HN; exact E|reflexivity].
  - intros G c j _ _ Hj. unfold exact_on, no_change. rewrite map_map. f_equal. apply map_ext. intros m. destruct j as [|[|[|[|j]]]]; try reflexivity; lia.
  - cbn [missing shp setn] in Sg.
    assert (Ng : ndim g = ndim missing) by (unfold ndim; rewrite Sg; reflexivity).
    destruct (angular_filtered no_change (1/2) missing g ts (-1) 0 1 0) as (f & Ef & Ff); try lra; auto.
    { rewrite Sg. cbn. lia. }
    exists g, f. split; [exact Eg|]. split; [exact Ef|].
    assert (V : forall m, (m < 30)%nat -> valid (shp missing) [m; 0%nat]) by (intros m Hm; constructor; [exact Hm|constructor; [cbn; lia|constructor]]).
    destruct (Dg [5;0]%nat) as (_ & D5); [apply V; lia|]. destruct (D5 ltac:(intros H; apply HN in H; discriminate H)) as (w & D5' & _). specialize (D5' 0%nat ltac:(lia)). cbn [setn] in D5'.
    destruct (Dg [3;0]%nat) as (D3 & _); [apply V; lia|]. specialize (D3 ltac:(apply HN; reflexivity) 0%nat ltac:(lia)). cbn [setn] in D3.
    split; [rewrite D5'; discriminate|]. split; [exact D3|].
    apply (C78_nan_refuted no_change (1/2) missing g f ts (-1) 0 1 0 3 [5;0]%nat 0%nat); auto; try (apply V; lia); cbn; lia.
Qed.
