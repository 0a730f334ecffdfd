(** Property C83: the options cutoff, outlier_thresh and mode of the velocity lookups. *)
From Coq Require Import Reals List Arith Bool ZArith Lia Lra String.
From Verif Require Import SpecMotion.
From Verif Require Import Base Quat SpecQuat QuatProofs NdArray Frames SpecForest FrameProofs WalkProofs
  Matcher SpecLookup LookupProofs RegistryProofs MovingProofs TimeProofs CtorProofs InverseProofs RouteProofs
  Examples PropForest PropLookup PropMoving
  Transform SpecArray NdProofs RotProofs ArrProofs ArrTransProofs ArrStaticProofs PropTransform Velocity VelProofs VelFrames VelFrameProofs
  PropRotate PropAngular PropVelocity PropVelFrames RotVec PropRotVec PropRotOut Filter PropFilter NanArr PropNan LookVelOpts PropLookVel
  VelExamples Squad PropSquad EstimProofs.
Import ListNotations.
Open Scope R_scope.

(* ------------------------------------------------------------------ specification *)
(** The looked-up translations and rotations as arrays of floats, one row per sample. *)
Definition translations (rows : list (vec3 * quat)) : nd R :=
  Nd [List.length rows; 3%nat] (fun ix => comp3 (nth 1 ix O) (fst (nth (hd O ix) rows (v0, q1)))).
Definition rotations (rows : list (vec3 * quat)) : nd R :=
  as_float (Nd [List.length rows] (fun ix => snd (nth (hd O ix) rows (v0, q1)))).
(** Sample n of out is sample m of est, in other axes: NaN if that one or its
    predecessor has a NaN (for the first sample, if it or the second has). *)
Definition turned (est out : nd (option R)) (n m : nat) (move : vec3 -> vec3) : Prop :=
  (missing est [m] \/ missing est [neighbour m] -> lost out [n]) /\
  (forall v, holds est [m] v -> ~ missing est [neighbour m] -> holds out [n] (move v)).

(* ------------------------------------------------------------------ shapes *)
Lemma low_pass_shape cutoff tau a f : low_pass cutoff tau a = Ok f -> shp f = shp a.
Proof.
  destruct cutoff as [wn|]; cbn [low_pass]; [|intros H; injection H as <-; reflexivity]. intros H.
  apply bind_ok in H as (ba & _ & H). apply bind_ok in H as ([] & _ & H). apply bind_ok in H as (x & _ & H). injection H as <-. reflexivity.
Qed.
Lemma linear_shape thresh cutoff (a : nd R) ts est : estimate_linear_full thresh cutoff a None ts None = Ok est -> shp est = shp a.
Proof.
  unfold estimate_linear_full. intros H. apply bind_ok in H as (g & Hg & H). apply bind_ok in H as (tau & _ & H). rewrite (low_pass_shape _ _ _ _ H).
  destruct thresh as [th|].
  - unfold estimate_linear_outlier in Hg. destruct (Nat.eqb (ndim a) 0); [discriminate|]. destruct (Z.eqb _ _); [discriminate|].
    apply bind_ok in Hg as (tau' & _ & Hg). apply bind_ok in Hg as (g' & _ & Hg). destruct (ndim a) as [|[|[|n]]]; try discriminate Hg.
    destruct tau'; [|discriminate Hg]. apply bind_ok in Hg as (o & _ & Hg). injection Hg as <-. reflexivity.
  - apply bind_ok in Hg as (g' & Hg' & Hg). injection Hg as <-. cbn [numbers shp]. unfold estimate_linear_velocity in Hg'.
    destruct (Nat.eqb (ndim a) 0); [discriminate|]. destruct (Z.eqb _ _); [discriminate|]. apply bind_ok in Hg' as (tau' & _ & Hg').
    unfold gradient_nd in Hg'. apply bind_ok in Hg' as (u & _ & Hg'). injection Hg' as <-. reflexivity.
Qed.
Lemma suppress_length thresh fl ts lin out : suppress thresh fl ts lin = Ok out -> List.length out = List.length ts.
Proof.
  unfold suppress. intros H. repeat match goal with H : (if ?b then _ else _) = _ |- _ => destruct b; try discriminate H end.
  destruct (keep thresh fl ts) as [|x l] eqn:E; try discriminate H. destruct l; injection H as <-; rewrite ?map_length; reflexivity.
Qed.
Lemma swap11 {A} (a : nd A) : shp (swap_nd 1 1 a) = shp a.
Proof. cbn [swap_nd shp]. apply swapl_same. Qed.
Lemma angular_shape deriv mode thresh cutoff (a : nd R) ts est : shp a = [List.length ts; 4%nat] ->
  estimate_angular_full deriv mode thresh cutoff a ts (-1) 0 = Ok est -> shp est = [List.length ts; 3%nat].
Proof.
  intros Sa H. unfold estimate_angular_full in H. apply bind_ok in H as (g & Hg & H).
  assert (N : ndim a = 2%nat) by (unfold ndim; rewrite Sa; reflexivity). rewrite N in H. cbv zeta in H.
  change (Z.to_nat (-1 mod Z.of_nat 2)) with 1%nat in H. apply bind_ok in H as (f & Hf & H). injection H as <-.
  rewrite swap11, (low_pass_shape _ _ _ _ Hf), swap11.
  destruct thresh as [th|].
  - unfold estimate_angular_outlier in Hg. apply bind_ok in Hg as (g' & _ & Hg). rewrite N in Hg. cbv zeta in Hg.
    change (Z.to_nat (-1 mod 2)) with 1%nat in Hg. apply bind_ok in Hg as (rows & _ & Hg). apply bind_ok in Hg as (out & Ho & Hg). injection Hg as <-.
    rewrite swap11. cbn [shp]. rewrite (suppress_length _ _ _ _ _ Ho). reflexivity.
  - apply bind_ok in Hg as (g' & Hg' & Hg). injection Hg as <-. cbn [numbers shp].
    assert (Hk : axis_is (-1) 1 (ndim a)) by (rewrite N; right; reflexivity).
    rewrite (mode_shape deriv mode a ts (-1) 0 1 g' ltac:(lia) Hk Hg'), Sa. reflexivity.
Qed.

(* ------------------------------------------------------------------ proofs *)
Lemma turned_image est out n m move : image_nan est out 0 n m [] move <-> turned est out n m move.
Proof. unfold image_nan, turned. cbn [put]. tauto. Qed.

Section World.
  Variable squad : list R -> list quat -> R -> res quat.
  Variable s : state.
  Hypothesis HR : reachable s.
  Hypothesis Htot : squad_total squad.
  Hypothesis Hun : squad_unit squad.

  Lemma vectors_rows_nan i to j (a : nd (option R)) ts : frame s i -> denotes s to j -> good_way s i j ->
    two_up ts -> shp a = [List.length ts; 3%nat] ->
    exists out l, transform_vectors_nan squad s i a to (Some 0%Z) (Some (stamps_nd ts)) = Ok (out, Some l) /\
      shp out = [List.length l; 3%nat] /\ in_range_way s i j ts l /\
      forall k x, nth_error l k = Some x -> exists m t r, nth_error ts m = Some x /\ maps_at squad s x i j t r /\
        turned a out k m (srot r).
  Proof.
    intros Hi Hj Hg H2 Hs. pose proof (stamps_stamped (Nd (shp a) (fun _ => 0)) ts H2 Hs) as Hst.
    destruct (C82_succeed squad s i to j a 0 (stamps_nd ts) 0 (List.length ts) [] HR Htot Hun Hi Hj Hg Hst) as ((out & l & E) & _).
    destruct (C82_vectors squad s i to j a 0 (stamps_nd ts) 0 (List.length ts) [] out (Some l) HR Hun Hi Hj (good_unit _ _ _ Hg) Hst E)
      as (l' & El & (f & Hf) & (rt & Hrt & Hin) & So & Ho).
    injection El as <-. exists out, l. split; [exact E|]. split; [exact So|].
    change (map (fun m => dat (stamps_nd ts) [m]) (seq 0 (List.length ts))) with (times (stamps_nd ts) (List.length ts)) in Hf.
    rewrite stamps_times in Hf. split.
    - split; [eauto|]. exists rt. split; auto. intros x. split.
      + intros Hx. assert (Hx' : In x ts) by (rewrite Hf in Hx; apply filter_In in Hx; tauto). split; auto.
        apply In_nth_error in Hx' as (m & Hm). pose proof (nth_lt _ _ _ Hm) as Lm. apply (nth_error_nth _ _ 0) in Hm.
        specialize (Hin m Lm). rewrite stamps_at, Hm in Hin. apply Hin, Hx.
      + intros (Hx' & Hx). apply In_nth_error in Hx' as (m & Hm). pose proof (nth_lt _ _ _ Hm) as Lm. apply (nth_error_nth _ _ 0) in Hm.
        specialize (Hin m Lm). rewrite stamps_at, Hm in Hin. apply Hin, Hx.
    - intros k x Hk. destruct (Ho k x Hk) as (m & t & r & Lm & Ex & Hmap & Him). exists m, t, r.
      rewrite stamps_at in Ex. split; [rewrite (nth_error_nth' _ 0) by auto; congruence|]. split; auto.
      apply turned_image. apply (Him []). constructor.
  Qed.
  Lemma in_range_kept i j ts l : in_range_way s i j ts l -> kept_samples s i j ts [] l.
  Proof.
    intros H. apply (keep_both s i j ts l l []); auto.
    - exists (fun _ => true). clear. induction l; cbn; congruence.
    - intros x. split; [intros Hx; split; auto; intros p' t' []|tauto].
  Qed.
End World.

Lemma lookup_way squad s i ref j ts rows : reachable s -> squad_unit squad -> frame s i -> denotes s ref j -> good_way s i j ->
  lookup_transform squad s i ref = Ok (TrRows ts rows) ->
  lookup_transform squad s i (PFrame j) = Ok (TrRows ts rows) /\ increasing ts /\ List.length rows = List.length ts /\
  tr_t (TrRows ts rows) = translations rows /\ as_float (tr_r (TrRows ts rows)) = rotations rows.
Proof.
  intros HR Hun Hi Hj Gj Hl. pose proof (denotes_frame s _ _ HR Hj) as Fj.
  assert (Hl' : lookup_transform squad s i (PFrame j) = Ok (TrRows ts rows)).
  { rewrite <- Hl. unfold lookup_transform. rewrite (denotes_resolve s ref j Hj), (denotes_resolve s (PFrame j) j (or_introl (conj eq_refl Fj))). reflexivity. }
  pose proof (lookup_kinds squad s HR Hun i j _ Hi Fj Gj Hl') as K. cbn [tr_ts] in K. destruct K as (Hinc & rows' & Er & Lr & _).
  injection Er as <-. split; auto. split; auto. split; auto. unfold translations, rotations. rewrite Lr. split; reflexivity.
Qed.

(** lookup_linear_velocity with outlier_thresh and cutoff: what estimate_linear_velocity
    gives with these options for the looked-up translations, in the axes of the
    representation frame, at every sample in range of the moving frames on the way from
    the reference frame; if the estimator refuses, so does the lookup. *)
Theorem C83_linear : forall squad s i ref rep j k ts rows thresh cutoff allow,
  reachable s -> squad_total squad -> squad_unit squad -> frame s i -> denotes s ref j -> denotes s rep k ->
  ref <> PName String.EmptyString -> rep <> PName String.EmptyString -> good_way s i j -> good_way s j k ->
  lookup_transform squad s i ref = Ok (TrRows ts rows) -> (2 <= List.length ts)%nat ->
  (forall e, estimate_linear_full thresh cutoff (translations rows) None ts None = Raise e ->
     lookup_linear_opts squad thresh cutoff s i (Some ref) (Some rep) allow true = Raise e) /\
  (forall est, estimate_linear_full thresh cutoff (translations rows) None ts None = Ok est ->
     exists w l, lookup_linear_opts squad thresh cutoff s i (Some ref) (Some rep) allow true = Ok (w, Some (Some l)) /\
       shp w = [List.length l; 3%nat] /\ kept_samples s j k ts [] l /\
       forall n x, nth_error l n = Some x -> exists m t r, nth_error ts m = Some x /\ maps_at squad s x j k t r /\
         turned est w n m (srot r)).
Proof.
  intros squad s i ref rep j k ts rows thresh cutoff allow HR Htot Hun Hi Hj Hk Nj Nk Gj Gk Hl Hn.
  pose proof (denotes_frame s _ _ HR Hj) as Fj. pose proof (denotes_frame s _ _ HR Hk) as Fk.
  destruct (lookup_way squad s i ref j ts rows HR Hun Hi Hj Gj Hl) as (Hl' & Hinc & Lr & Et & _).
  split; intros est Hest.
  - unfold lookup_linear_opts. rewrite (resolve_ref_some s i ref j Hj Nj), (resolve_ref_some s i rep k Hk Nk). cbn [bind]. rewrite Hl'. cbn [bind tr_ts].
    rewrite Et, Hest. reflexivity.
  - assert (Se : shp est = [List.length ts; 3%nat]) by (rewrite (linear_shape _ _ _ _ _ Hest); cbn; rewrite Lr; reflexivity).
    destruct (vectors_rows_nan squad s HR Htot Hun j (PFrame k) k est ts Fj (or_introl (conj eq_refl Fk)) Gk (conj Hinc Hn) Se) as (w & l & Ev & Sw & Hr & Hw).
    exists w, l. split.
    { unfold lookup_linear_opts. rewrite (resolve_ref_some s i ref j Hj Nj), (resolve_ref_some s i rep k Hk Nk). cbn [bind]. rewrite Hl'. cbn [bind tr_ts].
      rewrite Et, Hest. cbn [bind]. rewrite Ev. reflexivity. }
    split; auto. split; [apply in_range_kept; auto|exact Hw].
Qed.
(** lookup_angular_velocity with mode, outlier_thresh and cutoff, likewise; the estimate is
    in the axes of the moving frame. *)
Theorem C83_angular : forall squad deriv s i ref rep j k ts rows mode thresh cutoff allow,
  reachable s -> squad_total squad -> squad_unit squad -> frame s i -> denotes s ref j -> denotes s rep k ->
  ref <> PName String.EmptyString -> rep <> PName String.EmptyString -> good_way s i j -> good_way s i k ->
  lookup_transform squad s i ref = Ok (TrRows ts rows) -> (2 <= List.length ts)%nat ->
  (forall e, estimate_angular_full deriv mode thresh cutoff (rotations rows) ts (-1) 0 = Raise e ->
     lookup_angular_opts squad deriv mode thresh cutoff s i (Some ref) (Some rep) allow true = Raise e) /\
  (forall est, estimate_angular_full deriv mode thresh cutoff (rotations rows) ts (-1) 0 = Ok est ->
     exists w l, lookup_angular_opts squad deriv mode thresh cutoff s i (Some ref) (Some rep) allow true = Ok (w, Some (Some l)) /\
       shp w = [List.length l; 3%nat] /\ kept_samples s i k ts [] l /\
       forall n x, nth_error l n = Some x -> exists m t r, nth_error ts m = Some x /\ maps_at squad s x i k t r /\
         turned est w n m (srot r)).
Proof.
  intros squad deriv s i ref rep j k ts rows mode thresh cutoff allow HR Htot Hun Hi Hj Hk Nj Nk Gj Gk Hl Hn.
  pose proof (denotes_frame s _ _ HR Hj) as Fj. pose proof (denotes_frame s _ _ HR Hk) as Fk.
  destruct (lookup_way squad s i ref j ts rows HR Hun Hi Hj Gj Hl) as (Hl' & Hinc & Lr & _ & Er).
  split; intros est Hest.
  - unfold lookup_angular_opts. rewrite (resolve_ref_some s i ref j Hj Nj), (resolve_ref_some s i rep k Hk Nk). cbn [bind]. rewrite Hl'. cbn [bind tr_ts].
    rewrite Er, Hest. reflexivity.
  - assert (Se : shp est = [List.length ts; 3%nat]) by (apply (angular_shape deriv mode thresh cutoff (rotations rows)); auto; cbn; rewrite Lr; reflexivity).
    destruct (vectors_rows_nan squad s HR Htot Hun i (PFrame k) k est ts Hi (or_introl (conj eq_refl Fk)) Gk (conj Hinc Hn) Se) as (w & l & Ev & Sw & Hr & Hw).
    exists w, l. split.
    { unfold lookup_angular_opts. rewrite (resolve_ref_some s i ref j Hj Nj), (resolve_ref_some s i rep k Hk Nk). cbn [bind]. rewrite Hl'. cbn [bind tr_ts].
      rewrite Er, Hest. cbn [bind]. rewrite Ev. reflexivity. }
    split; auto. split; [apply in_range_kept; auto|exact Hw].
Qed.

(* ------------------------------------------------------------------ twist *)
Lemma last_mem {A} (l : list A) b : nth_error l (List.length l - 1) = Some b -> In b l.
Proof. apply nth_error_In. Qed.
Lemma resample_mask_rows (a : nd (option R)) ts l : two_up ts -> shp a = [List.length ts; 3%nat] -> (forall x, In x l -> In x ts) ->
  exists m, resample_mask (nans a) (Some ts) (Some l) = Ok m /\
    forall k x j c, nth_error l k = Some x -> nth_error ts j = Some x ->
      dat m [k; c] = is_nan (dat a [neighbour j; c]) || is_nan (dat a [j; c]).
Proof.
  intros (Hi & H2) Hs Hin. cbn [resample_mask].
  destruct (interp_mask_samples ts (nans a) l (List.length ts) [3%nat] Hi H2 Hs eq_refl Hin) as (b & Eb & _ & Db).
  exists b. split; auto. intros k x j c Hk Hj. rewrite (Db k x j Hk Hj [c]). reflexivity.
Qed.
(** The resampled array, coordinate by coordinate. *)
Lemma rematched (a : nd (option R)) ts l b m n x j : increasing ts -> value_at (blank a) (Some ts) x (vec_at b [n]) -> nth_error l n = Some x -> nth_error ts j = Some x ->
  (forall c, dat m [n; c] = is_nan (dat a [neighbour j; c]) || is_nan (dat a [j; c])) ->
  (forall v, holds a [j] v -> ~ missing a [neighbour j] -> holds (with_nans b m) [n] v) /\
  forall c, (c < 3)%nat -> (dat a [j; c] = None \/ dat a [neighbour j; c] = None -> dat (with_nans b m) [n; c] = None).
Proof.
  intros Hi Hv Hn Hj Hm. pose proof (value_at_sample _ _ _ _ _ Hi Hj Hv) as E. split.
  - intros v Hh Hnm. rewrite (holds_vec _ _ _ Hh) in E. destruct Hh as (H0 & H1 & H2). cbn [app] in *.
    assert (Q : forall c, (c < 3)%nat -> is_nan (dat a [neighbour j; c]) = false).
    { intros c Hc. destruct (dat a [neighbour j; c]) eqn:G; [reflexivity|]. exfalso. apply Hnm. exists c. auto. }
    unfold holds. cbn [with_nans dat app]. rewrite !Hm, !Q, H0, H1, H2 by lia. cbn [is_nan orb]. rewrite <- E. cbn. auto.
  - intros c Hc [G|G]; cbn [with_nans dat]; rewrite Hm, G; cbn [is_nan orb]; rewrite ?orb_true_r; reflexivity.
Qed.
(** Arrays in which a sample with a NaN has nothing but NaN, as returned by the
    transforms. *)
Definition all_or_none (a : nd (option R)) (n : nat) : Prop := forall m, (m < n)%nat -> missing a [m] -> lost a [m].
Lemma match_nan_two squad (wa wl : nd (option R)) la ll : two_up la -> two_up ll ->
  shp wa = [List.length la; 3%nat] -> shp wl = [List.length ll; 3%nat] ->
  (forall x, In x la -> in_bounds ll x = true -> In x ll) -> all_or_none wa (List.length la) -> all_or_none wl (List.length ll) ->
  exists A L l, match_nan squad [(wa, Some la); (wl, Some ll)] = Ok ([A; L], Some l) /\
    shp A = [List.length l; 3%nat] /\ shp L = [List.length l; 3%nat] /\ (exists f, l = filter f la) /\
    (forall x, In x l <-> In x la /\ In x ll) /\
    forall n x, nth_error l n = Some x -> exists ml ma, nth_error ll ml = Some x /\ nth_error la ma = Some x /\
      turned wl L n ml (fun v => v) /\ turned wa A n ma (fun v => v).
Proof.
  intros Ha Hl Sa Sl Hconv Na Nl.
  assert (HF : Forall proper ((blank wa, Some la) :: [(blank wl, Some ll)])) by (constructor; [split; auto|constructor; [split; auto|constructor]]).
  destruct (match_proper squad (blank wa) la [(blank wl, Some ll)] HF) as (bs & l & Em & Hf & Hin & Lb & Hb).
  destruct bs as [|ba [|bl [|? ?]]]; cbn in Lb; try lia.
  destruct (Hb 0%nat _ _ eq_refl eq_refl) as (S1 & V1). destruct (Hb 1%nat _ _ eq_refl eq_refl) as (S2 & V2). cbn [fst snd] in V1, V2.
  assert (Ia : forall x, In x l -> In x la) by (intros x Hx; apply Hin in Hx; tauto).
  assert (Il : forall x, In x l -> In x ll).
  { intros x Hx. apply Hconv; auto. apply Hin in Hx as (_ & Hx). apply (Hx (blank wl, Some ll)); [left|]; reflexivity. }
  destruct (resample_mask_rows wa la l Ha Sa Ia) as (ma & Ema & Dma). destruct (resample_mask_rows wl ll l Hl Sl Il) as (ml & Eml & Dml).
  exists (with_nans ba ma), (with_nans bl ml), l. split.
  { unfold match_nan. cbn [map fst snd]. rewrite Em. cbn [bind]. unfold traverse. cbn [map sequence]. cbn [fst snd]. rewrite Ema, Eml. reflexivity. }
  split; [exact S1|]. split; [exact S2|]. split; [exact Hf|]. split.
  { intros x. split; [auto|]. intros (A & B). apply Hin. split; auto. intros p t' [<-|[]] E. cbn in E. injection E as <-.
    destruct Hl as (Hi & _). apply In_nth_error in B as (q & Hq). apply (inc_in_bounds ll q x x q x); auto; lra. }
  intros n x Hx. pose proof (nth_error_In _ _ Hx) as Hix. pose proof (Ia x Hix) as Qa. pose proof (Il x Hix) as Ql.
  apply In_nth_error in Qa as (ja & Hja). apply In_nth_error in Ql as (jl & Hjl). exists jl, ja. split; auto. split; auto.
  assert (G : forall (w : nd (option R)) ts b m j, two_up ts -> shp w = [List.length ts; 3%nat] -> all_or_none w (List.length ts) -> nth_error ts j = Some x ->
    value_at (blank w) (Some ts) x (vec_at b [n]) -> (forall c, dat m [n; c] = is_nan (dat w [neighbour j; c]) || is_nan (dat w [j; c])) ->
    turned w (with_nans b m) n j (fun v => v)).
  { intros w ts b m j (Hi & H2) Sw Nw Hj Hv Hm. destruct (rematched w ts l b m n x j Hi Hv Hx Hj Hm) as (R1 & R2). split; [|exact R1].
    intros Hmi c Hc. apply R2; auto. pose proof (nth_lt _ _ _ Hj) as Lj. destruct Hmi as [Hmi|Hmi].
    - left. apply (Nw j); auto.
    - right. apply (Nw (neighbour j)); auto. destruct j; cbn [neighbour]; lia. }
  split.
  - apply (G wl ll bl ml jl); auto. intros c. apply (Dml n x jl c Hx Hjl).
  - apply (G wa la ba ma ja); auto. intros c. apply (Dma n x ja c Hx Hja).
Qed.
Lemma turned_all est out n m move : turned est out n m move -> missing out [n] -> lost out [n].
Proof.
  intros (H1 & H2) (c & Hc & E). destruct (some_missing est [m]) as [Hm|(v & Hv)]; [apply H1; auto|].
  destruct (some_missing est [neighbour m]) as [Hm|(u & Hu)]; [apply H1; auto|].
  exfalso. assert (Hn : ~ missing est [neighbour m]).
  { intros (d & Hd & Ed). destruct Hu as (U0 & U1 & U2). destruct d as [|[|[|d]]]; [congruence..|lia]. }
  destruct (H2 v Hv Hn) as (V0 & V1 & V2). destruct c as [|[|[|c]]]; [congruence..|lia].
Qed.

(** lookup_twist with options: the linear velocity as from lookup_linear_velocity with the
    same outlier_thresh and cutoff, the angular velocity as from lookup_angular_velocity
    with the same mode and cutoff but without outlier_thresh, on their common timestamps.
    Matching the two resamples them again: the sample after a lost one is lost, too. *)
Theorem C83_twist : forall squad deriv s i ref rep j k ts rows mode thresh cutoff allow el ea,
  reachable s -> squad_total squad -> squad_unit squad -> frame s i -> denotes s ref j -> denotes s rep k ->
  ref <> PName String.EmptyString -> rep <> PName String.EmptyString -> good_way s i j -> good_way s i k -> good_way s j k ->
  lookup_transform squad s i ref = Ok (TrRows ts rows) -> (2 <= List.length ts)%nat -> two_in_range s i k ts -> two_in_range s j k ts ->
  estimate_linear_full thresh cutoff (translations rows) None ts None = Ok el ->
  estimate_angular_full deriv mode None cutoff (rotations rows) ts (-1) 0 = Ok ea ->
  exists wl ll wa la lin ang l,
    lookup_linear_opts squad thresh cutoff s i (Some ref) (Some rep) allow true = Ok (wl, Some (Some ll)) /\
    lookup_angular_opts squad deriv mode None cutoff s i (Some ref) (Some rep) allow true = Ok (wa, Some (Some la)) /\
    lookup_twist_opts squad deriv mode thresh cutoff s i (Some ref) (Some rep) allow true = Ok (lin, ang, Some (Some l)) /\
    shp lin = [List.length l; 3%nat] /\ shp ang = [List.length l; 3%nat] /\
    (exists f, l = filter f la) /\ (forall x, In x l <-> In x la /\ In x ll) /\
    forall n x, nth_error l n = Some x -> exists ml ma, nth_error ll ml = Some x /\ nth_error la ma = Some x /\
      turned wl lin n ml (fun v => v) /\ turned wa ang n ma (fun v => v).
Proof.
  intros squad deriv s i ref rep j k ts rows mode thresh cutoff allow el ea HR Htot Hun Hi Hj Hk Nj Nk Gij Gik Gjk Hl Hn T1 T2 Hel Hea.
  pose proof (denotes_frame s _ _ HR Hj) as Fj. pose proof (denotes_frame s _ _ HR Hk) as Fk.
  destruct (lookup_way squad s i ref j ts rows HR Hun Hi Hj Gij Hl) as (Hl' & Hinc & Lr & Et & Er).
  assert (Sl : shp el = [List.length ts; 3%nat]) by (rewrite (linear_shape _ _ _ _ _ Hel); cbn; rewrite Lr; reflexivity).
  assert (Sa : shp ea = [List.length ts; 3%nat]) by (apply (angular_shape deriv mode None cutoff (rotations rows)); auto; cbn; rewrite Lr; reflexivity).
  destruct (vectors_rows_nan squad s HR Htot Hun j (PFrame k) k el ts Fj (or_introl (conj eq_refl Fk)) Gjk (conj Hinc Hn) Sl) as (wl & ll & El & Swl & RL & VL).
  destruct (vectors_rows_nan squad s HR Htot Hun i (PFrame k) k ea ts Hi (or_introl (conj eq_refl Fk)) Gik (conj Hinc Hn) Sa) as (wa & la & Ea & Swa & RA & VA).
  pose proof (two_length _ _ _ _ _ T2 RL) as L2. pose proof (two_length _ _ _ _ _ T1 RA) as A2.
  destruct RL as ((fl & Efl) & r2 & R2 & ML). destruct RA as ((fa & Efa) & r1 & R1 & MA).
  assert (Ul : two_up ll) by (split; [rewrite Efl; apply filter_increasing, Hinc|exact L2]).
  assert (Ua : two_up la) by (split; [rewrite Efa; apply filter_increasing, Hinc|exact A2]).
  assert (Hconv : forall x, In x la -> in_bounds ll x = true -> In x ll).
  { intros x Hx Hb. apply in_bounds_spec in Hb as (a & b & Ha & Hb & Hab). apply ML. split; [apply MA, Hx|]. intros g tg Hg Htg.
    destruct ll as [|a' ll']; [discriminate|]. cbn in Ha. injection Ha as <-.
    destruct (proj1 (ML a') (or_introl eq_refl)) as (_ & A). destruct (proj1 (ML b) (last_mem _ _ Hb)) as (_ & B).
    destruct (A g tg Hg Htg) as (u & v & Eu & Ev & Hu'). destruct (B g tg Hg Htg) as (u' & v' & Eu' & Ev' & Hv').
    exists u, v. split; auto. split; auto. rewrite Eu in Eu'. injection Eu' as <-. rewrite Ev in Ev'. injection Ev' as <-. lra. }
  assert (Na : all_or_none wa (List.length la)).
  { intros m Hm. destruct (nth_len la m Hm) as (x & Hx). destruct (VA m x Hx) as (m' & t & r & _ & _ & HT). apply (turned_all _ _ _ _ _ HT). }
  assert (Nl : all_or_none wl (List.length ll)).
  { intros m Hm. destruct (nth_len ll m Hm) as (x & Hx). destruct (VL m x Hx) as (m' & t & r & _ & _ & HT). apply (turned_all _ _ _ _ _ HT). }
  destruct (match_nan_two squad wa wl la ll Ua Ul Swa Swl Hconv Na Nl) as (ang & lin & l & Em & S1 & S2 & Hf & Hin & Hv).
  exists wl, ll, wa, la, lin, ang, l.
  split. { unfold lookup_linear_opts. rewrite (resolve_ref_some s i ref j Hj Nj), (resolve_ref_some s i rep k Hk Nk). cbn [bind]. rewrite Hl'. cbn [bind tr_ts].
    rewrite Et, Hel. cbn [bind]. rewrite El. reflexivity. }
  split. { unfold lookup_angular_opts. rewrite (resolve_ref_some s i ref j Hj Nj), (resolve_ref_some s i rep k Hk Nk). cbn [bind]. rewrite Hl'. cbn [bind tr_ts].
    rewrite Er, Hea. cbn [bind]. rewrite Ea. reflexivity. }
  split. { unfold lookup_twist_opts. rewrite (resolve_ref_some s i ref j Hj Nj), (resolve_ref_some s i rep k Hk Nk). cbn [bind]. rewrite Hl'. cbn [bind tr_ts].
    rewrite Et, Er, Hel. cbn [bind]. rewrite Hea. cbn [bind]. rewrite El, Ea. cbn [bind]. rewrite Em. reflexivity. }
  auto.
Qed.

(* ------------------------------------------------------------------ consequences *)
Lemma turned_whole est w n m move v : turned est w n m move -> (forall m', missing est [m'] -> False) -> holds est [m] v -> holds w [n] (move v).
Proof. intros (_ & H) Hn Hv. apply H; auto. intros H'. exact (Hn _ H'). Qed.
Lemma low_pass_steady wn (a : nd (option R)) N v : 0 < wn -> wn < 1 -> (24 < N)%nat -> shp a = [N; 3%nat] ->
  (forall m c, (m < N)%nat -> (c < 3)%nat -> dat a [m; c] = Some (comp3 c v)) ->
  exists f, low_pass (Some wn) 0 a = Ok f /\ shp f = [N; 3%nat] /\ forall m, (m < N)%nat -> holds f [m] v.
Proof.
  intros H0 H1 HN Sa Ha. assert (Nd2 : ndim a = 2%nat) by (unfold ndim; rewrite Sa; reflexivity).
  destruct (low_pass_filtered wn 0 a H0 H1 ltac:(lia) ltac:(rewrite Sa; exact HN)) as (f & Ef & Hf). exists f. split; auto.
  split; [destruct Hf as (E & _); congruence|]. intros m Hm.
  assert (G : forall c, (c < 3)%nat -> dat f [m; c] = Some (comp3 c v)).
  { intros c Hc. assert (T0 : (0 < ndim a)%nat) by lia. assert (T1 : (24 < nth 0 (shp a) O)%nat) by (rewrite Sa; exact HN).
    assert (T2 : valid (shp a) [m; c]) by (rewrite Sa; apply Forall2_cons; [exact Hm|apply Forall2_cons; [exact Hc|apply Forall2_nil]]).
    refine (filtered_const wn 0%nat a f [m; c] (comp3 c v) H0 H1 Hf T0 T1 T2 _).
    intros m' Hm'. cbn [setn]. assert (Hm2 : (m' < N)%nat) by (rewrite Sa in Hm'; exact Hm'). apply Ha; auto. }
  split; [|split]; apply G; lia.
Qed.
Lemma linear_rows (o : R -> vec3) ts rows v : increasing ts -> (2 <= List.length ts)%nat -> List.length rows = List.length ts ->
  (exists p, forall m x t r, nth_error ts m = Some x -> nth_error rows m = Some (t, r) -> t = vadd p (vscale x v)) ->
  exists g, estimate_linear_velocity (translations rows) None ts None = Ok g /\ shp g = [List.length ts; 3%nat] /\
    forall m c, (m < List.length ts)%nat -> (c < 3)%nat -> dat g [m; c] = comp3 c v.
Proof.
  intros Hinc Hn Lr (p & Hrow).
  assert (Hq : forall m, (m < List.length ts)%nat -> fst (nth m rows (v0, q1)) = vadd p (vscale (nth m ts 0) v)).
  { intros m Hm. destruct (nth_len rows m ltac:(lia)) as ((t & r) & E). rewrite (nth_error_nth _ _ _ E). cbn [fst].
    apply (Hrow m _ t r); auto. apply nth_error_nth'; auto. }
  unfold estimate_linear_velocity, translations, ndim. cbn [shp List.length Nat.eqb or_default].
  change (Z.eqb _ _) with false. cbn [bind]. change (norm_axis 0 2) with (@Ok nat 0%nat). cbn [bind]. unfold gradient_nd. cbn [shp nth]. rewrite Lr.
  rewrite grad_check_ok by auto. cbn [bind]. eexists. split; [reflexivity|]. split; [reflexivity|].
  intros m c Hm Hc. cbn [dat nth setn hd]. destruct c as [|[|[|c]]]; [| | |lia]; cbn [comp3];
    [apply (grad_line ts _ (vx p) (vx v) m)|apply (grad_line ts _ (vy p) (vy v) m)|apply (grad_line ts _ (vz p) (vz v) m)];
    auto; intros n' Hn'; rewrite (Hq n' Hn'); destruct p, v; cbn; ring.
Qed.

(** A frame moving uniformly in the reference frame: the low-pass filter does not change
    the looked-up velocity, for every cutoff between 0 and 1 and more than 24 samples. *)
Theorem C83_constant_velocity : forall squad s i ref rep j k ts rows wn allow (p v : vec3),
  reachable s -> squad_total squad -> squad_unit squad -> frame s i -> denotes s ref j -> denotes s rep k ->
  ref <> PName String.EmptyString -> rep <> PName String.EmptyString -> good_way s i j -> good_way s j k ->
  lookup_transform squad s i ref = Ok (TrRows ts rows) -> (24 < List.length ts)%nat -> 0 < wn -> wn < 1 ->
  (forall m x t r, nth_error ts m = Some x -> nth_error rows m = Some (t, r) -> t = vadd p (vscale x v)) ->
  exists w l, lookup_linear_opts squad None (Some wn) s i (Some ref) (Some rep) allow true = Ok (w, Some (Some l)) /\
    shp w = [List.length l; 3%nat] /\ kept_samples s j k ts [] l /\
    forall n x, nth_error l n = Some x -> exists t r, maps_at squad s x j k t r /\ holds w [n] (srot r v).
Proof.
  intros squad s i ref rep j k ts rows wn allow p v HR Htot Hun Hi Hj Hk Nj Nk Gj Gk Hl Hn H0 H1 Hrow.
  destruct (lookup_way squad s i ref j ts rows HR Hun Hi Hj Gj Hl) as (_ & Hinc & Lr & _ & _).
  destruct (linear_rows (fun _ => v) ts rows v Hinc ltac:(lia) Lr (ex_intro _ p Hrow)) as (g & Eg & Sg & Dg).
  destruct (low_pass_steady wn (numbers g) (List.length ts) v H0 H1 Hn Sg) as (f & Ef & Sf & Df).
  { intros m c Hm Hc. cbn [numbers dat]. rewrite Dg by auto. reflexivity. }
  assert (Est : estimate_linear_full None (Some wn) (translations rows) None ts None = Ok f).
  { unfold estimate_linear_full. rewrite Eg. cbn [bind]. change (norm_axis (or_default None 0) (ndim (translations rows))) with (@Ok nat 0%nat). cbn [bind]. exact Ef. }
  destruct (proj2 (C83_linear squad s i ref rep j k ts rows None (Some wn) allow HR Htot Hun Hi Hj Hk Nj Nk Gj Gk Hl ltac:(lia)) f Est) as (w & l & Ew & Sw & Kw & Vw).
  exists w, l. split; auto. split; auto. split; auto. intros n x Hx. destruct (Vw n x Hx) as (m & t & r & Hm & Hmap & (_ & HT)). exists t, r. split; auto.
  pose proof (nth_lt _ _ _ Hm) as Lm. apply HT; [apply Df; auto|]. intros (c & Hc & E).
  assert (L' : (neighbour m < List.length ts)%nat) by (destruct m; cbn; lia). destruct (Df _ L') as (D0 & D1 & D2). destruct c as [|[|[|c]]]; [congruence..|lia].
Qed.

Lemma angular_rows deriv ts rows (q dq : R -> quat) : List.length rows = List.length ts ->
  (forall x, hunit (q x)) -> (forall x, qderiv q x (dq x)) ->
  (forall m x t r, nth_error ts m = Some x -> nth_error rows m = Some (t, r) -> r = q x) ->
  (forall c, (c < 4)%nat -> exact_on deriv ts (seq 0 (List.length ts)) (fun x => comp4 c (q x)) (fun x => comp4 c (dq x))) ->
  exists ang, estimate_angular_mode deriv "quaternion" (rotations rows) ts (-1) 0 = Ok ang /\ shp ang = [List.length ts; 3%nat] /\
    forall m, (m < List.length ts)%nat -> body_rate q (nth m ts 0) (vec_at ang [m]).
Proof.
  intros Lr Hu Hd Hrow Hex.
  set (a := Nd (shp (rotations rows)) (fun ix => Some (dat (rotations rows) ix))).
  assert (Sa : shp a = [List.length ts; 4%nat]) by (unfold a; cbn; rewrite Lr; reflexivity).
  assert (Hq : forall m, (m < List.length ts)%nat -> rowq rows m = q (nth m ts 0)).
  { intros m Hm. unfold rowq. destruct (nth_len rows m ltac:(lia)) as ((t & r) & E). rewrite (nth_error_nth _ _ _ E). cbn.
    apply (Hrow m _ t r); auto. apply nth_error_nth'; auto. }
  assert (Nn : forall m, ~ nan_at a 0 m) by (intros m (ix & _ & _ & H); discriminate).
  destruct (C34_body_rate deriv a ts (-1) 0 1 0 (fun _ => q) (fun _ => dq)) as (b & Eb & Sb & Hb).
  - unfold ndim; rewrite Sa; cbn; lia.
  - unfold ndim; rewrite Sa; cbn; lia.
  - lia.
  - right. unfold ndim; rewrite Sa; cbn. lia.
  - left. reflexivity.
  - rewrite Sa. reflexivity.
  - rewrite Sa. reflexivity.
  - auto.
  - auto.
  - intros ix Hix _. rewrite Sa in Hix. inversion Hix as [|i0 n0 ix0 s0 H0 Hix0]; subst. inversion Hix0 as [|i1 n1 ix1 s1 H1 Hix1]; subst.
    inversion Hix1; subst. cbn. f_equal. rewrite <- Hq by auto. reflexivity.
  - intros G c jj HS HG Hjj. rewrite (sorted_seq G (List.length ts)); auto. intros m. rewrite HG. pose proof (Nn m). tauto.
  - assert (Hnn : exists ang, no_nan b = Ok ang /\ shp ang = [List.length ts; 3%nat] /\
      forall m, (m < List.length ts)%nat -> body_rate q (nth m ts 0) (vec_at ang [m])).
    { rewrite Sa in Sb. unfold no_nan. destruct (existsb _ _) eqn:E.
      - exfalso. apply existsb_exists in E as (ix & Hix & E). apply in_indices in Hix. rewrite Sb in Hix. cbn in Hix.
        inversion Hix as [|i0 n0 ix0 s0 H0 Hix0]; subst. inversion Hix0 as [|i1 n1 ix1 s1 H1 Hix1]; subst. inversion Hix1; subst.
        destruct (Hb [i0; 0%nat]) as (_ & Hg). { rewrite Sa. repeat constructor; auto; lia. }
        destruct Hg as (w & Hw & _); [apply Nn|]. specialize (Hw i1 H1). cbn in Hw. rewrite Hw in E. discriminate.
      - eexists. split; [reflexivity|]. split; [cbn [shp]; rewrite Sb; reflexivity|]. intros m Hm.
        destruct (Hb [m; 0%nat]) as (_ & Hg). { rewrite Sa. repeat constructor; auto; lia. }
        destruct Hg as (w & Hw & Hbr); [apply Nn|]. cbn in Hbr.
        replace (vec_at _ [m]) with w; auto. unfold vec_at. cbn [dat app].
        pose proof (Hw 0%nat ltac:(lia)) as W0. pose proof (Hw 1%nat ltac:(lia)) as W1. pose proof (Hw 2%nat ltac:(lia)) as W2.
        cbn in W0, W1, W2. rewrite W0, W1, W2. destruct w; reflexivity. }
    destruct Hnn as (ang & En & San & Han). exists ang. split; auto. unfold estimate_angular_mode.
    change (String.eqb "quaternion" "quaternion") with true. cbv iota. fold a. rewrite Eb. cbn [bind]. exact En.
Qed.
(** A frame turning at a constant rate (in its own axes): the filtered lookup is that
    rate, in the axes of the representation frame. *)
Theorem C83_constant_rate : forall squad deriv s i ref rep j k ts rows wn allow (q dq : R -> quat) rate,
  reachable s -> squad_total squad -> squad_unit squad -> frame s i -> denotes s ref j -> denotes s rep k ->
  ref <> PName String.EmptyString -> rep <> PName String.EmptyString -> good_way s i j -> good_way s i k ->
  lookup_transform squad s i ref = Ok (TrRows ts rows) -> (24 < List.length ts)%nat -> 0 < wn -> wn < 1 ->
  (forall x, hunit (q x)) -> (forall x, qderiv q x (dq x)) -> (forall x, body_rate q x rate) ->
  (forall m x t r, nth_error ts m = Some x -> nth_error rows m = Some (t, r) -> r = q x) ->
  (forall c, (c < 4)%nat -> exact_on deriv ts (seq 0 (List.length ts)) (fun x => comp4 c (q x)) (fun x => comp4 c (dq x))) ->
  exists w l, lookup_angular_opts squad deriv "quaternion" None (Some wn) s i (Some ref) (Some rep) allow true = Ok (w, Some (Some l)) /\
    shp w = [List.length l; 3%nat] /\ kept_samples s i k ts [] l /\
    forall n x, nth_error l n = Some x -> exists t r, maps_at squad s x i k t r /\ holds w [n] (srot r rate).
Proof.
  intros squad deriv s i ref rep j k ts rows wn allow q dq rate HR Htot Hun Hi Hj Hk Nj Nk Gj Gk Hl Hn H0 H1 Hu Hd Hrate Hrow Hex.
  destruct (lookup_way squad s i ref j ts rows HR Hun Hi Hj Gj Hl) as (_ & Hinc & Lr & _ & _).
  destruct (angular_rows deriv ts rows q dq Lr Hu Hd Hrow Hex) as (g & Eg & Sg & Dg).
  assert (Dg' : forall m c, (m < List.length ts)%nat -> (c < 3)%nat -> dat g [m; c] = comp3 c rate).
  { intros m c Hm Hc. specialize (Dg m Hm). assert (E : vec_at g [m] = rate).
    { apply (body_rate_unique q (nth m ts 0)); auto. specialize (Hu (nth m ts 0)). unfold hunit in Hu. lra. }
    rewrite <- E. destruct c as [|[|[|c]]]; [reflexivity..|lia]. }
  destruct (low_pass_steady wn (swap_nd 1 1 (numbers g)) (List.length ts) rate H0 H1 Hn ltac:(rewrite swap11; exact Sg)) as (f & Ef & Sf & Df).
  { intros m c Hm Hc. cbn [swap_nd numbers dat]. rewrite swapl_same, Dg' by auto. reflexivity. }
  assert (Est : estimate_angular_full deriv "quaternion" None (Some wn) (rotations rows) ts (-1) 0 = Ok (swap_nd 1 1 f)).
  { unfold estimate_angular_full. rewrite Eg. cbn [bind]. change (ndim (rotations rows)) with 2%nat. cbv iota zeta.
    change (Z.to_nat (-1 mod Z.of_nat 2)) with 1%nat. change (Z.to_nat (0 mod Z.of_nat 2)) with 0%nat. cbn [Nat.eqb]. rewrite Ef. reflexivity. }
  destruct (proj2 (C83_angular squad deriv s i ref rep j k ts rows "quaternion" None (Some wn) allow HR Htot Hun Hi Hj Hk Nj Nk Gj Gk Hl ltac:(lia)) _ Est) as (w & l & Ew & Sw & Kw & Vw).
  exists w, l. split; auto. split; auto. split; auto. intros n x Hx. destruct (Vw n x Hx) as (m & t & r & Hm & Hmap & (_ & HT)). exists t, r. split; auto.
  assert (Df' : forall m, (m < List.length ts)%nat -> holds (swap_nd 1 1 f) [m] rate).
  { intros m' Hm'. unfold holds. cbn [swap_nd dat]. rewrite !swapl_same. apply Df, Hm'. }
  pose proof (nth_lt _ _ _ Hm) as Lm. apply HT; [apply Df'; auto|]. intros (c & Hc & E).
  assert (L' : (neighbour m < List.length ts)%nat) by (destruct m; cbn; lia). destruct (Df' _ L') as (D0 & D1 & D2). destruct c as [|[|[|c]]]; [congruence..|lia].
Qed.

(** Refused: a cutoff outside (0, 1), at most 24 samples with a cutoff, another mode. *)
Theorem C83_refused : forall squad deriv s i ref rep j k ts rows wn mode thresh cutoff allow,
  reachable s -> squad_total squad -> squad_unit squad -> frame s i -> denotes s ref j -> denotes s rep k ->
  ref <> PName String.EmptyString -> rep <> PName String.EmptyString -> good_way s i j ->
  lookup_transform squad s i ref = Ok (TrRows ts rows) -> (2 <= List.length ts)%nat ->
  (wn <= 0 \/ 1 <= wn \/ (List.length ts <= 24)%nat ->
     lookup_linear_opts squad None (Some wn) s i (Some ref) (Some rep) allow true = Raise ValueError) /\
  (mode <> "quaternion"%string -> mode <> "rotation_vector"%string ->
     lookup_angular_opts squad deriv mode thresh cutoff s i (Some ref) (Some rep) allow true = Raise ValueError).
Proof.
  intros squad deriv s i ref rep j k ts rows wn mode thresh cutoff allow HR Htot Hun Hi Hj Hk Nj Nk Gj Hl Hn.
  destruct (lookup_way squad s i ref j ts rows HR Hun Hi Hj Gj Hl) as (Hl' & Hinc & Lr & Et & Er). split.
  - intros H. unfold lookup_linear_opts. rewrite (resolve_ref_some s i ref j Hj Nj), (resolve_ref_some s i rep k Hk Nk). cbn [bind]. rewrite Hl'. cbn [bind tr_ts].
    rewrite Et. unfold estimate_linear_full, estimate_linear_velocity. change (ndim (translations rows)) with 2%nat. cbn [Nat.eqb or_default].
    change (Z.eqb _ _) with false. cbv iota. change (norm_axis 0 2) with (@Ok nat 0%nat). cbn [bind]. unfold gradient_nd.
    change (nth 0 (shp (translations rows)) O) with (List.length rows). rewrite Lr, grad_check_ok by auto. cbn [bind].
    rewrite low_pass_refused; [reflexivity|]. cbn [numbers shp translations nth]. rewrite Lr. exact H.
  - intros M1 M2. unfold lookup_angular_opts. rewrite (resolve_ref_some s i ref j Hj Nj), (resolve_ref_some s i rep k Hk Nk). cbn [bind]. rewrite Hl'. cbn [bind tr_ts].
    rewrite Er. assert (E : estimate_angular_mode deriv mode (rotations rows) ts (-1) 0 = Raise ValueError).
    { unfold estimate_angular_mode. apply String.eqb_neq in M1, M2. rewrite M1, M2. reflexivity. }
    unfold estimate_angular_full. destruct thresh; [unfold estimate_angular_outlier|]; rewrite E; reflexivity.
Qed.

(** With the options left at their defaults the lookups are the ones of C32, C34: same
    timestamps, same values, no NaN. *)
Lemma swap_nd_11 {A} (a : nd A) : swap_nd 1 1 a = a.
Proof. destruct a as [sh d]. unfold swap_nd. cbn [shp dat]. rewrite swapl_same. f_equal. apply FunctionalExtensionality.functional_extensionality. intros ix. rewrite swapl_same. reflexivity. Qed.
Lemma put00 k : put 0 k [] = [k].
Proof. reflexivity. Qed.
Lemma rows_stamped g ts : shp g = [List.length ts; 3%nat] -> increasing ts -> (2 <= List.length ts)%nat -> stamped g 3 0 (stamps_nd ts) 0 (List.length ts) [].
Proof. intros Sg Hi Hn. apply stamps_stamped; auto. split; auto. Qed.
Theorem C83_defaults : forall squad deriv s i ref rep j k ts rows allow,
  reachable s -> squad_total squad -> squad_unit squad -> frame s i -> denotes s ref j -> denotes s rep k ->
  ref <> PName String.EmptyString -> rep <> PName String.EmptyString -> good_way s i j ->
  lookup_transform squad s i ref = Ok (TrRows ts rows) -> (2 <= List.length ts)%nat ->
  (good_way s j k -> forall w l,
     lookup_linear_velocity squad s i (Some ref) (Some rep) allow true = Ok (w, Some (Some l)) ->
     exists w', lookup_linear_opts squad None None s i (Some ref) (Some rep) allow true = Ok (w', Some (Some l)) /\ shp w' = shp w /\
       forall n, (n < hd O (shp w))%nat -> holds w' [n] (vec_at w [n])) /\
  (good_way s i k -> forall w l,
     lookup_angular_velocity squad deriv s i (Some ref) (Some rep) allow true = Ok (w, Some (Some l)) ->
     exists w', lookup_angular_opts squad deriv "quaternion" None None s i (Some ref) (Some rep) allow true = Ok (w', Some (Some l)) /\ shp w' = shp w /\
       forall n, (n < hd O (shp w))%nat -> holds w' [n] (vec_at w [n])).
Proof.
  intros squad deriv s i ref rep j k ts rows allow HR Htot Hun Hi Hj Hk Nj Nk Gj Hl Hn.
  pose proof (denotes_frame s _ _ HR Hj) as Fj. pose proof (denotes_frame s _ _ HR Hk) as Fk.
  destruct (lookup_way squad s i ref j ts rows HR Hun Hi Hj Gj Hl) as (Hl' & Hinc & Lr & Et & Er).
  assert (DK : denotes s (PFrame k) k) by (left; split; auto).
  split; intros Gk w l HL.
  - unfold lookup_linear_velocity in HL. rewrite (resolve_ref_some s i ref j Hj Nj), (resolve_ref_some s i rep k Hk Nk) in HL. cbn [bind] in HL. rewrite Hl' in HL. cbn [bind tr_ts] in HL.
    rewrite Et in HL. destruct (gradient_nd (translations rows) ts 0) as [g|] eqn:Eg; [|discriminate]. cbn [bind] in HL.
    destruct (transform_vectors squad s j g (PFrame k) (-1) (Some 0%Z) (Some (stamps_nd ts))) as [(c & o)|] eqn:Ec; [|discriminate]. cbn [bind with_ts fst snd] in HL.
    assert (Ew : c = w /\ o = Some l) by (unfold with_ts in HL; cbn [fst snd] in HL; inversion HL; auto). destruct Ew as (<- & ->).
    assert (Sg : shp g = [List.length ts; 3%nat]).
    { unfold gradient_nd in Eg. destruct (grad_check _ _); [|discriminate]. cbn [bind] in Eg. injection Eg as <-. cbn [shp translations]. rewrite Lr. reflexivity. }
    destruct (proj1 (C82_numbers squad s j (PFrame k) k g 0 (stamps_nd ts) 0 (List.length ts) [] c (Some l) HR Hun Fj DK (good_unit _ _ _ Gk) (rows_stamped g ts Sg Hinc Hn)) Ec) as (out & Eo & So & Vo).
    exists out. split.
    { unfold lookup_linear_opts. rewrite (resolve_ref_some s i ref j Hj Nj), (resolve_ref_some s i rep k Hk Nk). cbn [bind]. rewrite Hl'. cbn [bind tr_ts]. rewrite Et.
      unfold estimate_linear_full, estimate_linear_velocity. change (ndim (translations rows)) with 2%nat. cbn [Nat.eqb or_default].
      change (Z.eqb _ _) with false. cbv iota. change (norm_axis 0 2) with (@Ok nat 0%nat). cbn [bind]. rewrite Eg. cbn [bind low_pass].
      change (numbers g) with (all_numbers g). rewrite Eo. reflexivity. }
    split; auto. intros n Hn'. apply (Vo n []); [|constructor]. destruct (shp c); auto.
  - unfold lookup_angular_velocity in HL. rewrite (resolve_ref_some s i ref j Hj Nj), (resolve_ref_some s i rep k Hk Nk) in HL. cbn [bind] in HL. rewrite Hl' in HL. cbn [bind tr_ts] in HL.
    destruct (estimate_angular deriv (tr_r_opt (TrRows ts rows)) ts (-1) 0) as [est|] eqn:Ee; [|discriminate]. cbn [bind] in HL.
    destruct (no_nan est) as [g|] eqn:Eg; [|discriminate]. cbn [bind] in HL.
    destruct (transform_vectors squad s i g (PFrame k) (-1) (Some 0%Z) (Some (stamps_nd ts))) as [(c & o)|] eqn:Ec; [|discriminate]. cbn [bind with_ts fst snd] in HL.
    assert (Ew : c = w /\ o = Some l) by (unfold with_ts in HL; cbn [fst snd] in HL; inversion HL; auto). destruct Ew as (<- & ->).
    assert (Em : estimate_angular_mode deriv "quaternion" (rotations rows) ts (-1) 0 = Ok g).
    { unfold estimate_angular_mode. change (String.eqb "quaternion" "quaternion") with true. cbv iota.
      replace (estimate_angular deriv _ ts (-1) 0) with (@Ok (nd (option R)) est) by (symmetry; rewrite <- Ee; f_equal; rewrite <- Er; reflexivity). cbn [bind]. exact Eg. }
    assert (Ef : estimate_angular_full deriv "quaternion" None None (rotations rows) ts (-1) 0 = Ok (numbers g)).
    { unfold estimate_angular_full. rewrite Em. cbn [bind]. change (ndim (rotations rows)) with 2%nat. cbv iota zeta.
      change (Z.to_nat (-1 mod Z.of_nat 2)) with 1%nat. cbn [low_pass bind]. rewrite !swap_nd_11. reflexivity. }
    assert (Sg : shp g = [List.length ts; 3%nat]).
    { apply (angular_shape deriv "quaternion" None None (rotations rows) ts (numbers g)) in Ef; auto. cbn. rewrite Lr. reflexivity. }
    destruct (proj1 (C82_numbers squad s i (PFrame k) k g 0 (stamps_nd ts) 0 (List.length ts) [] c (Some l) HR Hun Hi DK (good_unit _ _ _ Gk) (rows_stamped g ts Sg Hinc Hn)) Ec) as (out & Eo & So & Vo).
    exists out. split.
    { unfold lookup_angular_opts. rewrite (resolve_ref_some s i ref j Hj Nj), (resolve_ref_some s i rep k Hk Nk). cbn [bind]. rewrite Hl'. cbn [bind tr_ts]. rewrite Er, Ef. cbn [bind].
      change (numbers g) with (all_numbers g). rewrite Eo. reflexivity. }
    split; auto. intros n Hn'. apply (Vo n []); [|constructor]. destruct (shp c); auto.
Qed.

(* ------------------------------------------------------------------ example *)
(** A sled sliding along (1, 2, 0) metres per second, 30 samples ten per second, facing
    sideways: filtered with half the Nyquist frequency, its looked-up velocity is exactly that. *)
Section Any.
  Variables (T : nat -> R) (X Y : R -> R) (a b : R).
  Let ts : list R := map T (seq 0 30).
  Definition sled_ops : list op :=
    [ ORegisterFrame (root "world"%string) false;
      ORegisterFrame (mov "s"%string "world"%string ts (map (fun t => [X t; Y t; 0]) ts) (map (fun _ => [a; 0; 0; b]) ts) false) false ].
  Definition sled_lit : state := State
    [ Node (Some "world"%string) None [1%nat] BRoot;
      Node (Some "s"%string) (Some 0%nat) [] (BTf (TMoving ts (map (fun t => V3 (X t) (Y t) 0) ts) (map (fun _ => Qt a 0 0 b) ts) false)) ]
    [("world"%string, 0%nat); ("s"%string, 1%nat)].
  Lemma sled_reachable : reachable sled_lit.
  Proof. exists sled_ops. symmetry. vm_compute. reflexivity. Qed.
End Any.
Definition tick (n : nat) : R := INR n / 10.
Definition sled : state := sled_lit tick (fun t => 0 + t * 1) (fun t => 0 + t * 2) (3/5) (4/5).
Definition ticks : list R := map tick (seq 0 30).
Lemma ticks_inc : increasing ticks.
Proof.
  intros i j a b Hij Hi Hj. unfold ticks in *. rewrite nth_error_map in Hi, Hj.
  destruct (nth_error (seq 0 30) i) eqn:Ei; [|discriminate]. destruct (nth_error (seq 0 30) j) eqn:Ej; [|discriminate].
  cbn [option_map] in Hi, Hj. injection Hi as <-. injection Hj as <-.
  pose proof (nth_lt _ _ _ Ei) as Li. pose proof (nth_lt _ _ _ Ej) as Lj. rewrite seq_length in Li, Lj.
  apply (nth_error_nth _ _ O) in Ei. apply (nth_error_nth _ _ O) in Ej. rewrite seq_nth in Ei, Ej by auto. cbn in Ei, Ej. subst.
  unfold tick. apply lt_INR in Hij. lra.
Qed.
Lemma sled_data : transform_of sled 1 = Some (TMoving ticks (map (fun t => V3 (0 + t * 1) (0 + t * 2) 0) ticks) (map (fun _ => Qt (3/5) 0 0 (4/5)) ticks) false).
Proof. reflexivity. Qed.
Lemma sled_units : List.Forall hunit (map (fun _ : R => Qt (3/5) 0 0 (4/5)) ticks).
Proof. apply Forall_map, Forall_forall. intros x _. cbv [hunit hn2 sc ve vdot vx vy vz qw qx qy qz qvec]. lra. Qed.
Lemma sled_root i : (i < 2)%nat -> root_of (parent_of sled) i 0.
Proof. intros Hi. split; [|reflexivity]. destruct i as [|[|i]]; try lia; [constructor|econstructor; [reflexivity|constructor]]. Qed.
Lemma sled_good i j : (i < 2)%nat -> (j < 2)%nat -> good_way sled i j.
Proof.
  intros Hi Hj. split; [exists 0%nat; split; apply sled_root; auto|]. intros k Hk.
  assert (A : forall a, ancestor (parent_of sled) a k -> (a < 2)%nat -> (k < 2)%nat).
  { clear. intros a Ha. induction Ha as [|a b c E1 E2 IH]; auto. intros Hle. destruct a as [|[|a]]; try lia; simpl in E1; try discriminate; injection E1 as <-; apply IH; lia. }
  assert (Hk' : (k < 2)%nat /\ k <> 0%nat).
  { destruct Hk as [(H1 & H2)|(H1 & H2)]; (split; [apply (A _ H1); auto|]); intros ->; apply H2; apply sled_root; auto. }
  replace k with 1%nat by lia. eexists. split; [exact sled_data|]. split; [apply sled_units|]. split; [apply ticks_inc|unfold ticks; rewrite map_length, seq_length; lia].
Qed.
Lemma sled_lookup : lookup_transform np_squad sled 1 (PFrame 0) =
  Ok (TrRows ticks (combine (map (fun t => V3 (0 + t * 1) (0 + t * 2) 0) ticks) (map (fun _ => Qt (3/5) 0 0 (4/5)) ticks))).
Proof.
  apply (lookup_parent_moving np_squad sled 0 1 ticks _ _ false).
  - apply reachable_Inv, sled_reachable.
  - cbn; lia.
  - reflexivity.
  - exact sled_data.
  - apply C79_contract.
  - split; [apply ticks_inc|unfold ticks; rewrite map_length, seq_length; lia].
  - rewrite !map_length. reflexivity.
  - rewrite !map_length. reflexivity.
  - apply sled_units.
Qed.
Lemma sled_same x t r : maps_at np_squad sled x 0 0 t r -> forall v, srot r v = v.
Proof.
  intros HM v. destruct HM as (_ & c & A0 & _ & HP). assert (c = 0%nat) by (inversion A0; subst; [reflexivity|cbn in *; discriminate]). subst c.
  assert (Z : forall p P, coords np_squad sled x 0 p 0 P -> P = p). { intros p P HC. inversion HC; subst; [reflexivity|]. cbn in *. discriminate. }
  destruct (HP v) as (P & HC & HC'). apply Z in HC, HC'. subst P. destruct (HP v0) as (P & HD0 & HD'). apply Z in HD0, HD'. subst P. unfold smove in *. rewrite srot_0 in HD'. revert HC' HD'. generalize (srot r v). intros u HC' HD'.
  destruct t as [t1 t2 t3], u as [u1 u2 u3], v as [v1 v2 v3]. cbv [v0 vadd vx vy vz] in HC', HD'. injection HC' as K1 K2 K3. injection HD' as J1 J2 J3. f_equal; lra.
Qed.
Example C83_example : exists w,
  lookup_linear_opts np_squad None (Some (1/2)) sled 1 (Some (PFrame 0)) (Some (PFrame 0)) false true = Ok (w, Some (Some ticks)) /\
  shp w = [30; 3]%nat /\ forall n, (n < 30)%nat -> holds w [n] (V3 1 2 0).
Proof.
  destruct C79_contract as (U & _ & T & _).
  assert (D0 : denotes sled (PFrame 0) 0) by (left; split; [reflexivity|cbv; lia]). assert (F1 : frame sled 1) by (cbv; lia).
  assert (LT : List.length ticks = 30%nat) by (unfold ticks; rewrite map_length, seq_length; reflexivity).
  destruct (C83_constant_velocity np_squad sled 1 (PFrame 0) (PFrame 0) 0 0 ticks _ (1/2) false v0 (V3 1 2 0)
    (sled_reachable _ _ _ _ _) T U F1 D0 D0 ltac:(discriminate) ltac:(discriminate) (sled_good 1 0 ltac:(lia) ltac:(lia)) (sled_good 0 0 ltac:(lia) ltac:(lia)) sled_lookup)
    as (w & l & E & SW & ((f & Ef) & rt & Hrt & Hin) & Hv).
  - rewrite LT. lia.
  - lra.
  - lra.
  - intros m x t r Hm Hr.
    assert (K : nth_error (map fst (combine (map (fun t => V3 (0 + t * 1) (0 + t * 2) 0) ticks) (map (fun _ : R => Qt (3/5) 0 0 (4/5)) ticks))) m = Some t)
      by (rewrite nth_error_map, Hr; reflexivity).
    rewrite map_fst_combine in K by (rewrite !map_length; reflexivity).
    rewrite nth_error_map, Hm in K. cbn [option_map] in K. injection K as <-. unfold vadd, vscale, v0. cbn [vx vy vz]. f_equal; ring.
  - assert (El : l = ticks).
    { rewrite Ef. apply filter_id. intros x Hx. assert (K : In x (filter f ticks)).
      { rewrite <- Ef. apply Hin. split; auto. split; [|intros t' []]. intros g tg _ Hc.
        assert (Hf : g = 1%nat) by (destruct g as [|[|g]]; cbn in Hc; try discriminate; [auto|destruct g; discriminate]). subst g.
        unfold cont_of in Hc. rewrite sled_data in Hc. injection Hc as <-.
        apply In_nth_error in Hx as (m & Hm). pose proof (nth_lt _ _ _ Hm) as Lm. rewrite LT in Lm.
        assert (E29 : nth_error ticks 29 = Some (tick 29)) by reflexivity. assert (E0 : nth_error ticks 0 = Some (tick 0)) by reflexivity.
        exists (tick 0), (tick 29). split; [exact E0|]. split; [rewrite LT; exact E29|]. split.
        - destruct (Nat.eq_dec m 0) as [->|N]; [rewrite E0 in Hm; injection Hm as <-; lra|]. pose proof (ticks_inc 0%nat m _ _ ltac:(lia) E0 Hm). lra.
        - destruct (Nat.eq_dec m 29) as [->|N]; [rewrite E29 in Hm; injection Hm as <-; lra|]. pose proof (ticks_inc m 29%nat _ _ ltac:(lia) Hm E29). lra. }
      apply filter_In in K. apply K. }
    clear Ef Hin. subst l. exists w. split; [exact E|]. split; [rewrite SW, LT; reflexivity|]. intros n Hn.
    destruct (nth_len ticks n ltac:(rewrite LT; exact Hn)) as (x & Hx). destruct (Hv n x Hx) as (t & r & HM & HV).
    rewrite (sled_same x t r HM) in HV. exact HV.
Qed.
