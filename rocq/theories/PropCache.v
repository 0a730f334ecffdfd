(** Properties C47, C58: cached topics. *)
From Coq Require Import Reals List String Ascii ZArith Bool Arith Lia Lra.
From Verif Require Import Base NdArray RosMsg Rosbag PropRosMsg PropRosbag.
Import ListNotations.
Open Scope R_scope.

(* ---- specification ---- *)
(** A sequence of load_dataset(topic, cache=...) calls on one bag. *)
Fixpoint loads (opened : option bag) (f : folder) (calls : list (string * bool)) : folder :=
  match calls with
  | [] => f
  | (T, c) :: calls => loads opened (fst (load_dataset opened f T c false)) calls
  end.
Definition no_files : folder := fun _ => None.
(** Every number of the dataset satisfies P. *)
Definition all_values (P : R -> Prop) (d : dataset) : Prop :=
  forall name rows r x, In (name, rows) (ds_vars d) -> In r rows -> In (Some x) r -> P x.
(** Multiples of 0.0001 below 2^31 * 0.0001 in magnitude. *)
Definition storable (x : R) : Prop := exists k : Z, x = IZR k * 0.0001 /\ (- 2 ^ 31 < k < 2 ^ 31)%Z.
(** Same labels and shape, values related by P. *)
Definition similar (P : option R -> option R -> Prop) (d d' : dataset) : Prop :=
  ds_time d' = ds_time d /\
  Forall2 (fun v v' => fst v' = fst v /\ Forall2 (Forall2 P) (snd v) (snd v')) (ds_vars d) (ds_vars d').
Definition close (x y : option R) : Prop :=
  match x, y with Some x, Some y => Rabs (y - x) <= 0.00005 | None, None => True | _, _ => False end.

(* ---- rounding ---- *)
Lemma rint_IZR k : rint (IZR k) = k.
Proof.
  unfold rint. assert (E : Int_part (IZR k) = k).
  { destruct (base_Int_part (IZR k)) as (A & B). apply le_IZR in A. assert (k - 1 < Int_part (IZR k))%Z; [|lia]. apply lt_IZR. rewrite minus_IZR. lra. }
  rewrite E. replace (IZR k - IZR k) with 0 by ring. replace (Rlt_b 0 (1/2)) with true; auto. symmetry. apply Rlt_b_true. lra.
Qed.
Lemma rint_near x : Rabs (IZR (rint x) - x) <= 1 / 2.
Proof.
  unfold rint. destruct (base_Int_part x) as (A & B). set (n := Int_part x) in *.
  destruct (Rlt_b (x - IZR n) (1 / 2)) eqn:E1; [apply Rlt_b_true in E1; apply Rabs_le; lra|]. apply Rlt_b_false in E1.
  destruct (Rlt_b (1 / 2) (x - IZR n)) eqn:E2; [apply Rlt_b_true in E2; rewrite plus_IZR; apply Rabs_le; lra|]. apply Rlt_b_false in E2.
  destruct (Z.even n); rewrite ?plus_IZR; apply Rabs_le; lra.
Qed.
Lemma pack_exact x : storable x -> unpack (pack (Some x)) = Some x.
Proof.
  intros (k & -> & Hk). unfold pack, unpack. replace (IZR k * 0.0001 / 0.0001) with (IZR k) by (unfold Rdiv; rewrite Rmult_assoc, Rinv_r by lra; ring). rewrite rint_IZR. unfold fill.
  destruct (Z.ltb_spec k (- 2 ^ 31)); [lia|]. destruct (Z.leb_spec (2 ^ 31) k); [lia|]. cbn [orb]. destruct (Z.eqb_spec k (- 2 ^ 31)); [lia|reflexivity].
Qed.
Lemma pack_close x : Rabs x <= 214748 -> close (Some x) (unpack (pack (Some x))).
Proof.
  intros H. unfold pack, unpack. set (n := rint (x / 0.0001)).
  assert (A : Rabs (IZR n - x / 0.0001) <= 1 / 2) by apply rint_near.
  assert (H1 : -214748 <= x <= 214748). { revert H. unfold Rabs. destruct (Rcase_abs _); lra. }
  assert (B : -1/2 <= IZR n - x / 0.0001 <= 1/2). { revert A. unfold Rabs. destruct (Rcase_abs _); lra. }
  assert (C : (- 2147480001 < n < 2147480001)%Z). { split; apply lt_IZR; lra. }
  unfold fill. cbv zeta.
  assert (F1 : (n <? - 2 ^ 31)%Z = false) by (apply Z.ltb_ge; change (2 ^ 31)%Z with 2147483648%Z; lia).
  assert (F2 : (2 ^ 31 <=? n)%Z = false) by (apply Z.leb_gt; change (2 ^ 31)%Z with 2147483648%Z; lia).
  assert (F3 : (n =? - 2 ^ 31)%Z = false) by (apply Z.eqb_neq; change (2 ^ 31)%Z with 2147483648%Z; lia).
  rewrite F1, F2. cbn [orb]. rewrite F3. cbn [close]. apply Rabs_le. lra.
Qed.
Lemma map_id_on {A} (f : A -> A) l : (forall x, In x l -> f x = x) -> map f l = l.
Proof. induction l as [|a l IH]; intros H; auto. cbn. rewrite H, IH; auto; [intros; apply H; right; auto|left; auto]. Qed.
(** The datasets of bags have no NaN. *)
Lemma dataset_some m : forall name rows r x, In (name, rows) (ds_vars (dataset_of m)) -> In r rows -> In x r -> exists y, x = Some y.
Proof.
  intros name rows r x H1 H2 H3.
  assert (S' : forall l, In r (somes l) -> exists y, x = Some y).
  { intros l Hl. unfold somes in Hl. apply in_map_iff in Hl as (l0 & <- & _). apply in_map_iff in H3 as (y & <- & _). eauto. }
  cbn [dataset_of ds_vars] in H1. apply in_app_or in H1 as [[E|[E|[]]]|H1]; try (injection E as <- <-; eauto).
  destruct (mo_velocity m) as [(v & w)|]; [|destruct H1]. destruct H1 as [E|[E|[]]]; injection E as <- <-; eauto.
Qed.
Lemma stored_exact m : all_values storable (dataset_of m) -> decode (encode (dataset_of m)) = dataset_of m.
Proof.
  intros H. unfold decode, encode. cbn [pk_time pk_vars]. pose proof (dataset_some m) as D. destruct (dataset_of m) as [ti va]. cbn [ds_time ds_vars] in *. f_equal.
  rewrite map_map. apply map_id_on. intros [n rows] Hin. cbn [fst snd]. f_equal. rewrite map_map. apply map_id_on. intros r Hr. rewrite map_map. apply map_id_on.
  intros x Hx. destruct (D n rows r x Hin Hr Hx) as (y & ->). apply pack_exact. eapply H; eauto.
Qed.
Lemma f2_map {A B} (P : A -> B -> Prop) (f : A -> B) l : (forall x, In x l -> P x (f x)) -> Forall2 P l (map f l).
Proof. induction l as [|a l IH]; intros H; cbn; constructor; [apply H; left; auto|apply IH; intros; apply H; right; auto]. Qed.
Lemma stored_close m : all_values (fun x => Rabs x <= 214748) (dataset_of m) -> similar close (dataset_of m) (decode (encode (dataset_of m))).
Proof.
  intros H. unfold decode, encode. cbn [pk_time pk_vars]. pose proof (dataset_some m) as D. destruct (dataset_of m) as [ti va]. cbn [ds_time ds_vars] in *. split; [reflexivity|]. cbn [ds_vars].
  rewrite map_map. apply f2_map. intros [n rows] Hin. cbn [fst snd]. split; auto. rewrite map_map. apply f2_map. intros r Hr. rewrite map_map. apply f2_map.
  intros x Hx. destruct (D n rows r x Hin Hr Hx) as (y & ->). apply pack_close. eapply H; eauto.
Qed.

(* ---- file names ---- *)
Fixpoint no_underscore (s : string) : Prop :=
  match s with EmptyString => True | String c s => c <> "_"%char /\ no_underscore s end.
Lemma app_nc_inj a b : (a ++ ".nc")%string = (b ++ ".nc")%string -> a = b.
Proof.
  revert b. induction a as [|c a IH]; intros [|d b]; cbn [String.append]; intros E.
  - reflexivity.
  - exfalso. apply (f_equal String.length) in E. cbn in E. revert E. clear. induction b; cbn in *; intros; try discriminate. injection E as E.
    assert (String.length (b ++ ".nc") = (String.length b + 3)%nat) by (clear; induction b; cbn; auto). lia.
  - exfalso. apply (f_equal String.length) in E. cbn in E.
    assert (String.length (a ++ ".nc") = (String.length a + 3)%nat) by (clear; induction a; cbn; auto). lia.
  - injection E as -> E. f_equal. auto.
Qed.
(** Topic names without underscores have files of their own. *)
Lemma names_inj T1 T2 : no_underscore T1 -> no_underscore T2 -> cache_file T1 = cache_file T2 -> T1 = T2.
Proof.
  intros H1 H2 E. unfold cache_file in E. apply app_nc_inj in E. revert T2 H1 H2 E. induction T1 as [|c T1 IH]; intros [|d T2] H1 H2 E; cbn [replace_slash] in E; try discriminate; auto.
  injection E as E1 E2. destruct H1 as (A1 & B1), H2 as (A2 & B2). f_equal; [|auto].
  destruct (Ascii.eqb_spec c "/"), (Ascii.eqb_spec d "/"); congruence.
Qed.

(* ---- the history ---- *)
Definition from_cache (opened : option bag) (calls : list (string * bool)) (f : folder) : Prop :=
  forall name x, f name = Some x -> exists T m, In (T, true) calls /\ cache_file T = name /\ load_messages opened T = Ok m /\ x = Complete (encode (dataset_of m)).
Lemma load_step opened calls f T c : from_cache opened calls f -> from_cache opened (calls ++ [(T, c)]) (fst (load_dataset opened f T c false)).
Proof.
  intros H. assert (K : from_cache opened (calls ++ [(T, c)]) f).
  { intros name x E. destruct (H name x E) as (T' & m & A & B). exists T', m. split; [apply in_or_app; auto|auto]. }
  unfold load_dataset. destruct c; [|exact K]. destruct (f (cache_file T)) as [x|] eqn:Ef; [exact K|]. unfold export.
  destruct (load_messages opened T) as [m|e] eqn:El; [|exact K]. cbn [fst]. intros name x E. unfold set_file in E. destruct (String.eqb_spec name (cache_file T)) as [->|].
  - injection E as <-. exists T, m. split; [apply in_or_app; right; left; auto|auto].
  - apply K; auto.
Qed.
Lemma loads_inv opened calls : forall pre f, from_cache opened pre f -> from_cache opened (pre ++ calls) (loads opened f calls).
Proof.
  induction calls as [|[T c] calls IH]; intros pre f H; cbn [loads]; [rewrite app_nil_r; auto|].
  replace (pre ++ (T, c) :: calls)%list with ((pre ++ [(T, c)]) ++ calls)%list by (rewrite <- app_assoc; reflexivity). apply IH. apply load_step. auto.
Qed.
(** No earlier cached topic shares the topic's file name. *)
Definition own_name (calls : list (string * bool)) (T : string) : Prop := forall T', In (T', true) calls -> cache_file T' = cache_file T -> T' = T.
Lemma cached_load opened calls T : own_name calls T ->
  snd (load_dataset opened (loads opened no_files calls) T true false) =
  match load_messages opened T with Ok m => Ok (decode (encode (dataset_of m))) | Raise e => Raise e end.
Proof.
  intros H. assert (I : from_cache opened calls (loads opened no_files calls)) by (apply (loads_inv opened calls []); intros n x E; discriminate).
  unfold load_dataset. destruct (loads opened no_files calls (cache_file T)) as [x|] eqn:Ef.
  - destruct (I _ _ Ef) as (T' & m & A & B & C & ->). rewrite (H T' A B) in C. rewrite C. cbn [snd]. unfold open_dataset. rewrite Ef. reflexivity.
  - unfold export. destruct (load_messages opened T) as [m|e]; [|reflexivity]. cbn [snd]. unfold open_dataset, set_file. rewrite String.eqb_refl. reflexivity.
Qed.
(** After any calls on the bag: the cached topic is the topic, if no earlier topic has the
    same file name and its numbers are multiples of 0.0001 in range. *)
Theorem C47_partial : forall b calls T m, own_name calls T -> load_messages (Some b) T = Ok m -> all_values storable (dataset_of m) ->
  let f := loads (Some b) no_files calls in
  snd (load_dataset (Some b) f T true false) = snd (load_dataset (Some b) f T false false).
Proof. intros b calls T m H E S f. unfold f. rewrite (cached_load (Some b) calls T H), E. cbn [load_dataset snd]. rewrite E. cbn [bind]. rewrite stored_exact; auto. Qed.
(** Other numbers up to 214748 are rounded to 0.0001. *)
Theorem C47_rounded_partial : forall b calls T m, own_name calls T -> load_messages (Some b) T = Ok m ->
  all_values (fun x => Rabs x <= 214748) (dataset_of m) ->
  exists d d', let f := loads (Some b) no_files calls in
    snd (load_dataset (Some b) f T true false) = Ok d' /\ snd (load_dataset (Some b) f T false false) = Ok d /\ similar close d d'.
Proof.
  intros b calls T m H E S. exists (dataset_of m), (decode (encode (dataset_of m))). cbv zeta. rewrite (cached_load (Some b) calls T H), E. cbn [load_dataset snd]. rewrite E.
  split; auto. split; auto. apply stored_close; auto.
Qed.
(** A topic that cannot be loaded cannot be loaded from the cache either. *)
Theorem C47_errors : forall opened calls T e, own_name calls T -> load_messages opened T = Raise e ->
  snd (load_dataset opened (loads opened no_files calls) T true false) = Raise e.
Proof. intros opened calls T e H E. rewrite (cached_load opened calls T H), E. reflexivity. Qed.
Theorem C47_names : forall calls T, no_underscore T -> (forall T', In (T', true) calls -> no_underscore T') -> own_name calls T.
Proof. intros calls T H1 H2 T' H E. apply names_inj; auto. Qed.

(* ---- examples ---- *)
Definition st0 : stamp := Stamp 0 0.
Definition tmsg (x : R) : message := MTransform (TransformStamped (st0, None) None (TransformMsg (XYZ x 0 0) (XYZW 0 0 0 1))).
Definition ex_bag : bag := [Entry "/a/b" (tmsg 1) 0; Entry "/a_b" (tmsg 2) 1; Entry "/a/b" (tmsg (5/2)) 2].
Definition mot (l : list R) : motion := Motion (map (fun _ => to_sec st0) l) (map (fun x => [x; 0; 0]) l) (map (fun _ => [1; 0; 0; 0]) l) None.
Lemma ex_load : load_messages (Some ex_bag) "/a/b" = Ok (mot [1; 5/2]) /\ load_messages (Some ex_bag) "/a_b" = Ok (mot [2]).
Proof. split; reflexivity. Qed.
Lemma mot_values (P : R -> Prop) l : (forall x, In x l -> P x) -> P 0 -> P 1 -> all_values P (dataset_of (mot l)).
Proof.
  intros H H0 H1 n rows r x A B C. cbn [mot dataset_of ds_vars mo_position mo_orientation mo_velocity app] in A. destruct A as [E|[E|[]]]; injection E as <- <-.
  - unfold somes in B. rewrite map_map in B. apply in_map_iff in B as (y & <- & Hy). cbn in C. destruct C as [C|[C|[C|[]]]]; injection C as <-; auto.
  - unfold somes in B. rewrite map_map in B. apply in_map_iff in B as (y & <- & Hy). cbn in C. destruct C as [C|[C|[C|[C|[]]]]]; injection C as <-; auto.
Qed.
Example C47_example : own_name [("/a/b"%string, true); ("/a_b"%string, false)] "/a/b" /\ (exists m, load_messages (Some ex_bag) "/a/b" = Ok m /\ all_values storable (dataset_of m)) /\
  no_underscore "/a/b" /\ (exists m, load_messages (Some ex_bag) "/a_b" = Ok m /\ all_values (fun x => Rabs x <= 214748) (dataset_of m)).
Proof.
  split; [intros T' [E|[E|[]]] _; injection E as <-; [reflexivity|discriminate]|].
  split. { exists (mot [1; 5/2]). split; [apply ex_load|]. apply mot_values.
    - intros x [<-|[<-|[]]]; [exists 10000%Z|exists 25000%Z]; split; try lia; lra.
    - exists 0%Z. split; [lra|lia].
    - exists 10000%Z. split; [lra|lia]. }
  split; [repeat split; discriminate|]. exists (mot [2]). split; [apply ex_load|]. apply mot_values; [intros x [<-|[]]|..]; apply Rabs_le; lra.
Qed.

(* ---- refutations ---- *)
(** /a/b and /a_b share a file: the second one cached returns the first. *)
Theorem C47_refuted : exists b T1 T2 d1 d2, T1 <> T2 /\
  snd (load_dataset (Some b) no_files T1 true false) = Ok d1 /\
  snd (load_dataset (Some b) no_files T2 true false) = Ok d2 /\ d1 <> d2 /\
  snd (load_dataset (Some b) (loads (Some b) no_files [(T1, true)]) T2 true false) = Ok d1.
Proof.
  exists ex_bag, "/a/b"%string, "/a_b"%string, (decode (encode (dataset_of (mot [1; 5/2])))), (decode (encode (dataset_of (mot [2])))).
  split; [discriminate|]. destruct ex_load as (E1 & E2).
  split; [rewrite (cached_load (Some ex_bag) []); [rewrite E1; reflexivity|intros T' []]|].
  split; [rewrite (cached_load (Some ex_bag) []); [rewrite E2; reflexivity|intros T' []]|].
  split; [intros H; apply (f_equal (fun d => List.length (ds_time d))) in H; discriminate|].
  cbn [loads]. unfold load_dataset, export. cbn [no_files]. rewrite E1. reflexivity.
Qed.
(** Two bags in one folder share the cache. *)
Theorem C47_bags_refuted : forall b1 b2 T m1, load_messages (Some b1) T = Ok m1 ->
  snd (load_dataset (Some b2) (loads (Some b1) no_files [(T, true)]) T true false) = Ok (decode (encode (dataset_of m1))).
Proof.
  intros b1 b2 T m1 E. cbn [loads]. unfold load_dataset at 2, export. cbn [no_files]. rewrite E. cbn [fst]. unfold load_dataset, set_file. rewrite !String.eqb_refl.
  cbn [snd]. unfold open_dataset. rewrite String.eqb_refl. reflexivity.
Qed.
(** Small and large numbers: 0.00004 becomes 0, 300000 becomes NaN. *)
Lemma pack_bad : unpack (pack (Some 0.00004)) = Some 0 /\ unpack (pack (Some 300000)) = None.
Proof.
  split.
  - unfold pack. replace (rint (0.00004 / 0.0001)) with 0%Z; [cbn; f_equal; lra|]. symmetry.
    unfold rint. assert (E : Int_part (0.00004 / 0.0001) = 0%Z).
    { destruct (base_Int_part (0.00004 / 0.0001)) as (A & B). set (n := Int_part (0.00004 / 0.0001)) in *.
      assert (n < 1)%Z by (apply lt_IZR; lra). assert (-1 < n)%Z by (apply lt_IZR; lra). lia. }
    rewrite E. replace (Rlt_b (0.00004 / 0.0001 - 0) (1/2)) with true; auto. symmetry. apply Rlt_b_true. lra.
  - unfold pack. replace (300000 / 0.0001) with (IZR 3000000000) by lra. rewrite rint_IZR. reflexivity.
Qed.
Definition column_x (d : dataset) : list (option R) :=
  match ds_vars d with (_, rows) :: _ => map (hd None) rows | [] => [] end.
Theorem C47_values_refuted : exists b T d d', snd (load_dataset (Some b) no_files T false false) = Ok d /\
  snd (load_dataset (Some b) no_files T true false) = Ok d' /\
  column_x d = [Some 0.00004; Some 300000] /\ column_x d' = [Some 0; None].
Proof.
  exists [Entry "/t" (tmsg 0.00004) 0; Entry "/t" (tmsg 300000) 1], "/t"%string, (dataset_of (mot [0.00004; 300000])), (decode (encode (dataset_of (mot [0.00004; 300000])))).
  split; [reflexivity|]. split; [reflexivity|]. split; [reflexivity|].
  unfold column_x, decode, encode, dataset_of, mot, somes. cbn [ds_vars pk_vars map mo_position mo_velocity mo_orientation app fst snd hd]. destruct pack_bad as (-> & ->). reflexivity.
Qed.

(* ------------------------------------------------------------------ C58 *)
(** The process dies while the file is written: from then on the topic cannot be loaded from
    the cache, although the bag is intact. *)
Theorem C58_refuted : forall b T m calls, load_messages (Some b) T = Ok m ->
  let f := fst (load_dataset (Some b) no_files T true true) in
  snd (load_dataset (Some b) (loads (Some b) f calls) T true false) = Raise ValueError /\
  snd (load_dataset (Some b) (loads (Some b) f calls) T false false) = Ok (dataset_of m).
Proof.
  intros b T m calls E f. split; [|unfold load_dataset; cbn [snd]; rewrite E; reflexivity].
  assert (K : forall calls g, g (cache_file T) = Some Partial -> loads (Some b) g calls (cache_file T) = Some Partial).
  { clear calls. induction calls as [|[U c] calls IH]; intros g Hg; auto. cbn [loads]. apply IH. unfold load_dataset. destruct c; auto.
    destruct (g (cache_file U)) as [x|] eqn:Eu; auto. unfold export. destruct (load_messages (Some b) U); auto. cbn [fst]. unfold set_file.
    destruct (String.eqb_spec (cache_file T) (cache_file U)); [congruence|auto]. }
  assert (F : f (cache_file T) = Some Partial).
  { unfold f, load_dataset, export. cbn [no_files]. rewrite E. cbn [fst]. unfold set_file. rewrite String.eqb_refl. reflexivity. }
  unfold load_dataset. rewrite (K calls f F). cbn [snd]. unfold open_dataset. rewrite (K calls f F). reflexivity.
Qed.
(** The other topics, and loading without cache, do not notice. *)
Theorem C58_partial : forall opened f T U, cache_file U <> cache_file T ->
  let f' := fst (load_dataset opened f T true true) in
  (forall crash, snd (load_dataset opened f' U true crash) = snd (load_dataset opened f U true crash)) /\
  snd (load_dataset opened f' T false false) = snd (load_dataset opened f T false false).
Proof.
  intros opened f T U H f'. assert (E : f' (cache_file U) = f (cache_file U)).
  { unfold f', load_dataset. destruct (f (cache_file T)); auto. unfold export. destruct (load_messages opened T); auto. cbn [fst]. unfold set_file.
    destruct (String.eqb_spec (cache_file U) (cache_file T)); [contradiction|reflexivity]. }
  split; [|reflexivity]. intros crash. clearbody f'. unfold load_dataset. rewrite E. destruct (f (cache_file U)) eqn:Eu.
  - unfold open_dataset. cbn [snd]. rewrite E, Eu. reflexivity.
  - unfold export. destruct (load_messages opened U); auto. destruct crash; auto. unfold open_dataset, set_file. cbn [snd]. rewrite String.eqb_refl. reflexivity.
Qed.
(** A crash before the file is created, or after it is complete, does no harm: the folder is
    then one reached by [loads] (C47_partial). *)
Example C58_example : load_messages (Some ex_bag) "/a/b" = Ok (mot [1; 5/2]) /\ cache_file "/a/c" <> cache_file "/a/b".
Proof. split; [apply ex_load|discriminate]. Qed.
