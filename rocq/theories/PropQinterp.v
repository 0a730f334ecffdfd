(** Property C60: quaternion interpolation of arrays. *)
From Coq Require Import Reals List Arith Bool ZArith Lia Lra.
From Verif Require Import Base Quat SpecQuat QuatProofs NdArray Frames Matcher LookupProofs MovingProofs TimeProofs InverseProofs RouteProofs
  Transform SpecArray NdProofs RotProofs ArrProofs ArrStaticProofs PropRotate Utils UtilsProofs Qinterp.
Import ListNotations.
Open Scope nat_scope.

(* ---- specification ---- *)
(** An array of quaternions with n of them along axis p: the series at position pre of the
    other axes (rest). *)
Definition series_q (q : nd quat) (p n : nat) (pre : list nat) : list quat := map (fun i => dat q (put p i pre)) (seq 0 n).
(** A float array with the components on axis k; axis p counts the axes without axis k. *)
Definition series_f (q : nd R) (k p n : nat) (pre : list nat) : list quat := map (fun i => quat_on q k (put p i pre)) (seq 0 n).
(** Where axis p is in the float array. *)
Definition with_components (k p : nat) : nat := if p <? k then p else S p.
(** Something to interpolate: output times, no empty axis. *)
Definition some_data (n : nat) (rest : list nat) (l : list R) : Prop := 0 < n /\ Forall (fun d => 0 < d) rest /\ l <> [].
(** At every position of the other axes and for every output time, the output is what
    the one-dimensional interpolation of that series gives. *)
Definition interpolates squad (ser : list nat -> list quat) (out : nat -> list nat -> quat) (rest : list nat) (t_in t_out : list R) : Prop :=
  forall j x pre, nth_error t_out j = Some x -> valid rest pre -> squad t_in (ser pre) x = Ok (out j pre).
(** Every one-dimensional interpolation succeeds. *)
Definition series_ok (squad : list R -> list quat -> R -> res quat) (ser : list nat -> list quat) (rest : list nat) (t_in t_out : list R) : Prop :=
  forall x pre, In x t_out -> valid rest pre -> exists r, squad t_in (ser pre) x = Ok r.

(* ---- proofs ---- *)
Lemma py_mod_axis a k n : k < n -> axis_is a k n -> py_mod a n = Ok (Z.of_nat k).
Proof.
  intros H A. unfold py_mod. destruct n as [|n]; [lia|]. f_equal. destruct A as [-> | ->].
  - apply Z.mod_small. lia.
  - replace (Z.of_nat k - Z.of_nat (S n))%Z with (Z.of_nat k + (-1) * Z.of_nat (S n))%Z by lia. rewrite Z.mod_add by lia. apply Z.mod_small. lia.
Qed.
Lemma mv_surj t s pre : t <= length s -> valid (mv t s) pre -> exists p, pre = mv t p /\ valid s p.
Proof.
  intros H V. assert (Lp : length pre = length s) by (rewrite (valid_length _ _ V), length_mv; auto).
  assert (V0 : valid (1 :: mv t s) (0 :: pre)) by (constructor; auto).
  rewrite <- (swapl_insert0 t 1 s H) in V0. apply valid_swapl_inv in V0; try (rewrite length_insert; lia).
  apply valid_insert_inv in V0 as (c & p & E & Vc & Vp); auto. exists p. split; auto.
  assert (E' : swapl 0 t (swapl 0 t (0 :: pre)) = swapl 0 t (insert_at t c p)) by congruence.
  rewrite swapl_invol in E' by (cbn; lia). rewrite swapl_insert0 in E' by (rewrite (valid_length _ _ Vp); lia). congruence.
Qed.
Lemma no_zero n rest l : some_data n rest l -> existsb (Nat.eqb 0) (length l :: n :: rest) = false.
Proof.
  intros (A & B & C). cbn [existsb]. replace (0 =? n) with false by (symmetry; apply Nat.eqb_neq; lia).
  destruct l; [congruence|]. cbn [length Nat.eqb orb]. induction B as [|d rest H _ IH]; [reflexivity|]. cbn [existsb].
  destruct d; [lia|]. exact IH.
Qed.
Lemma valid_mv_pos p rest : p <= length rest -> Forall (fun d => 0 < d) rest -> Forall (fun d => 0 < d) (mv p rest).
Proof.
  intros H F. assert (V : valid rest (repeat 0 (length rest))).
  { clear H. induction F; cbn; constructor; auto. }
  apply valid_mv with (t := p) in V; auto. clear -V. unfold valid in V. remember (mv p (repeat 0 (length rest))) as z. clear Heqz.
  induction V; constructor; auto. lia.
Qed.
Lemma interp_quats_ok squad q t_in t_out p n rest : shp q = insert_at p n rest -> p <= length rest -> length t_in = n ->
  some_data n rest t_out ->
  series_ok squad (fun pre => map (fun i => dat q (insert_at p i pre)) (seq 0 n)) rest t_in t_out ->
  exists c, interp_quats squad q t_in t_out (Z.of_nat p) = Ok c /\ shp c = insert_at p (length t_out) rest /\
    interpolates squad (fun pre => map (fun i => dat q (insert_at p i pre)) (seq 0 n)) (fun j pre => dat c (insert_at p j pre)) rest t_in t_out.
Proof.
  intros Sq Hp Hn Hd Hs. unfold interp_quats, swapaxes. 
  assert (Nq : ndim q = S (length rest)) by (unfold ndim; rewrite Sq, length_insert; auto).
  rewrite norm_axis_pos by lia. cbn [bind]. rewrite (norm_axis_pos 0 (ndim q) ltac:(lia) : norm_axis 0 (ndim q) = Ok 0). cbn [bind].
  set (a := swap_nd p 0 q). assert (Sa : shp a = n :: mv p rest) by (unfold a; cbn [swap_nd shp]; rewrite Sq, swapl_comm, swapl_insert0; auto).
  assert (Da : forall i pre, length pre = length rest -> dat a (i :: mv p pre) = dat q (insert_at p i pre)).
  { intros i pre L. unfold a. cbn [swap_nd dat]. rewrite swapl_comm, swapl_mv by lia. reflexivity. }
  clearbody a. unfold squad_q. rewrite Sa.
  assert (Hd' : some_data n (mv p rest) t_out) by (destruct Hd as (A & B & C); split; [auto|split; [apply valid_mv_pos; auto|auto]]).
  rewrite (no_zero _ _ _ Hd'). rewrite (proj2 (Nat.eqb_eq _ _) Hn). cbn [negb].
  assert (Ser : forall pre, length pre = length rest -> map (fun i => dat a (i :: mv p pre)) (seq 0 n) = map (fun i => dat q (insert_at p i pre)) (seq 0 n)).
  { intros pre L. apply map_ext. intros i. apply Da. auto. }
  edestruct (traverse_all_ok (fun x => traverse (fun jx => squad t_in (map (fun i => dat a (i :: jx)) (seq 0 n)) x) (indices (mv p rest))) t_out) as (z & Ez).
  { intros x Hx. apply traverse_all_ok. intros jx Hj. apply in_indices in Hj. apply mv_surj in Hj as (pre & -> & V); auto.
    rewrite Ser by (apply valid_length; auto). apply Hs; auto. }
  rewrite Ez. cbn [bind as_runtime]. set (b := Nd _ _).
  assert (Nb : ndim b = S (length rest)) by (unfold ndim, b; cbn [shp length]; rewrite length_mv; auto).
  rewrite (norm_axis_pos 0 (ndim b) ltac:(lia) : norm_axis 0 (ndim b) = Ok 0). cbn [bind]. rewrite norm_axis_pos by lia. cbn [bind].
  eexists. split; [reflexivity|]. split.
  - cbn [swap_nd shp b]. rewrite swapl_mv by auto. reflexivity.
  - intros j x pre Hj V. pose proof (valid_length _ _ V) as L. cbn [swap_nd dat b]. rewrite swapl_insert0 by lia. cbn [hd tl].
    rewrite Ser by auto. rewrite (nth_error_nth _ _ _ Hj). destruct (Hs x pre (nth_error_In _ _ Hj) V) as (r & E). rewrite E. reflexivity.
Qed.
(** Quaternion arrays: the other axes are interpolated independently, the result has the
    output times along the same axis. *)
Theorem C60_quaternions : forall squad q t_in t_out axis qaxis p n rest,
  shp q = put p n rest -> p <= length rest -> axis_is axis p (ndim q) -> length t_in = n -> some_data n rest t_out ->
  series_ok squad (series_q q p n) rest t_in t_out ->
  exists m, qinterp squad (QQ q) t_in t_out axis qaxis = Ok (QQ m) /\ shp m = put p (length t_out) rest /\
    interpolates squad (series_q q p n) (fun j pre => dat m (put p j pre)) rest t_in t_out.
Proof.
  intros squad q t_in t_out axis qaxis p n rest Sq Hp Ha Hn Hd Hs. rewrite put_insert in Sq by auto.
  assert (Nq : ndim q = S (length rest)) by (unfold ndim; rewrite Sq, length_insert; auto).
  cbn [qinterp]. rewrite (py_mod_axis axis p) by (auto; lia). cbn [bind].
  assert (E : forall pre, valid rest pre -> series_q q p n pre = map (fun i => dat q (insert_at p i pre)) (seq 0 n)).
  { intros pre V. apply map_ext. intros i. rewrite put_insert by (rewrite (valid_length _ _ V); auto). reflexivity. }
  destruct (interp_quats_ok squad q t_in t_out p n rest Sq Hp Hn Hd) as (c & Ec & Sc & Dc).
  { intros x pre Hx V. rewrite <- E by auto. apply Hs; auto. }
  rewrite Ec. cbn [bind]. exists c. split; [reflexivity|]. split; [rewrite put_insert; auto|].
  intros j x pre Hj V. rewrite E by auto. rewrite put_insert by (rewrite (valid_length _ _ V); auto). apply Dc; auto.
Qed.

(* ---- where an axis goes when the last axis and the component axis are swapped ---- *)
Lemma nth_insert_at p x l j : p <= length l -> nth j (insert_at p x l) 0 = if j <? p then nth j l 0 else if j =? p then x else nth (j - 1) l 0.
Proof.
  revert p j. induction l as [|a l IH]; intros p j H; cbn in H.
  - assert (p = 0) by lia. subst. cbn. destruct j as [|[|j]]; reflexivity.
  - destruct p as [|p].
    + cbn. destruct j as [|j]; [reflexivity|]. cbn. rewrite Nat.sub_0_r. reflexivity.
    + cbn [insert_at]. destruct j as [|j]; [reflexivity|]. cbn [nth]. rewrite IH by lia.
      change (S j <? S p) with (j <? p). change (S j =? S p) with (j =? p). destruct (Nat.ltb_spec j p); [reflexivity|]. destruct (Nat.eqb_spec j p); [reflexivity|].
      destruct j as [|j]; [lia|]. cbn. rewrite Nat.sub_0_r. reflexivity.
Qed.
Lemma nth_remove_at p l j : nth j (remove_at p l) 0 = nth (if j <? p then j else S j) l 0.
Proof.
  revert p j. induction l as [|a l IH]; intros p j; [replace (remove_at p []) with (@nil nat) by (destruct p; reflexivity); rewrite !nth_overflow by (cbn; lia); reflexivity|].
  destruct p as [|p]; [reflexivity|]. cbn [remove_at]. destruct j as [|j]; [reflexivity|]. cbn [nth]. rewrite IH.
  change (S j <? S p) with (j <? p). destruct (j <? p); reflexivity.
Qed.
Lemma nth_mvl k l m : k <= length l -> m < length l ->
  nth m (mvl k l) 0 = if m =? k then nth (length l - 1) l 0 else if m <? k then nth m l 0 else nth (m - 1) l 0.
Proof.
  intros Hk Hm. pose proof (swapl_insert_end k 0 l Hk) as E.
  assert (N : nth m (mvl k l) 0 = nth m (mvl k l ++ [0]) 0) by (rewrite app_nth1; auto; rewrite length_mvl; auto).
  rewrite N, <- E, nth_swapl by (rewrite length_insert; auto; lia). unfold transp.
  destruct (Nat.eqb_spec m (length l)); [lia|]. destruct (Nat.eqb_spec m k) as [->|Nk].
  - rewrite nth_insert_at by auto. destruct (Nat.ltb_spec (length l) k); [lia|]. destruct (Nat.eqb_spec (length l) k); [lia|]. reflexivity.
  - rewrite nth_insert_at by auto. destruct (Nat.ltb_spec m k); [reflexivity|]. destruct (Nat.eqb_spec m k); [lia|]. reflexivity.
Qed.
Lemma mvl_insert k p pre : k <= S (length pre) -> p <= length pre ->
  let q := (if with_components k p =? S (length pre) then k else with_components k p) in
  q <= length pre /\ exists f, length f = length pre /\ forall x, mvl k (insert_at p x pre) = insert_at q x f.
Proof.
  intros Hk Hp q. assert (L : forall x, length (insert_at p x pre) = S (length pre)) by (intros; apply length_insert; auto).
  assert (Hq : q <= length pre).
  { unfold q, with_components. destruct (Nat.ltb_spec p k); (match goal with |- context [?a =? ?b] => destruct (Nat.eqb_spec a b) end); lia. }
  split; [exact Hq|]. exists (remove_at q (mvl k (insert_at p 0 pre))). split; [rewrite length_remove, length_mvl, L by (rewrite ?length_mvl; rewrite ?L; lia); lia|].
  intros x.
  assert (Lm : forall y, length (mvl k (insert_at p y pre)) = S (length pre)) by (intros y; rewrite length_mvl; rewrite L; auto).
  rewrite <- (insert_remove q (mvl k (insert_at p x pre))) by (rewrite Lm; lia). f_equal.
  - rewrite nth_mvl by (rewrite L; lia). rewrite L, !nth_insert_at by auto. unfold q, with_components.
    destruct (Nat.ltb_spec p k); (match goal with |- context [?a =? S (length pre)] => destruct (Nat.eqb_spec a (S (length pre))) end);
      repeat (match goal with |- context [?a =? ?b] => destruct (Nat.eqb_spec a b) | |- context [?a <? ?b] => destruct (Nat.ltb_spec a b) end; try lia; auto).
  - apply list_nth_ext; [rewrite !length_remove; rewrite !Lm; lia|]. intros j Hj. rewrite length_remove in Hj by (rewrite Lm; lia). rewrite Lm in Hj.
    rewrite !nth_remove_at. rewrite !nth_mvl by (rewrite L; destruct (j <? q); lia). rewrite !L, !nth_insert_at by auto. revert Hq Hj. unfold q, with_components. clear q Lm L. intros Hq Hj.
    destruct (Nat.ltb_spec p k); (match goal with |- context [?a =? S (length pre)] => destruct (Nat.eqb_spec a (S (length pre))) end);
      repeat (match goal with |- context [?a =? ?b] => destruct (Nat.eqb_spec a b) | |- context [?a <? ?b] => destruct (Nat.ltb_spec a b) end; try lia; auto).
    all: exfalso; repeat match goal with H : context [?a <? ?b] |- _ => destruct (Nat.ltb_spec a b) end; lia.
Qed.
Lemma mvl_axis k p (rest : list nat) : k <= S (length rest) -> p <= length rest ->
  exists q f, q = (if with_components k p =? S (length rest) then k else with_components k p) /\ q <= length rest /\
    (forall x pre, length pre = length rest -> length (f pre) = length rest /\ mvl k (insert_at p x pre) = insert_at q x (f pre)).
Proof.
  intros Hk Hp. set (q := if with_components k p =? S (length rest) then k else with_components k p).
  exists q, (fun pre => remove_at q (mvl k (insert_at p 0 pre))). split; auto.
  split; [apply (proj1 (mvl_insert k p rest Hk Hp))|]. intros x pre L.
  destruct (mvl_insert k p pre) as (Hq & f & Lf & Ef); try lia. rewrite L in Hq, Ef. fold q in Hq, Ef.
  rewrite Ef, remove_insert by lia. split; [lia|]. apply Ef.
Qed.
(** Float arrays with the components on any axis k and the times on any other. *)
Theorem C60_floats : forall squad q t_in t_out axis qaxis k p n rest,
  shp q = put k 4 (put p n rest) -> k <= S (length rest) -> p <= length rest ->
  axis_is axis (with_components k p) (ndim q) -> axis_is qaxis k (ndim q) -> length t_in = n -> some_data n rest t_out ->
  series_ok squad (series_f q k p n) rest t_in t_out ->
  exists m, qinterp squad (QF q) t_in t_out axis qaxis = Ok (QF m) /\ shp m = put k 4 (put p (length t_out) rest) /\
    interpolates squad (series_f q k p n) (fun j pre => quat_on m k (put p j pre)) rest t_in t_out.
Proof.
  intros squad q t_in t_out axis qaxis k p n rest Sq Hk Hp Ha Hqa Hn Hd Hs.
  assert (Ln : forall x l, p <= length l -> length (insert_at p x l) = S (length l)) by (intros; apply length_insert; auto).
  rewrite (put_insert p n rest), (put_insert k 4) in Sq by (rewrite ?put_insert; rewrite ?Ln; auto).
  assert (Nq : ndim q = S (S (length rest))) by (unfold ndim; rewrite Sq, length_insert, Ln; rewrite ?Ln; auto).
  rewrite Nq in Ha, Hqa. cbn [qinterp]. rewrite Nq.
  rewrite (py_mod_axis axis (with_components k p)) by (auto; unfold with_components; destruct (p <? k); lia). cbn [bind].
  rewrite (py_mod_axis qaxis k) by (auto; lia). cbn [bind].
  destruct (to_quat_ok q (Z.of_nat k) k (insert_at p n rest) Sq) as (b & Eb & Sb & Db); [rewrite Ln; auto|rewrite Nq; apply norm_axis_pos; lia|].
  rewrite Eb. cbn [bind].
  destruct (mvl_axis k p rest Hk Hp) as (ax & f & Eax & Hax & Hf). destruct (Hf n rest eq_refl) as (Lf & Ef). rewrite Ef in Sb.
  replace (if (Z.of_nat (with_components k p) =? Z.of_nat (S (S (length rest))) - 1)%Z then Z.of_nat k else Z.of_nat (with_components k p)) with (Z.of_nat ax)
    by (rewrite Eax; destruct (Nat.eqb_spec (with_components k p) (S (length rest))), (Z.eqb_spec (Z.of_nat (with_components k p)) (Z.of_nat (S (S (length rest))) - 1)%Z); lia).
  assert (D2 : forall i pre, length pre = length rest -> dat b (insert_at ax i (f pre)) = quat_along q k (insert_at p i pre)).
  { intros i pre L. rewrite <- (proj2 (Hf i pre L)). apply Db. rewrite !Ln by lia. lia. }
  assert (Vf : forall pre, valid (f rest) pre -> exists pre', pre = f pre' /\ valid rest pre').
  { intros pre V. assert (W : valid (mvl k (insert_at p 1 rest)) (insert_at ax 0 pre)).
    { rewrite (proj2 (Hf 1 rest eq_refl)). apply valid_insert; [lia|auto|auto]. }
    apply mvl_surj in W as (ix & E & W); [|rewrite Ln; auto]. apply valid_insert_inv in W as (c & pre' & -> & Hc & W); auto.
    assert (c = 0) by lia. subst c. exists pre'. split; auto. pose proof (valid_length _ _ W) as L'. pose proof (valid_length _ _ V) as L2.
    rewrite (proj2 (Hf 0 pre' L')) in E. assert (E2 : remove_at ax (insert_at ax 0 pre) = remove_at ax (insert_at ax 0 (f pre'))) by congruence.
    rewrite !remove_insert in E2; auto; [rewrite (proj1 (Hf 0 pre' L')); auto|lia]. }
  assert (Vf2 : forall pre, valid rest pre -> valid (f rest) (f pre)).
  { intros pre V. pose proof (valid_length _ _ V) as L. assert (W : valid (mvl k (insert_at p 1 rest)) (mvl k (insert_at p 0 pre))).
    { apply valid_mvl; [rewrite Ln; auto|]. apply valid_insert; auto. }
    rewrite (proj2 (Hf 1 rest eq_refl)), (proj2 (Hf 0 pre L)) in W. apply valid_remove with (k := ax) in W; [|rewrite length_insert; lia].
    rewrite !remove_insert in W; auto; [rewrite (proj1 (Hf 0 pre L)); auto|lia]. }
  assert (Ser : forall pre, valid rest pre -> map (fun i => dat b (insert_at ax i (f pre))) (seq 0 n) = series_f q k p n pre).
  { intros pre V. pose proof (valid_length _ _ V) as L. apply map_ext. intros i. rewrite D2 by auto. rewrite put_insert by lia. rewrite quat_on_along; [reflexivity|]. rewrite Ln; lia. }
  assert (Pos : Forall (fun d => 0 < d) (f rest)).
  { destruct Hd as (_ & F & _). assert (V : valid rest (repeat 0 (length rest))). { clear -F. induction F; cbn; constructor; auto. }
    apply Vf2 in V. clear -V. unfold valid in V. remember (f (repeat 0 (length rest))) as z. clear Heqz. induction V; constructor; auto. lia. }
  destruct (interp_quats_ok squad b t_in t_out ax n (f rest) Sb) as (c & Ec & Sc & Dc); auto; [lia|destruct Hd as (A & B & C); split; auto| |].
  { intros x pre Hx V. destruct (Vf pre V) as (pre' & -> & V'). rewrite Ser by auto. apply Hs; auto. }
  rewrite Ec. cbn [bind].
  destruct (from_quat_ok c (Z.of_nat k) k (insert_at p (length t_out) rest)) as (d & Ed & Sd & Dd).
  { rewrite Sc. symmetry. apply (proj2 (Hf _ rest eq_refl)). }
  { rewrite Ln; auto. } { apply norm_axis_pos. rewrite Ln; lia. }
  rewrite Ed. cbn [bind]. exists d. split; [reflexivity|]. split; [rewrite !put_insert; auto; rewrite ?put_insert; rewrite ?Ln; auto|].
  intros j x pre Hj V. pose proof (valid_length _ _ V) as L. rewrite <- Ser by auto. rewrite put_insert by lia. rewrite quat_on_along by (rewrite Ln; lia).
  rewrite Dd by (rewrite !Ln; lia). rewrite (proj2 (Hf j pre L)). apply Dc; auto.
Qed.
(** Unit quaternions at two or more strictly increasing times: output times between the
    first and the last are fine ... *)
Theorem C60_in_range : forall squad (ser : list nat -> list quat) rest t_in t_out,
  squad_total squad -> increasing t_in -> 2 <= length t_in -> (forall pre, valid rest pre -> length (ser pre) = length t_in /\ Forall hunit (ser pre)) ->
  (forall x, In x t_out -> exists a b, hd_error t_in = Some a /\ nth_error t_in (length t_in - 1) = Some b /\ (a <= x <= b)%R) ->
  series_ok squad ser rest t_in t_out.
Proof.
  intros squad ser rest t_in t_out Ht Hi Hn Hs Hb x pre Hx V. destruct (Hs pre V) as (L & U). apply Ht; auto.
  destruct (Hb x Hx) as (a & b & Ha & Hbb & Hab). destruct t_in as [|a0 l]; [discriminate|]. injection Ha as ->. cbn [in_bounds].
  assert (E : last l a = b).
  { cbn [length] in Hbb. rewrite Nat.sub_succ, Nat.sub_0_r in Hbb. revert Hbb. clear. revert a. induction l as [|c l IH]; intros a H.
    - cbn in H |- *. injection H as H. exact H.
    - cbn [length nth_error] in H. specialize (IH c H). destruct l as [|d l]; [exact IH|]. rewrite <- IH. change (last (d :: l) a = last (d :: l) c). clear. revert d. induction l; intros d; [reflexivity|]. apply (IHl a0). }
  rewrite E. apply andb_true_intro. split; apply Rle_b_true; lra.
Qed.
(** ... and at an input time the input quaternion is returned. *)
Theorem C60_samples : forall squad ser out rest t_in t_out j i x pre, squad_exact squad -> interpolates squad ser out rest t_in t_out ->
  increasing t_in -> 2 <= length t_in -> length (ser pre) = length t_in -> Forall hunit (ser pre) -> valid rest pre ->
  nth_error t_out j = Some x -> nth_error t_in i = Some x -> nth_error (ser pre) i = Some (out j pre).
Proof.
  intros squad ser out rest t_in t_out j i x pre He Hin Hi Hn L U V Hj Hx.
  destruct (nth_error (ser pre) i) as [r|] eqn:E; [|apply nth_error_None in E; assert (i < length t_in) by (apply nth_error_Some; congruence); lia].
  specialize (Hin j x pre Hj V). rewrite (He t_in (ser pre) i x r Hi Hn L U Hx E) in Hin. congruence.
Qed.
(** A 2x3 grid of series of three unit quaternions, components on axis 1, times last. *)
Definition ex_q : nd R := Nd [2; 4; 3] (fun ix => match ix with [a; c; i] => if c =? (a + i) mod 4 then 1%R else 0%R | _ => 0%R end).
Example C60_example : shp ex_q = put 1 4 (put 1 3 [2]) /\ axis_is 2 (with_components 1 1) (ndim ex_q) /\ axis_is 1 1 (ndim ex_q) /\
  some_data 3 [2] [0; 1/2; 1]%R /\ squad_total hold_squad /\ squad_exact hold_squad /\ increasing [0;1;3]%R /\
  (forall pre, valid [2] pre -> length (series_f ex_q 1 1 3 pre) = 3 /\ Forall hunit (series_f ex_q 1 1 3 pre)) /\
  series_ok hold_squad (series_f ex_q 1 1 3) [2] [0;1;3]%R [0;1/2;1]%R.
Proof.
  assert (U : forall pre, valid [2] pre -> length (series_f ex_q 1 1 3 pre) = 3 /\ Forall hunit (series_f ex_q 1 1 3 pre)).
  { intros pre V. inversion V as [|a ? pre' ? Ha V']. inversion V'. subst. split; [reflexivity|].
    destruct a as [|[|a]]; [| |lia]; unfold series_f, hunit; cbn [map seq]; repeat (apply Forall_cons; [cbv -[IZR Rplus Rmult Rminus Ropp Rdiv]; lra|]); apply Forall_nil. }
  assert (I : increasing [0;1;3]%R).
  { intros [|[|[|i]]] [|[|[|j]]] a b Hij Ha Hb; cbn in Ha, Hb; try lia; try (injection Ha as <-; injection Hb as <-; lra); try (destruct i; discriminate); destruct j; discriminate. }
  split; [reflexivity|]. split; [left; reflexivity|]. split; [left; reflexivity|]. split; [split; [lia|]; split; [repeat constructor; lia|discriminate]|].
  split; [exact hold_squad_total|]. split; [exact hold_squad_exact|]. split; [exact I|]. split; [exact U|].
  apply C60_in_range; auto using hold_squad_total; try (cbn; lia).
  intros x Hx. exists 0%R, 3%R. split; [reflexivity|]. split; [reflexivity|]. cbn in Hx. destruct Hx as [<-|[<-|[<-|[]]]]; lra.
Qed.
Print Assumptions C60_floats.
Print Assumptions C60_samples.
