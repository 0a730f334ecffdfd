(** Array transforms sample by sample. *)
From Coq Require Import Reals List Arith Bool ZArith Lia Lra.
From Verif Require Import Base Quat SpecQuat QuatProofs NdArray Frames SpecForest FrameProofs WalkProofs
  Matcher SpecLookup LookupProofs RegistryProofs MovingProofs TimeProofs CtorProofs InverseProofs RouteProofs
  Transform SpecArray NdProofs RotProofs.
Import ListNotations.
Open Scope nat_scope.

Lemma Ok_inj {A} (a b : A) : Ok a = Ok b -> a = b.
Proof. intros H. injection H as H. exact H. Qed.

(* ---- swapping the time axis to the front ---- *)
Definition mv (t : nat) (pre : list nat) : list nat := tl (swapl 0 t (insert_at t 0 pre)).
Lemma swapl_insert0 t x pre : t <= length pre -> swapl 0 t (insert_at t x pre) = x :: mv t pre.
Proof.
  intros H. unfold mv.
  assert (G : forall y, exists l, swapl 0 t (insert_at t y pre) = y :: l /\
      forall k, S k < S (length pre) -> nth k l 0 = nth (transp 0 t (S k)) (insert_at t 0 pre) 0).
  { intros y. pose proof (length_swapl 0 t (insert_at t y pre)) as L. rewrite length_insert in L by auto.
    destruct (swapl 0 t (insert_at t y pre)) as [|z l] eqn:E; [discriminate|]. exists l. split.
    - f_equal. change z with (nth 0 (z :: l) 0). rewrite <- E. rewrite nth_swapl by (rewrite length_insert; lia).
      unfold transp. simpl. apply nth_insert; auto.
    - intros k Hk. change (nth k l 0) with (nth (S k) (z :: l) 0). rewrite <- E.
      rewrite nth_swapl by (rewrite length_insert; lia).
      assert (Ht : transp 0 t (S k) <> t).
      { unfold transp. simpl. destruct t as [|t]; [lia|]. destruct (Nat.eqb_spec k t); lia. }
      revert Ht. generalize (transp 0 t (S k)). clear -H. intros m. revert m t H.
      induction pre as [|a pre IH]; intros m t H Hm; simpl in H.
      + assert (t = 0) by lia. subst. destruct m as [|m]; [lia|reflexivity].
      + destruct t as [|t]; simpl; [destruct m; [lia|reflexivity]|]. destruct m; auto. apply IH; lia. }
  destruct (G x) as (l & E & Hl). destruct (G 0) as (l0 & E0 & Hl0). rewrite E, E0. simpl. f_equal.
  pose proof (length_swapl 0 t (insert_at t x pre)) as L. rewrite E, length_insert in L by auto.
  pose proof (length_swapl 0 t (insert_at t 0 pre)) as L0. rewrite E0, length_insert in L0 by auto. simpl in L, L0.
  apply list_nth_ext; [lia|]. intros k Hk. rewrite Hl, Hl0 by lia. reflexivity.
Qed.
Lemma length_mv t pre : t <= length pre -> length (mv t pre) = length pre.
Proof.
  intros H. pose proof (length_swapl 0 t (insert_at t 0 pre)) as L. rewrite swapl_insert0, length_insert in L by auto.
  simpl in L. lia.
Qed.
Lemma swapl_mv t x pre : t <= length pre -> swapl 0 t (x :: mv t pre) = insert_at t x pre.
Proof. intros H. rewrite <- (swapl_insert0 t x) by auto. apply swapl_invol; rewrite length_insert; lia. Qed.
Lemma valid_mv t s pre : t <= length s -> valid s pre -> valid (mv t s) (mv t pre).
Proof.
  intros H Hv. pose proof (valid_length _ _ Hv) as L.
  assert (G : valid (1 :: mv t s) (0 :: mv t pre)).
  { rewrite <- !swapl_insert0 by lia. apply valid_swapl; rewrite ?length_insert; try lia. apply valid_insert; auto. }
  inversion G; auto.
Qed.
Lemma insert_app t x l m : t <= length l -> insert_at t x (l ++ m) = insert_at t x l ++ m.
Proof. revert t; induction l as [|a l IH]; intros [|t] H; simpl in *; auto; try lia. f_equal. apply IH. lia. Qed.
(** The moved index when a further axis sits at k, beyond the time axis and not
    at the front. *)
Lemma swapl_app t l m : t < length l -> swapl 0 t (l ++ m) = swapl 0 t l ++ m.
Proof.
  intros H. apply list_nth_ext; [rewrite app_length, !length_swapl, app_length; reflexivity|].
  intros k Hk. rewrite length_swapl, app_length in Hk. rewrite nth_swapl by (rewrite app_length; lia).
  destruct (Nat.lt_ge_cases k (length l)).
  - rewrite (app_nth1 (swapl 0 t l)) by (rewrite length_swapl; auto). rewrite nth_swapl by auto.
    rewrite app_nth1; auto. apply transp_lt; lia.
  - rewrite (app_nth2 (swapl 0 t l)) by (rewrite length_swapl; auto). rewrite length_swapl.
    replace (transp 0 t k) with k. { rewrite app_nth2; auto. }
    unfold transp. destruct (Nat.eqb_spec k 0); [lia|]. destruct (Nat.eqb_spec k t); [lia|reflexivity].
Qed.

(* ---- interpolation at sample times returns the samples ---- *)
Lemma interp_exact_fun ts (ys : list (list nat -> R)) m x y : increasing ts -> 2 <= length ts -> length ys = length ts ->
  nth_error ts m = Some x -> nth_error ys m = Some y ->
  exists w, interp_at lin_fun ts ys x = Ok w /\ forall jx, w jx = y jx.
Proof.
  intros Hi Hn Hl Hx Hy.
  destruct (interp_at_ok lin_fun ts ys x Hi Hn Hl) as (k & a & b & u & v & E & Ha & Hb & Hab & Hu & Hv & Eq).
  exists (lin_fun a b u v x). split; auto. intros jx.
  assert (B : in_bounds ts x = true).
  { apply increasing_bounds; auto. apply (nth_error_In _ _ Hx). }
  pose proof (interp_idx_spec ts x k a b B E Ha Hb ltac:(lra) Hab) as (_ & _ & _ & D).
  assert (C : m = k \/ m = S k).
  { destruct (Nat.lt_trichotomy m k) as [Lt|[Eq'|Gt]]; auto.
    - pose proof (Hi m k x a Lt Hx Ha). lra.
    - destruct (Nat.eq_dec m (S k)); auto. pose proof (Hi (S k) m b x ltac:(lia) Hb Hx). lra. }
  unfold lin_fun, lin1. destruct C as [-> | ->].
  - rewrite Ha in Hx; injection Hx as <-. rewrite Hu in Hy; injection Hy as <-. field. lra.
  - rewrite Hb in Hx; injection Hx as <-. rewrite Hv in Hy; injection Hy as <-. field. lra.
Qed.

Lemma traverse_nth_eq {A B} (f : A -> res B) l l' i a d :
  traverse f l = Ok l' -> nth_error l i = Some a -> f a = Ok (nth i l' d).
Proof.
  intros H Ha. pose proof (traverse_length _ _ _ H) as L.
  destruct (nth_error l' i) as [b|] eqn:E.
  - rewrite (nth_error_nth _ _ d E). apply (traverse_nth f l l' i b H) in E as (a' & E1 & E2). congruence.
  - apply nth_error_None in E. pose proof (nth_lt _ _ _ Ha). lia.
Qed.

(** l is a subsequence of the timestamps in range, via sample indices. *)
Lemma interp_nd_samples ts (a : nd R) l n mid : increasing ts -> 2 <= length ts -> shp a = n :: mid -> length ts = n ->
  (forall x, In x l -> In x ts) ->
  exists b, interp_nd ts a l = Ok b /\ shp b = length l :: mid /\
    forall k x m, nth_error l k = Some x -> nth_error ts m = Some x ->
      forall jx, dat b (k :: jx) = dat a (m :: jx).
Proof.
  intros Hi Hn Hs Hl Hin. unfold interp_nd. rewrite Hs. cbn [hd tl].
  set (ys := map (fun i jx => dat a (i :: jx)) (seq 0 n)).
  assert (Ly : length ys = length ts) by (unfold ys; rewrite map_length, seq_length; auto).
  assert (Ny : forall m, m < n -> nth_error ys m = Some (fun jx => dat a (m :: jx))).
  { intros m Hm. unfold ys. rewrite nth_error_map.
    rewrite (nth_error_nth' (seq 0 n) 0) by (rewrite seq_length; auto). rewrite seq_nth by auto. reflexivity. }
  assert (Hex : forall x, In x l -> exists m w, nth_error ts m = Some x /\ interp_at lin_fun ts ys x = Ok w).
  { intros x Hx. apply Hin, In_nth_error in Hx as (m & Hm). pose proof (nth_lt _ _ _ Hm) as Lm.
    destruct (interp_exact_fun ts ys m x _ Hi Hn Ly Hm (Ny m ltac:(lia))) as (w & Ew & _). eauto. }
  unfold interp1d.
  replace (forallb (in_bounds ts) l) with true.
  2:{ symmetry. apply forallb_forall. intros x Hx. apply increasing_bounds; auto. }
  destruct (traverse (interp_at lin_fun ts ys) l) as [rows|e] eqn:E.
  2:{ exfalso. unfold traverse in E. clear -E Hex. revert E Hex. generalize e. induction l as [|x l IH]; intros e' E H; [discriminate|].
      simpl in E. destruct (H x (or_introl eq_refl)) as (m & w & _ & Ew). rewrite Ew in E. simpl in E.
      destruct (sequence (map (interp_at lin_fun ts ys) l)) eqn:E2; [discriminate|]. eapply (IH e0); eauto.
      intros y Hy. apply H. right; auto. }
  cbn [bind]. eexists. split; [reflexivity|]. simpl. split; auto.
  intros k x m Hk Hm jx. pose proof (nth_lt _ _ _ Hm) as Lm.
  destruct (interp_exact_fun ts ys m x _ Hi Hn Ly Hm (Ny m ltac:(lia))) as (w & Ew & Hw).
  pose proof (traverse_nth_eq _ _ _ k x (fun _ => 0%R) E Hk) as E'. rewrite Ew in E'. injection E' as E'.
  rewrite <- E'. apply Hw.
Qed.

Section Squad.
Variable squad : list R -> list quat -> R -> res quat.

Lemma quat_at_comp (a : nd R) pre c : c < 4 -> comp4 c (quat_at a pre) = dat a (pre ++ [c]).
Proof. intros H. destruct c as [|[|[|[|c]]]]; [reflexivity..|lia]. Qed.
Lemma last_snoc {A} (l : list A) x d : last (l ++ [x]) d = x.
Proof. apply last_last. Qed.

Lemma squad_nd_samples ts (a : nd R) l n mid : squad_exact squad -> increasing ts -> 2 <= length ts ->
  shp a = n :: mid ++ [4] -> length ts = n ->
  (forall m pre, m < n -> valid mid pre -> hunit (quat_at a (m :: pre))) ->
  (forall x, In x l -> In x ts) ->
  exists b, squad_nd squad ts a l = Ok b /\ shp b = length l :: mid ++ [4] /\
    forall k x m pre, nth_error l k = Some x -> nth_error ts m = Some x -> valid mid pre ->
      quat_at b (k :: pre) = quat_at a (m :: pre).
Proof.
  intros Hex Hi Hn Hs Hl Hu Hin. unfold squad_nd. rewrite Hs.
  destruct (mid ++ [4]) as [|z rest] eqn:Em; [destruct mid; discriminate|].
  cbn [tl]. rewrite <- Em. rewrite removelast_snoc.
  assert (K : forall x m pre, nth_error ts m = Some x -> valid mid pre ->
     squad ts (map (fun i => quat_at a (i :: pre)) (seq 0 n)) x = Ok (quat_at a (m :: pre))).
  { intros x m pre Hm Hp. pose proof (nth_lt _ _ _ Hm) as Lm. apply (Hex ts _ m); auto.
    - rewrite map_length, seq_length. auto.
    - apply Forall_forall. intros q Hq. apply in_map_iff in Hq as (i & <- & Hi'). apply in_seq in Hi'. apply Hu; [lia|auto].
    - rewrite nth_error_map. rewrite (nth_error_nth' (seq 0 n) 0) by (rewrite seq_length; lia).
      rewrite seq_nth by lia. reflexivity. }
  rewrite (traverse_ok _ (fun x => map (fun pre => match squad ts (map (fun i => quat_at a (i :: pre)) (seq 0 n)) x with Ok q => q | Raise _ => q1 end) (indices mid))).
  2:{ intros x Hx. apply traverse_ok. intros pre Hp. apply in_indices in Hp. apply Hin, In_nth_error in Hx as (m & Hm).
      rewrite (K x m pre Hm Hp). reflexivity. }
  cbn [bind]. eexists. split; [reflexivity|]. cbn [shp dat]. split; [reflexivity|].
  intros k x m pre Hk Hm Hp.
  assert (D : forall c, c < 4 -> dat (Nd (length l :: mid ++ [4]) (fun ix => match nth_error l (hd 0 ix) with None => 0%R | Some x => match squad ts (map (fun i => quat_at a (i :: removelast (tl ix))) (seq 0 n)) x with Ok q => comp4 (last ix 0) q | Raise _ => 0%R end end)) ((k :: pre) ++ [c]) = comp4 c (quat_at a (m :: pre))).
  { intros c Hc. cbn [dat]. rewrite last_snoc. cbn [app hd tl]. rewrite removelast_snoc.
    rewrite Hk. rewrite (K x m pre Hm Hp). reflexivity. }
  unfold quat_at at 1. apply quat_eq; cbn [qw qx qy qz]; [apply (D 0)|apply (D 1)|apply (D 2)|apply (D 3)]; lia.
Qed.

(* ---- rotation of a resampled array, time first ---- *)
Lemma length_ones n : length (repeat 1 n) = n.
Proof. apply repeat_length. Qed.
Lemma bs_ones mid : bs (repeat 1 (length mid)) mid = mid.
Proof. induction mid as [|a mid IH]; simpl; auto. f_equal. auto. Qed.
Lemma match_ones mid : axes_match (repeat 1 (length mid)) mid = true.
Proof. induction mid as [|a mid IH]; simpl; auto. rewrite IH, orb_true_r. reflexivity. Qed.

(** Quaternions of shape (N, 1, ..., 1) that depend on the first index: swapping is
    inserting, for every axis but the first. *)
Lemma removelast_hd (d : nat) (l : list nat) : 2 <= length l -> hd d (removelast l) = hd d l.
Proof. destruct l as [|a [|b l]]; cbn; intros; try lia; reflexivity. Qed.
Lemma repeat_insert k n : k <= n -> insert_at k 1 (repeat 1 n) = repeat 1 (S n).
Proof. revert n; induction k as [|k IH]; intros n H; [reflexivity|]. destruct n as [|n]; [lia|]. cbn [repeat insert_at]. rewrite IH by lia. reflexivity. Qed.
Lemma nth_ones j n : j < n -> nth j (repeat 1 n) 0 = 1.
Proof. revert j; induction n as [|n IH]; intros j H; [lia|]. destruct j; [reflexivity|]. cbn. apply IH. lia. Qed.
Lemma swapl_first i j x l : 0 < i -> 0 < j -> hd 0 (swapl i j (x :: l)) = x.
Proof.
  intros Hi Hj. unfold swapl. cbn [List.length seq map hd]. unfold transp.
  destruct (Nat.eqb_spec 0 i); [lia|]. destruct (Nat.eqb_spec 0 j); [lia|]. reflexivity.
Qed.
Lemma swap_ok_rows (g : nat -> quat) N k n (u : list nat -> list nat) : k <= n ->
  swap_ok (Nd (N :: repeat 1 n) (fun ix => g (hd 0 (hd 0 ix :: u ix)))) (S (S n)) (S k).
Proof.
  intros Hk f s. unfold s. clear s. cbn [shp dat swap_nd hd]. split.
  - cbn [insert_at]. rewrite repeat_insert by auto. change (N :: repeat 1 n) with ([N] ++ repeat 1 n). rewrite <- app_assoc.
    replace (repeat 1 n ++ [1]) with (repeat 1 (S n)) by (rewrite <- repeat_cons; reflexivity).
    apply list_nth_ext; [rewrite length_swapl; reflexivity|]. intros j Hj. rewrite length_swapl, app_length, length_ones in Hj. cbn [length] in Hj.
    rewrite nth_swapl by (rewrite app_length, length_ones; cbn; lia). cbn [Nat.sub]. unfold transp.
    destruct (Nat.eqb_spec j (S n)) as [->|].
    + cbn [app nth]. rewrite nth_ones by lia. rewrite nth_ones by lia. reflexivity.
    + destruct (Nat.eqb_spec j (S k)) as [->|]; [|reflexivity]. cbn [app nth]. rewrite !nth_ones by lia. reflexivity.
  - intros c pre Hp. cbn [length] in Hp. rewrite length_ones in Hp. destruct pre as [|i pre]; [discriminate|]. cbn [insert_at hd]. do 2 f_equal.
    cbn [Nat.sub]. rewrite (removelast_hd _ (swapl (S n) (S k) (i :: insert_at k c pre))) by (rewrite length_swapl; cbn [length]; rewrite length_insert by (cbn in Hp; lia); cbn in Hp; lia).
    apply swapl_first; lia.
Qed.

Lemma rotate_rows g N (b : nd R) k mid axis :
  shp b = N :: insert_at k 3 mid -> k <= length mid ->
  norm_axis axis (ndim b) = Ok (S k) -> (forall i, i < N -> hunit (g i)) ->
  exists out, rotate_vectors (expand_r (Nd [N] (fun ix => g (hd 0 ix))) (ndim b)) b axis = Ok out /\
    shp out = N :: insert_at k 3 mid /\
    forall i pre, i < N -> valid mid pre -> vec_along out (S k) (i :: pre) = srot (g i) (vec_along b (S k) (i :: pre)).
Proof.
  intros Hs Hk Hax Hu. pose proof Hs as Hnd. apply (f_equal (@length nat)) in Hnd. simpl in Hnd. rewrite length_insert in Hnd by auto.
  fold (ndim b) in Hnd.
  unfold expand_r. cbn [shp dat]. unfold rotate_vectors. cbn [shp].
  rewrite Hax. cbn [bind]. rewrite Hs. cbn [nth remove_at]. rewrite nth_insert, remove_insert by auto. cbn [Nat.eqb negb].
  unfold ndim at 1. cbn [shp length]. rewrite app_nil_r, length_ones. rewrite Hnd. cbn [Nat.sub].
  rewrite Nat.sub_0_r, Nat.eqb_refl. cbn [negb orb]. cbn [axes_match]. rewrite Nat.eqb_refl, match_ones. cbn [orb andb negb].
  set (q := Nd (N :: repeat 1 (length mid)) _).
  assert (Dq : forall i pre, i < N -> length pre = length mid -> dat q (zb (shp q) (i :: pre)) = g i).
  { intros i pre Hi Hp. unfold q. cbn [shp zb dat hd tl]. destruct (Nat.eqb_spec N 1); [|reflexivity].
    replace i with 0 by lia. reflexivity. }
  destruct (rot_arrays_ok q b (S k)) as (out & E & So & Do).
  - rewrite Hnd. lia.
  - rewrite Hs. cbn [nth]. apply nth_insert; auto.
  - unfold ndim at 1. unfold q. cbn [shp length]. rewrite length_ones. lia.
  - unfold q. cbn [shp]. rewrite Hs. cbn [remove_at axes_match]. rewrite remove_insert, Nat.eqb_refl, match_ones by auto. reflexivity.
  - rewrite Hnd. apply swap_ok_rows. exact Hk.
  - intros ix Hv. unfold q in Hv. cbn [shp] in Hv. inversion Hv as [|i n' ix' s' Hi Hv']; subst.
    unfold q. cbn [dat hd]. rewrite (qlen_unit (g i)); [lra|]. rewrite <- hn2_qnorm2. apply Hu; auto.
  - exists out. split; [exact E|]. rewrite Hs in So, Do. cbn [remove_at] in So, Do. rewrite remove_insert in So, Do by auto.
    unfold q in So at 1. cbn [shp bs] in So. rewrite bs_ones in So. split.
    + rewrite So. cbn [insert_at]. f_equal. destruct (Nat.eqb N 1); reflexivity.
    + intros i pre Hi Hp. pose proof (valid_length _ _ Hp) as Lp.
      assert (HB : valid (bs (shp q) (N :: mid)) (i :: pre)).
      { unfold q. cbn [shp bs]. rewrite bs_ones. constructor; auto. destruct (Nat.eqb N 1); auto. }
      specialize (Do _ HB). rewrite Dq in Do by auto.
      rewrite rot1_unit in Do by (rewrite <- hn2_qnorm2; apply Hu; auto).
      apply Ok_inj in Do. rewrite <- Do. f_equal. rewrite zb_valid; auto. constructor; auto.
Qed.

Lemma rotate_scalar q (b : nd R) k axis : norm_axis axis (ndim b) = Ok k -> nth k (shp b) 0 = 3 -> hn2 q <> 0%R ->
  exists out, rotate_vectors (Nd [] (fun _ => q)) b axis = Ok out /\ shp out = shp b /\
    forall pre, length pre = ndim b - 1 -> vec_along out k pre = srot q (vec_along b k pre).
Proof.
  intros Hax H3 Hq. pose proof (norm_axis_ok _ _ _ Hax) as (Hk & _).
  unfold rotate_vectors. cbn [shp dat]. rewrite Hax. cbn [bind]. unfold rv0. rewrite H3. cbn [Nat.eqb].
  rewrite (quat_rv_ok q v0) by (rewrite <- hn2_qnorm2; auto). cbn [bind].
  eexists. split; [reflexivity|]. cbn [shp]. split; auto. intros pre Hp.
  unfold vec_along at 1. cbn [dat]. rewrite !remove_insert, !nth_insert by lia.
  rewrite quat_rv_ok by (rewrite <- hn2_qnorm2; auto). reflexivity.
Qed.
End Squad.
