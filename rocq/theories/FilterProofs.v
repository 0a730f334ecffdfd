(** Lemmas about the low-pass filter. *)
From Coq Require Import Reals List Arith Bool ZArith Lia Lra.
From Verif Require Import Base NdArray Velocity Filter.
Import ListNotations.
Open Scope R_scope.

(* ------------------------------------------------------------------ lengths, defaults *)
Section Any.
  Variables (T : Type) (add : T -> T -> T) (mul : R -> T -> T).
  Lemma length_lfilter b a z xs : length (lfilter T add mul b a z xs) = length xs.
  Proof. revert z. induction xs as [|x xs IH]; intros z; cbn; auto. Qed.
  Lemma length_shift bs cs x y z : length cs = length bs -> length z = length bs -> length (shift T add mul bs cs x y z) = length bs.
  Proof.
    revert cs z. induction bs as [|b bs IH]; intros [|c cs] [|z0 z]; cbn; intros; try discriminate; try reflexivity.
    f_equal. apply IH; lia.
  Qed.
  Lemma length_odd_ext d n x : (n < length x)%nat -> length (odd_ext T add mul d n x) = (n + length x + n)%nat.
  Proof.
    intros H. unfold odd_ext. rewrite !app_length, !map_length, rev_length, !firstn_length.
    assert (A : length (tl x) = (length x - 1)%nat) by (destruct x; cbn; lia).
    assert (B : length (tl (rev x)) = (length x - 1)%nat) by (rewrite <- (rev_length x); destruct (rev x); cbn; lia). lia.
  Qed.
  Lemma hd_default (d d' : T) l : l <> [] -> hd d l = hd d' l.
  Proof. destruct l; [congruence|reflexivity]. Qed.
  Lemma last_default (d d' : T) l : l <> [] -> last l d = last l d'.
  Proof. induction l as [|a [|b l] IH]; intros H; [congruence|reflexivity|]. cbn [last]. apply IH. discriminate. Qed.
  Lemma odd_ext_default d d' n x : x <> [] -> odd_ext T add mul d n x = odd_ext T add mul d' n x.
  Proof. intros H. unfold odd_ext. rewrite (hd_default d d' x H), (last_default d d' x H). reflexivity. Qed.
  Lemma nonempty_length {A} (l : list A) : (0 < length l)%nat -> l <> [].
  Proof. destruct l; cbn; [lia|discriminate]. Qed.
  Lemma filtfilt_default d d' b a x : filtfilt T add mul d b a x = filtfilt T add mul d' b a x.
  Proof.
    unfold filtfilt. destruct (Nat.leb_spec (length x) (3 * Nat.max (length a) (length b))) as [H|H]; [reflexivity|].
    assert (X : x <> []) by (apply nonempty_length; lia). rewrite (odd_ext_default d d' _ x X).
    set (ext := odd_ext T add mul d' _ x). assert (E : ext <> []) by (apply nonempty_length; unfold ext; rewrite length_odd_ext by exact H; lia).
    rewrite (hd_default d d' ext E). set (y := lfilter T add mul b a _ ext).
    assert (Y : y <> []) by (apply nonempty_length; unfold y; rewrite length_lfilter; destruct ext; cbn; [congruence|lia]).
    rewrite (last_default d d' y Y). reflexivity.
  Qed.
End Any.

(* ------------------------------------------------------------------ maps that keep sums and multiples *)
Section Hom.
  Variables (T U : Type) (addT : T -> T -> T) (mulT : R -> T -> T) (addU : U -> U -> U) (mulU : R -> U -> U) (h : T -> U).
  Hypothesis h_add : forall x y, h (addT x y) = addU (h x) (h y).
  Hypothesis h_mul : forall c x, h (mulT c x) = mulU c (h x).
  Lemma hom_shift bs cs x y z : map h (shift T addT mulT bs cs x y z) = shift U addU mulU bs cs (h x) (h y) (map h z).
  Proof.
    revert cs z. induction bs as [|b bs IH]; intros [|c cs] [|z0 z]; cbn; auto. rewrite IH, h_add, h_mul. f_equal.
    destruct z; cbn; rewrite ?h_add, ?h_mul; reflexivity.
  Qed.
  Lemma hom_emit b z x : h (emit T addT mulT b z x) = emit U addU mulU b (map h z) (h x).
  Proof. destruct z; cbn; rewrite ?h_add, ?h_mul; reflexivity. Qed.
  Lemma hom_lfilter b a z xs : map h (lfilter T addT mulT b a z xs) = lfilter U addU mulU b a (map h z) (map h xs).
  Proof. revert z. induction xs as [|x xs IH]; intros z; cbn; auto. rewrite IH, hom_shift, hom_emit. reflexivity. Qed.
  Lemma map_hd d l : h (hd d l) = hd (h d) (map h l).
  Proof. destruct l; reflexivity. Qed.
  Lemma map_last d l : h (last l d) = last (map h l) (h d).
  Proof. induction l as [|a [|b l] IH]; cbn; auto. Qed.
  Lemma map_tl l : map h (tl l) = tl (map h l).
  Proof. destruct l; reflexivity. Qed.
  Lemma map_firstn n l : map h (firstn n l) = firstn n (map h l).
  Proof. symmetry. apply firstn_map. Qed.
  Lemma hom_odd d n x : map h (odd_ext T addT mulT d n x) = odd_ext U addU mulU (h d) n (map h x).
  Proof.
    unfold odd_ext. rewrite !map_app, !map_map. f_equal; [|f_equal].
    - rewrite <- map_tl, <- map_firstn, <- map_rev, <- (map_hd d), map_map. apply map_ext. intros y. unfold reflect. rewrite h_add, !h_mul. reflexivity.
    - rewrite <- map_rev, <- map_tl, <- map_firstn, <- (map_last d), map_map. apply map_ext. intros y. unfold reflect. rewrite h_add, !h_mul. reflexivity.
  Qed.
  Lemma hom_filtfilt d d' b a x : filtfilt U addU mulU d' b a (map h x) = match filtfilt T addT mulT d b a x with Ok l => Ok (map h l) | Raise e => Raise e end.
  Proof.
    rewrite (filtfilt_default U addU mulU d' (h d)). unfold filtfilt. rewrite map_length.
    destruct (Nat.leb (length x) _); [reflexivity|]. f_equal. rewrite map_firstn. f_equal.
    rewrite <- hom_odd, <- (map_hd d). set (ext := odd_ext T addT mulT d _ x).
    rewrite <- skipn_map. f_equal. rewrite map_rev. f_equal.
    assert (E : lfilter U addU mulU b a (map (fun c => mulU c (h (hd d ext))) (lfilter_zi b a)) (map h ext)
              = map h (lfilter T addT mulT b a (map (fun c => mulT c (hd d ext)) (lfilter_zi b a)) ext)).
    { rewrite hom_lfilter, map_map. f_equal. apply map_ext. intros c. rewrite h_mul. reflexivity. }
    rewrite E. set (y := lfilter T _ _ _ _ _ ext). rewrite <- (map_last d), hom_lfilter, map_map, map_rev. f_equal.
    apply map_ext. intros c. rewrite h_mul. reflexivity.
  Qed.
End Hom.

(* ------------------------------------------------------------------ constant input *)
Lemma zi_fixed b0 z0 bs : forall cs asum csum, length cs = length bs -> bs <> [] -> b0 + z0 = 1 ->
  (asum + lsum cs) * z0 = csum + lsum bs - b0 * lsum cs ->
  shift R Rplus Rmult bs cs 1 1 ((asum * z0 - csum) :: zi_rest asum csum z0 b0 bs cs) = (asum * z0 - csum) :: zi_rest asum csum z0 b0 bs cs.
Proof.
  induction bs as [|b [|b' bs] IH]; intros [|c cs] asum csum L N Hb Ht; cbn [length] in *; try congruence.
  - destruct cs; [|discriminate]. cbn in *. f_equal. nra.
  - cbn [lsum fold_right] in Ht. fold (lsum bs) in *. fold (lsum cs) in *.
    specialize (IH cs (asum + c) (csum + (b - c * b0)) ltac:(cbn; lia) ltac:(discriminate) Hb).
    assert (Ht' : (asum + c + lsum cs) * z0 = csum + (b - c * b0) + lsum (b' :: bs) - b0 * lsum cs) by (cbn [lsum fold_right]; fold (lsum bs); lra).
    specialize (IH Ht'). cbn [zi_rest]. cbn [shift]. cbn [zi_rest] in IH.
    match goal with |- _ :: ?l = _ => match type of IH with ?l' = _ => change l with l' end end. rewrite IH. f_equal.
    replace (asum * z0 - csum) with (b * 1 + ((asum + c) * z0 - (csum + (b - c * b0))) + - c * 1) by nra. reflexivity.
Qed.
Definition ones (l : list R) : Prop := forall x, In x l -> x = 1.
Lemma ones_repeat l : ones l -> l = repeat 1 (length l).
Proof. induction l as [|a l IH]; intros H; [reflexivity|]. cbn. rewrite (H a (or_introl eq_refl)). f_equal. apply IH. intros x Hx. apply H. right. exact Hx. Qed.
(** The gain for constant input is one. *)
Definition unit_gain (b a : list R) : Prop := (2 <= length b)%nat /\ length a = length b /\ hd 0 a = 1 /\ lsum a = lsum b /\ lsum a <> 0.
Lemma lfilter_ones b a xs : unit_gain b a -> ones xs -> lfilter R Rplus Rmult b a (lfilter_zi b a) xs = xs.
Proof.
  intros (H2 & L & Ha & Hs & H0) Hx. destruct b as [|b0 bs]; [cbn in H2; lia|]. destruct a as [|a0 cs]; [discriminate|].
  cbn [hd length] in *. subst a0. assert (B : bs <> []) by (destruct bs; cbn in H2; [lia|discriminate]).
  assert (Z0 : forall z0, z0 = (lsum bs - b0 * lsum cs) / lsum (1 :: cs) -> b0 + z0 = 1 /\ (1 + lsum cs) * z0 = 0 + lsum bs - b0 * lsum cs).
  { intros z0 ->. cbn [lsum fold_right] in *. fold (lsum bs) in *. fold (lsum cs) in *. split; [|field; exact H0].
    replace (lsum bs) with (1 + lsum cs - b0) by lra. field. exact H0. }
  unfold lfilter_zi. cbn [hd tl]. set (z0 := (lsum bs - b0 * lsum cs) / lsum (1 :: cs)) in *. destruct (Z0 z0 eq_refl) as (E1 & E2).
  pose proof (zi_fixed b0 z0 bs cs 1 0 ltac:(lia) B E1 E2) as F. replace (1 * z0 - 0) with z0 in F by lra.
  induction xs as [|x xs IH]; [reflexivity|]. assert (x = 1) by (apply Hx; left; reflexivity). subst x.
  cbn [lfilter emit hd tl]. rewrite Rmult_1_r, E1. f_equal. rewrite F. apply IH. intros y Hy. apply Hx. right. exact Hy.
Qed.
Lemma In_firstn {A} n (l : list A) x : In x (firstn n l) -> In x l.
Proof. revert l. induction n as [|n IH]; intros [|y l]; cbn; try tauto. intros [->|H]; auto. Qed.
Lemma In_skipn {A} n (l : list A) x : In x (skipn n l) -> In x l.
Proof. revert l. induction n as [|n IH]; intros [|y l]; cbn; try tauto. intros H. right. apply IH, H. Qed.
Lemma In_tl {A} (l : list A) x : In x (tl l) -> In x l.
Proof. destruct l; cbn; tauto. Qed.
Lemma hd_ones l : ones l -> l <> [] -> hd 0 l = 1.
Proof. destruct l; [congruence|]. intros H _. apply H. left. reflexivity. Qed.
Lemma last_ones l : ones l -> l <> [] -> last l 0 = 1.
Proof. intros H N. apply H. destruct (exists_last N) as (l' & y & ->). rewrite last_last. apply in_or_app. right. left. reflexivity. Qed.
Lemma odd_ones n l : ones l -> l <> [] -> ones (odd_ext R Rplus Rmult 0 n l).
Proof.
  intros H N x Hx. unfold odd_ext in Hx. rewrite (hd_ones l H N), (last_ones l H N) in Hx.
  apply in_app_or in Hx. destruct Hx as [Hx|Hx]; [|apply in_app_or in Hx; destruct Hx as [Hx|Hx]; [auto|]].
  - apply in_map_iff in Hx. destruct Hx as (y & <- & Hy). apply in_rev, In_firstn, In_tl, H in Hy. subst. unfold reflect. lra.
  - apply in_map_iff in Hx. destruct Hx as (y & <- & Hy). apply In_firstn, In_tl, in_rev, H in Hy. subst. unfold reflect. lra.
Qed.
Lemma zi_ones l : map (fun c => c * 1) l = l.
Proof. induction l; cbn; [reflexivity|]. rewrite IHl, Rmult_1_r. reflexivity. Qed.
Lemma filtfilt_ones b a x : unit_gain b a -> (3 * length b < length x)%nat -> ones x -> filtfilt R Rplus Rmult 0 b a x = Ok x.
Proof.
  intros G L O. unfold filtfilt. assert (LA : length a = length b) by apply G. rewrite LA, Nat.max_id.
  destruct (Nat.leb_spec (length x) (3 * length b)) as [H|_]; [lia|]. f_equal.
  assert (X : x <> []) by (apply nonempty_length; lia). set (n := (3 * length b)%nat) in *.
  pose proof (odd_ones n x O X) as E. assert (LE : length (odd_ext R Rplus Rmult 0 n x) = (n + length x + n)%nat) by (apply length_odd_ext; exact L).
  set (ext := odd_ext R Rplus Rmult 0 n x) in *. assert (NE : ext <> []) by (apply nonempty_length; lia).
  rewrite (hd_ones ext E NE), zi_ones, (lfilter_ones b a ext G E), (last_ones ext E NE), zi_ones.
  rewrite lfilter_ones; [|exact G|intros y Hy; apply E, in_rev, Hy]. rewrite rev_involutive.
  rewrite (ones_repeat x O). rewrite (ones_repeat (firstn _ _)).
  - f_equal. rewrite firstn_length, skipn_length, repeat_length, LE. lia.
  - intros y Hy. apply In_firstn, In_skipn in Hy. apply E, Hy.
Qed.

(* ------------------------------------------------------------------ NaN *)
Definition nans (l : list (option R)) : Prop := forall x, In x l -> x = None.
Lemma shift_nan bs cs x z : nans (shift (option R) oadd omul bs cs x None z).
Proof.
  revert cs z. induction bs as [|b bs IH]; intros [|c cs] [|z0 z] y; cbn; try tauto. intros [<-|H]; [|exact (IH cs z y H)].
  destruct z as [|z1 z]; [destruct x|destruct x, z1]; reflexivity.
Qed.
Lemma shift_nonempty T add mul bs cs x y z : bs <> [] -> cs <> [] -> z <> [] -> shift T add mul bs cs x y z <> [].
Proof. destruct bs, cs, z; cbn; congruence. Qed.
Lemma lfilter_nan b a z xs : tl b <> [] -> tl a <> [] -> z <> [] -> nans z -> nans (lfilter (option R) oadd omul b a z xs).
Proof.
  intros B A. revert z. induction xs as [|x xs IH]; intros z Z N y; cbn [lfilter In]; [tauto|].
  assert (E : emit (option R) oadd omul (hd 0 b) z x = None).
  { destruct z as [|z0 z]; [congruence|]. cbn. rewrite (N z0 (or_introl eq_refl)). destruct x; reflexivity. }
  rewrite E. intros [<-|H]; [reflexivity|]. revert H. apply IH; [apply shift_nonempty; auto|apply shift_nan].
Qed.
Lemma lfilter_after b a z pre post : tl b <> [] -> tl a <> [] -> z <> [] ->
  exists l r, lfilter (option R) oadd omul b a z (pre ++ None :: post) = l ++ r /\ nans r /\ length r = S (length post).
Proof.
  intros B A. revert z. induction pre as [|x pre IH]; intros z Z.
  - exists [], (lfilter (option R) oadd omul b a z (None :: post)). split; [reflexivity|]. rewrite length_lfilter. split; [|reflexivity].
    cbn [lfilter]. assert (E : emit (option R) oadd omul (hd 0 b) z None = None) by (destruct z; reflexivity). rewrite E.
    intros y [<-|H]; [reflexivity|]. revert H. apply lfilter_nan; auto; [apply shift_nonempty; auto|apply shift_nan].
  - cbn [app lfilter]. destruct (IH (shift (option R) oadd omul (tl b) (tl a) x (emit (option R) oadd omul (hd 0 b) z x) z)) as (l & r & E & N & L).
    { apply shift_nonempty; auto. }
    rewrite E. exists (emit (option R) oadd omul (hd 0 b) z x :: l), r. split; [reflexivity|]. split; assumption.
Qed.
Lemma last_app_ne {A} (l r : list A) d : r <> [] -> last (l ++ r) d = last r d.
Proof. intros H. destruct (exists_last H) as (r' & y & ->). rewrite app_assoc, !last_last. reflexivity. Qed.
Lemma filtfilt_nan b a x : (2 <= length b)%nat -> length a = length b -> (3 * length b < length x)%nat -> In None x ->
  exists l, filtfilt (option R) oadd omul None b a x = Ok l /\ length l = length x /\ nans l.
Proof.
  intros B LA L I. unfold filtfilt. rewrite LA, Nat.max_id. destruct (Nat.leb_spec (length x) (3 * length b)) as [H|_]; [lia|].
  set (n := (3 * length b)%nat) in *. set (ext := odd_ext (option R) oadd omul None n x).
  assert (LE : length ext = (n + length x + n)%nat) by (apply length_odd_ext; exact L).
  assert (TB : tl b <> []) by (destruct b as [|? [|? ?]]; cbn in B; try lia; discriminate).
  assert (TA : tl a <> []) by (destruct a as [|? [|? ?]]; cbn in LA; try lia; discriminate).
  assert (E : In None ext) by (unfold ext, odd_ext; apply in_or_app; right; apply in_or_app; left; exact I).
  destruct (in_split None ext E) as (pre & post & ES).
  assert (Z : forall v, map (fun c => omul c v) (lfilter_zi b a) <> []) by (intros v; unfold lfilter_zi; cbn; discriminate).
  destruct (lfilter_after b a (map (fun c => omul c (hd None ext)) (lfilter_zi b a)) pre post TB TA (Z _)) as (l & r & EF & NR & LR).
  set (zz := map (fun c => omul c (hd None ext)) (lfilter_zi b a)) in *. clearbody zz. rewrite ES, EF.
  assert (RN : r <> []) by (apply nonempty_length; lia). rewrite (last_app_ne l r None RN).
  assert (LN : last r None = None) by (destruct (exists_last RN) as (r' & y & ER); rewrite ER, last_last; apply NR; rewrite ER; apply in_or_app; right; left; reflexivity).
  rewrite LN. eexists. split; [reflexivity|].
  assert (LL : length (l ++ r) = length ext) by (rewrite <- EF, length_lfilter, <- ES; reflexivity).
  split; [rewrite firstn_length, skipn_length, rev_length, length_lfilter, rev_length, LL, LE; lia|].
  intros y Hy. apply In_firstn, In_skipn, in_rev in Hy. revert Hy. apply lfilter_nan; auto.
  intros v Hv. apply in_map_iff in Hv. destruct Hv as (c & <- & _). reflexivity.
Qed.
Lemma length_filtfilt T add mul d b a x l : filtfilt T add mul d b a x = Ok l -> length l = length x.
Proof.
  unfold filtfilt. destruct (Nat.leb_spec (length x) (3 * Nat.max (length a) (length b))) as [H|H]; [discriminate|]. intros E.
  injection E as <-. rewrite firstn_length, skipn_length, rev_length, length_lfilter, rev_length, length_lfilter, length_odd_ext by exact H. lia.
Qed.

(* ------------------------------------------------------------------ butter *)
Lemma lsum_padd p q : lsum (padd p q) = lsum p + lsum q.
Proof. revert q. induction p as [|x p IH]; intros [|y q]; cbn; try lra. fold (lsum (padd p q)) (lsum p) (lsum q). rewrite IH. lra. Qed.
Lemma lsum_scale c q : lsum (map (Rmult c) q) = c * lsum q.
Proof. induction q as [|y q IH]; cbn; [lra|]. fold (lsum (map (Rmult c) q)) (lsum q). rewrite IH. lra. Qed.
Lemma lsum_pmul p q : lsum (pmul p q) = lsum p * lsum q.
Proof.
  induction p as [|x [|y p] IH]; [cbn; lra|cbn [pmul]; rewrite lsum_scale; cbn; lra|].
  change (pmul (x :: y :: p) q) with (padd (map (Rmult x) q) (0 :: pmul (y :: p) q)). rewrite lsum_padd, lsum_scale.
  cbn [lsum fold_right] in *. fold (lsum (pmul (y :: p) q)) (lsum p) (lsum q) in *. rewrite IH. lra.
Qed.
Lemma cos7_pos j : 0 <= j -> j <= 3 -> 0 < cos (j * PI / 7).
Proof. intros A B. pose proof PI_RGT_0. apply cos_gt_0; nra. Qed.
Lemma pair_pos w c : 0 < w -> 0 < c -> 0 < 1 + 2 * w * c + w * w.
Proof. intros. nra. Qed.
Lemma cos_1_7 : 0 < cos (PI / 7). Proof. replace (PI / 7) with (1 * PI / 7) by lra. apply cos7_pos; lra. Qed.
Lemma cos_2_7 : 0 < cos (2 * PI / 7). Proof. apply cos7_pos; lra. Qed.
Lemma cos_3_7 : 0 < cos (3 * PI / 7). Proof. apply cos7_pos; lra. Qed.
Lemma lsum_pair w c : 0 < w -> 0 < c -> lsum (pole_pair w c) = 4 * (w * w) / (1 + 2 * w * c + w * w).
Proof. intros A B. pose proof (pair_pos w c A B). unfold pole_pair. cbn. field. lra. Qed.
Lemma lsum_real w : 0 < w -> lsum (pole_real w) = 2 * w / (1 + w).
Proof. intros. unfold pole_real. cbn. field. lra. Qed.
Lemma butter_unit w : 0 < w -> unit_gain (butter_b w) (butter_a w).
Proof.
  intros Hw. pose proof cos_1_7 as H1. pose proof cos_2_7 as H2. pose proof cos_3_7 as H3.
  assert (S : lsum (butter_a w) = lsum (butter_b w)).
  { unfold butter_a, butter_b. rewrite !lsum_pmul, lsum_scale, lsum_real, !lsum_pair by assumption. unfold butter_gain. cbn [lsum fold_right].
    pose proof (pair_pos w _ Hw H1). pose proof (pair_pos w _ Hw H2). pose proof (pair_pos w _ Hw H3). field. repeat split; lra. }
  split; [cbn; lia|]. split; [reflexivity|]. split; [unfold butter_a, pole_real, pole_pair; cbn; ring|]. split; [exact S|].
  rewrite S. unfold butter_b. rewrite lsum_scale. unfold butter_gain. cbn [lsum fold_right].
  pose proof (pair_pos w _ Hw H1). pose proof (pair_pos w _ Hw H2). pose proof (pair_pos w _ Hw H3).
  apply Rgt_not_eq. apply Rmult_lt_0_compat; [|lra]. apply Rdiv_lt_0_compat; [apply pow_lt; exact Hw|].
  repeat apply Rmult_lt_0_compat; lra.
Qed.
Lemma butter_ok wn : 0 < wn -> wn < 1 -> butter wn = Ok (butter_b (tan (PI * wn / 2)), butter_a (tan (PI * wn / 2))) /\ 0 < tan (PI * wn / 2).
Proof.
  intros A B. split.
  - unfold butter. replace (Rle_b wn 0) with false by (symmetry; apply Rle_b_false; lra).
    replace (Rle_b 1 wn) with false by (symmetry; apply Rle_b_false; lra). reflexivity.
  - pose proof PI_RGT_0. apply tan_gt_0; nra.
Qed.
