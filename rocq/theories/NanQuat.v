(** transform_quaternions of arrays with missing samples (NaN entries).  As in NanArr.v the
    numbers and the places of the NaN are computed side by side; [squad_floats] below justifies
    this for squad, the only operation that mixes samples. *)
From Coq Require Import Reals List Arith Bool ZArith Lra Lia.
From Verif Require Import Base Quat NdArray Frames Matcher Transform Velocity NanArr Squad.
Import ListNotations.
Open Scope R_scope.

(** reference_frames.py:714-775 (axis=-1).  A quaternion with a NaN among its components is replaced by
    1 (any number would do), the others are kept. *)
Definition has_nan (m : nd bool) (pre : list nat) : bool := existsb (fun c => dat m (pre ++ [c])) (seq 0 4).
Definition blank_quats (a : nd (option R)) : nd R :=
  Nd (shp a) (fun ix => if has_nan (nans a) (removelast ix) then comp4 (last ix O) q1 else num (dat a ix)).
(** The samples that squad uses between samples i and i + 1: also the one before and the one after. *)
Definition near (i j : nat) : bool := Nat.leb i (S j) && Nat.leb j (S (S i)).
(** core.py:97-101: squad over the first axis. *)
Definition squad_mask (ts : list R) (m : nd bool) (l : list R) : nd bool :=
  Nd (List.length l :: tl (shp m)) (fun ix =>
    existsb (fun j => near (interval_of ts (nth (hd O ix) l 0)) j && has_nan m (j :: removelast (tl ix))) (seq 0 (List.length ts))).
(** core.py:80-105 [_resample_array] *)
Definition resample_quat_mask (m : nd bool) (own o : option (list R)) : res (nd bool) :=
  match own, o with
  | Some _, None => Raise ValueError
  | None, None => Ok m
  | None, Some l => Ok (tile_mask m (List.length l))
  | Some ts, Some l => Ok (squad_mask ts m l)
  end.
(** reference_frames.py:766-768: each component of a product is computed from all four. *)
Definition mul_mask (m : nd bool) : nd bool := Nd (shp m) (fun ix => has_nan m (removelast ix)).
Definition spread_quats (arr : nd (option R)) (time_axis : option Z) (ts : option (nd R)) (o : option (list R)) : res (nd bool) :=
  '(a, own) <- to_front (nans arr) ts time_axis ;;
  b <- resample_quat_mask a own o ;;
  match time_axis with None => Ok (mul_mask b) | Some ta => swapaxes (mul_mask b) 0 ta end.
Definition transform_quaternions_nan (s : state) (i : nat) (arr : nd (option R)) (to : pref) (time_axis : option Z) (ts : option (nd R))
    : res (nd (option R) * option (list R)) :=
  '(c, o) <- transform_quaternions np_squad s i (blank_quats arr) to (-1) time_axis ts ;;
  m <- spread_quats arr time_axis ts o ;;
  Ok (with_nans c m, o).

(* ------------------------------------------------------------------ the split into numbers and places *)
(** Operations on quaternions that may be NaN.  A NaN component makes all components of a product or a
    logarithm NaN, and the scalar part of an exponential, which is then multiplied, so a quaternion is NaN as a
    whole.  (slerp compares the difference with a bound first: with
    a NaN the comparison is false, and both branches yield NaN.) *)
Definition oq1 (f : quat -> quat) (a : option quat) : option quat := option_map f a.
Definition oq2 (f : quat -> quat -> quat) (a b : option quat) : option quat :=
  match a, b with Some a, Some b => Some (f a b) | _, _ => None end.
Definition number (o : option quat) : quat := match o with Some q => q | None => q1 end.
(** Squad.v on such quaternions. *)
Section Floats.
  Variables (ts : list R) (rr : list (option quat)).
  Definition osample (k : nat) : option quat := nth k rr None.
  Definition obeyond : option quat :=
    oq2 qmulq (oq2 qmulq (osample (final ts)) (oq1 qconj (osample (Nat.pred (final ts))))) (osample (final ts)).
  Definition oturn_log (k : nat) : option quat := oq1 np_log (oq2 qmulq (oq1 qconj (osample k)) (osample (S k))).
  Definition octrl_a (i : nat) : option quat :=
    if Nat.eqb i 0 || Nat.eqb i (final ts) then osample i
    else oq2 qmulq (osample i) (oq1 np_exp (oq1 (qscale (1 / 4))
           (oq2 qaddq (oq1 (qscale (-1)) (oturn_log i)) (oq1 (qscale (gap ts i / gap ts (Nat.pred i))) (oturn_log (Nat.pred i)))))).
  Definition octrl_b (i : nat) : option quat :=
    if Nat.eqb i (final ts) then obeyond
    else if Nat.eqb (S i) (final ts) then osample (final ts)
    else oq2 qmulq (osample (S i)) (oq1 np_exp (oq1 (qscale (-1 / 4))
           (oq2 qaddq (oq1 (qscale (gap ts i / gap ts (S i))) (oturn_log (S i))) (oq1 (qscale (-1)) (oturn_log i))))).
  Definition ofollowing (i : nat) : option quat := if Nat.eqb i (final ts) then obeyond else osample (S i).
  Definition oslerp (a b : option quat) (tau : R) : option quat := oq2 (fun a b => np_slerp a b tau) a b.
  Definition osquad_at (x : R) : option quat :=
    let i := interval_of ts x in
    let tau := (x - stime ts i) / duration ts i in
    oslerp (oslerp (osample i) (ofollowing i) tau) (oslerp (octrl_a i) (octrl_b i) tau) (2 * tau * (1 - tau)).

  Hypothesis Len : length rr = length ts.
  Hypothesis Len2 : (2 <= length ts)%nat.
  Let rr' := map number rr.
  Lemma interval_le x : (interval_of ts x <= final ts)%nat.
  Proof.
    unfold interval_of, final. set (f := fun t => Rle_b t x).
    assert (H : (length (filter f ts) <= length ts)%nat) by (clear; induction ts as [|a l IH]; simpl; [lia|destruct (f a); simpl; lia]).
    destruct (length (filter f ts)); lia.
  Qed.
  Lemma present j : (j < length ts)%nat -> osample j <> None -> osample j = Some (sample rr' j).
  Proof.
    intros Hj Hn. unfold osample, sample, rr' in *. rewrite (nth_indep _ q1 (number None)) by (rewrite map_length; lia).
    rewrite map_nth. destruct (nth j rr None); [reflexivity|congruence].
  Qed.
  Lemma oq2_none f a : oq2 f a None = None.
  Proof. destruct a; reflexivity. Qed.
  Lemma lost_one i j : (i <= final ts)%nat -> near i j = true -> (j < length ts)%nat -> osample j = None ->
    forall tau u, oslerp (oslerp (osample i) (ofollowing i) tau) (oslerp (octrl_a i) (octrl_b i) tau) u = None.
  Proof.
    intros Hi Hn Hj Hl tau u. unfold near in Hn. apply andb_prop in Hn as (H1 & H2). apply Nat.leb_le in H1, H2.
    assert (Hf : final ts = (length ts - 1)%nat) by (unfold final; lia).
    unfold oslerp, ofollowing, octrl_a, octrl_b, obeyond, oturn_log.
    destruct (Nat.eq_dec j i) as [->|Ni]. { rewrite Hl. reflexivity. }
    destruct (Nat.eqb_spec i (final ts)) as [Ei|Ni2].
    - replace (Nat.pred (final ts)) with j by lia. rewrite Hl. cbn [oq1 option_map]. rewrite ?oq2_none.
      cbn [oq2]. rewrite ?oq2_none. reflexivity.
    - destruct (Nat.eq_dec j (S i)) as [->|Ns]. { rewrite Hl, oq2_none. reflexivity. }
      destruct (Nat.eq_dec i (S j)) as [->|Np].
      + cbn [Nat.eqb orb Nat.pred]. rewrite Hl. cbn [oq1 oq2 option_map]. rewrite ?oq2_none. cbn [oq1 oq2 option_map].
        rewrite ?oq2_none. cbn [oq1 oq2 option_map]. rewrite ?oq2_none. reflexivity.
      + assert (j = S (S i)) by lia. subst j. destruct (Nat.eqb_spec (S i) (final ts)); [lia|].
        rewrite Hl. rewrite ?oq2_none. cbn [oq1 oq2 option_map]. rewrite ?oq2_none. cbn [oq1 oq2 option_map].
        rewrite ?oq2_none. reflexivity.
  Qed.
  (** squad of floats is NaN exactly if a sample near the time is, otherwise what it is for numbers. *)
  Lemma squad_floats x :
    osquad_at x = if existsb (fun j => near (interval_of ts x) j && match osample j with None => true | Some _ => false end) (seq 0 (length ts))
                  then None else Some (squad_at ts rr' x).
  Proof.
    unfold osquad_at, squad_at, squad_evaluate. cbv zeta. pose proof (interval_le x) as Hi. set (i := interval_of ts x) in *.
    destruct (existsb _ _) eqn:E.
    - apply existsb_exists in E as (j & Hj & E). apply in_seq in Hj. apply andb_prop in E as (E1 & E2).
      apply (lost_one i j Hi E1); [lia|]. destruct (osample j); [discriminate E2|reflexivity].
    - assert (P : forall j, (j < length ts)%nat -> near i j = true -> osample j = Some (sample rr' j)).
      { intros j Hj Hn. apply present; auto. intros Hno. assert (E' : existsb (fun j => near i j && match osample j with None => true | Some _ => false end) (seq 0 (length ts)) = true).
        { apply existsb_exists. exists j. split; [apply in_seq; lia|]. rewrite Hn, Hno. reflexivity. }
        congruence. }
      clear E. assert (Hf : final ts = (length ts - 1)%nat) by (unfold final; lia).
      assert (W : forall j, (i <= S j)%nat -> (j <= S (S i))%nat -> near i j = true).
      { intros j A B. unfold near. apply andb_true_intro. split; apply Nat.leb_le; auto. }
      unfold oslerp, ofollowing, octrl_a, octrl_b, obeyond, oturn_log, following, ctrl_a, ctrl_b, beyond, turn_log.
      destruct (Nat.eqb_spec i (final ts)) as [Ei|Ni].
      + rewrite orb_true_r. rewrite (P i), (P (final ts)), (P (Nat.pred (final ts))) by (try apply W; lia). reflexivity.
      + rewrite orb_false_r. rewrite (P i), (P (S i)) by (try apply W; lia).
        destruct (Nat.eqb_spec i 0) as [E0|N0]; destruct (Nat.eqb_spec (S i) (final ts)) as [Es|Ns].
        * rewrite (P (final ts)) by (try apply W; lia). reflexivity.
        * rewrite (P (S (S i))) by (try apply W; lia). reflexivity.
        * rewrite (P (final ts)), (P (Nat.pred i)) by (try apply W; lia). replace (S (Nat.pred i)) with i by lia.
          rewrite (P i) by (try apply W; lia). reflexivity.
        * rewrite (P (S (S i))), (P (Nat.pred i)) by (try apply W; lia). replace (S (Nat.pred i)) with i by lia.
          rewrite (P i) by (try apply W; lia). reflexivity.
  Qed.
End Floats.
