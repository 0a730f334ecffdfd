(** Properties C48, C53, C56: marker publishers and playback buttons. *)
From Coq Require Import Reals List String ZArith Bool Arith Lia Lra.
From Verif Require Import Base Quat NdArray Frames Matcher RosMsg PropRosMsg Broadcast PropBroadcast.
Import ListNotations.
Open Scope nat_scope.

(* ------------------------------------------------------------------ C48 *)
(** pts are the elements 0, k, 2k, ... of l. *)
Definition every {A} (k : nat) (l pts : list A) : Prop :=
  (forall i, nth_error pts i = nth_error l (i * k)) /\ (List.length l <= List.length pts * k < List.length l + k).

Lemma skipping_nth {A} k : 1 <= k -> forall (l : list A) skip i, skip < k -> nth_error (skipping k skip l) i = nth_error l (skip + i * k).
Proof.
  intros Hk. induction l as [|a l IH]; intros skip i Hs.
  - cbn. destruct i, skip; cbn; auto; destruct (_ + _); reflexivity.
  - cbn [skipping]. destruct skip as [|skip].
    + destruct i as [|i]; [reflexivity|]. cbn [nth_error]. rewrite IH by lia. replace (0 + S i * k) with (S (pred k + i * k)) by lia. reflexivity.
    + rewrite IH by lia. reflexivity.
Qed.
Lemma length_by_nth {A} (l : list A) n : (forall i, i < n -> nth_error l i <> None) -> (forall i, n <= i -> nth_error l i = None) -> List.length l = n.
Proof.
  intros H1 H2. destruct (lt_eq_lt_dec (List.length l) n) as [[L|E]|L]; auto.
  - exfalso. apply (H1 _ L). apply nth_error_None. lia.
  - exfalso. specialize (H2 n ltac:(lia)). apply nth_error_None in H2. lia.
Qed.
Lemma skipping_every {A} k (l : list A) : 1 <= k -> every k l (skipping k 0 l).
Proof.
  intros Hk. assert (N : forall i, nth_error (skipping k 0 l) i = nth_error l (i * k)) by (intros i; rewrite skipping_nth by lia; reflexivity).
  split; auto. set (n := List.length (skipping k 0 l)). split.
  - assert (E : nth_error (skipping k 0 l) n = None) by (apply nth_error_None; auto). rewrite N in E. apply nth_error_None in E. exact E.
  - destruct n as [|m] eqn:En; [lia|]. assert (E : nth_error (skipping k 0 l) m <> None) by (apply nth_error_Some; unfold n in En; lia).
    rewrite N in E. apply nth_error_Some in E. lia.
Qed.
Definition point_of (p : vec3 * quat) : xyz := {| m_x := vx (fst p); m_y := vy (fst p); m_z := vz (fst p) |}.
Lemma points_ok l : traverse (fun p => mk_xyz (vlist (fst p))) l = Ok (map point_of l).
Proof. unfold traverse. induction l as [|(v & q) l IH]; auto. cbn [map sequence]. change (mk_xyz (vlist (fst (v, q)))) with (Ok (point_of (v, q))). rewrite IH. reflexivity. Qed.
(** The points of a path of n >= max_points samples are every s-th translation, in order,
    s = n / max_points rounded down. *)
Lemma marker_ok dt ts rows max : 0 < max <= List.length rows ->
  exists pts, marker_points (SMoving dt ts rows) (Z.of_nat max) = Ok pts /\ every (List.length rows / max) (map point_of rows) pts.
Proof.
  intros H. unfold marker_points, slice_every. destruct (Z.eqb_spec (Z.of_nat max) 0); [lia|]. rewrite <- Nat2Z.inj_div.
  assert (1 <= List.length rows / max) by (apply Nat.div_le_lower_bound; lia).
  destruct (Z.eqb_spec (Z.of_nat (List.length rows / max)) 0); [lia|]. destruct (Z.ltb_spec 0 (Z.of_nat (List.length rows / max))); [|lia].
  cbn [bind]. rewrite Nat2Z.id, points_ok. eexists. split; [reflexivity|]. set (s := List.length rows / max) in *.
  destruct (skipping_every s rows H0) as (A & B). split; [|rewrite !map_length; exact B]. intros i. rewrite !nth_error_map, A. reflexivity.
Qed.
(** When max_points divides the number of samples, the marker has exactly max_points
    points; in general fewer than twice as many.  Missing: at most max_points (refuted
    below for other numbers of samples). *)
Theorem C48_partial : forall dt ts rows max, 0 < max <= List.length rows ->
  exists pts s, marker_points (SMoving dt ts rows) (Z.of_nat max) = Ok pts /\ 1 <= s /\ every s (map point_of rows) pts /\
    List.length pts < 2 * max /\ (List.length pts <= max <-> Nat.divide max (List.length rows)) /\
    (Nat.divide max (List.length rows) -> List.length pts = max).
Proof.
  intros dt ts rows max H. destruct (marker_ok dt ts rows max H) as (pts & E & Ev). exists pts, (List.length rows / max). split; [exact E|].
  assert (S1 : 1 <= List.length rows / max) by (apply Nat.div_le_lower_bound; lia). split; [exact S1|]. split; [exact Ev|].
  destruct Ev as (_ & B). rewrite map_length in B. pose proof (Nat.div_mod_eq (List.length rows) max) as D. pose proof (Nat.mod_upper_bound (List.length rows) max ltac:(lia)) as M.
  set (n := List.length rows) in *. set (s := n / max) in *. set (r := n mod max) in *. set (c := List.length pts) in *.
  assert (Div : Nat.divide max n <-> r = 0). { unfold r. rewrite <- Nat.mod_divide by lia. reflexivity. }
  split; [|split].
  - destruct (le_lt_dec (2 * max) c) as [L|L]; auto. exfalso. assert (2 * max * s <= c * s) by (apply Nat.mul_le_mono_r; auto).
    destruct (Nat.eq_dec s 1) as [Es|Es]; [rewrite Es in *; lia|]. assert (max * 2 <= max * s) by (apply Nat.mul_le_mono_l; lia). nia.
  - rewrite Div. split; intros Hc.
    + assert (c * s <= max * s) by (apply Nat.mul_le_mono_r; auto). lia.
    + rewrite Hc, Nat.add_0_r in D. destruct (le_lt_dec c max) as [L|L]; auto. exfalso. assert (S max * s <= c * s) by (apply Nat.mul_le_mono_r; lia). lia.
  - rewrite Div. intros Hc. rewrite Hc, Nat.add_0_r in D.
    assert (c <= max). { destruct (le_lt_dec c max) as [L|L]; auto. exfalso. assert (S max * s <= c * s) by (apply Nat.mul_le_mono_r; lia). lia. }
    assert (max <= c). { destruct (le_lt_dec max c) as [L|L]; auto. exfalso. assert (S c * s <= max * s) by (apply Nat.mul_le_mono_r; lia). lia. }
    lia.
Qed.
(** False of the code: 2 max_points - 1 samples (1999 with the default of 1000) are all
    kept. *)
Theorem C48_refuted : forall dt ts rows max, 2 <= max -> List.length rows = 2 * max - 1 ->
  exists pts, marker_points (SMoving dt ts rows) (Z.of_nat max) = Ok pts /\ List.length pts = 2 * max - 1 /\ max < List.length pts.
Proof.
  intros dt ts rows max H L. destruct (marker_ok dt ts rows max ltac:(lia)) as (pts & E & (_ & B)). exists pts. split; [exact E|]. rewrite map_length in B.
  assert (S1 : List.length rows / max = 1). { symmetry. apply (Nat.div_unique _ _ 1 (max - 1)); lia. }
  rewrite S1 in B. lia.
Qed.
(** False of the code: a path with fewer samples than max_points cannot be shown at all... *)
Theorem C48_short_refuted : forall dt ts rows max, List.length rows < max -> marker_points (SMoving dt ts rows) (Z.of_nat max) = Raise ValueError.
Proof.
  intros dt ts rows max H. unfold marker_points. destruct (Z.eqb_spec (Z.of_nat max) 0); [lia|]. rewrite <- Nat2Z.inj_div, Nat.div_small by auto. reflexivity.
Qed.
(** ... and neither can a static frame. *)
Theorem C48_static_refuted : forall t r max, exists e, marker_points (SStatic t r) max = Raise e.
Proof.
  intros t r max. unfold marker_points. destruct (Z.eqb max 0); [eauto|]. unfold slice_every. destruct (Z.eqb _ 0); [cbn; eauto|]. destruct (Z.ltb 0 _); cbn; eauto.
Qed.
Example C48_example : exists rows : list (vec3 * quat), 0 < 3 <= List.length rows /\ Nat.divide 3 (List.length rows).
Proof. exists (repeat (v0, q1) 6). split; [cbn; lia|]. exists 2. reflexivity. Qed.

(* ------------------------------------------------------------------ C56 *)
(** j is the last call before k that sent the marker. *)
Definition last_sent (p : list bool) (j k : nat) : Prop :=
  j < k /\ nth_error p j = Some true /\ forall i, j < i < k -> nth_error p i = Some false.

Section Marker.
  Context {marker : Type} (serialize : marker -> list Z).
  Lemma markers_length ms : forall last, List.length (publish_markers serialize last ms) = List.length ms.
  Proof. induction ms as [|m ms IH]; intros last; auto. cbn [publish_markers]. destruct (publish_marker serialize last m) as (la, p). cbn. rewrite IH. reflexivity. Qed.
  Lemma marker_step last m : publish_marker serialize last m = (serialize m, negb (if list_eq_dec Z.eq_dec (serialize m) last then true else false)).
  Proof. unfold publish_marker. destruct (list_eq_dec Z.eq_dec (serialize m) last) as [->|]; reflexivity. Qed.
  (** Each call compares with the marker of the previous call. *)
  Lemma markers_nth ms : forall last k, nth_error (publish_markers serialize last ms) k =
    match nth_error ms k with
    | None => None
    | Some m => Some (negb (if list_eq_dec Z.eq_dec (serialize m) (match k with O => last | S j => match nth_error ms j with Some m' => serialize m' | None => [] end end) then true else false))
    end.
  Proof.
    induction ms as [|m ms IH]; intros last [|k]; cbn [publish_markers nth_error]; auto; rewrite marker_step; [reflexivity|]. cbn [nth_error]. rewrite IH.
    destruct (nth_error ms k) eqn:E; auto. destruct k as [|k]; [reflexivity|]. cbn [nth_error]. reflexivity.
  Qed.
  Lemma unsent_same ms last j k mj mk : nth_error ms j = Some mj -> nth_error ms k = Some mk -> j <= k ->
    (forall i, j < i <= k -> nth_error (publish_markers serialize last ms) i = Some false) -> serialize mk = serialize mj.
  Proof.
    intros Hj. revert mk. induction k as [|k IH]; intros mk Hk L U; [assert (j = 0) by lia; subst; congruence|].
    destruct (Nat.eq_dec j (S k)) as [->|]; [congruence|].
    destruct (nth_error ms k) as [m'|] eqn:E'.
    - rewrite <- (IH m' eq_refl) by (try lia; intros; apply U; lia). specialize (U (S k) ltac:(lia)). rewrite markers_nth, Hk, E' in U.
      destruct (list_eq_dec Z.eq_dec (serialize mk) (serialize m')) as [->|]; [reflexivity|discriminate].
    - apply nth_error_None in E'. assert (S k < List.length ms) by (apply nth_error_Some; congruence). lia.
  Qed.
  (** For any sequence of markers at the times of the publish() calls on a new publisher:
      the k-th call sends its marker if no call before did, and otherwise exactly if the
      marker is not serialized like the one last sent. *)
  Theorem C56_publish : (forall m, serialize m <> []) -> forall ms k m, nth_error ms k = Some m ->
    let p := publish_markers serialize [] ms in
    exists sent, nth_error p k = Some sent /\
      ((forall j, ~ last_sent p j k) -> k = 0 /\ sent = true) /\
      forall j m', last_sent p j k -> nth_error ms j = Some m' -> (sent = true <-> serialize m <> serialize m').
  Proof.
    intros NE ms k m Hk p.
    assert (Lk : k < List.length ms) by (apply nth_error_Some; congruence).
    assert (P : forall i mi, nth_error ms i = Some mi -> exists b, nth_error p i = Some b).
    { intros i mi Hi. destruct (nth_error p i) eqn:E; [eauto|]. apply nth_error_None in E. unfold p in E. rewrite markers_length in E.
      assert (i < List.length ms) by (apply nth_error_Some; congruence). lia. }
    assert (P0 : forall m0, nth_error ms 0 = Some m0 -> nth_error p 0 = Some true).
    { intros m0 H0. unfold p. rewrite markers_nth, H0. destruct (list_eq_dec Z.eq_dec (serialize m0) []) as [E|]; [destruct (NE _ E)|reflexivity]. }
    destruct (P k m Hk) as (b & Eb). exists b. split; [exact Eb|]. split.
    - intros No. destruct k as [|k]; [split; auto; rewrite (P0 m Hk) in Eb; congruence|]. exfalso.
      (* the last sending call below S k exists *)
      assert (Ex : forall n, n <= k -> exists j, last_sent p j (S n)).
      { induction n as [|n IH]; intros Ln.
        - exists 0. split; [lia|]. split; [|intros; lia]. destruct (nth_error ms 0) as [m0|] eqn:E0; [apply (P0 m0); auto|apply nth_error_None in E0; lia].
        - destruct (nth_error ms (S n)) as [mn|] eqn:En; [|apply nth_error_None in En; lia]. destruct (P (S n) mn En) as ([|] & Eq).
          + exists (S n). split; [lia|]. split; [exact Eq|intros; lia].
          + destruct (IH ltac:(lia)) as (j & A & B & C). exists j. split; [lia|]. split; [exact B|]. intros i Hi. destruct (Nat.eq_dec i (S n)) as [->|]; [exact Eq|apply C; lia]. }
      destruct (Ex k (le_n k)) as (j & Hj). exact (No j Hj).
    - intros j m' (Lj & Sj & Uj) Hj. destruct k as [|k]; [lia|].
      destruct (nth_error ms k) as [mk|] eqn:Ek; [|apply nth_error_None in Ek; lia].
      assert (Em : serialize mk = serialize m'). { apply (unsent_same ms [] j k); auto; [lia|]. intros i Hi. apply Uj. lia. }
      unfold p in Eb. rewrite markers_nth, Hk, Ek, Em in Eb. destruct (list_eq_dec Z.eq_dec (serialize m) (serialize m')) as [E|E]; injection Eb as <-; cbn; split; congruence.
  Qed.
End Marker.
Example C56_example : (forall m, (fun k : Z => [k]) m <> []) /\ publish_markers (fun k : Z => [k]) [] [1; 1; 2; 2; 1]%Z = [true; false; true; false; true].
Proof. split; [discriminate|reflexivity]. Qed.

(* ------------------------------------------------------------------ C53 *)
(** The distance of a click: skip, or step if there is none (or 0). *)
Definition distance (skip : option Z) (step d : Z) : Prop :=
  match skip with None => d = step | Some k => (k = 0 /\ d = step \/ k <> 0 /\ d = k)%Z end.
Inductive click := Forward | Backward.
Definition clicks (max : Z) (skip : option Z) (step : Z) (l : list click) (v : Z) : Z :=
  fold_left (fun v c => match c with Forward => button_plus max skip step v | Backward => button_minus max skip step v end) l v.
Lemma skip_or_is skip step d : distance skip step d -> skip_or skip step = d.
Proof. unfold skip_or, distance. destruct skip as [k|]; [|auto]. destruct (Z.eqb_spec k 0) as [E|E]; intros [(A & B)|(A & B)]; congruence. Qed.
(** From any index: forward moves by the distance, at most to the last index; backward, when
    not at the last index, by the distance, at least to the first one.  Missing: backward
    from the last index (refuted below). *)
Theorem C53_partial : forall max skip step d v, (0 <= v <= max)%Z -> (0 <= d)%Z -> distance skip step d ->
  button_plus max skip step v = Z.min max (v + d) /\
  (v <> max -> button_minus max skip step v = Z.max 0 (v - d)).
Proof.
  intros max skip step d v Hv Hd H. apply skip_or_is in H. unfold button_plus, button_minus, slider_set. rewrite H.
  destruct (Z.ltb_spec v max); split; intros; lia.
Qed.
(** Any sequence of clicks stays within the messages. *)
Theorem C53_range : forall max skip step l v, (0 <= v <= max)%Z -> (0 <= clicks max skip step l v <= max)%Z.
Proof.
  intros max skip step l. induction l as [|c l IH]; intros v Hv; auto. cbn [clicks fold_left]. apply IH. unfold button_plus, button_minus, slider_set. destruct c; lia.
Qed.
(** False of the code: at the last message the backward button does nothing. *)
Theorem C53_refuted : forall max skip step, (0 <= max)%Z -> button_minus max skip step max = max.
Proof. intros. unfold button_minus, slider_set. rewrite Z.ltb_irrefl. lia. Qed.
(** Once there, no sequence of backward clicks gets away from it. *)
Theorem C53_stuck_refuted : forall max skip step n, (0 <= max)%Z -> clicks max skip step (repeat Backward n) max = max.
Proof. intros max skip step n H. induction n as [|n IH]; auto. cbn [repeat clicks fold_left]. rewrite C53_refuted by auto. exact IH. Qed.
(** What the buttons show: publish(idx) of the broadcaster with the slider's value sends
    that sample, after any clicks. *)
Theorem C53_publishes : forall b skip step l v, proper b -> b_idx b = 0%Z -> (0 <= v < Z.of_nat (samples_of b))%Z ->
  let v' := clicks (Z.of_nat (samples_of b) - 1) skip step l v in
  exists sent, publish b (Some v') = (sent, Ok tt) /\ sends_sample b (Z.to_nat v') sent.
Proof.
  intros b skip step l v P H0 Hv v'. assert (R : (0 <= v' <= Z.of_nat (samples_of b) - 1)%Z) by (apply C53_range; lia).
  apply C49_partial; auto. split; [lia|]. left. lia.
Qed.
Example C53_example : distance (Some 2%Z) 1 2 /\ distance (Some 0%Z) 3 3 /\ clicks 10 (Some 2%Z) 1 [Forward; Forward; Backward; Forward; Forward] 5 = 10%Z.
Proof. split; [right; lia|]. split; [left; lia|reflexivity]. Qed.
