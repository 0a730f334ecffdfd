(** Property C72: the marker of a marker publisher shows the path of the frame in the base
    frame, with the given colour. *)
From Coq Require Import Reals List String Ascii ZArith Bool Arith Lia Lra.
From Verif Require Import Base Quat SpecQuat QuatProofs NdArray Frames SpecForest FrameProofs WalkProofs Matcher SpecLookup
  LookupProofs RegistryProofs MovingProofs RouteProofs Examples PropForest PropLookup PropMoving PropConsist VelExamples RosMsg Broadcast PropMarker Viz.
Import ListNotations.
Open Scope R_scope.

(* ------------------------------------------------------------------ specification *)
(** The character c is the hexadecimal digit with value d. *)
Definition digit (c : ascii) (d : nat) : Prop :=
  String.get d "0123456789abcdef" = Some c \/ String.get d "0123456789ABCDEF" = Some c.
(** l spells the byte b (0 to 255) with two hexadecimal digits. *)
Definition byte (l : list ascii) (b : nat) : Prop :=
  exists c d hi lo, l = [c; d] /\ digit c hi /\ digit d lo /\ (b = 16 * hi + lo)%nat.
(** The colour string h: any number of # (usually one), then the bytes r, g, b, a. *)
Definition spells (h : string) (r g b a : nat) : Prop :=
  exists n lr lg lb la, list_ascii_of_string h = (repeat "#"%char n ++ lr ++ lg ++ lb ++ la)%list /\
    byte lr r /\ byte lg g /\ byte lb b /\ byte la a.
(** c has these components, as fractions of 255. *)
Definition colour (c : rgba) (r g b a : nat) : Prop :=
  c_r c = INR r / 255 /\ c_g c = INR g / 255 /\ c_b c = INR b / 255 /\ c_a c = INR a / 255.
(** The base frame of a publisher for frame i: the one given, or the parent. *)
Definition base_is (s : state) (i : nat) (base : option pref) (j : nat) : Prop :=
  match base with Some p => p <> PName "" /\ denotes s p j | None => parent_of s i = Some j end.
(** The marker is drawn in the axes of its frame: at the origin and not turned. *)
Definition drawn_in (m : marker) (name : option string) : Prop :=
  mk_frame m = name /\ mk_position m = XYZ 0 0 0 /\ mk_orientation m = XYZW 0 0 0 1.
Definition vec_of (p : xyz) : vec3 := V3 (m_x p) (m_y p) (m_z p).

(* ------------------------------------------------------------------ proofs: colours *)
Lemma digit_lt c d : digit c d -> (d < 16)%nat.
Proof.
  intros H. destruct (le_lt_dec 16 d) as [L|]; auto. exfalso.
  replace d with (16 + (d - 16))%nat in H by lia. destruct H as [H|H]; cbn in H; destruct (d - 16)%nat; discriminate.
Qed.
Lemma digit_ok c d : digit c d -> hex_digit c = Some (Z.of_nat d) /\ blank c = false /\ c <> "#"%char /\ c <> "+"%char /\ c <> "-"%char.
Proof.
  intros H. pose proof (digit_lt c d H) as L.
  do 16 (destruct d as [|d]; [destruct H as [H|H]; cbn in H; injection H as <-; repeat split; try reflexivity; discriminate|]). lia.
Qed.
Lemma hex_digit_inv c z : hex_digit c = Some z -> exists d, digit c d /\ z = Z.of_nat d.
Proof.
  intros H. destruct c as [b0 b1 b2 b3 b4 b5 b6 b7].
  destruct b7; [destruct b6, b5, b4, b3, b2, b1, b0; discriminate H|].
  destruct b6, b5, b4, b3, b2, b1, b0; vm_compute in H; try discriminate H; injection H as <-;
    match goal with |- exists d, _ /\ ?z = _ => exists (Z.to_nat z) end; (split; [|reflexivity]); unfold digit; cbn; auto.
Qed.
Lemma byte_int l b : byte l b -> int16 l = Ok (Z.of_nat b).
Proof.
  intros (c & d & hi & lo & -> & Hc & Hd & ->). destruct (digit_ok c hi Hc) as (E & B & _ & P & M). destruct (digit_ok d lo Hd) as (E' & B' & _).
  unfold int16, one_digit. rewrite B, B', E, E'. destruct (Ascii.eqb_spec c "+"%char); [contradiction|]. destruct (Ascii.eqb_spec c "-"%char); [contradiction|].
  cbn [orb bind]. f_equal. lia.
Qed.
Lemma lstrip_repeat n l : lstrip (repeat "#"%char n ++ l) = lstrip l.
Proof. induction n; cbn [repeat app lstrip]; auto. Qed.
Lemma lstrip_ok c l : c <> "#"%char -> lstrip (c :: l) = c :: l.
Proof. intros N. cbn [lstrip]. destruct (Ascii.eqb_spec c "#"%char); [contradiction|reflexivity]. Qed.
Lemma byte_len l b : byte l b -> exists c d, l = [c; d] /\ c <> "#"%char.
Proof. intros (c & d & hi & lo & -> & Hc & _). exists c, d. split; auto. apply (digit_ok c hi Hc). Qed.
Lemma piece_ok l i b : byte (firstn 2 (skipn i l)) b -> piece l i = Ok (INR b / 255).
Proof. intros H. unfold piece. rewrite (byte_int _ b H). cbn [bind]. rewrite INR_IZR_INZ. reflexivity. Qed.

(** The documented format #RRGGBBAA, in upper or lower case, gives the colour it spells;
    all components are between 0 and 1. *)
Theorem C72_colour : forall h r g b a, spells h r g b a ->
  exists c, hex_to_rgba h = Ok c /\ colour c r g b a /\
    forall x, In x [c_r c; c_g c; c_b c; c_a c] -> 0 <= x <= 1.
Proof.
  intros h r g b a (n & lr & lg & lb & la & E & Hr & Hg & Hb & Ha).
  assert (L : lstrip (list_ascii_of_string h) = (lr ++ lg ++ lb ++ la)%list).
  { rewrite E, lstrip_repeat. destruct (byte_len lr r Hr) as (c & d & -> & N). cbn [app]. apply lstrip_ok; auto. }
  unfold hex_to_rgba. rewrite L. clear E L.
  destruct (byte_len _ _ Hr) as (r1 & r2 & -> & _), (byte_len _ _ Hg) as (g1 & g2 & -> & _), (byte_len _ _ Hb) as (b1 & b2 & -> & _), (byte_len _ _ Ha) as (a1 & a2 & -> & _).
  cbn [app]. rewrite (piece_ok _ 0 r), (piece_ok _ 2 g), (piece_ok _ 4 b), (piece_ok _ 6 a) by assumption. cbn [bind].
  eexists. split; [reflexivity|]. cbn [c_r c_g c_b c_a]. split; [repeat apply conj; reflexivity|].
  assert (B : forall l x, byte l x -> 0 <= INR x / 255 <= 1).
  { intros l x (c & d & hi & lo & _ & Hc & Hd & ->). apply digit_lt in Hc, Hd.
    assert (0 <= INR (16 * hi + lo) <= 255).
    { split; [apply pos_INR|]. replace 255 with (INR 255) by (rewrite INR_IZR_INZ; reflexivity). apply le_INR. lia. }
    lra. }
  intros x [<-|[<-|[<-|[<-|[]]]]]; eauto.
Qed.
(** A colour without alpha channel (#RRGGBB), or any shorter one, is refused. *)
Theorem C72_short : forall h n l, list_ascii_of_string h = (repeat "#"%char n ++ l)%list -> hd_error l <> Some "#"%char ->
  (List.length l <= 6)%nat -> hex_to_rgba h = Raise ValueError.
Proof.
  intros h n l E N L. unfold hex_to_rgba. rewrite E, lstrip_repeat.
  assert (H : lstrip l = l). { destruct l as [|c l]; auto. apply lstrip_ok. intros ->. apply N. reflexivity. }
  rewrite H. 
  assert (P : forall i, piece l i = Raise ValueError \/ exists x, piece l i = Ok x).
  { intros i. unfold piece, int16, one_digit. destruct (firstn 2 (skipn i l)) as [|a [|b [|]]]; cbn [bind]; auto.
    - destruct (hex_digit a); cbn [bind]; eauto.
    - destruct (blank a || Ascii.eqb a "+"); [destruct (hex_digit b); cbn [bind]; eauto|].
      destruct (Ascii.eqb a "-"); [destruct (hex_digit b); cbn [bind]; eauto|].
      destruct (blank b); destruct (hex_digit a), (hex_digit b); cbn [bind]; eauto. }
  destruct (P 0%nat) as [->|(x & ->)]; [reflexivity|]. cbn [bind]. destruct (P 2%nat) as [->|(y & ->)]; [reflexivity|]. cbn [bind].
  destruct (P 4%nat) as [->|(z & ->)]; [reflexivity|]. cbn [bind].
  unfold piece. rewrite (skipn_all2 l) by lia. reflexivity.
Qed.
(** The characters Python skips around a number. *)
Lemma blank_iff c : blank c = true <-> In (nat_of_ascii c) [9; 10; 11; 12; 13; 32]%nat.
Proof.
  unfold blank. cbv zeta. generalize (nat_of_ascii c). intros n. cbn [In]. rewrite orb_true_iff, andb_true_iff, !Nat.leb_le, Nat.eqb_eq. lia.
Qed.
(** A character of the first eight that is no digit, sign or blank is refused. *)
Theorem C72_bad_digit : forall h l k c, list_ascii_of_string h = ("#"%char :: l)%list -> hd_error l <> Some "#"%char -> (k < 8)%nat ->
  nth_error l k = Some c -> (forall d, ~ digit c d) -> ~ In c ["+"%char; "-"%char] -> ~ In (nat_of_ascii c) [9; 10; 11; 12; 13; 32]%nat -> hex_to_rgba h = Raise ValueError.
Proof.
  intros h l k c E Nh Hk Hc Nd Ns Nb0. assert (Nb : blank c = false) by (destruct (blank c) eqn:X; [apply blank_iff in X; contradiction|reflexivity]). clear Nb0. unfold hex_to_rgba. rewrite E. cbn [lstrip]. change (Ascii.eqb "#" "#") with true. cbv iota.
  assert (H : lstrip l = l). { destruct l as [|c' l']; auto. apply lstrip_ok. intros ->. apply Nh. reflexivity. }
  rewrite H. clear H.
  assert (Hx : hex_digit c = None). { destruct (hex_digit c) eqn:Ed; auto. apply hex_digit_inv in Ed as (d & D & _). destruct (Nd d D). }
  assert (P : forall i, piece l i = Raise ValueError \/ exists x, piece l i = Ok x).
  { intros i. unfold piece, int16, one_digit. destruct (firstn 2 (skipn i l)) as [|a [|b [|]]]; cbn [bind]; auto.
    - destruct (hex_digit a); cbn [bind]; eauto.
    - destruct (blank a || Ascii.eqb a "+"); [destruct (hex_digit b); cbn [bind]; eauto|].
      destruct (Ascii.eqb a "-"); [destruct (hex_digit b); cbn [bind]; eauto|].
      destruct (blank b); destruct (hex_digit a), (hex_digit b); cbn [bind]; eauto. }
  assert (Np : c <> "+"%char) by (intros ->; apply Ns; left; auto).
  assert (Nm : c <> "-"%char) by (intros ->; apply Ns; right; left; auto).
  assert (I2 : forall a b, (a = c \/ b = c) -> forall z, int16 [a; b] <> Ok z).
  { intros a b [->| ->] z; unfold int16, one_digit; [rewrite Nb, Hx|rewrite Hx, Nb].
    - destruct (Ascii.eqb_spec c "+"%char); [contradiction|]. destruct (Ascii.eqb_spec c "-"%char); [contradiction|]. cbn [orb]. destruct (blank b); cbn; discriminate.
    - destruct (blank a || Ascii.eqb a "+"); [discriminate|]. destruct (Ascii.eqb a "-"); [discriminate|]. destruct (hex_digit a); cbn; discriminate. }
  assert (Q : forall i, (i = k \/ S i = k) -> piece l i = Raise ValueError).
  { intros i Hi. destruct (P i) as [|(x & Ex)]; auto. exfalso. unfold piece in Ex. apply bind_ok in Ex as (z & Ez & _).
    assert (L : forall j, nth_error (skipn i l) j = nth_error l (i + j)).
    { clear. revert l; induction i; intros l j; cbn; auto. destruct l; [destruct j; auto|]. apply IHi. }
    pose proof (L 0%nat) as L0. pose proof (L 1%nat) as L1. destruct (skipn i l) as [|a [|b rest]].
    - cbn in Ez. discriminate.
    - cbn in Ez, L0, L1. rewrite Nat.add_0_r in L0. destruct Hi as [->|Hi].
      + rewrite Hc in L0. injection L0 as ->. unfold one_digit in Ez. rewrite Hx in Ez. discriminate.
      + replace (i + 1)%nat with k in L1 by lia. congruence.
    - cbn [firstn] in Ez. cbn in L0, L1. rewrite Nat.add_0_r in L0. apply (I2 a b) in Ez; auto. destruct Hi as [->|Hi].
      + left. congruence. 
      + right. replace (i + 1)%nat with k in L1 by lia. congruence. }
  destruct (P 0%nat) as [->|(x0 & E0)]; [reflexivity|]. rewrite E0. cbn [bind]. destruct (P 2%nat) as [->|(x2 & E2)]; [reflexivity|]. rewrite E2. cbn [bind].
  destruct (P 4%nat) as [->|(x4 & E4)]; [reflexivity|]. rewrite E4. cbn [bind]. destruct (P 6%nat) as [->|(x6 & E6)]; [reflexivity|].
  exfalso. do 8 (destruct k as [|k]; [first [rewrite Q in E0 by lia; discriminate|rewrite Q in E2 by lia; discriminate|rewrite Q in E4 by lia; discriminate|rewrite Q in E6 by lia; discriminate]|]). lia.
Qed.

(* ------------------------------------------------------------------ markers *)
(** A marker has the type, frame, size, colour and pose that were asked for; a single
    scale holds for the three axes.  Missing: the type 0 (Marker.ARROW), see below. *)
Theorem C72_marker_partial : forall ty frame sc x y z px py pz ox oy oz ow h r g b a, ty <> Some arrow ->
  (sc = SFloat x /\ y = x /\ z = x \/ sc = SIter [x; y; z]) -> spells h r g b a ->
  exists c, get_marker ty frame sc h [px; py; pz] [ox; oy; oz; ow] =
    Ok (Marker (match ty with Some k => k | None => line_strip end) frame (XYZ x y z) c (XYZ px py pz) (XYZW ox oy oz ow) []) /\ colour c r g b a.
Proof.
  intros ty frame sc x y z px py pz ox oy oz ow h r g b a Ht Hs Hh. destruct (C72_colour h r g b a Hh) as (c & E & C & _). exists c. split; auto.
  unfold get_marker. assert (S : match sc with SFloat x => mk_xyz [x; x; x] | SInt _ => Raise TypeError | SIter l => mk_xyz l end = Ok (XYZ x y z)).
  { destruct Hs as [(-> & -> & ->)| -> ]; reflexivity. }
  rewrite S. cbn [bind]. rewrite E. cbn [bind mk_quaternion mk_xyz]. f_equal. f_equal. destruct ty as [k|]; auto.
  destruct (Z.eqb_spec k 0); auto. subst. destruct Ht. reflexivity.
Qed.
(** False of the code: an arrow (type 0) comes out as a line strip, whatever the other
    arguments. *)
Theorem C72_arrow_refuted : forall frame sc h p o m, get_marker (Some arrow) frame sc h p o = Ok m -> mk_type m = line_strip /\ mk_type m <> arrow.
Proof.
  intros frame sc h p o m H. unfold get_marker in H. apply bind_ok in H as (? & _ & H). apply bind_ok in H as (? & _ & H). apply bind_ok in H as (? & _ & H).
  apply bind_ok in H as (? & _ & H). injection H as <-. split; [reflexivity|discriminate].
Qed.

(* ------------------------------------------------------------------ the path *)
Lemma smove_zero t r : smove t r v0 = t.
Proof. unfold smove. rewrite srot_0, vadd_0_l. reflexivity. Qed.
(** A publisher for frame i, base j: the marker is a line strip of the given width and
    colour, drawn in the axes of j, on the given topic, by default /<frame>/path.  With n
    timestamps of the lookup, its points are those number 0, k, 2k, ... for some k >= 1, in
    order, and each point is the position of the origin of frame i at that timestamp, in
    coordinates of j. *)
Theorem C72_path : forall squad s frame base topic max scale h p i j, reachable s -> squad_unit squad ->
  denotes s frame i -> base_is s i base j -> unit_way s i j -> (0 < max)%Z ->
  make_publisher squad s frame base topic max scale h = Ok p ->
  let m := p_marker p in
  drawn_in m (name_of s j) /\ mk_type m = line_strip /\ m_x (mk_scale m) = scale /\ hex_to_rgba h = Ok (mk_color m) /\
  (forall t, topic = Some t -> t <> ""%string -> p_topic p = t) /\
  (topic = None \/ topic = Some ""%string -> forall n, name_of s i = Some n -> p_topic p = ("/" ++ n ++ "/path")%string) /\
  exists ts rows k, lookup_transform squad s i (PFrame j) = Ok (TrRows ts rows) /\ (1 <= k)%nat /\
    (forall l, nth_error (mk_points m) l = None <-> nth_error ts (l * k) = None) /\
    forall l pt x, nth_error (mk_points m) l = Some pt -> nth_error ts (l * k) = Some x ->
      exists c P, coords squad s x i v0 c P /\ coords squad s x j (vec_of pt) c P.
Proof.
  intros squad s frame base topic max scale h p i j Hs Hq Hi Hj Hu Hmax H. pose proof (denotes_frame s frame i Hs Hi) as Fi.
  unfold make_publisher in H. rewrite (denotes_resolve s frame i Hi) in H. cbn [bind] in H.
  assert (Ej : match (match base with Some (PName n) => if String.eqb n "" then None else base | _ => base end) with
    | Some q => resolve_rf s q | None => match parent_of s i with Some q => Ok q | None => Raise TypeError end end = Ok j).
  { destruct base as [q|]; cbn in Hj; [|rewrite Hj; reflexivity]. destruct Hj as (N & D). destruct q as [k|n|]; try exact (denotes_resolve s _ j D).
    destruct (String.eqb_spec n ""); [subst; contradiction|]. exact (denotes_resolve s _ j D). }
  rewrite Ej in H. cbn [bind] in H. clear Ej.
  assert (Fj : PropForest.frame s j).
  { destruct base as [q|]; cbn in Hj; [exact (denotes_frame s q j Hs (proj2 Hj))|]. destruct (reachable_Inv s Hs) as (W & _). apply (wf_par _ W i j Hj). }
  apply bind_ok in H as (tr & Htr & H). apply bind_ok in H as (m0 & Hm & H). apply bind_ok in H as (se & Hse & H). apply bind_ok in H as (pts & Hp & H). injection H as <-.
  unfold get_marker in Hm. cbn [mk_xyz bind] in Hm. apply bind_ok in Hm as (col & Hc & Hm). cbn [mk_quaternion bind] in Hm. injection Hm as <-.
  cbn [p_marker p_topic p_base p_frame mk_type mk_frame mk_scale mk_color mk_position mk_orientation mk_points].
  split; [repeat apply conj; reflexivity|]. split; [reflexivity|]. split; [reflexivity|]. split; [exact Hc|].
  split. { intros t -> N. destruct (String.eqb_spec t ""); [contradiction|reflexivity]. }
  split. { intros [ -> | -> ] n ->; reflexivity. }
  destruct tr as [t r|ts0|ts rows]; [injection Hse as <-|discriminate|injection Hse as <-].
  { destruct (C48_static_refuted t r max) as (e & E). congruence. }
  pose proof (C17_moving_lookup squad s i (PFrame j) j ts rows Hs Hq Fi (or_introl (conj eq_refl Fj)) Hu Htr) as (Len & Hrow).
  unfold marker_points, slice_every in Hp. destruct (Z.eqb_spec max 0); [lia|]. set (q := (Z.of_nat (List.length rows) / max)%Z) in *.
  assert (0 <= q)%Z by (apply Z.div_pos; lia).
  destruct (Z.eqb_spec q 0); [discriminate Hp|]. destruct (Z.ltb_spec 0 q); [|lia]. cbn [bind] in Hp.
  destruct (skipping_every (Z.to_nat q) (map point_of rows)) as (Hn & _); [lia|].
  assert (Hmap : forall k l j0, skipping k j0 (map point_of l) = map point_of (skipping k j0 l)).
  { intros k l. induction l as [|a l IH]; intros [|j0]; cbn; auto; rewrite IH; auto. }
  rewrite points_ok in Hp. injection Hp as <-. exists ts, rows, (Z.to_nat q). split; [exact Htr|]. split; [lia|]. rewrite Hmap in Hn. split.
  - intros l. rewrite Hn, !nth_error_None, map_length. lia.
  - intros l pt x Hpt Hx. rewrite Hn in Hpt. rewrite nth_error_map in Hpt. destruct (nth_error rows (l * Z.to_nat q)) as [(t, r)|] eqn:Er; [|discriminate].
    injection Hpt as <-. destruct (Hrow _ x t r Hx Er) as (_ & c & _ & _ & HP). destruct (HP v0) as (P & H1 & H2). exists c, P. split; [exact H1|].
    rewrite smove_zero in H2. unfold vec_of, point_of. cbn [m_x m_y m_z fst]. destruct t. exact H2.
Qed.
(** When the path has at least max_points timestamps and the colour is well written, the
    publisher is made. *)
Theorem C72_made : forall squad s frame base topic max scale h r g b a i j ts rows, denotes s frame i -> base_is s i base j -> spells h r g b a ->
  lookup_transform squad s i (PFrame j) = Ok (TrRows ts rows) -> (0 < max <= Z.of_nat (List.length rows))%Z ->
  exists p, make_publisher squad s frame base topic max scale h = Ok p /\ colour (mk_color (p_marker p)) r g b a.
Proof.
  intros squad s frame base topic max scale h r g b a i j ts rows Hi Hj Hh Hl Hm. unfold make_publisher. rewrite (denotes_resolve s frame i Hi). cbn [bind].
  assert (Ej : match (match base with Some (PName n) => if String.eqb n "" then None else base | _ => base end) with
    | Some q => resolve_rf s q | None => match parent_of s i with Some q => Ok q | None => Raise TypeError end end = Ok j).
  { destruct base as [q|]; cbn in Hj; [|rewrite Hj; reflexivity]. destruct Hj as (N & D). destruct q as [k|n|]; try exact (denotes_resolve s _ j D).
    destruct (String.eqb_spec n ""); [subst; contradiction|]. exact (denotes_resolve s _ j D). }
  rewrite Ej. cbn [bind]. rewrite Hl. cbn [bind]. destruct (C72_colour h r g b a Hh) as (c & E & C & _). unfold get_marker. cbn [mk_xyz bind]. rewrite E. cbn [bind mk_quaternion].
  destruct (marker_ok false ts rows (Z.to_nat max)) as (pts & Ep & _); [lia|]. rewrite Z2Nat.id in Ep by lia. rewrite Ep. cbn [bind].
  eexists. split; [reflexivity|]. exact C.
Qed.
(** A root has no parent: without a base no publisher can be made for it. *)
Theorem C72_root : forall squad s frame topic max scale h i, denotes s frame i -> parent_of s i = None ->
  make_publisher squad s frame None topic max scale h = Raise TypeError.
Proof. intros squad s frame topic max scale h i Hi Hp. unfold make_publisher. rewrite (denotes_resolve s frame i Hi). cbn [bind]. rewrite Hp. reflexivity. Qed.
(** The path of a continuously moving frame, three samples, orange and opaque. *)
Example C72_example : spells "#ff8000FF" 255 128 0 255 /\ hex_to_rgba "#ff8000FF" = Ok (RGBA (255 / 255) (128 / 255) (0 / 255) (255 / 255)) /\
  hex_to_rgba "#ff8000" = Raise ValueError /\
  reachable mov_lit /\ squad_unit hold_squad /\ denotes mov_lit (PName "m") 1 /\ base_is mov_lit 1 None 0 /\ unit_way mov_lit 1 0 /\
  exists p, make_publisher hold_squad mov_lit (PName "m") None None 3 (1/10) "#ff8000FF" = Ok p /\ p_topic p = "/m/path"%string /\
    mk_points (p_marker p) = [XYZ 0 0 0; XYZ 1 0 0; XYZ 1 2 0].
Proof.
  split; [exists 1%nat, ["f"; "f"]%char, ["8"; "0"]%char, ["0"; "0"]%char, ["F"; "F"]%char; split; [reflexivity|]|].
  { repeat apply conj; [exists "f"%char, "f"%char, 15%nat, 15%nat|exists "8"%char, "0"%char, 8%nat, 0%nat|exists "0"%char, "0"%char, 0%nat, 0%nat|exists "F"%char, "F"%char, 15%nat, 15%nat];
      unfold digit; cbn; auto 6. }
  split; [reflexivity|]. split; [reflexivity|]. split; [exact mov_lit_reachable|]. split; [exact hold_squad_unit|]. split; [right; exists "m"%string; auto|].
  split; [reflexivity|]. split; [intros k d _ Hd; apply (mov_unit k d Hd)|].
  assert (L : lookup_transform hold_squad mov_lit 1 (PFrame 0) = Ok (TrRows [0;1;3] (combine [V3 0 0 0; V3 1 0 0; V3 1 2 0] [Qt 1 0 0 0; Qt 0 1 0 0; Qt 0 0 1 0]))).
  { apply (lookup_parent_moving hold_squad mov_lit 0 1 _ _ _ false); try reflexivity.
    - apply reachable_Inv, mov_lit_reachable.
    - unfold size; cbn; lia.
    - apply hold_squad_exact.
    - split; [apply increasing3; lra|]. cbn. lia.
    - assert (transform_of mov_lit 1 = Some (TMoving [0;1;3] [V3 0 0 0; V3 1 0 0; V3 1 2 0] [Qt 1 0 0 0; Qt 0 1 0 0; Qt 0 0 1 0] false)) as E by reflexivity. exact (mov_unit 1 _ E). }
  unfold make_publisher. change (resolve_rf mov_lit (PName "m")) with (@Ok nat 1%nat). cbn [bind]. change (parent_of mov_lit 1) with (Some 0%nat). cbn [bind]. rewrite L. eexists. split; [reflexivity|]. split; reflexivity.
Qed.
