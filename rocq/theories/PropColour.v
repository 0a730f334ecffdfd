(** C72: exactly which colour strings are accepted, and what they mean. *)
From Coq Require Import Reals List String Ascii ZArith Bool Arith Lia Lra.
From Verif Require Import Base Viz PropViz.
Import ListNotations.
Open Scope R_scope.

(* ------------------------------------------------------------------ specification *)
(** White space of ASCII: tab, line feed, vertical tab, form feed, carriage return, blank. *)
Definition white (c : ascii) : Prop := In (nat_of_ascii c) [9; 10; 11; 12; 13; 32]%nat.
(** What Python's int(l, 16) makes of one or two characters: a digit; two digits; a digit with
    white space or a sign before it, or white space after it.  Anything else is refused. *)
Inductive reads : list ascii -> Z -> Prop :=
| reads_one c d : digit c d -> reads [c] (Z.of_nat d)
| reads_two c e hi lo : digit c hi -> digit e lo -> reads [c; e] (16 * Z.of_nat hi + Z.of_nat lo)%Z
| reads_before c e d : white c \/ c = "+"%char -> digit e d -> reads [c; e] (Z.of_nat d)
| reads_minus e d : digit e d -> reads ["-"%char; e] (- Z.of_nat d)%Z
| reads_after c e d : digit c d -> white e -> reads [c; e] (Z.of_nat d).

(* ------------------------------------------------------------------ proofs *)
Lemma white_iff c : white c <-> blank c = true.
Proof. symmetry. apply blank_iff. Qed.
Lemma one_digit_iff c z : one_digit c = Ok z <-> exists d, digit c d /\ z = Z.of_nat d.
Proof.
  unfold one_digit. split.
  - destruct (hex_digit c) eqn:E; [|discriminate]. injection 1 as <-. apply hex_digit_inv, E.
  - intros (d & D & ->). apply digit_ok in D as (-> & _). reflexivity.
Qed.
Lemma reads_iff l z : int16 l = Ok z <-> reads l z.
Proof.
  split.
  - destruct l as [|a [|b [|c l]]]; try discriminate; unfold int16.
    + intros H. apply one_digit_iff in H as (d & D & ->). constructor. exact D.
    + destruct (blank a || Ascii.eqb a "+") eqn:B.
      { intros H. apply one_digit_iff in H as (d & D & ->). constructor; [|exact D]. apply orb_true_iff in B as [B|B]; [left; apply white_iff, B|right; apply Ascii.eqb_eq, B]. }
      destruct (Ascii.eqb_spec a "-") as [->|_].
      { intros H. destruct (one_digit b) as [y|] eqn:E; [|discriminate]. cbn [bind] in H. injection H as <-. apply one_digit_iff in E as (d & D & ->). constructor. exact D. }
      destruct (blank b) eqn:Bb.
      { intros H. apply one_digit_iff in H as (d & D & ->). apply reads_after; [exact D|apply white_iff, Bb]. }
      intros H. destruct (one_digit a) as [x|] eqn:Ea; [|discriminate]. cbn [bind] in H. destruct (one_digit b) as [y|] eqn:Eb; [|discriminate]. cbn [bind] in H. injection H as <-.
      apply one_digit_iff in Ea as (hi & Da & ->). apply one_digit_iff in Eb as (lo & Db & ->). constructor; assumption.
  - intros H. destruct H as [c d D|c e hi lo D D'|c e d W D|e d D|c e d D W]; unfold int16.
    + apply one_digit_iff. eauto.
    + destruct (digit_ok c hi D) as (H1 & H2 & _ & H4 & H5). destruct (digit_ok e lo D') as (H1' & H2' & _). rewrite H2, H2'. apply Ascii.eqb_neq in H4, H5. rewrite H4, H5. cbn [orb].
      unfold one_digit. rewrite H1, H1'. reflexivity.
    + replace (blank c || Ascii.eqb c "+")%bool with true; [apply one_digit_iff; eauto|]. destruct W as [W| ->]; [apply white_iff in W; rewrite W; reflexivity|reflexivity].
    + change (blank "-" || Ascii.eqb "-" "+")%bool with false. change (Ascii.eqb "-" "-") with true. cbv iota. replace (one_digit e) with (Ok (Z.of_nat d)) by (symmetry; apply one_digit_iff; eauto). reflexivity.
    + destruct (digit_ok c d D) as (H1 & H2 & _ & H4 & H5). apply Ascii.eqb_neq in H4, H5. rewrite H2, H4, H5. apply white_iff in W. rewrite W. cbn [orb]. apply one_digit_iff. eauto.
Qed.
Lemma piece_iff l i x : piece l i = Ok x <-> exists z, reads (firstn 2 (skipn i l)) z /\ x = IZR z / 255.
Proof.
  unfold piece. split.
  - destruct (int16 _) as [z|] eqn:E; [|discriminate]. cbn [bind]. injection 1 as <-. exists z. split; [apply reads_iff, E|reflexivity].
  - intros (z & H & ->). apply reads_iff in H. rewrite H. reflexivity.
Qed.
Lemma lstrip_split l : exists n, l = (repeat "#"%char n ++ lstrip l)%list /\ hd_error (lstrip l) <> Some "#"%char.
Proof.
  induction l as [|c l (n & E & H)]; [exists 0%nat; split; [reflexivity|discriminate]|]. cbn [lstrip]. destruct (Ascii.eqb_spec c "#") as [->|N].
  - exists (S n). split; [cbn [repeat app]; f_equal; exact E|exact H].
  - exists 0%nat. split; [reflexivity|]. cbn [hd_error]. congruence.
Qed.

(* ------------------------------------------------------------------ C72 *)
(** The colour string is l after its leading #.  It is accepted exactly if the pairs of
    characters 0-1, 2-3, 4-5 and 6-7 of l can be read (what follows is ignored), and then
    the components are these numbers over 255; otherwise ValueError is raised. *)
Theorem C72_accepted : forall h n l, list_ascii_of_string h = (repeat "#"%char n ++ l)%list -> hd_error l <> Some "#"%char ->
  (forall c, hex_to_rgba h = Ok c <->
     exists r g b a, reads (firstn 2 l) r /\ reads (firstn 2 (skipn 2 l)) g /\ reads (firstn 2 (skipn 4 l)) b /\ reads (firstn 2 (skipn 6 l)) a /\
       c = RGBA (IZR r / 255) (IZR g / 255) (IZR b / 255) (IZR a / 255)) /\
  (forall e, hex_to_rgba h = Raise e -> e = ValueError).
Proof.
  intros h n l E H.
  assert (L : lstrip (list_ascii_of_string h) = l). { rewrite E, lstrip_repeat. destruct l as [|c l]; [reflexivity|]. apply lstrip_ok. intros ->. apply H. reflexivity. }
  unfold hex_to_rgba. cbv zeta. rewrite L. split.
  - intros c. split.
    + destruct (piece l 0) as [r|] eqn:E0; [|discriminate]. cbn [bind]. destruct (piece l 2) as [g|] eqn:E2; [|discriminate]. cbn [bind]. destruct (piece l 4) as [b|] eqn:E4; [|discriminate]. cbn [bind].
      destruct (piece l 6) as [a|] eqn:E6; [|discriminate]. cbn [bind]. injection 1 as <-.
      apply piece_iff in E0 as (zr & R0 & ->), E2 as (zg & R2 & ->), E4 as (zb & R4 & ->), E6 as (za & R6 & ->). exists zr, zg, zb, za. repeat split; assumption.
    + intros (r & g & b & a & R0 & R2 & R4 & R6 & ->).
      rewrite (proj2 (piece_iff l 0 (IZR r / 255))) by eauto. rewrite (proj2 (piece_iff l 2 (IZR g / 255))) by eauto. rewrite (proj2 (piece_iff l 4 (IZR b / 255))) by eauto. rewrite (proj2 (piece_iff l 6 (IZR a / 255))) by eauto. reflexivity.
  - assert (P : forall i e, piece l i = Raise e -> e = ValueError).
    { intros i e. unfold piece, int16, one_digit. destruct (firstn 2 (skipn i l)) as [|x [|y [|]]]; cbn [bind]; try congruence;
        repeat match goal with |- context [if ?b then _ else _] => destruct b | |- context [hex_digit ?x] => destruct (hex_digit x); cbn [bind] end; congruence. }
    intros e. destruct (piece l 0) eqn:E0; cbn [bind]; [|intros [= <-]; apply (P _ _ E0)]. destruct (piece l 2) eqn:E2; cbn [bind]; [|intros [= <-]; apply (P _ _ E2)].
    destruct (piece l 4) eqn:E4; cbn [bind]; [|intros [= <-]; apply (P _ _ E4)]. destruct (piece l 6) eqn:E6; cbn [bind]; [discriminate|intros [= <-]; apply (P _ _ E6)].
Qed.
(** Every string is of this form. *)
Theorem C72_every_string : forall h, exists n l, list_ascii_of_string h = (repeat "#"%char n ++ l)%list /\ hd_error l <> Some "#"%char.
Proof. intros h. destruct (lstrip_split (list_ascii_of_string h)) as (n & E & H). eauto. Qed.
(** So a colour can come out negative: "#-10000ff" is not refused. *)
Theorem C72_negative_refuted : exists h c, hex_to_rgba h = Ok c /\ c_r c < 0.
Proof. exists "#-10000ff"%string. eexists. split; [reflexivity|]. cbn [c_r]. change (IZR (- 1) / 255 < 0). lra. Qed.
Example C72_example_accepted : reads [" "%char; "f"%char] 15 /\ reads ["7"%char; ascii_of_nat 13] 7 /\ ~ (exists z, reads ["g"%char; "0"%char] z).
Proof.
  split; [apply (reads_before _ _ 15); [left; unfold white; cbn; auto 10|left; reflexivity]|]. split; [apply (reads_after _ _ 7); [left; reflexivity|unfold white; cbn; auto 10]|].
  intros (z & H). apply reads_iff in H. discriminate.
Qed.
