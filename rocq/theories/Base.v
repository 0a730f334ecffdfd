(** Common vocabulary: exceptions, result monad, 3-vectors, quaternions.
    No property of the code is stated here. *)
From Coq Require Import Reals List String.
Import ListNotations.
Open Scope R_scope.

(** Python exceptions that the modelled code can raise.  [NaNValue] is not an
    exception of Python: it marks "the call returns, but an entry of the
    returned array is NaN or infinite" (division by zero in numpy). *)
Inductive exc :=
| ValueError | TypeError | KeyError | IndexError | AttributeError
| WalkError | LoopError | ZeroDivisionError | NotImplementedError
| RuntimeError | UnboundLocalError | AssertionError | SerializationError
| NaNValue
| OutOfFuel. (* never a Python outcome; excluded by theorems *)

Inductive res (A : Type) :=
| Ok (a : A)
| Raise (e : exc).
Arguments Ok {A} a.
Arguments Raise {A} e.

Definition bind {A B} (m : res A) (f : A -> res B) : res B :=
  match m with Ok a => f a | Raise e => Raise e end.

Declare Scope res_scope.
Delimit Scope res_scope with res.
Notation "x <- m ;; k" := (bind m (fun x => k))
  (at level 61, m at next level, right associativity) : res_scope.
Notation "' p <- m ;; k" := (bind m (fun p => k))
  (at level 61, p pattern, m at next level, right associativity) : res_scope.
Notation "'do_' m ;; k" := (bind m (fun _ => k))
  (at level 61, m at next level, right associativity) : res_scope.
Open Scope res_scope.

(** Evaluate in list order, stop at the first raise. *)
Fixpoint sequence {A} (l : list (res A)) : res (list A) :=
  match l with
  | [] => Ok []
  | m :: l => (a <- m ;; l' <- sequence l ;; Ok (a :: l'))%res
  end.
Definition traverse {A B} (f : A -> res B) (l : list A) : res (list B) :=
  sequence (map f l).

(** A point or vector: [x, y, z]. *)
Record vec3 := V3 { vx : R; vy : R; vz : R }.
(** A quaternion as in the library: (w, x, y, z), scalar first. *)
Record quat := Qt { qw : R; qx : R; qy : R; qz : R }.

Definition v0 : vec3 := V3 0 0 0.
Definition vadd (a b : vec3) := V3 (vx a + vx b) (vy a + vy b) (vz a + vz b).
Definition vsub (a b : vec3) := V3 (vx a - vx b) (vy a - vy b) (vz a - vz b).
Definition vopp (a : vec3) := V3 (- vx a) (- vy a) (- vz a).
Definition vscale (k : R) (a : vec3) := V3 (k * vx a) (k * vy a) (k * vz a).
Definition vdot (a b : vec3) : R := vx a * vx b + vy a * vy b + vz a * vz b.
Definition vcross (a b : vec3) :=
  V3 (vy a * vz b - vz a * vy b)
     (vz a * vx b - vx a * vz b)
     (vx a * vy b - vy a * vx b).
Definition vnorm2 (a : vec3) : R := vdot a a.
Definition vnorm (a : vec3) : R := sqrt (vnorm2 a).

(** Reals test used for guards in the model ([==] on floats). *)
Definition Req_b (x y : R) : bool := if Req_EM_T x y then true else false.
Definition Rle_b (x y : R) : bool := if Rle_dec x y then true else false.
Definition Rlt_b (x y : R) : bool := if Rlt_dec x y then true else false.

Lemma Req_b_true x y : Req_b x y = true <-> x = y.
Proof. unfold Req_b. destruct (Req_EM_T x y); split; intros H; auto; discriminate. Qed.
Lemma Req_b_false x y : Req_b x y = false <-> x <> y.
Proof. unfold Req_b. destruct (Req_EM_T x y); split; intros H; auto; congruence. Qed.
Lemma Rle_b_true x y : Rle_b x y = true <-> x <= y.
Proof. unfold Rle_b. destruct (Rle_dec x y); split; intros H; auto; try discriminate; try contradiction. Qed.
Lemma Rle_b_false x y : Rle_b x y = false <-> y < x.
Proof. unfold Rle_b. destruct (Rle_dec x y); split; intros H; auto; try discriminate.
  - exfalso. apply (Rlt_irrefl x). eapply Rle_lt_trans; eauto.
  - apply Rnot_le_lt; auto. Qed.
Lemma Rlt_b_true x y : Rlt_b x y = true <-> x < y.
Proof. unfold Rlt_b. destruct (Rlt_dec x y); split; intros H; auto; try discriminate; try contradiction. Qed.
Lemma Rlt_b_false x y : Rlt_b x y = false <-> y <= x.
Proof. unfold Rlt_b. destruct (Rlt_dec x y); split; intros H; auto; try discriminate.
  - exfalso. apply (Rlt_irrefl x). eapply Rlt_le_trans; eauto.
  - apply Rnot_lt_le; auto. Qed.

Lemma bind_ok {A B} (m : res A) (f : A -> res B) b :
  bind m f = Ok b -> exists a, m = Ok a /\ f a = Ok b.
Proof. destruct m as [a|e]; simpl; intros H; [eauto|discriminate]. Qed.

Lemma vec3_eq a b : vx a = vx b -> vy a = vy b -> vz a = vz b -> a = b.
Proof. destruct a, b; simpl; intros; subst; reflexivity. Qed.
Lemma quat_eq a b : qw a = qw b -> qx a = qx b -> qy a = qy b -> qz a = qz b -> a = b.
Proof. destruct a, b; simpl; intros; subst; reflexivity. Qed.

Lemma sequence_ok_length {A} (l : list (res A)) l' :
  sequence l = Ok l' -> List.length l' = List.length l.
Proof.
  revert l'; induction l as [|m l IH]; simpl; intros l' H.
  - injection H as <-; reflexivity.
  - apply bind_ok in H as (a & Ha & H). apply bind_ok in H as (l1 & Hl1 & H).
    injection H as <-. simpl. rewrite (IH _ Hl1). reflexivity.
Qed.

Lemma sequence_ok_nth {A} (l : list (res A)) l' i a :
  sequence l = Ok l' -> nth_error l' i = Some a <-> nth_error l i = Some (Ok a).
Proof.
  revert l' i; induction l as [|m l IH]; simpl; intros l' i H.
  - injection H as <-; destruct i; simpl; split; discriminate.
  - destruct m as [b|e]; simpl in H; [|discriminate].
    destruct (sequence l) as [l1|e]; simpl in H; [|discriminate].
    injection H as <-. destruct i; simpl.
    + split; intros H; [injection H as <-|injection H as <-]; reflexivity.
    + apply IH; reflexivity.
Qed.

Lemma sequence_all_ok {A} (l : list A) : sequence (map Ok l) = Ok l.
Proof. induction l as [|a l IH]; simpl; [|rewrite IH]; reflexivity. Qed.

Lemma traverse_nth {A B} (f : A -> res B) l l' i b :
  traverse f l = Ok l' ->
  nth_error l' i = Some b <-> exists a, nth_error l i = Some a /\ f a = Ok b.
Proof.
  intros H. unfold traverse in H. rewrite (sequence_ok_nth _ _ i b H).
  rewrite nth_error_map. destruct (nth_error l i) as [a|]; simpl; split.
  - intros E. injection E as E. eauto.
  - intros (a' & Ea & Eb). injection Ea as <-. rewrite Eb. reflexivity.
  - discriminate.
  - intros (a' & Ea & _). discriminate.
Qed.

Lemma traverse_length {A B} (f : A -> res B) l l' :
  traverse f l = Ok l' -> List.length l' = List.length l.
Proof. intros H. apply sequence_ok_length in H. rewrite H, map_length. reflexivity. Qed.

Lemma traverse_ok {A B} (f : A -> res B) (g : A -> B) l :
  (forall a, In a l -> f a = Ok (g a)) -> traverse f l = Ok (map g l).
Proof.
  unfold traverse. induction l as [|a l IH]; intros H; simpl; [reflexivity|].
  rewrite (H a) by (left; reflexivity). simpl. rewrite IH; [reflexivity|].
  intros b Hb. apply H. right; exact Hb.
Qed.

Lemma traverse_ok_ex {A B} (f : A -> res B) l :
  (forall a, In a l -> exists b, f a = Ok b) -> exists l', traverse f l = Ok l'.
Proof.
  unfold traverse. induction l as [|a l IH]; intros H; simpl; [eauto|].
  destruct (H a) as (b & Hb); [left; reflexivity|]. rewrite Hb. simpl.
  destruct IH as (l' & Hl'); [intros c Hc; apply H; right; exact Hc|].
  rewrite Hl'. simpl. eauto.
Qed.
