(** Property C66: the OptiTrack import. *)
From Coq Require Import Reals List String ZArith Bool Arith Ascii Lia Lra Permutation.
From Verif Require Import Base Quat SpecQuat QuatProofs NdArray Frames Matcher Transform SpecArray NdProofs RotProofs PropRotate
  Broadcast TopLevel Utils UtilsProofs EulerProofs PropUtils Optitrack.
Import ListNotations.
Open Scope R_scope.
Open Scope string_scope.
Open Scope list_scope.

(* ------------------------------------------------------------------ specification *)
(** The column of a rigid body with the given motion and axis labels. *)
Definition labelled (f : csv) (body motion axis : string) (c : column) : Prop :=
  In c (columns f) /\ c_type c = "Rigid Body" /\ c_name c = body /\ c_motion c = motion /\ c_axis c = axis.
Definition is_body (f : csv) (body : string) : Prop := exists c, In c (columns f) /\ c_type c = "Rigid Body" /\ c_name c = body.
(** The columns of a body for a motion are X, Y, Z in this order. *)
Definition xyz (f : csv) (body motion : string) : Prop :=
  map c_axis (filter (fun c => String.eqb (c_type c) "Rigid Body" && String.eqb (c_name c) body && String.eqb (c_motion c) motion) (columns f)) = ["X"; "Y"; "Z"].
(** In metres. *)
Definition metres (u : string) (x : R) : R :=
  if String.eqb u "Centimeters" then x / 100 else if String.eqb u "Millimeters" then x / 1000 else x.
(** The rotation by an angle in degrees about an axis. *)
Definition turn (axis : string) (degrees : R) : quat :=
  let a := degrees / 360 * PI in
  if String.eqb axis "X" then Qt (cos a) (sin a) 0 0 else if String.eqb axis "Y" then Qt (cos a) 0 (sin a) 0 else Qt (cos a) 0 0 (sin a).
(** The entry of the header line, whose cells are keys and values in turn: the last value
    given for the key. *)
Definition gives (f : csv) (key : string) (i : nat) (value : string) : Prop :=
  nth_error (header f) (2 * i) = Some key /\ nth_error (header f) (2 * i + 1) = Some value.
Definition says (f : csv) (key value : string) : Prop :=
  exists i, gives f key i value /\ forall j v, gives f key j v -> (j <= i)%nat.
Definition silent (f : csv) (key : string) : Prop := forall i v, ~ gives f key i v.
(** Reading the result: coordinate k of sample i, the orientation, the time. *)
Definition read_position (l : loaded) (k i : nat) : cell :=
  match l with
  | LTuple p _ _ => nth k (nth i p []) None
  | LFrame p => match find (fun e => String.eqb (fst e) (nth k ["x"; "y"; "z"] "")) (p_position p) with Some e => nth i (snd e) None | None => None end
  end.
Definition orientations_of (l : loaded) : list (option quat) := match l with LTuple _ q _ => q | LFrame p => p_orientation p end.
Definition times_of (l : loaded) : list Z := match l with LTuple _ _ t => t | LFrame p => p_time p end.
(** The poses of a body are those of the file: *)
Definition poses_of (f : csv) (start : Z) (to_timedelta : R -> Z) (unit : string) (first second third : string) (body : string) (l : loaded) : Prop :=
  times_of l = map (fun t => (start + to_timedelta t)%Z) (c_times f) /\
  List.length (orientations_of l) = List.length (c_times f) /\
  (forall i k axis c, (i < List.length (c_times f))%nat -> nth_error ["X"; "Y"; "Z"] k = Some axis -> labelled f body "Position" axis c ->
    read_position l k i = match nth i (c_cells c) None with Some x => Some (metres unit x) | None => None end) /\
  (forall i ca cb cc, (i < List.length (c_times f))%nat -> labelled f body "Rotation" first ca -> labelled f body "Rotation" second cb -> labelled f body "Rotation" third cc ->
    nth i (orientations_of l) None = match nth i (c_cells ca) None, nth i (c_cells cb) None, nth i (c_cells cc) None with
      | Some a, Some b, Some c => Some (hmul (hmul (turn first a) (turn second b)) (turn third c))
      | _, _, _ => None
      end).

(** The rotation type of the file: three letters, XYZ if it is not given. *)
Definition rotation_type (f : csv) (first second third : string) : Prop :=
  Permutation [first; second; third] ["X"; "Y"; "Z"] /\
  let t := (first ++ second ++ third)%string in
  says f "Rotation Type" t \/ (silent f "Rotation Type" /\ t = "XYZ").

(* ------------------------------------------------------------------ proofs *)
Lemma pairs_nth l i k v : nth_error (pairs_of l) i = Some (k, v) <-> nth_error l (2 * i) = Some k /\ nth_error l (2 * i + 1) = Some v.
Proof.
  revert l. induction i as [|i IH]; intros l.
  - destruct l as [|a [|b l]]; cbn; split; try (intros [? ?]; discriminate); try discriminate.
    + intros H. injection H as -> ->. auto.
    + intros [H1 H2]. congruence.
  - replace (2 * S i)%nat with (S (S (2 * i))) by lia. replace (S (S (2 * i)) + 1)%nat with (S (S (2 * i + 1))) by lia.
    destruct l as [|a [|b l]]; [cbn; split; [discriminate|intros [? ?]; discriminate]|cbn [pairs_of nth_error]; split; [discriminate|intros [H ?]; destruct (2 * i)%nat; discriminate]|].
    cbn [pairs_of nth_error]. apply IH.
Qed.
Lemma meta_last k m : (forall v, meta_get k m = Some v <-> exists i, nth_error m i = Some (k, v) /\ forall j u, nth_error m j = Some (k, u) -> (j <= i)%nat) /\
  (meta_get k m = None <-> forall j u, nth_error m j <> Some (k, u)).
Proof.
  induction m as [|(k' & v') m IH].
  - split.
    + intros v. cbn. split; [discriminate|]. intros (i & H & _). destruct i; discriminate.
    + cbn. split; auto. intros _ j u. destruct j; discriminate.
  - destruct IH as (IH1 & IH2). cbn [meta_get]. destruct (meta_get k m) as [v0|] eqn:E.
    + pose proof (proj1 (IH1 v0) eq_refl) as (i0 & Hi0 & Hm0). split.
      * intros v. split.
        -- intros H. injection H as <-. exists (S i0). split; auto. intros [|j] u Hj; [lia|]. cbn in Hj. apply Hm0 in Hj. lia.
        -- intros (i & Hi & Hm). destruct i as [|i]; [specialize (Hm (S i0) v0 Hi0); lia|]. cbn in Hi.
           apply IH1. exists i. split; auto. intros j u Hj. specialize (Hm (S j) u Hj). lia.
      * split; [discriminate|]. intros H. exfalso. apply (H (S i0) v0). exact Hi0.
    + pose proof (proj1 IH2 eq_refl) as N. destruct (String.eqb_spec k k') as [<-|Hne].
      * split.
        -- intros v. split.
           ++ intros H. injection H as <-. exists O. split; auto. intros [|j] u Hj; [lia|]. exfalso. apply (N j u). exact Hj.
           ++ intros ([|i] & Hi & Hm); [cbn in Hi; congruence|]. exfalso. apply (N i v). exact Hi.
        -- split; [discriminate|]. intros H. exfalso. apply (H O v'). reflexivity.
      * split.
        -- intros v. split; [discriminate|]. intros ([|i] & Hi & Hm); [cbn in Hi; congruence|]. exfalso. apply (N i v). exact Hi.
        -- split; auto. intros _ [|j] u; [cbn; congruence|apply N].
Qed.
Lemma says_meta f k v : says f k v <-> meta_get k (pairs_of (header f)) = Some v.
Proof.
  rewrite (proj1 (meta_last k _) v). unfold says, gives. split; intros (i & H & Hm); exists i.
  - split; [apply pairs_nth; auto|]. intros j u Hj. apply pairs_nth in Hj. eauto.
  - split; [apply pairs_nth; auto|]. intros j u Hj. apply pairs_nth in Hj. eauto.
Qed.
Lemma silent_meta f k : silent f k <-> meta_get k (pairs_of (header f)) = None.
Proof.
  rewrite (proj2 (meta_last k _)). unfold silent, gives. split; intros H i u Hi; apply (H i u); apply pairs_nth; auto.
Qed.
Lemma filter_and {A} (p q : A -> bool) l : filter q (filter p l) = filter (fun x => p x && q x) l.
Proof. induction l as [|a l IH]; cbn; auto. destruct (p a); cbn; [|auto]. destruct (q a); rewrite IH; auto. Qed.
Lemma xyz_columns f body m : xyz f body m -> exists cx cy cz,
  of_motion m (filter (fun c => String.eqb (c_type c) "Rigid Body" && String.eqb (c_name c) body) (columns f)) = Ok [cx; cy; cz] /\
  c_axis cx = "X" /\ c_axis cy = "Y" /\ c_axis cz = "Z" /\
  forall a c, labelled f body m a c -> (a = "X" -> c = cx) /\ (a = "Y" -> c = cy) /\ (a = "Z" -> c = cz).
Proof.
  unfold xyz, of_motion. rewrite filter_and. intros H. remember (filter _ (columns f)) as l eqn:El.
  destruct l as [|cx [|cy [|cz [|]]]]; try discriminate. cbn in H. injection H as Hx Hy Hz. exists cx, cy, cz.
  split; [reflexivity|]. split; auto. split; auto. split; auto. intros a c (Hc & Ht & Hn & Hm & Ha).
  assert (I : In c [cx; cy; cz]).
  { rewrite El. apply filter_In. split; auto. rewrite Ht, Hn, Hm, !String.eqb_refl. reflexivity. }
  destruct I as [<-|[<-|[<-|[]]]]; repeat split; intros; auto; congruence.
Qed.
Lemma six_strings a b c : Permutation [a; b; c] ["X"; "Y"; "Z"] ->
  In (a, b, c) [("X","Y","Z"); ("X","Z","Y"); ("Y","X","Z"); ("Y","Z","X"); ("Z","X","Y"); ("Z","Y","X")].
Proof.
  intros H. assert (N : NoDup [a; b; c]) by (apply (Permutation_NoDup (Permutation_sym H)); repeat constructor; cbn; intuition discriminate).
  assert (I : forall x, In x [a; b; c] -> In x ["X"; "Y"; "Z"]) by (intros x; apply Permutation_in; auto).
  inversion N as [|? ? N1 N2]; subst. inversion N2 as [|? ? N3 N4]; subst.
  pose proof (I a (or_introl eq_refl)) as Ia. pose proof (I b (or_intror (or_introl eq_refl))) as Ib. pose proof (I c (or_intror (or_intror (or_introl eq_refl)))) as Ic.
  cbn in Ia, Ib, Ic, N1, N3. destruct Ia as [<-|[<-|[<-|[]]]], Ib as [<-|[<-|[<-|[]]]], Ic as [<-|[<-|[<-|[]]]]; cbn; auto 10; exfalso; intuition.
Qed.
Lemma turn_about x : rot_about "r" (deg2rad x) = turn "X" x /\ rot_about "p" (deg2rad x) = turn "Y" x /\ rot_about "y" (deg2rad x) = turn "Z" x.
Proof. unfold rot_about, turn, deg2rad. cbn -[cos sin PI Rmult Rdiv IZR]. replace (x * (PI / 180) / 2) with (x / 360 * PI) by field. auto. Qed.
Lemma angle_cell n cx cy cz i k : (k < 3)%nat ->
  dat (angles n [cx; cy; cz]) (put 1 k [i]) = match cell_at (nth k [cx; cy; cz] cx) i with Some x => deg2rad x | None => 0 end.
Proof. intros H. destruct k as [|[|[|k]]]; [reflexivity..|lia]. Qed.
Definition axis_col {A} (cx cy cz : A) (a : string) : A := if String.eqb a "X" then cx else if String.eqb a "Y" then cy else cz.
Lemma orientations_ok n cx cy cz a b c t : Permutation [a; b; c] ["X"; "Y"; "Z"] -> t = (a ++ b ++ c)%string ->
  exists l, orientations n [cx; cy; cz] (order_of t) = Ok l /\ List.length l = n /\
    (forall q, In (Some q) l -> hunit q) /\
    forall i, (i < n)%nat -> nth i l None =
      match cell_at (axis_col cx cy cz a) i, cell_at (axis_col cx cy cz b) i, cell_at (axis_col cx cy cz c) i with
      | Some x, Some y, Some z => Some (hmul (hmul (turn a x) (turn b y)) (turn c z))
      | _, _, _ => None
      end.
Proof.
  intros HP ->. unfold orientations.
  assert (Hord : exists la lb lc, order_of (a ++ b ++ c)%string = [la; lb; lc] /\ Permutation [la; lb; lc] ["r"; "p"; "y"]%char /\
     forall i, hprod (map (fun l => rot_about l (dat (angles n [cx; cy; cz]) (put 1 (pick 0%nat 1%nat 2%nat l) [i]))) [la; lb; lc]) =
       hmul (hmul (match cell_at (axis_col cx cy cz a) i with Some x => turn a x | None => turn a 0 end) (match cell_at (axis_col cx cy cz b) i with Some x => turn b x | None => turn b 0 end))
            (match cell_at (axis_col cx cy cz c) i with Some x => turn c x | None => turn c 0 end)).
  { assert (D0 : deg2rad 0 = 0) by (unfold deg2rad; ring).
    assert (T : forall (o : cell), rot_about "r" match o with Some x => deg2rad x | None => 0 end = match o with Some x => turn "X" x | None => turn "X" 0 end /\
                rot_about "p" match o with Some x => deg2rad x | None => 0 end = match o with Some x => turn "Y" x | None => turn "Y" 0 end /\
                rot_about "y" match o with Some x => deg2rad x | None => 0 end = match o with Some x => turn "Z" x | None => turn "Z" 0 end).
    { intros [x|]; [apply turn_about|]. pose proof (turn_about 0) as T0. rewrite D0 in T0. exact T0. }
    pose proof (Permutation_map (fun s => match s with String c _ => letter c | EmptyString => "r"%char end) HP) as HM.
    apply six_strings in HP. cbn [In] in HP.
    destruct HP as [HP|[HP|[HP|[HP|[HP|[HP|[]]]]]]]; injection HP as <- <- <-; eexists _, _, _; (split; [reflexivity|]); cbn [letter]; 
      (split; [exact HM|]); intros i; cbn [map hprod]; rewrite hmul_1_r, <- hmul_assoc; rewrite !angle_cell by (cbn; lia).
    all: change (letter "X") with "r"%char; change (letter "Y") with "p"%char; change (letter "Z") with "y"%char.
    all: unfold pick, axis_col; cbn [Ascii.eqb Bool.eqb String.eqb nth].
    all: f_equal; [f_equal|]; apply T. }
  destruct Hord as (la & lb & lc & Eo & Hp & Hq). rewrite Eo.
  destruct (C29_rpy (angles n [cx; cy; cz]) [n] 1 (-1) la lb lc [] Hp eq_refl ltac:(cbn; lia)) as (out & E & So & Do); [right; cbn; lia|].
  rewrite E. cbn [bind]. eexists. split; [reflexivity|]. split; [rewrite map_length, seq_length; reflexivity|].
  assert (V : forall i, (i < n)%nat -> valid [n] [i]) by (intros i Hi; constructor; [auto|constructor]). split.
  - intros q Hin. apply in_map_iff in Hin as (i & Ei & Hi). apply in_seq in Hi. destruct (blank_row _ i); [discriminate|]. injection Ei as <-.
    destruct (Do [i] (V i ltac:(lia))) as (U & _). exact U.
  - intros i Hi. rewrite (nth_indep _ None ((fun i => if blank_row [cx; cy; cz] i then None else Some (quat_at out [i])) O)) by (rewrite map_length, seq_length; auto).
    rewrite (map_nth (fun i => if blank_row [cx; cy; cz] i then None else Some (quat_at out [i]))), seq_nth by auto. cbn [plus].
    destruct (Do [i] (V i Hi)) as (_ & U). change (quat_on out 1 [i]) with (quat_at out [i]) in U. rewrite U, Hq.
    unfold blank_row. cbn [firstn existsb]. apply six_strings in HP. cbn [In] in HP.
    destruct HP as [HP|[HP|[HP|[HP|[HP|[HP|[]]]]]]]; injection HP as <- <- <-; unfold axis_col; cbn [String.eqb Ascii.eqb Bool.eqb];
      destruct (cell_at cx i), (cell_at cy i), (cell_at cz i); reflexivity.
Qed.

Definition bodies (f : csv) : list string := nodup string_dec (map c_name (filter (fun c => String.eqb (c_type c) "Rigid Body") (columns f))).
Lemma bodies_spec f b : In b (bodies f) <-> is_body f b.
Proof.
  unfold bodies, is_body. rewrite nodup_In, in_map_iff. split.
  - intros (c & Hn & Hc). apply filter_In in Hc as (Hc & Ht). apply String.eqb_eq in Ht. eauto.
  - intros (c & Hc & Ht & Hn). exists c. split; auto. apply filter_In. rewrite Ht. auto.
Qed.
Lemma body_ok f ts body unit a b c : xyz f body "Position" -> xyz f body "Rotation" -> rotation_type f a b c ->
  says f "Length Units" unit -> unit = "Meters" \/ unit = "Centimeters" ->
  exists cx cy cz q, body_poses f (pairs_of (header f)) ts body = Ok (Poses [("x", cx); ("y", cy); ("z", cz)] q ts) /\
    List.length q = List.length ts /\ (forall o, In (Some o) q -> hunit o) /\
    (forall i k axis c, (i < List.length ts)%nat -> nth_error ["X"; "Y"; "Z"] k = Some axis -> labelled f body "Position" axis c ->
      nth i (nth k [cx; cy; cz] []) None = match nth i (c_cells c) None with Some x => Some (metres unit x) | None => None end) /\
    (forall i ca cb cc, (i < List.length ts)%nat -> labelled f body "Rotation" a ca -> labelled f body "Rotation" b cb -> labelled f body "Rotation" c cc ->
      nth i q None = match nth i (c_cells ca) None, nth i (c_cells cb) None, nth i (c_cells cc) None with
      | Some x, Some y, Some z => Some (hmul (hmul (turn a x) (turn b y)) (turn c z))
      | _, _, _ => None
      end).
Proof.
  intros Hp Hr (HP & Ht) Hu Hun. destruct (xyz_columns _ _ _ Hp) as (px & py & pz & Ep & Ax & Ay & Az & Up). destruct (xyz_columns _ _ _ Hr) as (rx & ry & rz & Er & _ & _ & _ & Ur).
  assert (T : (match meta_get "Rotation Type" (pairs_of (header f)) with Some t => t | None => "XYZ" end) = (a ++ b ++ c)%string).
  { cbv zeta in Ht. destruct Ht as [Ht|(Ht & Ex)]; [apply says_meta in Ht; rewrite Ht; auto|apply silent_meta in Ht; rewrite Ht; auto]. }
  destruct (orientations_ok (List.length ts) rx ry rz a b c _ HP T) as (q & Eq & Lq & Uq & Dq).
  unfold body_poses. rewrite Ep, Er. cbn [bind]. rewrite Eq. cbn [bind]. apply says_meta in Hu. rewrite Hu. cbn [map]. rewrite Ax, Ay, Az.
  eexists _, _, _, _. split; [reflexivity|]. split; [exact Lq|]. split; [exact Uq|]. split.
  - intros i k axis cc Hi Hk Hl. pose proof (Up _ _ Hl) as (U1 & U2 & U3).
    assert (N : forall (g : nat -> cell), nth i (map g (seq 0 (List.length ts))) None = g i).
    { intros g. rewrite (nth_indep _ None (g O)) by (rewrite map_length, seq_length; auto). rewrite map_nth, seq_nth by auto. reflexivity. }
    assert (M : forall o : cell, scale_cell (if String.eqb unit "Centimeters" then 100 else 1) o = match o with Some x => Some (metres unit x) | None => None end).
    { intros [x|]; [|reflexivity]. unfold scale_cell, metres. destruct Hun as [ -> | -> ]; cbn [String.eqb Ascii.eqb Bool.eqb]; f_equal; field. }
    destruct k as [|[|[|k]]]; cbn in Hk; [| | |destruct k; discriminate]; injection Hk as <-; cbn [nth]; rewrite N, M; [rewrite (U1 eq_refl)|rewrite (U2 eq_refl)|rewrite (U3 eq_refl)]; reflexivity.
  - intros i ca cb cc Hi La Lb Lc. rewrite Dq by auto. pose proof (Ur _ _ La) as UA. pose proof (Ur _ _ Lb) as UB. pose proof (Ur _ _ Lc) as UC.
    assert (E : forall s col, (s = "X" -> col = rx) /\ (s = "Y" -> col = ry) /\ (s = "Z" -> col = rz) -> In s [a; b; c] -> axis_col rx ry rz s = col).
    { intros s col (E1 & E2 & E3) Hs. apply (Permutation_in s HP) in Hs. destruct Hs as [<-|[<-|[<-|[]]]]; cbn; symmetry; auto. }
    rewrite (E a ca UA), (E b cb UB), (E c cc UC) by (cbn; auto). reflexivity.
Qed.

(* ------------------------------------------------------------------ C66 *)
(** Every rigid body of the file has an entry, and nothing else has; its poses are those of
    the file: times, positions in metres, orientations composed in the order of the rotation
    type, blank cells as NaN.  For columns in the order X, Y, Z and the units m and cm. *)
Theorem C66_poses_partial : forall to_datetime to_timedelta f fm start0 start unit a b c, fm <> FOther ->
  says f "Capture Start Time" start0 -> to_datetime start0 = Ok start -> says f "Length Units" unit -> unit = "Meters" \/ unit = "Centimeters" ->
  rotation_type f a b c -> (exists body, is_body f body) ->
  (forall body, is_body f body -> xyz f body "Position" /\ xyz f body "Rotation") ->
  exists d, load_optitrack to_datetime to_timedelta f fm = Ok d /\ NoDup (map fst d) /\ (forall body, In body (map fst d) <-> is_body f body) /\
    forall body l, In (body, l) d -> poses_of f start to_timedelta unit a b c body l /\ forall q, In (Some q) (orientations_of l) -> hunit q.
Proof.
  intros td tt f fm start0 start unit a b c Hf Hs Hst Hu Hun Hrt (b0 & Hb0) Hxyz. unfold load_optitrack. apply says_meta in Hs. rewrite Hs, Hst. cbn [bind].
  set (ts := map (fun t => (start + tt t)%Z) (c_times f)).
  destruct (filter (fun c => String.eqb (c_type c) "Rigid Body") (columns f)) as [|c0 rb] eqn:Erb.
  { destruct Hb0 as (c0 & Hc & Ht & _). assert (I : In c0 []) by (rewrite <- Erb; apply filter_In; rewrite Ht; auto). destruct I. }
  rewrite <- Erb. fold (bodies f).
  assert (B : forall body, In body (bodies f) -> exists p, body_poses f (pairs_of (header f)) ts body = Ok p /\
     exists l, in_format fm p = Ok l /\ poses_of f start tt unit a b c body l /\ forall q, In (Some q) (orientations_of l) -> hunit q).
  { intros body Hb. apply bodies_spec in Hb. destruct (Hxyz body Hb) as (Hp & Hr).
    destruct (body_ok f ts body unit a b c Hp Hr Hrt Hu Hun) as (cx & cy & cz & q & E & Lq & Uq & Dp & Dq). eexists. split; [exact E|].
    assert (Lt : List.length ts = List.length (c_times f)) by (unfold ts; apply map_length). rewrite Lt in *.
    destruct fm; [| | |congruence]; (eexists; split; [reflexivity|]); (split; [|exact Uq]); (split; [reflexivity|]); (split; [exact Lq|]); (split; [|exact Dq]);
      intros i k axis cc Hi Hk Hl; rewrite <- (Dp i k axis cc Hi Hk Hl); cbn [read_position p_position p_time].
    - rewrite (nth_indep _ [] ((fun i => map (fun c : string * list cell => nth i (snd c) None) [("x", cx); ("y", cy); ("z", cz)]) O)) by (rewrite map_length, seq_length, Lt; auto).
      rewrite (map_nth (fun i => map (fun c : string * list cell => nth i (snd c) None) [("x", cx); ("y", cy); ("z", cz)])), seq_nth by (rewrite Lt; auto). cbn [plus map snd].
      destruct k as [|[|[|k]]]; [reflexivity..|]. destruct k; discriminate.
    - destruct k as [|[|[|k]]]; [reflexivity..|]. destruct k; discriminate.
    - destruct k as [|[|[|k]]]; [reflexivity..|]. destruct k; discriminate. }
  assert (G : forall ns, (forall n, In n ns -> In n (bodies f)) -> exists ps, traverse (fun n => p <- body_poses f (pairs_of (header f)) ts n ;; Ok (n, p)) ns = Ok ps /\
     exists d, traverse (fun np : string * poses => l <- in_format fm (snd np) ;; Ok (fst np, l)) ps = Ok d /\ map fst d = ns /\
     forall body l, In (body, l) d -> poses_of f start tt unit a b c body l /\ forall q, In (Some q) (orientations_of l) -> hunit q).
  { induction ns as [|n ns IH]; intros Hn. { exists []. split; [reflexivity|]. exists []. split; [reflexivity|]. split; [reflexivity|]. intros ? ? []. }
    destruct IH as (ps & E1 & d & E2 & E3 & E4); [intros; apply Hn; right; auto|]. destruct (B n (Hn n (or_introl eq_refl))) as (p & Ep & l & El & Hl).
    exists ((n, p) :: ps). split. { unfold traverse in *. cbn [map sequence]. rewrite Ep. cbn [bind]. rewrite E1. reflexivity. }
    exists ((n, l) :: d). split. { unfold traverse in *. cbn [map sequence fst snd]. rewrite El. cbn [bind]. rewrite E2. reflexivity. }
    split; [cbn; congruence|]. intros body l' [H|H]; [injection H as <- <-; auto|auto]. }
  destruct (G (bodies f) (fun n H => H)) as (ps & E1 & d & E2 & E3 & E4). rewrite E1. cbn [bind]. exists d. split; [exact E2|]. rewrite E3.
  split; [apply NoDup_nodup|]. split; [apply bodies_spec|exact E4].
Qed.
Lemma orientations_cases n cx cy cz o : ((exists l, orientations n [cx; cy; cz] o = Ok l) /\ is_order o) \/ orientations n [cx; cy; cz] o = Raise ValueError.
Proof.
  destruct (arrange_cases o (about (V3 1 0 0) (Some (take_last (swap_nd 1 1 (angles n [cx; cy; cz])) 0))) (about (V3 0 1 0) (Some (take_last (swap_nd 1 1 (angles n [cx; cy; cz])) 1)))
     (about (V3 0 0 1) (Some (take_last (swap_nd 1 1 (angles n [cx; cy; cz])) 2)))) as [A|A].
  - right. unfold orientations, from_euler_angles_float, from_euler_angles, swapaxes. change (ndim (angles n [cx; cy; cz])) with 2%nat. rewrite norm_axis_last by lia. cbn [bind Nat.sub].
    change (Nat.ltb (last (shp (swap_nd 1 1 (angles n [cx; cy; cz]))) 0%nat) 3) with false. cbn [bind].
    assert (S : forall k, shp (take_last (swap_nd 1 1 (angles n [cx; cy; cz])) k) = [n]) by reflexivity.
    revert A. generalize (S 0%nat) (S 1%nat) (S 2%nat).
    generalize (take_last (swap_nd 1 1 (angles n [cx; cy; cz])) 0) (take_last (swap_nd 1 1 (angles n [cx; cy; cz])) 1) (take_last (swap_nd 1 1 (angles n [cx; cy; cz])) 2).
    intros r p y Sr Sp Sy A.
    assert (C : (shape <- check_shape (Some (shp r)) (Some p) ;; check_shape shape (Some y)) = Ok (Some [n])).
    { apply (checks_ok [n] (Some r) (Some p) (Some y)); auto. left. discriminate. }
    destruct (check_shape (Some (shp r)) (Some p)) as [s1|e]; cbn [bind] in *; [|discriminate]. rewrite C. cbn [bind]. rewrite A. reflexivity.
  - left. split; [|exact A]. destruct A as (a & b & c & rest & -> & Hp).
    destruct (C29_rpy (angles n [cx; cy; cz]) [n] 1 (-1) a b c rest Hp eq_refl ltac:(cbn; lia)) as (out & E & _); [right; cbn; lia|].
    unfold orientations. rewrite E. eexists. reflexivity.
Qed.
Lemma traverse_raise {A B} (f : A -> res B) l e : l <> [] -> (forall a, In a l -> f a = Raise e) -> traverse f l = Raise e.
Proof. destruct l as [|a l]; [congruence|]. intros _ H. unfold traverse. cbn. rewrite (H a (or_introl eq_refl)). reflexivity. Qed.
(** Other formats, other rotation types such as "Quaternion", files without rigid bodies. *)
Theorem C66_refused : forall to_datetime to_timedelta f fm start0 start, says f "Capture Start Time" start0 -> to_datetime start0 = Ok start ->
  ((forall body, ~ is_body f body) -> load_optitrack to_datetime to_timedelta f fm = Raise KeyError) /\
  ((exists body, is_body f body) -> (forall body, is_body f body -> xyz f body "Position" /\ xyz f body "Rotation") ->
   (exists t, says f "Rotation Type" t /\ ~ is_order (order_of t)) \/ fm = FOther ->
   load_optitrack to_datetime to_timedelta f fm = Raise ValueError).
Proof.
  intros td tt f fm start0 start Hs Hst. unfold load_optitrack. apply says_meta in Hs. rewrite Hs, Hst. cbn [bind].
  set (ts := map (fun t => (start + tt t)%Z) (c_times f)). split.
  - intros Hno. destruct (filter (fun c => String.eqb (c_type c) "Rigid Body") (columns f)) as [|c0 rb] eqn:Erb; [reflexivity|].
    elim (Hno (c_name c0)). exists c0. assert (I : In c0 (c0 :: rb)) by (left; auto). rewrite <- Erb in I. apply filter_In in I as (I & T). apply String.eqb_eq in T. auto.
  - intros (b0 & Hb0) Hxyz Hbad. destruct (filter (fun c => String.eqb (c_type c) "Rigid Body") (columns f)) as [|c0 rb] eqn:Erb.
    { destruct Hb0 as (c0 & Hc & Ht & _). assert (I : In c0 []) by (rewrite <- Erb; apply filter_In; rewrite Ht; auto). destruct I. }
    rewrite <- Erb. fold (bodies f). clear c0 rb Erb.
    set (o := order_of match meta_get "Rotation Type" (pairs_of (header f)) with Some t => t | None => "XYZ" end).
    assert (Hbad' : ~ is_order o \/ fm = FOther).
    { destruct Hbad as [(t & Ht & Hn)| -> ]; [left|auto]. apply says_meta in Ht. subst o. rewrite Ht. exact Hn. }
    assert (B : forall body, In body (bodies f) -> (exists p, body_poses f (pairs_of (header f)) ts body = Ok p /\ is_order o) \/ (body_poses f (pairs_of (header f)) ts body = Raise ValueError)).
    { intros body Hb. apply bodies_spec in Hb. destruct (Hxyz body Hb) as (Hp & Hr).
      destruct (xyz_columns _ _ _ Hp) as (px & py & pz & Ep & _). destruct (xyz_columns _ _ _ Hr) as (rx & ry & rz & Er & _).
      unfold body_poses. rewrite Ep, Er. cbn [bind]. fold o. destruct (orientations_cases (List.length ts) rx ry rz o) as [((q & ->) & Ho)| -> ]; [left; eexists; split; [reflexivity|auto]|right; reflexivity]. }
    assert (N : bodies f <> []) by (intros E; assert (I : In b0 (bodies f)) by (apply bodies_spec; auto); rewrite E in I; destruct I).
    destruct (B b0 (proj2 (bodies_spec f b0) Hb0)) as [(p0 & _ & Ho)|Hr0].
    + destruct Hbad' as [Hn| -> ]; [contradiction|].
      assert (C : forall ns, (forall n, In n ns -> In n (bodies f)) -> traverse (fun n => p <- body_poses f (pairs_of (header f)) ts n ;; Ok (n, p)) ns = Raise ValueError \/
         exists ps, traverse (fun n => p <- body_poses f (pairs_of (header f)) ts n ;; Ok (n, p)) ns = Ok ps /\ List.length ps = List.length ns).
      { induction ns as [|n ns IH]; intros Hn; [right; exists []; auto|]. unfold traverse in *. cbn [map sequence].
        destruct (B n (Hn n (or_introl eq_refl))) as [(p & -> & _)| -> ]; cbn [bind]; [|left; reflexivity].
        destruct IH as [ -> |(ps & -> & L)]; [intros; apply Hn; right; auto|left; reflexivity|right; cbn [bind]; eexists; split; [reflexivity|cbn; lia]]. }
      destruct (C (bodies f) (fun n H => H)) as [ -> |(ps & -> & L)]; [reflexivity|]. cbn [bind]. apply traverse_raise; [|reflexivity].
      intros E. rewrite E in L. destruct (bodies f); [congruence|discriminate].
    + enough (E : traverse (fun n => p <- body_poses f (pairs_of (header f)) ts n ;; Ok (n, p)) (bodies f) = Raise ValueError) by (rewrite E; reflexivity).
      assert (C : forall ns, (forall n, In n ns -> In n (bodies f)) -> In b0 ns -> traverse (fun n => p <- body_poses f (pairs_of (header f)) ts n ;; Ok (n, p)) ns = Raise ValueError).
      { induction ns as [|n ns IH]; intros Hn Hin; [destruct Hin|]. unfold traverse in *. cbn [map sequence].
        destruct Hin as [ -> |Hin]; [rewrite Hr0; reflexivity|].
        destruct (B n (Hn n (or_introl eq_refl))) as [(p & -> & _)| -> ]; cbn [bind]; [|reflexivity].
        rewrite IH; auto. intros; apply Hn; right; auto. }
      apply C; auto. apply bodies_spec; auto.
Qed.

(** A body without columns for a motion. *)
Definition lacks (f : csv) (body motion : string) : Prop := forall axis c, ~ labelled f body motion axis c.
Lemma lacks_motion f body motion : lacks f body motion ->
  of_motion motion (filter (fun c => String.eqb (c_type c) "Rigid Body" && String.eqb (c_name c) body) (columns f)) = Raise KeyError.
Proof.
  intros H. unfold of_motion. destruct (filter _ (filter _ _)) as [|c0 l] eqn:E; [reflexivity|]. exfalso.
  assert (I : In c0 (c0 :: l)) by (left; auto). rewrite <- E in I. apply filter_In in I as (I & M). apply filter_In in I as (I & T).
  apply andb_true_iff in T as (T & N). apply String.eqb_eq in M, T, N. apply (H (c_axis c0) c0). repeat split; auto.
Qed.
Lemma lacks_poses f meta ts body : lacks f body "Position" \/ lacks f body "Rotation" -> body_poses f meta ts body = Raise KeyError.
Proof.
  intros H. unfold body_poses. destruct (of_motion "Position" _) as [pos|e] eqn:E; cbn [bind].
  - destruct H as [H|H]; apply lacks_motion in H; [congruence|]. rewrite H. reflexivity.
  - revert E. unfold of_motion. destruct (filter _ (filter _ _)); congruence.
Qed.
(** Files without start time or with a body that lacks positions or rotations. *)
Theorem C66_incomplete : forall to_datetime to_timedelta f fm,
  (silent f "Capture Start Time" -> load_optitrack to_datetime to_timedelta f fm = Raise KeyError) /\
  (forall body, is_body f body -> lacks f body "Position" \/ lacks f body "Rotation" -> exists e, load_optitrack to_datetime to_timedelta f fm = Raise e) /\
  (forall start0 start, says f "Capture Start Time" start0 -> to_datetime start0 = Ok start ->
    (exists body, is_body f body) -> (forall body, is_body f body -> lacks f body "Position" \/ lacks f body "Rotation") ->
    load_optitrack to_datetime to_timedelta f fm = Raise KeyError).
Proof.
  intros td tt f fm. split; [|split].
  - intros H. unfold load_optitrack. apply silent_meta in H. rewrite H. reflexivity.
  - intros body Hb Hl. unfold load_optitrack. destruct (match meta_get _ _ with Some s => _ | None => _ end) as [start|e]; cbn [bind]; [|eauto].
    destruct (filter (fun c => String.eqb (c_type c) "Rigid Body") (columns f)) as [|c0 rb] eqn:Erb; [eauto|]. rewrite <- Erb. fold (bodies f).
    assert (I : In body (bodies f)) by (apply bodies_spec; auto).
    destruct (traverse _ (bodies f)) as [ps|e] eqn:E; cbn [bind]; [|eauto]. exfalso.
    apply In_nth_error in I as (k & Hk).
    destruct (nth_error ps k) as [b|] eqn:Hb'.
    + pose proof (proj1 (traverse_nth _ _ _ _ _ E) Hb') as (a & Ha & F). rewrite Ha in Hk. injection Hk as ->. rewrite lacks_poses in F; auto. discriminate.
    + apply nth_error_None in Hb'. rewrite (traverse_length _ _ _ E) in Hb'. assert (k < List.length (bodies f))%nat by (apply nth_error_Some; congruence). lia.
  - intros start0 start Hs Hst (b0 & Hb0) Hl. unfold load_optitrack. apply says_meta in Hs. rewrite Hs, Hst. cbn [bind].
    destruct (filter (fun c => String.eqb (c_type c) "Rigid Body") (columns f)) as [|c0 rb] eqn:Erb; [reflexivity|]. rewrite <- Erb. fold (bodies f).
    rewrite (traverse_raise _ _ KeyError); [reflexivity| |].
    + intros E. assert (I : In b0 (bodies f)) by (apply bodies_spec; auto). rewrite E in I. destruct I.
    + intros n Hn. rewrite lacks_poses; [reflexivity|]. apply Hl, bodies_spec, Hn.
Qed.
(** A small export: one marker, one body with two samples, the second not tracked. *)
Definition col6 (motion : string) (axes : list string) (first : list R) : list column :=
  map (fun ax => Col "Rigid Body" "cup" motion (fst ax) [Some (snd ax); None]) (combine axes first).
Definition csv_with (unit : string) (axes : list string) : csv :=
  Csv ["Format Version"; "1.23"; "Capture Start Time"; "2020-02-02 12.34.56.789 AM"; "Rotation Type"; "ZYX"; "Length Units"; unit] [0; 1]
    (Col "Marker" "m1" "Position" "X" [Some 7; Some 8] :: col6 "Rotation" axes [90; 0; 180] ++ col6 "Position" axes [100; 200; 300]).
Example C66_example : says (csv_with "Centimeters" ["X"; "Y"; "Z"]) "Length Units" "Centimeters" /\ rotation_type (csv_with "Centimeters" ["X"; "Y"; "Z"]) "Z" "Y" "X" /\
  is_body (csv_with "Centimeters" ["X"; "Y"; "Z"]) "cup" /\ ~ is_body (csv_with "Centimeters" ["X"; "Y"; "Z"]) "m1" /\
  forall body, is_body (csv_with "Centimeters" ["X"; "Y"; "Z"]) body -> xyz (csv_with "Centimeters" ["X"; "Y"; "Z"]) body "Position" /\ xyz (csv_with "Centimeters" ["X"; "Y"; "Z"]) body "Rotation".
Proof.
  split; [apply says_meta; reflexivity|]. split.
  { split; [|left; apply says_meta; reflexivity]. apply (perm_trans (l' := ["Z"; "X"; "Y"])); [apply perm_skip, perm_swap|]. apply (perm_trans (l' := ["X"; "Z"; "Y"])); [apply perm_swap|apply perm_skip, perm_swap]. }
  split; [eexists; split; [right; left; reflexivity|auto]|].
  assert (N : forall body, is_body (csv_with "Centimeters" ["X"; "Y"; "Z"]) body -> body = "cup").
  { intros body (c & Hc & Ht & Hn). cbn in Hc. repeat (destruct Hc as [ <- |Hc]; [cbn in Ht, Hn; congruence|]). destruct Hc. }
  split; [intros H; apply N in H; discriminate|]. intros body H. apply N in H as ->. split; reflexivity.
Qed.
Lemma small_rotations c1 c2 c3 : exists q, orientations 2 [c1; c2; c3] ["y"; "p"; "r"]%char = Ok q.
Proof.
  destruct (orientations_cases 2 c1 c2 c3 ["y"; "p"; "r"]%char) as [(H & _)|H]; [exact H|]. exfalso.
  destruct (orientations_ok 2 c1 c2 c3 "Z" "Y" "X" "ZYX") as (l & E & _); [|reflexivity|].
  - apply (perm_trans (l' := ["Z"; "X"; "Y"])); [apply perm_skip, perm_swap|]. apply (perm_trans (l' := ["X"; "Z"; "Y"])); [apply perm_swap|apply perm_skip, perm_swap].
  - change (order_of "ZYX") with ["y"; "p"; "r"]%char in E. congruence.
Qed.
(** Millimetres are not converted. *)
Theorem C66_units_refuted : exists f fm d l c x, says f "Length Units" "Millimeters" /\ load_optitrack (fun _ => Ok 0%Z) (fun _ => 0%Z) f fm = Ok d /\ In ("cup", l) d /\
  labelled f "cup" "Position" "X" c /\ nth 0 (c_cells c) None = Some x /\ read_position l 0 0 <> Some (metres "Millimeters" x).
Proof.
  destruct (small_rotations (Col "Rigid Body" "cup" "Rotation" "X" [Some 90; None]) (Col "Rigid Body" "cup" "Rotation" "Y" [Some 0; None]) (Col "Rigid Body" "cup" "Rotation" "Z" [Some 180; None])) as (q & E).
  exists (csv_with "Millimeters" ["X"; "Y"; "Z"]), FPandas. eexists _, _, (Col "Rigid Body" "cup" "Position" "X" [Some 100; None]), 100.
  split; [apply says_meta; reflexivity|]. split; [unfold load_optitrack, body_poses; cbn -[orientations]; rewrite E; reflexivity|].
  split; [left; reflexivity|]. split; [split; [cbn; tauto|auto]|]. split; [reflexivity|].
  cbn. unfold metres. cbn [String.eqb Ascii.eqb Bool.eqb]. intros H. injection H as H. lra.
Qed.
(** Columns in another order: the labels are ignored for the rotation, and for the
    positions as numpy arrays. *)
Theorem C66_order_refuted : exists f d l c x, load_optitrack (fun _ => Ok 0%Z) (fun _ => 0%Z) f FNumpy = Ok d /\ In ("cup", l) d /\
  labelled f "cup" "Position" "X" c /\ nth 0 (c_cells c) None = Some x /\ says f "Length Units" "Meters" /\ read_position l 0 0 <> Some x.
Proof.
  destruct (small_rotations (Col "Rigid Body" "cup" "Rotation" "Z" [Some 90; None]) (Col "Rigid Body" "cup" "Rotation" "Y" [Some 0; None]) (Col "Rigid Body" "cup" "Rotation" "X" [Some 180; None])) as (q & E).
  exists (csv_with "Meters" ["Z"; "Y"; "X"]). eexists _, _, (Col "Rigid Body" "cup" "Position" "X" [Some 300; None]), 300.
  split; [unfold load_optitrack, body_poses; cbn -[orientations]; rewrite E; reflexivity|].
  split; [left; reflexivity|]. split; [split; [cbn; tauto|auto]|]. split; [reflexivity|]. split; [apply says_meta; reflexivity|].
  cbn. intros H. injection H as H. lra.
Qed.
(** A body of which only the rotations have been exported. *)
Example C66_example_incomplete :
  let f := Csv ["Capture Start Time"; "2020-02-02 12.34.56.789 AM"] [0; 1] (col6 "Rotation" ["X"; "Y"; "Z"] [90; 0; 180]) in
  is_body f "cup" /\ lacks f "cup" "Position" /\ ~ lacks f "cup" "Rotation".
Proof.
  cbv zeta. split; [|split].
  - eexists. split; [left; reflexivity|]. split; reflexivity.
  - intros ax c (I & _ & _ & M & _). cbn in I. destruct I as [ <- |[ <- |[ <- |[]]]]; discriminate.
  - intros H. eapply (H "X"). split; [left; reflexivity|]. repeat split.
Qed.
