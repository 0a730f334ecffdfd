(** Properties C27, C28, C29, C51: qinv, qmul, qmean, Euler angles, axes. *)
From Coq Require Import Reals List Arith Bool ZArith Ascii Lia Lra Permutation.
From Verif Require Import Base Quat SpecQuat QuatProofs NdArray Frames Matcher LookupProofs
  Transform SpecArray NdProofs RotProofs ArrProofs ArrStaticProofs PropRotate Utils UtilsProofs EulerProofs.
Import ListNotations.
Open Scope nat_scope.

(* ------------------------------------------------------------------ C27 *)
Definition all_nonzero (a : nd quat) : Prop := forall ix, valid (shp a) ix -> hnonzero (dat a ix).
Definition all_one (a : nd quat) : Prop := forall ix, valid (shp a) ix -> dat a ix = Qt 1 0 0 0.

Lemma qmul_quats l ax : 2 <= length l -> qmul (map QQ l) ax = (m <- reduce_mul l ;; Ok (QQ m)).
Proof.
  intros H. unfold qmul. rewrite map_length. replace (length l <? 2) with false by (symmetry; apply Nat.ltb_ge; auto).
  rewrite forallb_quat, forallb_quat', quats_of_map. destruct l; [simpl in H; lia|]. reflexivity.
Qed.
Lemma qmul_floats l ax : 2 <= length l ->
  qmul (map QF l) ax = (qs <- traverse (fun a => to_quat a ax) l ;; m <- reduce_mul qs ;; d <- from_quat m ax ;; Ok (QF d)).
Proof.
  intros H. unfold qmul. rewrite map_length. replace (length l <? 2) with false by (symmetry; apply Nat.ltb_ge; auto).
  rewrite forallb_float, floats_of_map. reflexivity.
Qed.

(** Any number (at least two) of quaternion arrays of one shape: the product from
    left to right at every index; its squared length is the product of theirs. *)
Theorem C27_qmul : forall l sh ax, 2 <= length l -> Forall (fun a => shp a = sh) l ->
  exists m, qmul (map QQ l) ax = Ok (QQ m) /\ shp m = sh /\
    forall ix, valid sh ix -> dat m ix = hprod (map (fun a => dat a ix) l) /\
      hn2 (dat m ix) = fold_right Rmult 1%R (map (fun a => hn2 (dat a ix)) l).
Proof.
  intros l sh ax Hl Hf. destruct (reduce_ok l sh) as (m & E & S & D); auto; [destruct l; simpl in *; [lia|discriminate]|].
  exists m. rewrite qmul_quats, E by auto. split; auto. split; auto. intros ix Hi. rewrite D by auto. split; auto.
  clear. induction l; simpl; [apply hn2_one|]. rewrite hn2_hmul, IHl. reflexivity.
Qed.
(** The same for float arrays with the components on any axis k (written qaxis). *)
Theorem C27_qmul_float : forall l sh k qaxis, 2 <= length l -> k <= length sh ->
  Forall (fun a => shp a = put k 4 sh) l -> axis_is qaxis k (S (length sh)) ->
  exists m, qmul (map QF l) qaxis = Ok (QF m) /\ shp m = put k 4 sh /\
    forall pre, valid sh pre -> quat_on m k pre = hprod (map (fun a => quat_on a k pre) l).
Proof.
  intros l sh k qaxis Hl Hk Hf Ha. rewrite qmul_floats by auto.
  assert (Hax : norm_axis qaxis (S (length sh)) = Ok k) by (apply axis_is_norm; auto; lia).
  assert (T : exists qs, traverse (fun a => to_quat a qaxis) l = Ok qs /\ length qs = length l /\ Forall (fun q => shp q = mvl k sh) qs /\
     forall pre, length pre = length sh -> map (fun q => dat q (mvl k pre)) qs = map (fun a => quat_on a k pre) l).
  { clear Hl. induction l as [|a l IH]; [exists []; repeat split; auto|]. inversion Hf as [|? ? Hs Hf']; subst.
    rewrite put_insert in Hs by auto.
    destruct (to_quat_ok a qaxis k sh Hs Hk) as (b & Eb & Sb & Db). { unfold ndim. rewrite Hs, length_insert; auto. }
    destruct (IH Hf') as (qs & E & L & F & D). exists (b :: qs). unfold traverse in *. simpl. rewrite Eb. cbn [bind].
    rewrite E. cbn [bind]. split; auto. split; [simpl; lia|]. split; [constructor; auto|]. intros pre Lp. simpl.
    rewrite Db, D by auto. rewrite quat_on_along by lia. reflexivity. }
  destruct T as (qs & Et & Lq & Fq & Dq). rewrite Et. cbn [bind].
  destruct (reduce_ok qs (mvl k sh)) as (m & Em & Sm & Dm); auto; [destruct qs; simpl in *; [lia|discriminate]|].
  rewrite Em. cbn [bind]. destruct (from_quat_ok m qaxis k sh Sm Hk Hax) as (d & Ed & Sd & Dd). rewrite Ed. cbn [bind].
  exists d. split; auto. split; [rewrite put_insert; auto|]. intros pre Hp. pose proof (valid_length _ _ Hp) as Lp.
  rewrite quat_on_along by lia. rewrite Dd, Dm by (auto; apply valid_mvl; auto). rewrite Dq by auto. reflexivity.
Qed.
Lemma F2_len {A B} (P : A -> B -> Prop) l l' : Forall2 P l l' -> length l = length l'.
Proof. intros H; induction H; simpl; congruence. Qed.
(** Any grouping of the arguments gives the same product (groups of one argument
    stand for the argument itself). *)
Definition group (g : list (nd quat)) (ax : Z) (a : nd quat) : Prop :=
  g = [a] \/ qmul (map QQ g) ax = Ok (QQ a).
Theorem C27_grouping : forall gs l sh ax, 2 <= length gs ->
  Forall (fun g => g <> [] /\ Forall (fun a => shp a = sh) g) gs ->
  Forall2 (fun g a => group g ax a) gs l ->
  exists m m', qmul (map QQ (concat gs)) ax = Ok (QQ m) /\ qmul (map QQ l) ax = Ok (QQ m') /\ nd_eq m m'.
Proof.
  intros gs l sh ax Hl Hf H2.
  assert (Hg : Forall (fun a => shp a = sh) l /\ forall ix, valid sh ix ->
     hprod (map (fun a => dat a ix) l) = hprod (map (fun a => dat a ix) (concat gs))).
  { clear Hl. induction H2 as [|g a gs l Hga H2 IH]; [split; auto|]. inversion Hf as [|? ? (Hne & Hs) Hf']; subst.
    destruct (IH Hf') as (F & D).
    assert (Hv : shp a = sh /\ forall ix, valid sh ix -> dat a ix = hprod (map (fun a => dat a ix) g)).
    { destruct Hga as [-> | Hq].
      - inversion Hs; subst. split; auto. intros. simpl. rewrite hmul_1_r. reflexivity.
      - destruct (le_lt_dec 2 (length g)) as [L|L].
        + destruct (C27_qmul g sh ax L Hs) as (m & E & S & V). rewrite E in Hq. injection Hq as <-. split; auto. intros; apply V; auto.
        + unfold qmul in Hq. rewrite map_length in Hq. apply Nat.ltb_lt in L. rewrite L in Hq. discriminate. }
    destruct Hv as (Sa & Da). split; [constructor; auto|]. intros ix Hi. simpl. rewrite map_app, hprod_app, Da, D by auto. reflexivity. }
  destruct Hg as (F & D).
  assert (Fc : Forall (fun a => shp a = sh) (concat gs)).
  { clear -Hf. induction Hf as [|g gs (_ & H) _ IH]; simpl; auto. apply Forall_app; auto. }
  assert (Lc : 2 <= length (concat gs)).
  { assert (length gs <= length (concat gs)); [|lia]. clear -Hf. induction Hf as [|g gs (H & _) Hf IH]; simpl; auto.
    rewrite app_length. destruct g; [congruence|]. simpl. lia. }
  destruct (C27_qmul (concat gs) sh ax Lc Fc) as (m & E & S & V).
  destruct (C27_qmul l sh ax) as (m' & E' & S' & V'); auto; [rewrite <- (F2_len _ _ _ H2); auto|].
  exists m, m'. split; auto. split; auto. split; [congruence|]. intros ix Hi. rewrite S in Hi.
  rewrite (proj1 (V ix Hi)), (proj1 (V' ix Hi)). symmetry. auto.
Qed.
(** Refusals: fewer than two arguments, or mixed dtypes. *)
Theorem C27_refuse : forall l ax,
  length l < 2 \/ ((exists a, In (QQ a) l) /\ (exists a, In (QF a) l)) -> qmul l ax = Raise ValueError.
Proof.
  intros l ax [H|((a & Ha) & (b & Hb))]; unfold qmul.
  - apply Nat.ltb_lt in H. rewrite H. reflexivity.
  - destruct (length l <? 2); auto.
    replace (forallb (fun q => negb (is_quat q)) l) with false.
    + replace (forallb is_quat l) with false; auto. symmetry. apply not_true_is_false. intros H.
      rewrite forallb_forall in H. specialize (H _ Hb). discriminate.
    + symmetry. apply not_true_is_false. intros H. rewrite forallb_forall in H. specialize (H _ Ha). discriminate.
Qed.

Lemma qinv_quat a ax : all_nonzero a ->
  exists r, qinv (QQ a) ax = Ok (QQ r) /\ shp r = shp a /\ forall ix, valid (shp a) ix -> dat r ix = hinv (dat a ix).
Proof.
  intros H. unfold qinv. destruct (map_res_ok qrecip q1 a hinv) as (r & E & S & D).
  { intros ix Hi. apply qrecip_hinv. apply H; auto. }
  rewrite E. cbn [bind]. exists r. auto.
Qed.
(** Two-sided inverse, involution. *)
Theorem C27_qinv : forall a ax, all_nonzero a ->
  exists r, qinv (QQ a) ax = Ok (QQ r) /\ shp r = shp a /\ all_nonzero r /\
    (exists m, qmul [QQ a; QQ r] ax = Ok (QQ m) /\ shp m = shp a /\ all_one m) /\
    (exists m, qmul [QQ r; QQ a] ax = Ok (QQ m) /\ shp m = shp a /\ all_one m) /\
    (exists a', qinv (QQ r) ax = Ok (QQ a') /\ nd_eq a' a).
Proof.
  intros a ax H. destruct (qinv_quat a ax H) as (r & E & S & D). exists r. split; auto. split; auto.
  assert (Hr : all_nonzero r). { intros ix Hi. rewrite S in Hi. rewrite D by auto. apply hn2_hinv_nz. apply H; auto. }
  split; auto. split; [|split].
  - destruct (C27_qmul [a; r] (shp a) ax) as (m & Em & Sm & Vm); [simpl; lia|repeat constructor; auto|].
    exists m. split; auto. split; auto. intros ix Hi. rewrite Sm in Hi. rewrite (proj1 (Vm ix Hi)). simpl. rewrite hmul_1_r, D by auto.
    rewrite hinv_r by (apply H; auto). reflexivity.
  - destruct (C27_qmul [r; a] (shp a) ax) as (m & Em & Sm & Vm); [simpl; lia|repeat constructor; auto|].
    exists m. split; auto. split; auto. intros ix Hi. rewrite Sm in Hi. rewrite (proj1 (Vm ix Hi)). simpl. rewrite hmul_1_r, D by auto.
    rewrite hinv_l by (apply H; auto). reflexivity.
  - destruct (qinv_quat r ax Hr) as (a' & Ea & Sa & Da). exists a'. split; auto. split; [congruence|]. intros ix Hi.
    rewrite Sa in Hi. rewrite Da by auto. rewrite S in Hi. rewrite D by auto. apply hinv_hinv. apply H; auto.
Qed.
(** The inverse of a product is the product of the inverses in reverse. *)
Theorem C27_qinv_product : forall a b ax, shp a = shp b -> all_nonzero a -> all_nonzero b ->
  exists ra rb m rm m', qinv (QQ a) ax = Ok (QQ ra) /\ qinv (QQ b) ax = Ok (QQ rb) /\
    qmul [QQ a; QQ b] ax = Ok (QQ m) /\ qinv (QQ m) ax = Ok (QQ rm) /\ qmul [QQ rb; QQ ra] ax = Ok (QQ m') /\ nd_eq rm m'.
Proof.
  intros a b ax Hs Ha Hb. destruct (qinv_quat a ax Ha) as (ra & Ea & Sa & Da). destruct (qinv_quat b ax Hb) as (rb & Eb & Sb & Db).
  destruct (C27_qmul [a; b] (shp a) ax) as (m & Em & Sm & Vm); [simpl; lia|repeat constructor; auto|].
  assert (Vm' : forall ix, valid (shp a) ix -> dat m ix = hmul (dat a ix) (dat b ix)).
  { intros ix Hi. rewrite (proj1 (Vm ix Hi)). simpl. rewrite hmul_1_r. reflexivity. }
  destruct (qinv_quat m ax) as (rm & Er & Sr & Dr).
  { intros ix Hi. rewrite Sm in Hi. rewrite Vm' by auto. apply hmul_nz; [apply Ha|apply Hb]; congruence. }
  destruct (C27_qmul [rb; ra] (shp a) ax) as (m' & Em' & Sm' & Vmm); [simpl; lia|repeat constructor; congruence|].
  exists ra, rb, m, rm, m'. repeat (split; [assumption|]). split; [congruence|]. intros ix Hi. rewrite Sr, Sm in Hi.
  rewrite Dr by congruence. rewrite Vm' by auto. rewrite (proj1 (Vmm ix Hi)). simpl. rewrite hmul_1_r, Da, Db by congruence.
  apply hinv_hmul; [apply Ha|apply Hb]; congruence.
Qed.
(** Float arrays with the components on any axis. *)
Theorem C27_qinv_float : forall a sh k qaxis, k <= length sh -> shp a = put k 4 sh -> axis_is qaxis k (ndim a) ->
  (forall pre, valid sh pre -> hnonzero (quat_on a k pre)) ->
  exists r, qinv (QF a) qaxis = Ok (QF r) /\ shp r = shp a /\
    forall pre, valid sh pre -> hmul (quat_on a k pre) (quat_on r k pre) = Qt 1 0 0 0 /\ hmul (quat_on r k pre) (quat_on a k pre) = Qt 1 0 0 0.
Proof.
  intros a sh k qaxis Hk Hs Ha Hnz. destruct (along_facts a k 4 sh qaxis Hs Hk Ha) as (Hs' & Hn & Hax & _).
  destruct (to_quat_ok a qaxis k sh Hs' Hk Hax) as (b & Eb & Sb & Db). unfold qinv. rewrite Eb. cbn [bind].
  destruct (map_res_ok qrecip q1 b hinv) as (c & Ec & Sc & Dc).
  { intros ix Hi. rewrite Sb in Hi. apply mvl_surj in Hi as (p & -> & Hp); auto. pose proof (valid_length _ _ Hp) as Lp.
    rewrite Db by auto. rewrite <- quat_on_along by lia. apply qrecip_hinv. apply Hnz; auto. }
  rewrite Ec. cbn [bind]. destruct (from_quat_ok c qaxis k sh) as (d & Ed & Sd & Dd); auto; [congruence|rewrite <- Hn; auto|].
  rewrite Ed. cbn [bind]. exists d. split; auto. split; [congruence|]. intros pre Hp. pose proof (valid_length _ _ Hp) as Lp.
  rewrite (quat_on_along d) by lia. rewrite Dd by auto. rewrite Dc by (rewrite Sb; apply valid_mvl; auto). rewrite Db by auto.
  rewrite <- quat_on_along by lia. split; [apply hinv_r|apply hinv_l]; apply Hnz; auto.
Qed.
Example C27_example : all_nonzero (Nd [2;1] (fun ix => Qt (INR (hd 0 ix)) 1 0 2)) /\ group [Nd [2] (fun _ => Qt 1 1 0 0)] (-1) (Nd [2] (fun _ => Qt 1 1 0 0)).
Proof.
  split; [|left; reflexivity]. intros ix _. cbn [dat]. vcomp. pose proof (Rle_0_sqr (INR (hd 0 ix))) as H. unfold Rsqr in H. lra.
Qed.

(* ------------------------------------------------------------------ C51 *)
(** a' is the non-negative way to write axis a of an array with n axes. *)
Definition same_axis (n : nat) (a a' : Z) : Prop :=
  (0 <= a' < Z.of_nat n)%Z /\ (a = a' \/ a = (a' - Z.of_nat n)%Z).
Definition valid_axis (n : nat) (a : Z) : Prop := (- Z.of_nat n <= a < Z.of_nat n)%Z.

Lemma resolve_one n a : let a' := if (a <? 0)%Z then (Z.of_nat n + a)%Z else a in
  if ((a' <? 0) || (Z.of_nat n <=? a'))%Z then ~ valid_axis n a else valid_axis n a /\ same_axis n a a'.
Proof.
  cbv zeta. unfold valid_axis, same_axis. destruct (Z.ltb_spec a 0).
  - destruct (Z.ltb_spec (Z.of_nat n + a) 0); [simpl; lia|]. destruct (Z.leb_spec (Z.of_nat n) (Z.of_nat n + a)); simpl; lia.
  - destruct (Z.ltb_spec a 0); [lia|]. destruct (Z.leb_spec (Z.of_nat n) a); simpl; lia.
Qed.
Theorem C51_int : forall a n,
  (valid_axis n a -> exists a', resolve_axis (AxInt a) n = Ok (RInt a') /\ same_axis n a a') /\
  (~ valid_axis n a -> resolve_axis (AxInt a) n = Raise IndexError).
Proof.
  intros a n. pose proof (resolve_one n a) as H. cbv zeta in H. unfold resolve_axis.
  destruct (_ || _)%bool; split; intros V; try tauto. eexists. split; [reflexivity|]. tauto.
Qed.
Theorem C51_tuple : forall l n,
  (Forall (valid_axis n) l -> exists l', resolve_axis (AxTuple l) n = Ok (RTuple l') /\ Forall2 (same_axis n) l l') /\
  (~ Forall (valid_axis n) l -> resolve_axis (AxTuple l) n = Raise IndexError).
Proof.
  intros l n. unfold resolve_axis. set (g := fun a => if (a <? 0)%Z then (Z.of_nat n + a)%Z else a).
  assert (G : if existsb (fun a => ((a <? 0) || (Z.of_nat n <=? a))%Z) (map g l) then ~ Forall (valid_axis n) l
              else Forall (valid_axis n) l /\ Forall2 (same_axis n) l (map g l)).
  { induction l as [|a l IH]; simpl; [split; constructor|]. pose proof (resolve_one n a) as H. cbv zeta in H. fold (g a) in H.
    destruct ((g a <? 0) || (Z.of_nat n <=? g a))%Z eqn:E; simpl.
    - intros F. inversion F; subst. auto.
    - destruct (existsb _ (map g l)); [intros F; inversion F; auto|]. destruct IH, H. split; constructor; auto. }
  destruct (existsb _ (map g l)); split; intros V; try tauto. eexists. split; [reflexivity|]. tauto.
Qed.
Theorem C51_none : forall n, resolve_axis AxNone n = Ok (RTuple (map Z.of_nat (seq 0 n))).
Proof.
  intros n. unfold resolve_axis. replace (existsb _ _) with false; auto. symmetry.
  apply existsb_false_all. intros x Hx. apply in_map_iff in Hx as (k & <- & Hk). apply in_seq in Hk.
  destruct (Z.ltb_spec (Z.of_nat k) 0); [lia|]. destruct (Z.leb_spec (Z.of_nat n) (Z.of_nat k)); [lia|]. reflexivity.
Qed.
Example C51_example : valid_axis 3 (-1) /\ same_axis 3 (-1) 2 /\ ~ valid_axis 3 3.
Proof. unfold valid_axis, same_axis. lia. Qed.

(* ------------------------------------------------------------------ C29 *)
(** Single angles: the product in the given order of the rotations whose angle is
    given; a unit quaternion at every index. *)
Theorem C29_angles : forall roll pitch yaw sh axis a b c rest,
  Permutation [a; b; c] ["r"; "p"; "y"]%char ->
  angle_ok sh roll -> angle_ok sh pitch -> angle_ok sh yaw -> (roll <> None \/ pitch <> None \/ yaw <> None) ->
  exists q, from_euler_angles None roll pitch yaw axis (a :: b :: c :: rest) = Ok q /\ shp q = sh /\
    forall ix, valid sh ix -> dat q ix = hprod (chain [a; b; c] roll pitch yaw ix) /\ hunit (dat q ix).
Proof.
  intros roll pitch yaw sh axis a b c rest Hp H1 H2 H3 Hn.
  destruct (chain_fold a b c rest roll pitch yaw sh Hp H1 H2 H3 Hn) as (q & E & S & D). exists q. split; auto.
  unfold from_euler_angles. cbn [bind]. pose proof (checks_ok sh roll pitch yaw H1 H2 H3 Hn) as C.
  destruct (check_shape _ pitch) as [s1|e]; cbn [bind] in *; [|discriminate]. rewrite C. cbn [bind]. exact E.
Qed.
(** An rpy array with the three angles on any axis k, float result. *)
Theorem C29_rpy : forall rpy sh k axis a b c rest, Permutation [a; b; c] ["r"; "p"; "y"]%char ->
  shp rpy = put k 3 sh -> k <= length sh -> axis_is axis k (ndim rpy) ->
  exists out, from_euler_angles_float (Some rpy) None None None axis (a :: b :: c :: rest) = Ok out /\ shp out = put k 4 sh /\
    forall pre, valid sh pre -> hunit (quat_on out k pre) /\
      quat_on out k pre = hprod (map (fun l => rot_about l (dat rpy (put k (pick 0 1 2 l) pre))) [a; b; c]).
Proof.
  intros rpy sh k axis a b c rest Hp Hs Hk Ha. destruct (along_facts rpy k 3 sh axis Hs Hk Ha) as (Hs' & Hn & Hax & _).
  unfold from_euler_angles_float, from_euler_angles, swapaxes. rewrite Hax, norm_axis_last by lia. cbn [bind swap_nd shp].
  replace (ndim rpy - 1) with (length sh) by lia. rewrite Hs', (swapl_comm k), swapl_insert_end, last_snoc by auto. cbn [Nat.ltb Nat.leb bind].
  set (b' := swap_nd k (length sh) rpy). set (r := Some (take_last b' 0)). set (p := Some (take_last b' 1)). set (y := Some (take_last b' 2)).
  assert (Sb : forall i, shp (take_last b' i) = mvl k sh) 
    by (intros i; unfold take_last; cbn [shp b' swap_nd]; rewrite Hs', (swapl_comm k), swapl_insert_end by auto; apply removelast_snoc).
  assert (A1 : angle_ok (mvl k sh) r) by (apply Sb). assert (A2 : angle_ok (mvl k sh) p) by (apply Sb).
  assert (A3 : angle_ok (mvl k sh) y) by (apply Sb). assert (Hne : r <> None \/ p <> None \/ y <> None) by (left; discriminate).
  destruct (chain_fold a b c rest r p y (mvl k sh) Hp A1 A2 A3 Hne) as (q & E & S & D).
  pose proof (checks_ok (mvl k sh) r p y A1 A2 A3 Hne) as C. unfold r at 1 in C.
  destruct (check_shape (Some (shp (take_last b' 0))) p) as [s1|e]; cbn [bind] in *; [|discriminate]. rewrite C. cbn [bind].
  rewrite E. cbn [bind]. destruct (from_quat_ok q axis k sh S Hk) as (d & Ed & Sd & Dd); [rewrite <- Hn; auto|].
  exists d. split; auto. split; [rewrite put_insert; auto|]. intros pre Hpre. pose proof (valid_length _ _ Hpre) as Lp.
  destruct (D (mvl k pre)) as (D1 & D2); [apply valid_mvl; auto|].
  rewrite quat_on_along by lia. rewrite Dd by auto. split; [exact D2|]. rewrite D1. f_equal.
  assert (V : forall i, dat (take_last b' i) (mvl k pre) = dat rpy (put k i pre)).
  { intros i. unfold take_last. cbn [dat b' swap_nd]. rewrite <- Lp, swapl_mvl, put_insert by lia. reflexivity. }
  assert (G : forall l, match pick r p y l with Some a0 => [rot_about l (dat a0 (mvl k pre))] | None => [] end =
     [rot_about l (dat rpy (put k (pick 0 1 2 l) pre))]).
  { intros l. unfold pick, r, p, y. destruct (Ascii.eqb l "r"); [|destruct (Ascii.eqb l "p")]; rewrite V; reflexivity. }
  unfold chain. cbn [flat_map map]. rewrite !G. reflexivity.
Qed.
(** Refusals for single angles: exactly when none is given, shapes differ, or the
    first three letters are not a permutation. *)
Theorem C29_refuse_partial : forall roll pitch yaw axis order,
  (exists q, from_euler_angles None roll pitch yaw axis order = Ok q) \/
  from_euler_angles None roll pitch yaw axis order = Raise ValueError /\
    ((roll = None /\ pitch = None /\ yaw = None) \/
     (~ exists sh, angle_ok sh roll /\ angle_ok sh pitch /\ angle_ok sh yaw) \/
     ~ is_order order).
Proof.
  intros roll pitch yaw axis order. unfold from_euler_angles. cbn [bind].
  destruct (shape <- check_shape match roll with Some a => Some (shp a) | None => None end pitch ;; check_shape shape yaw) as [o|e] eqn:C.
  - pose proof (checks_inv roll pitch yaw o C) as I. 
    destruct (check_shape _ pitch) as [s1|e]; cbn [bind] in *; [|discriminate]. rewrite C. cbn [bind].
    destruct o as [sh|]; [|right; split; auto; tauto]. destruct I as (I1 & I2 & I3 & I4).
    assert (D : is_order order \/ ~ is_order order).
    { destruct (arrange order (@None (nd quat)) None None) eqn:Ea.
      - left. apply (arrange_order _ _ _ _ _ Ea).
      - right. intros (a & b & c & rest & -> & Hp). rewrite (arrange_ok a b c rest _ _ _ Hp) in Ea. discriminate. }
    destruct D as [(a & b & c & rest & -> & Hp)|D].
    + left. destruct (chain_fold a b c rest roll pitch yaw sh Hp I1 I2 I3 I4) as (q & E & _). exists q. exact E.
    + right. rewrite arrange_bad by auto. split; auto.
  - right. pose proof (checks_raise roll pitch yaw e C) as ->.
    assert (N : ~ exists sh, angle_ok sh roll /\ angle_ok sh pitch /\ angle_ok sh yaw).
    { intros (sh & I1 & I2 & I3).
      assert (X : (roll <> None \/ pitch <> None \/ yaw <> None) \/ (roll = None /\ pitch = None /\ yaw = None)).
      { destruct roll; [left; left; discriminate|]. destruct pitch; [left; right; left; discriminate|].
        destruct yaw; [left; right; right; discriminate|]. auto. }
      destruct X as [X|(-> & -> & ->)]; [|discriminate C].
      rewrite (checks_ok sh roll pitch yaw I1 I2 I3 X) in C. discriminate C. }
    split; [|auto]. destruct (check_shape _ pitch) as [s1|e]; cbn [bind] in *; [rewrite C|injection C as ->]; reflexivity.
Qed.
(** rpy together with a single angle is refused. *)
Theorem C29_mixed : forall rpy roll pitch yaw axis order, roll <> None \/ pitch <> None \/ yaw <> None ->
  from_euler_angles (Some rpy) roll pitch yaw axis order = Raise ValueError.
Proof.
  intros rpy roll pitch yaw axis order H. destruct roll; [reflexivity|]. destruct pitch; [reflexivity|]. destruct yaw; [reflexivity|].
  destruct H as [H|[H|H]]; congruence.
Qed.
(** The English claim fails: an order of four letters is accepted. *)
Theorem C29_refuted : exists order, ~ Permutation order ["r"; "p"; "y"]%char /\
  forall roll sh axis, shp roll = sh -> exists q, from_euler_angles None (Some roll) None None axis order = Ok q.
Proof.
  exists ["r"; "p"; "y"; "r"]%char. split; [intros H; apply Permutation_length in H; discriminate|].
  intros roll sh axis Hs. destruct (C29_angles (Some roll) None None sh axis _ _ _ ["r"%char] (Permutation_refl _)) as (q & E & _);
    simpl; auto; [left; discriminate|]. exists q; exact E.
Qed.
Example C29_example : exists q, from_euler_angles None (Some (Nd [2] (fun _ => PI))) None (Some (Nd [2] (fun _ => 0%R))) (-1) ["y"; "p"; "r"]%char = Ok q /\
  forall i, i < 2 -> dat q [i] = Qt 0 1 0 0.
Proof.
  assert (P : Permutation ["y"; "p"; "r"]%char ["r"; "p"; "y"]%char).
  { apply (perm_trans (perm_swap _ _ _)). apply (perm_trans (perm_skip _ (perm_swap _ _ _))). apply perm_swap. }
  destruct (C29_angles (Some (Nd [2] (fun _ => PI))) None (Some (Nd [2] (fun _ => 0%R))) [2] (-1) _ _ _ [] P) as (q & E & S & D);
    simpl; auto. { left; discriminate. }
  exists q. split; auto. intros i Hi. destruct (D [i]) as (D1 & _). { constructor; auto. }
  rewrite D1. unfold chain, pick. cbn. unfold rot_about. cbn.
  replace (0/2)%R with 0%R by field. rewrite cos_0, sin_0, cos_PI2, sin_PI2. veq.
Qed.

(* ------------------------------------------------------------------ C28 *)
Open Scope R_scope.
Definition sum4 (f : nat -> R) : R := f 0%nat + f 1%nat + f 2%nat + f 3%nat.
(** What numpy.linalg.eig promises for a symmetric matrix: eigenvalues l k and unit
    eigenvectors, the columns of v. *)
Definition eig_at (eig : m4 -> (nat -> R) * m4) (A : m4) : Prop :=
  let (l, v) := eig A in
  forall k, (k < 4)%nat -> (forall i, (i < 4)%nat -> sum4 (fun j => A i j * v j k) = l k * v i k) /\
    sum4 (fun i => v i k * v i k) = 1.
(** n copies of q. *)
Definition hopp (q : quat) : quat := Qt (- qw q) (- qx q) (- qy q) (- qz q).
Definition copies (n : nat) (q : quat) : nd quat := Nd [n] (fun _ => q).

Lemma lt4 k : (k < 4)%nat -> k = 0%nat \/ k = 1%nat \/ k = 2%nat \/ k = 3%nat.
Proof. lia. Qed.
Lemma rsum_const c l : rsum (map (fun _ : quat => c) l) = INR (length l) * c.
Proof. induction l as [|a l IH]; [simpl; ring|]. change (length (a :: l)) with (S (length l)). rewrite S_INR. simpl. rewrite IH. ring. Qed.
Lemma mean_outer_copies l q i j : l <> [] -> Forall (fun p => p = q) l -> mean_outer l i j = comp4 i q * comp4 j q.
Proof.
  intros Hl Hf. unfold mean_outer. replace (map _ l) with (map (fun _ : quat => comp4 i q * comp4 j q) l).
  - rewrite rsum_const. field. apply not_0_INR. destruct l; simpl; congruence.
  - apply map_ext_in. intros a Ha. rewrite Forall_forall in Hf. rewrite (Hf a Ha). reflexivity.
Qed.
Lemma mean_outer_sym l i j : mean_outer l i j = mean_outer l j i.
Proof. unfold mean_outer. f_equal. f_equal. apply map_ext. intros a. ring. Qed.

(** Eigenpairs of the outer product of a unit q: q itself, or something orthogonal. *)
Lemma outer_eig q A l (v : nat -> R) : hunit q -> (forall i j, (i < 4)%nat -> (j < 4)%nat -> A i j = comp4 i q * comp4 j q) ->
  (forall i, (i < 4)%nat -> sum4 (fun j => A i j * v j) = l * v i) -> sum4 (fun i => v i * v i) = 1 ->
  (l = 0 /\ sum4 (fun j => comp4 j q * v j) = 0) \/
  (l = 1 /\ exists s, (s = 1 \/ s = -1) /\ forall i, (i < 4)%nat -> v i = s * comp4 i q).
Proof.
  intros Hu HA He Hn. set (d := sum4 (fun j => comp4 j q * v j)).
  assert (E : forall i, (i < 4)%nat -> comp4 i q * d = l * v i).
  { intros i Hi. rewrite <- He by auto. unfold sum4, d, sum4. rewrite !HA by lia. ring. }
  assert (Hq : sum4 (fun i => comp4 i q * comp4 i q) = 1).
  { clear -Hu. destruct q as [w x y z]. unfold hunit, hn2, sc, ve, vdot in Hu. unfold sum4. cbn in Hu |- *. lra. }
  assert (E1 : d = l * d).
  { transitivity (sum4 (fun i => comp4 i q * (comp4 i q * d))).
    - transitivity (sum4 (fun i => comp4 i q * comp4 i q) * d); [rewrite Hq; ring|unfold sum4; ring].
    - unfold sum4. rewrite !E by lia. unfold d, sum4. ring. }
  assert (E2 : d * d = l).
  { replace l with (l * sum4 (fun i => v i * v i)) by (rewrite Hn; ring).
    replace (l * sum4 (fun i => v i * v i)) with (sum4 (fun i => (l * v i) * v i)) by (unfold sum4; ring).
    unfold sum4. rewrite <- !E by lia. unfold d, sum4. ring. }
  destruct (Req_dec d 0) as [D|D].
  - left. split; auto. rewrite <- E2, D. ring.
  - right. assert (L : l = 1). { apply (Rmult_eq_reg_r d); auto. lra. } split; auto. exists d. split.
    + assert (P : (d - 1) * (d + 1) = 0) by (rewrite L in E2; transitivity (d * d - 1); [ring|lra]). apply Rmult_integral in P. lra.
    + intros i Hi. rewrite Rmult_comm, E, L by auto. ring.
Qed.
(** argsort is a permutation of the four positions. *)
Lemma ins_by_perm l i s : Permutation (ins_by l i s) (i :: s).
Proof.
  induction s as [|j s IH]; simpl; auto. destruct (Rlt_b (l j) (l i)); auto.
  apply (perm_trans (perm_skip _ IH)). apply perm_swap.
Qed.
Lemma argsort4_perm l : Permutation (argsort4 l) [0;1;2;3]%nat.
Proof.
  unfold argsort4. cbn [seq fold_right].
  apply (perm_trans (ins_by_perm _ _ _)), perm_skip.
  apply (perm_trans (ins_by_perm _ _ _)), perm_skip.
  apply (perm_trans (ins_by_perm _ _ _)), perm_skip.
  apply ins_by_perm.
Qed.
Lemma perm4_range s : Permutation s [0;1;2;3]%nat -> forall k, (k < 4)%nat -> (nth k (rev s) 0 < 4)%nat.
Proof.
  intros H k Hk. assert (Hin : In (nth k (rev s) 0%nat) s).
  { apply in_rev. apply nth_In. rewrite rev_length, (Permutation_length H). exact Hk. }
  apply (Permutation_in _ H) in Hin. simpl in Hin. lia.
Qed.
Lemma Rlt_b_01 : Rlt_b 0 1 = true. Proof. apply Rlt_b_true; lra. Qed.
Lemma Rlt_b_10 : Rlt_b 1 0 = false. Proof. apply Rlt_b_false; lra. Qed.
Lemma Rlt_b_same x : Rlt_b x x = false. Proof. apply Rlt_b_false; lra. Qed.
(** With eigenvalues in {0, 1} the descending order of a stable sort is never 0,1,2,3. *)
Lemma rev_argsort_01 l : (forall k, (k < 4)%nat -> l k = 0 \/ l k = 1) -> rev (argsort4 l) <> [0;1;2;3]%nat.
Proof.
  intros H. pose proof (H 0%nat ltac:(lia)) as H0. pose proof (H 1%nat ltac:(lia)) as H1.
  pose proof (H 2%nat ltac:(lia)) as H2. pose proof (H 3%nat ltac:(lia)) as H3.
  unfold argsort4. cbn [seq fold_right].
  destruct H0 as [H0|H0], H1 as [H1|H1], H2 as [H2|H2], H3 as [H3|H3];
    repeat (cbn [ins_by]; rewrite ?H0, ?H1, ?H2, ?H3, ?Rlt_b_01, ?Rlt_b_10, ?Rlt_b_same); cbn; discriminate.
Qed.
Lemma indices1 n : indices [n] = map (fun i => [i]) (seq 0 n).
Proof. unfold indices. simpl. rewrite flat_map_concat_map. generalize (seq 0 n). intros l. induction l; simpl; congruence. Qed.
Definition uneven : quat := Qt (2/9) (4/9) (5/9) (6/9).

(** Refuted, whatever order eig returns the eigenvalues in: the mean of n copies of
    the unit quaternion (2,4,5,6)/9 is neither it nor its negative. *)
Theorem C28_refuted : forall eig n, (0 < n)%nat ->
  let a := copies n uneven in eig_at eig (mean_outer (map (dat a) (indices (shp a)))) ->
  hunit uneven /\ dat (qmean_all eig (copies n uneven)) [] <> uneven /\
  dat (qmean_all eig (copies n uneven)) [] <> hopp uneven.
Proof.
  intros eig n Hn a0 He. assert (Hu : hunit uneven) by (unfold uneven; vcomp; field). split; auto.
  set (L := map (dat (copies n uneven)) (indices (shp (copies n uneven)))).
  assert (HL : L <> []). { unfold L, copies. cbn [shp]. rewrite indices1. destruct n; [lia|discriminate]. }
  assert (FL : Forall (fun p => p = uneven) L). { apply Forall_forall. intros p Hp. apply in_map_iff in Hp as (x & <- & _). reflexivity. }
  pose proof He as HE. unfold eig_at in HE. subst a0; fold L in HE.
  unfold qmean_all, qmean_core. cbn [dat map]. fold L. destruct (eig (mean_outer L)) as (l, v). cbn [fst snd].
  assert (HA : forall i j, (i < 4)%nat -> (j < 4)%nat -> mean_outer L i j = comp4 i uneven * comp4 j uneven)
    by (intros; apply mean_outer_copies; auto).
  assert (HK : forall k, (k < 4)%nat -> (l k = 0 /\ sum4 (fun j => comp4 j uneven * v j k) = 0) \/
    (l k = 1 /\ exists s, (s = 1 \/ s = -1) /\ forall i, (i < 4)%nat -> v i k = s * comp4 i uneven)).
  { intros k Hk. destruct (HE k Hk) as (E & N). apply (outer_eig uneven (mean_outer L) (l k) (fun i => v i k)); auto. }
  pose proof (rev_argsort_01 l) as HR. assert (H01 : forall k, (k < 4)%nat -> l k = 0 \/ l k = 1).
  { intros k Hk. destruct (HK k Hk) as [(-> & _)|(-> & _)]; auto. }
  specialize (HR H01). pose proof (argsort4_perm l) as HP. pose proof (perm4_range _ HP) as Hr.
  assert (HP' : Permutation (rev (argsort4 l)) [0;1;2;3]%nat) by (apply (perm_trans (Permutation_sym (Permutation_rev _)) HP)).
  assert (HN : NoDup (rev (argsort4 l))) by (apply (Permutation_NoDup (Permutation_sym HP')); repeat constructor; simpl; intuition discriminate).
  pose proof (Permutation_length HP') as HLen.
  destruct (rev (argsort4 l)) as [|a [|b [|c [|d [|]]]]]; try discriminate HLen. clear HLen HP'.
  assert (La : (a < 4)%nat) by (apply (Hr 0%nat); lia). assert (Lb : (b < 4)%nat) by (apply (Hr 1%nat); lia).
  assert (Lc : (c < 4)%nat) by (apply (Hr 2%nat); lia). assert (Ld : (d < 4)%nat) by (apply (Hr 3%nat); lia).
  cbn [nth].
  assert (Key : forall s, s = 1 \/ s = -1 ->
     ~ (v a 0%nat = s * (2/9) /\ v b 0%nat = s * (4/9) /\ v c 0%nat = s * (5/9) /\ v d 0%nat = s * (6/9))).
  { intros s Hs (Ea & Eb & Ec & Ed).
    assert (D : forall i, (i < 4)%nat -> i = a \/ i = b \/ i = c \/ i = d).
    { intros i Hi. inversion HN as [|? ? N1 HN1]; subst. inversion HN1 as [|? ? N2 HN2]; subst. inversion HN2 as [|? ? N3 _]; subst.
      simpl in N1, N2, N3. lia. }
    destruct (HK 0%nat ltac:(lia)) as [(_ & O)|(_ & t & Ht & Hv)].
    - assert (Pos : forall i, (i < 4)%nat -> 0 < s * v i 0%nat).
      { intros i Hi. destruct (D i Hi) as [->|[->|[->| ->]]]; rewrite ?Ea, ?Eb, ?Ec, ?Ed; destruct Hs as [->| ->]; lra. }
      unfold sum4 in O. pose proof (Pos 0%nat ltac:(lia)). pose proof (Pos 1%nat ltac:(lia)).
      pose proof (Pos 2%nat ltac:(lia)). pose proof (Pos 3%nat ltac:(lia)). cbn in O. destruct Hs as [->| ->]; lra.
    - rewrite Hv in Ea, Eb, Ec, Ed by auto. apply HR.
      assert (S : s = t). 
      { destruct Hs as [->| ->], Ht as [->| ->]; auto; exfalso;
        destruct (lt4 a La) as [->|[->|[->| ->]]]; cbn in Ea; lra. }
      subst t.
      assert (Q : forall i x, s * x = s * i -> x = i) by (intros i x Hx; destruct Hs as [->| ->]; lra).
      apply Q in Ea, Eb, Ec, Ed.
      f_equal; [|f_equal; [|f_equal; [|f_equal]]].
      + destruct (lt4 a La) as [->|[->|[->| ->]]]; cbn in Ea; auto; lra.
      + destruct (lt4 b Lb) as [->|[->|[->| ->]]]; cbn in Eb; auto; lra.
      + destruct (lt4 c Lc) as [->|[->|[->| ->]]]; cbn in Ec; auto; lra.
      + destruct (lt4 d Ld) as [->|[->|[->| ->]]]; cbn in Ed; auto; lra. }
  split; intros E; unfold uneven, hopp in E; cbn in E; injection E as E1 E2 E3 E4.
  - apply (Key 1); auto. lra.
  - apply (Key (-1)); auto. lra.
Qed.
(** Refuted for batches whatever eig and argsort do with equal eigenvalues: with the
    identity at batch position 0, the mean of copies of q at position 1 is not q or -q. *)
Theorem C28_batch_refuted : forall eig n, (0 < n)%nat ->
  let a := Nd [2; n]%nat (fun ix => if Nat.eqb (hd 0%nat ix) 0 then Qt 1 0 0 0 else uneven) in
  (forall b, (b < 2)%nat -> eig_at eig (mean_outer (map (fun i => dat a [b; i]) (seq 0 n)))) ->
  dat (qmean_axis eig a 1) [1%nat] <> uneven /\ dat (qmean_axis eig a 1) [1%nat] <> hopp uneven.
Proof.
  intros eig n Hn a He'. pose proof (He' 0%nat ltac:(lia)) as He. clear He'.
  set (L := map (fun i => dat a (insert_at 1 i [0%nat])) (seq 0 n)).
  set (L1 := map (fun i => dat a (insert_at 1 i [1%nat])) (seq 0 n)).
  assert (G : dat (qmean_axis eig a 1) [1%nat] = let idx := rev (argsort4 (fst (eig (mean_outer L1)))) in let v := snd (eig (mean_outer L)) in
    Qt (v (nth 0 idx 0%nat) 0%nat) (v (nth 1 idx 0%nat) 0%nat) (v (nth 2 idx 0%nat) 0%nat) (v (nth 3 idx 0%nat) 0%nat)) by reflexivity.
  rewrite G. clear G. cbv zeta.
  assert (Hu : hunit (Qt 1 0 0 0)) by (vcomp; ring).
  assert (HL : L <> []). { unfold L. destruct n; [lia|discriminate]. }
  assert (FL : Forall (fun p => p = Qt 1 0 0 0) L). { apply Forall_forall. intros p Hp. apply in_map_iff in Hp as (x & <- & _). reflexivity. }
  pose proof He as HE. unfold eig_at in HE. change (map (fun i => dat a [0%nat; i]) (seq 0 n)) with L in HE.
  pose proof (argsort4_perm (fst (eig (mean_outer L1)))) as HP. pose proof (perm4_range _ HP) as Hr.
  set (idx := rev (argsort4 (fst (eig (mean_outer L1))))) in *.
  assert (HP' : Permutation idx [0;1;2;3]%nat) by (apply (perm_trans (Permutation_sym (Permutation_rev _)) HP)).
  assert (HN : NoDup idx) by (apply (Permutation_NoDup (Permutation_sym HP')); repeat constructor; simpl; intuition discriminate).
  pose proof (Permutation_length HP') as HLen. clear HP'.
  destruct (eig (mean_outer L)) as (l, v). cbn [fst snd].
  destruct idx as [|i0 [|i1 [|i2 [|i3 [|]]]]]; try discriminate HLen.
  pose proof (Hr 0%nat ltac:(lia)) as R0. pose proof (Hr 1%nat ltac:(lia)) as R1.
  pose proof (Hr 2%nat ltac:(lia)) as R2. pose proof (Hr 3%nat ltac:(lia)) as R3. cbn [nth] in *.
  assert (Z : exists z, (z < 4)%nat /\ v z 0%nat = 0).
  { destruct (HE 0%nat ltac:(lia)) as (E & N).
    destruct (outer_eig (Qt 1 0 0 0) (mean_outer L) (l 0%nat) (fun i => v i 0%nat)) as [(_ & O)|(_ & s & Hs & V)]; auto.
    { intros; apply mean_outer_copies; auto. }
    - exists 0%nat. split; [lia|]. unfold sum4 in O. cbn in O. lra.
    - exists 1%nat. split; [lia|]. rewrite V by lia. cbn. ring. }
  destruct Z as (z & Hz & Vz).
  assert (D : z = i0 \/ z = i1 \/ z = i2 \/ z = i3).
  { inversion HN as [|? ? N1 HN1]; subst. inversion HN1 as [|? ? N2 HN2]; subst. inversion HN2 as [|? ? N3 _]; subst.
      simpl in N1, N2, N3. lia. }
  split; intros E; unfold uneven, hopp in E; cbn in E; injection E as E1 E2 E3 E4;
    destruct D as [->|[->|[->| ->]]]; lra.
Qed.
(** What holds: without batch axes, and when the eigenvalues come in strictly
    descending order, the result is a unit eigenvector for the largest of them. *)
Theorem C28_partial : forall eig q,
  let A := mean_outer (map (dat q) (indices (shp q))) in
  eig_at eig A ->
  let l := fst (eig A) in
  l 3%nat < l 2%nat < l 1%nat -> l 1%nat < l 0%nat ->
  let m := dat (qmean_all eig q) [] in
  hunit m /\ (forall i, (i < 4)%nat -> sum4 (fun j => A i j * comp4 j m) = l 0%nat * comp4 i m) /\
  forall k, (k < 4)%nat -> l k <= l 0%nat.
Proof.
  intros eig q A HE l (H1 & H2) H3 m. unfold eig_at in HE.
  assert (S : rev (argsort4 l) = [0;1;2;3]%nat).
  { unfold argsort4. cbn [seq fold_right].
    repeat (cbn [ins_by]; rewrite ?(proj2 (Rlt_b_true (l 3%nat) (l 2%nat))), ?(proj2 (Rlt_b_true (l 3%nat) (l 1%nat))),
      ?(proj2 (Rlt_b_true (l 3%nat) (l 0%nat))), ?(proj2 (Rlt_b_true (l 2%nat) (l 1%nat))), ?(proj2 (Rlt_b_true (l 2%nat) (l 0%nat))),
      ?(proj2 (Rlt_b_true (l 1%nat) (l 0%nat))) by lra). reflexivity. }
  unfold m, qmean_all, qmean_core. cbn [dat map]. fold A. fold l. rewrite S. subst l. destruct (eig A) as (l, v). cbn [fst snd nth] in *.
  destruct (HE 0%nat ltac:(lia)) as (E & N). split; [|split].
  - unfold sum4 in N. unfold hunit, hn2, sc, ve, vdot. cbn. lra.
  - intros i Hi. specialize (E i Hi). unfold sum4 in *. cbn. destruct (lt4 i Hi) as [->|[->|[->| ->]]]; cbn; lra.
  - intros k Hk. destruct (lt4 k Hk) as [->|[->|[->| ->]]]; lra.
Qed.

Example C28_example_copies : forall n, (0 < n)%nat ->
  eig_at (fun _ => (fun _ => 1, fun i _ => comp4 i uneven))
    (mean_outer (map (dat (copies n uneven)) (indices (shp (copies n uneven))))).
Proof.
  intros n Hn k Hk. set (L := map _ _).
  assert (HL : L <> []). { unfold L, copies. cbn [shp]. rewrite indices1. destruct n; [lia|discriminate]. }
  assert (FL : Forall (fun p => p = uneven) L). { apply Forall_forall. intros p Hp. apply in_map_iff in Hp as (x & <- & _). reflexivity. }
  split.
  - intros i Hi. unfold sum4. rewrite !(mean_outer_copies L uneven) by auto. unfold uneven. cbn. destruct (lt4 i Hi) as [->|[->|[->| ->]]]; cbn; field.
  - unfold sum4, uneven. cbn. field.
Qed.
Example C28_example_partial :
  let q := Nd [4%nat] (fun ix => match ix with [0%nat] => Qt 4 0 0 0 | [1%nat] => Qt 0 3 0 0 | [2%nat] => Qt 0 0 2 0 | _ => Qt 0 0 0 1 end) in
  let A := mean_outer (map (dat q) (indices (shp q))) in
  let eig := fun A : m4 => (fun k => A k k, fun i k => if Nat.eqb i k then 1 else 0) in
  eig_at eig A /\ (fst (eig A) 3%nat < fst (eig A) 2%nat < fst (eig A) 1%nat) /\ fst (eig A) 1%nat < fst (eig A) 0%nat.
Proof.
  cbv zeta. split; [|unfold mean_outer; cbn; lra]. intros k Hk. split.
  - intros i Hi. destruct (lt4 i Hi) as [->|[->|[->| ->]]], (lt4 k Hk) as [->|[->|[->| ->]]]; unfold sum4, mean_outer; cbn; field.
  - destruct (lt4 k Hk) as [->|[->|[->| ->]]]; unfold sum4; cbn; ring.
Qed.
