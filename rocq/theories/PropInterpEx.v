(** Property C86: concrete recordings. *)
From Coq Require Import Reals List Arith Bool ZArith Lia Lra.
From Coquelicot Require Import Coquelicot.
From Verif Require Import Base Quat SpecQuat QuatProofs NdArray Frames Matcher SpecForest SpecLookup FrameProofs LookupProofs MovingProofs TimeProofs InverseProofs RouteProofs RegistryProofs
  Examples PropForest PropLookup PropMoving PropAngular VelExamples Transform SpecArray PropTransform Coord RotVec PropRotVec Squad SquadProofs SpecMotion MotionProofs
  LookVelProofs PropSquad PropSquadEx PropConverge QuatDist SquadError PropInterp PropInterpDir.
Import ListNotations.
Open Scope R_scope.

(** Swings about the z axis by the angle sin t while moving to and fro: neither the speed
    nor the angular velocity is constant. *)
Definition swing_o (k : nat) (t : R) : vec3 := match k with 0 => V3 (sin t) 0 0 | 1 => V3 (cos t) 0 0 | _ => V3 (- sin t) 0 0 end%nat.
Definition swing_q (k : nat) (t : R) : quat :=
  match k with
  | 0 => Qt (cos (sin t / 2)) 0 0 (sin (sin t / 2))
  | 1 => Qt (- sin (sin t / 2) * (cos t / 2)) 0 0 (cos (sin t / 2) * (cos t / 2))
  | _ => Qt (- cos (sin t / 2) * (cos t / 2) * (cos t / 2) + sin (sin t / 2) * (sin t / 2)) 0 0
            (- sin (sin t / 2) * (cos t / 2) * (cos t / 2) - cos (sin t / 2) * (sin t / 2))
  end%nat.
Definition swing (t : R) : vec3 * quat := (swing_o 0 t, swing_q 0 t).
Ltac dlim := apply is_derive_Reals; auto_derive; [trivial|unfold Rdiv; try ring; try field].
Lemma len_le q b : 0 <= b -> qnorm2 q <= b * b -> qlen q <= b.
Proof. intros Pb Hq. unfold qlen. rewrite <- (sqrt_square b Pb). apply sqrt_le_1_alt, Hq. Qed.
Lemma vlen_le v b : 0 <= b -> vdot v v <= b * b -> vnorm v <= b.
Proof. intros Pb Hq. unfold vnorm, vnorm2. rewrite <- (sqrt_square b Pb). apply sqrt_le_1_alt, Hq. Qed.
Lemma swing_smooth : smooth swing 1 (1 / 2) 1.
Proof.
  exists swing_o, swing_q. split; [|split; [|split; [intros t; reflexivity|split; [|split; [|split; [|]]]]]].
  - intros [|[|k]] t Hk; [| |lia]; (split; [|split]); cbn [vx vy vz swing_o]; try apply derivable_pt_lim_const; dlim.
  - intros [|[|k]] t Hk; [| |lia]; (split; [|split; [|split]]); cbn [qw qx qy qz swing_q]; try apply derivable_pt_lim_const; dlim.
  - intros t. unfold hunit, hn2. cbn [swing_q]. pose proof (sin2_cos2 (sin t / 2)) as E. unfold Rsqr in E. unfold vdot. cbn. lra.
  - intros t. apply vlen_le; [lra|]. cbn [swing_o]. unfold vdot. cbn [vx vy vz]. pose proof (SIN_bound t). nra.
  - intros t. apply len_le; [lra|]. cbn [swing_q]. unfold qnorm2. cbn [qw qx qy qz]. pose proof (sin2_cos2 (sin t / 2)) as E. unfold Rsqr in E. pose proof (COS_bound t).
    set (c := cos (sin t / 2)) in *. set (z := sin (sin t / 2)) in *. set (y := cos t) in *.
    replace (- z * (y / 2) * (- z * (y / 2)) + 0 * 0 + 0 * 0 + c * (y / 2) * (c * (y / 2))) with ((z * z + c * c) * (y * y) / 4) by field. rewrite E. nra.
  - intros t. apply len_le; [lra|]. cbn [swing_q]. unfold qnorm2. cbn [qw qx qy qz]. pose proof (sin2_cos2 (sin t / 2)) as E. unfold Rsqr in E. pose proof (COS_bound t). pose proof (SIN_bound t).
    set (c := cos (sin t / 2)) in *. set (z := sin (sin t / 2)) in *. set (y := cos t) in *. set (x := sin t) in *.
    match goal with |- ?l <= _ => replace l with ((z * z + c * c) * (y * y * (y * y) / 16 + x * x / 4)) by field end. rewrite E.
    assert (y * y <= 1) by nra. assert (x * x <= 1) by nra. assert (y * y * (y * y) <= 1) by nra. lra.
Qed.
Definition tenths : list R := [0; 1 / 10; 2 / 10; 3 / 10].
Lemma tenths_sampled : sampled tenths (1 / 10).
Proof.
  split; [apply inc_strictly; cbn [strictly tenths]; rewrite !andb_true_r; repeat (apply andb_true_intro; split); apply Rlt_b_true; lra|].
  split; [cbn; lia|]. intros i Hi. cbn [length tenths] in Hi. destruct i as [|[|[|i]]]; [| | |lia]; cbn [nth tenths]; lra.
Qed.
(** Sampled ten times a second it is known within 1.3 mm and 0.1 at every time. *)
Example C86_example_frame : exists t r,
  rows_from_frame np_squad (TMoving tenths (map (fun t => fst (swing t)) tenths) (map (fun t => snd (swing t)) tenths) false) [3 / 20] = Ok [(t, r)] /\
  vnorm (vsub t (fst (swing (3 / 20)))) <= 1 / 800 /\ qdist r (snd (swing (3 / 20))) <= 1 / 10.
Proof.
  destruct (C86_frame swing tenths 1 (1 / 2) 1 (1 / 10) [3 / 20] tenths_sampled swing_smooth) as (rows & E & Ln & Row).
  { intros x [ <- |[]]. apply andb_true_intro. split; apply Rle_b_true; cbn; lra. }
  destruct rows as [|(t & r) [|? ?]]; try discriminate. exists t, r. split; [exact E|]. destruct (Row 0%nat (3 / 20) t r eq_refl eq_refl) as (_ & E1 & E2).
  split; lra.
Qed.
(** A tree: the hypotheses of the lookup are met. *)
Lemma spin_smooth : smooth spin_motion 0 (1 / 2) (1 / 4).
Proof.
  exists (fun k t => match k with 0 => V3 t 0 0 | 1 => V3 1 0 0 | _ => V3 0 0 0 end%nat),
    (fun k t => match k with 0 => about_axis (V3 0 0 1) t | 1 => Qt (- sin (t / 2) / 2) 0 0 (cos (t / 2) / 2) | _ => Qt (- cos (t / 2) / 4) 0 0 (- sin (t / 2) / 4) end%nat).
  split; [|split; [|split; [intros t; reflexivity|split; [|split; [|split; [|]]]]]].
  - intros [|[|k]] t Hk; [| |lia]; (split; [|split]); cbn [vx vy vz]; try apply derivable_pt_lim_const. apply derivable_pt_lim_id.
  - intros [|[|k]] t Hk; [| |lia]; (split; [|split; [|split]]); cbn [qw qx qy qz about_axis mkq vscale vx vy vz]; try apply derivable_pt_lim_const; dlim.
  - intros t. apply about_unit. unfold vdot. cbn. ring.
  - intros t. apply vlen_le; [lra|]. unfold vdot. cbn [vx vy vz]. lra.
  - intros t. apply len_le; [lra|]. unfold qnorm2. cbn [qw qx qy qz]. pose proof (sin2_cos2 (t / 2)) as E. unfold Rsqr in E. lra.
  - intros t. apply len_le; [lra|]. unfold qnorm2. cbn [qw qx qy qz]. pose proof (sin2_cos2 (t / 2)) as E. unfold Rsqr in E. lra.
Qed.
Example C86_example : exists ts rows,
  lookup_transform np_squad spin 1 (PFrame 0) = Ok (TrRows ts rows) /\
  all_tracked (fun i => if Nat.eqb i 1 then spin_motion else spin_fixed) spin 1 0 ts 4 0 (1 / 2) (1 / 4) PI /\
  forall k x t r, nth_error ts k = Some x -> nth_error rows k = Some (t, r) ->
    exists c n n', above (parent_of spin) 1 n c /\ above (parent_of spin) 0 n' c /\
    forall p, nearly (fun i => if Nat.eqb i 1 then spin_motion else spin_fixed) spin x 1 0 c n n' p (smove t r p) 4 0 (1 / 2) (1 / 4) PI.
Proof.
  assert (L : lookup_transform np_squad spin 1 (PFrame 0) = Ok (TrRows [0; PI] (combine [V3 0 0 0; V3 PI 0 0] [Qt 1 0 0 0; Qt 0 0 0 1]))).
  { apply (lookup_parent_moving np_squad spin 0 1 [0; PI] _ _ false); try reflexivity.
    - apply reachable_Inv, spin_reachable.
    - cbn; lia.
    - apply C79_contract.
    - split; [apply spin_recorded|]. cbn; lia.
    - apply spin_units. }
  assert (T : all_tracked (fun i => if Nat.eqb i 1 then spin_motion else spin_fixed) spin 1 0 [0; PI] 4 0 (1 / 2) (1 / 4) PI).
  { pose proof PI_4 as P4. pose proof PI_RGT_0 as P0.
    intros k d _ Hd. destruct k as [|[|[|k]]]; [discriminate| | |destruct k; discriminate].
    - cbv in Hd. injection Hd as <-. cbn [Nat.eqb]. destruct spin_rows as (E1 & E2). split.
      + split; [reflexivity|]. split; [|split; [exact spin_smooth|split; symmetry; assumption]]. split; [apply spin_recorded|]. split; [cbn; lia|]. change (spaced_by [0; PI] PI). intros [|i] Hi; [cbn [nth]; lra|cbn in Hi; lia].
      + intros x [ <- |[ <- |[]]]; apply vlen_le; try lra; unfold vdot; cbn; nra.
    - cbv in Hd. injection Hd as <-. cbn [Nat.eqb]. split; [split; [cbv [hunit hn2 sc ve vdot Base.vx Base.vy Base.vz qw qx qy qz qvec q1]; ring|reflexivity]|].
      intros x _. apply vlen_le; [lra|]. unfold vdot. cbn. lra. }
  do 2 eexists. split; [exact L|]. split; [exact T|].
  apply (C86_lookup (fun i => if Nat.eqb i 1 then spin_motion else spin_fixed) spin 1 (PFrame 0) 0 _ _ 4 0 (1 / 2) (1 / 4) PI (spin_reachable PI) (spin_frame 1 ltac:(lia)) (spin_den 0 ltac:(lia))); try lra; [exact T|exact L].
Qed.
Example C86_example_turn : exists ts rows,
  lookup_transform np_squad spin 1 (PFrame 0) = Ok (TrRows ts rows) /\ ts <> [] /\
  all_recorded (fun i => if Nat.eqb i 1 then spin_motion else spin_fixed) spin 1 0 0 (1 / 2) (1 / 4) PI.
Proof.
  destruct C86_example as (ts & rows & E & T & _). exists ts, rows. split; [exact E|]. split.
  - intros ->. destruct C79_example as (ts' & rows' & E' & -> & _). rewrite E in E'. discriminate.
  - intros k d Ak Hd. apply (T k d Ak Hd).
Qed.
