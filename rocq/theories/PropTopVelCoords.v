(** Property C62: the coordinates of transformed velocities. *)
From Coq Require Import Reals String List Arith Bool ZArith Lia Lra.
From Verif Require Import Base Quat SpecQuat QuatProofs NdArray Frames SpecForest FrameProofs WalkProofs
  Matcher SpecLookup LookupProofs RegistryProofs MovingProofs TimeProofs CtorProofs InverseProofs RouteProofs
  Examples PropForest PropLookup PropMoving SpecConsist RelProofs PropConsist
  Transform SpecArray NdProofs RotProofs ArrProofs ArrTransProofs ArrStaticProofs PropTransform PropRotate
  UtilsProofs Velocity VelProofs SpecMotion MotionProofs PropAngular VelFrames VelFrameProofs PropVelFrames VelExamples
  Coord TopLevel TopProofs SpecTop TopStep SpecSeries SeriesProofs PropTop TopVel PropTopVel PropAxisMoving.
Import ListNotations.
Open Scope nat_scope.

(** d holds one velocity per time in the coordinate td, which holds n increasing numbers; d may have any other
    coordinates, along the time dimension or not. *)
Definition velocity_record (w : world) (d : darr) (td cn : string) (n : nat) (tsa : nd R) : Prop :=
  data_array w d /\ proper_coords d /\ da_dims d = [td; cn] /\ shp (da_data d) = [n; 3] /\ shp tsa = [n] /\ 2 <= n /\
  (forall a b, a < b < n -> (dat tsa [a] < dat tsa [b])%R) /\
  lookup td (da_coords d) = Some (Co [td] (CNum tsa)).

(* ---- the times of the result are times of the array ---- *)
Lemma match_first squad a o rest bs o' ts : match_arrays squad ((a, o) :: rest) = Ok (bs, o') -> o = Some ts ->
  exists f, o' = Some (filter f ts).
Proof.
  intros H ->. unfold match_arrays in H. apply bind_ok in H as (ms & Hm & H). apply bind_ok in H as (o2 & Ho & H). apply bind_ok in H as (b2 & _ & H).
  injection H as _ <-. cbn [map fst snd] in Hm. unfold traverse in Hm. cbn [map sequence fst snd] in Hm. apply bind_ok in Hm as (x & Hx & Hm). apply bind_ok in Hm as (xs & _ & Hm).
  injection Hm as <-. unfold add_array in Hx. apply bind_ok in Hx as (u & _ & Hx). injection Hx as <-.
  unfold get_timestamps in Ho. apply bind_ok in Ho as ((lo & hi) & _ & Ho). cbn [arr_list m_arrays map ma_ts somes app] in Ho. 
  injection Ho as <-. eexists. reflexivity.
Qed.
Lemma vectors_times squad s i arr to axis ta tsa out o j : transform_vectors squad s i arr to axis (Some ta) (Some tsa) = Ok (out, o) ->
  norm_axis ta (ndim arr) = Ok j -> exists f, o = Some (filter f (times tsa (nth j (shp arr) 0))).
Proof.
  intros H Hj. unfold transform_vectors in H. apply bind_ok in H as ((tr & b) & Hp & H). 
  assert (Hts : exists f, tr_ts tr = Some (filter f (times tsa (nth j (shp arr) 0)))).
  { unfold prepare in Hp. apply bind_ok in Hp as ((a & o2) & Hv & Hp). apply bind_ok in Hp as (q & _ & Hp). apply bind_ok in Hp as (fs & _ & Hp).
    apply bind_ok in Hp as (ma & Hma & Hp). apply bind_ok in Hp as (tr' & Htr & Hp). apply bind_ok in Hp as (b' & _ & Hp). injection Hp as <- <-.
    unfold validate_input in Hv. apply bind_ok in Hv as (k & _ & Hv). destruct (negb _); [discriminate|].
    destruct (shp tsa) as [|m [|? ?]]; try discriminate. apply bind_ok in Hv as (j' & Hj' & Hv).
    assert (j' = j) by congruence. subst j'. destruct (negb (nth j (shp arr) 0 =? m)) eqn:Em; [discriminate|].
    apply negb_false_iff, Nat.eqb_eq in Em. injection Hv as <- <-. unfold add_array in Hma. apply bind_ok in Hma as (? & _ & Hma). injection Hma as <-.
    unfold get_transformation in Htr. apply bind_ok in Htr as (o3 & Ho & Htr). rewrite Em.
    assert (Hf : exists f, o3 = Some (filter f (times tsa m))).
    { unfold get_timestamps in Ho. apply bind_ok in Ho as ((lo & hi) & _ & Ho). cbn [arr_list m_arrays map ma_ts somes app] in Ho.
      injection Ho as <-. eexists. reflexivity. }
    destruct Hf as (f & ->). exists f. unfold transformation_at in Htr. destruct (m_frames _).
    - injection Htr as <-. reflexivity.
    - apply bind_ok in Htr as (rows & _ & Htr). injection Htr as <-. reflexivity. }
  apply bind_ok in H as (c & _ & H). apply bind_ok in H as (e & _ & H). injection H as _ <-. exact Hts.
Qed.
Lemma call_times squad deriv m s i a into wh ax ta tsa out o j : call_velocity squad deriv m s i a into wh ax (Some ta) (Some tsa) = Ok (out, o) ->
  norm_axis ta (ndim a) = Ok j -> exists f, o = Some (filter f (times tsa (nth j (shp a) 0))).
Proof.
  intros H Hj.
  assert (FF : forall f g (l : list R), filter f (filter g l) = filter (fun x => g x && f x) l).
  { intros f g l. induction l as [|x l IH]; [reflexivity|]. cbn [filter]. destruct (g x); cbn [filter andb]; [destruct (f x); rewrite IH; reflexivity|exact IH]. }
  assert (MM : forall b o1 rest bs o2, transform_vectors squad s i a (PFrame into) ax (Some ta) (Some tsa) = Ok (b, o1) ->
     match_arrays squad ((b, o1) :: rest) = Ok (bs, o2) -> exists f, o2 = Some (filter f (times tsa (nth j (shp a) 0)))).
  { intros b o1 rest bs o2 Hv Hm. destruct (vectors_times _ _ _ _ _ _ _ _ _ _ _ Hv Hj) as (g & ->).
    destruct (match_first _ _ _ _ _ _ _ Hm eq_refl) as (f & ->). rewrite FF. eauto. }
  unfold call_velocity in H. destruct m as [|mf rf].
  - unfold transform_angular_velocity in H. destruct (what_arg wh).
    + apply bind_ok in H as (r & _ & H). apply bind_ok in H as ((g & gt) & _ & H). apply bind_ok in H as ((b & o1) & Hv & H). apply bind_ok in H as ((bs & o2) & Hm & H).
      destruct bs as [|x [|y [|? ?]]]; try discriminate. apply bind_ok in H as (? & _ & H). injection H as _ <-. eapply MM; eauto.
    + apply bind_ok in H as (j' & _ & H). apply bind_ok in H as (r & _ & H). apply bind_ok in H as ((g & gt) & _ & H). apply bind_ok in H as ((b & o1) & Hv & H). apply bind_ok in H as ((bs & o2) & Hm & H).
      destruct bs as [|x [|y [|? ?]]]; try discriminate. apply bind_ok in H as (? & _ & H). injection H as _ <-. eapply MM; eauto.
    + eapply vectors_times; eauto.
    + discriminate.
  - unfold transform_linear_velocity in H. destruct (what_arg wh).
    + apply bind_ok in H as (((li & an) & o') & _ & H). apply bind_ok in H as (tts & _ & H). apply bind_ok in H as (mf' & _ & H). apply bind_ok in H as (tr & _ & H).
      apply bind_ok in H as ((b & o1) & Hv & H). apply bind_ok in H as ((t & tt) & _ & H). apply bind_ok in H as ((bs & o2) & Hm & H).
      destruct bs as [|x [|y [|z [|u [|? ?]]]]]; try discriminate. apply bind_ok in H as (? & _ & H). apply bind_ok in H as (? & _ & H). apply bind_ok in H as (? & _ & H).
      injection H as _ <-. eapply MM; eauto.
    + apply bind_ok in H as (j' & Ej & H). apply bind_ok in H as (rl & _ & H). apply bind_ok in H as ((li & lt) & _ & H). apply bind_ok in H as (ra & _ & H). apply bind_ok in H as ((an & at') & _ & H). apply bind_ok in H as (tr & _ & H).
      apply bind_ok in H as ((b & o1) & Hv & H). apply bind_ok in H as ((t & tt) & _ & H). apply bind_ok in H as ((bs & o2) & Hm & H).
      destruct bs as [|x [|y [|z [|u [|? ?]]]]]; try discriminate. apply bind_ok in H as (? & _ & H). apply bind_ok in H as (? & _ & H). apply bind_ok in H as (? & _ & H).
      assert (j' = into) by (unfold resolve_rf in Ej; destruct (get s into); congruence). subst j'. injection H as _ <-. eapply MM; eauto.
    + eapply vectors_times; eauto.
    + discriminate.
Qed.

(** d' is the transformed array: the data are out, at the times l; every coordinate of d
    that does not run along time is unchanged, and every one that does (in any number of
    dimensions) has, at each time of l, the entries it has in d at that time. *)
Definition transformed_record (w w' : world) (d d' : darr) (td what : string) (n : nat) (tsa : nd R) (j : nat) (out : nd R) (l : list R) : Prop :=
  attrs_kept w w' /\ data_array w' d' /\ da_data d' = out /\ subseries d d' td tsa n l /\
  (exists t', lookup td (da_coords d') = Some (Co [td] (CNum t')) /\ shp t' = [List.length l] /\ times t' (List.length l) = l) /\
  attr w' d' what = Some (name_of (frames w) j) /\
  attr w' d' "representation_frame" = Some (name_of (frames w) j) /\
  (forall key, key <> what -> key <> "representation_frame"%string -> attr w' d' key = attr w d key).

Theorem C62_coordinates : forall squad deriv m w d td cn n tsa what wh v i into j dim ax ts out l,
  reachable (frames w) -> velocity_record w d td cn n tsa ->
  attr w d what = Some (Some v) -> lookup v (reg (frames w)) = Some i -> denotes (frames w) into j ->
  (wh = Some what \/ (wh = None /\ what = "reference_frame"%string)) ->
  ((dim = None /\ ax = (-1)%Z) \/ (dim = Some cn /\ ax = 1%Z)) -> (ts = TNone \/ ts = TName td) ->
  call_velocity squad deriv m (frames w) i (da_data d) j what ax (Some 0%Z) (Some tsa) = Ok (out, Some l) ->
  shp out = [List.length l; 3] ->
  exists w' d', transform_velocity squad deriv m w (Lab d) into None wh dim None ts None = (w', Ok (RLab d')) /\
    transformed_record w w' d d' td what n tsa j out l /\ exists f, l = filter f (times tsa n).
Proof.
  intros squad deriv m w d td cn n tsa what wh v i into j dim ax ts out l HR HV Hat Hv Hj Hwh Hdim Hts Hcall Hout.
  pose proof HV as (Hda & Hpc & Hd & Hs & Ht & Hn & Hinc & Hc). pose proof Hda as (D1 & D2 & D3 & D4).
  assert (Hne : cn <> td) by (rewrite Hd in D2; inversion D2 as [|? ? N1 N2]; subst; intros ->; apply N1; left; auto).
  unfold transform_velocity, maybe_unpack. destruct (alloc w (dict_at w (da_attrs d))) as [w1 loc] eqn:Hal.
  destruct (dict_alloc _ _ _ _ Hal) as (Hfr & El & Hlen & Hdd & Hold).
  assert (Eax : (match dim, @None Z with
     | Some _, Some _ => Raise ValueError
     | Some n, None => i <- index_of n (da_dims d) ;; Ok (Z.of_nat i)
     | None, _ => let a := or_default None (-1) in do_ tuple_at (da_dims d) a ;; Ok a
     end) = Ok ax).
  { rewrite Hd. destruct Hdim as [(-> & ->)|(-> & ->)]; [reflexivity|]. cbn.
    apply String.eqb_neq in Hne. rewrite Hne, String.eqb_refl. reflexivity. }
  cbv zeta in Eax |- *. rewrite Eax. cbn [bind].
  set (lab := Some (da_coords d, da_dims d, da_name d, loc)).
  assert (Eu : (match ts with
       | TName n =>
           i <- index_of n (da_dims d) ;;
           t <- match lookup n (da_coords d) with
                | Some c => stamps_of c
                | None => Ok (arange (nth i (shp (da_data d)) O))
                end ;;
           Ok (Un (da_data d) ax (Some (Z.of_nat i)) (Some n) (Some t) lab)
       | TNone =>
           if Nat.ltb 1 (ndim (da_data d)) then
             let ta := or_default None 0 in
             n <- tuple_at (da_dims d) ta ;;
             c <- match lookup n (da_coords d) with Some c => Ok c | None => Raise KeyError end ;;
             t <- stamps_of c ;;
             Ok (Un (da_data d) ax (Some ta) (Some n) (Some t) lab)
           else Ok (Un (da_data d) ax None None None lab)
       | TFalse => Ok (Un (da_data d) ax None None None lab)
       | TArr _ => Raise NotImplementedError
       end) = Ok (Un (da_data d) ax (Some 0%Z) (Some td) (Some tsa) lab)).
  { rewrite Hd. unfold ndim. rewrite Hs. destruct Hts as [->| ->].
    - cbn [List.length Nat.ltb Nat.leb or_default]. unfold tuple_at. cbn. rewrite Hc. reflexivity.
    - cbn. rewrite String.eqb_refl. cbn. rewrite Hc. reflexivity. }
  cbv zeta in Eu. rewrite Eu. cbn [bind]. unfold same_axis_check. cbn [u_ts u_time_axis u_arr u_axis]. unfold ndim. rewrite Hs.
  cbn [List.length Nat.eqb]. replace (ax mod Z.of_nat 2 =? 0 mod Z.of_nat 2)%Z with false by (destruct Hdim as [(_ & ->)|(_ & ->)]; reflexivity).
  cbn [u_lab u_arr u_axis u_time_axis u_ts u_time_dim]. subst lab. cbn [u_lab].
  assert (Ewh : match wh with Some n => n | None => "reference_frame"%string end = what) by (destruct Hwh as [->|(-> & ->)]; auto).
  rewrite Ewh, Hfr, Hdd. unfold attr in Hat. rewrite Hat. cbn [as_pref resolve_rf]. rewrite Hv. cbn [bind].
  rewrite (denotes_resolve _ _ _ Hj). cbn [bind]. rewrite Hcall.
  set (nm := name_of (frames w) j). set (f := fun a => dict_set "representation_frame" nm (dict_set what nm a)).
  assert (Hloc : loc < List.length (dicts (write w1 loc f))) by (rewrite length_write; lia).
  assert (Hfl : exists f, l = filter f (times tsa n)).
  { assert (Hj0 : norm_axis 0 (ndim (da_data d)) = Ok 0) by (unfold ndim; rewrite Hs; reflexivity).
    destruct (call_times _ _ _ _ _ _ _ _ _ _ _ _ _ _ Hcall Hj0) as (g & E). rewrite Hs in E. cbn [nth] in E. injection E as ->. eauto. }
  assert (Hin : forall x, In x l -> In x (times tsa n)).
  { destruct Hfl as (g & ->). intros x Hx. apply filter_In in Hx. tauto. }
  assert (Hinc' : increasing (times tsa n)) by (apply PropAxisMoving.stamps_increasing; auto).
  destruct (make_series w d td tsa n 0 [3] l Hda Hpc ltac:(rewrite Hd; reflexivity) Hs ltac:(cbn; lia) Ht Hn Hinc' Hin Hc (write w1 loc f) out loc Hout)
    as (w3 & l3 & coords' & E & A & Hsub & Hpc' & Hfit & Htime).
  change (fun a : attrs => dict_set "representation_frame" nm (dict_set what nm a)) with f. rewrite E. cbn [bind].
  set (d' := DA out (da_dims d) coords' (da_name d) l3) in *. exists w3, d'. split; [reflexivity|]. split; [|exact Hfl].
  destruct (dict_alloc _ _ _ _ A) as (Hfr3 & El3 & Hlen3 & Hd3 & Hold3). rewrite length_write in *.
  assert (Edict : dict_at w3 (da_attrs d') = f (dict_at w (da_attrs d))).
  { change (da_attrs d') with l3. rewrite Hd3, dict_write, Nat.eqb_refl. replace (loc <? List.length (dicts w1)) with true by (symmetry; apply Nat.ltb_lt; lia). rewrite Hdd. reflexivity. }
  split. { split; [exact (eq_trans Hfr3 Hfr)|]. split; [lia|]. intros k Hk. rewrite Hold3 by lia. rewrite dict_write.
    replace (loc =? k) with false by (symmetry; apply Nat.eqb_neq; lia). apply Hold. auto. }
  split. { split; [cbn; unfold ndim; rewrite Hout, Hd; reflexivity|]. split; [exact D2|]. split; [exact Hfit|]. cbn. lia. }
  split; [reflexivity|]. split; [exact Hsub|]. split; [exact Htime|]. unfold attr. rewrite Edict. unfold f.
  split; [|split].
  - destruct (String.eqb_spec what "representation_frame") as [->|Hw]; [apply lookup_set_same|]. rewrite lookup_set_other by auto. apply lookup_set_same.
  - apply lookup_set_same.
  - intros key K1 K2. rewrite !lookup_set_other by auto. reflexivity.
Qed.

(** The hypotheses are met: a series with a label for every sample (a coordinate of
    strings along time) besides its times. *)
Definition noted_da : darr :=
  DA (arr2 3 [[0;0;1];[0;0;1]]%R) ["time"%string; "cartesian_axis"%string]
     [("time"%string, Co ["time"%string] (CNum (stamps_nd half_turn))); cart_coord;
      ("note"%string, Co ["time"%string] (CStr ["start"; "end"]%string))] None 0.
Lemma noted_record : velocity_record spin_world noted_da "time" "cartesian_axis" 2 (stamps_nd half_turn).
Proof.
  split.
  { split; [reflexivity|]. split; [constructor; [intros [H|[]]; discriminate|constructor; [intros []|constructor]]|]. split; [|cbn; lia].
    intros n c [H|[H|[H|[]]]]; injection H as <- <-; (constructor; [|constructor]); [exists 0|exists 1|exists 0]; split; reflexivity. }
  split.
  { split.
    - constructor; [intros [H|[H|[]]]; discriminate|]. constructor; [intros [H|[]]; discriminate|]. constructor; [intros []|constructor].
    - intros n c [H|[H|[H|[]]]]; injection H as <- <-; (constructor; [intros []|constructor]). }
  split; [reflexivity|]. split; [reflexivity|]. split; [reflexivity|]. split; [lia|]. split; [|reflexivity].
  intros a b H. assert (a = 0 /\ b = 1) as (-> & ->) by lia. cbn. pose proof PI_RGT_0. lra.
Qed.
Example C62_coordinates_example : exists w' d' out l f,
  transform_velocity hold_squad deriv_ex MAngular spin_world (Lab noted_da) (PName "world") None (Some "reference_frame"%string) None None TNone None =
    (w', Ok (RLab d')) /\
  transformed_record spin_world w' noted_da d' "time" "reference_frame" 2 (stamps_nd half_turn) 0 out l /\ l = filter f half_turn.
Proof.
  destruct C35_example as (out & l & E & HS & K & V).
  destruct (C62_coordinates hold_squad deriv_ex MAngular spin_world noted_da "time" "cartesian_axis" 2 (stamps_nd half_turn) "reference_frame" (Some "reference_frame"%string)
    "s" 1 (PName "world") 0 None (-1) TNone out l (spin_reachable PI) noted_record eq_refl eq_refl) as (w' & d' & E' & T & f & F); auto.
  { right. exists "world"%string. auto. }
  exists w', d', out, l, f. split; auto.
Qed.
