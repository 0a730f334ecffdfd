(** Labelled time series through moving frames: the call, the labels, the coordinates. *)
From Coq Require Import Reals String List Arith Bool ZArith Lia Lra.
From Verif Require Import Base Quat SpecQuat QuatProofs NdArray Frames SpecForest FrameProofs WalkProofs
  Matcher SpecLookup LookupProofs RegistryProofs MovingProofs TimeProofs CtorProofs InverseProofs RouteProofs
  Examples PropForest PropLookup PropMoving SpecConsist RelProofs
  Transform SpecArray NdProofs RotProofs ArrProofs ArrTransProofs ArrStaticProofs PropTransform PropRotate
  Coord Velocity TopLevel TopProofs SpecTop TopStep SpecSeries.
Import ListNotations.
Open Scope nat_scope.
Open Scope list_scope.

(* ---- coordinates at the kept samples ---- *)
Lemma nearest_zero x best v ts vs : (best <= 0)%R -> nearest_at x best v ts vs = v.
Proof.
  revert best v vs. induction ts as [|t ts IH]; intros best v [|u vs] H; auto. cbn [nearest_at].
  rewrite (proj2 (Rlt_b_false _ _)); [apply IH; auto|]. pose proof (Rabs_pos (t - x)). lra.
Qed.
Lemma nearest_hit x best v ts vs m u : (0 < best)%R -> nth_error ts m = Some x -> nth_error vs m = Some u ->
  (forall m' y, m' < m -> nth_error ts m' = Some y -> y <> x) -> nearest_at x best v ts vs = u.
Proof.
  revert best v vs m. induction ts as [|t ts IH]; intros best v vs m Hb Ht Hv Hn; [destruct m; discriminate|].
  destruct vs as [|u0 vs]; [destruct m; discriminate|]. cbn [nearest_at]. destruct m as [|m]; cbn in Ht, Hv.
  - injection Ht as ->. injection Hv as ->. replace (x - x)%R with 0%R by ring. rewrite Rabs_R0.
    rewrite (proj2 (Rlt_b_true _ _)) by auto. apply nearest_zero. lra.
  - assert (Hne : t <> x) by (apply (Hn 0); [lia|reflexivity]).
    assert (Hp : (0 < Rabs (t - x))%R) by (apply Rabs_pos_lt; lra).
    destruct (Rlt_b _ _); apply (IH _ _ _ m); auto; intros m' y Hm Hy; apply (Hn (S m')); auto; lia.
Qed.
Lemma sel_samples ts vs l n : increasing ts -> List.length ts = n -> List.length vs = n -> 0 < n ->
  exists v, sel_nearest ts vs l = Ok v /\ List.length v = List.length l /\
    forall k m x, nth_error l k = Some x -> nth_error ts m = Some x -> nth_error v k = nth_error vs m.
Proof.
  intros Hi Ht Hv Hn. destruct ts as [|t ts]; [simpl in Ht; lia|]. destruct vs as [|u vs]; [simpl in Hv; lia|]. cbn [sel_nearest].
  eexists. split; [reflexivity|]. split; [apply map_length|]. intros k m x Hk Hm. rewrite nth_error_map, Hk. cbn [option_map].
  destruct m as [|m]; cbn in Hm.
  - injection Hm as ->. cbn [nth_error]. f_equal. replace (x - x)%R with 0%R by ring. rewrite Rabs_R0. apply nearest_zero. lra.
  - cbn [nth_error]. destruct (nth_error vs m) as [w|] eqn:E.
    + f_equal. assert (Lt : forall q y, nth_error (t :: ts) q = Some y -> q < S m -> (y < x)%R).
      { intros q y Hq Hlt. apply (Hi q (S m) y x); auto. }
      apply (nearest_hit x _ _ ts vs m w); auto.
      * apply Rabs_pos_lt. pose proof (Lt 0 t eq_refl ltac:(lia)). lra.
      * intros m' y Hm' Hy. pose proof (Lt (S m') y Hy ltac:(lia)). lra.
    + exfalso. apply nth_error_None in E. pose proof (nth_lt _ _ _ Hm). simpl in Ht, Hv. lia.
Qed.
Lemma interp_samples ts (a : nd R) p n sh l : increasing ts -> 2 <= List.length ts -> List.length ts = n -> shp a = insert_at p n sh -> p <= List.length sh ->
  (forall x, In x l -> In x ts) ->
  exists b, interp_coord ts a p l = Ok b /\ shp b = insert_at p (List.length l) sh /\
    forall k x m pre, nth_error l k = Some x -> nth_error ts m = Some x -> List.length pre = List.length sh ->
      dat b (insert_at p k pre) = dat a (insert_at p m pre).
Proof.
  intros Hi H2 Hl Hs Hp Hin. unfold interp_coord.
  assert (S0 : shp (swap_nd 0 p a) = n :: mv p sh) by (cbn [swap_nd shp]; rewrite Hs, swapl_insert0; auto).
  destruct (interp_nd_samples ts (swap_nd 0 p a) l n (mv p sh) Hi H2 S0 Hl Hin) as (b & -> & Sb & Db).
  eexists. split; [reflexivity|]. cbn [swap_nd shp dat]. split; [rewrite Sb, swapl_mv; auto|].
  intros k x m pre Hk Hm Lp. rewrite (swapl_insert0 p k pre) by lia. rewrite (Db k x m Hk Hm). cbn [swap_nd dat]. rewrite swapl_mv by lia. reflexivity.
Qed.
Lemma f2_nth {A B} (P : A -> B -> Prop) l l' : Forall2 P l l' <->
  List.length l = List.length l' /\ forall k a b, nth_error l k = Some a -> nth_error l' k = Some b -> P a b.
Proof.
  split.
  - intros H. induction H as [|x y l l' Hx H IH]; [split; auto; intros [|k]; discriminate|]. destruct IH as (E & IH). split; [simpl; auto|].
    intros [|k] a b; cbn; [intros X Y; injection X as <-; injection Y as <-; auto|apply IH].
  - revert l'. induction l as [|x l IH]; intros [|y l'] (E & H); try discriminate; constructor.
    + apply (H 0); reflexivity.
    + apply IH. split; [simpl in E; lia|]. intros k a b Ha Hb. apply (H (S k)); auto.
Qed.
Lemma ins_same k x l : k <= List.length l -> nth_error (insert_at k x l) k = Some x.
Proof. revert l. induction k as [|k IH]; intros [|y l] H; cbn in *; auto; try lia. apply IH. lia. Qed.
Lemma ins_other k x y l q : q <> k -> k <= List.length l -> nth_error (insert_at k x l) q = nth_error (insert_at k y l) q.
Proof. revert l q. induction k as [|k IH]; intros [|z l] [|q] Hq H; cbn in *; auto; try lia. apply IH; lia. Qed.
Lemma index_none n l : ~ In n l -> existsb (String.eqb n) l = false.
Proof.
  intros H. destruct (existsb (String.eqb n) l) eqn:E; auto. apply existsb_exists in E as (m & Hm & Em). apply String.eqb_eq in Em. subst. contradiction.
Qed.
Lemma index_some n l : In n l -> existsb (String.eqb n) l = true.
Proof. intros H. apply existsb_exists. exists n. split; auto. apply String.eqb_refl. Qed.

Section Coords.
Variables (w : world) (d : darr) (td : string) (tsa : nd R) (n tau : nat) (sh : list nat) (l : list R).
Hypothesis Hda : data_array w d.
Hypothesis Hpc : proper_coords d.
Hypothesis Htd : nth_error (da_dims d) tau = Some td.
Hypothesis Hsh : shp (da_data d) = insert_at tau n sh.
Hypothesis Htau : tau <= List.length sh.
Hypothesis Hts : shp tsa = [n].
Hypothesis Hn : 2 <= n.
Hypothesis Hinc : increasing (times tsa n).
Hypothesis Hin : forall x, In x l -> In x (times tsa n).
Hypothesis Hc : lookup td (da_coords d) = Some (Co [td] (CNum tsa)).
Variable d' : darr.
Hypothesis Hdims : da_dims d' = da_dims d.
Hypothesis Hsh' : shp (da_data d') = insert_at tau (List.length l) sh.

Lemma other_size dn x : dn <> td -> dim_size d dn x -> dim_size d' dn x.
Proof.
  intros Hne (k & K1 & K2). exists k. rewrite Hdims, Hsh'. split; auto. rewrite Hsh in K2. rewrite <- K2. apply ins_other; auto.
  intros ->. congruence.
Qed.
Lemma td_size x : dim_size d td x -> x = n.
Proof.
  intros (k & K1 & K2). pose proof Hda as (_ & D2 & _). rewrite NoDup_nth_error in D2.
  assert (k = tau) by (apply D2; [apply (nth_lt _ _ _ K1)|congruence]). subst k. rewrite Hsh, ins_same in K2 by auto. congruence.
Qed.
Lemma td_size' : dim_size d' td (List.length l).
Proof. exists tau. rewrite Hdims, Hsh'. split; auto. apply ins_same; auto. Qed.

Lemma coord_resampled nm c : In (nm, c) (da_coords d) -> nm <> td ->
  exists c', resample_coord td (times tsa n) l (nm, c) = Ok (nm, c') /\
    (~ In td (co_dims c) -> c' = c) /\
    (forall k m, In td (co_dims c) -> m < n -> nth_error l k = Some (dat tsa [m]) -> coord_at td c c' k m) /\
    Forall2 (dim_size d') (co_dims c') (coord_size c').
Proof.
  intros Hi Hne. pose proof Hda as (D1 & D2 & D3 & D4). pose proof (D3 _ _ Hi) as Hf. pose proof (proj2 Hpc _ _ Hi) as Hnd.
  unfold resample_coord. replace (String.eqb nm td) with false by (symmetry; apply String.eqb_neq; auto). cbn [negb]. rewrite andb_true_r.
  destruct (in_dec string_dec td (co_dims c)) as [X|X].
  2:{ rewrite (index_none _ _ X). exists c. split; auto. split; auto. split; [intros; contradiction|].
      apply f2_nth in Hf as (E & Hf). apply f2_nth. split; auto. intros k a b Ha Hb. apply other_size; [|eapply Hf; eauto].
      intros ->. apply X. eapply nth_error_In; eauto. }
  rewrite (index_some _ _ X). apply In_nth_error in X as (p & Hp). rewrite (index_of_nth _ _ p Hnd Hp). cbn [bind].
  assert (Un : forall q, nth_error (co_dims c) q = Some td -> q = p).
  { intros q Hq. rewrite NoDup_nth_error in Hnd. apply Hnd; [apply (nth_lt _ _ _ Hq)|congruence]. }
  unfold coord_size in Hf |- *. destruct (co_vals c) as [a|vs] eqn:Ev.
  - apply f2_nth in Hf as (El & Hf). pose proof (nth_lt _ _ _ Hp) as Lp.
    assert (En : nth p (shp a) 0 = n).
    { destruct (nth_error (shp a) p) as [x|] eqn:E; [|apply nth_error_None in E; lia]. rewrite (nth_error_nth _ _ _ E). apply td_size. eapply Hf; eauto. }
    set (sc := remove_at p (shp a)). assert (Lsc : List.length sc = List.length (shp a) - 1) by (apply length_remove; lia).
    assert (Es : shp a = insert_at p n sc) by (unfold sc; rewrite <- En; symmetry; apply insert_remove; lia).
    destruct (interp_samples (times tsa n) a p n sc l Hinc) as (b & -> & Sb & Db); auto; try (rewrite length_times; auto); [lia|].
    cbn [bind]. eexists. split; [reflexivity|]. split; [intros Y; exfalso; apply Y; eapply nth_error_In; eauto|]. split.
    + intros k m _ Hm Hk. split; [reflexivity|]. rewrite Ev. cbn [co_vals]. intros q n' sh0 pre Hq Hs Hlq Hv. pose proof (valid_length _ _ Hv) as Lv.
      pose proof (Un q Hq). subst q. rewrite !put_insert by lia. apply (Db k (dat tsa [m]) m); auto; [apply nth_times; auto|].
      rewrite put_insert in Hs by auto. rewrite Es in Hs. apply (f_equal (@List.length nat)) in Hs. rewrite !length_insert in Hs by lia. lia.
    + cbn [co_dims co_vals]. apply f2_nth. rewrite Sb. split; [rewrite length_insert by lia; lia|]. intros k x y Hx Hy.
      destruct (Nat.eq_dec k p) as [->|Hkp].
      * rewrite ins_same in Hy by lia. assert (x = td) by congruence. injection Hy as <-. subst x. apply td_size'.
      * apply other_size; [intros ->; apply Hkp, Un; auto|]. apply (Hf k); auto. rewrite Es. rewrite <- Hy. apply ins_other; [auto|lia].
  - destruct (co_dims c) as [|x [|x2 r]] eqn:Ed; [destruct p; discriminate| |inversion Hf as [|? ? ? ? _ Hf2]; inversion Hf2].
    destruct p as [|p]; [|destruct p; discriminate]. cbn in Hp. injection Hp as ->.
    inversion Hf as [|? ? ? ? Hs _]; subst. pose proof (td_size _ Hs) as Lv.
    destruct (sel_samples (times tsa n) vs l n Hinc (length_times _ _) Lv ltac:(lia)) as (v & -> & Lvv & Dv). cbn [bind].
    eexists. split; [reflexivity|]. split; [intros Y; exfalso; apply Y; left; auto|]. split.
    + intros k m _ Hm Hk. split; [auto|]. rewrite Ev. cbn [co_vals]. apply (Dv k m (dat tsa [m])); auto. apply nth_times; auto.
    + cbn [co_vals co_dims]. constructor; [rewrite Lvv; apply td_size'|constructor].
Qed.

End Coords.
Lemma same_list_eq a b : same_list a b = true -> a = b.
Proof.
  revert b. induction a as [|x a IH]; intros [|y b] H; try discriminate; auto. cbn in H. apply andb_true_iff in H as (H1 & H2).
  apply Req_b_true in H1. subst. f_equal. auto.
Qed.
Lemma traverse_f2 {A B} (f : A -> res B) cs : (forall x, In x cs -> exists y, f x = Ok y) ->
  exists cs', traverse f cs = Ok cs' /\ Forall2 (fun x y => f x = Ok y) cs cs'.
Proof.
  unfold traverse. induction cs as [|x cs IH]; intros H; [exists []; split; [reflexivity|constructor]|].
  destruct (H x) as (y & Ey); [left; auto|]. destruct IH as (cs' & E & F); [intros z Hz; apply H; right; auto|].
  exists (y :: cs'). cbn [map sequence]. rewrite Ey. cbn [bind]. rewrite E. split; [reflexivity|]. constructor; auto.
Qed.
Lemma f2_names {A} (P : string * A -> string * A -> Prop) cs cs' : (forall x y, P x y -> fst y = fst x) -> Forall2 P cs cs' ->
  map fst cs' = map fst cs.
Proof. intros Hp H. induction H; auto. cbn. f_equal; auto. Qed.
Lemma f2_lookup {A} (P : string * A -> string * A -> Prop) cs cs' nm c : (forall x y, P x y -> fst y = fst x) -> Forall2 P cs cs' ->
  lookup nm cs = Some c -> exists c', lookup nm cs' = Some c' /\ P (nm, c) (nm, c').
Proof.
  intros Hp H. induction H as [|[a u] [b v] cs cs' Hx H IH]; [discriminate|]. intros L. pose proof (Hp _ _ Hx) as E. cbn in E. subst b.
  cbn in L |- *. destruct (String.eqb_spec nm a) as [->|_]; [|apply IH; auto]. injection L as ->. exists v. auto.
Qed.
Lemma resample_fst td ts l x y : resample_coord td ts l x = Ok y -> fst y = fst x /\ co_dims (snd y) = co_dims (snd x).
Proof.
  destruct x as [nm c]. unfold resample_coord. destruct (existsb _ _ && _); [|intros H; injection H as <-; auto].
  intros H. apply bind_ok in H as (k & _ & H). destruct (co_vals c); apply bind_ok in H as (? & _ & H); injection H as <-; auto.
Qed.

Section Make.
Variables (w : world) (d : darr) (td : string) (tsa : nd R) (n tau : nat) (sh : list nat) (l : list R).
Hypothesis Hda : data_array w d.
Hypothesis Hpc : proper_coords d.
Hypothesis Htd : nth_error (da_dims d) tau = Some td.
Hypothesis Hsh : shp (da_data d) = insert_at tau n sh.
Hypothesis Htau : tau <= List.length sh.
Hypothesis Hts : shp tsa = [n].
Hypothesis Hn : 2 <= n.
Hypothesis Hinc : increasing (times tsa n).
Hypothesis Hin : forall x, In x l -> In x (times tsa n).
Hypothesis Hc : lookup td (da_coords d) = Some (Co [td] (CNum tsa)).
Lemma make_series w2 out lt : shp out = insert_at tau (List.length l) sh ->
  exists w3 l3 coords', make_dataarray w2 out (da_coords d) (da_dims d) (da_name d) lt (Some td) (Some l) =
      (w3, Ok (DA out (da_dims d) coords' (da_name d) l3)) /\
    alloc w2 (dict_at w2 lt) = (w3, l3) /\
    let d' := DA out (da_dims d) coords' (da_name d) l3 in
    subseries d d' td tsa n l /\ proper_coords d' /\
    (forall nm c, In (nm, c) coords' -> Forall2 (dim_size d') (co_dims c) (coord_size c)) /\
    exists tsa', lookup td coords' = Some (Co [td] (CNum tsa')) /\ shp tsa' = [List.length l] /\ times tsa' (List.length l) = l.
Proof.
  intros So. pose proof Hda as (D1 & D2 & D3 & D4). unfold make_dataarray. rewrite Hc. cbn [stamps_of co_vals]. rewrite (list_of_times _ _ Hts).
  assert (Hnd : List.length (da_dims d) = ndim out).
  { rewrite D1. unfold ndim. rewrite So, Hsh, !length_insert by auto. reflexivity. }
  assert (MK : forall coords', (forall l3 nm c, In (nm, c) coords' -> Forall2 (dim_size (DA out (da_dims d) coords' (da_name d) l3)) (co_dims c) (coord_size c)) ->
    exists w3 l3, make_xr w2 out coords' (da_dims d) (da_name d) lt = (w3, Ok (DA out (da_dims d) coords' (da_name d) l3)) /\ alloc w2 (dict_at w2 lt) = (w3, l3)).
  { intros coords' Hf. unfold make_xr. rewrite (proj2 (Nat.eqb_eq _ _) Hnd), (distinct_nodup _ D2). cbn [andb].
    replace (forallb _ coords') with true.
    2:{ symmetry. apply forallb_forall. intros [nm c] Hi. cbn [snd].
        apply (fits_ok (DA out (da_dims d) coords' (da_name d) 0) c out); auto. eapply Hf; eauto. }
    destruct (alloc w2 (dict_at w2 lt)) as [w3 l3] eqn:A. exists w3, l3. auto. }
  destruct (same_list (times tsa n) l) eqn:Es.
  - apply same_list_eq in Es. assert (Ln : List.length l = n) by (rewrite <- Es; apply length_times).
    assert (Hf : forall l3 nm c, In (nm, c) (da_coords d) -> Forall2 (dim_size (DA out (da_dims d) (da_coords d) (da_name d) l3)) (co_dims c) (coord_size c)).
    { intros l3 nm c Hi. specialize (D3 _ _ Hi). unfold dim_size in *. cbn [da_dims da_data]. rewrite So, Ln, <- Hsh. exact D3. }
    destruct (MK (da_coords d) Hf) as (w3 & l3 & E & A). exists w3, l3, (da_coords d). split; [exact E|]. split; [exact A|]. cbv zeta. split; [|split; [exact Hpc|split; [apply Hf|]]].
    + split; [reflexivity|]. split; [reflexivity|]. cbn [da_coords]. split; [auto|]. split; [|auto]. intros nm c L Hi. exists c. split; auto.
      intros k m Hm Hk. rewrite <- Es in Hk. apply nth_times in Hk as (Hk1 & Hk2).
      assert (k = m).
      { assert (X : nth_error (times tsa n) k = Some (dat tsa [k])) by (apply nth_times; auto).
        assert (Y : nth_error (times tsa n) m = Some (dat tsa [m])) by (apply nth_times; auto).
        destruct (Nat.lt_trichotomy k m) as [H|[H|H]]; auto; exfalso;
          [pose proof (Hinc k m _ _ H X Y)|pose proof (Hinc m k _ _ H Y X)]; lra. }
      subst m. split; auto. destruct (co_vals c); auto.
    + exists tsa. rewrite Ln. auto.
  - set (f := resample_coord td (times tsa n) l).
    assert (Hex : forall x, In x (da_coords d) -> exists y, f x = Ok y).
    { intros [nm c] Hi. destruct (string_dec nm td) as [->|Hne].
      - exists (td, c). unfold f, resample_coord. rewrite String.eqb_refl. cbn [negb]. rewrite andb_false_r. reflexivity.
      - destruct (coord_resampled w d td tsa n tau sh l Hda Hpc Htd Hsh Htau Hn Hinc Hin (DA out (da_dims d) [] None 0) eq_refl So nm c Hi Hne) as (c' & E & _).
        exists (nm, c'). exact E. }
    destruct (traverse_f2 f (da_coords d) Hex) as (cs & -> & F).
    assert (Pn : forall x y, f x = Ok y -> fst y = fst x) by (intros x y Hy; apply resample_fst in Hy; tauto).
    pose proof (f2_names _ _ _ Pn F) as Nm. set (coords' := dict_set td (Co [td] (CNum (of_list l))) cs).
    assert (Ncs : NoDup (map fst cs)) by (rewrite Nm; apply Hpc).
    assert (Back : forall nm c', nm <> td -> lookup nm cs = Some c' -> exists c, In (nm, c) (da_coords d) /\ f (nm, c) = Ok (nm, c')).
    { intros nm c' Hne L'. destruct (lookup nm (da_coords d)) as [c|] eqn:L.
      - destruct (f2_lookup _ _ _ _ _ Pn F L) as (c2 & L2 & E2). exists c. split; [apply lookup_in; auto|congruence].
      - exfalso. apply lookup_none in L. rewrite <- Nm in L. apply lookup_none in L. congruence. }
    assert (Hf : forall l3 nm c, In (nm, c) coords' -> Forall2 (dim_size (DA out (da_dims d) coords' (da_name d) l3)) (co_dims c) (coord_size c)).
    { intros l3 nm c Hi. unfold coords' in Hi. apply in_set in Hi as [(-> & ->)|(Hne & Hi)]; auto.
      - cbn. constructor; [|constructor]. apply (td_size' d td tau sh l Htd Htau (DA out (da_dims d) coords' (da_name d) l3)); auto.
      - apply in_lookup in Hi; auto. destruct (Back nm c Hne Hi) as (c0 & Hi0 & E0).
        destruct (coord_resampled w d td tsa n tau sh l Hda Hpc Htd Hsh Htau Hn Hinc Hin (DA out (da_dims d) coords' (da_name d) l3) eq_refl So nm c0 Hi0 Hne) as (c' & E & _ & _ & Q).
        unfold f in E0. rewrite E0 in E. injection E as ->. exact Q. }
    destruct (MK coords' Hf) as (w3 & l3 & E & A). exists w3, l3, coords'. split; [exact E|]. split; [exact A|]. cbv zeta. split; [|split; [|split; [apply Hf|]]].
    + split; [reflexivity|]. split; [reflexivity|]. cbn [da_coords]. unfold coords'. split; [|split].
      * intros nm c L Hno. rewrite lookup_set. destruct (String.eqb_spec nm td) as [->|Hne]; [exfalso; rewrite Hc in L; injection L as <-; apply Hno; left; auto|].
        destruct (f2_lookup _ _ _ _ _ Pn F L) as (c2 & L2 & E2). rewrite L2.
        destruct (coord_resampled w d td tsa n tau sh l Hda Hpc Htd Hsh Htau Hn Hinc Hin (DA out (da_dims d) [] None 0) eq_refl So nm c (lookup_in _ _ _ L) Hne) as (c' & E' & Q & _).
        unfold f in E2. rewrite E' in E2. injection E2 as <-. rewrite Q; auto.
      * intros nm c L Hi. rewrite lookup_set. destruct (String.eqb_spec nm td) as [->|Hne].
        -- rewrite Hc in L. injection L as <-. eexists. split; [reflexivity|]. intros k m Hm Hk. split; [reflexivity|]. cbn [co_vals co_dims].
           intros p n' sh0 pre Hp Hs Hl Hv. destruct p as [|[|p]]; try discriminate. cbn [put] in *. rewrite Hts in Hs. assert (sh0 = []) by (destruct sh0; cbn in Hs; congruence). subst sh0.
           inversion Hv. subst. cbn. apply nth_error_nth. exact Hk.
        -- destruct (f2_lookup _ _ _ _ _ Pn F L) as (c2 & L2 & E2). exists c2. split; auto. intros k m Hm Hk.
           destruct (coord_resampled w d td tsa n tau sh l Hda Hpc Htd Hsh Htau Hn Hinc Hin (DA out (da_dims d) [] None 0) eq_refl So nm c (lookup_in _ _ _ L) Hne) as (c' & E' & _ & Q & _).
           unfold f in E2. rewrite E' in E2. injection E2 as <-. auto.
      * intros nm L. rewrite lookup_set. destruct (String.eqb_spec nm td) as [->|Hne]; [congruence|].
        apply lookup_none. rewrite Nm. apply lookup_none. auto.
    + split; [apply nodup_set; auto|]. cbn [da_coords]. intros nm c Hi. apply in_set in Hi as [(-> & ->)|(Hne & Hi)]; auto; [constructor; [auto|constructor]|].
      apply in_lookup in Hi; auto. destruct (Back nm c Hne Hi) as (c0 & Hi0 & E0). apply resample_fst in E0 as (_ & E0). cbn in E0. rewrite E0. eapply Hpc; eauto.
    + exists (of_list l). unfold coords'. rewrite lookup_set, String.eqb_refl. split; auto. split; auto.
      unfold times, of_list. cbn [dat]. apply (List.nth_ext _ _ 0%R 0%R); [rewrite map_length, seq_length; auto|].
      intros k Hk. rewrite map_length, seq_length in Hk.
      rewrite (nth_indep _ 0%R (nth (hd 0 [0]) l 0%R)) by (rewrite map_length, seq_length; auto).
      rewrite (map_nth (fun i => nth (hd 0 [i]) l 0%R) (seq 0 (List.length l)) 0 k). rewrite seq_nth by auto. reflexivity.
Qed.
End Make.

Section Squad.
Variable squad : list R -> list quat -> R -> res quat.
(* ---- the call ---- *)
Lemma call_prep m s i arr j ax ta tsa x : call_method squad m s i arr j ax (Some ta) (Some tsa) = Ok x ->
  exists tr b, prepare squad s i arr (PFrame j) ax (ncomp m) (Some ta) (Some tsa) = Ok (tr, b).
Proof.
  destruct m; cbn [call_method]; unfold transform_vectors, transform_points, transform_quaternions; intros H; apply bind_ok in H as ((tr & b) & E & _); exists tr, b; exact E.
Qed.
Lemma rows_at (rows : list (vec3 * quat)) k : k < List.length rows -> nth_error rows k = Some (rowv rows k, rowq rows k).
Proof.
  intros H. destruct (nth_error rows k) as [[t r]|] eqn:E; [|apply nth_error_None in E; lia].
  unfold rowv, rowq. rewrite (nth_error_nth _ _ _ E). reflexivity.
Qed.
(** What a transform along a moving way gives, at every kept sample. *)
Lemma call_moving s i j m arr ta tsa tau n sh ax tr b : reachable s -> squad_unit squad -> frame s i -> frame s j -> unit_way s i j ->
  stamped arr (ncomp m) ta tsa tau n sh -> axis_is ax (ndim arr - 1) (ndim arr) ->
  (m = Quaternions -> squad_exact squad /\ forall ix, valid (put tau n sh) ix -> hunit (quat_at arr ix)) ->
  prepare squad s i arr (PFrame j) (-1) (ncomp m) (Some ta) (Some tsa) = Ok (tr, b) ->
  exists out l, call_method squad m s i arr j ax (Some ta) (Some tsa) = Ok (out, Some l) /\
    (exists f, l = filter f (times tsa n)) /\
    (exists rt, route (parent_of s) i j rt /\
       forall m, m < n -> (In (dat tsa [m]) l <->
         forall f tf, In f rt -> cont_of s f = Some tf ->
           exists a b, hd_error tf = Some a /\ nth_error tf (length tf - 1) = Some b /\ (a <= dat tsa [m] <= b)%R)) /\
    shp out = (put tau (length l) sh ++ [ncomp m])%list /\
    forall k q, q < n -> nth_error l k = Some (dat tsa [q]) -> exists t r, rel squad s (dat tsa [q]) i j (t, r) /\
      forall pre, valid sh pre ->
        match m with
        | Vectors => vec_at out (put tau k pre) = srot r (vec_at arr (put tau q pre))
        | Points => vec_at out (put tau k pre) = smove t r (vec_at arr (put tau q pre))
        | Quaternions => quat_at out (put tau k pre) = hmul r (quat_at arr (put tau q pre))
        end.
Proof.
  intros HR Hsq Hi Hjf Hw Hst Hax0 Hq Hp. assert (Hj : denotes s (PFrame j) j) by (left; auto).
  pose proof Hst as (Hs0 & Ht & _ & Hts & Hn & _). destruct (stamped_facts _ _ _ _ _ _ _ Hst) as (Hs & Hta & Hinc).
  destruct (ax_facts _ _ _ _ _ _ _ Hst) as (Hax & Hnn).
  destruct (prep_frames squad s i (PFrame j) j arr (ncomp m) ta tsa tau n sh Hj Hst _ tr b Hax Hnn Hp) as (fs & l & rows & Hf & Hl & Hr & Htr & Hb).
  destruct (way_times squad s i (PFrame j) j arr (ncomp m) ta tsa tau n sh HR Hi Hj Hst fs l Hf Hl) as (T1 & T2).
  destruct (rows_rel squad s i j fs l rows (reach_inv _ HR) (reachable_BodyOk _ HR) Hsq Hi Hjf Hw Hf Hr) as (L & HM).
  pose proof (way_units squad s i (PFrame j) j HR Hsq Hi Hj Hw fs l rows Hf Hr) as HU.
  assert (Hsub : forall x, In x l -> In x (times tsa n)) by (intros x Hx; destruct T1 as (f & ->); apply filter_In in Hx; tauto).
  assert (G : exists out, call_method squad m s i arr j (-1) (Some ta) (Some tsa) = Ok (out, Some l) /\
     shp out = insert_at tau (length l) sh ++ [ncomp m] /\
     forall k x q pre, nth_error l k = Some x -> nth_error (times tsa n) q = Some x -> valid sh pre ->
        match m with
        | Vectors => vec_at out (insert_at tau k pre) = srot (rowq rows k) (vec_at arr (insert_at tau q pre))
        | Points => vec_at out (insert_at tau k pre) = smove (rowv rows k) (rowq rows k) (vec_at arr (insert_at tau q pre))
        | Quaternions => quat_at out (insert_at tau k pre) = hmul (rowq rows k) (quat_at arr (insert_at tau q pre))
        end).
  { destruct m; cbn [ncomp call_method] in *.
    - destruct (resample3 squad arr 3 tsa n tau sh Hs Ht Hinc Hn l eq_refl Hsub) as (b' & Eb & Rb). rewrite Eb in Hb. injection Hb as <-.
      destruct (vectors_ok squad s i arr (PFrame j) 3 ta tsa n tau sh Hs Ht Hta Hn tr l rows b' eq_refl Hp Htr L HU Rb) as (out' & Eo & So & Do).
      exists out'. split; auto.
    - destruct (resample3 squad arr 3 tsa n tau sh Hs Ht Hinc Hn l eq_refl Hsub) as (b' & Eb & Rb). rewrite Eb in Hb. injection Hb as <-.
      destruct (points_ok squad s i arr (PFrame j) 3 ta tsa n tau sh Hs Ht Hta Hn tr l rows b' eq_refl Hp Htr L HU Rb) as (out' & Eo & So & Do).
      exists out'. split; auto.
    - destruct (Hq eq_refl) as (Hex & Hun).
      destruct (resample4 squad arr 4 tsa n tau sh Hs Ht Hinc Hn l eq_refl Hex) as (b' & Eb & Rb); auto.
      { intros q pre Hq' Hp'. pose proof (valid_length _ _ Hp') as Lp. apply Hun. rewrite !put_insert by lia. apply valid_insert; auto. }
      rewrite Eb in Hb. injection Hb as <-.
      destruct (quats_ok squad s i arr (PFrame j) 4 ta tsa n tau sh Hs Ht Hta Hn tr l rows b' eq_refl Hp Htr L Rb) as (out' & Eo & So & Do).
      exists out'. split; auto. }
  destruct G as (out & Ec & So & Do). exists out, l. split.
  { eapply call_axis; eauto. unfold ndim. rewrite So, Hs, !app_length, !length_insert by auto. reflexivity. }
  split; [exact T1|]. split; [exact T2|]. split; [rewrite So, put_insert; auto|].
  intros k q Hqn Hk. exists (rowv rows k), (rowq rows k). split.
  - apply (HM k); auto. apply rows_at. rewrite L. apply (nth_lt _ _ _ Hk).
  - intros pre Hpre. pose proof (valid_length _ _ Hpre) as Lp. rewrite !put_insert by lia. apply (Do k (dat tsa [q]) q); auto. apply nth_times; auto.
Qed.

(* ---- the top-level function with timestamps ---- *)
Lemma transform_timed (m : method) w d into outof dim axis ts time_axis i j sh tau n tsa : reachable (frames w) -> data_array w d ->
  from m w d outof i -> denotes (frames w) into j ->
  shp (da_data d) = (put tau n sh ++ [ncomp m])%list -> tau <= length sh ->
  picks d dim axis (S (length sh)) -> timed d ts time_axis tau n tsa ->
  exists w1 l ax ta td, alloc w (dict_at w (da_attrs d)) = (w1, l) /\ axis_is ax (ndim (da_data d) - 1) (ndim (da_data d)) /\
    nth_error (da_dims d) tau = Some td /\ lookup td (da_coords d) = Some (Co [td] (CNum tsa)) /\
    stamped (da_data d) (ncomp m) ta tsa tau n sh /\
    transform squad m w (Lab d) into outof dim axis ts time_axis =
      let w2 := write w1 l (relabel m (name_of (frames w) j)) in
      match call_method squad m (frames w) i (da_data d) j ax (Some ta) (Some tsa) with
      | Raise e => (w2, Raise e)
      | Ok (a, t) =>
          let '(w3, r) := make_dataarray w2 a (da_coords d) (da_dims d) (da_name d) l (Some td) t in
          (w3, d <- r ;; Ok (RLab d))
      end.
Proof.
  intros HR Hda Hfrom Hj Hsh Htau Hp (td & T1 & T2 & T3 & T4 & T5 & T6).
  destruct (picks_axis w d dim axis _ Hda Hp) as (ax & Hax & Hlt & Eax).
  unfold transform, maybe_unpack. destruct (alloc w (dict_at w (da_attrs d))) as [w1 l] eqn:Hal. cbv zeta in Eax |- *. rewrite Eax. cbn [bind].
  pose proof Hda as (D1 & D2 & _). destruct (dict_alloc _ _ _ _ Hal) as (Hfr & El & Hlen & Hd & Hold).
  assert (Hnd : ndim (da_data d) = S (S (length sh))) by (unfold ndim; rewrite Hsh, app_length, put_insert, length_insert by auto; cbn; lia).
  assert (E : exists ta, axis_is ta tau (ndim (da_data d)) /\ match ts with
            | TName n =>
                i <- index_of n (da_dims d) ;;
                t <- match lookup n (da_coords d) with
                     | Some c => stamps_of c
                     | None => Ok (arange (nth i (shp (da_data d)) O))
                     end ;;
                Ok (Un (da_data d) ax (Some (Z.of_nat i)) (Some n) (Some t) (Some (da_coords d, da_dims d, da_name d, l)))
            | TNone =>
                if Nat.ltb 1 (ndim (da_data d)) then
                  let ta := or_default time_axis 0 in
                  n <- tuple_at (da_dims d) ta ;;
                  c <- match lookup n (da_coords d) with Some c => Ok c | None => Raise KeyError end ;;
                  t <- stamps_of c ;;
                  Ok (Un (da_data d) ax (Some ta) (Some n) (Some t) (Some (da_coords d, da_dims d, da_name d, l)))
                else Ok (Un (da_data d) ax time_axis None None (Some (da_coords d, da_dims d, da_name d, l)))
            | TFalse => Ok (Un (da_data d) ax time_axis None None (Some (da_coords d, da_dims d, da_name d, l)))
            | TArr _ => Raise NotImplementedError
            end = Ok (Un (da_data d) ax (Some ta) (Some td) (Some tsa) (Some (da_coords d, da_dims d, da_name d, l)))).
  { destruct T3 as [->|(-> & H1 & H2 & H3)].
      - exists (Z.of_nat tau). split; [left; auto|]. rewrite (index_of_nth _ _ _ D2 T1). cbn [bind]. rewrite T2. reflexivity.
      - assert (G : axis_is (or_default time_axis 0) tau (ndim (da_data d))).
        { destruct time_axis as [z|]; [|cbn [or_default]; left; lia]. unfold or_default.
          destruct (Z.eqb_spec z 0) as [->|Hz]; [left; lia|]. destruct H3 as [->|(_ & ->)]; [left|right]; auto. }
        exists (or_default time_axis 0). split; auto. apply Nat.ltb_lt in H1. rewrite H1.
        assert (Hn : norm_axis (or_default time_axis 0) (length (da_dims d)) = Ok tau) by (rewrite D1; apply axis_is_norm; auto).
        cbv zeta. rewrite (tuple_at_ok _ _ _ Hn). cbn [bind]. rewrite (nth_error_nth _ _ _ T1), T2. reflexivity. }
  destruct E as (ta & Hta & E). cbv zeta in E. rewrite E. cbn [bind]. unfold same_axis_check. cbn [u_ts u_time_axis u_arr u_axis].
  replace (ndim (da_data d) =? 0) with false by (symmetry; apply Nat.eqb_neq; lia).
  rewrite (axis_mod ax (S (length sh))), (axis_mod ta tau) by (auto; lia).
  replace (Z.of_nat (S (length sh)) =? Z.of_nat tau)%Z with false by (symmetry; apply Z.eqb_neq; lia).
  exists w1, l, ax, ta, td. split; [reflexivity|]. split; [replace (ndim (da_data d) - 1) with (S (length sh)) by lia; exact Hax|]. split; auto. split; auto.
  split; [split; [exact Hsh|]; split; [exact Htau|]; split; [exact Hta|]; auto|].
  cbn [u_lab u_arr u_axis u_time_axis u_ts u_time_dim]. rewrite Hfr.
  assert (Hout : match outof with
                | Some o => resolve_rf (frames w) o
                | None => match lookup (what_of m) (dict_at w1 l) with
                        | Some v => resolve_rf (frames w) (as_pref v)
                        | None => Raise ValueError
                        end
                end = Ok i).
  { destruct outof as [o|]; cbn [from] in Hfrom.
    - apply denotes_resolve; auto.
    - destruct Hfrom as (v & H1 & H2). rewrite Hd. unfold attr in H1. rewrite H1. cbn [as_pref resolve_rf]. rewrite H2. reflexivity. }
  rewrite Hout. cbn [bind]. rewrite (denotes_resolve _ _ _ Hj). cbn [bind]. reflexivity.
Qed.

(** The result: the kept samples, mapped at their times; labels. *)
Definition image (m : method) (x y : nd R) (tau q k : nat) (t : vec3) (r : quat) (pre : list nat) : Prop :=
  match m with
  | Vectors => vec_at y (put tau k pre) = srot r (vec_at x (put tau q pre))
  | Points => vec_at y (put tau k pre) = smove t r (vec_at x (put tau q pre))
  | Quaternions => quat_at y (put tau k pre) = hmul r (quat_at x (put tau q pre))
  end.
Lemma series_step (m : method) w d into outof dim axis ts time_axis i j sh tau n tsa : reachable (frames w) -> squad_unit squad ->
  data_array w d -> proper_coords d ->
  from m w d outof i -> frame (frames w) i -> denotes (frames w) into j -> unit_way (frames w) i j ->
  shp (da_data d) = (put tau n sh ++ [ncomp m])%list -> tau <= length sh ->
  picks d dim axis (S (length sh)) -> timed d ts time_axis tau n tsa ->
  (m = Quaternions -> squad_exact squad /\ forall ix, valid (put tau n sh) ix -> hunit (quat_at (da_data d) ix)) ->
  (exists w' x, transform squad m w (Lab d) into outof dim axis ts time_axis = (w', Ok x)) \/ (squad_total squad /\ good_way (frames w) i j) ->
  exists w' d' td l, transform squad m w (Lab d) into outof dim axis ts time_axis = (w', Ok (RLab d')) /\
    attrs_kept w w' /\ data_array w' d' /\ proper_coords d' /\ length (dicts w) <= da_attrs d' /\
    dict_at w' (da_attrs d') = relabel m (name_of (frames w) j) (dict_at w (da_attrs d)) /\
    nth_error (da_dims d) tau = Some td /\ subseries d d' td tsa n l /\
    (exists tsa', lookup td (da_coords d') = Some (Co [td] (CNum tsa')) /\ shp tsa' = [length l] /\ times tsa' (length l) = l) /\
    (exists f, l = filter f (times tsa n)) /\
    (exists rt, route (parent_of (frames w)) i j rt /\
       forall q, q < n -> (In (dat tsa [q]) l <->
         forall f tf, In f rt -> cont_of (frames w) f = Some tf ->
           exists a b, hd_error tf = Some a /\ nth_error tf (length tf - 1) = Some b /\ (a <= dat tsa [q] <= b)%R)) /\
    shp (da_data d') = (put tau (length l) sh ++ [ncomp m])%list /\
    forall k q, q < n -> nth_error l k = Some (dat tsa [q]) -> exists t r, rel squad (frames w) (dat tsa [q]) i j (t, r) /\
      forall pre, valid sh pre -> image m (da_data d) (da_data d') tau q k t r pre.
Proof.
  intros HR Hsq Hda Hpc Hfrom Hi Hj Hw Hsh Htau Hp Htm Hq Hok.
  destruct (transform_timed m w d into outof dim axis ts time_axis i j sh tau n tsa HR Hda Hfrom Hj Hsh Htau Hp Htm)
    as (w1 & l1 & ax & ta & td & Hal & Hax & Htd & Hc & Hst & Eq). cbv zeta in Eq.
  pose proof (denotes_frame _ _ _ HR Hj) as Hjf. assert (Hjd : denotes (frames w) (PFrame j) j) by (left; auto).
  pose proof Hst as (_ & _ & _ & Hts & Hn & _). destruct (stamped_facts _ _ _ _ _ _ _ Hst) as (Hs & Hta & Hinc).
  destruct (ax_facts _ _ _ _ _ _ _ Hst) as (Haxl & Hnn).
  assert (Hprep : exists tr b, prepare squad (frames w) i (da_data d) (PFrame j) (-1) (ncomp m) (Some ta) (Some tsa) = Ok (tr, b)).
  { destruct Hok as [(w' & x & Hok)|(Hto & Hg)].
    - rewrite Eq in Hok. destruct (call_method squad m (frames w) i (da_data d) j ax (Some ta) (Some tsa)) as [y|e] eqn:Ec; [|discriminate].
      destruct (call_prep _ _ _ _ _ _ _ _ _ Ec) as (tr & b & Ep). exists tr, b. rewrite <- Ep. unfold prepare, validate_input.
      replace (norm_axis ax (ndim (da_data d))) with (norm_axis (-1) (ndim (da_data d))); [reflexivity|].
      rewrite norm_axis_last by (unfold ndim; rewrite Hsh, app_length; cbn; lia). symmetry. apply axis_is_norm; auto.
      unfold ndim; rewrite Hsh, app_length; cbn; lia.
    - destruct (stamped_prep squad (frames w) i (PFrame j) j (da_data d) (ncomp m) ta tsa tau n sh HR Hto Hsq Hi Hjd Hg Hst) as (fs & l & rows & Hf & Hl & Hr).
      destruct (way_times squad (frames w) i (PFrame j) j (da_data d) (ncomp m) ta tsa tau n sh HR Hi Hjd Hst fs l Hf Hl) as (T1 & _).
      assert (Hsub : forall x, In x l -> In x (times tsa n)) by (intros x Hx; destruct T1 as (f & ->); apply filter_In in Hx; tauto).
      assert (Hb : exists b, resample_array squad (MA (swap_nd 0 tau (da_data d)) (Some (times tsa n))) (Some l) = Ok b).
      { destruct m; cbn [ncomp] in *.
        - destruct (resample3 squad (da_data d) 3 tsa n tau sh Hs Htau Hinc Hn l eq_refl Hsub) as (b & Eb & _). eauto.
        - destruct (resample3 squad (da_data d) 3 tsa n tau sh Hs Htau Hinc Hn l eq_refl Hsub) as (b & Eb & _). eauto.
        - destruct (Hq eq_refl) as (Hex & Hun). destruct (resample4 squad (da_data d) 4 tsa n tau sh Hs Htau Hinc Hn l eq_refl Hex) as (b & Eb & _); eauto.
          intros q pre Hq' Hp'. pose proof (valid_length _ _ Hp') as Lp. apply Hun. rewrite !put_insert by lia. apply valid_insert; auto. }
      destruct Hb as (b & Hb).
      destruct (prepare_ok squad (frames w) i (da_data d) (PFrame j) (-1) (ncomp m) ta tsa n tau _ Haxl Hnn Hts Hta (n_arr (da_data d) (ncomp m) n tau sh Hs Htau Hn) j fs l rows b
        (increasing_not_decreasing _ Hinc) (denotes_resolve _ _ j Hjd) Hf Hl Hr Hb) as (tr & E). exists tr, b. exact E. }
  destruct Hprep as (tr & b & Hprep).
  destruct (call_moving (frames w) i j m (da_data d) ta tsa tau n sh ax tr b HR Hsq Hi Hjf Hw Hst Hax Hq Hprep) as (out & l & Ec & T1 & T2 & So & Do).
  rewrite Ec in Eq.
  assert (Hsub : forall x, In x l -> In x (times tsa n)) by (intros x Hx; destruct T1 as (f & ->); apply filter_In in Hx; tauto).
  assert (Hia : forall N, put tau N sh ++ [ncomp m] = insert_at tau N (sh ++ [ncomp m])).
  { intros N. rewrite put_insert by auto. clear - Htau. revert sh Htau. induction tau as [|t IH]; intros [|x sh] H; cbn in *; auto; try lia. f_equal. apply IH. lia. }
  destruct (make_series w d td tsa n tau (sh ++ [ncomp m]) l Hda Hpc Htd ltac:(rewrite Hsh; apply Hia) ltac:(rewrite app_length; lia) Hts Hn Hinc Hsub Hc
     (write w1 l1 (relabel m (name_of (frames w) j))) out l1 ltac:(rewrite So; apply Hia)) as (w3 & l3 & cs & Em & Ea & Hss & Hpc' & Hsz & Htc).
  rewrite Em in Eq. cbn [bind] in Eq. exists w3, (DA out (da_dims d) cs (da_name d) l3), td, l.
  destruct (dict_alloc _ _ _ _ Hal) as (Hfr & El & Hlen & Hd & Hold).
  destruct (dict_alloc _ _ _ _ Ea) as (Hfr3 & El3 & Hlen3 & Hd3 & Hold3). rewrite length_write in *.
  pose proof Hda as (D1 & D2 & D3 & D4).
  split; [exact Eq|]. split.
  { split; [rewrite Hfr3; exact Hfr|]. split; [lia|]. intros k Hk. rewrite Hold3 by lia. rewrite dict_write.
    replace (l1 =? k) with false by (symmetry; apply Nat.eqb_neq; lia). apply Hold. auto. }
  split.
  { split; [cbn [da_dims da_data]; rewrite D1; unfold ndim; rewrite So, Hsh, !app_length, !put_insert, !length_insert by auto; reflexivity|].
    split; [exact D2|]. split; [exact Hsz|cbn [da_attrs]; lia]. }
  split; [exact Hpc'|]. split; [cbn [da_attrs]; lia|]. split.
  { cbn [da_attrs]. rewrite Hd3, dict_write, Nat.eqb_refl. replace (l1 <? length (dicts w1)) with true by (symmetry; apply Nat.ltb_lt; lia). rewrite Hd. reflexivity. }
  split; [exact Htd|]. split; [exact Hss|]. split; [exact Htc|]. split; [exact T1|]. split; [exact T2|]. split; [exact So|]. exact Do.
Qed.
End Squad.
