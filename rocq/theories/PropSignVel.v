(** C90, continued: velocities. *)
From Coq Require Import Reals List Arith Bool ZArith Lra Lia FunctionalExtensionality.
From Verif Require Import Base Quat NdArray Frames Matcher Transform Squad Velocity VelFrames Spline NdProofs RotProofs PropClock PropClockVel PropSign PropSignArr.
Import ListNotations.
Open Scope R_scope.

(* ------------------------------------------------------------------ the derivative of the negated values *)
Section Linear.
  Variables (e : R) (ts fs : list R).
  Notation gs := (map (Rmult e) fs).
  Lemma nth_scaled i l : nth i (map (Rmult e) l) 0 = e * nth i l 0.
  Proof. replace 0 with (e * 0) at 1 by ring. apply map_nth. Qed.
  Lemma slope_lin i : slope ts gs i = e * slope ts fs i.
  Proof. unfold slope. rewrite !nth_scaled. unfold Rdiv. ring. Qed.
  Lemma rhs_lin i : rhs ts gs i = e * rhs ts fs i.
  Proof. unfold rhs. rewrite !slope_lin. ring. Qed.
  Lemma head_lin : head_rhs ts gs = e * head_rhs ts fs.
  Proof. unfold head_rhs. rewrite !slope_lin. unfold Rdiv. ring. Qed.
  Lemma last_lin n : last_rhs ts gs n = e * last_rhs ts fs n.
  Proof. unfold last_rhs. cbv zeta. rewrite !slope_lin. unfold Rdiv. ring. Qed.
  Lemma hd_lin l : hd 0 (map (Rmult e) l) = e * hd 0 l.
  Proof. destruct l; cbn [map hd]; ring. Qed.
  Lemma lastl_lin l : last (map (Rmult e) l) 0 = e * last l 0.
  Proof. induction l as [|a [|b l] IH]; [cbn; ring|reflexivity|]. exact IH. Qed.
  Lemma solve_lin n m : forall i c g, solve ts gs n i m c (e * g) = map (Rmult e) (solve ts fs n i m c g).
  Proof.
    induction m as [|m IH]; intros i c g; cbn [solve map]; cbv zeta.
    - rewrite rhs_lin, last_lin. unfold Rdiv. f_equal; [ring|]. f_equal. ring.
    - rewrite rhs_lin. replace ((e * rhs ts fs i - lam ts i * (e * g)) / (2 - lam ts i * c)) with (e * ((rhs ts fs i - lam ts i * g) / (2 - lam ts i * c))) by (unfold Rdiv; ring).
      rewrite IH, hd_lin. cbn [map]. f_equal. ring.
  Qed.
  Lemma fit_lin n : spline_fit ts gs n = map (Rmult e) (spline_fit ts fs n).
  Proof.
    unfold spline_fit. cbv zeta. rewrite rhs_lin, head_lin. replace (e * rhs ts fs 0 - e * head_rhs ts fs) with (e * (rhs ts fs 0 - head_rhs ts fs)) by ring. rewrite solve_lin, hd_lin, lastl_lin, last_lin. cbn [map]. rewrite map_app. cbn [map].
    f_equal; [unfold Rdiv; ring|]. f_equal. f_equal. unfold Rdiv. ring.
  Qed.
  Lemma derivative_lin : np_derivative gs ts = outcome (map (Rmult e)) (np_derivative fs ts).
  Proof. unfold np_derivative. rewrite map_length. destruct (_ && _)%bool; [|reflexivity]. cbn [outcome]. rewrite fit_lin. reflexivity. Qed.
End Linear.
Lemma solve_length ts fs n m : forall i c g, length (solve ts fs n i m c g) = S (S m).
Proof. induction m as [|m IH]; intros i c g; cbn [solve]; cbv zeta; cbn [length]; [reflexivity|]. rewrite IH. reflexivity. Qed.
Lemma derivative_length fs ts l : np_derivative fs ts = Ok l -> length l = length ts.
Proof.
  unfold np_derivative. destruct (_ && _)%bool eqn:E; [|discriminate]. intros H. injection H as <-. apply andb_prop in E as [E _]. apply andb_prop in E as [_ E]. apply Nat.leb_le in E.
  unfold spline_fit. cbv zeta. cbn [length]. rewrite app_length, solve_length. cbn [length]. lia.
Qed.
Lemma pos_out m n : forall k, (k + n <= m)%nat -> pos_in m (seq k n) = n.
Proof. induction n as [|n IH]; intros k H; [reflexivity|]. cbn [seq pos_in]. destruct (Nat.eqb_spec k m); [lia|]. rewrite IH by lia. reflexivity. Qed.
Lemma filter_true {A} (f : A -> bool) l : (forall x, f x = true) -> filter f l = l.
Proof. intros H. induction l as [|a l IH]; [reflexivity|]. cbn [filter]. rewrite H, IH. reflexivity. Qed.

(* ------------------------------------------------------------------ angular velocity *)
Definition rows_opt (n : nat) (rows : list (vec3 * quat)) : nd (option R) :=
  Nd [n; 4%nat] (fun ix => Some (comp4 (last ix O) (rowq rows (hd O (removelast ix))))).
Lemma rowq_sign e rows i : (i < length rows)%nat -> rowq (map (row_sign e) rows) i = qscale e (rowq rows i).
Proof. intros H. unfold rowq. rewrite (nth_indep _ (v0, q1) (row_sign e (v0, q1))) by (rewrite map_length; exact H). rewrite map_nth. reflexivity. Qed.
Lemma comp4_scale e k q : comp4 k (qscale e q) = e * comp4 k q.
Proof. destruct k as [|[|[|k]]]; reflexivity. Qed.
Lemma sg_angular e rows ts : is_sign e -> length rows = length ts ->
  estimate_angular np_derivative (rows_opt (length ts) (map (row_sign e) rows)) ts (-1) 0 = estimate_angular np_derivative (rows_opt (length ts) rows) ts (-1) 0.
Proof.
  intros E L. unfold estimate_angular. change (ndim (rows_opt (length ts) (map (row_sign e) rows))) with 2%nat. change (ndim (rows_opt (length ts) rows)) with 2%nat. cbv iota.
  change (Z.to_nat (-1 mod Z.of_nat 2)) with 1%nat. change (Z.to_nat (0 mod Z.of_nat 2)) with 0%nat. change (Nat.eqb 0 1) with false. cbv iota zeta.
  assert (S2 : forall rr, shp (swap_nd 1 1 (rows_opt (length ts) rr)) = [length ts; 4%nat]) by (intros rr; cbn [swap_nd shp rows_opt]; apply swapl_same).
  assert (D2 : forall rr ix, dat (swap_nd 1 1 (rows_opt (length ts) rr)) ix = Some (comp4 (last ix O) (rowq rr (hd O (removelast ix))))) by (intros rr ix; cbn [swap_nd dat rows_opt]; rewrite swapl_same; reflexivity).
  assert (Bad : forall rr m, existsb (fun ix => (Nat.eqb (nth 0 ix O) m && is_nan (dat (swap_nd 1 1 (rows_opt (length ts) rr)) ix))%bool) (indices [length ts; 4%nat]) = false).
  { intros rr m. apply existsb_false_all. intros ix _. rewrite D2. cbn [is_nan]. apply andb_false_r. }
  rewrite !S2. cbn [nth]. rewrite Nat.eqb_refl. cbn [negb Nat.eqb].
  rewrite !(filter_true _ (seq 0 (length ts))) by (intros; rewrite Bad; reflexivity).
  set (times := map (fun m => nth m ts 0) (seq 0 (length ts))).
  assert (Ser : forall ix, map (fun m => num (dat (swap_nd 1 1 (rows_opt (length ts) (map (row_sign e) rows))) (setn 0 m ix))) (seq 0 (length ts)) =
                map (Rmult e) (map (fun m => num (dat (swap_nd 1 1 (rows_opt (length ts) rows)) (setn 0 m ix))) (seq 0 (length ts)))).
  { intros ix. rewrite map_map. apply map_ext_in. intros m M. apply in_seq in M. rewrite !D2. cbn [num]. rewrite rowq_sign; [apply comp4_scale|]. rewrite L. destruct ix as [|a [|b ix]]; cbn [setn removelast hd]; lia. }
  assert (Tr : traverse (fun ix => np_derivative (map (fun m => num (dat (swap_nd 1 1 (rows_opt (length ts) (map (row_sign e) rows))) (setn 0 m ix))) (seq 0 (length ts))) times) (indices [length ts; 4%nat]) =
               outcome (map (map (Rmult e))) (traverse (fun ix => np_derivative (map (fun m => num (dat (swap_nd 1 1 (rows_opt (length ts) rows)) (setn 0 m ix))) (seq 0 (length ts))) times) (indices [length ts; 4%nat]))).
  { apply traverse_outcome_in. intros ix. rewrite Ser. apply derivative_lin. }
  rewrite Tr. match goal with |- bind (outcome _ ?T) _ = bind ?T' _ => change T' with T; destruct T as [u|] end; [|reflexivity]. cbn [outcome bind]. clear Tr u. f_equal. match goal with |- swap_nd 1 1 (Nd ?s ?F) = swap_nd 1 1 (Nd ?s ?G) => assert (FG : F = G); [|rewrite FG; reflexivity] end. extensionality ix.
  rewrite !Bad. f_equal.
  set (dq := fun c => match np_derivative (map (fun m => num (dat (swap_nd 1 1 (rows_opt (length ts) rows)) (setn 0 m (setn 1 c ix)))) (seq 0 (length ts))) times with Ok l => nth (pos_in (nth 0 ix O) (seq 0 (length ts))) l 0 | Raise _ => 0 end).
  assert (Dq : forall c, match np_derivative (map (fun m => num (dat (swap_nd 1 1 (rows_opt (length ts) (map (row_sign e) rows))) (setn 0 m (setn 1 c ix)))) (seq 0 (length ts))) times with Ok l => nth (pos_in (nth 0 ix O) (seq 0 (length ts))) l 0 | Raise _ => 0 end = e * dq c).
  { intros c. rewrite Ser, derivative_lin. unfold dq. destruct (np_derivative _ times) as [l|]; cbn [outcome]; [apply nth_scaled|ring]. }
  rewrite !Dq. fold (dq 0%nat) (dq 1%nat) (dq 2%nat) (dq 3%nat). rewrite !D2. cbn [num].
  set (row := hd O (removelast (setn 1 0 ix))).
  assert (Row : forall c, hd O (removelast (setn 1 c ix)) = row) by (intros c; unfold row; destruct ix as [|a [|b [|d ix]]]; reflexivity).
  rewrite !Row. clear Dq Ser.
  assert (C : (row < length rows)%nat \/ forall c, dq c = 0).
  { assert (TL : length times = length ts) by (unfold times; rewrite map_length, seq_length; reflexivity).
    destruct (Nat.lt_ge_cases (nth 0 ix O) (length ts)) as [I|I].
    - left. rewrite L. unfold row. destruct ix as [|a [|b ix]]; cbn [setn removelast hd nth] in *; lia.
    - right. intros c. unfold dq. destruct (np_derivative _ times) as [l|] eqn:D; [|reflexivity]. apply derivative_length in D. apply nth_overflow. rewrite pos_out by lia. lia. }
  f_equal. destruct C as [C|C].
  - rewrite !rowq_sign by exact C. rewrite !comp4_scale. destruct E as [-> | ->]; unfold qvec, qmulq, qconj; cbn [qw qx qy qz]; f_equal; ring.
  - rewrite !C. unfold qvec, qmulq, qconj. cbn [qw qx qy qz]. f_equal; ring.
Qed.

(* ------------------------------------------------------------------ lookups *)
(** The same exception; or the same velocities at the same time stamps. *)
Definition same_velocity (r r' : res (nd R * option (option (list R)))) : Prop :=
  rrel (fun p p' => nd_rel eq (fst p) (fst p') /\ snd p' = snd p) r r'.
Definition same_twist (r r' : res (nd R * nd R * option (option (list R)))) : Prop :=
  rrel (fun p p' => nd_rel eq (fst (fst p)) (fst (fst p')) /\ nd_rel eq (snd (fst p)) (snd (fst p')) /\ snd p' = snd p) r r'.
Section Pair.
  Variables s s' : state.
  Hypothesis H : state_sign s s'.
  Lemma sg_resolve_ref i p : resolve_ref s' i p = resolve_ref s i p.
  Proof. unfold resolve_ref. rewrite (sg_parent s s' H). destruct p as [[n|n|]|]; cbv zeta; try destruct (String.eqb n _); try (destruct (option_map PFrame (parent_of s i)); [|reflexivity]); rewrite (sg_resolve s s' H); reflexivity. Qed.
  Lemma sg_lookup_linear i rf ri al rt : same_velocity (lookup_linear_velocity np_squad s i rf ri al rt) (lookup_linear_velocity np_squad s' i rf ri al rt).
  Proof.
    unfold same_velocity, lookup_linear_velocity. rewrite !sg_resolve_ref. apply rrel_bind_same. intros j. apply rrel_bind_same. intros k. destruct (sg_lookup s s' i (PFrame j) H) as (e & E & ->).
    destruct (lookup_transform np_squad s i (PFrame j)) as [tr|]; [|reflexivity]. cbn [outcome bind]. rewrite sg_tr_ts, sg_tr_t. destruct (tr_ts tr) as [ts|]; [|destruct al; [split; [apply nd_rel_refl|reflexivity]|reflexivity]].
    apply rrel_bind_same. intros g. eapply rrel_bind; [apply (sg_vectors s s' _ _ _ _ _ H)|]. intros [a o] [a' o'] [A O]. cbn [fst snd] in *. subst o'. unfold with_ts. cbn [rrel fst snd]. split; [exact A|reflexivity].
  Qed.
  Lemma sg_estimate i to tr ts e : lookup_transform np_squad s i to = Ok tr -> tr_ts tr = Some ts -> is_sign e ->
    estimate_angular np_derivative (tr_r_opt (tr_sign e tr)) ts (-1) 0 = estimate_angular np_derivative (tr_r_opt tr) ts (-1) 0.
  Proof.
    intros L T E. apply lookup_full in L. destruct tr as [t r|l|l rows]; [discriminate|reflexivity|]. cbn [tr_ts] in T. injection T as <-. cbn [full_rows] in L. apply (sg_angular e rows l E L).
  Qed.
  Lemma sg_lookup_angular i rf ri al rt : same_velocity (lookup_angular_velocity np_squad np_derivative s i rf ri al rt) (lookup_angular_velocity np_squad np_derivative s' i rf ri al rt).
  Proof.
    unfold same_velocity, lookup_angular_velocity. rewrite !sg_resolve_ref. apply rrel_bind_same. intros j. apply rrel_bind_same. intros k. destruct (sg_lookup s s' i (PFrame j) H) as (e & E & ->).
    destruct (lookup_transform np_squad s i (PFrame j)) as [tr|] eqn:L; [|reflexivity]. cbn [outcome bind]. rewrite sg_tr_ts. destruct (tr_ts tr) as [ts|] eqn:T; [|destruct al; [split; [apply nd_rel_refl|reflexivity]|reflexivity]].
    rewrite (sg_estimate i _ tr ts e L T E). apply rrel_bind_same. intros est. apply rrel_bind_same. intros g. eapply rrel_bind; [apply (sg_vectors s s' _ _ _ _ _ H)|]. intros [a o] [a' o'] [A O]. cbn [fst snd] in *. subst o'. unfold with_ts. cbn [rrel fst snd]. split; [exact A|reflexivity].
  Qed.
End Pair.

(* ------------------------------------------------------------------ resampling *)
Definition same_fun (sh : list nat) (f g : list nat -> R) : Prop := forall jx, valid sh jx -> f jx = g jx.
Lemma forall2_nth_error {A B} (P : A -> B -> Prop) l l' i : Forall2 P l l' -> match nth_error l i, nth_error l' i with Some a, Some b => P a b | None, None => True | _, _ => False end.
Proof. intros F. revert i. induction F as [|a b l l' Q F IH]; intros [|i]; cbn [nth_error]; auto. apply IH. Qed.
Lemma interp_rel ts a b l : nd_rel eq a b -> rrel (nd_rel eq) (interp_nd ts a l) (interp_nd ts b l).
Proof.
  intros [S D]. unfold interp_nd. rewrite S. set (n := hd 0%nat (shp a)). set (sh := tl (shp a)).
  assert (F : forall m k, (k + m <= n)%nat -> Forall2 (same_fun sh) (map (fun i jx => dat a (i :: jx)) (seq k m)) (map (fun i jx => dat b (i :: jx)) (seq k m))).
  { induction m as [|m IH]; intros k K; [constructor|]. cbn [seq map]. constructor; [|apply IH; lia]. intros jx V. apply D. unfold n, sh in *. destruct (shp a) as [|c s]; cbn [hd tl] in *; [lia|]. constructor; [lia|exact V]. }
  specialize (F n 0%nat (le_n n)). set (ya := map _ (seq 0 n)) in *. set (yb := map (fun i jx => dat b (i :: jx)) (seq 0 n)) in *.
  apply (rrel_bind (Forall2 (same_fun sh))).
  - unfold interp1d. destruct (forallb _ l); [|reflexivity]. apply rrel_traverse. intros x. unfold interp_at. destruct (interp_idx ts x) as [lo hi]. pose proof (forall2_nth_error _ _ _ lo F) as Lo. pose proof (forall2_nth_error _ _ _ hi F) as Hi.
    destruct (nth_error ts lo), (nth_error ts hi), (nth_error ya lo), (nth_error yb lo), (nth_error ya hi), (nth_error yb hi); try contradiction; try reflexivity. destruct (Req_b _ _); [reflexivity|]. cbn [rrel]. intros jx V. unfold lin_fun. rewrite (Lo jx V), (Hi jx V). reflexivity.
  - intros rows rows' FR. cbn [rrel]. split; [reflexivity|]. cbn [shp dat]. intros ix V. inversion V as [|i c jx s' I V']; subst. cbn [hd tl]. clear - FR V'. revert i. induction FR as [|f g rows rows' Q FR IH]; intros [|i]; cbn [nth]; auto.
Qed.
Lemma split_at (l : list nat) : forall k, (k < length l)%nat -> l = firstn k l ++ nth k l 0%nat :: skipn (S k) l.
Proof. induction l as [|x l IH]; intros k K; cbn [length] in K; [lia|]. destruct k as [|k]; [reflexivity|]. cbn [firstn nth skipn app]. f_equal. apply IH. lia. Qed.
Lemma tile_rel a b n : nd_rel eq a b -> nd_rel eq (tile_nd a n) (tile_nd b n).
Proof.
  intros [S D]. unfold tile_nd. rewrite S. destruct (shp a) as [|c [|c' s]] eqn:Sa.
  - split; [reflexivity|]. cbn [shp dat length firstn skipn app nth Nat.sub]. intros ix V. inversion V as [|i c jx s' I V']; subst. lia.
  - split; [reflexivity|]. cbn [shp dat]. intros ix V. inversion V as [|i c1 jx s' I V']; subst. apply D. exact V'.
  - assert (K : (length (c :: c' :: s) - 2 < length (c :: c' :: s))%nat) by (cbn [length]; lia). set (sh := c :: c' :: s) in *. set (k := (length sh - 2)%nat) in *. split; [reflexivity|]. cbn [shp dat]. intros ix V. apply D.
    assert (Split : sh = firstn k sh ++ nth k sh 0%nat :: skipn (Datatypes.S k) sh).
    { apply split_at, K. }
    apply Forall2_app_inv_r in V as (l1 & l2 & V1 & V2 & ->). inversion V2 as [|i c1 jx s' I V']; subst. assert (L1 : length l1 = k) by (apply valid_length in V1; rewrite V1, firstn_length; lia).
    rewrite firstn_app, L1, Nat.sub_diag, firstn_all2 by lia. cbn [firstn]. rewrite app_nil_r. rewrite app_nth2 by lia. rewrite L1, Nat.sub_diag. cbn [nth]. rewrite skipn_app, skipn_all2 by lia. rewrite L1. replace (Datatypes.S k - k)%nat with 1%nat by lia. cbn [skipn app].
    rewrite Split at 1. apply Forall2_app; [exact V1|]. constructor; [|exact V']. apply Nat.mod_upper_bound. intros Z. change (i < n * nth k sh 0)%nat in I. rewrite Z, Nat.mul_0_r in I. lia.
Qed.
Lemma resample_rel a b ts o : nd_rel eq a b -> last (shp a) O <> 4%nat -> rrel (nd_rel eq) (resample_array np_squad (MA a ts) o) (resample_array np_squad (MA b ts) o).
Proof.
  intros Rab N. unfold resample_array. cbn [ma_ts ma_data]. destruct ts as [ts|], o as [l|]; try reflexivity; [|apply tile_rel, Rab|exact Rab].
  rewrite (proj1 Rab). destruct (Nat.eqb_spec (last (shp a) 0%nat) 4); [contradiction|]. apply interp_rel, Rab.
Qed.
Definition pair_rel (p p' : nd R * option (list R)) : Prop := nd_rel eq (fst p) (fst p') /\ snd p' = snd p /\ last (shp (fst p)) O <> 4%nat.
Lemma match_rel l l' : Forall2 pair_rel l l' -> rrel (fun p p' => Forall2 (nd_rel eq) (fst p) (fst p') /\ snd p' = snd p) (match_arrays np_squad l) (match_arrays np_squad l').
Proof.
  intros F. unfold match_arrays.
  apply (rrel_bind (Forall2 (fun m m' => nd_rel eq (ma_data m) (ma_data m') /\ ma_ts m' = ma_ts m /\ last (shp (ma_data m)) O <> 4%nat))).
  - unfold traverse. induction F as [|[a t] [b t'] l l' (Q1 & Q2 & Q3) F IH]; cbn [map sequence]; [constructor|]. cbn [fst snd] in *. subst t'. unfold add_array at 1 3. cbn [fst snd]. rewrite (proj1 Q1). destruct (check_timestamps t (shp a)); [|reflexivity]. cbn [bind].
    eapply rrel_bind; [exact IH|]. intros ms ms' M. cbn [rrel]. constructor; [|exact M]. cbn [ma_data ma_ts]. auto.
  - intros ms ms' M. assert (T : map ma_ts ms' = map ma_ts ms) by (induction M as [|m m' ms ms' (_ & Q & _) M IH]; [reflexivity|]; cbn [map]; rewrite Q, IH; reflexivity).
    assert (G : get_timestamps (Mat [] ms') true = get_timestamps (Mat [] ms) true) by (unfold get_timestamps, get_range, arr_list, cont_list, disc_list; cbn [m_frames m_arrays]; rewrite T; reflexivity). rewrite G. apply rrel_bind_same. intros o.
    apply (rrel_bind (Forall2 (nd_rel eq))); [|intros bs bs' B; cbn [rrel fst snd]; split; [exact B|reflexivity]].
    unfold traverse. clear - M. induction M as [|[a t] [b t'] ms ms' (Q1 & Q2 & Q3) M IH]; cbn [map sequence]; [constructor|]. cbn [ma_data ma_ts] in *. subst t'.
    eapply rrel_bind; [apply resample_rel; assumption|]. intros x x' X. eapply rrel_bind; [exact IH|]. intros y y' Y. cbn [rrel]. constructor; assumption.
Qed.
