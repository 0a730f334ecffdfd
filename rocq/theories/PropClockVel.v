(** C87, continued: velocities measured with another clock. *)
From Coq Require Import Reals List Arith Bool ZArith Lra Lia FunctionalExtensionality.
From Verif Require Import Base Quat NdArray Frames Matcher Transform Squad Velocity VelFrames Spline PropClock.
Import ListNotations.
Open Scope R_scope.

(* ------------------------------------------------------------------ specification *)
(** The array times c. *)
Definition scale_nd (c : R) (a : nd R) : nd R := Nd (shp a) (fun ix => c * dat a ix).
(** The velocities (per second) as velocities per unit of the new clock; the time stamps
    read on the new clock. *)
Definition vel_tick (k o : R) (p : nd R * option (option (list R))) : nd R * option (option (list R)) :=
  (scale_nd (/ k) (fst p), option_map (option_map (map (tick k o))) (snd p)).
Definition twist_tick (k o : R) (p : nd R * nd R * option (option (list R))) : nd R * nd R * option (option (list R)) :=
  let '(l, a, ts) := p in (scale_nd (/ k) l, scale_nd (/ k) a, option_map (option_map (map (tick k o))) ts).
Definition varr_tick (k o : R) (p : nd R * option (list R)) : nd R * option (list R) :=
  (scale_nd (/ k) (fst p), option_map (map (tick k o)) (snd p)).

(* ------------------------------------------------------------------ scaled arrays *)
Lemma outcome_comp {A B C} (g : A -> B) (h : B -> C) r : outcome h (outcome g r) = outcome (fun a => h (g a)) r.
Proof. destruct r; reflexivity. Qed.
Section Scale.
  Variable c : R.
  Notation sc := (scale_nd c).
  Lemma comp3_scale n v : comp3 n (vscale c v) = c * comp3 n v.
  Proof. destruct n as [|[|n]]; reflexivity. Qed.
  Lemma vec_along_scale v n pre : vec_along (sc v) n pre = vscale c (vec_along v n pre).
  Proof. reflexivity. Qed.
  Lemma vcross_scale r v : vcross r (vscale c v) = vscale c (vcross r v).
  Proof. unfold vcross, vscale. cbn [vx vy vz]. f_equal; ring. Qed.
  Lemma vcross_scale_l r v : vcross (vscale c r) v = vscale c (vcross r v).
  Proof. unfold vcross, vscale. cbn [vx vy vz]. f_equal; ring. Qed.
  Lemma cross_scale r v n : cross_nd r (sc v) n = outcome sc (cross_nd r v n).
  Proof.
    unfold cross_nd. cbn [scale_nd shp]. apply outcome_bind_same. intros s. unfold scale_nd. cbn [outcome shp dat]. do 2 f_equal. extensionality ix.
    change (vec_along (Nd (shp v) (fun ix => c * dat v ix))) with (vec_along (sc v)). rewrite vec_along_scale, vcross_scale. apply comp3_scale.
  Qed.
  Lemma op2_scale (F : R -> R -> R) a b a' b' : shp a' = shp a -> shp b' = shp b ->
    (forall i j, F (dat a' i) (dat b' j) = c * F (dat a i) (dat b j)) -> op2 F a' b' = outcome sc (op2 F a b).
  Proof.
    intros A B H. unfold op2. rewrite A, B. apply outcome_bind_same. intros s. unfold scale_nd. cbn [outcome shp dat]. do 2 f_equal. extensionality ix. apply H.
  Qed.
  Lemma rot_arrays_scale q v n : rot_arrays q (sc v) n = outcome sc (rot_arrays q v n).
  Proof.
    unfold rot_arrays. change (ndim (sc v)) with (ndim v). destruct (existsb _ _); [reflexivity|]. rewrite cross_scale. apply outcome_bind. intros rxv.
    rewrite (op2_scale Rmult (swap_nd (ndim v - 1) n (Nd (shp q ++ [1%nat]) (fun ix => qw (dat q (removelast ix))))) v) by (try reflexivity; intros; cbn [scale_nd dat]; ring).
    apply outcome_bind. intros sv. rewrite (op2_scale Rplus sv rxv) by (try reflexivity; intros; cbn [scale_nd dat]; ring). apply outcome_bind. intros w.
    rewrite cross_scale. apply outcome_bind. intros cc.
    rewrite (op2_scale Rdiv (Nd (shp cc) (fun ix => 2 * dat cc ix)) (swap_nd (ndim v - 1) n (Nd (shp q ++ [1%nat]) (fun ix => qlen (dat q (removelast ix)))))) by (try reflexivity; intros; cbn [scale_nd dat]; unfold Rdiv; ring).
    apply outcome_bind. intros d. apply op2_scale; try reflexivity; intros; cbn [scale_nd dat]; ring.
  Qed.
  Lemma quat_rv_scale q v : quat_rv q (vscale c v) = outcome (vscale c) (quat_rv q v).
  Proof. unfold quat_rv. destruct (Req_b (qnorm2 q) 0); [reflexivity|]. cbn [outcome]. f_equal. unfold vscale. cbn [vx vy vz]. f_equal; ring. Qed.
  Lemma rotate_scale q v axis : rotate_vectors q (sc v) axis = outcome sc (rotate_vectors q v axis).
  Proof.
    unfold rotate_vectors. change (ndim (sc v)) with (ndim v). change (shp (sc v)) with (shp v). destruct (shp q) as [|n l].
    - apply outcome_bind_same. intros m. unfold rv0. change (shp (sc v)) with (shp v). destruct (Nat.eqb _ 3); [|reflexivity]. apply outcome_bind_same. intros _.
      cbn [outcome]. unfold scale_nd at 2. cbn [shp dat]. do 2 f_equal. extensionality ix. rewrite vec_along_scale, quat_rv_scale. destruct (quat_rv _ _); cbn [outcome]; [apply comp3_scale|ring].
    - apply outcome_bind_same. intros m. destruct (negb _); [reflexivity|]. destruct (negb _ || negb _); [reflexivity|]. apply rot_arrays_scale.
  Qed.
  Lemma swapaxes_scale a i j : swapaxes (sc a) i j = outcome sc (swapaxes a i j).
  Proof. unfold swapaxes. change (ndim (sc a)) with (ndim a). apply outcome_bind_same. intros i'. apply outcome_bind_same. intros j'. reflexivity. Qed.
  Lemma undo_scale a ta : undo_swap (sc a) ta = outcome sc (undo_swap a ta).
  Proof. destruct ta; [apply swapaxes_scale|reflexivity]. Qed.
  Lemma tile_scale a n : tile_nd (sc a) n = sc (tile_nd a n).
  Proof. unfold tile_nd. change (shp (sc a)) with (shp a). destruct (shp a) as [|m [|m' l]]; reflexivity. Qed.
  Lemma interp_at_scale {A} (g : A -> A) (lin : R -> R -> A -> A -> R -> A) xs ys x : (forall a b y z t, lin a b (g y) (g z) t = g (lin a b y z t)) ->
    interp_at lin xs (map g ys) x = outcome g (interp_at lin xs ys x).
  Proof.
    intros H. unfold interp_at. destruct (interp_idx xs x) as [lo hi]. rewrite !nth_error_map. destruct (nth_error xs lo); [|reflexivity]. destruct (nth_error xs hi); [|reflexivity].
    destruct (nth_error ys lo); [|reflexivity]. destruct (nth_error ys hi); [|reflexivity]. cbn [option_map]. destruct (Req_b _ _); [reflexivity|]. cbn [outcome]. rewrite H. reflexivity.
  Qed.
  Lemma interp_nd_scale ts a l : interp_nd ts (sc a) l = outcome sc (interp_nd ts a l).
  Proof.
    unfold interp_nd. change (shp (sc a)) with (shp a). cbn [scale_nd dat].
    set (g := fun (h : list nat -> R) jx => c * h jx).
    replace (map (fun i jx => c * dat a (i :: jx)) (seq 0 (hd 0%nat (shp a)))) with (map g (map (fun i jx => dat a (i :: jx)) (seq 0 (hd 0%nat (shp a))))) by (rewrite map_map; reflexivity).
    assert (I : interp1d lin_fun ts (map g (map (fun i jx => dat a (i :: jx)) (seq 0 (hd 0%nat (shp a))))) l = outcome (map g) (interp1d lin_fun ts (map (fun i jx => dat a (i :: jx)) (seq 0 (hd 0%nat (shp a)))) l)).
    { unfold interp1d. destruct (forallb _ l); [|reflexivity]. apply traverse_outcome_in. intros x. apply interp_at_scale. intros. unfold lin_fun, g. extensionality jx. unfold lin1, Rdiv. ring. }
    rewrite I. apply outcome_bind. intros rows. cbn [outcome]. unfold scale_nd at 1. cbn [shp dat]. do 2 f_equal. extensionality ix.
    replace (fun _ : list nat => 0) with (g (fun _ => 0)) at 1 by (unfold g; extensionality jx; ring). rewrite map_nth. reflexivity.
  Qed.
  Lemma resample_scale sq a ts o : (ts <> None -> last (shp a) O <> 4%nat) ->
    resample_array sq (MA (sc a) ts) o = outcome sc (resample_array sq (MA a ts) o).
  Proof.
    intros H. unfold resample_array. cbn [ma_ts ma_data]. destruct ts as [ts|], o as [l|]; try reflexivity.
    - change (shp (sc a)) with (shp a). destruct (Nat.eqb_spec (last (shp a) 0%nat) 4) as [E|E]; [exfalso; apply H; [discriminate|exact E]|]. apply interp_nd_scale.
    - cbn [outcome]. rewrite tile_scale. reflexivity.
  Qed.
  Lemma swapl_zero l : swapl 0 0 l = l.
  Proof.
    unfold swapl. apply nth_ext with (d := 0%nat) (d' := 0%nat); rewrite map_length, seq_length; [reflexivity|]. intros n H.
    rewrite (nth_indep _ 0%nat (nth (transp 0 0 0) l 0%nat)) by (rewrite map_length, seq_length; exact H).
    rewrite (map_nth (fun m => nth (transp 0 0 m) l 0%nat)), seq_nth by exact H. cbn [Nat.add]. unfold transp. destruct n; reflexivity.
  Qed.
  (** Default axes: coordinates last, time first. *)
  Lemma vectors_scale sq s i a to ts : (ts <> None -> last (shp a) O <> 4%nat) ->
    transform_vectors sq s i (sc a) to (-1) (Some 0%Z) ts = outcome (fun p => (sc (fst p), snd p)) (transform_vectors sq s i a to (-1) (Some 0%Z) ts).
  Proof.
    intros H. unfold transform_vectors.
    assert (P : prepare sq s i (sc a) to (-1) 3 (Some 0%Z) ts = outcome (fun p => (fst p, sc (snd p))) (prepare sq s i a to (-1) 3 (Some 0%Z) ts)).
    { unfold prepare.
      assert (V : validate_input (sc a) (-1) 3 ts (Some 0%Z) = outcome (fun p => (sc (fst p), snd p)) (validate_input a (-1) 3 ts (Some 0%Z))).
      { unfold validate_input. change (ndim (sc a)) with (ndim a). change (shp (sc a)) with (shp a). apply outcome_bind_same. intros m. destruct (negb _); [reflexivity|].
        destruct ts as [ts|]; [|reflexivity]. destruct (shp ts) as [|q [|x l]]; try reflexivity. apply outcome_bind_same. intros j. destruct (negb _); reflexivity. }
      assert (L : forall b ol, validate_input a (-1) 3 ts (Some 0%Z) = Ok (b, ol) -> ol <> None -> last (shp b) O <> 4%nat).
      { unfold validate_input. intros b ol E N. destruct (norm_axis (-1) (ndim a)) as [m|]; [|discriminate]. cbn [bind] in E. destruct (negb _); [discriminate|].
        destruct ts as [ts|]; [|injection E as <- <-; contradiction]. destruct (shp ts) as [|q [|x l]]; try discriminate.
        destruct (norm_axis 0 (ndim a)) as [j|] eqn:J; [|discriminate]. cbn [bind] in E. destruct (negb _); [discriminate|]. injection E as <- <-. cbn [swap_nd shp].
        assert (j = 0%nat) as -> by (unfold norm_axis in J; destruct (_ || _)%bool in J; [discriminate|]; injection J as <-; reflexivity).
        rewrite swapl_zero. apply H. discriminate. }
      rewrite V. destruct (validate_input a (-1) 3 ts (Some 0%Z)) as [[b ol]|e] eqn:E; [|reflexivity]. specialize (L b ol eq_refl). cbn [outcome bind fst snd].
      apply outcome_bind_same. intros j. apply outcome_bind_same. intros fs. unfold add_array. change (shp (sc b)) with (shp b).
      destruct (check_timestamps ol (shp b)); [|reflexivity]. cbn [bind].
      assert (T : get_transformation sq (Mat fs [MA (sc b) ol]) true = get_transformation sq (Mat fs [MA b ol]) true) by reflexivity. rewrite T.
      apply outcome_bind_same. intros tr. rewrite resample_scale by exact L. apply outcome_bind. reflexivity. }
    rewrite P. apply outcome_bind. intros [tr b]. cbn [fst snd]. change (ndim (sc b)) with (ndim b). rewrite rotate_scale. apply outcome_bind. intros d.
    rewrite undo_scale. apply outcome_bind. reflexivity.
  Qed.
End Scale.

(* ------------------------------------------------------------------ derivatives *)
Section Deriv.
  Variables (k o : R).
  Hypothesis K : 0 < k.
  Notation f := (tick k o).
  Lemma tick_diffs ts : diffs (map f ts) = map (Rmult k) (diffs ts).
  Proof.
    induction ts as [|a [|b l] IH]; try reflexivity. change ((f b - f a) :: diffs (map f (b :: l)) = k * (b - a) :: map (Rmult k) (diffs (b :: l))).
    rewrite IH. f_equal. unfold tick. ring.
  Qed.
  Lemma scale_eqb a b : Req_b (k * a) (k * b) = Req_b a b.
  Proof. unfold Req_b. destruct (Req_EM_T (k * a) (k * b)) as [h|h], (Req_EM_T a b) as [h'|h']; auto; exfalso; [apply h'; nra|apply h; congruence]. Qed.
  Lemma scale_eqb0 a : Req_b (k * a) 0 = Req_b a 0.
  Proof. rewrite <- (scale_eqb a 0), Rmult_0_r. reflexivity. Qed.
  Lemma existsb_map {A B} (g : A -> B) p l : existsb p (map g l) = existsb (fun a => p (g a)) l.
  Proof. induction l as [|a l IH]; [reflexivity|]. cbn [map existsb]. rewrite IH. reflexivity. Qed.
  Lemma forallb_map {A B} (g : A -> B) p l : forallb p (map g l) = forallb (fun a => p (g a)) l.
  Proof. induction l as [|a l IH]; [reflexivity|]. cbn [map forallb]. rewrite IH. reflexivity. Qed.
  Lemma existsb_same {A} (p q : A -> bool) l : (forall a, p a = q a) -> existsb p l = existsb q l.
  Proof. intros H. induction l as [|a l IH]; [reflexivity|]. cbn [existsb]. rewrite H, IH. reflexivity. Qed.
  Lemma forallb_same {A} (p q : A -> bool) l : (forall a, p a = q a) -> forallb p l = forallb q l.
  Proof. intros H. induction l as [|a l IH]; [reflexivity|]. cbn [forallb]. rewrite H, IH. reflexivity. Qed.
  Lemma combine_map2 {A B} (g : A -> B) l l' : combine (map g l) (map g l') = map (fun p => (g (fst p), g (snd p))) (combine l l').
  Proof. revert l'; induction l as [|a l IH]; intros [|b l']; try reflexivity. cbn [map combine]. rewrite IH. reflexivity. Qed.
  Lemma tick_uniform ts : uniform (map f ts) = uniform ts.
  Proof. unfold uniform. rewrite tick_diffs. destruct (diffs ts) as [|a l]; [reflexivity|]. cbn [map]. rewrite forallb_map. apply forallb_same. intros b. apply scale_eqb. Qed.
  Lemma tick_grad_check ts n : grad_check (map f ts) n = grad_check ts n.
  Proof.
    unfold grad_check. rewrite map_length, tick_diffs. destruct (negb _); [reflexivity|]. destruct (Nat.ltb n 2); [reflexivity|].
    replace (tl (map (Rmult k) (diffs ts))) with (map (Rmult k) (tl (diffs ts))) by (destruct (diffs ts); reflexivity). rewrite combine_map2, !existsb_map.
    rewrite (existsb_same _ (fun d => Req_b d 0) (diffs ts)) by apply scale_eqb0.
    rewrite (existsb_same _ (fun p => Req_b (fst p + snd p) 0) (combine _ _)); [reflexivity|]. intros p. cbn [fst snd]. rewrite <- Rmult_plus_distr_l. apply scale_eqb0.
  Qed.
  Lemma tick_gap ts i j : (i < length ts)%nat -> (j < length ts)%nat -> nth i (map f ts) 0 - nth j (map f ts) 0 = k * (nth i ts 0 - nth j ts 0).
  Proof. intros I J. rewrite !tick_nth by assumption. unfold tick. ring. Qed.
  Lemma tick_grad_at ts g i : (2 <= length ts)%nat -> (i < length ts)%nat -> grad_at (map f ts) g i = / k * grad_at ts g i.
  Proof.
    intros L I. unfold grad_at. rewrite map_length, tick_uniform. destruct (Nat.eqb_spec i 0) as [->|N].
    - rewrite tick_gap by lia. unfold Rdiv. rewrite Rinv_mult. ring.
    - destruct (Nat.eqb_spec (S i) (length ts)) as [E|E]; [rewrite tick_gap by lia; unfold Rdiv; rewrite Rinv_mult; ring|].
      destruct (uniform ts); [rewrite tick_gap by lia; unfold Rdiv; rewrite !Rinv_mult; ring|]. cbv zeta. rewrite !tick_gap by lia.
      set (x := nth i ts 0 - nth (i - 1) ts 0). set (y := nth (S i) ts 0 - nth i ts 0).
      replace (k * x * (k * x + k * y)) with (k * (k * (x * (x + y)))) by ring. replace (k * y * (k * x + k * y)) with (k * (k * (y * (x + y)))) by ring.
      replace (k * x * (k * y)) with (k * (k * (x * y))) by ring. unfold Rdiv.
      assert (J : forall z w, k * z * / (k * (k * w)) = / k * (z * / w)) by (intros z w; rewrite !Rinv_mult; replace (k * z * (/ k * (/ k * / w))) with (k * / k * (/ k * (z * / w))) by ring; rewrite Rinv_r by lra; ring).
      replace (- (k * y)) with (k * (- y)) by ring. replace (k * y - k * x) with (k * (y - x)) by ring. rewrite !J. ring.
  Qed.
  (* ---- the spline ---- *)
  Lemma tick_dt ts i : (S i < length ts)%nat -> dt (map f ts) i = k * dt ts i.
  Proof. intros H. unfold dt. apply tick_gap; lia. Qed.
  Lemma tick_slope ts fs i : (S i < length ts)%nat -> slope (map f ts) fs i = / k * slope ts fs i.
  Proof. intros H. unfold slope. rewrite tick_dt by exact H. unfold Rdiv. rewrite Rinv_mult. ring. Qed.
  Lemma cancel_k z w : k * z / (k * w) = z / w.
  Proof. unfold Rdiv. rewrite Rinv_mult. replace (k * z * (/ k * / w)) with (k * / k * (z * / w)) by ring. rewrite Rinv_r by lra. ring. Qed.
  Lemma tick_lam ts i : (S (S i) < length ts)%nat -> lam (map f ts) i = lam ts i.
  Proof. intros H. unfold lam. rewrite !tick_dt by lia. rewrite <- Rmult_plus_distr_l. apply cancel_k. Qed.
  Lemma tick_mu ts i : (S (S i) < length ts)%nat -> mu (map f ts) i = mu ts i.
  Proof. intros H. unfold mu. rewrite !tick_dt by lia. rewrite <- Rmult_plus_distr_l. apply cancel_k. Qed.
  Lemma tick_rhs ts fs i : (S (S i) < length ts)%nat -> rhs (map f ts) fs i = / k * rhs ts fs i.
  Proof. intros H. unfold rhs. rewrite tick_lam, tick_mu, !tick_slope by lia. ring. Qed.
  Lemma cancel_k2 z w : k ^ 2 * z / (k ^ 2 * w) = z / w.
  Proof. replace (k ^ 2 * z) with (k * (k * z)) by ring. replace (k ^ 2 * w) with (k * (k * w)) by ring. rewrite !cancel_k. reflexivity. Qed.
  Lemma tick_head ts fs : (3 <= length ts)%nat -> head_rhs (map f ts) fs = / k * head_rhs ts fs.
  Proof.
    intros H. unfold head_rhs. rewrite !tick_dt, !tick_slope by lia. set (a := dt ts 0). set (b := dt ts 1). set (x := slope ts fs 0). set (y := slope ts fs 1).
    replace ((k * a + k * b) ^ 2) with (k ^ 2 * (a + b) ^ 2) by ring.
    replace ((3 * (k * a) * (k * b) + 2 * (k * b) ^ 2) * (/ k * x) + (k * a) ^ 2 * (/ k * y)) with (k ^ 2 * (/ k * ((3 * a * b + 2 * b ^ 2) * x + a ^ 2 * y))) by ring.
    rewrite cancel_k2. unfold Rdiv. ring.
  Qed.
  Lemma tick_last_rhs ts fs n : (2 <= n)%nat -> (n < length ts)%nat -> last_rhs (map f ts) fs n = / k * last_rhs ts fs n.
  Proof.
    intros N H. unfold last_rhs. cbv zeta. rewrite !tick_dt, !tick_slope by lia. set (a := dt ts (n - 2)). set (b := dt ts (n - 1)). set (x := slope ts fs (n - 1)). set (y := slope ts fs (n - 2)).
    replace ((k * a + k * b) ^ 2) with (k ^ 2 * (a + b) ^ 2) by ring.
    replace ((3 * (k * a) * (k * b) + 2 * (k * a) ^ 2) * (/ k * x) + (k * b) ^ 2 * (/ k * y)) with (k ^ 2 * (/ k * ((3 * a * b + 2 * a ^ 2) * x + b ^ 2 * y))) by ring.
    rewrite cancel_k2. unfold Rdiv. ring.
  Qed.
  Lemma hd_map_scale l : hd 0 (map (Rmult (/ k)) l) = / k * hd 0 l.
  Proof. destruct l; cbn [map hd]; ring. Qed.
  Lemma last_map_scale l : last (map (Rmult (/ k)) l) 0 = / k * last l 0.
  Proof. induction l as [|a [|b l] IH]; [cbn; ring|reflexivity|]. exact IH. Qed.
  Lemma tick_solve ts fs n m : (2 <= n)%nat -> (n < length ts)%nat -> forall i c g, (S (S (i + m)) < length ts)%nat ->
    solve (map f ts) fs n i m c (/ k * g) = map (Rmult (/ k)) (solve ts fs n i m c g).
  Proof.
    intros N H. induction m as [|m IH]; intros i c g L; cbn [solve map].
    - cbv zeta. rewrite tick_rhs, tick_lam, tick_last_rhs by lia. cbn [map]. unfold Rdiv. f_equal; [ring|]. f_equal. ring.
    - cbv zeta. rewrite tick_rhs, tick_lam, tick_mu by lia.
      replace ((/ k * rhs ts fs i - lam ts i * (/ k * g)) / (2 - lam ts i * c)) with (/ k * ((rhs ts fs i - lam ts i * g) / (2 - lam ts i * c))) by (unfold Rdiv; ring).
      rewrite IH by lia. rewrite hd_map_scale. cbn [map]. f_equal. ring.
  Qed.
  Lemma tick_fit ts fs n : (3 <= n)%nat -> (n < length ts)%nat -> spline_fit (map f ts) fs n = map (Rmult (/ k)) (spline_fit ts fs n).
  Proof.
    intros N H. unfold spline_fit. cbv zeta. rewrite tick_mu, tick_rhs, tick_head by lia.
    replace (/ k * rhs ts fs 0 - / k * head_rhs ts fs) with (/ k * (rhs ts fs 0 - head_rhs ts fs)) by ring. rewrite tick_solve by lia.
    rewrite hd_map_scale, last_map_scale, tick_lam, tick_mu, tick_last_rhs by lia. cbn [map]. rewrite map_app. cbn [map]. f_equal; [unfold Rdiv; ring|]. f_equal. f_equal. unfold Rdiv. ring.
  Qed.
  Lemma tick_derivative fs ts : np_derivative fs (map f ts) = outcome (map (Rmult (/ k))) (np_derivative fs ts).
  Proof.
    unfold np_derivative. rewrite tick_strictly by exact K. rewrite map_length. destruct (strictly ts && Nat.leb 4 (length ts) && Nat.eqb (length fs) (length ts)) eqn:E; [|reflexivity].
    cbn [outcome]. f_equal. apply andb_prop in E as [E _]. apply andb_prop in E as [_ E]. apply Nat.leb_le in E. apply tick_fit; lia.
  Qed.

  (* ---- the estimators ---- *)
  Definition scale_opt (a : nd (option R)) : nd (option R) := Nd (shp a) (fun ix => option_map (Rmult (/ k)) (dat a ix)).
  Lemma tick_angular a ts axis ta : estimate_angular np_derivative a (map f ts) axis ta = outcome scale_opt (estimate_angular np_derivative a ts axis ta).
  Proof.
    unfold estimate_angular. destruct (ndim a) as [|n1]; [reflexivity|]. rewrite map_length. cbv zeta.
    set (kk := Z.to_nat (axis mod Z.of_nat (S n1))). set (tau := if Nat.eqb (Z.to_nat (ta mod Z.of_nat (S n1))) n1 then kk else Z.to_nat (ta mod Z.of_nat (S n1))).
    destruct (negb _); [reflexivity|]. destruct (negb _); [reflexivity|].
    match goal with |- context [filter ?P (seq 0 (length ts))] => set (good := filter P (seq 0 (length ts))) end.
    replace (map (fun m => nth m (map f ts) 0) good) with (map f (map (fun m => nth m ts 0) good)).
    2:{ rewrite map_map. apply map_ext_in. intros m M. symmetry. apply tick_nth. apply filter_In in M as [M _]. apply in_seq in M. lia. }
    set (times := map (fun m => nth m ts 0) good). set (series := fun ix => map (fun m => num (dat (swap_nd kk n1 a) (setn tau m ix))) good).
    rewrite (traverse_outcome_in (map (Rmult (/ k))) (fun ix => np_derivative (series ix) times)) by (intros; apply tick_derivative).
    apply outcome_bind. intros _. cbn [outcome]. f_equal. unfold scale_opt, swap_nd. cbn [shp dat]. f_equal. extensionality ix. destruct (existsb _ _); [reflexivity|]. cbn [option_map]. f_equal.
    set (ix' := swapl kk n1 ix).
    assert (D : forall c, match np_derivative (series (setn n1 c ix')) (map f times) with Ok l => nth (pos_in (nth tau ix' 0%nat) good) l 0 | Raise _ => 0 end =
                / k * match np_derivative (series (setn n1 c ix')) times with Ok l => nth (pos_in (nth tau ix' 0%nat) good) l 0 | Raise _ => 0 end).
    { intros c. rewrite tick_derivative. destruct (np_derivative _ times) as [l|e]; cbn [outcome]; [|ring].
      replace (nth (pos_in (nth tau ix' 0%nat) good) (map (Rmult (/ k)) l) 0) with (nth (pos_in (nth tau ix' 0%nat) good) (map (Rmult (/ k)) l) (/ k * 0)) by (f_equal; ring). apply map_nth. }
    unfold series, swap_nd in D. cbn [dat] in D. fold ix'. rewrite !D. clear D.
    match goal with |- comp3 ?n (qvec ?A) = / k * comp3 ?n (qvec ?B) => assert (E : qvec A = vscale (/ k) (qvec B)) end.
    { unfold qvec, vscale, qmulq. cbn [qw qx qy qz vx vy vz]. f_equal; ring. }
    rewrite E. apply comp3_scale.
  Qed.
End Deriv.

(* ------------------------------------------------------------------ shapes *)
Lemma nth_pred_last (l : list nat) : nth (length l - 1) l O = last l O.
Proof. induction l as [|a [|b l] IH]; try reflexivity. cbn [length] in *. replace (S (S (length l)) - 1)%nat with (S (S (length l) - 1)) by lia. exact IH. Qed.
Lemma norm_last n m : norm_axis (-1) n = Ok m -> (0 < n)%nat /\ m = (n - 1)%nat.
Proof.
  unfold norm_axis. destruct n as [|n]; [discriminate|]. destruct (_ || _)%bool eqn:E; [discriminate|]. intros H. apply (f_equal (fun r => match r with Ok z => z | Raise _ => O end)) in H. cbv beta iota in H. rewrite <- H. split; [lia|].
  replace (if Z.ltb (-1) 0 then (-1 + Z.of_nat (S n))%Z else (-1)%Z) with (Z.of_nat n) by (change (Z.ltb (-1) 0) with true; cbv iota; lia). lia.
Qed.
Lemma last_rev_hd (l : list nat) : last (rev l) O = hd O l.
Proof. destruct l as [|a l]; [reflexivity|]. cbn [rev hd]. apply last_last. Qed.
Lemma bshape_last s t u : bshape s t = Ok u -> last s O = 3%nat -> last u O = 3%nat.
Proof.
  unfold bshape. destruct (brev (rev s) (rev t)) as [w|] eqn:E; [|discriminate]. intros H L. injection H as <-. rewrite last_rev_hd.
  rewrite <- (rev_involutive s), last_rev_hd in L. destruct (rev s) as [|a s']; [discriminate|]. cbn [hd] in L. subst a. destruct (rev t) as [|b t']; [injection E as <-; reflexivity|].
  cbn [brev] in E. destruct (brev s' t'); [|discriminate]. destruct (Nat.eqb 3 b); [injection E as <-; reflexivity|]. cbn [Nat.eqb] in E. destruct b as [|[|b]]; try discriminate. injection E as <-. reflexivity.
Qed.
Lemma rotate_last q v c : rotate_vectors q v (-1) = Ok c -> last (shp c) O = 3%nat.
Proof.
  unfold rotate_vectors. intros H. destruct (norm_axis (-1) (ndim v)) as [m|] eqn:N; [|destruct (shp q); discriminate]. apply norm_last in N as [_ ->]. unfold ndim in *.
  assert (L : Nat.eqb (nth (length (shp v) - 1) (shp v) 0%nat) 3 = true -> last (shp v) 0%nat = 3%nat) by (rewrite nth_pred_last; apply Nat.eqb_eq).
  destruct (shp q) as [|n l]; cbn [bind] in H.
  - unfold rv0 in H. destruct (Nat.eqb _ 3); [|discriminate]. destruct (quat_rv _ _); [|discriminate]. cbn [bind] in H. injection H as <-. cbn [shp]. auto.
  - destruct (Nat.eqb _ 3); [|discriminate]. specialize (L eq_refl). cbn [negb] in H. destruct (_ || _)%bool in H; [discriminate|]. unfold rot_arrays in H. destruct (existsb _ _); [discriminate|].
    repeat match type of H with bind ?m ?g = Ok _ => let E := fresh in destruct m eqn:E; [|discriminate]; cbn [bind] in H end.
    unfold op2 in H. destruct (bshape (shp v) _) as [u|] eqn:B; [|discriminate]. cbn [bind] in H. injection H as <-. cbn [shp]. exact (bshape_last _ _ _ B L).
Qed.
Lemma vectors_last sq s i a to ts d o : transform_vectors sq s i a to (-1) (Some 0%Z) ts = Ok (d, o) -> last (shp d) O = 3%nat.
Proof.
  unfold transform_vectors. intros H. destruct (prepare _ _ _ _ _ _ _ _ _) as [[tr b]|]; [|discriminate]. cbn [bind] in H.
  destruct (rotate_vectors _ _ _) as [c|] eqn:R; [|discriminate]. cbn [bind undo_swap] in H. unfold swapaxes in H.
  destruct (norm_axis 0 (ndim c)) as [n|] eqn:N; [|discriminate]. cbn [bind] in H. injection H as <- _. apply rotate_last in R. cbn [swap_nd shp].
  assert (n = 0%nat) as -> by (unfold norm_axis in N; destruct (_ || _)%bool in N; [discriminate|]; injection N as <-; reflexivity). rewrite swapl_zero. exact R.
Qed.
Lemma vectors_scale_all c sq s i a to ts :
  transform_vectors sq s i (scale_nd c a) to (-1) (Some 0%Z) ts = outcome (fun p => (scale_nd c (fst p), snd p)) (transform_vectors sq s i a to (-1) (Some 0%Z) ts).
Proof.
  destruct (Nat.eq_dec (last (shp a) O) 4) as [E|E]; [|apply vectors_scale; auto].
  assert (V : forall b, shp b = shp a -> exists e, validate_input b (-1) 3 ts (Some 0%Z) = Raise e /\ validate_input a (-1) 3 ts (Some 0%Z) = Raise e).
  { intros b Hb. unfold validate_input, ndim. rewrite Hb. destruct (norm_axis (-1) (length (shp a))) as [m|e] eqn:N; [|exists e; split; reflexivity].
    apply norm_last in N as [_ ->]. cbn [bind]. rewrite nth_pred_last, E. cbn [Nat.eqb negb]. exists ValueError. split; reflexivity. }
  destruct (V (scale_nd c a) eq_refl) as (e & V1 & V2). unfold transform_vectors, prepare. rewrite V1, V2. reflexivity.
Qed.
(** Only the rows of the array matter. *)
Lemma vectors_rows sq s i a a' to ts : shp a' = shp a -> last (shp a) O <> 4%nat ->
  (forall n jx, (n < hd O (shp a))%nat -> dat a' (n :: jx) = dat a (n :: jx)) ->
  transform_vectors sq s i a' to (-1) (Some 0%Z) (Some ts) = transform_vectors sq s i a to (-1) (Some 0%Z) (Some ts).
Proof.
  intros S4 L D. unfold transform_vectors. f_equal. unfold prepare, validate_input, ndim. rewrite S4. destruct (norm_axis (-1) _) as [m|]; [|reflexivity]. cbn [bind].
  destruct (negb _); [reflexivity|]. destruct (shp ts) as [|q [|x l]]; try reflexivity. destruct (norm_axis 0 _) as [j|] eqn:N; [|reflexivity]. cbn [bind]. destruct (negb _); [reflexivity|]. cbn [bind].
  assert (j = 0%nat) as -> by (unfold norm_axis in N; destruct (_ || _)%bool in N; [discriminate|]; injection N as <-; reflexivity).
  destruct (resolve_rf s to) as [r|]; [|reflexivity]. cbn [bind]. destruct (frames_between s i r) as [fs|]; [|reflexivity]. cbn [bind].
  unfold add_array. cbn [swap_nd shp]. rewrite !swapl_zero, S4. destruct (check_timestamps _ _); [|reflexivity]. cbn [bind]. set (tl0 := map (fun n => dat ts [n]) (seq 0 q)).
  assert (T : forall b b', get_transformation sq (Mat fs [MA b (Some tl0)]) true = get_transformation sq (Mat fs [MA b' (Some tl0)]) true) by reflexivity.
  rewrite (T (swap_nd 0 0 a') (swap_nd 0 0 a)). destruct (get_transformation _ _ _) as [tr|]; [|reflexivity]. cbn [bind]. f_equal.
  unfold resample_array. cbn [ma_ts ma_data]. destruct (tr_ts tr) as [ll|]; [|reflexivity]. cbn [swap_nd shp]. rewrite !swapl_zero, S4. destruct (Nat.eqb_spec (last (shp a) 0%nat) 4) as [|N4]; [contradiction|].
  unfold interp_nd. cbn [swap_nd shp dat]. rewrite !swapl_zero, S4. do 2 f_equal. apply map_ext_in. intros n Hn. apply in_seq in Hn. extensionality jx. rewrite !swapl_zero. apply D. lia.
Qed.

(* ------------------------------------------------------------------ velocities *)
Section Vel.
  Variables (k o : R).
  Hypothesis K : 0 < k.
  Notation f := (tick k o).
  Notation st := (state_tick k o).
  Notation sc := (scale_nd (/ k)).
  Lemma tick_resolve_ref s i p : resolve_ref (st s) i p = resolve_ref s i p.
  Proof. unfold resolve_ref. rewrite tick_parent. destruct p as [[n|n|]|]; cbv zeta; try destruct (String.eqb n _); try (destruct (option_map PFrame (parent_of s i)); [|reflexivity]); rewrite tick_resolve; reflexivity. Qed.
  Lemma list_by_nth (l : list R) : map (fun n => nth n l 0) (seq 0 (length l)) = l.
  Proof.
    apply nth_ext with (d := 0) (d' := 0); rewrite map_length, seq_length; [reflexivity|]. intros n H.
    rewrite (nth_indep _ 0 (nth 0 l 0)) by (rewrite map_length, seq_length; exact H). rewrite (map_nth (fun m => nth m l 0)), seq_nth by exact H. reflexivity.
  Qed.
  Lemma tick_vectors_stamps s i a to ax ta ts :
    transform_vectors np_squad (st s) i a to ax ta (option_map stamps_nd (option_map (map f) ts)) = outcome (arr_tick k o) (transform_vectors np_squad s i a to ax ta (option_map stamps_nd ts)).
  Proof.
    rewrite <- tick_vectors by exact K. destruct ts as [l|]; [|reflexivity]. cbn [option_map]. unfold transform_vectors, prepare. do 2 f_equal.
    unfold validate_input. destruct (norm_axis ax (ndim a)); [|reflexivity]. cbn [bind]. destruct (negb _); [reflexivity|]. cbn [stamps_nd nd_tick shp dat]. rewrite map_length.
    destruct ta as [ta|]; [|reflexivity]. destruct (norm_axis ta (ndim a)); [|reflexivity]. cbn [bind]. destruct (negb _); [reflexivity|]. do 3 f_equal.
    rewrite <- (map_length f l) at 1. cbn [hd]. rewrite list_by_nth. rewrite <- (map_map (fun n => nth n l 0) f), list_by_nth. reflexivity.
  Qed.
  Lemma tick_vectors_some s i a to ax ta ts :
    transform_vectors np_squad (st s) i a to ax ta (Some (stamps_nd (map f ts))) = outcome (arr_tick k o) (transform_vectors np_squad s i a to ax ta (Some (stamps_nd ts))).
  Proof. exact (tick_vectors_stamps s i a to ax ta (Some ts)). Qed.
  Lemma zeros_scale : sc zeros3 = zeros3.
  Proof. unfold scale_nd, zeros3. cbn [shp dat]. f_equal. extensionality ix. ring. Qed.
  Lemma tr_t_last tr : last (shp (tr_t tr)) O = 3%nat.
  Proof. destruct tr; reflexivity. Qed.
  (** The gradient, handed to transform_vectors. *)
  Lemma tick_gradient a ts : last (shp a) O = 3%nat -> exists g', gradient_nd a (map f ts) 0 = outcome g' (gradient_nd a ts 0) /\
    forall g, gradient_nd a ts 0 = Ok g -> last (shp g) O = 3%nat /\
      forall sq s i to w, transform_vectors sq s i (g' g) to (-1) (Some 0%Z) (Some w) = outcome (fun p => (sc (fst p), snd p)) (transform_vectors sq s i g to (-1) (Some 0%Z) (Some w)).
  Proof.
    intros L. unfold gradient_nd. rewrite tick_grad_check by exact K. destruct (grad_check ts (nth 0 (shp a) 0%nat)) as [u|e] eqn:C; cbn [bind].
    2:{ exists (fun g => g). split; [reflexivity|discriminate]. }
    exists (fun _ => Nd (shp a) (fun ix => grad_at (map f ts) (fun m => dat a (setn 0 m ix)) (nth 0 ix 0%nat))). split; [reflexivity|]. intros g G. injection G as <-. split; [exact L|].
    intros sq s i to w. rewrite <- vectors_scale_all. apply vectors_rows; [reflexivity|cbn [scale_nd shp]; rewrite L; discriminate|].
    intros n jx Hn. cbn [scale_nd dat shp nth] in *. unfold grad_check in C. destruct (Nat.eqb_spec (length ts) (nth 0 (shp a) 0%nat)) as [E|]; [|discriminate]. cbn [negb] in C.
    destruct (Nat.ltb_spec (nth 0 (shp a) 0%nat) 2) as [|G2]; [discriminate|]. apply tick_grad_at; [exact K|lia|]. rewrite E. destruct (shp a); exact Hn.
  Qed.
  Lemma tick_lookup_linear s i rf ri al rt : lookup_linear_velocity np_squad (st s) i rf ri al rt = outcome (vel_tick k o) (lookup_linear_velocity np_squad s i rf ri al rt).
  Proof.
    unfold lookup_linear_velocity. rewrite !tick_resolve_ref. apply outcome_bind_same. intros j. apply outcome_bind_same. intros m. rewrite tick_lookup by exact K. apply outcome_bind. intros tr.
    rewrite tick_tr_ts, tick_tr_t. destruct (tr_ts tr) as [ts|]; cbn [option_map].
    - destruct (tick_gradient (tr_t tr) ts (tr_t_last tr)) as (g' & E & G). rewrite E. destruct (gradient_nd (tr_t tr) ts 0) as [g|e]; [|reflexivity]. destruct (G g eq_refl) as (_ & V). cbn [outcome bind].
      rewrite tick_vectors_some, V. destruct (transform_vectors _ _ _ _ _ _ _ _) as [[b w]|e]; [|reflexivity]. cbn [outcome bind arr_tick fst snd with_ts]. unfold with_ts, vel_tick. destruct rt; reflexivity.
    - destruct al; [|reflexivity]. unfold vel_tick. cbn [outcome fst snd option_map]. rewrite zeros_scale. reflexivity.
  Qed.
  Lemma tick_no_nan a : no_nan (scale_opt k a) = outcome sc (no_nan a).
  Proof.
    unfold no_nan. cbn [scale_opt shp dat]. rewrite (existsb_same _ (fun ix => is_nan (dat a ix))) by (intros ix; destruct (dat a ix); reflexivity). destruct (existsb _ _); [reflexivity|].
    cbn [outcome]. unfold scale_nd. cbn [shp dat]. do 2 f_equal. extensionality ix. destruct (dat a ix); cbn [option_map num]; ring.
  Qed.
  Lemma tick_lookup_angular s i rf ri al rt : lookup_angular_velocity np_squad np_derivative (st s) i rf ri al rt = outcome (vel_tick k o) (lookup_angular_velocity np_squad np_derivative s i rf ri al rt).
  Proof.
    unfold lookup_angular_velocity. rewrite !tick_resolve_ref. apply outcome_bind_same. intros j. apply outcome_bind_same. intros m. rewrite tick_lookup by exact K. apply outcome_bind. intros tr.
    rewrite tick_tr_ts. unfold tr_r_opt. rewrite tick_tr_r. fold (tr_r_opt tr). destruct (tr_ts tr) as [ts|]; cbn [option_map].
    - rewrite tick_angular by exact K. apply outcome_bind. intros est. rewrite tick_no_nan. apply outcome_bind. intros ang. rewrite tick_vectors_some, vectors_scale_all.
      destruct (transform_vectors _ _ _ _ _ _ _ _) as [[b w]|e]; [|reflexivity]. cbn [outcome bind arr_tick fst snd]. unfold with_ts, vel_tick. destruct rt; reflexivity.
    - destruct al; [|reflexivity]. unfold vel_tick. cbn [outcome fst snd option_map]. rewrite zeros_scale. reflexivity.
  Qed.
  (* ---- several arrays on common times ---- *)
  Definition mtick (c : R) (m : marray) : marray := MA (scale_nd c (ma_data m)) (option_map (map f) (ma_ts m)).
  Lemma tick_add c a ts : add_array (scale_nd c a) (option_map (map f) ts) = outcome (mtick c) (add_array a ts).
  Proof. unfold add_array. rewrite tick_check by exact K. change (shp (scale_nd c a)) with (shp a). destruct (check_timestamps ts (shp a)); reflexivity. Qed.
  Lemma stamps_only ms ms' : map ma_ts ms' = map ma_ts ms -> get_timestamps (Mat [] ms') true = get_timestamps (Mat [] ms) true.
  Proof. intros H. unfold get_timestamps, get_range, arr_list, cont_list, disc_list. cbn [m_frames m_arrays]. rewrite H. reflexivity. Qed.
  Lemma tick_common ms ms' : map ma_ts ms' = map (option_map (map f)) (map ma_ts ms) -> get_timestamps (Mat [] ms') true = outcome (option_map (map f)) (get_timestamps (Mat [] ms) true).
  Proof. intros H. rewrite <- tick_timestamps by exact K. apply stamps_only. rewrite H. cbn [m_arrays]. rewrite !map_map. reflexivity. Qed.
  Lemma add_array_inv a ts m : add_array a ts = Ok m -> m = MA a ts.
  Proof. unfold add_array. destruct (check_timestamps ts (shp a)); [|discriminate]. cbn [bind]. congruence. Qed.
  Lemma tick_resampled c a ts w : last (shp a) O <> 4%nat ->
    resample_array np_squad (mtick c (MA a ts)) (option_map (map f) w) = outcome (scale_nd c) (resample_array np_squad (MA a ts) w).
  Proof.
    intros L. unfold mtick. cbn [ma_data ma_ts]. rewrite resample_scale by auto. f_equal. exact (tick_resample k o K (MA a ts) w).
  Qed.
  Lemma tick_match2 c d a ta b tb : last (shp a) O <> 4%nat -> last (shp b) O <> 4%nat ->
    match_arrays np_squad [(scale_nd c a, option_map (map f) ta); (scale_nd d b, option_map (map f) tb)] =
    outcome (fun p => (match fst p with [x; y] => [scale_nd c x; scale_nd d y] | l => l end, option_map (map f) (snd p))) (match_arrays np_squad [(a, ta); (b, tb)]).
  Proof.
    intros A B. unfold match_arrays, traverse. cbn [map sequence fst snd]. rewrite !tick_add. unfold add_array.
    destruct (check_timestamps ta (shp a)); [|reflexivity]. cbn [outcome bind]. destruct (check_timestamps tb (shp b)); [|reflexivity]. cbn [outcome bind].
    rewrite (tick_common [MA a ta; MA b tb]) by reflexivity. destruct (get_timestamps _ _) as [w|]; [|reflexivity]. cbn [outcome bind map sequence].
    rewrite !tick_resampled by assumption. destruct (resample_array np_squad (MA a ta) w); [|reflexivity]. cbn [outcome bind]. destruct (resample_array np_squad (MA b tb) w); reflexivity.
  Qed.
  Lemma tick_match4 c1 c2 c3 c4 a1 t1 a2 t2 a3 t3 a4 t4 : last (shp a1) O <> 4%nat -> last (shp a2) O <> 4%nat -> last (shp a3) O <> 4%nat -> last (shp a4) O <> 4%nat ->
    match_arrays np_squad [(scale_nd c1 a1, option_map (map f) t1); (scale_nd c2 a2, option_map (map f) t2); (scale_nd c3 a3, option_map (map f) t3); (scale_nd c4 a4, option_map (map f) t4)] =
    outcome (fun p => (match fst p with [x; y; z; w] => [scale_nd c1 x; scale_nd c2 y; scale_nd c3 z; scale_nd c4 w] | l => l end, option_map (map f) (snd p)))
      (match_arrays np_squad [(a1, t1); (a2, t2); (a3, t3); (a4, t4)]).
  Proof.
    intros A1 A2 A3 A4. unfold match_arrays, traverse. cbn [map sequence fst snd]. rewrite !tick_add. unfold add_array.
    destruct (check_timestamps t1 (shp a1)); [|reflexivity]. cbn [outcome bind]. destruct (check_timestamps t2 (shp a2)); [|reflexivity]. cbn [outcome bind].
    destruct (check_timestamps t3 (shp a3)); [|reflexivity]. cbn [outcome bind]. destruct (check_timestamps t4 (shp a4)); [|reflexivity]. cbn [outcome bind].
    rewrite (tick_common [MA a1 t1; MA a2 t2; MA a3 t3; MA a4 t4]) by reflexivity. destruct (get_timestamps _ _) as [w|]; [|reflexivity]. cbn [outcome bind map sequence].
    rewrite !tick_resampled by assumption. destruct (resample_array np_squad (MA a1 t1) w); [|reflexivity]. cbn [outcome bind]. destruct (resample_array np_squad (MA a2 t2) w); [|reflexivity]. cbn [outcome bind].
    destruct (resample_array np_squad (MA a3 t3) w); [|reflexivity]. cbn [outcome bind]. destruct (resample_array np_squad (MA a4 t4) w); reflexivity.
  Qed.
  Lemma scale_one a : scale_nd 1 a = a.
  Proof. destruct a as [sh d]. unfold scale_nd. cbn [shp dat]. f_equal. extensionality ix. ring. Qed.

  Lemma tick_lookup_twist s i rf ri al rt : lookup_twist np_squad np_derivative (st s) i rf ri al rt = outcome (twist_tick k o) (lookup_twist np_squad np_derivative s i rf ri al rt).
  Proof.
    unfold lookup_twist. rewrite !tick_resolve_ref. apply outcome_bind_same. intros j. apply outcome_bind_same. intros m. rewrite tick_lookup by exact K. apply outcome_bind. intros tr.
    rewrite tick_tr_ts, tick_tr_t. unfold tr_r_opt. rewrite tick_tr_r. fold (tr_r_opt tr). destruct (tr_ts tr) as [ts|]; cbn [option_map].
    - destruct (tick_gradient (tr_t tr) ts (tr_t_last tr)) as (g' & E & G). rewrite E. destruct (gradient_nd (tr_t tr) ts 0) as [g|e]; [|reflexivity]. destruct (G g eq_refl) as (_ & V). cbn [outcome bind].
      rewrite tick_angular by exact K. apply outcome_bind. intros est. rewrite tick_no_nan. apply outcome_bind. intros ang.
      rewrite !tick_vectors_some, V, vectors_scale_all. destruct (transform_vectors np_squad s j g _ _ _ _) as [[b w]|e] eqn:E1; [|reflexivity]. cbn [outcome bind].
      destruct (transform_vectors np_squad s i ang _ _ _ _) as [[b2 w2]|e] eqn:E2; [|reflexivity]. cbn [outcome bind]. unfold arr_tick. cbn [fst snd].
      apply vectors_last in E1, E2. rewrite tick_match2 by (rewrite ?E1, ?E2; discriminate). destruct (match_arrays np_squad [(b2, w2); (b, w)]) as [[bs w3]|e]; [|reflexivity]. cbn [outcome bind fst snd].
      destruct bs as [|x [|y [|z bs]]]; try reflexivity. unfold twist_tick. destruct rt; reflexivity.
    - destruct al; [|reflexivity]. unfold twist_tick. cbn [outcome fst snd option_map]. rewrite zeros_scale. reflexivity.
  Qed.

  (* ---- transforms of velocities ---- *)
  Lemma tick_vectors_vel s i a to ts : transform_vectors np_squad (st s) i (sc a) to (-1) (Some 0%Z) (option_map (nd_tick k o) ts) = outcome (varr_tick k o) (transform_vectors np_squad s i a to (-1) (Some 0%Z) ts).
  Proof. rewrite tick_vectors by exact K. rewrite vectors_scale_all, outcome_comp. reflexivity. Qed.
  Lemma unpack_tick r : unpack2 (vel_tick k o r) = outcome (varr_tick k o) (unpack2 r).
  Proof. destruct r as [a [w|]]; reflexivity. Qed.
  Lemma lookup_linear_last s i rf ri al rt r : lookup_linear_velocity np_squad s i rf ri al rt = Ok r -> last (shp (fst r)) O = 3%nat.
  Proof.
    unfold lookup_linear_velocity. intros H. destruct (resolve_ref s i rf) as [j|]; [|discriminate]. cbn [bind] in H. destruct (resolve_ref s i ri) as [m|]; [|discriminate]. cbn [bind] in H.
    destruct (lookup_transform _ _ _ _) as [tr|]; [|discriminate]. cbn [bind] in H. destruct (tr_ts tr) as [ts|]; [|destruct al; [|discriminate]; injection H as <-; reflexivity].
    destruct (gradient_nd _ _ _); [|discriminate]. cbn [bind] in H. destruct (transform_vectors _ _ _ _ _ _ _ _) as [[b w]|] eqn:E; [|discriminate]. cbn [bind] in H. injection H as <-. apply vectors_last in E. exact E.
  Qed.
  Lemma lookup_angular_last s i rf ri al rt r : lookup_angular_velocity np_squad np_derivative s i rf ri al rt = Ok r -> last (shp (fst r)) O = 3%nat.
  Proof.
    unfold lookup_angular_velocity. intros H. destruct (resolve_ref s i rf) as [j|]; [|discriminate]. cbn [bind] in H. destruct (resolve_ref s i ri) as [m|]; [|discriminate]. cbn [bind] in H.
    destruct (lookup_transform _ _ _ _) as [tr|]; [|discriminate]. cbn [bind] in H. destruct (tr_ts tr) as [ts|]; [|destruct al; [|discriminate]; injection H as <-; reflexivity].
    destruct (estimate_angular _ _ _ _ _); [|discriminate]. cbn [bind] in H. destruct (no_nan _); [|discriminate]. cbn [bind] in H. destruct (transform_vectors _ _ _ _ _ _ _ _) as [[b w]|] eqn:E; [|discriminate]. cbn [bind] in H. injection H as <-. apply vectors_last in E. exact E.
  Qed.
  Lemma add_inplace_scale c a b : add_inplace (scale_nd c a) (scale_nd c b) = outcome (scale_nd c) (add_inplace a b).
  Proof.
    unfold add_inplace. rewrite (op2_scale c Rplus a b) by (try reflexivity; intros; cbn [scale_nd dat]; ring). apply outcome_bind. intros x. change (shp (scale_nd c x)) with (shp x). change (shp (scale_nd c a)) with (shp a). destruct (shape_eqb _ _); reflexivity.
  Qed.
  Lemma cross_scale_l c a b : np_cross (scale_nd c a) b = outcome (scale_nd c) (np_cross a b).
  Proof.
    unfold np_cross. change (shp (scale_nd c a)) with (shp a). destruct (_ || _)%bool; [reflexivity|]. apply outcome_bind_same. intros s. cbn [outcome]. unfold scale_nd at 2. cbn [shp dat]. do 2 f_equal. extensionality ix.
    change (vec_at (scale_nd c a)) with (fun pre => vscale c (vec_at a pre)). cbv beta. rewrite vcross_scale_l. apply comp3_scale.
  Qed.
  Lemma tick_transform_angular s i a to w ts : transform_angular_velocity np_squad np_derivative (st s) i (sc a) to w (-1) (Some 0%Z) (option_map (nd_tick k o) ts) =
    outcome (varr_tick k o) (transform_angular_velocity np_squad np_derivative s i a to w (-1) (Some 0%Z) ts).
  Proof.
    unfold transform_angular_velocity. cbv zeta.
    assert (Fin : forall r, last (shp (fst r)) O = 3%nat ->
      bind (unpack2 (vel_tick k o r)) (fun '(ang, ang_ts) => bind (transform_vectors np_squad (st s) i (sc a) to (-1) (Some 0%Z) (option_map (nd_tick k o) ts)) (fun '(a0, o0) =>
         bind (match_arrays np_squad [(a0, o0); (ang, ang_ts)]) (fun '(bs, o') => match bs with [a1; g] => bind (add_inplace a1 g) (fun out => Ok (out, o')) | _ => Raise ValueError end))) =
      outcome (varr_tick k o) (bind (unpack2 r) (fun '(ang, ang_ts) => bind (transform_vectors np_squad s i a to (-1) (Some 0%Z) ts) (fun '(a0, o0) =>
         bind (match_arrays np_squad [(a0, o0); (ang, ang_ts)]) (fun '(bs, o') => match bs with [a1; g] => bind (add_inplace a1 g) (fun out => Ok (out, o')) | _ => Raise ValueError end))))).
    { intros r L. rewrite unpack_tick. destruct r as [g [gts|]]; [|reflexivity]. cbn [unpack2 snd fst outcome bind varr_tick] in *. rewrite tick_vectors_vel.
      destruct (transform_vectors np_squad s i a to (-1) (Some 0%Z) ts) as [[a0 o0]|e] eqn:E; [|reflexivity]. cbn [outcome bind varr_tick fst snd]. unfold varr_tick. cbn [fst snd].
      apply vectors_last in E. rewrite tick_match2 by (rewrite ?E, ?L; discriminate). destruct (match_arrays _ _) as [[bs w3]|e]; [|reflexivity]. cbn [outcome bind fst snd].
      destruct bs as [|x [|y [|z bs]]]; try reflexivity. rewrite add_inplace_scale. destruct (add_inplace x y); reflexivity. }
    destruct w; [| | |reflexivity].
    - rewrite tick_lookup_angular. destruct (lookup_angular_velocity np_squad np_derivative s i _ _ _ _) as [r|e] eqn:E; [|reflexivity]. apply lookup_angular_last in E. cbn [outcome bind]. apply Fin, E.
    - rewrite tick_resolve. apply outcome_bind_same. intros j. rewrite tick_lookup_angular. destruct (lookup_angular_velocity np_squad np_derivative s j _ _ _ _) as [r|e] eqn:E; [|reflexivity]. apply lookup_angular_last in E. cbn [outcome bind]. apply Fin, E.
    - apply tick_vectors_vel.
  Qed.
  Lemma two_last (l : list nat) x : (2 <= length l)%nat -> last (x :: tl l) O = last l O /\ (2 <= length (x :: tl l))%nat.
  Proof. intros H. destruct l as [|a [|b l]]; cbn [length] in H; try lia. split; [reflexivity|]. cbn [tl length]. lia. Qed.
  Lemma interp_two ts a l b : interp_nd ts a l = Ok b -> (2 <= ndim a)%nat -> last (shp b) O = last (shp a) O /\ (2 <= ndim b)%nat.
  Proof.
    unfold interp_nd, ndim. intros H N. destruct (interp1d _ _ _ _); [|discriminate]. cbn [bind] in H. injection H as <-. cbn [shp]. apply two_last, N.
  Qed.
  Lemma brev_len s t u : brev s t = Some u -> (length s <= length u)%nat.
  Proof.
    revert t u. induction s as [|a s IH]; intros t u H; [cbn; lia|]. destruct t as [|b t]; [injection H as <-; lia|]. cbn [brev] in H. destruct (brev s t) as [w|] eqn:E; [|discriminate].
    apply IH in E. destruct (Nat.eqb a b); [injection H as <-; cbn; lia|]. destruct (Nat.eqb a 1); [injection H as <-; cbn; lia|]. destruct (Nat.eqb b 1); [|discriminate]. injection H as <-. cbn. lia.
  Qed.
  Lemma rotate_ndim_le q v ax c : rotate_vectors q v ax = Ok c -> (ndim v <= ndim c)%nat.
  Proof.
    unfold rotate_vectors. intros H. destruct (norm_axis ax (ndim v)) as [m|] eqn:N; [|destruct (shp q); discriminate]. destruct (shp q) as [|n l]; cbn [bind] in H.
    - unfold rv0 in H. destruct (Nat.eqb _ 3); [|discriminate]. destruct (quat_rv _ _); [|discriminate]. cbn [bind] in H. injection H as <-. unfold ndim. cbn [shp]. lia.
    - destruct (negb _); [discriminate|]. destruct (_ || _)%bool; [discriminate|]. unfold rot_arrays in H. destruct (existsb _ _); [discriminate|].
      repeat match type of H with bind ?m ?g = Ok _ => let E := fresh in destruct m eqn:E; [|discriminate]; cbn [bind] in H end.
      unfold op2 in H. destruct (bshape (shp v) _) as [u|] eqn:B; [|discriminate]. cbn [bind] in H. injection H as <-. unfold ndim. cbn [shp].
      unfold bshape in B. destruct (brev _ _) as [w|] eqn:E; [|discriminate]. injection B as <-. apply brev_len in E. rewrite rev_length in *. exact E.
  Qed.
  Lemma vectors_two sq s i a to ts d w : transform_vectors sq s i a to (-1) (Some 0%Z) (Some ts) = Ok (d, w) -> last (shp a) O = 3%nat -> (2 <= ndim a)%nat ->
    (2 <= ndim d)%nat /\ w <> None.
  Proof.
    unfold transform_vectors. intros H L N. destruct (prepare sq s i a to (-1) 3 (Some 0%Z) (Some ts)) as [[tr b]|] eqn:P; [|discriminate]. cbn [bind] in H.
    destruct (rotate_vectors _ _ _) as [c|] eqn:Ro; [|discriminate]. cbn [bind undo_swap] in H. unfold swapaxes in H.
    destruct (norm_axis 0 (ndim c)) as [n|] eqn:E0; [|discriminate]. cbn [bind] in H. injection H as <- <-. apply rotate_ndim_le in Ro.
    assert (Q : (2 <= ndim b)%nat /\ tr_ts tr <> None).
    { clear - P L N. unfold prepare, validate_input in P. destruct (norm_axis (-1) (ndim a)) as [m|]; [|discriminate]. cbn [bind] in P. destruct (negb _); [discriminate|].
      destruct (shp ts) as [|q [|x l]]; try discriminate. destruct (norm_axis 0 (ndim a)) as [j|] eqn:J; [|discriminate]. cbn [bind] in P. destruct (negb _); [discriminate|]. cbn [bind] in P.
      assert (j = 0%nat) as -> by (unfold norm_axis in J; destruct (_ || _)%bool in J; [discriminate|]; injection J as <-; reflexivity).
      destruct (resolve_rf s to) as [r|]; [|discriminate]. cbn [bind] in P. destruct (frames_between s i r) as [fs|]; [|discriminate]. cbn [bind] in P.
      destruct (add_array _ _) as [ma|] eqn:A; [|discriminate]. apply add_array_inv in A. subst ma. cbn [bind] in P. destruct (get_transformation _ _ _) as [tr'|]; [|discriminate]. cbn [bind] in P.
      unfold resample_array in P. cbn [ma_ts ma_data] in P. destruct (tr_ts tr') as [l|] eqn:T; [|discriminate]. cbn [swap_nd shp] in P. rewrite swapl_zero, L in P. cbn [Nat.eqb] in P.
      destruct (interp_nd _ _ _) as [b'|] eqn:I; [|discriminate]. cbn [bind] in P. injection P as <- <-. apply interp_two in I as [_ I]; [|unfold ndim; cbn [swap_nd shp]; rewrite swapl_zero; exact N].
      split; [exact I|congruence]. }
    destruct Q as [Q1 Q2]. split; [|exact Q2]. unfold ndim in *. cbn [swap_nd shp]. unfold swapl. rewrite map_length, seq_length. lia.
  Qed.
  Lemma resample_two sq a ts w b : resample_array sq (MA a (Some ts)) w = Ok b -> last (shp a) O = 3%nat -> (2 <= ndim a)%nat -> last (shp b) O = 3%nat.
  Proof.
    unfold resample_array. cbn [ma_ts ma_data]. intros H L N. destruct w as [l|]; [|discriminate]. rewrite L in H. cbn [Nat.eqb] in H. apply interp_two in H as [H _]; [congruence|exact N].
  Qed.
  (** Lookups with time stamps pass through a frame. *)
  Lemma lookup_two sq s i j tr ts : lookup_transform sq s i (PFrame j) = Ok tr -> tr_ts tr = Some ts -> exists rows, tr = TrRows ts rows.
  Proof.
    unfold lookup_transform. intros H T. destruct (resolve_rf s (PFrame j)); [|discriminate]. cbn [bind] in H. destruct (frames_between s i a) as [fs|]; [|discriminate]. cbn [bind] in H.
    unfold get_transformation in H. destruct (get_timestamps _ _) as [w|] eqn:W; [|discriminate]. cbn [bind] in H. unfold transformation_at in H. cbn [m_frames] in H. destruct w as [l|].
    - destruct fs as [|x fs]; [|destruct (foldM _ _ _) as [rows|]; [|discriminate]; cbn [bind] in H; injection H as <-; injection T as <-; eauto].
      exfalso. cbn in W. discriminate.
    - destruct (foldM _ _ _) as [[t r]|]; [|discriminate]. cbn [bind] in H. injection H as <-. discriminate.
  Qed.
  Lemma lookup_twist_last s i rf ri al rt l a w : lookup_twist np_squad np_derivative s i rf ri al rt = Ok (l, a, w) -> last (shp l) O = 3%nat /\ last (shp a) O = 3%nat.
  Proof.
    unfold lookup_twist. intros H. destruct (resolve_ref s i rf) as [j|]; [|discriminate]. cbn [bind] in H. destruct (resolve_ref s i ri) as [m|]; [|discriminate]. cbn [bind] in H.
    destruct (lookup_transform _ _ _ _) as [tr|] eqn:Lk; [|discriminate]. cbn [bind] in H. destruct (tr_ts tr) as [ts|] eqn:T; [|destruct al; [|discriminate]; injection H as <- <- <-; split; reflexivity].
    destruct (lookup_two _ _ _ _ _ _ Lk T) as (rows & ->).
    destruct (gradient_nd _ _ _) as [g|] eqn:G; [|discriminate]. cbn [bind] in H. destruct (estimate_angular _ _ _ _ _) as [est|] eqn:Es; [|discriminate]. cbn [bind] in H. destruct (no_nan _) as [ang|] eqn:Na; [|discriminate]. cbn [bind] in H.
    assert (Sg : shp g = [length ts; 3%nat]). { unfold gradient_nd in G. destruct (grad_check _ _); [|discriminate]. cbn [bind] in G. injection G as <-. reflexivity. }
    assert (Sa : shp ang = [length ts; 3%nat]).
    { assert (shp est = [length ts; 3%nat]) as E3.
      { unfold estimate_angular in Es. change (ndim (tr_r_opt (TrRows ts rows))) with 2%nat in Es. cbv iota zeta in Es.
        destruct (negb _) in Es; [discriminate|]. destruct (negb _) in Es; [discriminate|].
        match type of Es with bind ?m0 _ = _ => destruct m0; [|discriminate] end. cbn [bind] in Es. injection Es as <-. reflexivity. }
      unfold no_nan in Na. destruct (existsb _ _); [discriminate|]. injection Na as <-. exact E3. }
    destruct (transform_vectors _ _ j _ _ _ _ _) as [[b w1]|] eqn:E1; [|discriminate]. cbn [bind] in H. destruct (transform_vectors _ _ i _ _ _ _ _) as [[b2 w2]|] eqn:E2; [|discriminate]. cbn [bind] in H.
    pose proof (vectors_last _ _ _ _ _ _ _ _ E1) as L1. pose proof (vectors_last _ _ _ _ _ _ _ _ E2) as L2.
    apply vectors_two in E1 as [N1 W1]; [|rewrite Sg; reflexivity|unfold ndim; rewrite Sg; cbn; lia]. apply vectors_two in E2 as [N2 W2]; [|rewrite Sa; reflexivity|unfold ndim; rewrite Sa; cbn; lia].
    unfold match_arrays, traverse in H. cbn [map sequence fst snd] in H. destruct (add_array b2 w2) as [m2|] eqn:A2; [|discriminate]. apply add_array_inv in A2. subst m2. cbn [bind] in H.
    destruct (add_array b w1) as [m1|] eqn:A1; [|discriminate]. apply add_array_inv in A1. subst m1. cbn [bind] in H. destruct (get_timestamps _ _) as [ww|]; [|discriminate]. cbn [bind map sequence] in H.
    destruct w1 as [w1|]; [|contradiction]. destruct w2 as [w2|]; [|contradiction].
    destruct (resample_array np_squad (MA b2 (Some w2)) ww) as [r2|] eqn:R2; [|discriminate]. cbn [bind] in H. destruct (resample_array np_squad (MA b (Some w1)) ww) as [r1|] eqn:R1; [|discriminate]. cbn [bind] in H.
    injection H as <- <- _. split; [exact (resample_two _ _ _ _ _ R1 L1 N1)|exact (resample_two _ _ _ _ _ R2 L2 N2)].
  Qed.
  Lemma tick_transform_linear s i a to w mf rf ts : transform_linear_velocity np_squad np_derivative (st s) i (sc a) to w mf rf (-1) (Some 0%Z) (option_map (nd_tick k o) ts) =
    outcome (varr_tick k o) (transform_linear_velocity np_squad np_derivative s i a to w mf rf (-1) (Some 0%Z) ts).
  Proof.
    unfold transform_linear_velocity. cbv zeta.
    assert (Fin : forall to lin ang lts ats tr, last (shp lin) O = 3%nat -> last (shp ang) O = 3%nat ->
      bind (transform_vectors np_squad (st s) i (sc a) to (-1) (Some 0%Z) (option_map (nd_tick k o) ts)) (fun '(a0, o0) =>
        bind (transform_vectors np_squad (st s) i (tr_t (tr_tick k o tr)) to (-1) (Some 0%Z) (option_map stamps_nd (tr_ts (tr_tick k o tr)))) (fun '(t, t_ts) =>
        bind (match_arrays np_squad [(a0, o0); (sc lin, option_map (map f) lts); (sc ang, option_map (map f) ats); (t, t_ts)]) (fun '(bs, o') =>
          match bs with [a; l; g; t] => bind (op2 Rplus a l) (fun al => bind (np_cross g t) (fun c => bind (op2 Rplus al c) (fun out => Ok (out, o')))) | _ => Raise ValueError end))) =
      outcome (varr_tick k o) (bind (transform_vectors np_squad s i a to (-1) (Some 0%Z) ts) (fun '(a0, o0) =>
        bind (transform_vectors np_squad s i (tr_t tr) to (-1) (Some 0%Z) (option_map stamps_nd (tr_ts tr))) (fun '(t, t_ts) =>
        bind (match_arrays np_squad [(a0, o0); (lin, lts); (ang, ats); (t, t_ts)]) (fun '(bs, o') =>
          match bs with [a; l; g; t] => bind (op2 Rplus a l) (fun al => bind (np_cross g t) (fun c => bind (op2 Rplus al c) (fun out => Ok (out, o')))) | _ => Raise ValueError end))))).
    { intros to' lin ang lts ats tr L1 L2. rewrite tick_vectors_vel. destruct (transform_vectors np_squad s i a to' (-1) (Some 0%Z) ts) as [[a0 o0]|e] eqn:E; [|reflexivity]. cbn [outcome bind]. unfold varr_tick at 1. cbn [fst snd].
      rewrite tick_tr_t, tick_tr_ts, tick_vectors_stamps. destruct (transform_vectors np_squad s i (tr_t tr) to' _ _ _) as [[t0 o1]|e] eqn:E'; [|reflexivity]. cbn [outcome bind]. unfold arr_tick at 1. cbn [fst snd].
      apply vectors_last in E, E'. rewrite <- (scale_one t0) at 1. rewrite tick_match4 by (rewrite ?E, ?E', ?L1, ?L2; discriminate). destruct (match_arrays _ _) as [[bs w3]|e]; [|reflexivity]. cbn [outcome bind fst snd].
      destruct bs as [|x [|y [|z [|t [|u bs]]]]]; try reflexivity. rewrite (op2_scale (/ k) Rplus x y) by (try reflexivity; intros; cbn [scale_nd dat]; ring). destruct (op2 Rplus x y) as [al|e]; [|reflexivity]. cbn [outcome bind].
      rewrite scale_one, cross_scale_l. destruct (np_cross z t) as [c|e]; [|reflexivity]. cbn [outcome bind]. rewrite (op2_scale (/ k) Rplus al c) by (try reflexivity; intros; cbn [scale_nd dat]; ring).
      destruct (op2 Rplus al c); reflexivity. }
    destruct w; [| | |reflexivity].
    - rewrite tick_lookup_twist. destruct (lookup_twist np_squad np_derivative s i _ _ _ _) as [[[lin ang] w]|e] eqn:E; [|reflexivity]. apply lookup_twist_last in E as [E1 E2]. cbn [outcome bind twist_tick].
      destruct w as [w|]; [|reflexivity]. cbn [option_map bind]. destruct mf as [p|]; [|reflexivity]. rewrite tick_resolve. destruct (resolve_rf s p) as [m|]; [|reflexivity]. cbn [bind].
      rewrite tick_lookup by exact K. destruct (lookup_transform np_squad s m (PFrame i)) as [tr|]; [|reflexivity]. cbn [outcome bind]. apply Fin; assumption.
    - rewrite tick_resolve. destruct (resolve_rf s to) as [j|]; [|reflexivity]. cbn [bind]. rewrite tick_lookup_linear. destruct (lookup_linear_velocity np_squad s j _ _ _ _) as [r|e] eqn:E; [|reflexivity]. apply lookup_linear_last in E. cbn [outcome bind].
      rewrite unpack_tick. destruct r as [lin [lts|]]; [|reflexivity]. cbn [unpack2 snd fst outcome bind] in *. unfold varr_tick at 1. cbn [fst snd].
      rewrite tick_lookup_angular. destruct (lookup_angular_velocity np_squad np_derivative s i _ _ _ _) as [r|e] eqn:E2; [|reflexivity]. apply lookup_angular_last in E2. cbn [outcome bind].
      rewrite unpack_tick. destruct r as [ang [ats|]]; [|reflexivity]. cbn [unpack2 snd fst outcome bind] in *. unfold varr_tick at 1. cbn [fst snd].
      rewrite tick_lookup by exact K. destruct (lookup_transform np_squad s j (PFrame i)) as [tr|]; [|reflexivity]. cbn [outcome bind]. apply Fin; assumption.
    - apply tick_vectors_vel.
  Qed.
  (* ---- estimators ---- *)
  Lemma tick_estimate a axis ts ta : match estimate_linear_velocity a axis (map f ts) ta, estimate_linear_velocity a axis ts ta with
    | Ok v', Ok v => nd_eq v' (sc v) | Raise e', Raise e => e' = e | _, _ => False end.
  Proof.
    unfold estimate_linear_velocity. destruct (Nat.eqb (ndim a) 0); [reflexivity|]. destruct (Z.eqb _ _); [reflexivity|]. destruct (norm_axis _ _) as [tau|e] eqn:T; [|reflexivity]. cbn [bind].
    unfold gradient_nd. rewrite tick_grad_check by exact K. destruct (grad_check ts (nth tau (shp a) 0%nat)) as [u|e] eqn:C; [|reflexivity]. cbn [bind]. split; [reflexivity|]. intros ix V. cbn [shp scale_nd dat] in *.
    unfold grad_check in C. destruct (Nat.eqb_spec (length ts) (nth tau (shp a) 0%nat)) as [E|]; [|discriminate]. cbn [negb] in C. destruct (Nat.ltb_spec (nth tau (shp a) 0%nat) 2) as [|G2]; [discriminate|].
    apply tick_grad_at; [exact K|lia|]. rewrite E.
    assert (B : (tau < length (shp a))%nat). { destruct (Nat.lt_ge_cases tau (length (shp a))); [assumption|]. rewrite nth_overflow in G2 by assumption. lia. }
    clear - V B. unfold valid in V. revert tau B. induction V as [|x y ix sh H V IH]; intros tau B; [cbn in B; lia|]. destruct tau as [|tau]; [exact H|]. cbn in B. apply IH. lia.
  Qed.
End Vel.

(* ------------------------------------------------------------------ C87 *)
(** Velocities looked up after the same program of API calls, its time stamps read on another
    clock: the old ones per unit of the new clock, at times read on the new clock. *)
Theorem C87_velocities : forall k o ops i reference represent_in allow_static return_timestamps, 0 < k ->
  let s' := run (map (op_tick k o) ops) in
  lookup_linear_velocity np_squad s' i reference represent_in allow_static return_timestamps =
    outcome (vel_tick k o) (lookup_linear_velocity np_squad (run ops) i reference represent_in allow_static return_timestamps) /\
  lookup_angular_velocity np_squad np_derivative s' i reference represent_in allow_static return_timestamps =
    outcome (vel_tick k o) (lookup_angular_velocity np_squad np_derivative (run ops) i reference represent_in allow_static return_timestamps) /\
  lookup_twist np_squad np_derivative s' i reference represent_in allow_static return_timestamps =
    outcome (twist_tick k o) (lookup_twist np_squad np_derivative (run ops) i reference represent_in allow_static return_timestamps).
Proof.
  intros k o ops i rf ri al rt K. cbv zeta. rewrite tick_run. split; [apply tick_lookup_linear, K|]. split; [apply tick_lookup_angular, K|apply tick_lookup_twist, K].
Qed.
(** So are transformed velocities, if the given ones are per unit of the new clock (arrays with
    the coordinates last and time first, the default). *)
Theorem C87_transformed_velocities : forall k o ops i arr to w moving_frame reference_frame ts, 0 < k ->
  let s' := run (map (op_tick k o) ops) in
  transform_linear_velocity np_squad np_derivative s' i (scale_nd (/ k) arr) to w moving_frame reference_frame (-1) (Some 0%Z) (option_map (nd_tick k o) ts) =
    outcome (varr_tick k o) (transform_linear_velocity np_squad np_derivative (run ops) i arr to w moving_frame reference_frame (-1) (Some 0%Z) ts) /\
  transform_angular_velocity np_squad np_derivative s' i (scale_nd (/ k) arr) to w (-1) (Some 0%Z) (option_map (nd_tick k o) ts) =
    outcome (varr_tick k o) (transform_angular_velocity np_squad np_derivative (run ops) i arr to w (-1) (Some 0%Z) ts).
Proof.
  intros k o ops i arr to w mf rf ts K. cbv zeta. rewrite tick_run. split; [apply tick_transform_linear, K|apply tick_transform_angular, K].
Qed.
(** And the estimated velocities of an array of positions or orientations (entries that are NaN
    stay NaN). *)
Theorem C87_estimates : forall k o ts, 0 < k ->
  (forall a axis time_axis,
     match estimate_linear_velocity a axis (map (tick k o) ts) time_axis, estimate_linear_velocity a axis ts time_axis with
     | Ok v', Ok v => nd_eq v' (scale_nd (/ k) v) | Raise e', Raise e => e' = e | _, _ => False end) /\
  (forall a axis time_axis,
     estimate_angular np_derivative a (map (tick k o) ts) axis time_axis =
     outcome (fun v => Nd (shp v) (fun ix => option_map (Rmult (/ k)) (dat v ix))) (estimate_angular np_derivative a ts axis time_axis)).
Proof. intros k o ts K. split; intros a ax ta; [apply tick_estimate, K|apply tick_angular, K]. Qed.
