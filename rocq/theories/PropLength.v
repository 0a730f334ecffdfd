(** C88: results do not depend on the unit of length. *)
From Coq Require Import Reals List Arith Bool ZArith Lra Lia FunctionalExtensionality.
From Verif Require Import Base Quat NdArray Frames Matcher Transform Squad Velocity VelFrames Spline PropClock PropClockVel.
Import ListNotations.
Open Scope R_scope.

(* ------------------------------------------------------------------ specification *)
(** Lengths measured in another unit: c times the old numbers (c = 1000: millimetres
    instead of metres).  [scale_nd c] (PropClockVel) multiplies an array. *)
Section Spec.
  Variable c : R.
  (** An API call with its translations in the new unit. *)
  Definition ctor_len (x : ctor) : ctor :=
    Ctor (c_name x) (c_parent x) (option_map (scale_nd c) (c_tr x)) (c_ro x) (c_ts x) (c_inverse x) (c_discrete x).
  Definition op_len (x : op) : op :=
    match x with
    | ONew x => ONew (ctor_len x)
    | ORegisterFrame x u => ORegisterFrame (ctor_len x) u
    | x => x
    end.
  (** The same transformation, its translations in the new unit. *)
  Definition tr_len (tr : transf) : transf :=
    match tr with
    | TrStatic t r => TrStatic (vscale c t) r
    | TrBare ts => TrBare ts
    | TrRows ts rows => TrRows ts (map (fun p => (vscale c (fst p), snd p)) rows)
    end.
  (** The same array and velocities in the new unit. *)
  Definition arr_len (p : nd R * option (list R)) : nd R * option (list R) := (scale_nd c (fst p), snd p).
  Definition vel_len (p : nd R * option (option (list R))) : nd R * option (option (list R)) := (scale_nd c (fst p), snd p).
  Definition twist_len (p : nd R * nd R * option (option (list R))) : nd R * nd R * option (option (list R)) :=
    let '(l, a, ts) := p in (scale_nd c l, a, ts).
  (* states *)
  Definition data_len (d : tfdata) : tfdata :=
    match d with TStatic t r => TStatic (vscale c t) r | TMoving ts t r b => TMoving ts (map (vscale c) t) r b end.
  Definition body_len (b : body) : body :=
    match b with BTf d => BTf (data_len d) | BNoDiscrete t r => BNoDiscrete (vscale c t) r | b => b end.
  Definition node_len (n : node) : node := Node (nname n) (nparent n) (nchildren n) (body_len (nbody n)).
  Definition state_len (s : state) : state := State (map node_len (heap s)) (reg s).
End Spec.

(* ------------------------------------------------------------------ proofs *)
Section Length.
  Variable c : R.
  Notation sc := (scale_nd c).
  Notation st := (state_len c).
  Lemma vscale_zero : vscale c v0 = v0.
  Proof. unfold vscale, v0. cbn [vx vy vz]. f_equal; ring. Qed.
  Lemma vscale_vopp v : vopp (vscale c v) = vscale c (vopp v).
  Proof. unfold vopp, vscale. cbn [vx vy vz]. f_equal; ring. Qed.
  Lemma rot1_scale q v : rot1 q (vscale c v) = outcome (vscale c) (rot1 q v).
  Proof.
    unfold rot1. destruct (Req_b (qlen q) 0); [reflexivity|]. cbn [outcome]. f_equal. unfold vscale, vcross, vadd, qvec. cbn [vx vy vz qx qy qz]. unfold Rdiv. f_equal; ring.
  Qed.
  (* ---- the forest ---- *)
  Lemma len_get s i : get (st s) i = option_map (node_len c) (get s i).
  Proof. unfold get. cbn [state_len heap]. apply nth_error_map. Qed.
  Lemma len_parent s i : parent_of (st s) i = parent_of s i.
  Proof. unfold parent_of. rewrite len_get. destruct (get s i); reflexivity. Qed.
  Lemma len_name s i : name_of (st s) i = name_of s i.
  Proof. unfold name_of. rewrite len_get. destruct (get s i); reflexivity. Qed.
  Lemma len_resolve s p : resolve_rf (st s) p = resolve_rf s p.
  Proof. destruct p as [i|n|]; try reflexivity. cbn [resolve_rf]. rewrite len_get. destruct (get s i); reflexivity. Qed.
  Lemma len_path_up fuel s i : path_up fuel (st s) i = path_up fuel s i.
  Proof. revert i; induction fuel as [|m IH]; intros i; [reflexivity|]. cbn [path_up]. rewrite len_parent. destruct (parent_of s i); [rewrite IH|]; reflexivity. Qed.
  Lemma len_rpath s i : rpath (st s) i = rpath s i.
  Proof. unfold rpath. cbn [state_len heap]. rewrite map_length. apply len_path_up. Qed.
  Lemma len_walk s i j : walk (st s) i j = walk s i j.
  Proof. unfold walk. rewrite !len_rpath. reflexivity. Qed.
  Lemma len_upd s i F : (forall n, F (node_len c n) = node_len c (F n)) -> upd_node (st s) i F = st (upd_node s i F).
  Proof. intros H. unfold upd_node, state_len. cbn [heap reg]. f_equal. apply upd_map, H. Qed.
  Lemma len_detach s i : detach (st s) i = st (detach s i).
  Proof. unfold detach. rewrite len_parent. destruct (parent_of s i); [|reflexivity]. rewrite !len_upd by reflexivity. reflexivity. Qed.
  Lemma len_attach s i p : attach (st s) i p = st (attach s i p).
  Proof. unfold attach. rewrite !len_upd by reflexivity. reflexivity. Qed.
  Definition lboth {A} (p : state * res A) : state * res A := (st (fst p), snd p).
  Lemma len_set_parent s i v : set_parent (st s) i v = lboth (set_parent s i v).
  Proof.
    unfold set_parent. rewrite len_parent. destruct (opt_eqb (parent_of s i) v); [reflexivity|]. destruct v as [p|].
    - rewrite len_rpath. destruct (rpath s p) as [l|]; [|reflexivity]. destruct (existsb _ l); [reflexivity|]. rewrite len_detach, len_attach. reflexivity.
    - rewrite len_detach. reflexivity.
  Qed.
  Lemma len_register s i u : register (st s) i u = lboth (register s i u).
  Proof.
    unfold register. rewrite len_name. destruct (name_of s i) as [n|]; [|reflexivity]. cbn [state_len reg].
    destruct (lookup n (reg s)) as [old|]; [|reflexivity]. destruct u; [|reflexivity].
    change (State (map (node_len c) (heap s)) (reg s)) with (st s).
    pose proof (len_set_parent s old None) as H. destruct (set_parent (st s) old None) as [s1 r1]. destruct (set_parent s old None) as [s2 r2].
    cbv [lboth fst snd] in H. injection H as -> ->. reflexivity.
  Qed.
  Lemma len_deregister s n : deregister (st s) n = lboth (deregister s n).
  Proof. unfold deregister. cbn [state_len reg]. destruct (lookup n (reg s)); reflexivity. Qed.
  Lemma len_deregister_obj s i : deregister_obj (st s) i = lboth (deregister_obj s i).
  Proof. unfold deregister_obj. rewrite len_name. destruct (name_of s i); [apply len_deregister|reflexivity]. Qed.
  Lemma repeat_zero n : repeat v0 n = map (vscale c) (repeat v0 n).
  Proof. induction n as [|n IH]; [reflexivity|]. cbn [repeat map]. rewrite vscale_zero, <- IH. reflexivity. Qed.
  Lemma len_arg_vecs a n : arg_vecs (option_map sc a) n = outcome (map (vscale c)) (arg_vecs a n).
  Proof.
    destruct a as [a|]; cbn [option_map arg_vecs].
    - change (shp (sc a)) with (shp a). destruct n as [n|].
      + destruct (shape_eqb _ _); [|reflexivity]. cbn [outcome]. rewrite map_map. reflexivity.
      + destruct (shape_eqb _ _); reflexivity.
    - cbn [outcome]. f_equal. apply repeat_zero.
  Qed.
  Lemma len_inv_row p : inv_row (vscale c (fst p), snd p) = outcome (fun q => (vscale c (fst q), snd q)) (inv_row p).
  Proof.
    destruct p as [t r]. unfold inv_row. cbn [fst snd]. apply outcome_bind_same. intros r'. rewrite rot1_scale. destruct (rot1 r' t) as [t'|]; [|reflexivity]. cbn [outcome bind fst snd].
    rewrite vscale_vopp. reflexivity.
  Qed.
  Lemma len_inv_static t r : inv_static (vscale c t) r = outcome (fun q => (vscale c (fst q), snd q)) (inv_static t r).
  Proof.
    unfold inv_static. apply outcome_bind_same. intros r'. rewrite quat_rv_scale. destruct (quat_rv r' t) as [t'|]; [|reflexivity]. cbn [outcome bind fst snd].
    rewrite vscale_vopp. reflexivity.
  Qed.
  Lemma combine_scale t (r : list quat) : combine (map (vscale c) t) r = map (fun p => (vscale c (fst p), snd p)) (combine t r).
  Proof. revert r; induction t as [|a t IH]; intros [|b r]; try reflexivity. cbn [map combine fst snd]. rewrite IH. reflexivity. Qed.
  Lemma len_init tr ro ts inv : init_arrays (option_map sc tr) ro ts inv = outcome (data_len c) (init_arrays tr ro ts inv).
  Proof.
    unfold init_arrays. apply outcome_bind_same. intros ot. cbv zeta. rewrite len_arg_vecs. apply outcome_bind. intros t. apply outcome_bind_same. intros r. destruct ot as [l|].
    - destruct inv; [|reflexivity]. rewrite combine_scale. rewrite (traverse_outcome (fun q => (vscale c (fst q), snd q)) (fun p => (vscale c (fst p), snd p)) inv_row inv_row) by apply len_inv_row.
      apply outcome_bind. intros rows. cbn [outcome data_len]. rewrite !map_map. reflexivity.
    - destruct t as [|t0 t]; [reflexivity|]. cbn [map]. destruct r as [|r0 r]; [reflexivity|]. destruct inv; [|reflexivity]. rewrite len_inv_static. apply outcome_bind. intros [t1 r1]. reflexivity.
  Qed.
  Lemma len_alloc s x b : State (heap (st s) ++ [Node (c_name (ctor_len c x)) None [] (body_len c b)]) (reg (st s)) = st (State (heap s ++ [Node (c_name x) None [] b]) (reg s)).
  Proof. unfold state_len. cbn [heap reg]. rewrite map_app. reflexivity. Qed.
  Lemma len_new s x : new_frame (st s) (ctor_len c x) = lboth (new_frame s x).
  Proof.
    unfold new_frame. replace (length (heap (st s))) with (length (heap s)) by (cbn [state_len heap]; rewrite map_length; reflexivity).
    change (c_parent (ctor_len c x)) with (c_parent x). destruct (c_parent x) as [p|].
    - rewrite len_resolve. destruct (resolve_rf s p) as [pi|e]; [|cbv [lboth fst snd]; rewrite <- len_alloc; reflexivity].
      change (init_arrays (c_tr (ctor_len c x)) (c_ro (ctor_len c x)) (c_ts (ctor_len c x)) (c_inverse (ctor_len c x))) with (init_arrays (option_map sc (c_tr x)) (c_ro x) (c_ts x) (c_inverse x)).
      rewrite len_init. destruct (init_arrays (c_tr x) (c_ro x) (c_ts x) (c_inverse x)) as [d|e].
      + cbn [outcome]. assert (F : finish (ctor_len c x) (data_len c d) = (body_len c (fst (finish x d)), snd (finish x d))).
        { destruct d as [t r|ts t r b]; cbn [data_len finish ctor_len c_discrete]; [destruct (c_discrete x)|]; reflexivity. }
        rewrite F. destruct (finish x d) as [b r]. cbv [lboth fst snd]. f_equal. rewrite <- len_attach, <- len_alloc. reflexivity.
      + cbn [outcome]. change (discrete_static (ctor_len c x)) with (discrete_static x).
        destruct e; cbv [lboth fst snd]; try (rewrite <- len_attach, <- len_alloc; reflexivity).
        destruct (discrete_static x); rewrite <- len_attach, <- len_alloc; reflexivity.
    - assert (V : verify_root (ctor_len c x) = verify_root x) by (unfold verify_root; cbn [ctor_len c_tr c_ro c_ts]; destruct (c_tr x); reflexivity).
      rewrite V. destruct (verify_root x); [|cbv [lboth fst snd]; rewrite <- len_alloc; reflexivity]. change (c_discrete (ctor_len c x)) with (c_discrete x).
      destruct (c_discrete x); cbv [lboth fst snd]; rewrite <- len_alloc; reflexivity.
  Qed.
  Lemma len_register_frame s x u : register_frame (st s) (ctor_len c x) u = lboth (register_frame s x u).
  Proof.
    unfold register_frame. rewrite len_new. unfold lboth at 1. destruct (new_frame s x) as [s1 [i|e]]; [|reflexivity]. cbn [fst snd].
    rewrite len_register. unfold lboth at 1. destruct (register s1 i u) as [s2 [y|e]]; reflexivity.
  Qed.
  Lemma len_step s x : step (st s) (op_len c x) = lboth (step s x).
  Proof.
    destruct x as [x|x u|i u|n|i| |i p]; cbn [op_len step].
    - rewrite len_new. unfold lboth at 1. destruct (new_frame s x) as [s1 [i|e]]; reflexivity.
    - rewrite len_register_frame. unfold lboth at 1. destruct (register_frame s x u) as [s1 [i|e]]; reflexivity.
    - rewrite len_get. destruct (get s i); [apply len_register|reflexivity].
    - apply len_deregister.
    - rewrite len_get. destruct (get s i); [apply len_deregister_obj|reflexivity].
    - reflexivity.
    - rewrite len_get. destruct (get s i); [|reflexivity]. destruct p as [p|].
      + rewrite len_get. destruct (get s p); [|reflexivity]. apply len_set_parent.
      + apply len_set_parent.
  Qed.
  Lemma len_run ops : run (map (op_len c) ops) = st (run ops).
  Proof.
    unfold run. change init with (st init) at 1. generalize init. induction ops as [|x ops IH]; intros s; [reflexivity|].
    cbn [map fold_left]. rewrite len_step. unfold lboth. cbn [fst]. apply IH.
  Qed.

  (* ---- the matcher ---- *)
  Definition mf_len (m : mframe) : mframe := MF (data_len c (mf_data m)) (mf_inv m).
  Definition row_len (p : vec3 * quat) : vec3 * quat := (vscale c (fst p), snd p).
  Lemma len_body s i : body_at (st s) i = body_len c (body_at s i).
  Proof. unfold body_at. rewrite len_get. destruct (get s i); reflexivity. Qed.
  Lemma len_add_frame b inv : add_frame (body_len c b) inv = outcome mf_len (add_frame b inv).
  Proof.
    destruct b as [|[t r|ts t r d]| | |]; try reflexivity. cbn [body_len data_len add_frame]. rewrite map_length. destruct (check_timestamps (Some ts) _); reflexivity.
  Qed.
  Lemma len_between s i j : frames_between (st s) i j = outcome (map mf_len) (frames_between s i j).
  Proof.
    unfold frames_between. rewrite len_walk. apply outcome_bind_same. intros [up down].
    rewrite (traverse_outcome_in mf_len (fun m => add_frame (body_at s m) false)) by (intros; rewrite len_body; apply len_add_frame).
    apply outcome_bind. intros fu.
    rewrite (traverse_outcome_in mf_len (fun m => add_frame (body_at s m) true)) by (intros; rewrite len_body; apply len_add_frame).
    apply outcome_bind. intros fd. cbn [outcome]. rewrite map_app. reflexivity.
  Qed.
  Lemma len_timestamps fs ms ms' af : map ma_ts ms' = map ma_ts ms -> get_timestamps (Mat (map mf_len fs) ms') af = get_timestamps (Mat fs ms) af.
  Proof.
    intros H. unfold get_timestamps, get_range, arr_list, cont_list, disc_list. cbn [m_frames m_arrays]. rewrite H, !map_map.
    rewrite (map_ext (fun x => cont_ts (mf_len x)) cont_ts) by (intros [[t r|ts t r [|]] inv]; reflexivity).
    rewrite (map_ext (fun x => disc_ts (mf_len x)) disc_ts) by (intros [[t r|ts t r [|]] inv]; reflexivity). reflexivity.
  Qed.
  Lemma len_hold ts rows x : hold ts (map (vscale c) rows) x = outcome (vscale c) (hold ts rows x).
  Proof.
    unfold hold. destruct rows as [|a rows]; [reflexivity|]. cbn [map outcome]. f_equal. change (vscale c a :: map (vscale c) rows) with (map (vscale c) (a :: rows)). generalize (a :: rows). intros rr. revert rr a. clear rows.
    induction ts as [|t ts IH]; intros rows a; [reflexivity|]. destruct rows as [|b rows]; [reflexivity|]. cbn [map combine fold_left fst snd]. destruct (Rle_b t x); apply IH.
  Qed.
  Lemma len_interp ts rows l : interp1d lin_vec ts (map (vscale c) rows) l = outcome (map (vscale c)) (interp1d lin_vec ts rows l).
  Proof.
    unfold interp1d. destruct (forallb _ l); [|reflexivity]. apply traverse_outcome_in. intros x. apply interp_at_scale. intros a b y z t. unfold lin_vec, lin1, vscale, Rdiv. cbn [vx vy vz]. f_equal; ring.
  Qed.
  Lemma len_rows sq d l : rows_from_frame sq (data_len c d) l = outcome (map row_len) (rows_from_frame sq d l).
  Proof.
    destruct d as [t r|ts t r [|]]; cbn [data_len rows_from_frame].
    - cbn [outcome]. rewrite map_map. reflexivity.
    - rewrite len_hold. destruct (hold ts t 0) as [h|e]; [|reflexivity]. cbn [outcome bind]. apply outcome_bind_same. intros _.
      rewrite (traverse_outcome_in (vscale c) (hold ts t)) by (intros; apply len_hold). apply outcome_bind. intros tt. apply outcome_bind_same. intros rr. cbn [outcome]. rewrite combine_scale. reflexivity.
    - rewrite len_interp. apply outcome_bind. intros tt. apply outcome_bind_same. intros rr. cbn [outcome]. rewrite combine_scale. reflexivity.
  Qed.
  Lemma len_step_with rot inv acc tr : (forall q v, rot q (vscale c v) = outcome (vscale c) (rot q v)) -> step_with rot inv (row_len acc) (row_len tr) = outcome row_len (step_with rot inv acc tr).
  Proof.
    intros H. destruct acc as [ta ra]. destruct tr as [t r]. unfold step_with, row_len. cbn [fst snd]. destruct inv.
    - apply outcome_bind_same. intros ri. replace (vsub (vscale c ta) (vscale c t)) with (vscale c (vsub ta t)) by (unfold vscale, vsub; cbn [vx vy vz]; f_equal; ring). rewrite H. apply outcome_bind. reflexivity.
    - rewrite H. apply outcome_bind. intros v. cbn [outcome fst snd]. do 2 f_equal. unfold vscale, vadd; cbn [vx vy vz]; f_equal; ring.
  Qed.
  Lemma len_step_static acc m : step_static (row_len acc) (mf_len m) = outcome row_len (step_static acc m).
  Proof.
    unfold step_static. cbn [mf_len mf_data mf_inv]. destruct (mf_data m) as [t r|ts t r d]; [|reflexivity]. cbn [data_len static_from_frame bind]. apply (len_step_with quat_rv (mf_inv m) acc (t, r)). intros. apply quat_rv_scale.
  Qed.
  Lemma len_step_rows sq l accs m : step_rows sq l (map row_len accs) (mf_len m) = outcome (map row_len) (step_rows sq l accs m).
  Proof.
    unfold step_rows. cbn [mf_len mf_data mf_inv]. rewrite len_rows. apply outcome_bind. intros rows. rewrite combine_map2.
    apply traverse_outcome. intros [a b]. cbn [fst snd]. apply len_step_with. apply rot1_scale.
  Qed.
  Lemma foldM_outcome {A A' B B'} (h : A -> A') (g : B -> B') (F : A -> B -> res A) (F' : A' -> B' -> res A') l a : (forall a b, F' (h a) (g b) = outcome h (F a b)) -> foldM F' (map g l) (h a) = outcome h (foldM F l a).
  Proof. intros H. revert a. induction l as [|b l IH]; intros a; [reflexivity|]. cbn [map foldM]. rewrite H. destruct (F a b); [apply IH|reflexivity]. Qed.
  Lemma len_transformation sq fs ms ms' w : transformation_at sq (Mat (map mf_len fs) ms') w = outcome (tr_len c) (transformation_at sq (Mat fs ms) w).
  Proof.
    destruct w as [l|]; cbn [transformation_at m_frames].
    - destruct fs as [|x fs]; [reflexivity|]. cbn [map]. change (mf_len x :: map mf_len fs) with (map mf_len (x :: fs)).
      replace (map (fun _ : R => (v0, q1)) l) with (map row_len (map (fun _ : R => (v0, q1)) l)) at 1 by (rewrite map_map; unfold row_len; cbn [fst snd]; rewrite vscale_zero; reflexivity).
      rewrite (foldM_outcome (map row_len) mf_len (step_rows sq l)) by (intros; apply len_step_rows). apply outcome_bind. reflexivity.
    - replace (v0, q1) with (row_len (v0, q1)) at 1 by (unfold row_len; cbn [fst snd]; rewrite vscale_zero; reflexivity).
      rewrite (foldM_outcome row_len mf_len step_static) by (intros; apply len_step_static). apply outcome_bind. intros [t r]. reflexivity.
  Qed.
  Lemma len_get_transformation sq fs ms ms' af : map ma_ts ms' = map ma_ts ms -> get_transformation sq (Mat (map mf_len fs) ms') af = outcome (tr_len c) (get_transformation sq (Mat fs ms) af).
  Proof. intros H. unfold get_transformation. rewrite (len_timestamps fs ms ms' af H). apply outcome_bind_same. intros w. apply len_transformation. Qed.
  Lemma len_lookup sq s i to : lookup_transform sq (st s) i to = outcome (tr_len c) (lookup_transform sq s i to).
  Proof.
    unfold lookup_transform. rewrite len_resolve. apply outcome_bind_same. intros j. rewrite len_between. apply outcome_bind. intros fs. apply len_get_transformation. reflexivity.
  Qed.
  (* ---- arrays ---- *)
  Lemma row_len_zero : row_len (v0, q1) = (v0, q1).
  Proof. unfold row_len. cbn [fst snd]. rewrite vscale_zero. reflexivity. Qed.
  Lemma len_tr_ts tr : tr_ts (tr_len c tr) = tr_ts tr.
  Proof. destruct tr; reflexivity. Qed.
  Lemma len_tr_r tr : tr_r (tr_len c tr) = tr_r tr.
  Proof.
    destruct tr as [t r|ts|ts rows]; try reflexivity. cbn [tr_len tr_r]. f_equal. extensionality ix. unfold rowq. change (fun p : vec3 * quat => (vscale c (fst p), snd p)) with row_len.
    pose proof (map_nth row_len) as M. rewrite <- row_len_zero at 1. rewrite M. reflexivity.
  Qed.
  Lemma len_tr_t tr : tr_t (tr_len c tr) = sc (tr_t tr).
  Proof.
    destruct tr as [t r|ts|ts rows]; cbn [tr_len tr_t]; unfold scale_nd; cbn [shp dat]; f_equal; extensionality ix.
    - apply comp3_scale.
    - ring.
    - unfold rowv. change (fun p : vec3 * quat => (vscale c (fst p), snd p)) with row_len. rewrite <- row_len_zero at 1. rewrite map_nth. apply comp3_scale.
  Qed.
  Lemma len_prepare sq s i arr to axis n ta ts :
    prepare sq (st s) i arr to axis n ta ts = outcome (fun p => (tr_len c (fst p), snd p)) (prepare sq s i arr to axis n ta ts).
  Proof.
    unfold prepare. apply outcome_bind_same. intros [a w]. rewrite len_resolve. apply outcome_bind_same. intros j. rewrite len_between. apply outcome_bind. intros fs. apply outcome_bind_same. intros ma.
    rewrite (len_get_transformation sq fs [ma] [ma]) by reflexivity. apply outcome_bind. intros tr. rewrite len_tr_ts. apply outcome_bind_same. reflexivity.
  Qed.
  Lemma len_vectors sq s i arr to axis ta ts : transform_vectors sq (st s) i arr to axis ta ts = transform_vectors sq s i arr to axis ta ts.
  Proof. unfold transform_vectors. rewrite len_prepare. destruct (prepare _ _ _ _ _ _ _ _ _) as [[tr b]|]; [|reflexivity]. cbn [outcome bind fst snd]. rewrite len_tr_r, len_tr_ts. reflexivity. Qed.
  Lemma len_quaternions sq s i arr to axis ta ts : transform_quaternions sq (st s) i arr to axis ta ts = transform_quaternions sq s i arr to axis ta ts.
  Proof. unfold transform_quaternions. rewrite len_prepare. destruct (prepare _ _ _ _ _ _ _ _ _) as [[tr b]|]; [|reflexivity]. cbn [outcome bind fst snd]. rewrite len_tr_r, len_tr_ts. reflexivity. Qed.
  Lemma expand_scale t n : expand_t (sc t) n = sc (expand_t t n).
  Proof. unfold expand_t. change (shp (sc t)) with (shp t). destruct (shp t) as [|a [|b l]]; reflexivity. Qed.
  (** A scaled array with the default axes. *)
  Lemma prepare_scale sq s i a to ts : prepare sq s i (sc a) to (-1) 3 (Some 0%Z) ts = outcome (fun p => (fst p, sc (snd p))) (prepare sq s i a to (-1) 3 (Some 0%Z) ts).
  Proof.
    unfold prepare.
    assert (V : validate_input (sc a) (-1) 3 ts (Some 0%Z) = outcome (fun p => (sc (fst p), snd p)) (validate_input a (-1) 3 ts (Some 0%Z))).
    { unfold validate_input. change (ndim (sc a)) with (ndim a). change (shp (sc a)) with (shp a). apply outcome_bind_same. intros m. destruct (negb _); [reflexivity|].
      destruct ts as [ts|]; [|reflexivity]. destruct (shp ts) as [|q [|x l]]; try reflexivity. apply outcome_bind_same. intros j. destruct (negb _); reflexivity. }
    assert (L : forall b ol, validate_input a (-1) 3 ts (Some 0%Z) = Ok (b, ol) -> last (shp b) O <> 4%nat).
    { unfold validate_input, ndim. intros b ol E. destruct (norm_axis (-1) (length (shp a))) as [m|] eqn:N; [|discriminate]. apply norm_last in N as [_ ->]. cbn [bind] in E. rewrite nth_pred_last in E.
      destruct (Nat.eqb_spec (last (shp a) 0%nat) 3) as [E3|]; [|discriminate]. cbn [negb] in E. destruct ts as [ts|]; [|injection E as <- _; rewrite E3; discriminate]. destruct (shp ts) as [|q [|x l]]; try discriminate.
      destruct (norm_axis 0 (length (shp a))) as [j|] eqn:J; [|discriminate]. cbn [bind] in E. destruct (negb _); [discriminate|]. injection E as <- _. cbn [swap_nd shp].
      assert (j = 0%nat) as -> by (unfold norm_axis in J; destruct (_ || _)%bool in J; [discriminate|]; injection J as <-; reflexivity). rewrite swapl_zero, E3. discriminate. }
    rewrite V. destruct (validate_input a (-1) 3 ts (Some 0%Z)) as [[b ol]|e] eqn:E; [|reflexivity]. specialize (L b ol eq_refl). cbn [outcome bind fst snd].
    apply outcome_bind_same. intros j. apply outcome_bind_same. intros fs. unfold add_array. change (shp (sc b)) with (shp b).
    destruct (check_timestamps ol (shp b)); [|reflexivity]. cbn [bind].
    assert (T : get_transformation sq (Mat fs [MA (sc b) ol]) true = get_transformation sq (Mat fs [MA b ol]) true) by reflexivity. rewrite T.
    apply outcome_bind_same. intros tr. rewrite resample_scale by auto. apply outcome_bind. reflexivity.
  Qed.
  Lemma len_points sq s i a to ts : transform_points sq (st s) i (sc a) to (-1) (Some 0%Z) ts = outcome (arr_len c) (transform_points sq s i a to (-1) (Some 0%Z) ts).
  Proof.
    unfold transform_points. rewrite len_prepare, prepare_scale, outcome_comp. apply outcome_bind. intros [tr b]. cbn [fst snd]. rewrite len_tr_r, len_tr_t, len_tr_ts. change (ndim (sc b)) with (ndim b).
    rewrite rotate_scale. apply outcome_bind. intros d. rewrite expand_scale. rewrite (op2_scale c Rplus d (expand_t (tr_t tr) (ndim b))) by (try reflexivity; intros; cbn [scale_nd dat]; ring).
    apply outcome_bind. intros e. rewrite undo_scale. apply outcome_bind. reflexivity.
  Qed.

  (* ---- velocities ---- *)
  Lemma gradient_scale a ts tau : gradient_nd (sc a) ts tau = outcome sc (gradient_nd a ts tau).
  Proof.
    unfold gradient_nd. change (shp (sc a)) with (shp a). apply outcome_bind_same. intros _. cbn [outcome]. unfold scale_nd at 2. cbn [shp dat]. do 2 f_equal. extensionality ix. cbn [scale_nd dat].
    unfold grad_at. cbv zeta. destruct (Nat.eqb _ 0); [|destruct (Nat.eqb _ _); [|destruct (uniform ts)]]; unfold Rdiv; ring.
  Qed.
  Lemma len_resolve_ref s i p : resolve_ref (st s) i p = resolve_ref s i p.
  Proof. unfold resolve_ref. rewrite len_parent. destruct p as [[n|n|]|]; cbv zeta; try destruct (String.eqb n _); try (destruct (option_map PFrame (parent_of s i)); [|reflexivity]); rewrite len_resolve; reflexivity. Qed.
  Lemma len_zeros : sc zeros3 = zeros3.
  Proof. unfold scale_nd, zeros3. cbn [shp dat]. f_equal. extensionality ix. ring. Qed.
  Lemma len_lookup_linear sq s i rf ri al rt : lookup_linear_velocity sq (st s) i rf ri al rt = outcome (vel_len c) (lookup_linear_velocity sq s i rf ri al rt).
  Proof.
    unfold lookup_linear_velocity. rewrite !len_resolve_ref. apply outcome_bind_same. intros j. apply outcome_bind_same. intros m. rewrite len_lookup. apply outcome_bind. intros tr.
    rewrite len_tr_ts, len_tr_t. destruct (tr_ts tr) as [ts|].
    - rewrite gradient_scale. apply outcome_bind. intros g. rewrite len_vectors, vectors_scale_all. destruct (transform_vectors _ _ _ _ _ _ _ _) as [[b w]|e]; [|reflexivity]. cbn [outcome bind fst snd]. unfold with_ts, vel_len. destruct rt; reflexivity.
    - destruct al; [|reflexivity]. unfold vel_len. cbn [outcome fst snd]. rewrite len_zeros. reflexivity.
  Qed.
  Lemma len_lookup_angular sq de s i rf ri al rt : lookup_angular_velocity sq de (st s) i rf ri al rt = lookup_angular_velocity sq de s i rf ri al rt.
  Proof.
    unfold lookup_angular_velocity. rewrite !len_resolve_ref. destruct (resolve_ref s i rf) as [j|]; [|reflexivity]. cbn [bind]. destruct (resolve_ref s i ri) as [m|]; [|reflexivity]. cbn [bind]. rewrite len_lookup.
    destruct (lookup_transform _ _ _ _) as [tr|]; [|reflexivity]. cbn [outcome bind]. rewrite len_tr_ts. unfold tr_r_opt. rewrite len_tr_r. fold (tr_r_opt tr). destruct (tr_ts tr) as [ts|]; [|reflexivity].
    destruct (estimate_angular _ _ _ _ _); [|reflexivity]. cbn [bind]. destruct (no_nan _); [|reflexivity]. cbn [bind]. rewrite len_vectors. reflexivity.
  Qed.
  Lemma same_clock (l : option (list R)) : option_map (map (tick 1 0)) l = l.
  Proof. destruct l as [l|]; [|reflexivity]. cbn [option_map]. f_equal. rewrite <- (map_id l) at 2. apply map_ext. intros x. unfold tick. ring. Qed.
  Lemma len_match2 d e a ta b tb : last (shp a) O <> 4%nat -> last (shp b) O <> 4%nat ->
    match_arrays np_squad [(scale_nd d a, ta); (scale_nd e b, tb)] = outcome (fun p => (match fst p with [x; y] => [scale_nd d x; scale_nd e y] | l => l end, snd p)) (match_arrays np_squad [(a, ta); (b, tb)]).
  Proof.
    intros A B. pose proof (tick_match2 1 0 ltac:(lra) d e a ta b tb A B) as H. rewrite !same_clock in H. rewrite H. clear H. destruct (match_arrays np_squad [(a, ta); (b, tb)]) as [[bs w]|]; [|reflexivity]. cbn [outcome fst snd]. rewrite same_clock. reflexivity.
  Qed.
  Lemma len_match4 c1 c2 c3 c4 a1 t1 a2 t2 a3 t3 a4 t4 : last (shp a1) O <> 4%nat -> last (shp a2) O <> 4%nat -> last (shp a3) O <> 4%nat -> last (shp a4) O <> 4%nat ->
    match_arrays np_squad [(scale_nd c1 a1, t1); (scale_nd c2 a2, t2); (scale_nd c3 a3, t3); (scale_nd c4 a4, t4)] =
    outcome (fun p => (match fst p with [x; y; z; w] => [scale_nd c1 x; scale_nd c2 y; scale_nd c3 z; scale_nd c4 w] | l => l end, snd p))
      (match_arrays np_squad [(a1, t1); (a2, t2); (a3, t3); (a4, t4)]).
  Proof.
    intros A1 A2 A3 A4. pose proof (tick_match4 1 0 ltac:(lra) c1 c2 c3 c4 a1 t1 a2 t2 a3 t3 a4 t4 A1 A2 A3 A4) as H. rewrite !same_clock in H. rewrite H. clear H. destruct (match_arrays np_squad [(a1, t1); (a2, t2); (a3, t3); (a4, t4)]) as [[bs w]|]; [|reflexivity].
    cbn [outcome fst snd]. rewrite same_clock. reflexivity.
  Qed.
  Lemma len_lookup_twist s i rf ri al rt : lookup_twist np_squad np_derivative (st s) i rf ri al rt = outcome (twist_len c) (lookup_twist np_squad np_derivative s i rf ri al rt).
  Proof.
    unfold lookup_twist. rewrite !len_resolve_ref. apply outcome_bind_same. intros j. apply outcome_bind_same. intros m. rewrite len_lookup. apply outcome_bind. intros tr.
    rewrite len_tr_ts, len_tr_t. unfold tr_r_opt. rewrite len_tr_r. fold (tr_r_opt tr). destruct (tr_ts tr) as [ts|].
    - rewrite gradient_scale. apply outcome_bind. intros g. apply outcome_bind_same. intros est. apply outcome_bind_same. intros ang. rewrite !len_vectors, vectors_scale_all.
      destruct (transform_vectors np_squad s j g _ _ _ _) as [[b w]|e] eqn:E1; [|reflexivity]. cbn [outcome bind]. destruct (transform_vectors np_squad s i ang _ _ _ _) as [[b2 w2]|e] eqn:E2; [|reflexivity]. cbn [outcome bind fst snd].
      apply vectors_last in E1, E2. rewrite <- (scale_one b2) at 1. rewrite len_match2 by (rewrite ?E1, ?E2; discriminate). destruct (match_arrays np_squad [(b2, w2); (b, w)]) as [[bs w3]|e]; [|reflexivity]. cbn [outcome bind fst snd].
      destruct bs as [|x [|y [|z bs]]]; try reflexivity. unfold twist_len. cbn [outcome]. rewrite scale_one. reflexivity.
    - destruct al; [|reflexivity]. unfold twist_len. cbn [outcome]. rewrite len_zeros. reflexivity.
  Qed.
  Lemma len_transform_angular sq de s i a to w ax ta ts : transform_angular_velocity sq de (st s) i a to w ax ta ts = transform_angular_velocity sq de s i a to w ax ta ts.
  Proof.
    unfold transform_angular_velocity. cbv zeta. rewrite len_vectors. destruct w; [| |reflexivity|reflexivity].
    - rewrite len_lookup_angular. reflexivity.
    - rewrite len_resolve. destruct (resolve_rf s to) as [j|]; [|reflexivity]. cbn [bind]. rewrite len_lookup_angular. reflexivity.
  Qed.
  Lemma cross_scale_r a b : np_cross a (sc b) = outcome sc (np_cross a b).
  Proof.
    unfold np_cross. change (shp (sc b)) with (shp b). destruct (_ || _)%bool; [reflexivity|]. apply outcome_bind_same. intros s. cbn [outcome]. unfold scale_nd at 2. cbn [shp dat]. do 2 f_equal. extensionality ix.
    change (vec_at (sc b)) with (fun pre => vscale c (vec_at b pre)). cbv beta. rewrite vcross_scale. apply comp3_scale.
  Qed.
  Lemma len_transform_linear s i a to w mf rf ts : transform_linear_velocity np_squad np_derivative (st s) i (sc a) to w mf rf (-1) (Some 0%Z) ts =
    outcome (arr_len c) (transform_linear_velocity np_squad np_derivative s i a to w mf rf (-1) (Some 0%Z) ts).
  Proof.
    unfold transform_linear_velocity. cbv zeta.
    assert (Fin : forall to lin ang lts ats tr, last (shp lin) O = 3%nat -> last (shp ang) O = 3%nat ->
      bind (transform_vectors np_squad (st s) i (sc a) to (-1) (Some 0%Z) ts) (fun '(a0, o0) =>
        bind (transform_vectors np_squad (st s) i (tr_t (tr_len c tr)) to (-1) (Some 0%Z) (option_map stamps_nd (tr_ts (tr_len c tr)))) (fun '(t, t_ts) =>
        bind (match_arrays np_squad [(a0, o0); (sc lin, lts); (ang, ats); (t, t_ts)]) (fun '(bs, o') =>
          match bs with [a; l; g; t] => bind (op2 Rplus a l) (fun al => bind (np_cross g t) (fun c => bind (op2 Rplus al c) (fun out => Ok (out, o')))) | _ => Raise ValueError end))) =
      outcome (arr_len c) (bind (transform_vectors np_squad s i a to (-1) (Some 0%Z) ts) (fun '(a0, o0) =>
        bind (transform_vectors np_squad s i (tr_t tr) to (-1) (Some 0%Z) (option_map stamps_nd (tr_ts tr))) (fun '(t, t_ts) =>
        bind (match_arrays np_squad [(a0, o0); (lin, lts); (ang, ats); (t, t_ts)]) (fun '(bs, o') =>
          match bs with [a; l; g; t] => bind (op2 Rplus a l) (fun al => bind (np_cross g t) (fun c => bind (op2 Rplus al c) (fun out => Ok (out, o')))) | _ => Raise ValueError end))))).
    { intros to' lin ang lts ats tr L1 L2. rewrite !len_vectors, len_tr_t, len_tr_ts, !vectors_scale_all. destruct (transform_vectors np_squad s i a to' (-1) (Some 0%Z) ts) as [[a0 o0]|e] eqn:E; [|reflexivity]. cbn [outcome bind fst snd].
      destruct (transform_vectors np_squad s i (tr_t tr) to' _ _ _) as [[t0 o1]|e] eqn:E'; [|reflexivity]. cbn [outcome bind fst snd].
      apply vectors_last in E, E'. rewrite <- (scale_one ang) at 1. rewrite len_match4 by (rewrite ?E, ?E', ?L1, ?L2; discriminate). destruct (match_arrays _ _) as [[bs w3]|e]; [|reflexivity]. cbn [outcome bind fst snd].
      destruct bs as [|x [|y [|z [|t [|u bs]]]]]; try reflexivity. rewrite (op2_scale c Rplus x y) by (try reflexivity; intros; cbn [scale_nd dat]; ring). destruct (op2 Rplus x y) as [al|e]; [|reflexivity]. cbn [outcome bind].
      rewrite scale_one, cross_scale_r. destruct (np_cross z t) as [d|e]; [|reflexivity]. cbn [outcome bind]. rewrite (op2_scale c Rplus al d) by (try reflexivity; intros; cbn [scale_nd dat]; ring).
      destruct (op2 Rplus al d); reflexivity. }
    destruct w; [| | |reflexivity].
    - rewrite len_lookup_twist. destruct (lookup_twist np_squad np_derivative s i _ _ _ _) as [[[lin ang] w]|e] eqn:E; [|reflexivity]. apply lookup_twist_last in E as [E1 E2]. cbn [outcome bind twist_len].
      destruct w as [w|]; [|reflexivity]. cbn [bind]. destruct mf as [p|]; [|reflexivity]. rewrite len_resolve. destruct (resolve_rf s p) as [m|]; [|reflexivity]. cbn [bind].
      rewrite len_lookup. destruct (lookup_transform np_squad s m (PFrame i)) as [tr|]; [|reflexivity]. cbn [outcome bind]. apply Fin; assumption.
    - rewrite len_resolve. destruct (resolve_rf s to) as [j|]; [|reflexivity]. cbn [bind]. rewrite len_lookup_linear. destruct (lookup_linear_velocity np_squad s j _ _ _ _) as [r|e] eqn:E; [|reflexivity]. apply lookup_linear_last in E. cbn [outcome bind].
      destruct r as [lin [lts|]]; [|reflexivity]. unfold vel_len. cbn [unpack2 snd fst outcome bind] in *.
      rewrite len_lookup_angular. destruct (lookup_angular_velocity np_squad np_derivative s i _ _ _ _) as [r|e] eqn:E2; [|reflexivity]. apply lookup_angular_last in E2. cbn [outcome bind].
      destruct r as [ang [ats|]]; [|reflexivity]. cbn [unpack2 snd fst outcome bind] in *.
      rewrite len_lookup. destruct (lookup_transform np_squad s j (PFrame i)) as [tr|]; [|reflexivity]. cbn [outcome bind]. apply Fin; assumption.
    - rewrite len_vectors. apply vectors_scale_all.
  Qed.
End Length.

(* ------------------------------------------------------------------ C88 *)
(** A program of API calls run with all its translations in another unit: every call has the
    same outcome, and the registry and the forest are the same. *)
Theorem C88_history : forall c ops x,
  snd (step (run (map (op_len c) ops)) (op_len c x)) = snd (step (run ops) x) /\
  reg (run (map (op_len c) ops)) = reg (run ops) /\
  forall i, name_of (run (map (op_len c) ops)) i = name_of (run ops) i /\
            parent_of (run (map (op_len c) ops)) i = parent_of (run ops) i /\
            children_of (run (map (op_len c) ops)) i = children_of (run ops) i.
Proof.
  intros c ops x. rewrite len_run, len_step. repeat split.
  - apply len_name.
  - apply len_parent.
  - unfold children_of. rewrite len_get. destruct (get (run ops) i); reflexivity.
Qed.
(** Lookups give the same rotations and the translations in the new unit. *)
Theorem C88_lookup : forall c ops i to,
  lookup_transform np_squad (run (map (op_len c) ops)) i to = outcome (tr_len c) (lookup_transform np_squad (run ops) i to).
Proof. intros c ops i to. rewrite len_run. apply len_lookup. Qed.
(** Points given in the new unit come back in the new unit (arrays with the coordinates last
    and time first, the default); directions and orientations are transformed as before. *)
Theorem C88_arrays : forall c ops i arr to,
  (forall ts, transform_points np_squad (run (map (op_len c) ops)) i (scale_nd c arr) to (-1) (Some 0%Z) ts =
     outcome (arr_len c) (transform_points np_squad (run ops) i arr to (-1) (Some 0%Z) ts)) /\
  (forall axis time_axis ts, transform_vectors np_squad (run (map (op_len c) ops)) i arr to axis time_axis ts =
     transform_vectors np_squad (run ops) i arr to axis time_axis ts) /\
  (forall axis time_axis ts, transform_quaternions np_squad (run (map (op_len c) ops)) i arr to axis time_axis ts =
     transform_quaternions np_squad (run ops) i arr to axis time_axis ts).
Proof.
  intros c ops i arr to. rewrite len_run. split; [intros; apply len_points|]. split; intros; [apply len_vectors|apply len_quaternions].
Qed.
(** Linear velocities come out in the new unit, angular ones do not change. *)
Theorem C88_velocities : forall c ops i reference represent_in allow_static return_timestamps,
  let s' := run (map (op_len c) ops) in
  lookup_linear_velocity np_squad s' i reference represent_in allow_static return_timestamps =
    outcome (vel_len c) (lookup_linear_velocity np_squad (run ops) i reference represent_in allow_static return_timestamps) /\
  lookup_angular_velocity np_squad np_derivative s' i reference represent_in allow_static return_timestamps =
    lookup_angular_velocity np_squad np_derivative (run ops) i reference represent_in allow_static return_timestamps /\
  lookup_twist np_squad np_derivative s' i reference represent_in allow_static return_timestamps =
    outcome (twist_len c) (lookup_twist np_squad np_derivative (run ops) i reference represent_in allow_static return_timestamps).
Proof.
  intros c ops i rf ri al rt. cbv zeta. rewrite len_run. split; [apply len_lookup_linear|]. split; [apply len_lookup_angular|apply len_lookup_twist].
Qed.
Theorem C88_transformed_velocities : forall c ops i arr to w moving_frame reference_frame axis time_axis ts,
  let s' := run (map (op_len c) ops) in
  transform_linear_velocity np_squad np_derivative s' i (scale_nd c arr) to w moving_frame reference_frame (-1) (Some 0%Z) ts =
    outcome (arr_len c) (transform_linear_velocity np_squad np_derivative (run ops) i arr to w moving_frame reference_frame (-1) (Some 0%Z) ts) /\
  transform_angular_velocity np_squad np_derivative s' i arr to w axis time_axis ts =
    transform_angular_velocity np_squad np_derivative (run ops) i arr to w axis time_axis ts.
Proof.
  intros c ops i arr to w mf rf ax ta ts. cbv zeta. rewrite len_run. split; [apply len_transform_linear|apply len_transform_angular].
Qed.
