(** C87: results do not depend on the unit and the origin of the time stamps. *)
From Coq Require Import Reals List Arith Bool ZArith Lra Lia FunctionalExtensionality.
From Verif Require Import Base Quat NdArray Frames Matcher Transform Squad SquadProofs PropSquad.
Import ListNotations.
Open Scope R_scope.

(* ------------------------------------------------------------------ specification *)
(** A clock that shows k t + o when the old one shows t (k = 1000: milliseconds
    instead of seconds). *)
Section Spec.
  Variables (k o : R).
  Definition tick (t : R) : R := k * t + o.
  (** An array of time stamps read on the new clock. *)
  Definition nd_tick (a : nd R) : nd R := Nd (shp a) (fun ix => tick (dat a ix)).
  (** A constructor call, and any API call, with its time stamps read on the new clock. *)
  Definition ctor_tick (c : ctor) : ctor :=
    Ctor (c_name c) (c_parent c) (c_tr c) (c_ro c) (option_map nd_tick (c_ts c)) (c_inverse c) (c_discrete c).
  Definition op_tick (x : op) : op :=
    match x with
    | ONew c => ONew (ctor_tick c)
    | ORegisterFrame c u => ORegisterFrame (ctor_tick c) u
    | x => x
    end.
  (** The same outcome: the same exception, or results that correspond. *)
  Definition outcome {A B} (f : A -> B) (r : res A) : res B :=
    match r with Ok a => Ok (f a) | Raise e => Raise e end.
  (** The same transformation, its time stamps read on the new clock. *)
  Definition tr_tick (tr : transf) : transf :=
    match tr with
    | TrStatic t r => TrStatic t r
    | TrBare ts => TrBare (map tick ts)
    | TrRows ts rows => TrRows (map tick ts) rows
    end.
  (** The same array, its time stamps read on the new clock. *)
  Definition arr_tick (p : nd R * option (list R)) : nd R * option (list R) :=
    (fst p, option_map (map tick) (snd p)).
  (* states *)
  Definition data_tick (d : tfdata) : tfdata :=
    match d with TStatic t r => TStatic t r | TMoving ts t r b => TMoving (map tick ts) t r b end.
  Definition body_tick (b : body) : body := match b with BTf d => BTf (data_tick d) | b => b end.
  Definition node_tick (n : node) : node := Node (nname n) (nparent n) (nchildren n) (body_tick (nbody n)).
  Definition state_tick (s : state) : state := State (map node_tick (heap s)) (reg s).
End Spec.

(* ------------------------------------------------------------------ proofs *)
Lemma sequence_map {A B} (g : A -> B) (l : list (res A)) : sequence (map (outcome g) l) = outcome (map g) (sequence l).
Proof.
  induction l as [|x l IH]; [reflexivity|]. cbn [map sequence]. rewrite IH. destruct x as [a|e]; [|reflexivity].
  cbn [outcome bind]. destruct (sequence l); reflexivity.
Qed.
Lemma traverse_outcome {A A' B B'} (g : B -> B') (h : A -> A') (F : A -> res B) (F' : A' -> res B') l :
  (forall a, F' (h a) = outcome g (F a)) -> traverse F' (map h l) = outcome (map g) (traverse F l).
Proof.
  intros H. unfold traverse. rewrite map_map, <- sequence_map, map_map. f_equal. apply map_ext, H.
Qed.
Lemma traverse_same {A A' B} (h : A -> A') (F : A -> res B) (F' : A' -> res B) l :
  (forall a, F' (h a) = F a) -> traverse F' (map h l) = traverse F l.
Proof. intros H. unfold traverse. rewrite map_map. f_equal. apply map_ext, H. Qed.
Lemma traverse_outcome_in {A B B'} (g : B -> B') (F : A -> res B) (F' : A -> res B') l :
  (forall a, F' a = outcome g (F a)) -> traverse F' l = outcome (map g) (traverse F l).
Proof. intros H. rewrite <- (map_id l) at 1. apply traverse_outcome, H. Qed.
Lemma upd_map {A B} (g : A -> B) (F : A -> A) (F' : B -> B) : (forall a, F' (g a) = g (F a)) ->
  forall l i, upd (map g l) i F' = map g (upd l i F).
Proof. intros H. induction l as [|a l IH]; intros [|i]; cbn [map upd]; try reflexivity; [rewrite H; reflexivity|rewrite IH; reflexivity]. Qed.
Lemma outcome_bind {A A' B B'} (g : A -> A') (h : B -> B') (m : res A) (f : A -> res B) (f' : A' -> res B') :
  (forall a, f' (g a) = outcome h (f a)) -> bind (outcome g m) f' = outcome h (bind m f).
Proof. intros H. destruct m; [apply H|reflexivity]. Qed.
Lemma outcome_bind_same {A B B'} (h : B -> B') (m : res A) (f : A -> res B) (f' : A -> res B') :
  (forall a, f' a = outcome h (f a)) -> bind m f' = outcome h (bind m f).
Proof. intros H. destruct m; [apply H|reflexivity]. Qed.

Section Clock.
  Variables (k o : R).
  Hypothesis K : 0 < k.
  Notation f := (tick k o).
  Lemma tick_lt a b : f a < f b <-> a < b.
  Proof. unfold tick. split; intros H; nra. Qed.
  Lemma tick_le a b : f a <= f b <-> a <= b.
  Proof. unfold tick. split; intros H; nra. Qed.
  Lemma tick_eq a b : f a = f b <-> a = b.
  Proof. unfold tick. split; intros H; [nra|congruence]. Qed.
  Lemma tick_ltb a b : Rlt_b (f a) (f b) = Rlt_b a b.
  Proof. unfold Rlt_b. destruct (Rlt_dec (f a) (f b)) as [h|h], (Rlt_dec a b) as [h'|h']; auto; exfalso; rewrite tick_lt in h; contradiction. Qed.
  Lemma tick_leb a b : Rle_b (f a) (f b) = Rle_b a b.
  Proof. unfold Rle_b. destruct (Rle_dec (f a) (f b)) as [h|h], (Rle_dec a b) as [h'|h']; auto; exfalso; rewrite tick_le in h; contradiction. Qed.
  Lemma tick_eqb a b : Req_b (f a) (f b) = Req_b a b.
  Proof. unfold Req_b. destruct (Req_EM_T (f a) (f b)) as [h|h], (Req_EM_T a b) as [h'|h']; auto; exfalso; rewrite tick_eq in h; contradiction. Qed.
  Lemma tick_diff_neg a b : Rlt_b (f b - f a) 0 = Rlt_b (b - a) 0.
  Proof.
    unfold Rlt_b, tick. destruct (Rlt_dec (k * b + o - (k * a + o)) 0), (Rlt_dec (b - a) 0); auto; exfalso; nra.
  Qed.
  Lemma tick_decreasing ts : decreasing_somewhere (map f ts) = decreasing_somewhere ts.
  Proof.
    induction ts as [|a [|b l] IH]; try reflexivity.
    change (Rlt_b (f b - f a) 0 || decreasing_somewhere (map f (b :: l)) = Rlt_b (b - a) 0 || decreasing_somewhere (b :: l)).
    rewrite IH, tick_diff_neg. reflexivity.
  Qed.
  Lemma tick_check ts sh : check_timestamps (option_map (map f) ts) sh = check_timestamps ts sh.
  Proof. destruct ts as [l|]; [|reflexivity]. cbn [option_map check_timestamps]. rewrite tick_decreasing. destruct (decreasing_somewhere l); [reflexivity|]. destruct sh; [reflexivity|]. rewrite map_length. reflexivity. Qed.

  (* ---- the forest ---- *)
  Notation st := (state_tick k o).
  Lemma tick_get s i : get (st s) i = option_map (node_tick k o) (get s i).
  Proof. unfold get. cbn [state_tick heap]. apply nth_error_map. Qed.
  Lemma tick_parent s i : parent_of (st s) i = parent_of s i.
  Proof. unfold parent_of. rewrite tick_get. destruct (get s i); reflexivity. Qed.
  Lemma tick_name s i : name_of (st s) i = name_of s i.
  Proof. unfold name_of. rewrite tick_get. destruct (get s i); reflexivity. Qed.
  Lemma tick_resolve s p : resolve_rf (st s) p = resolve_rf s p.
  Proof. destruct p as [i|n|]; try reflexivity. cbn [resolve_rf]. rewrite tick_get. destruct (get s i); reflexivity. Qed.
  Lemma tick_path_up fuel s i : path_up fuel (st s) i = path_up fuel s i.
  Proof. revert i; induction fuel as [|m IH]; intros i; [reflexivity|]. cbn [path_up]. rewrite tick_parent. destruct (parent_of s i); [rewrite IH|]; reflexivity. Qed.
  Lemma tick_rpath s i : rpath (st s) i = rpath s i.
  Proof. unfold rpath. cbn [state_tick heap]. rewrite map_length. apply tick_path_up. Qed.
  Lemma tick_walk s i j : walk (st s) i j = walk s i j.
  Proof. unfold walk. rewrite !tick_rpath. reflexivity. Qed.
  Lemma tick_upd s i F : (forall n, F (node_tick k o n) = node_tick k o (F n)) -> upd_node (st s) i F = st (upd_node s i F).
  Proof. intros H. unfold upd_node, state_tick. cbn [heap reg]. f_equal. apply upd_map, H. Qed.
  Lemma tick_detach s i : detach (st s) i = st (detach s i).
  Proof. unfold detach. rewrite tick_parent. destruct (parent_of s i); [|reflexivity]. rewrite !tick_upd by reflexivity. reflexivity. Qed.
  Lemma tick_attach s i p : attach (st s) i p = st (attach s i p).
  Proof. unfold attach. rewrite !tick_upd by reflexivity. reflexivity. Qed.
  Definition both {A} (p : state * res A) : state * res A := (st (fst p), snd p).
  Lemma tick_set_parent s i v : set_parent (st s) i v = both (set_parent s i v).
  Proof.
    unfold set_parent. rewrite tick_parent. destruct (opt_eqb (parent_of s i) v); [reflexivity|]. destruct v as [p|].
    - rewrite tick_rpath. destruct (rpath s p) as [l|]; [|reflexivity]. destruct (existsb _ l); [reflexivity|]. rewrite tick_detach, tick_attach. reflexivity.
    - rewrite tick_detach. reflexivity.
  Qed.
  Lemma tick_register s i u : register (st s) i u = both (register s i u).
  Proof.
    unfold register. rewrite tick_name. destruct (name_of s i) as [n|]; [|reflexivity]. cbn [state_tick reg].
    destruct (lookup n (reg s)) as [old|]; [|reflexivity]. destruct u; [|reflexivity].
    change (State (map (node_tick k o) (heap s)) (reg s)) with (st s).
    pose proof (tick_set_parent s old None) as H. destruct (set_parent (st s) old None) as [s1 r1]. destruct (set_parent s old None) as [s2 r2].
    cbv [both fst snd] in H. injection H as -> ->. reflexivity.
  Qed.
  Lemma tick_deregister s n : deregister (st s) n = both (deregister s n).
  Proof. unfold deregister. cbn [state_tick reg]. destruct (lookup n (reg s)); reflexivity. Qed.
  Lemma tick_deregister_obj s i : deregister_obj (st s) i = both (deregister_obj s i).
  Proof. unfold deregister_obj. rewrite tick_name. destruct (name_of s i); [apply tick_deregister|reflexivity]. Qed.
  Lemma tick_stamps a n : map (fun i => dat (nd_tick k o a) [i]) (seq 0 n) = map f (map (fun i => dat a [i]) (seq 0 n)).
  Proof. rewrite map_map. reflexivity. Qed.
  Lemma tick_arg_ts a : arg_ts (option_map (nd_tick k o) a) = outcome (option_map (map f)) (arg_ts a).
  Proof.
    destruct a as [a|]; [|reflexivity]. cbn [option_map arg_ts nd_tick shp]. destruct (shp a) as [|n [|m l]]; try reflexivity.
    cbn [outcome option_map]. do 2 f_equal. apply tick_stamps.
  Qed.
  Lemma tick_init tr ro ts inv : init_arrays tr ro (option_map (nd_tick k o) ts) inv = outcome (data_tick k o) (init_arrays tr ro ts inv).
  Proof.
    unfold init_arrays. rewrite tick_arg_ts. apply outcome_bind. intros [l|].
    - cbn [option_map]. rewrite map_length. apply outcome_bind_same. intros t. apply outcome_bind_same. intros r. destruct inv; [|reflexivity].
      apply outcome_bind_same. reflexivity.
    - cbn [option_map]. apply outcome_bind_same. intros t. apply outcome_bind_same. intros r. destruct t as [|t0 t]; [reflexivity|]. destruct r as [|r0 r]; [reflexivity|].
      destruct inv; [|reflexivity]. apply outcome_bind_same. intros [t1 r1]. reflexivity.
  Qed.
  Lemma tick_alloc s c b : State (heap (st s) ++ [Node (c_name (ctor_tick k o c)) None [] (body_tick k o b)]) (reg (st s)) = st (State (heap s ++ [Node (c_name c) None [] b]) (reg s)).
  Proof. unfold state_tick. cbn [heap reg]. rewrite map_app. reflexivity. Qed.
  Lemma tick_new s c : new_frame (st s) (ctor_tick k o c) = both (new_frame s c).
  Proof.
    unfold new_frame. replace (length (heap (st s))) with (length (heap s)) by (cbn [state_tick heap]; rewrite map_length; reflexivity).
    change (c_parent (ctor_tick k o c)) with (c_parent c). destruct (c_parent c) as [p|].
    - rewrite tick_resolve. destruct (resolve_rf s p) as [pi|e]; [|cbv [both fst snd]; rewrite <- tick_alloc; reflexivity].
      change (init_arrays (c_tr (ctor_tick k o c)) (c_ro (ctor_tick k o c)) (c_ts (ctor_tick k o c)) (c_inverse (ctor_tick k o c))) with (init_arrays (c_tr c) (c_ro c) (option_map (nd_tick k o) (c_ts c)) (c_inverse c)). rewrite tick_init. destruct (init_arrays (c_tr c) (c_ro c) (c_ts c) (c_inverse c)) as [d|e].
      + cbn [outcome]. assert (F : finish (ctor_tick k o c) (data_tick k o d) = (body_tick k o (fst (finish c d)), snd (finish c d))).
        { destruct d as [t r|ts t r b]; cbn [data_tick finish ctor_tick c_discrete]; [destruct (c_discrete c)|]; reflexivity. }
        rewrite F. destruct (finish c d) as [b r]. cbv [both fst snd].
        f_equal. rewrite <- tick_attach, <- tick_alloc. reflexivity.
      + cbn [outcome]. assert (D : discrete_static (ctor_tick k o c) = discrete_static c) by (unfold discrete_static; cbn [ctor_tick c_discrete c_ts]; destruct (c_ts c); reflexivity).
        destruct e; cbv [both fst snd]; try (rewrite <- tick_attach, <- tick_alloc; reflexivity).
        rewrite D. destruct (discrete_static c); rewrite <- tick_attach, <- tick_alloc; reflexivity.
    - assert (V : verify_root (ctor_tick k o c) = verify_root c) by (unfold verify_root; cbn [ctor_tick c_tr c_ro c_ts]; destruct (c_ts c); reflexivity).
      rewrite V.
      destruct (verify_root c); [|cbv [both fst snd]; rewrite <- tick_alloc; reflexivity]. change (c_discrete (ctor_tick k o c)) with (c_discrete c).
      destruct (c_discrete c); cbv [both fst snd]; rewrite <- tick_alloc; reflexivity.
  Qed.
  Lemma tick_register_frame s c u : register_frame (st s) (ctor_tick k o c) u = both (register_frame s c u).
  Proof.
    unfold register_frame. rewrite tick_new. unfold both at 1. destruct (new_frame s c) as [s1 [i|e]]; [|reflexivity]. cbn [fst snd].
    rewrite tick_register. unfold both at 1. destruct (register s1 i u) as [s2 [x|e]]; reflexivity.
  Qed.
  Lemma tick_step s x : step (st s) (op_tick k o x) = both (step s x).
  Proof.
    destruct x as [c|c u|i u|n|i| |i p]; cbn [op_tick step].
    - rewrite tick_new. unfold both at 1. destruct (new_frame s c) as [s1 [i|e]]; reflexivity.
    - rewrite tick_register_frame. unfold both at 1. destruct (register_frame s c u) as [s1 [i|e]]; reflexivity.
    - rewrite tick_get. destruct (get s i); [apply tick_register|reflexivity].
    - apply tick_deregister.
    - rewrite tick_get. destruct (get s i); [apply tick_deregister_obj|reflexivity].
    - reflexivity.
    - rewrite tick_get. destruct (get s i); [|reflexivity]. destruct p as [p|].
      + rewrite tick_get. destruct (get s p); [|reflexivity]. apply tick_set_parent.
      + apply tick_set_parent.
  Qed.
  Lemma tick_run ops : run (map (op_tick k o) ops) = st (run ops).
  Proof.
    unfold run. change init with (st init) at 1. generalize init. induction ops as [|x ops IH]; intros s; [reflexivity|].
    cbn [map fold_left]. rewrite tick_step. unfold both. cbn [fst]. apply IH.
  Qed.

  (* ---- the matcher ---- *)
  Definition mf_tick (m : mframe) : mframe := MF (data_tick k o (mf_data m)) (mf_inv m).
  Definition ma_tick (a : marray) : marray := MA (ma_data a) (option_map (map f) (ma_ts a)).
  Definition mat_tick (m : matcher) : matcher := Mat (map mf_tick (m_frames m)) (map ma_tick (m_arrays m)).
  Lemma tick_body s i : body_at (st s) i = body_tick k o (body_at s i).
  Proof. unfold body_at. rewrite tick_get. destruct (get s i); reflexivity. Qed.
  Lemma tick_add_frame b inv : add_frame (body_tick k o b) inv = outcome mf_tick (add_frame b inv).
  Proof.
    destruct b as [|[t r|ts t r d]| | |]; try reflexivity. cbn [body_tick data_tick add_frame].
    pose proof (tick_check (Some ts) [length t; 3%nat]) as H. cbn [option_map] in H. rewrite H. destruct (check_timestamps (Some ts) _); reflexivity.
  Qed.
  Lemma tick_between s i j : frames_between (st s) i j = outcome (map mf_tick) (frames_between s i j).
  Proof.
    unfold frames_between. rewrite tick_walk. apply outcome_bind_same. intros [up down].
    rewrite (traverse_outcome_in mf_tick (fun m => add_frame (body_at s m) false)) by (intros; rewrite tick_body; apply tick_add_frame).
    apply outcome_bind. intros fu.
    rewrite (traverse_outcome_in mf_tick (fun m => add_frame (body_at s m) true)) by (intros; rewrite tick_body; apply tick_add_frame).
    apply outcome_bind. intros fd. cbn [outcome]. rewrite map_app. reflexivity.
  Qed.
  Lemma somes_map {A B} (g : A -> B) l : somes (map (option_map g) l) = map g (somes l).
  Proof. induction l as [|[a|] l IH]; cbn [map somes option_map]; [reflexivity|rewrite IH; reflexivity|exact IH]. Qed.
  Lemma tick_cont m : cont_list (mat_tick m) = map (map f) (cont_list m).
  Proof. unfold cont_list. cbn [mat_tick m_frames]. rewrite <- somes_map, !map_map. f_equal. apply map_ext. intros [[t r|ts t r [|]] inv]; reflexivity. Qed.
  Lemma tick_disc m : disc_list (mat_tick m) = map (map f) (disc_list m).
  Proof. unfold disc_list. cbn [mat_tick m_frames]. rewrite <- somes_map, !map_map. f_equal. apply map_ext. intros [[t r|ts t r [|]] inv]; reflexivity. Qed.
  Lemma tick_arrs m : arr_list (mat_tick m) = map (map f) (arr_list m).
  Proof. unfold arr_list. cbn [mat_tick m_arrays]. rewrite <- somes_map, !map_map. f_equal. Qed.
  Lemma tick_last l a : last (map f l) (f a) = f (last l a).
  Proof. revert a; induction l as [|b [|c l] IH]; intros a; try reflexivity. change (last (map f (c :: l)) (f a) = f (last (c :: l) a)). apply IH. Qed.
  Lemma tick_first_of ts : first_of (map f ts) = outcome f (first_of ts).
  Proof. destruct ts; reflexivity. Qed.
  Lemma tick_last_of ts : last_of (map f ts) = outcome f (last_of ts).
  Proof. destruct ts as [|a l]; [reflexivity|]. cbn [map last_of outcome]. rewrite tick_last. reflexivity. Qed.
  Lemma tick_max a b : Rmax (f a) (f b) = f (Rmax a b).
  Proof. unfold Rmax. destruct (Rle_dec (f a) (f b)) as [h|h], (Rle_dec a b) as [h'|h']; auto; exfalso; rewrite tick_le in h; contradiction. Qed.
  Lemma tick_min a b : Rmin (f a) (f b) = f (Rmin a b).
  Proof. unfold Rmin. destruct (Rle_dec (f a) (f b)) as [h|h], (Rle_dec a b) as [h'|h']; auto; exfalso; rewrite tick_le in h; contradiction. Qed.
  Lemma tick_maxl l a : maxl (f a) (map f l) = f (maxl a l).
  Proof. unfold maxl. revert a; induction l as [|b l IH]; intros a; [reflexivity|]. cbn [map fold_left]. rewrite tick_max. apply IH. Qed.
  Lemma tick_minl l a : minl (f a) (map f l) = f (minl a l).
  Proof. unfold minl. revert a; induction l as [|b l IH]; intros a; [reflexivity|]. cbn [map fold_left]. rewrite tick_min. apply IH. Qed.
  Lemma tick_range m : get_range (mat_tick m) = outcome (fun p => (option_map f (fst p), option_map f (snd p))) (get_range m).
  Proof.
    unfold get_range. rewrite tick_cont, tick_arrs, <- map_app.
    rewrite (traverse_outcome f (map f) first_of first_of) by apply tick_first_of. apply outcome_bind. intros fs.
    rewrite (traverse_outcome f (map f) last_of last_of) by apply tick_last_of. apply outcome_bind. intros ls.
    cbn [outcome fst snd]. do 2 f_equal; [destruct fs; [reflexivity|]; cbn [map option_map]; rewrite tick_maxl|destruct ls; [reflexivity|]; cbn [map option_map]; rewrite tick_minl]; reflexivity.
  Qed.
  Lemma filter_map {A B} (g : A -> B) (p : A -> bool) (p' : B -> bool) l : (forall a, p' (g a) = p a) -> filter p' (map g l) = map g (filter p l).
  Proof. intros H. induction l as [|a l IH]; [reflexivity|]. cbn [map filter]. rewrite H. destruct (p a); [cbn [map]; rewrite IH; reflexivity|exact IH]. Qed.
  Lemma tick_insert x l : insert_uniq (f x) (map f l) = map f (insert_uniq x l).
  Proof. induction l as [|y l IH]; [reflexivity|]. cbn [map insert_uniq]. rewrite tick_ltb, tick_eqb. destruct (Rlt_b x y); [reflexivity|]. destruct (Req_b x y); [reflexivity|]. cbn [map]. rewrite IH. reflexivity. Qed.
  Lemma tick_unique l : unique (map f l) = map f (unique l).
  Proof. unfold unique. induction l as [|x l IH]; [reflexivity|]. cbn [map fold_right]. rewrite IH. apply tick_insert. Qed.
  Lemma tick_timestamps m af : get_timestamps (mat_tick m) af = outcome (option_map (map f)) (get_timestamps m af).
  Proof.
    unfold get_timestamps. rewrite tick_range. apply outcome_bind. intros [lo hi]. cbn [fst snd outcome]. f_equal.
    rewrite tick_cont, tick_arrs, tick_disc, <- !map_app.
    replace (if af then map (map f) (arr_list m ++ cont_list m) else map (map f) (cont_list m ++ arr_list m)) with (map (map f) (if af then arr_list m ++ cont_list m else cont_list m ++ arr_list m)) by (destruct af; reflexivity).
    destruct (if af then arr_list m ++ cont_list m else cont_list m ++ arr_list m) as [|ts l].
    - cbn [map]. destruct (disc_list m) as [|d ds]; [reflexivity|]. cbn [map option_map]. f_equal.
      change (map f d :: map (map f) ds) with (map (map f) (d :: ds)). rewrite <- concat_map. apply tick_unique.
    - cbn [map option_map]. f_equal. apply filter_map. intros x. f_equal; [destruct lo|destruct hi]; cbn [option_map]; try reflexivity; apply tick_leb.
  Qed.
  Lemma tick_search xs x : searchsorted (map f xs) (f x) = searchsorted xs x.
  Proof. induction xs as [|a xs IH]; [reflexivity|]. cbn [map searchsorted]. rewrite tick_ltb, IH. reflexivity. Qed.
  Lemma tick_in_bounds xs x : in_bounds (map f xs) (f x) = in_bounds xs x.
  Proof. destruct xs as [|a l]; [reflexivity|]. cbn [map in_bounds]. rewrite tick_last, !tick_leb. reflexivity. Qed.
  Lemma tick_interp_idx xs x : interp_idx (map f xs) (f x) = interp_idx xs x.
  Proof. unfold interp_idx. rewrite tick_search, map_length. reflexivity. Qed.
  Lemma tick_lin1 xl xh yl yh x : xl <> xh -> lin1 (f xl) (f xh) yl yh (f x) = lin1 xl xh yl yh x.
  Proof. intros H. unfold lin1, tick. field. split; [|nra]. intros E. apply H. nra. Qed.
  Lemma tick_interp_at {A} (lin : R -> R -> A -> A -> R -> A) xs ys x :
    (forall xl xh yl yh t, xl <> xh -> lin (f xl) (f xh) yl yh (f t) = lin xl xh yl yh t) ->
    interp_at lin (map f xs) ys (f x) = interp_at lin xs ys x.
  Proof.
    intros H. unfold interp_at. rewrite tick_interp_idx. destruct (interp_idx xs x) as [lo hi]. rewrite !nth_error_map.
    destruct (nth_error xs lo) as [xl|]; [|reflexivity]. destruct (nth_error xs hi) as [xh|]; [|reflexivity]. cbn [option_map].
    destruct (nth_error ys lo); [|reflexivity]. destruct (nth_error ys hi); [|reflexivity]. rewrite tick_eqb.
    destruct (Req_b xl xh) eqn:E; [reflexivity|]. apply Req_b_false in E. rewrite H by exact E. reflexivity.
  Qed.
  Lemma tick_interp1d {A} (lin : R -> R -> A -> A -> R -> A) xs ys l :
    (forall xl xh yl yh t, xl <> xh -> lin (f xl) (f xh) yl yh (f t) = lin xl xh yl yh t) ->
    interp1d lin (map f xs) ys (map f l) = interp1d lin xs ys l.
  Proof.
    intros H. unfold interp1d.
    assert (B : forallb (in_bounds (map f xs)) (map f l) = forallb (in_bounds xs) l) by (induction l as [|a l IH]; [reflexivity|]; cbn [map forallb]; rewrite tick_in_bounds, IH; reflexivity).
    rewrite B. destruct (forallb _ l); [|reflexivity]. apply traverse_same. intros x. apply tick_interp_at, H.
  Qed.
  Lemma tick_lin_vec xl xh yl yh x : xl <> xh -> lin_vec (f xl) (f xh) yl yh (f x) = lin_vec xl xh yl yh x.
  Proof. intros H. unfold lin_vec. rewrite !tick_lin1 by exact H. reflexivity. Qed.
  Lemma tick_lin_fun xl xh yl yh x : xl <> xh -> lin_fun (f xl) (f xh) yl yh (f x) = lin_fun xl xh yl yh x.
  Proof. intros H. unfold lin_fun. extensionality jx. apply tick_lin1, H. Qed.
  Lemma tick_hold {A} ts (rows : list A) x : hold (map f ts) rows (f x) = hold ts rows x.
  Proof.
    unfold hold. destruct rows as [|a rows]; [reflexivity|]. f_equal. generalize (a :: rows). intros rr. revert rr a. clear rows.
    induction ts as [|t ts IH]; intros rows a; [reflexivity|]. destruct rows as [|b rows]; [reflexivity|]. cbn [map combine fold_left fst snd]. rewrite tick_leb. apply IH.
  Qed.
  Lemma tick_strictly ts : strictly (map f ts) = strictly ts.
  Proof.
    induction ts as [|a [|b l] IH]; try reflexivity.
    change (Rlt_b (f a) (f b) && strictly (map f (b :: l)) = Rlt_b a b && strictly (b :: l)). rewrite IH, tick_ltb. reflexivity.
  Qed.
  Lemma tick_squad ts rr x : np_squad (map f ts) rr (f x) = np_squad ts rr x.
  Proof.
    destruct (np_squad ts rr x) as [r|e] eqn:E; [exact (C79_clock _ _ _ o _ _ K E)|].
    unfold np_squad in *. rewrite map_length, tick_strictly. destruct (negb _); [exact E|]. destruct (Nat.ltb _ 2); [exact E|].
    destruct (existsb _ rr || negb (strictly ts)); [exact E|discriminate].
  Qed.
  Lemma tick_rows d l : rows_from_frame np_squad (data_tick k o d) (map f l) = rows_from_frame np_squad d l.
  Proof.
    destruct d as [t r|ts t r [|]]; cbn [data_tick rows_from_frame].
    - rewrite map_map. reflexivity.
    - rewrite (traverse_same f (hold ts t)) by (intros; apply tick_hold). rewrite (traverse_same f (hold ts r)) by (intros; apply tick_hold).
      destruct t as [|t0 t]; [reflexivity|]. destruct r as [|r0 r]; reflexivity.
    - rewrite tick_interp1d by (intros; apply tick_lin_vec; assumption). rewrite (traverse_same f (np_squad ts r)) by (intros; apply tick_squad). reflexivity.
  Qed.
  Lemma tick_step_rows l accs m : step_rows np_squad (map f l) accs (mf_tick m) = step_rows np_squad l accs m.
  Proof. unfold step_rows. cbn [mf_tick mf_data mf_inv]. rewrite tick_rows. reflexivity. Qed.
  Lemma foldM_map {A B C} (g : C -> B) (F : A -> B -> res A) (F' : A -> C -> res A) l a : (forall a b, F a (g b) = F' a b) -> foldM F (map g l) a = foldM F' l a.
  Proof. intros H. revert a. induction l as [|b l IH]; intros a; [reflexivity|]. cbn [map foldM]. rewrite H. destruct (F' a b); [apply IH|reflexivity]. Qed.
  Lemma tick_transformation m ts : transformation_at np_squad (mat_tick m) (option_map (map f) ts) = outcome (tr_tick k o) (transformation_at np_squad m ts).
  Proof.
    destruct ts as [l|]; cbn [option_map transformation_at mat_tick m_frames].
    - destruct (m_frames m) as [|x fs]; [reflexivity|]. change (mf_tick x :: map mf_tick fs) with (map mf_tick (x :: fs)).
      cbn [map]. change (mf_tick x :: map mf_tick fs) with (map mf_tick (x :: fs)).
      rewrite (foldM_map mf_tick _ (step_rows np_squad l)) by (intros; apply tick_step_rows). rewrite map_map.
      apply outcome_bind_same. reflexivity.
    - rewrite (foldM_map mf_tick _ step_static) by (intros a [[t r|t0 t r d] inv]; reflexivity). apply outcome_bind_same. intros [t r]. reflexivity.
  Qed.
  Lemma tick_get_transformation m af : get_transformation np_squad (mat_tick m) af = outcome (tr_tick k o) (get_transformation np_squad m af).
  Proof. unfold get_transformation. rewrite tick_timestamps. apply outcome_bind. intros ts. apply tick_transformation. Qed.
  Lemma tick_lookup s i to : lookup_transform np_squad (st s) i to = outcome (tr_tick k o) (lookup_transform np_squad s i to).
  Proof.
    unfold lookup_transform. rewrite tick_resolve. apply outcome_bind_same. intros j. rewrite tick_between. apply outcome_bind. intros fs.
    exact (tick_get_transformation (Mat fs []) true).
  Qed.

  (* ---- arrays ---- *)
  Lemma tick_validate arr axis n ts ta : validate_input arr axis n (option_map (nd_tick k o) ts) ta = outcome (arr_tick k o) (validate_input arr axis n ts ta).
  Proof.
    unfold validate_input. apply outcome_bind_same. intros m. destruct (negb _); [reflexivity|]. destruct ts as [ts|]; [|reflexivity].
    cbn [option_map nd_tick shp]. destruct (shp ts) as [|q [|x l]]; try reflexivity. destruct ta as [ta|]; [|reflexivity]. apply outcome_bind_same. intros j.
    destruct (negb _); [reflexivity|]. unfold arr_tick. cbn [outcome fst snd option_map]. do 3 f_equal. rewrite map_map. reflexivity.
  Qed.
  Lemma tick_add_array a ts : add_array a (option_map (map f) ts) = outcome ma_tick (add_array a ts).
  Proof. unfold add_array. rewrite tick_check. destruct (check_timestamps ts (shp a)); reflexivity. Qed.
  Lemma tick_nth l n : (n < length l)%nat -> nth n (map f l) 0 = f (nth n l 0).
  Proof. intros H. rewrite (nth_indep _ 0 (f 0)) by (rewrite map_length; exact H). apply map_nth. Qed.
  Lemma tick_interp_nd ts a l : interp_nd (map f ts) a (map f l) = interp_nd ts a l.
  Proof. unfold interp_nd. rewrite tick_interp1d by (intros; apply tick_lin_fun; assumption). rewrite map_length. reflexivity. Qed.
  Lemma tick_squad_nd ts a l : squad_nd np_squad (map f ts) a (map f l) = squad_nd np_squad ts a l.
  Proof.
    unfold squad_nd. destruct (shp a) as [|n [|m rest]]; try reflexivity.
    rewrite (traverse_same f (fun x => traverse (fun jx => np_squad ts (map (fun i => quat_at a (i :: jx)) (seq 0 n)) x) (indices (removelast (m :: rest))))).
    2:{ intros x. f_equal. extensionality jx. apply tick_squad. }
    rewrite map_length. destruct (traverse _ l); [|reflexivity]. cbn [bind]. do 2 f_equal. extensionality ix. rewrite nth_error_map.
    destruct (nth_error l (hd 0%nat ix)) as [x|]; [|reflexivity]. cbn [option_map]. rewrite tick_squad. reflexivity.
  Qed.
  Lemma tick_resample a ts : resample_array np_squad (ma_tick a) (option_map (map f) ts) = resample_array np_squad a ts.
  Proof.
    unfold resample_array. cbn [ma_tick ma_ts ma_data]. destruct (ma_ts a) as [l0|], ts as [l|]; cbn [option_map]; try reflexivity.
    - rewrite tick_squad_nd, tick_interp_nd. reflexivity.
    - rewrite map_length. reflexivity.
  Qed.
  Lemma tick_tr_ts tr : tr_ts (tr_tick k o tr) = option_map (map f) (tr_ts tr).
  Proof. destruct tr; reflexivity. Qed.
  Lemma tick_tr_t tr : tr_t (tr_tick k o tr) = tr_t tr.
  Proof. destruct tr; cbn [tr_tick tr_t]; rewrite ?map_length; reflexivity. Qed.
  Lemma tick_tr_r tr : tr_r (tr_tick k o tr) = tr_r tr.
  Proof. destruct tr; cbn [tr_tick tr_r]; rewrite ?map_length; reflexivity. Qed.
  Lemma tick_prepare s i arr to axis n ta ts :
    prepare np_squad (st s) i arr to axis n ta (option_map (nd_tick k o) ts) = outcome (fun p => (tr_tick k o (fst p), snd p)) (prepare np_squad s i arr to axis n ta ts).
  Proof.
    unfold prepare. rewrite tick_validate. apply outcome_bind. intros [a ol]. unfold arr_tick. cbn [fst snd]. rewrite tick_resolve. apply outcome_bind_same. intros j.
    rewrite tick_between. apply outcome_bind. intros fs. rewrite tick_add_array. apply outcome_bind. intros ma.
    change (Mat (map mf_tick fs) [ma_tick ma]) with (mat_tick (Mat fs [ma])). rewrite tick_get_transformation. apply outcome_bind. intros tr.
    rewrite tick_tr_ts, tick_resample. apply outcome_bind_same. reflexivity.
  Qed.
  Lemma tick_vectors s i arr to axis ta ts :
    transform_vectors np_squad (st s) i arr to axis ta (option_map (nd_tick k o) ts) = outcome (arr_tick k o) (transform_vectors np_squad s i arr to axis ta ts).
  Proof.
    unfold transform_vectors. rewrite tick_prepare. apply outcome_bind. intros [tr b]. cbn [fst snd]. rewrite tick_tr_r.
    apply outcome_bind_same. intros c. apply outcome_bind_same. intros d. cbn [outcome]. rewrite tick_tr_ts. reflexivity.
  Qed.
  Lemma tick_points s i arr to axis ta ts :
    transform_points np_squad (st s) i arr to axis ta (option_map (nd_tick k o) ts) = outcome (arr_tick k o) (transform_points np_squad s i arr to axis ta ts).
  Proof.
    unfold transform_points. rewrite tick_prepare. apply outcome_bind. intros [tr b]. cbn [fst snd]. rewrite tick_tr_r, tick_tr_t.
    apply outcome_bind_same. intros c. apply outcome_bind_same. intros e. apply outcome_bind_same. intros d. cbn [outcome]. rewrite tick_tr_ts. reflexivity.
  Qed.
  Lemma tick_quaternions s i arr to axis ta ts :
    transform_quaternions np_squad (st s) i arr to axis ta (option_map (nd_tick k o) ts) = outcome (arr_tick k o) (transform_quaternions np_squad s i arr to axis ta ts).
  Proof.
    unfold transform_quaternions. rewrite tick_prepare. apply outcome_bind. intros [tr b]. cbn [fst snd]. rewrite tick_tr_r.
    apply outcome_bind_same. intros b'. apply outcome_bind_same. intros qa. apply outcome_bind_same. intros c. apply outcome_bind_same. intros e.
    apply outcome_bind_same. intros d. cbn [outcome]. rewrite tick_tr_ts. reflexivity.
  Qed.
End Clock.

(* ------------------------------------------------------------------ C87 *)
(** A program of API calls run with all its time stamps read on another clock: every call
    has the same outcome, and the registry and the forest are the same. *)
Theorem C87_history : forall k o ops x, 0 < k ->
  snd (step (run (map (op_tick k o) ops)) (op_tick k o x)) = snd (step (run ops) x) /\
  reg (run (map (op_tick k o) ops)) = reg (run ops) /\
  forall i, name_of (run (map (op_tick k o) ops)) i = name_of (run ops) i /\
            parent_of (run (map (op_tick k o) ops)) i = parent_of (run ops) i /\
            children_of (run (map (op_tick k o) ops)) i = children_of (run ops) i.
Proof.
  intros k o ops x K. rewrite tick_run, tick_step. repeat split.
  - apply tick_name.
  - apply tick_parent.
  - unfold children_of. rewrite tick_get. destruct (get (run ops) i); reflexivity.
Qed.
(** Every lookup then gives the same transformation (or the same exception), at times read
    on the new clock. *)
Theorem C87_lookup : forall k o ops i to, 0 < k ->
  lookup_transform np_squad (run (map (op_tick k o) ops)) i to = outcome (tr_tick k o) (lookup_transform np_squad (run ops) i to).
Proof. intros k o ops i to K. rewrite tick_run. apply tick_lookup, K. Qed.
(** So do the transforms of arrays whose time stamps are read on the new clock. *)
Theorem C87_arrays : forall k o ops i arr to axis time_axis ts, 0 < k ->
  let new {A} (call : state -> nat -> nd R -> pref -> Z -> option Z -> option (nd R) -> A) :=
    call (run (map (op_tick k o) ops)) i arr to axis time_axis (option_map (nd_tick k o) ts) in
  let old {A} (call : state -> nat -> nd R -> pref -> Z -> option Z -> option (nd R) -> A) :=
    call (run ops) i arr to axis time_axis ts in
  new (transform_points np_squad) = outcome (arr_tick k o) (old (transform_points np_squad)) /\
  new (transform_vectors np_squad) = outcome (arr_tick k o) (old (transform_vectors np_squad)) /\
  new (transform_quaternions np_squad) = outcome (arr_tick k o) (old (transform_quaternions np_squad)).
Proof.
  intros k o ops i arr to axis ta ts K. cbv zeta beta. rewrite tick_run.
  split; [apply tick_points, K|]. split; [apply tick_vectors, K|apply tick_quaternions, K].
Qed.
