(** C91: histories that create their frames in another order. *)
From Coq Require Import Reals List String Arith Bool ZArith Lia.
From Verif Require Import Base Quat NdArray Frames SpecForest FrameProofs WalkProofs Matcher SpecLookup LookupProofs RegistryProofs
  PropForest PropLookup Transform Velocity VelFrames Examples PropLocal PropOrder.
Import ListNotations.
Open Scope nat_scope.

(* ------------------------------------------------------------------ specification *)
(** A call with the frames in its arguments replaced. *)
Definition ref_as (f : nat -> nat) (p : pref) : pref := match p with PFrame k => PFrame (f k) | p => p end.
Definition ctor_as (f : nat -> nat) (c : ctor) : ctor :=
  Ctor (c_name c) (option_map (ref_as f) (c_parent c)) (c_tr c) (c_ro c) (c_ts c) (c_inverse c) (c_discrete c).
Definition call_as (f : nat -> nat) (x : op) : op :=
  match x with
  | ONew c => ONew (ctor_as f c)
  | ORegisterFrame c u => ORegisterFrame (ctor_as f c) u
  | ORegister i u => ORegister (f i) u
  | ODeregister n => ODeregister n
  | ODeregisterObj i => ODeregisterObj (f i)
  | OClear => OClear
  | OSetParent i p => OSetParent (f i) (option_map f p)
  end.
(** s' is s with the frames numbered (created) in another order: the same trees, transforms, names and registry. *)
Definition renumbered (f : nat -> nat) (s s' : state) : Prop :=
  size s' = size s /\ (forall a b, f a = f b -> a = b) /\ (forall k, k < size s -> f k < size s) /\ (forall k, size s <= k -> f k = k) /\
  (forall k, parent_of s' (f k) = option_map f (parent_of s k)) /\ (forall k, body_of s' (f k) = body_of s k) /\
  (forall k, name_of s' (f k) = name_of s k) /\ (forall n, lookup n (reg s') = option_map f (lookup n (reg s))).
(** The creation of a frame, with or without registering its name. *)
Definition make (r : bool) (c : ctor) : op := if r then ORegisterFrame c false else ONew c.
(** Two creations, after s, that do not mention each other: c has a new name other than d's, and the parent of
    d is not c (nor d itself). *)
Definition apart (s : state) (c d : ctor) : Prop :=
  c_parent d <> Some (PFrame (size s)) /\ c_parent d <> Some (PFrame (S (size s))) /\
  forall n, c_name c = Some n -> c_name d <> Some n /\ c_parent d <> Some (PName n) /\ lookup n (reg s) = None.
(** The next two frames change places. *)
Definition swapped (n k : nat) : nat := if Nat.eqb k n then S n else if Nat.eqb k (S n) then n else k.

(* ------------------------------------------------------------------ simulation *)
Lemma get_name s i : (exists n, get s i = Some n) <-> i < size s.
Proof. split; [intros (n & E); eapply get_some_lt; eassumption|apply get_lt]. Qed.
Lemma par_none s i : size s <= i -> parent_of s i = None.
Proof. intros H. destruct (parent_of s i) eqn:E; [|reflexivity]. apply parent_of_lt in E. lia. Qed.
Lemma get_ge s i : size s <= i -> get s i = None.
Proof. intros H. destruct (get s i) eqn:E; [|reflexivity]. apply get_some_lt in E. lia. Qed.
Section Sim.
Variable f : nat -> nat.
Lemma ren_lt s s' k : renumbered f s s' -> (f k < size s' <-> k < size s).
Proof. intros (Z & _ & L & G & _). rewrite Z. split; [|apply L]. intros H. destruct (Nat.lt_ge_cases k (size s)) as [|X]; [assumption|]. rewrite (G k X) in H. lia. Qed.
Lemma ren_get s s' k : renumbered f s s' -> match get s k with Some _ => exists n, get s' (f k) = Some n | None => get s' (f k) = None end.
Proof.
  intros R. destruct (get s k) as [n|] eqn:E.
  - apply get_some_lt in E. apply get_lt. apply (ren_lt _ _ _ R). exact E.
  - destruct (get s' (f k)) as [n|] eqn:E'; [|reflexivity]. apply get_some_lt in E'. apply (ren_lt _ _ _ R) in E'. destruct (get_lt s k E') as (m & X). congruence.
Qed.
Definition res_as (r : res nat) : res nat := match r with Ok k => Ok (f k) | Raise e => Raise e end.
Lemma ren_resolve s s' p : renumbered f s s' -> resolve_rf s' (ref_as f p) = res_as (resolve_rf s p).
Proof.
  intros R. destruct p as [k|n|]; cbn [ref_as resolve_rf]; [|destruct R as (_ & _ & _ & _ & _ & _ & _ & Q); rewrite Q; destruct (lookup n (reg s)); reflexivity|reflexivity].
  pose proof (ren_get s s' k R) as X. destruct (get s k); [destruct X as (n' & ->)|rewrite X]; reflexivity.
Qed.
Lemma f_eqb (inj : forall a b, f a = f b -> a = b) a b : Nat.eqb (f a) (f b) = Nat.eqb a b.
Proof. destruct (Nat.eqb_spec a b) as [->|N]; [apply Nat.eqb_refl|]. apply Nat.eqb_neq. intros E. apply N, inj, E. Qed.
Lemma ren_alloc s s' b nm : renumbered f s s' -> renumbered f (alloc s (Node nm None [] b)) (alloc s' (Node nm None [] b)).
Proof.
  intros (Z & I & L & G & P & B & N & Q). unfold renumbered. rewrite !size_alloc, Z.
  assert (F : f (size s) = size s) by (apply G; lia).
  assert (E : forall k, Nat.eqb (f k) (size s) = Nat.eqb k (size s)) by (intros k; rewrite <- F at 1; apply f_eqb, I).
  split; [reflexivity|]. split; [exact I|]. split; [intros k Hk; destruct (Nat.eq_dec k (size s)) as [->|]; [rewrite F; lia|pose proof (L k ltac:(lia)); lia]|].
  split; [intros k Hk; apply G; lia|]. unfold parent_of, body_of, name_of in *. 
  split; [intros k; rewrite !get_alloc, Z, E; destruct (Nat.eqb k (size s)); [reflexivity|apply P]|].
  split; [intros k; rewrite !get_alloc, Z, E; destruct (Nat.eqb k (size s)); [reflexivity|apply B]|].
  split; [intros k; rewrite !get_alloc, Z, E; destruct (Nat.eqb k (size s)); [reflexivity|apply N]|exact Q].
Qed.
Lemma ren_attach s s' i p : renumbered f s s' -> i < size s -> p < size s -> renumbered f (attach s i p) (attach s' (f i) (f p)).
Proof.
  intros R Hi Hp. pose proof (proj2 (ren_lt _ _ i R) Hi) as Hi'. destruct R as (Z & I & L & G & P & B & N & Q). unfold renumbered. rewrite !size_attach, !reg_attach, Z.
  split; [reflexivity|]. split; [exact I|]. split; [exact L|]. split; [exact G|].
  split; [intros k; rewrite !parent_attach by assumption; rewrite f_eqb by exact I; destruct (Nat.eqb i k); [reflexivity|apply P]|].
  split; [intros k; rewrite !body_attach; apply B|]. split; [intros k; rewrite !name_attach; apply N|exact Q].
Qed.
Lemma ren_ancestor s s' i a : renumbered f s s' -> ancestor (parent_of s) i a <-> ancestor (parent_of s') (f i) (f a).
Proof.
  intros (Z & I & L & G & P & _). split.
  - induction 1 as [|i p a E A IH]; [constructor|]. apply anc_up with (p := f p); [rewrite P, E; reflexivity|exact IH].
  - intros A. remember (f i) as x eqn:Ex. remember (f a) as y eqn:Ey. revert i Ex. induction A as [x|x p y E A IH]; intros i ->.
    + apply I in Ey. subst. constructor.
    + rewrite P in E. destruct (parent_of s i) as [q|] eqn:Eq; [|discriminate]. injection E as <-. eapply anc_up; [exact Eq|apply IH; auto].
Qed.
(** Assigning a parent fails exactly if that would make a loop. *)
Lemma set_parent_res s i v : WF s -> i < size s -> (forall p, v = Some p -> p < size s) ->
  snd (set_parent s i v) = Ok tt /\ (forall p, v = Some p -> ~ ancestor (parent_of s) p i) \/
  snd (set_parent s i v) = Raise LoopError /\ exists p, v = Some p /\ ancestor (parent_of s) p i.
Proof.
  intros W Hi Hv. destruct (set_parent s i v) as [s' r] eqn:E. destruct (set_parent_spec s i v s' r W Hi Hv E) as (W' & Z & _ & _ & _ & P & [->|(-> & -> & X)]); cbn [snd]; [|right; auto].
  left. split; [reflexivity|]. intros p -> A. apply (no_loop (parent_of s') i p).
  - apply (wf_root s' W'). lia.
  - rewrite P, Nat.eqb_refl. reflexivity.
  - assert (P' : forall j, j <> i -> parent_of s' j = parent_of s j) by (intros j Ne; rewrite P; destruct (Nat.eqb_spec i j); [congruence|reflexivity]).
    clear - A P'. induction A as [|j q a E A IH]; [constructor|]. destruct (Nat.eq_dec j a) as [->|Ne]; [constructor|].
    apply anc_up with (p := q); [rewrite P' by exact Ne; exact E|]. apply IH. exact P'.
Qed.
Lemma ren_set_parent s s' i v : WF s -> WF s' -> renumbered f s s' -> i < size s -> (forall p, v = Some p -> p < size s) ->
  renumbered f (fst (set_parent s i v)) (fst (set_parent s' (f i) (option_map f v))) /\ snd (set_parent s' (f i) (option_map f v)) = snd (set_parent s i v).
Proof.
  intros W W' R Hi Hv. pose proof (proj2 (ren_lt _ _ i R) Hi) as Hi'.
  assert (Hv' : forall p, option_map f v = Some p -> p < size s') by (intros p E; destruct v as [q|]; [|discriminate]; injection E as <-; apply (ren_lt _ _ _ R), Hv; reflexivity).
  assert (Sn : snd (set_parent s' (f i) (option_map f v)) = snd (set_parent s i v)).
  { destruct (set_parent_res s i v W Hi Hv) as [(-> & A)|(-> & p & Ev & A)]; destruct (set_parent_res s' (f i) (option_map f v) W' Hi' Hv') as [(E & A')|(E & p' & E' & A')]; rewrite E; auto; exfalso.
    - destruct v as [q|]; [|discriminate]. injection E' as <-. apply (A q eq_refl). apply (ren_ancestor s s' q i R). exact A'.
    - rewrite Ev in A'. apply (A' (f p) eq_refl). apply (ren_ancestor s s' p i R). exact A. }
  split; [|exact Sn]. destruct (set_parent s i v) as [t r] eqn:E. destruct (set_parent s' (f i) (option_map f v)) as [t' r'] eqn:E'. cbn [fst snd] in *. subst r'.
  destruct (set_parent_spec s i v t r W Hi Hv E) as (_ & Z1 & Q1 & N1 & B1 & P1 & _). destruct (set_parent_spec s' _ _ t' r W' Hi' Hv' E') as (_ & Z2 & Q2 & N2 & B2 & P2 & _).
  destruct R as (Z & I & L & G & P & B & N & Q). unfold renumbered. rewrite Z1, Z2, Q1, Q2, Z.
  split; [reflexivity|]. split; [exact I|]. split; [exact L|]. split; [exact G|].
  split; [intros k; rewrite P1, P2, f_eqb by exact I; destruct (Nat.eqb i k); [destruct r; [reflexivity|apply P]|apply P]|].
  split; [intros k; rewrite B1, B2; apply B|]. split; [intros k; rewrite N1, N2; apply N|exact Q].
Qed.
Lemma ren_set_reg s s' g g' : renumbered f s s' -> (forall n, lookup n g' = option_map f (lookup n g)) -> renumbered f (State (heap s) g) (State (heap s') g').
Proof. intros (Z & I & L & G & P & B & N & _) Q. repeat (split; [assumption|]). exact Q. Qed.
Lemma ren_register s s' i u : Inv s -> Inv s' -> renumbered f s s' ->
  renumbered f (fst (register s i u)) (fst (register s' (f i) u)) /\ snd (register s' (f i) u) = snd (register s i u).
Proof.
  intros (W & RO) (W' & RO') R. pose proof R as (_ & _ & _ & _ & _ & _ & N & Q). unfold register. rewrite N. destruct (name_of s i) as [n|]; [|split; [exact R|reflexivity]].
  rewrite Q. destruct (lookup n (reg s)) as [old|] eqn:El; cbn [option_map].
  - destruct u; [|split; [exact R|reflexivity]]. destruct (reg_lt s n old RO El) as (Lo & _).
    destruct (ren_set_parent s s' old None W W' R Lo ltac:(discriminate)) as (R1 & _). cbn [option_map] in R1. cbv zeta. split; [|reflexivity]. cbn [fst].
    apply ren_set_reg; [exact R1|]. intros m. rewrite !lookup_set. destruct (String.eqb m n); [reflexivity|]. destruct R1 as (_ & _ & _ & _ & _ & _ & _ & Q1). apply Q1.
  - split; [|reflexivity]. cbn [fst]. apply ren_set_reg; [exact R|]. intros m. rewrite !lookup_set. destruct (String.eqb m n); [reflexivity|]. apply Q.
Qed.
Lemma ren_new s s' c : Inv s -> renumbered f s s' ->
  renumbered f (fst (new_frame s c)) (fst (new_frame s' (ctor_as f c))) /\ snd (new_frame s' (ctor_as f c)) = res_as (snd (new_frame s c)).
Proof.
  intros (W & RO) R. pose proof R as (Z & _ & _ & G & _). assert (F : f (size s) = size s) by (apply G; lia). fold (size s) in *.
  assert (A : forall b, renumbered f (State (heap s ++ [Node (c_name c) None [] b]) (reg s)) (State (heap s' ++ [Node (c_name c) None [] b]) (reg s'))) by (intros b; exact (ren_alloc s s' b (c_name c) R)).
  assert (AT : forall b p, p < size s -> renumbered f (attach (State (heap s ++ [Node (c_name c) None [] b]) (reg s)) (size s) p) (attach (State (heap s' ++ [Node (c_name c) None [] b]) (reg s')) (size s') (f p))).
  { intros b p Hp. rewrite Z. rewrite <- F at 2. pose proof (size_alloc s (Node (c_name c) None [] b)) as X. unfold alloc in X. apply ren_attach; [apply A|lia|lia]. }
  unfold new_frame. cbv zeta. fold (size s) (size s'). cbn [ctor_as c_parent c_name c_tr c_ro c_ts c_inverse c_discrete].
  destruct (c_parent c) as [p|]; cbn [option_map].
  - rewrite (ren_resolve s s' p R). destruct (resolve_rf s p) as [q|e] eqn:E; cbn [res_as]; [|split; [apply A|reflexivity]]. pose proof (resolve_lt s p q RO E) as Hq.
    destruct (init_arrays (c_tr c) (c_ro c) (c_ts c) (c_inverse c)) as [d|e].
    + change (finish (ctor_as f c) d) with (finish c d). destruct (finish c d) as [b r]. cbn [fst snd]. split; [apply AT, Hq|]. destruct r; cbn [res_as]; [rewrite F, Z; reflexivity|reflexivity].
    + change (discrete_static (ctor_as f c)) with (discrete_static c). destruct e; try (split; [apply AT, Hq|reflexivity]).
      destruct (discrete_static c); (split; [apply AT, Hq|]); [reflexivity|cbn [snd res_as]; rewrite F, Z; reflexivity].
  - change (verify_root (ctor_as f c)) with (verify_root c). destruct (verify_root c); [|split; [apply A|reflexivity]]. destruct (c_discrete c); (split; [apply A|]); [reflexivity|cbn [snd res_as]; rewrite F, Z; reflexivity].
Qed.
Lemma ren_register_frame s s' c u : Inv s -> Inv s' -> renumbered f s s' ->
  renumbered f (fst (register_frame s c u)) (fst (register_frame s' (ctor_as f c) u)) /\ snd (register_frame s' (ctor_as f c) u) = res_as (snd (register_frame s c u)).
Proof.
  intros HI HI' R. destruct (ren_new s s' c HI R) as (R1 & E). pose proof (proj1 (Inv_new s c HI)) as I1. pose proof (proj1 (Inv_new s' (ctor_as f c) HI')) as I1'. unfold register_frame.
  destruct (new_frame s c) as [t [i|e]], (new_frame s' (ctor_as f c)) as [t' r']; cbn [fst snd res_as] in *; subst r'; [|split; [exact R1|reflexivity]].
  destruct (ren_register t t' i u I1 I1' R1) as (R2 & E2). destruct (register t i u) as [t2 r2], (register t' (f i) u) as [t2' r2']. cbn [fst snd] in *. subst r2'.
  destruct r2; (split; [exact R2|reflexivity]).
Qed.
Lemma ren_deregister s s' n : renumbered f s s' -> renumbered f (fst (deregister s n)) (fst (deregister s' n)) /\ snd (deregister s' n) = snd (deregister s n).
Proof.
  intros R. pose proof R as (_ & _ & _ & _ & _ & _ & _ & Q). unfold deregister. rewrite Q. destruct (lookup n (reg s)); cbn [option_map]; (split; [|reflexivity]); [|exact R].
  cbn [fst]. apply ren_set_reg; [exact R|]. intros m. rewrite !lookup_pop. destruct (String.eqb m n); [reflexivity|apply Q].
Qed.
Lemma ren_step s s' x : Inv s -> Inv s' -> renumbered f s s' ->
  renumbered f (fst (step s x)) (fst (step s' (call_as f x))) /\ snd (step s' (call_as f x)) = snd (step s x).
Proof.
  intros HI HI' R. destruct x as [c|c u|i u|n|i| |i p]; cbn [step call_as].
  - destruct (ren_new s s' c HI R) as (R1 & E). destruct (new_frame s c) as [t r], (new_frame s' (ctor_as f c)) as [t' r']. cbn [fst snd] in *. subst r'. split; [exact R1|destruct r; reflexivity].
  - destruct (ren_register_frame s s' c u HI HI' R) as (R1 & E). destruct (register_frame s c u) as [t r], (register_frame s' (ctor_as f c) u) as [t' r']. cbn [fst snd] in *. subst r'. split; [exact R1|destruct r; reflexivity].
  - pose proof (ren_get s s' i R) as X. destruct (get s i); [destruct X as (n' & ->); apply ren_register; assumption|rewrite X; split; [exact R|reflexivity]].
  - apply ren_deregister, R.
  - pose proof (ren_get s s' i R) as X. destruct (get s i); [destruct X as (n' & ->)|rewrite X; split; [exact R|reflexivity]].
    unfold deregister_obj. pose proof R as (_ & _ & _ & _ & _ & _ & N & _). rewrite N. destruct (name_of s i); [apply ren_deregister, R|split; [exact R|reflexivity]].
  - split; [|reflexivity]. cbn [fst]. apply ren_set_reg; [exact R|reflexivity].
  - pose proof (ren_get s s' i R) as X. destruct (get s i) eqn:Gi; [destruct X as (n' & ->)|rewrite X; split; [exact R|reflexivity]]. pose proof (get_some_lt _ _ _ Gi) as Hi. destruct HI as (W & _), HI' as (W' & _).
    destruct p as [k|]; cbn [option_map]; [|exact (ren_set_parent s s' i None W W' R Hi ltac:(discriminate))].
    pose proof (ren_get s s' k R) as Y. destruct (get s k) eqn:Gk; [destruct Y as (n2 & ->)|rewrite Y; split; [exact R|reflexivity]]. pose proof (get_some_lt _ _ _ Gk) as Hk.
    apply (ren_set_parent s s' i (Some k) W W' R Hi). intros p E. injection E as <-. exact Hk.
Qed.
Lemma ren_run ops s s' : Inv s -> Inv s' -> renumbered f s s' ->
  renumbered f (fold_left (fun s o => fst (step s o)) ops s) (fold_left (fun s o => fst (step s o)) (map (call_as f) ops) s').
Proof.
  revert s s'. induction ops as [|x ops IH]; intros s s' I I' R; [exact R|]. cbn [map fold_left]. apply IH; [apply Inv_step, I|apply Inv_step, I'|apply ren_step; assumption].
Qed.
End Sim.

(* ------------------------------------------------------------------ two creations in either order *)
(** What a creation makes, given what became of its parent argument. *)
Definition made (c : ctor) (rp : option (res nat)) : body * res unit :=
  match rp with
  | None => match verify_root c with Raise e => (BPartial, Raise e) | Ok _ => if c_discrete c then (BPartial, Raise ValueError) else (BRoot, Ok tt) end
  | Some (Raise e) => (BPartial, Raise e)
  | Some (Ok _) =>
      match init_arrays (c_tr c) (c_ro c) (c_ts c) (c_inverse c) with
      | Raise NaNValue => if discrete_static c then (BPartial, Raise ValueError) else (BNaN, Ok tt)
      | Raise e => (BPartial, Raise e)
      | Ok d => finish c d
      end
  end.
Definition parent_arg (s : state) (c : ctor) : option (res nat) := option_map (resolve_rf s) (c_parent c).
Definition hung (rp : option (res nat)) : option nat := match rp with Some (Ok q) => Some q | _ => None end.
Lemma new_frame_made s c : let b := made c (parent_arg s c) in let s1 := alloc s (Node (c_name c) None [] (fst b)) in
  new_frame s c = (match hung (parent_arg s c) with Some q => attach s1 (size s) q | None => s1 end, match snd b with Ok _ => Ok (size s) | Raise e => Raise e end).
Proof.
  cbv zeta. unfold new_frame, parent_arg, made, alloc. fold (size s). destruct (c_parent c) as [p|]; cbn [option_map hung].
  - destruct (resolve_rf s p) as [q|e]; cbn [hung fst snd]; [|reflexivity]. destruct (init_arrays _ _ _ _) as [d|e].
    + destruct (finish c d) as [b [x|e]]; reflexivity.
    + destruct e; cbn [fst snd]; try reflexivity. destruct (discrete_static c); reflexivity.
  - destruct (verify_root c); cbn [fst snd]; [|reflexivity]. destruct (c_discrete c); reflexivity.
Qed.
(** The name under which the new frame is registered. *)
Definition new_key (r : bool) (c : ctor) (rp : option (res nat)) : option string :=
  if r then match snd (made c rp) with Ok _ => c_name c | Raise _ => None end else None.
Definition created (s s1 : state) (r : bool) (c : ctor) (rp : option (res nat)) : Prop :=
  size s1 = S (size s) /\
  (forall k, parent_of s1 k = if Nat.eqb k (size s) then hung rp else parent_of s k) /\
  (forall k, body_of s1 k = if Nat.eqb k (size s) then Some (fst (made c rp)) else body_of s k) /\
  (forall k, name_of s1 k = if Nat.eqb k (size s) then c_name c else name_of s k) /\
  (forall m, lookup m (reg s1) = if match new_key r c rp with Some n => String.eqb m n | None => false end then Some (size s) else lookup m (reg s)).
Lemma make_created s r c : Inv s -> (forall n, c_name c = Some n -> lookup n (reg s) = None) -> created s (fst (step s (make r c))) r c (parent_arg s c).
Proof.
  intros (W & RO) Hn. pose proof (new_frame_made s c) as E. cbv zeta in E. set (rp := parent_arg s c) in *.
  set (s1 := match hung rp with Some q => _ | None => _ end) in E.
  assert (Hq : forall q, hung rp = Some q -> q < size s).
  { intros q H. unfold rp, parent_arg in H. destruct (c_parent c) as [p|]; [|discriminate]. cbn [option_map hung] in H. destruct (resolve_rf s p) as [q'|] eqn:R; [|discriminate]. injection H as ->. exact (resolve_lt s p q RO R). }
  assert (C : size s1 = S (size s) /\ (forall k, parent_of s1 k = if Nat.eqb k (size s) then hung rp else parent_of s k) /\
    (forall k, body_of s1 k = if Nat.eqb k (size s) then Some (fst (made c rp)) else body_of s k) /\
    (forall k, name_of s1 k = if Nat.eqb k (size s) then c_name c else name_of s k) /\ reg s1 = reg s).
  { unfold s1. destruct (hung rp) as [q|]; [rewrite size_attach, reg_attach|]; rewrite size_alloc; (split; [reflexivity|]).
    - split; [|split; [|split; [|reflexivity]]]; intros k.
      + rewrite parent_attach by (rewrite size_alloc; lia). rewrite (Nat.eqb_sym k). destruct (Nat.eqb_spec (size s) k) as [<-|Ne]; [reflexivity|]. unfold parent_of. rewrite get_alloc. destruct (Nat.eqb_spec k (size s)); [congruence|reflexivity].
      + rewrite body_attach. unfold body_of. rewrite get_alloc. destruct (Nat.eqb k (size s)); reflexivity.
      + rewrite name_attach. unfold name_of. rewrite get_alloc. destruct (Nat.eqb k (size s)); reflexivity.
    - split; [|split; [|split; [|reflexivity]]]; intros k; unfold parent_of, body_of, name_of; rewrite get_alloc; destruct (Nat.eqb k (size s)); reflexivity. }
  clearbody s1. destruct C as (Z & P & B & N & Q). unfold created, new_key, make. destruct r; cbn [step].
  - unfold register_frame. rewrite E. destruct (snd (made c rp)) as [x|e]; cbn [fst]; [|rewrite Q; auto].
    unfold register. rewrite N, Nat.eqb_refl. destruct (c_name c) as [n|] eqn:En; cbn [fst]; [|rewrite Q; auto]. rewrite Q, (Hn n eq_refl). cbn [fst].
    repeat (split; [assumption|]). intros m. cbn [reg]. rewrite lookup_set. reflexivity.
  - rewrite E. cbn [fst]. rewrite Q. auto.
Qed.
Lemma swapped_inj n a b : swapped n a = swapped n b -> a = b.
Proof. unfold swapped. destruct (Nat.eqb_spec a n), (Nat.eqb_spec a (S n)), (Nat.eqb_spec b n), (Nat.eqb_spec b (S n)); lia. Qed.
Lemma resolve_after s s1 r c rp p : created s s1 r c rp -> p <> PFrame (size s) -> (forall n, c_name c = Some n -> p <> PName n) -> resolve_rf s1 p = resolve_rf s p.
Proof.
  intros (Z & P & B & N & Q) Hp Hn. destruct p as [k|n|]; [| |reflexivity]; cbn [resolve_rf].
  - assert (k <> size s) by congruence. destruct (get s1 k) eqn:E1, (get s k) eqn:E2; try reflexivity; exfalso.
    + apply get_some_lt in E1. destruct (get_lt s k ltac:(lia)) as (? & ?). congruence.
    + apply get_some_lt in E2. destruct (get_lt s1 k ltac:(lia)) as (? & ?). congruence.
  - rewrite Q. replace (match new_key r c rp with Some m => String.eqb n m | None => false end) with false; [reflexivity|].
    unfold new_key. destruct r; [|reflexivity]. destruct (snd (made c rp)); [|reflexivity]. destruct (c_name c) as [m|]; [|reflexivity]. symmetry. apply String.eqb_neq. intros ->. exact (Hn m eq_refl eq_refl).
Qed.
Lemma parent_arg_after s s1 r c d rp : created s s1 r c rp -> apart s c d -> parent_arg s1 d = parent_arg s d.
Proof.
  intros C (A1 & A2 & A3). unfold parent_arg. destruct (c_parent d) as [p|]; [|reflexivity]. cbn [option_map]. f_equal. apply (resolve_after s s1 r c rp p C); [congruence|]. intros n En. destruct (A3 n En) as (_ & X & _). congruence.
Qed.
Lemma swap_renumbered s r c q d : Inv s -> apart s c d -> apart s d c ->
  renumbered (swapped (size s)) (fst (step (fst (step s (make r c))) (make q d))) (fst (step (fst (step s (make q d))) (make r c))).
Proof.
  intros HI A A'.
  assert (Nc : forall n, c_name c = Some n -> lookup n (reg s) = None) by (intros n En; apply A, En). assert (Nd : forall n, c_name d = Some n -> lookup n (reg s) = None) by (intros n En; apply A', En).
  pose proof (make_created s r c HI Nc) as C1. pose proof (make_created s q d HI Nd) as D1. set (sc := fst (step s (make r c))) in *. set (sd := fst (step s (make q d))) in *.
  assert (Ic : Inv sc) by (apply Inv_step, HI). assert (Id : Inv sd) by (apply Inv_step, HI).
  assert (K : forall r c d rp s1, created s s1 r c rp -> apart s c d -> (forall n, c_name d = Some n -> lookup n (reg s) = None) -> forall n, c_name d = Some n -> lookup n (reg s1) = None).
  { clear. intros r c d rp s1 (_ & _ & _ & _ & Q) A H n En. rewrite Q. replace (match new_key r c rp with Some m => String.eqb n m | None => false end) with false; [apply H, En|].
    unfold new_key. destruct r; [|reflexivity]. destruct (snd (made c rp)); [|reflexivity]. destruct (c_name c) as [m|] eqn:Em; [|reflexivity]. symmetry. apply String.eqb_neq. intros ->. apply (proj1 (proj2 (proj2 A) m Em)). exact En. }
  pose proof (make_created sc q d Ic (K r c d _ sc C1 A Nd)) as D2. pose proof (make_created sd r c Id (K q d c _ sd D1 A' Nc)) as C2.
  rewrite (parent_arg_after s sc r c d _ C1 A) in D2. rewrite (parent_arg_after s sd q d c _ D1 A') in C2.
  set (s12 := fst (step sc (make q d))) in *. set (s21 := fst (step sd (make r c))) in *. clearbody s12 s21.
  destruct C1 as (Z1 & P1 & B1 & N1 & Q1). destruct D1 as (Y1 & R1 & E1 & M1 & T1). destruct C2 as (Z2 & P2 & B2 & N2 & Q2). destruct D2 as (Y2 & R2 & E2 & M2 & T2).
  rewrite Z1 in *. rewrite Y1 in *. destruct HI as (W & RO).
  assert (X : forall k, k < size s -> swapped (size s) k = k) by (intros k Hk; unfold swapped; destruct (Nat.eqb_spec k (size s)), (Nat.eqb_spec k (S (size s))); lia).
  assert (HQ : forall c, option_map (swapped (size s)) (hung (parent_arg s c)) = hung (parent_arg s c)).
  { clear - RO X. intros c. unfold parent_arg. destruct (c_parent c) as [p|]; [|reflexivity]. cbn [option_map hung]. destruct (resolve_rf s p) as [k|] eqn:E; [|reflexivity]. cbn [hung option_map]. rewrite (X k (resolve_lt s p k RO E)). reflexivity. }
  assert (F0 : swapped (size s) (size s) = S (size s)) by (unfold swapped; rewrite Nat.eqb_refl; reflexivity).
  assert (F1 : swapped (size s) (S (size s)) = size s) by (unfold swapped; rewrite Nat.eqb_refl; destruct (Nat.eqb_spec (S (size s)) (size s)); lia).
  assert (FO : forall k, k <> size s -> k <> S (size s) -> swapped (size s) k = k) by (intros k H1 H2; unfold swapped; destruct (Nat.eqb_spec k (size s)), (Nat.eqb_spec k (S (size s))); congruence).
  assert (CASES : forall (Pr : nat -> nat -> Prop), Pr (size s) (S (size s)) -> Pr (S (size s)) (size s) -> (forall k, k <> size s -> k <> S (size s) -> Pr k k) -> forall k, Pr k (swapped (size s) k)).
  { intros Pr H0 H1 H2 k. destruct (Nat.eq_dec k (size s)) as [->|]; [rewrite F0; exact H0|]. destruct (Nat.eq_dec k (S (size s))) as [->|]; [rewrite F1; exact H1|]. rewrite FO by assumption. apply H2; assumption. }
  assert (NE : Nat.eqb (size s) (S (size s)) = false) by (apply Nat.eqb_neq; lia).
  assert (NE' : Nat.eqb (S (size s)) (size s) = false) by (apply Nat.eqb_neq; lia).
  unfold renumbered. rewrite Z2, Y2. split; [reflexivity|]. split; [exact (swapped_inj (size s))|].
  split; [apply (CASES (fun k m => k < S (S (size s)) -> m < S (S (size s)))); intros; lia|].
  split; [intros k Hk; apply FO; lia|].
  split; [apply (CASES (fun k m => parent_of s21 m = option_map (swapped (size s)) (parent_of s12 k))); [| |intros k H1 H2]; rewrite P2, R2, ?R1, ?P1, ?Nat.eqb_refl, ?NE, ?NE'|].
  { symmetry. apply HQ. } { symmetry. apply HQ. }
  { apply Nat.eqb_neq in H1, H2. rewrite ?P1, ?R1, ?H1, ?H2. destruct (parent_of s k) as [p|] eqn:Ep; [|reflexivity]. cbn [option_map]. rewrite X; [reflexivity|]. exact (proj1 (wf_par s W k p Ep)). }
  split; [apply (CASES (fun k m => body_of s21 m = body_of s12 k)); [| |intros k H1 H2]; rewrite B2, E2, ?E1, ?B1, ?Nat.eqb_refl, ?NE, ?NE'; try reflexivity; apply Nat.eqb_neq in H1, H2; rewrite ?B1, ?E1, ?H1, ?H2; reflexivity|].
  split; [apply (CASES (fun k m => name_of s21 m = name_of s12 k)); [| |intros k H1 H2]; rewrite N2, M2, ?M1, ?N1, ?Nat.eqb_refl, ?NE, ?NE'; try reflexivity; apply Nat.eqb_neq in H1, H2; rewrite ?N1, ?M1, ?H1, ?H2; reflexivity|].
  intros m. rewrite Q2, T2, T1, Q1. 
  assert (KK : forall r c rp n, new_key r c rp = Some n -> c_name c = Some n) by (clear; intros r c rp n; unfold new_key; destruct r; [|discriminate]; destruct (snd (made c rp)); [auto|discriminate]).
  destruct (new_key r c (parent_arg s c)) as [n1|] eqn:K1, (new_key q d (parent_arg s d)) as [n2|] eqn:K2;
    try apply KK in K1; try apply KK in K2;
    try (destruct (String.eqb_spec m n1) as [->|]); try (destruct (String.eqb_spec m n2) as [->|]); try (destruct (String.eqb_spec n1 n2) as [->|]); cbn [option_map]; rewrite ?F0, ?F1; try reflexivity;
    try (exfalso; apply (proj1 (proj2 (proj2 A) _ K1)); exact K2);
    (destruct (lookup m (reg s)) as [k|] eqn:EL; [|reflexivity]; cbn [option_map]; rewrite X; [reflexivity|exact (proj1 (reg_lt s m k RO EL))]).
Qed.

(* ------------------------------------------------------------------ C91 *)
(** The order in which two frames that do not mention each other are created does not matter: whatever happens
    before and after (the frames meant in the later calls being the same ones), the forests, transforms, names
    and the registry are the same, and so are all answers. *)
Theorem C91_order : forall before r c q d after, let s := run before in apart s c d -> apart s d c ->
  let f := swapped (size s) in
  let s1 := run (before ++ make r c :: make q d :: after) in
  let s2 := run (before ++ make q d :: make r c :: map (call_as f) after) in
  renumbered f s1 s2.
Proof.
  intros before r c q d after s A A' f s1 s2. unfold s1, s2, run. rewrite !fold_left_app. cbn [fold_left]. fold (run before). fold s.
  assert (HI : Inv s) by apply Inv_run. apply ren_run; [apply Inv_step, Inv_step, HI|apply Inv_step, Inv_step, HI|]. apply swap_renumbered; assumption.
Qed.
(** A renumbered history answers alike: every call has the same outcome, every name means the same frame, and every
    lookup, transform and velocity is the same. *)
Theorem C91_renumbered : forall f s s', reachable s -> reachable s' -> renumbered f s s' ->
  (forall x, snd (step s' (call_as f x)) = snd (step s x) /\ renumbered f (fst (step s x)) (fst (step s' (call_as f x)))) /\
  (forall p k, denotes s p k -> denotes s' (ref_as f p) (f k)) /\
  forall i j m, frame s i -> frame s j -> frame s m ->
    (forall p, denotes s p j -> same_transforms_as f s s' i p (ref_as f p)) /\ same_velocities_as f s s' i j m.
Proof.
  intros f s s' HR HR' R. pose proof (reachable_Inv s HR) as HI. pose proof (reachable_Inv s' HR') as HI'.
  assert (D : forall p k, denotes s p k -> denotes s' (ref_as f p) (f k)).
  { intros p k [(-> & H)|(n & -> & H)]; [left|right; exists n]; cbn [ref_as]; (split; [reflexivity|]); [apply (ren_lt f s s' k R), H|].
    destruct R as (_ & _ & _ & _ & _ & _ & _ & Q). rewrite Q, H. reflexivity. }
  split; [intros x; destruct (ren_step f s s' x HI HI' R); split; assumption|]. split; [exact D|].
  intros i j m Hi Hj Hm. assert (T : same_trees f s s').
  { pose proof R as (Z & I & L & G & P & B & _). split; [intros a b _ _; apply I|]. intros k Hk. split; [apply (ren_lt f s s' k R), Hk|]. split; [apply P|apply B]. }
  destruct (C91_trees f s s' i j m HR HR' T Hi Hj Hm) as (_ & TT & V). split; [|exact V]. intros p Hp. apply TT; [exact Hp|apply D, Hp].
Qed.

(** Two sisters below the frame b of the example tree, one registered, one not, in either order; then a frame below
    each of them. *)
Definition sister (n : string) (x : R) : ctor := Ctor (Some n) (Some (PName "b"%string)) (Some (Nd [3] (fun ix => match ix with [0] => x | _ => 0%R end))) None None false false.
Example C91_example : exists before, run before = ex_lit /\
  apart (run before) (sister "left"%string 1) (sister "right"%string 2) /\ apart (run before) (sister "right"%string 2) (sister "left"%string 1) /\
  snd (step (run before) (make true (sister "left"%string 1))) = Ok tt.
Proof.
  destruct ex_lit_reachable as (ops & E). exists ops. rewrite <- E. split; [reflexivity|].
  split; [split; [discriminate|split; [discriminate|]]; intros n H; injection H as <-; repeat split; discriminate|].
  split; [split; [discriminate|split; [discriminate|]]; intros n H; injection H as <-; repeat split; discriminate|]. reflexivity.
Qed.
Print Assumptions C91_order.
Print Assumptions C91_renumbered.
