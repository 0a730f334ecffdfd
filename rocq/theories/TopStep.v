(** One transform of a DataArray. *)
From Coq Require Import Reals String List Arith Bool ZArith Lia Lra.
From Verif Require Import Base Quat SpecQuat QuatProofs NdArray Frames SpecForest FrameProofs WalkProofs
  Matcher SpecLookup LookupProofs RegistryProofs MovingProofs TimeProofs CtorProofs InverseProofs RouteProofs
  Examples PropForest PropLookup PropMoving
  Transform SpecArray NdProofs RotProofs ArrProofs ArrTransProofs ArrStaticProofs PropTransform PropRotate
  Coord Velocity TopLevel TopProofs SpecTop.
Import ListNotations.
Open Scope nat_scope.

(* ---- dictionaries ---- *)
Lemma dict_alloc w a w' l : alloc w a = (w', l) ->
  frames w' = frames w /\ l = length (dicts w) /\ length (dicts w') = S (length (dicts w)) /\ dict_at w' l = a /\
  forall k, k < length (dicts w) -> dict_at w' k = dict_at w k.
Proof.
  intros H. injection H as <- <-. cbn [frames dicts]. rewrite app_length. cbn. split; auto. split; auto. split; [lia|].
  unfold dict_at; cbn [dicts]. split; [rewrite app_nth2, Nat.sub_diag; auto|]. intros k Hk. apply app_nth1; auto.
Qed.
Lemma dict_write w l f k : dict_at (write w l f) k = if Nat.eqb l k then (if Nat.ltb k (length (dicts w)) then f (dict_at w k) else dict_at w k) else dict_at w k.
Proof.
  unfold dict_at, write; cbn [dicts]. 
  destruct (Nat.ltb_spec k (length (dicts w))) as [H|H].
  - destruct (nth_len (dicts w) k H) as (a & Ha). rewrite (nth_error_nth (dicts w) k [] Ha).
    assert (E : nth_error (upd (dicts w) l f) k = Some (if Nat.eqb l k then f a else a)).
    { rewrite nth_upd, Ha. destruct (Nat.eqb l k); reflexivity. }
    pose proof (nth_error_nth _ _ ([] : attrs) E) as E'. etransitivity; [exact E'|]. destruct (Nat.eqb l k); auto.
  - rewrite !nth_overflow; auto; [|rewrite length_upd; auto]. destruct (Nat.eqb l k); auto.
Qed.
Lemma length_write w l f : length (dicts (write w l f)) = length (dicts w).
Proof. unfold write; cbn [dicts]. apply length_upd. Qed.

(* ---- names ---- *)
Lemma index_of_nth n l k : NoDup l -> nth_error l k = Some n -> index_of n l = Ok k.
Proof.
  revert k. induction l as [|a l IH]; intros k Hn Hk; [destruct k; discriminate|]. inversion Hn; subst. cbn [index_of]. destruct k as [|k]; cbn in Hk.
  - injection Hk as ->. rewrite String.eqb_refl. reflexivity.
  - destruct (String.eqb_spec n a) as [->|Hne]; [exfalso; apply H1; eapply nth_error_In; eauto|]. rewrite (IH k); auto.
Qed.
Lemma distinct_nodup l : NoDup l -> distinct l = true.
Proof.
  induction 1 as [|a l Ha Hl IH]; auto. cbn [distinct]. rewrite IH, andb_true_r. apply negb_true_iff.
  destruct (existsb (String.eqb a) l) eqn:E; auto. exfalso. apply existsb_exists in E as (b & Hb & Eb). apply String.eqb_eq in Eb. subst. contradiction.
Qed.
Lemma tuple_at_ok l z k : norm_axis z (length l) = Ok k -> tuple_at l z = Ok (nth k l EmptyString).
Proof. intros H. unfold tuple_at. rewrite H. reflexivity. Qed.
Lemma cshape_size c : cshape (co_vals c) (co_dims c) = coord_size c.
Proof. unfold cshape, coord_size. destruct (co_vals c); auto. Qed.
Lemma fits_ok d c a : NoDup (da_dims d) -> Forall2 (dim_size d) (co_dims c) (coord_size c) -> shp a = shp (da_data d) ->
  coord_fits a (da_dims d) c = true.
Proof.
  intros Hn H Ha. unfold coord_fits. rewrite cshape_size. rewrite Ha. apply andb_true_iff. split.
  - apply Nat.eqb_eq. clear - H. induction H; cbn; auto.
  - apply forallb_forall. intros [dn n] Hin. cbn [fst snd].
    assert (G : dim_size d dn n).
    { clear - H Hin. induction H as [|x y l l' E H IH]; cbn in Hin; [contradiction|]. destruct Hin as [Hin|Hin]; [injection Hin as -> ->; auto|auto]. }
    destruct G as (k & G1 & G2). rewrite (index_of_nth _ _ k Hn G1). apply Nat.eqb_eq. apply nth_error_nth. exact G2.
Qed.
Lemma make_ok w w2 d a l : data_array w d -> shp a = shp (da_data d) ->
  exists w3 l3, make_xr w2 a (da_coords d) (da_dims d) (da_name d) l = (w3, Ok (DA a (da_dims d) (da_coords d) (da_name d) l3)) /\
    alloc w2 (dict_at w2 l) = (w3, l3).
Proof.
  intros (H1 & H2 & H3 & H4) Ha. unfold make_xr.
  assert (E : (length (da_dims d) =? ndim a) && distinct (da_dims d) && forallb (fun c => coord_fits a (da_dims d) (snd c)) (da_coords d) = true).
  { rewrite distinct_nodup by auto. rewrite andb_true_r. apply andb_true_iff. split.
    - apply Nat.eqb_eq. unfold ndim. rewrite Ha. exact H1.
    - apply forallb_forall. intros [n c] Hin. cbn [snd]. apply fits_ok; auto. eapply H3; eauto. }
  rewrite E. destruct (alloc w2 (dict_at w2 l)) as [w3 l3] eqn:A. exists w3, l3. auto.
Qed.

Lemma picks_axis w d dim axis k : data_array w d -> picks d dim axis k ->
  exists ax, axis_is ax k (ndim (da_data d)) /\ k < ndim (da_data d) /\
    (match dim, axis with
     | Some _, Some _ => Raise ValueError
     | Some n, None => i <- index_of n (da_dims d) ;; Ok (Z.of_nat i)
     | None, _ => let a := or_default axis (-1) in do_ tuple_at (da_dims d) a ;; Ok a
     end) = Ok ax.
Proof.
  intros (H1 & H2 & _) H. destruct dim as [n|]; destruct axis as [z|]; cbn [picks] in H; try contradiction.
  - exists (Z.of_nat k). split; [left; auto|]. split.
    + rewrite <- H1. apply (nth_lt _ _ _ H).
    + rewrite (index_of_nth _ _ _ H2 H). reflexivity.
  - destruct H as (Hz & Ha & Hk). exists z. split; [exact Ha|]. split; auto.
    unfold or_default. replace (z =? 0)%Z with false by (symmetry; apply Z.eqb_neq; auto).
    rewrite (tuple_at_ok _ _ k); [reflexivity|]. rewrite H1. apply axis_is_norm; auto.
  - exists (-1)%Z. split; [right; lia|]. split; [lia|]. cbn [or_default]. rewrite (tuple_at_ok _ _ k); [reflexivity|].
    rewrite H1. apply axis_is_norm; [lia|right; lia].
Qed.
Lemma axis_mod a k n : k < n -> axis_is a k n -> (a mod Z.of_nat n = Z.of_nat k)%Z.
Proof.
  intros Hk [->| ->].
  - apply Z.mod_small. lia.
  - symmetry. apply (Z.mod_unique _ _ (-1)); lia.
Qed.
Lemma list_of_times a n : shp a = [n] -> list_of a = times a n.
Proof. intros H. unfold list_of, times. rewrite H. reflexivity. Qed.
Lemma same_list_refl l : same_list l l = true.
Proof. induction l as [|a l IH]; auto. cbn. rewrite IH, andb_true_r. apply Req_b_true. reflexivity. Qed.

Section Squad.
Variable squad : list R -> list quat -> R -> res quat.

(** How the transform is timed. *)
Inductive mode := Untimed | Timed (tau n : nat) (tsa : nd R).
Definition mode_ok (m : method) (d : darr) (ts : tsarg) (time_axis : option Z) (md : mode) : Prop :=
  match md with
  | Untimed => untimed d ts /\ time_axis = None
  | Timed tau n tsa => timed d ts time_axis tau n tsa /\ S tau < ndim (da_data d)
  end.
Definition mode_way (s : state) (i j : nat) (md : mode) : Prop :=
  match md with Untimed => True | Timed _ _ _ => unit_way s i j end.
(** Orientations with timestamps are resampled with squad: unit quaternions. *)
Definition mode_quat (m : method) (md : mode) (sh : list nat) (a : nd R) : Prop :=
  match m, md with
  | Quaternions, Timed _ _ _ => squad_exact squad /\ forall ix, valid sh ix -> hunit (quat_at a ix)
  | _, _ => True
  end.
Definition from (m : method) (w : world) (d : darr) (outof : option pref) (i : nat) : Prop :=
  match outof with
  | Some o => denotes (frames w) o i
  | None => exists v, attr w d (what_of m) = Some (Some v) /\ lookup v (reg (frames w)) = Some i
  end.
Definition relabel (m : method) (n : option string) (a : attrs) : attrs :=
  dict_set "representation_frame" n (dict_set (what_of m) n a).

(** The second half of the function, from the unpacked array. *)
Lemma unpack_case (m : method) w d w1 l into outof i j u t r sh md : reachable (frames w) -> data_array w d ->
  alloc w (dict_at w (da_attrs d)) = (w1, l) ->
  from m w d outof i -> frame (frames w) i -> denotes (frames w) into j ->
  lookup_transform squad (frames w) i (PFrame j) = Ok (TrStatic t r) ->
  shp (da_data d) = (sh ++ [ncomp m])%list -> mode_way (frames w) i j md -> mode_quat m md sh (da_data d) ->
  u_arr u = da_data d -> axis_is (u_axis u) (length sh) (ndim (da_data d)) ->
  u_lab u = Some (da_coords d, da_dims d, da_name d, l) ->
  match md with
  | Untimed => u_time_axis u = None /\ u_time_dim u = None /\ u_ts u = None
  | Timed tau n tsa => exists ta td sh0, u_time_axis u = Some ta /\ u_time_dim u = Some td /\ u_ts u = Some tsa /\
      lookup td (da_coords d) = Some (Co [td] (CNum tsa)) /\ stamped (da_data d) (ncomp m) ta tsa tau n sh0
  end ->
  let s := frames w1 in
  exists w' d',
    match (o <- match outof with
                | Some o => resolve_rf s o
                | None =>
                    match u_lab u with
                    | None => Raise ValueError
                    | Some (_, _, _, l) =>
                        match lookup (what_of m) (dict_at w1 l) with
                        | Some v => resolve_rf s (as_pref v)
                        | None => Raise ValueError
                        end
                    end
                end ;;
           j <- resolve_rf s into ;; Ok (o, j)) with
    | Raise e => (w1, Raise e)
    | Ok (o, j) =>
        let w2 := match u_lab u with
                  | None => w1
                  | Some (_, _, _, l) =>
                      write w1 l (fun a => dict_set "representation_frame" (name_of s j) (dict_set (what_of m) (name_of s j) a))
                  end in
        match call_method squad m s o (u_arr u) j (u_axis u) (u_time_axis u) (u_ts u) with
        | Raise e => (w2, Raise e)
        | Ok (a, t) =>
            match u_lab u with
            | None => (w2, Ok (RPlain a t))
            | Some (coords, dims, name, l) =>
                let '(w3, r) := make_dataarray w2 a coords dims name l (u_time_dim u) t in
                (w3, d <- r ;; Ok (RLab d))
            end
        end
    end = (w', Ok (RLab d')) /\
    attrs_kept w w' /\ data_array w' d' /\ same_labels d d' /\ length (dicts w) <= da_attrs d' /\
    dict_at w' (da_attrs d') = relabel m (name_of (frames w) j) (dict_at w (da_attrs d)) /\
    (forall pre, valid sh pre -> moved m t r (da_data d) (da_data d') pre).
Proof.
  intros HR Hda Hal Hfrom Hi Hj Hl Hsh Hway Hq Ua Uax Ul Hmd s.
  destruct (dict_alloc _ _ _ _ Hal) as (Hfr & El & Hlen & Hd & Hold).
  pose proof (denotes_frame _ _ _ HR Hj) as Hjf.
  assert (Hout : match outof with
                | Some o => resolve_rf s o
                | None =>
                    match u_lab u with
                    | None => Raise ValueError
                    | Some (_, _, _, l) =>
                        match lookup (what_of m) (dict_at w1 l) with
                        | Some v => resolve_rf s (as_pref v)
                        | None => Raise ValueError
                        end
                    end
                end = Ok i).
  { unfold s. rewrite Hfr. destruct outof as [o|]; cbn [from] in Hfrom.
    - apply denotes_resolve; auto.
    - destruct Hfrom as (v & H1 & H2). rewrite Ul, Hd. unfold attr in H1. rewrite H1. cbn [as_pref resolve_rf]. rewrite H2. reflexivity. }
  rewrite Hout. cbn [bind]. unfold s. rewrite Hfr, (denotes_resolve _ _ _ Hj). cbn [bind]. rewrite Ul, Ua.
  set (nm := name_of (frames w) j). set (f := fun a => dict_set "representation_frame" nm (dict_set (what_of m) nm a)).
  assert (Hcall : exists out o, call_method squad m (frames w) i (da_data d) j (u_axis u) (u_time_axis u) (u_ts u) = Ok (out, o) /\
     shp out = shp (da_data d) /\ (forall pre, valid sh pre -> moved m t r (da_data d) out pre) /\
     exists w3 l3, make_dataarray (write w1 l f) out (da_coords d) (da_dims d) (da_name d) l (u_time_dim u) o =
        (w3, Ok (DA out (da_dims d) (da_coords d) (da_name d) l3)) /\ alloc (write w1 l f) (dict_at (write w1 l f) l) = (w3, l3)).
  { destruct md as [|tau n tsa].
    - destruct Hmd as (-> & -> & ->).
      destruct (call_static squad (frames w) i j t r m (da_data d) sh (u_axis u) None HR Hi Hjf Hl Hsh Uax eq_refl) as (out & E & So & Do).
      exists out, None. split; auto. split; auto. split; auto. cbn [make_dataarray]. apply (make_ok w); auto.
    - destruct Hmd as (ta & td & sh0 & -> & -> & -> & Hc & Hst).
      assert (Esh : put tau n sh0 = sh). { pose proof Hst as (E & _). rewrite Hsh in E. apply app_inj_tail in E as (E & _). auto. }
      destruct (call_stamped squad (frames w) i j t r m (da_data d) ta tsa tau n sh0 (u_axis u) HR Hi Hjf Hway Hl Hst) as (out & E & So & Do).
      { replace (ndim (da_data d) - 1) with (length sh); auto. unfold ndim. rewrite Hsh, app_length. cbn. lia. }
      { intros ->. cbn [mode_quat] in Hq. destruct Hq as (Q1 & Q2). split; auto. rewrite Esh. auto. }
      rewrite Esh in Do. exists out, (Some (times tsa n)). split; auto. split; auto. split; auto. cbn [make_dataarray]. rewrite Hc.
      cbn [stamps_of co_vals]. pose proof Hst as (_ & _ & _ & Ets & _). rewrite (list_of_times _ _ Ets), same_list_refl. apply (make_ok w); auto. }
  destruct Hcall as (out & o & Ec & So & Do & w3 & l3 & Em & Ea). rewrite Ec. cbv zeta. change (fun a : attrs => dict_set "representation_frame" nm (dict_set (what_of m) nm a)) with f. rewrite Em. cbn [bind].
  exists w3, (DA out (da_dims d) (da_coords d) (da_name d) l3).
  destruct (dict_alloc _ _ _ _ Ea) as (Hfr3 & El3 & Hlen3 & Hd3 & Hold3). rewrite length_write in *.
  assert (Hwf : frames (write w1 l f) = frames w) by exact Hfr.
  pose proof Hda as (D1 & D2 & D3 & D4).
  split; [reflexivity|]. split.
  { split; [congruence|]. split; [lia|]. intros k Hk. rewrite Hold3 by lia. rewrite dict_write.
    replace (l =? k) with false by (symmetry; apply Nat.eqb_neq; lia). apply Hold. auto. }
  split.
  { split; [cbn [da_dims da_data]; unfold ndim; rewrite So; exact D1|]. split; auto. split; [|cbn [da_attrs]; lia].
    intros nn c Hin. cbn [da_coords da_dims da_data] in *. specialize (D3 nn c Hin). unfold dim_size in *. cbn [da_dims da_data]. rewrite So. exact D3. }
  split; [repeat split; auto|]. split; [cbn [da_attrs]; lia|]. split; auto.
  cbn [da_attrs]. rewrite Hd3, dict_write, Nat.eqb_refl. replace (l <? length (dicts w1)) with true by (symmetry; apply Nat.ltb_lt; lia).
  rewrite Hd. reflexivity.
Qed.

Lemma transform_step (m : method) w d into outof dim axis ts time_axis i j t r sh md : reachable (frames w) -> data_array w d ->
  from m w d outof i -> frame (frames w) i -> denotes (frames w) into j ->
  lookup_transform squad (frames w) i (PFrame j) = Ok (TrStatic t r) ->
  shp (da_data d) = (sh ++ [ncomp m])%list -> picks d dim axis (length sh) -> mode_ok m d ts time_axis md ->
  mode_way (frames w) i j md -> mode_quat m md sh (da_data d) ->
  exists w' d', transform squad m w (Lab d) into outof dim axis ts time_axis = (w', Ok (RLab d')) /\
    attrs_kept w w' /\ data_array w' d' /\ same_labels d d' /\ length (dicts w) <= da_attrs d' /\
    dict_at w' (da_attrs d') = relabel m (name_of (frames w) j) (dict_at w (da_attrs d)) /\
    (forall pre, valid sh pre -> moved m t r (da_data d) (da_data d') pre).
Proof.
  intros HR Hda Hfrom Hi Hj Hl Hsh Hp Hmo Hway Hq.
  destruct (picks_axis w d dim axis _ Hda Hp) as (ax & Hax & Hlt & Eax).
  unfold transform, maybe_unpack. destruct (alloc w (dict_at w (da_attrs d))) as [w1 l] eqn:Hal. cbv zeta in Eax |- *. rewrite Eax. cbn [bind].
  pose proof Hda as (D1 & D2 & _).
  assert (Hnd : ndim (da_data d) = S (length sh)) by (unfold ndim; rewrite Hsh, app_length; cbn; lia).
  destruct md as [|tau n tsa]; cbn [mode_ok] in Hmo.
  - destruct Hmo as (Hu & ->).
    assert (E : match ts with
            | TName n =>
                i <- index_of n (da_dims d) ;;
                t <- match lookup n (da_coords d) with
                     | Some c => stamps_of c
                     | None => Ok (arange (nth i (shp (da_data d)) O))
                     end ;;
                Ok (Un (da_data d) ax (Some (Z.of_nat i)) (Some n) (Some t) (Some (da_coords d, da_dims d, da_name d, l)))
            | TNone =>
                if Nat.ltb 1 (ndim (da_data d)) then
                  let ta := or_default None 0 in
                  n <- tuple_at (da_dims d) ta ;;
                  c <- match lookup n (da_coords d) with Some c => Ok c | None => Raise KeyError end ;;
                  t <- stamps_of c ;;
                  Ok (Un (da_data d) ax (Some ta) (Some n) (Some t) (Some (da_coords d, da_dims d, da_name d, l)))
                else Ok (Un (da_data d) ax None None None (Some (da_coords d, da_dims d, da_name d, l)))
            | TFalse => Ok (Un (da_data d) ax None None None (Some (da_coords d, da_dims d, da_name d, l)))
            | TArr _ => Raise NotImplementedError
            end = Ok (Un (da_data d) ax None None None (Some (da_coords d, da_dims d, da_name d, l)))).
    { destruct Hu as [->|(-> & E)]; auto. rewrite E. reflexivity. }
    cbv zeta in E. rewrite E. cbn [bind same_axis_check u_ts].
    apply (unpack_case m w d w1 l into outof i j (Un (da_data d) ax None None None (Some (da_coords d, da_dims d, da_name d, l))) t r sh Untimed); auto.
  - destruct Hmo as ((td & T1 & T2 & T3 & T4 & T5 & T6) & Htau).
    assert (E : exists ta, axis_is ta tau (ndim (da_data d)) /\ match ts with
            | TName n =>
                i <- index_of n (da_dims d) ;;
                t <- match lookup n (da_coords d) with
                     | Some c => stamps_of c
                     | None => Ok (arange (nth i (shp (da_data d)) O))
                     end ;;
                Ok (Un (da_data d) ax (Some (Z.of_nat i)) (Some n) (Some t) (Some (da_coords d, da_dims d, da_name d, l)))
            | TNone =>
                if Nat.ltb 1 (ndim (da_data d)) then
                  let ta := or_default time_axis 0 in
                  n <- tuple_at (da_dims d) ta ;;
                  c <- match lookup n (da_coords d) with Some c => Ok c | None => Raise KeyError end ;;
                  t <- stamps_of c ;;
                  Ok (Un (da_data d) ax (Some ta) (Some n) (Some t) (Some (da_coords d, da_dims d, da_name d, l)))
                else Ok (Un (da_data d) ax time_axis None None (Some (da_coords d, da_dims d, da_name d, l)))
            | TFalse => Ok (Un (da_data d) ax time_axis None None (Some (da_coords d, da_dims d, da_name d, l)))
            | TArr _ => Raise NotImplementedError
            end = Ok (Un (da_data d) ax (Some ta) (Some td) (Some tsa) (Some (da_coords d, da_dims d, da_name d, l)))).
    { destruct T3 as [->|(-> & H1 & H2 & H3)].
      - exists (Z.of_nat tau). split; [left; auto|]. rewrite (index_of_nth _ _ _ D2 T1). cbn [bind]. rewrite T2. reflexivity.
      - assert (G : axis_is (or_default time_axis 0) tau (ndim (da_data d))).
        { destruct time_axis as [z|]; [|cbn [or_default]; left; lia]. unfold or_default.
          destruct (Z.eqb_spec z 0) as [->|Hz]; [left; lia|]. destruct H3 as [->|(_ & ->)]; [left|right]; auto. }
        exists (or_default time_axis 0). split; auto. apply Nat.ltb_lt in H1. rewrite H1.
        assert (Hn : norm_axis (or_default time_axis 0) (length (da_dims d)) = Ok tau) by (rewrite D1; apply axis_is_norm; auto).
        cbv zeta. rewrite (tuple_at_ok _ _ _ Hn). cbn [bind]. rewrite (nth_error_nth _ _ _ T1), T2. reflexivity. }
    destruct E as (ta & Hta & E). cbv zeta in E. rewrite E. cbn [bind]. unfold same_axis_check. cbn [u_ts u_time_axis u_arr u_axis].
    replace (ndim (da_data d) =? 0) with false by (symmetry; apply Nat.eqb_neq; lia).
    rewrite (axis_mod ax (length sh)), (axis_mod ta tau) by (auto; lia).
    replace (Z.of_nat (length sh) =? Z.of_nat tau)%Z with false by (symmetry; apply Z.eqb_neq; lia).
    apply (unpack_case m w d w1 l into outof i j (Un (da_data d) ax (Some ta) (Some td) (Some tsa) (Some (da_coords d, da_dims d, da_name d, l))) t r sh (Timed tau n tsa)); auto.
    exists ta, td, (remove_at tau sh). split; auto. split; auto. split; auto. split; auto.
    assert (Hn : nth tau sh 0 = n).
    { destruct Hda as (_ & _ & D3 & _). apply lookup_in in T2. specialize (D3 _ _ T2). unfold coord_size in D3. cbn [co_vals co_dims] in D3. rewrite T4 in D3.
      inversion D3 as [|? ? ? ? (k & K1 & K2) _]; subst. rewrite NoDup_nth_error in D2.
      assert (k = tau) by (apply D2; [apply (nth_lt _ _ _ K1)|congruence]). subst k.
      rewrite Hsh in K2. rewrite nth_error_app1 in K2 by lia. apply nth_error_nth. exact K2. }
    split; [rewrite put_insert by (rewrite length_remove; lia); rewrite <- Hn, insert_remove by lia; exact Hsh|].
    split; [rewrite length_remove; lia|]. split; [exact Hta|]. split; auto.
Qed.
End Squad.
