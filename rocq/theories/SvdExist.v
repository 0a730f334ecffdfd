(** Instances of the oracle contracts of SpecEstim: every 3x3 matrix has a singular
    value decomposition, every rotation matrix has a quaternion, and nearest points
    exist. *)
From Coq Require Import Reals List Arith Bool ZArith Lia Lra Psatz.
From Verif Require Import Base Quat SpecQuat QuatProofs NdArray Transform Utils Velocity Estim SpecEstim EstimProofs.
Import ListNotations.
Open Scope R_scope.

Lemma vec_zero_dec v : {v = v0} + {v <> v0}.
Proof.
  destruct (Req_EM_T (vdot v v) 0) as [E|N]; [left; apply vdot_zero, E|right]. intros ->. apply N. mcomp. ring.
Qed.
Lemma vdot_pos v : v <> v0 -> 0 < vdot v v.
Proof. intros H. destruct (vdot_nonneg v) as [|E]; auto. exfalso. apply H, vdot_zero. auto. Qed.
(** A unit vector in the direction of v. *)
Definition unit_of (v : vec3) : vec3 := vscale (/ sqrt (vdot v v)) v.
Lemma unit_of_unit v : v <> v0 -> vdot (unit_of v) (unit_of v) = 1.
Proof.
  intros H. pose proof (vdot_pos v H) as P. unfold unit_of. pose proof (sqrt_lt_R0 _ P) as Q. pose proof (sqrt_sqrt _ (Rlt_le _ _ P)) as E.
  set (n := sqrt (vdot v v)) in *. replace (vdot (vscale (/ n) v) (vscale (/ n) v)) with (/ n * / n * vdot v v) by (destruct v; mcomp; ring).
  rewrite <- E. field. lra.
Qed.
Lemma unit_of_dot v w : vdot v w = 0 -> vdot (unit_of v) w = 0.
Proof. intros H. unfold unit_of. replace (vdot (vscale (/ sqrt (vdot v v)) v) w) with (/ sqrt (vdot v v) * vdot v w) by (destruct v, w; mcomp; ring). rewrite H. ring. Qed.
(** A non-zero vector perpendicular to v. *)
Lemma perp v : v <> v0 -> {w | w <> v0 /\ vdot v w = 0}.
Proof.
  intros H. destruct v as [x y z]. destruct (Req_EM_T x 0) as [Ex|Nx].
  - exists ex. split; [intros E; injection E; lra|]. subst x. mcomp. ring.
  - exists (V3 (- y) x 0). split; [intros E; injection E; intros; contradiction|]. mcomp. ring.
Qed.
(** Two perpendicular unit vectors complete to a basis. *)
Lemma onb_of_two a b : vdot a a = 1 -> vdot b b = 1 -> vdot a b = 0 -> onb a b (vcross a b).
Proof.
  intros Ha Hb H. unfold onb. split; auto. split; auto. split.
  - replace (vdot (vcross a b) (vcross a b)) with (vdot a a * vdot b b - vdot a b * vdot a b) by (destruct a, b; mcomp; ring). rewrite Ha, Hb, H. ring.
  - split; auto. split; destruct a, b; mcomp; ring.
Qed.

(* ---- a real root of a cubic ---- *)
Lemma cubic_root (p q r : R) : {x | x * x * x + p * (x * x) + q * x + r = 0}.
Proof.
  set (f := fun x => x * x * x + p * (x * x) + q * x + r).
  set (M := 1 + Rabs p + Rabs q + Rabs r).
  assert (HM : 1 <= M) by (unfold M; pose proof (Rabs_pos p); pose proof (Rabs_pos q); pose proof (Rabs_pos r); lra).
  assert (Hb : forall x, Rabs x = M -> Rabs (p * (x * x) + q * x + r) < M * M * M).
  { intros x Hx. apply Rle_lt_trans with (Rabs p * (M * M) + Rabs q * M + Rabs r).
    - eapply Rle_trans; [apply Rabs_triang|]. apply Rplus_le_compat_r. eapply Rle_trans; [apply Rabs_triang|].
      rewrite !Rabs_mult, Hx. lra.
    - pose proof (Rabs_pos p); pose proof (Rabs_pos q); pose proof (Rabs_pos r).
      assert (M1 : M <= M * M) by nra. assert (M2 : 1 <= M * M) by lra.
      pose proof (Rmult_le_compat_l (Rabs q) _ _ H0 M1). pose proof (Rmult_le_compat_l (Rabs r) _ _ H1 M2).
      assert (E : M * M * M = M * M + Rabs p * (M * M) + Rabs q * (M * M) + Rabs r * (M * M)) by (unfold M; ring). rewrite E. lra. }
  destruct (IVT f (- M) M) as (x & _ & Hx).
  - unfold f. intros x. apply derivable_continuous_pt. reg.
  - lra.
  - assert (E : Rabs (- M) = M) by (rewrite Rabs_Ropp; apply Rabs_pos_eq; lra). pose proof (Hb _ E) as B. apply Rabs_def2 in B. unfold f. lra.
  - assert (E : Rabs M = M) by (apply Rabs_pos_eq; lra). pose proof (Hb _ E) as B. apply Rabs_def2 in B. unfold f. lra.
  - exists x. exact Hx.
Qed.

(* ---- a vector in the kernel of a singular matrix ---- *)
Lemma parallel_perp a b v : a <> v0 -> vcross a b = v0 -> vdot a v = 0 -> vdot b v = 0.
Proof.
  intros Ha H Hv. assert (E : vdot a a * vdot b v = vdot a b * vdot a v + vdot (vcross a b) (vcross a v)) by (destruct a, b, v; mcomp; ring).
  rewrite H, Hv in E. replace (vdot v0 (vcross a v)) with 0 in E by (destruct a, v; mcomp; ring).
  pose proof (vdot_pos a Ha). apply (Rmult_eq_reg_l (vdot a a)); lra.
Qed.
Lemma cross_swap a b : vcross b a = vopp (vcross a b).
Proof. destruct a, b. apply vec3_eq; mcomp; ring. Qed.
Lemma kernel m : det3 m = 0 -> {v | v <> v0 /\ mapply m v = v0}.
Proof.
  intros D. destruct m as [a b c]. unfold det3 in D. cbn [r0 r1 r2] in D.
  assert (K : forall v, vdot a v = 0 -> vdot b v = 0 -> vdot c v = 0 -> mapply (M3 a b c) v = v0)
    by (intros v E1 E2 E3; unfold mapply; cbn [r0 r1 r2]; rewrite E1, E2, E3; reflexivity).
  destruct (vec_zero_dec (vcross a b)) as [Zab|N].
  2:{ exists (vcross a b). split; auto. apply K; [destruct a, b; mcomp; ring|destruct a, b; mcomp; ring|rewrite <- D; destruct a, b, c; mcomp; ring]. }
  destruct (vec_zero_dec (vcross b c)) as [Zbc|N].
  2:{ exists (vcross b c). split; auto. apply K; [exact D|destruct b, c; mcomp; ring|destruct b, c; mcomp; ring]. }
  destruct (vec_zero_dec (vcross c a)) as [Zca|N].
  2:{ exists (vcross c a). split; auto. apply K; [destruct a, c; mcomp; ring|rewrite <- D; destruct a, b, c; mcomp; ring|destruct a, c; mcomp; ring]. }
  assert (O : vopp v0 = v0) by (apply vec3_eq; mcomp; ring).
  destruct (vec_zero_dec a) as [Za|Na].
  - destruct (vec_zero_dec b) as [Zb|Nb].
    + destruct (vec_zero_dec c) as [Zc|Nc].
      * exists ex. split; [intros E; injection E; lra|]. subst. apply K; mcomp; ring.
      * destruct (perp c Nc) as (v & Nv & Hv). exists v. split; auto. subst. apply K; auto; destruct v; mcomp; ring.
    + destruct (perp b Nb) as (v & Nv & Hv). exists v. split; auto. apply K; auto; [subst; destruct v; mcomp; ring|].
      apply (parallel_perp b c v); auto.
  - destruct (perp a Na) as (v & Nv & Hv). exists v. split; auto. apply K; auto.
    + apply (parallel_perp a b v); auto.
    + apply (parallel_perp a c v); auto. rewrite cross_swap, Zca. exact O.
Qed.

(* ---- symmetric matrices ---- *)
Definition symmetric (m : mat3) : Prop := forall v w, vdot v (mapply m w) = vdot w (mapply m v).
Definition minus_id (m : mat3) (l : R) : mat3 :=
  M3 (vsub (r0 m) (vscale l ex)) (vsub (r1 m) (vscale l ey)) (vsub (r2 m) (vscale l ez)).
Lemma eigenvector m : {v & {l | vdot v v = 1 /\ mapply m v = vscale l v}}.
Proof.
  destruct m as [[a b c] [d e f] [g h i]].
  destruct (cubic_root (- (a + e + i)) (a * e - b * d + a * i - c * g + e * i - f * h)
     (- (a * (e * i - f * h) - b * (d * i - f * g) + c * (d * h - e * g)))) as (l & Hl).
  destruct (kernel (minus_id (M3 (V3 a b c) (V3 d e f) (V3 g h i)) l)) as (v & Nv & Hv).
  { rewrite <- Ropp_0, <- Hl. unfold minus_id. mcomp. ring. }
  exists (unit_of v), l. split; [apply unit_of_unit, Nv|].
  assert (E : mapply (M3 (V3 a b c) (V3 d e f) (V3 g h i)) v = vscale l v).
  { destruct v as [x y z]. unfold minus_id in Hv. revert Hv. mcomp. intros Hv. injection Hv as H1 H2 H3. apply vec3_eq; mcomp; lra. }
  unfold unit_of. rewrite mapply_scale, E. generalize (/ sqrt (vdot v v)). intros k. destruct v. apply vec3_eq; mcomp; ring.
Qed.
(** Diagonalising a symmetric 2x2 block by a rotation. *)
Lemma rotate2 (p q s : R) : {a & {b | a * a + b * b = 1 /\ (s - p) * (a * b) + q * (a * a - b * b) = 0}}.
Proof.
  destruct (Req_EM_T q 0) as [->|Nq].
  - exists 1, 0. split; ring.
  - set (D := sqrt ((s - p) * (s - p) + 4 * (q * q))). set (b := (s - p + D) / 2).
    assert (HD : D * D = (s - p) * (s - p) + 4 * (q * q)) by (apply sqrt_sqrt; pose proof (sq_ge0 (s - p)); pose proof (sq_ge0 q); lra).
    set (n := sqrt (q * q + b * b)). assert (Pq : 0 < q * q + b * b) by (pose proof (Rsqr_pos_lt _ Nq) as Q; unfold Rsqr in Q; pose proof (sq_ge0 b); lra).
    assert (Hn : n * n = q * q + b * b) by (apply sqrt_sqrt; lra).
    assert (Pn : 0 < n) by (apply sqrt_lt_R0; lra).
    exists (- q / n), (- (b / n)). 
    assert (E : b * b = (s - p) * b + q * q) by (unfold b; replace ((s - p + D) / 2 * ((s - p + D) / 2)) with (((s - p) * (s - p) + 2 * (s - p) * D + D * D) / 4) by field; rewrite HD; field).
    split.
    + replace (- q / n * (- q / n) + - (b / n) * - (b / n)) with ((q * q + b * b) / (n * n)) by (field; lra). rewrite Hn. field. lra.
    + replace ((s - p) * (- q / n * - (b / n)) + q * (- q / n * (- q / n) - - (b / n) * - (b / n)))
        with (q * ((s - p) * b + q * q - b * b) / (n * n)) by (field; lra). rewrite E. field. lra.
Qed.
Lemma diagonal m : symmetric m ->
  {a & {b & {c | onb a b c /\ vdot a (mapply m b) = 0 /\ vdot a (mapply m c) = 0 /\ vdot b (mapply m c) = 0}}}.
Proof.
  intros Hs. destruct (eigenvector m) as (v & l & Hv & He).
  assert (Nv : v <> v0) by (intros ->; revert Hv; mcomp; lra).
  destruct (perp v Nv) as (w & Nw & Hw). pose proof (unit_of_unit w Nw) as Uw. set (u := unit_of w) in *.
  assert (Hu : vdot v u = 0) by (rewrite vdot_sym; apply unit_of_dot; rewrite vdot_sym; exact Hw).
  pose proof (onb_of_two v u Hv Uw Hu) as (_ & _ & Hc & _ & Hvc & Huc). set (c := vcross v u) in *. clearbody c u.
  assert (Hm : forall x, vdot v x = 0 -> vdot v (mapply m x) = 0).
  { intros x Hx. rewrite Hs, He. replace (vdot x (vscale l v)) with (l * vdot v x) by (destruct x, v; mcomp; ring). rewrite Hx. ring. }
  destruct (rotate2 (vdot u (mapply m u)) (vdot u (mapply m c)) (vdot c (mapply m c))) as (a & b & Hab & Hd).
  exists v, (vadd (vscale a u) (vscale b c)), (vadd (vscale (- b) u) (vscale a c)).
  assert (L : forall x y x' y', vdot (vadd (vscale x u) (vscale y c)) (vadd (vscale x' u) (vscale y' c)) =
     x * x' * vdot u u + (x * y' + y * x') * vdot u c + y * y' * vdot c c) by (intros; destruct u, c; mcomp; ring).
  assert (L1 : forall x y, vdot v (vadd (vscale x u) (vscale y c)) = x * vdot v u + y * vdot v c) by (intros; destruct u, c, v; mcomp; ring).
  split; [|split; [|split]].
  - unfold onb. rewrite !L, !L1, Uw, Hc, Huc, Hvc, Hu. split; auto. split; [lra|]. split; [lra|]. split; [ring|]. split; ring.
  - apply Hm. rewrite L1, Hu, Hvc. ring.
  - apply Hm. rewrite L1, Hu, Hvc. ring.
  - rewrite mapply_add, !mapply_scale.
    assert (E : forall x y x' y' mu mc, vdot (vadd (vscale x u) (vscale y c)) (vadd (vscale x' mu) (vscale y' mc)) =
      x * x' * vdot u mu + x * y' * vdot u mc + y * x' * vdot c mu + y * y' * vdot c mc) by (intros; destruct u, c, mu, mc; mcomp; ring).
    rewrite E. rewrite (Hs c u). lra.
Qed.

(* ---- the decomposition ---- *)
Definition perp3 (x y z : vec3) : Prop := vdot x y = 0 /\ vdot x z = 0 /\ vdot y z = 0.
Definition len (v : vec3) : R := sqrt (vdot v v).
Lemma unit_back v : v <> v0 -> v = vscale (len v) (unit_of v).
Proof.
  intros H. pose proof (sqrt_lt_R0 _ (vdot_pos v H)) as P. unfold unit_of, len in *. set (n := sqrt (vdot v v)) in *. clearbody n.
  destruct v. apply vec3_eq; mcomp; field; lra.
Qed.
Lemma len_zero : len v0 = 0.
Proof. unfold len. replace (vdot v0 v0) with 0 by (mcomp; ring). apply sqrt_0. Qed.
Lemma zero_back u : v0 = vscale (len v0) u.
Proof. rewrite len_zero. destruct u. apply vec3_eq; mcomp; ring. Qed.
Lemma complete_onb x y z : perp3 x y z -> vdot y y <= vdot x x -> vdot z z <= vdot y y ->
  {a & {b & {c | onb a b c /\ x = vscale (len x) a /\ y = vscale (len y) b /\ z = vscale (len z) c}}}.
Proof.
  intros (Hxy & Hxz & Hyz) L1 L2.
  assert (Z0 : vdot v0 v0 = 0) by (mcomp; ring).
  destruct (vec_zero_dec y) as [Ey|Ny].
  - assert (Ez : z = v0) by (apply vdot_zero; subst y; rewrite Z0 in L2; pose proof (vdot_nonneg z); lra). subst y z.
    destruct (vec_zero_dec x) as [->|Nx].
    + exists ex, ey, ez. split; [unfold onb; mcomp; repeat split; ring|]. split; [apply zero_back|]. split; apply zero_back.
    + destruct (perp x Nx) as (w & Nw & Hw). pose proof (unit_of_unit x Nx) as Ux. pose proof (unit_of_unit w Nw) as Uw.
      assert (O : vdot (unit_of x) (unit_of w) = 0) by (apply unit_of_dot; rewrite vdot_sym; apply unit_of_dot; rewrite vdot_sym; exact Hw).
      exists (unit_of x), (unit_of w), (vcross (unit_of x) (unit_of w)). split; [apply onb_of_two; auto|].
      split; [apply unit_back; auto|]. split; apply zero_back.
  - assert (Nx : x <> v0) by (intros ->; rewrite Z0 in L1; pose proof (vdot_pos y Ny); lra).
    pose proof (unit_of_unit x Nx) as Ux. pose proof (unit_of_unit y Ny) as Uy.
    assert (O : forall p q, vdot p q = 0 -> vdot (unit_of p) (unit_of q) = 0)
      by (intros p q E; apply unit_of_dot; rewrite vdot_sym; apply unit_of_dot; rewrite vdot_sym; exact E).
    destruct (vec_zero_dec z) as [->|Nz].
    + exists (unit_of x), (unit_of y), (vcross (unit_of x) (unit_of y)). split; [apply onb_of_two; auto|].
      split; [apply unit_back; auto|]. split; [apply unit_back; auto|apply zero_back].
    + pose proof (unit_of_unit z Nz) as Uz.
      exists (unit_of x), (unit_of y), (unit_of z). split; [unfold onb; repeat split; auto|].
      split; [apply unit_back; auto|]. split; apply unit_back; auto.
Qed.
Section Sort.
  Variable h : mat3.
  Let n v := vdot (mapply h v) (mapply h v).
  Definition good_basis (a b c : vec3) : Prop := onb a b c /\ perp3 (mapply h a) (mapply h b) (mapply h c).
  Lemma good_swap12 a b c : good_basis a b c -> good_basis b a c.
  Proof.
    intros ((A & B & C & D & E & F) & (G & I & J)). split; [|unfold perp3; rewrite (vdot_sym (mapply h b) (mapply h a)); auto].
    unfold onb. rewrite (vdot_sym b a). repeat split; auto.
  Qed.
  Lemma good_swap23 a b c : good_basis a b c -> good_basis a c b.
  Proof.
    intros ((A & B & C & D & E & F) & (G & I & J)). split; [|unfold perp3; rewrite (vdot_sym (mapply h c) (mapply h b)); auto].
    unfold onb. rewrite (vdot_sym c b). repeat split; auto.
  Qed.
  Lemma sorted_basis a b c : good_basis a b c -> {a' & {b' & {c' | good_basis a' b' c' /\ n b' <= n a' /\ n c' <= n b'}}}.
  Proof.
    intros H. destruct (Rle_dec (n b) (n a)) as [L1|L1]; destruct (Rle_dec (n c) (n b)) as [L2|L2]; destruct (Rle_dec (n c) (n a)) as [L3|L3].
    1: exists a, b, c; split; [exact H|lra].
    1: exfalso; lra.
    1: exists a, c, b; split; [apply good_swap23, H|lra].
    1: exists c, a, b; split; [apply good_swap12, good_swap23, H|lra].
    1: exists b, a, c; split; [apply good_swap12, H|lra].
    1: exists b, c, a; split; [apply good_swap23, good_swap12, H|lra].
    1: exfalso; lra.
    exists c, b, a. split; [apply good_swap12, good_swap23, good_swap12, H|lra].
  Qed.
End Sort.
Lemma onb_matrix a b c : onb a b c -> orthogonal (M3 a b c).
Proof.
  intros H v w. pose proof (onb_complete a b c v H) as Ev. pose proof (onb_complete a b c w H) as Ew.
  destruct H as (A & B & C & D & E & F).
  assert (X : vdot v w = vdot v a * vdot w a + vdot v b * vdot w b + vdot v c * vdot w c).
  { rewrite Ev at 1. replace (vdot _ w) with (vdot v a * vdot a w + vdot v b * vdot b w + vdot v c * vdot c w) by (destruct v, w, a, b, c; mcomp; ring).
    rewrite (vdot_sym a w), (vdot_sym b w), (vdot_sym c w). reflexivity. }
  rewrite X. unfold mapply at 1 2. cbn [r0 r1 r2]. rewrite (vdot_sym a v), (vdot_sym b v), (vdot_sym c v), (vdot_sym a w), (vdot_sym b w), (vdot_sym c w).
  unfold vdot at 1. cbn [vx vy vz]. reflexivity.
Qed.
Lemma gram_symmetric h : symmetric (mdot (transpose h) h).
Proof.
  intros v w. rewrite !mapply_mdot. rewrite (vdot_sym v), (vdot_sym w), !transpose_dot. apply vdot_sym.
Qed.
Lemma gram_dot h v w : vdot v (mapply (mdot (transpose h) h) w) = vdot (mapply h v) (mapply h w).
Proof. rewrite mapply_mdot, vdot_sym, transpose_dot. apply vdot_sym. Qed.
Theorem svd_exists h : {d | is_svd h d}.
Proof.
  destruct (diagonal _ (gram_symmetric h)) as (a0 & b0 & c0 & Ho & H1 & H2 & H3). rewrite gram_dot in H1, H2, H3.
  destruct (sorted_basis h a0 b0 c0) as (a & b & c & (Hb & Hp) & L1 & L2); [split; auto; repeat split; auto|]. clear a0 b0 c0 Ho H1 H2 H3.
  destruct (complete_onb _ _ _ Hp L1 L2) as (u & v & w & Hu & Ex & Ey & Ez).
  exists (transpose (M3 u v w), V3 (len (mapply h a)) (len (mapply h b)) (len (mapply h c)), M3 a b c).
  split; [apply orthogonal_transpose, onb_matrix, Hu|]. split; [apply onb_matrix, Hb|]. cbn [vx vy vz].
  assert (M : forall p q, vdot p p <= vdot q q -> len q >= len p) by (intros p q L; apply Rle_ge, sqrt_le_1_alt, L).
  split; [apply M, L1|]. split; [apply M, L2|]. split; [apply Rle_ge, sqrt_pos|].
  intros x. rewrite (onb_complete a b c x Hb) at 1. rewrite !mapply_add, !mapply_scale. 
  rewrite (vdot_sym x a), (vdot_sym x b), (vdot_sym x c).
  set (s1 := len (mapply h a)) in *. set (s2 := len (mapply h b)) in *. set (s3 := len (mapply h c)) in *.
  rewrite Ex, Ey, Ez. clear. unfold mapply at 2 3 4. cbn [r0 r1 r2 vx vy vz].
  generalize (vdot a x), (vdot b x), (vdot c x), s1, s2, s3. intros. destruct u, v, w. apply vec3_eq; mcomp; ring.
Qed.
Definition some_svd (h : mat3) : mat3 * vec3 * mat3 := proj1_sig (svd_exists h).
Lemma some_svd_ok h : is_svd h (some_svd h).
Proof. unfold some_svd. apply proj2_sig. Qed.

(* ------------------------------------------------------------------ quaternions of rotation matrices *)
(** A unit quaternion of a rotation matrix (Shepperd's method). *)
Definition shepperd (m : mat3) : quat :=
  let '(M3 (V3 a b c) (V3 d e f) (V3 g h i)) := m in
  let k0 := 1 + a + e + i in let k1 := 1 + a - e - i in let k2 := 1 - a + e - i in let k3 := 1 - a - e + i in
  if Rlt_b 0 k0 then qscale (/ (2 * sqrt k0)) (Qt k0 (h - f) (c - g) (d - b))
  else if Rlt_b 0 k1 then qscale (/ (2 * sqrt k1)) (Qt (h - f) k1 (b + d) (c + g))
  else if Rlt_b 0 k2 then qscale (/ (2 * sqrt k2)) (Qt (c - g) (b + d) k2 (f + h))
  else qscale (/ (2 * sqrt k3)) (Qt (d - b) (c + g) (f + h) k3).
Lemma quat_from_products (q : quat) (a b c d e f g h i : R) :
  4 * (qw q * qw q) = 1 + a + e + i -> 4 * (qx q * qx q) = 1 + a - e - i -> 4 * (qy q * qy q) = 1 - a + e - i -> 4 * (qz q * qz q) = 1 - a - e + i ->
  4 * (qw q * qx q) = h - f -> 4 * (qw q * qy q) = c - g -> 4 * (qw q * qz q) = d - b ->
  4 * (qx q * qy q) = b + d -> 4 * (qx q * qz q) = c + g -> 4 * (qy q * qz q) = f + h ->
  hunit q /\ forall v, srot q v = mapply (M3 (V3 a b c) (V3 d e f) (V3 g h i)) v.
Proof.
  destruct q as [w x y z]. cbn [qw qx qy qz]. intros H1 H2 H3 H4 H5 H6 H7 H8 H9 H10.
  assert (U : hunit (Qt w x y z)) by (unfold hunit; vunf; lra). split; auto.
  intros [p q r]. unfold srot. rewrite U. 
  replace (ve (hmul (hmul (Qt w x y z) (mkq 0 (V3 p q r))) (hconj (Qt w x y z)))) with
    (V3 ((w*w + x*x - y*y - z*z) * p + 2 * (x*y - w*z) * q + 2 * (x*z + w*y) * r)
        (2 * (x*y + w*z) * p + (w*w - x*x + y*y - z*z) * q + 2 * (y*z - w*x) * r)
        (2 * (x*z - w*y) * p + 2 * (y*z + w*x) * q + (w*w - x*x - y*y + z*z) * r)) by (apply vec3_eq; vunf; ring).
  replace (w*w + x*x - y*y - z*z) with a by lra. replace (w*w - x*x + y*y - z*z) with e by lra. replace (w*w - x*x - y*y + z*z) with i by lra.
  replace (x*y - w*z) with (b / 2) by lra. replace (x*z + w*y) with (c/2) by lra. replace (x*y + w*z) with (d/2) by lra.
  replace (y*z - w*x) with (f/2) by lra. replace (x*z - w*y) with (g/2) by lra. replace (y*z + w*x) with (h/2) by lra.
  apply vec3_eq; mcomp; field.
Qed.
(** Dividing by the pivot. *)
Lemma pivot (k p q : R) : 0 < k -> 4 * ((/ (2 * sqrt k)) * p * ((/ (2 * sqrt k)) * q)) = p * q / k.
Proof.
  intros H. pose proof (sqrt_lt_R0 k H). pose proof (sqrt_sqrt k (Rlt_le _ _ H)) as E. rewrite <- E at 3. field. lra.
Qed.
Lemma rotation_entries a b c d e f g h i : orthogonal (M3 (V3 a b c) (V3 d e f) (V3 g h i)) -> det3 (M3 (V3 a b c) (V3 d e f) (V3 g h i)) = 1 ->
  (a*a + d*d + g*g = 1 /\ b*b + e*e + h*h = 1 /\ c*c + f*f + i*i = 1 /\ a*b + d*e + g*h = 0 /\ a*c + d*f + g*i = 0 /\ b*c + e*f + h*i = 0) /\
  (a*a + b*b + c*c = 1 /\ d*d + e*e + f*f = 1 /\ g*g + h*h + i*i = 1 /\ a*d + b*e + c*f = 0 /\ a*g + b*h + c*i = 0 /\ d*g + e*h + f*i = 0) /\
  (a = e*i - f*h /\ b = f*g - d*i /\ c = d*h - e*g) /\ (d = h*c - i*b /\ e = i*a - g*c /\ f = g*b - h*a) /\ (g = b*f - c*e /\ h = c*d - a*f /\ i = a*e - b*d).
Proof.
  intros O D. pose proof (orthogonal_onb _ O) as C. pose proof (orthogonal_onb _ (orthogonal_transpose _ O)) as W.
  pose proof (onb_cross _ _ _ W) as X1. pose proof (onb_cross _ _ _ (onb_rot _ _ _ W)) as X2. pose proof (onb_cross _ _ _ (onb_rot _ _ _ (onb_rot _ _ _ W))) as X3.
  assert (T : forall m, triple (col0 (transpose m)) (col1 (transpose m)) (col2 (transpose m)) = det3 m) by (intros; rewrite det_cols, det_transpose; reflexivity).
  do 2 rewrite triple_rot in X3. rewrite triple_rot in X2. rewrite T, D in *.
  revert C W X1 X2 X3. clear. unfold onb. mcomp. intros (C1 & C2 & C3 & C4 & C5 & C6) (W1 & W2 & W3 & W4 & W5 & W6) X1 X2 X3.
  injection X1 as X11 X12 X13. injection X2 as X21 X22 X23. injection X3 as X31 X32 X33. repeat split; lra.
Qed.
Theorem shepperd_ok : is_frm shepperd.
Proof.
  intros [[a b c] [d e f] [g h i]] O D. destruct (rotation_entries _ _ _ _ _ _ _ _ _ O D) as
    ((C1 & C2 & C3 & C4 & C5 & C6) & (W1 & W2 & W3 & W4 & W5 & W6) & (X11 & X12 & X13) & (X21 & X22 & X23) & (X31 & X32 & X33)). clear O D.
  unfold shepperd.
  assert (Q : forall k x y z, 0 < k -> x * y / k = z <-> x * y = k * z) by (intros; split; intros E; [rewrite <- E; field; lra|apply (Rmult_eq_reg_l k); [field_simplify; lra|lra]]).
  destruct (Rlt_b 0 (1 + a + e + i)) eqn:B0; [|destruct (Rlt_b 0 (1 + a - e - i)) eqn:B1; [|destruct (Rlt_b 0 (1 - a + e - i)) eqn:B2]].
  - apply Rlt_b_true in B0. apply quat_from_products; cbv [qscale qw qx qy qz]; rewrite pivot by exact B0; apply Q; auto; lra.
  - apply Rlt_b_true in B1. apply quat_from_products; cbv [qscale qw qx qy qz]; rewrite pivot by exact B1; apply Q; auto; lra.
  - apply Rlt_b_true in B2. apply quat_from_products; cbv [qscale qw qx qy qz]; rewrite pivot by exact B2; apply Q; auto; lra.
  - apply Rlt_b_false in B0, B1, B2. assert (B3 : 0 < 1 - a - e + i) by lra.
    apply quat_from_products; cbv [qscale qw qx qy qz]; rewrite pivot by exact B3; apply Q; auto; lra.
Qed.

(* ------------------------------------------------------------------ nearest points *)
(** Index of the first nearest point. *)
Fixpoint nearest_from (p : vec3) (best : R) (at_ i : nat) (l : list vec3) : nat :=
  match l with
  | [] => at_
  | q :: l => if Rlt_b (dist2 p q) best then nearest_from p (dist2 p q) i (S i) l else nearest_from p best at_ (S i) l
  end.
Definition nearest_first (l : list vec3) (p : vec3) : nat :=
  match l with [] => O | q :: l => nearest_from p (dist2 p q) 0 1 l end.
Lemma nearest_from_ok p l : forall best at_ i pre q0, List.length pre = i -> nth_error (pre ++ l) at_ = Some q0 -> dist2 p q0 = best ->
  (forall q', In q' pre -> best <= dist2 p q') ->
  exists q, nth_error (pre ++ l) (nearest_from p best at_ i l) = Some q /\ forall q', In q' (pre ++ l) -> dist2 p q <= dist2 p q'.
Proof.
  induction l as [|x l IH]; intros best at_ i pre q0 Hi Hn Hd Hb; cbn [nearest_from].
  - exists q0. split; auto. intros q' Hq. rewrite app_nil_r in Hq. rewrite Hd. auto.
  - replace (pre ++ x :: l) with ((pre ++ [x]) ++ l) in * by (rewrite <- app_assoc; reflexivity).
    destruct (Rlt_b (dist2 p x) best) eqn:E.
    + apply Rlt_b_true in E. apply (IH _ _ _ (pre ++ [x]) x); auto.
      * rewrite app_length. cbn. lia.
      * rewrite <- app_assoc, nth_error_app2, Hi, Nat.sub_diag by lia. reflexivity.
      * intros q' Hq. apply in_app_or in Hq as [Hq|[<-|[]]]; [specialize (Hb _ Hq)|]; lra.
    + apply Rlt_b_false in E. apply (IH _ _ _ (pre ++ [x]) q0); auto.
      * rewrite app_length. cbn. lia.
      * intros q' Hq. apply in_app_or in Hq as [Hq|[<-|[]]]; auto.
Qed.
Lemma nearest_first_ok : is_nearest nearest_first.
Proof.
  intros [|x l] p H; [congruence|]. unfold nearest_first. apply (nearest_from_ok p l _ _ _ [x] x); auto.
  intros q' [<-|[]]. lra.
Qed.
