(** L_Matrix6.v -- vectors. *)
From Coq Require Import Reals Lra ZArith QArith Qabs Qpower Qreals.
From Flocq Require Import Core BinarySingleNaN.
From Coq Require Import SpecFloat.
From Verif Require Import Base M_Float M_MathF M_Rect M_Matrix L_Float S_Double L_Double L_MathF S_Matrix L_Matrix L_Matrix2 L_Matrix3 L_Matrix4 L_Grid L_Matrix5.
Local Open Scope Z_scope.

Lemma rd_vat l i : 0 <= i < zlen l -> rd l i = Val (vat l i).
Proof. intros H. destruct (lget_range l i H) as (v & E). rewrite (rd_ok _ _ _ E). unfold vat. now rewrite (lget_nth_d l i v zero E). Qed.
Lemma dot_ok a b : zlen a <= zlen b -> dotProduct a b = Val (fsum (zlen a) (fun i => mul64 (vat a i) (vat b i))).
Proof.
  intros L. pose proof (zlen_nonneg a). unfold dotProduct. destruct (loop0_inv (fun k s => s = fsum k (fun i => mul64 (vat a i) (vat b i))) (fun i p => let* x := rd a i in let* y := rd b i in Val (add64 p (mul64 x y))) (zlen a) zero) as (s & E & ->); [lia|reflexivity| |exact E].
  intros k s Hk ->. rewrite !rd_vat by lia. cbn [bind]. eexists. split; [reflexivity|]. now rewrite fsum_S by lia.
Qed.
Lemma loop_split {S} (f : Z -> S -> out S) : forall n m i s, loop (n + m) i f s = (let* t := loop n i f s in loop m (i + Z.of_nat n) f t).
Proof.
  induction n as [|n IH]; intros m i s; [cbn [Nat.add loop bind]; now replace (i + Z.of_nat 0) with i by lia|]. cbn [Nat.add loop]. destruct (f i s) as [t| | |]; cbn [bind]; try reflexivity. rewrite IH. now replace (i + 1 + Z.of_nat n) with (i + Z.of_nat (Datatypes.S n)) by lia.
Qed.
Lemma dot_ub a b : zlen b < zlen a -> dotProduct a b = UB.
Proof.
  intros L. pose proof (zlen_nonneg b). unfold dotProduct. set (f := fun i p => _). unfold loop0. replace (Z.to_nat (zlen a)) with (Z.to_nat (zlen b) + S (Z.to_nat (zlen a - zlen b - 1)))%nat by lia. rewrite loop_split.
  destruct (loop_inv (fun k (s : spec_float) => True) f (Z.to_nat (zlen b)) 0 zero I) as (s & E & _). { intros j s Hj _. unfold f. rewrite !rd_vat by lia. cbn [bind]. eauto. } rewrite E. cbn [bind loop]. unfold f at 1. rewrite rd_vat by lia. cbn [bind]. unfold rd. rewrite lget_out by lia. reflexivity.
Qed.
Lemma vat_ext l l' : zlen l = zlen l' -> (forall i, 0 <= i < zlen l -> vat l i = vat l' i) -> l = l'.
Proof.
  intros L H. apply lget_ext. intros i. destruct (Z.lt_ge_cases i 0); [rewrite !lget_out by lia; reflexivity|]. destruct (Z.lt_ge_cases i (zlen l)) as [Q|Q]; [|rewrite !lget_out by lia; reflexivity].
  destruct (lget_range l i ltac:(lia)) as (v & E). destruct (lget_range l' i ltac:(lia)) as (v' & E'). rewrite E, E'. f_equal. specialize (H i ltac:(lia)). unfold vat in H. now rewrite (lget_nth_d l i v zero E), (lget_nth_d l' i v' zero E') in H.
Qed.
Lemma wr_vat l i v : 0 <= i < zlen l -> exists l', wr l i v = Val l' /\ zlen l' = zlen l /\ forall q, 0 <= q < zlen l -> vat l' q = if q =? i then v else vat l q.
Proof.
  intros H. destruct (wr_ok l i v H) as (l' & E & L & G). exists l'. split; [exact E|]. split; [exact L|]. intros q Hq. specialize (G q). destruct (lget_range l q Hq) as (w & Ew). rewrite Ew in G. unfold vat. rewrite (lget_nth_d l q w zero Ew). destruct (q =? i); exact (lget_nth_d _ _ _ _ G).
Qed.
(** a loop that writes element i in step i *)
Lemma fill (g : Z -> list spec_float -> out spec_float) (h : Z -> spec_float) n l0 : zlen l0 = n -> (forall i l, 0 <= i < n -> zlen l = n -> (forall q, i <= q < n -> vat l q = vat l0 q) -> g i l = Val (h i)) ->
  exists l, loop0 n (fun i l => let* v := g i l in wr l i v) l0 = Val l /\ zlen l = n /\ forall i, 0 <= i < n -> vat l i = h i.
Proof.
  intros L H. pose proof (zlen_nonneg l0). destruct (loop0_inv (fun k l => zlen l = n /\ (forall q, 0 <= q < k -> vat l q = h q) /\ forall q, k <= q < n -> vat l q = vat l0 q) (fun i l => let* v := g i l in wr l i v) n l0) as (l & E & Ll & G & _); [lia| | |exists l; auto].
  - split; [exact L|]. split; [intros; lia|reflexivity].
  - intros k l Hk (Ll & G1 & G2). rewrite (H k l Hk Ll G2). cbn [bind]. destruct (wr_vat l k (h k) ltac:(lia)) as (l' & E & L' & G'). exists l'. split; [exact E|]. split; [congruence|]. split; intros q Hq; rewrite G' by lia; destruct (Z.eqb_spec q k) as [->|N]; try reflexivity; try lia; [apply G1; lia|apply G2; lia].
Qed.
Lemma bind_assoc {A B C} (m : out A) (f : A -> out B) (g : B -> out C) : (let* y := (let* x := m in f x) in g y) = (let* x := m in let* y := f x in g y).
Proof. now destruct m. Qed.
Lemma loop_ext {S} (f g : Z -> S -> out S) : (forall i s, f i s = g i s) -> forall n i s, loop n i f s = loop n i g s.
Proof. intros H. induction n as [|n IH]; intros i s; [reflexivity|]. cbn [loop]. rewrite H. destruct (g i s); cbn [bind]; [apply IH|reflexivity..]. Qed.
Lemma vmap_ok f a : exists l, vmap f a = Val l /\ zlen l = zlen a /\ forall i, 0 <= i < zlen a -> vat l i = f (vat a i).
Proof.
  destruct (fill (fun i l => let* x := rd l i in Val (f x)) (fun i => f (vat a i)) (zlen a) a eq_refl) as (l & E & R).
  - intros i l Hi L G. rewrite rd_vat by lia. cbn [bind]. now rewrite G by lia.
  - exists l. split; [|exact R]. rewrite <- E. unfold vmap, loop0. apply loop_ext. intros i s. now rewrite bind_assoc.
Qed.
Lemma vop_ok op a b : zlen a = zlen b -> exists l, vop op a b = Val l /\ zlen l = zlen a /\ forall i, 0 <= i < zlen a -> vat l i = op (vat a i) (vat b i).
Proof.
  intros L. unfold vop. rewrite <- L, Z.eqb_refl. destruct (fill (fun i l => let* x := rd a i in let* y := rd b i in Val (op x y)) (fun i => op (vat a i) (vat b i)) (zlen a) (repeat zero (length a))) as (l & E & R).
  - now rewrite zlen_repeat.
  - intros i l Hi Ll G. rewrite !rd_vat by lia. reflexivity.
  - exists l. split; [|exact R]. rewrite <- E. unfold loop0. apply loop_ext. intros i s. rewrite bind_assoc. destruct (rd a i); cbn [bind]; try reflexivity. now rewrite bind_assoc.
Qed.
Lemma vscale_ok d a : exists l, vscale d a = Val l /\ zlen l = zlen a /\ forall i, 0 <= i < zlen a -> vat l i = mul64 d (vat a i).
Proof.
  unfold vscale. destruct (fill (fun i l => let* x := rd a i in Val (mul64 d x)) (fun i => mul64 d (vat a i)) (zlen a) (repeat zero (length a))) as (l & E & R).
  - now rewrite zlen_repeat.
  - intros i l Hi Ll G. rewrite rd_vat by lia. reflexivity.
  - exists l. split; [|exact R]. rewrite <- E. unfold loop0. apply loop_ext. intros i s. now rewrite bind_assoc.
Qed.
(** * length *)
Lemma sq_ok a : loop0 (zlen a) (fun i p => let* x := rd a i in Val (add64 p (mul64 x x))) zero = Val (fsum (zlen a) (fun i => mul64 (vat a i) (vat a i))).
Proof.
  pose proof (zlen_nonneg a). destruct (loop0_inv (fun k s => s = fsum k (fun i => mul64 (vat a i) (vat a i))) (fun i p => let* x := rd a i in Val (add64 p (mul64 x x))) (zlen a) zero) as (s & E & ->); [lia|reflexivity| |exact E].
  intros k s Hk ->. rewrite !rd_vat by lia. cbn [bind]. eexists. split; [reflexivity|]. now rewrite fsum_S by lia.
Qed.
Definition sqsum (n : Z) (f : Z -> Z) : Z := zsum n (fun i => f i * f i).
Lemma sq_at a k f B : vholds a k f B -> 0 <= B -> zlen a * (B * B) <= 2 ^ 53 -> -250 <= k <= 225 -> at_ (k + k) (sqsum (zlen a) f) (fsum (zlen a) (fun i => mul64 (vat a i) (vat a i))) /\ 0 <= sqsum (zlen a) f <= 2 ^ 53.
Proof.
  intros H B0 L K. pose proof (zlen_nonneg a). assert (Q : forall i, 0 <= i < zlen a -> 0 <= f i * f i <= B * B) by (intros i Hi; destruct (H i Hi) as [_ Hb]; split; [apply Z.square_nonneg|destruct (Z.le_gt_cases 0 (f i)); nia]). split.
  - apply (fsum_at (zlen a) (k + k) _ _ (B * B)); [lia|nia|lia| |exact L]. intros i Hi. destruct (H i Hi) as [H1 H2]. specialize (Q i Hi). assert (B * B <= zlen a * (B * B)) by nia. split; [apply mul_at; [exact H1|exact H1|lia|lia]|lia].
  - split; [apply zsum_pos; [lia|intros; apply Q; assumption]|]. pose proof (zsum_bnd (zlen a) (fun i => f i * f i) (B * B) ltac:(lia) ltac:(intros i Hi; specialize (Q i Hi); cbv beta; lia)). unfold sqsum. lia.
Qed.
Lemma sqrt_scale s k : (0 <= s)%R -> (R_sqrt.sqrt (s * bpow radix2 (k + k)) = R_sqrt.sqrt s * bpow radix2 k)%R.
Proof. intros S. rewrite bpow_plus, sqrt_mult by (try exact S; apply Rmult_le_pos; apply bpow_ge_0). rewrite sqrt_square by apply bpow_ge_0. reflexivity. Qed.
Lemma vabs_r a k f B : vholds a k f B -> 0 <= B -> zlen a * (B * B) <= 2 ^ 53 -> -250 <= k <= 225 -> exists x, vabs a = Val x /\ is64 x (r64 (R_sqrt.sqrt (IZR (sqsum (zlen a) f)) * bpow radix2 k)) /\ 0 <= sqsum (zlen a) f <= 2 ^ 53.
Proof.
  intros H B0 L K. destruct (sq_at a k f B H B0 L K) as [S1 S2]. unfold vabs. rewrite sq_ok. cbn [bind]. eexists. split; [reflexivity|]. split; [|exact S2]. rewrite at_r in S1. assert (P : (0 <= IZR (sqsum (zlen a) f))%R) by (apply (IZR_le 0); lia). rewrite <- sqrt_scale by exact P. apply sqrt_r; [exact S1|]. apply Rmult_le_pos; [exact P|apply bpow_ge_0].
Qed.
Lemma sqrt_ge1 z : 1 <= z -> (1 <= R_sqrt.sqrt (IZR z))%R.
Proof. intros H. rewrite <- sqrt_1. apply sqrt_le_1_alt. apply (IZR_le 1). exact H. Qed.
Lemma vabs_rel a k f B : vholds a k f B -> 0 <= B -> zlen a * (B * B) <= 2 ^ 53 -> -250 <= k <= 225 -> sqsum (zlen a) f <> 0 ->
  exists x d, vabs a = Val x /\ (Rabs d <= bpow radix2 (-53))%R /\ is64 x (R_sqrt.sqrt (IZR (sqsum (zlen a) f)) * bpow radix2 k * (1 + d)) /\ 1 <= sqsum (zlen a) f <= 2 ^ 53.
Proof.
  intros H B0 L K N. destruct (vabs_r a k f B H B0 L K) as (x & E & X & S). destruct (rel64 (R_sqrt.sqrt (IZR (sqsum (zlen a) f)) * bpow radix2 k)) as (d & D & R).
  - rewrite Rabs_pos_eq by (apply Rmult_le_pos; [apply sqrt_pos|apply bpow_ge_0]). apply Rle_trans with (1 * bpow radix2 k)%R; [rewrite Rmult_1_l; apply bpow_le; lia|]. apply Rmult_le_compat_r; [apply bpow_ge_0|]. apply sqrt_ge1. lia.
  - exists x, d. split; [exact E|]. split; [exact D|]. rewrite <- R. split; [exact X|lia].
Qed.
Lemma vabs_exact a k f B N : vholds a k f B -> 0 <= B -> zlen a * (B * B) <= 2 ^ 53 -> -250 <= k <= 225 -> 0 <= N -> sqsum (zlen a) f = N * N -> exists x, vabs a = Val x /\ at_ k N x.
Proof.
  intros H B0 L K N0 E. destruct (vabs_r a k f B H B0 L K) as (x & Ex & X & S). exists x. split; [exact Ex|]. rewrite at_r. rewrite E, mult_IZR, sqrt_square in X by (apply (IZR_le 0); exact N0). rewrite r64_fmt in X; [exact X|]. apply fmt_grid; [lia|]. rewrite E in S. nia.
Qed.
(** * normalize *)
Lemma quot_err d e : (Rabs d <= bpow radix2 (-53))%R -> (Rabs e <= bpow radix2 (-53))%R -> (Rabs ((/ (1 + d) * (1 + e)) * (/ (1 + d) * (1 + e)) - 1) <= bpow radix2 (-49))%R.
Proof.
  intros H1 H2. replace (bpow radix2 (-49)) with (16 * bpow radix2 (-53))%R by (change (-49) with (4 + -53); rewrite bpow_plus; change (bpow radix2 4) with 16%R; reflexivity).
  assert (B : (0 < bpow radix2 (-53) < / 100)%R). { split; [apply bpow_gt_0|]. apply Rlt_trans with (bpow radix2 (-7)); [apply bpow_lt; lia|]. change (bpow radix2 (-7)) with (/ 128)%R. lra. } set (u := bpow radix2 (-53)) in *. apply Rabs_le_inv in H1. apply Rabs_le_inv in H2.
  set (w := (/ (1 + d))%R). assert (W : (w * (1 + d) = 1)%R) by (unfold w; field; lra). assert (Wb : (1 - 2 * u <= w <= 1 + 2 * u)%R). { split; nra. } apply Rabs_le. assert (P : (1 - 3 * u <= w * (1 + e) <= 1 + 4 * u)%R) by (split; nra). nra.
Qed.
Lemma normalize_r a k f B : vholds a k f B -> 0 <= B -> zlen a * (B * B) <= 2 ^ 53 -> -250 <= k <= 225 -> sqsum (zlen a) f <> 0 ->
  exists l, normalize a = Val l /\ zlen l = zlen a /\ forall i, 0 <= i < zlen a -> exists q, is64 (vat l i) q /\ (0 <= q * IZR (f i))%R /\
    (Rabs (q * q * IZR (sqsum (zlen a) f) - IZR (f i * f i)) <= IZR (f i * f i) * bpow radix2 (-49))%R.
Proof.
  intros H B0 L K N. destruct (vabs_rel a k f B H B0 L K N) as (x & d & E & D & X & S). unfold normalize. rewrite E. cbn [bind]. destruct (vmap_ok (fun y => div64 y x) a) as (l & -> & Ll & G). exists l. split; [reflexivity|]. split; [exact Ll|]. intros i Hi. rewrite (G i Hi). destruct (H i Hi) as [H1 H2]. rewrite at_r in H1.
  set (s := sqsum (zlen a) f) in *. set (r := R_sqrt.sqrt (IZR s)) in *. pose proof (sqrt_ge1 s ltac:(lia)) as R1. fold r in R1. assert (Rs : (r * r = IZR s)%R) by (apply sqrt_sqrt; apply (IZR_le 0); lia). pose proof (bpow_gt_0 radix2 k) as Bk.
  assert (B53 : (0 < bpow radix2 (-53) < / 2)%R). { split; [apply bpow_gt_0|]. change (/ 2)%R with (bpow radix2 (-1)). apply bpow_lt. lia. } pose proof D as D'. apply Rabs_le_inv in D'. assert (P1 : (0 < 1 + d)%R) by lra. assert (Pr : (0 < r * bpow radix2 k)%R) by (apply Rmult_lt_0_compat; lra).
  assert (Eq : (IZR (f i) * bpow radix2 k / (r * bpow radix2 k * (1 + d)) = IZR (f i) * / r * / (1 + d))%R) by (field; repeat split; lra). set (v := (IZR (f i) * / r * / (1 + d))%R) in *.
  assert (Zs : f i * f i <= 2 ^ 53). { assert (0 <= f i * f i) by apply Z.square_nonneg. assert (f i * f i <= B * B) by (destruct (Z.le_gt_cases 0 (f i)); nia). assert (B * B <= zlen a * (B * B)) by nia. lia. }
  assert (Iv : (/ 2 <= / (1 + d) <= 2)%R). { split; [apply Rinv_le_contravar; lra|]. replace 2%R with (/ / 2)%R by lra. apply Rinv_le_contravar; lra. }
  assert (Ir : (bpow radix2 (-53) <= / r <= 1)%R). { split; [|rewrite <- Rinv_1; apply Rinv_le_contravar; lra]. change (-53) with (- (53)). rewrite bpow_opp. apply Rinv_le_contravar; [lra|]. assert (r * r <= bpow radix2 53)%R by (rewrite Rs; change (bpow radix2 53) with (IZR (2 ^ 53)); apply IZR_le; lia). nra. }
  assert (Vb : (Rabs v <= bpow radix2 54)%R). { unfold v. rewrite !Rabs_mult, (Rabs_pos_eq (/ r)), (Rabs_pos_eq (/ (1 + d))) by lra. assert (A : (Rabs (IZR (f i)) <= bpow radix2 53)%R) by (rewrite <- abs_IZR; change (bpow radix2 53) with (IZR (2 ^ 53)); apply IZR_le; nia). change 54 with (53 + 1). rewrite bpow_plus. change (bpow radix2 1) with 2%R. pose proof (Rabs_pos (IZR (f i))). apply Rmult_le_compat; [apply Rmult_le_pos; lra|lra| |lra]. nra. }
  pose proof (div64_r _ _ _ _ 54 ltac:(lia) H1 X) as M. rewrite Eq in M. specialize (M ltac:(apply Rgt_not_eq, Rmult_lt_0_compat; lra) Vb).
  destruct (Z.eq_dec (f i) 0) as [Z0|Z0].
  - exists (r64 v). split; [exact M|]. assert (V0 : v = 0%R) by (unfold v; rewrite Z0; ring). rewrite V0, r64_0, Z0. split; [lra|]. replace (0 * 0 * IZR s - IZR (0 * 0))%R with 0%R by (cbn [Z.mul]; ring). rewrite Rabs_R0. cbn [Z.mul]. lra.
  - assert (A1 : (1 <= Rabs (IZR (f i)))%R) by (rewrite <- abs_IZR; apply IZR_le; lia).
    destruct (rel64 v) as (e & De & Re). { apply Rle_trans with (bpow radix2 (-53) * / 2)%R; [change (/ 2)%R with (bpow radix2 (-1)); rewrite <- bpow_plus; apply bpow_le; lia|]. unfold v. rewrite !Rabs_mult, (Rabs_pos_eq (/ r)), (Rabs_pos_eq (/ (1 + d))) by lra. apply Rmult_le_compat; [lra|lra| |lra]. nra. }
    rewrite Re in M. exists (v * (1 + e))%R. split; [exact M|]. pose proof De as De'. apply Rabs_le_inv in De'. split.
    + unfold v. replace (IZR (f i) * / r * / (1 + d) * (1 + e) * IZR (f i))%R with ((IZR (f i) * IZR (f i)) * (/ r * / (1 + d) * (1 + e)))%R by ring. apply Rmult_le_pos; [apply Rle_0_sqr|]. apply Rmult_le_pos; [apply Rmult_le_pos; lra|lra].
    + replace (v * (1 + e) * (v * (1 + e)) * IZR s - IZR (f i * f i))%R with (IZR (f i * f i) * ((/ (1 + d) * (1 + e)) * (/ (1 + d) * (1 + e)) - 1))%R. 2:{ rewrite mult_IZR, <- Rs. unfold v. field. repeat split; lra. }
      rewrite Rabs_mult, (Rabs_pos_eq (IZR (f i * f i))) by (apply (IZR_le 0); apply Z.square_nonneg). apply Rmult_le_compat_l; [apply (IZR_le 0); apply Z.square_nonneg|]. now apply quot_err.
Qed.
