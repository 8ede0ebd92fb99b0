(** P_Geometry.v -- vertices: products, sides, lengths, comparisons. *)
From Coq Require Import Reals Lra Psatz QArith Qabs Qreals.
From Flocq Require Import Core.
From Verif Require Import Base M_Float M_MathF M_Rect M_Matrix M_Geometry S_Double S_Matrix S_Geometry L_Double L_MathF P_MathF L_Matrix L_Matrix2 L_Matrix4 L_Matrix5 L_Matrix6 P_Matrix3 L_Geometry L_Geometry2.
Local Open Scope Z_scope.

(** * C109: products and sides *)
(** no rounding on a grid *)
Theorem C109_products2 k v w a b c d : at2 k a b v -> at2 k c d w -> box2 (2 ^ 26) a b -> box2 (2 ^ 26) c d -> -500 <= k <= 450 ->
  at_ (2 * k) (a * d - b * c) (cross2 v w) /\ at_ (2 * k) (a * c + b * d) (dot2 v w).
Proof. intros V W B C K. replace (2 * k) with (k + k) by lia. split; [now apply cross2_at|now apply dot2_at]. Qed.
(** this one is right of the other if and only if the other is counterclockwise; left is the mirror image *)
Theorem C109_side k v w a b c d : at2 k a b v -> at2 k c d w -> box2 (2 ^ 26) a b -> box2 (2 ^ 26) c d -> -500 <= k <= 450 ->
  isRightTo v w = (0 <? a * d - b * c) /\ isLeftTo v w = (a * d - b * c <? 0) /\ isRightTo w v = isLeftTo v w.
Proof.
  intros V W B C K. pose proof (side_at k v w a b c d V W B C K) as S1. pose proof (side_at k w v c d a b W V C B K) as S2. apply lt0 in S1 as [R L]. apply lt0 in S2 as [R' L']. unfold isRightTo, isLeftTo. rewrite R, L, R'. split; [reflexivity|]. split; [reflexivity|]. apply eq_iff_eq_true. rewrite !Z.ltb_lt. lia.
Qed.
(** collinear and orthogonal are exact on a grid that is not finer than 2^-9 *)
Theorem C109_collinear2 k v w a b c d : at2 k a b v -> at2 k c d w -> box2 (2 ^ 26) a b -> box2 (2 ^ 26) c d -> -9 <= k <= 450 ->
  isCollinear2 v w = (a * d - b * c =? 0) /\ isOrthogonal2 v w = (a * c + b * d =? 0).
Proof. intros V W B C K. unfold isCollinear2, isOrthogonal2. split; [apply (equal0 (k + k)); [apply cross2_at; try assumption; lia|lia]|apply (equal0 (k + k)); [apply dot2_at; try assumption; lia|lia]]. Qed.
(** but a vector of less than 1/1000 is collinear with the one perpendicular to it, and orthogonal to itself *)
Theorem C109_collinear_refuted k v w : at2 k 1 0 v -> at2 k 0 1 w -> -500 <= k <= -10 -> isCollinear2 v w = true /\ isOrthogonal2 v v = true.
Proof.
  intros V W K. assert (B : box2 (2 ^ 26) 1 0 /\ box2 (2 ^ 26) 0 1) by (unfold box2; lia). destruct B as [B C]. assert (E : (Rabs (IZR 1 * bpow radix2 (k + k)) <= bpow radix2 (-20))%R) by (rewrite Rmult_1_l, Rabs_pos_eq by apply bpow_ge_0; apply bpow_le; lia). split.
  - apply (equal0_small (k + k) 1); [|exact E]. exact (cross2_at k v w 1 0 0 1 V W B C ltac:(lia)).
  - apply (equal0_small (k + k) 1); [|exact E]. exact (dot2_at k v v 1 0 1 0 V V B B ltac:(lia)).
Qed.
Theorem C109_products3 k v w a b c d e f : at3 k a b c v -> at3 k d e f w -> box3 (2 ^ 25) a b c -> box3 (2 ^ 25) d e f -> -500 <= k <= 450 ->
  at3 (2 * k) (b * f - c * e) (c * d - a * f) (a * e - b * d) (cross3 v w) /\ at_ (2 * k) (a * d + b * e + c * f) (dot3 v w).
Proof. intros V W B C K. replace (2 * k) with (k + k) by lia. split; [apply (cross3_at k k v w a b c d e f (2 ^ 25) (2 ^ 25)); try assumption; lia|apply (dot3_at k k v w a b c d e f (2 ^ 25) (2 ^ 25)); try assumption; lia]. Qed.
(** the cross product is perpendicular to both, without any rounding error *)
Theorem C109_perpendicular k v w a b c d e f : at3 k a b c v -> at3 k d e f w -> box3 (2 ^ 16) a b c -> box3 (2 ^ 16) d e f -> -300 <= k <= 250 ->
  dbl (dot3 v (cross3 v w)) 0 /\ dbl (dot3 w (cross3 v w)) 0.
Proof.
  intros V W B C K. pose proof (cross3_at k k v w a b c d e f _ _ V W B C ltac:(lia) ltac:(lia)) as X. pose proof (cross3_box _ _ _ _ _ _ _ _ B C) as XB.
  assert (Z0 : forall x, at_ (k + (k + k)) 0 x -> dbl x 0) by (intros x H; exact (dbl_eq _ _ _ H (Qmult_0_l _))). split; apply Z0.
  - pose proof (dot3_at k (k + k) v _ _ _ _ _ _ _ _ _ V X B XB ltac:(lia) ltac:(lia)) as D. match type of D with at_ _ ?z _ => replace z with 0 in D by ring end. exact D.
  - pose proof (dot3_at k (k + k) w _ _ _ _ _ _ _ _ _ W X C XB ltac:(lia) ltac:(lia)) as D. match type of D with at_ _ ?z _ => replace z with 0 in D by ring end. exact D.
Qed.
Lemma sq3 x y z : x * x + y * y + z * z = 0 <-> x = 0 /\ y = 0 /\ z = 0.
Proof. pose proof (Z.square_nonneg x). pose proof (Z.square_nonneg y). pose proof (Z.square_nonneg z). split; [|intros (-> & -> & ->); reflexivity]. intros H'. assert (x * x = 0 /\ y * y = 0 /\ z * z = 0) as (A & B & C) by lia. apply Z.mul_eq_0 in A, B, C. lia. Qed.
Theorem C109_collinear3 k v w a b c d e f : at3 k a b c v -> at3 k d e f w -> box3 (2 ^ 12) a b c -> box3 (2 ^ 12) d e f -> -9 <= k <= 200 ->
  (isCollinear3 v w = true <-> b * f = c * e /\ c * d = a * f /\ a * e = b * d) /\ isOrthogonal3 v w = (a * d + b * e + c * f =? 0) /\ isNull v = (a =? 0) && (b =? 0) && (c =? 0).
Proof.
  intros V W B C K. split; [|split].
  - pose proof (cross3_at k k v w a b c d e f _ _ V W B C ltac:(lia) ltac:(lia)) as X. pose proof (cross3_box _ _ _ _ _ _ _ _ B C) as XB. pose proof (abs3_r (k + k) _ _ _ _ _ X XB ltac:(lia) ltac:(lia)) as L. unfold isCollinear3. set (x := b * f - c * e) in *. set (y := c * d - a * f) in *. set (z := a * e - b * d) in *.
    assert (N : 0 <= x * x + y * y + z * z <= 2 ^ 53). { destruct XB as (B1 & B2 & B3). pose proof (prod_bnd _ _ _ _ B1 B1). pose proof (prod_bnd _ _ _ _ B2 B2). pose proof (prod_bnd _ _ _ _ B3 B3). pose proof (Z.square_nonneg x). pose proof (Z.square_nonneg y). pose proof (Z.square_nonneg z). lia. }
    rewrite (root_zero _ _ _ L N) by lia. rewrite Z.eqb_eq, sq3. unfold x, y, z. lia.
  - apply (equal0 (k + k)); [apply (dot3_at k k v w a b c d e f (2 ^ 12) (2 ^ 12)); try assumption; lia|lia].
  - destruct V as (X & Y & Z0). unfold isNull. rewrite (equal0 k a), (equal0 k b), (equal0 k c) by (try assumption; lia). reflexivity.
Qed.
(** * lengths *)
Theorem C109_length_exact k v a b n : at2 k a b v -> box2 (2 ^ 26) a b -> -500 <= k <= 450 -> 0 <= n -> a * a + b * b = n * n -> at_ k n (abs2 v).
Proof.
  intros V B K N E. pose proof (abs2_r k v a b V B K) as X. rewrite E, mult_IZR, sqrt_square in X by (apply (IZR_le 0); exact N). destruct B as [B1 B2]. pose proof (prod_bnd _ _ _ _ B1 B1). pose proof (prod_bnd _ _ _ _ B2 B2). rewrite r64_fmt in X by (apply fmt_grid; [lia|nia]). now apply at_r.
Qed.
Theorem C109_length3_exact k v a b c n : at3 k a b c v -> box3 (2 ^ 25) a b c -> -500 <= k <= 450 -> 0 <= n -> a * a + b * b + c * c = n * n -> at_ k n (abs3 v).
Proof.
  intros V B K N E. pose proof (abs3_r k v a b c _ V B ltac:(lia) K) as X. rewrite E, mult_IZR, sqrt_square in X by (apply (IZR_le 0); exact N). destruct B as (B1 & B2 & B3). pose proof (prod_bnd _ _ _ _ B1 B1). pose proof (prod_bnd _ _ _ _ B2 B2). pose proof (prod_bnd _ _ _ _ B3 B3). rewrite r64_fmt in X by (apply fmt_grid; [lia|nia]). now apply at_r.
Qed.
Lemma length_q x k n : is64 x (r64 (R_sqrt.sqrt (IZR n) * bpow radix2 k)) -> 0 <= n -> -500 <= k <= 450 ->
  exists q, dbl x q /\ (0 <= q)%Q /\ (Qabs (q * q - inject_Z n * q2 (2 * k)) <= inject_Z n * q2 (2 * k) * q2 (-51))%Q.
Proof.
  intros X N K. assert (S1 : (0 <= IZR n)%R) by (apply (IZR_le 0); lia). destruct (Z.eq_dec n 0) as [->|N0].
  - rewrite sqrt_0, Rmult_0_l, r64_0 in X. exists 0%Q. split; [apply dbl_r; replace (Q2R 0) with 0%R by (unfold Q2R; cbn; lra); exact X|]. split; [discriminate|]. change (inject_Z 0) with 0%Q. rewrite !Qmult_0_l. discriminate.
  - destruct (root_rel _ _ _ X ltac:(lia) K) as (d & D & Y). destruct (is_dbl _ _ Y) as (q & Dq & Eq). exists q. split; [exact Dq|]. assert (Sg : (0 <= R_sqrt.sqrt (IZR n))%R) by apply sqrt_pos. pose proof (bpow_gt_0 radix2 k) as Bk. assert (U : (bpow radix2 (-53) <= 1)%R) by (change 1%R with (bpow radix2 0); apply bpow_le; lia). pose proof D as D'. apply Rabs_le_inv in D'. split.
    + apply Rle_Qle. rewrite Eq. replace (Q2R 0) with 0%R by (unfold Q2R; cbn; lra). apply Rmult_le_pos; [apply Rmult_le_pos; lra|lra].
    + apply Rle_Qle. rewrite Q2R_abs, Q2R_minus, !Q2R_mult, Q2R_Z, !Q2R_q2, Eq. pose proof (sqrt_sqrt _ S1) as SS. set (r := R_sqrt.sqrt (IZR n)) in *. rewrite <- SS. replace (2 * k) with (k + k) by lia. rewrite bpow_plus.
      replace (r * bpow radix2 k * (1 + d) * (r * bpow radix2 k * (1 + d)) - r * r * (bpow radix2 k * bpow radix2 k))%R with (r * r * (bpow radix2 k * bpow radix2 k) * ((1 + d) * (1 + d) - 1))%R by ring. rewrite Rabs_mult. rewrite (Rabs_pos_eq (r * r * (bpow radix2 k * bpow radix2 k))) by nra. apply Rmult_le_compat_l; [nra|]. now apply sq_err.
Qed.
(** the square of the length, up to 2^-51 of it *)
Theorem C109_length k v a b : at2 k a b v -> box2 (2 ^ 26) a b -> -500 <= k <= 450 ->
  exists q, dbl (abs2 v) q /\ (0 <= q)%Q /\ let s := (inject_Z (a * a + b * b) * q2 (2 * k))%Q in (Qabs (q * q - s) <= s * q2 (-51))%Q.
Proof. intros V B K. apply length_q; [exact (abs2_r k v a b V B K)|nia|lia]. Qed.
Theorem C109_length3 k v a b c : at3 k a b c v -> box3 (2 ^ 25) a b c -> -500 <= k <= 450 ->
  exists q, dbl (abs3 v) q /\ (0 <= q)%Q /\ let s := (inject_Z (a * a + b * b + c * c) * q2 (2 * k))%Q in (Qabs (q * q - s) <= s * q2 (-51))%Q.
Proof. intros V B K. apply length_q; [exact (abs3_r k v a b c _ V B ltac:(lia) K)|nia|lia]. Qed.
(** normalized(): a vector of the same direction, the squares of the components up to 2^-49 *)
Definition unit_comp (n a : Z) (x : spec_float) : Prop := exists q, dbl x q /\ (0 <= q * inject_Z a)%Q /\ (Qabs (q * q * inject_Z n - inject_Z (a * a)) <= inject_Z (a * a) * q2 (-49))%Q.
Lemma unit_q k n a L x : is64 L (r64 (R_sqrt.sqrt (IZR n) * bpow radix2 k)) -> 1 <= n <= 2 ^ 53 -> a * a <= n -> at_ k a x -> -500 <= k <= 450 -> unit_comp n a (mul64 (div64 f1 L) x).
Proof.
  intros HL N A X K. destruct (unit_r k n a L x HL N A X K) as (m & M0 & _ & M2 & R). destruct (is_dbl _ _ R) as (q & Dq & Eq). exists q. split; [exact Dq|]. pose proof (sqrt_ge1 n ltac:(lia)) as R1. assert (S1 : (0 <= IZR n)%R) by (apply (IZR_le 0); lia). pose proof (sqrt_sqrt _ S1) as SS. set (r := R_sqrt.sqrt (IZR n)) in *. split; apply Rle_Qle.
  - rewrite Q2R_mult, Q2R_Z, Eq. replace (Q2R 0) with 0%R by (unfold Q2R; cbn; lra). replace (IZR a / r * m * IZR a)%R with ((IZR a * IZR a) * (/ r * m))%R by (unfold Rdiv; ring). apply Rmult_le_pos; [apply Rle_0_sqr|]. apply Rmult_le_pos; [apply Rlt_le, Rinv_0_lt_compat; lra|lra].
  - rewrite Q2R_abs, Q2R_minus, !Q2R_mult, !Q2R_Z, Q2R_q2, Eq, <- SS, mult_IZR. replace (IZR a / r * m * (IZR a / r * m) * (r * r) - IZR a * IZR a)%R with (IZR a * IZR a * (m * m - 1))%R by (field; lra). rewrite Rabs_mult. rewrite (Rabs_pos_eq (IZR a * IZR a)) by apply Rle_0_sqr. apply Rmult_le_compat_l; [apply Rle_0_sqr|exact M2].
Qed.
Theorem C109_normalized k v a b : at2 k a b v -> box2 (2 ^ 26) a b -> -19 <= k <= 450 -> ~ (a = 0 /\ b = 0) ->
  unit_comp (a * a + b * b) a (px (normalized2 v)) /\ unit_comp (a * a + b * b) b (py (normalized2 v)).
Proof.
  intros V B K N. pose proof (abs2_r k v a b V B ltac:(lia)) as L. destruct B as [B1 B2]. pose proof (prod_bnd _ _ _ _ B1 B1). pose proof (prod_bnd _ _ _ _ B2 B2). pose proof (Z.square_nonneg a). pose proof (Z.square_nonneg b). assert (S : 1 <= a * a + b * b) by (destruct (Z.eq_dec a 0) as [->|]; destruct (Z.eq_dec b 0) as [->|]; nia). destruct V as [X Y].
  unfold normalized2. cbv zeta. rewrite (root_zero _ _ _ L) by lia. destruct (Z.eqb_spec (a * a + b * b) 0); [lia|]. cbn [vmul2 px py]. split; apply (unit_q k); try assumption; lia.
Qed.
Theorem C109_normalized3 k v a b c : at3 k a b c v -> box3 (2 ^ 25) a b c -> -19 <= k <= 450 -> ~ (a = 0 /\ b = 0 /\ c = 0) ->
  let n := a * a + b * b + c * c in unit_comp n a (vx (normalized3 v)) /\ unit_comp n b (vy (normalized3 v)) /\ unit_comp n c (vz (normalized3 v)).
Proof.
  intros V B K N. cbv zeta. pose proof (abs3_r k v a b c _ V B ltac:(lia) ltac:(lia)) as L. destruct B as (B1 & B2 & B3). pose proof (prod_bnd _ _ _ _ B1 B1). pose proof (prod_bnd _ _ _ _ B2 B2). pose proof (prod_bnd _ _ _ _ B3 B3). pose proof (Z.square_nonneg a). pose proof (Z.square_nonneg b). pose proof (Z.square_nonneg c). assert (S : a * a + b * b + c * c <> 0) by (rewrite sq3; exact N). destruct V as (X & Y & Z0).
  unfold normalized3. cbv zeta. rewrite (root_zero _ _ _ L) by lia. destruct (Z.eqb_spec (a * a + b * b + c * c) 0); [lia|]. cbn [vmul3 vx vy vz]. split; [|split]; apply (unit_q k); try assumption; lia.
Qed.
(** what is shorter than 1/1000000 is not changed: it does not get the length 1 *)
Theorem C109_normalized_refuted k v : at2 k 1 0 v -> -500 <= k <= -20 -> normalized2 v = v.
Proof.
  intros V K. pose proof (C109_length_exact k v 1 0 1 V ltac:(unfold box2; lia) ltac:(lia) ltac:(lia) eq_refl) as L. unfold normalized2. cbv zeta. rewrite (equal0_small k 1 _ L); [reflexivity|]. rewrite Rmult_1_l, Rabs_pos_eq by apply bpow_ge_0. apply bpow_le. lia.
Qed.
(** * comparisons *)
Theorem C109_equal v w : eq2 v w = eq2 w v /\ ne2 v w = negb (eq2 v w).
Proof. unfold eq2, ne2. rewrite (equal_sym (px v)), (equal_sym (py v)). split; [reflexivity|]. change (isNotEqual (px v) (px w)) with (negb (isEqual (px v) (px w))). change (isNotEqual (py v) (py w)) with (negb (isEqual (py v) (py w))). rewrite (equal_sym (px v)), (equal_sym (py v)). now rewrite negb_andb. Qed.
Theorem C109_equal3 v w : eq3 v w = eq3 w v /\ ne3 v w = negb (eq3 v w).
Proof. unfold eq3, ne3. rewrite (equal_sym (vx v)), (equal_sym (vy v)), (equal_sym (vz v)). split; [reflexivity|]. change (isNotEqual (vx v) (vx w)) with (negb (isEqual (vx v) (vx w))). change (isNotEqual (vy v) (vy w)) with (negb (isEqual (vy v) (vy w))). change (isNotEqual (vz v) (vz w)) with (negb (isEqual (vz v) (vz w))). rewrite (equal_sym (vx v)), (equal_sym (vy v)), (equal_sym (vz v)). now rewrite !negb_andb. Qed.
Theorem C109_equal_near v w a b c d : point2 v a b -> point2 w c d ->
  (eq2 v w = true -> (Qabs (a - c) < 1 # 1000000)%Q /\ (Qabs (b - d) < 1 # 1000000)%Q) /\ ((Qabs (a - c) <= (1 # 1000000) - q2 (-71))%Q -> (Qabs (b - d) <= (1 # 1000000) - q2 (-71))%Q -> eq2 v w = true).
Proof.
  intros [A B] [C D]. destruct (C92_equal _ _ _ _ A C) as [X1 X2]. destruct (C92_equal _ _ _ _ B D) as [Y1 Y2]. unfold eq2. split; [intros H; apply andb_prop in H as [H1 H2]; auto|]. intros H1 H2. now rewrite X2, Y2.
Qed.
(** biggest(): the largest coordinate, except when the first two are the largest together *)
Theorem C109_biggest v x y z : point v x y z -> ~ (x == y /\ z < x)%Q -> exists q, dbl (biggest v) q /\ (x <= q)%Q /\ (y <= q)%Q /\ (z <= q)%Q /\ (q == x \/ q == y \/ q == z)%Q.
Proof.
  intros (X & Y & Z0) N. pose proof X as RX. pose proof Y as RY. pose proof Z0 as RZ. apply dbl_r in RX, RY, RZ. unfold biggest. rewrite (ltb64 _ _ _ _ RY RX), (ltb64 _ _ _ _ RZ RX), (ltb64 _ _ _ _ RX RY), (ltb64 _ _ _ _ RZ RY).
  assert (QR : forall a b, Rlt_bool (Q2R a) (Q2R b) = true <-> (a < b)%Q). { intros a b. split; [intros H; apply Rlt_Qlt; now apply Rltb_inv|intros H; apply Rlt_bool_true; now apply Qlt_Rlt]. }
  destruct (Rlt_bool (Q2R y) (Q2R x)) eqn:E1, (Rlt_bool (Q2R z) (Q2R x)) eqn:E2, (Rlt_bool (Q2R x) (Q2R y)) eqn:E3, (Rlt_bool (Q2R z) (Q2R y)) eqn:E4; cbn [andb];
    rewrite ?QR in *; try (apply not_true_iff_false in E1; rewrite QR in E1; apply Qnot_lt_le in E1); try (apply not_true_iff_false in E2; rewrite QR in E2; apply Qnot_lt_le in E2); try (apply not_true_iff_false in E3; rewrite QR in E3; apply Qnot_lt_le in E3); try (apply not_true_iff_false in E4; rewrite QR in E4; apply Qnot_lt_le in E4);
    eexists; (split; [eassumption|]); try (repeat split; try lra; auto using Qeq_refl; fail); exfalso; try (apply N; split; lra); lra.
Qed.
Theorem C109_biggest_refuted v x z : point v x x z -> (z < x)%Q -> dbl (biggest v) z.
Proof.
  intros (X & Y & Z0) L. pose proof X as RX. pose proof Y as RY. apply dbl_r in RX, RY. unfold biggest. rewrite (ltb64 _ _ _ _ RY RX), (ltb64 _ _ _ _ RX RY). rewrite Rlt_bool_false by lra. exact Z0.
Qed.
(** * linear independence *)
Theorem C109_independent k u v w a b c d e f g h i : at3 k a b c u -> at3 k d e f v -> at3 k g h i w -> box3 (2 ^ 16) a b c -> box3 (2 ^ 16) d e f -> box3 (2 ^ 16) g h i -> -6 <= k <= 225 ->
  isLinearIndependent u v w = Val (negb (a * (e * i - f * h) - b * (d * i - f * g) + c * (d * h - e * g) =? 0)).
Proof.
  intros (U1 & U2 & U3) (V1 & V2 & V3_) (W1 & W2 & W3) Bu Bv Bw K. unfold isLinearIndependent. destruct (det9 k _ _ _ _ _ _ _ _ _ a b c d e f g h i (2 ^ 16) U1 U2 U3 V1 V2 V3_ W1 W2 W3 Bu Bv Bw ltac:(lia) ltac:(lia)) as (x & E & X).
  change (mat3 u v w false) with (Mat 3 3 [vx u; vy u; vz u; vx v; vy v; vz v; vx w; vy w; vz w]). rewrite E. cbn [bind]. f_equal. change (isNotEqual x f0) with (negb (isEqual x f0)). now rewrite (equal0 _ _ _ X) by lia.
Qed.
(** * the hypotheses are met *)
Example C109_ex : at2 0 3 4 (I2 3 4) /\ box2 (2 ^ 26) 3 4 /\ at2 0 (-4) 3 (I2 (-4) 3) /\ box2 (2 ^ 26) (-4) 3 /\ at_ 0 25 (cross2 (I2 3 4) (I2 (-4) 3)) /\ isOrthogonal2 (I2 3 4) (I2 (-4) 3) = true /\ isRightTo (I2 3 4) (I2 (-4) 3) = true /\ at_ 0 5 (abs2 (I2 3 4)).
Proof. concrete. Qed.
Example C109_ex3 : at3 0 1 2 2 (I3 1 2 2) /\ box3 (2 ^ 12) 1 2 2 /\ at3 0 2 4 4 (I3 2 4 4) /\ isCollinear3 (I3 1 2 2) (I3 2 4 4) = true /\ isCollinear3 (I3 1 2 2) (I3 2 4 5) = false /\ at_ 0 3 (abs3 (I3 1 2 2)) /\ isLinearIndependent (I3 1 2 2) (I3 0 1 0) (I3 0 0 1) = Val true.
Proof. concrete. Qed.
Example C109_ex_small : at2 (-20) 1 0 (V2 (lit 1 1048576) (int64f 0)) /\ at2 (-20) 0 1 (V2 (int64f 0) (lit 1 1048576)) /\ isCollinear2 (V2 (lit 1 1048576) (int64f 0)) (V2 (int64f 0) (lit 1 1048576)) = true.
Proof. concrete. Qed.
Example C109_ex_biggest : point (I3 5 5 1) 5 5 1 /\ dbl (biggest (I3 5 5 1)) 1 /\ point (I3 5 7 1) 5 7 1 /\ dbl (biggest (I3 5 7 1)) 7.
Proof. concrete. Qed.
Print Assumptions C109_products2.
Print Assumptions C109_side.
Print Assumptions C109_collinear2.
Print Assumptions C109_collinear_refuted.
Print Assumptions C109_products3.
Print Assumptions C109_perpendicular.
Print Assumptions C109_collinear3.
Print Assumptions C109_length_exact.
Print Assumptions C109_length3_exact.
Print Assumptions C109_length.
Print Assumptions C109_length3.
Print Assumptions C109_normalized.
Print Assumptions C109_normalized3.
Print Assumptions C109_normalized_refuted.
Print Assumptions C109_equal.
Print Assumptions C109_equal3.
Print Assumptions C109_equal_near.
Print Assumptions C109_biggest.
Print Assumptions C109_biggest_refuted.
Print Assumptions C109_independent.
