(** L_Geometry2.v -- vertices of a grid: products, lengths, comparisons with 0. *)
From Coq Require Import Reals Lra Psatz QArith.
From Flocq Require Import Core.
From Verif Require Import Base M_Float M_MathF M_Rect M_Matrix M_Geometry S_Double S_Matrix S_Geometry L_Double L_MathF P_MathF L_Matrix L_Matrix2 L_Matrix4 L_Matrix5 L_Matrix6 L_Geometry.
Local Open Scope Z_scope.

Lemma f0_at k : at_ k 0 f0. Proof. apply at_r. rewrite Rmult_0_l. exact zero_r. Qed.
Lemma prod_bnd A B x y : - A <= x <= A -> - B <= y <= B -> - (A * B) <= x * y <= A * B.
Proof. nia. Qed.
(** comparison with 0 *)
Lemma equal0 k z x : at_ k z x -> -19 <= k <= 900 -> isEqual x f0 = (z =? 0).
Proof.
  intros X K. pose proof X as X'. apply at_r in X'. pose proof tol_20 as T. destruct (Z.eqb_spec z 0) as [->|N].
  - rewrite Rmult_0_l in X'. apply (near_equal _ _ _ _ X' zero_r). rewrite Rminus_0_r, Rabs_R0. assert (bpow radix2 (-72) <= bpow radix2 (-21))%R by (apply bpow_le; lia). lra.
  - destruct (isEqual x f0) eqn:E; [exfalso|reflexivity]. apply (equal_near _ _ _ _ X' zero_r) in E. rewrite Rminus_0_r, Rabs_mult, <- abs_IZR, (Rabs_pos_eq (bpow _ _)) in E by apply bpow_ge_0. assert (1 <= IZR (Z.abs z))%R by (apply IZR_le; lia). assert (bpow radix2 (-19) <= bpow radix2 k)%R by (apply bpow_le; lia). pose proof (bpow_gt_0 radix2 k). nra.
Qed.
Lemma equal0_small k z x : at_ k z x -> (Rabs (IZR z * bpow radix2 k) <= bpow radix2 (-20))%R -> isEqual x f0 = true.
Proof.
  intros X B. apply at_r in X. apply (near_equal _ _ _ _ X zero_r). rewrite Rminus_0_r. eapply Rle_trans; [exact B|]. pose proof tol_lo as T. assert (bpow radix2 (-20) <= 1 / 1000000 - 2 * bpow radix2 (-72))%R; [|lra].
  change (bpow radix2 (-20)) with (/ 1048576)%R. assert (bpow radix2 (-72) <= bpow radix2 (-30))%R by (apply bpow_le; lia). change (bpow radix2 (-30)) with (/ 1073741824)%R in H. lra.
Qed.
Lemma lt0 k z x : at_ k z x -> SFltb f0 x = (0 <? z) /\ SFltb x f0 = (z <? 0).
Proof. intros X. apply at_r in X. pose proof (f0_at k) as F. apply at_r in F. split; eapply ltb_grid; eassumption. Qed.
(** products *)
Lemma cross2_at k v w a b c d : at2 k a b v -> at2 k c d w -> box2 (2 ^ 26) a b -> box2 (2 ^ 26) c d -> -500 <= k <= 450 -> at_ (k + k) (a * d - b * c) (cross2 v w).
Proof.
  intros [A B] [C D] [Ba Bb] [Bc Bd] K. unfold cross2. pose proof (prod_bnd _ _ _ _ Ba Bd). pose proof (prod_bnd _ _ _ _ Bb Bc). apply sub_at; [apply mul_at; [assumption|assumption|lia|lia]|apply mul_at; [assumption|assumption|lia|lia]|lia|lia].
Qed.
Lemma dot2_at k v w a b c d : at2 k a b v -> at2 k c d w -> box2 (2 ^ 26) a b -> box2 (2 ^ 26) c d -> -500 <= k <= 450 -> at_ (k + k) (a * c + b * d) (dot2 v w).
Proof.
  intros [A B] [C D] [Ba Bb] [Bc Bd] K. unfold dot2. pose proof (prod_bnd _ _ _ _ Ba Bc). pose proof (prod_bnd _ _ _ _ Bb Bd). apply add_at; [apply mul_at; [assumption|assumption|lia|lia]|apply mul_at; [assumption|assumption|lia|lia]|lia|lia].
Qed.
Lemma side_at k v w a b c d : at2 k a b v -> at2 k c d w -> box2 (2 ^ 26) a b -> box2 (2 ^ 26) c d -> -500 <= k <= 450 -> at_ (k + k) (a * d - b * c) (add64 (mul64 (px w) (fneg (py v))) (mul64 (py w) (px v))).
Proof.
  intros [A B] [C D] [Ba Bb] [Bc Bd] K. pose proof (prod_bnd _ _ _ _ Ba Bd). pose proof (prod_bnd _ _ _ _ Bb Bc). replace (a * d - b * c) with (c * - b + d * a) by ring. apply add_at; [apply mul_at; [assumption|apply opp_at; assumption|lia|lia]|apply mul_at; [assumption|assumption|lia|lia]|lia|lia].
Qed.
Lemma dot3_at k l v w a b c d e f B C : at3 k a b c v -> at3 l d e f w -> box3 B a b c -> box3 C d e f -> 3 * (B * C) <= 2 ^ 53 -> -1000 <= k + l <= 900 -> at_ (k + l) (a * d + b * e + c * f) (dot3 v w).
Proof.
  intros (X & Y & Z0) (X' & Y' & Z') (B1 & B2 & B3) (C1 & C2 & C3) L K. pose proof (prod_bnd _ _ _ _ B1 C1). pose proof (prod_bnd _ _ _ _ B2 C2). pose proof (prod_bnd _ _ _ _ B3 C3). unfold dot3.
  apply add_at; [apply add_at; [apply mul_at; [assumption|assumption|lia|lia]|apply mul_at; [assumption|assumption|lia|lia]|lia|lia]|apply mul_at; [assumption|assumption|lia|lia]|lia|lia].
Qed.
Lemma cross3_at k l v w a b c d e f B C : at3 k a b c v -> at3 l d e f w -> box3 B a b c -> box3 C d e f -> 2 * (B * C) <= 2 ^ 53 -> -1000 <= k + l <= 900 -> at3 (k + l) (b * f - c * e) (c * d - a * f) (a * e - b * d) (cross3 v w).
Proof.
  intros (X & Y & Z0) (X' & Y' & Z') (B1 & B2 & B3) (C1 & C2 & C3) L K.
  pose proof (prod_bnd _ _ _ _ B1 C2). pose proof (prod_bnd _ _ _ _ B1 C3). pose proof (prod_bnd _ _ _ _ B2 C1). pose proof (prod_bnd _ _ _ _ B2 C3). pose proof (prod_bnd _ _ _ _ B3 C1). pose proof (prod_bnd _ _ _ _ B3 C2).
  unfold at3, cross3. cbn [vx vy vz]. split; [|split]; (apply sub_at; [apply mul_at; [assumption|assumption|lia|lia]|apply mul_at; [assumption|assumption|lia|lia]|lia|lia]).
Qed.
Lemma cross3_box a b c d e f B C : box3 B a b c -> box3 C d e f -> box3 (2 * (B * C)) (b * f - c * e) (c * d - a * f) (a * e - b * d).
Proof.
  intros (B1 & B2 & B3) (C1 & C2 & C3). pose proof (prod_bnd _ _ _ _ B1 C2). pose proof (prod_bnd _ _ _ _ B1 C3). pose proof (prod_bnd _ _ _ _ B2 C1). pose proof (prod_bnd _ _ _ _ B2 C3). pose proof (prod_bnd _ _ _ _ B3 C1). pose proof (prod_bnd _ _ _ _ B3 C2). unfold box3. lia.
Qed.
(** squares and lengths *)
Lemma abs2_r k v a b : at2 k a b v -> box2 (2 ^ 26) a b -> -500 <= k <= 450 -> is64 (abs2 v) (r64 (R_sqrt.sqrt (IZR (a * a + b * b)) * bpow radix2 k)).
Proof.
  intros V B K. pose proof (dot2_at k v v a b a b V V B B K) as D. unfold abs2. apply at_r in D. assert (P : (0 <= IZR (a * a + b * b))%R) by (apply (IZR_le 0); nia). rewrite <- sqrt_scale by exact P. apply sqrt_r; [exact D|]. apply Rmult_le_pos; [exact P|apply bpow_ge_0].
Qed.
Lemma abs3_r k v a b c B : at3 k a b c v -> box3 B a b c -> 3 * (B * B) <= 2 ^ 53 -> -500 <= k <= 450 -> is64 (abs3 v) (r64 (R_sqrt.sqrt (IZR (a * a + b * b + c * c)) * bpow radix2 k)).
Proof.
  intros V B' L K. pose proof (dot3_at k k v v a b c a b c B B V V B' B' L ltac:(lia)) as D. unfold abs3. apply at_r in D. assert (P : (0 <= IZR (a * a + b * b + c * c))%R) by (apply (IZR_le 0); nia). rewrite <- sqrt_scale by exact P. apply sqrt_r; [exact D|]. apply Rmult_le_pos; [exact P|apply bpow_ge_0].
Qed.
(** a length that is 0 only for 0 *)
Lemma root_zero x k n : is64 x (r64 (R_sqrt.sqrt (IZR n) * bpow radix2 k)) -> 0 <= n <= 2 ^ 53 -> -19 <= k <= 450 -> isEqual x f0 = (n =? 0).
Proof.
  intros X N K. pose proof tol_20 as T. destruct (Z.eqb_spec n 0) as [->|N0].
  - rewrite sqrt_0, Rmult_0_l, r64_0 in X. apply (near_equal _ _ _ _ X zero_r). rewrite Rminus_0_r, Rabs_R0. assert (bpow radix2 (-72) <= bpow radix2 (-21))%R by (apply bpow_le; lia). lra.
  - destruct (isEqual x f0) eqn:E; [exfalso|reflexivity]. apply (equal_near _ _ _ _ X zero_r) in E. pose proof (sqrt_ge1 n ltac:(lia)) as S1. pose proof (bpow_gt_0 radix2 k) as P. assert (L : (bpow radix2 k <= r64 (R_sqrt.sqrt (IZR n) * bpow radix2 k))%R). { apply rnd_ge_r; [pose proof (fmt_grid 1 k ltac:(lia) ltac:(lia)) as F; rewrite Rmult_1_l in F; exact F|nra]. }
    rewrite Rminus_0_r, Rabs_pos_eq in E by lra. assert (bpow radix2 (-19) <= bpow radix2 k)%R by (apply bpow_le; lia). lra.
Qed.
(** a component of the unit vector *)
Lemma root_rel x k n : is64 x (r64 (R_sqrt.sqrt (IZR n) * bpow radix2 k)) -> 1 <= n -> -500 <= k <= 450 -> exists d, (Rabs d <= bpow radix2 (-53))%R /\ is64 x (R_sqrt.sqrt (IZR n) * bpow radix2 k * (1 + d)).
Proof.
  intros X N K. destruct (rel64 (R_sqrt.sqrt (IZR n) * bpow radix2 k)) as (d & D & R).
  - rewrite Rabs_pos_eq by (apply Rmult_le_pos; [apply sqrt_pos|apply bpow_ge_0]). apply Rle_trans with (1 * bpow radix2 k)%R; [rewrite Rmult_1_l; apply bpow_le; lia|]. apply Rmult_le_compat_r; [apply bpow_ge_0|]. apply sqrt_ge1. lia.
  - exists d. split; [exact D|]. now rewrite <- R.
Qed.
Lemma three_errs d e f : (Rabs d <= bpow radix2 (-53))%R -> (Rabs e <= bpow radix2 (-53))%R -> (Rabs f <= bpow radix2 (-53))%R -> let m := (/ (1 + d) * (1 + e) * (1 + f))%R in (0 < m)%R /\ (Rabs (m - 1) <= bpow radix2 (-51))%R /\ (Rabs (m * m - 1) <= bpow radix2 (-49))%R.
Proof.
  intros H1 H2 H3. cbv zeta. replace (bpow radix2 (-49)) with (16 * bpow radix2 (-53))%R by (change (-49) with (4 + -53); rewrite bpow_plus; change (bpow radix2 4) with 16%R; reflexivity). replace (bpow radix2 (-51)) with (4 * bpow radix2 (-53))%R by (change (-51) with (2 + -53); rewrite bpow_plus; change (bpow radix2 2) with 4%R; reflexivity).
  assert (B : (0 < bpow radix2 (-53) < / 1000)%R). { split; [apply bpow_gt_0|]. apply Rlt_trans with (bpow radix2 (-10)); [apply bpow_lt; lia|]. change (bpow radix2 (-10)) with (/ 1024)%R. lra. } set (u := bpow radix2 (-53)) in *. clearbody u. apply Rabs_le_inv in H1, H2, H3.
  set (w := (/ (1 + d))%R). assert (W : (w * (1 + d) = 1)%R) by (unfold w; field; lra). assert (Wb : (1 - 1.01 * u <= w <= 1 + 1.01 * u)%R) by (split; nra). assert (P : (1 - 2.1 * u <= w * (1 + e) <= 1 + 2.1 * u)%R) by (split; nra). set (m := (w * (1 + e))%R) in *. assert (P2 : (1 - 3.2 * u <= m * (1 + f) <= 1 + 3.2 * u)%R) by (split; nra). set (mm := (m * (1 + f))%R) in *. clearbody mm.
  split; [lra|]. split; apply Rabs_le; [lra|nra].
Qed.
Lemma unit_r k n a L x : is64 L (r64 (R_sqrt.sqrt (IZR n) * bpow radix2 k)) -> 1 <= n <= 2 ^ 53 -> a * a <= n -> at_ k a x -> -500 <= k <= 450 ->
  exists m, (0 < m)%R /\ (Rabs (m - 1) <= bpow radix2 (-51))%R /\ (Rabs (m * m - 1) <= bpow radix2 (-49))%R /\ is64 (mul64 (div64 f1 L) x) (IZR a / R_sqrt.sqrt (IZR n) * m).
Proof.
  intros HL N A X K. destruct (root_rel _ _ _ HL ltac:(lia) K) as (d & D & Ld). set (r := R_sqrt.sqrt (IZR n)) in *. apply at_r in X. pose proof (sqrt_ge1 n ltac:(lia)) as R1. fold r in R1. assert (Rs : (r * r = IZR n)%R) by (apply sqrt_sqrt; apply (IZR_le 0); lia). pose proof (bpow_gt_0 radix2 k) as Bk.
  assert (R27 : (r <= bpow radix2 27)%R). { assert (r * r <= bpow radix2 27 * bpow radix2 27)%R; [|pose proof (bpow_gt_0 radix2 27); nra]. rewrite Rs. change (bpow radix2 27) with (IZR (2 ^ 27)). rewrite <- mult_IZR. apply IZR_le. lia. }
  assert (B53 : (0 < bpow radix2 (-53) < / 2)%R). { split; [apply bpow_gt_0|]. change (/ 2)%R with (bpow radix2 (-1)). apply bpow_lt. lia. } pose proof D as D'. apply Rabs_le_inv in D'. assert (P1 : (/ 2 < 1 + d < 2)%R) by lra.
  set (lr := (r * bpow radix2 k * (1 + d))%R) in *. assert (Lr : (bpow radix2 (k - 1) <= lr <= bpow radix2 (k + 28))%R).
  { unfold lr. split.
    - replace (k - 1) with (k + -1) by lia. rewrite bpow_plus. change (bpow radix2 (-1)) with (/ 2)%R. assert (bpow radix2 k <= r * bpow radix2 k)%R by nra. apply Rmult_le_compat; lra.
    - replace (k + 28) with (27 + k + 1) by lia. rewrite !bpow_plus. change (bpow radix2 1) with 2%R. apply Rmult_le_compat; [nra|lra| |lra]. apply Rmult_le_compat; lra. }
  pose proof (bpow_gt_0 radix2 (k - 1)). assert (I1 : (bpow radix2 (- (k + 28)) <= / lr <= bpow radix2 (- (k - 1)))%R). { rewrite !bpow_opp. split; apply Rinv_le_contravar; lra. }
  pose proof (bpow_gt_0 radix2 (- (k + 28))). assert (I2 : is64 (div64 f1 L) (r64 (1 / lr))). { apply (div64_r _ _ _ _ (- (k - 1)) ltac:(lia) one_r Ld); [lra|]. unfold Rdiv. rewrite Rmult_1_l, Rabs_pos_eq; lra. }
  destruct (rel64 (1 / lr)) as (e & E & Re). { unfold Rdiv. rewrite Rmult_1_l, Rabs_pos_eq by lra. eapply Rle_trans; [|apply I1]. apply bpow_le. lia. } rewrite Re in I2.
  pose proof E as E'. apply Rabs_le_inv in E'. assert (Eq : (1 / lr * (1 + e) * (IZR a * bpow radix2 k) = IZR a / r * (/ (1 + d) * (1 + e)))%R) by (unfold lr; field; repeat split; lra).
  assert (A27 : (Rabs (IZR a) <= r)%R). { assert (Rabs (IZR a) * Rabs (IZR a) <= r * r)%R by (rewrite Rs, <- Rabs_mult, <- mult_IZR, Rabs_pos_eq by (apply (IZR_le 0); nia); apply IZR_le; exact A). pose proof (Rabs_pos (IZR a)). nra. }
  assert (Q1 : (Rabs (IZR a / r) <= 1)%R). { unfold Rdiv. rewrite Rabs_mult, (Rabs_pos_eq (/ r)) by (apply Rlt_le, Rinv_0_lt_compat; lra). apply Rmult_le_reg_r with r; [lra|]. rewrite Rmult_assoc, Rinv_l by lra. lra. }
  assert (W : (0 < / (1 + d) * (1 + e) <= 4)%R). { split; [apply Rmult_lt_0_compat; [apply Rinv_0_lt_compat; lra|lra]|]. apply Rle_trans with (2 * 2)%R; [|lra]. apply Rmult_le_compat; [apply Rlt_le, Rinv_0_lt_compat; lra|lra| |lra]. replace 2%R with (/ / 2)%R by lra. apply Rinv_le_contravar; lra. }
  pose proof (mul64_r _ _ _ _ 2 ltac:(lia) I2 X) as M. rewrite Eq in M. specialize (M ltac:(rewrite Rabs_mult, (Rabs_pos_eq (/ (1 + d) * (1 + e))) by lra; replace (bpow radix2 2) with (1 * 4)%R by (change (bpow radix2 2) with 4%R; lra); apply Rmult_le_compat; [apply Rabs_pos|lra|exact Q1|lra])).
  destruct (Z.eq_dec a 0) as [->|A0].
  - exists 1%R. split; [lra|]. replace (1 - 1)%R with 0%R by ring. replace (1 * 1 - 1)%R with 0%R by ring. rewrite Rabs_R0. split; [apply bpow_ge_0|]. split; [apply bpow_ge_0|]. unfold Rdiv in *. rewrite !Rmult_0_l in *. now rewrite r64_0 in M.
  - destruct (rel64 (IZR a / r * (/ (1 + d) * (1 + e)))) as (f & F & Rf).
    { rewrite Rabs_mult, (Rabs_pos_eq (/ (1 + d) * (1 + e))) by lra. apply Rle_trans with (bpow radix2 (-27) * / 4)%R; [change (/ 4)%R with (bpow radix2 (-2)); rewrite <- bpow_plus; apply bpow_le; lia|]. apply Rmult_le_compat; [apply bpow_ge_0|lra| |].
      - unfold Rdiv. rewrite Rabs_mult, (Rabs_pos_eq (/ r)) by (apply Rlt_le, Rinv_0_lt_compat; lra). rewrite <- (Rmult_1_l (bpow radix2 (-27))). apply Rmult_le_compat; [lra|apply bpow_ge_0|rewrite <- abs_IZR; apply IZR_le; lia|]. change (-27) with (- (27)). rewrite bpow_opp. apply Rinv_le_contravar; lra.
      - replace (/ 4)%R with (/ 2 * / 2)%R by lra. apply Rmult_le_compat; [lra|lra| |lra]. apply Rinv_le_contravar; lra. }
    destruct (three_errs d e f D E F) as (M0 & M1 & M2). eexists. split; [exact M0|]. split; [exact M1|]. split; [exact M2|]. rewrite Rf in M. match goal with |- is64 _ ?u => match type of M with is64 _ ?v => replace u with v; [exact M|ring] end end.
Qed.
(** a determinant of nine numbers, column by column *)
Definition zd3 (a b c d e f g h i : Z) : Z := a * (e * i - f * h) - b * (d * i - f * g) + c * (d * h - e * g).
Lemma det9 k x1 x2 x3 x4 x5 x6 x7 x8 x9 a b c d e f g h i B : at_ k a x1 -> at_ k b x2 -> at_ k c x3 -> at_ k d x4 -> at_ k e x5 -> at_ k f x6 -> at_ k g x7 -> at_ k h x8 -> at_ k i x9 ->
  box3 B a b c -> box3 B d e f -> box3 B g h i -> B <= 2 ^ 16 -> -250 <= k <= 225 ->
  exists x, det (Mat 3 3 [x1; x2; x3; x4; x5; x6; x7; x8; x9]) = Val (Some x) /\ at_ (k * 3) (zd3 a b c d e f g h i) x.
Proof.
  intros U1 U2 U3 V1 V2 V3' W1 W2 W3 (Bu1 & Bu2 & Bu3) (Bv1 & Bv2 & Bv3) (Bw1 & Bw2 & Bw3) HB K.
  set (l := [x1; x2; x3; x4; x5; x6; x7; x8; x9]). set (zl := [a; b; c; d; e; f; g; h; i]). pose proof (shows_list 3 l ltac:(lia) eq_refl) as Sh. set (ff := fun r c => nth (Z.to_nat (r + c * 3)) zl 0).
  assert (C : forall r c, 0 <= r < 3 -> 0 <= c < 3 -> at_ k (ff r c) (nth (Z.to_nat (r + c * 3)) l zero) /\ - B <= ff r c <= B).
  { intros r0 c0 H1 H2. unfold ff. assert (Hr : r0 = 0 \/ r0 = 1 \/ r0 = 2) by lia. assert (Hc : c0 = 0 \/ c0 = 1 \/ c0 = 2) by lia. destruct Hr as [->|[->| ->]]; destruct Hc as [->|[->| ->]]; (split; [assumption|assumption]). }
  destruct (det3 (Mat 3 3 l) _ ff k Sh) as (x & E & X & _). { intros; apply C; assumption. } { intros r0 c0 H1 H2. destruct (C r0 c0 H1 H2) as [_ H3]. change (limit 3) with (2 ^ 16). lia. } { lia. }
  exists x. split; [exact E|]. rewrite zdet3 in X. unfold zd3. change (ff 0 0) with a in X. change (ff 1 0) with b in X. change (ff 2 0) with c in X. change (ff 0 1) with d in X. change (ff 1 1) with e in X. change (ff 2 1) with f in X. change (ff 0 2) with g in X. change (ff 1 2) with h in X. change (ff 2 2) with i in X.
  match type of X with at_ _ ?z _ => replace (a * (e * i - f * h) - b * (d * i - f * g) + c * (d * h - e * g)) with z by ring end. exact X.
Qed.
