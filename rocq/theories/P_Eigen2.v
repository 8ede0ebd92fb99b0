(** P_Eigen2.v -- C139: eigenvalues of a 3x3 matrix that is not diagonal. *)
From Coq Require Import Reals Lra Psatz QArith Qabs Qreals.
From Flocq Require Import Core BinarySingleNaN.
From Verif Require Import Base M_Float M_MathF M_Rect M_Matrix M_Geometry S_Double S_Matrix S_Transform L_Float L_Double L_MathF L_Decimal L_Matrix L_Matrix2 L_Matrix5 L_Geometry L_Transform P_Matrix P_Matrix3 P_Transform M_Eigen P_Eigen L_Pi.
Local Open Scope Z_scope.
(** x is a number within 2^(k-24) of z * 2^k *)
Definition about (k z : Z) (x : spec_float) : Prop := exists q, dbl x q /\ near (k - 24) q (inject_Z z * q2 k)%Q.
(** the function answers c, up to 2^-50, for x *)
Definition value_at (f : spec_float -> spec_float) (x : spec_float) (c : Q) : Prop := exists q, dbl (f x) q /\ near (-50) q c.
(** the eigenvalues of the matrix with n on the diagonal and s at all other places are n + 2s once and n - s twice: the characteristic polynomial is (n + 2s - x)(n - s - x)^2 *)
Definition equal3 (n s : Z) : Z -> Z -> Z := fun i j => if i =? j then n else s.
Lemma equal3_roots n s x : zdet 3 (equal3 (n - x) s) = (n + 2 * s - x) * (n - s - x) * (n - s - x).
Proof. rewrite zdet3. unfold equal3. cbn [Z.eqb Pos.eqb]. ring. Qed.
Lemma quot_at k c z x : at_ k (c * z) x -> 1 <= c <= 100 -> Z.abs z <= 2 ^ 53 -> -1000 <= k <= 900 -> at_ k z (div64 x (int64f c)).
Proof.
  intros H C Hz K. rewrite at_r in H |- *. assert (NZ : IZR c <> 0%R) by (apply not_0_IZR; lia). assert (E : (IZR (c * z) * bpow radix2 k / IZR c = IZR z * bpow radix2 k)%R) by (rewrite mult_IZR; field; exact NZ).
  pose proof (div64_r x (int64f c) _ (IZR c) (53 + k) ltac:(lia) H (int64_r c ltac:(lia)) NZ) as R. rewrite E in R. specialize (R (grid_big z k K Hz)). rewrite r64_fmt in R; [exact R|]. apply fmt_grid; lia.
Qed.
Lemma inv_at k x : at_ k 1 x -> -500 <= k <= 450 -> at_ (- k) 1 (div64 (int64f 1) x).
Proof.
  intros H K. rewrite at_r in H |- *. pose proof (bpow_gt_0 radix2 k) as P. assert (E : (1 / (IZR 1 * bpow radix2 k) = IZR 1 * bpow radix2 (- k))%R) by (rewrite bpow_opp; field; lra).
  pose proof (div64_r (int64f 1) x 1 _ (53 + - k) ltac:(lia) (int64_r 1 ltac:(lia)) H ltac:(lra)) as R. rewrite E in R. specialize (R (grid_big 1 (- k) ltac:(lia) ltac:(lia))). rewrite r64_fmt in R; [exact R|]. apply (fmt_grid 1); lia.
Qed.
Lemma root_at k x : at_ (k + k) 1 x -> -500 <= k <= 450 -> at_ k 1 (sqrt64 x).
Proof. intros H K. apply (sqrt_at k 1 x H); lia. Qed.
Lemma int_at z : Z.abs z <= 2 ^ 53 -> at_ 0 z (int64f z).
Proof. intros H. rewrite at_r. cbn [bpow]. rewrite Rmult_1_r. now apply int64_r. Qed.
(** the last lines: the eigenvalues from q, p and the angle *)
Section Last.
Variable k n : Z. Variable q p u v : spec_float. Variable a b : R. Variable l1 l3 : Z.
Hypothesis K : -250 <= k <= 225. Hypothesis N : - 2 ^ 24 <= n <= 2 ^ 24. Hypothesis Q : at_ k n q. Hypothesis P : at_ k 1 p.
Hypothesis U : app 1 (8 * uu) u a. Hypothesis V : app 1 (8 * uu) v b. Hypothesis A : (IZR n + 2 * a = IZR l1)%R. Hypothesis B : (IZR n + 2 * b = IZR l3)%R.
Let w := bpow radix2 k.
Let x1 := add64 q (mul64 (mul64 (int64f 2) p) u).
Let x3 := add64 q (mul64 (mul64 (int64f 2) p) v).
Let x2 := sub64 (sub64 (mul64 (int64f 3) q) x1) x3.
Lemma w_pos : (0 < w)%R. Proof. apply bpow_gt_0. Qed.
Lemma w_big : (w <= bpow radix2 225)%R. Proof. apply bpow_le. lia. Qed.
Lemma tiny : (tt_ <= uu * w)%R. Proof. unfold tt_, uu, w. rewrite <- bpow_plus. apply bpow_le. lia. Qed.
Lemma u_le : (0 < uu <= / 9007199254740992)%R. Proof. split; [apply uu_pos|]. rewrite uu_val. lra. Qed.
Lemma big_w c : (0 <= c <= 18446744073709551616)%R -> (c * w <= bpow radix2 1000)%R.
Proof. intros C. pose proof w_big. pose proof w_pos. apply Rle_trans with (bpow radix2 64 * bpow radix2 225)%R; [apply Rmult_le_compat; [lra|lra|change (bpow radix2 64) with 18446744073709551616%R; lra|lra]|]. rewrite <- bpow_plus. apply bpow_le. lia. Qed.
Lemma n_le : (Rabs (IZR n * w) <= 16777216 * w)%R.
Proof. pose proof w_pos. rewrite Rabs_mult, (Rabs_pos_eq w) by lra. apply Rmult_le_compat_r; [lra|]. rewrite <- abs_IZR. apply IZR_le. lia. Qed.
Lemma part c y : app 1 (8 * uu) y c -> app (16777218 * w) (33554432 * (uu * w)) (add64 q (mul64 (mul64 (int64f 2) p) y)) (IZR n * w + 2 * w * c).
Proof.
  intros Y. pose proof w_pos as W. pose proof u_le as H. pose proof tiny as T. assert (D : (0 < uu * w)%R) by (apply Rmult_lt_0_compat; lra). assert (D2 : (uu * (uu * w) <= uu * w / 1000000)%R) by nra.
  assert (A0 : app (16777216 * w) 0 q (IZR n * w)) by (apply app_0; [now apply at_r in Q|exact n_le]).
  assert (A1 : app (2 * w) 0 (mul64 (int64f 2) p) (2 * w)).
  { apply app_0; [|rewrite Rabs_pos_eq; lra]. pose proof (mul_at 0 k 2 1 _ _ (int_at 2 ltac:(lia)) P ltac:(lia) ltac:(lia)) as E. rewrite at_r in E. exact E. }
  assert (A2 : app (2 * w) (20 * (uu * w)) (mul64 (mul64 (int64f 2) p) y) (2 * w * c)).
  { apply (app_mul _ _ _ _ _ _ _ _ _ _ A1 Y); [lra| |].
    - replace (2 * w * (8 * uu) + 0 * 1 + 0 * (8 * uu) + uu * ((2 * w + 0) * (1 + 8 * uu)) + tt_)%R with (18 * (uu * w) + 16 * (uu * (uu * w)) + tt_)%R by ring. lra.
    - apply Rle_trans with (4 * w)%R; [nra|apply big_w; lra]. }
  apply (app_add _ _ _ _ _ _ _ _ _ _ A0 A2); [lra| |].
  - replace (0 + 20 * (uu * w) + uu * (16777216 * w + 2 * w + 0 + 20 * (uu * w)) + tt_)%R with (16777238 * (uu * w) + 20 * (uu * (uu * w)) + tt_)%R by ring. lra.
  - apply Rle_trans with (16777220 * w)%R; [nra|apply big_w; lra].
Qed.
Lemma to_about z x c : app c (536870912 * (uu * w)) x (IZR z * w) -> about k z x.
Proof.
  intros H. destruct (app_q _ _ _ _ H) as (r & D & E & _). exists r. split; [exact D|]. rewrite near_r, Q2R_mult, Q2R_Z, Q2R_q2. fold w. replace (bpow radix2 (k - 24)) with (536870912 * (uu * w))%R; [exact E|].
  unfold uu, w. change 536870912%R with (bpow radix2 29). rewrite <- !bpow_plus. f_equal. lia.
Qed.
Lemma last : about k l1 x1 /\ about k (3 * n - l1 - l3) x2 /\ about k l3 x3.
Proof.
  pose proof w_pos as W. pose proof u_le as H. pose proof tiny as T. assert (D : (0 < uu * w)%R) by (apply Rmult_lt_0_compat; lra). assert (D2 : (uu * (uu * w) <= uu * w / 1000000)%R) by nra.
  pose proof (part a u U) as R1. replace (IZR n * w + 2 * w * a)%R with (IZR l1 * w)%R in R1 by (rewrite <- A; ring). fold x1 in R1.
  pose proof (part b v V) as R3. replace (IZR n * w + 2 * w * b)%R with (IZR l3 * w)%R in R3 by (rewrite <- B; ring). fold x3 in R3.
  assert (R0 : app (50331648 * w) 0 (mul64 (int64f 3) q) (IZR (3 * n) * w)).
  { pose proof (mul_at 0 k 3 n _ _ (int_at 3 ltac:(lia)) Q ltac:(lia) ltac:(lia)) as E. rewrite at_r in E. apply app_0; [exact E|]. rewrite mult_IZR, Rmult_assoc, Rabs_mult, (Rabs_pos_eq 3) by lra. pose proof n_le. lra. }
  assert (R4 : app (67108866 * w) (134217728 * (uu * w)) (sub64 (mul64 (int64f 3) q) x1) (IZR (3 * n) * w - IZR l1 * w)).
  { apply (app_sub _ _ _ _ _ _ _ _ _ _ R0 R1); [lra| |].
    - replace (0 + 33554432 * (uu * w) + uu * (50331648 * w + 16777218 * w + 0 + 33554432 * (uu * w)) + tt_)%R with (100663298 * (uu * w) + 33554432 * (uu * (uu * w)) + tt_)%R by ring. lra.
    - apply Rle_trans with (67108870 * w)%R; [nra|apply big_w; lra]. }
  assert (R2 : app (83886084 * w) (536870912 * (uu * w)) x2 (IZR (3 * n) * w - IZR l1 * w - IZR l3 * w)).
  { apply (app_sub _ _ _ _ _ _ _ _ _ _ R4 R3); [lra| |].
    - replace (134217728 * (uu * w) + 33554432 * (uu * w) + uu * (67108866 * w + 16777218 * w + 134217728 * (uu * w) + 33554432 * (uu * w)) + tt_)%R with (251658244 * (uu * w) + 167772160 * (uu * (uu * w)) + tt_)%R by ring. lra.
    - apply Rle_trans with (83886100 * w)%R; [nra|apply big_w; lra]. }
  split; [|split].
  - apply (to_about _ _ (16777218 * w)%R). apply (app_le _ _ _ _ _ _ R1); lra.
  - apply (to_about _ _ (83886084 * w)%R). rewrite !minus_IZR. replace ((IZR (3 * n) - IZR l1 - IZR l3) * w)%R with (IZR (3 * n) * w - IZR l1 * w - IZR l3 * w)%R by ring. exact R2.
  - apply (to_about _ _ (16777218 * w)%R). apply (app_le _ _ _ _ _ _ R3); lra.
Qed.
End Last.
(** the angles pi/3 and 2pi/3 of the code *)
Definition phi3 : spec_float := div64 M_PI (int64f 3).
Definition step3 : spec_float := div64 M_2PI (int64f 3).
Lemma three_at : forall sq acos cos A k n s, holds A 3 3 k (equal3 n s) -> s = 1 \/ s = -1 -> - 2 ^ 24 <= n <= 2 ^ 24 -> -250 <= k <= 225 ->
  (forall j z x, at_ j z x -> Z.abs z <= 2 ^ 26 -> -250 <= j <= 225 -> at_ (j + j) (z * z) (sq x)) ->
  value_at cos zero 1 -> value_at cos phi3 (1 # 2) -> value_at cos (add64 zero step3) (-1 # 2) -> value_at cos (add64 phi3 step3) (-1 # 1) ->
  exists x1 x2 x3, eigen sq acos cos A = Val [x1; x2; x3] /\ (s = 1 -> about k (n + 2 * s) x1 /\ about k (n - s) x2 /\ about k (n - s) x3) /\ (s = -1 -> about k (n - s) x1 /\ about k (n - s) x2 /\ about k (n + 2 * s) x3).
Proof.
  intros sq acos cos A k n s H S N K SQ C0 C1 C2 C3. pose proof H as (e & He & G). pose proof He as (M & M' & _).
  assert (G' : forall i j z, 0 <= i < 3 -> 0 <= j < 3 -> equal3 n s i j = z -> at_ k z (e i j)) by (intros i j z Hi Hj <-; now apply G).
  assert (W : within 3 3 (equal3 n s) (2 ^ 24)) by (intros i j _ _; unfold equal3; destruct (i =? j); lia).
  destruct (C107_trace_exact A 3 3 k _ (2 ^ 24) H W ltac:(lia) ltac:(cbv; discriminate) ltac:(lia)) as (t & Et & At). change (Z.min 3 3) with 3 in At. rewrite zsum3 in At. unfold equal3 in At. cbn [Z.eqb Pos.eqb] in At.
  unfold eigen. rewrite M, M'. cbn [Z.eqb Pos.eqb negb]. unfold eigen3. rewrite !(shows_get A 3 3 e) by (exact He || lia). cbn [bind]. cbv zeta.
  assert (SS : s * s = 1) by (destruct S as [->| ->]; reflexivity).
  assert (S1 : forall i j, 0 <= i < 3 -> 0 <= j < 3 -> i <> j -> at_ (k + k) 1 (sq (e i j))). { intros i j Hi Hj D. rewrite <- SS. apply SQ; [|lia|lia]. apply G'; [lia..|]. unfold equal3. now rewrite (proj2 (Z.eqb_neq i j) D). }
  set (p1 := add64 (add64 (sq (e 0 1)) (sq (e 0 2))) (sq (e 1 2))).
  assert (P1 : at_ (k + k) 3 p1). { change 3 with (1 + 1 + 1). apply add_at; [apply add_at; [apply S1; lia|apply S1; lia|lia|lia]|apply S1; lia|lia|lia]. }
  assert (E0 : SFeqb p1 zero = false). { pose proof P1 as X. rewrite at_r in X. rewrite (eqb_r _ _ _ _ X zr). apply Req_bool_false. pose proof (bpow_gt_0 radix2 (k + k)). lra. }
  rewrite E0, Et. cbn [bind]. set (q := div64 t (int64f 3)).
  assert (Q : at_ k n q) by (apply quot_at; [replace (3 * n) with (n + n + n) by ring; exact At|lia..]).
  assert (S2 : forall i, 0 <= i < 3 -> at_ (k + k) 0 (sq (sub64 (e i i) q))).
  { intros i Hi. change 0 with (0 * 0). apply SQ; [|lia|lia]. replace 0 with (n - n) by lia. apply sub_at; [|exact Q|lia|lia]. apply G'; [lia..|]. unfold equal3. now rewrite Z.eqb_refl. }
  set (p2 := add64 (add64 (add64 (sq (sub64 (e 0 0) q)) (sq (sub64 (e 1 1) q))) (sq (sub64 (e 2 2) q))) (mul64 (int64f 2) p1)).
  assert (P2 : at_ (k + k) (6 * 1) p2). { change (6 * 1) with (0 + 0 + 0 + 2 * 3). apply add_at; [apply add_at; [apply add_at; [apply S2; lia|apply S2; lia|lia|lia]|apply S2; lia|lia|lia]| |lia|lia]. replace (k + k) with (0 + (k + k)) by lia. apply mul_at; [apply int_at; lia|exact P1|lia|lia]. }
  set (p := sqrt64 (div64 p2 (int64f 6))). assert (P : at_ k 1 p) by (apply root_at; [apply quot_at; [exact P2|lia..]|lia]).
  destruct (new_ok 3 3 ltac:(lia) ltac:(lia) ltac:(lia)) as (I0 & -> & HI). cbn [bind]. destruct (diag_ok I0 3 3 _ (int64f 1) HI) as (I1 & -> & HI1). cbn [bind]. unfold scale, minus.
  destruct (each_ok (mul64 q) I1 3 3 _ HI1) as (I2 & -> & HI2). cbn [bind]. destruct (pointwise_ok sub64 A I2 3 e _ He HI2) as (D & -> & HD). cbn [bind].
  destruct (each_ok (mul64 (div64 (int64f 1) p)) D 3 3 _ HD) as (B & -> & HB). cbn [bind].
  assert (GB : holds B 3 3 0 (equal3 0 s)).
  { eexists. split; [exact HB|]. intros i j Hi Hj. cbv beta. assert (X : at_ k (equal3 0 s i j) (sub64 (e i j) (mul64 q (if i =? j then int64f 1 else zero)))).
    - unfold equal3. destruct (Z.eqb_spec i j) as [->|Nij].
      + replace 0 with (n - n * 1) by ring. apply sub_at; [apply G'; [lia..|unfold equal3; now rewrite Z.eqb_refl]| |lia|lia]. replace k with (k + 0) by lia. apply mul_at; [exact Q|apply int_at; lia|lia|lia].
      + replace s with (s - n * 0) at 1 by ring. apply sub_at; [apply G'; [lia..|unfold equal3; now rewrite (proj2 (Z.eqb_neq i j) Nij)]| |lia|lia]. replace k with (k + 0) by lia. apply mul_at; [exact Q|apply zero_at|lia|lia].
    - replace 0 with (- k + k) at 1 by lia. replace (equal3 0 s i j) with (1 * equal3 0 s i j) by ring. apply mul_at; [apply inv_at; [exact P|lia]|exact X|lia|]. unfold equal3. destruct (i =? j); lia. }
  destruct (C104_det B 3 0 _ ltac:(lia) GB ltac:(intros i j _ _; unfold equal3; change (limit 3) with (2 ^ 16); destruct (i =? j); lia) ltac:(lia)) as (d & -> & Ad). cbn [bind]. change (Z.to_nat 3) with 3%nat in Ad.
  assert (CV : forall x c, value_at cos x c -> (Rabs (Q2R c) <= 1)%R -> app 1 (8 * uu) (cos x) (Q2R c)).
  { intros x c (r & Dr & Nr) L. rewrite near_r in Nr. exists (Q2R r). split; [now apply dbl_64|]. split; [|exact L]. replace (8 * uu)%R with (bpow radix2 (-50)); [exact Nr|]. unfold uu. change 8%R with (bpow radix2 3). rewrite <- bpow_plus. reflexivity. }
  assert (V0 : Q2R 1 = 1%R) by (unfold Q2R; cbn; lra). assert (V1 : Q2R (1 # 2) = (/ 2)%R) by (unfold Q2R; cbn; lra). assert (V2 : Q2R (-1 # 2) = (- / 2)%R) by (unfold Q2R; cbn; lra). assert (V3 : Q2R (-1 # 1) = (-1)%R) by (unfold Q2R; cbn; lra).
  apply CV in C0, C1, C2, C3; rewrite ?V0, ?V1, ?V2, ?V3 in *; try (rewrite Rabs_pos_eq by lra; lra); try (rewrite Rabs_left by lra; lra).
  assert (RD : at_ 0 s (div64 d (int64f 2))). { apply quot_at; [|lia..]. replace (2 * s) with (zdet 3 (equal3 0 s)); [exact Ad|]. rewrite zdet3. unfold equal3. cbn [Z.eqb Pos.eqb]. destruct S as [->| ->]; reflexivity. }
  rewrite at_r in RD. assert (M1 : is64 (int64f (-1)) (IZR (-1) * bpow radix2 0)) by (cbn [bpow]; rewrite Rmult_1_r; apply int64_r; lia). assert (M2 : is64 (int64f 1) (IZR 1 * bpow radix2 0)) by (cbn [bpow]; rewrite Rmult_1_r; apply int64_r; lia).
  rewrite (leb_grid 0 _ _ _ _ RD M1), (leb_grid 0 _ _ _ _ M2 RD). destruct S as [->| ->].
  - change (1 <=? -1) with false. change (1 <=? 1) with true. cbv iota. eexists _, _, _. split; [reflexivity|]. split; [intros _|discriminate]. fold step3.
    destruct (last k n q p (cos zero) (cos (add64 zero step3)) 1 (- / 2) (n + 2 * 1) (n - 1) K N Q P C0 C2 ltac:(rewrite plus_IZR; cbn; lra) ltac:(rewrite minus_IZR; lra)) as (L1 & L2 & L3).
    split; [exact L1|]. split; [|exact L3]. replace (3 * n - (n + 2 * 1) - (n - 1)) with (n - 1) in L2 by ring. exact L2.
  - change (-1 <=? -1) with true. cbv iota. eexists _, _, _. split; [reflexivity|]. split; [discriminate|intros _]. fold phi3 step3.
    destruct (last k n q p (cos phi3) (cos (add64 phi3 step3)) (/ 2) (-1) (n - -1) (n + 2 * -1) K N Q P C1 C3 ltac:(rewrite minus_IZR; lra) ltac:(rewrite plus_IZR; cbn; lra)) as (L1 & L2 & L3).
    split; [exact L1|]. split; [|exact L3]. replace (3 * n - (n - -1) - (n + 2 * -1)) with (n - -1) in L2 by ring. exact L2.
Qed.
(** a cosine of the C library: right up to 2^-52 for the doubles from 0 to 4, against the cosine of real numbers *)
Definition is_cosine (f : spec_float -> spec_float) : Prop := forall x q, dbl x q -> (0 <= q <= 4)%Q -> exists r, dbl (f x) r /\ (Rabs (Q2R r - Rtrigo_def.cos (Q2R q)) <= bpow radix2 (-52))%R.
(** a square of the C library: exact where the square of a short number (up to 26 bits) is a double *)
Definition is_square (f : spec_float -> spec_float) : Prop := forall j z x, at_ j z x -> Z.abs z <= 2 ^ 26 -> -250 <= j <= 225 -> at_ (j + j) (z * z) (f x).
Lemma value_of f x (q : Q) (a : R) c : is_cosine f -> dbl x q -> (0 <= q <= 4)%Q -> (Rabs (Q2R q - a) <= bpow radix2 (-51))%R -> Rtrigo_def.cos a = Q2R c -> value_at f x c.
Proof.
  intros F D L N E. destruct (F x q D L) as (r & Dr & Nr). exists r. split; [exact Dr|]. rewrite near_r, <- E. pose proof (cos_near (Q2R q) a) as Z.
  replace (Q2R r - Rtrigo_def.cos a)%R with ((Q2R r - Rtrigo_def.cos (Q2R q)) + (Rtrigo_def.cos (Q2R q) - Rtrigo_def.cos a))%R by ring. pose proof (Rabs_triang (Q2R r - Rtrigo_def.cos (Q2R q)) (Rtrigo_def.cos (Q2R q) - Rtrigo_def.cos a)) as T.
  change (-50) with (-51 + 1). change (-52) with (-51 + -1) in Nr. rewrite bpow_plus in *. change (bpow radix2 1) with 2%R. change (bpow radix2 (-1)) with (/ 2)%R in Nr. pose proof (bpow_gt_0 radix2 (-51)). lra.
Qed.
Lemma b51 : bpow radix2 (-51) = (/ 2251799813685248)%R. Proof. reflexivity. Qed.
(** 3x3: what the function answers for these matrices, on any grid 2^k, when s is a power of two and the diagonal is up to 2^24 times as large: s > 0 gives n + 2s, n - s, n - s and s < 0 gives n - s, n - s, n + 2s (the
    greatest first). The arc cosine may be anything: at the two ends of its domain it is not called. *)
Theorem C139_three : forall sq acos cos A k n s, is_square sq -> is_cosine cos -> holds A 3 3 k (equal3 n s) -> s = 1 \/ s = -1 -> - 2 ^ 24 <= n <= 2 ^ 24 -> -250 <= k <= 225 ->
  exists x1 x2 x3, eigen sq acos cos A = Val [x1; x2; x3] /\ (s = 1 -> about k (n + 2 * s) x1 /\ about k (n - s) x2 /\ about k (n - s) x3) /\ (s = -1 -> about k (n - s) x1 /\ about k (n - s) x2 /\ about k (n + 2 * s) x3).
Proof.
  intros sq acos cos A k n s SQ C H S N K. pose proof pi_low as PL. pose proof pi_high as PH. apply (three_at sq acos cos A k n s H S N K SQ).
  - apply (value_of cos zero 0 0 1 C); [split; reflexivity|split; discriminate| |].
    + rewrite RMicromega.Q2R_0, Rminus_diag_eq, Rabs_R0 by reflexivity. apply bpow_ge_0.
    + rewrite cos_0. unfold Q2R. cbn. lra.
  - apply (value_of cos phi3 (4716158501352293 # 4503599627370496) (PI / 3) _ C); [split; vm_compute; reflexivity|split; discriminate| |].
    + rewrite b51. unfold Q2R. cbn [Qnum Qden]. apply Rabs_le. lra.
    + rewrite cos_PI3. unfold Q2R. cbn. lra.
  - apply (value_of cos _ (4716158501352293 # 2251799813685248) (2 * (PI / 3)) _ C); [split; vm_compute; reflexivity|split; discriminate| |].
    + rewrite b51. unfold Q2R. cbn [Qnum Qden]. apply Rabs_le. lra.
    + rewrite cos_2PI3. unfold Q2R. cbn. lra.
  - apply (value_of cos _ (7074237752028440 # 2251799813685248) PI _ C); [split; vm_compute; reflexivity|split; discriminate| |].
    + rewrite b51. unfold Q2R. cbn [Qnum Qden]. apply Rabs_le. lra.
    + rewrite cos_PI. unfold Q2R. cbn. lra.
Qed.
Print Assumptions C139_three.
(** [[5, -1, -1], [-1, 5, -1], [-1, -1, 5]] has the eigenvalues 6, 6 and 3, and the same with 1 has 7, 4 and 4 *)
Definition cos_ (x : spec_float) : spec_float :=
  if SFleb x zero then int64f 1 else if SFltb x (int64f 2) then div64 (int64f 1) (int64f 2) else if SFltb x (int64f 3) then div64 (int64f (-1)) (int64f 2) else int64f (-1).
Definition m55 (s : Z) : mat := Mat 3 3 (map int64f [5; s; s; s; 5; s; s; s; 5]).
Example C139_three_ex : eigen sq_ sq_ cos_ (m55 (-1)) = Val [int64f 6; int64f 6; int64f 3] /\ eigen sq_ sq_ cos_ (m55 1) = Val [int64f 7; int64f 4; int64f 4].
Proof. split; vm_compute; reflexivity. Qed.
(** such matrices and such squares exist *)
Example C139_three_hyps : is_square sq_ /\ (forall s, s = 1 \/ s = -1 -> holds (m55 s) 3 3 0 (equal3 5 s)).
Proof.
  split.
  - intros j z x H Z J. unfold sq_. apply mul_at; [exact H|exact H|lia|]. rewrite <- Z.abs_square. assert (Z.abs z * Z.abs z <= 2 ^ 26 * 2 ^ 26) by (apply Z.mul_le_mono_nonneg; lia). lia.
  - intros s S. exists (fun i j => int64f (if i =? j then 5 else s)). split.
    + repeat (split; [cbn; lia|]). intros i j Hi Hj. assert (i = 0 \/ i = 1 \/ i = 2) as [->|[->| ->]] by lia; assert (j = 0 \/ j = 1 \/ j = 2) as [->|[->| ->]] by lia; destruct S as [->| ->]; vm_compute; reflexivity.
    + intros i j Hi Hj. unfold equal3. apply int_at. destruct (i =? j); lia.
Qed.
(** and a cosine of this precision exists: the multiple of 2^-53 that is nearest to the cosine of real numbers *)
Definition nearest_cos (x : spec_float) : spec_float := mul64 (int64f (ZnearestE (Rtrigo_def.cos (SF2R radix2 x) * bpow radix2 53))) (S754_finite false 4503599627370496 (-105)).
Example C139_three_cosine : is_cosine nearest_cos.
Proof.
  intros x q D _. assert (V : SF2R radix2 x = Q2R q). { destruct (dbl_64 _ _ D) as (b & <- & _ & E). rewrite <- E. apply SF2R_B2SF. }
  unfold nearest_cos. rewrite V. set (c := Rtrigo_def.cos (Q2R q)). pose proof (bpow_gt_0 radix2 53) as P. pose proof (COS_bound (Q2R q)) as CB. fold c in CB. set (m := ZnearestE (c * bpow radix2 53)).
  assert (H : (Rabs (IZR m - c * bpow radix2 53) <= / 2)%R) by (rewrite Rabs_minus_sym; apply Znearest_half).
  assert (M : Z.abs m <= 2 ^ 53). { assert (L : (Rabs (IZR m) < IZR (2 ^ 53 + 1))%R). { replace (IZR m) with ((IZR m - c * bpow radix2 53) + c * bpow radix2 53)%R by ring. eapply Rle_lt_trans; [apply Rabs_triang|]. rewrite Rabs_mult, (Rabs_pos_eq (bpow radix2 53)) by lra. assert (Rabs c <= 1)%R by (apply Rabs_le; lra). rewrite plus_IZR. change (IZR (2 ^ 53)) with (bpow radix2 53). nra. } rewrite <- abs_IZR in L. apply lt_IZR in L. lia. }
  assert (A : at_ (0 + -53) (m * 1) (mul64 (int64f m) (S754_finite false 4503599627370496 (-105)))). { apply mul_at; [now apply int_at| |lia|lia]. split; [reflexivity|]. vm_compute. reflexivity. }
  rewrite at_r in A. rewrite Z.mul_1_r in A. destruct (is_dbl _ _ A) as (r & Dr & Er). exists r. split; [exact Dr|]. rewrite Er.
  replace (IZR m * bpow radix2 (0 + -53) - c)%R with ((IZR m - c * bpow radix2 53) * bpow radix2 (-53))%R.
  - rewrite Rabs_mult, (Rabs_pos_eq (bpow radix2 (-53))) by apply bpow_ge_0. pose proof (bpow_gt_0 radix2 (-53)). change (-52) with (-53 + 1). rewrite bpow_plus. change (bpow radix2 1) with 2%R. nra.
  - replace (c * bpow radix2 53)%R with (c / bpow radix2 (-53))%R by (change 53 with (- -53); rewrite bpow_opp; reflexivity). pose proof (bpow_gt_0 radix2 (-53)). change (0 + -53) with (-53). field. lra.
Qed.
