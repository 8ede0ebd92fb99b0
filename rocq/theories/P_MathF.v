(** P_MathF.v -- C92-C95: the functions of Math.cpp on doubles, swap, random, machine epsilon. *)
From Coq Require Import Reals Lra ZArith QArith Qabs Qpower Qreals.
From Flocq Require Import Core BinarySingleNaN.
From Coq Require Import SpecFloat.
From Verif Require Import Base M_Float M_MathF L_Float S_Double L_Double L_MathF.
Local Open Scope Z_scope.
Ltac Zify.zify_post_hook ::= Z.to_euclidean_division_equations.

(** * C92: comparison with tolerance *)
Lemma Q2R_abs q : Q2R (Qabs q) = Rabs (Q2R q).
Proof. destruct q as [n d]. unfold Q2R, Qabs. cbn [Qnum Qden]. rewrite abs_IZR, Rabs_mult. f_equal. rewrite Rabs_pos_eq; [reflexivity|]. left. apply Rinv_0_lt_compat. apply IZR_lt. lia. Qed.
Ltac q2r := repeat (rewrite ?Q2R_abs, ?Q2R_minus, ?Q2R_plus, ?Q2R_mult, ?Q2R_opp, ?Q2R_Z, ?Q2R_q2 in * ).
Lemma Q2R_u : Q2R (1 # 1000000) = (1 / 1000000)%R.
Proof. unfold Q2R. cbn. lra. Qed.
Theorem C92_equal : forall x y a b, dbl x a -> dbl y b ->
  (isEqual x y = true -> (Qabs (a - b) < 1 # 1000000)%Q) /\ ((Qabs (a - b) <= (1 # 1000000) - q2 (-71))%Q -> isEqual x y = true).
Proof.
  intros x y a b X Y. apply dbl_r in X. apply dbl_r in Y. pose proof tol_lo as T. split.
  - intros H. apply (equal_near _ _ _ _ X Y) in H. apply Rlt_Qlt. q2r. rewrite Q2R_u. lra.
  - intros H. apply Qle_Rle in H. q2r. rewrite Q2R_u in H. apply (near_equal _ _ _ _ X Y). replace (bpow radix2 (-71)) with (2 * bpow radix2 (-72))%R in H by (change (-71) with (1 + -72); rewrite bpow_plus; reflexivity). lra.
Qed.
Print Assumptions C92_equal.
Theorem C92_symmetric : forall x y, isEqual x y = isEqual y x.
Proof. exact equal_sym. Qed.
Print Assumptions C92_symmetric.
Lemma leb_ltb x y : x <> S754_nan -> y <> S754_nan -> SFleb y x = negb (SFltb x y).
Proof.
  intros X Y. unfold SFleb, SFltb. destruct x as [sx|sx| |sx mx ex], y as [sy|sy| |sy my ey]; try congruence; cbn; try reflexivity; try (destruct sx; reflexivity); try (destruct sy; reflexivity); try (destruct sx, sy; reflexivity).
  destruct sx, sy; cbn; try reflexivity; rewrite (Z.compare_antisym ey ex); destruct (ey ?= ex); cbn; try reflexivity; change (Pos.compare_cont Eq mx my) with (mx ?= my)%positive; change (Pos.compare_cont Eq my mx) with (my ?= mx)%positive; rewrite (Pos.compare_antisym my mx); destruct (my ?= mx)%positive; reflexivity.
Qed.
Lemma norm_nan m e : SpecFloat.binary_normalize 53 1024 m e false <> S754_nan.
Proof. rewrite (normalize_equiv 53 1024 p53 e1024). destruct (Z.eq_dec m 0) as [->|N]; [cbn; discriminate|]. pose proof (binary_normalize_correct 53 1024 p53 e1024 mode_NE m e false) as C. destruct (BinarySingleNaN.binary_normalize 53 1024 p53 e1024 mode_NE m e false) eqn:E; cbn [B2SF]; try discriminate. exfalso. cbv zeta in C. match type of C with (if ?t then _ else _) => destruct t end; [destruct C as (_ & C & _); discriminate|]. unfold binary_overflow in C. cbn [overflow_to_inf B2SF] in C. discriminate. Qed.
Lemma add_nan x : x <> S754_nan -> add64 x RESABS <> S754_nan.
Proof. intros H. rewrite RESABS_val. unfold add64. destruct x; try congruence; cbn [SFadd]; try discriminate. apply norm_nan. Qed.
(** the six functions fit together *)
Theorem C92_consistent : forall x y, isNotEqual x y = negb (isEqual x y) /\ isGreater x y = isLess y x /\ (x <> S754_nan -> y <> S754_nan -> isLessEqual x y = negb (isGreater x y)).
Proof. intros x y. split; [reflexivity|]. split; [reflexivity|]. intros X Y. unfold isLessEqual, isGreater. rewrite leb_ltb, negb_involutive; [reflexivity|exact X|now apply add_nan]. Qed.
Print Assumptions C92_consistent.
(** order, up to 2^24: less means less by 1E-6 *)
Theorem C92_order : forall x y a b, dbl x a -> dbl y b -> (Qabs a <= q2 24)%Q -> (Qabs b <= q2 24)%Q ->
  (isLess x y = true -> (a + (1 # 1000000) <= b + q2 (-28))%Q) /\ ((a + (1 # 1000000) + q2 (-28) <= b)%Q -> isLess x y = true) /\
  (isGreaterEqual x y = true -> (b <= a + (1 # 1000000) + q2 (-28))%Q) /\ ((b + q2 (-28) <= a + (1 # 1000000))%Q -> isGreaterEqual x y = true).
Proof.
  intros x y a b X Y A B. apply dbl_r in X. apply dbl_r in Y. apply Qle_Rle in A. apply Qle_Rle in B. q2r. pose proof tol_lo as T. pose proof tol_20 as T2.
  assert (E28 : bpow radix2 (-28) = (2 * bpow radix2 (-29))%R) by (change (-28) with (1 + -29); rewrite bpow_plus; reflexivity). assert (E72 : (bpow radix2 (-72) < bpow radix2 (-29))%R) by (apply bpow_lt; lia). pose proof (bpow_gt_0 radix2 (-72)). pose proof (bpow_gt_0 radix2 (-29)).
  assert (T3 : (Rabs tol <= bpow radix2 24)%R) by (rewrite Rabs_pos_eq; [|pose proof (bpow_gt_0 radix2 (-21)); lra]; apply Rlt_le, Rlt_trans with (1 := proj2 T2); apply bpow_lt; lia).
  destruct (two_abs (Q2R a) tol 24 A T3) as [_ S1]. destruct (two_abs (Q2R b) tol 24 B T3) as [S2 _]. pose proof (add64_r _ _ _ _ 25 ltac:(lia) X RESABS_r S1) as U1. pose proof (sub64_r _ _ _ _ 25 ltac:(lia) Y RESABS_r S2) as U2.
  apply (r64_err _ 25 ltac:(lia)) in S1. apply (r64_err _ 25 ltac:(lia)) in S2. change (25 - 54) with (-29) in *. apply Rabs_le_inv in S1. apply Rabs_le_inv in S2.
  unfold isLess, isGreaterEqual. rewrite (leb_r _ _ _ _ U1 Y), (ltb64 _ _ _ _ U2 X). repeat split.
  - intros G. apply Rleb_inv in G. apply Rle_Qle. q2r. rewrite Q2R_u. lra.
  - intros G. apply Qle_Rle in G. q2r. rewrite Q2R_u in G. apply Rle_bool_true. lra.
  - intros G. apply Rltb_inv in G. apply Rle_Qle. q2r. rewrite Q2R_u. lra.
  - intros G. apply Qle_Rle in G. q2r. rewrite Q2R_u in G. apply Rlt_bool_true. lra.
Qed.
Print Assumptions C92_order.
(** from 2^35 = 3.4E10 on the tolerance is lost: every number is less than itself and greater than itself, and not less or equal to itself *)
Theorem C92_large_refuted : forall x a, dbl x a -> (q2 35 <= Qabs a)%Q -> (Qabs a <= q2 1000)%Q ->
  isEqual x x = true /\ isLess x x = true /\ isGreater x x = true /\ isLessEqual x x = false /\ isGreaterEqual x x = false.
Proof.
  intros x a X A B. apply dbl_r in X. apply Qle_Rle in A. apply Qle_Rle in B. q2r. pose proof tol_20 as T. pose proof (bpow_gt_0 radix2 (-21)) as T0. pose proof (bpow_gt_0 radix2 1000) as P1000. assert (T3 : (Rabs tol < bpow radix2 (-19))%R) by (rewrite Rabs_pos_eq; lra).
  assert (T4 : (Rabs tol <= bpow radix2 1000)%R) by (apply Rlt_le, Rlt_trans with (1 := T3); apply bpow_lt; lia). destruct (two_abs _ _ 1000 B T4) as [S2 S1].
  pose proof (add64_r _ _ _ _ 1001 ltac:(lia) X RESABS_r S1) as U1. pose proof (sub64_r _ _ _ _ 1001 ltac:(lia) X RESABS_r S2) as U2. pose proof (fmt64 _ _ X) as G.
  rewrite absorb in U1 by assumption. unfold Rminus in U2. rewrite absorb in U2 by (assumption || now rewrite Rabs_Ropp).
  unfold isLess, isGreater, isLessEqual, isGreaterEqual. rewrite (leb_r _ _ _ _ U1 X), (ltb64 _ _ _ _ X U1), (ltb64 _ _ _ _ U2 X), Rle_bool_true, Rlt_bool_false by lra. split; [|auto].
  apply (near_equal _ _ _ _ X X). rewrite Rminus_diag_eq, Rabs_R0 by reflexivity. unfold tolq, Q2R. cbn. lra.
Qed.
Print Assumptions C92_large_refuted.
(** not transitive; an infinite number is not equal to itself *)
Theorem C92_transitive_refuted : exists x y z, isEqual x y = true /\ isEqual y z = true /\ isEqual x z = false.
Proof. exists (int64f 0), (lit 6 10000000), (lit 12 10000000). vm_compute. auto. Qed.
Print Assumptions C92_transitive_refuted.
Theorem C92_infinite_refuted : forall s, isEqual (S754_infinity s) (S754_infinity s) = false.
Proof. intros []; reflexivity. Qed.
Print Assumptions C92_infinite_refuted.
Example C92_example : isEqual (lit 1 10) (lit 1000000001 10000000000) = true /\ isLess (int64f 1) (lit 100001 100000) = true /\ dbl (int64f (2 ^ 36)) (inject_Z (2 ^ 36)).
Proof. split; [vm_compute; reflexivity|]. split; [vm_compute; reflexivity|]. split; vm_compute; reflexivity. Qed.

(** * C93: round *)
(** to the nearest integer, halves away from zero *)
Theorem C93_round : forall x a, dbl x a -> (Qabs a < q2 52)%Q -> ~ (Qabs a == (1 # 2) - q2 (-54))%Q ->
  exists z, jm_round x = Val z /\ (Qabs (inject_Z z - a) <= 1 # 2)%Q /\ ((Qabs (inject_Z z - a) == 1 # 2)%Q -> (Qabs a < Qabs (inject_Z z))%Q).
Proof.
  intros x a X A N. apply dbl_r in X. apply Qlt_Rlt in A. q2r. assert (E12 : Q2R (1 # 2) = (/ 2)%R) by (unfold Q2R; cbn; lra).
  destruct (round_near _ _ X A) as (z & Z1 & Z2 & Z3 & _). { intros E. apply N. apply eqR_Qeq. q2r. now rewrite E12. }
  exists z. split; [exact Z1|]. split; [apply Rle_Qle; q2r; now rewrite E12|]. intros E. apply Qeq_eqR in E. q2r. rewrite E12 in E. apply Rlt_Qlt. q2r. auto.
Qed.
Print Assumptions C93_round.
(** the two doubles next to 1/2 and -1/2 become 1 and -1 *)
Theorem C93_half_refuted : exists x, dbl x ((1 # 2) - q2 (-54)) /\ jm_round x = Val 1 /\ jm_round (SFopp x) = Val (-1).
Proof. exists (S754_finite false (2 ^ 53 - 1) (-54)). split; [split; vm_compute; reflexivity|]. split; vm_compute; reflexivity. Qed.
Print Assumptions C93_half_refuted.
(** and odd integers between 2^52 and 2^53 are not kept; beyond all integers are kept, as far as int64 goes *)
Lemma int_q x n : dbl x (inject_Z n) -> is64 x (IZR n).
Proof. intros H. apply dbl_r in H. now rewrite Q2R_Z in H. Qed.
Theorem C93_integer_refuted : forall x n, dbl x (inject_Z n) -> 2 ^ 52 < n < 2 ^ 53 -> jm_round x = Val (if Z.even n then n else n + 1).
Proof.
  intros x n X N. apply int_q in X. assert (0 < IZR n)%R by (apply (IZR_lt 0); lia). assert (IZR n <= bpow radix2 1000)%R by (apply Rle_trans with (bpow radix2 53); [change (bpow radix2 53) with (IZR (2 ^ 53)); apply IZR_le; lia|apply bpow_le; lia]). rewrite (round_pos _ _ X) by assumption.
  rewrite half_odd by lia. rewrite Zfloor_IZR. apply chk64_small. destruct (Z.even n); lia.
Qed.
Print Assumptions C93_integer_refuted.
Theorem C93_large : forall x a, dbl x a -> (q2 53 <= Qabs a)%Q -> (Qabs a <= q2 1000)%Q ->
  exists n, (a == inject_Z n)%Q /\ jm_round x = if (- 2 ^ 63 <=? n) && (n <? 2 ^ 63) then Val n else UB.
Proof.
  intros x a X A B. apply dbl_r in X. apply Qle_Rle in A. apply Qle_Rle in B. q2r. pose proof (fmt64 _ _ X) as G. destruct (multiple _ 52 G) as [n E]. { apply Rle_trans with (2 := A). apply bpow_le. lia. }
  change (bpow radix2 (52 - 52)) with 1%R in E. rewrite Rmult_1_r in E. exists n. split; [apply eqR_Qeq; now rewrite Q2R_Z|]. pose proof (bpow_gt_0 radix2 53). pose proof (bpow_gt_0 radix2 1000). rewrite E in *.
  assert (C : chk64 n = if (- 2 ^ 63 <=? n) && (n <? 2 ^ 63) then Val n else UB). { unfold chk64, in_s64. replace (n <=? 9223372036854775807) with (n <? 2 ^ 63) by lia. reflexivity. } rewrite <- C. destruct (Rlt_or_le 0 (IZR n)) as [P|P].
  - rewrite Rabs_pos_eq in A, B by lra. rewrite (round_pos _ _ X P B), half_big by assumption. now rewrite Zfloor_IZR.
  - rewrite Rabs_left1 in A, B by lra. rewrite (round_neg _ _ X P) by lra. rewrite half_big by (now apply generic_format_opp || assumption). rewrite <- opp_IZR, Zfloor_IZR, Z.opp_involutive. reflexivity.
Qed.
Print Assumptions C93_large.
Theorem C93_undefined : forall x, (forall a, ~ dbl x a) -> double x -> jm_round x = UB.
Proof.
  intros x N V. destruct x as [s|s| |s m e].
  - exfalso. apply (N 0%Q). split; [reflexivity|]. reflexivity.
  - destruct s; reflexivity.
  - reflexivity.
  - exfalso. eapply N. split; [exact V|]. reflexivity.
Qed.
Print Assumptions C93_undefined.
(** roundFrac: the result is, up to rounding errors, no further than half a digit away, and rounding it again changes nothing *)
Theorem C93_fraction : forall x f a d, dbl x a -> 0 <= d <= 22 -> dbl f (inject_Z (10 ^ d)) -> (Qabs (a * inject_Z (10 ^ d)) <= q2 50)%Q ->
  exists y q, roundFrac x f = Val y /\ dbl y q /\ (Qabs (q - a) * inject_Z (10 ^ d) <= (1 # 2) + q2 (-40) + Qabs (a * inject_Z (10 ^ d)) * q2 (-51))%Q /\ roundFrac y f = Val y.
Proof.
  intros x f a d X D F A. apply dbl_r in X. apply int_q in F. apply Qle_Rle in A. q2r. assert (N : 1 <= 10 ^ d <= 2 ^ 80). { split; [apply (Z.pow_le_mono_r 10 0 d); lia|]. apply Z.le_trans with (10 ^ 22); [apply Z.pow_le_mono_r; lia|]. vm_compute. discriminate. }
  destruct (frac_core _ _ _ _ X F N A) as (y & r & Y1 & Y2 & Y3 & Y4). destruct (is_dbl _ _ Y2) as (q & Dq & Eq). exists y, q. split; [exact Y1|]. split; [exact Dq|]. split; [|exact Y4].
  apply Rle_Qle. q2r. rewrite Eq. replace (Q2R (1 # 2)) with (/ 2)%R by (unfold Q2R; cbn; lra). exact Y3.
Qed.
Print Assumptions C93_fraction.
(** too many digits: the value times 10^digits does not fit into int64 *)
Theorem C93_fraction_refuted : forall x f a d, dbl x a -> 0 <= d <= 22 -> dbl f (inject_Z (10 ^ d)) -> (q2 63 <= a * inject_Z (10 ^ d))%Q -> (a <= q2 500)%Q -> roundFrac x f = UB.
Proof.
  intros x f a d X D F A B. apply dbl_r in X. apply int_q in F. apply Qle_Rle in A. apply Qle_Rle in B. q2r. assert (N : 1 <= 10 ^ d <= 2 ^ 80). { split; [apply (Z.pow_le_mono_r 10 0 d); lia|]. apply Z.le_trans with (10 ^ 22); [apply Z.pow_le_mono_r; lia|]. vm_compute. discriminate. }
  assert (U1 : (1 <= IZR (10 ^ d))%R) by (apply (IZR_le 1); lia). assert (U2 : (IZR (10 ^ d) <= bpow radix2 80)%R) by (change (bpow radix2 80) with (IZR (2 ^ 80)); apply IZR_le; lia). set (u := IZR (10 ^ d)) in *. pose proof (bpow_gt_0 radix2 63) as P63.
  assert (A0 : (0 < Q2R a)%R). { apply Rmult_lt_reg_r with u; lra. } assert (M : (Rabs (Q2R a * u) <= bpow radix2 580)%R). { rewrite Rabs_pos_eq by lra. change 580 with (500 + 80). rewrite bpow_plus. apply Rmult_le_compat; lra. }
  pose proof (mul64_r _ _ _ _ 580 ltac:(lia) X F M) as P. fold u in P. set (p := r64 (Q2R a * u)) in *. assert (G63 : generic_format radix2 fx (bpow radix2 63)) by (apply generic_format_bpow; unfold SpecFloat.fexp, emin; lia).
  assert (PL : (bpow radix2 63 <= p)%R) by (apply rnd_ge_r; [exact G63|exact A]). assert (PU : (p <= bpow radix2 1000)%R). { apply (r64_abs _ 580 ltac:(lia)) in M. fold p in M. rewrite Rabs_pos_eq in M by lra. apply Rle_trans with (1 := M). apply bpow_le. lia. }
  assert (R : jm_round (mul64 x f) = UB). { rewrite (round_pos _ _ P ltac:(lra) PU). rewrite half_big; [|apply (fmt64 _ _ P)|apply Rle_trans with (2 := PL); apply bpow_le; lia]. assert (2 ^ 63 <= Zfloor p) by (apply Zfloor_lub; exact PL). unfold chk64, in_s64. rewrite (proj2 (Z.leb_gt (Zfloor p) _)) by lia. now rewrite andb_false_r. }
  unfold roundFrac. now rewrite R.
Qed.
Print Assumptions C93_fraction_refuted.
Example C93_example : jm_round (lit 5 2) = Val 3 /\ jm_round (lit (-5) 2) = Val (-3) /\ roundFrac (lit 314159 100000) (int64f 100) = Val (lit 314 100) /\ dbl (int64f 100) (inject_Z (10 ^ 2)).
Proof. split; [vm_compute; reflexivity|]. split; [vm_compute; reflexivity|]. split; [vm_compute; reflexivity|]. split; vm_compute; reflexivity. Qed.

(** * C94: interpolate *)
Theorem C94_begin : forall x y p a b, dbl x a -> dbl y b -> dbl p 0 -> (Qabs a <= q2 1000)%Q -> (Qabs b <= q2 1000)%Q -> dbl (interpolate x y p) a.
Proof.
  intros x y p a b X Y P A B. apply dbl_r in X, Y, P. apply Qle_Rle in A, B. q2r. replace (Q2R 0) with 0%R in P by (unfold Q2R; cbn; lra). pose proof (interp_r _ _ _ _ _ _ 1000 ltac:(lia) X Y P A B ltac:(lra)) as R. rewrite Rmult_0_l, r64_0, Rplus_0_r, r64_fmt in R by (eapply fmt64; exact X). now apply dbl_r.
Qed.
Print Assumptions C94_begin.
(** from begin to end the value rises with the position *)
Theorem C94_monotone : forall x y p q a b c d, dbl x a -> dbl y b -> dbl p c -> dbl q d -> (Qabs a <= q2 1000)%Q -> (Qabs b <= q2 1000)%Q -> (a <= b)%Q -> (0 <= c)%Q -> (c <= d)%Q -> (d <= 1)%Q ->
  exists u v, dbl (interpolate x y p) u /\ dbl (interpolate x y q) v /\ (a <= u)%Q /\ (u <= v)%Q.
Proof.
  intros x y p q a b c d X Y P Q A B H C0 C D. apply dbl_r in X, Y, P, Q. apply Qle_Rle in A, B, H, C0, C, D. q2r. replace (Q2R 0) with 0%R in C0 by (unfold Q2R; cbn; lra). replace (Q2R 1) with 1%R in D by (unfold Q2R; cbn; lra).
  pose proof (interp_r _ _ _ _ _ _ 1000 ltac:(lia) X Y P A B ltac:(lra)) as R1. pose proof (interp_r _ _ _ _ _ _ 1000 ltac:(lia) X Y Q A B ltac:(lra)) as R2. destruct (is_dbl _ _ R1) as (u & U1 & U2). destruct (is_dbl _ _ R2) as (v & V1 & V2). exists u, v. split; [exact U1|]. split; [exact V1|]. split; apply Rle_Qle; rewrite ?U2, ?V2.
  - apply rnd_ge_r; [eapply fmt64; exact X|]. assert (0 <= r64 (Q2R c * r64 (Q2R b - Q2R a)))%R; [|lra]. apply r64_pos, Rmult_le_pos; [exact C0|apply r64_pos; lra].
  - now apply interp_mono.
Qed.
Print Assumptions C94_monotone.
(** at the end it is within 2^(k-52) of the end value, if both are at most 2^k *)
Theorem C94_end : forall x y p a b k, -900 <= k <= 1000 -> dbl x a -> dbl y b -> dbl p 1 -> (Qabs a <= q2 k)%Q -> (Qabs b <= q2 k)%Q ->
  exists v, dbl (interpolate x y p) v /\ (Qabs (v - b) <= q2 (k - 52))%Q.
Proof.
  intros x y p a b k K X Y P A B. apply dbl_r in X, Y, P. apply Qle_Rle in A, B. q2r. replace (Q2R 1) with 1%R in P by (unfold Q2R; cbn; lra). pose proof (interp_r _ _ _ _ _ _ k K X Y P A B ltac:(lra)) as R. destruct (is_dbl _ _ R) as (v & V1 & V2). exists v. split; [exact V1|]. apply Rle_Qle. q2r. rewrite V2. apply interp_end; try assumption. eapply fmt64. exact X.
Qed.
Print Assumptions C94_end.
(** numbers of a common grid (integers, say): exactly the end value *)
Theorem C94_grid : forall k x y p m n, grid k x m -> grid k y n -> dbl p 1 -> grid k (interpolate x y p) n.
Proof.
  intros k x y p m n X Y P. pose proof (grid_r _ _ _ X) as X1. pose proof (grid_r _ _ _ Y) as Y1. destruct X as (K & M & _). destruct Y as (_ & N & _). apply dbl_r in P. replace (Q2R 1) with 1%R in P by (unfold Q2R; cbn; lra).
  pose proof (sub_grid k _ _ _ _ K Y1 X1 ltac:(lia)) as D. assert (Mu : is64 (mul64 p (sub64 y x)) (IZR (n - m) * bpow radix2 k)).
  { pose proof (grid_big (n - m) k K ltac:(lia)) as G. pose proof (mul64_r _ _ _ _ (53 + k) ltac:(lia) P D) as Q. rewrite Rmult_1_l in Q. specialize (Q G). rewrite r64_fmt in Q by (apply fmt_grid; lia). exact Q. }
  pose proof (add_grid k _ _ _ _ K X1 Mu ltac:(lia)) as S. replace (m + (n - m)) with n in S by lia. split; [exact K|]. split; [exact N|]. apply dbl_r. now rewrite Q2R_mult, Q2R_Z, Q2R_q2.
Qed.
Print Assumptions C94_grid.
(** in general it is not: from 1 to 2^-60 the end is 0 *)
Theorem C94_end_refuted : exists x y p, dbl x 1 /\ dbl y (q2 (-60)) /\ dbl p 1 /\ interpolate x y p = S754_zero false.
Proof. exists (int64f 1), (lit 1 (2 ^ 60)), (int64f 1). split; [split; vm_compute; reflexivity|]. split; [split; vm_compute; reflexivity|]. split; [split; vm_compute; reflexivity|]. vm_compute. reflexivity. Qed.
Print Assumptions C94_end_refuted.
(** half way between -2^1023 and 2^1023 is infinity *)
Theorem C94_overflow_refuted : exists x y p, dbl x (- q2 1023) /\ dbl y (q2 1023) /\ dbl p (1 # 2) /\ interpolate x y p = S754_infinity false.
Proof. exists (S754_finite true (2 ^ 52) 971), (S754_finite false (2 ^ 52) 971), (lit 1 2). split; [split; vm_compute; reflexivity|]. split; [split; vm_compute; reflexivity|]. split; [split; vm_compute; reflexivity|]. vm_compute. reflexivity. Qed.
Print Assumptions C94_overflow_refuted.
(** interpolation by position: at the begin the begin value; with begin = end there is no number *)
Theorem C94_position : forall vx vy x y a b c d, dbl vx a -> dbl vy b -> dbl x c -> dbl y d -> (Qabs a <= q2 1000)%Q -> (Qabs b <= q2 1000)%Q -> (Qabs c <= q2 1000)%Q -> (Qabs d <= q2 1000)%Q -> (Qabs (d - c) >= q2 (-1000))%Q ->
  dbl (interpolate5 vx vy x y x) a.
Proof.
  intros vx vy x y a b c d VX VY X Y A B C D N. unfold interpolate5. apply (C94_begin _ _ _ _ b); try assumption. apply dbl_r in X, Y. apply Qle_Rle in C, D, N. q2r. destruct (two_abs _ _ 1000 C C) as [S1 _]. destruct (two_abs _ _ 1000 D C) as [S2 _].
  pose proof (sub64_r _ _ _ _ 1001 ltac:(lia) X X S1) as U1. pose proof (sub64_r _ _ _ _ 1001 ltac:(lia) Y X S2) as U2. rewrite Rminus_diag_eq, r64_0 in U1 by reflexivity.
  assert (NZ : r64 (Q2R d - Q2R c) <> 0%R). { intros E. assert (bpow radix2 (-1000) <= Rabs (r64 (Q2R d - Q2R c)))%R. { apply abs_round_ge_generic; [apply (fexp_correct 53 1024 p53)|apply valid_rnd_N| |exact N]. apply generic_format_bpow. unfold SpecFloat.fexp, emin. lia. } rewrite E, Rabs_R0 in H. pose proof (bpow_gt_0 radix2 (-1000)). lra. }
  pose proof (div64_r _ _ _ _ 0 ltac:(lia) U1 U2 NZ) as R. unfold Rdiv in R. rewrite Rmult_0_l, Rabs_R0, r64_0 in R. specialize (R (bpow_ge_0 _ _)). apply (r_dbl _ _ 0%R); [exact R|]. unfold Q2R. cbn. lra.
Qed.
Print Assumptions C94_position.
Theorem C94_position_refuted : forall vx vy x a, dbl x a -> interpolate5 vx vy x x x = S754_nan.
Proof.
  intros vx vy x a [V X]. unfold interpolate5. assert (Z : exists s, sub64 x x = S754_zero s). { destruct x as [s|s| |s m e]; try contradiction; [destruct s; eexists; reflexivity|]. exists false. unfold sub64. cbn [SFsub]. rewrite Z.sub_diag. reflexivity. }
  destruct Z as [s E]. rewrite E. unfold interpolate, div64, mul64, add64. cbn [SFdiv]. destruct (sub64 vy vx); cbn [SFmul SFadd]; destruct vx; reflexivity.
Qed.
Print Assumptions C94_position_refuted.
Example C94_example : interpolate (int64f 10) (int64f 20) (lit 1 4) = lit 25 2 /\ interpolate5 (int64f 10) (int64f 20) (int64f 0) (int64f 8) (int64f 2) = lit 25 2 /\ grid 0 (int64f 10) 10.
Proof. split; [vm_compute; reflexivity|]. split; [vm_compute; reflexivity|]. split; [lia|]. split; [lia|]. split; vm_compute; reflexivity. Qed.

(** * C95: swap, random, probability, machine epsilon *)
Theorem C95_swap : forall m a b, a <> b -> swap m a b a = m b /\ swap m a b b = m a /\ forall c, c <> a -> c <> b -> swap m a b c = m c.
Proof.
  intros m a b N. unfold swap. assert (Eab : (b =? a) = false) by lia. assert (Eba : (a =? b) = false) by lia.
  assert (X : forall p q, Z.lxor p (Z.lxor q p) = q) by (intros; rewrite (Z.lxor_comm q), <- Z.lxor_assoc, Z.lxor_nilpotent; apply Z.lxor_0_l).
  cbv beta zeta. rewrite !Z.eqb_refl, !Eab, !Eba, ?Z.eqb_refl. split; [|split].
  - rewrite (Z.lxor_comm (m b)). rewrite <- (Z.lxor_assoc (Z.lxor (m a) (m b))), Z.lxor_nilpotent. apply Z.lxor_0_l.
  - rewrite X. reflexivity.
  - intros c Ca Cb. rewrite !(proj2 (Z.eqb_neq _ _)) by assumption. reflexivity.
Qed.
Print Assumptions C95_swap.
(** a variable swapped with itself is lost *)
Theorem C95_self_refuted : forall m a, swap m a a a = 0.
Proof. intros m a. unfold swap. rewrite !Z.eqb_refl. rewrite !Z.lxor_nilpotent. reflexivity. Qed.
Print Assumptions C95_self_refuted.
Theorem C95_random : forall r lower upper, 0 <= r <= 2147483647 -> -2147483648 <= lower -> lower <= upper < 2147483647 -> upper + 1 - lower <= 2147483647 ->
  exists z, random r lower upper = Val z /\ lower <= z <= upper /\ (r <= upper - lower -> z = lower + r).
Proof.
  intros r lo up R L U D. unfold random. assert (C1 : chk32 (up + 1) = Val (up + 1)) by (unfold chk32, in_s32; rewrite !(proj2 (Z.leb_le _ _)) by lia; reflexivity). rewrite C1. cbn [bind].
  set (n := up + 1 - lo) in *. assert (N : 1 <= n) by lia. assert (C2 : chk32 n = Val n) by (unfold chk32, in_s32; rewrite !(proj2 (Z.leb_le _ _)) by lia; reflexivity). rewrite C2. cbn [bind]. rewrite (proj2 (Z.eqb_neq n 0)) by lia.
  pose proof (Z.quot_rem' r n) as Q. pose proof (Z.rem_bound_pos r n ltac:(lia) ltac:(lia)) as B. assert (Q0 : 0 <= Z.quot r n <= r) by (split; [apply Z.quot_pos; lia|nia]).
  assert (C3 : chk32 (Z.quot r n) = Val (Z.quot r n)) by (unfold chk32, in_s32; rewrite !(proj2 (Z.leb_le _ _)) by lia; reflexivity). rewrite C3. cbn [bind].
  exists (Z.rem r n + lo). split; [unfold chk32, in_s32; rewrite !(proj2 (Z.leb_le _ _)) by lia; reflexivity|]. split; [lia|]. intros S. rewrite Z.rem_small by lia. lia.
Qed.
Print Assumptions C95_random.
(** the whole range of int, and the empty range next to it, are undefined for every answer of rand() *)
Theorem C95_range_refuted : forall r lower, random r (-2147483648) 2147483646 = UB /\ random r lower 2147483647 = UB /\ (-2147483648 < lower <= 2147483647 -> random r lower (lower - 1) = UB).
Proof.
  intros r lo. split; [reflexivity|]. split; [reflexivity|]. intros L. unfold random. replace (lo - 1 + 1) with lo by ring. assert (C1 : chk32 lo = Val lo) by (unfold chk32, in_s32; rewrite (proj2 (Z.leb_le _ _)) by lia; rewrite (proj2 (Z.leb_le _ _)) by lia; reflexivity). rewrite C1. cbn [bind]. rewrite Z.sub_diag. reflexivity.
Qed.
Print Assumptions C95_range_refuted.
Theorem C95_certain : forall r, 0 <= r <= 2147483647 -> probability r (int64f 1) = Val true.
Proof.
  intros r R. unfold probability. destruct (C95_random r 0 10000) as (z & -> & Zr & _); [lia|lia|lia|lia|]. cbn [bind]. replace (f2s32 (mul64 (int64f 1) (int64f 10000))) with (@Val Z 10000) by (vm_compute; reflexivity). cbn [bind]. rewrite (proj2 (Z.leb_le _ _)) by lia. reflexivity.
Qed.
Print Assumptions C95_certain.
(** but what has the probability 0 happens, too: once in 10001 *)
Theorem C95_never_refuted : forall r, 0 <= r <= 2147483647 -> (probability r (int64f 0) = Val true <-> r mod 10001 = 0).
Proof.
  intros r R. unfold probability, random. change (chk32 (10000 + 1)) with (@Val Z 10001). cbn [bind]. change (chk32 (10001 - 0)) with (@Val Z 10001). cbn [bind]. change (10001 =? 0) with false. cbv iota.
  assert (C3 : chk32 (Z.quot r 10001) = Val (Z.quot r 10001)) by (unfold chk32, in_s32; rewrite !(proj2 (Z.leb_le _ _)) by lia; reflexivity). rewrite C3. cbn [bind]. pose proof (Z.mod_pos_bound r 10001 ltac:(lia)) as B.
  assert (C4 : chk32 (Z.rem r 10001 + 0) = Val (r mod 10001)). { rewrite Z.rem_mod_nonneg, Z.add_0_r by (lia || (clear; lia)). set (q := r mod 10001) in *. clearbody q. unfold chk32, in_s32. rewrite (proj2 (Z.leb_le (-2147483648) q)), (proj2 (Z.leb_le q 2147483647)) by lia. reflexivity. } rewrite C4. cbn [bind]. replace (f2s32 (mul64 (int64f 0) (int64f 10000))) with (@Val Z 0) by (vm_compute; reflexivity). cbn [bind]. set (q := r mod 10001) in *. clearbody q. split; [intros [= E]; lia|intros ->; reflexivity].
Qed.
Print Assumptions C95_never_refuted.
(** machine epsilon: 1 + e is 1, 1 + 2e is not; the loops end *)
Theorem C95_epsilon : (forall n, (53 <= n)%nat -> exists e, doubleMaschineEpsilon n = Val e /\ dbl e (q2 (-53)) /\ SFeqb (add64 (int64f 1) e) (int64f 1) = true /\ SFeqb (add64 (int64f 1) (add64 e e)) (int64f 1) = false) /\
  (forall n, (24 <= n)%nat -> exists e, floatMaschineEpsilon n = Val e /\ SFeqb (add32 (int32f 1) e) (int32f 1) = true /\ SFeqb (add32 (int32f 1) (add32 e e)) (int32f 1) = false).
Proof.
  assert (M : forall p em n k e v, epsilon_loop p em n e = Val v -> epsilon_loop p em (n + k) e = Val v).
  { intros p em n. induction n as [|n IH]; intros k e v H; [discriminate|]. cbn [epsilon_loop Nat.add] in *. destruct (negb _) in *; [now apply IH|exact H]. }
  split; intros n N.
  - exists (S754_finite false (2 ^ 52) (-105)). split; [|split; [split; vm_compute; reflexivity|split; vm_compute; reflexivity]]. unfold doubleMaschineEpsilon, epsilon. replace n with (53 + (n - 53))%nat by lia. rewrite (M 53 1024 53%nat (n - 53)%nat _ (S754_finite false (2 ^ 52) (-104))) by (vm_compute; reflexivity). vm_compute. reflexivity.
  - exists (S754_finite false (2 ^ 23) (-47)). split; [|split; vm_compute; reflexivity]. unfold floatMaschineEpsilon, epsilon. replace n with (24 + (n - 24))%nat by lia. rewrite (M 24 128 24%nat (n - 24)%nat _ (S754_finite false (2 ^ 23) (-46))) by (vm_compute; reflexivity). vm_compute. reflexivity.
Qed.
Print Assumptions C95_epsilon.
Example C95_example : random 12345 (-3) 5 = Val 3 /\ swap (fun x => 10 * x) 1 2 1 = 20.
Proof. split; reflexivity. Qed.
