(** P_Point.v -- property C131: points and sizes. *)
From Coq Require Import Reals Lra ZArith QArith Qabs Qpower Qreals Qminmax.
From Flocq Require Import Core BinarySingleNaN.
From Coq Require Import SpecFloat.
From Verif Require Import Base M_Float M_MathF M_Point L_Float S_Double L_Double L_MathF S_Point P_MathF.
From Verif Require M_Rect S_Rect L_Rect.
Local Open Scope Z_scope.
Lemma dbl_lt x y a b : dbl x a -> dbl y b -> (SFltb x y = true <-> (a < b)%Q).
Proof.
  intros X Y. apply dbl_r in X. apply dbl_r in Y. rewrite (ltb_r 53 1024 _ _ _ _ X Y). split.
  - intros H. apply Rlt_Qlt. now destruct (Rlt_bool_spec (Q2R a) (Q2R b)).
  - intros H. apply Rlt_bool_true. now apply Qlt_Rlt.
Qed.
Lemma min_q x y a b : dbl x a -> dbl y b -> dbl (fmin x y) (Qmin a b).
Proof.
  intros X Y. unfold fmin. pose proof (dbl_lt y x b a Y X) as L. destruct (SFltb y x).
  - apply (dbl_eq y b); [exact Y|]. symmetry. apply Q.min_r, Qlt_le_weak. now apply L.
  - apply (dbl_eq x a); [exact X|]. symmetry. apply Q.min_l. apply Qnot_lt_le. intros H. apply L in H. discriminate.
Qed.
Lemma max_q x y a b : dbl x a -> dbl y b -> dbl (fmax x y) (Qmax a b).
Proof.
  intros X Y. unfold fmax. pose proof (dbl_lt x y a b X Y) as L. destruct (SFltb x y).
  - apply (dbl_eq y b); [exact Y|]. symmetry. apply Q.max_r, Qlt_le_weak. now apply L.
  - apply (dbl_eq x a); [exact X|]. symmetry. apply Q.max_l. apply Qnot_lt_le. intros H. apply L in H. discriminate.
Qed.
(** cWiseMin and cWiseMax: the smaller and the greater coordinate *)
Theorem C131_min_max : forall p q a b c d, at_xy p a b -> at_xy q c d -> at_xy (cWiseMin p q) (Qmin a c) (Qmin b d) /\ at_xy (cWiseMax p q) (Qmax a c) (Qmax b d).
Proof. intros p q a b c d [P1 P2] [Q1 Q2]. split; split; cbn [cWiseMin cWiseMax px py]; (apply min_q || apply max_q); assumption. Qed.
(** with a NaN the order of the arguments decides *)
Theorem C131_nan_refuted : forall p x y, x <> S754_nan -> y <> S754_nan -> p = Pt S754_nan S754_nan ->
  cWiseMin p (Pt x y) = p /\ cWiseMin (Pt x y) p = Pt x y /\ cWiseMax p (Pt x y) = p /\ cWiseMax (Pt x y) p = Pt x y.
Proof. intros p x y X Y ->. assert (L : forall z, SFltb z S754_nan = false) by (intros [[]|[]| |[] ? ?]; reflexivity). assert (R : forall z, SFltb S754_nan z = false) by (intros [[]|[]| |[] ? ?]; reflexivity). unfold cWiseMin, cWiseMax, fmin, fmax. cbn [px py]. rewrite !L, !R. repeat split. Qed.
(** sums and differences on a grid are exact, and undo each other *)
Theorem C131_grid : forall k p q a b c d, on_grid k p a b -> on_grid k q c d -> Z.abs (a + c) <= 2 ^ 50 -> Z.abs (b + d) <= 2 ^ 50 -> Z.abs (a - c) <= 2 ^ 50 -> Z.abs (b - d) <= 2 ^ 50 ->
  on_grid k (plus p q) (a + c) (b + d) /\ on_grid k (minus p q) (a - c) (b - d) /\ on_grid k (minus (plus p q) q) a b /\ on_grid k (plus (minus p q) q) a b.
Proof.
  intros k p q a b c d [P1 P2] [Q1 Q2] A B C D. pose proof P1 as (K & Za & _). pose proof P2 as (_ & Zb & _). pose proof Q1 as (_ & Zc & _). pose proof Q2 as (_ & Zd & _).
  apply L_Rect.grid_g in P1, P2, Q1, Q2. pose proof (L_Rect.g_add k K _ _ _ _ P1 Q1 ltac:(lia)) as S1. pose proof (L_Rect.g_add k K _ _ _ _ P2 Q2 ltac:(lia)) as S2. pose proof (L_Rect.g_sub k K _ _ _ _ P1 Q1 ltac:(lia)) as D1. pose proof (L_Rect.g_sub k K _ _ _ _ P2 Q2 ltac:(lia)) as D2.
  pose proof (L_Rect.g_sub k K _ _ _ _ S1 Q1 ltac:(lia)) as T1. pose proof (L_Rect.g_sub k K _ _ _ _ S2 Q2 ltac:(lia)) as T2. pose proof (L_Rect.g_add k K _ _ _ _ D1 Q1 ltac:(lia)) as U1. pose proof (L_Rect.g_add k K _ _ _ _ D2 Q2 ltac:(lia)) as U2.
  split; [split|split; [split|split; split]]; cbn [plus minus px py]; apply (L_Rect.g_grid k); try exact K; try assumption.
  all: eapply L_Rect.g_eq; [eassumption|lia].
Qed.
(** a multiple by an integer is exact as well *)
Theorem C131_times : forall k p a b d m, on_grid k p a b -> grid 0 d m -> Z.abs (m * a) <= 2 ^ 50 -> Z.abs (m * b) <= 2 ^ 50 -> on_grid k (times d p) (m * a) (m * b).
Proof.
  assert (T : forall k x d a m, grid k x a -> grid 0 d m -> Z.abs (m * a) <= 2 ^ 50 -> grid k (mul64 d x) (m * a)).
  { intros k x d a m X D H. pose proof X as (K & _ & _). apply (L_Rect.g_grid k); [exact K|exact H|]. unfold L_Rect.g. apply grid_r in X, D. assert (B : Z.abs (m * a) <= 2 ^ 53) by lia. pose proof (grid_big (m * a) k K B) as G.
    assert (E : (IZR m * bpow radix2 0 * (IZR a * bpow radix2 k))%R = (IZR (m * a) * bpow radix2 k)%R) by (rewrite mult_IZR; change (bpow radix2 0) with 1%R; ring).
    pose proof (mul64_r _ _ _ _ (53 + k) ltac:(lia) D X) as R. rewrite E in R. specialize (R G). rewrite r64_fmt in R; [exact R|]. apply fmt_grid; [lia|exact B]. }
  intros k p a b d m [P1 P2] D A B. split; apply T; assumption.
Qed.
(** off the grid they need not: a sum can absorb a summand *)
Theorem C131_absorbed_refuted : exists p q a b c d, at_xy p a b /\ at_xy q c d /\ ~ (a == 0)%Q /\ at_xy (minus (plus p q) q) 0 0.
Proof. exists (Pt (int64f 1) (int64f 1)), (Pt (int64f (2 ^ 54)) (int64f (2 ^ 54))), 1%Q, 1%Q, (inject_Z (2 ^ 54)), (inject_Z (2 ^ 54)). repeat split; vm_compute; try reflexivity; try discriminate. Qed.
(** == on sizes means: both sides nearly the same; != is its negation; == is symmetric *)
Theorem C131_size_equal : forall p q a b c d, at_xy p a b -> at_xy q c d ->
  (size_eq p q = true -> (Qabs (a - c) < 1 # 1000000)%Q /\ (Qabs (b - d) < 1 # 1000000)%Q) /\
  ((Qabs (a - c) <= (1 # 1000000) - q2 (-71))%Q -> (Qabs (b - d) <= (1 # 1000000) - q2 (-71))%Q -> size_eq p q = true).
Proof.
  intros p q a b c d [P1 P2] [Q1 Q2]. destruct (C92_equal _ _ _ _ P1 Q1) as [E1 F1]. destruct (C92_equal _ _ _ _ P2 Q2) as [E2 F2]. unfold size_eq. split.
  - intros H. apply andb_prop in H as [H1 H2]. auto.
  - intros H1 H2. now rewrite F1, F2.
Qed.
Theorem C131_size_consistent : forall p q, size_ne p q = negb (size_eq p q) /\ size_eq p q = size_eq q p.
Proof.
  intros p q. unfold size_ne, size_eq. destruct (C92_consistent (px p) (px q)) as (-> & _). destruct (C92_consistent (py p) (py q)) as (-> & _). split; [now rewrite negb_andb|]. now rewrite (C92_symmetric (px p)), (C92_symmetric (py p)).
Qed.
(** it is not transitive, and an infinite or undefined size differs from itself *)
Theorem C131_size_equal_refuted : (exists p q r, size_eq p q = true /\ size_eq q r = true /\ size_eq p r = false) /\ (forall s y, size_eq (Pt (S754_infinity s) y) (Pt (S754_infinity s) y) = false) /\ forall p, has_nan p -> size_eq p p = false.
Proof.
  split; [|split].
  - destruct C92_transitive_refuted as (x & y & z & A & B & C). exists (Pt x x), (Pt y y), (Pt z z). unfold size_eq. cbn [px py]. now rewrite A, B, C.
  - intros s y. unfold size_eq. cbn [px py]. now rewrite C92_infinite_refuted.
  - intros [x y] [H|H]; cbn [px py] in H; subst; unfold size_eq; cbn [px py]; [reflexivity|]. now rewrite andb_false_r.
Qed.
Example ex_min : at_xy (cWiseMin (Pt (int64f 1) (int64f 5)) (Pt (int64f 3) (int64f 2))) 1 2. Proof. repeat split; vm_compute; reflexivity. Qed.
Example ex_grid : on_grid 0 (Pt (int64f 3) (int64f 2)) 3 2. Proof. split; (split; [lia|]; split; [lia|]; split; vm_compute; reflexivity). Qed.
Print Assumptions C131_min_max.
Print Assumptions C131_nan_refuted.
Print Assumptions C131_grid.
Print Assumptions C131_absorbed_refuted.
Print Assumptions C131_size_equal.
Print Assumptions C131_size_consistent.
Print Assumptions C131_size_equal_refuted.
Print Assumptions C131_times.
