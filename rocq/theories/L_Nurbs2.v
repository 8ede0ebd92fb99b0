(** L_Nurbs2.v -- relative errors of sums, products and quotients of positive numbers. *)
From Coq Require Import Reals Lra Psatz.
From Flocq Require Import Core.
From Verif Require Import Base M_Float M_MathF M_Rect M_Matrix M_Geometry S_Double S_Matrix L_Double L_MathF L_Matrix L_Matrix2 L_Matrix4 L_Geometry L_Nurbs.
Local Open Scope R_scope.

Definition qq : R := / (1 - uu).
Lemma u_half : uu <= / 4. Proof. pose proof u_small. lra. Qed.
Lemma qq_1 : 1 < qq. Proof. unfold qq. pose proof u_half. pose proof uu_pos. rewrite <- Rinv_1. apply Rinv_lt_contravar; lra. Qed.
Lemma qq_u : qq * (1 - uu) = 1. Proof. unfold qq. pose proof u_half. field. lra. Qed.
Lemma qn_pos n : 1 <= qq ^ n. Proof. apply pow_R1_Rle. pose proof qq_1. lra. Qed.
Lemma qn_up n : INR n * uu <= / 2 -> qq ^ n <= 1 + 2 * INR n * uu.
Proof.
  intros H. pose proof uu_pos. assert (B : 1 - INR n * uu <= (1 - uu) ^ n).
  { clear H. pose proof u_half. induction n as [|n IH]; [cbn; lra|]. rewrite S_INR. cbn [pow]. pose proof (pos_INR n). assert (0 <= INR n * uu) by nra.
    destruct (Rle_dec 0 (1 - INR n * uu)) as [P|P]; [|assert (0 <= (1 - uu) ^ n) by (apply pow_le; lra); nra]. nra. }
  assert (E : qq ^ n * (1 - uu) ^ n = 1) by (rewrite <- Rpow_mult_distr, qq_u; apply pow1). pose proof (qn_pos n). pose proof (pos_INR n). assert (0 <= INR n * uu) by nra.
  assert (qq ^ n * (1 - INR n * uu) <= 1) by nra. nra.
Qed.
(** b is a up to m roundings *)
Definition near (m : nat) (a b : R) : Prop := 0 <= a /\ 0 <= b /\ b <= a * qq ^ m /\ a <= b * qq ^ m.
Lemma near_refl m a : 0 <= a -> near m a a.
Proof. intros H. pose proof (qn_pos m). unfold near. split; [exact H|split; [exact H|split; nra]]. Qed.
Lemma near_0 m b : near m 0 b -> b = 0. Proof. intros (_ & B & H & _). lra. Qed.
Lemma qn_le m n : (m <= n)%nat -> qq ^ m <= qq ^ n. Proof. intros H. apply Rle_pow; [pose proof qq_1; lra|exact H]. Qed.
Lemma near_le m n a b : (m <= n)%nat -> near m a b -> near n a b.
Proof. intros L (A & B & H1 & H2). pose proof (qn_le _ _ L). unfold near. split; [exact A|split; [exact B|split; nra]]. Qed.
Lemma near_trans m n a b c : near m a b -> near n b c -> near (m + n) a c.
Proof.
  intros (A & B & H1 & H2) (_ & C & H3 & H4). pose proof (qn_pos m). pose proof (qn_pos n). unfold near. rewrite pow_add. split; [exact A|split; [exact C|]]. split.
  - apply Rle_trans with (b * qq ^ n); [exact H3|]. replace (a * (qq ^ m * qq ^ n)) with (a * qq ^ m * qq ^ n) by ring. nra.
  - apply Rle_trans with (b * qq ^ m); [exact H2|]. replace (c * (qq ^ m * qq ^ n)) with (c * qq ^ n * qq ^ m) by ring. nra.
Qed.
Lemma near_mul m n a b c d : near m a b -> near n c d -> near (m + n) (a * c) (b * d).
Proof.
  intros (A & B & H1 & H2) (C & D & H3 & H4). unfold near. rewrite pow_add. split; [nra|split; [nra|]]. split.
  - replace (a * c * (qq ^ m * qq ^ n)) with (a * qq ^ m * (c * qq ^ n)) by ring. apply Rmult_le_compat; assumption.
  - replace (b * d * (qq ^ m * qq ^ n)) with (b * qq ^ m * (d * qq ^ n)) by ring. apply Rmult_le_compat; assumption.
Qed.
Lemma near_inv m a b : 0 < a -> near m a b -> 0 < b /\ near m (/ a) (/ b).
Proof.
  intros A (_ & B & H1 & H2). pose proof (qn_pos m) as Q. assert (0 < b) by (destruct (Req_dec b 0); [subst; lra|lra]). split; [assumption|].
  pose proof (Rinv_0_lt_compat _ A). pose proof (Rinv_0_lt_compat _ H). unfold near. split; [lra|split; [lra|]]. split.
  - apply (Rmult_le_reg_r a); [exact A|]. apply (Rmult_le_reg_l b); [exact H|]. replace (b * (/ b * a)) with a by (field; lra). replace (b * (/ a * qq ^ m * a)) with (b * qq ^ m) by (field; lra). exact H2.
  - apply (Rmult_le_reg_r a); [exact A|]. apply (Rmult_le_reg_l b); [exact H|]. replace (b * (/ a * a)) with b by (field; lra). replace (b * (/ b * qq ^ m * a)) with (a * qq ^ m) by (field; lra). exact H1.
Qed.
Lemma near_div m n a b c d : 0 < c -> near m a b -> near n c d -> near (m + n) (a / c) (b / d).
Proof. intros C H1 H2. apply near_inv in H2; [|exact C]. apply near_mul; [exact H1|apply H2]. Qed.
Lemma near_add m a b c d : near m a b -> near m c d -> near m (a + c) (b + d).
Proof. intros (A & B & H1 & H2) (C & D & H3 & H4). unfold near. split; [lra|split; [lra|split; lra]]. Qed.
Lemma near_r x : x = 0 \/ bpow radix2 (-1022) <= x -> near 1 x (r64 x).
Proof.
  intros [->|H]; [rewrite r64_0; apply near_refl; lra|]. pose proof (bpow_gt_0 radix2 (-1022)). destruct (rel64 x) as (d & D & E); [rewrite Rabs_pos_eq by lra; exact H|]. rewrite E. fold uu in D. apply Rabs_le_inv in D. pose proof u_half. pose proof uu_pos. pose proof qq_1. pose proof qq_u. unfold near. rewrite pow_1.
  assert ((1 - uu) <= 1 + d <= 1 + uu) by lra. split; [lra|split; [nra|]]. split; [apply Rmult_le_compat_l; [lra|]; nra|]. assert (1 <= (1 + d) * qq) by nra. nra.
Qed.
(** 0, or between lo and hi *)
Definition gap (lo hi : Z) (a : R) : Prop := a = 0 \/ bpow radix2 lo <= a <= bpow radix2 hi.
Lemma gap_pos lo hi a : gap lo hi a -> 0 <= a. Proof. intros [->|H]; [lra|]. pose proof (bpow_gt_0 radix2 lo). lra. Qed.
Lemma gap_le lo hi lo' hi' a : (lo' <= lo)%Z -> (hi <= hi')%Z -> gap lo hi a -> gap lo' hi' a.
Proof. intros A B [->|H]; [left; reflexivity|right]. pose proof (bpow_le radix2 _ _ A). pose proof (bpow_le radix2 _ _ B). lra. Qed.
Lemma gap_mul lo hi lo' hi' a b : gap lo hi a -> gap lo' hi' b -> gap (lo + lo') (hi + hi') (a * b).
Proof. intros [->|H] [->|H']; try (left; ring). right. rewrite !bpow_plus. pose proof (bpow_gt_0 radix2 lo). pose proof (bpow_gt_0 radix2 lo'). split; apply Rmult_le_compat; lra. Qed.
Lemma gap_div lo hi lo' hi' a b : gap lo hi a -> bpow radix2 lo' <= b <= bpow radix2 hi' -> gap (lo - hi') (hi - lo') (a / b).
Proof.
  intros [->|H] B; [left; unfold Rdiv; ring|right]. unfold Z.sub. rewrite !bpow_plus, !bpow_opp. pose proof (bpow_gt_0 radix2 lo). pose proof (bpow_gt_0 radix2 lo'). pose proof (bpow_gt_0 radix2 hi'). unfold Rdiv.
  assert (0 < / bpow radix2 hi') by (apply Rinv_0_lt_compat; lra). assert (0 < / b) by (apply Rinv_0_lt_compat; lra). split; apply Rmult_le_compat; try lra; apply Rinv_le; lra.
Qed.
Lemma gap_add lo hi a b : gap lo hi a -> gap lo hi b -> gap lo (hi + 1) (a + b).
Proof.
  intros A B. pose proof (bpow_gt_0 radix2 lo). pose proof (bpow_gt_0 radix2 hi). unfold gap. rewrite bpow_plus. change (bpow radix2 1) with 2. destruct A as [->|A], B as [->|B]; [left; lra|right; lra|right; lra|right; lra].
Qed.
Lemma gap_near lo hi m a b : INR m * uu <= / 2 -> near m a b -> gap lo hi a -> gap (lo - 1) (hi + 1) b.
Proof.
  intros Mu N [->|G]; [left; now apply near_0 in N|]. destruct N as (A & B & H1 & H2). pose proof (qn_up m Mu). pose proof (qn_pos m). right. unfold Z.sub. rewrite !bpow_plus. change (bpow radix2 (- (1))) with (/ 2). change (bpow radix2 1) with 2. pose proof (bpow_gt_0 radix2 lo). pose proof (bpow_gt_0 radix2 hi). assert (qq ^ m <= 2) by lra. split; nra.
Qed.
(** rounded operations *)
Lemma sub_near x y a b lo : is64 x a -> is64 y b -> (-1000 <= lo)%Z -> gap lo 900 (a - b) -> exists v, is64 (sub64 x y) v /\ near 1 (a - b) v.
Proof.
  intros X Y L G. exists (r64 (a - b)). split.
  - apply (sub64_r _ _ _ _ 900); try assumption; try lia. rewrite Rabs_pos_eq by (eapply gap_pos; exact G). destruct G as [->|G]; [apply bpow_ge_0|lra].
  - apply near_r. destruct G as [G|G]; [left; exact G|right]. pose proof (bpow_le radix2 (-1022) lo ltac:(lia)). lra.
Qed.
Lemma mul_near x y a b m n lo hi lo' hi' a' b' : is64 x a -> is64 y b -> near m a' a -> near n b' b -> gap lo hi a -> gap lo' hi' b -> (-1020 <= lo + lo')%Z -> (-1000 <= hi + hi' < 1000)%Z -> is64 (mul64 x y) (r64 (a * b)) /\ near (m + n + 1) (a' * b') (r64 (a * b)).
Proof.
  intros X Y A B G G' L H. pose proof (gap_mul _ _ _ _ _ _ G G') as GG. split.
  - apply (mul64_r _ _ _ _ (hi + hi')); try assumption; try lia. rewrite Rabs_pos_eq by (eapply gap_pos; exact GG). destruct GG as [->|GG]; [apply bpow_ge_0|lra].
  - eapply near_trans; [apply near_mul; eassumption|]. apply near_r. destruct GG as [E|GG]; [left; exact E|right]. pose proof (bpow_le radix2 (-1022) (lo + lo') ltac:(lia)). lra.
Qed.
Lemma div_near x y a b m n lo hi lo' hi' a' b' : is64 x a -> is64 y b -> near m a' a -> near n b' b -> 0 < b' -> gap lo hi a -> bpow radix2 lo' <= b <= bpow radix2 hi' -> (-1020 <= lo - hi')%Z -> (-1000 <= hi - lo' < 1000)%Z -> is64 (div64 x y) (r64 (a / b)) /\ near (m + n + 1) (a' / b') (r64 (a / b)).
Proof.
  intros X Y A B P G G' L H. pose proof (gap_div _ _ _ _ _ _ G G') as GG. pose proof (bpow_gt_0 radix2 lo'). split.
  - apply (div64_r _ _ _ _ (hi - lo')); try assumption; try lia; [lra|]. rewrite Rabs_pos_eq by (eapply gap_pos; exact GG). destruct GG as [->|GG]; [apply bpow_ge_0|lra].
  - eapply near_trans; [apply near_div; eassumption|]. apply near_r. destruct GG as [E|GG]; [left; exact E|right]. pose proof (bpow_le radix2 (-1022) (lo - hi') ltac:(lia)). lra.
Qed.
Lemma add_near x y a b m lo hi a' b' : is64 x a -> is64 y b -> near m a' a -> near m b' b -> gap lo hi a -> gap lo hi b -> (-1020 <= lo)%Z -> (-1000 <= hi < 1000)%Z -> is64 (add64 x y) (r64 (a + b)) /\ near (m + 1) (a' + b') (r64 (a + b)).
Proof.
  intros X Y A B G G' L H. pose proof (gap_add _ _ _ _ G G') as GG. split.
  - apply (add64_r _ _ _ _ (hi + 1)); try assumption; try lia. rewrite Rabs_pos_eq by (eapply gap_pos; exact GG). destruct GG as [->|GG]; [apply bpow_ge_0|lra].
  - eapply near_trans; [apply near_add; eassumption|]. apply near_r. destruct GG as [E|GG]; [left; exact E|right]. pose proof (bpow_le radix2 (-1022) lo ltac:(lia)). lra.
Qed.
