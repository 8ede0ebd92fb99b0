(** L_Nurbs3.v -- the basis functions of NURBS.cpp are those of L_Nurbs up to 5 roundings for every degree. *)
From Coq Require Import Reals Lra Psatz.
From Flocq Require Import Core.
From Verif Require Import Base M_Float M_MathF M_Rect M_Matrix M_Geometry M_Nurbs S_Double S_Matrix L_Double L_MathF P_MathF L_Matrix L_Matrix2 L_Matrix4 L_Matrix5 L_Geometry L_Geometry2 L_Nurbs L_Nurbs2.
Local Open Scope R_scope.

Lemma f0r : is64 f0 0. Proof. exact zero_r. Qed.
Lemma f1r : is64 f1 1. Proof. exact one_r. Qed.
Lemma mu_small m : (Z.of_nat m <= 5000000)%Z -> INR m * uu <= / 2.
Proof. intros H. apply IZR_le in H. rewrite <- INR_IZR_INZ in H. pose proof u_small. pose proof uu_pos. pose proof (pos_INR m). nra. Qed.
(** one of the two terms *)
Lemma term x y z N v num den a d m lo hi : is64 x v -> near m N v -> gap lo hi N -> (Z.of_nat m <= 4000000)%Z -> is64 y a -> is64 z d -> (N <> 0 -> near 1 num a /\ gap (-30) 31 num) -> Rabs a <= bpow radix2 32 ->
  near 1 den d -> bpow radix2 (-19) <= den <= bpow radix2 31 -> (-950 <= lo)%Z -> (0 <= hi <= 100)%Z -> exists v', is64 (div64 (mul64 x y) z) v' /\ near (m + 4) (num / den * N) v'.
Proof.
  intros X NV G M5 Y D HN A ND BD L H. pose proof (mu_small m ltac:(lia)) as Mu. pose proof (bpow_gt_0 radix2 (-19)) as P19.
  assert (GD : gap (-20) 32 d) by (apply (gap_near (-19) 31 1 den); [apply mu_small; lia|exact ND|right; exact BD]).
  assert (D0 : d <> 0). { intros ->. destruct ND as (_ & _ & _ & ND). lra. }
  destruct GD as [GD|GD]; [contradiction|].
  destruct (Req_dec N 0) as [->|N0].
  - apply near_0 in NV. subst v. exists 0. split; [|rewrite Rmult_0_r; apply near_refl; lra].
    assert (X1 : is64 (mul64 x y) 0). { rewrite <- r64_0. replace 0 with (0 * a) at 1 by ring. apply (mul64_r _ _ _ _ 0); try assumption; try lia. rewrite Rmult_0_l, Rabs_R0. apply bpow_ge_0. }
    rewrite <- r64_0. replace 0 with (0 / d) at 1 by (unfold Rdiv; ring). apply (div64_r _ _ _ _ 0); try assumption; try lia. unfold Rdiv. rewrite Rmult_0_l, Rabs_R0. apply bpow_ge_0.
  - destruct (HN N0) as [NA GN]. pose proof (gap_near _ _ _ _ _ Mu NV G) as GV. pose proof (gap_near _ _ 1 _ _ (mu_small 1 ltac:(lia)) NA GN) as GA.
    destruct (mul_near _ _ _ _ _ _ _ _ _ _ _ _ X Y NV NA GV GA ltac:(lia) ltac:(lia)) as [Xp Np]. set (p := r64 _) in *.
    assert (Gp : gap (lo + -30 - 1) (hi + 31 + 1) p) by (apply (gap_near _ _ (m + 1 + 1) (N * num)); [|exact Np|now apply gap_mul]; apply mu_small; lia).
    destruct (div_near _ _ _ _ _ _ _ _ _ _ _ _ Xp D Np ND ltac:(lra) Gp GD ltac:(lia) ltac:(lia)) as [Xw Nw].
    eexists. split; [exact Xw|]. replace (m + 4)%nat with (m + 1 + 1 + 1 + 1)%nat by lia. replace (num / den * N) with (N * num / den) by (field; lra). exact Nw.
Qed.
Lemma isEqual_0 x a : is64 x a -> a = 0 -> isEqual x f0 = true.
Proof. intros X ->. apply (near_equal _ _ _ _ X f0r). rewrite Rminus_0_r, Rabs_R0. pose proof tol_20. assert (bpow radix2 (-72) <= bpow radix2 (-21)) by (apply bpow_le; lia). lra. Qed.
Lemma isEqual_big x a : is64 x a -> bpow radix2 (-19) <= a -> isEqual x f0 = false.
Proof. intros X H. destruct (isEqual x f0) eqn:E; [exfalso|reflexivity]. apply (equal_near _ _ _ _ X f0r) in E. pose proof tol_20. pose proof (bpow_gt_0 radix2 (-19)). rewrite Rminus_0_r, Rabs_pos_eq in E by lra. lra. Qed.

Section F.
Variables (c : nurbs) (u : Z -> R) (K : Z) (tf : spec_float) (t : R).
Hypothesis HK : (K <= 2 ^ 31)%Z.
Hypothesis U : forall i, (0 <= i < K)%Z -> exists v, rd (knots c) i = Val v /\ is64 v (u i) /\ Rabs (u i) <= bpow radix2 30.
Hypothesis step : forall i, (0 <= i)%Z -> (i + 1 < K)%Z -> u i = u (i + 1)%Z \/ u i + bpow radix2 (-19) <= u (i + 1)%Z.
Hypothesis T : is64 tf t.
Hypothesis TB : Rabs t <= bpow radix2 30.
Hypothesis TU : forall i, (0 <= i < K)%Z -> t = u i \/ bpow radix2 (-30) <= Rabs (t - u i).
Lemma mono_u : forall i, (0 <= i)%Z -> (i + 1 < K)%Z -> u i <= u (i + 1)%Z.
Proof. intros i I J. pose proof (bpow_gt_0 radix2 (-19)). destruct (step i I J); lra. Qed.
Lemma um i j : (0 <= i <= j)%Z -> (j < K)%Z -> u i <= u j. Proof. apply umono. exact mono_u. Qed.
Lemma ugap i j : (0 <= i <= j)%Z -> (j < K)%Z -> u i = u j \/ u i + bpow radix2 (-19) <= u j.
Proof.
  intros H J. replace j with (i + Z.of_nat (Z.to_nat (j - i)))%Z in * by lia. induction (Z.to_nat (j - i)) as [|n IH]; [rewrite Z.add_0_r; now left|]. specialize (IH ltac:(lia) ltac:(lia)). pose proof (step (i + Z.of_nat n) ltac:(lia) ltac:(lia)) as S1. pose proof (bpow_gt_0 radix2 (-19)). replace (i + Z.of_nat n + 1)%Z with (i + Z.of_nat (S n))%Z in S1 by lia. destruct IH, S1; [left|right|right|right]; lra.
Qed.
Lemma b31 : bpow radix2 31 = 2 * bpow radix2 30. Proof. change 31%Z with (1 + 30)%Z. rewrite bpow_plus. reflexivity. Qed.
Lemma ubnd i : (0 <= i < K)%Z -> - bpow radix2 30 <= u i <= bpow radix2 30.
Proof. intros H. destruct (U i H) as (_ & _ & _ & B). now apply Rabs_le_inv in B. Qed.
Lemma tgap i : (0 <= i < K)%Z -> u i <= t -> gap (-30) 31 (t - u i).
Proof. intros H L. pose proof (ubnd i H). apply Rabs_le_inv in TB. unfold gap. rewrite b31. destruct (TU i H) as [E|E]; [left; lra|right]. rewrite Rabs_pos_eq in E by lra. lra. Qed.
Lemma tgap2 i : (0 <= i < K)%Z -> t <= u i -> gap (-30) 31 (u i - t).
Proof. intros H L. pose proof (ubnd i H). apply Rabs_le_inv in TB. unfold gap. rewrite b31. destruct (TU i H) as [E|E]; [left; lra|right]. rewrite Rabs_left1 in E by lra. lra. Qed.
(** the distance of two knots *)
Lemma dknots i j x y : (0 <= i <= j)%Z -> (j < K)%Z -> is64 x (u i) -> is64 y (u j) ->
  (u j - u i = 0 /\ isEqual (sub64 y x) f0 = true) \/ (bpow radix2 (-19) <= u j - u i <= bpow radix2 31 /\ isEqual (sub64 y x) f0 = false /\ exists d, is64 (sub64 y x) d /\ near 1 (u j - u i) d).
Proof.
  intros I J X Y. pose proof (ubnd i ltac:(lia)). pose proof (ubnd j ltac:(lia)). pose proof (bpow_gt_0 radix2 (-19)). pose proof b31. assert (S1 : is64 (sub64 y x) (r64 (u j - u i))). { apply (sub64_r _ _ _ _ 31); try assumption; try lia. apply Rabs_le. lra. }
  destruct (ugap i j I J) as [E|E].
  - left. split; [lra|]. replace (u j - u i) with 0 in S1 by lra. rewrite r64_0 in S1. now apply (isEqual_0 _ 0).
  - right. split; [lra|]. split.
    + apply (isEqual_big _ _ S1). apply rnd_ge_r; [|lra]. pose proof (fmt_grid 1 (-19) ltac:(lia) ltac:(lia)) as F. now rewrite Rmult_1_l in F.
    + exists (r64 (u j - u i)). split; [exact S1|]. apply near_r. right. pose proof (bpow_le radix2 (-1022) (-19) ltac:(lia)). lra.
Qed.
Lemma al_gap k i : (0 <= i)%Z -> (i + Z.of_nat k < K)%Z -> u i <= t <= u (i + Z.of_nat k)%Z -> gap (-61) 0 (al u t k i) /\ gap (-61) 0 (be u t k i).
Proof.
  intros I J H. pose proof (al_01 u K t k i I J H) as [[A1 A2] [B1 B2]]. unfold al, be in *. destruct (Req_EM_T _ 0) as [E|E]; [split; left; reflexivity|].
  pose proof (ubnd i ltac:(lia)). pose proof (ubnd (i + Z.of_nat k) ltac:(lia)). destruct (ugap i (i + Z.of_nat k) ltac:(lia) ltac:(lia)) as [F|F]; [lra|]. pose proof (bpow_gt_0 radix2 (-19)). pose proof b31.
  assert (D : bpow radix2 (-19) <= u (i + Z.of_nat k)%Z - u i <= bpow radix2 31) by lra. split.
  - pose proof (gap_div _ _ _ _ _ _ (tgap i ltac:(lia) ltac:(lra)) D) as [G|G]; [left; exact G|right]. change (-30 - 31)%Z with (-61)%Z in G. change (bpow radix2 0) with 1. lra.
  - pose proof (gap_div _ _ _ _ _ _ (tgap2 (i + Z.of_nat k) ltac:(lia) ltac:(lra)) D) as [G|G]; [left; exact G|right]. change (-30 - 31)%Z with (-61)%Z in G. change (bpow radix2 0) with 1. lra.
Qed.
Lemma bR_gap k : forall i, (0 <= i)%Z -> (i + Z.of_nat k + 1 < K)%Z -> gap (-61 * Z.of_nat k) (Z.of_nat k) (bR u t k i).
Proof.
  induction k as [|k IH]; intros i I J.
  - cbn. destruct (Rle_dec _ _); [destruct (Rlt_dec _ _)|]; [right; cbn; lra|left; reflexivity|left; reflexivity].
  - cbn [bR]. replace (Z.of_nat (S k)) with (Z.of_nat k + 1)%Z at 1 2 by lia. apply gap_add.
    + destruct (Req_dec (bR u t k i) 0) as [->|N]; [left; ring|]. apply (bR_in u K t mono_u) in N; try lia. pose proof (proj1 (al_gap (S k) i ltac:(lia) ltac:(lia) ltac:(replace (i + Z.of_nat (S k))%Z with (i + Z.of_nat k + 1)%Z by lia; lra))) as G.
      pose proof (gap_mul _ _ _ _ _ _ G (IH i ltac:(lia) ltac:(lia))) as G2. eapply gap_le; [| |exact G2]; lia.
    + destruct (Req_dec (bR u t k (i + 1)) 0) as [->|N]; [left; ring|]. apply (bR_in u K t mono_u) in N; try lia. pose proof (proj2 (al_gap (S k) (i + 1) ltac:(lia) ltac:(lia) ltac:(replace (i + 1 + Z.of_nat (S k))%Z with (i + 1 + Z.of_nat k + 1)%Z by lia; lra))) as G.
      pose proof (gap_mul _ _ _ _ _ _ G (IH (i + 1)%Z ltac:(lia) ltac:(lia))) as G2. eapply gap_le; [| |exact G2]; lia.
Qed.
Lemma u32_id i : (0 <= i < 2 ^ 31)%Z -> u32 i = i. Proof. intros H. unfold u32. apply Z.mod_small. lia. Qed.
Lemma tsub i x : (0 <= i < K)%Z -> is64 x (u i) -> (is64 (sub64 tf x) (r64 (t - u i)) /\ Rabs (r64 (t - u i)) <= bpow radix2 32) /\ (is64 (sub64 x tf) (r64 (u i - t)) /\ Rabs (r64 (u i - t)) <= bpow radix2 32).
Proof.
  intros H X. pose proof (ubnd i H). pose proof (Rabs_le_inv _ _ TB) as TB'. pose proof b31. pose proof (bpow_le radix2 31 32 ltac:(lia)).
  assert (A1 : Rabs (t - u i) <= bpow radix2 31) by (apply Rabs_le; lra). assert (A2 : Rabs (u i - t) <= bpow radix2 31) by (apply Rabs_le; lra).
  split; split.
  - apply (sub64_r _ _ _ _ 31); try assumption; lia.
  - apply (r64_abs _ 31) in A1; [lra|lia].
  - apply (sub64_r _ _ _ _ 31); try assumption; lia.
  - apply (r64_abs _ 31) in A2; [lra|lia].
Qed.
Lemma basis_near k : (k <= 15)%nat -> forall i, (0 <= i)%Z -> (i + Z.of_nat k + 1 < K)%Z -> exists x v, basisN c k i tf = Val x /\ is64 x v /\ near (5 * k) (bR u t k i) v.
Proof.
  induction k as [|k IH]; intros K15 i I J.
  - destruct (U i ltac:(lia)) as (a & Ra & Xa & _). destruct (U (i + 1)%Z ltac:(lia)) as (b & Rb & Xb & _). cbn [basisN bR]. rewrite Ra. cbn [bind]. rewrite (u32_id (i + 1)) by lia. rewrite Rb. cbn [bind]. rewrite (leb_r _ _ _ _ Xa T), (ltb64 _ _ _ _ T Xb).
    destruct (Rle_bool_spec (u i) t); destruct (Rle_dec (u i) t); try lra; [destruct (Rlt_bool_spec t (u (i + 1)%Z)); destruct (Rlt_dec t (u (i + 1)%Z)); try lra|].
    + exists f1, 1. split; [reflexivity|]. split; [exact f1r|apply near_refl; lra].
    + exists f0, 0. split; [reflexivity|]. split; [exact f0r|apply near_refl; lra].
    + exists f0, 0. split; [reflexivity|]. split; [exact f0r|apply near_refl; lra].
  - destruct (U i ltac:(lia)) as (xi & Ri & Xi & _). destruct (U (i + Z.of_nat (S k))%Z ltac:(lia)) as (xk & Rk & Xk & _). destruct (U (i + Z.of_nat (S k) + 1)%Z ltac:(lia)) as (xl & Rl & Xl & _). destruct (U (i + 1)%Z ltac:(lia)) as (xj & Rj & Xj & _).
    cbn [basisN]. rewrite Ri. cbn [bind]. rewrite !(u32_id _) by lia. rewrite Rk. cbn [bind]. rewrite Rl. cbn [bind]. rewrite Rj. cbn [bind]. cbn [bR].
    assert (T1 : exists x1 v1, (if isEqual (sub64 xk xi) f0 then Val f0 else (let* x := basisN c k i tf in Val (div64 (mul64 x (sub64 tf xi)) (sub64 xk xi)))) = Val x1 /\ is64 x1 v1 /\ near (5 * k + 4) (al u t (S k) i * bR u t k i) v1).
    { unfold al. destruct (dknots i (i + Z.of_nat (S k)) xi xk ltac:(lia) ltac:(lia) Xi Xk) as [[E ->]|(E & -> & d & Xd & Nd)].
      - exists f0, 0. destruct (Req_EM_T _ 0) as [_|F]; [|contradiction]. split; [reflexivity|]. split; [exact f0r|rewrite Rmult_0_l; apply near_refl; lra].
      - pose proof (bpow_gt_0 radix2 (-19)). destruct (Req_EM_T _ 0) as [F|_]; [lra|]. destruct (IH ltac:(lia) i ltac:(lia) ltac:(lia)) as (x & v & -> & Xv & Nv). cbn [bind]. destruct (tsub i xi ltac:(lia) Xi) as [[Xa Ba] _].
        destruct (term _ _ _ _ _ (t - u i) (u (i + Z.of_nat (S k))%Z - u i) _ _ _ _ _ Xv Nv (bR_gap k i ltac:(lia) ltac:(lia)) ltac:(lia) Xa Xd) with (2 := Ba) (3 := Nd) (4 := E) as (v' & X' & N'); try lia.
        + intros N0. apply (bR_in u K t mono_u) in N0; try lia. pose proof (tgap i ltac:(lia) ltac:(lra)) as G. split; [|exact G]. apply near_r. destruct G as [G|G]; [left; exact G|right]. pose proof (bpow_le radix2 (-1022) (-30) ltac:(lia)). lra.
        + exists (div64 (mul64 x (sub64 tf xi)) (sub64 xk xi)), v'. split; [reflexivity|]. split; [exact X'|exact N']. }
    assert (T2 : exists x1 v1, (if isEqual (sub64 xl xj) f0 then Val f0 else (let* x := basisN c k (i + 1) tf in Val (div64 (mul64 x (sub64 xl tf)) (sub64 xl xj)))) = Val x1 /\ is64 x1 v1 /\ near (5 * k + 4) (be u t (S k) (i + 1) * bR u t k (i + 1)) v1).
    { unfold be. replace (i + 1 + Z.of_nat (S k))%Z with (i + Z.of_nat (S k) + 1)%Z by lia. destruct (dknots (i + 1) (i + Z.of_nat (S k) + 1) xj xl ltac:(lia) ltac:(lia) Xj Xl) as [[E ->]|(E & -> & d & Xd & Nd)].
      - exists f0, 0. destruct (Req_EM_T _ 0) as [_|F]; [|contradiction]. split; [reflexivity|]. split; [exact f0r|rewrite Rmult_0_l; apply near_refl; lra].
      - pose proof (bpow_gt_0 radix2 (-19)). destruct (Req_EM_T _ 0) as [F|_]; [lra|]. destruct (IH ltac:(lia) (i + 1)%Z ltac:(lia) ltac:(lia)) as (x & v & -> & Xv & Nv). cbn [bind]. destruct (tsub (i + Z.of_nat (S k) + 1) xl ltac:(lia) Xl) as [_ [Xa Ba]].
        destruct (term _ _ _ _ _ (u (i + Z.of_nat (S k) + 1)%Z - t) (u (i + Z.of_nat (S k) + 1)%Z - u (i + 1)%Z) _ _ _ _ _ Xv Nv (bR_gap k (i + 1) ltac:(lia) ltac:(lia)) ltac:(lia) Xa Xd) with (2 := Ba) (3 := Nd) (4 := E) as (v' & X' & N'); try lia.
        + intros N0. apply (bR_in u K t mono_u) in N0; try lia. replace (i + 1 + Z.of_nat k + 1)%Z with (i + Z.of_nat (S k) + 1)%Z in N0 by lia. pose proof (tgap2 (i + Z.of_nat (S k) + 1) ltac:(lia) ltac:(lra)) as G. split; [|exact G]. apply near_r. destruct G as [G|G]; [left; exact G|right]. pose proof (bpow_le radix2 (-1022) (-30) ltac:(lia)). lra.
        + exists (div64 (mul64 x (sub64 xl tf)) (sub64 xl xj)), v'. split; [reflexivity|]. split; [exact X'|exact N']. }
    destruct T1 as (x1 & v1 & -> & X1 & N1). cbn [bind]. destruct T2 as (x2 & v2 & -> & X2 & N2). cbn [bind].
    assert (S1 : gap (-61 * Z.of_nat (S k)) (Z.of_nat k) (al u t (S k) i * bR u t k i)).
    { destruct (Req_dec (bR u t k i) 0) as [->|N]; [left; ring|]. apply (bR_in u K t mono_u) in N; try lia. pose proof (proj1 (al_gap (S k) i ltac:(lia) ltac:(lia) ltac:(replace (i + Z.of_nat (S k))%Z with (i + Z.of_nat k + 1)%Z by lia; lra))) as G.
      pose proof (gap_mul _ _ _ _ _ _ G (bR_gap k i ltac:(lia) ltac:(lia))) as G2. eapply gap_le; [| |exact G2]; lia. }
    assert (S2 : gap (-61 * Z.of_nat (S k)) (Z.of_nat k) (be u t (S k) (i + 1) * bR u t k (i + 1))).
    { destruct (Req_dec (bR u t k (i + 1)) 0) as [->|N]; [left; ring|]. apply (bR_in u K t mono_u) in N; try lia. pose proof (proj2 (al_gap (S k) (i + 1) ltac:(lia) ltac:(lia) ltac:(replace (i + 1 + Z.of_nat (S k))%Z with (i + 1 + Z.of_nat k + 1)%Z by lia; lra))) as G.
      pose proof (gap_mul _ _ _ _ _ _ G (bR_gap k (i + 1) ltac:(lia) ltac:(lia))) as G2. eapply gap_le; [| |exact G2]; lia. }
    apply (gap_near _ _ _ _ _ (mu_small (5 * k + 4) ltac:(lia)) N1) in S1. apply (gap_near _ _ _ _ _ (mu_small (5 * k + 4) ltac:(lia)) N2) in S2.
    destruct (add_near _ _ _ _ _ _ _ _ _ X1 X2 N1 N2 S1 S2 ltac:(lia) ltac:(lia)) as [Xw Nw].
    exists (add64 x1 x2), (r64 (v1 + v2)). split; [reflexivity|]. split; [exact Xw|]. eapply near_le; [|exact Nw]. lia.
Qed.
End F.
