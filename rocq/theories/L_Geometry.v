(** L_Geometry.v -- rounding errors of solveLinearSystem; comparisons with a tolerance. *)
From Coq Require Import Reals Lra Psatz QArith.
From Flocq Require Import Core.
From Verif Require Import Base M_Float M_MathF M_Rect M_Matrix M_Geometry S_Double S_Matrix L_Double L_MathF P_MathF L_Matrix L_Matrix2 L_Matrix4.
Local Open Scope R_scope.

Definition uu : R := bpow radix2 (-53).
Definition tt_ : R := bpow radix2 (-1075).
Lemma uu_pos : 0 < uu. Proof. apply bpow_gt_0. Qed.
Lemma tt_pos : 0 < tt_. Proof. apply bpow_gt_0. Qed.
Lemma tt_small : tt_ <= uu * bpow radix2 (-100). Proof. unfold tt_, uu. rewrite <- bpow_plus. apply bpow_le. lia. Qed.
(** one rounding *)
Lemma rerr x : Rabs (r64 x - x) <= uu * Rabs x + tt_.
Proof. destruct (rel_err x) as (d & t & D & T & E). rewrite E. replace (x * (1 + d) + t - x) with (x * d + t) by ring. eapply Rle_trans; [apply Rabs_triang|]. rewrite Rabs_mult. pose proof (Rabs_pos x). unfold uu, tt_ in *. nra. Qed.
Lemma tri a b c A B : Rabs (a - b) <= A -> Rabs (b - c) <= B -> Rabs (a - c) <= A + B.
Proof. intros H1 H2. replace (a - c) with ((a - b) + (b - c)) by ring. eapply Rle_trans; [apply Rabs_triang|]. lra. Qed.
Lemma le_abs a b A : Rabs (a - b) <= A -> Rabs a <= Rabs b + A.
Proof. intros H. replace a with (b + (a - b)) by ring. eapply Rle_trans; [apply Rabs_triang|]. lra. Qed.
Lemma mul_abs a b c A : Rabs (a - b) <= A -> Rabs (a * c - b * c) <= A * Rabs c.
Proof. intros H. replace (a * c - b * c) with ((a - b) * c) by ring. rewrite Rabs_mult. apply Rmult_le_compat_r; [apply Rabs_pos|exact H]. Qed.
Lemma num a : Rabs a <= 2 * bpow radix2 900 -> Rabs a <= bpow radix2 901.
Proof. intros H. change 901%Z with (1 + 900)%Z. rewrite bpow_plus. exact H. Qed.

Lemma tt_uu : tt_ <= uu. Proof. pose proof tt_small. assert (bpow radix2 (-100) <= 1) by (change 1 with (bpow radix2 0); apply bpow_le; lia). pose proof uu_pos. nra. Qed.
Section Solve.
Variables A1 A2 B1 B2 R1 R2 : Z.
Variables al be : R.
Notation a1 := (IZR A1). Notation a2 := (IZR A2). Notation b1 := (IZR B1). Notation b2 := (IZR B2). Notation r1 := (IZR R1). Notation r2 := (IZR R2).
Hypothesis HA1 : (-512 <= A1 <= 512)%Z.
Hypothesis HA2 : (-512 <= A2 <= 512)%Z.
Hypothesis HB1 : (-512 <= B1 <= 512)%Z.
Hypothesis HB2 : (-512 <= B2 <= 512)%Z.
Hypothesis HR1 : (-512 <= R1 <= 512)%Z.
Hypothesis HR2 : (-512 <= R2 <= 512)%Z.
Hypothesis N1 : A1 <> 0%Z.
Hypothesis ND : (A1 * B2 - A2 * B1 <> 0)%Z.
Hypothesis E1 : a1 * al + b1 * be = r1.
Hypothesis E2 : a2 * al + b2 * be = r2.
Definition F := r64 (a2 / a1).
Definition B2' := r64 (b2 - r64 (F * b1)).
Definition R2' := r64 (r2 - r64 (F * r1)).
Definition Bx := r64 (R2' / B2').
Definition Ax := r64 (r64 (r1 - r64 (Bx * b1)) / a1).
Definition w := / Rabs a1.
Definition b := (a1 * b2 - a2 * b1) / a1.
Lemma small z : (-512 <= z <= 512)%Z -> Rabs (IZR z) <= 512.
Proof. intros H. rewrite <- abs_IZR. apply IZR_le. lia. Qed.
Lemma one_a1 : 1 <= Rabs a1. Proof. rewrite <- abs_IZR. apply IZR_le. lia. Qed.
Lemma w_bnd : / 512 <= w <= 1.
Proof. pose proof one_a1. pose proof (small _ HA1). unfold w. split; [apply Rinv_le_contravar; lra|]. rewrite <- Rinv_1. apply Rinv_le_contravar; lra. Qed.
Lemma a1_nz : a1 <> 0. Proof. pose proof one_a1. intros H0. rewrite H0, Rabs_R0 in H. lra. Qed.
Lemma abs_div x : Rabs (x / a1) = Rabs x * w.
Proof. unfold Rdiv, w. rewrite Rabs_mult, Rabs_inv. reflexivity. Qed.
Lemma b_w : w <= Rabs b.
Proof.
  unfold b. rewrite abs_div. assert (1 <= Rabs (a1 * b2 - a2 * b1)). { rewrite <- !mult_IZR, <- minus_IZR, <- abs_IZR. apply IZR_le. lia. } pose proof w_bnd. nra.
Qed.
Lemma b_up : Rabs b <= 524288 * w.
Proof.
  unfold b. rewrite abs_div. pose proof w_bnd. apply Rmult_le_compat_r; [lra|]. rewrite <- !mult_IZR, <- minus_IZR, <- abs_IZR. apply IZR_le. nia.
Qed.
Lemma tt_w : tt_ <= uu * w.
Proof.
  pose proof w_bnd. pose proof uu_pos. pose proof tt_small. assert (bpow radix2 (-100) <= / 1000) by (apply Rle_trans with (bpow radix2 (-10)); [apply bpow_le; lia|]; change (bpow radix2 (-10)) with (/ 1024); lra). assert (uu * bpow radix2 (-100) <= uu * w) by (apply Rmult_le_compat_l; lra). lra.
Qed.
Lemma F_err : Rabs (F - a2 / a1) <= 513 * uu * w.
Proof.
  unfold F. eapply Rle_trans; [apply rerr|]. rewrite abs_div. pose proof (small _ HA2). pose proof (Rabs_pos a2). pose proof w_bnd. pose proof uu_pos. pose proof tt_w. assert (Rabs a2 * w <= 512 * w) by nra. nra.
Qed.
(** F * z for an integer z *)
Lemma Fz_err z : (-512 <= z <= 512)%Z -> Rabs (r64 (F * IZR z) - a2 / a1 * IZR z) <= 526000 * uu * w.
Proof.
  intros Hz. pose proof (small _ Hz) as Z1. pose proof (Rabs_pos (IZR z)). pose proof F_err as FE. pose proof (mul_abs _ _ (IZR z) _ FE) as M. pose proof w_bnd. pose proof uu_pos as UP. assert (U1 : uu <= / 1000000) by (unfold uu; apply Rle_trans with (bpow radix2 (-20)); [apply bpow_le; lia|]; change (bpow radix2 (-20)) with (/ 1048576); lra).
  assert (K : 0 <= 513 * uu * w) by nra. assert (M' : Rabs (F * IZR z - a2 / a1 * IZR z) <= 513 * uu * w * 512) by nra.
  pose proof (small _ HA2) as S2. pose proof (Rabs_pos a2). assert (Fz : Rabs (F * IZR z) <= 262145 * w). { pose proof (le_abs _ _ _ M') as L. assert (Rabs (a2 / a1 * IZR z) <= 262144 * w) by (rewrite Rabs_mult, abs_div; replace (262144 * w) with (512 * w * 512) by ring; apply Rmult_le_compat; [apply Rmult_le_pos; lra|lra|apply Rmult_le_compat_r; lra|lra]). assert (513 * uu * w * 512 <= w) by nra. lra. }
  pose proof (rerr (F * IZR z)) as RE. pose proof tt_w.
  eapply Rle_trans; [apply (tri _ _ _ _ _ RE M')|]. assert (uu * Rabs (F * IZR z) <= uu * (262145 * w)) by (apply Rmult_le_compat_l; lra). lra.
Qed.
Lemma u_small : uu <= / 1000000000000000.
Proof. unfold uu. apply Rle_trans with (bpow radix2 (-50)); [apply bpow_le; lia|]. change (bpow radix2 (-50)) with (/ 1125899906842624). lra. Qed.
(** 3 * 2^-35 *)
Definition h : R := 526100 * uu.
Lemma h_small : 0 < h <= / 1000000000.
Proof. pose proof u_small. pose proof uu_pos. unfold h. lra. Qed.
(** z2 - F * z1 *)
Lemma row_err z1 z2 x : (-512 <= z1 <= 512)%Z -> (IZR z2 - a2 / a1 * IZR z1 = x) -> Rabs (r64 (IZR z2 - r64 (F * IZR z1)) - x) <= h * w + 2 * uu * Rabs x.
Proof.
  intros H1 Ex. pose proof (Fz_err z1 H1) as FE. set (t := r64 (F * IZR z1)) in *. assert (D : Rabs (IZR z2 - t - x) <= 526000 * uu * w). { rewrite <- Ex. replace (IZR z2 - t - (IZR z2 - a2 / a1 * IZR z1)) with (- (t - a2 / a1 * IZR z1)) by ring. rewrite Rabs_Ropp. exact FE. }
  pose proof (rerr (IZR z2 - t)) as RE. pose proof (le_abs _ _ _ D) as L. pose proof w_bnd. pose proof tt_w. pose proof uu_pos. pose proof u_small. eapply Rle_trans; [apply (tri _ _ _ _ _ RE D)|]. pose proof (Rabs_pos x).
  assert (uu * Rabs (IZR z2 - t) <= uu * (Rabs x + 526000 * uu * w)) by (apply Rmult_le_compat_l; lra). assert (0 <= uu * w) by (apply Rmult_le_pos; lra). assert (uu * (526000 * uu * w) <= uu * w) by nra. assert (0 <= uu * Rabs x) by (apply Rmult_le_pos; lra). unfold h. lra.
Qed.
Lemma B2_err : Rabs (B2' - b) <= 2 * h * Rabs b.
Proof.
  eapply Rle_trans; [apply (row_err B1 B2 b HB1)|]. - unfold b. field. exact a1_nz. - pose proof b_w. pose proof h_small. pose proof uu_pos. assert (h * w <= h * Rabs b) by (apply Rmult_le_compat_l; lra). assert (2 * uu * Rabs b <= h * Rabs b) by (apply Rmult_le_compat_r; [apply Rabs_pos|unfold h; lra]). lra.
Qed.
Lemma R2_err : Rabs (R2' - b * be) <= h * Rabs b + 2 * uu * (Rabs b * Rabs be).
Proof.
  eapply Rle_trans; [apply (row_err R1 R2 (b * be) HR1)|].
  - rewrite <- E1, <- E2. unfold b. field. exact a1_nz.
  - rewrite Rabs_mult. pose proof b_w. pose proof h_small. assert (h * w <= h * Rabs b) by (apply Rmult_le_compat_l; lra). lra.
Qed.
Lemma b_nz : 0 < Rabs b. Proof. pose proof b_w. pose proof w_bnd. lra. Qed.
Lemma B2_lo : (1 - 2 * h) * Rabs b <= Rabs B2'.
Proof. pose proof B2_err as H. rewrite Rabs_minus_sym in H. apply le_abs in H. lra. Qed.
Lemma quot : Rabs (R2' / B2' - be) <= 3 * h * (1 + Rabs be).
Proof.
  pose proof B2_lo as L. pose proof b_nz as P. pose proof h_small as S. assert (NZ : 0 < Rabs B2') by nra. assert (N : B2' <> 0) by (intros Q; rewrite Q, Rabs_R0 in NZ; lra).
  replace (R2' / B2' - be) with ((R2' - b * be - (B2' - b) * be) / B2') by (field; exact N). unfold Rdiv. rewrite Rabs_mult, Rabs_inv. apply Rmult_le_reg_r with (Rabs B2'); [exact NZ|]. rewrite Rmult_assoc, Rinv_l, Rmult_1_r by lra.
  pose proof R2_err as X1. pose proof (mul_abs _ _ be _ B2_err) as X2. replace (B2' * be - b * be) with ((B2' - b) * be) in X2 by ring. assert (Q : Rabs (R2' - b * be - (B2' - b) * be) <= h * Rabs b + 2 * uu * (Rabs b * Rabs be) + 2 * h * Rabs b * Rabs be). { unfold Rminus at 1. eapply Rle_trans; [apply Rabs_triang|]. rewrite Rabs_Ropp. lra. }
  eapply Rle_trans; [exact Q|]. pose proof (Rabs_pos be) as Pb. assert (Y : 3 * h * (1 + Rabs be) * ((1 - 2 * h) * Rabs b) <= 3 * h * (1 + Rabs be) * Rabs B2') by (apply Rmult_le_compat_l; [apply Rmult_le_pos; lra|exact L]). eapply Rle_trans; [|exact Y].
  assert (uu <= h / 100) by (unfold h; pose proof uu_pos; lra). set (bb := Rabs b) in *. set (bt := Rabs be) in *. assert (0 <= bb * bt) by (apply Rmult_le_pos; lra). assert (uu * (bb * bt) <= h / 100 * (bb * bt)) by (apply Rmult_le_compat_r; lra).
  apply Rle_trans with (2.1 * h * (bb + bb * bt)); [nra|]. replace (3 * h * (1 + bt) * ((1 - 2 * h) * bb)) with ((3 * (1 - 2 * h)) * (h * (bb + bb * bt))) by ring. replace (2.1 * h * (bb + bb * bt)) with (2.1 * (h * (bb + bb * bt))) by ring. apply Rmult_le_compat_r; [apply Rmult_le_pos; lra|lra].
Qed.
Lemma Bx_err : Rabs (Bx - be) <= 4 * h * (1 + Rabs be).
Proof.
  unfold Bx. pose proof (rerr (R2' / B2')) as R. pose proof quot as Q. pose proof (le_abs _ _ _ Q) as L. pose proof h_small. pose proof (Rabs_pos be). pose proof uu_pos. assert (T : tt_ <= uu) by (pose proof tt_small; assert (bpow radix2 (-100) <= 1) by (change 1 with (bpow radix2 0); apply bpow_le; lia); nra).
  eapply Rle_trans; [apply (tri _ _ _ _ _ R Q)|]. assert (V : uu * Rabs (R2' / B2') <= uu * (2 * (1 + Rabs be))) by (apply Rmult_le_compat_l; [lra|]; nra). assert (5 * uu <= h) by (unfold h; lra). nra.
Qed.
Lemma Ax_err : Rabs (Ax - al) <= 2100 * h * (1 + Rabs be).
Proof.
  pose proof Bx_err as BE. pose proof h_small as HS. pose proof uu_pos as UP. pose proof (Rabs_pos be) as P. pose proof (small _ HB1) as SB. pose proof (small _ HR1) as SR. pose proof w_bnd as W. assert (U1 : 5000 * uu <= h) by (unfold h; lra). assert (T : tt_ <= uu) by (pose proof tt_small; assert (bpow radix2 (-100) <= 1) by (change 1 with (bpow radix2 0); apply bpow_le; lia); nra).
  set (s := 1 + Rabs be) in *. assert (S1 : 1 <= s) by (unfold s; lra). pose proof (Rabs_pos b1) as P1.
  assert (M : Rabs (Bx * b1 - be * b1) <= 2048 * h * s). { eapply Rle_trans; [apply (mul_abs _ _ b1 _ BE)|]. replace (2048 * h * s) with (4 * h * s * 512) by ring. apply Rmult_le_compat_l; [|exact SB]. apply Rmult_le_pos; lra. }
  assert (Mb : Rabs (be * b1) <= 512 * s). { rewrite Rabs_mult, Rmult_comm. apply Rmult_le_compat; [exact P1|exact P|exact SB|unfold s; lra]. }
  assert (hs : h * s <= s / 1000000000) by (unfold Rdiv; rewrite (Rmult_comm s); apply Rmult_le_compat_r; lra). assert (us : 5000 * (uu * s) <= h * s) by (replace (5000 * (uu * s)) with (5000 * uu * s) by ring; apply Rmult_le_compat_r; lra). assert (us1 : uu <= uu * s) by nra.
  set (t := r64 (Bx * b1)). assert (T1 : Rabs (t - be * b1) <= 2049 * h * s). { pose proof (rerr (Bx * b1)) as R. pose proof (le_abs _ _ _ M) as L. assert (L' : Rabs (Bx * b1) <= 513 * s) by lra. assert (uu * Rabs (Bx * b1) <= uu * (513 * s)) by (apply Rmult_le_compat_l; lra). eapply Rle_trans; [apply (tri _ _ _ _ _ R M)|]. lra. }
  set (v := r64 (r1 - t)). assert (V : Rabs (v - a1 * al) <= 2051 * h * s).
  { assert (Q : Rabs (r1 - t - a1 * al) <= 2049 * h * s). { rewrite <- E1. replace (a1 * al + b1 * be - t - a1 * al) with (- (t - be * b1)) by ring. rewrite Rabs_Ropp. exact T1. } pose proof (rerr (r1 - t)) as R. assert (L : Rabs (r1 - t) <= 1026 * s). { unfold Rminus. eapply Rle_trans; [apply Rabs_triang|]. rewrite Rabs_Ropp. pose proof (le_abs _ _ _ T1). lra. } assert (uu * Rabs (r1 - t) <= uu * (1026 * s)) by (apply Rmult_le_compat_l; lra). eapply Rle_trans; [apply (tri _ _ _ _ _ R Q)|]. lra. }
  change Ax with (r64 (v / a1)). assert (X : Rabs (v / a1 - al) <= 2051 * h * s). { replace (v / a1 - al) with ((v - a1 * al) / a1) by (field; exact a1_nz). rewrite abs_div. pose proof (Rabs_pos (v - a1 * al)). apply Rle_trans with (Rabs (v - a1 * al) * 1); [apply Rmult_le_compat_l; lra|lra]. }
  assert (Lal : Rabs al <= 1024 * s). { replace al with ((r1 - be * b1) / a1) by (rewrite <- E1; field; exact a1_nz). rewrite abs_div. assert (Rabs (r1 - be * b1) <= 1024 * s) by (unfold Rminus; eapply Rle_trans; [apply Rabs_triang|]; rewrite Rabs_Ropp; lra). pose proof (Rabs_pos (r1 - be * b1)). apply Rle_trans with (Rabs (r1 - be * b1) * 1); [apply Rmult_le_compat_l; lra|lra]. }
  pose proof (rerr (v / a1)) as R. pose proof (le_abs _ _ _ X) as L. assert (uu * Rabs (v / a1) <= uu * (1025 * s)) by (apply Rmult_le_compat_l; lra). eapply Rle_trans; [apply (tri _ _ _ _ _ R X)|]. lra.
Qed.
End Solve.
