(** L_Geometry3.v -- solveLinearSystem on integers; comparisons with 0 and 1. *)
From Coq Require Import Reals Lra Psatz QArith.
From Flocq Require Import Core BinarySingleNaN Plus_error.
From Verif Require Import Base M_Float M_MathF M_Rect M_Matrix M_Geometry S_Double S_Matrix S_Geometry L_Double L_MathF P_MathF L_Matrix L_Matrix2 L_Matrix4 L_Matrix5 L_Matrix6 L_Geometry L_Geometry2.
Local Open Scope Z_scope.

Lemma at0 z x : at_ 0 z x <-> is64 x (IZR z).
Proof. rewrite at_r. change (bpow radix2 0) with 1%R. now rewrite Rmult_1_r. Qed.
Lemma b30 x : (Rabs x <= 1000000000)%R -> (Rabs x <= bpow radix2 30)%R.
Proof. intros H. change (bpow radix2 30) with 1073741824%R. lra. Qed.
Lemma r64_big x : (Rabs x <= 100000000)%R -> (Rabs (r64 x) <= 100000001)%R.
Proof. intros H. pose proof (rerr x) as E. apply le_abs in E. pose proof tt_uu. pose proof u_small. pose proof uu_pos. pose proof (Rabs_pos x). assert (uu * Rabs x <= / 1000)%R; [|lra]. apply Rle_trans with (/ 1000000000000000 * 100000000)%R; [apply Rmult_le_compat; lra|lra]. Qed.
Lemma near_big x c d : (Rabs (x - c) <= d)%R -> (Rabs c + d <= 1000000000)%R -> (Rabs x <= bpow radix2 30)%R.
Proof. intros H L. apply b30. apply le_abs in H. lra. Qed.
Section Core.
Variables (A1 A2 B1 B2 R1 R2 : Z) (xa1 xa2 xb1 xb2 xr1 xr2 : spec_float) (al be : R).
Hypothesis HA1 : -512 <= A1 <= 512.
Hypothesis HA2 : -512 <= A2 <= 512.
Hypothesis HB1 : -512 <= B1 <= 512.
Hypothesis HB2 : -512 <= B2 <= 512.
Hypothesis HR1 : -512 <= R1 <= 512.
Hypothesis HR2 : -512 <= R2 <= 512.
Hypothesis N1 : A1 <> 0.
Hypothesis ND : A1 * B2 - A2 * B1 <> 0.
Hypothesis E1 : (IZR A1 * al + IZR B1 * be = IZR R1)%R.
Hypothesis E2 : (IZR A2 * al + IZR B2 * be = IZR R2)%R.
Hypothesis XA1 : is64 xa1 (IZR A1).
Hypothesis XA2 : is64 xa2 (IZR A2).
Hypothesis XB1 : is64 xb1 (IZR B1).
Hypothesis XB2 : is64 xb2 (IZR B2).
Hypothesis XR1 : is64 xr1 (IZR R1).
Hypothesis XR2 : is64 xr2 (IZR R2).
Lemma be_big : (Rabs be <= 524288)%R.
Proof.
  assert (E : (IZR (A1 * B2 - A2 * B1) * be = IZR (A1 * R2 - A2 * R1))%R) by (rewrite !minus_IZR, !mult_IZR, <- E1, <- E2; ring).
  assert (H : (Rabs (IZR (A1 * B2 - A2 * B1)) * Rabs be <= 524288)%R) by (rewrite <- Rabs_mult, E, <- abs_IZR; apply IZR_le; nia). assert (1 <= Rabs (IZR (A1 * B2 - A2 * B1)))%R by (rewrite <- abs_IZR; apply IZR_le; lia). pose proof (Rabs_pos be). nra.
Qed.
Lemma al_big : (Rabs al <= 524288)%R.
Proof.
  assert (E : (IZR (A1 * B2 - A2 * B1) * al = IZR (R1 * B2 - R2 * B1))%R) by (rewrite !minus_IZR, !mult_IZR, <- E1, <- E2; ring).
  assert (H : (Rabs (IZR (A1 * B2 - A2 * B1)) * Rabs al <= 524288)%R) by (rewrite <- Rabs_mult, E, <- abs_IZR; apply IZR_le; nia). assert (1 <= Rabs (IZR (A1 * B2 - A2 * B1)))%R by (rewrite <- abs_IZR; apply IZR_le; lia). pose proof (Rabs_pos al). nra.
Qed.
Let F_ := div64 xa2 xa1.
Let B2_ := sub64 xb2 (mul64 F_ xb1).
Let R2_ := sub64 xr2 (mul64 F_ xr1).
Let B_ := div64 R2_ B2_.
Let A_ := div64 (sub64 xr1 (mul64 B_ xb1)) xa1.
Lemma solve_core : is64 A_ (Ax A1 A2 B1 B2 R1 R2) /\ is64 B_ (Bx A1 A2 B1 B2 R1 R2).
Proof.
  pose proof (w_bnd A1 HA1 N1) as W. pose proof uu_pos as UP. pose proof u_small as US. pose proof h_small as HS.
  assert (SM : forall z, -512 <= z <= 512 -> (Rabs (IZR z) <= 512)%R) by (intros z Hz; apply small; lia).
  assert (XF : is64 F_ (F A1 A2)). { apply (div64_r _ _ _ _ 30 ltac:(lia) XA2 XA1); [apply a1_nz; assumption|]. apply b30. rewrite abs_div. pose proof (SM _ HA2). pose proof (Rabs_pos (IZR A2)). nra. }
  assert (FB : (Rabs (F A1 A2) <= 513)%R). { pose proof (F_err A1 A2 HA1 HA2 N1) as E. apply le_abs in E. rewrite abs_div in E. pose proof (SM _ HA2). pose proof (Rabs_pos (IZR A2)). assert (Rabs (IZR A2) * w A1 <= 512)%R by nra. assert (513 * uu * w A1 <= 1)%R by nra. lra. }
  assert (FZ : forall z x, -512 <= z <= 512 -> is64 x (IZR z) -> is64 (mul64 F_ x) (r64 (F A1 A2 * IZR z)) /\ (Rabs (r64 (F A1 A2 * IZR z)) <= 100000001)%R).
  { intros z x Hz X. pose proof (SM _ Hz). pose proof (Rabs_pos (IZR z)). assert (Rabs (F A1 A2 * IZR z) <= 262656)%R by (rewrite Rabs_mult; replace 262656%R with (513 * 512)%R by lra; apply Rmult_le_compat; [apply Rabs_pos|lra|lra|lra]). split; [apply (mul64_r _ _ _ _ 30 ltac:(lia) XF X); apply b30; lra|]. apply r64_big. lra. }
  assert (ROW : forall z1 z2 x1 x2, -512 <= z1 <= 512 -> -512 <= z2 <= 512 -> is64 x1 (IZR z1) -> is64 x2 (IZR z2) -> is64 (sub64 x2 (mul64 F_ x1)) (r64 (IZR z2 - r64 (F A1 A2 * IZR z1)))).
  { intros z1 z2 x1 x2 H1 H2 X1 X2. destruct (FZ z1 x1 H1 X1) as [M1 M2]. apply (sub64_r _ _ _ _ 30 ltac:(lia) X2 M1). apply b30. pose proof (SM _ H2). unfold Rminus. eapply Rle_trans; [apply Rabs_triang|]. rewrite Rabs_Ropp. lra. }
  pose proof (ROW B1 B2 xb1 xb2 HB1 HB2 XB1 XB2) as XB'. fold B2_ in XB'. change (r64 (IZR B2 - r64 (F A1 A2 * IZR B1))) with (B2' A1 A2 B1 B2) in XB'.
  pose proof (ROW R1 R2 xr1 xr2 HR1 HR2 XR1 XR2) as XR'. fold R2_ in XR'. change (r64 (IZR R2 - r64 (F A1 A2 * IZR R1))) with (R2' A1 A2 R1 R2) in XR'.
  pose proof (B2_lo A1 A2 B1 B2 HA1 HA2 HB1 N1 ND) as LO. pose proof (b_nz A1 A2 B1 B2 HA1 N1 ND) as NZ. assert (NB : B2' A1 A2 B1 B2 <> 0%R). { intros Q. rewrite Q, Rabs_R0 in LO. nra. }
  pose proof be_big as BB. pose proof (Rabs_pos be) as PB. assert (H9 : (h * (1 + Rabs be) <= 1)%R). { apply Rle_trans with (/ 1000000000 * 524289)%R; [apply Rmult_le_compat; lra|lra]. }
  pose proof (quot A1 A2 B1 B2 R1 R2 al be HA1 HA2 HB1 HR1 N1 ND E1 E2) as QE.
  assert (XB : is64 B_ (Bx A1 A2 B1 B2 R1 R2)). { apply (div64_r _ _ _ _ 30 ltac:(lia) XR' XB' NB). apply (near_big _ be _ QE). lra. }
  split; [|exact XB]. pose proof (Bx_err A1 A2 B1 B2 R1 R2 al be HA1 HA2 HB1 HR1 N1 ND E1 E2) as BE.
  set (B_r := Bx A1 A2 B1 B2 R1 R2) in *. assert (Bb : (Rabs B_r <= 524300)%R) by (pose proof (le_abs _ _ _ BE); lra).
  pose proof (SM _ HB1) as S1. pose proof (Rabs_pos (IZR B1)). pose proof (Rabs_pos B_r). assert (M : (Rabs (B_r * IZR B1) <= 300000000)%R) by (rewrite Rabs_mult; replace 300000000%R with (585937.5 * 512)%R by lra; apply Rmult_le_compat; lra).
  assert (XM : is64 (mul64 B_ xb1) (r64 (B_r * IZR B1))) by (apply (mul64_r _ _ _ _ 30 ltac:(lia) XB XB1), b30; lra).
  assert (M2 : (Rabs (r64 (B_r * IZR B1)) <= 300000001)%R). { pose proof (rerr (B_r * IZR B1)) as E. apply le_abs in E. pose proof tt_uu. pose proof (Rabs_pos (B_r * IZR B1)). assert (uu * Rabs (B_r * IZR B1) <= / 1000)%R; [|lra]. apply Rle_trans with (/ 1000000000000000 * 300000000)%R; [apply Rmult_le_compat; lra|lra]. }
  pose proof (SM _ HR1) as S2. assert (D : (Rabs (IZR R1 - r64 (B_r * IZR B1)) <= 300001000)%R) by (unfold Rminus; eapply Rle_trans; [apply Rabs_triang|]; rewrite Rabs_Ropp; lra).
  assert (XD : is64 (sub64 xr1 (mul64 B_ xb1)) (r64 (IZR R1 - r64 (B_r * IZR B1)))) by (apply (sub64_r _ _ _ _ 30 ltac:(lia) XR1 XM), b30; lra).
  apply (div64_r _ _ _ _ 30 ltac:(lia) XD XA1); [apply a1_nz; assumption|]. apply b30. rewrite abs_div. assert (D2 : (Rabs (r64 (IZR R1 - r64 (B_r * IZR B1))) <= 300001001)%R). { pose proof (rerr (IZR R1 - r64 (B_r * IZR B1))) as E. apply le_abs in E. pose proof tt_uu. pose proof (Rabs_pos (IZR R1 - r64 (B_r * IZR B1))) as P. assert (uu * Rabs (IZR R1 - r64 (B_r * IZR B1)) <= / 1000)%R; [|lra]. apply Rle_trans with (/ 1000000000000000 * 300001000)%R; [apply Rmult_le_compat; lra|lra]. }
  pose proof (Rabs_pos (r64 (IZR R1 - r64 (B_r * IZR B1)))). nra.
Qed.
End Core.
Lemma solve_r va vb vr a1 a2 b1 b2 r1 r2 al be : at2 0 a1 a2 va -> at2 0 b1 b2 vb -> at2 0 r1 r2 vr -> box2 512 a1 a2 -> box2 512 b1 b2 -> box2 512 r1 r2 -> a1 * b2 - a2 * b1 <> 0 ->
  (IZR a1 * al + IZR b1 * be = IZR r1)%R -> (IZR a2 * al + IZR b2 * be = IZR r2)%R ->
  exists A B, is64 (px (solveLinearSystem va vb vr)) A /\ is64 (py (solveLinearSystem va vb vr)) B /\ (Rabs (A - al) <= 2100 * h * (1 + Rabs be))%R /\ (Rabs (B - be) <= 4 * h * (1 + Rabs be))%R /\ (Rabs al <= 524288)%R /\ (Rabs be <= 524288)%R.
Proof.
  intros [X1 X2] [Y1 Y2] [R1 R2] [Ba1 Ba2] [Bb1 Bb2] [Br1 Br2] ND E1 E2. pose proof X1 as I. rewrite at0 in X1, X2, Y1, Y2, R1, R2. unfold solveLinearSystem. rewrite (equal0 0 a1 _ I) by lia. destruct (Z.eqb_spec a1 0) as [Z0|Z0].
  - assert (N2 : a2 <> 0) by (intros ->; subst a1; lia). assert (ND' : a2 * b1 - a1 * b2 <> 0) by lia.
    destruct (solve_core a2 a1 b2 b1 r2 r1 _ _ _ _ _ _ al be Ba2 Ba1 Bb2 Bb1 Br2 Br1 N2 ND' E2 E1 X2 X1 Y2 Y1 R2 R1) as [P1 P2]. do 2 eexists. cbn [px py]. split; [exact P1|]. split; [exact P2|]. split; [apply (Ax_err a2 a1 b2 b1 r2 r1 al be); assumption|]. split; [apply (Bx_err a2 a1 b2 b1 r2 r1 al be); assumption|].
    split; [apply (al_big a2 a1 b2 b1 r2 r1 al be); assumption|apply (be_big a2 a1 b2 b1 r2 r1 al be); assumption].
  - destruct (solve_core a1 a2 b1 b2 r1 r2 _ _ _ _ _ _ al be Ba1 Ba2 Bb1 Bb2 Br1 Br2 Z0 ND E1 E2 X1 X2 Y1 Y2 R1 R2) as [P1 P2]. do 2 eexists. cbn [px py]. split; [exact P1|]. split; [exact P2|]. split; [apply (Ax_err a1 a2 b1 b2 r1 r2 al be); assumption|]. split; [apply (Bx_err a1 a2 b1 b2 r1 r2 al be); assumption|].
    split; [apply (al_big a1 a2 b1 b2 r1 r2 al be); assumption|apply (be_big a1 a2 b1 b2 r1 r2 al be); assumption].
Qed.
(** isLess(x, 0) and isGreater(x, 1) *)
Lemma less0 x v : is64 x v -> (Rabs v <= bpow radix2 900)%R -> isLess x f0 = Rle_bool v (- tol).
Proof.
  intros X V. pose proof tol_20 as T. assert (T9 : (bpow radix2 (-19) <= bpow radix2 900)%R) by (apply bpow_le; lia). pose proof (bpow_gt_0 radix2 (-21)) as T0. assert (S : (Rabs (v + tol) <= bpow radix2 901)%R). { eapply Rle_trans; [apply Rabs_triang|]. rewrite (Rabs_pos_eq tol) by lra. replace (bpow radix2 901) with (2 * bpow radix2 900)%R by (change 901 with (1 + 900); rewrite bpow_plus; reflexivity). lra. }
  pose proof (add64_r _ _ _ _ 901 ltac:(lia) X RESABS_r S) as A. unfold isLess, f0. rewrite (leb_r _ _ _ _ A zero_r). destruct (Rle_lt_dec v (- tol)) as [L|L].
  - rewrite (Rle_bool_true v) by exact L. apply Rle_bool_true. rewrite <- r64_0. apply r64_le. lra.
  - rewrite (Rle_bool_false v) by exact L. apply Rle_bool_false. destruct (Rlt_le_dec 0 (r64 (v + tol))) as [P|P]; [exact P|exfalso]. pose proof (fmt64 _ _ X) as Fv. pose proof tol_fmt as Ft. assert (Z0 : r64 (v + tol) = 0%R) by (apply Rle_antisym; [exact P|rewrite <- r64_0; apply r64_le; lra]).
    assert (Z1 : (v + tol)%R = 0%R); [|lra]. assert (VE : Valid_exp fx) by (apply (fexp_correct 53 1024 p53)). assert (NF : Exp_not_FTZ fx) by (apply monotone_exp_not_FTZ; [exact VE|apply (fexp_monotone 53 1024)]). apply (@round_plus_eq_0 radix2 fx VE NF ZnearestE _ v tol Fv Ft Z0).
Qed.
Lemma greater1 x v : is64 x v -> isGreater x f1 = Rle_bool (r64 (1 + tol)) v.
Proof.
  intros X. pose proof tol_20 as T. pose proof (bpow_gt_0 radix2 (-21)). assert (bpow radix2 (-19) <= 1)%R by (change 1%R with (bpow radix2 0); apply bpow_le; lia). assert (S : (Rabs (1 + tol) <= bpow radix2 1)%R) by (change (bpow radix2 1) with 2%R; apply Rabs_le; lra).
  pose proof (add64_r _ _ _ _ 1 ltac:(lia) one_r RESABS_r S) as A. unfold isGreater. exact (leb_r _ _ _ _ A X).
Qed.
Lemma one_tol : (Rabs (r64 (1 + tol) - (1 + / 1000000)) <= / 1000000000000)%R.
Proof.
  pose proof tol_lo as T. assert (bpow radix2 (-72) <= / 10000000000000)%R by (apply Rle_trans with (bpow radix2 (-50)); [apply bpow_le; lia|]; change (bpow radix2 (-50)) with (/ 1125899906842624)%R; lra). pose proof (rerr (1 + tol)) as E. pose proof u_small. pose proof tt_uu. pose proof uu_pos. rewrite (Rabs_pos_eq (1 + tol)) in E by lra. apply Rabs_le_inv in E. assert (uu * (1 + tol) <= 2 * uu)%R by nra. apply Rabs_le. lra.
Qed.
Lemma tol_near : (/ 1000000 - / 1000000000000 <= tol <= / 1000000)%R.
Proof. pose proof tol_lo as T. assert (bpow radix2 (-72) <= / 10000000000000)%R by (apply Rle_trans with (bpow radix2 (-50)); [apply bpow_le; lia|]; change (bpow radix2 (-50)) with (/ 1125899906842624)%R; lra). lra. Qed.
