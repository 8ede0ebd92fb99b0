(** L_Nurbs4.v -- the denominator, the weights of the control points, and the point. *)
From Coq Require Import Reals Lra Psatz.
From Flocq Require Import Core IEEE754.BinarySingleNaN.
From Verif Require Import Base M_Float M_MathF M_Rect M_Matrix M_Geometry M_Nurbs S_Double S_Matrix L_Double L_MathF P_MathF L_Matrix L_Matrix2 L_Matrix4 L_Matrix5 L_Geometry L_Geometry2 L_Nurbs L_Nurbs2 L_Nurbs3.
Local Open Scope R_scope.

Lemma is64_val x v : is64 x v -> SF2R radix2 x = v.
Proof. intros (b & <- & _ & <-). apply SF2R_B2SF. Qed.
Lemma is64_fun x v w : is64 x v -> is64 x w -> v = w.
Proof. intros A B. apply is64_val in A, B. congruence. Qed.
Lemma rsum_gap lo hi f n : (forall i, (0 <= i < Z.of_nat n)%Z -> gap lo hi (f i)) -> (Z.of_nat n <= 2 ^ 20)%Z -> gap lo (hi + 20) (rsum n f).
Proof.
  intros H L. assert (G : rsum n f = 0 \/ bpow radix2 lo <= rsum n f <= INR n * bpow radix2 hi).
  { clear L. induction n as [|n IH]; [left; reflexivity|]. specialize (IH ltac:(intros; apply H; lia)). pose proof (H (Z.of_nat n) ltac:(lia)) as F. cbn [rsum]. rewrite S_INR. pose proof (bpow_gt_0 radix2 lo). pose proof (bpow_gt_0 radix2 hi). pose proof (pos_INR n). assert (0 <= INR n * bpow radix2 hi) by nra. destruct IH as [->|IH], F as [->|F]; [left; lra|right; lra|right; lra|right; lra]. }
  destruct G as [->|G]; [left; reflexivity|right]. split; [lra|]. rewrite bpow_plus. apply IZR_le in L. rewrite <- INR_IZR_INZ in L. change (IZR (2 ^ 20)) with (bpow radix2 20) in L. pose proof (bpow_gt_0 radix2 hi). nra.
Qed.

Section P.
Variables (c : nurbs) (n : nat) (k : nat) (tf : spec_float) (b nv w : Z -> R).
Hypothesis K15 : (1 <= k <= 15)%nat.
Hypothesis N20 : (Z.of_nat n <= 2 ^ 20)%Z.
Hypothesis NV : forall j, (0 <= j < Z.of_nat n)%Z -> exists x, basisN c k j tf = Val x /\ is64 x (nv j) /\ near (5 * k) (b j) (nv j).
Hypothesis BG : forall j, (0 <= j < Z.of_nat n)%Z -> gap (-61 * Z.of_nat k) (Z.of_nat k) (b j).
Hypothesis B1 : rsum n b = 1.
Hypothesis W : forall j, (0 <= j < Z.of_nat n)%Z -> exists v, rd (weights c) j = Val v /\ is64 v (w j) /\ bpow radix2 (-10) <= w j <= bpow radix2 10.
(** the values of the doubles *)
Definition tv (j : Z) : R := r64 (w j * nv j).
Fixpoint vs (m : nat) : R := match m with O => 0 | S m' => r64 (vs m' + tv (Z.of_nat m')) end.
Lemma term_near j : (0 <= j < Z.of_nat n)%Z -> exists v x, rd (weights c) j = Val v /\ basisN c k j tf = Val x /\ is64 (mul64 v x) (tv j) /\ near (5 * k + 1) (w j * b j) (tv j) /\ gap (-61 * Z.of_nat k - 10) (Z.of_nat k + 10) (w j * b j).
Proof.
  intros J. destruct (NV j J) as (x & Ex & Xx & Nx). destruct (W j J) as (v & Ev & Xv & Bv). exists v, x. split; [exact Ev|]. split; [exact Ex|]. pose proof (bpow_gt_0 radix2 (-10)).
  assert (GW : gap (-10) 10 (w j)) by (right; exact Bv). pose proof (gap_near _ _ _ _ _ (mu_small (5 * k) ltac:(lia)) Nx (BG j J)) as GN.
  destruct (mul_near _ _ _ _ 0 _ _ _ _ _ (w j) (b j) Xv Xx (near_refl 0 (w j) ltac:(lra)) Nx GW GN ltac:(lia) ltac:(lia)) as [X1 X2]. split; [exact X1|]. split; [eapply near_le; [|exact X2]; lia|].
  eapply gap_le; [| |apply gap_mul; [exact GW|exact (BG j J)]]; lia.
Qed.
Lemma wb_gap j : (0 <= j < Z.of_nat n)%Z -> gap (-61 * Z.of_nat k - 10) (Z.of_nat k + 10) (w j * b j).
Proof. intros J. now destruct (term_near j J) as (_ & _ & _ & _ & _ & _ & G). Qed.
Definition sumf := (fun acc j => let* b := acc in let* w := rd (weights c) j in let* x := basisN c k j tf in Val (add64 b (mul64 w x))).
Lemma sum_near m : (m <= n)%nat -> exists x, fold_left sumf (zrange m) (Val f0) = Val x /\ is64 x (vs m) /\ near (5 * k + 1 + m) (rsum m (fun j => w j * b j)) (vs m).
Proof.
  induction m as [|m IH]; intros L.
  - exists f0. split; [reflexivity|]. split; [exact f0r|apply near_refl; cbn; lra].
  - destruct (IH ltac:(lia)) as (x & Ex & Xx & Nx). rewrite zrange_S, fold_left_app, Ex. cbn [fold_left sumf bind]. destruct (term_near (Z.of_nat m) ltac:(lia)) as (v & y & -> & -> & X1 & N1 & G1). cbn [bind].
    exists (add64 x (mul64 v y)). split; [reflexivity|]. cbn [vs rsum].
    assert (GS : gap (-61 * Z.of_nat k - 10) (Z.of_nat k + 10 + 20) (rsum m (fun j => w j * b j))) by (apply rsum_gap; [intros; apply wb_gap|]; lia).
    apply (gap_near _ _ _ _ _ (mu_small (5 * k + 1 + m) ltac:(lia)) Nx) in GS. apply (gap_near _ _ _ _ _ (mu_small (5 * k + 1) ltac:(lia)) N1) in G1. apply (gap_le _ _ (-61 * Z.of_nat k - 10 - 1) (Z.of_nat k + 10 + 20 + 1)) in G1; try lia.
    destruct (add_near _ _ _ _ (5 * k + 1 + m) _ _ _ _ Xx X1 Nx (near_le (5 * k + 1) (5 * k + 1 + m) _ _ ltac:(lia) N1) GS G1 ltac:(lia) ltac:(lia)) as [X2 N2]. split; [exact X2|]. eapply near_le; [|exact N2]. lia.
Qed.
Definition BB : R := rsum n (fun j => w j * b j).
Lemma b_pos j : (0 <= j < Z.of_nat n)%Z -> 0 <= b j. Proof. intros J. eapply gap_pos. exact (BG j J). Qed.
Lemma BB_bnd : bpow radix2 (-10) <= BB <= bpow radix2 10.
Proof.
  unfold BB. split.
  - rewrite <- (Rmult_1_l (bpow radix2 (-10))), <- B1, <- rsum_scal. apply rsum_le. intros j J. destruct (W j J) as (_ & _ & _ & Bw). pose proof (b_pos j J). nra.
  - rewrite <- (Rmult_1_l (bpow radix2 10)), <- B1, <- rsum_scal. apply rsum_le. intros j J. destruct (W j J) as (_ & _ & _ & Bw). pose proof (b_pos j J). nra.
Qed.
Definition rho (j : Z) : R := w j * b j / BB.
Definition rv (j : Z) : R := r64 (tv j / vs n).
Definition NN : nat := 10 * k + n + 3.
Lemma ratio_near j : (0 <= j < Z.of_nat n)%Z -> length (ctrl c) = n -> exists x, ratio c j k tf = Val x /\ is64 x (rv j) /\ near NN (rho j) (rv j).
Proof.
  intros J L. unfold ratio. destruct (term_near j J) as (v & y & -> & -> & X1 & N1 & G1). cbn [bind]. unfold sumWN. rewrite L. fold sumf. destruct (sum_near n ltac:(lia)) as (x & -> & Xx & Nx). cbn [bind]. pose proof BB_bnd as BB1. fold BB in Nx. pose proof (bpow_gt_0 radix2 (-10)).
  assert (GS : gap (-10) 10 BB) by (right; exact BB1). apply (gap_near _ _ _ _ _ (mu_small (5 * k + 1 + n) ltac:(lia)) Nx) in GS. apply (gap_near _ _ _ _ _ (mu_small (5 * k + 1) ltac:(lia)) N1) in G1. destruct GS as [E|GS]; [exfalso; destruct Nx as (_ & _ & _ & Nx); rewrite E in Nx; lra|].
  destruct (div_near _ _ _ _ _ _ _ _ _ _ _ _ X1 Xx N1 Nx ltac:(lra) G1 GS ltac:(lia) ltac:(lia)) as [X2 N2]. eexists. split; [reflexivity|]. split; [exact X2|]. eapply near_le; [|exact N2]. unfold NN. lia.
Qed.
Lemma rho_pos j : (0 <= j < Z.of_nat n)%Z -> 0 <= rho j.
Proof. intros J. unfold rho. pose proof BB_bnd. pose proof (bpow_gt_0 radix2 (-10)). apply Rmult_le_pos; [eapply gap_pos; exact (wb_gap j J)|]. apply Rlt_le, Rinv_0_lt_compat. lra. Qed.
Lemma rho_sum : rsum n rho = 1.
Proof. change rho with (fun j => w j * b j * / BB). rewrite (rsum_scal n (fun j => w j * b j)). fold BB. pose proof BB_bnd. pose proof (bpow_gt_0 radix2 (-10)). field. lra. Qed.
Lemma rho_part m : (m <= n)%nat -> rsum m rho <= 1.
Proof. intros L. rewrite <- rho_sum. apply rsum_mono; [exact L|exact rho_pos]. Qed.
(** one coordinate *)
Variable M : R.
Hypothesis M900 : bpow radix2 (-900) <= M <= bpow radix2 900.
Definition cf : R := 2 * INR NN + 2.
Lemma NN_bnd : INR NN <= 1048576 + 153. Proof. rewrite INR_IZR_INZ, <- plus_IZR. apply IZR_le. unfold NN. lia. Qed.
Lemma ttM : 2 * tt_ <= uu * M.
Proof. apply Rle_trans with (uu * bpow radix2 (-900)); [unfold tt_, uu; rewrite <- bpow_plus; apply Rle_trans with (bpow radix2 (1 + -1075)); [rewrite bpow_plus; change (bpow radix2 1) with 2; lra|apply bpow_le; lia]|]. apply Rmult_le_compat_l; [apply bpow_ge_0|apply M900]. Qed.
Lemma coord p X S E r j g G : is64 p X -> Rabs (X - S) <= E -> Rabs S <= M -> E <= M -> (0 <= j < Z.of_nat n)%Z -> is64 r (rv j) -> near NN (rho j) (rv j) -> rho j <= 1 -> is64 g G -> Rabs G <= M ->
  is64 (add64 p (mul64 r g)) (r64 (X + r64 (rv j * G))) /\ Rabs (r64 (X + r64 (rv j * G)) - (S + rho j * G)) <= E + (cf * uu * M * rho j + 5 * uu * M).
Proof.
  intros Xp XS SM EM J Xr Nr R1 Xg GM. pose proof NN_bnd as NNB. pose proof uu_pos. pose proof u_small. pose proof (pos_INR NN). pose proof (rho_pos j J) as R0. pose proof (bpow_gt_0 radix2 (-900)). pose proof tt_pos. pose proof ttM as TTM.
  assert (Mu : INR NN * uu <= / 1000) by nra. pose proof (qn_up NN ltac:(lra)) as QU. destruct Nr as (_ & Rv0 & Hq1 & Hq2). set (rh := rho j) in *. set (r0 := rv j) in *.
  assert (D1 : Rabs (r0 - rh) <= 2 * INR NN * uu * rh).
  { apply Rabs_le. assert (r0 <= rh * (1 + 2 * INR NN * uu)) by nra. assert (Q1 : 0 < 1 + 2 * INR NN * uu) by nra. assert (rh <= r0 * (1 + 2 * INR NN * uu)) by nra. assert (0 <= INR NN * uu) by nra. assert (r0 * (2 * INR NN * uu) <= rh * (1 + 2 * INR NN * uu) * (2 * INR NN * uu)) by nra. split; [|nra]. nra. }
  assert (R2 : 0 <= r0 <= 2 * rh) by nra.
  assert (AG : Rabs (r0 * G) <= 2 * rh * M). { rewrite Rabs_mult, (Rabs_pos_eq r0) by lra. apply Rmult_le_compat; try lra. apply Rabs_pos. }
  assert (B2 : Rabs (r0 * G) <= bpow radix2 902). { apply Rle_trans with (1 := AG). change 902%Z with (2 + 900)%Z. rewrite bpow_plus. change (bpow radix2 2) with 4. nra. }
  pose proof (mul64_r _ _ _ _ 902 ltac:(lia) Xr Xg B2) as Xm. pose proof (rerr (r0 * G)) as E1. pose proof (mul_abs _ _ G _ D1) as E2.
  assert (E3 : Rabs (r64 (r0 * G) - rh * G) <= cf * uu * M * rh + tt_).
  { eapply Rle_trans; [apply (tri _ _ _ _ _ E1 E2)|]. unfold cf. assert (uu * Rabs (r0 * G) <= uu * (2 * rh * M)) by (apply Rmult_le_compat_l; lra). assert (0 <= 2 * INR NN * uu * rh) by (apply Rmult_le_pos; [|exact R0]; nra). assert (2 * INR NN * uu * rh * Rabs G <= 2 * INR NN * uu * rh * M) by (apply Rmult_le_compat_l; assumption). nra. }
  assert (M0 : 0 < M) by lra. assert (CF : cf * uu <= / 100) by (unfold cf; nra).
  assert (E4 : cf * uu * M * rh <= M / 100). { assert (0 <= cf * uu) by (unfold cf; nra). assert (M * rh <= M) by nra. nra. }
  assert (TM : tt_ <= M / 100) by nra.
  assert (A2 : Rabs (r64 (r0 * G)) <= M + M / 50). { apply le_abs in E3. rewrite Rabs_mult, (Rabs_pos_eq rh) in E3 by lra. assert (rh * Rabs G <= 1 * M) by (apply Rmult_le_compat; try lra; apply Rabs_pos). lra. }
  assert (A1 : Rabs X <= 2 * M) by (apply le_abs in XS; lra).
  assert (A3 : Rabs (X + r64 (r0 * G)) <= 4 * M) by (eapply Rle_trans; [apply Rabs_triang|]; lra).
  assert (B3 : Rabs (X + r64 (r0 * G)) <= bpow radix2 902) by (change 902%Z with (2 + 900)%Z; rewrite bpow_plus; change (bpow radix2 2) with 4; lra).
  split; [apply (add64_r _ _ _ _ 902); try assumption; lia|].
  pose proof (rerr (X + r64 (r0 * G))) as E5. assert (E6 : Rabs (X + r64 (r0 * G) - (S + rh * G)) <= E + (cf * uu * M * rh + tt_)). { replace (X + r64 (r0 * G) - (S + rh * G)) with ((X - S) + (r64 (r0 * G) - rh * G)) by ring. eapply Rle_trans; [apply Rabs_triang|]. lra. }
  eapply Rle_trans; [apply (tri _ _ _ _ _ E5 E6)|]. assert (uu * Rabs (X + r64 (r0 * G)) <= uu * (4 * M)) by (apply Rmult_le_compat_l; lra). nra.
Qed.
(** the point *)
Definition pstep := fun acc i => let* P := acc in let* p := rd (ctrl c) i in let* r := ratio c i k tf in Val (vadd3 P (vmul3 r p)).
Variables x y z : Z -> R.
Hypothesis C : forall j, (0 <= j < Z.of_nat n)%Z -> exists v, rd (ctrl c) j = Val v /\ is64 (vx v) (x j) /\ is64 (vy v) (y j) /\ is64 (vz v) (z j) /\ Rabs (x j) <= M /\ Rabs (y j) <= M /\ Rabs (z j) <= M.
Hypothesis CN : length (ctrl c) = n.
Fixpoint pv (g : Z -> R) (m : nat) : R := match m with O => 0 | S m' => r64 (pv g m' + r64 (rv (Z.of_nat m') * g (Z.of_nat m'))) end.
Definition err (m : nat) : R := cf * uu * M * rsum m rho + 5 * INR m * uu * M.
Lemma err_S m : err (S m) = err m + (cf * uu * M * rho (Z.of_nat m) + 5 * uu * M).
Proof. unfold err. cbn [rsum]. rewrite S_INR. ring. Qed.
Lemma err_M m : (m <= n)%nat -> err m <= M.
Proof.
  intros L. unfold err. pose proof (rho_part m L) as R1. pose proof (rsum_pos m rho ltac:(intros; apply rho_pos; lia)) as R0. pose proof NN_bnd. pose proof uu_pos. pose proof u_small. pose proof (pos_INR NN). pose proof (bpow_gt_0 radix2 (-900)). assert (M0 : 0 < M) by lra.
  assert (CF : 0 <= cf * uu <= / 100) by (unfold cf; nra). assert (INR m <= 1048576) by (rewrite INR_IZR_INZ; apply IZR_le; lia). pose proof (pos_INR m). assert (0 <= INR m * uu <= / 1000) by nra.
  assert (cf * uu * M * rsum m rho <= M / 100) by (assert (M * rsum m rho <= M) by nra; nra). nra.
Qed.
Lemma part_abs g m : (m <= n)%nat -> (forall j, (0 <= j < Z.of_nat n)%Z -> Rabs (g j) <= M) -> Rabs (rsum m (fun j => rho j * g j)) <= M.
Proof.
  intros L H. pose proof (rho_part m L) as R1. pose proof (bpow_gt_0 radix2 (-900)). assert (G : Rabs (rsum m (fun j => rho j * g j)) <= rsum m rho * M).
  { clear R1. induction m as [|m IH]; [cbn; rewrite Rabs_R0; lra|]. cbn [rsum]. specialize (IH ltac:(lia)). eapply Rle_trans; [apply Rabs_triang|]. pose proof (rho_pos (Z.of_nat m) ltac:(lia)) as R0. rewrite Rabs_mult, (Rabs_pos_eq _ R0). pose proof (H (Z.of_nat m) ltac:(lia)) as HG. assert (rho (Z.of_nat m) * Rabs (g (Z.of_nat m)) <= rho (Z.of_nat m) * M) by (apply Rmult_le_compat_l; assumption). lra. }
  apply Rle_trans with (1 := G). nra.
Qed.
Lemma rho_1 j : (0 <= j < Z.of_nat n)%Z -> rho j <= 1.
Proof. intros J. rewrite <- rho_sum. apply Rle_trans with (rsum (S (Z.to_nat j)) rho); [cbn [rsum]; rewrite Z2Nat.id by lia; pose proof (rsum_pos (Z.to_nat j) rho ltac:(intros; apply rho_pos; lia)); lra|]. apply rsum_mono; [lia|exact rho_pos]. Qed.
Lemma point_near m : (m <= n)%nat -> exists P, fold_left pstep (zrange m) (Val (V3 f0 f0 f0)) = Val P /\ is64 (vx P) (pv x m) /\ is64 (vy P) (pv y m) /\ is64 (vz P) (pv z m) /\
  Rabs (pv x m - rsum m (fun j => rho j * x j)) <= err m /\ Rabs (pv y m - rsum m (fun j => rho j * y j)) <= err m /\ Rabs (pv z m - rsum m (fun j => rho j * z j)) <= err m.
Proof.
  induction m as [|m IH]; intros L.
  - exists (V3 f0 f0 f0). split; [reflexivity|]. cbn [vx vy vz pv rsum]. unfold err. cbn [rsum]. change (INR 0) with 0. rewrite Rminus_0_r, Rabs_R0, !Rmult_0_r, !Rmult_0_l, Rplus_0_r. pose proof f0r. repeat split; try exact f0r; lra.
  - destruct (IH ltac:(lia)) as (P & EP & PX & PY & PZ & DX & DY & DZ). rewrite zrange_S, fold_left_app, EP. cbn [fold_left pstep bind]. set (j := Z.of_nat m). assert (J : (0 <= j < Z.of_nat n)%Z) by (subst j; lia).
    destruct (C j J) as (v & -> & VX & VY & VZ & MX & MY & MZ). cbn [bind]. destruct (ratio_near j J CN) as (r & -> & Xr & Nr). cbn [bind]. exists (vadd3 P (vmul3 r v)). split; [reflexivity|]. cbn [vx vy vz vadd3 vmul3 pv rsum]. rewrite err_S. fold j.
    pose proof (err_M m ltac:(lia)) as EM. pose proof (rho_1 j J) as R1.
    assert (SX : Rabs (rsum m (fun j => rho j * x j)) <= M) by (apply part_abs; [lia|intros i I; now destruct (C i I) as (_ & _ & _ & _ & _ & ? & _)]).
    assert (SY : Rabs (rsum m (fun j => rho j * y j)) <= M) by (apply part_abs; [lia|intros i I; now destruct (C i I) as (_ & _ & _ & _ & _ & _ & ? & _)]).
    assert (SZ : Rabs (rsum m (fun j => rho j * z j)) <= M) by (apply part_abs; [lia|intros i I; now destruct (C i I) as (_ & _ & _ & _ & _ & _ & _ & ?)]).
    pose proof (coord _ _ _ _ _ j _ _ PX DX SX EM J Xr Nr R1 VX MX) as [X1 X2]. pose proof (coord _ _ _ _ _ j _ _ PY DY SY EM J Xr Nr R1 VY MY) as [Y1 Y2]. pose proof (coord _ _ _ _ _ j _ _ PZ DZ SZ EM J Xr Nr R1 VZ MZ) as [Z1 Z2].
    exact (conj X1 (conj Y1 (conj Z1 (conj X2 (conj Y2 Z2))))).
Qed.
Lemma err_n : err n <= (7 * INR n + 20 * INR k + 8) * uu * M.
Proof.
  unfold err. rewrite rho_sum. unfold cf, NN. rewrite !plus_INR, mult_INR. replace (INR 10) with 10 by (cbn; lra). replace (INR 3) with 3 by (cbn; lra). pose proof uu_pos. pose proof (bpow_gt_0 radix2 (-900)). right. ring.
Qed.
End P.
