(** P_Nurbs.v -- rational B-spline curves. *)
From Coq Require Import Reals Lra Psatz QArith Qabs Qreals.
From Flocq Require Import Core.
From Verif Require Import Base M_Float M_MathF M_Rect M_Matrix M_Geometry M_Nurbs S_Double S_Matrix S_Geometry S_Nurbs L_Float L_Double L_MathF P_MathF L_Matrix L_Matrix2 L_Matrix4 L_Matrix5 L_Geometry L_Geometry2 L_Nurbs L_Nurbs2 L_Nurbs3 L_Nurbs4 L_Nurbs5.
Local Open Scope Z_scope.

Section C.
Variables (c : nurbs) (n : Z) (k : nat) (u w x y z : Z -> Q) (tf : spec_float) (q : Q).
Hypothesis H : spline c n k u w x y z.
Let uR i := Q2R (u i).
Let tR := Q2R q.
Let K := (n + Z.of_nat k + 1).
Let nn := Z.to_nat n.
Lemma nn_n : Z.of_nat nn = n. Proof. destruct H as (_ & _ & _ & ? & _). unfold nn. lia. Qed.
Lemma sp_K : K <= 2 ^ 31 /\ K <= zlen (knots c). Proof. destruct H as (_ & _ & _ & ? & ? & _). unfold K. lia. Qed.
Lemma sp_U : forall i, 0 <= i < K -> exists v, rd (knots c) i = Val v /\ is64 v (uR i) /\ (Rabs (uR i) <= bpow radix2 30)%R.
Proof.
  intros i I. destruct H as (_ & _ & _ & _ & _ & _ & HU & _). destruct (HU i ltac:(pose proof sp_K; lia)) as (v & E & D & B). exists v. split; [exact E|]. split; [now apply dbl_r|]. apply Qle_Rle in B. now rewrite Q2R_abs, Q2R_q2 in B.
Qed.
Lemma sp_step : forall i, 0 <= i -> i + 1 < K -> uR i = uR (i + 1) \/ (uR i + bpow radix2 (-19) <= uR (i + 1))%R.
Proof.
  intros i I J. destruct H as (_ & _ & _ & _ & _ & _ & _ & HS & _). destruct (HS i I ltac:(pose proof sp_K; lia)) as [E|E]; [left; now apply Qeq_eqR|right]. apply Qle_Rle in E. now rewrite Q2R_plus, Q2R_q2 in E.
Qed.
Lemma sp_W : forall j, 0 <= j < Z.of_nat nn -> exists v, rd (weights c) j = Val v /\ is64 v (Q2R (w j)) /\ (bpow radix2 (-10) <= Q2R (w j) <= bpow radix2 10)%R.
Proof.
  intros j J. rewrite nn_n in J. destruct H as (_ & _ & _ & _ & _ & _ & _ & _ & HW & _). destruct (HW j J) as (v & E & D & B1 & B2). exists v. split; [exact E|]. split; [now apply dbl_r|]. apply Qle_Rle in B1, B2. now rewrite Q2R_q2 in B1, B2.
Qed.
Lemma sp_C M : bounded n x M -> bounded n y M -> bounded n z M -> forall j, 0 <= j < Z.of_nat nn -> exists v, rd (ctrl c) j = Val v /\ is64 (vx v) (Q2R (x j)) /\ is64 (vy v) (Q2R (y j)) /\ is64 (vz v) (Q2R (z j)) /\ (Rabs (Q2R (x j)) <= Q2R M /\ Rabs (Q2R (y j)) <= Q2R M /\ Rabs (Q2R (z j)) <= Q2R M)%R.
Proof.
  intros MX MY MZ j J. rewrite nn_n in J. destruct H as (_ & _ & _ & _ & _ & _ & _ & _ & _ & HC). destruct (HC j J) as (v & E & DX & DY & DZ). exists v. apply dbl_r in DX, DY, DZ. specialize (MX j J). specialize (MY j J). specialize (MZ j J). apply Qle_Rle in MX, MY, MZ. rewrite Q2R_abs in MX, MY, MZ. exact (conj E (conj DX (conj DY (conj DZ (conj MX (conj MY MZ)))))).
Qed.
Hypothesis I : inside u n k tf q.
Lemma sp_T : is64 tf tR. Proof. apply dbl_r, I. Qed.
Lemma sp_in : (uR (Z.of_nat k) <= tR < uR n)%R. Proof. destruct I as (_ & [A B] & _). split; [now apply Qle_Rle|now apply Qlt_Rlt]. Qed.
Lemma sp_kn : (1 <= k <= 15)%nat /\ Z.of_nat k < n <= 2 ^ 20. Proof. destruct H as (_ & _ & A & B & _). auto. Qed.
Lemma sp_TB : (Rabs tR <= bpow radix2 30)%R.
Proof. pose proof sp_in. pose proof sp_kn. destruct (sp_U (Z.of_nat k) ltac:(unfold K; lia)) as (_ & _ & _ & B1). destruct (sp_U n ltac:(unfold K; lia)) as (_ & _ & _ & B2). apply Rabs_le_inv in B1, B2. apply Rabs_le. lra. Qed.
Lemma sp_TU : forall i, 0 <= i < K -> tR = uR i \/ (bpow radix2 (-30) <= Rabs (tR - uR i))%R.
Proof. intros i J. destruct I as (_ & _ & HT). destruct (HT i ltac:(unfold K in J; lia)) as [E|E]; [left; now apply Qeq_eqR|right]. apply Qle_Rle in E. now rewrite Q2R_q2, Q2R_abs, Q2R_minus in E. Qed.
Definition nvR (j : Z) : R := match basisN c k j tf with Val x => BinarySingleNaN.SF2R radix2 x | _ => 0%R end.
Lemma sp_NV : forall j, 0 <= j < Z.of_nat nn -> exists v, basisN c k j tf = Val v /\ is64 v (nvR j) /\ near (5 * k) (bR uR tR k j) (nvR j).
Proof.
  intros j J. rewrite nn_n in J. destruct (basis_near c uR K tf tR (proj1 sp_K) sp_U sp_step sp_T sp_TB sp_TU k ltac:(pose proof sp_kn; lia) j ltac:(lia) ltac:(unfold K; lia)) as (v & r & E & X & N). exists v. unfold nvR. rewrite E. rewrite (is64_val _ _ X). auto.
Qed.
Lemma sp_BG : forall j, 0 <= j < Z.of_nat nn -> gap (-61 * Z.of_nat k) (Z.of_nat k) (bR uR tR k j).
Proof. intros j J. rewrite nn_n in J. apply (bR_gap c uR K tR sp_U sp_step sp_TB sp_TU); unfold K; lia. Qed.
Lemma sp_mono : forall i, 0 <= i -> i + 1 < K -> (uR i <= uR (i + 1))%R.
Proof. apply mono_u. exact sp_step. Qed.
Lemma sp_B1 : rsum nn (bR uR tR k) = 1%R.
Proof.
  destruct (span uR K tR sp_mono (Z.of_nat k) n ltac:(pose proof sp_kn; lia) ltac:(unfold K; lia) sp_in) as (j & J & HJ). pose proof (bR_sum uR K tR sp_mono k j ltac:(lia) ltac:(unfold K; lia) HJ) as E. replace (Z.to_nat (K - Z.of_nat k - 1)) with nn in E by (unfold K, nn; lia). exact E.
Qed.
Lemma sp_len : length (ctrl c) = nn. Proof. destruct H as (_ & L & _). unfold zlen in L. unfold nn. lia. Qed.
Lemma sp_deg : Z.to_nat (degree c) = k. Proof. destruct H as (D & _). lia. Qed.
Lemma curve_r p : Q2R (curve u w p n k q) = rsum nn (fun j => (rho nn (bR uR tR k) (fun j => Q2R (w j)) j * Q2R (p j))%R).
Proof.
  unfold curve. pose proof (BB_bnd c nn k (bR uR tR k) (fun j => Q2R (w j)) sp_BG sp_B1 sp_W) as B. pose proof (bpow_gt_0 radix2 (-10)). assert (E : forall f, Q2R (qsum n f) = rsum nn (fun i => Q2R (f i))) by (intros f; rewrite <- nn_n at 1; apply qsum_r).
  assert (D : Q2R (qsum n (fun i => (w i * bspline u k i q)%Q)) = BB nn (bR uR tR k) (fun j => Q2R (w j))) by (rewrite E; apply rsum_ext; intros i _; rewrite Q2R_mult, bspline_r; reflexivity).
  rewrite Q2R_div0, D. destruct (Req_EM_T _ 0) as [F|F]; [lra|]. rewrite E. unfold Rdiv. rewrite <- rsum_scal. apply rsum_ext. intros i _. rewrite !Q2R_mult, bspline_r. unfold rho, uR, tR. field. exact F.
Qed.
Lemma the_point M : (q2 (-900) <= M <= q2 900)%Q -> bounded n x M -> bounded n y M -> bounded n z M ->
  exists P, pointAt c tf = Val P /\ let pvn g := pv nn nvR (fun j => Q2R (w j)) (fun j => Q2R (g j)) nn in
    is64 (vx P) (pvn x) /\ is64 (vy P) (pvn y) /\ is64 (vz P) (pvn z) /\
    let e := ((7 * IZR n + 20 * INR k + 8) * uu * Q2R M)%R in (Rabs (pvn x - Q2R (curve u w x n k q)) <= e /\ Rabs (pvn y - Q2R (curve u w y n k q)) <= e /\ Rabs (pvn z - Q2R (curve u w z n k q)) <= e)%R.
Proof.
  intros [M1 M2] MX MY MZ. apply Qle_Rle in M1, M2. rewrite Q2R_q2 in M1, M2. pose proof sp_kn as [KK KN].
  destruct (point_near c nn k tf (bR uR tR k) nvR (fun j => Q2R (w j)) KK ltac:(rewrite nn_n; lia) sp_NV sp_BG sp_B1 sp_W (Q2R M) (conj M1 M2) (fun j => Q2R (x j)) (fun j => Q2R (y j)) (fun j => Q2R (z j)) (sp_C M MX MY MZ) sp_len nn ltac:(lia)) as (P & E & A).
  exists P. split; [unfold pointAt; rewrite sp_len, sp_deg; exact E|]. cbv zeta. rewrite !curve_r. pose proof (err_n c nn k (bR uR tR k) (fun j => Q2R (w j)) sp_BG sp_B1 sp_W (Q2R M)) as EN. replace (INR nn) with (IZR n) in EN by (rewrite INR_IZR_INZ, nn_n; reflexivity).
  destruct A as (A1 & A2 & A3 & A4 & A5 & A6). split; [exact A1|]. split; [exact A2|]. split; [exact A3|]. split; [|split]; eapply Rle_trans; try exact EN; assumption.
Qed.
Lemma curve_hull p lo hi : (forall i, 0 <= i < n -> (lo <= p i <= hi)%Q) -> (lo <= curve u w p n k q <= hi)%Q.
Proof.
  intros B. set (rh := rho nn (bR uR tR k) (fun j => Q2R (w j))). assert (R0 : forall j, 0 <= j < Z.of_nat nn -> (0 <= rh j)%R) by (exact (rho_pos c nn k tf (bR uR tR k) nvR (fun j => Q2R (w j)) (proj1 sp_kn) sp_NV sp_BG sp_B1 sp_W)).
  assert (R1 : rsum nn rh = 1%R) by (apply (rho_sum c nn k _ _ sp_BG sp_B1 sp_W)). split; apply Rle_Qle; rewrite curve_r; fold rh.
  - rewrite <- (Rmult_1_l (Q2R lo)), <- R1, <- rsum_scal. apply rsum_le. intros j J. destruct (B j ltac:(rewrite nn_n in J; lia)) as [L _]. apply Qle_Rle in L. specialize (R0 j J). nra.
  - rewrite <- (Rmult_1_l (Q2R hi)), <- R1, <- rsum_scal. apply rsum_le. intros j J. destruct (B j ltac:(rewrite nn_n in J; lia)) as [_ L]. apply Qle_Rle in L. specialize (R0 j J). nra.
Qed.
End C.

(** * C115: point(t) is the point of the curve *)
(** The error: seven roundings for each control point, twenty for each degree. *)
Definition slack (n : Z) (k : nat) (M : Q) : Q := inject_Z (7 * n + 20 * Z.of_nat k + 8) * q2 (-53) * M.
Definition close (v : spec_float) (a e : Q) : Prop := exists r, dbl v r /\ (Qabs (r - a) <= e)%Q.
Lemma slack_r n k M : Q2R (slack n k M) = ((7 * IZR n + 20 * INR k + 8) * uu * Q2R M)%R.
Proof. unfold slack. rewrite !Q2R_mult, Q2R_Z, Q2R_q2, !plus_IZR, !mult_IZR, <- INR_IZR_INZ. reflexivity. Qed.
Lemma close_r v r a n k M : is64 v r -> (Rabs (r - Q2R a) <= (7 * IZR n + 20 * INR k + 8) * uu * Q2R M)%R -> close v a (slack n k M).
Proof. intros V B. destruct (is_dbl _ _ V) as (s & D & <-). exists s. split; [exact D|]. apply Rle_Qle. rewrite Q2R_abs, Q2R_minus, slack_r. exact B. Qed.
Theorem C115_curve : forall c n k u w x y z t q M, spline c n k u w x y z -> inside u n k t q -> (q2 (-900) <= M <= q2 900)%Q -> bounded n x M -> bounded n y M -> bounded n z M ->
  exists P, pointAt c t = Val P /\ close (vx P) (curve u w x n k q) (slack n k M) /\ close (vy P) (curve u w y n k q) (slack n k M) /\ close (vz P) (curve u w z n k q) (slack n k M).
Proof.
  intros c n k u w x y z t q M H I HM MX MY MZ. destruct (the_point c n k u w x y z t q H I M HM MX MY MZ) as (P & E & A1 & A2 & A3 & B1 & B2 & B3). exists P. split; [exact E|]. split; [|split]; eapply close_r; eassumption.
Qed.
(** In particular the point is in every box around the control points, up to this error. *)
Theorem C115_hull : forall c n k u w x y z t q M lo hi, spline c n k u w x y z -> inside u n k t q -> (q2 (-900) <= M <= q2 900)%Q -> bounded n x M -> bounded n y M -> bounded n z M ->
  (forall i, 0 <= i < n -> (lo <= x i <= hi)%Q) ->
  exists P r, pointAt c t = Val P /\ dbl (vx P) r /\ (lo - slack n k M <= r <= hi + slack n k M)%Q.
Proof.
  intros c n k u w x y z t q M lo hi H I HM MX MY MZ B. destruct (C115_curve c n k u w x y z t q M H I HM MX MY MZ) as (P & E & (r & D & A) & _). exists P, r. split; [exact E|]. split; [exact D|]. apply (curve_hull c n k u w x y z t q H I) in B. apply Qabs_Qle_condition in A. destruct A as [A1 A2], B as [B1 B2]. set (cv := curve u w x n k q) in *. set (sl := slack n k M) in *. clearbody cv sl. clear - A1 A2 B1 B2. split; lra.
Qed.

(** Only the control points and weights with u i <= t < u (i + degree + 1) matter. *)
Lemma basis_knots c c' t k : knots c = knots c' -> forall i, basisN c k i t = basisN c' k i t.
Proof. intros E. induction k as [|k IH]; intros i; cbn [basisN]; rewrite E; [reflexivity|]. rewrite !IH. reflexivity. Qed.
Lemma vs_ext w w' nv m : (forall j, 0 <= j < Z.of_nat m -> nv j = 0%R \/ w j = w' j) -> vs nv w m = vs nv w' m /\ forall j, 0 <= j < Z.of_nat m -> tv nv w j = tv nv w' j.
Proof.
  intros E. assert (TT : forall j, 0 <= j < Z.of_nat m -> tv nv w j = tv nv w' j). { intros j J. unfold tv. destruct (E j J) as [-> | ->]; [rewrite !Rmult_0_r|]; reflexivity. }
  split; [|exact TT]. induction m as [|m IH]; [reflexivity|]. cbn [vs]. rewrite IH, (TT (Z.of_nat m)); try reflexivity; try lia; intros; [apply E|apply TT]; lia.
Qed.
Lemma pv_ext n nv w w' g g' m : (m <= n)%nat -> (forall j, 0 <= j < Z.of_nat n -> nv j = 0%R \/ (w j = w' j /\ g j = g' j)) -> pv n nv w g m = pv n nv w' g' m.
Proof.
  intros L E. destruct (vs_ext w w' nv n) as [V TT]; [intros j J; destruct (E j J) as [?|[? _]]; auto|]. induction m as [|m IH]; [reflexivity|]. cbn [pv]. rewrite IH by lia. f_equal. f_equal. f_equal. unfold rv. rewrite V, (TT (Z.of_nat m)) by lia. destruct (E (Z.of_nat m) ltac:(lia)) as [Z0|[_ ->]]; [|reflexivity]. unfold tv. rewrite Z0, Rmult_0_r, r64_0. unfold Rdiv. rewrite Rmult_0_l, r64_0, !Rmult_0_l. reflexivity.
Qed.
Definition same_point (P P' : vertex3) : Prop := exists a b d, dbl (vx P) a /\ dbl (vx P') a /\ dbl (vy P) b /\ dbl (vy P') b /\ dbl (vz P) d /\ dbl (vz P') d.
Lemma same_r v v' a : is64 v a -> is64 v' a -> exists s, dbl v s /\ dbl v' s.
Proof. intros A B. destruct (is_dbl _ _ A) as (s & D & E). exists s. split; [exact D|]. apply dbl_r. now rewrite E. Qed.
Theorem C115_local : forall c c' n k u w w' x y z x' y' z' t q, spline c n k u w x y z -> spline c' n k u w' x' y' z' -> knots c = knots c' -> inside u n k t q ->
  bounded n x (q2 900) -> bounded n y (q2 900) -> bounded n z (q2 900) -> bounded n x' (q2 900) -> bounded n y' (q2 900) -> bounded n z' (q2 900) ->
  (forall i, 0 <= i < n -> (u i <= q < u (i + Z.of_nat k + 1)%Z)%Q -> (w i == w' i /\ x i == x' i /\ y i == y' i /\ z i == z' i)%Q) ->
  exists P P', pointAt c t = Val P /\ pointAt c' t = Val P' /\ same_point P P'.
Proof.
  intros c c' n k u w w' x y z x' y' z' t q H H' EK I BX BY BZ BX' BY' BZ' L.
  assert (HM : (q2 (-900) <= q2 900 <= q2 900)%Q) by (split; apply Rle_Qle; rewrite !Q2R_q2; apply bpow_le; lia).
  destruct (the_point c n k u w x y z t q H I (q2 900) HM BX BY BZ) as (P & E & A1 & A2 & A3 & _). destruct (the_point c' n k u w' x' y' z' t q H' I (q2 900) HM BX' BY' BZ') as (P' & E' & A1' & A2' & A3' & _).
  assert (NE : nvR c k t = nvR c' k t). { unfold nvR. apply FunctionalExtensionality.functional_extensionality. intros j. now rewrite (basis_knots c c' t k EK). }
  assert (NZ : forall j, 0 <= j < Z.of_nat (Z.to_nat n) -> nvR c k t j = 0%R \/ (Q2R (w j) = Q2R (w' j) /\ Q2R (x j) = Q2R (x' j) /\ Q2R (y j) = Q2R (y' j) /\ Q2R (z j) = Q2R (z' j))).
  { intros j J. destruct (sp_NV c n k u w x y z t q H I j J) as (v & _ & _ & N). pose proof (sp_kn c n k u w x y z H) as KN. rewrite Z2Nat.id in J by lia. destruct (Req_dec (bR (fun i => Q2R (u i)) (Q2R q) k j) 0) as [Z0|Z0].
    - left. rewrite Z0 in N. now apply near_0 in N.
    - right. apply (bR_in _ (n + Z.of_nat k + 1) _ (sp_mono c n k u w x y z H)) in Z0; try lia. destruct (L j J) as (W1 & X1 & Y1 & Z1); [destruct Z0 as [Za Zb]; split; [now apply Rle_Qle|now apply Rlt_Qlt]|]. now apply Qeq_eqR in W1, X1, Y1, Z1. }
  rewrite NE in *. cbv zeta in *.
  rewrite (pv_ext _ _ _ (fun j => Q2R (w' j)) _ (fun j => Q2R (x' j)) _ (le_n _)) in A1 by (intros j J; destruct (NZ j J) as [?|(? & ? & _)]; auto).
  rewrite (pv_ext _ _ _ (fun j => Q2R (w' j)) _ (fun j => Q2R (y' j)) _ (le_n _)) in A2 by (intros j J; destruct (NZ j J) as [?|(? & _ & ? & _)]; auto).
  rewrite (pv_ext _ _ _ (fun j => Q2R (w' j)) _ (fun j => Q2R (z' j)) _ (le_n _)) in A3 by (intros j J; destruct (NZ j J) as [?|(? & _ & _ & ?)]; auto).
  exists P, P'. split; [exact E|]. split; [exact E'|]. destruct (same_r _ _ _ A1 A1') as (a & a1 & a2). destruct (same_r _ _ _ A2 A2') as (b & b1 & b2). destruct (same_r _ _ _ A3 A3') as (d & d1 & d2). exists a, b, d. exact (conj a1 (conj a2 (conj b1 (conj b2 (conj d1 d2))))).
Qed.

(** A curve whose first degree + 1 knots coincide starts exactly at its first control point. *)
Section Start.
Variables (c : nurbs) (n : Z) (k : nat) (u w x y z : Z -> Q) (tf : spec_float) (q : Q).
Hypothesis H : spline c n k u w x y z.
Hypothesis I : inside u n k tf q.
Hypothesis Q0 : forall i, 0 <= i <= Z.of_nat k -> Q2R (u i) = Q2R q.
Hypothesis Q1 : (Q2R q < Q2R (u (Z.of_nat k + 1)))%R.
Let uR i := Q2R (u i).
Lemma after i : Z.of_nat k < i <= n + Z.of_nat k -> (Q2R q < uR i)%R.
Proof. intros J. pose proof (umono uR (n + Z.of_nat k + 1) (sp_mono c n k u w x y z H) (Z.of_nat k + 1) i ltac:(lia) ltac:(lia)). unfold uR in *. lra. Qed.
Lemma start_basis m : (m <= k)%nat -> forall i, 0 <= i -> i + Z.of_nat m + 1 <= n + Z.of_nat k -> exists v, basisN c m i tf = Val v /\ is64 v (if i =? Z.of_nat k - Z.of_nat m then 1 else 0)%R.
Proof.
  pose proof (sp_kn c n k u w x y z H) as KN. pose proof (sp_U c n k u w x y z H) as U. pose proof (sp_T n k u tf q I) as T. pose proof (sp_TB c n k u w x y z tf q H I) as TB. pose proof (sp_step c n k u w x y z H) as St. pose proof (sp_K c n k u w x y z H) as KK. assert (TU : forall i, 0 <= i < n + Z.of_nat k + 1 -> Q2R q = uR i \/ (bpow radix2 (-30) <= Rabs (Q2R q - uR i))%R) by (eapply sp_TU; eassumption).
  induction m as [|m IH]; intros M i I0 I1.
  - destruct (U i ltac:(lia)) as (a & Ra & Xa & _). destruct (U (i + 1) ltac:(lia)) as (b & Rb & Xb & _). cbn [basisN]. rewrite Ra. cbn [bind]. rewrite u32_in by lia. rewrite Rb. cbn [bind]. rewrite (leb_r _ _ _ _ Xa T), (ltb64 _ _ _ _ T Xb). destruct (Z.eqb_spec i (Z.of_nat k - Z.of_nat 0)) as [E|E].
    + rewrite (Q0 i ltac:(lia)). rewrite Rle_bool_true by lra. pose proof (after (i + 1) ltac:(lia)). rewrite Rlt_bool_true by assumption. eexists. split; [reflexivity|exact f1r].
    + destruct (Z_lt_dec i (Z.of_nat k)) as [L|L].
      * rewrite (Q0 (i + 1) ltac:(lia)), Rlt_bool_false by lra. destruct (Rle_bool _ _); eexists; (split; [reflexivity|exact f0r]).
      * pose proof (after i ltac:(lia)) as A. rewrite Rle_bool_false by exact A. eexists. split; [reflexivity|exact f0r].
  - destruct (U i ltac:(lia)) as (xi & Ri & Xi & _). destruct (U (i + Z.of_nat (S m)) ltac:(lia)) as (xk & Rk & Xk & _). destruct (U (i + Z.of_nat (S m) + 1) ltac:(lia)) as (xl & Rl & Xl & _). destruct (U (i + 1) ltac:(lia)) as (xj & Rj & Xj & _).
    cbn [basisN]. rewrite Ri. cbn [bind]. rewrite !u32_in by lia. rewrite Rk. cbn [bind]. rewrite Rl. cbn [bind]. rewrite Rj. cbn [bind].
    pose proof (dknots c uR (n + Z.of_nat k + 1) (Q2R q) U St TU i (i + Z.of_nat (S m)) xi xk ltac:(lia) ltac:(lia) Xi Xk) as D1. pose proof (dknots c uR (n + Z.of_nat k + 1) (Q2R q) U St TU (i + 1) (i + Z.of_nat (S m) + 1) xj xl ltac:(lia) ltac:(lia) Xj Xl) as D2.
    destruct (IH ltac:(lia) i ltac:(lia) ltac:(lia)) as (v1 & E1 & V1). destruct (IH ltac:(lia) (i + 1) ltac:(lia) ltac:(lia)) as (v2 & E2 & V2). rewrite E1, E2.
    pose proof (bpow_gt_0 radix2 (-19)) as P19.
    assert (T1 : exists r, (if isEqual (sub64 xk xi) f0 then Val f0 else (let* x := Val v1 in Val (div64 (mul64 x (sub64 tf xi)) (sub64 xk xi)))) = Val r /\ is64 r 0).
    { destruct D1 as [[_ ->]|(B & -> & d & Xd & Nd)]; [eexists; split; [reflexivity|exact f0r]|]. cbn [bind]. eexists. split; [reflexivity|].
      destruct (tsub c uR (n + Z.of_nat k + 1) tf (Q2R q) U St T TB TU i xi ltac:(lia) Xi) as [[Xa Ba] _]. assert (D0 : d <> 0%R) by (intros ->; destruct Nd as (_ & _ & _ & Nd); lra).
      assert (ZZ : is64 (mul64 v1 (sub64 tf xi)) 0). { destruct (Z.eqb_spec i (Z.of_nat k - Z.of_nat m)) as [E|E].
        - replace (Q2R q - uR i)%R with 0%R in Xa by (unfold uR; rewrite Q0 by lia; ring). rewrite r64_0 in Xa. rewrite <- r64_0. replace 0%R with (1 * 0)%R at 1 by ring. apply (mul64_r _ _ _ _ 0); try assumption; try lia. rewrite Rmult_0_r, Rabs_R0. apply bpow_ge_0.
        - rewrite <- r64_0. rewrite <- (Rmult_0_l (r64 (Q2R q - uR i))). apply (mul64_r _ _ _ _ 0); try assumption; try lia. rewrite Rmult_0_l, Rabs_R0. apply bpow_ge_0. }
      rewrite <- r64_0. replace 0%R with (0 / d)%R at 1 by (unfold Rdiv; ring). apply (div64_r _ _ _ _ 0); try assumption; try lia. unfold Rdiv. rewrite Rmult_0_l, Rabs_R0. apply bpow_ge_0. }
    destruct T1 as (r1 & -> & X1). cbn [bind].
    assert (T2 : exists r, (if isEqual (sub64 xl xj) f0 then Val f0 else Val (div64 (mul64 v2 (sub64 xl tf)) (sub64 xl xj))) = Val r /\ is64 r (if i =? Z.of_nat k - Z.of_nat (S m) then 1 else 0)%R).
    { destruct (Z.eqb_spec i (Z.of_nat k - Z.of_nat (S m))) as [E|E].
      - destruct (Z.eqb_spec (i + 1) (Z.of_nat k - Z.of_nat m)) as [_|]; [|lia]. assert (EJ : uR (i + 1) = Q2R q) by (unfold uR; apply Q0; lia). pose proof (after (i + Z.of_nat (S m) + 1) ltac:(lia)) as AF. destruct D2 as [[D _]|(B & -> & d & Xd & Nd)]; [lra|]. cbn [bind]. eexists. split; [reflexivity|].
        destruct (tsub c uR (n + Z.of_nat k + 1) tf (Q2R q) U St T TB TU (i + Z.of_nat (S m) + 1) xl ltac:(lia) Xl) as [_ [Xa Ba]]. set (L := (i + Z.of_nat (S m) + 1)) in *.
        assert (Xd' : is64 (sub64 xl xj) (r64 (uR L - uR (i + 1)))). { apply (sub64_r _ _ _ _ 31); try assumption; try lia. rewrite Rabs_pos_eq by lra. lra. }
        rewrite EJ in Xd'. assert (D0 : (bpow radix2 (-19) <= r64 (uR L - Q2R q))%R). { apply rnd_ge_r; [pose proof (fmt_grid 1 (-19) ltac:(lia) ltac:(lia)) as F; now rewrite Rmult_1_l in F|lra]. }
        set (cc := r64 (uR L - Q2R q)) in *. assert (FM : generic_format radix2 fx cc) by (apply (fmt64 _ _ Xa)).
        assert (XM : is64 (mul64 v2 (sub64 xl tf)) cc). { rewrite <- (r64_fmt cc FM). replace cc with (1 * cc)%R at 1 by ring. apply (mul64_r _ _ _ _ 32); try assumption; try lia. rewrite Rmult_1_l. exact Ba. }
        assert (X11 : is64 (div64 (mul64 v2 (sub64 xl tf)) (sub64 xl xj)) (r64 (cc / cc))). { apply (div64_r _ _ _ _ 0); try assumption; try lia; [lra|]. replace (cc / cc)%R with 1%R by (field; lra). rewrite Rabs_R1. apply Rle_refl. }
        replace (cc / cc)%R with 1%R in X11 by (field; lra). rewrite r64_fmt in X11 by (apply (fmt64 _ _ f1r)). exact X11.
      - destruct (Z.eqb_spec (i + 1) (Z.of_nat k - Z.of_nat m)) as [|_]; [lia|]. destruct D2 as [[_ ->]|(B & -> & d & Xd & Nd)]; [eexists; split; [reflexivity|exact f0r]|]. cbn [bind]. eexists. split; [reflexivity|].
        destruct (tsub c uR (n + Z.of_nat k + 1) tf (Q2R q) U St T TB TU (i + Z.of_nat (S m) + 1) xl ltac:(lia) Xl) as [_ [Xa Ba]]. assert (D0 : d <> 0%R) by (intros ->; destruct Nd as (_ & _ & _ & Nd); lra).
        assert (ZZ : is64 (mul64 v2 (sub64 xl tf)) 0). { rewrite <- r64_0. rewrite <- (Rmult_0_l (r64 (uR (i + Z.of_nat (S m) + 1) - Q2R q))). apply (mul64_r _ _ _ _ 0); try assumption; try lia. rewrite Rmult_0_l, Rabs_R0. apply bpow_ge_0. }
        rewrite <- r64_0. replace 0%R with (0 / d)%R at 1 by (unfold Rdiv; ring). apply (div64_r _ _ _ _ 0); try assumption; try lia. unfold Rdiv. rewrite Rmult_0_l, Rabs_R0. apply bpow_ge_0. }
    destruct T2 as (r2 & -> & X2). cbn [bind]. eexists. split; [reflexivity|]. destruct (add_nil r2 r1 _ X2 X1) as [_ A]. exact A.
Qed.
Lemma start_nv j : 0 <= j < n -> nvR c k tf j = (if j =? 0 then 1 else 0)%R.
Proof. intros J. destruct (start_basis k ltac:(lia) j ltac:(lia) ltac:(lia)) as (v & E & V). unfold nvR. rewrite E, (is64_val _ _ V). replace (Z.of_nat k - Z.of_nat k) with 0 by lia. reflexivity. Qed.
Lemma r64_w : r64 (Q2R (w 0)) = Q2R (w 0) /\ (0 < Q2R (w 0))%R.
Proof. pose proof (sp_kn c n k u w x y z H). destruct (sp_W c n k u w x y z H 0 ltac:(lia)) as (v & _ & X & B). split; [apply r64_fmt, (fmt64 _ _ X)|]. pose proof (bpow_gt_0 radix2 (-10)). lra. Qed.
Lemma start_vs m : (1 <= Z.of_nat m <= n) -> vs (nvR c k tf) (fun j => Q2R (w j)) m = Q2R (w 0).
Proof.
  destruct r64_w as [RW W0]. induction m as [|m IH]; [lia|]. intros L. cbn [vs]. unfold tv. rewrite start_nv by lia. destruct m as [|m].
  - cbn [vs]. change (Z.of_nat 0 =? 0) with true. cbv iota. change (Z.of_nat 0) with 0. rewrite Rmult_1_r, RW, Rplus_0_l. exact RW.
  - destruct (Z.eqb_spec (Z.of_nat (S m)) 0); [lia|]. rewrite IH by lia. rewrite Rmult_0_r, r64_0, Rplus_0_r. exact RW.
Qed.
Lemma start_pv g m : (forall v, is64 v (Q2R (g 0)) -> True) -> r64 (Q2R (g 0)) = Q2R (g 0) -> 1 <= Z.of_nat m <= n -> pv (Z.to_nat n) (nvR c k tf) (fun j => Q2R (w j)) (fun j => Q2R (g j)) m = Q2R (g 0).
Proof.
  intros _ RG. destruct r64_w as [RW W0]. induction m as [|m IH]; [lia|]. intros L. cbn [pv]. unfold rv, tv. rewrite start_vs by lia. rewrite start_nv by lia. destruct m as [|m].
  - cbn [pv]. change (Z.of_nat 0 =? 0) with true. cbv iota. change (Z.of_nat 0) with 0. rewrite Rmult_1_r, RW. replace (Q2R (w 0) / Q2R (w 0))%R with 1%R by (field; lra). rewrite (r64_fmt 1) by (apply (fmt64 _ _ f1r)). rewrite Rmult_1_l, RG, Rplus_0_l. exact RG.
  - destruct (Z.eqb_spec (Z.of_nat (S m)) 0); [lia|]. rewrite IH by lia. rewrite Rmult_0_r, r64_0. unfold Rdiv. rewrite Rmult_0_l, r64_0, Rmult_0_l, r64_0, Rplus_0_r. exact RG.
Qed.
End Start.
Theorem C115_start : forall c n k u w x y z t q, spline c n k u w x y z -> inside u n k t q -> bounded n x (q2 900) -> bounded n y (q2 900) -> bounded n z (q2 900) ->
  (forall i, 0 <= i <= Z.of_nat k -> (u i == q)%Q) -> (q < u (Z.of_nat k + 1)%Z)%Q ->
  exists P, pointAt c t = Val P /\ dbl (vx P) (x 0) /\ dbl (vy P) (y 0) /\ dbl (vz P) (z 0).
Proof.
  intros c n k u w x y z t q H I BX BY BZ Q0 Q1. assert (HM : (q2 (-900) <= q2 900 <= q2 900)%Q) by (split; apply Rle_Qle; rewrite !Q2R_q2; apply bpow_le; lia).
  assert (Q0' : forall i, 0 <= i <= Z.of_nat k -> Q2R (u i) = Q2R q) by (intros i J; apply Qeq_eqR, Q0, J). apply Qlt_Rlt in Q1.
  destruct (the_point c n k u w x y z t q H I (q2 900) HM BX BY BZ) as (P & E & A1 & A2 & A3 & _). cbv zeta in *. pose proof (sp_kn c n k u w x y z H) as KN. exists P. split; [exact E|].
  destruct (sp_C c n k u w x y z H (q2 900) BX BY BZ 0 ltac:(lia)) as (v & _ & X & Y & Z0 & _).
  rewrite (start_pv c n k u w x y z t q H I Q0' Q1) in A1, A2, A3; try (intros; exact Logic.I); try (apply r64_fmt, (fmt64 _ _ X)); try (apply r64_fmt, (fmt64 _ _ Y)); try (apply r64_fmt, (fmt64 _ _ Z0)); try lia.
  split; [|split]; now apply dbl_r.
Qed.

(** A curve: a rational arc of degree 2 with the weights 1, 2, 1 and the control points (0,0,0), (1,2,0), (2,0,4). *)
Definition xu (i : Z) : Q := if i <? 3 then 0 else 1.
Definition xw (i : Z) : Q := if i =? 1 then 2 else 1.
Definition xx (i : Z) : Q := inject_Z i.
Definition xy (i : Z) : Q := if i =? 1 then 2 else 0.
Definition xz (i : Z) : Q := if i =? 2 then 4 else 0.
Definition xc : nurbs := Nu 2 [I3 0 0 0; I3 1 2 0; I3 2 0 4] (map int64f [0; 0; 0; 1; 1; 1]) (map int64f [1; 2; 1]).
Ltac cases i := let H := fresh in assert (H : i = 0 \/ i = 1 \/ i = 2 \/ i = 3 \/ i = 4 \/ i = 5) by lia; repeat (destruct H as [H|H]); subst i.
Lemma xspline : spline xc 3 2 xu xw xx xy xz.
Proof.
  unfold spline. change (zlen (knots xc)) with 6. split; [reflexivity|]. split; [reflexivity|]. split; [lia|]. split; [lia|]. split; [lia|]. split; [change (zlen (weights xc)) with 3; lia|].
  split; [intros i I; cases i; eexists; (split; [reflexivity|]); concrete|]. split; [intros i I J; cases i; try lia; cbn; try (left; reflexivity); right; vm_compute; discriminate|].
  split; intros i I; cases i; try lia; eexists; (split; [reflexivity|]); concrete.
Qed.
Definition xt : spec_float := lit 1 2.
Lemma xinside : inside xu 3 2 xt (1 # 2).
Proof. split; [concrete|]. split; [concrete|]. intros i I. cases i; right; vm_compute; discriminate. Qed.
Lemma xbounded : bounded 3 xx 4 /\ bounded 3 xy 4 /\ bounded 3 xz 4.
Proof. split; [|split]; intros i I; cases i; try lia; vm_compute; discriminate. Qed.
Example C115_curve_ex : spline xc 3 2 xu xw xx xy xz /\ inside xu 3 2 xt (1 # 2) /\ bounded 3 xx 4 /\ (curve xu xw xy 3 2 (1 # 2) == 4 # 3)%Q /\ (slack 3 2 4 < q2 (-44))%Q /\
  match pointAt xc xt with Val P => SFeqb (vx P) f1 = true /\ (SFltb (lit 13 10) (vy P) = true) /\ SFltb (vy P) (lit 14 10) = true | _ => False end.
Proof. split; [exact xspline|]. split; [exact xinside|]. split; [apply xbounded|]. concrete. repeat split. Qed.
Example C115_start_ex : inside xu 3 2 f0 0 /\ (forall i, 0 <= i <= 2 -> (xu i == 0)%Q) /\ (0 < xu 3)%Q /\ match pointAt xc f0 with Val P => SFeqb (vx P) f0 = true | _ => False end.
Proof. split; [split; [concrete|]; split; [concrete|]; intros i I; cases i; try (left; reflexivity); right; vm_compute; discriminate|]. split; [intros i I; cases i; try lia; reflexivity|]. concrete. Qed.
(** a longer curve of degree 1: the third control point does not matter in the first span *)
Definition yu (i : Z) : Q := inject_Z i.
Definition y1 (i : Z) : Q := 1%Q.
Definition yx (i : Z) : Q := inject_Z (i * i).
Definition yx' (i : Z) : Q := if i =? 2 then 100 else inject_Z (i * i).
Definition yc (a : Z) : nurbs := Nu 1 [I3 0 0 0; I3 1 1 1; I3 a a a] (map int64f [0; 1; 2; 3; 4]) (map int64f [1; 1; 1]).
Lemma yspline : spline (yc 4) 3 1 yu y1 yx yx yx /\ spline (yc 100) 3 1 yu y1 yx' yx' yx'.
Proof.
  assert (HS : forall i, 0 <= i -> i + 1 < 5 -> (yu i == yu (i + 1)%Z \/ yu i + q2 (-19) <= yu (i + 1)%Z)%Q) by (intros i I J; cases i; try lia; right; vm_compute; discriminate).
  split; unfold spline; (split; [reflexivity|]; split; [reflexivity|]; split; [lia|]; split; [lia|]; split; [change (zlen _) with 5; lia|]; split; [change (zlen _) with 3; lia|]; split; [intros i I; change (zlen _) with 5 in I; cases i; try lia; eexists; (split; [reflexivity|]); concrete|]; split; [exact HS|]; split; intros i I; cases i; try lia; eexists; (split; [reflexivity|]); concrete).
Qed.
Example C115_local_ex : knots (yc 4) = knots (yc 100) /\ inside yu 3 1 (lit 3 2) (3 # 2) /\ (forall i, 0 <= i < 3 -> (yu i <= 3 # 2 < yu (i + Z.of_nat 1 + 1)%Z)%Q -> (y1 i == y1 i /\ yx i == yx' i)%Q) /\
  match pointAt (yc 4) (lit 3 2), pointAt (yc 100) (lit 3 2) with Val P, Val P' => SFeqb (vx P) (lit 1 2) = true /\ SFeqb (vx P') (lit 1 2) = true | _, _ => False end.
Proof. split; [reflexivity|]. split; [split; [concrete|]; split; [concrete|]; intros i I; cases i; try lia; right; vm_compute; discriminate|]. split; [|concrete; repeat split]. intros i I [A B]. cases i; try lia; try (split; reflexivity). exfalso. revert A. vm_compute. intros A. now apply A. Qed.
Print Assumptions C115_curve.
Print Assumptions C115_hull.
Print Assumptions C115_local.
Print Assumptions C115_start.
