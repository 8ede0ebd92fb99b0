(** P_Eigen.v -- C139: eigenvalues of small matrices. *)
From Coq Require Import Reals Lra QArith Qabs Qpower Qreals.
From Flocq Require Import Core.
From Verif Require Import Base M_Float M_MathF M_Rect M_Matrix M_Geometry S_Double S_Matrix L_Float L_Double L_MathF L_Matrix L_Matrix2 L_Matrix3 L_Grid L_Matrix4 L_Matrix5 L_Matrix6 P_Matrix P_Matrix3 M_Eigen.
Local Open Scope Z_scope.
Lemma q2_pos k : (0 < q2 k)%Q. Proof. unfold q2. apply Qpower_0_lt. reflexivity. Qed.
(** l1 and l2 are the eigenvalues of the 2x2 matrix f: the roots of x^2 - tr x + det *)
Definition roots2 (f : Z -> Z -> Z) (l1 l2 : Z) : Prop := l1 + l2 = f 0 0 + f 1 1 /\ l1 * l2 = f 0 0 * f 1 1 - f 0 1 * f 1 0.
Lemma sqrt_at k z x : at_ (k + k) (z * z) x -> 0 <= z <= 2 ^ 53 -> -500 <= k <= 450 -> at_ k z (sqrt64 x).
Proof.
  intros H Hz K. rewrite at_r in H |- *. unfold sqrt64. assert (P : (0 <= IZR (z * z))%R) by (apply (IZR_le 0); nia).
  pose proof (sqrt_r x _ H ltac:(apply Rmult_le_pos; [exact P|apply bpow_ge_0])) as R. rewrite sqrt_scale in R by exact P. rewrite mult_IZR, sqrt_square in R by (apply (IZR_le 0); lia). rewrite r64_fmt in R; [exact R|]. apply fmt_grid; lia.
Qed.
Lemma half_at k z x : at_ k (2 * z) x -> Z.abs z <= 2 ^ 53 -> -1000 <= k <= 900 -> at_ k z (div64 x (int64f 2)).
Proof.
  intros H Hz K. rewrite at_r in H |- *. assert (E : (IZR (2 * z) * bpow radix2 k / 2 = IZR z * bpow radix2 k)%R) by (rewrite mult_IZR; field).
  pose proof (div64_r x (int64f 2) _ 2 (53 + k) ltac:(lia) H (int64_r 2 ltac:(lia)) ltac:(lra)) as R. rewrite E in R. specialize (R (grid_big z k K Hz)). rewrite r64_fmt in R; [exact R|]. apply fmt_grid; lia.
Qed.
(** 2x2: integer eigenvalues are found exactly, the smaller one first; any grid 2^k, any entries up to 2^24 *)
Theorem C139_two : forall sq acos cos A k f l1 l2, holds A 2 2 k f -> within 2 2 f (2 ^ 24) -> -250 <= k <= 225 -> roots2 f l1 l2 -> l1 <= l2 ->
  exists x1 x2, eigen sq acos cos A = Val [x1; x2] /\ at_ k l1 x1 /\ at_ k l2 x2.
Proof.
  intros sq acos cos A k f l1 l2 H W K [T D] L. pose proof H as (e & (M & N & _) & _).
  destruct (C107_trace_exact A 2 2 k f (2 ^ 24) H W ltac:(lia) ltac:(cbv; discriminate) ltac:(lia)) as (t & Et & At). destruct (C104_det A 2 k f ltac:(lia) H ltac:(intros i j Hi Hj; specialize (W i j Hi Hj); change (limit 2) with (2 ^ 26); lia) K) as (d & Ed & Ad).
  unfold eigen. rewrite M, N. change (2 =? 2) with true. change (2 =? 1) with false. cbn [negb]. cbv iota. unfold eigen2. rewrite Et. cbn [bind]. rewrite Ed. cbn [bind]. cbv zeta.
  replace (zsum (Z.min 2 2) (fun i => f i i)) with (l1 + l2) in At by (change (Z.min 2 2) with 2; rewrite zsum2; exact T). replace (zdet (Z.to_nat 2) f) with (l1 * l2) in Ad by (change (Z.to_nat 2) with 2%nat; rewrite zdet2, D; ring). replace (k * 2) with (k + k) in Ad by lia.
  pose proof (W 0 0 ltac:(lia) ltac:(lia)) as W1. pose proof (W 1 1 ltac:(lia) ltac:(lia)) as W2. pose proof (W 0 1 ltac:(lia) ltac:(lia)) as W3. pose proof (W 1 0 ltac:(lia) ltac:(lia)) as W4. cbv beta in *.
  assert (B1 : - 2 ^ 25 <= l1 + l2 <= 2 ^ 25) by lia. assert (B2 : - 2 ^ 49 <= l1 * l2 <= 2 ^ 49).
  { rewrite D. pose proof (Z.abs_mul (f 0 0) (f 1 1)). pose proof (Z.abs_mul (f 0 1) (f 1 0)). assert (Z.abs (f 0 0) * Z.abs (f 1 1) <= 2 ^ 24 * 2 ^ 24) by (apply Z.mul_le_mono_nonneg; lia). assert (Z.abs (f 0 1) * Z.abs (f 1 0) <= 2 ^ 24 * 2 ^ 24) by (apply Z.mul_le_mono_nonneg; lia). lia. }
  assert (B3 : 0 <= (l1 + l2) * (l1 + l2) <= 2 ^ 50) by (split; [apply Z.square_nonneg|]; change (2 ^ 50) with (2 ^ 25 * 2 ^ 25); rewrite <- (Z.abs_square (l1 + l2)); apply Z.mul_le_mono_nonneg; lia).
  assert (Q : (l2 - l1) * (l2 - l1) = (l1 + l2) * (l1 + l2) - 4 * (l1 * l2)) by ring.
  assert (B4 : l2 - l1 <= 2 ^ 26 + 2 ^ 25) by (apply Z.square_le_simpl_nonneg; lia).
  assert (G : at_ (k + k) ((l2 - l1) * (l2 - l1)) (sub64 (mul64 t t) (mul64 (int64f 4) d))).
  { rewrite Q. apply sub_at; [apply mul_at; [exact At|exact At|lia|lia]| |lia|lia]. replace (k + k) with (0 + (k + k)) by lia. apply mul_at; [|exact Ad|lia|lia]. rewrite at_r. replace (IZR 4 * bpow radix2 0)%R with (IZR 4) by (cbn; lra). apply int64_r. lia. }
  pose proof (sqrt_at k (l2 - l1) _ G ltac:(lia) ltac:(lia)) as R. eexists _, _. split; [reflexivity|]. split; apply half_at; try lia.
  - replace (2 * l1) with (l1 + l2 - (l2 - l1)) by lia. apply sub_at; [exact At|exact R|lia|lia].
  - replace (2 * l2) with (l1 + l2 + (l2 - l1)) by lia. apply add_at; [exact At|exact R|lia|lia].
Qed.
Print Assumptions C139_two.

(** 2x2 with a negative discriminant (complex eigenvalues, like a rotation): no error is reported, both answers are NaN *)
Theorem C139_complex_refuted : forall sq acos cos A k f, holds A 2 2 k f -> within 2 2 f (2 ^ 24) -> -250 <= k <= 225 ->
  (f 0 0 + f 1 1) * (f 0 0 + f 1 1) < 4 * (f 0 0 * f 1 1 - f 0 1 * f 1 0) -> eigen sq acos cos A = Val [S754_nan; S754_nan].
Proof.
  intros sq acos cos A k f H W K C. pose proof H as (e & (M & N & _) & _).
  destruct (C107_trace_exact A 2 2 k f (2 ^ 24) H W ltac:(lia) ltac:(cbv; discriminate) ltac:(lia)) as (t & Et & At). destruct (C104_det A 2 k f ltac:(lia) H ltac:(intros i j Hi Hj; specialize (W i j Hi Hj); change (limit 2) with (2 ^ 26); lia) K) as (d & Ed & Ad).
  unfold eigen. rewrite M, N. change (2 =? 2) with true. change (2 =? 1) with false. cbn [negb]. cbv iota. unfold eigen2. rewrite Et. cbn [bind]. rewrite Ed. cbn [bind]. cbv zeta.
  change (Z.min 2 2) with 2 in At. rewrite zsum2 in At. change (Z.to_nat 2) with 2%nat in Ad. rewrite zdet2 in Ad. replace (k * 2) with (k + k) in Ad by lia.
  pose proof (W 0 0 ltac:(lia) ltac:(lia)) as W1. pose proof (W 1 1 ltac:(lia) ltac:(lia)) as W2. pose proof (W 0 1 ltac:(lia) ltac:(lia)) as W3. pose proof (W 1 0 ltac:(lia) ltac:(lia)) as W4. cbv beta in *.
  assert (B2 : - 2 ^ 49 <= f 0 0 * f 1 1 - f 1 0 * f 0 1 <= 2 ^ 49).
  { pose proof (Z.abs_mul (f 0 0) (f 1 1)). pose proof (Z.abs_mul (f 1 0) (f 0 1)). assert (Z.abs (f 0 0) * Z.abs (f 1 1) <= 2 ^ 24 * 2 ^ 24) by (apply Z.mul_le_mono_nonneg; lia). assert (Z.abs (f 1 0) * Z.abs (f 0 1) <= 2 ^ 24 * 2 ^ 24) by (apply Z.mul_le_mono_nonneg; lia). lia. }
  set (tr := f 0 0 + f 1 1) in *. set (dt := f 0 0 * f 1 1 - f 1 0 * f 0 1) in *. assert (B1 : - 2 ^ 25 <= tr <= 2 ^ 25) by (unfold tr; lia).
  assert (B3 : 0 <= tr * tr <= 2 ^ 50) by (split; [apply Z.square_nonneg|]; change (2 ^ 50) with (2 ^ 25 * 2 ^ 25); rewrite <- (Z.abs_square tr); apply Z.mul_le_mono_nonneg; lia).
  replace (f 0 0 * f 1 1 - f 0 1 * f 1 0) with dt in C by (unfold dt; ring).
  assert (G : at_ (k + k) (tr * tr - 4 * dt) (sub64 (mul64 t t) (mul64 (int64f 4) d))).
  { apply sub_at; [apply mul_at; [exact At|exact At|lia|lia]| |lia|lia]. replace (k + k) with (0 + (k + k)) by lia. apply mul_at; [|exact Ad|lia|lia]. rewrite at_r. replace (IZR 4 * bpow radix2 0)%R with (IZR 4) by (cbn; lra). apply int64_r. lia. }
  assert (S : sqrt64 (sub64 (mul64 t t) (mul64 (int64f 4) d)) = S754_nan).
  { destruct G as [_ G]. assert (Q0 : (inject_Z (tr * tr - 4 * dt) * q2 (k + k) < 0)%Q).
    { setoid_replace 0%Q with (0 * q2 (k + k))%Q by ring. apply Qmult_lt_compat_r; [apply q2_pos|]. change 0%Q with (inject_Z 0). rewrite <- Zlt_Qlt. lia. }
    destruct (sub64 (mul64 t t) (mul64 (int64f 4) d)) as [s| | |[] m x]; cbn in G; try contradiction.
    - rewrite G in Q0. exfalso. exact (Qlt_irrefl _ Q0).
    - reflexivity.
    - exfalso. rewrite G in Q0. revert Q0. apply Qle_not_lt. apply Qmult_le_0_compat; [change 0%Q with (inject_Z 0); rewrite <- Zle_Qle; lia|apply Qlt_le_weak, q2_pos]. }
  rewrite S. destruct At as [_ At]. destruct t as [| | |]; cbn in At; try contradiction; reflexivity.
Qed.
Print Assumptions C139_complex_refuted.
(** 3x3 with nothing above the diagonal: the diagonal, in its order (the entries below the diagonal are not looked at). The power of a zero is +0 *)
Theorem C139_diagonal : forall sq acos cos A e s1 s2 s3, shows A 3 3 e -> (forall s, sq (S754_zero s) = S754_zero false) -> e 0 1 = S754_zero s1 -> e 0 2 = S754_zero s2 -> e 1 2 = S754_zero s3 ->
  eigen sq acos cos A = Val [e 0 0; e 1 1; e 2 2].
Proof.
  intros sq acos cos A e s1 s2 s3 H Q E1 E2 E3. pose proof H as (M & N & _). unfold eigen. rewrite M, N. change (3 =? 3) with true. change (3 =? 1) with false. change (3 =? 2) with false. cbn [negb]. cbv iota. unfold eigen3.
  rewrite !(shows_get A 3 3 e) by (exact H || lia). cbn [bind]. cbv zeta. rewrite E1, E2, E3, !Q. reflexivity.
Qed.
Print Assumptions C139_diagonal.
Theorem C139_one : forall sq acos cos A e, shows A 1 1 e -> eigen sq acos cos A = Val [e 0 0].
Proof. intros sq acos cos A e H. pose proof H as (M & N & _). unfold eigen. rewrite M, N. cbn [Z.eqb Pos.eqb negb]. now rewrite (shows_get A 1 1 e 0 0 H) by lia. Qed.
Print Assumptions C139_one.
(** other shapes throw *)
Theorem C139_throws : forall sq acos cos A, mm A <> mn A \/ mm A < 1 \/ mm A > 3 -> eigen sq acos cos A = Exn.
Proof.
  intros sq acos cos A H. unfold eigen. destruct (Z.eqb_spec (mm A) (mn A)) as [E|]; [|reflexivity]. cbn [negb]. replace (mm A =? 1) with false by lia. replace (mm A =? 2) with false by lia. replace (mm A =? 3) with false by lia. reflexivity.
Qed.
Print Assumptions C139_throws.
Lemma det_val A n e : 1 <= n <= 3 -> shows A n n e -> exists d, det A = Val (Some d).
Proof.
  intros Hn H. unfold det. pose proof H as (M & N & _). rewrite M, N, Z.eqb_refl. assert (n = 1 \/ n = 2 \/ n = 3) as [->|[->| ->]] by lia; cbn [Z.eqb Pos.eqb]; rewrite !(rd_el A _ e) by (exact H || lia); cbn [bind]; eauto.
Qed.
(** every square matrix up to 3x3 of any doubles gets an answer of its size: nothing uninitialised or outside a matrix is read *)
Theorem C139_total : forall sq acos cos A n e, 1 <= n <= 3 -> shows A n n e -> exists l, eigen sq acos cos A = Val l /\ zlen l = n.
Proof.
  intros sq acos cos A n e Hn H. pose proof H as (M & N & _). assert (n = 1 \/ n = 2 \/ n = 3) as [->|[->| ->]] by lia.
  - rewrite (C139_one _ _ _ A e H). eauto.
  - unfold eigen. rewrite M, N. cbn [Z.eqb Pos.eqb negb]. unfold eigen2. rewrite (C107_trace A 2 2 e H). cbn [bind]. destruct (det_val A 2 e Hn H) as (d & ->). cbn [bind]. eauto.
  - unfold eigen. rewrite M, N. cbn [Z.eqb Pos.eqb negb]. unfold eigen3. rewrite !(shows_get A 3 3 e) by (exact H || lia). cbn [bind]. cbv zeta. destruct (SFeqb _ zero); [eauto|]. rewrite (C107_trace A 3 3 e H). cbn [bind].
    destruct (new_ok 3 3 ltac:(lia) ltac:(lia) ltac:(lia)) as (I0 & -> & HI). cbn [bind]. destruct (diag_ok I0 3 3 _ (int64f 1) HI) as (I1 & -> & HI1). cbn [bind]. unfold scale, minus.
    match goal with |- context [each (mul64 ?q) I1] => destruct (each_ok (mul64 q) I1 3 3 _ HI1) as (I2 & -> & HI2) end. cbn [bind]. destruct (pointwise_ok sub64 A I2 3 e _ H HI2) as (D & -> & HD). cbn [bind].
    match goal with |- context [each (mul64 ?q) D] => destruct (each_ok (mul64 q) D 3 3 _ HD) as (B & -> & HB) end. cbn [bind]. destruct (det_val B 3 _ Hn HB) as (d & ->). cbn [bind]. eauto.
Qed.
Print Assumptions C139_total.
(** [[4, 1], [2, 3]] has the eigenvalues 2 and 5; the 3x3 matrix with the diagonal 3, 1, 2 answers 3, 1, 2; a rotation by 90 degrees answers NaN *)
Definition sq_ (x : spec_float) : spec_float := mul64 x x.
Example C139_ex : eigen sq_ sq_ sq_ (Mat 2 2 (map int64f [4; 2; 1; 3])) = Val [int64f 2; int64f 5] /\ roots2 (fun i j => if i =? 0 then if j =? 0 then 4 else 1 else if j =? 0 then 2 else 3) 2 5 /\
  eigen sq_ sq_ sq_ (Mat 3 3 (map int64f [3; 7; 7; 0; 1; 7; 0; 0; 2])) = Val [int64f 3; int64f 1; int64f 2] /\
  eigen sq_ sq_ sq_ (Mat 2 2 (map int64f [0; 1; -1; 0])) = Val [S754_nan; S754_nan].
Proof. split; [vm_compute; reflexivity|]. split; [split; reflexivity|]. split; vm_compute; reflexivity. Qed.
Example C139_ex_grid : holds (Mat 2 2 (map int64f [4; 2; 1; 3])) 2 2 0 (fun i j => if i =? 0 then if j =? 0 then 4 else 1 else if j =? 0 then 2 else 3).
Proof.
  exists (fun i j => int64f (if i =? 0 then if j =? 0 then 4 else 1 else if j =? 0 then 2 else 3)). split.
  - repeat (split; [cbn; lia|]). intros i j Hi Hj. assert (i = 0 \/ i = 1) as [->| ->] by lia; assert (j = 0 \/ j = 1) as [->| ->] by lia; vm_compute; reflexivity.
  - intros i j Hi Hj. rewrite at_r. cbn [bpow]. rewrite Rmult_1_r. apply int64_r. destruct (i =? 0), (j =? 0); lia.
Qed.
