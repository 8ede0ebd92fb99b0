(** P_Angle.v -- C141: degrees and radians. *)
From Coq Require Import Reals Lra Psatz QArith Qabs Qreals.
From Flocq Require Import Core.
From Verif Require Import Base M_Float M_MathF M_Rect M_Matrix M_Geometry S_Double L_Float L_Double L_Matrix4 L_Matrix5 L_MathF P_MathF L_Pi M_Eigen M_Angle.
Local Open Scope R_scope.
(** numbers that neither overflow nor underflow on the way: 0, and 2^-900 to 2^900 in absolute value *)
Definition moderate (q : Q) : Prop := (q == 0)%Q \/ (q2 (-900) <= Qabs q <= q2 900)%Q.
(** v is a within a relative error of 2^-k *)
Definition rel (k : Z) (v a : R) : Prop := Rabs (v - a) <= bpow radix2 (- k) * Rabs a.
Definition u : R := bpow radix2 (-53).
Lemma u_val : u = / 9007199254740992. Proof. reflexivity. Qed.
Definition mod_r (a : R) (n : Z) : Prop := a = 0 \/ bpow radix2 (- n) <= Rabs a <= bpow radix2 n.
Lemma moderate_r q : moderate q -> mod_r (Q2R q) 900.
Proof. intros [E|[L H]]; [left; rewrite (Qeq_eqR _ _ E); apply RMicromega.Q2R_0|right]. apply Qle_Rle in L, H. now rewrite Q2R_abs, Q2R_q2 in L, H. Qed.
(** one multiplication *)
Lemma step x c a b n : is64 x a -> is64 c b -> bpow radix2 (-10) <= Rabs b <= bpow radix2 10 -> mod_r a n -> (800 <= n <= 1000)%Z -> exists d, Rabs d <= u /\ is64 (mul64 x c) (a * b * (1 + d)) /\ mod_r (a * b * (1 + d)) (n + 11).
Proof.
  intros X C B A N. destruct A as [->|[L H]].
  - exists 0. split; [rewrite Rabs_R0; apply bpow_ge_0|]. rewrite !Rmult_0_l. split; [|now left]. pose proof (mul64_r x c 0 b 0 ltac:(lia) X C) as M. rewrite Rmult_0_l, Rabs_R0, r64_0 in M. apply M. apply bpow_ge_0.
  - assert (L' : bpow radix2 (- n - 10) <= Rabs (a * b)) by (rewrite Rabs_mult; unfold Z.sub; rewrite bpow_plus; apply Rmult_le_compat; try apply bpow_ge_0; [exact L|apply B]).
    assert (H' : Rabs (a * b) <= bpow radix2 (n + 10)) by (rewrite Rabs_mult, bpow_plus; apply Rmult_le_compat; try apply Rabs_pos; [exact H|apply B]).
    destruct (rel64 (a * b)) as (d & D & E); [eapply Rle_trans; [|exact L']; apply bpow_le; lia|]. exists d. split; [exact D|].
    pose proof (mul64_r x c a b (n + 10) ltac:(lia) X C H') as M. rewrite E in M. split; [exact M|right]. fold u in D. rewrite u_val in D. apply Rabs_le_inv in D. rewrite Rabs_mult, (Rabs_pos_eq (1 + d)) by lra. pose proof (Rabs_pos (a * b)).
    replace (- (n + 11))%Z with (-1 + (- n - 10))%Z by lia. replace (n + 11)%Z with (1 + (n + 10))%Z by lia. rewrite !(bpow_plus radix2 _ (_ - 10)), !(bpow_plus radix2 1 (n + 10)). change (bpow radix2 (-1)) with (/ 2). change (bpow radix2 1) with 2. nra.
Qed.
Lemma pi_r : is64 M_PI (IZR 7074237752028440 / 2251799813685248).
Proof. assert (D : dbl M_PI (7074237752028440 # 2251799813685248)) by (split; vm_compute; reflexivity). apply dbl_r in D. exact D. Qed.
Lemma t180_r : is64 T_180 (IZR 6405119470038039 / 1152921504606846976).
Proof. assert (D : dbl T_180 (6405119470038039 # 1152921504606846976)) by (split; vm_compute; reflexivity). apply dbl_r in D. exact D. Qed.
Lemma tpi_r : is64 T_PI (IZR 5734161139222659 / 18014398509481984).
Proof. assert (D : dbl T_PI (5734161139222659 # 18014398509481984)) by (split; vm_compute; reflexivity). apply dbl_r in D. exact D. Qed.
(** the constants: (pi as a double) * (1/180 as a double), and 180 * (1/pi as a double) *)
Definition cd : R := IZR 7074237752028440 / 2251799813685248 * (IZR 6405119470038039 / 1152921504606846976).
Definition cr : R := 180 * (IZR 5734161139222659 / 18014398509481984).
Lemma cd_rel : Rabs (cd / (PI / 180) - 1) <= 15 / 10 * u.
Proof.
  pose proof pi_low. pose proof pi_high. rewrite u_val. unfold cd. replace (IZR 7074237752028440 / 2251799813685248 * (IZR 6405119470038039 / 1152921504606846976) / (PI / 180) - 1) with ((IZR 7074237752028440 / 2251799813685248 * (IZR 6405119470038039 / 1152921504606846976) * 180 - PI) * / PI) by (field; lra).
  rewrite Rabs_mult, (Rabs_pos_eq (/ PI)) by (left; apply Rinv_0_lt_compat; lra). apply (Rmult_le_reg_r PI); [lra|]. rewrite Rmult_assoc, Rinv_l, Rmult_1_r by lra. apply Rabs_le. lra.
Qed.
Lemma cr_rel : Rabs (cr / (180 / PI) - 1) <= 15 / 10 * u.
Proof.
  pose proof pi_low. pose proof pi_high. rewrite u_val. unfold cr. replace (180 * (IZR 5734161139222659 / 18014398509481984) / (180 / PI) - 1) with (IZR 5734161139222659 / 18014398509481984 * PI - 1) by (field; lra). apply Rabs_le. lra.
Qed.
Lemma combine a c e d1 d2 b1 b2 : c <> 0 -> b1 * b2 = e -> Rabs (e / c - 1) <= 15 / 10 * u -> Rabs d1 <= u -> Rabs d2 <= u -> rel 51 (a * b1 * (1 + d1) * b2 * (1 + d2)) (a * c).
Proof.
  intros C E H D1 D2. set (f := e / c - 1) in *. unfold rel. replace (a * b1 * (1 + d1) * b2 * (1 + d2) - a * c) with ((((1 + f) * (1 + d1) * (1 + d2)) - 1) * (a * c)) by (unfold f; rewrite <- E; field; exact C).
  rewrite Rabs_mult. apply Rmult_le_compat_r; [apply Rabs_pos|]. replace (bpow radix2 (- (51))) with (4 * u) by (unfold u; change 4 with (bpow radix2 2); rewrite <- bpow_plus; reflexivity).
  replace ((1 + f) * (1 + d1) * (1 + d2) - 1) with (f + d1 + d2 + (f * d1 + f * d2 + d1 * d2 + f * d1 * d2)) by ring. rewrite u_val in *. apply Rabs_le_inv in H, D1, D2. apply Rabs_le.
  assert (M : forall x y, - / 1000000000000000 <= x <= / 1000000000000000 -> - / 1000000000000000 <= y <= / 1000000000000000 -> - / 100000000000000000000 <= x * y <= / 100000000000000000000) by (intros; nra).
  pose proof (M f d1 ltac:(lra) ltac:(lra)) as M1. pose proof (M f d2 ltac:(lra) ltac:(lra)). pose proof (M d1 d2 ltac:(lra) ltac:(lra)). pose proof (M (f * d1) d2 ltac:(lra) ltac:(lra)). lra.
Qed.
(** ** what holds *)
(** degrees to radians and back, for every moderate double, against the real number pi *)
Theorem C141_degToRad : forall x q, dbl x q -> moderate q -> exists r, dbl (degToRad x) r /\ rel 51 (Q2R r) (Q2R q * (PI / 180)).
Proof.
  intros x q X M. apply moderate_r in M. apply dbl_r in X. pose proof pi_low. pose proof pi_high. unfold degToRad.
  destruct (step _ _ _ _ 900 X pi_r ltac:(cbn [bpow]; rewrite Rabs_pos_eq by lra; cbn; lra) M ltac:(lia)) as (d1 & D1 & X1 & M1). destruct (step _ _ _ _ (900 + 11) X1 t180_r ltac:(cbn [bpow]; rewrite Rabs_pos_eq by lra; cbn; lra) M1 ltac:(lia)) as (d2 & D2 & X2 & _).
  destruct (is_dbl _ _ X2) as (r & Dr & E). exists r. split; [exact Dr|]. rewrite E. apply (combine _ _ cd); [lra|reflexivity|exact cd_rel|exact D1|exact D2].
Qed.
Print Assumptions C141_degToRad.
Lemma pi_inv : 180 / PI <> 0. Proof. pose proof pi_low. unfold Rdiv. apply Rmult_integral_contrapositive. split; [lra|]. apply Rinv_neq_0_compat. lra. Qed.
Theorem C141_radToDeg : forall x q, dbl x q -> moderate q -> exists r, dbl (radToDeg x) r /\ rel 51 (Q2R r) (Q2R q * (180 / PI)).
Proof.
  intros x q X M. apply moderate_r in M. apply dbl_r in X. unfold radToDeg.
  destruct (step _ _ _ _ 900 X (int64_r 180 ltac:(lia)) ltac:(cbn [bpow]; rewrite Rabs_pos_eq by lra; cbn; lra) M ltac:(lia)) as (d1 & D1 & X1 & M1). destruct (step _ _ _ _ (900 + 11) X1 tpi_r ltac:(cbn [bpow]; rewrite Rabs_pos_eq by lra; cbn; lra) M1 ltac:(lia)) as (d2 & D2 & X2 & _).
  destruct (is_dbl _ _ X2) as (r & Dr & E). exists r. split; [exact Dr|]. rewrite E. apply (combine _ _ cr); [exact pi_inv|reflexivity|exact cr_rel|exact D1|exact D2].
Qed.
Print Assumptions C141_radToDeg.
(** there and back *)
Lemma rel_back a r s c c' : c * c' = 1 -> rel 51 r (a * c) -> rel 51 s (r * c') -> rel 49 s a.
Proof.
  intros C H1 H2. unfold rel in *. change (bpow radix2 (- (51))) with (/ 2251799813685248) in *. change (bpow radix2 (- (49))) with (/ 562949953421312).
  assert (N : Rabs (r * c' - a) <= / 2251799813685248 * Rabs a). { replace (r * c' - a) with ((r - a * c) * c') by (replace a with (a * (c * c')) at 2 by (rewrite C; ring); ring). rewrite Rabs_mult. replace (Rabs a) with (Rabs (a * c) * Rabs c') by (rewrite <- Rabs_mult, Rmult_assoc, C, Rmult_1_r; reflexivity). rewrite <- Rmult_assoc. apply Rmult_le_compat_r; [apply Rabs_pos|exact H1]. }
  pose proof (Rabs_pos a). assert (B : Rabs (r * c') <= 2 * Rabs a) by (replace (r * c') with ((r * c' - a) + a) by ring; eapply Rle_trans; [apply Rabs_triang|lra]).
  replace (s - a) with ((s - r * c') + (r * c' - a)) by ring. eapply Rle_trans; [apply Rabs_triang|]. lra.
Qed.
Lemma moderate_image q r c : (q2 (-880) <= Qabs q <= q2 880)%Q -> bpow radix2 (-10) <= c <= bpow radix2 10 -> rel 51 (Q2R r) (Q2R q * c) -> moderate r.
Proof.
  intros [L H] C R. right. apply Qle_Rle in L, H. rewrite Q2R_abs, Q2R_q2 in L, H. unfold rel in R. change (bpow radix2 (- (51))) with (/ 2251799813685248) in R. pose proof (bpow_gt_0 radix2 (-10)) as CP.
  rewrite Rabs_mult, (Rabs_pos_eq c) in R by lra. set (m := Rabs (Q2R q)) in *. assert (B1 : bpow radix2 (-890) <= m * c) by (change (-890)%Z with (-880 + -10)%Z; rewrite bpow_plus; apply Rmult_le_compat; try apply bpow_ge_0; lra). assert (B2 : m * c <= bpow radix2 890) by (change 890%Z with (880 + 10)%Z; rewrite bpow_plus; apply Rmult_le_compat; try apply Rabs_pos; lra).
  assert (T1 : m * c / 2 <= Rabs (Q2R r)) by (pose proof (Rabs_triang_inv (Q2R q * c) (Q2R q * c - Q2R r)) as T; replace (Q2R q * c - (Q2R q * c - Q2R r)) with (Q2R r) in T by ring; rewrite (Rabs_minus_sym (Q2R q * c)), Rabs_mult, (Rabs_pos_eq c) in T by lra; fold m in T; pose proof (bpow_gt_0 radix2 (-890)); lra).
  assert (T2 : Rabs (Q2R r) <= 2 * (m * c)) by (replace (Q2R r) with ((Q2R r - Q2R q * c) + Q2R q * c) by ring; eapply Rle_trans; [apply Rabs_triang|]; rewrite (Rabs_mult (Q2R q)), (Rabs_pos_eq c) by lra; fold m; pose proof (bpow_gt_0 radix2 (-890)); lra).
  split; apply Rle_Qle; rewrite Q2R_abs, Q2R_q2.
  - change (-900)%Z with (-890 + -10)%Z. rewrite bpow_plus. change (bpow radix2 (-10)) with (/ 1024). lra.
  - change 900%Z with (890 + 10)%Z. rewrite bpow_plus. change (bpow radix2 10) with 1024. pose proof (bpow_gt_0 radix2 890). lra.
Qed.
Theorem C141_roundtrip : forall x q, dbl x q -> (q2 (-880) <= Qabs q <= q2 880)%Q -> (exists r, dbl (radToDeg (degToRad x)) r /\ rel 49 (Q2R r) (Q2R q)) /\ (exists r, dbl (degToRad (radToDeg x)) r /\ rel 49 (Q2R r) (Q2R q)).
Proof.
  intros x q X M. pose proof pi_low. pose proof pi_high. assert (M' : moderate q) by (right; destruct M as [L H']; split; [eapply Qle_trans; [|exact L]|eapply Qle_trans; [exact H'|]]; apply Rle_Qle; rewrite !Q2R_q2; apply bpow_le; lia).
  assert (I : / 4 <= / PI <= / 3) by (split; apply Rinv_le; lra). split.
  - destruct (C141_degToRad x q X M') as (r & Dr & R). destruct (C141_radToDeg _ r Dr) as (s & Ds & S); [apply (moderate_image q r (PI / 180) M); [cbn; lra|exact R]|]. exists s. split; [exact Ds|]. apply (rel_back _ (Q2R r) _ (PI / 180) (180 / PI)); [field; lra|exact R|exact S].
  - destruct (C141_radToDeg x q X M') as (r & Dr & R). destruct (C141_degToRad _ r Dr) as (s & Ds & S); [apply (moderate_image q r (180 / PI) M); [cbn; unfold Rdiv; lra|exact R]|]. exists s. split; [exact Ds|]. apply (rel_back _ (Q2R r) _ (180 / PI) (PI / 180)); [field; lra|exact R|exact S].
Qed.
Print Assumptions C141_roundtrip.
(** order is kept, without any lower bound on the numbers *)
Lemma two_steps x c1 c2 a b1 b2 : is64 x a -> is64 c1 b1 -> is64 c2 b2 -> 0 <= b1 <= bpow radix2 10 -> 0 <= b2 <= bpow radix2 10 -> Rabs a <= bpow radix2 900 -> is64 (mul64 (mul64 x c1) c2) (r64 (r64 (a * b1) * b2)).
Proof.
  intros X C1 C2 B1 B2 A. assert (H : Rabs (a * b1) <= bpow radix2 910) by (change 910%Z with (900 + 10)%Z; rewrite Rabs_mult, (Rabs_pos_eq b1), bpow_plus by lra; apply Rmult_le_compat; try apply Rabs_pos; lra).
  pose proof (mul64_r x c1 a b1 910 ltac:(lia) X C1 H) as M. apply (mul64_r _ _ _ _ 920 ltac:(lia) M C2). change 920%Z with (910 + 10)%Z. rewrite Rabs_mult, (Rabs_pos_eq b2), bpow_plus by lra. apply Rmult_le_compat; try apply Rabs_pos; try lra. apply r64_abs; [lia|exact H].
Qed.
Theorem C141_order : forall x y a b, dbl x a -> dbl y b -> (Qabs a <= q2 900)%Q -> (Qabs b <= q2 900)%Q -> (a <= b)%Q ->
  (exists r s, dbl (degToRad x) r /\ dbl (degToRad y) s /\ (r <= s)%Q) /\ (exists r s, dbl (radToDeg x) r /\ dbl (radToDeg y) s /\ (r <= s)%Q).
Proof.
  intros x y a b X Y A B L. apply dbl_r in X, Y. apply Qle_Rle in A, B, L. rewrite Q2R_abs, Q2R_q2 in A, B. unfold degToRad, radToDeg.
  assert (G : forall c1 c2 b1 b2, is64 c1 b1 -> is64 c2 b2 -> 0 <= b1 <= bpow radix2 10 -> 0 <= b2 <= bpow radix2 10 -> exists r s, dbl (mul64 (mul64 x c1) c2) r /\ dbl (mul64 (mul64 y c1) c2) s /\ (r <= s)%Q).
  { intros c1 c2 b1 b2 C1 C2 B1 B2. destruct (is_dbl _ _ (two_steps x _ _ _ _ _ X C1 C2 B1 B2 A)) as (r & Dr & Er). destruct (is_dbl _ _ (two_steps y _ _ _ _ _ Y C1 C2 B1 B2 B)) as (s & Ds & Es). exists r, s. split; [exact Dr|]. split; [exact Ds|]. apply Rle_Qle. rewrite Er, Es. apply r64_le. apply Rmult_le_compat_r; [lra|]. apply r64_le. apply Rmult_le_compat_r; [lra|exact L]. }
  split; [apply (G _ _ _ _ pi_r t180_r); cbn; lra|apply (G _ _ _ _ (int64_r 180 ltac:(lia)) tpi_r); cbn; lra].
Qed.
Print Assumptions C141_order.
(** the marks of the circle are the doubles nearest to them; infinities and NaN stay what they are *)
Theorem C141_marks : degToRad (int64f 90) = div64 M_PI (int64f 2) /\ degToRad (int64f 180) = M_PI /\ degToRad (int64f 270) = div64 (mul64 (int64f 3) M_PI) (int64f 2) /\ degToRad (int64f 360) = M_2PI /\
  radToDeg M_PI = int64f 180 /\ radToDeg M_2PI = int64f 360 /\ radToDeg (div64 M_PI (int64f 2)) = int64f 90 /\
  (forall s, degToRad (S754_infinity s) = S754_infinity s /\ radToDeg (S754_infinity s) = S754_infinity s /\ degToRad (S754_zero s) = S754_zero s /\ radToDeg (S754_zero s) = S754_zero s) /\ degToRad S754_nan = S754_nan /\ radToDeg S754_nan = S754_nan.
Proof. repeat (split; [vm_compute; reflexivity|]). split; [intros []; vm_compute; repeat split|]. split; vm_compute; reflexivity. Qed.
Print Assumptions C141_marks.
(** ** what does not hold *)
(** 13 degrees do not come back exactly, and 2^1023 degrees are infinitely many radians although their number of radians is a double (degrees are multiplied by pi first) *)
Theorem C141_refuted : radToDeg (degToRad (int64f 13)) <> int64f 13 /\ degToRad (S754_finite false 4503599627370496 971) = S754_infinity false.
Proof. split; [vm_compute; discriminate|vm_compute; reflexivity]. Qed.
Print Assumptions C141_refuted.
(** concrete cases of the hypotheses *)
Example C141_hyps : dbl (int64f 13) 13 /\ moderate 13 /\ (q2 (-880) <= Qabs 13 <= q2 880)%Q /\ dbl (int64f (-7)) (-7 # 1) /\ moderate (-7 # 1) /\ (-7 # 1 <= 13)%Q.
Proof. repeat split; try (vm_compute; reflexivity); try (vm_compute; discriminate); right; split; vm_compute; discriminate. Qed.
