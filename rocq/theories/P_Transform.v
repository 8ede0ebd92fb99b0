(** P_Transform.v -- C123: object and world coordinates. *)
From Coq Require Import Reals Lra Psatz QArith Qabs Qreals.
From Flocq Require Import Core Mult_error.
From Verif Require Import Base M_Float M_MathF M_Rect M_Matrix M_Geometry M_Transform S_Double S_Matrix S_Transform L_Float L_Double L_MathF P_MathF L_Matrix L_Matrix2 L_Matrix4 L_Matrix5 L_Geometry L_Transform L_Transform2 L_Transform3.
Local Open Scope R_scope.

Lemma near_r k a b : near k a b <-> Rabs (Q2R a - Q2R b) <= bpow radix2 k.
Proof. unfold near. split; intros H. - apply Qle_Rle in H. now rewrite Q2R_abs, Q2R_minus, Q2R_q2 in H. - apply Rle_Qle. now rewrite Q2R_abs, Q2R_minus, Q2R_q2. Qed.
Lemma uu_k k : (-40 <= k)%Z -> 8192 * uu <= bpow radix2 k. Proof. intros K. unfold uu. change 8192 with (bpow radix2 13). rewrite <- bpow_plus. apply bpow_le. lia. Qed.
Lemma eps_uu : bpow radix2 (-45) = 256 * uu. Proof. unfold uu. change 256 with (bpow radix2 8). rewrite <- bpow_plus. reflexivity. Qed.
Lemma prod_near a b c d : Rabs (a - c) <= 260 * uu -> Rabs (b - d) <= 260 * uu -> Rabs c <= 1 -> Rabs d <= 1 -> Rabs (a * b - c * d) <= 521 * uu.
Proof.
  intros A B C D. pose proof uu_pos. replace (a * b - c * d) with ((a - c) * d + c * (b - d) + (a - c) * (b - d)) by ring. pose proof (Rabs_triang ((a - c) * d + c * (b - d)) ((a - c) * (b - d))) as T1. pose proof (Rabs_triang ((a - c) * d) (c * (b - d))) as T2. rewrite !Rabs_mult in *.
  assert (Rabs (a - c) * Rabs d <= 260 * uu * 1) by (apply Rmult_le_compat; try apply Rabs_pos; lra). assert (Rabs c * Rabs (b - d) <= 1 * (260 * uu)) by (apply Rmult_le_compat; try apply Rabs_pos; lra). assert (Rabs (a - c) * Rabs (b - d) <= 260 * uu * (260 * uu)) by (apply Rmult_le_compat; try apply Rabs_pos; lra).
  assert (260 * uu * (260 * uu) <= uu) by (rewrite uu_val; lra). lra.
Qed.
Lemma sum3 a b c d e f D : Rabs (a - d) <= D -> Rabs (b - e) <= D -> Rabs (c - f) <= D -> Rabs (a + b + c - (d + e + f)) <= 3 * D.
Proof. intros A B C. apply Rabs_le_inv in A, B, C. apply Rabs_le. lra. Qed.
Lemma diff2 a b c d D : Rabs (a - c) <= D -> Rabs (b - d) <= D -> Rabs (a - b - (c - d)) <= 2 * D.
Proof. intros A B. apply Rabs_le_inv in A, B. apply Rabs_le. lra. Qed.

Section Frame.
Context (e : vertex3) (x y z : Q) (D : direction e x y z).
Let s := Q2R x * Q2R x + Q2R y * Q2R y + Q2R z * Q2R z.
Lemma dir_r : is64 (vx e) (Q2R x) /\ is64 (vy e) (Q2R y) /\ is64 (vz e) (Q2R z) /\ Rabs (s - 1) <= bpow radix2 (-45).
Proof. destruct D as ((A & B & C) & N). apply dbl_r in A, B, C. apply near_r in N. rewrite !Q2R_plus, !Q2R_mult, RMicromega.Q2R_1 in N. now repeat split. Qed.
(** the third row, the direction itself, and the exact third axis *)
Lemma third t f : is64 f t -> t * t <= s -> app 1 (260 * uu) f (t / sqrt s).
Proof.
  destruct dir_r as (_ & _ & _ & N). intros F H. destruct (s_root (Q2R x) (Q2R y) (Q2R z) N) as (SQ & SB & SN). fold s in SQ, SB, SN. pose proof uu_pos as U.
  assert (T : Rabs t <= sqrt s) by (apply Rsqr_incr_0; [|apply Rabs_pos|lra]; unfold Rsqr; rewrite <- Rabs_mult, Rabs_pos_eq by apply Rle_0_sqr; lra).
  assert (I : 0 < / sqrt s) by (apply Rinv_0_lt_compat; lra). assert (Q : Rabs (t / sqrt s) <= 1). { unfold Rdiv. rewrite Rabs_mult, (Rabs_pos_eq (/ _)) by lra. apply Rle_trans with (sqrt s * / sqrt s); [apply Rmult_le_compat_r; lra|]. rewrite Rinv_r; lra. }
  exists t. split; [exact F|]. split; [|exact Q]. replace (t - t / sqrt s) with (t / sqrt s * (sqrt s - 1)) by (field; lra). rewrite Rabs_mult. rewrite eps_uu in SN. apply Rle_trans with (1 * (256 * uu)); [apply Rmult_le_compat; try apply Rabs_pos; assumption|lra].
Qed.
(** everything about the matrix *)
Lemma matrix_app : exists ox oy u1 u2 u3 w1 w2 w3 n1 n2 n3, ocsMatrix e = mat3 ox oy e true /\ ortho u1 u2 u3 w1 w2 w3 n1 n2 n3 /\
  (app 1 (260 * uu) (vx ox) u1 /\ app 1 (260 * uu) (vy ox) u2 /\ app 1 (260 * uu) (vz ox) u3) /\ (app 1 (260 * uu) (vx oy) w1 /\ app 1 (260 * uu) (vy oy) w2 /\ app 1 (260 * uu) (vz oy) w3) /\ (app 1 (260 * uu) (vx e) n1 /\ app 1 (260 * uu) (vy e) n2 /\ app 1 (260 * uu) (vz e) n3) /\
  ((Rabs (Q2R x) < / 64 /\ Rabs (Q2R y) < / 64 /\ is64 (vy ox) 0 /\ 9 / 10 <= u1 * Q2R z) \/ (~ (Rabs (Q2R x) < / 64 /\ Rabs (Q2R y) < / 64) /\ is64 (vz ox) 0 /\ / 100 <= u2 * Q2R x - u1 * Q2R y)) /\ Rabs (Q2R x) <= 1001 / 1000 /\ Rabs (Q2R y) <= 1001 / 1000 /\ Rabs (Q2R z) <= 1001 / 1000.
Proof.
  destruct dir_r as (X & Y & Z0 & N). destruct (frame_ocs e _ _ _ X Y Z0 N) as (ox & oy & u1 & u2 & u3 & w1 & w2 & w3 & E & O & (A1 & A2 & A3) & (B1 & B2 & B3) & C). pose proof uu_pos as U. pose proof (x_s _ _ _ N) as XS.
  exists ox, oy, u1, u2, u3, w1, w2, w3, (Q2R x / sqrt s), (Q2R y / sqrt s), (Q2R z / sqrt s). split; [exact E|]. split; [exact O|]. split; [split; [|split]; (eapply app_le; [eassumption|lra|lra])|]. split; [split; [|split]; (eapply app_le; [eassumption|lra|lra])|].
  assert (QX := Rle_0_sqr (Q2R x)). assert (QY := Rle_0_sqr (Q2R y)). assert (QZ := Rle_0_sqr (Q2R z)). unfold Rsqr in *.
  split; [split; [|split]; (apply third; [assumption|unfold s; lra])|]. split; [exact C|exact XS].
Qed.
End Frame.

Lemma app_q B E f a : app B E f a -> exists q, dbl f q /\ Rabs (Q2R q - a) <= E /\ Rabs a <= B.
Proof. intros (r & F & H & K). destruct (is_dbl _ _ F) as (q & D & <-). now exists q. Qed.

(** * the axes: the z axis is the direction itself; the x axis lies in the plane y = 0 or z = 0, as the arbitrary axis algorithm has it *)
Theorem C123_frame e x y z : direction e x y z -> exists g u1 u2 u3 w1 w2 w3, shows (ocsMatrix e) 3 3 g /\ axis g 0 u1 u2 u3 /\ axis g 1 w1 w2 w3 /\ (g 2%Z 0%Z = vx e /\ g 2%Z 1%Z = vy e /\ g 2%Z 2%Z = vz e) /\
  frame (-40) u1 u2 u3 w1 w2 w3 x y z /\
  ((Qabs x < 1 # 64)%Q /\ (Qabs y < 1 # 64)%Q -> (u2 == 0)%Q /\ (0 < u1 * z)%Q) /\ (~ ((Qabs x < 1 # 64)%Q /\ (Qabs y < 1 # 64)%Q) -> (u3 == 0)%Q /\ (0 < u2 * x - u1 * y)%Q).
Proof.
  intros D. destruct (dir_r e x y z D) as (X & Y & Z0 & _). destruct (matrix_app e x y z D) as (ox & oy & u1 & u2 & u3 & w1 & w2 & w3 & n1 & n2 & n3 & E & O & (A1 & A2 & A3) & (B1 & B2 & B3) & (C1 & C2 & C3) & AX & BX & BY & BZ).
  destruct (app_q _ _ _ _ A1) as (p1 & P1 & R1 & _). destruct (app_q _ _ _ _ A2) as (p2 & P2 & R2 & _). destruct (app_q _ _ _ _ A3) as (p3 & P3 & R3 & _). destruct (app_q _ _ _ _ B1) as (q1 & Q1 & S1 & _). destruct (app_q _ _ _ _ B2) as (q2_ & Q2 & S2 & _). destruct (app_q _ _ _ _ B3) as (q3 & Q3 & S3 & _).
  assert (T1 : Rabs (Q2R x - n1) <= 260 * uu) by (destruct C1 as (h & F & H & _); now rewrite (is_r_inj 53 1024 _ _ _ X F)). assert (T2 : Rabs (Q2R y - n2) <= 260 * uu) by (destruct C2 as (h & F & H & _); now rewrite (is_r_inj 53 1024 _ _ _ Y F)). assert (T3 : Rabs (Q2R z - n3) <= 260 * uu) by (destruct C3 as (h & F & H & _); now rewrite (is_r_inj 53 1024 _ _ _ Z0 F)).
  destruct (o_bound _ _ _ _ _ _ _ _ _ O) as ((BU1 & BU2 & BU3) & (BW1 & BW2 & BW3) & (BN1 & BN2 & BN3)). destruct (o_dots _ _ _ _ _ _ _ _ _ O) as (D1 & D2 & D3). destruct O as (O1 & O2 & O3 & _ & _ & (O7 & O8 & O9)).
  pose proof (uu_k (-40) ltac:(lia)) as UK. pose proof uu_pos as U.
  exists (fun i j => nth (Z.to_nat (i + j * 3)) [vx ox; vx oy; vx e; vy ox; vy oy; vy e; vz ox; vz oy; vz e] zero), p1, p2, p3, q1, q2_, q3. rewrite E. split; [apply shows_list; [lia|reflexivity]|].
  split; [split; [exact P1|split; [exact P2|exact P3]]|]. split; [split; [exact Q1|split; [exact Q2|exact Q3]]|]. split; [now repeat split|].
  assert (dotn : forall a b c a' b' c' A B C A' B' C' v, Rabs (a - A) <= 260 * uu -> Rabs (b - B) <= 260 * uu -> Rabs (c - C) <= 260 * uu -> Rabs (a' - A') <= 260 * uu -> Rabs (b' - B') <= 260 * uu -> Rabs (c' - C') <= 260 * uu ->
    Rabs A <= 1 -> Rabs B <= 1 -> Rabs C <= 1 -> Rabs A' <= 1 -> Rabs B' <= 1 -> Rabs C' <= 1 -> A * A' + B * B' + C * C' = v -> Rabs (a * a' + b * b' + c * c' - v) <= bpow radix2 (-40)).
  { intros. subst v. eapply Rle_trans; [apply (sum3 _ _ _ _ _ _ (521 * uu)); apply prod_near; assumption|lra]. }
  assert (crossn : forall a b c d A B C A' n N, Rabs (a - A) <= 260 * uu -> Rabs (b - B) <= 260 * uu -> Rabs (c - C) <= 260 * uu -> Rabs (d - A') <= 260 * uu -> Rabs A <= 1 -> Rabs B <= 1 -> Rabs C <= 1 -> Rabs A' <= 1 -> A * B - C * A' = N -> Rabs (n - N) <= 260 * uu -> Rabs (a * b - c * d - n) <= bpow radix2 (-40)).
  { intros a b c d A B C A' n N Ha Hb Hc Hd HA HB HC HA' HN Hn. subst N. pose proof (diff2 _ _ _ _ _ (prod_near _ _ _ _ Ha Hb HA HB) (prod_near _ _ _ _ Hc Hd HC HA')) as G. rewrite Rabs_minus_sym in Hn. pose proof (tri _ _ _ _ _ G Hn). lra. }
  split.
  - unfold frame. rewrite !near_r, !Q2R_plus, !Q2R_minus, !Q2R_mult, RMicromega.Q2R_1, RMicromega.Q2R_0.
    split; [split; [eapply dotn; [..|exact O1]; eassumption|split; [eapply dotn; [..|exact O2]; eassumption|eapply dotn; [..|exact O3]; eassumption]]|]. split; [split; [eapply dotn; [..|exact D1]; eassumption|split; [eapply dotn; [..|exact D2]; eassumption|eapply dotn; [..|exact D3]; eassumption]]|].
    split; [eapply crossn; [..|exact O7|exact T1]; eassumption|]. split; [eapply crossn; [..|exact O8|exact T2]; eassumption|eapply crossn; [..|exact O9|exact T3]; eassumption].
  - assert (E64 : Q2R (1 # 64) = / 64) by (unfold Q2R; cbn; lra).
    assert (I : forall t, (Qabs t < 1 # 64)%Q <-> Rabs (Q2R t) < / 64). { intros t. rewrite <- Q2R_abs, <- E64. split; [apply Qlt_Rlt|apply Rlt_Qlt]. }
    assert (ZQ : forall f q, dbl f q -> is64 f 0 -> (q == 0)%Q). { intros f q F G. apply dbl_r in F. apply eqR_Qeq. rewrite RMicromega.Q2R_0. exact (is_r_inj 53 1024 _ _ _ F G). }
    rewrite !I. destruct AX as [(LX & LY & ZY & SG)|(NL & ZZ & SG)].
    + split; [intros _|tauto]. split; [exact (ZQ _ _ P2 ZY)|]. apply Rlt_Qlt. rewrite Q2R_mult, RMicromega.Q2R_0. pose proof (mul_abs _ _ (Q2R z) _ R1) as M. apply Rabs_le_inv in M. assert (260 * uu * Rabs (Q2R z) <= 260 * uu * 2) by (apply Rmult_le_compat_l; lra). pose proof u_small. lra.
    + split; [tauto|intros _]. split; [exact (ZQ _ _ P3 ZZ)|]. apply Rlt_Qlt. rewrite Q2R_minus, !Q2R_mult, RMicromega.Q2R_0. pose proof (mul_abs _ _ (Q2R x) _ R2) as M. pose proof (mul_abs _ _ (Q2R y) _ R1) as M'. apply Rabs_le_inv in M, M'. assert (260 * uu * Rabs (Q2R x) <= 260 * uu * 2) by (apply Rmult_le_compat_l; lra). assert (260 * uu * Rabs (Q2R y) <= 260 * uu * 2) by (apply Rmult_le_compat_l; lra). pose proof u_small. lra.
Qed.

(** * the object coordinates of a point are its coordinates along the axes *)
Lemma point_app P v a b c : point v a b c -> (Qabs a <= P)%Q -> (Qabs b <= P)%Q -> (Qabs c <= P)%Q -> is64 (vx v) (Q2R a) /\ is64 (vy v) (Q2R b) /\ is64 (vz v) (Q2R c) /\ Rabs (Q2R a) <= Q2R P /\ Rabs (Q2R b) <= Q2R P /\ Rabs (Q2R c) <= Q2R P.
Proof. intros (A & B & C) HA HB HC. apply dbl_r in A, B, C. apply Qle_Rle in HA, HB, HC. rewrite Q2R_abs in HA, HB, HC. now repeat split. Qed.
Lemma uu_P k j : (13 + j <= 0)%Z -> 8192 * (uu * bpow radix2 k) <= bpow radix2 (k - 53 - j).
Proof. intros K. unfold uu. change 8192 with (bpow radix2 13). rewrite <- !bpow_plus. apply bpow_le. lia. Qed.
Theorem C123_coordinates e x y z p a b c k g u1 u2 u3 w1 w2 w3 : direction e x y z -> shows (ocsMatrix e) 3 3 g -> axis g 0 u1 u2 u3 -> axis g 1 w1 w2 w3 ->
  point p a b c -> (-900 <= k <= 900)%Z -> (Qabs a <= q2 k)%Q -> (Qabs b <= q2 k)%Q -> (Qabs c <= q2 k)%Q ->
  exists q, wcsToOcs p e = Val q /\ point_near (k - 40) q (u1 * a + u2 * b + u3 * c) (w1 * a + w2 * b + w3 * c) (x * a + y * b + z * c).
Proof.
  intros D SH (G1 & G2 & G3) (H1 & H2 & H3) Pt K HA HB HC. destruct (dir_r e x y z D) as (X & Y & Z0 & _). destruct (point_app _ _ _ _ _ Pt HA HB HC) as (PA & PB & PC & LA & LB & LC). rewrite Q2R_q2 in LA, LB, LC.
  destruct (matrix_app e x y z D) as (ox & oy & v1 & v2 & v3 & t1 & t2 & t3 & n1 & n2 & n3 & E & O & (A1 & A2 & A3) & (B1 & B2 & B3) & (C1 & C2 & C3) & _).
  destruct (P_ok k K) as (PP & PT & P3 & P1). pose proof uu_pos as U. set (P := bpow radix2 k) in *.
  destruct (to_app ox oy e _ _ _ _ _ _ _ _ _ A1 A2 A3 B1 B2 B3 C1 C2 C3 P 0 p _ _ _ (app_0 _ _ _ PA LA) (app_0 _ _ _ PB LB) (app_0 _ _ _ PC LC) ltac:(lra) PT P1) as (q & EQ & Q1 & Q2 & Q3).
  exists q. unfold wcsToOcs. rewrite E. split; [exact EQ|]. 
  rewrite E in SH. pose proof (shows_list 3 [vx ox; vx oy; vx e; vy ox; vy oy; vy e; vz ox; vz oy; vz e] ltac:(lia) eq_refl) as SL.
  assert (GE : forall i j, (0 <= i < 3)%Z -> (0 <= j < 3)%Z -> g i j = nth (Z.to_nat (i + j * 3)) [vx ox; vx oy; vx e; vy ox; vy oy; vy e; vz ox; vz oy; vz e] zero).
  { intros i j Hi Hj. destruct SH as (_ & _ & _ & _ & _ & _ & SH). destruct SL as (_ & _ & _ & _ & _ & _ & SL). specialize (SH i j Hi Hj). specialize (SL i j Hi Hj). change (mat3 ox oy e true) with (Mat 3 3 [vx ox; vx oy; vx e; vy ox; vy oy; vy e; vz ox; vz oy; vz e]) in SH. rewrite SL in SH. now inversion SH. }
  rewrite GE in G1, G2, G3, H1, H2, H3 by lia. change (dbl (vx ox) u1) in G1. change (dbl (vy ox) u2) in G2. change (dbl (vz ox) u3) in G3. change (dbl (vx oy) w1) in H1. change (dbl (vy oy) w2) in H2. change (dbl (vz oy) w3) in H3.
  apply dbl_r in G1, G2, G3, H1, H2, H3.
  assert (PR : forall f r t v p, is64 f r -> app 1 (260 * uu) f t -> Rabs p <= P -> v = r * p -> Rabs (t * p - v) <= 260 * uu * P). { intros f r t v p0 F (h & F' & H & _) L ->. rewrite (is_r_inj 53 1024 _ _ _ F F'). rewrite <- Rmult_minus_distr_r, Rabs_mult, Rabs_minus_sym. apply Rmult_le_compat; try apply Rabs_pos; assumption. }
  pose proof (uu_P k (-13) ltac:(lia)) as UK. replace (k - 53 - -13)%Z with (k - 40)%Z in UK by lia. fold P in UK. assert (UP : 0 < uu * P) by (apply Rmult_lt_0_compat; lra).
  destruct (app_q _ _ _ _ Q1) as (r1 & R1 & S1 & _). destruct (app_q _ _ _ _ Q2) as (r2 & R2 & S2 & _). destruct (app_q _ _ _ _ Q3) as (r3 & R3 & S3 & _).
  exists r1, r2, r3. split; [split; [exact R1|split; [exact R2|exact R3]]|]. rewrite !near_r, !Q2R_plus, !Q2R_mult.
  split; [|split].
  - pose proof (sum3 _ _ _ _ _ _ _ (PR _ _ _ _ _ G1 A1 LA eq_refl) (PR _ _ _ _ _ G2 A2 LB eq_refl) (PR _ _ _ _ _ G3 A3 LC eq_refl)) as T. pose proof (tri _ _ _ _ _ S1 T). lra.
  - pose proof (sum3 _ _ _ _ _ _ _ (PR _ _ _ _ _ H1 B1 LA eq_refl) (PR _ _ _ _ _ H2 B2 LB eq_refl) (PR _ _ _ _ _ H3 B3 LC eq_refl)) as T. pose proof (tri _ _ _ _ _ S2 T). lra.
  - pose proof (sum3 _ _ _ _ _ _ _ (PR _ _ _ _ _ X C1 LA eq_refl) (PR _ _ _ _ _ Y C2 LB eq_refl) (PR _ _ _ _ _ Z0 C3 LC eq_refl)) as T. pose proof (tri _ _ _ _ _ S3 T). lra.
Qed.
(** * there and back, and back and there *)
Theorem C123_roundtrip e x y z p a b c k : direction e x y z -> point p a b c -> (-900 <= k <= 900)%Z -> (Qabs a <= q2 k)%Q -> (Qabs b <= q2 k)%Q -> (Qabs c <= q2 k)%Q ->
  (exists q r, wcsToOcs p e = Val q /\ ocsToWcs q e = Val r /\ point_near (k - 35) r a b c) /\ (exists q r, ocsToWcs p e = Val q /\ wcsToOcs q e = Val r /\ point_near (k - 35) r a b c).
Proof.
  intros D Pt K HA HB HC. destruct (point_app _ _ _ _ _ Pt HA HB HC) as (PA & PB & PC & LA & LB & LC). rewrite Q2R_q2 in LA, LB, LC.
  destruct (matrix_app e x y z D) as (ox & oy & u1 & u2 & u3 & w1 & w2 & w3 & n1 & n2 & n3 & E & O & (A1 & A2 & A3) & (B1 & B2 & B3) & (C1 & C2 & C3) & _).
  pose proof uu_pos as U. pose proof (bpow_gt_0 radix2 k) as PP.
  assert (UK : 262144 * (uu * bpow radix2 k) = bpow radix2 (k - 35)). { unfold uu. change 262144 with (bpow radix2 18). rewrite <- !bpow_plus. f_equal. lia. } assert (UP : 0 < uu * bpow radix2 k) by (apply Rmult_lt_0_compat; lra).
  assert (FIN : forall r, app (9 * bpow radix2 k) (175000 * uu * bpow radix2 k) (vx r) (Q2R a) -> app (9 * bpow radix2 k) (175000 * uu * bpow radix2 k) (vy r) (Q2R b) -> app (9 * bpow radix2 k) (175000 * uu * bpow radix2 k) (vz r) (Q2R c) -> point_near (k - 35) r a b c).
  { intros r R1 R2 R3. destruct (app_q _ _ _ _ R1) as (r1 & D1 & S1 & _). destruct (app_q _ _ _ _ R2) as (r2 & D2 & S2 & _). destruct (app_q _ _ _ _ R3) as (r3 & D3 & S3 & _). exists r1, r2, r3. split; [split; [exact D1|split; [exact D2|exact D3]]|]. rewrite !near_r. lra. }
  split.
  - destruct (roundtrip_app ox oy e _ _ _ _ _ _ _ _ _ O A1 A2 A3 B1 B2 B3 C1 C2 C3 k K p _ _ _ PA PB PC LA LB LC) as (q & W & r & EQ & EW & ER & R1 & R2 & R3).
    exists q, r. unfold wcsToOcs, ocsToWcs, wcsMatrix. rewrite E, EW. cbn [bind]. split; [exact EQ|]. split; [exact ER|]. now apply FIN.
  - destruct (back_app ox oy e _ _ _ _ _ _ _ _ _ O A1 A2 A3 B1 B2 B3 C1 C2 C3 k K p _ _ _ PA PB PC LA LB LC) as (W & q & r & EW & EQ & ER & R1 & R2 & R3).
    exists q, r. unfold wcsToOcs, ocsToWcs, wcsMatrix. rewrite E, EW. cbn [bind]. split; [exact EQ|]. split; [exact ER|]. now apply FIN.
Qed.

(** * the two directions of plane drawings, exactly *)
Definition Z3 (a b c : Z) : vertex3 := V3 (int64f a) (int64f b) (int64f c).
Definition diag3 (a b c : Z) : mat := Mat 3 3 (map int64f [a; 0; 0; 0; b; 0; 0; 0; c]%Z).
Lemma times_r m f q : (m = 1 \/ m = -1 \/ m = 2)%Z -> dbl f q -> (m = 2%Z -> (Qabs q <= q2 1000)%Q) -> is64 (mul64 (int64f m) f) (Q2R (inject_Z m * q)%Q).
Proof.
  intros M F B. apply dbl_r in F. rewrite Q2R_mult, Q2R_Z. destruct M as [->|[->| ->]].
  - rewrite Rmult_1_l. exact (proj2 (mul_one _ _ F)).
  - assert (E : r64 (-1 * Q2R q) = -1 * Q2R q) by (replace (-1 * Q2R q) with (- Q2R q) by ring; rewrite r64_opp; f_equal; apply r64_fmt; exact (fmt64 _ _ F)). rewrite <- E. apply (mul_r 53 1024 p53 e1024); [apply (int64_r (-1)); lia|exact F|]. fold r64. rewrite E. replace (-1 * Q2R q) with (- Q2R q) by ring. rewrite Rabs_Ropp. exact (is64_max _ _ F).
  - specialize (B eq_refl). apply Qle_Rle in B. rewrite Q2R_abs, Q2R_q2 in B. assert (N : Rabs (2 * Q2R q) <= bpow radix2 1001) by (rewrite Rabs_mult, (Rabs_pos_eq 2) by lra; change 2 with (bpow radix2 1) at 1; change 1001%Z with (1 + 1000)%Z; rewrite bpow_plus; apply Rmult_le_compat_l; [apply bpow_ge_0|exact B]).
    assert (E : r64 (2 * Q2R q) = 2 * Q2R q). { apply r64_fmt. change 2 with (bpow radix2 1). rewrite Rmult_comm. change fx with (FLT_exp (-1074) 53). apply mult_bpow_pos_exact_FLT; [exact (fmt64 _ _ F)|lia]. }
    rewrite <- E. apply (mul64_r _ _ 2 (Q2R q) 1001); [lia|apply (int64_r 2); lia|exact F|exact N].
Qed.
Lemma diag_mul a b c p x y z : (a = 1 \/ a = -1 \/ a = 2)%Z -> (b = 1 \/ b = -1 \/ b = 2)%Z -> (c = 1 \/ c = -1 \/ c = 2)%Z -> point p x y z -> (a = 2%Z -> (Qabs x <= q2 1000)%Q) -> (b = 2%Z -> (Qabs y <= q2 1000)%Q) -> (c = 2%Z -> (Qabs z <= q2 1000)%Q) ->
  exists q, mul3 (diag3 a b c) p = Val q /\ point q (inject_Z a * x) (inject_Z b * y) (inject_Z c * z).
Proof.
  intros A B C (X & Y & Z0) BX BY BZ. eexists. split; [apply mul3_is|]. pose proof (times_r a _ _ A X BX) as T1. pose proof (times_r b _ _ B Y BY) as T2. pose proof (times_r c _ _ C Z0 BZ) as T3.
  apply dbl_r in X, Y, Z0. pose proof (nil_r _ _ X) as N1. pose proof (nil_r _ _ Y) as N2. pose proof (nil_r _ _ Z0) as N3.
  split; [|split]; apply dbl_r; cbn [vx vy vz].
  - refine (proj1 (add_nil _ _ _ _ N3)). exact (proj1 (add_nil _ _ _ T1 N2)).
  - refine (proj1 (add_nil _ _ _ _ N3)). exact (proj2 (add_nil _ _ _ T2 N1)).
  - refine (proj2 (add_nil _ _ _ T3 _)). exact (proj1 (add_nil _ _ _ N1 N2)).
Qed.
Lemma unit_z : ocsMatrix (Z3 0 0 1) = diag3 1 1 1 /\ wcsMatrix (Z3 0 0 1) = Val (diag3 1 1 1). Proof. split; vm_compute; reflexivity. Qed.
Lemma unit_mz : ocsMatrix (Z3 0 0 (-1)) = diag3 (-1) 1 (-1) /\ wcsMatrix (Z3 0 0 (-1)) = Val (diag3 (-1) 1 (-1)). Proof. split; vm_compute; reflexivity. Qed.
Lemma two_z : ocsMatrix (Z3 0 0 2) = diag3 1 1 2. Proof. vm_compute. reflexivity. Qed.
Theorem C123_world p x y z : point p x y z -> exists q r, wcsToOcs p (Z3 0 0 1) = Val q /\ ocsToWcs p (Z3 0 0 1) = Val r /\ point q x y z /\ point r x y z.
Proof.
  intros Pt. destruct (diag_mul 1 1 1 p x y z) as (q & E & (A & B & C)); try (now left); try discriminate; [exact Pt|]. unfold wcsToOcs, ocsToWcs. rewrite (proj1 unit_z), (proj2 unit_z). cbn [bind]. exists q, q. rewrite E.
  assert (Q : point q x y z) by (split; [|split]; (eapply dbl_eq; [eassumption|apply Qmult_1_l])). now repeat split; try apply Q.
Qed.
Theorem C123_below p x y z : point p x y z -> exists q r, wcsToOcs p (Z3 0 0 (-1)) = Val q /\ ocsToWcs p (Z3 0 0 (-1)) = Val r /\ point q (- x) y (- z) /\ point r (- x) y (- z).
Proof.
  intros Pt. destruct (diag_mul (-1) 1 (-1) p x y z) as (q & E & (A & B & C)); try (now left); try (now right; left); try discriminate; [exact Pt|]. unfold wcsToOcs, ocsToWcs. rewrite (proj1 unit_mz), (proj2 unit_mz). cbn [bind]. exists q, q. rewrite E.
  assert (Q : point q (- x) y (- z)) by (split; [|split]; (eapply dbl_eq; [eassumption|change (inject_Z (-1)) with (- (1))%Q; ring])). split; [reflexivity|]. split; [reflexivity|]. split; exact Q.
Qed.
(** the direction is not normalised: twice the direction doubles the heights *)
Theorem C123_length_refuted p x y z : point p x y z -> (Qabs z <= q2 1000)%Q -> exists q, wcsToOcs p (Z3 0 0 2) = Val q /\ point q x y (2 * z).
Proof.
  intros Pt Hz. destruct (diag_mul 1 1 2 p x y z) as (q & E & (A & B & C)); try (now left); try (now right; right); try discriminate; [exact Pt|intros _; exact Hz|]. unfold wcsToOcs. rewrite two_z. exists q. split; [exact E|]. split; [|split]; (eapply dbl_eq; [eassumption|try apply Qmult_1_l; reflexivity]).
Qed.
(** without a direction nothing remains of a point *)
Lemma null_z : ocsMatrix (Z3 0 0 0) = diag3 0 0 0 /\ wcsMatrix (Z3 0 0 0) = Val (Mat 3 3 [NAN; NAN; NAN; NAN; NAN; NAN; NAN; NAN; NAN]). Proof. split; vm_compute; reflexivity. Qed.
Theorem C123_null_refuted p : ocsToWcs p (Z3 0 0 0) = Val (V3 NAN NAN NAN).
Proof. unfold ocsToWcs. rewrite (proj2 null_z). cbn [bind]. rewrite mul3_is. assert (N : forall x, mul64 NAN x = NAN) by (intros x; now destruct x). assert (A : forall x, add64 NAN x = NAN) by (intros x; now destruct x). rewrite !N, !A. reflexivity. Qed.

(** * the hypotheses are met *)
(** (0.6, 0, -0.8), rounded: the second choice of the x axis; (0.01, 0, 0.99995): the first *)
Definition e1 : vertex3 := V3 (S754_finite false 5404319552844595 (-53)) (S754_finite false 4503599627370496 (-100)) (S754_finite true 7205759403792794 (-53)).
Example C123_direction1 : exists x y z, direction e1 x y z /\ ~ (Qabs x < 1 # 64)%Q /\ (z < 0)%Q.
Proof.
  exists (inject_Z 5404319552844595 * q2 (-53))%Q, (inject_Z 4503599627370496 * q2 (-100))%Q, (inject_Z (-7205759403792794) * q2 (-53))%Q.
  split; [|split; [intros H; vm_compute in H; discriminate H|vm_compute; reflexivity]]. split; [|unfold near; vm_compute; discriminate]. split; [|split]; (split; [reflexivity|]; cbn; reflexivity).
Qed.
Definition e2 : vertex3 := V3 (S754_finite false 5764607523034235 (-59)) (S754_zero false) (S754_finite false 9006748883518693 (-53)).
Example C123_direction2 : exists x y z, direction e2 x y z /\ (Qabs x < 1 # 64)%Q /\ (Qabs y < 1 # 64)%Q.
Proof.
  exists (inject_Z 5764607523034235 * q2 (-59))%Q, 0%Q, (inject_Z 9006748883518693 * q2 (-53))%Q.
  split; [|split; vm_compute; reflexivity]. split; [|unfold near; vm_compute; discriminate]. split; [|split]; (split; [reflexivity|]; cbn; reflexivity).
Qed.
Example C123_point : point (Z3 3 (-7) 1000) 3 (-7 # 1) 1000 /\ (Qabs 1000 <= q2 10)%Q.
Proof. split; [split; [|split]; (split; [reflexivity|]; vm_compute; reflexivity)|vm_compute; discriminate]. Qed.
Print Assumptions C123_frame.
Print Assumptions C123_coordinates.
Print Assumptions C123_roundtrip.
Print Assumptions C123_world.
Print Assumptions C123_below.
Print Assumptions C123_length_refuted.
Print Assumptions C123_null_refuted.
