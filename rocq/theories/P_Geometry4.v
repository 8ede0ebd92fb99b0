(** P_Geometry4.v -- the circle through three points; angles and ellipses. *)
From Coq Require Import Reals Lra Psatz QArith Qabs Qreals.
From Flocq Require Import Core.
From Verif Require Import Base M_Float M_MathF M_Rect M_Matrix M_Geometry S_Double S_Matrix S_Geometry L_Float L_Double L_MathF P_MathF L_Matrix L_Matrix2 L_Matrix4 L_Matrix5 L_Geometry L_Geometry2 L_Geometry3 L_Geometry4 P_Geometry P_Geometry2.
Local Open Scope Z_scope.

(** * C113: the circle through three points *)
Lemma one_at : at_ 0 1 f1.
Proof. apply at0. exact (int64_r 1 ltac:(cbn; lia)). Qed.
Lemma sum_at v x y : at2 0 x y v -> box2 180 x y -> at_ 0 (x * x + y * y) (add64 (mul64 (px v) (px v)) (mul64 (py v) (py v))) /\ - 2 ^ 16 <= x * x + y * y <= 2 ^ 16.
Proof. intros [X Y] [B C]. pose proof (prod_bnd _ _ _ _ B B). pose proof (prod_bnd _ _ _ _ C C). pose proof (Z.square_nonneg x). pose proof (Z.square_nonneg y). split; [|lia]. apply add_at; [apply (mul_at 0 0)|apply (mul_at 0 0)| |]; try assumption; lia. Qed.
Lemma sq_err a b D S : (Rabs (a - b) <= D)%R -> (Rabs b <= S)%R -> (D <= S / 100)%R -> (Rabs (a * a - b * b) <= 2.01 * D * S)%R.
Proof.
  intros H B C. replace (a * a - b * b)%R with ((a - b) * (a + b))%R by ring. rewrite Rabs_mult. pose proof (Rabs_pos (a - b)). replace (2.01 * D * S)%R with (D * (2.01 * S))%R by ring. apply Rmult_le_compat; [apply Rabs_pos|apply Rabs_pos|exact H|]. replace (a + b)%R with ((a - b) + 2 * b)%R by ring. eapply Rle_trans; [apply Rabs_triang|]. rewrite Rabs_mult, (Rabs_pos_eq 2) by lra. lra.
Qed.
(** the three determinants *)
Lemma dets p1 p2 p3 x1 y1 x2 y2 x3 y3 : at2 0 x1 y1 p1 -> at2 0 x2 y2 p2 -> at2 0 x3 y3 p3 -> box2 180 x1 y1 -> box2 180 x2 y2 -> box2 180 x3 y3 ->
  exists m11 m12 m13, at_ 0 (zd3 x1 x2 x3 y1 y2 y3 1 1 1) m11 /\ at_ 0 (zd3 (x1 * x1 + y1 * y1) (x2 * x2 + y2 * y2) (x3 * x3 + y3 * y3) y1 y2 y3 1 1 1) m12 /\ at_ 0 (zd3 (x1 * x1 + y1 * y1) (x2 * x2 + y2 * y2) (x3 * x3 + y3 * y3) x1 x2 x3 1 1 1) m13 /\
  let c := V2 (div64 (mul64 (lit 1 2) m12) m11) (div64 (mul64 (fneg (lit 1 2)) m13) m11) in circleBy3 p1 p2 p3 = Val (Some (c, abs2 (vsub2 p1 c))).
Proof.
  intros P1 P2 P3 B1 B2 B3. destruct (sum_at _ _ _ P1 B1) as [S1 C1]. destruct (sum_at _ _ _ P2 B2) as [S2 C2]. destruct (sum_at _ _ _ P3 B3) as [S3 C3]. destruct P1 as [X1 Y1], P2 as [X2 Y2], P3 as [X3 Y3]. unfold box2 in *. pose proof one_at as O.
  destruct (det9 0 _ _ _ _ _ _ _ _ _ _ _ _ _ _ _ _ _ _ (2 ^ 16) X1 X2 X3 Y1 Y2 Y3 O O O) as (m11 & D1 & M1); [unfold box3; lia..|]. destruct (det9 0 _ _ _ _ _ _ _ _ _ _ _ _ _ _ _ _ _ _ (2 ^ 16) S1 S2 S3 Y1 Y2 Y3 O O O) as (m12 & D2 & M2); [unfold box3; lia..|]. destruct (det9 0 _ _ _ _ _ _ _ _ _ _ _ _ _ _ _ _ _ _ (2 ^ 16) S1 S2 S3 X1 X2 X3 O O O) as (m13 & D3 & M3); [unfold box3; lia..|].
  exists m11, m12, m13. split; [exact M1|]. split; [exact M2|]. split; [exact M3|]. cbv zeta. unfold circleBy3, mat3. cbn [vx vy vz bind]. rewrite D1. cbn [bind]. rewrite D2. cbn [bind]. rewrite D3. reflexivity.
Qed.
Lemma zd3_bnd a b c d e f B C : box3 B a b c -> box3 C d e f -> 0 <= B -> 0 <= C -> - (6 * (B * C)) <= zd3 a b c d e f 1 1 1 <= 6 * (B * C).
Proof.
  intros (A1 & A2 & A3) (D1 & D2 & D3) B0 C0. unfold zd3. pose proof (prod_bnd _ _ _ _ A1 D2). pose proof (prod_bnd _ _ _ _ A1 D3). pose proof (prod_bnd _ _ _ _ A2 D1). pose proof (prod_bnd _ _ _ _ A2 D3). pose proof (prod_bnd _ _ _ _ A3 D1). pose proof (prod_bnd _ _ _ _ A3 D2). lia.
Qed.
(** one coordinate of the centre *)
Lemma half_div m n x y h0 X : at_ (-1) 1 h0 \/ at_ (-1) (-1) h0 -> at_ 0 m x -> at_ 0 n y -> n <> 0 -> - 2 ^ 40 <= m <= 2 ^ 40 -> - 2 ^ 40 <= n <= 2 ^ 40 ->
  (forall s, at_ (-1) s h0 -> 2 * X * IZR n = IZR s * IZR m)%R -> is64 (div64 (mul64 h0 x) y) (r64 X) /\ (Rabs (r64 X - X) <= 2 * uu * Rabs X)%R /\ (Rabs X <= bpow radix2 40)%R.
Proof.
  intros HH A B N0 Bm Bn E. assert (exists s, (s = 1 \/ s = -1) /\ at_ (-1) s h0) as (s & S1 & HS) by (destruct HH as [HH|HH]; [exists 1|exists (-1)]; auto). specialize (E s HS). assert (N' : IZR n <> 0%R) by (now apply not_0_IZR).
  assert (M : at_ (-1) (s * m) (mul64 h0 x)) by (apply (mul_at (-1) 0); [exact HS|exact A|lia|destruct S1; subst s; lia]). apply at_r in M. apply at0 in B. change (bpow radix2 (-1)) with (/ 2)%R in M. rewrite mult_IZR in M.
  assert (EX : (IZR s * IZR m * / 2 / IZR n = X)%R) by (rewrite <- E; field; exact N'). assert (NB : (1 <= Rabs (IZR n) <= bpow radix2 40)%R) by (rewrite <- abs_IZR; change (bpow radix2 40) with (IZR (2 ^ 40)); split; apply IZR_le; lia).
  assert (MB : (Rabs (IZR s * IZR m) <= bpow radix2 40)%R) by (rewrite <- mult_IZR, <- abs_IZR; change (bpow radix2 40) with (IZR (2 ^ 40)); apply IZR_le; destruct S1; subst s; lia).
  assert (XB : (Rabs X <= bpow radix2 40)%R). { rewrite <- E, !Rabs_mult, (Rabs_pos_eq 2) in MB by lra. pose proof (Rabs_pos X). nra. }
  split; [pose proof (div64_r _ _ _ _ 40 ltac:(lia) M B N') as D; rewrite EX in D; exact (D XB)|]. split; [|exact XB]. destruct (Req_dec X 0) as [->|X0]; [rewrite r64_0, Rminus_0_r, Rabs_R0; lra|]. pose proof (rerr X) as R1. pose proof uu_pos as UP. assert (T : (tt_ <= uu * Rabs X)%R); [|lra].
  assert (MZ : m <> 0). { intros ->. rewrite Rmult_0_r in E. apply Rmult_integral in E as [E|E]; [lra|contradiction]. } assert (M1 : (1 <= Rabs (IZR s * IZR m))%R) by (rewrite <- mult_IZR, <- abs_IZR; apply IZR_le; destruct S1; subst s; lia). rewrite <- E, !Rabs_mult, (Rabs_pos_eq 2) in M1 by lra. pose proof (Rabs_pos X) as PX. assert (L : (bpow radix2 (-41) <= Rabs X)%R). { apply Rmult_le_reg_r with (2 * bpow radix2 40)%R; [pose proof (bpow_gt_0 radix2 40); lra|]. replace (bpow radix2 (-41) * (2 * bpow radix2 40))%R with 1%R. 2:{ change 2%R with (bpow radix2 1). rewrite <- !bpow_plus. reflexivity. } nra. }
  pose proof tt_small as TS. eapply Rle_trans; [exact TS|]. apply Rmult_le_compat_l; [lra|]. eapply Rle_trans; [|exact L]. apply bpow_le. lia.
Qed.
(** the radius from the rounded centre *)
Lemma radius_r p x y X Y cx cy : at2 0 x y p -> box2 180 x y -> is64 cx (r64 X) -> is64 cy (r64 Y) -> (Rabs (r64 X - X) <= 2 * uu * Rabs X)%R -> (Rabs (r64 Y - Y) <= 2 * uu * Rabs Y)%R -> (Rabs X <= bpow radix2 40)%R -> (Rabs Y <= bpow radix2 40)%R ->
  exists r, is64 (abs2 (vsub2 p (V2 cx cy))) r /\ (0 <= r)%R /\ let s := (Rabs X + Rabs Y + 512)%R in (Rabs (r * r - ((IZR x - X) * (IZR x - X) + (IZR y - Y) * (IZR y - Y))) <= 32 * uu * (s * s))%R.
Proof.
  intros [HX HY] [Bx By] CX CY EX EY LX LY. apply at0 in HX, HY. cbv zeta. set (s := (Rabs X + Rabs Y + 512)%R). pose proof (Rabs_pos X) as PX. pose proof (Rabs_pos Y) as PY. assert (S0 : (512 <= s)%R) by (unfold s; lra). pose proof uu_pos as UP. pose proof u_small as US. pose proof tt_uu as TU. pose proof tt_pos as TP.
  assert (SB : (s <= bpow radix2 42)%R). { assert (512 <= bpow radix2 40)%R by (change 512%R with (bpow radix2 9); apply bpow_le; lia). change (bpow radix2 42) with (bpow radix2 (2 + 40)). rewrite bpow_plus. change (bpow radix2 2) with 4%R. unfold s. lra. }
  assert (D : forall z c C t, is64 t (IZR z) -> -180 <= z <= 180 -> is64 c (r64 C) -> (Rabs (r64 C - C) <= 2 * uu * Rabs C)%R -> (Rabs C + 512 <= s)%R -> exists d, is64 (sub64 t c) d /\ (Rabs (d - (IZR z - C)) <= 3.1 * (uu * s))%R /\ (Rabs (IZR z - C) <= s)%R).
  { intros z c C t HT Hz HC He Hs. assert (Z1 : (Rabs (IZR z) <= 180)%R) by (rewrite <- abs_IZR; apply IZR_le; lia). assert (B1 : (Rabs (IZR z - C) <= s)%R) by (unfold Rminus; eapply Rle_trans; [apply Rabs_triang|]; rewrite Rabs_Ropp; lra). pose proof (Rabs_pos C) as PC. assert (E1 : (Rabs (IZR z - r64 C - (IZR z - C)) <= 2 * (uu * s))%R). { replace (IZR z - r64 C - (IZR z - C))%R with (- (r64 C - C))%R by ring. rewrite Rabs_Ropp. eapply Rle_trans; [exact He|]. rewrite Rmult_assoc. apply Rmult_le_compat_l; [lra|]. apply Rmult_le_compat_l; lra. }
    pose proof (le_abs _ _ _ E1) as L1. assert (US2 : (uu * s <= s / 1000)%R) by (unfold Rdiv; rewrite (Rmult_comm s); apply Rmult_le_compat_r; lra). assert (L2 : (Rabs (IZR z - r64 C) <= bpow radix2 43)%R). { change 43 with (1 + 42). rewrite bpow_plus. change (bpow radix2 1) with 2%R. lra. } pose proof (sub64_r _ _ _ _ 43 ltac:(lia) HT HC L2) as SB1. eexists. split; [exact SB1|]. split; [|exact B1].
    pose proof (rerr (IZR z - r64 C)) as R1. pose proof (tri _ _ _ _ _ R1 E1) as T. eapply Rle_trans; [exact T|]. assert (uu * Rabs (IZR z - r64 C) <= uu * (1.002 * s))%R by (apply Rmult_le_compat_l; lra). assert (tt_ <= uu * s * / 512)%R; [|lra]. rewrite Rmult_assoc. apply Rle_trans with (uu * 1)%R; [lra|]. apply Rmult_le_compat_l; lra. }
  destruct (D x cx X _ HX Bx CX EX ltac:(unfold s; lra)) as (dx & X1 & X2 & X3). destruct (D y cy Y _ HY By CY EY ltac:(unfold s; lra)) as (dy & Y1 & Y2 & Y3). set (U := (uu * s)%R) in *. assert (U0 : (0 <= U)%R) by (apply Rmult_le_pos; lra). assert (US2 : (U <= s / 1000)%R) by (unfold U, Rdiv; rewrite (Rmult_comm s); apply Rmult_le_compat_r; lra).
  pose proof (sq_err _ _ _ s X2 X3 ltac:(lra)) as QX. pose proof (sq_err _ _ _ s Y2 Y3 ltac:(lra)) as QY. set (V := (U * s)%R). assert (V0 : (0 <= V)%R) by (unfold V; apply Rmult_le_pos; lra). assert (QX' : (Rabs (dx * dx - (IZR x - X) * (IZR x - X)) <= 6.3 * V)%R) by (eapply Rle_trans; [exact QX|]; replace (2.01 * (3.1 * U) * s)%R with (6.231 * V)%R by (unfold V; lra); lra). assert (QY' : (Rabs (dy * dy - (IZR y - Y) * (IZR y - Y)) <= 6.3 * V)%R) by (eapply Rle_trans; [exact QY|]; replace (2.01 * (3.1 * U) * s)%R with (6.231 * V)%R by (unfold V; lra); lra).
  assert (SS : (s * s <= bpow radix2 84)%R) by (change 84 with (42 + 42); rewrite bpow_plus; apply Rmult_le_compat; lra). assert (VS : (V <= s * s / 1000)%R) by (unfold V; nra). assert (S1 : (262144 <= s * s)%R) by nra.
  assert (M : forall d e t, is64 t d -> (Rabs (d - e) <= 3.1 * U)%R -> (Rabs e <= s)%R -> is64 (mul64 t t) (r64 (d * d)) /\ (Rabs (r64 (d * d) - d * d) <= 1.1 * V)%R /\ (0 <= d * d <= 1.01 * (s * s))%R).
  { intros d e t T1 T2 T3. pose proof (le_abs _ _ _ T2) as L. assert (L' : (Rabs d <= 1.0031 * s)%R) by lra. pose proof (Rabs_pos d) as Pd. assert (Q : (Rabs (d * d) <= 1.01 * (s * s))%R) by (rewrite Rabs_mult; apply Rle_trans with (1.0031 * s * (1.0031 * s))%R; [apply Rmult_le_compat; lra|nra]). assert (Q2 : (Rabs (d * d) <= bpow radix2 85)%R) by (change 85 with (1 + 84); rewrite bpow_plus; change (bpow radix2 1) with 2%R; lra). split; [exact (mul64_r _ _ _ _ 85 ltac:(lia) T1 T1 Q2)|]. split; [|split; [nra|rewrite Rabs_pos_eq in Q by nra; exact Q]].
    pose proof (rerr (d * d)) as R1. eapply Rle_trans; [exact R1|]. assert (uu * Rabs (d * d) <= uu * (1.01 * (s * s)))%R by (apply Rmult_le_compat_l; lra). replace V with (uu * (s * s))%R by (unfold V, U; ring). assert (tt_ <= uu * (s * s) * / 262144)%R; [|lra]. rewrite Rmult_assoc. apply Rle_trans with (uu * 1)%R; [lra|]. apply Rmult_le_compat_l; lra. }
  destruct (M _ _ _ X1 X2 X3) as (MX1 & MX2 & MX3). destruct (M _ _ _ Y1 Y2 Y3) as (MY1 & MY2 & MY3). pose proof (le_abs _ _ _ MX2) as LX2. pose proof (le_abs _ _ _ MY2) as LY2.
  assert (PXX : (0 <= r64 (dx * dx))%R) by (rewrite <- r64_0; apply r64_le; lra). assert (PYY : (0 <= r64 (dy * dy))%R) by (rewrite <- r64_0; apply r64_le; lra). rewrite (Rabs_pos_eq (r64 _)), (Rabs_pos_eq (dx * dx)) in LX2 by lra. rewrite (Rabs_pos_eq (r64 _)), (Rabs_pos_eq (dy * dy)) in LY2 by lra. set (a := r64 (dx * dx)) in *. set (b := r64 (dy * dy)) in *.
  assert (AB : (Rabs (a + b) <= 2.03 * (s * s))%R) by (rewrite Rabs_pos_eq; lra). assert (AB2 : (Rabs (a + b) <= bpow radix2 86)%R) by (change 86 with (2 + 84); rewrite bpow_plus; change (bpow radix2 2) with 4%R; lra). pose proof (add64_r _ _ _ _ 86 ltac:(lia) MX1 MY1 AB2) as A1. pose proof (rerr (a + b)) as R1.
  assert (R1' : (Rabs (r64 (a + b) - (a + b)) <= 2.1 * V)%R). { eapply Rle_trans; [exact R1|]. assert (uu * Rabs (a + b) <= uu * (2.03 * (s * s)))%R by (apply Rmult_le_compat_l; lra). replace V with (uu * (s * s))%R by (unfold V, U; ring). assert (tt_ <= uu * (s * s) * / 262144)%R; [|lra]. rewrite Rmult_assoc. apply Rle_trans with (uu * 1)%R; [lra|]. apply Rmult_le_compat_l; lra. }
  assert (PT : (0 <= r64 (a + b))%R) by (rewrite <- r64_0; apply r64_le; lra). pose proof (sqrt_r _ _ A1 PT) as SQ. set (t := r64 (a + b)) in *. assert (LT : (t <= 2.1 * (s * s))%R) by (apply le_abs in R1'; rewrite (Rabs_pos_eq t) in R1' by lra; lra).
  eexists. split; [exact SQ|]. split; [rewrite <- r64_0; apply r64_le, sqrt_pos|]. set (w := R_sqrt.sqrt t) in *. pose proof (sqrt_pos t) as Pw. fold w in Pw. assert (WW : (w * w = t)%R) by (apply sqrt_sqrt; exact PT). assert (LW : (w <= 1.5 * s)%R) by (apply Rsqr_incr_0_var; [unfold Rsqr; rewrite WW; lra|lra]).
  assert (RW : (Rabs (r64 w - w) <= 1.6 * U)%R). { pose proof (rerr w) as R2. eapply Rle_trans; [exact R2|]. rewrite (Rabs_pos_eq w) by lra. assert (uu * w <= uu * (1.5 * s))%R by (apply Rmult_le_compat_l; lra). assert (tt_ <= uu * s * / 512)%R; [|unfold U; lra]. rewrite Rmult_assoc. apply Rle_trans with (uu * 1)%R; [lra|]. apply Rmult_le_compat_l; lra. }
  pose proof (sq_err _ _ _ (1.5 * s) RW ltac:(rewrite Rabs_pos_eq; lra) ltac:(lra)) as QW. rewrite WW in QW. assert (QW' : (Rabs (r64 w * r64 w - t) <= 4.9 * V)%R) by (eapply Rle_trans; [exact QW|]; replace (2.01 * (1.6 * U) * (1.5 * s))%R with (4.824 * V)%R by (unfold V; lra); lra).
  replace (32 * uu * (s * s))%R with (32 * V)%R by (unfold V, U; ring). assert (T1 : (Rabs (t - (dx * dx + dy * dy)) <= 4.3 * V)%R). { assert (Rabs (a + b - (dx * dx + dy * dy)) <= 2.2 * V)%R by (replace (a + b - (dx * dx + dy * dy))%R with ((a - dx * dx) + (b - dy * dy))%R by ring; eapply Rle_trans; [apply Rabs_triang|]; lra). pose proof (tri _ _ _ _ _ R1' H). lra. }
  assert (T2 : (Rabs (dx * dx + dy * dy - ((IZR x - X) * (IZR x - X) + (IZR y - Y) * (IZR y - Y))) <= 12.6 * V)%R). { replace (dx * dx + dy * dy - ((IZR x - X) * (IZR x - X) + (IZR y - Y) * (IZR y - Y)))%R with ((dx * dx - (IZR x - X) * (IZR x - X)) + (dy * dy - (IZR y - Y) * (IZR y - Y)))%R by ring. eapply Rle_trans; [apply Rabs_triang|]. lra. }
  pose proof (tri _ _ _ _ _ T1 T2) as T3. pose proof (tri _ _ _ _ _ QW' T3). lra.
Qed.
(** the square of the distance of two points *)
Definition dist2 (x y a b : Q) : Q := ((x - a) * (x - a) + (y - b) * (y - b))%Q.
Lemma half_at : at_ (-1) 1 (lit 1 2) /\ at_ (-1) (-1) (fneg (lit 1 2)).
Proof. assert (at_ (-1) 1 (lit 1 2)) by (apply at_r; rewrite Rmult_1_l; exact half_r). split; [assumption|]. apply (opp_at (-1) 1). assumption. Qed.
Lemma at_inj k m n x : at_ k m x -> at_ k n x -> m = n.
Proof. rewrite !at_r. intros A B. pose proof (is_r_inj _ _ _ _ _ A B) as E. apply Rmult_eq_reg_r in E; [now apply eq_IZR in E|]. pose proof (bpow_gt_0 radix2 k). lra. Qed.
(** three points with integer coordinates up to 180 that are not on one line: the centre (X, Y) of the circle up to 2^-52 of its coordinates, and a radius with nearly the square of the distance from the centre to a point *)
Theorem C113_circle p1 p2 p3 x1 y1 x2 y2 x3 y3 X Y : at2 0 x1 y1 p1 -> at2 0 x2 y2 p2 -> at2 0 x3 y3 p3 -> box2 180 x1 y1 -> box2 180 x2 y2 -> box2 180 x3 y3 -> (x2 - x1) * (y3 - y1) <> (y2 - y1) * (x3 - x1) ->
  (dist2 (inject_Z x1) (inject_Z y1) X Y == dist2 (inject_Z x2) (inject_Z y2) X Y)%Q -> (dist2 (inject_Z x1) (inject_Z y1) X Y == dist2 (inject_Z x3) (inject_Z y3) X Y)%Q ->
  exists c r qx qy qr, circleBy3 p1 p2 p3 = Val (Some (c, r)) /\ point2 c qx qy /\ dbl r qr /\ (Qabs (qx - X) <= q2 (-52) * Qabs X)%Q /\ (Qabs (qy - Y) <= q2 (-52) * Qabs Y)%Q /\
    (0 <= qr)%Q /\ (Qabs (qr * qr - dist2 (inject_Z x1) (inject_Z y1) X Y) <= q2 (-48) * ((Qabs X + Qabs Y + 512) * (Qabs X + Qabs Y + 512)))%Q.
Proof.
  intros P1 P2 P3 B1 B2 B3 N E2 E3. destruct (dets p1 p2 p3 x1 y1 x2 y2 x3 y3 P1 P2 P3 B1 B2 B3) as (m11 & m12 & m13 & M1 & M2 & M3 & E). cbv zeta in E. rewrite E. destruct half_at as [H1 H2].
  assert (N' : zd3 x1 x2 x3 y1 y2 y3 1 1 1 <> 0) by (unfold zd3; intros H; apply N; lia). apply Q2R_eq in E2, E3. unfold dist2 in E2, E3. q2r. set (XR := Q2R X) in *. set (YR := Q2R Y) in *.
  assert (S1 : - 2 ^ 16 <= x1 * x1 + y1 * y1 <= 2 ^ 16) by (apply (sum_at p1); assumption). assert (S2 : - 2 ^ 16 <= x2 * x2 + y2 * y2 <= 2 ^ 16) by (apply (sum_at p2); assumption). assert (S3 : - 2 ^ 16 <= x3 * x3 + y3 * y3 <= 2 ^ 16) by (apply (sum_at p3); assumption).
  set (s1 := x1 * x1 + y1 * y1) in *. set (s2 := x2 * x2 + y2 * y2) in *. set (s3 := x3 * x3 + y3 * y3) in *. assert (BS : box3 (2 ^ 16) s1 s2 s3) by (unfold box3; lia). assert (BX : box3 180 x1 x2 x3) by (unfold box2, box3 in *; lia). assert (BY : box3 180 y1 y2 y3) by (unfold box2, box3 in *; lia).
  pose proof (zd3_bnd _ _ _ _ _ _ _ _ BX BY ltac:(lia) ltac:(lia)) as Z1. pose proof (zd3_bnd _ _ _ _ _ _ _ _ BS BY ltac:(lia) ltac:(lia)) as Z2. pose proof (zd3_bnd _ _ _ _ _ _ _ _ BS BX ltac:(lia) ltac:(lia)) as Z3.
  set (W := (IZR x1 * IZR x1 + IZR y1 * IZR y1 - 2 * IZR x1 * XR - 2 * IZR y1 * YR)%R). assert (R1 : (IZR s1 = W + 2 * IZR x1 * XR + 2 * IZR y1 * YR)%R) by (unfold s1, W; rewrite plus_IZR, !mult_IZR; ring). assert (R2 : (IZR s2 = W + 2 * IZR x2 * XR + 2 * IZR y2 * YR)%R) by (unfold s2, W; rewrite plus_IZR, !mult_IZR; lra). assert (R3 : (IZR s3 = W + 2 * IZR x3 * XR + 2 * IZR y3 * YR)%R) by (unfold s3, W; rewrite plus_IZR, !mult_IZR; lra).
  destruct (half_div _ _ _ _ _ XR (or_introl H1) M2 M1 N' ltac:(lia) ltac:(lia)) as (CX & EX & LX). { intros s Hs. rewrite (at_inj _ _ _ _ Hs H1). unfold zd3. rewrite ?plus_IZR, ?minus_IZR, ?mult_IZR, ?plus_IZR, ?minus_IZR, ?mult_IZR, R1, R2, R3. ring. }
  destruct (half_div _ _ _ _ _ YR (or_intror H2) M3 M1 N' ltac:(lia) ltac:(lia)) as (CY & EY & LY). { intros s Hs. rewrite (at_inj _ _ _ _ Hs H2). unfold zd3. rewrite ?plus_IZR, ?minus_IZR, ?mult_IZR, ?plus_IZR, ?minus_IZR, ?mult_IZR, R1, R2, R3. ring. }
  destruct (radius_r p1 x1 y1 XR YR _ _ P1 B1 CX CY EX EY LX LY) as (r & RR & R0 & RE). cbv zeta in RE. destruct (is_dbl _ _ CX) as (qx & Dx & Qx). destruct (is_dbl _ _ CY) as (qy & Dy & Qy). destruct (is_dbl _ _ RR) as (qr & Dr & Qr).
  eexists. eexists. exists qx, qy, qr. split; [reflexivity|]. split; [split; [exact Dx|exact Dy]|]. split; [exact Dr|]. assert (U52 : bpow radix2 (-52) = (2 * uu)%R) by (unfold uu; change (-52) with (1 + -53); rewrite bpow_plus; reflexivity). assert (U48 : bpow radix2 (-48) = (32 * uu)%R) by (unfold uu; change (-48) with (5 + -53); rewrite bpow_plus; reflexivity).
  split; [apply Rle_Qle; q2r; rewrite Qx, U52; fold XR; exact EX|]. split; [apply Rle_Qle; q2r; rewrite Qy, U52; fold YR; exact EY|]. split; [apply Rle_Qle; rewrite Qr; replace (Q2R 0) with 0%R by (unfold Q2R; cbn; lra); exact R0|]. apply Rle_Qle. unfold dist2. q2r. rewrite Qr, U48. replace (Q2R 512) with 512%R by (unfold Q2R; cbn; lra). fold XR YR. exact RE.
Qed.
(** three points on one line have no circle, but the status is eOK; the centre is infinite or NaN *)
Lemma div_zero x s : (exists m k, at_ k m x) -> forall q, ~ dbl (div64 x (S754_zero s)) q.
Proof. intros (m & k & H) q [_ D]. destruct H as [_ H]. destruct x as [a|a| |a b c]; try contradiction; exact D. Qed.
Theorem C113_collinear_refuted p1 p2 p3 x1 y1 x2 y2 x3 y3 : at2 0 x1 y1 p1 -> at2 0 x2 y2 p2 -> at2 0 x3 y3 p3 -> box2 180 x1 y1 -> box2 180 x2 y2 -> box2 180 x3 y3 -> (x2 - x1) * (y3 - y1) = (y2 - y1) * (x3 - x1) ->
  exists c r, circleBy3 p1 p2 p3 = Val (Some (c, r)) /\ forall q, ~ dbl (px c) q /\ ~ dbl (py c) q.
Proof.
  intros P1 P2 P3 B1 B2 B3 N. destruct (dets p1 p2 p3 x1 y1 x2 y2 x3 y3 P1 P2 P3 B1 B2 B3) as (m11 & m12 & m13 & M1 & M2 & M3 & E). cbv zeta in E. rewrite E. destruct half_at as [H1 H2]. replace (zd3 x1 x2 x3 y1 y2 y3 1 1 1) with 0 in M1 by (unfold zd3; lia). apply at_zero in M1 as [s ->].
  assert (S1 : - 2 ^ 16 <= x1 * x1 + y1 * y1 <= 2 ^ 16) by (apply (sum_at p1); assumption). assert (S2 : - 2 ^ 16 <= x2 * x2 + y2 * y2 <= 2 ^ 16) by (apply (sum_at p2); assumption). assert (S3 : - 2 ^ 16 <= x3 * x3 + y3 * y3 <= 2 ^ 16) by (apply (sum_at p3); assumption).
  assert (BS : box3 (2 ^ 16) (x1 * x1 + y1 * y1) (x2 * x2 + y2 * y2) (x3 * x3 + y3 * y3)) by (unfold box3; lia). assert (BX : box3 180 x1 x2 x3) by (unfold box2, box3 in *; lia). assert (BY : box3 180 y1 y2 y3) by (unfold box2, box3 in *; lia). pose proof (zd3_bnd _ _ _ _ _ _ _ _ BS BY ltac:(lia) ltac:(lia)) as Z2. pose proof (zd3_bnd _ _ _ _ _ _ _ _ BS BX ltac:(lia) ltac:(lia)) as Z3.
  eexists. eexists. split; [reflexivity|]. intros q. cbn [px py]. split; apply div_zero; eexists; eexists; (apply (mul_at (-1) 0); [eassumption|eassumption|lia|lia]).
Qed.
(** * the hypotheses are met: the circle around (1, 1) through (4, 5), (-3, 4) and (6, 1); the line through (0, 0), (1, 1) and (2, 2) *)
Example C113_ex : at2 0 4 5 (I2 4 5) /\ at2 0 (-3) 4 (I2 (-3) 4) /\ at2 0 6 1 (I2 6 1) /\ box2 180 4 5 /\ (-3 - 4) * (1 - 5) <> (4 - 5) * (6 - 4) /\ (dist2 (inject_Z 4) (inject_Z 5) 1 1 == dist2 (inject_Z (-3)) (inject_Z 4) 1 1)%Q /\ (dist2 (inject_Z 4) (inject_Z 5) 1 1 == dist2 (inject_Z 6) (inject_Z 1) 1 1)%Q /\
  circleBy3 (I2 4 5) (I2 (-3) 4) (I2 6 1) = Val (Some (I2 1 1, int64f 5)).
Proof. concrete. Qed.
Example C113_ex_line : at2 0 1 1 (I2 1 1) /\ at2 0 2 2 (I2 2 2) /\ (1 - 0) * (2 - 0) = (1 - 0) * (2 - 0) /\ circleBy3 (I2 0 0) (I2 1 1) (I2 2 2) = Val (Some (V2 (S754_infinity true) (S754_infinity false), S754_infinity false)).
Proof. concrete. Qed.
Print Assumptions C113_circle.
Print Assumptions C113_collinear_refuted.
