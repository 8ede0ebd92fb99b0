(** P_Geometry2.v -- lines in the plane: linear systems, crossing lines and segments. *)
From Coq Require Import Reals Lra Psatz QArith Qabs Qreals.
From Flocq Require Import Core.
From Verif Require Import Base M_Float M_MathF M_Rect M_Matrix M_Geometry S_Double S_Matrix S_Geometry L_Double L_MathF P_MathF L_Matrix L_Matrix2 L_Matrix4 L_Geometry L_Geometry2 L_Geometry3 P_Geometry.
Local Open Scope Z_scope.

Lemma h31 : (4 * h <= bpow radix2 (-31))%R /\ (2100 * h <= bpow radix2 (-22))%R.
Proof. unfold h, uu. change (-31) with (-53 + 22). change (-22) with (-53 + 31). rewrite !bpow_plus. change (bpow radix2 22) with 4194304%R. change (bpow radix2 31) with 2147483648%R. pose proof (bpow_gt_0 radix2 (-53)). lra. Qed.
Lemma Q2R_eq x y : (x == y)%Q -> Q2R x = Q2R y. Proof. apply Qeq_eqR. Qed.
(** * C110: a * l + b * m = r; the line through a point *)
Theorem C110_solve va vb vr a1 a2 b1 b2 r1 r2 l m : at2 0 a1 a2 va -> at2 0 b1 b2 vb -> at2 0 r1 r2 vr -> box2 512 a1 a2 -> box2 512 b1 b2 -> box2 512 r1 r2 -> a1 * b2 - a2 * b1 <> 0 ->
  (inject_Z a1 * l + inject_Z b1 * m == inject_Z r1)%Q -> (inject_Z a2 * l + inject_Z b2 * m == inject_Z r2)%Q ->
  exists x y, point2 (solveLinearSystem va vb vr) x y /\ (Qabs (x - l) <= q2 (-22) * (1 + Qabs m))%Q /\ (Qabs (y - m) <= q2 (-31) * (1 + Qabs m))%Q.
Proof.
  intros A B R BA BB BR N E1 E2. apply Q2R_eq in E1, E2. q2r. destruct (solve_r _ _ _ _ _ _ _ _ _ _ _ A B R BA BB BR N E1 E2) as (x & y & X & Y & Ex & Ey & _). destruct (is_dbl _ _ X) as (qx & Dx & Qx). destruct (is_dbl _ _ Y) as (qy & Dy & Qy). exists qx, qy. split; [split; assumption|]. destruct h31 as [H1 H2]. pose proof (Rabs_pos (Q2R m)). assert (O : Q2R 1 = 1%R) by (unfold Q2R; cbn; lra). subst x y.
  split; apply Rle_Qle; q2r; rewrite O; (eapply Rle_trans; [eassumption|]); apply Rmult_le_compat_r; lra.
Qed.
Lemma sub2_at k v w a b c d : at2 k a b v -> at2 k c d w -> box2 (2 ^ 52) a b -> box2 (2 ^ 52) c d -> -1000 <= k <= 900 -> at2 k (a - c) (b - d) (vsub2 v w).
Proof. intros [A B] [C D] [B1 B2] [C1 C2] K. split; apply sub_at; try assumption; lia. Qed.
Lemma neg2_at k v a b : at2 k a b v -> box2 (2 ^ 53) a b -> -1000 <= k <= 900 -> at2 k (- a) (- b) (vmul2 (int64f (-1)) v).
Proof. intros [A B] [B1 B2] K. assert (M : at_ 0 (-1) (int64f (-1))) by (apply at0, int64_r; lia). split; [replace (- a) with (-1 * a) by lia|replace (- b) with (-1 * b) by lia]; apply (mul_at 0 k); try assumption; lia. Qed.
Lemma nan_at x : isNaN x = true -> forall q, ~ dbl x q.
Proof. intros H q D. apply dbl_r in D. destruct D as (b & <- & F & _). destruct b as [s|s| |s m e Bd]; try discriminate F; [destruct s; discriminate H|]. unfold isNaN in H. unfold SFeqb, SFcompare in H. cbn [BinarySingleNaN.B2SF] in H. destruct s; rewrite Z.compare_refl, Pos.compare_cont_refl in H; discriminate H. Qed.
(** lines with parallel directions: no point; otherwise the crossing point, up to 2^-21 of the size of the parameter *)
Theorem C110_lines p1 d1 p2 d2 x1 y1 u1 v1 x2 y2 u2 v2 : at2 0 x1 y1 p1 -> at2 0 u1 v1 d1 -> at2 0 x2 y2 p2 -> at2 0 u2 v2 d2 -> box2 256 x1 y1 -> box2 512 u1 v1 -> box2 256 x2 y2 -> box2 512 u2 v2 ->
  (u1 * v2 = v1 * u2 -> intersection2 p1 d1 p2 d2 = V2 S754_nan S754_nan) /\
  (u1 * v2 <> v1 * u2 -> forall l m,
     (inject_Z x1 + l * inject_Z u1 == inject_Z x2 + m * inject_Z u2)%Q -> (inject_Z y1 + l * inject_Z v1 == inject_Z y2 + m * inject_Z v2)%Q ->
     exists x y, point2 (intersection2 p1 d1 p2 d2) x y /\ (Qabs (x - (inject_Z x2 + m * inject_Z u2)) <= q2 (-21) * (1 + Qabs m))%Q /\ (Qabs (y - (inject_Z y2 + m * inject_Z v2)) <= q2 (-21) * (1 + Qabs m))%Q).
Proof.
  intros P1 D1 P2 D2 B1 C1 B2 C2. unfold intersection2. destruct (C109_collinear2 0 d1 d2 u1 v1 u2 v2 D1 D2) as [Co _]; [unfold box2 in *; lia|unfold box2 in *; lia|lia|]. rewrite Co. split.
  { intros E. replace (u1 * v2 - v1 * u2 =? 0) with true by (symmetry; apply Z.eqb_eq; lia). reflexivity. }
  intros N l m E1 E2. replace (u1 * v2 - v1 * u2 =? 0) with false by (symmetry; apply Z.eqb_neq; lia). cbv zeta. apply Q2R_eq in E1, E2. q2r. set (lr := Q2R l) in *. set (mr := Q2R m) in *.
  destruct (solve_r d1 (vmul2 (int64f (-1)) d2) (vsub2 p2 p1) u1 v1 (- u2) (- v2) (x2 - x1) (y2 - y1) lr mr) as (A & B & XA & XB & EA & EB & _ & MB).
  { exact D1. } { apply neg2_at; [exact D2|unfold box2 in *; lia|lia]. } { apply sub2_at; [exact P2|exact P1|unfold box2 in *; lia|unfold box2 in *; lia|lia]. } { exact C1. } { unfold box2 in *; lia. } { unfold box2 in *; lia. } { nia. } { rewrite opp_IZR, minus_IZR. lra. } { rewrite opp_IZR, minus_IZR. lra. }
  set (s := solveLinearSystem _ _ _) in *. destruct h31 as [H1 _]. pose proof (Rabs_pos mr) as Pm. pose proof h_small as HS. set (t := (1 + Rabs mr)%R) in *. assert (T1 : (1 <= t <= 524289)%R) by (unfold t; lra).
  assert (Bb : (Rabs B <= 2 * t)%R). { apply le_abs in EB. assert (4 * h * t <= t)%R by nra. assert (Rabs mr = t - 1)%R by (unfold t; lra). lra. }
  assert (ONE : forall p d xp xd, -256 <= xp <= 256 -> -512 <= xd <= 512 -> at_ 0 xp p -> at_ 0 xd d -> exists q, dbl (add64 p (mul64 (py s) d)) q /\ (Rabs (Q2R q - (IZR xp + mr * IZR xd)) <= bpow radix2 (-21) * t)%R).
  { intros p d xp xd Hp Hd XP XD. apply at0 in XP, XD. assert (Sd : (Rabs (IZR xd) <= 512)%R) by (apply small; lia). assert (Sp : (Rabs (IZR xp) <= 256)%R) by (rewrite <- abs_IZR; apply IZR_le; lia). pose proof (Rabs_pos (IZR xd)) as Pd. pose proof (Rabs_pos B) as PB.
    assert (M1 : (Rabs (B * IZR xd) <= 1024 * t)%R) by (rewrite Rabs_mult; replace (1024 * t)%R with (2 * t * 512)%R by ring; apply Rmult_le_compat; lra).
    assert (XM : is64 (mul64 (py s) d) (r64 (B * IZR xd))) by (apply (mul64_r _ _ _ _ 30 ltac:(lia) XB XD), b30; lra). pose proof (mul_abs _ _ (IZR xd) _ EB) as ME. assert (ME' : (Rabs (B * IZR xd - mr * IZR xd) <= 2048 * h * t)%R). { eapply Rle_trans; [exact ME|]. replace (2048 * h * t)%R with (4 * h * t * 512)%R by ring. apply Rmult_le_compat_l; [|exact Sd]. apply Rmult_le_pos; lra. }
    pose proof uu_pos as UP. pose proof tt_uu as TU. pose proof u_small as US. assert (UT : (uu <= uu * t)%R) by nra. assert (UH : (5000 * (uu * t) <= h * t)%R) by (replace (5000 * (uu * t))%R with (5000 * uu * t)%R by ring; apply Rmult_le_compat_r; [lra|unfold h; lra]).
    pose proof (rerr (B * IZR xd)) as R1. assert (R1' : (Rabs (r64 (B * IZR xd) - B * IZR xd) <= h * t)%R) by (eapply Rle_trans; [exact R1|]; assert (uu * Rabs (B * IZR xd) <= uu * (1024 * t))%R by (apply Rmult_le_compat_l; lra); lra).
    pose proof (tri _ _ _ _ _ R1' ME') as T2. set (mu := r64 (B * IZR xd)) in *. assert (Mm : (Rabs (mr * IZR xd) <= 512 * t)%R) by (rewrite Rabs_mult, Rmult_comm; apply Rmult_le_compat; [exact Pd|exact Pm|exact Sd|unfold t; lra]).
    assert (ht : (h * t <= t / 1000000000)%R) by (unfold Rdiv; rewrite (Rmult_comm t); apply Rmult_le_compat_r; lra). pose proof (le_abs _ _ _ T2) as Mb. assert (Sb : (Rabs (IZR xp + mu) <= 800 * t)%R) by (eapply Rle_trans; [apply Rabs_triang|]; lra).
    assert (XS : is64 (add64 p (mul64 (py s) d)) (r64 (IZR xp + mu))) by (apply (add64_r _ _ _ _ 30 ltac:(lia) XP XM), b30; lra). destruct (is_dbl _ _ XS) as (q & Dq & Eq). exists q. split; [exact Dq|]. rewrite Eq.
    pose proof (rerr (IZR xp + mu)) as R2. assert (T3 : (Rabs (IZR xp + mu - (IZR xp + mr * IZR xd)) <= h * t + 2048 * h * t)%R) by (replace (IZR xp + mu - (IZR xp + mr * IZR xd))%R with (mu - mr * IZR xd)%R by ring; exact T2).
    eapply Rle_trans; [apply (tri _ _ _ _ _ R2 T3)|]. assert (uu * Rabs (IZR xp + mu) <= uu * (800 * t))%R by (apply Rmult_le_compat_l; lra).
    apply Rle_trans with (2050 * h * t)%R; [lra|]. apply Rmult_le_compat_r; [lra|]. unfold h, uu. change (-21) with (-53 + 32). rewrite bpow_plus. change (bpow radix2 32) with 4294967296%R. pose proof (bpow_gt_0 radix2 (-53)). lra. }
  destruct P2 as [P2x P2y]. destruct D2 as [D2x D2y]. destruct B2 as [B2x B2y]. destruct C2 as [C2x C2y]. destruct (ONE _ _ _ _ B2x C2x P2x D2x) as (qx & Dx & Ex). destruct (ONE _ _ _ _ B2y C2y P2y D2y) as (qy & Dy & Ey). exists qx, qy. split; [split; assumption|]. assert (O : Q2R 1 = 1%R) by (unfold Q2R; cbn; lra).
  split; apply Rle_Qle; q2r; rewrite O; [exact Ex|exact Ey].
Qed.
(** * C111: crosses() *)
Lemma det_small a b n : (Rabs (IZR b) <= 524288)%R -> b <> 0 -> (IZR b * a = IZR n)%R -> (a < 0 -> a <= - / 524288)%R /\ (1 < a -> 1 + / 524288 <= a)%R.
Proof.
  intros B N E. assert (N' : IZR b <> 0%R) by (now apply not_0_IZR). assert (GEN : forall z x, (IZR b * x = IZR z)%R -> (0 < x)%R -> (/ 524288 <= x)%R).
  { intros z x Ez Px. assert (Z1 : (1 <= Rabs (IZR z))%R). { rewrite <- abs_IZR. apply IZR_le. assert (z <> 0); [|lia]. intros ->. apply Rmult_integral in Ez as [?|?]; [contradiction|lra]. } rewrite <- Ez, Rabs_mult, (Rabs_pos_eq x) in Z1 by lra. apply Rmult_le_reg_l with 524288%R; [lra|]. rewrite Rinv_r by lra. nra. }
  split; intros H.
  - assert (/ 524288 <= - a)%R; [|lra]. apply (GEN (- n) (- a)%R); [rewrite opp_IZR; lra|lra].
  - assert (/ 524288 <= a - 1)%R; [|lra]. apply (GEN (n - b) (a - 1)%R); [rewrite minus_IZR; lra|lra].
Qed.
(** integer coordinates: exactly the segments that are not parallel and have a point in common, end points included *)
Theorem C111_crosses s1 e1 s2 e2 x1 y1 x2 y2 x3 y3 x4 y4 : at2 0 x1 y1 s1 -> at2 0 x2 y2 e1 -> at2 0 x3 y3 s2 -> at2 0 x4 y4 e2 -> box2 256 x1 y1 -> box2 256 x2 y2 -> box2 256 x3 y3 -> box2 256 x4 y4 ->
  crosses s1 e1 s2 e2 = true <->
  (x2 - x1) * (y4 - y3) <> (y2 - y1) * (x4 - x3) /\ exists l m, (0 <= l <= 1)%Q /\ (0 <= m <= 1)%Q /\
    (inject_Z x1 + l * inject_Z (x2 - x1) == inject_Z x3 + m * inject_Z (x4 - x3))%Q /\ (inject_Z y1 + l * inject_Z (y2 - y1) == inject_Z y3 + m * inject_Z (y4 - y3))%Q.
Proof.
  intros S1 E1 S2 E2 B1 B2 B3 B4. unfold crosses. cbv zeta. pose proof (sub2_at 0 _ _ _ _ _ _ E1 S1 ltac:(unfold box2 in *; lia) ltac:(unfold box2 in *; lia) ltac:(lia)) as D1. pose proof (sub2_at 0 _ _ _ _ _ _ E2 S2 ltac:(unfold box2 in *; lia) ltac:(unfold box2 in *; lia) ltac:(lia)) as D2.
  set (u1 := x2 - x1) in *. set (v1 := y2 - y1) in *. set (u2 := x4 - x3) in *. set (v2 := y4 - y3) in *. assert (C1 : box2 512 u1 v1) by (unfold box2 in *; lia). assert (C2 : box2 512 u2 v2) by (unfold box2 in *; lia).
  destruct (C109_collinear2 0 _ _ u1 v1 u2 v2 D1 D2) as [Co _]; [unfold box2 in *; lia|unfold box2 in *; lia|lia|]. rewrite Co. destruct (Z.eqb_spec (u1 * v2 - v1 * u2) 0) as [Z0|Z0].
  { split; [discriminate|]. intros [N _]. lia. }
  set (dt := u1 * - v2 - v1 * - u2). assert (Dn : dt <> 0) by (unfold dt; lia). assert (Dq : ~ (inject_Z dt == 0)%Q) by (intros H; apply Dn; unfold inject_Z, Qeq in H; cbn [Qnum Qden] in H; lia).
  set (r1 := x3 - x1). set (r2 := y3 - y1). set (nl := r1 * - v2 - r2 * - u2). set (nm := u1 * r2 - v1 * r1). set (l := (inject_Z nl / inject_Z dt)%Q). set (m := (inject_Z nm / inject_Z dt)%Q).
  assert (DR : IZR dt <> 0%R) by (now apply not_0_IZR). assert (Lr : Q2R l = (IZR nl / IZR dt)%R) by (unfold l; rewrite Q2R_div by exact Dq; now rewrite !Q2R_Z). assert (Mr : Q2R m = (IZR nm / IZR dt)%R) by (unfold m; rewrite Q2R_div by exact Dq; now rewrite !Q2R_Z).
  assert (EQ1 : (IZR u1 * Q2R l + IZR (- u2) * Q2R m = IZR r1)%R) by (rewrite Lr, Mr; unfold nl, nm, dt in *; rewrite ?minus_IZR, ?mult_IZR, ?opp_IZR in *; field; exact DR).
  assert (EQ2 : (IZR v1 * Q2R l + IZR (- v2) * Q2R m = IZR r2)%R) by (rewrite Lr, Mr; unfold nl, nm, dt in *; rewrite ?minus_IZR, ?mult_IZR, ?opp_IZR in *; field; exact DR).
  destruct (solve_r (vsub2 e1 s1) (vmul2 (int64f (-1)) (vsub2 e2 s2)) (vsub2 s2 s1) u1 v1 (- u2) (- v2) r1 r2 (Q2R l) (Q2R m)) as (A & B & XA & XB & EA & EB & MA & MB).
  { exact D1. } { apply neg2_at; [exact D2|unfold box2 in *; lia|lia]. } { apply sub2_at; [exact S2|exact S1|unfold box2 in *; lia|unfold box2 in *; lia|lia]. } { exact C1. } { unfold box2 in *; lia. } { unfold box2, r1, r2 in *; lia. } { exact Dn. } { exact EQ1. } { exact EQ2. }
  set (s := solveLinearSystem _ _ _) in *. assert (Dt : (Rabs (IZR dt) <= 524288)%R) by (rewrite <- abs_IZR; apply IZR_le; unfold dt, box2 in *; nia).
  destruct (det_small (Q2R l) dt nl Dt Dn) as [L0 L1]; [rewrite Lr; field; exact DR|]. destruct (det_small (Q2R m) dt nm Dt Dn) as [M0 M1]; [rewrite Mr; field; exact DR|].
  destruct h31 as [H1 H2]. pose proof h_small as HS. pose proof (Rabs_pos (Q2R m)) as Pm. set (t := (1 + Rabs (Q2R m))%R) in *. assert (T1 : (1 <= t)%R) by (unfold t; lra).
  assert (K1 : (2100 * h <= / 4194304)%R) by exact H2. assert (K2 : (4 * h <= / 2147483648)%R) by exact H1.
  assert (EA' : (Rabs (A - Q2R l) <= / 4194304 * t)%R) by (eapply Rle_trans; [exact EA|]; apply Rmult_le_compat_r; lra). assert (EB' : (Rabs (B - Q2R m) <= / 2147483648 * t)%R) by (eapply Rle_trans; [exact EB|]; apply Rmult_le_compat_r; lra). clear EA EB H1 H2 K1 K2.
  assert (A9 : (Rabs A <= bpow radix2 900)%R). { apply Rle_trans with (bpow radix2 30); [|apply bpow_le; lia]. apply b30. pose proof (le_abs _ _ _ EA'). unfold t in *. lra. } assert (B9 : (Rabs B <= bpow radix2 900)%R). { apply Rle_trans with (bpow radix2 30); [|apply bpow_le; lia]. apply b30. pose proof (le_abs _ _ _ EB'). unfold t in *. lra. }
  rewrite (less0 _ _ XA A9), (less0 _ _ XB B9), (greater1 _ _ XA), (greater1 _ _ XB). pose proof one_tol as OT. apply Rabs_le_inv in OT. pose proof tol_near as TN. set (c1 := r64 (1 + tol)) in *. clearbody c1. set (c0 := tol) in *. clearbody c0. apply Rabs_le_inv in EA', EB'.
  assert (MT : forall b, (Rabs (Q2R m) <= b)%R -> (t <= 1 + b)%R) by (intros b H; unfold t; lra).
  split.
  - intros H. apply negb_true_iff in H. apply orb_false_iff in H as [H H4]. apply orb_false_iff in H as [H H3]. apply orb_false_iff in H as [H1 H2].
    assert (RF : forall a b, Rle_bool a b = false -> (b < a)%R). { intros a b F. destruct (Rlt_le_dec b a); [assumption|]. rewrite Rle_bool_true in F by assumption. discriminate F. } apply RF in H1, H2, H3, H4. clear RF.
    (* the parameter of the second segment *)
    assert (m1 : (0 <= Q2R m <= 1)%R).
    { destruct (Rle_lt_dec 0 (Q2R m)) as [P0|P0]. - split; [exact P0|]. destruct (Rle_lt_dec (Q2R m) 1) as [P1|P1]; [exact P1|exfalso]. specialize (M1 P1). assert (Rabs (Q2R m) = Q2R m) by (apply Rabs_pos_eq; lra). unfold t in *. lra. - exfalso. specialize (M0 P0). assert (Rabs (Q2R m) = - Q2R m)%R by (rewrite Rabs_left; lra). unfold t in *. lra. }
    assert (t2 : (t <= 2)%R) by (unfold t; rewrite Rabs_pos_eq; lra).
    assert (l1 : (0 <= Q2R l <= 1)%R).
    { destruct (Rle_lt_dec 0 (Q2R l)) as [P0|P0]. - split; [exact P0|]. destruct (Rle_lt_dec (Q2R l) 1) as [P1|P1]; [exact P1|exfalso]. specialize (L1 P1). lra. - exfalso. specialize (L0 P0). lra. }
    split; [lia|]. exists l, m. assert (O : Q2R 1 = 1%R /\ Q2R 0 = 0%R) by (unfold Q2R; cbn; lra). destruct O as [O0 O1]. split; [split; apply Rle_Qle; lra|]. split; [split; apply Rle_Qle; lra|]. unfold r1, r2 in *. split; apply eqR_Qeq; q2r; rewrite ?minus_IZR, ?opp_IZR in *; lra.
  - intros (_ & l' & m' & (la & lb) & (ma & mb) & X1 & X2). apply Q2R_eq in X1, X2. q2r. assert (O : Q2R 1 = 1%R /\ Q2R 0 = 0%R) by (unfold Q2R; cbn; lra). destruct O as [O0 O1]. apply Qle_Rle in la, lb, ma, mb. rewrite O0, O1 in *.
    assert (UNI : Q2R l' = Q2R l /\ Q2R m' = Q2R m).
    { assert (Y1 : (IZR u1 * (Q2R l' - Q2R l) = IZR u2 * (Q2R m' - Q2R m))%R) by (unfold r1 in *; rewrite ?minus_IZR, ?opp_IZR in *; lra). assert (Y2 : (IZR v1 * (Q2R l' - Q2R l) = IZR v2 * (Q2R m' - Q2R m))%R) by (unfold r2 in *; rewrite ?minus_IZR, ?opp_IZR in *; lra).
      assert (W1 : (IZR dt * (Q2R l' - Q2R l) = 0)%R). { unfold dt. rewrite minus_IZR, !mult_IZR, !opp_IZR. replace ((IZR u1 * - IZR v2 - IZR v1 * - IZR u2) * (Q2R l' - Q2R l))%R with (- IZR v2 * (IZR u1 * (Q2R l' - Q2R l)) + IZR u2 * (IZR v1 * (Q2R l' - Q2R l)))%R by ring. rewrite Y1, Y2. ring. }
      assert (W2 : (IZR dt * (Q2R m' - Q2R m) = 0)%R). { unfold dt. rewrite minus_IZR, !mult_IZR, !opp_IZR. replace ((IZR u1 * - IZR v2 - IZR v1 * - IZR u2) * (Q2R m' - Q2R m))%R with (- IZR u1 * (IZR v2 * (Q2R m' - Q2R m)) + IZR v1 * (IZR u2 * (Q2R m' - Q2R m)))%R by ring. rewrite <- Y1, <- Y2. ring. }
      apply Rmult_integral in W1, W2. destruct W1; [contradiction|]. destruct W2; [contradiction|]. lra. }
    destruct UNI as [U1 U2]. rewrite U1 in *. rewrite U2 in *. assert (t2 : (t <= 2)%R) by (unfold t; rewrite Rabs_pos_eq; lra). rewrite !Rle_bool_false by lra. reflexivity.
Qed.
(** segments of one line are never reported, even if one lies in the other *)
Theorem C111_overlap_refuted s1 e1 s2 e2 x1 x2 x3 x4 : at2 0 x1 0 s1 -> at2 0 x2 0 e1 -> at2 0 x3 0 s2 -> at2 0 x4 0 e2 -> box2 256 x1 x2 -> box2 256 x3 x4 -> crosses s1 e1 s2 e2 = false.
Proof.
  intros S1 E1 S2 E2 B1 B2. apply not_true_iff_false. intros H. apply (C111_crosses s1 e1 s2 e2 x1 0 x2 0 x3 0 x4 0 S1 E1 S2 E2) in H as [N _]; [lia|unfold box2 in *; lia|unfold box2 in *; lia|unfold box2 in *; lia|unfold box2 in *; lia].
Qed.
(** fractions of 1/1024: small segments that cross are missed *)
Theorem C111_small_refuted k s1 e1 s2 e2 : at2 k (-1) 0 s1 -> at2 k 1 0 e1 -> at2 k 0 (-1) s2 -> at2 k 0 1 e2 -> -400 <= k <= -11 -> crosses s1 e1 s2 e2 = false.
Proof.
  intros S1 E1 S2 E2 K. unfold crosses. cbv zeta. pose proof (sub2_at k _ _ _ _ _ _ E1 S1 ltac:(unfold box2; lia) ltac:(unfold box2; lia) ltac:(lia)) as D1. pose proof (sub2_at k _ _ _ _ _ _ E2 S2 ltac:(unfold box2; lia) ltac:(unfold box2; lia) ltac:(lia)) as D2.
  pose proof (cross2_at k _ _ _ _ _ _ D1 D2 ltac:(unfold box2; lia) ltac:(unfold box2; lia) ltac:(lia)) as X. unfold isCollinear2. rewrite (equal0_small _ _ _ X); [reflexivity|]. change ((1 - -1) * (1 - -1) - (0 - 0) * (0 - 0)) with 4. rewrite Rabs_pos_eq by (apply Rmult_le_pos; [lra|apply bpow_ge_0]). change 4%R with (bpow radix2 2). rewrite <- bpow_plus. apply bpow_le. lia.
Qed.
(** far away the tolerance of the parameter is too large: (0, 0)-(4000000, 0) does not meet (-1, -1)-(-1, 1) *)
Theorem C111_large_refuted : crosses (I2 0 0) (I2 4000000 0) (I2 (-1) (-1)) (I2 (-1) 1) = true.
Proof. vm_compute. reflexivity. Qed.
(** * the hypotheses are met *)
Example C110_ex : at2 0 3 1 (I2 3 1) /\ at2 0 1 2 (I2 1 2) /\ at2 0 5 5 (I2 5 5) /\ box2 512 3 1 /\ box2 512 1 2 /\ box2 512 5 5 /\ 3 * 2 - 1 * 1 <> 0 /\ (inject_Z 3 * 1 + inject_Z 1 * 2 == inject_Z 5)%Q /\ (inject_Z 1 * 1 + inject_Z 2 * 2 == inject_Z 5)%Q.
Proof. concrete. Qed.
Example C111_ex : at2 0 0 0 (I2 0 0) /\ at2 0 4 4 (I2 4 4) /\ at2 0 0 4 (I2 0 4) /\ at2 0 4 0 (I2 4 0) /\ box2 256 4 0 /\ crosses (I2 0 0) (I2 4 4) (I2 0 4) (I2 4 0) = true /\ crosses (I2 0 0) (I2 1 1) (I2 0 4) (I2 4 0) = false.
Proof. concrete. Qed.
Example C111_ex_overlap : at2 0 0 0 (I2 0 0) /\ at2 0 9 0 (I2 9 0) /\ crosses (I2 0 0) (I2 9 0) (I2 2 0) (I2 5 0) = false.
Proof. concrete. Qed.
Print Assumptions C110_solve.
Print Assumptions C110_lines.
Print Assumptions C111_crosses.
Print Assumptions C111_overlap_refuted.
Print Assumptions C111_small_refuted.
Print Assumptions C111_large_refuted.
