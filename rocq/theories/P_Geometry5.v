(** P_Geometry5.v -- the angles of an arc; the ellipse. *)
From Coq Require Import Reals Lra Psatz QArith Qabs Qreals.
From Flocq Require Import Core.
From Verif Require Import Base M_Float M_MathF M_Rect M_Matrix M_Geometry S_Double S_Matrix S_Geometry L_Float L_Double L_MathF P_MathF L_Matrix L_Matrix2 L_Matrix4 L_Geometry L_Geometry2 L_Geometry3 P_Geometry P_Geometry2.
Local Open Scope Z_scope.

(** * C114: is an angle between two angles *)
(** the double nearest to 2 pi *)
Definition TWOPI : Q := inject_Z 7074237752028440 * q2 (-50).
Lemma two_pi_dbl : dbl two_pi TWOPI.
Proof. split; [vm_compute; reflexivity|]. replace two_pi with (S754_finite false 7074237752028440 (-50)) by (vm_compute; reflexivity). reflexivity. Qed.
Lemma two_pi_bnd : (6.2831 < Q2R TWOPI < 6.2832)%R.
Proof. unfold TWOPI. rewrite Q2R_mult, Q2R_Z, Q2R_q2. change (bpow radix2 (-50)) with (/ 1125899906842624)%R. lra. Qed.
(** the comparisons up to 2^-19, for numbers up to 100 *)
Lemma cmp x y a b : is64 x a -> is64 y b -> (Rabs a <= 100)%R -> (Rabs b <= 100)%R -> ((b <= a + bpow radix2 (-30))%R -> isLess x y = false) /\ ((a + bpow radix2 (-19) <= b)%R -> isLess x y = true) /\ ((b <= a)%R -> isGreaterEqual x y = true) /\ ((a + bpow radix2 (-19) <= b)%R -> isGreaterEqual x y = false) /\ (isLess x y = true -> (a + bpow radix2 (-30) < b)%R) /\ (isGreaterEqual x y = true -> (b < a + bpow radix2 (-19))%R).
Proof.
  intros X Y A B. destruct (is_dbl _ _ X) as (qa & DA & <-). destruct (is_dbl _ _ Y) as (qb & DB & <-). assert (M : (100 <= bpow radix2 24)%R) by (change (bpow radix2 24) with 16777216%R; lra). destruct (C92_order x y qa qb DA DB) as (O1 & O2 & O3 & O4); [apply Rle_Qle; q2r; lra|apply Rle_Qle; q2r; lra|].
  assert (S30 : (0 < bpow radix2 (-30) <= / 1000000000)%R) by (split; [apply bpow_gt_0|change (bpow radix2 (-30)) with (/ 1073741824)%R; lra]). assert (S28 : (0 < bpow radix2 (-28) <= / 100000000)%R) by (split; [apply bpow_gt_0|change (bpow radix2 (-28)) with (/ 268435456)%R; lra]). assert (S19 : (/ 600000 <= bpow radix2 (-19))%R) by (change (bpow radix2 (-19)) with (/ 524288)%R; lra).
  assert (P1 : isLess x y = true -> (Q2R qa + bpow radix2 (-30) < Q2R qb)%R) by (intros H; apply O1, Qle_Rle in H; q2r; rewrite Q2R_u in H; lra). assert (P2 : isGreaterEqual x y = true -> (Q2R qb < Q2R qa + bpow radix2 (-19))%R) by (intros H; apply O3, Qle_Rle in H; q2r; rewrite Q2R_u in H; lra).
  repeat split.
  - intros H. destruct (isLess x y) eqn:E; [|reflexivity]. specialize (P1 eq_refl). lra.
  - intros H. apply O2. apply Rle_Qle. q2r. rewrite Q2R_u. lra.
  - intros H. apply O4. apply Rle_Qle. q2r. rewrite Q2R_u. lra.
  - intros H. destruct (isGreaterEqual x y) eqn:E; [|reflexivity]. specialize (P2 eq_refl). lra.
  - exact P1.
  - exact P2.
Qed.
Lemma not_nan x a : is64 x a -> x <> S754_nan.
Proof. intros H ->. destruct (is_dbl _ _ H) as (q & [_ D] & _). exact D. Qed.
Lemma le_less x y a b : is64 x a -> is64 y b -> isLessEqual x y = negb (isLess y x).
Proof. intros X Y. destruct (C92_consistent x y) as (_ & G & L). rewrite (L (not_nan _ _ X) (not_nan _ _ Y)), G. reflexivity. Qed.
Lemma turn x a : is64 x a -> (Rabs a <= 20)%R -> exists t, is64 (add64 x two_pi) t /\ (Rabs (t - (a + Q2R TWOPI)) <= bpow radix2 (-40))%R.
Proof.
  intros X A. pose proof two_pi_dbl as T. apply dbl_r in T. pose proof two_pi_bnd as TB. assert (B : (Rabs (a + Q2R TWOPI) <= 27)%R) by (eapply Rle_trans; [apply Rabs_triang|]; rewrite (Rabs_pos_eq (Q2R TWOPI)); lra). pose proof (add64_r _ _ _ _ 30 ltac:(lia) X T (b30 (a + Q2R TWOPI)%R ltac:(lra))) as S. eexists. split; [exact S|]. pose proof (rerr (a + Q2R TWOPI)) as R1. pose proof u_small. pose proof tt_uu. pose proof uu_pos. assert (uu * Rabs (a + Q2R TWOPI) <= / 1000000000000000 * 27)%R by (apply Rmult_le_compat; [lra|apply Rabs_pos|lra|lra]). assert (/ 10000000000000 <= bpow radix2 (-40))%R by (change (bpow radix2 (-40)) with (/ 1099511627776)%R; lra). lra.
Qed.
(** start and end between 0 and 2 pi in this order; the angle as atan2 returns it: the answer is true if the angle plus some turns is between start and end, and false if it is not, up to 2^-18 *)
Theorem C114_angle n angle start end_ a s e : dbl angle a -> dbl start s -> dbl end_ e -> (2 <= n)%nat -> (-4 <= a)%Q -> (a <= 4)%Q -> (0 <= s)%Q -> (s + q2 (-18) <= e)%Q -> (e <= 6283 # 1000)%Q ->
  ((exists m : Z, (s <= a + inject_Z m * TWOPI)%Q /\ (a + inject_Z m * TWOPI + q2 (-18) <= e)%Q) -> checkAngle n angle start end_ = Val true) /\
  ((forall m : Z, (a + inject_Z m * TWOPI + q2 (-18) <= s)%Q \/ (e + q2 (-18) <= a + inject_Z m * TWOPI)%Q) -> checkAngle n angle start end_ = Val false).
Proof.
  intros A S0 E0 N A1 A2 S1 S2 E1. apply dbl_r in A, S0, E0. pose proof two_pi_dbl as T. apply dbl_r in T. pose proof two_pi_bnd as TB. apply Qle_Rle in A1, A2, S1, S2, E1. q2r. replace (Q2R (-4)) with (-4)%R in A1 by (unfold Q2R; cbn; lra). replace (Q2R 4) with 4%R in A2 by (unfold Q2R; cbn; lra). replace (Q2R 0) with 0%R in S1 by (unfold Q2R; cbn; lra). replace (Q2R (6283 # 1000)) with 6.283%R in E1 by (unfold Q2R; cbn; lra).
  assert (P18 : bpow radix2 (-18) = (/ 262144)%R) by reflexivity. assert (P19 : bpow radix2 (-19) = (/ 524288)%R) by reflexivity. assert (P30 : bpow radix2 (-30) = (/ 1073741824)%R) by reflexivity. assert (P40 : bpow radix2 (-40) = (/ 1099511627776)%R) by reflexivity. set (P := Q2R TWOPI) in *. set (ra := Q2R a) in *. set (rs := Q2R s) in *. set (re := Q2R e) in *.
  assert (AB : forall r, (-20 <= r <= 20)%R -> (Rabs r <= 100)%R) by (intros r H; apply Rabs_le; lra). destruct n as [|[|n]]; [lia|lia|].
  (* the first three loops do nothing *)
  assert (L1 : isGreaterEqual start two_pi = false) by (destruct (cmp _ _ _ _ S0 T ltac:(apply AB; lra) ltac:(apply AB; lra)) as (_ & _ & _ & H & _); apply H; lra). assert (L2 : isGreaterEqual end_ two_pi = false) by (destruct (cmp _ _ _ _ E0 T ltac:(apply AB; lra) ltac:(apply AB; lra)) as (_ & _ & _ & H & _); apply H; lra).
  assert (L3 : isLessEqual end_ start = false). { rewrite (le_less _ _ _ _ E0 S0). destruct (cmp _ _ _ _ S0 E0 ltac:(apply AB; lra) ltac:(apply AB; lra)) as (_ & H & _). rewrite H by lra. reflexivity. }
  unfold checkAngle. cbn [whilef bind]. rewrite L1. cbn [bind]. rewrite L2. cbn [bind]. rewrite L3. cbn [bind].
  destruct (turn angle ra A ltac:(apply Rabs_le; lra)) as (t & T1 & TE). apply Rabs_le_inv in TE. destruct (turn _ t T1 ltac:(apply Rabs_le; fold P in TE; lra)) as (u & U1 & UE). apply Rabs_le_inv in UE. fold P in TE, UE. rewrite P40 in TE, UE.
  destruct (cmp _ _ _ _ A S0 ltac:(apply AB; lra) ltac:(apply AB; lra)) as (LA1 & LA2 & _). destruct (cmp _ _ _ _ T1 S0 ltac:(apply AB; lra) ltac:(apply AB; lra)) as (LT1 & LT2 & _). destruct (cmp _ _ _ _ U1 S0 ltac:(apply AB; lra) ltac:(apply AB; lra)) as (LU1 & _). destruct (cmp _ _ _ _ E0 A ltac:(apply AB; lra) ltac:(apply AB; lra)) as (EA1 & EA2 & _). destruct (cmp _ _ _ _ E0 T1 ltac:(apply AB; lra) ltac:(apply AB; lra)) as (ET1 & ET2 & _). destruct (cmp _ _ _ _ E0 U1 ltac:(apply AB; lra) ltac:(apply AB; lra)) as (_ & EU2 & _).
  split.
  - intros (m & M1 & M2). apply Qle_Rle in M1, M2. q2r. fold ra rs re P in M1, M2. assert (M : m = 0 \/ m = 1). { assert (m < 2) by (apply lt_IZR; nra). assert (-1 < m) by (apply lt_IZR; nra). lia. } destruct M as [-> | ->].
    + rewrite LA1 by lra. cbn [bind]. rewrite (le_less _ _ _ _ A E0), EA1 by lra. reflexivity.
    + rewrite LA2 by lra. cbn [bind]. rewrite LT1 by lra. cbn [bind]. rewrite (le_less _ _ _ _ T1 E0), ET1 by lra. reflexivity.
  - intros M. pose proof (M 0) as M0. pose proof (M 1) as M1. assert (M0' : (ra + / 262144 <= rs \/ re + / 262144 <= ra)%R). { destruct M0 as [H|H]; apply Qle_Rle in H; q2r; fold ra rs re P in H; lra. } assert (M1' : (ra + P + / 262144 <= rs \/ re + / 262144 <= ra + P)%R). { destruct M1 as [H|H]; apply Qle_Rle in H; q2r; fold ra rs re P in H; lra. } clear M0 M1.
    destruct M0' as [H|H].
    + rewrite LA2 by lra. cbn [bind]. destruct M1' as [H1|H1].
      * rewrite LT2 by lra. cbn [bind]. destruct n; cbn [whilef]; rewrite LU1 by lra; cbn [bind]; rewrite (le_less _ _ _ _ U1 E0), EU2 by lra; reflexivity.
      * rewrite LT1 by lra. cbn [bind]. rewrite (le_less _ _ _ _ T1 E0), ET2 by lra. reflexivity.
    + rewrite LA1 by lra. cbn [bind]. rewrite (le_less _ _ _ _ A E0), EA2 by lra. reflexivity.
Qed.
(** a negative start angle is not brought into the range: the arc from -6 to -5 contains the angle 1 - 2 pi, but the answer is false *)
Theorem C114_negative_refuted n : (1 <= n)%nat -> checkAngle n (int64f 1) (int64f (-6)) (int64f (-5)) = Val false /\ (-6 <= 1 + inject_Z (-1) * TWOPI)%Q /\ (1 + inject_Z (-1) * TWOPI <= -5)%Q.
Proof. intros H. destruct n as [|n]; [lia|]. split; [vm_compute; reflexivity|]. split; vm_compute; discriminate. Qed.
(** an angle of 2^60 is never brought into the range: the loop does not end *)
Theorem C114_huge_refuted n angle end_ : checkAngle n angle (int64f (2 ^ 60)) end_ = Fuel.
Proof.
  unfold checkAngle. assert (W : whilef n (fun s => isGreaterEqual s two_pi) (fun s => sub64 s two_pi) (int64f (2 ^ 60)) = Fuel); [|rewrite W; reflexivity].
  assert (C : isGreaterEqual (int64f (2 ^ 60)) two_pi = true) by (vm_compute; reflexivity). assert (D : sub64 (int64f (2 ^ 60)) two_pi = int64f (2 ^ 60)) by (vm_compute; reflexivity). generalize dependent (int64f (2 ^ 60)). intros x C D. induction n as [|n IH]; cbn [whilef]; rewrite C; [reflexivity|]. rewrite D. exact IH.
Qed.
(** * the ellipse *)
(** the square of the coordinate across is divided by the minor axis and not by its square; the ellipse around (0, 0) with the half axes 4 and 2, and the ray from (-10, 3/2) to the right: no point is found, although (3/2)^2 < 2^2 *)
Theorem C114_ellipse_refuted n atan2 cos sin : atan2 (int64f 0) (int64f 0) = int64f 0 -> cos (int64f 0) = int64f 1 -> sin (int64f 0) = int64f 0 -> cos (fneg (int64f 0)) = int64f 1 -> sin (fneg (int64f 0)) = fneg (int64f 0) ->
  extensionOnEllipse n atan2 cos sin (V2 (int64f (-10)) (lit 3 2)) (V2 (int64f 1) (int64f 0)) (V2 (int64f 0) (int64f 0)) (V2 (int64f 4) (int64f 0)) (lit 1 2) (int64f 0) two_pi = Val (V2 S754_nan S754_nan) /\ dbl (lit 3 2) (3 # 2) /\ dbl (lit 1 2) (1 # 2).
Proof.
  intros H1 H2 H3 H4 H5. split; [|split; (split; [vm_compute; reflexivity|vm_compute; reflexivity])]. unfold extensionOnEllipse. cbn [px py]. rewrite H1, H4, H5, H2, H3. clear. vm_compute. reflexivity.
Qed.
(** the angle is that of the centre and not that of the main axis: the ellipse around (0, 0) with the half axis 4 upwards and 2 across, and the ray from (-10, 3) to the right: no point is found, although 3 < 4 *)
Theorem C114_axis_refuted n atan2 cos sin : atan2 (int64f 0) (int64f 0) = int64f 0 -> cos (int64f 0) = int64f 1 -> sin (int64f 0) = int64f 0 -> cos (fneg (int64f 0)) = int64f 1 -> sin (fneg (int64f 0)) = fneg (int64f 0) ->
  extensionOnEllipse n atan2 cos sin (V2 (int64f (-10)) (int64f 3)) (V2 (int64f 1) (int64f 0)) (V2 (int64f 0) (int64f 0)) (V2 (int64f 0) (int64f 4)) (lit 1 2) (int64f 0) two_pi = Val (V2 S754_nan S754_nan).
Proof. intros H1 H2 H3 H4 H5. unfold extensionOnEllipse. cbn [px py]. rewrite H1, H4, H5, H2, H3. clear. vm_compute. reflexivity. Qed.
(** * the hypotheses are met *)
Example C114_ex : dbl (int64f (-3)) (-3) /\ dbl (int64f 2) 2 /\ dbl (int64f 4) 4 /\ (2 + q2 (-18) <= 4)%Q /\ (4 <= 6283 # 1000)%Q /\ (2 <= -3 + inject_Z 1 * TWOPI)%Q /\ (-3 + inject_Z 1 * TWOPI + q2 (-18) <= 4)%Q /\ checkAngle 5 (int64f (-3)) (int64f 2) (int64f 4) = Val true /\ checkAngle 5 (int64f (-1)) (int64f 2) (int64f 4) = Val false.
Proof. concrete. Qed.
Print Assumptions C114_angle.
Print Assumptions C114_negative_refuted.
Print Assumptions C114_huge_refuted.
Print Assumptions C114_ellipse_refuted.
Print Assumptions C114_axis_refuted.
