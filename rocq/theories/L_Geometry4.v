(** L_Geometry4.v -- line and plane; points on a line; sums of squares. *)
From Coq Require Import Reals Lra Psatz QArith.
From Flocq Require Import Core BinarySingleNaN.
From Verif Require Import Base M_Float M_MathF M_Rect M_Matrix M_Geometry S_Double S_Matrix S_Geometry L_Float L_Double L_MathF P_MathF L_Matrix L_Matrix2 L_Matrix4 L_Matrix5 L_Matrix6 L_Geometry L_Geometry2 L_Geometry3.
Local Open Scope Z_scope.

(** * closure of the doubles *)
Lemma dbl_b x : double x -> exists b : binary_float 53 1024, B2SF b = x.
Proof. intros H. exists (SF2B x H). apply B2SF_SF2B. Qed.
Lemma b_dbl (b : binary_float 53 1024) : double (B2SF b). Proof. apply valid_binary_B2SF. Qed.
Lemma add_d x y : double x -> double y -> double (add64 x y).
Proof. intros X Y. apply dbl_b in X as (a & <-). apply dbl_b in Y as (b & <-). unfold add64. rewrite (add_equiv 53 1024 p53 e1024). apply b_dbl. Qed.
Lemma sub_d x y : double x -> double y -> double (sub64 x y).
Proof. intros X Y. apply dbl_b in X as (a & <-). apply dbl_b in Y as (b & <-). unfold sub64. rewrite (sub_equiv 53 1024 p53 e1024). apply b_dbl. Qed.
Lemma mul_d x y : double x -> double y -> double (mul64 x y).
Proof. intros X Y. apply dbl_b in X as (a & <-). apply dbl_b in Y as (b & <-). unfold mul64. rewrite (mul_equiv 53 1024 p53 e1024). apply b_dbl. Qed.
Lemma div_d x y : double x -> double y -> double (div64 x y).
Proof. intros X Y. apply dbl_b in X as (a & <-). apply dbl_b in Y as (b & <-). unfold div64. rewrite (div_equiv 53 1024 p53 e1024). apply b_dbl. Qed.
(** a square root is never less than 0 *)
Lemma root_not_less x : double x -> isLess (sqrt64 x) f0 = false.
Proof.
  intros X. apply dbl_b in X as (b & <-). unfold sqrt64. rewrite sqrt_equiv. destruct (@Bsqrt_correct 53 1024 p53 e1024 mode_NE b) as (E & Fi & _). set (r := @Bsqrt 53 1024 p53 e1024 mode_NE b) in *. destruct (is_finite r) eqn:F.
  - assert (R : is64 (B2SF r) (B2R r)) by (exists r; repeat split; assumption). assert (P : (0 <= B2R r)%R) by (rewrite E; cbn [round_mode]; rewrite <- r64_0; apply r64_le, sqrt_pos).
    pose proof tol_20 as T. pose proof (bpow_gt_0 radix2 (-21)). destruct (Rle_lt_dec (B2R r) (bpow radix2 900)) as [L|L].
    + rewrite (less0 _ _ R) by (rewrite Rabs_pos_eq; assumption). apply Rle_bool_false. lra.
    + unfold isLess, f0. pose proof (@Bplus_correct 53 1024 p53 e1024 mode_NE) as BP. assert (RR : exists t, RESABS = B2SF t /\ is_finite t = true /\ B2R t = tol) by (destruct RESABS_r as (t & A & B & C); exists t; auto). destruct RR as (t & -> & Ft & Et). unfold add64. rewrite (add_equiv 53 1024 p53 e1024). specialize (BP r t F Ft). rewrite Et in BP. cbn [round_mode] in BP. destruct (Rlt_bool (Rabs (r64 (B2R r + tol))) (bpow radix2 1024)) eqn:O.
      * destruct BP as (B1 & B2 & _). set (s := @Bplus 53 1024 p53 e1024 mode_NE r t) in *. assert (S1 : is64 (B2SF s) (B2R s)) by (exists s; repeat split; assumption). rewrite (leb_r _ _ _ _ S1 zero_r). apply Rle_bool_false. rewrite B1. apply Rlt_le_trans with (r64 (bpow radix2 900)); [|apply r64_le; lra]. rewrite r64_fmt; [apply bpow_gt_0|]. pose proof (fmt_grid 1 900 ltac:(lia) ltac:(lia)) as G. now rewrite Rmult_1_l in G.
      * destruct BP as (B1 & B2). assert (Sr : Bsign r = false). { pose proof (bpow_gt_0 radix2 900). destruct r as [s|s| |s m e Bd]; try discriminate F; [cbn [B2R] in L; lra|]. destruct s; [exfalso|reflexivity]. assert (NEG : (IZR (Z.neg m) * bpow radix2 e < 0)%R) by (pose proof (bpow_gt_0 radix2 e); assert (IZR (Z.neg m) < 0)%R by (apply IZR_lt; lia); nra). change (bpow radix2 900 < IZR (Z.neg m) * bpow radix2 e)%R in L. lra. }
        assert (Q : binary_overflow 53 1024 mode_NE (Bsign r) = S754_infinity false) by (rewrite Sr; reflexivity). rewrite B1, Q. reflexivity.
  - destruct r as [s|s| |s m e Bd] eqn:Er; try discriminate F; [|reflexivity]. destruct s; [exfalso|reflexivity].
    rewrite Fi in F. destruct b as [sb|sb| |sb mb eb Bb]; try discriminate F; unfold r in Er; [destruct sb; discriminate Er|discriminate Er|destruct sb; [discriminate Er|discriminate F]].
Qed.
(** * the parameter of the point of a line in a plane, and the point *)
Lemma lam_r xn xd n d la : at_ 0 n xn -> at_ 0 d xd -> d <> 0 -> - 2 ^ 53 <= n <= 2 ^ 53 -> (la * IZR d = IZR n)%R -> is64 (div64 xn xd) (r64 la) /\ (Rabs la <= bpow radix2 53)%R.
Proof.
  intros N D D0 NB E. apply at0 in N, D. assert (D' : IZR d <> 0%R) by (now apply not_0_IZR). assert (L : la = (IZR n / IZR d)%R) by (rewrite <- E; field; exact D'). assert (D1 : (1 <= Rabs (IZR d))%R) by (rewrite <- abs_IZR; apply IZR_le; lia). assert (N1 : (Rabs (IZR n) <= bpow radix2 53)%R) by (rewrite <- abs_IZR; change (bpow radix2 53) with (IZR (2 ^ 53)); apply IZR_le; lia).
  assert (B : (Rabs la <= bpow radix2 53)%R). { rewrite <- E, Rabs_mult in N1. pose proof (Rabs_pos la). nra. } split; [|exact B]. rewrite L in *. apply (div64_r _ _ _ _ 53 ltac:(lia) N D D' B).
Qed.
Lemma walk_r xl xd l d la xla : at_ 0 l xl -> at_ 0 d xd -> - 2 ^ 24 <= l <= 2 ^ 24 -> - 2 ^ 24 <= d <= 2 ^ 24 -> is64 xla (r64 la) -> (Rabs la <= bpow radix2 53)%R ->
  exists r, is64 (add64 xl (mul64 xla xd)) r /\ (Rabs (r - (IZR l + la * IZR d)) <= bpow radix2 (-51) * (1 + Rabs (IZR l) + Rabs (la * IZR d)))%R.
Proof.
  intros XL XD BL BD XA BA. apply at0 in XL, XD. assert (Sd : (Rabs (IZR d) <= bpow radix2 24)%R) by (rewrite <- abs_IZR; change (bpow radix2 24) with (IZR (2 ^ 24)); apply IZR_le; lia). assert (Sl : (Rabs (IZR l) <= bpow radix2 24)%R) by (rewrite <- abs_IZR; change (bpow radix2 24) with (IZR (2 ^ 24)); apply IZR_le; lia).
  pose proof (r64_abs la 53 ltac:(lia) BA) as BA'. pose proof (Rabs_pos (IZR d)) as Pd. pose proof (Rabs_pos la) as Pl. pose proof (Rabs_pos (r64 la)) as Pl'. assert (BM : (Rabs (r64 la * IZR d) <= bpow radix2 77)%R) by (rewrite Rabs_mult; change 77 with (53 + 24); rewrite bpow_plus; apply Rmult_le_compat; assumption).
  pose proof (mul64_r _ _ _ _ 77 ltac:(lia) XA XD BM) as XM. pose proof (r64_abs _ 77 ltac:(lia) BM) as BM'. set (m := r64 (r64 la * IZR d)) in *.
  assert (BS : (Rabs (IZR l + m) <= bpow radix2 78)%R). { eapply Rle_trans; [apply Rabs_triang|]. replace (bpow radix2 78) with (2 * bpow radix2 77)%R by (change 78 with (1 + 77); rewrite bpow_plus; reflexivity). assert (bpow radix2 24 <= bpow radix2 77)%R by (apply bpow_le; lia). lra. }
  pose proof (add64_r _ _ _ _ 78 ltac:(lia) XL XM BS) as XS. eexists. split; [exact XS|]. pose proof (rerr la) as R1. pose proof (rerr (r64 la * IZR d)) as R2. fold m in R2. pose proof (rerr (IZR l + m)) as R3. pose proof (mul_abs _ _ (IZR d) _ R1) as R1'.
  pose proof uu_pos as UP. pose proof tt_pos as TP. pose proof u_small as US. assert (TS : (tt_ * bpow radix2 24 <= uu / 100)%R). { pose proof tt_small as T. pose proof (bpow_gt_0 radix2 24). apply Rle_trans with (uu * bpow radix2 (-100) * bpow radix2 24)%R; [apply Rmult_le_compat_r; lra|]. rewrite Rmult_assoc, <- bpow_plus. assert (bpow radix2 (-100 + 24) <= / 100)%R; [|unfold Rdiv; apply Rmult_le_compat_l; lra]. apply Rle_trans with (bpow radix2 (-10)); [apply bpow_le; lia|]. change (bpow radix2 (-10)) with (/ 1024)%R. lra. }
  assert (T1 : (tt_ <= uu / 100)%R). { assert (1 <= bpow radix2 24)%R by (change 1%R with (bpow radix2 0); apply bpow_le; lia). nra. }
  set (q := Rabs (la * IZR d)) in *. assert (Pq : (0 <= q)%R) by apply Rabs_pos. assert (C1 : (Rabs (r64 la * IZR d - la * IZR d) <= uu * q + uu / 100)%R). { eapply Rle_trans; [exact R1'|]. rewrite Rmult_plus_distr_r. unfold q. rewrite Rabs_mult, Rmult_assoc. assert (tt_ * Rabs (IZR d) <= tt_ * bpow radix2 24)%R by (apply Rmult_le_compat_l; lra). lra. }
  pose proof (le_abs _ _ _ C1) as L1. fold q in L1. assert (UQ : (0 <= uu * q)%R) by (apply Rmult_le_pos; lra). assert (C2 : (uu * Rabs (r64 la * IZR d) <= uu * q + uu * (uu * q) + uu * (uu / 100))%R). { eapply Rle_trans; [apply Rmult_le_compat_l; [lra|exact L1]|]. lra. } assert (S2 : (uu * (uu * q) <= uu * q / 100)%R) by (pose proof UQ; unfold Rdiv; rewrite (Rmult_comm (uu * q)); apply Rmult_le_compat_r; lra). assert (S3 : (uu * (uu / 100) <= uu / 100)%R) by (unfold Rdiv; nra).
  pose proof (tri _ _ _ _ _ R2 C1) as C3. assert (C3' : (Rabs (m - la * IZR d) <= 2.1 * (uu * q) + 0.1 * uu)%R) by (eapply Rle_trans; [exact C3|]; lra). pose proof (le_abs _ _ _ C3') as L2. fold q in L2.
  assert (C4 : (Rabs (IZR l + m - (IZR l + la * IZR d)) <= 2.1 * (uu * q) + 0.1 * uu)%R) by (replace (IZR l + m - (IZR l + la * IZR d))%R with (m - la * IZR d)%R by ring; exact C3'). pose proof (tri _ _ _ _ _ R3 C4) as C5. eapply Rle_trans; [exact C5|].
  assert (L3 : (Rabs (IZR l + m) <= Rabs (IZR l) + (q + (2.1 * (uu * q) + 0.1 * uu)))%R) by (eapply Rle_trans; [apply Rabs_triang|]; lra). assert (C6 : (uu * Rabs (IZR l + m) <= uu * Rabs (IZR l) + uu * q + 2.1 * (uu * (uu * q)) + 0.1 * (uu * uu))%R) by (eapply Rle_trans; [apply Rmult_le_compat_l; [lra|exact L3]|]; lra).
  assert (S4 : (uu * uu <= uu / 100)%R) by nra. replace (bpow radix2 (-51)) with (4 * uu)%R by (unfold uu; change (-51) with (2 + -53); rewrite bpow_plus; reflexivity). pose proof (Rabs_pos (IZR l)) as Pll. assert (UL : (0 <= uu * Rabs (IZR l))%R) by (apply Rmult_le_pos; lra). lra.
Qed.
(** the numerator and the denominator *)
Section Plane.
Variables (p n l d : vertex3) (px_ py_ pz_ nx ny nz_ lx ly lz dx dy dz : Z).
Hypothesis HP : at3 0 px_ py_ pz_ p.
Hypothesis HN : at3 0 nx ny nz_ n.
Hypothesis HL : at3 0 lx ly lz l.
Hypothesis HD : at3 0 dx dy dz d.
Hypothesis BP : box3 (2 ^ 24) px_ py_ pz_.
Hypothesis BN : box3 (2 ^ 24) nx ny nz_.
Hypothesis BL : box3 (2 ^ 24) lx ly lz.
Hypothesis BD : box3 (2 ^ 24) dx dy dz.
Definition znum := nx * (px_ - lx) + ny * (py_ - ly) + nz_ * (pz_ - lz).
Definition zden := dx * nx + dy * ny + dz * nz_.
Lemma diff_at : at3 0 (px_ - lx) (py_ - ly) (pz_ - lz) (vsub3 p l) /\ box3 (2 ^ 25) (px_ - lx) (py_ - ly) (pz_ - lz).
Proof. destruct HP as (P1 & P2 & P3), HL as (L1 & L2 & L3), BP as (B1 & B2 & B3), BL as (C1 & C2 & C3). split; [|unfold box3; lia]. split; [|split]; apply sub_at; try assumption; lia. Qed.
Lemma num_at : at_ 0 znum (dot3 n (vsub3 p l)) /\ - 2 ^ 53 <= znum <= 2 ^ 53.
Proof. destruct diff_at as [D1 D2]. split; [exact (dot3_at 0 0 _ _ _ _ _ _ _ _ _ _ HN D1 BN D2 ltac:(lia) ltac:(lia))|]. destruct BN as (B1 & B2 & B3), D2 as (C1 & C2 & C3). pose proof (prod_bnd _ _ _ _ B1 C1). pose proof (prod_bnd _ _ _ _ B2 C2). pose proof (prod_bnd _ _ _ _ B3 C3). unfold znum. lia. Qed.
Lemma den_at : at_ 0 zden (dot3 d n).
Proof. exact (dot3_at 0 0 _ _ _ _ _ _ _ _ _ _ HD HN BD BN ltac:(lia) ltac:(lia)). Qed.
Lemma orth_at : isOrthogonal3 n d = (zden =? 0).
Proof. unfold isOrthogonal3. rewrite (equal0 0 (nx * dx + ny * dy + nz_ * dz)); [unfold zden; f_equal; ring|exact (dot3_at 0 0 _ _ _ _ _ _ _ _ _ _ HN HD BN BD ltac:(lia) ltac:(lia))|lia]. Qed.
Lemma null_at (v : vertex3) a b c : at3 0 a b c v -> isNull v = (a =? 0) && (b =? 0) && (c =? 0).
Proof. intros (X & Y & Z0). unfold isNull. rewrite (equal0 0 a), (equal0 0 b), (equal0 0 c) by (try assumption; lia). reflexivity. Qed.
Lemma plane_none extend : zden = 0 -> lineAndPlane p n l d extend = nan3.
Proof. intros Z0. unfold lineAndPlane. destruct (isNull n); [reflexivity|]. destruct (isNull d); [reflexivity|]. rewrite orth_at, Z0. reflexivity. Qed.
Lemma plane_some extend la : zden <> 0 -> (la * IZR zden = IZR znum)%R ->
  exists x, is64 x (r64 la) /\ (Rabs la <= bpow radix2 53)%R /\ lineAndPlane p n l d extend = if negb extend && (isLess x f0 || isGreater x f1) then nan3 else vadd3 l (vmul3 x d).
Proof.
  intros D0 E. destruct num_at as [NA NB]. pose proof den_at as DA. destruct (lam_r _ _ _ _ _ NA DA D0 NB E) as [X B]. eexists. split; [exact X|]. split; [exact B|]. unfold lineAndPlane. rewrite (null_at n nx ny nz_ HN), (null_at d dx dy dz HD), orth_at.
  replace ((nx =? 0) && (ny =? 0) && (nz_ =? 0)) with false by (symmetry; apply not_true_iff_false; rewrite !andb_true_iff, !Z.eqb_eq; intros [[z1 z2] z3]; apply D0; unfold zden; rewrite z1, z2, z3; ring). replace ((dx =? 0) && (dy =? 0) && (dz =? 0)) with false by (symmetry; apply not_true_iff_false; rewrite !andb_true_iff, !Z.eqb_eq; intros [[z1 z2] z3]; apply D0; unfold zden; rewrite z1, z2, z3; ring).
  replace (zden =? 0) with false by (symmetry; now apply Z.eqb_neq). reflexivity.
Qed.
Lemma plane_point x la : is64 x (r64 la) -> (Rabs la <= bpow radix2 53)%R -> exists r1 r2 r3, is64 (vx (vadd3 l (vmul3 x d))) r1 /\ is64 (vy (vadd3 l (vmul3 x d))) r2 /\ is64 (vz (vadd3 l (vmul3 x d))) r3 /\
  (Rabs (r1 - (IZR lx + la * IZR dx)) <= bpow radix2 (-51) * (1 + Rabs (IZR lx) + Rabs (la * IZR dx)))%R /\ (Rabs (r2 - (IZR ly + la * IZR dy)) <= bpow radix2 (-51) * (1 + Rabs (IZR ly) + Rabs (la * IZR dy)))%R /\ (Rabs (r3 - (IZR lz + la * IZR dz)) <= bpow radix2 (-51) * (1 + Rabs (IZR lz) + Rabs (la * IZR dz)))%R.
Proof.
  intros X B. destruct HL as (L1 & L2 & L3), HD as (D1 & D2 & D3), BL as (B1 & B2 & B3), BD as (C1 & C2 & C3). destruct (walk_r _ _ _ _ _ _ L1 D1 B1 C1 X B) as (r1 & R1 & E1). destruct (walk_r _ _ _ _ _ _ L2 D2 B2 C2 X B) as (r2 & R2 & E2). destruct (walk_r _ _ _ _ _ _ L3 D3 B3 C3 X B) as (r3 & R3 & E3). exists r1, r2, r3. cbn [vadd3 vmul3 vx vy vz]. auto 10.
Qed.
(** the decision without extension *)
Lemma range_dec x la : is64 x (r64 la) -> (Rabs la <= bpow radix2 53)%R -> (la * IZR zden = IZR znum)%R -> 0 < Z.abs zden <= 900000 ->
  isLess x f0 || isGreater x f1 = negb (Rle_bool 0 la && Rle_bool la 1).
Proof.
  intros X B E D. pose proof (r64_abs la 53 ltac:(lia) B) as B'. assert (B9 : (Rabs (r64 la) <= bpow radix2 900)%R) by (eapply Rle_trans; [exact B'|apply bpow_le; lia]). rewrite (less0 _ _ X B9), (greater1 _ _ X). pose proof one_tol as OT. apply Rabs_le_inv in OT. pose proof tol_near as TN. set (c1 := r64 (1 + tol)) in *. clearbody c1. set (c0 := tol) in *. clearbody c0.
  pose proof (rerr la) as R. pose proof u_small as US. pose proof uu_pos as UP. pose proof tt_uu as TU. assert (GEN : forall z y, (IZR zden * y = IZR z)%R -> (0 < y)%R -> (/ 900000 <= y)%R).
  { intros z y Ez Py. assert (D' : (0 < Rabs (IZR zden) <= 900000)%R) by (rewrite <- abs_IZR; split; [apply (IZR_lt 0); lia|apply IZR_le; lia]). assert (Z1 : (1 <= Rabs (IZR z))%R). { rewrite <- abs_IZR. apply IZR_le. assert (z <> 0); [|lia]. intros ->. apply Rmult_integral in Ez as [E0|?]; [rewrite E0, Rabs_R0 in D'; lra|lra]. } rewrite <- Ez, Rabs_mult, (Rabs_pos_eq y) in Z1 by lra. apply Rmult_le_reg_l with 900000%R; [lra|]. rewrite Rinv_r by lra. nra. }
  destruct (Rle_lt_dec 0 la) as [P0|P0].
  - rewrite (Rle_bool_true 0) by exact P0. cbn [andb]. assert (0 <= r64 la)%R by (rewrite <- r64_0; apply r64_le; lra). rewrite (Rle_bool_false (r64 la)) by lra. cbn [orb]. destruct (Rle_lt_dec la 1) as [P1|P1].
    + rewrite (Rle_bool_true la) by exact P1. cbn [negb]. apply Rle_bool_false. assert (r64 la <= 1)%R; [|lra]. apply rnd_le_r; [|exact P1]. pose proof (fmt_grid 1 0 ltac:(lia) ltac:(lia)) as G. rewrite Rmult_1_l in G. exact G.
    + rewrite (Rle_bool_false la) by exact P1. cbn [negb]. apply Rle_bool_true. assert (G : (/ 900000 <= la - 1)%R) by (apply (GEN (znum - zden)%Z); [rewrite minus_IZR; lra|lra]). rewrite (Rabs_pos_eq la) in R by lra. apply Rabs_le_inv in R. assert (uu * la <= la / 1000000000000000)%R by (unfold Rdiv; rewrite (Rmult_comm la); apply Rmult_le_compat_r; lra). lra.
  - rewrite (Rle_bool_false 0) by exact P0. cbn [andb negb]. assert (G : (/ 900000 <= - la)%R) by (apply (GEN (- znum)%Z); [rewrite opp_IZR; lra|lra]). rewrite (Rabs_left la) in R by lra. apply Rabs_le_inv in R. assert (uu * - la <= - la / 1000000000000000)%R by (unfold Rdiv; rewrite (Rmult_comm (- la)); apply Rmult_le_compat_r; lra). rewrite Rle_bool_true by lra. reflexivity.
Qed.
End Plane.
