(** L_MathF.v -- lemmas for P_MathF. *)
From Coq Require Import Reals Lra Psatz ZArith QArith Qabs Qpower Qreals.
From Flocq Require Import Core BinarySingleNaN Relative.
From Coq Require Import SpecFloat.
From Verif Require Import Base M_Float M_MathF L_Float S_Double L_Double.
Local Open Scope Z_scope.
Ltac Zify.zify_post_hook ::= Z.to_euclidean_division_equations.

(** * sign symmetry *)
Lemma aux_opp p e s m x l : SFopp (SpecFloat.binary_round_aux p e s m x l) = SpecFloat.binary_round_aux p e (negb s) m x l.
Proof.
  unfold SpecFloat.binary_round_aux. set (q := shr_fexp _ _ _ _ _). destruct q as [m' e']. set (q := shr_fexp _ _ _ _ _). destruct q as [m2 e2]. cbv zeta. destruct (shr_m m2); try reflexivity. now destruct (e2 <=? e - p).
Qed.
Lemma round_opp p e s m x : SFopp (SpecFloat.binary_round p e s m x) = SpecFloat.binary_round p e (negb s) m x.
Proof. unfold SpecFloat.binary_round. set (q := shl_align _ _ _). destruct q. apply aux_opp. Qed.
Lemma norm_opp p e m x : m <> 0 -> SFopp (SpecFloat.binary_normalize p e m x false) = SpecFloat.binary_normalize p e (- m) x false.
Proof. intros N. destruct m as [|m|m]; [congruence| |]; cbn; apply round_opp. Qed.
Definition is_zero (x : spec_float) : bool := match x with S754_zero _ => true | _ => false end.
Lemma sub_swap x y : sub64 y x = SFopp (sub64 x y) \/ (is_zero (sub64 x y) = true /\ is_zero (sub64 y x) = true).
Proof.
  unfold sub64. destruct x as [sx|sx| |sx mx ex], y as [sy|sy| |sy my ey]; cbn; try (left; reflexivity); try (destruct sx, sy; cbn; auto; fail).
  rewrite (Z.min_comm ey ex). set (a := SpecFloat.cond_Zopp sx _). set (b := SpecFloat.cond_Zopp sy _). destruct (Z.eq_dec a b) as [E|N].
  - right. rewrite E, Z.sub_diag. auto.
  - left. replace (b - a) with (- (a - b)) by lia. rewrite <- norm_opp by lia. reflexivity.
Qed.
Lemma ltb_opp a b : SFltb (SFopp a) (SFopp b) = SFltb b a.
Proof.
  unfold SFltb. destruct a as [sx|sx| |sx mx ex], b as [sy|sy| |sy my ey]; cbn; try reflexivity; try (destruct sx; reflexivity); try (destruct sy; reflexivity); try (destruct sx, sy; reflexivity).
  destruct sx, sy; cbn; try reflexivity; rewrite (Z.compare_antisym ey ex); destruct (ey ?= ex); cbn; try reflexivity; change (Pos.compare_cont Eq mx my) with (mx ?= my)%positive; change (Pos.compare_cont Eq my mx) with (my ?= mx)%positive; rewrite (Pos.compare_antisym my mx); destruct (my ?= mx)%positive; reflexivity.
Qed.
Lemma opp_opp x : SFopp (SFopp x) = x.
Proof. destruct x; cbn; try reflexivity; now rewrite negb_involutive. Qed.
Lemma equal_sym x y : isEqual x y = isEqual y x.
Proof.
  unfold isEqual. destruct (sub_swap x y) as [E|[E1 E2]].
  - rewrite E. unfold fneg. rewrite ltb_opp. assert (A : forall a t, SFltb (SFopp a) t = SFltb (SFopp t) a) by (intros a t; rewrite <- (opp_opp t) at 1; apply ltb_opp). rewrite A. apply andb_comm.
  - destruct (sub64 x y); try discriminate. destruct (sub64 y x); try discriminate. reflexivity.
Qed.

Lemma Rltb_inv a b : Rlt_bool a b = true -> (a < b)%R.
Proof. destruct (Rlt_bool_spec a b); [auto|discriminate]. Qed.
Lemma Rleb_inv a b : Rle_bool a b = true -> (a <= b)%R.
Proof. destruct (Rle_bool_spec a b); [auto|discriminate]. Qed.
(** * the tolerance *)
Definition tolq : Q := (4722366482869645 # 4722366482869645213696)%Q.
Lemma RESABS_val : RESABS = S754_finite false 4722366482869645 (-72).
Proof. vm_compute. reflexivity. Qed.
Lemma RESABS_dbl : dbl RESABS tolq.
Proof. split; [vm_compute; reflexivity|]. replace RESABS with (S754_finite false 4722366482869645 (-72)) by (vm_compute; reflexivity). vm_compute. reflexivity. Qed.
Notation tol := (Q2R tolq).
Lemma RESABS_r : is64 RESABS tol.
Proof. apply dbl_r. exact RESABS_dbl. Qed.
Lemma tol_lo : (1 / 1000000 - bpow radix2 (-72) < tol < 1 / 1000000)%R.
Proof. unfold tolq, Q2R. cbn. lra. Qed.
Lemma tol_20 : (bpow radix2 (-21) < tol < bpow radix2 (-19))%R.
Proof. unfold tolq, Q2R. cbn. lra. Qed.
Lemma tol_fmt : generic_format radix2 fx tol.
Proof. eapply is_r_fmt. exact RESABS_r. Qed.
Lemma fmt64 x a : is64 x a -> generic_format radix2 fx a.
Proof. apply is_r_fmt. Qed.
(** finite values stay below 2^1024 *)
Lemma is64_max x a : is64 x a -> (Rabs a < bpow radix2 1024)%R.
Proof. intros (b & _ & _ & <-). apply abs_B2R_lt_emax. Qed.
(** rounding and a representable bound *)
Lemma rnd_lt_inv a t : generic_format radix2 fx t -> (r64 a < t)%R -> (a < t)%R.
Proof. intros G H. destruct (Rlt_or_le a t) as [L|L]; [exact L|]. exfalso. apply r64_le in L. rewrite (r64_fmt t G) in L. lra. Qed.
Lemma rnd_le_r a t : generic_format radix2 fx t -> (a <= t)%R -> (r64 a <= t)%R.
Proof. intros G H. apply r64_le in H. now rewrite (r64_fmt t G) in H. Qed.
Lemma rnd_ge_r a t : generic_format radix2 fx t -> (t <= a)%R -> (t <= r64 a)%R.
Proof. intros G H. apply r64_le in H. now rewrite (r64_fmt t G) in H. Qed.
(** the difference of two finite doubles, if not too large for a double *)
Lemma sub_case x y a b : is64 x a -> is64 y b -> is64 (sub64 x y) (r64 (a - b)) \/ (bpow radix2 1024 <= Rabs (r64 (a - b)))%R /\ sub64 x y = S754_infinity (Rlt_bool (a - b) 0).
Proof.
  intros X Y. destruct (Rlt_or_le (Rabs (r64 (a - b))) (bpow radix2 1024)) as [L|L]; [left; now apply (sub_r 53 1024 p53 e1024)|right]. split; [exact L|].
  destruct X as (bx & <- & Fx & <-). destruct Y as (by_ & <- & Fy & <-). unfold sub64. rewrite (sub_equiv 53 1024 p53 e1024). pose proof (@Bminus_correct 53 1024 p53 e1024 mode_NE bx by_ Fx Fy) as H. cbn [round_mode] in H. rewrite Rlt_bool_false in H by exact L. destruct H as [E S]. rewrite E. cbn.
  destruct (Rlt_or_le (B2R bx - B2R by_) 0) as [N|N].
  - rewrite Rlt_bool_true by exact N. destruct (Bsign bx) eqn:Sb; [reflexivity|]. assert (0 <= B2R bx)%R. { destruct bx as [s|s| |s m e B]; try discriminate; cbn [Bsign B2R] in *; try lra. subst s. apply F2R_ge_0. cbn. lia. }
    assert (B2R by_ <= 0)%R. { destruct (Bsign by_) eqn:S2; [|discriminate S]. destruct by_ as [s|s| |s m e B]; try discriminate; cbn [Bsign B2R] in *; try lra. subst s. apply F2R_le_0. cbn. lia. } lra.
  - rewrite Rlt_bool_false by exact N. destruct (Bsign bx) eqn:Sb; [|reflexivity]. assert (B2R bx <= 0)%R. { destruct bx as [s|s| |s m e B]; try discriminate; cbn [Bsign B2R] in *; try lra. subst s. apply F2R_le_0. cbn. lia. }
    assert (0 <= B2R by_)%R. { destruct (Bsign by_) eqn:S2; [discriminate S|]. destruct by_ as [s|s| |s m e B]; try discriminate; cbn [Bsign B2R] in *; try lra. subst s. apply F2R_ge_0. cbn. lia. }
    exfalso. assert (Z : (B2R bx - B2R by_ = 0)%R) by lra. rewrite Z, round_0, Rabs_R0 in L by apply valid_rnd_N. pose proof (bpow_gt_0 radix2 1024). lra.
Qed.
Lemma equal_near x y a b : is64 x a -> is64 y b -> isEqual x y = true -> (Rabs (a - b) < tol)%R.
Proof.
  intros X Y H. unfold isEqual, fneg in H. apply andb_true_iff in H. destruct H as [H1 H2]. destruct (sub_case _ _ _ _ Y X) as [S|[_ S]].
  - rewrite (ltb64 _ _ _ _ S RESABS_r) in H1. rewrite (ltb64 _ _ _ _ (opp_r _ _ RESABS_r) S) in H2. apply Rltb_inv in H1. apply Rltb_inv in H2. apply rnd_lt_inv in H1; [|exact tol_fmt].
    assert (H3 : (- (b - a) < tol)%R). { apply rnd_lt_inv; [exact tol_fmt|]. rewrite r64_opp. lra. } apply Rabs_lt. lra.
  - rewrite S, RESABS_val in H1, H2. destruct (Rlt_bool (b - a) 0); [discriminate H2|discriminate H1].
Qed.
Lemma near_equal x y a b : is64 x a -> is64 y b -> (Rabs (a - b) <= tol - bpow radix2 (-72))%R -> isEqual x y = true.
Proof.
  intros X Y H. assert (G : generic_format radix2 fx (tol - bpow radix2 (-72))).
  { replace (tol - bpow radix2 (-72))%R with (IZR 4722366482869644 * bpow radix2 (-72))%R by (unfold tolq, Q2R; cbn; lra). apply fmt_grid; lia. }
  assert (T : (0 < tol - bpow radix2 (-72) < 1)%R) by (unfold tolq, Q2R; cbn; lra). pose proof (bpow_gt_0 radix2 (-72)). apply Rabs_le_inv in H.
  assert (S : is64 (sub64 y x) (r64 (b - a))). { apply (sub64_r _ _ _ _ 0); [lia|exact Y|exact X|]. cbn. apply Rabs_le. lra. }
  unfold isEqual, fneg. rewrite (ltb64 _ _ _ _ S RESABS_r). rewrite (ltb64 _ _ _ _ (opp_r _ _ RESABS_r) S). rewrite !Rlt_bool_true; [reflexivity| |].
  - apply Rlt_le_trans with (- (tol - bpow radix2 (-72)))%R; [lra|]. apply rnd_ge_r; [now apply generic_format_opp|lra].
  - apply Rle_lt_trans with (tol - bpow radix2 (-72))%R; [|lra]. apply rnd_le_r; [exact G|lra].
Qed.
(** * large values: the tolerance disappears *)
Lemma absorb v d : generic_format radix2 fx v -> (bpow radix2 35 <= Rabs v)%R -> (Rabs d < bpow radix2 (-19))%R -> r64 (v + d) = v.
Proof.
  assert (P : forall v d, generic_format radix2 fx v -> (bpow radix2 35 <= v)%R -> (Rabs d < bpow radix2 (-19))%R -> r64 (v + d) = v).
  { clear v d. intros v d G V D. apply Rabs_lt_inv in D. assert (Vp : (0 < v)%R) by (pose proof (bpow_gt_0 radix2 35); lra).
    assert (U : (bpow radix2 (-17) <= ulp radix2 fx v)%R). { rewrite ulp_neq_0 by lra. apply bpow_le. unfold cexp, SpecFloat.fexp, emin. assert (35 < mag radix2 v) by (apply mag_gt_bpow; rewrite Rabs_pos_eq; lra). lia. }
    assert (E17 : bpow radix2 (-17) = (4 * bpow radix2 (-19))%R) by (cbn; lra). pose proof (bpow_gt_0 radix2 (-19)).
    apply Rle_antisym.
    - apply round_N_le_midp; [apply (fexp_correct 53 1024 p53)|exact G|]. rewrite succ_eq_pos by lra. lra.
    - destruct (Req_dec v (bpow radix2 35)) as [->|Nv].
      + apply round_N_ge_midp; [apply (fexp_correct 53 1024 p53)|exact G|]. rewrite pred_eq_pos by lra. unfold pred_pos. rewrite mag_bpow. replace (35 + 1 - 1) with 35 by lia. rewrite Req_bool_true by reflexivity.
        replace (fx 35) with (-18) by reflexivity. assert (bpow radix2 (-18) = (2 * bpow radix2 (-19))%R) by (cbn; lra). lra.
      + apply round_N_ge_midp; [apply (fexp_correct 53 1024 p53)|exact G|]. assert (Pp : (pred radix2 fx v <= v - bpow radix2 (-18))%R).
        { assert (bpow radix2 (-18) = (2 * bpow radix2 (-19))%R) by (cbn; lra). rewrite pred_eq_pos by lra. unfold pred_pos. destruct (Req_bool_spec v (bpow radix2 (mag radix2 v - 1))).
          - assert (M : 35 < mag radix2 v - 1). { apply (lt_bpow radix2). rewrite <- H1. lra. } assert (bpow radix2 (-18) <= bpow radix2 (fx (mag radix2 v - 1)))%R by (apply bpow_le; unfold SpecFloat.fexp, emin; lia). lra.
          - lra. }
        assert (bpow radix2 (-18) = (2 * bpow radix2 (-19))%R) by (cbn; lra). lra. }
  intros G V D. destruct (Rle_or_lt 0 v) as [L|L].
  - apply P; [exact G| |exact D]. now rewrite Rabs_pos_eq in V.
  - replace (v + d)%R with (- (- v + - d))%R by ring. rewrite r64_opp, P; [ring|now apply generic_format_opp| |now rewrite Rabs_Ropp]. now rewrite Rabs_left in V.
Qed.
(** * floor and ceil *)
Lemma floor_r x a : is64 x a -> ffloor x = Some (Zfloor a).
Proof.
  intros (b & <- & F & <-). destruct b as [s|s| |s m x B]; try discriminate; cbn [B2SF ffloor B2R].
  - now rewrite Zfloor_IZR.
  - f_equal. unfold F2R. cbn [Fnum Fexp]. replace (if s then Z.neg m else Z.pos m) with (SpecFloat.cond_Zopp s (Z.pos m)) by now destruct s. set (n := SpecFloat.cond_Zopp s (Z.pos m)). destruct (Z.leb_spec 0 x) as [L|L].
    + replace (IZR n * bpow radix2 x)%R with (IZR (n * 2 ^ x)) by (rewrite mult_IZR, <- (IZR_Zpower radix2) by exact L; reflexivity). now rewrite Zfloor_IZR.
    + replace (IZR n * bpow radix2 x)%R with (IZR n / IZR (2 ^ (- x)))%R.
      2:{ unfold Rdiv. f_equal. replace x with (- - x) at 2 by lia. rewrite bpow_opp. f_equal. rewrite <- (IZR_Zpower radix2) by lia. reflexivity. }
      rewrite Zfloor_div by (assert (0 < 2 ^ (- x)) by (apply Z.pow_pos_nonneg; lia); lia). reflexivity.
Qed.
Lemma ceil_r x a : is64 x a -> fceil x = Some (- Zfloor (- a)).
Proof. intros X. unfold fceil, fneg. now rewrite (floor_r _ _ (opp_r _ _ X)). Qed.
(** a double of at least 2^j is a multiple of 2^(j-52) *)
Lemma multiple a j : generic_format radix2 fx a -> (bpow radix2 j <= Rabs a)%R -> exists m, a = (IZR m * bpow radix2 (j - 52))%R.
Proof.
  intros G H. rewrite G. unfold F2R. cbn [Fnum Fexp]. set (m := Ztrunc _). assert (C : j - 52 <= cexp radix2 fx a). { unfold cexp, SpecFloat.fexp, emin. assert (j < mag radix2 a) by (apply mag_gt_bpow; exact H). lia. }
  exists (m * 2 ^ (cexp radix2 fx a - (j - 52))). rewrite mult_IZR. change 2 with (radix2 : Z). rewrite (IZR_Zpower radix2) by lia. rewrite Rmult_assoc, <- bpow_plus. do 2 f_equal. lia.
Qed.
(** * round *)
Lemma half_r : is64 (lit 1 2) (/ 2).
Proof. replace (/ 2)%R with (Q2R (1 # 2)) by (unfold Q2R; cbn; lra). apply dbl_r. split; [vm_compute; reflexivity|]. replace (lit 1 2) with (S754_finite false 4503599627370496 (-53)) by (vm_compute; reflexivity). vm_compute. reflexivity. Qed.
Lemma zero_r : is64 (int64f 0) 0.
Proof. apply (int64_r 0). cbn. lia. Qed.
Lemma half_up a : generic_format radix2 fx a -> (0 <= a < bpow radix2 52)%R -> a <> (/ 2 - bpow radix2 (-54))%R -> Zfloor (r64 (a + / 2)) = Zfloor (a + / 2).
Proof.
  intros G [A0 A1] NP. set (n := Zfloor (a + / 2)). pose proof (Zfloor_lb (a + / 2)) as L. pose proof (Zfloor_ub (a + / 2)) as U. fold n in L, U.
  assert (N0 : 0 <= n) by (apply Zfloor_lub; lra). change (bpow radix2 52) with (IZR (2 ^ 52)) in A1. assert (N1 : n <= 2 ^ 52) by (apply Z.lt_succ_r, lt_IZR; rewrite succ_IZR; lra).
  assert (LB : (IZR n <= r64 (a + / 2))%R). { apply rnd_ge_r; [apply (int_fmt 53 1024 p53 e1024); lia|exact L]. }
  assert (K : forall t, generic_format radix2 fx t -> (a + / 2 <= t)%R -> (t < IZR n + 1)%R -> Zfloor (r64 (a + / 2)) = n). { intros t Gt H1 H2. apply Zfloor_imp. rewrite plus_IZR. split; [exact LB|]. eapply Rle_lt_trans; [apply rnd_le_r; eassumption|exact H2]. }
  destruct (Rle_or_lt (IZR (2 ^ 51)) a) as [B|B].
  { destruct (multiple a 51 G) as [m E]. { rewrite Rabs_pos_eq by exact A0. exact B. } replace (51 - 52) with (-1) in E by lia. change (bpow radix2 (-1)) with (/ 2)%R in E. apply (K (a + / 2)%R); [|lra|exact U].
    replace (a + / 2)%R with (IZR (m + 1) * bpow radix2 (-1))%R by (rewrite plus_IZR, E; change (bpow radix2 (-1)) with (/ 2)%R; ring). apply fmt_grid; [lia|]. assert (0 <= m < 2 ^ 53). { split; [apply le_IZR|apply lt_IZR]; [lra|]. change (IZR (2 ^ 53)) with (2 * IZR (2 ^ 52))%R || replace (2 ^ 53) with (2 * 2 ^ 52) by lia. rewrite ?mult_IZR. lra. } lia. }
  destruct (Z.eq_dec n 0) as [Z0|Z0].
  - rewrite Z0 in *. destruct (Rle_or_lt (bpow radix2 (-2)) a) as [Q|Q].
    + destruct (multiple a (-2) G) as [m E]; [now rewrite Rabs_pos_eq|]. replace (-2 - 52) with (-54) in E by lia. set (u := bpow radix2 (-54)) in *. assert (Uu : (u = / IZR (2 ^ 54))%R) by reflexivity. pose proof (bpow_gt_0 radix2 (-54)) as Up. fold u in Up.
      assert (U1 : (IZR (2 ^ 53) * u = / 2)%R). { unfold u. change (IZR (2 ^ 53)) with (bpow radix2 53). rewrite <- bpow_plus. reflexivity. }
      assert (m < 2 ^ 53). { apply lt_IZR. apply Rmult_lt_reg_r with u; [exact Up|]. rewrite U1, <- E. lra. }
      assert (m <> 2 ^ 53 - 1). { intros ->. apply NP. rewrite E, minus_IZR, <- U1. ring. }
      apply (K (IZR (2 ^ 53 - 1) * bpow radix2 (-53))%R); [apply fmt_grid; lia| |].
      * assert (IZR m <= IZR (2 ^ 53 - 2))%R by (apply IZR_le; lia). replace (bpow radix2 (-53)) with (2 * u)%R by (unfold u; change (-53) with (1 + -54); rewrite bpow_plus; reflexivity). rewrite minus_IZR in *. rewrite E. assert ((IZR m * u <= (IZR (2 ^ 53) - 2) * u)%R) by (apply Rmult_le_compat_r; lra). lra.
      * replace (IZR 0 + 1)%R with (IZR (2 ^ 53) * bpow radix2 (-53))%R. { apply Rmult_lt_compat_r; [apply bpow_gt_0|]. apply IZR_lt. lia. } change (IZR (2 ^ 53)) with (bpow radix2 53). rewrite <- bpow_plus. cbn. lra.
    + apply (K (IZR 3 * bpow radix2 (-2))%R); [apply fmt_grid; lia| |]; cbn in *; lra.
  - pose proof (Z.log2_spec n ltac:(lia)) as [K1 K2]. set (k := Z.log2 n) in *. assert (K0 : 0 <= k) by apply Z.log2_nonneg. assert (K3 : k <= 51). { apply Z.log2_le_mono in N1. change (Z.log2 (2 ^ 52)) with 52 in N1. destruct (Z.eq_dec k 52) as [E|]; [|unfold k in *; lia]. rewrite E in K1. assert (IZR (2 ^ 52) <= IZR n)%R by (apply IZR_le; lia). replace (2 ^ 52) with (2 * 2 ^ 51) in H by lia. rewrite mult_IZR in H. assert (1 < IZR (2 ^ 51))%R by (apply IZR_lt; lia). lra. }
    assert (KB : IZR (2 ^ k) = bpow radix2 k) by (rewrite <- (IZR_Zpower radix2) by exact K0; reflexivity). destruct (Rle_or_lt (bpow radix2 k) a) as [Q|Q].
    + destruct (multiple a k G) as [m E]; [now rewrite Rabs_pos_eq|]. set (u := bpow radix2 (k - 52)) in *. pose proof (bpow_gt_0 radix2 (k - 52)) as Up. fold u in Up.
      assert (U1 : forall z j, 0 <= j -> j + (k - 52) = z -> (IZR (2 ^ j) * u = bpow radix2 z)%R). { intros z j J <-. unfold u. rewrite bpow_plus. f_equal. rewrite <- (IZR_Zpower radix2) by exact J. reflexivity. }
      set (h := 2 ^ (51 - k)). assert (H2 : (IZR h * u = / 2)%R) by (unfold h; rewrite (U1 (-1)); [reflexivity|lia|lia]). set (w := 2 ^ (52 - k)). assert (W : (IZR w * u = 1)%R) by (unfold w; rewrite (U1 0); [reflexivity|lia|lia]).
      assert (M : m + h < (n + 1) * w). { apply lt_IZR. apply Rmult_lt_reg_r with u; [exact Up|]. rewrite mult_IZR, Rmult_assoc, W, !plus_IZR, Rmult_plus_distr_r, H2, <- E. lra. }
      assert (M2 : (n + 1) * w <= 2 ^ 53). { assert (2 ^ 53 = 2 ^ Z.succ k * w) as ->. { unfold w. rewrite <- Z.pow_add_r by lia. f_equal. lia. } apply Z.mul_le_mono_nonneg_r; [unfold w; apply Z.pow_nonneg; lia|lia]. }
      assert (Hh : 0 <= h) by (unfold h; apply Z.pow_nonneg; lia). assert (M0 : 0 <= m). { apply le_IZR. apply Rmult_le_reg_r with u; [exact Up|]. rewrite <- E. lra. }
      apply (K (IZR (m + h) * u)%R); [apply fmt_grid; lia|rewrite plus_IZR, Rmult_plus_distr_r, H2, <- E; lra|]. apply Rlt_le_trans with (IZR ((n + 1) * w) * u)%R; [apply Rmult_lt_compat_r; [exact Up|now apply IZR_lt]|]. rewrite mult_IZR, Rmult_assoc, W, plus_IZR. lra.
    + apply (K (IZR (2 ^ k) + / 2)%R); [|lra|assert (IZR (2 ^ k) <= IZR n)%R by (apply IZR_le; lia); lra]. replace (IZR (2 ^ k) + / 2)%R with (IZR (2 * 2 ^ k + 1) * bpow radix2 (-1))%R by (rewrite plus_IZR, mult_IZR; change (bpow radix2 (-1)) with (/ 2)%R; lra). apply fmt_grid; [lia|]. assert (2 ^ k <= 2 ^ 51) by (apply Z.pow_le_mono_r; lia). lia.
Qed.
Lemma round_pos x a : is64 x a -> (0 < a)%R -> (a <= bpow radix2 1000)%R -> jm_round x = chk64 (Zfloor (r64 (a + / 2))).
Proof.
  intros X A B. unfold jm_round. rewrite (ltb64 _ _ _ _ zero_r X), Rlt_bool_true by exact A. rewrite (floor_r _ _ (add64_r _ _ _ _ 1001 ltac:(lia) X half_r ltac:(rewrite Rabs_pos_eq by lra; change 1001 with (1000 + 1); rewrite bpow_plus; change (bpow radix2 1) with 2%R; assert (1 <= bpow radix2 1000)%R by (apply (bpow_le radix2 0 1000); lia); lra))). reflexivity.
Qed.
Lemma round_neg x a : is64 x a -> (a <= 0)%R -> (- bpow radix2 1000 <= a)%R -> jm_round x = chk64 (- Zfloor (r64 (- a + / 2))).
Proof.
  intros X A B. unfold jm_round. rewrite (ltb64 _ _ _ _ zero_r X), Rlt_bool_false by exact A.
  assert (S : is64 (sub64 x (lit 1 2)) (r64 (a - / 2))). { apply (sub64_r _ _ _ _ 1001 ltac:(lia) X half_r). rewrite Rabs_left1 by lra. change 1001 with (1000 + 1); rewrite bpow_plus; change (bpow radix2 1) with 2%R; assert (1 <= bpow radix2 1000)%R by (apply (bpow_le radix2 0 1000); lia); lra. }
  rewrite (ceil_r _ _ S). rewrite <- r64_opp. replace (- (a - / 2))%R with (- a + / 2)%R by ring. reflexivity.
Qed.
Lemma half_big a : generic_format radix2 fx a -> (bpow radix2 53 <= a)%R -> r64 (a + / 2) = a.
Proof.
  intros G A. pose proof (bpow_gt_0 radix2 53). apply Rle_antisym; [|apply rnd_ge_r; [exact G|lra]]. apply round_N_le_midp; [apply (fexp_correct 53 1024 p53)|exact G|]. rewrite succ_eq_pos by lra.
  assert (2 <= ulp radix2 fx a)%R; [|lra]. rewrite ulp_neq_0 by lra. change 2%R with (bpow radix2 1). apply bpow_le. unfold cexp, SpecFloat.fexp, emin. assert (53 < mag radix2 a) by (apply mag_gt_bpow; rewrite Rabs_pos_eq; lra). lia.
Qed.
Lemma half_odd n : 2 ^ 52 <= n < 2 ^ 53 -> r64 (IZR n + / 2) = IZR (if Z.even n then n else n + 1).
Proof.
  intros H. assert (M : mag radix2 (IZR n + / 2) = 53 :> Z). { apply mag_unique. assert (IZR (2 ^ 52) <= IZR n)%R by (apply IZR_le; lia). assert (IZR n + 1 <= IZR (2 ^ 53))%R by (rewrite <- plus_IZR; apply IZR_le; lia). rewrite Rabs_pos_eq by (pose proof (IZR_le 0 n ltac:(lia)); lra). change (bpow radix2 (53 - 1)) with (IZR (2 ^ 52)). change (bpow radix2 53) with (IZR (2 ^ 53)). lra. }
  unfold round. assert (C : cexp radix2 fx (IZR n + / 2) = 0) by (unfold cexp; rewrite M; reflexivity). unfold scaled_mantissa. rewrite C. cbn [bpow Z.opp]. rewrite Rmult_1_r. unfold F2R. cbn [Fnum Fexp bpow]. rewrite Rmult_1_r. f_equal.
  unfold Znearest. assert (F : Zfloor (IZR n + / 2) = n) by (apply Zfloor_imp; rewrite plus_IZR; lra). rewrite F. replace (IZR n + / 2 - IZR n)%R with (/ 2)%R by ring. rewrite Rcompare_Eq by reflexivity. rewrite Zceil_floor_neq by (rewrite F; intros E; lra). rewrite F. now destruct (Z.even n).
Qed.
(** nearest integer *)
Lemma floor_half a : (IZR (Zfloor (a + / 2)) - / 2 <= a < IZR (Zfloor (a + / 2)) + / 2)%R.
Proof. pose proof (Zfloor_lb (a + / 2)). pose proof (Zfloor_ub (a + / 2)). lra. Qed.
Lemma chk64_small z : Z.abs z <= 2 ^ 53 -> chk64 z = Val z.
Proof. intros H. unfold chk64, in_s64. rewrite !(proj2 (Z.leb_le _ _)) by lia. reflexivity. Qed.
Lemma floor_small a : (0 <= a <= bpow radix2 52)%R -> 0 <= Zfloor (a + / 2) <= 2 ^ 52.
Proof. intros H. change (bpow radix2 52) with (IZR (2 ^ 52)) in H. split; [apply Zfloor_lub; lra|]. apply Z.lt_succ_r, lt_IZR. rewrite succ_IZR. pose proof (floor_half a). lra. Qed.
Lemma round_near x a : is64 x a -> (Rabs a < bpow radix2 52)%R -> Rabs a <> (/ 2 - bpow radix2 (-54))%R ->
  exists z, jm_round x = Val z /\ (Rabs (IZR z - a) <= / 2)%R /\ ((Rabs (IZR z - a) = / 2)%R -> (Rabs a < Rabs (IZR z))%R) /\ Z.abs z <= 2 ^ 52.
Proof.
  intros X A N. assert (L : (bpow radix2 52 <= bpow radix2 1000)%R) by (apply bpow_le; lia). pose proof (fmt64 _ _ X) as G. destruct (Rlt_or_le 0 a) as [P|P].
  - rewrite Rabs_pos_eq in A, N by lra. rewrite (round_pos _ _ X P ltac:(lra)), (half_up a G) by (assumption || lra). pose proof (floor_half a) as F. pose proof (floor_small a ltac:(lra)) as S. rewrite chk64_small by lia. exists (Zfloor (a + / 2)). split; [reflexivity|]. assert (0 <= IZR (Zfloor (a + / 2)))%R by (apply IZR_le; lia).
    split; [apply Rabs_le; lra|]. split; [|lia]. intros E. rewrite !Rabs_pos_eq by lra. unfold Rabs in E. destruct (Rcase_abs _) in E; lra.
  - rewrite Rabs_left1 in A, N by lra. rewrite (round_neg _ _ X P ltac:(lra)), (half_up (- a)) by (now apply generic_format_opp || assumption || lra). pose proof (floor_half (- a)) as F. pose proof (floor_small (- a) ltac:(lra)) as S. set (n := Zfloor (- a + / 2)) in *. rewrite chk64_small by lia. exists (- n). split; [reflexivity|]. rewrite opp_IZR. assert (0 <= IZR n)%R by (apply IZR_le; lia).
    split; [apply Rabs_le; lra|]. split; [|lia]. intros E. rewrite !Rabs_left1 by lra. unfold Rabs in E. destruct (Rcase_abs _) in E; lra.
Qed.
(** without exception, but with a little more distance *)
Lemma round_near2 x a : is64 x a -> (Rabs a < bpow radix2 52)%R -> exists z, jm_round x = Val z /\ (Rabs (IZR z - a) <= / 2 + bpow radix2 (-54))%R /\ Z.abs z <= 2 ^ 52.
Proof.
  intros X A. pose proof (bpow_gt_0 radix2 (-54)) as B. destruct (Req_dec (Rabs a) (/ 2 - bpow radix2 (-54))) as [E|N].
  - assert (F : Zfloor (r64 (/ 2 - bpow radix2 (-54) + / 2)) = 1).
    { replace (/ 2 - bpow radix2 (-54) + / 2)%R with (1 - bpow radix2 (-54))%R by lra. replace (r64 (1 - bpow radix2 (-54))) with 1%R; [apply (Zfloor_IZR 1)|]. symmetry. unfold round.
      assert (M : mag radix2 (1 - bpow radix2 (-54)) = 0 :> Z). { apply mag_unique. rewrite Rabs_pos_eq; cbn; lra. } unfold scaled_mantissa, cexp. rewrite M. change (fx 0) with (-53). cbn [Z.opp]. unfold F2R. cbn [Fnum Fexp].
      assert (Y : ((1 - bpow radix2 (-54)) * bpow radix2 53)%R = (IZR (2 ^ 53 - 1) + / 2)%R). { rewrite Rmult_minus_distr_r, <- bpow_plus, minus_IZR. change (bpow radix2 (-54 + 53)) with (/ 2)%R. change (bpow radix2 53) with (IZR (2 ^ 53)). lra. } rewrite Y.
      unfold Znearest. assert (Fl : Zfloor (IZR (2 ^ 53 - 1) + / 2) = 2 ^ 53 - 1) by (apply Zfloor_imp; rewrite plus_IZR; lra). rewrite Zceil_floor_neq by (rewrite Fl; intros Q; lra). rewrite Fl. replace (IZR (2 ^ 53 - 1) + / 2 - IZR (2 ^ 53 - 1))%R with (/ 2)%R by ring. rewrite Rcompare_Eq by reflexivity. change (negb (Z.even (2 ^ 53 - 1))) with true. cbn [negb]. change (2 ^ 53 - 1 + 1) with (2 ^ 53). change (IZR (2 ^ 53)) with (bpow radix2 53). rewrite <- bpow_plus. reflexivity. }
    assert (L : (bpow radix2 52 <= bpow radix2 1000)%R) by (apply bpow_le; lia). destruct (Rlt_or_le 0 a) as [P|P].
    + rewrite Rabs_pos_eq in E, A by lra. rewrite (round_pos _ _ X P ltac:(lra)), E, F. exists 1. split; [reflexivity|]. split; [|lia]. apply Rabs_le. lra.
    + rewrite Rabs_left1 in E, A by lra. rewrite (round_neg _ _ X P ltac:(lra)), E, F. exists (-1). split; [reflexivity|]. split; [|lia]. apply Rabs_le. lra.
  - destruct (round_near x a X A N) as (z & Z1 & Z2 & _ & Z3). exists z. split; [exact Z1|]. split; [lra|exact Z3].
Qed.
Lemma rel_err x : exists d t, (Rabs d <= bpow radix2 (-53))%R /\ (Rabs t <= bpow radix2 (-1075))%R /\ r64 x = (x * (1 + d) + t)%R.
Proof.
  destruct (error_N_FLT radix2 (-1074) 53 ltac:(lia) (fun z => negb (Z.even z)) x) as (d & t & D & T & _ & E). exists d, t. split; [|split; [|exact E]].
  - replace (bpow radix2 (-53)) with (/ 2 * bpow radix2 (-53 + 1))%R; [exact D|]. rewrite bpow_plus. change (bpow radix2 1) with 2%R. field.
  - replace (bpow radix2 (-1075)) with (/ 2 * bpow radix2 (-1074))%R; [exact T|]. change (-1074) with (-1075 + 1). rewrite bpow_plus. change (bpow radix2 1) with 2%R. field.
Qed.
(** * roundFrac *)
Lemma frac_core x f a (n : Z) : is64 x a -> is64 f (IZR n) -> 1 <= n <= 2 ^ 80 -> (Rabs (a * IZR n) <= bpow radix2 50)%R ->
  exists y q, roundFrac x f = Val y /\ is64 y q /\ (Rabs (q - a) * IZR n <= / 2 + bpow radix2 (-40) + Rabs (a * IZR n) * bpow radix2 (-51))%R /\ roundFrac y f = Val y.
Proof.
  intros X F N A. set (u := IZR n) in *. assert (U1 : (1 <= u)%R) by (apply (IZR_le 1); lia). assert (U2 : (u <= bpow radix2 80)%R) by (change (bpow radix2 80) with (IZR (2 ^ 80)); apply IZR_le; lia).
  pose proof (mul64_r _ _ _ _ 50 ltac:(lia) X F A) as P. destruct (rel_err (a * u)) as (d1 & t1 & D1 & T1 & E1). assert (PA : (Rabs (r64 (a * u)) <= bpow radix2 50)%R) by (apply r64_abs; [lia|exact A]).
  destruct (round_near2 _ _ P) as (z & Z1 & Z2 & Z3); [apply Rle_lt_trans with (1 := PA); apply bpow_lt; lia|].
  assert (B53 : (0 < bpow radix2 (-53) < / 1000000)%R) by (split; [apply bpow_gt_0|cbn; lra]). assert (B54 : (0 < bpow radix2 (-54) < bpow radix2 (-53))%R) by (split; [apply bpow_gt_0|apply bpow_lt; lia]). assert (B1075 : (0 < bpow radix2 (-1075) <= bpow radix2 (-140))%R) by (split; [apply bpow_gt_0|apply bpow_le; lia]).
  assert (B50 : (bpow radix2 50 * bpow radix2 (-53) = / 8)%R) by (rewrite <- bpow_plus; cbn; lra). assert (B140 : (0 < bpow radix2 (-140) < bpow radix2 (-53))%R) by (split; [apply bpow_gt_0|apply bpow_lt; lia]).
  assert (ZA : (Rabs (IZR z) <= bpow radix2 50 + 1)%R). { apply Rabs_le_inv in Z2. apply Rabs_le_inv in PA. apply Rabs_le. lra. }
  assert (Zi : is64 (int64f z) (IZR z)) by (apply int64_r; lia). assert (B51 : (bpow radix2 50 + 1 <= bpow radix2 51)%R) by (cbn; lra).
  assert (Zu : (Rabs (IZR z / u) <= bpow radix2 51)%R). { unfold Rdiv. rewrite Rabs_mult, Rabs_inv, (Rabs_pos_eq u) by lra. apply Rmult_le_reg_r with u; [lra|]. rewrite Rmult_assoc, Rinv_l, Rmult_1_r by lra. apply Rle_trans with (bpow radix2 51 * 1)%R; [lra|]. apply Rmult_le_compat_l; [apply bpow_ge_0|exact U1]. }
  pose proof (div64_r _ _ _ _ 51 ltac:(lia) Zi F ltac:(fold u; lra) Zu) as Y. set (q := r64 (IZR z / u)) in *. exists (div64 (int64f z) f), q.
  assert (R1 : roundFrac x f = Val (div64 (int64f z) f)) by (unfold roundFrac; rewrite Z1; reflexivity). split; [exact R1|]. split; [exact Y|].
  destruct (rel_err (IZR z / u)) as (d2 & t2 & D2 & T2 & E2). fold q in E2.
  assert (QU : (q * u = IZR z * (1 + d2) + t2 * u)%R) by (rewrite E2; field; lra).
  assert (TU : (Rabs (t2 * u) <= bpow radix2 (-60))%R). { rewrite Rabs_mult, (Rabs_pos_eq u) by lra. replace (bpow radix2 (-60)) with (bpow radix2 (-140) * bpow radix2 80)%R by (rewrite <- bpow_plus; reflexivity). apply Rmult_le_compat; [apply Rabs_pos|lra|lra|exact U2]. }
  assert (ZD : (Rabs (IZR z * d2) <= (Rabs (a * u) * (1 + bpow radix2 (-53)) + bpow radix2 (-140) + / 2 + bpow radix2 (-54)) * bpow radix2 (-53))%R).
  { rewrite Rabs_mult. apply Rmult_le_compat; try apply Rabs_pos; [|exact D2]. replace (IZR z) with ((IZR z - r64 (a * u)) + (a * u + (a * u) * d1 + t1))%R by (rewrite E1; ring). eapply Rle_trans; [apply Rabs_triang|]. assert (Rabs (a * u + a * u * d1 + t1) <= Rabs (a * u) * (1 + bpow radix2 (-53)) + bpow radix2 (-140))%R; [|lra].
    eapply Rle_trans; [apply Rabs_triang|]. apply Rplus_le_compat; [|lra]. eapply Rle_trans; [apply Rabs_triang|]. rewrite Rabs_mult with (y := d1). rewrite Rmult_plus_distr_l, Rmult_1_r. apply Rplus_le_compat_l. apply Rmult_le_compat_l; [apply Rabs_pos|exact D1]. }
  set (v := Rabs (a * u)) in *. assert (V0 : (0 <= v)%R) by apply Rabs_pos. set (e53 := bpow radix2 (-53)) in *.
  assert (VE : (v * e53 <= / 8)%R). { apply Rle_trans with (bpow radix2 50 * e53)%R; [apply Rmult_le_compat_r; lra|lra]. }
  assert (B60 : (bpow radix2 (-60) < e53)%R) by (apply bpow_lt; lia). assert (B40 : (8 * e53 < bpow radix2 (-40))%R) by (replace (8 * e53)%R with (bpow radix2 (-50)) by (unfold e53; change (-50) with (3 + -53); rewrite bpow_plus; cbn; lra); apply bpow_lt; lia).
  assert (B51m : (bpow radix2 (-51) = 4 * e53)%R) by (unfold e53; change (-51) with (2 + -53); rewrite bpow_plus; cbn; lra).
  assert (ZD2 : (Rabs (IZR z * d2) <= v * e53 + / 8 * e53 + e53)%R). { eapply Rle_trans; [exact ZD|]. assert (v * (1 + e53) * e53 = v * e53 + v * e53 * e53)%R by ring. assert (v * e53 * e53 <= / 8 * e53)%R by (apply Rmult_le_compat_r; lra). assert (forall t, (t <= 1)%R -> (t * e53 <= e53)%R) as Q by (intros t Ht; apply Rle_trans with (1 * e53)%R; [apply Rmult_le_compat_r; lra|lra]). specialize (Q (bpow radix2 (-140) + / 2 + bpow radix2 (-54))%R ltac:(lra)). lra. }
  split.
  - replace (Rabs (q - a) * u)%R with (Rabs (q * u - a * u)) by (rewrite <- Rmult_minus_distr_r, Rabs_mult, (Rabs_pos_eq u) by lra; reflexivity). rewrite QU.
    replace (IZR z * (1 + d2) + t2 * u - a * u)%R with ((IZR z - r64 (a * u)) + (a * u * d1 + t1) + IZR z * d2 + t2 * u)%R by (rewrite E1; ring).
    assert (M : (Rabs (a * u * d1 + t1) <= v * e53 + bpow radix2 (-140))%R). { eapply Rle_trans; [apply Rabs_triang|]. apply Rplus_le_compat; [|lra]. rewrite Rabs_mult. apply Rmult_le_compat_l; [apply Rabs_pos|exact D1]. }
    rewrite B51m. apply Rabs_le_inv in M. apply Rabs_le_inv in Z2. apply Rabs_le_inv in ZD2. apply Rabs_le_inv in TU. apply Rabs_le. assert (0 <= v * e53)%R by (apply Rmult_le_pos; lra). lra.
  - assert (W : (Rabs (q * u - IZR z) <= / 4)%R). { rewrite QU. replace (IZR z * (1 + d2) + t2 * u - IZR z)%R with (IZR z * d2 + t2 * u)%R by ring. apply Rabs_le_inv in ZD2. apply Rabs_le_inv in TU. apply Rabs_le. lra. }
    assert (W2 : (Rabs (q * u) <= bpow radix2 51)%R). { apply Rabs_le_inv in W. apply Rabs_le_inv in ZA. apply Rabs_le. assert (bpow radix2 50 + 2 <= bpow radix2 51)%R by (cbn; lra). lra. }
    pose proof (mul64_r _ _ _ _ 51 ltac:(lia) Y F W2) as P2. assert (PE : (Rabs (r64 (q * u) - q * u) <= / 8)%R) by (apply (r64_err (q * u) 51) in W2; [cbn in W2|lia]; apply Rle_trans with (1 := W2); lra).
    assert (PA2 : (Rabs (r64 (q * u)) <= bpow radix2 51)%R) by (apply r64_abs; [lia|exact W2]). destruct (round_near2 _ _ P2) as (z2 & Y1 & Y2 & Y3); [apply Rle_lt_trans with (1 := PA2); apply bpow_lt; lia|].
    assert (z2 = z). { apply Rabs_le_inv in W. apply Rabs_le_inv in PE. apply Rabs_le_inv in Y2. assert (IZR (z2 - z) < 1)%R by (rewrite minus_IZR; lra). assert (-1 < IZR (z2 - z))%R by (rewrite minus_IZR; lra). apply lt_IZR in H. apply (lt_IZR (-1)) in H0. lia. } subst z2.
    unfold roundFrac. rewrite Y1. reflexivity.
Qed.
(** * interpolate *)
Lemma two_abs a b k : (Rabs a <= bpow radix2 k)%R -> (Rabs b <= bpow radix2 k)%R -> (Rabs (a - b) <= bpow radix2 (k + 1))%R /\ (Rabs (a + b) <= bpow radix2 (k + 1))%R.
Proof. intros A B. rewrite bpow_plus. change (bpow radix2 1) with 2%R. apply Rabs_le_inv in A. apply Rabs_le_inv in B. split; apply Rabs_le; lra. Qed.
Lemma interp_r x y p a b c k : -900 <= k <= 1000 -> is64 x a -> is64 y b -> is64 p c -> (Rabs a <= bpow radix2 k)%R -> (Rabs b <= bpow radix2 k)%R -> (0 <= c <= 1)%R ->
  is64 (interpolate x y p) (r64 (a + r64 (c * r64 (b - a)))).
Proof.
  intros K X Y P A B C. destruct (two_abs b a k B A) as [D _]. pose proof (sub64_r _ _ _ _ (k + 1) ltac:(lia) Y X D) as S. pose proof (r64_abs _ (k + 1) ltac:(lia) D) as S1.
  assert (M : (Rabs (c * r64 (b - a)) <= bpow radix2 (k + 1))%R). { rewrite Rabs_mult, (Rabs_pos_eq c) by lra. pose proof (Rabs_pos (r64 (b - a))). apply Rle_trans with (1 * Rabs (r64 (b - a)))%R; [apply Rmult_le_compat_r; lra|lra]. }
  pose proof (mul64_r _ _ _ _ (k + 1) ltac:(lia) P S M) as Q. pose proof (r64_abs _ (k + 1) ltac:(lia) M) as Q1.
  apply (add64_r _ _ _ _ (k + 2)); [lia|exact X|exact Q|]. apply Rle_trans with (bpow radix2 (k + 1 + 1)); [|apply bpow_le; lia]. apply two_abs; [|exact Q1]. apply Rle_trans with (1 := A). apply bpow_le. lia.
Qed.
Lemma r64_0 : r64 0 = 0%R.
Proof. apply round_0. apply valid_rnd_N. Qed.
Lemma r64_pos a : (0 <= a)%R -> (0 <= r64 a)%R.
Proof. intros H. rewrite <- r64_0. now apply r64_le. Qed.
Lemma interp_mono a b c d : (a <= b)%R -> (c <= d)%R -> (r64 (a + r64 (c * r64 (b - a))) <= r64 (a + r64 (d * r64 (b - a))))%R.
Proof. intros H C. apply r64_le, Rplus_le_compat_l, r64_le, Rmult_le_compat_r; [apply r64_pos; lra|exact C]. Qed.
Lemma interp_end a b k : -900 <= k <= 1000 -> generic_format radix2 fx a -> (Rabs a <= bpow radix2 k)%R -> (Rabs b <= bpow radix2 k)%R ->
  (Rabs (r64 (a + r64 (1 * r64 (b - a))) - b) <= bpow radix2 (k - 52))%R.
Proof.
  intros K G A B. rewrite Rmult_1_l. rewrite (r64_fmt (r64 (b - a))) by (apply generic_format_round; [apply (fexp_correct 53 1024 p53)|apply valid_rnd_N]). destruct (two_abs b a k B A) as [D _]. pose proof (r64_err _ (k + 1) ltac:(lia) D) as E. set (s := r64 (b - a)) in *. replace (k + 1 - 54) with (k - 53) in E by lia.
  assert (S : (Rabs (a + s) <= bpow radix2 (k + 1))%R). { replace (a + s)%R with (b + (s - (b - a)))%R by ring. rewrite bpow_plus. change (bpow radix2 1) with 2%R. assert (bpow radix2 (k - 53) <= bpow radix2 k)%R by (apply bpow_le; lia). eapply Rle_trans; [apply Rabs_triang|]. lra. }
  pose proof (r64_err _ (k + 1) ltac:(lia) S) as E2. replace (k + 1 - 54) with (k - 53) in E2 by lia. replace (r64 (a + s) - b)%R with ((r64 (a + s) - (a + s)) + (s - (b - a)))%R by ring. eapply Rle_trans; [apply Rabs_triang|]. replace (k - 52) with (k - 53 + 1) by lia. rewrite bpow_plus. change (bpow radix2 1) with 2%R. lra.
Qed.
