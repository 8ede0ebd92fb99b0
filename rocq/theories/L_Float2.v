From Coq Require Import Reals Lra ZArith QArith Qabs Qreals.
From Flocq Require Import Core BinarySingleNaN.
From Coq Require Import SpecFloat.
From Verif Require Import Base M_Float M_Color S_Color L_Float.
Local Open Scope Z_scope.
Ltac Zify.zify_post_hook ::= Z.to_euclidean_division_equations.

(** * single precision *)
Global Instance p24 : Prec_gt_0 24 := eq_refl _.
Global Instance e128 : Prec_lt_emax 24 128 := eq_refl _.
Notation fx := (SpecFloat.fexp 24 128).
Notation r32 := (round radix2 (SpecFloat.fexp 24 128) ZnearestE).
Notation is32 := (is_r 24 128).
Lemma r32_le a b : (a <= b)%R -> (r32 a <= r32 b)%R.
Proof. apply (rnd_le 24 128 p24). Qed.
Lemma r32_int z : Z.abs z <= 2 ^ 24 -> r32 (IZR z) = IZR z.
Proof. intros H. apply rnd_fmt. now apply (int_fmt 24 128 p24 e128). Qed.
Lemma r32_range a (m n : Z) : Z.abs m <= 2 ^ 24 -> Z.abs n <= 2 ^ 24 -> (IZR m <= a <= IZR n)%R -> (IZR m <= r32 a <= IZR n)%R.
Proof. intros Hm Hn [H1 H2]. rewrite <- (r32_int m Hm), <- (r32_int n Hn). split; now apply r32_le. Qed.
Lemma r32_err x (k : Z) : -120 <= k -> (Rabs x <= bpow radix2 k)%R -> (Rabs (r32 x - x) <= bpow radix2 (k - 25))%R.
Proof.
  intros Hk H. destruct (Req_dec (Rabs x) (bpow radix2 k)) as [E|N].
  - assert (G : generic_format radix2 fx x). { apply generic_format_abs_inv. rewrite E. apply generic_format_bpow. unfold SpecFloat.fexp, emin. lia. }
    rewrite (rnd_fmt 24 128 x G). rewrite Rminus_diag_eq by reflexivity. rewrite Rabs_R0. apply bpow_ge_0.
  - destruct (Req_dec x 0) as [->|Nx].
    + rewrite round_0 by apply valid_rnd_N. rewrite Rminus_diag_eq by reflexivity. rewrite Rabs_R0. apply bpow_ge_0.
    + eapply Rle_trans; [apply error_le_half_ulp; apply (fexp_correct 24 128 p24)|]. rewrite ulp_neq_0 by exact Nx. change (/ 2)%R with (bpow radix2 (-1)). rewrite <- bpow_plus. apply bpow_le. unfold cexp, SpecFloat.fexp. assert (M : mag radix2 x <= k) by (apply mag_le_bpow; [exact Nx|lra]). unfold emin. lia.
Qed.
Lemma int32_r z : Z.abs z <= 2 ^ 24 -> is32 (int32f z) (IZR z).
Proof. intros H. apply (int_r 24 128 p24 e128). exact H. Qed.
Lemma small_bpow a (n : Z) : Z.abs n <= 2 ^ 24 -> (Rabs a <= IZR n)%R -> (Rabs a < bpow radix2 128)%R.
Proof.
  intros H L. eapply Rle_lt_trans; [exact L|]. apply Rle_lt_trans with (Rabs (IZR n)); [apply Rle_abs|]. apply IZR_bpow; lia.
Qed.
Lemma in_bpow a (m n : Z) : Z.abs m <= 2 ^ 24 -> Z.abs n <= 2 ^ 24 -> (IZR m <= a <= IZR n)%R -> (Rabs (r32 a) < bpow radix2 128)%R.
Proof.
  intros Hm Hn H. apply r32_range in H; [|exact Hm|exact Hn]. apply (small_bpow _ (Z.max (Z.abs m) (Z.abs n))); [lia|]. apply Rabs_le. split.
  - apply Rle_trans with (IZR m); [|lra]. rewrite <- opp_IZR. apply IZR_le. lia.
  - apply Rle_trans with (IZR n); [lra|]. apply IZR_le. lia.
Qed.
Lemma add32_r x y a b (m n : Z) : is32 x a -> is32 y b -> Z.abs m <= 2 ^ 24 -> Z.abs n <= 2 ^ 24 -> (IZR m <= a + b <= IZR n)%R -> is32 (add32 x y) (r32 (a + b)).
Proof. intros X Y Hm Hn H. apply (add_r 24 128 p24 e128); [exact X|exact Y|]. now apply (in_bpow _ m n). Qed.
Lemma sub32_r x y a b (m n : Z) : is32 x a -> is32 y b -> Z.abs m <= 2 ^ 24 -> Z.abs n <= 2 ^ 24 -> (IZR m <= a - b <= IZR n)%R -> is32 (sub32 x y) (r32 (a - b)).
Proof. intros X Y Hm Hn H. apply (sub_r 24 128 p24 e128); [exact X|exact Y|]. now apply (in_bpow _ m n). Qed.
Lemma mul32_r x y a b (m n : Z) : is32 x a -> is32 y b -> Z.abs m <= 2 ^ 24 -> Z.abs n <= 2 ^ 24 -> (IZR m <= a * b <= IZR n)%R -> is32 (mul32 x y) (r32 (a * b)).
Proof. intros X Y Hm Hn H. apply (mul_r 24 128 p24 e128); [exact X|exact Y|]. now apply (in_bpow _ m n). Qed.
Lemma div32_r x y a b (m n : Z) : is32 x a -> is32 y b -> b <> 0%R -> Z.abs m <= 2 ^ 24 -> Z.abs n <= 2 ^ 24 -> (IZR m <= a / b <= IZR n)%R -> is32 (div32 x y) (r32 (a / b)).
Proof. intros X Y N Hm Hn H. apply (div_r 24 128 p24 e128); [exact X|exact Y|exact N|]. now apply (in_bpow _ m n). Qed.
Lemma f2u8_r x a : is32 x a -> (0 <= a < 256)%R -> f2u8 x = Val (Zfloor a).
Proof.
  intros X [H1 H2]. unfold f2u8, f2int. rewrite (trunc_r 24 128 x a X), Ztrunc_floor by exact H1. pose proof (Zfloor_lb a). pose proof (Zfloor_ub a).
  assert (0 <= Zfloor a) by (apply Zfloor_lub; exact H1). assert (Zfloor a < 256) by (apply lt_IZR; lra). destruct (Z.leb_spec 0 (Zfloor a)); [|lia]. destruct (Z.leb_spec (Zfloor a) 255); [reflexivity|lia].
Qed.
Lemma fq_r x a : is32 x a -> exists q, fq x = Some q /\ Q2R q = a.
Proof.
  intros (b & <- & F & <-). destruct b as [s|s| |s m x B]; try discriminate; cbn [B2SF fq B2R].
  - eexists. split; [reflexivity|]. unfold Q2R. cbn. field.
  - eexists. split; [reflexivity|]. unfold F2R. cbn [Fnum Fexp]. assert (N : (if s then Z.neg m else Z.pos m) = SpecFloat.cond_Zopp s (Z.pos m)) by (destruct s; reflexivity). rewrite N. set (n := SpecFloat.cond_Zopp s (Z.pos m)). destruct (Z.leb_spec 0 x) as [L|L].
    + unfold inject_Z, Q2R. cbn [Qnum Qden]. rewrite mult_IZR, <- (IZR_Zpower radix2) by exact L. change (Zpower radix2 x) with (2 ^ x). field.
    + unfold Q2R. cbn [Qnum Qden]. f_equal. rewrite Z2Pos.id by (apply Z.pow_pos_nonneg; lia). replace x with (- - x) at 2 by lia. rewrite bpow_opp. f_equal. rewrite <- (IZR_Zpower radix2) by lia. reflexivity.
Qed.
Lemma near_r x a q eps : is32 x a -> (Rabs (a - Q2R q) <= Q2R eps)%R -> near x q eps.
Proof.
  intros X H. destruct (fq_r x a X) as (v & E & V). exists v. split; [exact E|]. apply Rle_Qle. rewrite <- V in H. clear - H. apply Qabs_case; intros _.
  - rewrite Q2R_minus. apply Rle_trans with (2 := H). apply Rle_abs.
  - rewrite Q2R_opp, Q2R_minus. apply Rle_trans with (2 := H). rewrite <- Rabs_Ropp. apply Rle_abs.
Qed.

(** * signs *)
Definition not_neg (x : spec_float) : Prop := match x with S754_finite true _ _ | S754_infinity true => False | _ => True end.
Lemma round_aux_sign m x l : not_neg (SpecFloat.binary_round_aux 24 128 false m x l).
Proof.
  unfold SpecFloat.binary_round_aux. set (q := shr_fexp _ _ _ _ _). destruct q as [m' e']. set (q := shr_fexp _ _ _ _ _). destruct q as [m2 e2]. destruct (shr_m m2); [exact I| |exact I]. destruct (e2 <=? 128 - 24); exact I.
Qed.
Lemma mul_sign x y : not_neg x -> not_neg y -> not_neg (mul32 x y).
Proof.
  destruct x as [[]|[]| |[]]; destruct y as [[]|[]| |[]]; cbn; try tauto. intros _ _. apply round_aux_sign.
Qed.
Lemma add_sign x y : not_neg x -> not_neg y -> not_neg (add32 x y).
Proof.
  destruct x as [[]|[]| |[] mx ex]; destruct y as [[]|[]| |[] my ey]; try (cbn; tauto). intros _ _. unfold add32, SFadd. cbn [SpecFloat.cond_Zopp]. set (n := (_ + _)%Z). assert (P : 0 < n). { unfold n. assert (0 < Z.pos (fst (shl_align mx ex (Z.min ex ey))) /\ 0 < Z.pos (fst (shl_align my ey (Z.min ex ey)))) by lia. lia. }
  unfold SpecFloat.binary_normalize. destruct n; [exact I| |lia]. unfold SpecFloat.binary_round. set (q := shl_align _ _ _). destruct q. apply round_aux_sign.
Qed.
Lemma int_sign z : 0 <= z -> not_neg (int32f z).
Proof.
  intros H. unfold int32f, SpecFloat.binary_normalize. destruct z; [exact I| |lia]. unfold SpecFloat.binary_round. set (q := shl_align _ _ _). destruct q. apply round_aux_sign.
Qed.
Lemma trunc_sign x z : not_neg x -> ftrunc x = Some z -> 0 <= z.
Proof.
  destruct x as [|[]| |[] m e]; cbn [not_neg ftrunc]; intros H E; try contradiction; try discriminate; apply (f_equal (fun o => match o with Some v => v | None => 0 end)) in E; cbv beta iota in E; subst z; [lia|]. cbv zeta. destruct (Z.leb_spec 0 e); [apply Z.mul_nonneg_nonneg; [lia|apply Z.pow_nonneg; lia]|]. apply Z.div_pos; [lia|apply Z.pow_pos_nonneg; lia].
Qed.
