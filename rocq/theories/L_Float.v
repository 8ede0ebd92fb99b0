(** L_Float.v -- SpecFloat and the real numbers, by Flocq. The real numbers of the standard library bring their axioms with them. *)
From Coq Require Import Reals Lra ZArith.
From Flocq Require Import Core BinarySingleNaN.
From Coq Require Import SpecFloat.
From Verif Require Import Base M_Float.
Ltac Zify.zify_post_hook ::= Z.to_euclidean_division_equations.

Section F.
Variables (p e : Z).
Context (Hp : Prec_gt_0 p) (He : Prec_lt_emax p e).
Notation bf := (binary_float p e).
Notation rnd := (round radix2 (SpecFloat.fexp p e) ZnearestE).
Lemma rne_equiv s m l : SpecFloat.round_nearest_even m l = choice_mode mode_NE s m l.
Proof. destruct l as [|c]; [reflexivity|]. destruct c; try reflexivity. cbn. unfold Round.cond_incr. now destruct (Z.even m). Qed.
Lemma round_aux_equiv s m x l : SpecFloat.binary_round_aux p e s m x l = BinarySingleNaN.binary_round_aux p e mode_NE s m x l.
Proof.
  unfold SpecFloat.binary_round_aux, BinarySingleNaN.binary_round_aux. set (q := shr_fexp _ _ _ _ _). destruct q as [m' e']. cbn [fst snd]. now rewrite (rne_equiv s).
Qed.
Lemma round_equiv s m x : SpecFloat.binary_round p e s m x = BinarySingleNaN.binary_round p e mode_NE s m x.
Proof. unfold SpecFloat.binary_round, BinarySingleNaN.binary_round, shl_align_fexp. set (q := shl_align _ _ _). destruct q. apply round_aux_equiv. Qed.
Lemma normalize_equiv m x z : SpecFloat.binary_normalize p e m x z = B2SF (BinarySingleNaN.binary_normalize p e Hp He mode_NE m x z).
Proof. destruct m as [|m|m]; [reflexivity| |]; cbn; rewrite B2SF_SF2B; apply round_equiv. Qed.
Lemma add_equiv x y : SFadd p e (B2SF x) (B2SF y) = B2SF (@Bplus p e Hp He mode_NE x y).
Proof.
  destruct x as [sx|sx| |sx mx ex Bx]; destruct y as [sy|sy| |sy my ey By]; try reflexivity; try (cbn; now destruct (Bool.eqb _ _)). apply normalize_equiv.
Qed.
Lemma sub_equiv x y : SFsub p e (B2SF x) (B2SF y) = B2SF (@Bminus p e Hp He mode_NE x y).
Proof.
  destruct x as [sx|sx| |sx mx ex Bx]; destruct y as [sy|sy| |sy my ey By]; try reflexivity; try (cbn; now destruct (Bool.eqb _ _)). cbn. unfold Z.sub. rewrite <- cond_Zopp_negb. apply normalize_equiv.
Qed.
Lemma mul_equiv x y : SFmul p e (B2SF x) (B2SF y) = B2SF (@Bmult p e Hp He mode_NE x y).
Proof.
  destruct x as [sx|sx| |sx mx ex Bx]; destruct y as [sy|sy| |sy my ey By]; try reflexivity. cbn. rewrite B2SF_SF2B. apply round_aux_equiv.
Qed.
Lemma div_equiv x y : SFdiv p e (B2SF x) (B2SF y) = B2SF (@Bdiv p e Hp He mode_NE x y).
Proof.
  destruct x as [sx|sx| |sx mx ex Bx]; destruct y as [sy|sy| |sy my ey By]; try reflexivity. cbn. rewrite B2SF_SF2B. set (q := SFdiv_core_binary _ _ _ _ _ _). destruct q as [[m' e'] l']. apply round_aux_equiv.
Qed.
(** x is finite and has the value r *)
Definition is_r (x : spec_float) (r : R) : Prop := exists b : bf, B2SF b = x /\ is_finite b = true /\ B2R b = r.
Lemma is_r_inj x r1 r2 : is_r x r1 -> is_r x r2 -> r1 = r2.
Proof. intros (b1 & E1 & _ & <-) (b2 & E2 & _ & <-). f_equal. apply B2SF_inj. congruence. Qed.
Lemma is_r_fmt x r : is_r x r -> generic_format radix2 (SpecFloat.fexp p e) r.
Proof. intros (b & _ & _ & <-). apply generic_format_B2R. Qed.
Lemma rnd_fmt r : generic_format radix2 (SpecFloat.fexp p e) r -> rnd r = r.
Proof. intros H. apply round_generic; [apply valid_rnd_N|exact H]. Qed.
Lemma rnd_le a b : (a <= b)%R -> (rnd a <= rnd b)%R.
Proof. intros H. apply round_le; [apply fexp_correct; exact Hp|apply valid_rnd_N|exact H]. Qed.
Lemma add_r x y a b : is_r x a -> is_r y b -> (Rabs (rnd (a + b)) < bpow radix2 e)%R -> is_r (SFadd p e x y) (rnd (a + b)).
Proof.
  intros (bx & <- & Fx & <-) (by_ & <- & Fy & <-) O. rewrite add_equiv. pose proof (@Bplus_correct p e Hp He mode_NE bx by_ Fx Fy) as H. cbn [round_mode] in H. rewrite Rlt_bool_true in H by exact O. destruct H as (E & F & _). eexists. split; [reflexivity|]. auto.
Qed.
Lemma sub_r x y a b : is_r x a -> is_r y b -> (Rabs (rnd (a - b)) < bpow radix2 e)%R -> is_r (SFsub p e x y) (rnd (a - b)).
Proof.
  intros (bx & <- & Fx & <-) (by_ & <- & Fy & <-) O. rewrite sub_equiv. pose proof (@Bminus_correct p e Hp He mode_NE bx by_ Fx Fy) as H. cbn [round_mode] in H. rewrite Rlt_bool_true in H by exact O. destruct H as (E & F & _). eexists. split; [reflexivity|]. auto.
Qed.
Lemma mul_r x y a b : is_r x a -> is_r y b -> (Rabs (rnd (a * b)) < bpow radix2 e)%R -> is_r (SFmul p e x y) (rnd (a * b)).
Proof.
  intros (bx & <- & Fx & <-) (by_ & <- & Fy & <-) O. rewrite mul_equiv. pose proof (@Bmult_correct p e Hp He mode_NE bx by_) as H. cbn [round_mode] in H. rewrite Rlt_bool_true in H by exact O. destruct H as (E & F & _). eexists. split; [reflexivity|]. rewrite F, Fx, Fy. auto.
Qed.
Lemma div_r x y a b : is_r x a -> is_r y b -> b <> 0%R -> (Rabs (rnd (a / b)) < bpow radix2 e)%R -> is_r (SFdiv p e x y) (rnd (a / b)).
Proof.
  intros (bx & <- & Fx & <-) (by_ & <- & Fy & <-) N O. rewrite div_equiv. pose proof (@Bdiv_correct p e Hp He mode_NE bx by_ N) as H. cbn [round_mode] in H. rewrite Rlt_bool_true in H by exact O. destruct H as (E & F & _). eexists. split; [reflexivity|]. rewrite F, Fx. auto.
Qed.
Lemma int_fmt z : Z.abs z <= 2 ^ p -> generic_format radix2 (SpecFloat.fexp p e) (IZR z).
Proof.
  intros H. assert (P0 : 0 < p) by exact Hp. assert (E0 : p < e) by exact He. destruct (Z.eq_dec (Z.abs z) (2 ^ p)) as [Q|Q].
  - assert (G : generic_format radix2 (SpecFloat.fexp p e) (bpow radix2 p)). { apply generic_format_bpow. unfold SpecFloat.fexp, emin. lia. }
    assert (A : IZR (2 ^ p) = bpow radix2 p) by (rewrite <- (IZR_Zpower radix2) by lia; reflexivity).
    destruct (Z_le_gt_dec 0 z); [replace z with (2 ^ p) by lia; rewrite A; exact G|]. replace z with (- 2 ^ p) by lia. rewrite opp_IZR, A. now apply generic_format_opp.
  - replace (IZR z) with (F2R (Float radix2 z 0)) by (unfold F2R; cbn; ring). apply generic_format_F2R. intros Nz. unfold cexp, SpecFloat.fexp, emin. rewrite mag_F2R_Zdigits by exact Nz. assert (D : Zdigits radix2 z <= p) by (apply Zdigits_le_Zpower; change (Zpower radix2 p) with (2 ^ p); lia). lia.
Qed.
Lemma IZR_bpow z k : 0 <= k -> Z.abs z < 2 ^ k -> (Rabs (IZR z) < bpow radix2 k)%R.
Proof. intros K H. rewrite <- abs_IZR, <- (IZR_Zpower radix2) by exact K. apply IZR_lt. exact H. Qed.
Lemma int_r z : Z.abs z <= 2 ^ p -> is_r (SpecFloat.binary_normalize p e z 0 false) (IZR z).
Proof.
  intros H. rewrite normalize_equiv. assert (P0 : 0 < p) by exact Hp. assert (E0 : p < e) by exact He. pose proof (binary_normalize_correct p e Hp He mode_NE z 0 false) as C. replace (F2R (Float radix2 z 0)) with (IZR z) in C by (unfold F2R; cbn; ring). cbn [round_mode] in C. rewrite rnd_fmt in C by (apply int_fmt; exact H).
  rewrite Rlt_bool_true in C; [|apply IZR_bpow; [lia|]; assert (2 ^ p < 2 ^ e) by (apply Z.pow_lt_mono_r; lia); lia]. destruct C as (E & F & _). eexists. split; [reflexivity|]. auto.
Qed.
Lemma ltb_r x y a b : is_r x a -> is_r y b -> SFltb x y = Rlt_bool a b.
Proof.
  intros (bx & <- & Fx & <-) (by_ & <- & Fy & <-). pose proof (@Bltb_correct p e bx by_ Fx Fy) as H. rewrite <- H. reflexivity.
Qed.
Lemma trunc_r x a : is_r x a -> ftrunc x = Some (Ztrunc a).
Proof.
  intros (b & <- & F & <-). destruct b as [s|s| |s m x B]; try discriminate; cbn [B2SF ftrunc B2R].
  - now rewrite Ztrunc_IZR.
  - f_equal. unfold F2R. cbn [Fnum Fexp]. assert (P : forall q, Ztrunc (IZR (SpecFloat.cond_Zopp s q) * bpow radix2 x) = SpecFloat.cond_Zopp s (Ztrunc (IZR q * bpow radix2 x))).
    { intros q. destruct s; [|reflexivity]. cbn [SpecFloat.cond_Zopp]. rewrite opp_IZR, Ropp_mult_distr_l_reverse. apply Ztrunc_opp. }
    rewrite P. destruct (Z.leb_spec 0 x) as [L|L].
    + replace (IZR (Z.pos m) * bpow radix2 x)%R with (IZR (Z.pos m * 2 ^ x)) by (rewrite mult_IZR, <- (IZR_Zpower radix2) by exact L; reflexivity). rewrite Ztrunc_IZR. now destruct s.
    + replace (IZR (Z.pos m) * bpow radix2 x)%R with (IZR (Z.pos m) / IZR (2 ^ (- x)))%R.
      2:{ unfold Rdiv. f_equal. replace x with (- - x) at 2 by lia. rewrite bpow_opp. f_equal. rewrite <- (IZR_Zpower radix2) by lia. reflexivity. }
      rewrite Ztrunc_floor by (apply Rmult_le_pos; [apply IZR_le; lia|left; apply Rinv_0_lt_compat, IZR_lt, Z.pow_pos_nonneg; lia]). rewrite Zfloor_div by (assert (0 < 2 ^ (- x)) by (apply Z.pow_pos_nonneg; lia); lia). now destruct s.
Qed.
End F.
