(** L_Double.v -- double precision: SpecFloat, rational values and real values. *)
From Coq Require Import Reals Lra ZArith QArith Qabs Qpower Qreals.
From Flocq Require Import Core BinarySingleNaN.
From Coq Require Import SpecFloat.
From Verif Require Import Base M_Float L_Float S_Double.
Local Open Scope Z_scope.
Ltac Zify.zify_post_hook ::= Z.to_euclidean_division_equations.

Global Instance p53 : Prec_gt_0 53 := eq_refl _.
Global Instance e1024 : Prec_lt_emax 53 1024 := eq_refl _.
Notation fx := (SpecFloat.fexp 53 1024).
Notation r64 := (round radix2 (SpecFloat.fexp 53 1024) ZnearestE).
Notation is64 := (is_r 53 1024).
Lemma Q2R_q2 k : Q2R (q2 k) = bpow radix2 k.
Proof.
  unfold q2. destruct (Z_le_gt_dec 0 k) as [L|L].
  - rewrite <- (Z2Nat.id k) by exact L. induction (Z.to_nat k) as [|n IH]; [cbn; lra|]. rewrite Nat2Z.inj_succ, <- Z.add_1_r, Qpower_plus by discriminate. rewrite Q2R_mult, IH, bpow_plus. f_equal. change (2 # 1)%Q with (inject_Z 2). cbn. unfold Q2R. cbn. lra.
  - replace k with (- - k) by lia. set (n := - k). assert (0 <= n) by lia. rewrite bpow_opp. rewrite Qpower_opp, Q2R_inv.
    + f_equal. rewrite <- (Z2Nat.id n) by lia. induction (Z.to_nat n) as [|m IH]; [cbn; lra|]. rewrite Nat2Z.inj_succ, <- Z.add_1_r, Qpower_plus by discriminate. rewrite Q2R_mult, IH, bpow_plus. f_equal. cbn. unfold Q2R. cbn. lra.
    + apply Qpower_not_0. discriminate.
Qed.
Lemma Q2R_Z z : Q2R (inject_Z z) = IZR z.
Proof. unfold Q2R, inject_Z. cbn. lra. Qed.
Lemma dbl_r x q : dbl x q <-> is64 x (Q2R q).
Proof.
  split.
  - intros [V H]. exists (SF2B x V). split; [apply B2SF_SF2B|]. destruct x as [s|s| |s m e]; try contradiction; (split; [reflexivity|]); cbn [SF2B B2R].
    + apply Qeq_eqR in H. rewrite H. unfold Q2R. cbn. lra.
    + apply Qeq_eqR in H. rewrite H, Q2R_mult, Q2R_Z, Q2R_q2. unfold F2R. cbn [Fnum Fexp]. now destruct s.
  - intros (b & <- & F & E). split; [apply valid_binary_B2SF|]. destruct b as [s|s| |s m x B]; try discriminate; cbn [B2SF B2R] in *.
    + apply eqR_Qeq. rewrite <- E. unfold Q2R. cbn. lra.
    + apply eqR_Qeq. rewrite <- E, Q2R_mult, Q2R_Z, Q2R_q2. unfold F2R. cbn [Fnum Fexp]. now destruct s.
Qed.
(** a real value of a double is rational *)
Lemma is_dbl x r : is64 x r -> exists q, dbl x q /\ Q2R q = r.
Proof.
  intros (b & <- & F & <-). assert (exists q, Q2R q = B2R b) as [q E].
  { destruct b as [s|s| |s m x B]; try discriminate; cbn [B2R].
    - exists 0%Q. unfold Q2R. cbn. lra.
    - exists (inject_Z (SpecFloat.cond_Zopp s (Z.pos m)) * q2 x)%Q. rewrite Q2R_mult, Q2R_Z, Q2R_q2. reflexivity. }
  exists q. split; [|exact E]. apply dbl_r. rewrite E. exists b. auto.
Qed.
Lemma dbl_inj x q1 q2 : dbl x q1 -> dbl x q2 -> (q1 == q2)%Q.
Proof. intros A B. apply dbl_r in A. apply dbl_r in B. apply eqR_Qeq. exact (is_r_inj _ _ _ _ _ A B). Qed.
Lemma dbl_eq x q1 q2 : dbl x q1 -> (q1 == q2)%Q -> dbl x q2.
Proof. intros A E. apply dbl_r. rewrite <- (Qeq_eqR _ _ E). now apply dbl_r. Qed.

Lemma r64_le a b : (a <= b)%R -> (r64 a <= r64 b)%R.
Proof. apply (rnd_le 53 1024 p53). Qed.
Lemma r64_fmt a : generic_format radix2 fx a -> r64 a = a.
Proof. apply rnd_fmt. Qed.
Lemma r64_opp a : (r64 (- a) = - r64 a)%R.
Proof. apply round_NE_opp. Qed.
Lemma fmt_grid z k : -1074 <= k -> Z.abs z <= 2 ^ 53 -> generic_format radix2 fx (IZR z * bpow radix2 k).
Proof.
  intros K H. change (IZR z * bpow radix2 k)%R with (F2R (Float radix2 z k)). destruct (Z.eq_dec (Z.abs z) (2 ^ 53)) as [E|N].
  - assert (G : generic_format radix2 fx (bpow radix2 (53 + k))) by (apply generic_format_bpow; unfold SpecFloat.fexp, emin; lia).
    destruct (Z_le_gt_dec 0 z); [assert (z = 2 ^ 53) by lia|assert (z = - 2 ^ 53) by lia]; subst z.
    + replace (F2R (Float radix2 (2 ^ 53) k)) with (bpow radix2 (53 + k)); [exact G|]. rewrite bpow_plus. reflexivity.
    + change (- 2 ^ 53) with (Z.opp (2 ^ 53)). rewrite <- F2R_Zopp || idtac. replace (F2R (Float radix2 (- 2 ^ 53) k)) with (- bpow radix2 (53 + k))%R; [now apply generic_format_opp|]. rewrite bpow_plus. unfold F2R. cbn [Fnum Fexp]. rewrite opp_IZR. change (bpow radix2 53) with (IZR (2 ^ 53)). ring.
  - apply generic_format_F2R. intros Nz. unfold cexp, SpecFloat.fexp, emin. rewrite mag_F2R_Zdigits by exact Nz. assert (D : Zdigits radix2 z <= 53) by (apply Zdigits_le_Zpower; change (Zpower radix2 53) with (2 ^ 53); lia). lia.
Qed.
Lemma abs_bpow r n : (Rabs r <= bpow radix2 n)%R -> n < 1024 -> (Rabs r < bpow radix2 1024)%R.
Proof. intros H L. eapply Rle_lt_trans; [exact H|]. now apply bpow_lt. Qed.
Lemma r64_abs a n : -1074 <= n -> (Rabs a <= bpow radix2 n)%R -> (Rabs (r64 a) <= bpow radix2 n)%R.
Proof.
  intros N H. assert (G : generic_format radix2 fx (bpow radix2 n)) by (apply generic_format_bpow; unfold SpecFloat.fexp, emin; lia). apply abs_round_le_generic; try exact G; try exact H; [apply (fexp_correct 53 1024 p53)|apply valid_rnd_N].
Qed.
Lemma add64_r x y a b n : -1074 <= n < 1024 -> is64 x a -> is64 y b -> (Rabs (a + b) <= bpow radix2 n)%R -> is64 (add64 x y) (r64 (a + b)).
Proof. intros N X Y H. apply (add_r 53 1024 p53 e1024); [exact X|exact Y|]. apply (abs_bpow _ n); [|lia]. apply r64_abs; [lia|exact H]. Qed.
Lemma sub64_r x y a b n : -1074 <= n < 1024 -> is64 x a -> is64 y b -> (Rabs (a - b) <= bpow radix2 n)%R -> is64 (sub64 x y) (r64 (a - b)).
Proof. intros N X Y H. apply (sub_r 53 1024 p53 e1024); [exact X|exact Y|]. apply (abs_bpow _ n); [|lia]. apply r64_abs; [lia|exact H]. Qed.
Lemma mul64_r x y a b n : -1074 <= n < 1024 -> is64 x a -> is64 y b -> (Rabs (a * b) <= bpow radix2 n)%R -> is64 (mul64 x y) (r64 (a * b)).
Proof. intros N X Y H. apply (mul_r 53 1024 p53 e1024); [exact X|exact Y|]. apply (abs_bpow _ n); [|lia]. apply r64_abs; [lia|exact H]. Qed.
Lemma div64_r x y a b n : -1074 <= n < 1024 -> is64 x a -> is64 y b -> b <> 0%R -> (Rabs (a / b) <= bpow radix2 n)%R -> is64 (div64 x y) (r64 (a / b)).
Proof. intros N X Y Nz H. apply (div_r 53 1024 p53 e1024); [exact X|exact Y|exact Nz|]. apply (abs_bpow _ n); [|lia]. apply r64_abs; [lia|exact H]. Qed.
Lemma int64_r z : Z.abs z <= 2 ^ 53 -> is64 (int64f z) (IZR z).
Proof. intros H. apply (int_r 53 1024 p53 e1024). exact H. Qed.
Lemma opp_r x a : is64 x a -> is64 (SFopp x) (- a).
Proof.
  intros (b & <- & F & <-). exists (Bopp b). split; [now destruct b|]. split; [now rewrite is_finite_Bopp|]. apply B2R_Bopp.
Qed.
Lemma leb_r x y a b : is64 x a -> is64 y b -> SFleb x y = Rle_bool a b.
Proof. intros (bx & <- & Fx & <-) (by_ & <- & Fy & <-). pose proof (@Bleb_correct 53 1024 bx by_ Fx Fy) as H. rewrite <- H. reflexivity. Qed.
Lemma ltb64 x y a b : is64 x a -> is64 y b -> SFltb x y = Rlt_bool a b.
Proof. apply (ltb_r 53 1024). Qed.
(** a bound on the rounding error *)
Lemma r64_err x (k : Z) : -1000 <= k -> (Rabs x <= bpow radix2 k)%R -> (Rabs (r64 x - x) <= bpow radix2 (k - 54))%R.
Proof.
  intros Hk H. destruct (Req_dec (Rabs x) (bpow radix2 k)) as [E|N].
  - assert (G : generic_format radix2 fx x). { apply generic_format_abs_inv. rewrite E. apply generic_format_bpow. unfold SpecFloat.fexp, emin. lia. }
    rewrite (r64_fmt x G). rewrite Rminus_diag_eq by reflexivity. rewrite Rabs_R0. apply bpow_ge_0.
  - destruct (Req_dec x 0) as [->|Nx].
    + rewrite round_0 by apply valid_rnd_N. rewrite Rminus_diag_eq by reflexivity. rewrite Rabs_R0. apply bpow_ge_0.
    + eapply Rle_trans; [apply error_le_half_ulp; apply (fexp_correct 53 1024 p53)|]. rewrite ulp_neq_0 by exact Nx. change (/ 2)%R with (bpow radix2 (-1)). rewrite <- bpow_plus. apply bpow_le. unfold cexp, SpecFloat.fexp. assert (M : mag radix2 x <= k) by (apply mag_le_bpow; [exact Nx|lra]). unfold emin. lia.
Qed.
(** grids *)
Lemma grid_r k x z : grid k x z -> is64 x (IZR z * bpow radix2 k).
Proof. intros (_ & _ & D). apply dbl_r in D. now rewrite Q2R_mult, Q2R_Z, Q2R_q2 in D. Qed.
Lemma r_dbl x q r : is64 x r -> Q2R q = r -> dbl x q.
Proof. intros H <-. now apply dbl_r. Qed.
Lemma grid_big z k : -1000 <= k <= 900 -> Z.abs z <= 2 ^ 53 -> (Rabs (IZR z * bpow radix2 k) <= bpow radix2 (53 + k))%R.
Proof.
  intros K H. rewrite Rabs_mult, (Rabs_pos_eq (bpow _ _)) by apply bpow_ge_0. rewrite bpow_plus. apply Rmult_le_compat_r; [apply bpow_ge_0|]. rewrite <- abs_IZR. change (bpow radix2 53) with (IZR (2 ^ 53)). now apply IZR_le.
Qed.
Lemma add_grid k x y a b : -1000 <= k <= 900 -> is64 x (IZR a * bpow radix2 k) -> is64 y (IZR b * bpow radix2 k) -> Z.abs (a + b) <= 2 ^ 53 -> is64 (add64 x y) (IZR (a + b) * bpow radix2 k).
Proof.
  intros K X Y H. pose proof (grid_big (a + b) k K H) as B. assert (E : (IZR a * bpow radix2 k + IZR b * bpow radix2 k)%R = (IZR (a + b) * bpow radix2 k)%R) by (rewrite plus_IZR; ring).
  pose proof (add64_r _ _ _ _ (53 + k) ltac:(lia) X Y) as R. rewrite E in R. specialize (R B). rewrite r64_fmt in R; [exact R|]. apply fmt_grid; [lia|exact H].
Qed.
Lemma sub_grid k x y a b : -1000 <= k <= 900 -> is64 x (IZR a * bpow radix2 k) -> is64 y (IZR b * bpow radix2 k) -> Z.abs (a - b) <= 2 ^ 53 -> is64 (sub64 x y) (IZR (a - b) * bpow radix2 k).
Proof.
  intros K X Y H. pose proof (grid_big (a - b) k K H) as B. assert (E : (IZR a * bpow radix2 k - IZR b * bpow radix2 k)%R = (IZR (a - b) * bpow radix2 k)%R) by (rewrite minus_IZR; ring).
  pose proof (sub64_r _ _ _ _ (53 + k) ltac:(lia) X Y) as R. rewrite E in R. specialize (R B). rewrite r64_fmt in R; [exact R|]. apply fmt_grid; [lia|exact H].
Qed.
Lemma ltb_grid k x y a b : is64 x (IZR a * bpow radix2 k) -> is64 y (IZR b * bpow radix2 k) -> SFltb x y = (a <? b).
Proof.
  intros X Y. rewrite (ltb64 _ _ _ _ X Y). pose proof (bpow_gt_0 radix2 k). destruct (Z.ltb_spec a b) as [L|L].
  - apply Rlt_bool_true. apply Rmult_lt_compat_r; [assumption|now apply IZR_lt].
  - apply Rlt_bool_false. apply Rmult_le_compat_r; [lra|now apply IZR_le].
Qed.
Lemma leb_grid k x y a b : is64 x (IZR a * bpow radix2 k) -> is64 y (IZR b * bpow radix2 k) -> SFleb x y = (a <=? b).
Proof.
  intros X Y. rewrite (leb_r _ _ _ _ X Y). pose proof (bpow_gt_0 radix2 k). destruct (Z.leb_spec a b) as [L|L].
  - apply Rle_bool_true. apply Rmult_le_compat_r; [lra|now apply IZR_le].
  - apply Rle_bool_false. apply Rmult_lt_compat_r; [assumption|now apply IZR_lt].
Qed.
