From Verif Require Import Base M_Math.
Ltac Zify.zify_post_hook ::= Z.to_euclidean_division_equations.

Definition div_defined (x y : Z) : Prop := y <> 0 /\ ~ (x = -9223372036854775808 /\ y = -1).

Lemma quot_in x y : in_s64 x = true -> in_s64 y = true -> div_defined x y -> in_s64 (Z.quot x y) = true.
Proof.
  unfold in_s64, div_defined. intros Hx Hy [Hy0 Hm].
  assert (Hq : Z.abs (Z.quot x y) <= Z.abs x).
  { rewrite <- Z.quot_abs by lia. rewrite Z.quot_div_nonneg by lia.
    apply Z.div_le_upper_bound; [lia|]. nia. }
  destruct (Z.eq_dec (Z.quot x y) 9223372036854775808) as [E|]; [|lia].
  exfalso. apply Hm. assert (x = -9223372036854775808) by lia. split; [assumption|]. subst x.
  assert (-9223372036854775808 = 9223372036854775808 * y + Z.rem (-9223372036854775808) y)
    by (rewrite <- E; rewrite Z.mul_comm; apply Z.quot_rem'). 
  pose proof (Z.rem_bound_abs (-9223372036854775808) y Hy0). nia.
Qed.

Lemma divFloor_spec x y : in_s64 x = true -> in_s64 y = true -> div_defined x y -> divFloor x y = Val (x / y).
Proof.
  intros Hx Hy Hd. pose proof (quot_in x y Hx Hy Hd) as Hq. destruct Hd as [Hy0 Hm].
  unfold divFloor. destruct (Z.eqb_spec y 0); [contradiction|]. unfold chk64. rewrite Hq. cbn [bind].
  pose proof (Z.quot_rem' x y) as E. pose proof (Z.rem_bound_abs x y Hy0) as Hb.
  pose proof (Z.div_mod x y Hy0) as E2.
  assert (Hmb : (0 <= x mod y < y) \/ (y < x mod y <= 0)).
  { destruct (Z.ltb_spec 0 y); [left; apply Z.mod_pos_bound; lia|right; apply Z.mod_neg_bound; lia]. }
  set (q := Z.quot x y) in *. set (r := Z.rem x y) in *. set (d := x / y) in *. set (m := x mod y) in *.
  assert (Hs : 0 <= x -> 0 <= r) by (intros; subst r; apply Z.rem_nonneg; lia).
  assert (Hs' : x <= 0 -> r <= 0) by (intros; subst r; apply Z.rem_nonpos; lia).
  clearbody q r d m.
  destruct (r =? 0) eqn:Er; cbn [negb andb].
  - f_equal. nia.
  - destruct (Bool.eqb (r <? 0) (y <? 0)) eqn:Eb; cbn [negb].
    + apply Bool.eqb_prop in Eb. f_equal. nia.
    + assert (Hd : q - 1 = d).
      { apply Bool.eqb_false_iff in Eb. assert ((r < 0 /\ 0 < y) \/ (0 < r /\ y < 0)) by lia. nia. }
      rewrite Hd. assert (in_s64 d = true) as ->; [|reflexivity]. unfold in_s64 in *.
      apply Bool.eqb_false_iff in Eb. assert ((r < 0 /\ 0 < y) \/ (0 < r /\ y < 0)) by lia. nia.
Qed.

Lemma rem_uniq y a b r s : y * a + r = y * b + s -> Z.abs (r - s) < Z.abs y -> a = b /\ r = s.
Proof.
  intros E H. assert (a = b); [|subst; lia].
  destruct (Z.eq_dec a b) as [|Hne]; [assumption|exfalso].
  assert (E' : y * (a - b) = s - r) by lia.
  assert (Z.abs (y * (a - b)) = Z.abs y * Z.abs (a - b)) by apply Z.abs_mul.
  assert (1 <= Z.abs (a - b)) by lia. nia.
Qed.
Lemma modFloor_spec x y : in_s64 x = true -> in_s64 y = true -> div_defined x y -> modFloor x y = Val (x mod y).
Proof.
  intros Hx Hy Hd. pose proof (quot_in x y Hx Hy Hd) as Hq. destruct Hd as [Hy0 Hm].
  unfold modFloor. destruct (Z.eqb_spec y 0); [contradiction|]. unfold chk64. rewrite Hq. cbn [bind].
  pose proof (Z.quot_rem' x y) as E. pose proof (Z.rem_bound_abs x y Hy0) as Hb.
  pose proof (Z.div_mod x y Hy0) as E2.
  assert (Hmb : (0 <= x mod y < y) \/ (y < x mod y <= 0)).
  { destruct (Z.ltb_spec 0 y); [left; apply Z.mod_pos_bound; lia|right; apply Z.mod_neg_bound; lia]. }
  set (q := Z.quot x y) in *. set (r := Z.rem x y) in *. set (d := x / y) in *. set (m := x mod y) in *.
  clearbody q r d m.
  destruct (r =? 0) eqn:Er; cbn [negb andb].
  - f_equal. apply (rem_uniq y q d); lia.
  - destruct (Bool.eqb (r <? 0) (y <? 0)) eqn:Eb; cbn [negb].
    + apply Bool.eqb_prop in Eb. f_equal. apply (rem_uniq y q d); lia.
    + apply Bool.eqb_false_iff in Eb.
      assert (Hd : r + y = m) by (apply (rem_uniq y (q - 1) d); lia).
      rewrite Hd. assert (in_s64 m = true) as ->; [|reflexivity]. unfold in_s64 in *. lia.
Qed.
Ltac Zify.zify_post_hook ::= idtac.

(** powerOf2 *)
Lemma powerOf2_spec x : powerOf2 x = true <-> exists k, 0 <= k /\ x = 2 ^ k.
Proof.
  unfold powerOf2. split.
  - intros H. assert (Hx : 0 < x) by lia. assert (HL : Z.land x (x - 1) = 0) by lia.
    exists (Z.log2 x). split; [apply Z.log2_nonneg|].
    pose proof (Z.log2_spec x Hx) as [H1 H2].
    destruct (Z.eq_dec x (2 ^ Z.log2 x)) as [|Hne]; [assumption|exfalso].
    assert (E : Z.log2 (x - 1) = Z.log2 x) by (apply Z.log2_unique; [apply Z.log2_nonneg|]; rewrite Z.pow_succ_r in * by apply Z.log2_nonneg; lia).
    assert (B : Z.testbit (Z.land x (x - 1)) (Z.log2 x) = true).
    { rewrite Z.land_spec, Z.bit_log2 by lia. rewrite <- E, Z.bit_log2; [reflexivity|].
      pose proof (Z.pow_pos_nonneg 2 (Z.log2 x)). pose proof (Z.log2_nonneg x). lia. }
    rewrite HL, Z.bits_0 in B. discriminate.
  - intros (k & Hk & ->). assert (0 < 2 ^ k) by (apply Z.pow_pos_nonneg; lia).
    replace (2 ^ k - 1) with (Z.ones k) by (rewrite Z.ones_equiv; lia).
    rewrite Z.land_ones by lia. rewrite Z.mod_same by lia. lia.
Qed.

(** ceilPowerOf2 *)
Definition smeared (x : Z) (n : Z) (y : Z) : Prop :=
  forall i, 0 <= i -> (Z.testbit y i = true <-> exists j, 0 <= j < n /\ Z.testbit x (i + j) = true).
Lemma smear_step x n y : 0 < n -> smeared x n y -> smeared x (n + n) (Z.lor y (Z.shiftr y n)).
Proof.
  intros Hn H i Hi. rewrite Z.lor_spec, Z.shiftr_spec, orb_true_iff by lia.
  rewrite (H i Hi), (H (i + n)) by lia. split.
  - intros [(j & Hj & E)|(j & Hj & E)]; [exists j; split; [lia|exact E]|].
    exists (n + j). split; [lia|]. now rewrite Z.add_assoc.
  - intros (j & Hj & E). destruct (Z.ltb_spec j n); [left; exists j; split; [lia|exact E]|].
    right. exists (j - n). split; [lia|]. now replace (i + n + (j - n)) with (i + j) by lia.
Qed.
Lemma smear_all x : 0 < x < 4294967296 ->
  (let x := Z.lor x (Z.shiftr x 1) in let x := Z.lor x (Z.shiftr x 2) in let x := Z.lor x (Z.shiftr x 4) in
   let x := Z.lor x (Z.shiftr x 8) in Z.lor x (Z.shiftr x 16)) = 2 ^ (Z.log2 x + 1) - 1.
Proof.
  intros Hx. cbv zeta.
  assert (S0 : smeared x 1 x).
  { intros i Hi. split; [intros E; exists 0; rewrite Z.add_0_r; split; [lia|exact E]|].
    intros (j & Hj & E). replace (i + j) with i in E by lia. exact E. }
  pose proof (smear_step x 1 _ ltac:(lia) S0) as S1. pose proof (smear_step x 2 _ ltac:(lia) S1) as S2.
  pose proof (smear_step x 4 _ ltac:(lia) S2) as S3. pose proof (smear_step x 8 _ ltac:(lia) S3) as S4.
  pose proof (smear_step x 16 _ ltac:(lia) S4) as S5.
  change (16 + 16) with 32 in S5. clear S0 S1 S2 S3 S4.
  match goal with |- ?y = _ => set (y0 := y) in * end.
  replace (2 ^ (Z.log2 x + 1) - 1) with (Z.ones (Z.log2 x + 1)) by (rewrite Z.ones_equiv; lia).
  pose proof (Z.log2_nonneg x) as HL.
  assert (HL32 : Z.log2 x < 32) by (apply Z.log2_lt_pow2; [lia|]; change (2 ^ 32) with 4294967296; lia).
  apply Z.bits_inj'. intros i Hi.
  destruct (Z.ltb_spec i (Z.log2 x + 1)) as [Hlt|Hge].
  - rewrite Z.ones_spec_low by lia. apply S5; [lia|]. exists (Z.log2 x - i). split; [lia|].
    replace (i + (Z.log2 x - i)) with (Z.log2 x) by lia. apply Z.bit_log2; lia.
  - rewrite Z.ones_spec_high by lia. apply not_true_is_false. intros E. apply S5 in E; [|lia].
    destruct E as (j & Hj & E). rewrite Z.bits_above_log2 in E by lia. discriminate.
Qed.
Lemma ceilPowerOf2_val x : 1 < x <= 4294967296 - 1 ->
  ceilPowerOf2 x = u32 (2 ^ (Z.log2 (x - 1) + 1)).
Proof.
  intros Hx. unfold ceilPowerOf2. rewrite (u32_id (x - 1)) by lia.
  pose proof (smear_all (x - 1) ltac:(lia)) as S. cbv zeta in S |- *. rewrite S. f_equal. lia.
Qed.
Lemma ceilPowerOf2_least x : 1 <= x <= 2147483648 ->
  (exists k, 0 <= k /\ ceilPowerOf2 x = 2 ^ k) /\ x <= ceilPowerOf2 x /\
  (forall k, 0 <= k -> x <= 2 ^ k -> ceilPowerOf2 x <= 2 ^ k).
Proof.
  intros Hx. destruct (Z.eq_dec x 1) as [->|Hne].
  - change (ceilPowerOf2 1) with 1. split; [exists 0; split; [lia|reflexivity]|]. split; [lia|].
    intros k Hk H. pose proof (Z.pow_pos_nonneg 2 k). lia.
  - rewrite ceilPowerOf2_val by lia. pose proof (Z.log2_nonneg (x - 1)) as HL.
    pose proof (Z.log2_spec (x - 1) ltac:(lia)) as [H1 H2]. unfold Z.succ in H2.
    assert (HL31 : Z.log2 (x - 1) < 31) by (apply Z.log2_lt_pow2; [lia|]; change (2 ^ 31) with 2147483648; lia).
    assert (2 ^ (Z.log2 (x - 1) + 1) <= 2 ^ 31) by (apply Z.pow_le_mono_r; lia).
    change (2 ^ 31) with 2147483648 in *.
    rewrite u32_id by lia. split; [exists (Z.log2 (x - 1) + 1); split; [lia|reflexivity]|]. split; [lia|].
    intros k Hk H'. apply Z.pow_le_mono_r; [lia|].
    assert (Z.log2 (x - 1) < k) by (apply Z.log2_lt_pow2; lia). lia.
Qed.
Lemma ceilPowerOf2_big x : 2147483648 < x < 4294967296 \/ x = 0 -> ceilPowerOf2 x = 0.
Proof.
  intros [Hx| ->]; [|reflexivity].
  rewrite ceilPowerOf2_val by lia.
  replace (Z.log2 (x - 1)) with 31; [reflexivity|]. symmetry. apply Z.log2_unique; [lia|].
  change (2 ^ 31) with 2147483648. change (2 ^ Z.succ 31) with 4294967296. lia.
Qed.

(** xor swap *)
Lemma xorSwap_distinct m a b : a <> b -> forall x,
  xorSwap m a b x = if x =? a then m b else if x =? b then m a else m x.
Proof.
  intros Hne x. unfold xorSwap, upd. rewrite !Z.eqb_refl.
  destruct (Z.eqb_spec b a); [congruence|]. destruct (Z.eqb_spec a b); [congruence|].
  assert (E : Z.lxor (m b) (Z.lxor (m a) (m b)) = m a)
    by (rewrite (Z.lxor_comm (m a)), <- Z.lxor_assoc, Z.lxor_nilpotent; apply Z.lxor_0_l).
  rewrite E. destruct (Z.eqb_spec x a).
  - rewrite (Z.lxor_comm (m a) (m b)), Z.lxor_assoc, Z.lxor_nilpotent. apply Z.lxor_0_r.
  - reflexivity.
Qed.
Lemma xorSwap_same m a x : xorSwap m a a x = if x =? a then 0 else m x.
Proof.
  unfold xorSwap, upd. rewrite !Z.eqb_refl, !Z.lxor_nilpotent. destruct (x =? a); reflexivity.
Qed.
