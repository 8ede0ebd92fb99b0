(** L_Zip5.v -- CRC-32 detects bursts. *)
From Verif Require Import Base S_Serializer L_Serializer S_Inflate S_Zip.
Ltac Zify.zify_post_hook ::= Z.to_euclidean_division_equations.

Definition r32 (x : Z) : Prop := 0 <= x < 2 ^ 32.
Lemma crc32_bit_eq x : crc32_bit x = Z.lxor (Z.shiftr x 1) (if Z.testbit x 0 then 3988292384 else 0).
Proof. unfold crc32_bit. rewrite Z.bit0_odd, Z.shiftr_div_pow2 by lia. change (2 ^ 1) with 2. destruct (Z.odd x); [reflexivity|]. rewrite Z.lxor_0_r. reflexivity. Qed.
Lemma bit_lxor x y : crc32_bit (Z.lxor x y) = Z.lxor (crc32_bit x) (crc32_bit y).
Proof.
  rewrite !crc32_bit_eq. rewrite Z.shiftr_lxor, Z.lxor_spec. rewrite !Z.lxor_assoc. f_equal. rewrite (Z.lxor_comm _ (Z.lxor (Z.shiftr y 1) _)), !Z.lxor_assoc. f_equal. destruct (Z.testbit x 0), (Z.testbit y 0); reflexivity.
Qed.
Lemma bit_double y : crc32_bit (2 * y) = y.
Proof. unfold crc32_bit. replace (Z.odd (2 * y)) with false by (rewrite Z.odd_mul; reflexivity). lia. Qed.
Lemma iter_lxor n : forall x y, Nat.iter n crc32_bit (Z.lxor x y) = Z.lxor (Nat.iter n crc32_bit x) (Nat.iter n crc32_bit y).
Proof. induction n as [|n IH]; intros x y; [reflexivity|]. cbn [Nat.iter nat_rect]. change (nat_rect _ ?a (fun _ => crc32_bit) n) with (Nat.iter n crc32_bit a). rewrite IH. apply bit_lxor. Qed.
Lemma iter_shift y : Nat.iter 8 crc32_bit (256 * y) = y.
Proof.
  cbn [Nat.iter nat_rect]. replace (256 * y) with (2 * (2 * (2 * (2 * (2 * (2 * (2 * (2 * y)))))))) by lia. rewrite !bit_double. reflexivity.
Qed.
Lemma iter_plus {A} (f : A -> A) n m x : Nat.iter (n + m) f x = Nat.iter n f (Nat.iter m f x).
Proof. induction n as [|n IH]; [reflexivity|]. cbn [Nat.add]. change (f (Nat.iter (n + m) f x) = f (Nat.iter n f (Nat.iter m f x))). f_equal. exact IH. Qed.
Lemma low_high b v : byte b -> 0 <= v -> Z.lxor b (256 * v) = b + 256 * v.
Proof.
  intros H V. symmetry. rewrite Z.add_nocarry_lxor; [reflexivity|]. apply Z.bits_inj'. intros j Hj. rewrite Z.land_spec, Z.bits_0. destruct (Z.ltb_spec j 8).
  - replace (256 * v) with (v * 2 ^ 8) by (change (2 ^ 8) with 256; lia). rewrite Z.mul_pow2_bits_low by lia. apply andb_false_r.
  - rewrite (Z.bits_above_log2 b j); [reflexivity|unfold byte in H; lia|]. unfold byte in H. destruct (Z.eq_dec b 0); [subst; change (Z.log2 0) with 0; lia|]. apply Z.log2_lt_pow2; [lia|]. apply Z.lt_le_trans with (2 ^ 8); [change (2 ^ 8) with 256; lia|]. apply Z.pow_le_mono_r; lia.
Qed.
Lemma fold_iter l : Forall byte l -> forall r, fold_left crc32_byte l r = Nat.iter (8 * length l) crc32_bit (Z.lxor r (le_value l)).
Proof.
  induction 1 as [|b l Hb H IH]; intros r; cbn [fold_left le_value length].
  - rewrite Z.lxor_0_r. reflexivity.
  - rewrite IH. replace (8 * S (length l))%nat with (8 * length l + 8)%nat by lia. rewrite iter_plus. f_equal. unfold crc32_byte.
    pose proof (le_value_range l H) as R. rewrite <- low_high by (try exact Hb; apply R). rewrite <- Z.lxor_assoc. rewrite (iter_lxor 8 (Z.lxor r b)). rewrite iter_shift. reflexivity.
Qed.
Lemma bits_range x n : 0 <= n -> (forall j, n <= j -> Z.testbit x j = false) -> 0 <= x -> x < 2 ^ n.
Proof. intros Hn H Hx. destruct (Z.eq_dec x 0) as [->|N]; [apply Z.pow_pos_nonneg; lia|]. apply Z.log2_lt_pow2; [lia|]. destruct (Z.ltb_spec (Z.log2 x) n); [assumption|]. pose proof (Z.bit_log2 x ltac:(lia)) as B. rewrite H in B by assumption. discriminate. Qed.
Lemma lxor_r32 x y : r32 x -> r32 y -> r32 (Z.lxor x y).
Proof.
  intros Hx Hy. unfold r32 in *. assert (0 <= Z.lxor x y) by (apply Z.lxor_nonneg; lia). split; [assumption|]. apply bits_range; [lia| |assumption]. intros j Hj. rewrite Z.lxor_spec.
  assert (T : forall z, 0 <= z < 2 ^ 32 -> Z.testbit z j = false). { intros z Hz. rewrite <- (Z.mod_small z (2 ^ 32)) by exact Hz. apply Z.mod_pow2_bits_high. lia. } rewrite !T by assumption. reflexivity.
Qed.
Lemma bit_r32 x : r32 x -> r32 (crc32_bit x).
Proof. intros H. unfold crc32_bit. unfold r32 in *. destruct (Z.odd x); [apply lxor_r32; unfold r32; lia|lia]. Qed.
Lemma bit_inj x y : r32 x -> r32 y -> crc32_bit x = crc32_bit y -> x = y.
Proof.
  intros Hx Hy E. assert (T : forall z, r32 z -> Z.testbit (crc32_bit z) 31 = Z.odd z).
  { intros z Hz. unfold crc32_bit, r32 in *. destruct (Z.odd z); rewrite ?Z.lxor_spec; replace (Z.testbit (z / 2) 31) with false; try reflexivity; symmetry; rewrite <- (Z.mod_small (z / 2) (2 ^ 31)) by lia; apply Z.mod_pow2_bits_high; lia. }
  pose proof (T x Hx) as Tx. rewrite E, (T y Hy) in Tx. unfold crc32_bit in E. rewrite Tx in E. rewrite (Zdiv2_odd_eqn x), (Zdiv2_odd_eqn y), Tx. rewrite !Z.div2_div. destruct (Z.odd x).
  - apply (f_equal (fun z => Z.lxor z 3988292384)) in E. rewrite !Z.lxor_assoc, !Z.lxor_nilpotent, !Z.lxor_0_r in E. rewrite E. reflexivity.
  - rewrite E. reflexivity.
Qed.
Lemma iter_r32 n x : r32 x -> r32 (Nat.iter n crc32_bit x).
Proof. intros H. induction n as [|n IH]; [exact H|]. change (r32 (crc32_bit (Nat.iter n crc32_bit x))). apply bit_r32. exact IH. Qed.
Lemma iter_inj n x y : r32 x -> r32 y -> Nat.iter n crc32_bit x = Nat.iter n crc32_bit y -> x = y.
Proof. intros Hx Hy. induction n as [|n IH]; intros E; [exact E|]. apply IH. apply bit_inj; try (apply iter_r32; assumption). exact E. Qed.
Lemma lxor_inj r x y : Z.lxor r x = Z.lxor r y -> x = y.
Proof. intros E. apply (f_equal (Z.lxor r)) in E. rewrite <- !Z.lxor_assoc, !Z.lxor_nilpotent, !Z.lxor_0_l in E. exact E. Qed.
Lemma word_range l : Forall byte l -> (length l <= 4)%nat -> r32 (le_value l).
Proof. intros H L. pose proof (le_value_range l H) as R. unfold r32. split; [lia|]. apply Z.lt_le_trans with (256 ^ zlen l); [lia|]. change (2 ^ 32) with (256 ^ 4). apply Z.pow_le_mono_r; unfold zlen; lia. Qed.
Lemma step_r32 l : Forall byte l -> forall r, r32 r -> r32 (fold_left crc32_byte l r).
Proof.
  induction 1 as [|b l Hb H IH]; intros r Hr; [exact Hr|]. cbn [fold_left]. apply IH. unfold crc32_byte. apply iter_r32. apply lxor_r32; [exact Hr|]. unfold byte in Hb. unfold r32. change (2 ^ 32) with 4294967296. lia.
Qed.
Lemma step_inj l : Forall byte l -> forall r r', r32 r -> r32 r' -> fold_left crc32_byte l r = fold_left crc32_byte l r' -> r = r'.
Proof.
  induction 1 as [|b l Hb H IH]; intros r r' Hr Hr' E; [exact E|]. cbn [fold_left] in E. assert (B : r32 b) by (unfold byte in Hb; unfold r32; change (2 ^ 32) with 4294967296; lia).
  apply IH in E; [|apply iter_r32; apply lxor_r32; assumption..]. unfold crc32_byte in E. apply iter_inj in E; [|apply lxor_r32; assumption..]. rewrite (Z.lxor_comm r), (Z.lxor_comm r') in E. apply lxor_inj in E. exact E.
Qed.
Lemma le_value_inj x : forall y, Forall byte x -> Forall byte y -> length x = length y -> le_value x = le_value y -> x = y.
Proof.
  induction x as [|a x IH]; intros [|b y] HX HY L E; try discriminate; [reflexivity|]. apply Forall_cons_iff in HX as [H1 H2]. apply Forall_cons_iff in HY as [H3 H4]. cbn [le_value] in E. unfold byte in *. injection L as L. f_equal; [lia|]. apply IH; try assumption. lia.
Qed.
Theorem crc32_burst p x y s : Forall byte (p ++ x ++ s) -> Forall byte y -> length x = length y -> (length x <= 4)%nat -> crc32 (p ++ x ++ s) = crc32 (p ++ y ++ s) -> x = y.
Proof.
  intros H HY L4 L E. apply Forall_app in H as [HP H]. apply Forall_app in H as [HX HS]. unfold crc32 in E. rewrite !fold_left_app in E. assert (R0 : r32 4294967295) by (unfold r32; change (2 ^ 32) with 4294967296; lia).
  assert (E' : fold_left crc32_byte s (fold_left crc32_byte x (fold_left crc32_byte p 4294967295)) = fold_left crc32_byte s (fold_left crc32_byte y (fold_left crc32_byte p 4294967295))) by lia. clear E.
  pose proof (step_r32 p HP _ R0) as RP. apply step_inj in E'; [|exact HS|apply step_r32; assumption..]. rewrite (fold_iter x), (fold_iter y) in E' by assumption. rewrite <- L4 in E'. apply iter_inj in E'; [|apply lxor_r32; [exact RP|apply word_range; [assumption|lia]]..].
  apply lxor_inj in E'. apply le_value_inj; assumption.
Qed.
