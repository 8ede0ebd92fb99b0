(** L_Zip.v -- lemmas on CRC-32, records and files. *)
From Verif Require Import Base M_Utf8 S_Utf8 L_Utf8 M_Serializer S_Serializer L_Serializer M_Inflate S_Inflate M_Zip S_Zip.
Ltac Zify.zify_post_hook ::= Z.to_euclidean_division_equations.

(** ** CRC *)
Lemma bits_crc n : forall crc ch x, 0 <= x -> (forall j, 0 <= j < Z.of_nat n -> Z.testbit ch j = Z.testbit x j) -> 0 <= crc ->
  Z.lxor (crc32_bits n crc ch) (Z.shiftr x (Z.of_nat n)) = Nat.iter n crc32_bit (Z.lxor crc x).
Proof.
  induction n as [|n IH]; intros crc ch x Hx HB HC.
  - cbn [crc32_bits Nat.iter Z.of_nat]. rewrite Z.shiftr_0_r. reflexivity.
  - cbn [crc32_bits]. 
    assert (E : Nat.iter (S n) crc32_bit (Z.lxor crc x) = Nat.iter n crc32_bit (crc32_bit (Z.lxor crc x))).
    { generalize (Z.lxor crc x). clear. induction n as [|n IH]; intros y; [reflexivity|]. change (crc32_bit (Nat.iter (S n) crc32_bit y) = crc32_bit (Nat.iter n crc32_bit (crc32_bit y))). f_equal. apply IH. }
    rewrite E. clear E.
    assert (L1 : Z.land (Z.lxor (u32 ch) crc) 1 = Z.b2z (Z.odd (Z.lxor crc x))).
    { change 1 with (Z.ones 1) at 1. rewrite Z.land_ones by lia. change (2 ^ 1) with 2. rewrite Zmod_odd. rewrite <- !Z.bit0_odd. rewrite !Z.lxor_spec. unfold u32. change 4294967296 with (2 ^ 32). rewrite Z.mod_pow2_bits_low by lia. rewrite HB by lia. rewrite xorb_comm. destruct (xorb _ _); reflexivity. }
    assert (L2 : Z.lxor (if Z.land (Z.lxor (u32 ch) crc) 1 =? 0 then Z.shiftr crc 1 else Z.lxor (Z.shiftr crc 1) 3988292384) (Z.shiftr x 1) = crc32_bit (Z.lxor crc x)).
    { rewrite L1. unfold crc32_bit. rewrite <- (Z.shiftr_div_pow2 _ 1) by lia. rewrite Z.shiftr_lxor. destruct (Z.odd _); cbn [Z.b2z Z.eqb]; [|reflexivity]. rewrite !Z.lxor_assoc. f_equal. apply Z.lxor_comm. }
    rewrite <- L2. rewrite <- (IH _ (Z.shiftr ch 1)).
    + f_equal. rewrite Z.shiftr_shiftr by lia. f_equal. lia.
    + apply Z.shiftr_nonneg. exact Hx.
    + intros j Hj. rewrite !Z.shiftr_spec by lia. apply HB. lia.
    + destruct (_ =? 0); [apply Z.shiftr_nonneg; exact HC|]. apply Z.lxor_nonneg. split; intros; [lia|]. apply Z.shiftr_nonneg. exact HC.
Qed.
Lemma crc_byte_eq crc b : byte b -> 0 <= crc -> crc32_bits 8 crc (s8 b) = crc32_byte crc b.
Proof.
  intros HB HC. unfold crc32_byte. rewrite <- (bits_crc 8 crc (s8 b) b); [|unfold byte in HB; lia| |exact HC].
  - change (Z.of_nat 8) with 8. rewrite Z.shiftr_div_pow2 by lia. rewrite Z.div_small by exact HB. rewrite Z.lxor_0_r. reflexivity.
  - intros j Hj. rewrite <- (Z.mod_pow2_bits_low (s8 b) 8 j) by lia. rewrite <- (Z.mod_pow2_bits_low b 8 j) by lia. f_equal. unfold s8. change (2 ^ 8) with 256. lia.
Qed.
Lemma crc32_bit_range r : 0 <= r < 2 ^ 32 -> 0 <= crc32_bit r < 2 ^ 32.
Proof.
  intros H. unfold crc32_bit. assert (0 <= r / 2 < 2 ^ 31) by (change (2 ^ 32) with (2 * 2 ^ 31) in H; split; [apply Z.div_pos; lia|apply Z.div_lt_upper_bound; lia]).
  destruct (Z.odd r); [|lia]. split; [apply Z.lxor_nonneg; lia|].
  destruct (Z.eq_dec (Z.lxor (r / 2) 3988292384) 0) as [->|N]; [lia|]. apply Z.log2_lt_pow2; [assert (0 <= Z.lxor (r / 2) 3988292384) by (apply Z.lxor_nonneg; lia); lia|].
  eapply Z.le_lt_trans; [apply Z.log2_lxor; lia|]. apply Z.max_lub_lt; [|reflexivity]. destruct (Z.eq_dec (r / 2) 0) as [->|]; [reflexivity|]. apply Z.log2_lt_pow2; lia.
Qed.
Lemma crc32_byte_range r b : 0 <= r < 2 ^ 32 -> byte b -> 0 <= crc32_byte r b < 2 ^ 32.
Proof.
  intros H HB. unfold crc32_byte.
  assert (X : 0 <= Z.lxor r b < 2 ^ 32).
  { unfold byte in HB. split; [apply Z.lxor_nonneg; lia|]. destruct (Z.eq_dec (Z.lxor r b) 0) as [->|N]; [lia|]. apply Z.log2_lt_pow2; [assert (0 <= Z.lxor r b) by (apply Z.lxor_nonneg; lia); lia|].
    eapply Z.le_lt_trans; [apply Z.log2_lxor; lia|]. apply Z.max_lub_lt; [destruct (Z.eq_dec r 0) as [->|]; [reflexivity|]; apply Z.log2_lt_pow2; lia|destruct (Z.eq_dec b 0) as [->|]; [reflexivity|]; apply Z.log2_lt_pow2; lia]. }
  cbn [Nat.iter]. do 8 apply crc32_bit_range. exact X.
Qed.
Lemma crc_fold_range l : forall r, 0 <= r < 2 ^ 32 -> Forall byte l -> 0 <= fold_left crc32_byte l r < 2 ^ 32.
Proof. induction l as [|b l IH]; intros r H F; [exact H|]. inversion_clear F. cbn [fold_left]. apply IH; [apply crc32_byte_range; assumption|assumption]. Qed.
Lemma crc_loop_eq l : forall r, 0 <= r < 2 ^ 32 -> Forall byte l -> crc32_loop l r = fold_left crc32_byte l r.
Proof. induction l as [|b l IH]; intros r H F; [reflexivity|]. inversion_clear F. cbn [crc32_loop fold_left]. rewrite crc_byte_eq by (assumption || lia). apply IH; [apply crc32_byte_range; assumption|assumption]. Qed.
Lemma crc_ok l : Forall byte l -> CRC32 l = crc32 l.
Proof.
  intros F. unfold CRC32, crc32. rewrite crc_loop_eq by (try assumption; lia). pose proof (crc_fold_range l 4294967295 ltac:(lia) F) as R. change (2 ^ 32) with 4294967296 in R.
  unfold u32, Z.lnot. lia.
Qed.
Lemma crc_range l : Forall byte l -> 0 <= crc32 l < 4294967296.
Proof. intros F. unfold crc32. pose proof (crc_fold_range l 4294967295 ltac:(lia) F) as R. change (2 ^ 32) with 4294967296 in R. lia. Qed.

(** ** records *)
Lemma le2 v : le_bytes 2 v = [v mod 256; v / 256 mod 256]. Proof. reflexivity. Qed.
Lemma le4 v : le_bytes 4 v = [v mod 256; v / 256 mod 256; v / 256 / 256 mod 256; v / 256 / 256 / 256 mod 256]. Proof. reflexivity. Qed.
Lemma le_zlen n v : zlen (le_bytes n v) = Z.of_nat n.
Proof. revert v. induction n as [|n IH]; intros v; [reflexivity|]. cbn [le_bytes]. rewrite zlen_cons, IH. lia. Qed.
Lemma le_bytes_byte n v : Forall byte (le_bytes n v).
Proof. revert v. induction n as [|n IH]; intros v; cbn [le_bytes]; constructor; [unfold byte; lia|apply IH]. Qed.
Lemma le_back n v : 0 <= v < 256 ^ Z.of_nat n -> le_value (le_bytes n v) = v.
Proof.
  revert v. induction n as [|n IH]; intros v H; [cbn in *; lia|]. cbn [le_bytes le_value]. rewrite Nat2Z.inj_succ, Z.pow_succ_r in H by lia. rewrite IH; [lia|]. split; [apply Z.div_pos; lia|apply Z.div_lt_upper_bound; lia].
Qed.
Lemma put16_at p old s v : length old = 2%nat -> zlen p + 2 <= 2 ^ 32 -> put16 (zlen p) v (p ++ old ++ s) = Val (p ++ le_bytes 2 v ++ s).
Proof.
  intros H1 H2. unfold put16. rewrite (serLE16 p old s (s16 v) H1 H2). cbn [bind]. f_equal. f_equal. f_equal. rewrite !le2. unfold s16. repeat (apply (f_equal2 cons); [lia|]). reflexivity.
Qed.
Lemma put32_at p old s v : length old = 4%nat -> zlen p + 4 <= 2 ^ 32 -> put32 (zlen p) v (p ++ old ++ s) = Val (p ++ le_bytes 4 v ++ s).
Proof.
  intros H1 H2. unfold put32. rewrite (serLE32 p old s (s32 v) H1 H2). cbn [bind]. f_equal. f_equal. f_equal. rewrite !le4. unfold s32. repeat (apply (f_equal2 cons); [lia|]). reflexivity.
Qed.
Ltac cells := match goal with |- ?l = _ => let r := eval cbv -[u8 s16 s32 Z.shiftr] in l in change l with r end; apply f_equal;
  unfold local, central, ending, meta_bytes; rewrite ?zlen_nil, ?le2, ?le4; cbn [app version flags method time date crc csize usize]; 
  repeat (apply (f_equal2 cons); [unfold u8, s16, s32; rewrite ?shiftr8; lia|]); try reflexivity.
Lemma local_header_ok nl el : local_header nl el = Val (le_bytes 4 67324752 ++ meta_bytes (Meta 0 0 0 0 0 0 0 0) ++ le_bytes 2 nl ++ le_bytes 2 el).
Proof. cells. Qed.
Lemma central_header_ok e nl el cl : central_header e nl el cl =
  Val (le_bytes 4 33639248 ++ le_bytes 2 0 ++ meta_bytes (Meta 0 0 0 0 0 (ecrc e) (ecsize e) (eusize e)) ++ le_bytes 2 nl ++ le_bytes 2 el ++ le_bytes 2 cl ++ repeat 0 8 ++ le_bytes 4 (eoff e)).
Proof. destruct e as [n x c us cs of cr da]. cbn [ecrc ecsize eusize eoff repeat]. cells. Qed.
Lemma end_record_ok count size start : end_record count size start = Val (ending (le_bytes 2 0 ++ le_bytes 2 0 ++ le_bytes 2 count) count size start []).
Proof. cells. Qed.
Lemma patch_ok c u : (let* b := put32 0 c (repeat 0 12) in let* b := put32 4 u b in put32 8 u b) = Val (le_bytes 4 c ++ le_bytes 4 u ++ le_bytes 4 u).
Proof. cells. Qed.
