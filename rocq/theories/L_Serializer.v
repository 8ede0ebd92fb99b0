(** L_Serializer.v -- proofs about M_Serializer.v *)
From Verif Require Import Base M_Serializer S_Serializer.

Lemma lset_app_at {A} (p l : list A) k v : 0 <= k -> lset (p ++ l) (zlen p + k) v = option_map (app p) (lset l k v).
Proof.
  intros H. unfold lset, zlen. replace (Z.of_nat (length p) + k <? 0) with false by lia. replace (k <? 0) with false by lia.
  replace (Z.to_nat (Z.of_nat (length p) + k)) with (length p + Z.to_nat k)%nat by lia.
  generalize (Z.to_nat k) as n; intro n. clear. induction p as [|x p IH]; cbn [app length nset plus].
  - destruct (nset l n v); reflexivity.
  - rewrite IH. destruct (nset l n v); reflexivity.
Qed.
Lemma wr_at {A} (p l l' : list A) k v : 0 <= k -> lset l k v = Some l' -> wr (p ++ l) (zlen p + k) v = Val (p ++ l').
Proof. intros H E. unfold wr. rewrite lset_app_at by assumption. rewrite E. reflexivity. Qed.
Lemma rd_at {A} (p l : list A) k v : 0 <= k -> lget l k = Some v -> rd (p ++ l) (zlen p + k) = Val v.
Proof. intros H E. unfold rd. rewrite lget_app_r by lia. replace (zlen p + k - zlen p) with k by lia. rewrite E. reflexivity. Qed.
Lemma ix_id {A} (p : list A) k n : 0 <= k < n -> zlen p + n <= 2 ^ 32 -> ix (zlen p) k = zlen p + k.
Proof. intros H1 H2. unfold ix. apply u32_id. pose proof (zlen_nonneg p). change (2 ^ 32) with 4294967296 in H2. lia. Qed.
Lemma shiftr8 v : Z.shiftr v 8 = v / 256. Proof. rewrite Z.shiftr_div_pow2 by lia. reflexivity. Qed.
Ltac lens l n := 
  match n with
  | O => destruct l; [|discriminate]
  | S ?m => let x := fresh "x" in destruct l as [|x l]; [discriminate|]; lens l m
  end.
Ltac put p n := 
  intros p old s v HL HP; 
  repeat (destruct old as [|? old]; [first [discriminate HL|idtac]|]; try discriminate HL);
  try discriminate HL;
  cbn [app];
  repeat (rewrite (ix_id p _ n) by (first [lia|exact HP]));
  cbn [put_bytes];
  repeat (erewrite (wr_at p) by (first [lia|reflexivity]); cbn [bind]);
  rewrite ?shiftr8; reflexivity.
Lemma serLE16 : writes serializeLEInt16 2 (le_bytes 2). Proof. unfold writes, serializeLEInt16. put p 2. Qed.
Lemma serLEU16 : writes serializeLEUInt16 2 (le_bytes 2). Proof. unfold writes, serializeLEUInt16. put p 2. Qed.
Lemma serLE24 : writes serializeLEInt24 3 (le_bytes 3). Proof. unfold writes, serializeLEInt24. put p 3. Qed.
Lemma serLE32 : writes serializeLEInt32 4 (le_bytes 4). Proof. unfold writes, serializeLEInt32. put p 4. Qed.
Lemma serLE64 : writes serializeLEInt64 8 (le_bytes 8). Proof. unfold writes, serializeLEInt64. put p 8. Qed.
Lemma serBE16 : writes serializeBEInt16 2 (be_bytes 2). Proof. unfold writes, serializeBEInt16. put p 2. Qed.
Lemma serBE24 : writes serializeBEInt24 3 (be_bytes 3). Proof. unfold writes, serializeBEInt24. put p 3. Qed.
Lemma serBE32 : writes serializeBEInt32 4 (be_bytes 4). Proof. unfold writes, serializeBEInt32. put p 4. Qed.
Lemma serBE64 : writes serializeBEInt64 8 (be_bytes 8). Proof. unfold writes, serializeBEInt64. put p 8. Qed.

Lemma lor_add n x y : 0 <= n -> 0 <= y < 2 ^ n -> Z.lor (Z.shiftl x n) y = x * 2 ^ n + y.
Proof.
  intros Hn Hy. rewrite Z.shiftl_mul_pow2 by assumption.
  assert (L : Z.land (x * 2 ^ n) y = 0).
  { apply Z.bits_inj_0. intro i. rewrite Z.land_spec. destruct (Z.ltb_spec i n).
    - rewrite Z.mul_pow2_bits_low by assumption. reflexivity.
    - destruct (Z.eqb_spec y 0) as [->|]; [rewrite Z.bits_0; apply andb_false_r|].
      rewrite (Z.bits_above_log2 y); [apply andb_false_r|lia|]. apply Z.log2_lt_pow2; [lia|]. eapply Z.lt_le_trans; [apply Hy|]. apply Z.pow_le_mono_r; lia. }
  rewrite <- Z.lxor_lor by assumption. symmetry. apply Z.add_nocarry_lxor. assumption.
Qed.
Lemma lor4 x y z w : isbyte x -> isbyte y -> isbyte z -> isbyte w ->
  Z.lor (Z.lor (Z.lor (Z.shiftl x 24) (Z.shiftl y 16)) (Z.shiftl z 8)) w = x * 16777216 + y * 65536 + z * 256 + w.
Proof.
  unfold isbyte. intros Hx Hy Hz Hw.
  rewrite (lor_add 24 x) by (rewrite ?Z.shiftl_mul_pow2 by lia; change (2^24) with 16777216; change (2^16) with 65536; lia).
  rewrite Z.shiftl_mul_pow2 by lia.
  replace (x * 2 ^ 24 + y * 2 ^ 16) with ((x * 256 + y) * 2 ^ 16) by (change (2^24) with 16777216; change (2^16) with 65536; ring).
  rewrite <- (Z.shiftl_mul_pow2 (x * 256 + y)) by lia.
  rewrite (lor_add 16) by (rewrite ?Z.shiftl_mul_pow2 by lia; change (2^8) with 256; change (2^16) with 65536; lia).
  rewrite Z.shiftl_mul_pow2 by lia.
  replace ((x * 256 + y) * 2 ^ 16 + z * 2 ^ 8) with (((x * 256 + y) * 256 + z) * 2 ^ 8) by (change (2^8) with 256; change (2^16) with 65536; ring).
  rewrite <- (Z.shiftl_mul_pow2 ((x * 256 + y) * 256 + z)) by lia.
  rewrite (lor_add 8) by (change (2^8) with 256; lia). change (2^8) with 256. ring.
Qed.
Lemma get16_at p l s i j x y : zlen p + 8 <= 2 ^ 40 -> 0 <= i -> 0 <= j -> lget (l ++ s) i = Some x -> lget (l ++ s) j = Some y -> isbyte x -> isbyte y ->
  get16 (p ++ l ++ s) (zlen p + i) (zlen p + j) = Val (x * 256 + y).
Proof.
  intros _ Hi Hj Ei Ej Hx Hy. unfold get16. rewrite (rd_at p (l ++ s) i x) by assumption. cbn [bind]. rewrite (rd_at p (l ++ s) j y) by assumption. cbn [bind].
  rewrite lor_add by (unfold isbyte in *; change (2 ^ 8) with 256; lia). reflexivity.
Qed.
Lemma get32_at p l i j k m x y z w : 0 <= i -> 0 <= j -> 0 <= k -> 0 <= m ->
  lget l i = Some x -> lget l j = Some y -> lget l k = Some z -> lget l m = Some w -> isbyte x -> isbyte y -> isbyte z -> isbyte w ->
  get32 (p ++ l) (zlen p + i) (zlen p + j) (zlen p + k) (zlen p + m) = Val (s32 (x * 16777216 + y * 65536 + z * 256 + w)).
Proof.
  intros. unfold get32. rewrite (rd_at p l i x) by assumption. cbn [bind]. rewrite (rd_at p l j y) by assumption. cbn [bind].
  rewrite (rd_at p l k z) by assumption. cbn [bind]. rewrite (rd_at p l m w) by assumption. cbn [bind]. rewrite lor4 by assumption. reflexivity.
Qed.
Lemma u32_s32 x : u32 (s32 x) = u32 x.
Proof. unfold u32, s32. rewrite Zminus_mod_idemp_l. f_equal. lia. Qed.
Lemma s32_s32 x : s32 (s32 x) = s32 x.
Proof. unfold s32. replace ((x + 2147483648) mod 4294967296 - 2147483648 + 2147483648) with ((x + 2147483648) mod 4294967296) by lia. rewrite Z.mod_mod by lia. reflexivity. Qed.
Ltac bytes l HF := repeat (let x := fresh "x" in let H := fresh "H" in destruct l as [|x l]; [try discriminate|]; try discriminate; inversion HF as [|? ? H HF']; subst; clear HF; rename HF' into HF).
Ltac byt := repeat match goal with H : Forall isbyte (_ :: _) |- _ => apply Forall_cons_iff in H; destruct H end.
Ltac split_l l := repeat (destruct l as [|? l]; [try discriminate|]; try discriminate).
Ltac rng := unfold isbyte in *; lia.

Lemma desLEU16 : reads deserializeLEUInt16 2 le_value.
Proof.
  unfold reads, deserializeLEUInt16. intros p l s HL HP HF. split_l l. byt. rewrite !(ix_id p _ 2) by (first [lia|exact HP]).
  rewrite (get16_at p [z; z0] s 1 0 z0 z) by (try reflexivity; try assumption; try lia). cbn [bind le_value]. f_equal. rewrite u16_id by rng. lia.
Qed.
Lemma desLE16 : reads deserializeLEInt16 2 (fun l => signed 2 (le_value l)).
Proof.
  unfold reads, deserializeLEInt16. intros p l s HL HP HF. split_l l. byt. rewrite !(ix_id p _ 2) by (first [lia|exact HP]).
  rewrite (get16_at p [z; z0] s 1 0 z0 z) by (try reflexivity; try assumption; try lia). cbn [bind le_value]. f_equal. unfold signed, s16.
  change (256 ^ Z.of_nat 2) with 65536. cbv zeta. change (65536 / 2) with 32768. do 3 f_equal. lia.
Qed.
Lemma desBEU16 : reads deserializeBEUInt16 2 be_value.
Proof.
  unfold reads, deserializeBEUInt16. intros p l s HL HP HF. split_l l. byt. rewrite !(ix_id p _ 2) by (first [lia|exact HP]).
  rewrite (get16_at p [z; z0] s 0 1 z z0) by (try reflexivity; try assumption; try lia). cbn [bind be_value rev app le_value]. unfold be_value. cbn [rev app le_value]. f_equal. rewrite u16_id by rng. lia.
Qed.
Lemma desBE16 : reads deserializeBEInt16 2 (fun l => signed 2 (be_value l)).
Proof.
  unfold reads, deserializeBEInt16. intros p l s HL HP HF. split_l l. byt. rewrite !(ix_id p _ 2) by (first [lia|exact HP]).
  rewrite (get16_at p [z; z0] s 0 1 z z0) by (try reflexivity; try assumption; try lia). cbn [bind]. unfold be_value. cbn [rev app le_value]. f_equal. unfold signed, s16.
  change (256 ^ Z.of_nat 2) with 65536. cbv zeta. change (65536 / 2) with 32768. do 3 f_equal. lia.
Qed.
Lemma desLEU32 : reads deserializeLEUInt32 4 le_value.
Proof.
  unfold reads, deserializeLEUInt32. intros p l s HL HP HF. split_l l. byt. rewrite !(ix_id p _ 4) by (first [lia|exact HP]).
  rewrite (get32_at p ([z; z0; z1; z2] ++ s) 3 2 1 0 z2 z1 z0 z) by (try reflexivity; try assumption; try lia). cbn [bind le_value]. f_equal. rewrite u32_s32, u32_id by rng. lia.
Qed.
Lemma desLE32 : reads deserializeLEInt32 4 (fun l => signed 4 (le_value l)).
Proof.
  unfold reads, deserializeLEInt32. intros p l s HL HP HF. split_l l. byt. rewrite !(ix_id p _ 4) by (first [lia|exact HP]).
  rewrite (get32_at p ([z; z0; z1; z2] ++ s) 3 2 1 0 z2 z1 z0 z) by (try reflexivity; try assumption; try lia). cbn [bind le_value]. f_equal. rewrite s32_s32. unfold signed, s32.
  change (256 ^ Z.of_nat 4) with 4294967296. cbv zeta. change (4294967296 / 2) with 2147483648. do 3 f_equal. lia.
Qed.
Lemma BE32_at p l s : length l = 4%nat -> Forall isbyte l -> deserializeBEUInt32 (p ++ l ++ s) (zlen p) = Val (be_value l).
Proof.
  unfold deserializeBEUInt32. intros HL HF. split_l l. byt. replace (zlen p) with (zlen p + 0) at 1 by lia.
  rewrite (get32_at p ([z; z0; z1; z2] ++ s) 0 1 2 3 z z0 z1 z2) by (try reflexivity; try assumption; try lia). unfold be_value. cbn [bind rev app le_value]. f_equal. rewrite u32_s32, u32_id by rng. lia.
Qed.
Lemma desBEU32 : reads deserializeBEUInt32 4 be_value.
Proof. unfold reads. intros. now apply BE32_at. Qed.
Lemma desBE32 : reads deserializeBEInt32 4 (fun l => signed 4 (be_value l)).
Proof.
  unfold reads, deserializeBEInt32. intros p l s HL HP HF. split_l l. byt. replace (zlen p) with (zlen p + 0) at 1 by lia.
  rewrite (get32_at p ([z; z0; z1; z2] ++ s) 0 1 2 3 z z0 z1 z2) by (try reflexivity; try assumption; try lia). unfold be_value. cbn [bind rev app le_value]. f_equal. rewrite s32_s32. unfold signed, s32.
  change (256 ^ Z.of_nat 4) with 4294967296. cbv zeta. change (4294967296 / 2) with 2147483648. do 3 f_equal. lia.
Qed.
Lemma le_value_range l : Forall isbyte l -> 0 <= le_value l < 256 ^ zlen l.
Proof.
  induction 1 as [|x l Hx Hl IH]; [cbn; lia|]. cbn [le_value]. rewrite zlen_cons. pose proof (zlen_nonneg l). rewrite Z.pow_add_r by lia. unfold isbyte in Hx. lia.
Qed.
Lemma le_value_app a b : le_value (a ++ b) = le_value a + 256 ^ zlen a * le_value b.
Proof. induction a as [|x a IH]; [cbn [app le_value]; replace (256 ^ zlen (@nil Z)) with 1 by reflexivity; lia|]. cbn [app le_value]. rewrite IH, zlen_cons. pose proof (zlen_nonneg a). rewrite Z.pow_add_r by lia. lia. Qed.
Lemma s64_signed x : s64 x = signed 8 x.
Proof. reflexivity. Qed.
Lemma desLE64 : reads deserializeLEInt64 8 (fun l => signed 8 (le_value l)).
Proof.
  unfold reads, deserializeLEInt64. intros p l s HL HP HF.
  assert (E : exists l1 l2, l = l1 ++ l2 /\ length l1 = 4%nat /\ length l2 = 4%nat).
  { exists (firstn 4 l), (skipn 4 l). rewrite firstn_skipn, firstn_length, skipn_length. split; [reflexivity|lia]. }
  destruct E as (l1 & l2 & -> & H1 & H2). apply Forall_app in HF. destruct HF as [F1 F2].
  rewrite !(ix_id p _ 8) by (first [lia|exact HP]).
  replace (p ++ (l1 ++ l2) ++ s) with ((p ++ l1) ++ l2 ++ s) by (rewrite !app_assoc; reflexivity).
  replace (zlen p + 4) with (zlen (p ++ l1)) by (rewrite zlen_app; unfold zlen; lia).
  rewrite desLEU32 by (try assumption; rewrite zlen_app; unfold zlen in *; lia). cbn [bind].
  rewrite Z.add_0_r. rewrite <- app_assoc. rewrite desLEU32 by (try assumption; unfold zlen in *; lia). cbn [bind].
  pose proof (le_value_range l1 F1). replace (zlen l1) with 4 in H by (unfold zlen; lia).
  rewrite lor_add by (change (2 ^ 32) with (256 ^ 4); lia). rewrite s64_signed. f_equal. f_equal. rewrite le_value_app. replace (zlen l1) with 4 by (unfold zlen; lia). change (2 ^ 32) with (256 ^ 4). lia.
Qed.
Lemma desBE64 : reads deserializeBEInt64 8 (fun l => signed 8 (be_value l)).
Proof.
  unfold reads, deserializeBEInt64. intros p l s HL HP HF.
  assert (E : exists l1 l2, l = l1 ++ l2 /\ length l1 = 4%nat /\ length l2 = 4%nat).
  { exists (firstn 4 l), (skipn 4 l). rewrite firstn_skipn, firstn_length, skipn_length. split; [reflexivity|lia]. }
  destruct E as (l1 & l2 & -> & H1 & H2). apply Forall_app in HF. destruct HF as [F1 F2].
  rewrite !(ix_id p _ 8) by (first [lia|exact HP]).
  rewrite Z.add_0_r. rewrite <- (app_assoc l1). rewrite BE32_at by assumption. cbn [bind].
  replace (p ++ l1 ++ l2 ++ s) with ((p ++ l1) ++ l2 ++ s) by (rewrite !app_assoc; reflexivity).
  replace (zlen p + 4) with (zlen (p ++ l1)) by (rewrite zlen_app; unfold zlen; lia).
  rewrite BE32_at by assumption. cbn [bind].
  assert (F2' : Forall isbyte (rev l2)) by (apply Forall_rev; assumption).
  pose proof (le_value_range (rev l2) F2') as R. rewrite zlen_rev in R. replace (zlen l2) with 4 in R by (unfold zlen; lia). fold (be_value l2) in R.
  rewrite lor_add by (change (2 ^ 32) with (256 ^ 4); lia). rewrite s64_signed. f_equal. f_equal. unfold be_value. rewrite rev_app_distr, le_value_app. rewrite zlen_rev.
  replace (zlen l2) with 4 by (unfold zlen; lia). change (2 ^ 32) with (256 ^ 4). lia.
Qed.

Lemma le_bytes_length n v : length (le_bytes n v) = n.
Proof. revert v; induction n; intro v; cbn [le_bytes length]; [reflexivity|now rewrite IHn]. Qed.
Lemma le_bytes_bytes n v : Forall isbyte (le_bytes n v).
Proof. revert v; induction n; intro v; cbn [le_bytes]; constructor; [apply Z.mod_pos_bound; lia|apply IHn]. Qed.
Lemma le_value_bytes n v : le_value (le_bytes n v) = v mod 256 ^ Z.of_nat n.
Proof.
  revert v; induction n; intro v; [cbn; now rewrite Z.mod_1_r|]. cbn [le_bytes le_value]. rewrite IHn.
  rewrite Nat2Z.inj_succ, Z.pow_succ_r by lia. rewrite Z.rem_mul_r by lia. reflexivity.
Qed.
Lemma be_bytes_length n v : length (be_bytes n v) = n.
Proof. unfold be_bytes. now rewrite rev_length, le_bytes_length. Qed.
Lemma be_bytes_bytes n v : Forall isbyte (be_bytes n v).
Proof. apply Forall_rev, le_bytes_bytes. Qed.
Lemma be_value_bytes n v : be_value (be_bytes n v) = v mod 256 ^ Z.of_nat n.
Proof. unfold be_value, be_bytes. rewrite rev_involutive. apply le_value_bytes. Qed.
Lemma signed_mod n v : signed n (v mod 256 ^ Z.of_nat n) = signed n v.
Proof. unfold signed. cbv zeta. rewrite Zplus_mod_idemp_l. reflexivity. Qed.
Lemma signed_id n v : - (256 ^ Z.of_nat n / 2) <= v < 256 ^ Z.of_nat n / 2 -> signed n v = v.
Proof.
  intro H. unfold signed. cbv zeta. rewrite Z.mod_small; [lia|]. 
  assert (256 ^ Z.of_nat n / 2 * 2 <= 256 ^ Z.of_nat n) by (rewrite Z.mul_comm; apply Z.mul_div_le; lia). lia.
Qed.
(** reading back what was written *)
Lemma back f g n bytes value : writes f n bytes -> reads g n value -> (forall v, length (bytes v) = n) -> (forall v, Forall isbyte (bytes v)) ->
  forall b o v, 0 <= o -> o + Z.of_nat n <= zlen b -> o + Z.of_nat n <= 2 ^ 32 -> exists b', f b o v = Val (Z.of_nat n, b') /\ g b' o = Val (value (bytes v)).
Proof.
  intros W R L B b o v H1 H2 H3.
  destruct (split_len b o) as (p & r & -> & Hp); [lia|].
  assert (E : exists old s, r = old ++ s /\ length old = n).
  { exists (firstn n r), (skipn n r). rewrite firstn_skipn, firstn_length. rewrite zlen_app in H2. unfold zlen in *. split; [reflexivity|lia]. }
  destruct E as (old & s & -> & Ho). subst o. exists (p ++ bytes v ++ s). split; [apply W; assumption|]. apply R; auto.
Qed.
Lemma out_of (f : list Z -> Z -> Z -> out (Z * list Z)) (n : Z) (k : list Z) : (forall b o v, f b o v = let* b := put_bytes b (map (ix o) k) v in Val (n, b)) -> 
  forall b o v, 0 <= o -> (exists i, In i k /\ zlen b <= o + i /\ 0 <= i /\ o + i < 2 ^ 32) -> f b o v = UB.
Proof.
  intros F b o v Ho (i & Hi & H1 & H2 & H3). rewrite F.
  assert (put_bytes b (map (ix o) k) v = UB); [|rewrite H; reflexivity].
  clear F. revert b v Hi H1. induction k as [|j k IH]; intros b v Hi H1; [destruct Hi|]. cbn [map put_bytes].
  destruct Hi as [-> |Hi].
  - rewrite wr_out; [reflexivity|]. right. unfold ix. rewrite u32_id by (change (2 ^ 32) with 4294967296 in H3; lia). assumption.
  - unfold wr. destruct (lset b (ix o j) (u8 v)) eqn:E; [|reflexivity]. cbn [bind]. apply IH; [assumption|]. apply lset_zlen in E. lia.
Qed.
