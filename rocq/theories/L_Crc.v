From Verif Require Import Base M_Crc S_Crc.

Definition bit8 (r : Z) : Z := crc_bit (crc_bit (crc_bit (crc_bit (crc_bit (crc_bit (crc_bit (crc_bit r))))))).
Lemma crc_byte_bit8 r b : crc_byte r b = bit8 (Z.lxor r b).
Proof. reflexivity. Qed.
Definition tab (a : Z) : Z := nth (Z.to_nat a) crctable 0.

Lemma rd_tab a : 0 <= a < 256 -> rd crctable a = Val (tab a) /\ 0 <= tab a < 65536.
Proof.
  intros H. assert (S : (match rd crctable a with Val x => (x =? tab a) | _ => false end
     && (0 <=? tab a) && (tab a <? 65536)) = true)
    by (revert a H; apply (sweep 256); vm_compute; reflexivity).
  destruct (rd crctable a); try discriminate. split; [f_equal|]; lia.
Qed.

Lemma bit8_tab x : 0 <= x < 65536 -> bit8 x = Z.lxor (Z.shiftr x 8) (tab (Z.land x 255)).
Proof.
  intros H. enough (E : (bit8 x =? Z.lxor (Z.shiftr x 8) (tab (Z.land x 255))) = true) by lia.
  revert x H. apply (zall2_spec (fun x => bit8 x =? Z.lxor (Z.shiftr x 8) (tab (Z.land x 255))) 16 0).
  vm_compute; reflexivity.
Qed.

Lemma land_range x n : 0 <= n -> 0 <= Z.land x (2 ^ n - 1) < 2 ^ n.
Proof. intros. replace (2 ^ n - 1) with (Z.ones n) by (rewrite Z.ones_equiv; lia).
  rewrite Z.land_ones by lia. apply Z.mod_pos_bound. apply Z.pow_pos_nonneg; lia. Qed.
Lemma lxor_range a b n : 0 <= n -> 0 <= a < 2 ^ n -> 0 <= b < 2 ^ n -> 0 <= Z.lxor a b < 2 ^ n.
Proof.
  intros Hn Ha Hb. assert (Z.lxor a b = Z.lxor a b mod 2 ^ n) as ->.
  { rewrite <- Z.land_ones by lia. apply Z.bits_inj'. intros k Hk.
    rewrite Z.land_spec, Z.lxor_spec. destruct (Z.ltb_spec k n).
    - rewrite Z.ones_spec_low by lia. now rewrite andb_true_r.
    - replace a with (a mod 2 ^ n) by (apply Z.mod_small; lia).
      replace b with (b mod 2 ^ n) by (apply Z.mod_small; lia).
      rewrite !Z.mod_pow2_bits_high by lia. reflexivity. }
  apply Z.mod_pos_bound. apply Z.pow_pos_nonneg; lia.
Qed.
Lemma lxor16 a b : unit16 a -> unit16 b -> unit16 (Z.lxor a b).
Proof. intros; apply (lxor_range a b 16); auto; lia. Qed.
Lemma byte16 b : byte b -> unit16 b. Proof. unfold byte, unit16; lia. Qed.

Lemma shiftr8_byte b : byte b -> Z.shiftr b 8 = 0.
Proof. intros H. rewrite Z.shiftr_div_pow2 by lia. apply Z.div_small. exact H. Qed.
Lemma land255_byte b : byte b -> Z.land b 255 = b.
Proof. intros H. change 255 with (Z.ones 8). rewrite Z.land_ones by lia. apply Z.mod_small. exact H. Qed.
Lemma land255_range x : byte (Z.land x 255).
Proof. apply (land_range x 8). lia. Qed.

(** one round of the code = eight bit steps *)
Definition code_step (r b : Z) : Z := Z.lxor (Z.shiftr r 8) (tab (Z.land (Z.lxor r b) 255)).
Lemma crc_byte_code r b : unit16 r -> byte b -> crc_byte r b = code_step r b.
Proof.
  intros Hr Hb. rewrite crc_byte_bit8.
  rewrite bit8_tab by (apply lxor16; [exact Hr|now apply byte16]). unfold code_step.
  rewrite Z.shiftr_lxor, (shiftr8_byte b Hb), Z.lxor_0_r. reflexivity.
Qed.
Lemma code_step_range r b : unit16 r -> unit16 (code_step r b).
Proof.
  intros Hr. apply lxor16.
  - unfold unit16 in *. rewrite Z.shiftr_div_pow2 by lia. change (2 ^ 8) with 256.
    split; [apply Z.div_pos; lia|apply Z.div_lt_upper_bound; lia].
  - apply rd_tab. apply land255_range.
Qed.

Lemma crc_loop_spec : forall buf r, unit16 r -> Forall byte buf ->
  crc_loop (length buf) r buf = Val (crc16 r buf) /\ unit16 (crc16 r buf).
Proof.
  induction buf as [|b buf IH]; intros r Hr HB; [split; [reflexivity|exact Hr]|].
  inversion_clear HB as [|? ? Hb HB']. cbn [length crc_loop]. unfold crc16. cbn [fold_left].
  rewrite crc_byte_code by assumption. fold (crc16 (code_step r b) buf).
  pose proof (land255_range r) as Hl.
  assert (H16 := Hr). unfold unit16, byte in Hr, Hl, Hb.
  rewrite (u8_id (Z.land r 255)) by exact Hl.
  rewrite (u8_id (Z.lxor b (Z.land r 255))) by (apply (lxor_range b (Z.land r 255) 8); [lia|exact Hb|exact Hl]).
  replace (Z.land (Z.lxor b (Z.land r 255)) 255) with (Z.land (Z.lxor r b) 255).
  2:{ apply Z.bits_inj'. intros k Hk. rewrite !Z.land_spec, !Z.lxor_spec, Z.land_spec.
      destruct (Z.testbit r k), (Z.testbit b k), (Z.testbit 255 k); reflexivity. }
  destruct (rd_tab (Z.land (Z.lxor r b) 255) (land255_range _)) as [-> Ht]. cbn [bind].
  pose proof (land255_range (Z.shiftr r 8)) as Hs. unfold byte in Hs.
  rewrite (u16_id (Z.land (Z.shiftr r 8) 255)) by lia.
  assert (E : Z.land (Z.shiftr r 8) 255 = Z.shiftr r 8).
  { apply land255_byte. unfold byte. rewrite Z.shiftr_div_pow2 by lia. change (2 ^ 8) with 256.
    split; [apply Z.div_pos; lia|apply Z.div_lt_upper_bound; lia]. }
  rewrite E. fold (code_step r b). rewrite u16_id by (apply code_step_range; exact H16).
  apply IH; [apply code_step_range; exact H16|exact HB'].
Qed.

Lemma crc8_spec r buf : unit16 r -> Forall byte buf -> zlen buf < 4294967296 ->
  crc8 r buf (zlen buf) = Val (crc16 r buf).
Proof.
  intros Hr HB HL. unfold crc8. rewrite u32_id by (pose proof (zlen_nonneg buf); lia).
  rewrite u16_id by exact Hr. unfold zlen. rewrite Nat2Z.id. apply crc_loop_spec; assumption.
Qed.

(** injectivity *)
Definition unbit (y : Z) : Z := if y <? 32768 then y * 2 else Z.lxor y 40961 * 2 + 1.
Definition unbit8 (y : Z) : Z := unbit (unbit (unbit (unbit (unbit (unbit (unbit (unbit y))))))).
Lemma unbit8_bit8 x : unit16 x -> unbit8 (bit8 x) = x.
Proof.
  intros H. enough (E : (unbit8 (bit8 x) =? x) = true) by lia.
  revert x H. apply (zall2_spec (fun x => unbit8 (bit8 x) =? x) 16 0). vm_compute; reflexivity.
Qed.
Lemma bit8_inj x y : unit16 x -> unit16 y -> bit8 x = bit8 y -> x = y.
Proof. intros Hx Hy E. rewrite <- (unbit8_bit8 x Hx), <- (unbit8_bit8 y Hy). now rewrite E. Qed.
Lemma lxor_cancel_r a b c : Z.lxor a c = Z.lxor b c -> a = b.
Proof. intros E. apply (f_equal (fun z => Z.lxor z c)) in E.
  rewrite !Z.lxor_assoc, Z.lxor_nilpotent, !Z.lxor_0_r in E. exact E. Qed.
Lemma crc_byte_inj_state r r' b : unit16 r -> unit16 r' -> byte b -> crc_byte r b = crc_byte r' b -> r = r'.
Proof.
  intros Hr Hr' Hb E. apply (lxor_cancel_r r r' b). rewrite !crc_byte_bit8 in E; apply bit8_inj; [| |exact E];
  apply lxor16; auto using byte16.
Qed.
Lemma crc_byte_inj_data r b b' : unit16 r -> byte b -> byte b' -> crc_byte r b = crc_byte r b' -> b = b'.
Proof.
  intros Hr Hb Hb' E. apply (lxor_cancel_r b b' r). rewrite !(Z.lxor_comm _ r).
  rewrite !crc_byte_bit8 in E; apply bit8_inj; [| |exact E]; apply lxor16; auto using byte16.
Qed.
Lemma crc_byte_range r b : unit16 r -> byte b -> unit16 (crc_byte r b).
Proof. intros Hr Hb. rewrite crc_byte_code by assumption. now apply code_step_range. Qed.
Lemma crc16_range buf r : unit16 r -> Forall byte buf -> unit16 (crc16 r buf).
Proof. intros; now apply crc_loop_spec. Qed.
Lemma crc16_app r a b : crc16 r (a ++ b) = crc16 (crc16 r a) b.
Proof. apply fold_left_app. Qed.
Lemma crc16_inj_state s : forall r r', unit16 r -> unit16 r' -> Forall byte s -> crc16 r s = crc16 r' s -> r = r'.
Proof.
  induction s as [|b s IH]; intros r r' Hr Hr' HB E; [exact E|].
  inversion_clear HB as [|? ? Hb HB']. unfold crc16 in E; cbn [fold_left] in E.
  apply IH in E; auto using crc_byte_range. now apply crc_byte_inj_state in E.
Qed.

(** two adjacent bytes *)
Definition tabhi_ok (a a' : Z) : bool := negb (Z.shiftr (Z.lxor (tab a) (tab a')) 8 =? 0) || (a =? a').
Lemma tabhi : forallb (fun a => forallb (tabhi_ok a) (zrange 256)) (zrange 256) = true.
Proof. vm_compute; reflexivity. Qed.
Lemma tabhi_inj a a' : byte a -> byte a' -> Z.shiftr (Z.lxor (tab a) (tab a')) 8 = 0 -> a = a'.
Proof.
  intros Ha Ha' H. pose proof tabhi as S. rewrite forallb_forall in S.
  specialize (S a (proj2 (in_zrange 256 a) Ha)). rewrite forallb_forall in S.
  specialize (S a' (proj2 (in_zrange 256 a') Ha')). unfold tabhi_ok in S. rewrite H in S.
  change (0 =? 0) with true in S. cbn [negb orb] in S. lia.
Qed.
Lemma crc_two_bytes_inj r a b a' b' : unit16 r -> byte a -> byte b -> byte a' -> byte b' ->
  crc_byte (crc_byte r a) b = crc_byte (crc_byte r a') b' -> a = a' /\ b = b'.
Proof.
  intros Hr Ha Hb Ha' Hb' E.
  pose proof (crc_byte_range r a Hr Ha) as R1. pose proof (crc_byte_range r a' Hr Ha') as R2.
  assert (E1 : Z.lxor (crc_byte r a) b = Z.lxor (crc_byte r a') b').
  { rewrite (crc_byte_bit8 _ b), (crc_byte_bit8 _ b') in E. apply bit8_inj; [| |exact E]; apply lxor16; auto using byte16. }
  assert (E2 : Z.lxor (crc_byte r a) (crc_byte r a') = Z.lxor b b').
  { apply Z.bits_inj'. intros k Hk. apply (f_equal (fun z => Z.testbit z k)) in E1.
    rewrite !Z.lxor_spec in *. destruct (Z.testbit (crc_byte r a) k), (Z.testbit b k),
      (Z.testbit (crc_byte r a') k), (Z.testbit b' k); cbn in *; congruence. }
  apply (f_equal (fun z => Z.shiftr z 8)) in E2.
  rewrite (Z.shiftr_lxor b b'), (shiftr8_byte b Hb), (shiftr8_byte b' Hb'), Z.lxor_0_r in E2.
  assert (Z.land (Z.lxor r a) 255 = Z.land (Z.lxor r a') 255) as EL.
  { apply tabhi_inj; try apply land255_range. rewrite <- E2. f_equal.
    rewrite !crc_byte_code by assumption. unfold code_step. apply Z.bits_inj'. intros k Hk.
    rewrite !Z.lxor_spec. destruct (Z.testbit (Z.shiftr r 8) k), (Z.testbit (tab (Z.land (Z.lxor r a) 255)) k),
      (Z.testbit (tab (Z.land (Z.lxor r a') 255)) k); reflexivity. }
  assert (EA : a = a').
  { rewrite <- (land255_byte a Ha), <- (land255_byte a' Ha'). apply Z.bits_inj'. intros k Hk.
    apply (f_equal (fun z => Z.testbit z k)) in EL. rewrite !Z.land_spec, !Z.lxor_spec in *.
    destruct (Z.testbit r k), (Z.testbit a k), (Z.testbit a' k), (Z.testbit 255 k); cbn in *; congruence. }
  split; [exact EA|]. subst a'. now apply crc_byte_inj_data in E.
Qed.
