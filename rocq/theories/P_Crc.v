(** P_Crc.v -- properties C03, C04. *)
From Verif Require Import Base M_Crc S_Crc L_Crc.

Theorem C03_crc_is_bitwise_crc16 : forall initial buf,
  unit16 initial -> Forall byte buf -> zlen buf < 4294967296 ->
  crc8 initial buf (zlen buf) = Val (crc16 initial buf).
Proof. exact crc8_spec. Qed.
Print Assumptions C03_crc_is_bitwise_crc16.

(** feeding the data in two calls *)
Theorem C03_crc_chunks : forall initial a b,
  unit16 initial -> Forall byte (a ++ b) -> zlen (a ++ b) < 4294967296 ->
  crc8 initial (a ++ b) (zlen (a ++ b)) =
  (let* r := crc8 initial a (zlen a) in crc8 r b (zlen b)).
Proof.
  intros r a b Hr HB HL. pose proof HB as HB'. apply Forall_app in HB' as [Ha Hb].
  rewrite zlen_app in HL. pose proof (zlen_nonneg a). pose proof (zlen_nonneg b).
  rewrite (crc8_spec r a) by (assumption || lia). cbn [bind].
  rewrite !crc8_spec; try assumption; try (rewrite ?zlen_app; lia).
  - now rewrite crc16_app.
  - now apply crc16_range.
Qed.
Print Assumptions C03_crc_chunks.
Example C03_example : crc8 0 [49; 50; 51; 52; 53; 54; 55; 56; 57] 9 = Val 47933  (* 0xBB3D, CRC-16/ARC check value *)
  /\ unit16 0.
Proof. split; [vm_compute; reflexivity|unfold unit16; lia]. Qed.

(** C04: any change of one byte, or of two adjacent bytes, changes the checksum *)
Theorem C04_single_byte_error_detected : forall initial p s b b',
  unit16 initial -> Forall byte (p ++ b :: s) -> byte b' -> b <> b' ->
  zlen (p ++ b :: s) < 4294967296 ->
  crc8 initial (p ++ b :: s) (zlen (p ++ b :: s)) <> crc8 initial (p ++ b' :: s) (zlen (p ++ b' :: s)).
Proof.
  intros r p s b b' Hr HB Hb' Hne HL. apply Forall_app in HB as HB'. destruct HB' as [Hp Hbs].
  inversion_clear Hbs as [|? ? Hb Hs].
  rewrite !crc8_spec; try assumption.
  - intros E. injection E as E. rewrite !crc16_app in E. unfold crc16 at 1 3 in E. cbn [fold_left] in E.
    assert (Hq := crc16_range p r Hr Hp).
    apply crc16_inj_state in E; auto using crc_byte_range. apply crc_byte_inj_data in E; auto.
  - apply Forall_app; split; auto.
  - rewrite zlen_app, zlen_cons in *. lia.
Qed.
Print Assumptions C04_single_byte_error_detected.

Theorem C04_two_byte_burst_detected : forall initial p s a b a' b',
  unit16 initial -> Forall byte (p ++ a :: b :: s) -> byte a' -> byte b' -> (a, b) <> (a', b') ->
  zlen (p ++ a :: b :: s) < 4294967296 ->
  crc8 initial (p ++ a :: b :: s) (zlen (p ++ a :: b :: s))
  <> crc8 initial (p ++ a' :: b' :: s) (zlen (p ++ a' :: b' :: s)).
Proof.
  intros r p s a b a' b' Hr HB Ha' Hb' Hne HL. apply Forall_app in HB as HB'. destruct HB' as [Hp Hbs].
  inversion_clear Hbs as [|? ? Ha Hs0]. inversion_clear Hs0 as [|? ? Hb Hs].
  rewrite !crc8_spec; try assumption.
  - intros E. injection E as E. rewrite !crc16_app in E. unfold crc16 at 1 3 in E. cbn [fold_left] in E.
    assert (Hq := crc16_range p r Hr Hp).
    apply crc16_inj_state in E; auto 6 using crc_byte_range.
    apply crc_two_bytes_inj in E as [-> ->]; auto.
  - apply Forall_app; split; auto.
  - rewrite zlen_app, !zlen_cons in *. lia.
Qed.
Print Assumptions C04_two_byte_burst_detected.
Example C04_example : Forall byte ([1; 2] ++ 3 :: [4]) /\ byte 7 /\ 3 <> 7
  /\ crc8 65535 [1; 2; 3; 4] 4 = Val 11169 /\ crc8 65535 [1; 2; 7; 4] 4 <> Val 11169.
Proof. split; [cbn [app]; repeat constructor; unfold byte; lia|]. split; [unfold byte; lia|].
  split; [lia|]. split; vm_compute; congruence. Qed.
