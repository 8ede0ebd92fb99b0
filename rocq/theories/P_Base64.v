(** P_Base64.v -- properties C01, C02, C55. *)
From Verif Require Import Base M_Base64 S_Base64 L_Base64.
Ltac Zify.zify_post_hook ::= Z.to_euclidean_division_equations.

(** C02: Base64::encode is the RFC 4648 encoding; the model would answer [UB] for a write outside the
    allocated block and [Exn] for the overflow exception, so neither happens. *)
Theorem C02_encode_is_rfc4648 : forall data, Forall byte data -> b64_encode data = Val (rfc_encode data).
Proof. exact encode_rfc. Qed.
Print Assumptions C02_encode_is_rfc4648.

Theorem C02_encode_length : forall data out, Forall byte data -> b64_encode data = Val out ->
  zlen out = 4 * ((zlen data + 2) / 3).
Proof. intros d o H E. rewrite encode_rfc in E by exact H. injection E as <-. exact (rfc_len d). Qed.
Print Assumptions C02_encode_length.

(** C01: what the round trip really gives *)
Theorem C01_roundtrip : forall data text, Forall byte data -> zlen data <= 536870900 ->
  b64_encode data = Val text ->
  b64_decode text = Val (if zlen data mod 3 =? 0 then data else data ++ [0]).
Proof.
  intros d t HB HL E. rewrite encode_rfc in E by exact HB. injection E as <-.
  rewrite decode_rfc; [|exact HB|unfold groups; pose proof (zlen_nonneg d); lia].
  unfold extra. destruct (zlen d mod 3 =? 0); [now rewrite app_nil_r|reflexivity].
Qed.
Print Assumptions C01_roundtrip.

(** the plain round trip is false for every length that is not a multiple of three *)
Theorem C01_exact_roundtrip_refuted : forall data text, Forall byte data -> zlen data <= 536870900 ->
  zlen data mod 3 <> 0 -> b64_encode data = Val text -> b64_decode text <> Val data.
Proof.
  intros d t HB HL HM E. rewrite (C01_roundtrip d t HB HL E).
  destruct (Z.eqb_spec (zlen d mod 3) 0); [contradiction|].
  intros H. injection H as H. apply (f_equal zlen) in H. rewrite zlen_app, zlen_cons, zlen_nil in H. lia.
Qed.
Print Assumptions C01_exact_roundtrip_refuted.

(** C01: encoding loses nothing: different inputs have different encodings *)
Theorem C01_encode_injective : forall d1 d2, Forall byte d1 -> Forall byte d2 ->
  zlen d1 <= 536870900 -> zlen d2 <= 536870900 -> zlen d1 = zlen d2 ->
  b64_encode d1 = b64_encode d2 -> d1 = d2.
Proof.
  intros d1 d2 H1 H2 L1 L2 HL E.
  pose proof (C01_roundtrip d1 (rfc_encode d1) H1 L1 (encode_rfc d1 H1)) as R1.
  pose proof (C01_roundtrip d2 (rfc_encode d2) H2 L2 (encode_rfc d2 H2)) as R2.
  rewrite !encode_rfc in E by assumption. injection E as E. rewrite E, R2, HL in R1. injection R1 as R1.
  destruct (zlen d2 mod 3 =? 0); [congruence|]. now apply app_inv_tail in R1.
Qed.
Print Assumptions C01_encode_injective.

Example C01_example : b64_encode [77; 97; 110; 32] = Val [84; 87; 70; 117; 73; 65; 61; 61]
  /\ b64_decode [84; 87; 70; 117; 73; 65; 61; 61] = Val [77; 97; 110; 32; 0]
  /\ b64_decode [84; 87; 70; 117] = Val [77; 97; 110]
  /\ Forall byte [77; 97; 110; 32].
Proof. repeat split; try (vm_compute; reflexivity); repeat constructor; unfold byte; lia. Qed.

(** C55: memory safety of decode on arbitrary bytes *)
Theorem C55_decode_safe : forall data, Forall byte data -> zlen data mod 4 = 0 -> zlen data * 3 < 2147483648 ->
  exists r, b64_decode data = Val r /\ zlen r <= zlen data * 3 / 4.
Proof. exact decode_safe. Qed.
Print Assumptions C55_decode_safe.

(** ... and it always reads outside the input if the length is not a multiple of four and the text
    contains only alphabet characters *)
Theorem C55_decode_any_length_refuted : forall data, Forall (fun x => is_alpha x = true) data ->
  zlen data mod 4 <> 0 -> zlen data * 3 < 2147483648 -> b64_decode data = UB.
Proof. exact decode_overread. Qed.
Print Assumptions C55_decode_any_length_refuted.
Example C55_example : b64_decode [84; 87; 70] = UB /\ b64_decode [0; 255; 10; 33] = Val [8].
Proof. split; vm_compute; reflexivity. Qed.
