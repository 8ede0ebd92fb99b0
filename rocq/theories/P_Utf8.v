(** P_Utf8.v -- properties C05, C06, C07 (UTF-8). *)
From Verif Require Import Base S_Utf8 M_Utf8 L_Utf8.

(** C05: encode, then decode the bytes followed by the terminating 0 *)
Theorem C05_utf8_round_trip : forall s,
  Forall (fun c => 0 < c < 65536) s -> 3 * zlen s < 4294967296 ->
  (let* bytes := utf8_encode s in utf8_decode (bytes ++ [0]))
  = Val (match s with c :: r => if c =? 65279 then r else s | [] => [] end).
Proof.
  intros s HU HL. rewrite encode_spec.
  - cbn [bind].
    assert (HI : map (fun c => c mod 65536) s = s).
    { rewrite <- (map_id s) at 2. apply map_ext_in. intros c Hc. rewrite Forall_forall in HU. specialize (HU c Hc). apply Z.mod_small. lia. }
    assert (HU' : Forall (fun c => 0 < c < 1114112) s) by (eapply Forall_impl; [|exact HU]; cbv beta; intros; lia).
    destruct s as [|c r]; [reflexivity|].
    destruct (Z.eqb_spec c 65279) as [->|Hne].
    + inversion_clear HU'. rewrite decode_bom by assumption. cbn [map] in HI. injection HI as HI. now rewrite HI.
    + rewrite decode_code_points by assumption. now rewrite HI.
  - eapply Forall_impl; [|exact HU]; cbv beta; unfold unitz; intros; lia.
  - enough (zlen (concat (map utf8 s)) <= 3 * zlen s) by lia. clear HL. induction s as [|c r IH]; [cbn; lia|].
    inversion_clear HU. cbn [map concat]. rewrite zlen_app, zlen_cons, utf8_len by (unfold unitz; lia). specialize (IH H0).
    destruct (c <? 128); [lia|]. destruct (c <? 2048); lia.
Qed.
Print Assumptions C05_utf8_round_trip.
Example C05_example : Forall (fun c => 0 < c < 65536) [72; 228; 8364] /\
  utf8_encode [72; 228; 8364] = Val [72; 195; 164; 226; 130; 172] /\
  utf8_decode [72; 195; 164; 226; 130; 172; 0] = Val [72; 228; 8364].
Proof. split; [repeat constructor; lia|]. split; reflexivity. Qed.

(** C06: total characterisation of the decoder on NUL terminated texts. [utf8_meaning] (S_Utf8) gives one
    unit per sequence, "wrong charset" for a UTF-16 byte order mark, and "out of bounds" exactly when the
    last sequence is incomplete or the stray bytes FF FE occur next to each other. *)
Theorem C06_utf8_decode_total : forall text,
  Forall (fun b => 0 < b < 256) text ->
  utf8_decode (text ++ [0]) =
  match utf8_meaning text with Units l => Val l | WrongCharset => Exn | OutOfBounds => UB end.
Proof. exact decode_total. Qed.
Print Assumptions C06_utf8_decode_total.
(** in particular the reads stay inside the text when every announced sequence is complete and no FF FE occurs *)
Theorem C06_utf8_decode_safe : forall text cs,
  Forall (fun b => 0 < b < 256) text -> seqs (skip_bom text) = Some cs -> has_fffe cs = false ->
  utf8_decode (text ++ [0]) <> UB /\ utf8_decode (text ++ [0]) <> Fuel.
Proof.
  intros text cs HB H1 H2. rewrite C06_utf8_decode_total by assumption. unfold utf8_meaning.
  destruct (utf16_bom text); [split; discriminate|]. rewrite H1, H2. split; discriminate.
Qed.
Print Assumptions C06_utf8_decode_safe.
(** ... and an incomplete last sequence always makes the decoder leave the text *)
Theorem C06_utf8_decode_overrun : forall text,
  Forall (fun b => 0 < b < 256) text -> utf16_bom text = false -> seqs (skip_bom text) = None ->
  utf8_decode (text ++ [0]) = UB.
Proof. intros text HB H1 H2. rewrite C06_utf8_decode_total by assumption. unfold utf8_meaning. now rewrite H1, H2. Qed.
Print Assumptions C06_utf8_decode_overrun.
Example C06_example :
  utf8_meaning [65; 226; 130; 172; 66] = Units [65; 8364; 66] /\
  utf8_meaning [65; 226; 130] = OutOfBounds /\ seqs (skip_bom [65; 226; 130]) = None /\
  utf8_meaning [65; 255; 254; 66] = OutOfBounds /\ utf8_meaning [254; 255; 0] = WrongCharset.
Proof. repeat split; reflexivity. Qed.

(** C07: the encoder writes the RFC 3629 bytes of each unit, exactly filling the buffer it computed *)
Theorem C07_utf8_encode_is_rfc3629 : forall s,
  Forall (fun c => 0 <= c < 65536) s -> zlen (concat (map utf8 s)) < 4294967296 ->
  utf8_encode s = Val (concat (map utf8 s)).
Proof. exact encode_spec. Qed.
Print Assumptions C07_utf8_encode_is_rfc3629.
Theorem C07_utf8_decode_loses_high_bits : forall cps,
  Forall (fun c => 0 < c < 1114112) cps -> hd 0 cps <> 65279 ->
  utf8_decode (concat (map utf8 cps) ++ [0]) = Val (map (fun c => c mod 65536) cps).
Proof. exact decode_code_points. Qed.
Print Assumptions C07_utf8_decode_loses_high_bits.
Example C07_example : Forall (fun c => 0 < c < 1114112) [65; 128512] /\ hd 0 [65; 128512] <> 65279 /\
  concat (map utf8 [65; 128512]) = [65; 240; 159; 152; 128] /\ utf8_decode [65; 240; 159; 152; 128; 0] = Val [65; 62976].
Proof. split; [repeat constructor; lia|]. split; [discriminate|]. split; reflexivity. Qed.
