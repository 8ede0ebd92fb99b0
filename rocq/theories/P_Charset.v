(** P_Charset.v -- properties C08, C09, C57, C58 (single byte charsets, UTF-16, guessing). *)
From Verif Require Import Base S_Charset M_Charset L_Charset.
Ltac Zify.zify_post_hook ::= Z.to_euclidean_division_equations.

(** C08: Windows-1252 *)
Theorem C08_w1252_round_trip : forall text,
  Forall (fun b => 0 < b < 256) text ->
  omap w1252_encode (w1252_decode (text ++ [0]))
  = Val (map (fun b => if existsb (Z.eqb b) [129; 141; 143; 144; 157] then 141 else b) text).
Proof.
  intros text HB. unfold w1252_decode. rewrite decode_single_spec by assumption. unfold omap. cbn [bind]. f_equal.
  unfold w1252_encode. rewrite map_map. apply map_ext_in. intros b Hb. rewrite Forall_forall in HB.
  rewrite w1252_byte by auto. unfold w1252_undefined. cbn [existsb]. rewrite orb_false_r, !orb_assoc. reflexivity.
Qed.
Print Assumptions C08_w1252_round_trip.
(** on texts without the five undefined bytes nothing is lost *)
Theorem C08_w1252_decode_injective : forall t1 t2,
  Forall (fun b => 0 < b < 256 /\ ~ In b [129; 141; 143; 144; 157]) t1 ->
  Forall (fun b => 0 < b < 256 /\ ~ In b [129; 141; 143; 144; 157]) t2 ->
  w1252_decode (t1 ++ [0]) = w1252_decode (t2 ++ [0]) -> t1 = t2.
Proof.
  intros t1 t2 H1 H2 E.
  assert (R : forall t, Forall (fun b => 0 < b < 256 /\ ~ In b [129; 141; 143; 144; 157]) t ->
    omap w1252_encode (w1252_decode (t ++ [0])) = Val t).
  { intros t H. rewrite C08_w1252_round_trip by (eapply Forall_impl; [|exact H]; cbv beta; intros; tauto). f_equal.
    rewrite <- (map_id t) at 2. apply map_ext_in. intros b Hb. rewrite Forall_forall in H. destruct (H b Hb) as [_ Hn].
    destruct (existsb (Z.eqb b) [129; 141; 143; 144; 157]) eqn:Ex; [|reflexivity].
    apply existsb_exists in Ex as (x & Hx & Hxe). apply Z.eqb_eq in Hxe. subst. contradiction. }
  pose proof (R t1 H1) as R1. rewrite E, (R t2 H2) in R1. congruence.
Qed.
Print Assumptions C08_w1252_decode_injective.
Example C08_example : Forall (fun b => 0 < b < 256 /\ ~ In b [129; 141; 143; 144; 157]) [65; 128; 255] /\
  w1252_decode [65; 128; 255; 0] = Val [65; 8364; 255] /\ omap w1252_encode (w1252_decode [129; 65; 0]) = Val [141; 65].
Proof. split; [repeat constructor; try lia; cbn [In]; lia|]. split; reflexivity. Qed.

(** C57: Mac Roman and RAW/ASCII *)
Theorem C57_mac_round_trip : forall text,
  Forall (fun b => 0 < b < 256) text ->
  omap mac_encode (mac_decode (text ++ [0]))
  = Val (map (fun b => if (b =? 127) || (b =? 176) then 0 else if b =? 146 then 147 else if b =? 147 then 146 else b) text).
Proof.
  intros text HB. unfold mac_decode. rewrite decode_single_spec by assumption. unfold omap. cbn [bind]. f_equal.
  unfold mac_encode. rewrite map_map. apply map_ext_in. intros b Hb. rewrite Forall_forall in HB. apply mac_byte. auto.
Qed.
Print Assumptions C57_mac_round_trip.
Theorem C57_raw_round_trip : forall text,
  Forall (fun b => 0 < b < 256) text ->
  omap raw_encode (raw_decode (text ++ [0])) = Val text /\
  raw_decode (text ++ [0]) = Val (map (fun b => if b <? 128 then b else b + 65280) text).
Proof.
  intros text HB. unfold raw_decode. rewrite decode_single_spec by assumption. unfold omap. cbn [bind]. split; f_equal.
  - unfold raw_encode. rewrite map_map. rewrite <- (map_id text) at 2. apply map_ext_in. intros b Hb. rewrite Forall_forall in HB.
    specialize (HB b Hb). apply raw_byte. lia.
  - apply map_ext_in. intros b Hb. rewrite Forall_forall in HB. specialize (HB b Hb). unfold u16, s8.
    destruct (b <? 128) eqn:E; lia.
Qed.
Print Assumptions C57_raw_round_trip.
Example C57_example : Forall (fun b => 0 < b < 256) [65; 146; 176; 200] /\
  omap mac_encode (mac_decode [65; 146; 176; 200; 0]) = Val [65; 147; 0; 200] /\
  raw_decode [65; 228; 0] = Val [65; 65508].
Proof. split; [repeat constructor; lia|]. split; reflexivity. Qed.

(** C09: UTF-16. [be_bytes]/[le_bytes]: the two bytes of each unit; [upto f s]: the units before the first with f = 0 *)
Theorem C09_utf16_encode_big_endian : forall s, Forall unit16 s -> utf16_encode s = be_bytes s.
Proof. exact utf16_encode_spec. Qed.
Print Assumptions C09_utf16_encode_big_endian.
Theorem C09_utf16_decode_be : forall s,
  Forall unit16 s -> plain_start (be_bytes s) ->
  utf16_decode true (be_bytes s ++ [0; 0]) = Val (upto (fun c => c mod 256) s).
Proof. exact (utf16_decode_plain true). Qed.
Print Assumptions C09_utf16_decode_be.
Theorem C09_utf16_decode_le : forall s,
  Forall unit16 s -> plain_start (le_bytes s) ->
  utf16_decode false (le_bytes s ++ [0; 0]) = Val (upto (fun c => c mod 256) s).
Proof. exact (utf16_decode_plain false). Qed.
Print Assumptions C09_utf16_decode_le.
(** round trip: no unit has a zero low byte *)
Theorem C09_utf16_round_trip : forall s,
  Forall unit16 s -> plain_start (be_bytes s) -> Forall (fun c => c mod 256 <> 0) s ->
  utf16_decode true (utf16_encode s ++ [0; 0]) = Val s.
Proof.
  intros s HU HP HN. rewrite C09_utf16_encode_big_endian, C09_utf16_decode_be by assumption. f_equal.
  clear HU HP. induction s as [|c r IH]; [reflexivity|]. inversion_clear HN. cbn [upto].
  destruct (Z.eqb_spec (c mod 256) 0); [contradiction|]. f_equal. auto.
Qed.
Print Assumptions C09_utf16_round_trip.
(** behind a byte order mark the big endian decoder stops at the first unit with a zero *high* byte *)
Theorem C09_utf16_bom : forall s, Forall unit16 s ->
  utf16_decode true ([254; 255] ++ be_bytes s ++ [0; 0]) = Val (upto (fun c => c / 256) s) /\
  utf16_decode false ([255; 254] ++ le_bytes s ++ [0; 0]) = Val (upto (fun c => c mod 256) s).
Proof. intros s HU. split; [exact (utf16_decode_bom true s HU)|exact (utf16_decode_bom false s HU)]. Qed.
Print Assumptions C09_utf16_bom.
Theorem C09_utf16_bom_ascii_lost : forall c s,
  Forall unit16 s -> 0 <= c < 256 ->
  utf16_decode true ([254; 255] ++ be_bytes (c :: s) ++ [0; 0]) = Val [].
Proof.
  intros c s HU Hc. destruct (C09_utf16_bom (c :: s)) as [-> _]; [constructor; [unfold unit16; lia|assumption]|].
  cbn [upto]. destruct (Z.eqb_spec (c / 256) 0); [reflexivity|lia].
Qed.
Print Assumptions C09_utf16_bom_ascii_lost.
(** the encoder's own output carries a single terminating zero (ByteArray): decoding it big endian
    reads one byte too many whenever the text would not be truncated *)
Theorem C09_utf16_own_output_overrun : forall s,
  Forall unit16 s -> plain_start (be_bytes s) -> Forall (fun c => c mod 256 <> 0) s -> s <> [] ->
  utf16_decode true (utf16_encode s ++ [0]) = UB.
Proof.
  intros s HU HP HN Hne. rewrite C09_utf16_encode_big_endian by assumption. destruct s as [|c r]; [contradiction|].
  pose proof (utf16_count_one (c :: r) HN (S (length (be_bytes (c :: r) ++ [0]))) [] 0) as HC.
  cbn [app] in HC. change (zlen (@nil Z) + 1) with 1 in HC. change (bytes16 true (c :: r)) with (be_bytes (c :: r)) in HC.
  assert (HL : (length (c :: r) <= length (be_bytes (c :: r)))%nat).
  { pose proof (bytes16_len true (c :: r)) as H. change (bytes16 true (c :: r)) with (be_bytes (c :: r)) in H. unfold zlen in H. lia. }
  specialize (HC ltac:(rewrite app_length; lia)).
  unfold utf16_decode. set (mem := be_bytes (c :: r) ++ [0]) in *.
  assert (R0 : rd mem 0 = Val (c / 256)) by reflexivity. assert (R1 : rd mem 1 = Val (c mod 256)) by reflexivity.
  assert (E : exists c2 t, concat (map (fun c => [c / 256; c mod 256]) r) ++ [0] = c2 :: t /\ (c2 = 191 -> hd 0 (concat (map (fun c => [c / 256; c mod 256]) r)) = 191)).
  { destruct (concat (map (fun c => [c / 256; c mod 256]) r)) as [|x t]; cbn [app hd]; eexists _, _; (split; [reflexivity|lia]). }
  destruct E as (c2 & t & E & Ec). assert (R2 : rd mem 2 = Val c2).
  { subst mem. unfold be_bytes. cbn [map concat app]. rewrite E. reflexivity. }
  unfold be_bytes in HP. cbn [map concat app plain_start] in HP. destruct HP as (H1 & H2 & H3).
  clearbody mem. rewrite R0, R1, R2. cbn [bind].
  assert ((if c / 256 =? 254 then Val (c mod 256 =? 255) else Val false) = Val false) as ->
    by (destruct (Z.eqb_spec (c / 256) 254); [|reflexivity]; destruct (Z.eqb_spec (c mod 256) 255); [exfalso; tauto|reflexivity]).
  cbn [bind].
  assert ((if c / 256 =? 255 then Val (c mod 256 =? 254) else Val false) = Val false) as ->
    by (destruct (Z.eqb_spec (c / 256) 255); [|reflexivity]; destruct (Z.eqb_spec (c mod 256) 254); [exfalso; tauto|reflexivity]).
  cbn [bind orb].
  assert ((if c / 256 =? 239 then if c mod 256 =? 187 then Val (c2 =? 191) else Val false else Val false) = Val false) as ->.
  { destruct (Z.eqb_spec (c / 256) 239); [|reflexivity]. destruct (Z.eqb_spec (c mod 256) 187); [|reflexivity].
    destruct (Z.eqb_spec c2 191); [exfalso; tauto|reflexivity]. }
  cbn [bind]. cbv zeta. rewrite HC. reflexivity.
Qed.
Print Assumptions C09_utf16_own_output_overrun.
Example C09_example : Forall unit16 [72; 8364] /\ plain_start (be_bytes [72; 8364]) /\ Forall (fun c => c mod 256 <> 0) [72; 8364] /\
  utf16_encode [72; 8364] = [0; 72; 32; 172] /\ utf16_decode true [0; 72; 32; 172; 0; 0] = Val [72; 8364] /\
  utf16_decode true [254; 255; 0; 72; 0; 0] = Val [] /\ utf16_decode true [0; 72; 1; 0; 0; 72; 0; 0] = Val [72].
Proof.
  split; [repeat constructor; lia|]. split; [cbn; lia|]. split; [repeat constructor; cbn; lia|].
  split; [|split; [|split]]; reflexivity.
Qed.

(** C58: Charset::guess (Linux, signed char) *)
Theorem C58_guess_boms : forall r n,
  guess (254 :: 255 :: r) n = Val UTF16BE /\ guess (255 :: 254 :: r) n = Val UTF16LE /\ guess (239 :: 187 :: 191 :: r) n = Val UTF8.
Proof. intros r n. repeat split; reflexivity. Qed.
Print Assumptions C58_guess_boms.
(** UTF-8 is never reported for a text without a byte order mark, whatever its bytes are *)
Theorem C58_guess_utf8_needs_bom : forall stream,
  guess stream (zlen stream) = Val UTF8 -> exists r, stream = 239 :: 187 :: 191 :: r.
Proof.
  intros stream. unfold guess. destruct stream as [|c0 t]; [discriminate|]. change (rd (c0 :: t) 0) with (Val c0). cbn [bind].
  set (s := c0 :: t).
  destruct (if c0 =? 254 then _ else Val false) as [[|]| | |]; cbn [bind]; try discriminate.
  destruct (if c0 =? 255 then _ else Val false) as [[|]| | |]; cbn [bind]; try discriminate.
  destruct (Z.eqb_spec c0 239) as [->|H0].
  - destruct t as [|c1 t]; [discriminate|]. subst s. change (rd (239 :: c1 :: t) 1) with (Val c1). cbn [bind].
    destruct (Z.eqb_spec c1 187) as [->|H1].
    + destruct t as [|c2 t]; [discriminate|]. change (rd (239 :: 187 :: c2 :: t) 2) with (Val c2). cbn [bind].
      destruct (Z.eqb_spec c2 191) as [->|H2]; [intros _; now exists t|].
      destruct (count_zeros _ _ _ _ _) as [[k1 k2]| | |]; cbn [bind]; try discriminate.
      destruct (_ >? _); [discriminate|]. destruct (_ >? _); [discriminate|].
      rewrite all_ascii_true by (rewrite ?Z2Nat.id by apply zlen_nonneg; lia). discriminate.
    + cbn [bind]. destruct (count_zeros _ _ _ _ _) as [[k1 k2]| | |]; cbn [bind]; try discriminate.
      destruct (_ >? _); [discriminate|]. destruct (_ >? _); [discriminate|].
      rewrite all_ascii_true by (rewrite ?Z2Nat.id by apply zlen_nonneg; lia). discriminate.
  - cbn [bind]. destruct (count_zeros _ _ _ _ _) as [[k1 k2]| | |]; cbn [bind]; try discriminate.
    destruct (_ >? _); [discriminate|]. destruct (_ >? _); [discriminate|].
    rewrite all_ascii_true by (rewrite ?Z2Nat.id by apply zlen_nonneg; lia). discriminate.
Qed.
Print Assumptions C58_guess_utf8_needs_bom.
(** a text without zero bytes and without byte order mark is reported as ASCII, even with bytes above 127 *)
Theorem C58_guess_ascii_always : forall stream,
  Forall (fun b => 0 < b < 256) stream -> plain_start stream -> zlen stream >= 2 ->
  (hd 0 stream <> 239) ->
  guess stream (zlen stream) = Val ASCII.
Proof.
  intros stream HB HP HL H239. destruct stream as [|c0 [|c1 t]]; [cbn in HL; lia|cbn in HL; lia|].
  cbn [plain_start hd] in HP, H239. destruct HP as (H1 & H2 & _). set (s := c0 :: c1 :: t) in *.
  assert (Hz : forall n a k1 k2, 0 <= a -> a + Z.of_nat n <= zlen s -> count_zeros s a n k1 k2 = Val (k1, k2)).
  { induction n as [|n IH]; intros a k1 k2 Ha Hn; [reflexivity|]. cbn [count_zeros].
    destruct (rd_in s a) as [c Hc]; [lia|]. rewrite Hc. cbn [bind].
    assert (In c s) as Hin. { unfold rd in Hc. destruct (lget s a) eqn:E; [|discriminate]. injection Hc as <-. eapply lget_In; eauto. }
    rewrite Forall_forall in HB. specialize (HB c Hin). destruct (Z.eqb_spec c 0); [lia|]. apply IH; lia. }
  unfold guess. change (rd s 0) with (Val c0). change (rd s 1) with (Val c1). cbn [bind].
  assert ((if c0 =? 254 then Val (c1 =? 255) else Val false) = Val false) as ->
    by (destruct (Z.eqb_spec c0 254); [|reflexivity]; destruct (Z.eqb_spec c1 255); [exfalso; tauto|reflexivity]).
  cbn [bind].
  assert ((if c0 =? 255 then Val (c1 =? 254) else Val false) = Val false) as ->
    by (destruct (Z.eqb_spec c0 255); [|reflexivity]; destruct (Z.eqb_spec c1 254); [exfalso; tauto|reflexivity]).
  cbn [bind]. destruct (Z.eqb_spec c0 239); [contradiction|]. cbn [bind].
  assert (Hf : 0 < u16 (Z.min 4096 (zlen s)) <= zlen s) by (unfold u16; lia).
  rewrite Hz by (rewrite ?Z2Nat.id by lia; lia). cbn [bind].
  destruct (20 * 0 >? 9 * u16 (Z.min 4096 (zlen s))) eqn:E; [lia|].
  rewrite all_ascii_true by (rewrite ?Z2Nat.id by lia; lia). reflexivity.
Qed.
Print Assumptions C58_guess_ascii_always.
Example C58_example : Forall (fun b => 0 < b < 256) [195; 164; 195; 182] /\ plain_start [195; 164; 195; 182] /\
  guess [195; 164; 195; 182] 4 = Val ASCII (* valid UTF-8 text *) /\ guess [65; 0; 66; 0] 4 = Val UTF16LE.
Proof. split; [repeat constructor; lia|]. split; [cbn; lia|]. split; reflexivity. Qed.
