(** P_CharsetReg.v -- C137: character sets by name, and the texts that survive in them. *)
From Verif Require Import Base M_Utf8 S_Utf8 M_Charset S_Charset L_Charset P_Utf8 P_Charset M_DiffInfo M_CharsetReg.
Import Coq.Strings.String.StringSyntax.
Local Open Scope string_scope.
(** the names of the sets *)
Definition names : list (list Z) := [lit_ "UTF-8"; lit_ "Windows-1252"; lit_ "MacRoman"; lit_ "UTF-16LE"; lit_ "UTF-16BE"; lit_ "RAW"; lit_ "ASCII"].
Lemma search_some l n c : search l n = Some c -> In c l /\ cs_name c = n.
Proof. induction l as [|x l IH]; [discriminate|]. cbn [search]. unfold has_name. destruct (list_eq_dec Z.eq_dec (cs_name x) n); [intros E; injection E as <-; split; [now left|assumption]|]. intros E. destruct (IH E). split; [now right|assumption]. Qed.
Lemma search_none l n : search l n = None -> forall c, In c l -> cs_name c <> n.
Proof. induction l as [|x l IH]; [intros _ c []|]. cbn [search]. unfold has_name. destruct (list_eq_dec Z.eq_dec (cs_name x) n); [discriminate|]. intros E c [->|I]; auto. Qed.
(** forName: exactly the seven names, letter by letter; a set is found under its own name, and the default is the set UTF-8 *)
Theorem C137_for_name : (forall n c, for_name true n = Some c -> cs_name c = n) /\ (forall n, for_name true n <> None <-> In n names) /\
  (exists c, get_default true = Val c /\ for_name true (lit_ "UTF-8") = Some c).
Proof.
  split; [intros n c H; now apply search_some in H|]. split; [|eexists; split; reflexivity]. intros n. split.
  - intros H. destruct (for_name true n) as [c|] eqn:E; [|congruence]. apply search_some in E as [I <-]. apply (in_map cs_name) in I. exact I.
  - intros I E. change names with (map cs_name gCharsets) in I. apply in_map_iff in I as (c & N & I). exact (search_none _ _ E c I N).
Qed.
Print Assumptions C137_for_name.
(** every answer of guess is the name of a set *)
Theorem C137_guess_known : forall g, for_name true (guess_name g) <> None.
Proof. intros g. apply C137_for_name. destruct g; cbn; auto 8. Qed.
Print Assumptions C137_guess_known.
(** the texts a set can hold: no character 0, and each of them one of the set *)
Definition of_bytes (f : Z -> Z) (ok : Z -> Prop) (c : Z) : Prop := exists b, 0 < b < 256 /\ ok b /\ c = f b.
Definition holds (n s : list Z) : Prop :=
  3 * zlen s < 4294967296 /\
  (n = lit_ "UTF-8" /\ Forall (fun c => 0 < c < 65536) s /\ hd 0 s <> 65279 \/
   (n = lit_ "RAW" \/ n = lit_ "ASCII") /\ Forall (fun c => 0 < c < 128) s \/
   n = lit_ "Windows-1252" /\ (exists t, Forall (fun b => 0 < b < 256 /\ ~ In b [129; 141; 143; 144; 157]) t /\ w1252_decode (t ++ [0]) = Val s) \/
   n = lit_ "MacRoman" /\ (exists t, Forall (fun b => 0 < b < 256 /\ ~ In b [127; 146; 147; 176]) t /\ mac_decode (t ++ [0]) = Val s)).
Theorem C137_round_trip : forall n s, holds n s -> exists b, to_cstring s (for_name true n) = Val b /\ string_of b (for_name true n) = Val s.
Proof.
  intros n s [L [(-> & F & N)|[([->| ->] & F)|[(-> & t & F & D)|(-> & t & F & D)]]]].
  - change (for_name true (lit_ "UTF-8")) with (Some (CS (lit_ "UTF-8") DUtf8)). cbn [to_cstring string_of encode decode cs_dec]. pose proof (C05_utf8_round_trip s F L) as R.
    destruct (utf8_encode s) as [b| | |]; cbn [bind] in *; try discriminate. eexists. split; [reflexivity|]. rewrite R. destruct s as [|c r]; [reflexivity|]. cbn [hd] in N. apply Z.eqb_neq in N. now rewrite N.
  - eexists. split; [reflexivity|]. change (string_of (raw_encode s ++ [0]) (Some (CS (lit_ "RAW") DRaw)) = Val s). cbn [string_of decode cs_dec].
    assert (E : raw_encode s = s). { unfold raw_encode. rewrite <- (map_id s) at 2. apply map_ext_in. intros c I. rewrite Forall_forall in F. specialize (F c I). unfold u8. apply Z.mod_small. lia. }
    rewrite E. assert (F2 : Forall (fun b => 0 < b < 256) s) by (eapply Forall_impl; [|exact F]; cbv beta; intros; lia). rewrite (proj2 (C57_raw_round_trip s F2)). f_equal. rewrite <- (map_id s) at 2. apply map_ext_in. intros c I. rewrite Forall_forall in F. specialize (F c I). destruct (Z.ltb_spec c 128); [reflexivity|lia].
  - eexists. split; [reflexivity|]. change (string_of (raw_encode s ++ [0]) (Some (CS (lit_ "ASCII") DRaw)) = Val s). cbn [string_of decode cs_dec].
    assert (E : raw_encode s = s). { unfold raw_encode. rewrite <- (map_id s) at 2. apply map_ext_in. intros c I. rewrite Forall_forall in F. specialize (F c I). unfold u8. apply Z.mod_small. lia. }
    rewrite E. assert (F2 : Forall (fun b => 0 < b < 256) s) by (eapply Forall_impl; [|exact F]; cbv beta; intros; lia). rewrite (proj2 (C57_raw_round_trip s F2)). f_equal. rewrite <- (map_id s) at 2. apply map_ext_in. intros c I. rewrite Forall_forall in F. specialize (F c I). destruct (Z.ltb_spec c 128); [reflexivity|lia].
  - eexists. split; [reflexivity|]. change (w1252_decode (w1252_encode s ++ [0]) = Val s). assert (F2 : Forall (fun b => 0 < b < 256) t) by (eapply Forall_impl; [|exact F]; cbv beta; intros; tauto).
    pose proof (C08_w1252_round_trip t F2) as R. rewrite D in R. unfold omap in R. cbn [bind] in R. assert (R' := f_equal (fun x => match x with Val v => v | _ => [] end) R). cbv beta iota in R'. clear R. rename R' into R. rewrite R. rewrite <- D. f_equal. f_equal. rewrite <- (map_id t) at 2. apply map_ext_in. intros b I. rewrite Forall_forall in F. specialize (F b I) as [_ F].
    destruct (existsb (Z.eqb b) [129; 141; 143; 144; 157]) eqn:E; [|reflexivity]. apply existsb_exists in E as (x & J & Q). apply Z.eqb_eq in Q. subst x. contradiction.
  - eexists. split; [reflexivity|]. change (mac_decode (mac_encode s ++ [0]) = Val s). assert (F2 : Forall (fun b => 0 < b < 256) t) by (eapply Forall_impl; [|exact F]; cbv beta; intros; tauto).
    pose proof (C57_mac_round_trip t F2) as R. rewrite D in R. unfold omap in R. cbn [bind] in R. injection R as R. rewrite R. rewrite <- D. f_equal. f_equal. rewrite <- (map_id t) at 2. apply map_ext_in. intros b I. rewrite Forall_forall in F. specialize (F b I) as [_ F]. cbn [In] in F.
    destruct (Z.eqb_spec b 127); [lia|]. destruct (Z.eqb_spec b 176); [lia|]. cbn [orb]. destruct (Z.eqb_spec b 146); [lia|]. destruct (Z.eqb_spec b 147); [lia|]. reflexivity.
Qed.
Print Assumptions C137_round_trip.
(** Reading a text of unknown character set with guess: ASCII texts and UTF-8 texts that begin with a byte order mark. *)
Lemma guess_ascii c0 c1 r : Forall (fun c => 0 < c < 128) (c0 :: c1 :: r) -> guess ((c0 :: c1 :: r) ++ [0]) (zlen (c0 :: c1 :: r)) = Val ASCII.
Proof.
  intros F. set (s := c0 :: c1 :: r) in *. assert (L : 2 <= zlen s) by (unfold s; rewrite !zlen_cons; pose proof (zlen_nonneg r); lia).
  assert (Hz : forall n a k1 k2, 0 <= a -> a + Z.of_nat n <= zlen s -> count_zeros (s ++ [0]) a n k1 k2 = Val (k1, k2)).
  { induction n as [|n IH]; intros a k1 k2 Ha Hn; [reflexivity|]. cbn [count_zeros]. unfold rd. rewrite lget_app_l by lia. destruct (lget_range s a) as [c Hc]; [lia|]. rewrite Hc. cbn [bind].
    pose proof (lget_In _ _ _ Hc) as I. rewrite Forall_forall in F. specialize (F c I). destruct (Z.eqb_spec c 0); [lia|]. apply IH; lia. }
  unfold guess. change (rd (s ++ [0]) 0) with (Val c0). change (rd (s ++ [0]) 1) with (Val c1). cbn [bind].
  assert (0 < c0 < 128) by (inversion F; assumption). destruct (Z.eqb_spec c0 254); [lia|]. cbn [bind]. destruct (Z.eqb_spec c0 255); [lia|]. cbn [bind]. destruct (Z.eqb_spec c0 239); [lia|]. cbn [bind].
  assert (Hf : 0 < u16 (Z.min 4096 (zlen s)) <= zlen s) by (unfold u16; lia).
  rewrite Hz by (rewrite ?Z2Nat.id by lia; lia). cbn [bind]. destruct (20 * 0 >? 9 * u16 (Z.min 4096 (zlen s))) eqn:E; [lia|].
  rewrite all_ascii_true; [reflexivity|lia|]. rewrite zlen_app. change (zlen [0]) with 1. rewrite Z2Nat.id by lia. lia.
Qed.
Lemma utf8_short s : Forall (fun c => 0 < c < 65536) s -> zlen (concat (map utf8 s)) <= 3 * zlen s.
Proof.
  induction 1 as [|c s C F IH]; [reflexivity|]. cbn [map concat]. rewrite zlen_app, zlen_cons. assert (zlen (utf8 c) <= 3); [|lia]. unfold utf8. destruct (c <? 128); [cbv; discriminate|]. destruct (c <? 2048); [cbv; discriminate|]. destruct (Z.ltb_spec c 65536); [cbv; discriminate|lia].
Qed.
Theorem C137_guess_reads : forall s,
  (Forall (fun c => 0 < c < 128) s -> 2 <= zlen s -> read_text (s ++ [0]) (zlen s) = Val s) /\
  (Forall (fun c => 0 < c < 65536) s -> 3 * zlen (65279 :: s) < 4294967296 -> exists b, utf8_encode (65279 :: s) = Val b /\ read_text (b ++ [0]) (zlen b) = Val s).
Proof.
  intros s. split.
  - intros F L. unfold read_text. destruct s as [|c0 [|c1 r]]; [change (zlen []) with 0 in L; lia|change (zlen [c0]) with 1 in L; lia|]. rewrite (guess_ascii c0 c1 r F). cbn [bind guess_name].
    change (for_name true (lit_ "ASCII")) with (Some (CS (lit_ "ASCII") DRaw)). cbn [string_of decode cs_dec].
    assert (F2 : Forall (fun b => 0 < b < 256) (c0 :: c1 :: r)) by (eapply Forall_impl; [|exact F]; cbv beta; intros; lia). rewrite (proj2 (C57_raw_round_trip _ F2)). f_equal. rewrite <- (map_id (c0 :: c1 :: r)) at 2. apply map_ext_in. intros c I. rewrite Forall_forall in F. specialize (F c I). destruct (Z.ltb_spec c 128); [reflexivity|lia].
  - intros F L. assert (F2 : Forall (fun c => 0 < c < 65536) (65279 :: s)) by (constructor; [lia|exact F]). pose proof (C05_utf8_round_trip _ F2 L) as R.
    pose proof (C07_utf8_encode_is_rfc3629 (65279 :: s)) as W. rewrite W in * by (try (eapply Forall_impl; [|exact F2]; cbv beta; intros; lia); pose proof (utf8_short (65279 :: s) F2); lia).
    eexists. split; [reflexivity|]. cbn [bind] in R. unfold read_text. change (concat (map utf8 (65279 :: s)) ++ [0]) with (239 :: 187 :: 191 :: concat (map utf8 s) ++ [0]) in *. destruct (C58_guess_boms (concat (map utf8 s) ++ [0]) (zlen (concat (map utf8 (65279 :: s))))) as (_ & _ & ->). cbn [bind guess_name].
    change (for_name true (lit_ "UTF-8")) with (Some (CS (lit_ "UTF-8") DUtf8)). cbn [string_of decode cs_dec]. exact R.
Qed.
Print Assumptions C137_guess_reads.
(** Reading a UTF-16 file with a byte order mark: the byte order of the mark is used; a big-endian text ends at the first character below 256, a little-endian one at the first that is a multiple of 256. *)
Theorem C137_guess_utf16 : forall s n, Forall unit16 s ->
  read_text ([254; 255] ++ be_bytes s ++ [0; 0]) n = Val (upto (fun c => c / 256) s) /\ read_text ([255; 254] ++ le_bytes s ++ [0; 0]) n = Val (upto (fun c => c mod 256) s).
Proof.
  intros s n U. unfold read_text. change ([254; 255] ++ be_bytes s ++ [0; 0]) with (254 :: 255 :: be_bytes s ++ [0; 0]). change ([255; 254] ++ le_bytes s ++ [0; 0]) with (255 :: 254 :: le_bytes s ++ [0; 0]).
  destruct (C58_guess_boms (be_bytes s ++ [0; 0]) n) as (-> & _ & _). destruct (C58_guess_boms (le_bytes s ++ [0; 0]) n) as (_ & -> & _). cbn [bind guess_name].
  change (for_name true (lit_ "UTF-16BE")) with (Some (CS (lit_ "UTF-16BE") (DUtf16 true))). change (for_name true (lit_ "UTF-16LE")) with (Some (CS (lit_ "UTF-16LE") (DUtf16 false))). cbn [string_of decode cs_dec]. exact (C09_utf16_bom s U).
Qed.
Print Assumptions C137_guess_utf16.
Example C137_guess_utf16_ex : read_text [254; 255; 32; 172; 0; 65; 0; 0] 6 = Val [8364] /\ read_text [255; 254; 172; 32; 65; 0; 0; 0] 6 = Val [8364; 65].
Proof. split; reflexivity. Qed.
(** ** what does not hold *)
(** the usual spellings are not known, and whatever is done with the answer is undefined *)
Theorem C137_spelling_refuted : forall s mem n, In n [lit_ "utf-8"; lit_ "UTF8"; lit_ "us-ascii"; lit_ "ISO-8859-1"; lit_ "windows-1252"; lit_ "UTF-16"; lit_ ""] -> for_name true n = None /\ to_cstring s (for_name true n) = UB /\ string_of mem (for_name true n) = UB.
Proof. intros s mem n I. cbn [In] in I. repeat (destruct I as [<-|I]; [repeat split; reflexivity|]). destruct I. Qed.
Print Assumptions C137_spelling_refuted.
(** after System::quit no set has a name, and the default is a deleted object *)
Theorem C137_after_quit_refuted : get_default false = UB /\ forall n s mem, for_name false n = None /\ to_cstring s (for_name false n) = UB /\ string_of mem (for_name false n) = UB.
Proof. split; [reflexivity|]. intros. repeat split. Qed.
Print Assumptions C137_after_quit_refuted.
(** RAW and ASCII do not give back the characters 128 to 255: they come back as 65408 to 65535 *)
Theorem C137_raw_high_refuted : forall c, 128 <= c < 256 -> exists b, to_cstring [c] (for_name true (lit_ "RAW")) = Val b /\ string_of b (for_name true (lit_ "RAW")) = Val [c + 65280].
Proof.
  intros c C. eexists. split; [reflexivity|]. change (raw_decode (raw_encode [c] ++ [0]) = Val [c + 65280]). assert (E : raw_encode [c] = [c]) by (cbn; f_equal; unfold u8; apply Z.mod_small; lia). rewrite E.
  assert (F : Forall (fun b => 0 < b < 256) [c]) by (repeat constructor; lia). rewrite (proj2 (C57_raw_round_trip _ F)). cbn [map]. destruct (Z.ltb_spec c 128); [lia|reflexivity].
Qed.
Print Assumptions C137_raw_high_refuted.
(** no text survives in UTF-16BE: the bytes have one zero behind them, the decoder needs two (a text whose units have no zero low byte and that does not look like a mark); UTF-16LE writes the other byte order *)
Theorem C137_utf16be_refuted : forall s, Forall unit16 s -> plain_start (be_bytes s) -> Forall (fun c => c mod 256 <> 0) s -> s <> [] ->
  exists b, to_cstring s (for_name true (lit_ "UTF-16BE")) = Val b /\ string_of b (for_name true (lit_ "UTF-16BE")) = UB.
Proof. intros s U P N E. eexists. split; [reflexivity|]. exact (C09_utf16_own_output_overrun s U P N E). Qed.
Print Assumptions C137_utf16be_refuted.
Theorem C137_utf16le_refuted : exists b, to_cstring [258; 16705] (for_name true (lit_ "UTF-16LE")) = Val b /\ b = [1; 2; 65; 65; 0] /\ string_of (b ++ [0]) (for_name true (lit_ "UTF-16LE")) = Val [513; 16705].
Proof. eexists. repeat split. Qed.
Print Assumptions C137_utf16le_refuted.
(** a UTF-8 text without mark is taken for ASCII: every byte of an umlaut becomes a character of its own, and not even that byte *)
Theorem C137_guess_utf8_refuted : exists b, to_cstring [71; 252; 116; 101] (for_name true (lit_ "UTF-8")) = Val b /\ read_text b 5 = Val [71; 65475; 65468; 116; 101].
Proof. eexists. split; reflexivity. Qed.
Print Assumptions C137_guess_utf8_refuted.
Example C137_holds_ex : holds (lit_ "UTF-8") [71; 114; 252; 223; 8364] /\ holds (lit_ "Windows-1252") [71; 252; 8364] /\ holds (lit_ "MacRoman") [71; 252] /\ holds (lit_ "ASCII") [71; 117].
Proof.
  split; [split; [vm_compute; reflexivity|]; left; split; [reflexivity|]; split; [repeat constructor; lia|cbn; lia]|].
  split; [split; [vm_compute; reflexivity|]; right; right; left; split; [reflexivity|]; exists [71; 252; 128]; split; [repeat constructor; cbn; lia|vm_compute; reflexivity]|].
  split; [split; [vm_compute; reflexivity|]; right; right; right; split; [reflexivity|]; exists [71; 159]; split; [repeat constructor; cbn; lia|vm_compute; reflexivity]|].
  split; [vm_compute; reflexivity|]. right. left. split; [now right|repeat constructor; lia].
Qed.
