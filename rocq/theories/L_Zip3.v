(** L_Zip3.v -- reading an archive. *)
From Verif Require Import Base M_Utf8 S_Utf8 L_Utf8 M_Serializer S_Serializer L_Serializer M_Inflate S_Inflate P_Inflate M_Zip S_Zip S_ZipCalls L_Zip.
Ltac Zify.zify_post_hook ::= Z.to_euclidean_division_equations.

(** ** the decoder does not look behind what it needs *)
Definition le_out {A} (m m' : out A) : Prop := forall v, m = Val v -> m' = Val v.
Lemma le_bind {A B} (m m' : out A) (k k' : A -> out B) : le_out m m' -> (forall a, le_out (k a) (k' a)) -> le_out (bind m k) (bind m' k').
Proof. intros H1 H2 v E. destruct m as [a| | |]; try discriminate. rewrite (H1 a eq_refl). cbn [bind] in *. apply H2. exact E. Qed.
Lemma le_refl {A} (m : out A) : le_out m m. Proof. intros v E. exact E. Qed.
Lemma le_rd {A} (l r : list A) i : le_out (rd l i) (rd (l ++ r) i).
Proof. intros v E. unfold rd in *. destruct (lget l i) as [a|] eqn:G; [|discriminate]. pose proof (lget_some_range _ _ _ G). rewrite lget_app_l by lia. rewrite G. exact E. Qed.
Lemma le_char mem r i v : le_out (char_is mem i v) (char_is (mem ++ r) i v).
Proof. unfold char_is. apply le_bind; [apply le_rd|]. intros. apply le_refl. Qed.
Lemma le_andb a a' b b' : le_out a a' -> le_out b b' -> le_out (andb_then a b) (andb_then a' b').
Proof. intros H1 H2. unfold andb_then. apply le_bind; [exact H1|]. intros []; [exact H2|apply le_refl]. Qed.
Lemma le_count mem r : forall f f' c n, (f <= f')%nat -> le_out (utf8_count f mem c n) (utf8_count f' (mem ++ r) c n).
Proof.
  induction f as [|f IH]; intros f' c n H; [intros v E; discriminate|]. destruct f' as [|f']; [lia|]. cbn [utf8_count]. apply le_bind; [apply le_rd|]. intros a.
  repeat match goal with |- le_out (if ?b then _ else _) _ => destruct b end; try apply le_refl; apply IH; lia.
Qed.
Lemma le_fill mem r n : forall f f' c acc, (f <= f')%nat -> le_out (utf8_fill f mem c n acc) (utf8_fill f' (mem ++ r) c n acc).
Proof.
  induction f as [|f IH]; intros f' c acc H; [intros v E; discriminate|]. destruct f' as [|f']; [lia|]. cbn [utf8_fill]. destruct (zlen acc <? n); [|apply le_refl]. apply le_bind; [apply le_rd|]. intros a.
  repeat match goal with
  | |- le_out (if ?b then _ else _) _ => destruct b
  | |- le_out (bind (rd _ _) _) _ => apply le_bind; [apply le_rd|]; intros
  | |- le_out (bind (if ?b then _ else _) _) _ => apply le_bind; [destruct b; [apply le_char|apply le_refl]|]; intros
  end; apply IH; lia.
Qed.
Lemma le_decode mem r : le_out (utf8_decode mem) (utf8_decode (mem ++ r)).
Proof.
  unfold utf8_decode.
  apply le_bind; [apply le_andb; apply le_char|]. intros []; [apply le_refl|]. apply le_bind; [apply le_andb; apply le_char|]. intros []; [apply le_refl|].
  apply le_bind; [apply le_andb; [apply le_char|apply le_andb; apply le_char]|]. intros b. apply le_bind; [apply le_count; rewrite app_length; lia|]. intros n. apply le_fill. rewrite app_length. lia.
Qed.
Lemma to_zero_split l : exists r, (l = to_zero l /\ r = []) \/ l = to_zero l ++ 0 :: r.
Proof.
  induction l as [|b l [r IH]]; [exists []; left; auto|]. cbn [to_zero]. destruct (Z.eqb_spec b 0) as [->|N]; [exists l; right; reflexivity|].
  exists r. destruct IH as [[IH1 IH2]|IH]; [left|right]; cbn [app]; [split; [f_equal; exact IH1|exact IH2]|f_equal; exact IH].
Qed.
Lemma decode_text l : is_text l -> exists t, utf8_decode (l ++ [0]) = Val t.
Proof.
  intros [HB [t HT]]. assert (N : Forall (fun b => 0 < b < 256) (to_zero l)).
  { clear HT. induction HB as [|b l Hb HB IH]; cbn [to_zero]; [constructor|]. destruct (Z.eqb_spec b 0); constructor; auto. unfold byte in Hb. lia. }
  pose proof (decode_total (to_zero l) N) as D. rewrite HT in D. cbn [outcome_of] in D. exists t. destruct (to_zero_split l) as [r [[E _]|E]].
  - rewrite E. exact D.
  - rewrite E, <- app_assoc. cbn [app]. replace (to_zero l ++ 0 :: r ++ [0]) with ((to_zero l ++ [0]) ++ r ++ [0]) by (rewrite <- app_assoc; reflexivity). apply le_decode. exact D.
Qed.
Lemma decode_name name : name_ok name -> utf8_decode (utf8s name ++ [0]) = Val name.
Proof.
  intros (H1 & H2 & _). unfold utf8s. rewrite decode_code_points; [|eapply Forall_impl; [|exact H1]; intros a Ha; cbv beta in Ha; lia|exact H2]. f_equal.
  rewrite <- (map_id name) at 2. apply map_ext_in. intros c Hc. rewrite Forall_forall in H1. specialize (H1 c Hc). cbv beta in H1. apply Z.mod_small. lia.
Qed.

(** ** reading at a place *)
Lemma placed_range c off b : placed c off b -> 0 <= off /\ off + zlen b <= zlen c.
Proof. intros (p & s & -> & <-). rewrite !zlen_app. pose proof (zlen_nonneg p). pose proof (zlen_nonneg s). lia. Qed.
Lemma placed_app c off a b : placed c off (a ++ b) -> placed c off a /\ placed c (off + zlen a) b.
Proof.
  intros (p & s & E & <-). split.
  - exists p, (b ++ s). rewrite <- app_assoc in E. auto.
  - exists (p ++ a), s. rewrite zlen_app. split; [|reflexivity]. rewrite E, <- !app_assoc. reflexivity.
Qed.
Lemma read_placed k f off b old : placed (fc f) off b -> zlen old = zlen b -> exists f', read_over (seek k f off) old = (b, f') /\ fc f' = fc f.
Proof.
  intros P H. destruct (placed_range _ _ _ P) as [R1 R2]. destruct P as (p & s & E & <-). unfold read_over, f_read.
  assert (FC : fc (seek k f (zlen p)) = fc f) by (destruct k; reflexivity). rewrite FC. rewrite H.
  assert (G : firstn (Z.to_nat (zlen b)) (skipn (Z.to_nat (fp (seek k f (zlen p)))) (fc f)) = b).
  { destruct b as [|x b].
    - reflexivity.
    - assert (fp (seek k f (zlen p)) = zlen p) as ->. { destruct k; [reflexivity|]. cbn [seek]. unfold m_seek. cbn [fp]. rewrite zlen_cons in R2. pose proof (zlen_nonneg b). replace (zlen p <? zlen (fc f)) with true by lia. reflexivity. }
      rewrite E. replace (Z.to_nat (zlen p)) with (length p) by (unfold zlen; lia). rewrite skipn_app, skipn_all, Nat.sub_diag. cbn [app skipn]. replace (Z.to_nat (zlen (x :: b))) with (length (x :: b)) by (unfold zlen; lia).
      change (x :: b ++ s) with ((x :: b) ++ s). rewrite firstn_app, firstn_all, Nat.sub_diag. rewrite firstn_O. apply app_nil_r. }
  rewrite G. rewrite (skipn_all2 old) by (unfold zlen in H; lia). rewrite app_nil_r. eexists. split; reflexivity.
Qed.
(** fields of a record *)
Lemma isbytes l : Forall byte l -> Forall isbyte l. Proof. intros H. exact H. Qed.
Lemma get_u16 p v s i : 0 <= v < 65536 -> i = zlen p -> zlen p + 2 <= 2 ^ 32 -> deserializeLEUInt16 (p ++ le_bytes 2 v ++ s) i = Val v.
Proof. intros H -> L. rewrite (desLEU16 p (le_bytes 2 v) s) by (try reflexivity; try assumption; apply le_bytes_byte). rewrite le_back; [reflexivity|]. change (256 ^ Z.of_nat 2) with 65536. exact H. Qed.
Lemma get_u32 p v s i : 0 <= v < 2 ^ 32 -> i = zlen p -> zlen p + 4 <= 2 ^ 32 -> deserializeLEUInt32 (p ++ le_bytes 4 v ++ s) i = Val v.
Proof. intros H -> L. rewrite (desLEU32 p (le_bytes 4 v) s) by (try reflexivity; try assumption; apply le_bytes_byte). rewrite le_back; [reflexivity|]. exact H. Qed.
Lemma get_sig b s : length b = 4%nat -> Forall byte b -> exists v, deserializeLEInt32 (b ++ s) 0 = Val v /\ u32 v = le_value b.
Proof.
  intros H1 H2. exists (signed 4 (le_value b)). split; [exact (desLE32 [] b s H1 ltac:(cbn; lia) (isbytes _ H2))|]. unfold signed, u32. change (256 ^ Z.of_nat 4) with 4294967296. change (4294967296 / 2) with 2147483648.
  rewrite Zminus_mod_idemp_l. replace (le_value b + 2147483648 - 2147483648) with (le_value b) by lia. apply Z.mod_small. pose proof (le_value_range b (isbytes _ H2)) as R. replace (zlen b) with 4 in R by (unfold zlen; lia). exact R.
Qed.
Lemma le_inj b v : Forall byte b -> le_value b = v -> b = le_bytes (length b) v.
Proof.
  revert v. induction b as [|x b IH]; intros v H E; [reflexivity|]. inversion_clear H as [|? ? Hx Hb]. cbn [le_value] in E. cbn [le_bytes length]. unfold byte in Hx. f_equal; [lia|]. apply IH; [exact Hb|lia].
Qed.

(** ** the end of the central directory *)
Definition end22 (a : archive) (size : Z) : list Z := le_bytes 4 101010256 ++ disks a ++ le_bytes 2 (zlen (members a)) ++ le_bytes 4 size ++ le_bytes 4 (start a) ++ le_bytes 2 (zlen (archive_comment a)).
Lemma find_end_ok k content a size (pre : list Z) : Forall byte content -> zlen content < 2 ^ 32 -> zlen (disks a) = 6 -> placed content (zlen pre) (end22 a size) -> (forall q, zlen pre < q <= zlen content - 22 -> ~ has_signature content q) ->
  forall n fuel f old, fc f = content -> zlen old = 22 -> zlen pre + Z.of_nat n <= zlen content - 22 -> (n < fuel)%nat ->
  exists f', find_end k fuel f old (zlen pre + Z.of_nat n) = Val (end22 a size, f') /\ fc f' = content.
Proof.
  intros HB HZ HD HP HS. change (2 ^ 32) with 4294967296 in HZ. assert (E22 : zlen (end22 a size) = 22) by (unfold end22; rewrite !zlen_app, !le_zlen; lia). pose proof (zlen_nonneg pre).
  induction n as [|n IH]; intros fuel f old HF HO HN HL; (destruct fuel as [|fuel]; [lia|]); cbn [find_end].
  - replace (zlen pre + Z.of_nat 0) with (zlen pre) by lia. rewrite <- HF in HP. destruct (read_placed k f (zlen pre) _ old HP ltac:(lia)) as (f' & -> & FC).
    unfold end22 at 1. rewrite <- !app_assoc. destruct (get_sig (le_bytes 4 101010256) (disks a ++ le_bytes 2 (zlen (members a)) ++ le_bytes 4 size ++ le_bytes 4 (start a) ++ le_bytes 2 (zlen (archive_comment a)) ++ [0]) eq_refl (le_bytes_byte _ _)) as (v & -> & V).
    cbn [bind]. rewrite V. rewrite le_back by (cbn; lia). cbn [Z.eqb Pos.eqb]. exists f'. split; [reflexivity|congruence].
  - set (q := zlen pre + Z.of_nat (S n)) in *.
    assert (HQ : exists b, placed content q b /\ zlen b = 22).
    { destruct (split_len content q ltac:(lia)) as (p & s & E & Ep). destruct (split_len s 22) as (b & s' & E' & Eb); [pose proof (f_equal zlen E) as EZ; rewrite zlen_app in EZ; lia|]. exists b. split; [|exact Eb]. exists p, s'. subst. auto. }
    destruct HQ as (b & PB & ZB). rewrite <- HF in PB. destruct (read_placed k f q b old PB ltac:(lia)) as (f' & -> & FC). rewrite HF in *.
    destruct (split_len b 4 ltac:(lia)) as (b4 & br & -> & Z4). assert (L4 : length b4 = 4%nat) by (unfold zlen in Z4; lia). destruct (placed_app _ _ _ _ PB) as [PB4 _].
    assert (B4 : Forall byte b4). { destruct PB4 as (p & s & -> & _). apply Forall_app in HB as [_ HB]. apply Forall_app in HB as [HB _]. exact HB. }
    rewrite <- app_assoc. destruct (get_sig b4 (br ++ [0]) L4 B4) as (v & -> & V). cbn [bind]. rewrite V. destruct (Z.eqb_spec (le_value b4) 101010256) as [E|E].
    + exfalso. apply (HS q ltac:(lia)). unfold has_signature. apply le_inj in E; [|exact B4]. rewrite L4 in E. rewrite <- E. exact PB4.
    + assert (u32 (q - 1) = zlen pre + Z.of_nat n) as -> by (rewrite u32_id; lia). apply IH; [exact FC|exact ZB|lia|lia].
Qed.

(** ** the central directory *)
Definition rec20 (m : member) : list Z :=
  le_bytes 4 33639248 ++ le_bytes 2 (mmade m) ++ le_bytes 2 (version (mmeta m)) ++ le_bytes 2 (flags (mmeta m)) ++ le_bytes 2 (method (mmeta m)) ++ le_bytes 2 (time (mmeta m)) ++ le_bytes 2 (date (mmeta m)) ++ le_bytes 4 (crc (mmeta m)).
Lemma record_split m : member_record m = rec20 m ++ le_bytes 4 (csize (mmeta m)) ++ le_bytes 4 (usize (mmeta m)) ++ le_bytes 2 (zlen (utf8s (mname m))) ++ le_bytes 2 (zlen (mextra m)) ++ le_bytes 2 (zlen (mcomment m)) ++ mattr m ++
  le_bytes 4 (moffset m) ++ utf8s (mname m) ++ mextra m ++ mcomment m.
Proof. unfold member_record, central, meta_bytes, rec20. rewrite <- !app_assoc. reflexivity. Qed.
Lemma dict_bytes_at p x s a n : a = zlen p -> n = zlen x -> dict_bytes (p ++ x ++ s) a n = Val x.
Proof.
  intros -> ->. unfold dict_bytes. pose proof (zlen_nonneg s). pose proof (zlen_nonneg x). pose proof (zlen_nonneg p).
  assert (Z : zlen (p ++ x ++ s) = zlen p + zlen x + zlen s) by (rewrite !zlen_app; lia). rewrite Z. replace ((zlen p >? zlen p + zlen x + zlen s + 1) || (zlen p + zlen x >? zlen p + zlen x + zlen s + 1)) with false by lia.
  f_equal. rewrite <- !app_assoc. replace (Z.to_nat (zlen p)) with (length p) by (unfold zlen; lia). rewrite skipn_app, skipn_all, Nat.sub_diag. cbn [app skipn]. replace (Z.to_nat (zlen x)) with (length x) by (unfold zlen; lia).
  rewrite firstn_app, firstn_all, Nat.sub_diag. rewrite firstn_O. apply app_nil_r.
Qed.
Ltac zl := rewrite ?zlen_app, ?le_zlen; lia.
Lemma directory_read content : zlen content < 2 ^ 32 -> forall ms p, Forall (member_ok content) ms -> zlen (p ++ flat_map member_record ms) < 2 ^ 32 ->
  exists es, read_directory (length ms) (p ++ flat_map member_record ms) (zlen p) = Val es /\ Forall2 describes ms es.
Proof.
  intros HC. change (2 ^ 32) with 4294967296 in *. induction ms as [|m ms IH]; intros p HM HZ; [exists []; split; [reflexivity|constructor]|].
  apply Forall_cons_iff in HM as [(N & X & C & LX & LC & LA & CS & US & UR & PB & LN & LE & ME & UN & PL) HM]. cbn [flat_map length] in *.
  destruct (IH (p ++ member_record m) HM) as (es & E & F); [rewrite <- app_assoc; exact HZ|]. rewrite <- app_assoc in E. 
  destruct (decode_text _ X) as (tx & DX). destruct (decode_text _ C) as (tc & DC). pose proof (decode_name _ N) as DN. destruct N as (N1 & N2 & N3).
  assert (OR : 0 <= moffset m < 4294967296 /\ 0 <= zlen (packed m) < 4294967296).
  { destruct (placed_app _ _ _ _ PL) as [_ P2]. apply placed_range in P2. apply placed_range in PL. rewrite zlen_app in PL. pose proof (zlen_nonneg (packed m)). pose proof (zlen_nonneg (local (lmeta m) (lname m) (lextra m))). lia. }
  pose proof (zlen_nonneg p). pose proof (zlen_nonneg (utf8s (mname m))). pose proof (zlen_nonneg (mextra m)). pose proof (zlen_nonneg (mcomment m)). pose proof (zlen_nonneg (mdata m)).
  assert (Z20 : zlen (rec20 m) = 20) by (unfold rec20; rewrite !zlen_app, !le_zlen; lia).
  assert (ZR : zlen (member_record m) = 46 + zlen (utf8s (mname m)) + zlen (mextra m) + zlen (mcomment m)) by (rewrite record_split, !zlen_app, !le_zlen, Z20, LA; lia).
  set (rest := flat_map member_record ms) in *. assert (ZD : zlen p + zlen (member_record m) + zlen rest < 4294967296) by (rewrite !zlen_app in HZ; lia). pose proof (zlen_nonneg rest).
  set (nm := utf8s (mname m)) in *.
  assert (SP : forall t, (p ++ member_record m ++ rest) ++ t = p ++ rec20 m ++ le_bytes 4 (zlen (packed m)) ++ le_bytes 4 (zlen (mdata m)) ++ le_bytes 2 (zlen nm) ++ le_bytes 2 (zlen (mextra m)) ++ le_bytes 2 (zlen (mcomment m)) ++ mattr m ++ le_bytes 4 (moffset m) ++ nm ++ mextra m ++ mcomment m ++ rest ++ t).
  { intros t. rewrite record_split, CS, US. fold nm. rewrite <- !app_assoc. reflexivity. }
  assert (G1 : deserializeLEUInt32 ((p ++ member_record m ++ rest) ++ [0]) (u32 (zlen p + 20)) = Val (zlen (packed m))).
  { rewrite SP. rewrite app_assoc. apply get_u32; [lia|rewrite u32_id by lia; zl|change (2 ^ 32) with 4294967296; zl]. }
  assert (G2 : deserializeLEUInt32 ((p ++ member_record m ++ rest) ++ [0]) (u32 (zlen p + 24)) = Val (zlen (mdata m))).
  { rewrite SP. do 2 rewrite app_assoc. apply get_u32; [lia|rewrite u32_id by lia; zl|change (2 ^ 32) with 4294967296; zl]. }
  assert (G3 : deserializeLEUInt16 ((p ++ member_record m ++ rest) ++ [0]) (u32 (zlen p + 28)) = Val (zlen nm)).
  { rewrite SP. do 3 rewrite app_assoc. apply get_u16; [lia|rewrite u32_id by lia; zl|change (2 ^ 32) with 4294967296; zl]. }
  assert (G4 : deserializeLEUInt16 ((p ++ member_record m ++ rest) ++ [0]) (u32 (zlen p + 30)) = Val (zlen (mextra m))).
  { rewrite SP. do 4 rewrite app_assoc. apply get_u16; [lia|rewrite u32_id by lia; zl|change (2 ^ 32) with 4294967296; zl]. }
  assert (G5 : deserializeLEUInt16 ((p ++ member_record m ++ rest) ++ [0]) (u32 (zlen p + 32)) = Val (zlen (mcomment m))).
  { rewrite SP. do 5 rewrite app_assoc. apply get_u16; [lia|rewrite u32_id by lia; zl|change (2 ^ 32) with 4294967296; zl]. }
  assert (G6 : deserializeLEUInt32 ((p ++ member_record m ++ rest) ++ [0]) (u32 (zlen p + 42)) = Val (moffset m)).
  { rewrite SP. do 7 rewrite app_assoc. apply get_u32; [lia|rewrite u32_id by lia; zl|change (2 ^ 32) with 4294967296; zl]. }
  specialize (SP []). rewrite !app_nil_r in SP.
  assert (D1 : dict_string (p ++ member_record m ++ rest) (u32 (zlen p + 46)) (zlen nm) = Val (mname m)).
  { unfold dict_string. rewrite SP. do 8 rewrite app_assoc. rewrite dict_bytes_at by (try reflexivity; rewrite u32_id by lia; zl). cbn [bind]. exact DN. }
  assert (D2 : dict_string (p ++ member_record m ++ rest) (u32 (zlen p + 46 + zlen nm)) (zlen (mextra m)) = Val tx).
  { unfold dict_string. rewrite SP. do 9 rewrite app_assoc. rewrite dict_bytes_at by (try reflexivity; rewrite u32_id by lia; zl). cbn [bind]. exact DX. }
  assert (D3 : dict_string (p ++ member_record m ++ rest) (u32 (zlen p + 46 + zlen nm + zlen (mextra m))) (zlen (mcomment m)) = Val tc).
  { unfold dict_string. rewrite SP. do 10 rewrite app_assoc. rewrite dict_bytes_at by (try reflexivity; rewrite u32_id by lia; zl). cbn [bind]. exact DC. }
  cbn [read_directory]. rewrite G1. cbn [bind]. rewrite G2. cbn [bind]. rewrite G3. cbn [bind]. rewrite G4. cbn [bind]. rewrite G5. cbn [bind]. rewrite G6. cbn [bind]. rewrite D1. cbn [bind]. rewrite D2. cbn [bind]. rewrite D3. cbn [bind].
  replace (u32 (zlen p + (46 + zlen nm + zlen (mextra m) + zlen (mcomment m)))) with (zlen (p ++ member_record m)) by (rewrite u32_id by lia; rewrite zlen_app; lia). rewrite E. cbn [bind].
  eexists. split; [reflexivity|]. constructor; [|exact F]. unfold describes. cbn [ename eusize ecsize eoff]. auto.
Qed.
Theorem open_ok k content a : archive_ok content a -> exists es f, zf_open k content = Val (es, f) /\ fc f = content /\ Forall2 describes (members a) es.
Proof.
  intros (HC & HB & HN & HK & HD & HM & HP & pre & E & H0 & HS). unfold zf_open. set (size := zlen (flat_map member_record (members a))) in *.
  assert (EE : ending (disks a) (zlen (members a)) size (start a) (archive_comment a) = end22 a size ++ archive_comment a) by (unfold ending, end22; rewrite <- !app_assoc; reflexivity). rewrite EE in E. clear EE.
  assert (E22 : zlen (end22 a size) = 22) by (unfold end22; rewrite !zlen_app, !le_zlen; lia). assert (ZC : zlen content = zlen pre + 22 + zlen (archive_comment a)) by (rewrite E, !zlen_app; lia).
  pose proof (zlen_nonneg pre). pose proof (zlen_nonneg (archive_comment a)). pose proof (zlen_nonneg (members a)). assert (0 <= size) by apply zlen_nonneg. pose proof (placed_range _ _ _ HP) as RP. fold size in RP. pose proof HC as HC'. change (2 ^ 32) with 4294967296 in HC'.
  rewrite (u32_id (zlen content)) by lia. rewrite (u32_id (zlen content - 22)) by lia. replace (zlen content =? 0) with false by lia.
  destruct (find_end_ok k content a size pre HB HC HD) with (n := Z.to_nat (zlen (archive_comment a))) (fuel := rounds (zlen content - 22)) (f := F content 0) (old := repeat 0 22) as (f1 & E1 & F1).
  - exists pre, (archive_comment a). rewrite E. auto.
  - exact HS.
  - reflexivity.
  - reflexivity.
  - lia.
  - unfold rounds. destruct (Z.eqb_spec (zlen content - 22) 0); [lia|]. destruct H0 as [H0|H0]; [destruct pre; [contradiction|]; rewrite zlen_cons in *; pose proof (zlen_nonneg pre); lia|rewrite H0 in *; change (zlen (@nil Z)) with 0 in *; lia].
  - replace (zlen pre + Z.of_nat (Z.to_nat (zlen (archive_comment a)))) with (zlen content - 22) in E1 by lia. rewrite E1. cbn [bind].
    assert (SP : end22 a size ++ [0] = le_bytes 4 101010256 ++ disks a ++ le_bytes 2 (zlen (members a)) ++ le_bytes 4 size ++ le_bytes 4 (start a) ++ le_bytes 2 (zlen (archive_comment a)) ++ [0]) by (unfold end22; rewrite <- !app_assoc; reflexivity).
    assert (G1 : deserializeLEUInt16 (end22 a size ++ [0]) 10 = Val (zlen (members a))) by (rewrite SP, app_assoc; apply get_u16; [lia|zl|change (2 ^ 32) with 4294967296; zl]).
    assert (G2 : deserializeLEUInt32 (end22 a size ++ [0]) 12 = Val size) by (rewrite SP; do 2 rewrite app_assoc; apply get_u32; [lia|zl|change (2 ^ 32) with 4294967296; zl]).
    assert (G3 : deserializeLEUInt32 (end22 a size ++ [0]) 16 = Val (start a)) by (rewrite SP; do 3 rewrite app_assoc; apply get_u32; [lia|zl|change (2 ^ 32) with 4294967296; zl]).
    rewrite G1. cbn [bind]. rewrite G2. cbn [bind]. rewrite G3. cbn [bind]. rewrite <- F1 in HP. destruct (read_placed k f1 (start a) _ (repeat 0 (Z.to_nat size)) HP) as (f2 & -> & F2); [rewrite zlen_repeat; lia|].
    destruct (directory_read content HC (members a) [] HM) as (es & D & DF); [cbn [app]; fold size; lia|]. cbn [app] in D. change (zlen (@nil Z)) with 0 in D. replace (Z.to_nat (zlen (members a))) with (length (members a)) by (unfold zlen; lia). rewrite D. cbn [bind].
    exists es, f2. split; [reflexivity|]. split; [congruence|exact DF].
Qed.

(** ** the data of an entry *)
Lemma inflate_inv lr more s0 o s : inflate lr more s0 = Val (o, s) -> (ub s = None /\ o = []) \/ exists u, ub s = Some u /\ o = firstn (Z.to_nat (ui s)) u.
Proof.
  unfold inflate. intros E. match type of E with bind ?m _ = _ => destruct m as [s1| | |] end; try discriminate. cbn [bind] in E. match type of E with bind ?m _ = _ => destruct m as [s2| | |] end; try discriminate. cbn [bind] in E.
  destruct (ub s2) as [u|] eqn:U; injection E as <- <-; [right; exists u; auto|left; auto].
Qed.
Lemma firstn_prefix {A} (u : list A) n o : o = firstn n u -> firstn (length o) u = o /\ (length o <= length u)%nat.
Proof. intros ->. rewrite firstn_length. split; [|lia]. destruct (Nat.le_gt_cases n (length u)); [rewrite Nat.min_l by lia; reflexivity|rewrite Nat.min_r by lia; rewrite firstn_all, firstn_all2 by lia; reflexivity]. Qed.
Theorem stream_ok_data k more f m e : zlen (fc f) < 2 ^ 32 -> member_ok (fc f) m -> describes m e ->
  exists s f', zf_stream true more k f e = Val (s, f') /\ fc f' = fc f /\ ssize s = zlen (mdata m) /\ zs_read_all s = Val (map Some (mdata m)).
Proof.
  intros HC (N & X & C & LX & LC & LA & CS & US & UR & PB & LN & LE & ME & UN & PL) (E1 & E2 & E3 & E4). unfold zf_stream. rewrite E4.
  pose proof (zlen_nonneg (lname m)). pose proof (zlen_nonneg (lextra m)). pose proof (zlen_nonneg (packed m)). pose proof (zlen_nonneg (mdata m)).
  pose proof (placed_range _ _ _ PL) as RP. destruct (placed_app _ _ _ _ PL) as [PH PD].
  set (h30 := le_bytes 4 67324752 ++ meta_bytes (lmeta m) ++ le_bytes 2 (zlen (lname m)) ++ le_bytes 2 (zlen (lextra m))).
  assert (EL : local (lmeta m) (lname m) (lextra m) = h30 ++ lname m ++ lextra m) by (unfold local, h30; rewrite <- !app_assoc; reflexivity).
  assert (Z30 : zlen h30 = 30) by (unfold h30, meta_bytes; rewrite !zlen_app, !le_zlen; lia). rewrite EL in PH, PD, RP. rewrite !zlen_app in PD, RP. rewrite Z30 in PD, RP. rewrite ?zlen_app in RP. apply placed_app in PH as [PH _]. change (2 ^ 32) with 4294967296 in *.
  destruct (read_placed k f (moffset m) h30 (repeat 0 30) PH ltac:(rewrite Z30; reflexivity)) as (f1 & -> & F1).
  assert (SP : h30 ++ [0] = le_bytes 4 67324752 ++ (le_bytes 2 (version (lmeta m)) ++ le_bytes 2 (flags (lmeta m))) ++ le_bytes 2 (method (lmeta m)) ++
    (le_bytes 2 (time (lmeta m)) ++ le_bytes 2 (date (lmeta m)) ++ le_bytes 4 (crc (lmeta m)) ++ le_bytes 4 (csize (lmeta m)) ++ le_bytes 4 (usize (lmeta m))) ++ le_bytes 2 (zlen (lname m)) ++ le_bytes 2 (zlen (lextra m)) ++ [0]) by (unfold h30, meta_bytes; rewrite <- !app_assoc; reflexivity).
  assert (G0 : deserializeLEUInt32 (h30 ++ [0]) 0 = Val 67324752) by (rewrite SP; apply (get_u32 []); [lia|reflexivity|cbn; lia]).
  assert (G1 : deserializeLEUInt16 (h30 ++ [0]) 8 = Val (method (lmeta m))) by (rewrite SP; rewrite app_assoc; apply get_u16; [lia|zl|change (2 ^ 32) with 4294967296; zl]).
  assert (G2 : deserializeLEUInt16 (h30 ++ [0]) 26 = Val (zlen (lname m))) by (rewrite SP; do 3 rewrite app_assoc; apply get_u16; [lia|zl|change (2 ^ 32) with 4294967296; zl]).
  assert (G3 : deserializeLEUInt16 (h30 ++ [0]) 28 = Val (zlen (lextra m))) by (rewrite SP; do 4 rewrite app_assoc; apply get_u16; [lia|zl|change (2 ^ 32) with 4294967296; zl]).
  rewrite G0. cbn [bind]. change (67324752 =? 67324752) with true. cbn [negb]. rewrite G1. cbn [bind]. rewrite G2. cbn [bind]. rewrite G3. cbn [bind]. rewrite (u32_id (_ + _ + _ + _)) by lia. rewrite <- F1 in PD.
  replace (moffset m + 30 + zlen (lname m) + zlen (lextra m)) with (moffset m + (30 + (zlen (lname m) + zlen (lextra m)))) by lia.
  destruct (read_placed k f1 _ (packed m) (repeat 0 (Z.to_nat (ecsize e))) PD) as (f2 & -> & F2); [rewrite zlen_repeat, E3; lia|]. rewrite E2, E3.
  destruct UN as [[U1 U2]|[U1 (bs & rest & B1 & B2 & B3 & B4)]]; rewrite U1.
  - change (0 =? 0) with true. change (0 =? 8) with false. cbv iota. rewrite U2. replace (zlen (mdata m) >? zlen (mdata m)) with false by lia. cbn [bind]. replace (zlen (mdata m) - zlen (mdata m)) with 0 by lia. change (repeat (@None Z) (Z.to_nat 0)) with (@nil (option Z)). rewrite app_nil_r.
    eexists _, f2. split; [reflexivity|]. split; [congruence|]. cbn [ssize]. split; [reflexivity|]. unfold zs_read_all. cbn [ssize sbuf]. destruct (Z.leb_spec (zlen (mdata m)) 0) as [Q|Q].
    + assert (mdata m = []) as -> by (apply zlen_zero; lia). reflexivity.
    + rewrite zlen_map. replace (zlen (mdata m) >? zlen (mdata m)) with false by lia. rewrite firstn_all2 by (rewrite map_length; unfold zlen; lia). reflexivity.
  - change (8 =? 0) with false. change (8 =? 8) with true. cbv iota. cbn [bind].
    destruct (C63_raw more (packed m ++ [0]) bs (rest ++ [0;0;0;0;0;0;0;0])) as (s & E & _).
    + apply Forall_app. split; [exact PB|]. repeat constructor; unfold byte; lia.
    + exact B1.
    + exact B2.
    + unfold bits_of. rewrite flat_map_app. fold (bits_of (packed m)). rewrite B3. rewrite <- app_assoc. reflexivity.
    + unfold inflate_bytes in E. rewrite E. cbn [bind]. rewrite B4 in E. eexists _, f2. split; [reflexivity|]. split; [congruence|]. cbn [ssize]. split; [reflexivity|]. unfold zs_read_all. cbn [ssize sbuf].
      destruct (Z.leb_spec (zlen (mdata m)) 0) as [Q|Q]; [assert (mdata m = []) as -> by (apply zlen_zero; lia); reflexivity|].
      apply inflate_inv in E as [[_ E]|(u & -> & E)]; [apply (f_equal zlen) in E; rewrite zlen_map in E; change (zlen (@nil (option Z))) with 0 in E; lia|].
      apply firstn_prefix in E as [E L]. rewrite map_length in E, L. replace (zlen (mdata m) >? zlen u) with false by (unfold zlen; lia). replace (Z.to_nat (zlen (mdata m))) with (length (mdata m)) by (unfold zlen; lia). rewrite E. reflexivity.
Qed.
