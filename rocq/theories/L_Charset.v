From Verif Require Import Base L_Bits S_Charset M_Charset.
Ltac Zify.zify_post_hook ::= Z.to_euclidean_division_equations.
Ltac zl := repeat rewrite ?zlen_app, ?zlen_cons, ?zlen_nil; lia.

Definition nzb (b : Z) : Prop := 0 < b < 256.

Lemma c_strlen_spec text : Forall nzb text -> forall fuel p, (length text < fuel)%nat -> forall tl,
  c_strlen fuel (p ++ text ++ 0 :: tl) (zlen p) = Val (zlen p + zlen text).
Proof.
  induction text as [|b r IH]; intros HB fuel p HF tl; (destruct fuel; [lia|]); cbn [app c_strlen]; rewrite rd_mid; cbn [bind].
  - change (0 =? 0) with true. cbv iota. rewrite zlen_nil. f_equal. lia.
  - inversion_clear HB as [|? ? Hb Hr]. unfold nzb in Hb. destruct (b =? 0) eqn:E; [lia|].
    specialize (IH Hr fuel (p ++ [b]) ltac:(cbn [length] in HF; lia) tl). rewrite <- app_assoc in IH. cbn [app] in IH.
    replace (zlen (p ++ [b])) with (zlen p + 1) in IH by zl. rewrite IH. f_equal. zl.
Qed.
Lemma map_bytes_spec f text : forall p tl, map_bytes f (p ++ text ++ tl) (zlen p) (length text) = Val (map f text).
Proof.
  induction text as [|b r IH]; intros p tl; cbn [map_bytes length map]; [reflexivity|].
  cbn [app]. rewrite rd_mid. cbn [bind]. specialize (IH (p ++ [b]) tl). rewrite <- app_assoc in IH. cbn [app] in IH.
  replace (zlen (p ++ [b])) with (zlen p + 1) in IH by zl. rewrite IH. reflexivity.
Qed.
Lemma decode_single_spec f text tl : Forall nzb text -> decode_single f (text ++ 0 :: tl) = Val (map f text).
Proof.
  intros HB. unfold decode_single.
  pose proof (c_strlen_spec text HB (S (length (text ++ 0 :: tl))) [] ltac:(rewrite app_length; cbn [length]; lia) tl) as H.
  cbn [app] in H. change (zlen (@nil Z)) with 0 in H. rewrite H. cbn [bind].
  replace (Z.to_nat (0 + zlen text)) with (length text) by (unfold zlen; lia).
  apply (map_bytes_spec f text [] (0 :: tl)).
Qed.

(** per byte facts, swept over the 256 bytes *)
Definition w1252_undefined (b : Z) : bool := (b =? 129) || (b =? 141) || (b =? 143) || (b =? 144) || (b =? 157).
Definition chk_w b := (b =? 0) || (switch w1252_cases (u8 (nth (Z.to_nat b) w1252_table 0)) (nth (Z.to_nat b) w1252_table 0)
     =? (if w1252_undefined b then 141 else b)).
Definition chk_u b := (b =? 0) || Bool.eqb (nth (Z.to_nat b) w1252_table 0 =? 0) (w1252_undefined b).
Definition chk_m b := (b =? 0) || (switch mac_cases 0 (nth (Z.to_nat b) mac_table 0) =?
     if (b =? 127) || (b =? 176) then 0 else if b =? 146 then 147 else if b =? 147 then 146 else b).
Lemma chk_all b : 0 <= b < 256 -> chk_w b && chk_u b && chk_m b = true.
Proof. intros H. apply (sweep 256 (fun b => chk_w b && chk_u b && chk_m b)); [vm_compute; reflexivity|lia]. Qed.
Lemma chk_each b : 0 < b < 256 -> chk_w b = true /\ chk_u b = true /\ chk_m b = true.
Proof. intros H. pose proof (chk_all b ltac:(lia)) as S. apply andb_true_iff in S as [S S3]. apply andb_true_iff in S as [S1 S2]. auto. Qed.
Lemma w1252_byte b : 0 < b < 256 ->
  switch w1252_cases (u8 (nth (Z.to_nat b) w1252_table 0)) (nth (Z.to_nat b) w1252_table 0)
  = if w1252_undefined b then 141 else b.
Proof.
  intros H. destruct (chk_each b H) as (S & _). unfold chk_w in S.
  destruct (Z.eqb_spec b 0); [lia|]. now apply Z.eqb_eq in S.
Qed.
Lemma w1252_unit b : 0 < b < 256 -> (nth (Z.to_nat b) w1252_table 0 =? 0) = w1252_undefined b.
Proof.
  intros H. destruct (chk_each b H) as (_ & S & _). unfold chk_u in S.
  destruct (Z.eqb_spec b 0); [lia|]. now apply Bool.eqb_prop in S.
Qed.
Lemma mac_byte b : 0 < b < 256 ->
  switch mac_cases 0 (nth (Z.to_nat b) mac_table 0)
  = if (b =? 127) || (b =? 176) then 0 else if b =? 146 then 147 else if b =? 147 then 146 else b.
Proof.
  intros H. destruct (chk_each b H) as (_ & _ & S). unfold chk_m in S.
  destruct (Z.eqb_spec b 0); [lia|]. now apply Z.eqb_eq in S.
Qed.
Lemma raw_byte b : 0 <= b < 256 -> u8 (u16 (s8 b)) = b.
Proof. intros H. unfold u8, u16, s8. lia. Qed.

(** * UTF-16 *)
Definition unitz (c : Z) : Prop := 0 <= c < 65536.

Lemma utf16_encode_spec s : Forall unitz s -> utf16_encode s = be_bytes s.
Proof.
  unfold utf16_encode, be_bytes. intros H. f_equal. apply map_ext_in. intros c Hc. rewrite Forall_forall in H. specialize (H c Hc).
  unfold unitz in H. rewrite shiftr_div by lia. change (2 ^ 8) with 256. unfold u8. f_equal. lia.
Qed.

Definition low (c : Z) := c mod 256.
Definition high (c : Z) := c / 256.
Definition pair_of (be : bool) (c : Z) : list Z := if be then [c / 256; c mod 256] else [c mod 256; c / 256].
Lemma pair_len be c : zlen (pair_of be c) = 2. Proof. destruct be; reflexivity. Qed.
Definition bytes16 (be : bool) (s : list Z) : list Z := concat (map (pair_of be) s).
Lemma bytes16_be s : bytes16 true s = be_bytes s. Proof. reflexivity. Qed.
Lemma bytes16_le s : bytes16 false s = le_bytes s. Proof. reflexivity. Qed.
Lemma bytes16_len be s : zlen (bytes16 be s) = 2 * zlen s.
Proof. unfold bytes16. induction s as [|c r IH]; [reflexivity|]. cbn [map concat]. rewrite zlen_app, zlen_cons, IH, pair_len. lia. Qed.

(** offset 0: the first byte of each pair is looked at; offset 1: the second *)
Definition looked (be odd : bool) (c : Z) : Z := if Bool.eqb be odd then low c else high c.
Lemma utf16_count_spec (be odd : bool) s : forall fuel p n, (length s < fuel)%nat ->
  utf16_count fuel (p ++ bytes16 be s ++ [0; 0]) (zlen p + (if odd then 1 else 0)) n
  = Val (n + zlen (upto (looked be odd) s)).
Proof.
  induction s as [|c r IH]; intros fuel p n HF; (destruct fuel; [lia|]); cbn [utf16_count].
  - cbn [bytes16 map concat app upto]. assert (rd (p ++ [0; 0]) (zlen p + (if odd then 1 else 0)) = Val 0) as ->.
    { destruct odd; [|rewrite Z.add_0_r; apply rd_mid].
      replace (p ++ [0; 0]) with ((p ++ [0]) ++ [0]) by (now rewrite <- app_assoc). apply rd_mid'. zl. }
    cbn [bind]. change (0 =? 0) with true. cbv iota. rewrite zlen_nil. f_equal. lia.
  - unfold bytes16 in *. cbn [map concat upto]. rewrite <- (app_assoc (pair_of be c)).
    assert (rd (p ++ pair_of be c ++ concat (map (pair_of be) r) ++ [0; 0]) (zlen p + (if odd then 1 else 0)) = Val (looked be odd c)) as ->.
    { unfold looked, low, high, pair_of. destruct odd.
      - destruct be; cbn [app Bool.eqb];
        match goal with |- rd (p ++ ?a :: ?b :: ?t) _ = _ => replace (p ++ a :: b :: t) with ((p ++ [a]) ++ b :: t) by (now rewrite <- app_assoc) end;
        apply rd_mid'; zl.
      - rewrite Z.add_0_r. destruct be; cbn [app Bool.eqb]; apply rd_mid. }
    cbn [bind]. destruct (looked be odd c =? 0); [rewrite zlen_nil; f_equal; lia|].
    specialize (IH fuel (p ++ pair_of be c) (n + 1) ltac:(cbn [length] in HF; lia)). rewrite <- app_assoc in IH.
    replace (zlen (p ++ pair_of be c) + (if odd then 1 else 0)) with (zlen p + (if odd then 1 else 0) + 2) in IH
      by (rewrite zlen_app, pair_len; lia).
    rewrite IH. f_equal. rewrite zlen_cons. lia.
Qed.
Lemma upto_prefix f s : exists t, s = upto f s ++ t.
Proof. induction s as [|c r [t IH]]; cbn [upto]; [now exists []|]. destruct (f c =? 0); [now exists (c :: r)|]. exists t. cbn [app]. now rewrite <- IH. Qed.

Lemma join_be c : unitz c -> u16 (Z.lor (Z.shiftl (c / 256) 8) (c mod 256)) = c.
Proof.
  intros H. unfold unitz in H. rewrite shiftl_mul by lia. rewrite (lor_disjoint' (c / 256) (c mod 256) 8) by (change (2 ^ 8) with 256; lia).
  change (2 ^ 8) with 256. rewrite u16_id; lia.
Qed.
Lemma join_le c : unitz c -> u16 (Z.lor (c mod 256) (Z.shiftl (c / 256) 8)) = c.
Proof. rewrite Z.lor_comm. apply join_be. Qed.
Lemma utf16_fill_spec be s : Forall unitz s -> forall p tl,
  utf16_fill be (p ++ bytes16 be s ++ tl) (zlen p) (length s) = Val s.
Proof.
  induction s as [|c r IH]; intros HU p tl; cbn [utf16_fill length]; [reflexivity|].
  inversion_clear HU as [|? ? Hc Hr]. unfold bytes16 in *. cbn [map concat]. rewrite <- (app_assoc (pair_of be c)).
  specialize (IH Hr (p ++ pair_of be c) tl). rewrite <- app_assoc in IH.
  replace (zlen (p ++ pair_of be c)) with (zlen p + 2) in IH by (rewrite zlen_app, pair_len; lia).
  rewrite IH. set (t := concat (map (pair_of be) r) ++ tl).
  destruct be; cbn [pair_of app]; rewrite rd_mid; cbn [bind];
  match goal with |- context[p ++ ?a :: ?b :: t] => replace (p ++ a :: b :: t) with ((p ++ [a]) ++ b :: t) by (now rewrite <- app_assoc) end;
  rewrite rd_mid' by zl; cbn [bind]; [rewrite join_be by assumption|rewrite join_le by assumption]; reflexivity.
Qed.

Lemma utf16_decode_plain be s : Forall unitz s -> plain_start (bytes16 be s) ->
  utf16_decode be (bytes16 be s ++ [0; 0]) = Val (upto low s).
Proof.
  intros HU HP. unfold utf16_decode.
  assert (HB : exists c0 c1 r, bytes16 be s ++ [0; 0] = c0 :: c1 :: r /\ ~ (c0 = 254 /\ c1 = 255) /\ ~ (c0 = 255 /\ c1 = 254)
    /\ ((c0 = 239 /\ c1 = 187) -> exists c2 r', r = c2 :: r' /\ c2 <> 191)).
  { destruct s as [|c r].
    - cbn. eexists _, _, _. split; [reflexivity|]. split; [lia|]. split; [lia|]. intros [X _]; discriminate.
    - unfold bytes16 in *. cbn [map concat] in *. unfold pair_of at 1 in HP. unfold pair_of at 1.
      assert (Hne : concat (map (pair_of be) r) ++ [0; 0] <> []) by (destruct (concat (map (pair_of be) r)); discriminate).
      destruct be; cbn [app] in *; (eexists _, _, _; split; [reflexivity|]); cbn [plain_start] in HP; destruct HP as (H1 & H2 & H3);
      (split; [exact H1|]); (split; [exact H2|]); intros [E1 E2];
      (destruct (concat (map (pair_of _) r)) as [|x t]; cbn [app hd] in *; eexists _, _; (split; [reflexivity|]); [lia|]; intros ->; apply H3; auto). }
  destruct HB as (c0 & c1 & r & E & H1 & H2 & H3).
  pose proof (utf16_count_spec be be s (S (length (bytes16 be s ++ [0; 0]))) [] 0) as HC.
  cbn [app] in HC. change (zlen (@nil Z)) with 0 in HC.
  assert (HL : (length s <= length (bytes16 be s))%nat) by (pose proof (bytes16_len be s); unfold zlen in *; lia).
  specialize (HC ltac:(rewrite app_length; lia)).
  destruct (upto_prefix (looked be be) s) as [t Ht].
  assert (HF : utf16_fill be (bytes16 be s ++ [0; 0]) 0 (length (upto (looked be be) s)) = Val (upto (looked be be) s)).
  { rewrite Ht at 1. unfold bytes16. rewrite map_app, concat_app, <- app_assoc.
    apply (utf16_fill_spec be (upto (looked be be) s)) with (p := []).
    rewrite Ht in HU. now apply Forall_app in HU. }
  assert (HL' : upto (looked be be) s = upto low s) by (unfold looked; destruct be; reflexivity).
  rewrite HL' in *.
  remember (bytes16 be s ++ [0; 0]) as mem eqn:Em.
  assert (R0 : rd mem 0 = Val c0) by (rewrite E; reflexivity). assert (R1 : rd mem 1 = Val c1) by (rewrite E; reflexivity).
  rewrite R0, R1. cbn [bind].
  assert ((if c0 =? 254 then Val (c1 =? 255) else Val false) = Val false) as ->
    by (destruct (Z.eqb_spec c0 254); [|reflexivity]; destruct (Z.eqb_spec c1 255); [lia|reflexivity]).
  cbn [bind].
  assert ((if c0 =? 255 then Val (c1 =? 254) else Val false) = Val false) as ->
    by (destruct (Z.eqb_spec c0 255); [|reflexivity]; destruct (Z.eqb_spec c1 254); [lia|reflexivity]).
  cbn [bind orb].
  assert ((if c0 =? 239 then if c1 =? 187 then let* c2 := rd mem 2 in Val (c2 =? 191) else Val false else Val false) = Val false) as ->.
  { destruct (Z.eqb_spec c0 239); [|reflexivity]. destruct (Z.eqb_spec c1 187); [|reflexivity].
    destruct H3 as (c2 & r' & -> & Hn); [auto|]. rewrite E. change (rd (c0 :: c1 :: c2 :: r') 2) with (Val c2). cbn [bind].
    destruct (Z.eqb_spec c2 191); [contradiction|reflexivity]. }
  cbn [bind]. cbv zeta. change (0 + (if be then 1 else 0)) with (if be then 1 else 0) in HC. rewrite HC. cbn [bind].
  replace (Z.to_nat (0 + zlen (upto low s))) with (length (upto low s)) by (unfold zlen; lia). exact HF.
Qed.

(** with the matching byte order mark; the length loop then starts at offset 2 and looks at the first byte of each pair *)
Definition bom16 (be : bool) : list Z := if be then [254; 255] else [255; 254].
Lemma utf16_decode_bom be s : Forall unitz s ->
  utf16_decode be (bom16 be ++ bytes16 be s ++ [0; 0]) = Val (upto (if be then high else low) s).
Proof.
  intros HU. 
  pose proof (utf16_count_spec be false s (S (length (bom16 be ++ bytes16 be s ++ [0; 0]))) (bom16 be) 0) as HC.
  assert (HL : (length s <= length (bytes16 be s))%nat) by (pose proof (bytes16_len be s); unfold zlen in *; lia).
  specialize (HC ltac:(rewrite !app_length; lia)).
  destruct (upto_prefix (looked be false) s) as [t Ht].
  assert (HF : utf16_fill be (bom16 be ++ bytes16 be s ++ [0; 0]) (zlen (bom16 be)) (length (upto (looked be false) s)) = Val (upto (looked be false) s)).
  { rewrite Ht at 1. unfold bytes16. rewrite map_app, concat_app, <- app_assoc.
    apply (utf16_fill_spec be (upto (looked be false) s)).
    rewrite Ht in HU. now apply Forall_app in HU. }
  assert (HL' : upto (looked be false) s = upto (if be then high else low) s) by (unfold looked; destruct be; reflexivity).
  rewrite HL' in *. unfold utf16_decode. remember (bom16 be ++ bytes16 be s ++ [0; 0]) as mem eqn:Em.
  assert (zlen (bom16 be) = 2) as Hz by (destruct be; reflexivity). rewrite Hz in *. rewrite Z.add_0_r in HC.
  assert (R0 : rd mem 0 = Val (if be then 254 else 255)) by (rewrite Em; destruct be; reflexivity).
  assert (R1 : rd mem 1 = Val (if be then 255 else 254)) by (rewrite Em; destruct be; reflexivity).
  rewrite R0, R1. cbn [bind].
  set (r := upto (if be then high else low) s) in *. clearbody r.
  replace (0 + zlen r) with (zlen r) in HC by lia.
  destruct be; cbn -[utf16_count utf16_fill length]; rewrite HC; cbn [bind]; replace (Z.to_nat (zlen r)) with (length r) by (unfold zlen; lia); exact HF.
Qed.

(** one terminating zero only, as toCString provides: the big endian decoder looks at odd offsets *)
Lemma utf16_count_one s : Forall (fun c => low c <> 0) s -> forall fuel p n, (length s < fuel)%nat ->
  utf16_count fuel (p ++ bytes16 true s ++ [0]) (zlen p + 1) n = UB.
Proof.
  induction s as [|c r IH]; intros HN fuel p n HF; (destruct fuel; [lia|]); cbn [utf16_count].
  - cbn [bytes16 map concat app]. rewrite rd_out; [reflexivity|]. right. zl.
  - inversion_clear HN as [|? ? Hc Hr]. unfold bytes16 in *. cbn [map concat]. rewrite <- (app_assoc (pair_of true c)).
    specialize (IH Hr fuel (p ++ pair_of true c) (n + 1) ltac:(cbn [length] in HF; lia)). rewrite <- app_assoc in IH.
    replace (zlen (p ++ pair_of true c) + 1) with (zlen p + 1 + 2) in IH by (rewrite zlen_app, pair_len; lia).
    cbn [pair_of app] in *. rewrite IH.
    match goal with |- context[p ++ ?a :: ?b :: ?t] => replace (p ++ a :: b :: t) with ((p ++ [a]) ++ b :: t) by (now rewrite <- app_assoc) end.
    rewrite rd_mid' by zl. cbn [bind]. unfold low in Hc. destruct (Z.eqb_spec (c mod 256) 0); [contradiction|reflexivity].
Qed.

(** * guess *)
Lemma all_ascii_true stream n : forall a, 0 <= a -> a + Z.of_nat n <= zlen stream -> all_ascii stream a n = Val true.
Proof.
  induction n as [|n IH]; intros a Ha HL; cbn [all_ascii]; [reflexivity|].
  destruct (rd_in stream a) as [c Hc]; [lia|]. rewrite Hc. cbn [bind]. 
  destruct (s8 c >? 127) eqn:E; [unfold s8 in E; lia|]. apply IH; lia.
Qed.
