From Verif Require Import L_Utf8.
From Verif Require Import Base M_Utf8 M_String M_Serializer M_Hashtable M_Preferences M_I18n S_String S_Utf8 S_Serializer S_Hashtable S_Preferences S_I18n.
From Verif Require Import L_String L_Serializer L_Hashtable L_Preferences L_Preferences3 L_Preferences4 L_Preferences6.
Ltac Zify.zify_post_hook ::= Z.to_euclidean_division_equations.

(** * bytes behind the terminator do not matter *)
Lemma rd_more {A} (m j : list A) i a : rd m i = Val a -> rd (m ++ j) i = Val a.
Proof. unfold rd. destruct (lget m i) eqn:E; [|discriminate]. intros H. pose proof (lget_some_range _ _ _ E). rewrite lget_app_l by lia. now rewrite E. Qed.
Lemma char_more m j i v b : char_is m i v = Val b -> char_is (m ++ j) i v = Val b.
Proof. unfold char_is. destruct (rd m i) eqn:E; try discriminate. rewrite (rd_more _ _ _ _ E). auto. Qed.
Lemma count_more j : forall f f' m i n r, (f <= f')%nat -> utf8_count f m i n = Val r -> utf8_count f' (m ++ j) i n = Val r.
Proof.
  induction f as [|f IH]; intros f' m i n r H; [discriminate|]. destruct f' as [|f']; [lia|]. cbn [utf8_count]. destruct (rd m i) eqn:E; try discriminate. rewrite (rd_more _ _ _ _ E). cbn [bind]. destruct (a =? 0); [auto|].
  repeat match goal with |- context [if ?c then _ else _] => destruct c end; intros X; apply IH; auto; lia.
Qed.
Ltac more_rd := match goal with |- context [bind (rd ?m ?i) _] => let E := fresh "E" in destruct (rd m i) eqn:E; cbn [bind]; [|discriminate..]; try rewrite (rd_more _ _ _ _ E); cbn [bind] end.
Lemma fill_more j : forall f f' m i n acc r, (f <= f')%nat -> utf8_fill f m i n acc = Val r -> utf8_fill f' (m ++ j) i n acc = Val r.
Proof.
  induction f as [|f IH]; intros f' m i n acc r H; [discriminate|]. destruct f' as [|f']; [lia|]. cbn [utf8_fill]. destruct (zlen acc <? n); [|auto].
  more_rd. destruct (Z.land a 128 =? 0); [intros X; apply IH; auto; lia|].
  destruct (Z.land a 224 =? 192); [more_rd; intros X; apply IH; auto; lia|].
  destruct (Z.land a 240 =? 224); [do 2 more_rd; intros X; apply IH; auto; lia|].
  destruct (Z.land a 248 =? 240); [do 3 more_rd; intros X; apply IH; auto; lia|].
  destruct (a =? 255); cbn [bind]; [|intros X; apply IH; auto; lia]. destruct (char_is m (i + 1) 254) as [b| | |] eqn:C; cbn [bind]; try discriminate. rewrite (char_more _ _ _ _ _ C). cbn [bind]. destruct b; intros X; apply IH; auto; lia.
Qed.
Lemma and_more a b a' b' r : (forall x, a = Val x -> a' = Val x) -> (forall x, b = Val x -> b' = Val x) -> andb_then a b = Val r -> andb_then a' b' = Val r.
Proof. unfold andb_then. intros A B. destruct a as [x| | |]; cbn [bind]; try discriminate. rewrite (A x eq_refl). cbn [bind]. destruct x; auto. Qed.
Lemma decode_more m j r : utf8_decode m = Val r -> utf8_decode (m ++ j) = Val r.
Proof.
  assert (P2 : forall i a k b x, andb_then (char_is m i a) (char_is m k b) = Val x -> andb_then (char_is (m ++ j) i a) (char_is (m ++ j) k b) = Val x) by (intros i a k b x; apply and_more; intros y; apply char_more).
  unfold utf8_decode. destruct (andb_then (char_is m 0 254) (char_is m 1 255)) as [b1| | |] eqn:E1; cbn [bind]; try discriminate. rewrite (P2 _ _ _ _ _ E1). cbn [bind]. destruct b1; [discriminate|].
  destruct (andb_then (char_is m 0 255) (char_is m 1 254)) as [b2| | |] eqn:E2; cbn [bind]; try discriminate. rewrite (P2 _ _ _ _ _ E2). cbn [bind]. destruct b2; [discriminate|].
  match goal with |- context [bind (andb_then ?x ?y) _] => destruct (andb_then x y) as [b3| | |] eqn:E3; cbn [bind]; try discriminate end. rewrite (and_more _ _ _ _ _ (fun x => char_more _ j _ _ x) (fun x => P2 _ _ _ _ x) E3). cbn [bind].
  destruct (utf8_count (S (length m)) m (if b3 then 3 else 0) 0) as [n| | |] eqn:E4; cbn [bind]; try discriminate. rewrite (fun H => count_more j _ (S (length (m ++ j))) _ _ _ _ H E4) by (rewrite app_length; lia). cbn [bind]. apply fill_more. rewrite app_length. lia.
Qed.

(** * words and strings of the file *)
Lemma upto0_split t : exists r, t ++ [0] = upto0 t ++ 0 :: r /\ zlen (upto0 t) <= zlen t.
Proof. induction t as [|c t (r & E & L)]; cbn [upto0 app]; [exists []; split; [reflexivity|rewrite zlen_nil; lia]|]. destruct (Z.eqb_spec c 0) as [->|N]; [exists (t ++ [0]); split; [reflexivity|pose proof (zlen_nonneg t); rewrite zlen_cons, zlen_nil; lia]|]. exists r. rewrite E. split; [reflexivity|rewrite !zlen_cons; lia]. Qed.
Lemma upto0_nz t : Forall byte t -> Forall (fun x => 0 < x < 256) (upto0 t).
Proof. induction 1 as [|c t Hc H IH]; cbn [upto0]; [constructor|]. destruct (Z.eqb_spec c 0); constructor; auto. unfold byte in Hc. lia. Qed.
Lemma bytes_at_byte b o t : Forall byte b -> bytes_at b o t -> Forall byte t.
Proof. intros F (p & s & -> & _). apply Forall_app in F as [_ F]. apply Forall_app in F as [F _]. exact F. Qed.
Lemma str_of_bytes_ok b o t : Forall byte b -> bytes_at b o t -> utf8_ok t -> str_of_bytes b o (zlen t) = Val (str_of (msg t)).
Proof.
  intros F At U. pose proof (bytes_at_byte _ _ _ F At) as Ft. destruct At as (p & s & -> & <-). unfold str_of_bytes. pose proof (zlen_nonneg t).
  assert (Z0 : zeros (zlen t + 1) = [] ++ zeros (zlen t) ++ [0]). { unfold zeros. replace (Z.to_nat (zlen t + 1)) with (Z.to_nat (zlen t) + 1)%nat by lia. rewrite repeat_app. reflexivity. }
  rewrite Z0. change 0 with (zlen (@nil Z)) at 2. rewrite memcpy_ok by (unfold zeros; rewrite zlen_repeat; lia). cbn [bind app]. rewrite (wr_mid t 0 [] 0) by reflexivity. cbn [bind]. destruct (upto0_split t) as (r & -> & _).
  assert (D : utf8_decode (upto0 t ++ [0]) = Val (msg t)). { rewrite decode_total by now apply upto0_nz. rewrite U. reflexivity. }
  change (0 :: r) with ([0] ++ r). rewrite app_assoc. rewrite (decode_more _ r _ D). reflexivity.
Qed.
Lemma le4_value v : 0 <= v < 2 ^ 32 -> le_value (le_bytes 4 v) = v.
Proof. intros H. cbn [le_bytes le_value]. change (2 ^ 32) with 4294967296 in H. lia. Qed.
Lemma word_read b o v : zlen b < 2 ^ 32 -> word_at b o v -> deserializeLEUInt32 b o = Val v /\ 0 <= o /\ o + 4 <= zlen b.
Proof.
  intros L [(p & s & -> & <-) R]. rewrite !zlen_app in *. pose proof (zlen_nonneg s). pose proof (zlen_nonneg p). assert (zlen (le_bytes 4 v) = 4) by (unfold zlen; now rewrite le_bytes_length). split; [|lia]. rewrite desLEU32; [now rewrite le4_value|apply le_bytes_length|lia|apply le_bytes_bytes].
Qed.
Definition recd (b : list Z) (m : message) (r : mo_rec) : Prop := ol r = zlen (fst m) /\ tl_ r = zlen (snd m) /\ bytes_at b (oo r) (fst m) /\ bytes_at b (to_ r) (snd m).
Lemma records_ok b O T : zlen b < 2 ^ 32 -> forall ms i acc, 0 <= i ->
  (forall k a c, lget ms k = Some (a, c) -> exists oa oc, word_at b (O + 8 * (i + k)) (zlen a) /\ word_at b (O + 8 * (i + k) + 4) oa /\ bytes_at b oa a /\ word_at b (T + 8 * (i + k)) (zlen c) /\ word_at b (T + 8 * (i + k) + 4) oc /\ bytes_at b oc c) ->
  0 <= O -> 0 <= T -> exists rs, mo_records b O T (u32 (8 * i)) (length ms) acc = Val (acc ++ rs) /\ Forall2 (recd b) ms rs.
Proof.
  intros L. induction ms as [|[a c] ms IH]; intros i acc Hi H HO HT; cbn [length mo_records].
  - exists []. rewrite app_nil_r. split; [reflexivity|constructor].
  - destruct (H 0 a c (lget_cons_0 _ _)) as (oa & oc & W1 & W2 & B1 & W3 & W4 & B2). rewrite Z.add_0_r in *.
    destruct (word_read _ _ _ L W1) as (R1 & P1 & Q1). destruct (word_read _ _ _ L W2) as (R2 & P2 & Q2). destruct (word_read _ _ _ L W3) as (R3 & P3 & Q3). destruct (word_read _ _ _ L W4) as (R4 & P4 & Q4).
    change (2 ^ 32) with 4294967296 in L. rewrite (u32_id (8 * i)) by lia. rewrite !u32_id by lia. rewrite R1, R2, R3, R4. cbn [bind].
    assert (E8 : 8 * i + 8 = u32 (8 * (i + 1))) by (rewrite u32_id by lia; lia). rewrite E8.
    destruct (IH (i + 1) (acc ++ [MO oa (zlen a) oc (zlen c)]) ltac:(lia)) as (rs & E & F2); [|lia|lia|].
    + intros k a' c' G. assert (0 <= k) by (apply lget_some_range in G; lia). destruct (H (1 + k) a' c') as (oa' & oc' & X); [rewrite lget_cons_S by lia; replace (1 + k - 1) with k by lia; exact G|]. exists oa', oc'. replace (i + 1 + k) with (i + (1 + k)) by lia. exact X.
    + exists (MO oa (zlen a) oc (zlen c) :: rs). rewrite E, <- app_assoc. split; [reflexivity|]. constructor; [|exact F2]. split; [reflexivity|]. split; [reflexivity|]. split; assumption.
Qed.
Definition read_mo (m : settings) (ms : list message) : settings := fold_left (fun m e => store m (msg (fst e)) (msg (snd e))) ms m.
Lemma key_good t : Forall unit16 t -> zlen t < 2 ^ 31 -> good_key (str_of t).
Proof. intros U L. pose proof (repr_text _ _ (str_of_repr t)) as [T S0]. split; [unfold proper; rewrite T; auto|now apply clean_zero]. Qed.
Lemma value_good t : Forall unit16 t -> zlen t < 2 ^ 31 -> last t 0 <> 13 \/ zlen t mod 16 <> 0 -> good_value (str_of t).
Proof.
  intros U L G. pose proof (repr_text _ _ (str_of_repr t)) as [T S0]. split; [unfold proper; rewrite T; auto|]. rewrite T. destruct G as [G|G]; [now left|right]. unfold str_of. cbn [len buf]. rewrite zlen_app. pose proof (zlen_nonneg t). unfold round16. rewrite Z.rem_mod_nonneg by lia. destruct (Z.eqb_spec (zlen t mod 16) 0); [contradiction|]. unfold zeros. rewrite zlen_repeat. lia.
Qed.
Lemma msg_ok t : utf8_ok t -> Forall unit16 (msg t) /\ zlen (msg t) <= zlen t.
Proof. intros U. destruct (file_text_ok _ U) as [F L]. split; [exact F|]. destruct (upto0_split t) as (r & _ & L2). unfold msg. lia. Qed.
Lemma bytes_at_len b o t : bytes_at b o t -> zlen t <= zlen b.
Proof. intros (p & s & -> & _). rewrite !zlen_app. pose proof (zlen_nonneg p). pose proof (zlen_nonneg s). lia. Qed.
Lemma store_ok b fuel : Forall byte b -> zlen b < 2 ^ 31 -> forall ms rs p m K, Forall2 (recd b) ms rs -> Forall message_fits ms -> pinv p m K -> 0 <= K -> K + zlen ms < 2 ^ 59 -> K + zlen ms < Z.of_nat fuel ->
  exists p', mo_store p b rs fuel = Val p' /\ pinv p' (read_mo m ms) (K + zlen ms).
Proof.
  intros Fb Lb. induction ms as [|[a c] ms IH]; intros rs p m K F2 Fm I HK HB Hf; inversion F2; subst; cbn [mo_store].
  - exists p. split; [reflexivity|]. change (zlen (@nil message)) with 0. rewrite Z.add_0_r. exact I.
  - destruct H1 as (E1 & E2 & B1 & B2). cbn [fst snd] in *. apply Forall_cons_iff in Fm as [(U1 & U2 & G) Fm]. cbn [fst snd] in *. rewrite E1, E2. rewrite (str_of_bytes_ok b _ a Fb B1 U1), (str_of_bytes_ok b _ c Fb B2 U2). cbn [bind].
    destruct (msg_ok a U1) as [Ua La]. destruct (msg_ok c U2) as [Uc Lc]. pose proof (bytes_at_len _ _ _ B1). pose proof (bytes_at_len _ _ _ B2). rewrite zlen_cons in *. pose proof (zlen_nonneg ms).
    destruct (set_value_ok p m K (str_of (msg a)) (str_of (msg c)) fuel I (key_good _ Ua ltac:(lia)) (value_good _ Uc ltac:(lia) G) ltac:(lia) ltac:(lia)) as (p1 & -> & I1). cbn [bind].
    destruct (repr_text _ _ (str_of_repr (msg a))) as [Ta _]. destruct (repr_text _ _ (str_of_repr (msg c))) as [Tc _]. rewrite Ta, Tc in I1.
    destruct (IH l' p1 _ (K + 1) H3 Fm I1 ltac:(lia) ltac:(lia) ltac:(lia)) as (p' & E & I'). exists p'. split; [exact E|]. unfold read_mo. cbn [fold_left fst snd]. replace (K + (1 + zlen ms)) with (K + 1 + zlen ms) by lia. exact I'.
Qed.
Lemma append_ok b ms p m K fuel : Forall byte b -> zlen b < 2 ^ 31 -> catalogue b ms -> Forall message_fits ms -> pinv p m K -> 0 <= K -> K + zlen ms < 2 ^ 59 -> K + zlen ms < Z.of_nat fuel ->
  exists p', append_mo p b fuel = Val p' /\ pinv p' (read_mo m ms) (K + zlen ms).
Proof.
  intros Fb Lb (W0 & W1 & W2 & O & T & W3 & W4 & H) Fm I HK HB Hf. assert (L2 : zlen b < 2 ^ 32) by lia. unfold append_mo.
  destruct (word_read _ _ _ L2 W0) as (-> & _ & Q0). destruct (word_read _ _ _ L2 W1) as (-> & _). destruct (word_read _ _ _ L2 W2) as (-> & _). destruct (word_read _ _ _ L2 W3) as (-> & _). destruct (word_read _ _ _ L2 W4) as (-> & _).
  destruct (Z.leb_spec (zlen b) 0); [lia|]. cbn [bind]. change (magic_number =? 2500072158) with true. cbn [negb Z.eqb]. replace (Z.to_nat (zlen ms)) with (length ms) by (unfold zlen; lia).
  destruct W3 as [_ [PO _]]. destruct W4 as [_ [PT _]]. destruct (records_ok b O T L2 ms 0 [] ltac:(lia)) as (rs & E & F2); [intros k a c G; rewrite Z.add_0_l; now apply H|lia|lia|]. change (u32 (8 * 0)) with 0 in E. rewrite E. cbn [bind app]. apply (store_ok b fuel Fb Lb ms rs p m K); auto.
Qed.
Lemma lookup_read k : forall ms m, lookup (read_mo m ms) k = match find_last ms k with Some b => Some (one_line (msg b)) | None => lookup m k end.
Proof.
  induction ms as [|[a b] ms IH]; intros m; unfold read_mo; cbn [fold_left find_last fst snd]; [reflexivity|]. change (lookup (read_mo (store m (msg a) (msg b)) ms) k = match match find_last ms k with Some x => Some x | None => if text_dec (msg a) k then Some b else None end with Some b0 => Some (one_line (msg b0)) | None => lookup m k end). rewrite IH. destruct (find_last ms k); [reflexivity|]. unfold store. rewrite lookup_update. now destruct (text_dec (msg a) k).
Qed.

(** * the written image *)
Lemma at_right p f o t : bytes_at f o t -> bytes_at (p ++ f) (zlen p + o) t.
Proof. intros (a & s & -> & <-). exists (p ++ a), s. rewrite <- app_assoc, zlen_app. auto. Qed.
Lemma at_left f q o t : bytes_at f o t -> bytes_at (f ++ q) o t.
Proof. intros (a & s & -> & <-). exists a, (s ++ q). rewrite <- !app_assoc. auto. Qed.
Lemma le4_len v : zlen (le_bytes 4 v) = 4. Proof. unfold zlen. now rewrite le_bytes_length. Qed.
Lemma words_cons v vs : words (v :: vs) = le_bytes 4 v ++ words vs. Proof. reflexivity. Qed.
Lemma words_len vs : zlen (words vs) = 4 * zlen vs.
Proof. induction vs as [|v vs IH]; [reflexivity|]. rewrite words_cons, zlen_app, le4_len, IH, zlen_cons. lia. Qed.
Lemma table_len ts : forall o, zlen (table ts o) = 8 * zlen ts.
Proof. induction ts as [|t ts IH]; intros o; [reflexivity|]. cbn [table]. rewrite zlen_app, words_len, IH, !zlen_cons, zlen_nil. lia. Qed.
Lemma pool_cons t ts : pool (t :: ts) = t ++ 0 :: pool ts. Proof. unfold pool. cbn [map concat]. now rewrite <- app_assoc. Qed.
Lemma table_at ts : forall o i t, lget ts i = Some t -> exists d, 0 <= d /\ bytes_at (table ts o) (8 * i) (le_bytes 4 (zlen t)) /\ bytes_at (table ts o) (8 * i + 4) (le_bytes 4 (o + d)) /\ bytes_at (pool ts) d t.
Proof.
  induction ts as [|t0 ts IH]; intros o i t G; [apply lget_In in G; destruct G|]. pose proof (lget_some_range _ _ _ G) as R. destruct (Z.eq_dec i 0) as [->|N].
  - rewrite lget_cons_0 in G. injection G as ->. exists 0. split; [lia|]. cbn [table]. rewrite !words_cons. change (words []) with (@nil Z). rewrite app_nil_r, Z.add_0_r. rewrite <- app_assoc. split; [exists [], (le_bytes 4 o ++ table ts (o + zlen t + 1)); split; reflexivity|]. split; [exists (le_bytes 4 (zlen t)), (table ts (o + zlen t + 1)); split; [reflexivity|apply le4_len]|]. rewrite pool_cons. exists [], (0 :: pool ts). split; reflexivity.
  - rewrite lget_cons_S in G by lia. destruct (IH (o + zlen t0 + 1) (i - 1) t G) as (d & D0 & A & B & C). exists (zlen t0 + 1 + d). pose proof (zlen_nonneg t0). split; [lia|]. cbn [table]. assert (W : zlen (words [zlen t0; o]) = 8) by apply words_len.
    split; [replace (8 * i) with (zlen (words [zlen t0; o]) + 8 * (i - 1)) by (rewrite W; lia); now apply at_right|]. split; [replace (8 * i + 4) with (zlen (words [zlen t0; o]) + (8 * (i - 1) + 4)) by (rewrite W; lia); replace (o + (zlen t0 + 1 + d)) with (o + zlen t0 + 1 + d) by lia; now apply at_right|].
    rewrite pool_cons. change (0 :: pool ts) with ([0] ++ pool ts). rewrite app_assoc. replace (zlen t0 + 1 + d) with (zlen (t0 ++ [0]) + d) by (rewrite zlen_app; reflexivity). now apply at_right.
Qed.
Lemma at_end f o t : bytes_at f o t -> 0 <= o /\ o + zlen t <= zlen f.
Proof. intros (p & s & -> & <-). rewrite !zlen_app. pose proof (zlen_nonneg p). pose proof (zlen_nonneg s). lia. Qed.
Lemma image_catalogue ms : zlen (mo_image ms) < 2 ^ 32 -> catalogue (mo_image ms) ms.
Proof.
  intros L. unfold mo_image in *. cbv zeta in *. set (n := zlen ms) in *. set (d := 28 + 16 * n) in *. set (h := words _) in *. set (t1 := table (map fst ms) d) in *. set (d2 := d + zlen (pool (map fst ms))) in *. set (t2 := table (map snd ms) d2) in *. set (p1 := pool (map fst ms)) in *. set (p2 := pool (map snd ms)) in *.
  assert (Lh : zlen h = 28) by (unfold h; rewrite words_len; reflexivity). assert (L1 : zlen t1 = 8 * n) by (unfold t1; rewrite table_len, zlen_map; reflexivity). assert (L2 : zlen t2 = 8 * n) by (unfold t2; rewrite table_len, zlen_map; reflexivity). assert (0 <= n) by apply zlen_nonneg.
  assert (Lp1 : zlen p1 = d2 - d) by (unfold d2; lia). pose proof (zlen_nonneg p1). pose proof (zlen_nonneg p2). rewrite !zlen_app, Lh, L1, L2 in L.
  assert (WH : forall o v, bytes_at h o (le_bytes 4 v) -> 0 <= v < 2 ^ 32 -> word_at (h ++ t1 ++ t2 ++ p1 ++ p2) o v) by (intros o v A B; split; [now apply at_left|exact B]).
  assert (W1 : forall o v, bytes_at t1 o (le_bytes 4 v) -> 0 <= v < 2 ^ 32 -> word_at (h ++ t1 ++ t2 ++ p1 ++ p2) (28 + o) v) by (intros o v A B; split; [rewrite <- Lh; apply at_right; now apply at_left|exact B]).
  assert (W2 : forall o v, bytes_at t2 o (le_bytes 4 v) -> 0 <= v < 2 ^ 32 -> word_at (h ++ t1 ++ t2 ++ p1 ++ p2) (28 + 8 * n + o) v). { intros o v A B; split; [|exact B]. replace (28 + 8 * n + o) with (zlen h + (zlen t1 + o)) by lia. apply at_right, at_right, at_left, A. }
  split; [|split; [|split]].
  - apply WH; [|unfold magic_number; lia]. unfold h. eexists [], _. split; [rewrite words_cons; reflexivity|reflexivity].
  - apply WH; [|lia]. unfold h. eexists (le_bytes 4 _), _. split; [rewrite !words_cons; reflexivity|apply le4_len].
  - apply WH; [|lia]. unfold h. rewrite !words_cons. eexists (le_bytes 4 _ ++ le_bytes 4 _), _. split; [rewrite <- !app_assoc; reflexivity|rewrite zlen_app, !le4_len; reflexivity].
  - exists 28, (28 + 8 * n). split; [apply WH; [|lia]; unfold h; rewrite !words_cons; eexists (le_bytes 4 _ ++ le_bytes 4 _ ++ le_bytes 4 _), _; split; [rewrite <- !app_assoc; reflexivity|rewrite !zlen_app, !le4_len; reflexivity]|].
    split; [apply WH; [|lia]; unfold h; rewrite !words_cons; eexists (le_bytes 4 _ ++ le_bytes 4 _ ++ le_bytes 4 _ ++ le_bytes 4 _), _; split; [rewrite <- !app_assoc; reflexivity|rewrite !zlen_app, !le4_len; reflexivity]|].
    intros i a b G. destruct (table_at (map fst ms) d i a ltac:(rewrite lget_map, G; reflexivity)) as (da & Da & A1 & A2 & A3). destruct (table_at (map snd ms) d2 i b ltac:(rewrite lget_map, G; reflexivity)) as (db & Db & B1 & B2 & B3). fold t1 in A1, A2. fold t2 in B1, B2. fold p1 in A3. fold p2 in B3.
    pose proof (at_end _ _ _ A3). pose proof (at_end _ _ _ B3). pose proof (zlen_nonneg a). pose proof (zlen_nonneg b). exists (d + da), (d2 + db). assert (d = 28 + 16 * n) by reflexivity.
    split; [apply W1; [exact A1|lia]|]. split; [rewrite <- Z.add_assoc; apply W1; [exact A2|lia]|]. split; [replace (d + da) with (zlen h + (zlen t1 + (zlen t2 + da))) by lia; apply at_right, at_right, at_right, at_left, A3|].
    split; [apply W2; [exact B1|lia]|]. split; [rewrite <- Z.add_assoc; apply W2; [exact B2|lia]|]. replace (d2 + db) with (zlen h + (zlen t1 + (zlen t2 + (zlen p1 + db)))) by lia. apply at_right, at_right, at_right, at_right, B3.
Qed.
Lemma image_bytes ms : Forall (fun m => Forall byte (fst m) /\ Forall byte (snd m)) ms -> Forall byte (mo_image ms).
Proof.
  intros F. assert (Wb : forall vs, Forall byte (words vs)) by (induction vs; [constructor|rewrite words_cons; apply Forall_app; split; [apply le_bytes_bytes|assumption]]).
  assert (Tb : forall ts o, Forall byte (table ts o)) by (induction ts; intros o; cbn [table]; [constructor|apply Forall_app; split; auto]).
  assert (Pb : forall ts, Forall (Forall byte) ts -> Forall byte (pool ts)) by (induction 1; [constructor|rewrite pool_cons; apply Forall_app; split; [assumption|constructor; [unfold byte; lia|assumption]]]).
  unfold mo_image. cbv zeta. apply Forall_app; split; [apply Wb|]. apply Forall_app; split; [apply Tb|]. apply Forall_app; split; [apply Tb|]. apply Forall_app; split; apply Pb, Forall_map; (eapply Forall_impl; [|exact F]); intros [a b] [A B]; assumption.
Qed.
(** * what is rejected, what is read beyond its end *)
Lemma word_any b o : Forall byte b -> zlen b < 2 ^ 32 -> 0 <= o -> o + 4 <= zlen b -> exists v, word_at b o v.
Proof.
  intros F L Ho Le. destruct (split_len b o ltac:(lia)) as (p & s & -> & Lp). rewrite zlen_app in *. destruct s as [|x [|y [|z [|w s]]]]; rewrite ?zlen_cons, ?zlen_nil in *; try lia.
  apply Forall_app in F as [_ F]. repeat (apply Forall_cons_iff in F as [? F]). unfold byte in *. exists (x + 256 * (y + 256 * (z + 256 * w))). split; [|lia]. exists p, s. split; [|exact Lp]. f_equal. change (x :: y :: z :: w :: s) with ([x; y; z; w] ++ s). f_equal. cbn [le_bytes]. repeat (f_equal; [lia|]). f_equal. lia.
Qed.
Lemma word_short b o : zlen b < o + 4 -> o < 2 ^ 31 -> 0 <= o -> deserializeLEUInt32 b o = UB.
Proof. intros H L Ho. unfold deserializeLEUInt32, get32, ix. rewrite (rd_out b (u32 (o + 3))); [reflexivity|]. right. rewrite u32_id by lia. lia. Qed.
Lemma str_short b o n : 0 <= n -> zlen b < o + n -> str_of_bytes b o n = UB.
Proof. intros Hn H. unfold str_of_bytes, memcpy. destruct (Z.leb_spec (o + n) (zlen b)); [lia|]. now rewrite !andb_false_r. Qed.
