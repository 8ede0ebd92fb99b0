(** L_Zip2.v -- writing an archive. *)
From Verif Require Import Base M_Utf8 S_Utf8 L_Utf8 M_Serializer S_Serializer L_Serializer M_Inflate S_Inflate M_Zip S_Zip S_ZipCalls L_Zip.
Ltac Zify.zify_post_hook ::= Z.to_euclidean_division_equations.

Lemma skipn2 {A} (l : list A) : forall a b, skipn b (skipn a l) = skipn (a + b) l.
Proof. induction l as [|x l IH]; intros [|a] b; try reflexivity; [rewrite !skipn_nil; reflexivity|]. cbn [skipn Nat.add]. apply IH. Qed.
(** a file of which the first bytes are already written *)
Definition over (w old : list Z) : list Z := w ++ skipn (length w) old.
Definition at_end (w old : list Z) : file := F (over w old) (zlen w).
Lemma write_over w old d : f_write (at_end w old) d = at_end (w ++ d) old.
Proof.
  unfold f_write, at_end, over. cbn [fc fp]. replace (Z.to_nat (zlen w - zlen (w ++ skipn (length w) old))) with 0%nat by (rewrite zlen_app; pose proof (zlen_nonneg (skipn (length w) old)); lia).
  cbn [repeat]. rewrite app_nil_r. replace (Z.to_nat (zlen w)) with (length w) by (unfold zlen; lia). rewrite firstn_app, firstn_all, Nat.sub_diag, app_nil_r. rewrite skipn_app.
  rewrite (skipn_all2 w) by lia. rewrite app_nil_l. rewrite skipn2. rewrite app_length. f_equal; [|rewrite zlen_app; reflexivity]. rewrite <- app_assoc. do 2 f_equal. f_equal. lia.
Qed.
Lemma write_patch a x b d p : length x = length d -> p = zlen a -> f_write (F (a ++ x ++ b) p) d = F (a ++ d ++ b) (zlen a + zlen d).
Proof.
  intros H ->. unfold f_write. cbn [fc fp]. replace (Z.to_nat (zlen a - zlen (a ++ x ++ b))) with 0%nat by (rewrite zlen_app; pose proof (zlen_nonneg (x ++ b)); lia).
  cbn [repeat]. rewrite app_nil_r. replace (Z.to_nat (zlen a)) with (length a) by (unfold zlen; lia). rewrite firstn_app, firstn_all, Nat.sub_diag. rewrite firstn_O, app_nil_r. rewrite skipn_app.
  rewrite (skipn_all2 a) by lia. rewrite app_nil_l. replace (length a + length d - length a)%nat with (length x) by lia. rewrite skipn_app, skipn_all, Nat.sub_diag. reflexivity.
Qed.
Lemma write_if w old d : (if zlen d >? 0 then f_write (at_end w old) d else at_end w old) = at_end (w ++ d) old.
Proof.
  destruct (Z.gtb_spec (zlen d) 0); [apply write_over|]. assert (d = []) as -> by (apply zlen_zero; pose proof (zlen_nonneg d); lia). rewrite app_nil_r. reflexivity.
Qed.
Lemma encode_ok name : name_ok name -> utf8_encode name = Val (utf8s name).
Proof. intros (H1 & _ & H2). apply encode_spec; [|unfold utf8s in H2; lia]. eapply Forall_impl; [|exact H1]. intros a Ha; unfold unitz; cbv beta in Ha; lia. Qed.

(** the temporary file *)
Lemma pieces_ok l : forall f t es h, Forall piece_ok l -> write_pieces l (ZO f (Some (F t (zlen t))) es h) = Val (ZO f (Some (F (t ++ flat_map piece l) (zlen (t ++ flat_map piece l)))) es h).
Proof.
  induction l as [|[[d o] n] l IH]; intros f t es h H; [cbn [write_pieces flat_map]; rewrite app_nil_r; reflexivity|]. apply Forall_cons_iff in H as [(H1 & H2 & H3) HL]. cbn [write_pieces flat_map].
  unfold zo_write. replace ((o <? 0) || (n <? 0) || (o + n >? zlen d)) with false by lia. cbn [ztemp zfile zents zheap bind].
  pose proof (write_over t [] (piece (d, o, n))) as W. unfold at_end, over in W. rewrite !skipn_nil, !app_nil_r in W. cbn [piece] in W. rewrite W. rewrite IH by exact HL. cbn [piece]. rewrite <- !app_assoc. reflexivity.
Qed.
Lemma read_whole c : fst (read_over (F c 0) (repeat 0 (length c))) = c.
Proof.
  unfold read_over, f_read. cbn [fc fp]. rewrite zlen_repeat. rewrite Nat2Z.id. change (Z.to_nat 0) with 0%nat. cbn [skipn]. rewrite firstn_all. cbn [fst]. rewrite skipn_all2 by (rewrite repeat_length; lia). apply app_nil_r.
Qed.

(** header and data with the fields filled in later *)
Definition head14 : list Z := le_bytes 4 67324752 ++ le_bytes 2 0 ++ le_bytes 2 0 ++ le_bytes 2 0 ++ le_bytes 2 0 ++ le_bytes 2 0.
Lemma local_split c s u n x : local (Meta 0 0 0 0 0 c s u) n x = head14 ++ (le_bytes 4 c ++ le_bytes 4 s ++ le_bytes 4 u) ++ le_bytes 2 (zlen n) ++ le_bytes 2 (zlen x) ++ n ++ x.
Proof. unfold local, meta_bytes, head14. cbn [version flags method time date crc csize usize]. rewrite <- !app_assoc. reflexivity. Qed.

(** the object of an entry that is stored at [off] *)
Definition entry_of (off : Z) (i : item) (e : zentry) : Prop :=
  ename e = iname i /\ eextra e = iextra i /\ ecomment e = icomment i /\ eusize e = zlen (idata i) /\ ecsize e = zlen (idata i) /\ eoff e = off /\ ecrc e = crc32 (idata i).
Fixpoint entries_of (off : Z) (is : list item) (es : list zentry) : Prop :=
  match is, es with [], [] => True | i :: is, e :: es => entry_of off i e /\ entries_of (off + zlen (stored_item i)) is es | _, _ => False end.
Lemma entries_app is : forall off es i e, entries_of off is es -> entry_of (off + zlen (stored_items is)) i e -> entries_of off (is ++ [i]) (es ++ [e]).
Proof.
  induction is as [|j is IH]; intros off [|e' es] i e H1 H2; try contradiction.
  - cbn [app entries_of]. split; [|exact I]. cbn in H2. rewrite Z.add_0_r in H2. exact H2.
  - cbn [app entries_of] in *. destruct H1 as [H1 H3]. split; [exact H1|]. apply IH; [exact H3|]. unfold stored_items in H2. cbn [flat_map] in H2. rewrite zlen_app in H2. rewrite Z.add_assoc in H2. exact H2.
Qed.
(** storing one file *)
Lemma store_one old w p d i s : zfile s = at_end w old -> ename (zheap s p) = iname i -> eextra (zheap s p) = iextra i -> ecomment (zheap s p) = icomment i -> item_ok i -> feed_ok d -> feed_data d = idata i ->
  zlen (w ++ stored_item i) < 2 ^ 32 ->
  exists s' e, (let* s := zo_put p s in feed_entry d s) = Val s' /\ zfile s' = at_end (w ++ stored_item i) old /\ zents s' = zents s ++ [p] /\ zheap s' p = e /\ entry_of (zlen w) i e /\ (forall q, q <> p -> zheap s' q = zheap s q).
Proof.
  destruct s as [f t es h]. cbn [zfile zheap zents]. intros -> N1 N2 N3 (K1 & K2 & K3 & KD) FO FD SZ. unfold zo_put. cbn [zheap zfile zents]. rewrite N1, N2. rewrite !encode_ok by assumption. cbn [bind].
  rewrite local_header_ok. cbn [bind]. rewrite write_over, !write_if. cbn [bind].
  set (w1 := ((w ++ le_bytes 4 67324752 ++ meta_bytes (Meta 0 0 0 0 0 0 0 0) ++ le_bytes 2 (zlen (utf8s (iname i))) ++ le_bytes 2 (zlen (utf8s (iextra i)))) ++ utf8s (iname i)) ++ utf8s (iextra i)).
  assert (E1 : w1 = w ++ local (Meta 0 0 0 0 0 0 0 0) (utf8s (iname i)) (utf8s (iextra i))) by (unfold w1, local; rewrite <- !app_assoc; reflexivity). clearbody w1. subst w1.
  change (fp (at_end w old)) with (zlen w).
  assert (ZL : forall c s u, zlen (local (Meta 0 0 0 0 0 c s u) (utf8s (iname i)) (utf8s (iextra i))) = 30 + zlen (utf8s (iname i)) + zlen (utf8s (iextra i))).
  { intros. rewrite local_split. rewrite !zlen_app, !le_zlen. change (zlen head14) with 14. lia. }
  unfold stored_item, stored_meta in SZ. rewrite !zlen_app, ZL in SZ. change (2 ^ 32) with 4294967296 in SZ. pose proof (zlen_nonneg w). pose proof (zlen_nonneg (idata i)). pose proof (zlen_nonneg (utf8s (iname i))). pose proof (zlen_nonneg (utf8s (iextra i))).
  rewrite (u32_id (zlen w)) by lia.
  match goal with |- context [put_heap h p ?e0] => set (e := e0) end.
  assert (FE : feed_entry d (ZO (at_end (w ++ local (Meta 0 0 0 0 0 0 0 0) (utf8s (iname i)) (utf8s (iextra i))) old) (Some (F [] 0)) (es ++ [p]) (put_heap h p e)) =
    finish_entry p (zlen (idata i)) (idata i) (ZO (at_end (w ++ local (Meta 0 0 0 0 0 0 0 0) (utf8s (iname i)) (utf8s (iextra i))) old) (match d with Pieces l => Some (F (idata i) (zlen (idata i))) | Whole _ => Some (F [] 0) end) (es ++ [p]) (put_heap h p e))).
  { destruct d as [l|c]; cbn [feed_entry feed_data feed_ok] in *.
    - rewrite <- FD. change 0 with (zlen (@nil Z)) at 9. rewrite (pieces_ok l _ [] _ _ FO). cbn [app bind]. unfold zo_close_entry, last_entry. cbn [zents ztemp]. rewrite rev_app_distr. cbn [rev app bind fp]. rewrite (u32_id (zlen (flat_map piece l))) by (rewrite FD; lia).
      unfold f_seek. cbn [fc]. destruct (read_over _ _) as [b f'] eqn:R. assert (b = flat_map piece l) as ->; [|reflexivity]. change b with (fst (b, f')). rewrite <- R. replace (Z.to_nat (zlen (flat_map piece l))) with (length (flat_map piece l)) by (unfold zlen; lia). apply read_whole.
    - rewrite <- FD. unfold zo_write_and_close, last_entry. cbn [zents ztemp]. rewrite rev_app_distr. cbn [rev app bind]. rewrite (u32_id (zlen c)) by (rewrite FD; lia).
      destruct (read_over _ _) as [b f'] eqn:R. assert (b = c) as ->; [|reflexivity]. change b with (fst (b, f')). rewrite <- R. replace (Z.to_nat (zlen c)) with (length c) by (unfold zlen; lia). apply read_whole. }
  rewrite FE. clear FE. set (tt := match d with Pieces _ => _ | Whole _ => _ end). clearbody tt. unfold finish_entry. cbn [zheap zfile zents].
  assert (HP : put_heap h p e p = e) by (unfold put_heap; rewrite Z.eqb_refl; reflexivity). rewrite HP.
  assert (PB : forall A (k : list Z -> out A), (let* b := put32 0 (CRC32 (idata i)) (repeat 0 12) in let* b := put32 4 (zlen (idata i)) b in let* b := put32 8 (zlen (idata i)) b in k b) = k (le_bytes 4 (CRC32 (idata i)) ++ le_bytes 4 (zlen (idata i)) ++ le_bytes 4 (zlen (idata i)))).
  { intros A k. pose proof (patch_ok (CRC32 (idata i)) (zlen (idata i))) as Q. destruct (put32 0 _ _) as [b| | |]; try discriminate. cbn [bind] in *. destruct (put32 4 _ _) as [b'| | |]; try discriminate. cbn [bind] in *. rewrite Q. reflexivity. }
  rewrite PB. clear PB. rewrite (crc_ok (idata i)) by exact KD. rewrite write_over. change (eoff e) with (zlen w). 
  set (c := crc32 (idata i)). set (n := zlen (idata i)) in *.
  eexists _, _. split; [reflexivity|]. cbn [zfile zents zheap]. split; [|split; [reflexivity|split; [unfold put_heap at 1; rewrite Z.eqb_refl; reflexivity|split]]].
  - unfold f_seek at 2, at_end at 1. cbn [fc]. rewrite (u32_id (zlen w + 14)) by lia. rewrite local_split. unfold over at 1.
    replace (((w ++ head14 ++ (le_bytes 4 0 ++ le_bytes 4 0 ++ le_bytes 4 0) ++ le_bytes 2 (zlen (utf8s (iname i))) ++ le_bytes 2 (zlen (utf8s (iextra i))) ++ utf8s (iname i) ++ utf8s (iextra i)) ++ idata i) ++
      skipn (length ((w ++ head14 ++ (le_bytes 4 0 ++ le_bytes 4 0 ++ le_bytes 4 0) ++ le_bytes 2 (zlen (utf8s (iname i))) ++ le_bytes 2 (zlen (utf8s (iextra i))) ++ utf8s (iname i) ++ utf8s (iextra i)) ++ idata i)) old)
      with ((w ++ head14) ++ (le_bytes 4 0 ++ le_bytes 4 0 ++ le_bytes 4 0) ++ (le_bytes 2 (zlen (utf8s (iname i))) ++ le_bytes 2 (zlen (utf8s (iextra i))) ++ utf8s (iname i) ++ utf8s (iextra i) ++ idata i ++
      skipn (length ((w ++ head14 ++ (le_bytes 4 0 ++ le_bytes 4 0 ++ le_bytes 4 0) ++ le_bytes 2 (zlen (utf8s (iname i))) ++ le_bytes 2 (zlen (utf8s (iextra i))) ++ utf8s (iname i) ++ utf8s (iextra i)) ++ idata i)) old)) by (rewrite <- !app_assoc; reflexivity).
    rewrite write_patch by (try reflexivity; rewrite zlen_app; reflexivity). unfold f_seek. cbn [fc]. unfold at_end. cbn [fp].
    assert (LL : length ((w ++ head14 ++ (le_bytes 4 0 ++ le_bytes 4 0 ++ le_bytes 4 0) ++ le_bytes 2 (zlen (utf8s (iname i))) ++ le_bytes 2 (zlen (utf8s (iextra i))) ++ utf8s (iname i) ++ utf8s (iextra i)) ++ idata i) = length (w ++ stored_item i)).
    { unfold stored_item, stored_meta. rewrite local_split. rewrite !app_length. cbn [le_bytes length]. lia. }
    f_equal.
    + unfold over. rewrite LL. unfold stored_item at 2, stored_meta. rewrite local_split. fold c n. rewrite <- !app_assoc. reflexivity.
    + etransitivity; [|exact (f_equal Z.of_nat LL)]. apply u32_id. match goal with |- 0 <= ?x < _ => replace x with (zlen (w ++ stored_item i)) by exact (eq_sym (f_equal Z.of_nat LL)) end. unfold stored_item, stored_meta. rewrite !zlen_app, ZL. fold n. lia.
  - unfold entry_of, e. cbn [ename eextra ecomment eusize ecsize eoff ecrc]. repeat match goal with |- _ /\ _ => split end; first [assumption | reflexivity].
  - intros q Hq. unfold put_heap. replace (q =? p) with false by lia. reflexivity.
Qed.
Lemma items_app a b : stored_items (a ++ b) = stored_items a ++ stored_items b. Proof. apply flat_map_app. Qed.
Lemma store_all old : forall l is dn s, zfile s = at_end (stored_items dn) old -> entries_of 0 dn (map (zheap s) (zents s)) -> NoDup (zents s ++ map fst l) ->
  Forall2 (stands_for (zheap s)) l is -> Forall item_ok is -> zlen (stored_items (dn ++ is)) < 2 ^ 32 ->
  exists s', store_files l s = Val s' /\ zfile s' = at_end (stored_items (dn ++ is)) old /\ entries_of 0 (dn ++ is) (map (zheap s') (zents s')) /\ zlen (zents s') = zlen (zents s) + zlen l.
Proof.
  induction l as [|[p d] l IH]; intros is dn s HF HE HN H2 HI HS.
  - inversion H2; subst. exists s. rewrite app_nil_r. cbn [store_files]. repeat match goal with |- _ /\ _ => split end; auto. unfold zlen. cbn [length]. lia.
  - inversion H2 as [|? i ? is' (A1 & A2 & A3 & A4 & A5) A6]; subst. cbn [fst snd] in *. inversion_clear HI as [|? ? I1 I2]. cbn [store_files map] in *.
    assert (SZ : zlen (stored_items dn ++ stored_item i) < 2 ^ 32).
    { rewrite items_app in HS. unfold stored_items at 2 in HS. cbn [flat_map] in HS. rewrite !zlen_app in *. pose proof (zlen_nonneg (flat_map stored_item is')). lia. }
    destruct (store_one old (stored_items dn) p d i s HF A1 A2 A3 I1 A4 A5 SZ) as (s' & e & E1 & E2 & E3 & E4 & E5 & E6).
    assert (NP : ~ In p (zents s)) by (apply NoDup_remove_2 in HN; intros K; apply HN; apply in_or_app; left; exact K).
    assert (ME : map (zheap s') (zents s') = map (zheap s) (zents s) ++ [e]).
    { rewrite E3, map_app. cbn [map]. rewrite E4. f_equal. apply map_ext_in. intros q Hq. apply E6. intros ->. contradiction. }
    destruct (zo_put p s) as [s1| | |]; try discriminate. cbn [bind] in *. rewrite E1. cbn [bind].
    destruct (IH is' (dn ++ [i]) s') as (s2 & F1 & F2 & F3 & F4).
    + rewrite items_app. unfold stored_items at 2. cbn [flat_map]. rewrite app_nil_r. exact E2.
    + rewrite ME. apply entries_app; [exact HE|]. rewrite Z.add_0_l. exact E5.
    + rewrite E3, <- app_assoc. exact HN.
    + apply NoDup_remove_2 in HN. clear - A6 E6 HN. assert (HN' : ~ In p (map fst l)) by (intros K; apply HN; apply in_or_app; right; exact K). clear HN. induction A6 as [|x j l' js (B1 & B2 & B3 & B4 & B5) B6 IH']; constructor.
      * unfold stands_for. cbn [map] in HN'. rewrite E6; [auto|]. intros K. apply HN'. left. exact K.
      * apply IH'. intros K. apply HN'. right. exact K.
    + exact I2.
    + rewrite <- app_assoc. exact HS.
    + exists s2. rewrite <- app_assoc in F2, F3. split; [exact F1|]. split; [exact F2|]. split; [exact F3|]. rewrite F4, E3, zlen_app, !zlen_cons, zlen_nil. lia.
Qed.
Lemma write_directory_ok old : forall is es off w, Forall item_ok is -> entries_of off is es -> write_directory es (at_end w old) = Val (at_end (w ++ directory off is) old).
Proof.
  induction is as [|i is IH]; intros [|e es] off w HI HE; try contradiction.
  - cbn [write_directory directory]. rewrite app_nil_r. reflexivity.
  - destruct HE as [(E1 & E2 & E3 & E4 & E5 & E6 & E7) HE]. apply Forall_cons_iff in HI as [(I1 & I2 & I3 & I4) I5]. cbn [write_directory directory]. rewrite E1, E2, E3. rewrite (encode_ok _ I1). cbn [bind]. rewrite (encode_ok _ I2). cbn [bind]. rewrite (encode_ok _ I3). cbn [bind].
    rewrite central_header_ok. cbn [bind]. rewrite write_over, !write_if. rewrite (IH es _ _ I5 HE). rewrite E4, E5, E6, E7. do 2 f_equal. unfold central, stored_meta. rewrite <- !app_assoc. reflexivity.
Qed.
Lemma ending_zlen d c z s : zlen (ending d c z s []) = 16 + zlen d.
Proof. unfold ending. rewrite !zlen_app, !le_zlen. rewrite zlen_nil. lia. Qed.
Theorem make_archive_ok old h l is : NoDup (map fst l) -> Forall2 (stands_for h) l is -> items_ok is ->
  make_archive old h l = Val (stored_archive is ++ skipn (length (stored_archive is)) (match old with Some c => c | None => [] end)).
Proof.
  intros HN H2 (HI & HC & HS). unfold make_archive. set (o := match old with Some c => c | None => [] end).
  assert (AZ : zlen (stored_archive is) = zlen (stored_items is) + zlen (directory 0 is) + 22) by (unfold stored_archive; rewrite !zlen_app, ending_zlen, !zlen_app, !le_zlen; lia).
  pose proof (zlen_nonneg (directory 0 is)). pose proof (zlen_nonneg (stored_items is)). change (2 ^ 32) with 4294967296 in HS.
  destruct (store_all o l is [] (zo_open old h)) as (s & E1 & E2 & E3 & E4).
  { unfold at_end, over, zo_open. cbn [zfile length stored_items flat_map skipn app]. reflexivity. }
  { exact I. } { exact HN. } { exact H2. } { exact HI. }
  { cbn [app]. change (2 ^ 32) with 4294967296. lia. }
  rewrite E1. cbn [bind]. unfold zo_close. rewrite E2. change (fp (at_end (stored_items ([] ++ is)) o)) with (zlen (stored_items is)). cbn [app] in *. rewrite (u32_id (zlen (stored_items is))) by lia.
  rewrite (write_directory_ok o is _ 0 _ HI E3). cbn [bind]. change (fp (at_end (stored_items is ++ directory 0 is) o)) with (zlen (stored_items is ++ directory 0 is)). rewrite zlen_app.
  rewrite (u32_id (zlen (stored_items is) + zlen (directory 0 is))) by lia. rewrite (u32_id (_ - _)) by lia. rewrite end_record_ok. cbn [bind]. rewrite write_over. cbn [zents zo_open] in E4. rewrite zlen_nil, Z.add_0_l in E4.
  replace (zlen (stored_items is) + zlen (directory 0 is) - zlen (stored_items is)) with (zlen (directory 0 is)) by lia.
  assert (zlen l = zlen is) as EL by (clear - H2; unfold zlen; f_equal; induction H2; cbn [length]; congruence). rewrite E4, EL. unfold at_end, over. cbn [fc]. unfold stored_archive. rewrite <- !app_assoc. reflexivity.
Qed.
