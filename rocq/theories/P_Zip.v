(** P_Zip.v -- C66: what ZipOutputFile writes; C67: what ZipFile reads; C68: the round trip; C69: CRC-32. *)
From Verif Require Import Base S_Utf8 S_Serializer M_Inflate S_Inflate M_Zip S_Zip S_ZipCalls L_Zip L_Zip2 L_Zip3 L_Zip4 L_Zip5.
Ltac Zify.zify_post_hook ::= Z.to_euclidean_division_equations.

(** ** C66: any number of files, each written in any pieces or copied whole; distinct ZipEntry objects *)
Theorem C66_archive : forall h l is, NoDup (map fst l) -> Forall2 (stands_for h) l is -> items_ok is ->
  make_archive None h l = Val (stored_archive is).
Proof. intros h l is H1 H2 H3. rewrite (make_archive_ok None h l is H1 H2 H3). rewrite skipn_nil, app_nil_r. reflexivity. Qed.
Print Assumptions C66_archive.
(** if the file exists, its bytes behind the new archive stay *)
Theorem C66_over_existing : forall old h l is, NoDup (map fst l) -> Forall2 (stands_for h) l is -> items_ok is ->
  make_archive (Some old) h l = Val (stored_archive is ++ skipn (length (stored_archive is)) old).
Proof. intros old h l is H1 H2 H3. exact (make_archive_ok (Some old) h l is H1 H2 H3). Qed.
Print Assumptions C66_over_existing.

Definition objects : Z -> zentry := fun p => if p =? 1 then ze_new [97] else if p =? 2 then ze_new [228; 8364] else ze_new [].
Definition ex_calls : list (Z * feed) := [(1, Whole [1; 2; 3]); (2, Pieces [([0; 7; 7; 0], 1, 2); ([200], 0, 1)])].
Definition ex_items : list item := [Item [97] [] [] [1; 2; 3]; Item [228; 8364] [] [] [7; 7; 200]].
Lemma ex_items_ok : items_ok ex_items.
Proof. split; [|split; vm_compute; reflexivity]. repeat constructor; vm_compute; (reflexivity || discriminate). Qed.
Example C66_ex : NoDup (map fst ex_calls) /\ Forall2 (stands_for objects) ex_calls ex_items /\ items_ok ex_items /\ zlen (stored_archive ex_items) = 192.
Proof.
  split; [repeat constructor; cbn; intuition discriminate|]. split; [|split; [exact ex_items_ok|vm_compute; reflexivity]].
  constructor; [|constructor; [|constructor]]; unfold stands_for; cbn [fst snd feed_ok feed_data idata]; repeat match goal with |- _ /\ _ => split end; try reflexivity; try exact I.
  repeat constructor; cbn; unfold zlen; cbn; lia.
Qed.

(** an empty archive, written over an archive with one file: the file is still listed *)
Theorem C66_existing_refuted : exists is h, items_ok is /\
  exists content, make_archive (Some (stored_archive is)) h [] = Val content /\ content <> stored_archive [] /\
  forall k, exists es f, zf_open k content = Val (es, f) /\ map ename es = map iname is /\ is <> [].
Proof.
  exists [Item [97] [] [] []], objects. split; [split; [|split; vm_compute; reflexivity]; repeat constructor; vm_compute; (reflexivity || discriminate)|].
  eexists. split; [vm_compute; reflexivity|]. split; [discriminate|]. intros []; (eexists _, _; split; [vm_compute; reflexivity|split; [reflexivity|discriminate]]).
Qed.
Print Assumptions C66_existing_refuted.
(** one ZipEntry object for two files: the first file is lost *)
Theorem C66_same_object_refuted : exists content, make_archive None objects [(1, Whole [1]); (1, Whole [2])] = Val content /\
  forall k more, exists e f, zf_open k content = Val ([e; e], f) /\ exists s f', zf_stream true more k f e = Val (s, f') /\ zs_read_all s = Val [Some 2].
Proof. eexists. split; [vm_compute; reflexivity|]. intros [] more; (eexists _, _; split; [vm_compute; reflexivity|eexists _, _; split; [vm_compute; reflexivity|vm_compute; reflexivity]]). Qed.
Print Assumptions C66_same_object_refuted.
(** closeEntry before putNextEntry *)
Theorem C66_close_entry_first_refuted : forall old h, zo_close_entry (zo_open old h) = UB.
Proof. reflexivity. Qed.
Print Assumptions C66_close_entry_first_refuted.

(** ** C67: every archive of stored and deflated members.  [g]: the stream at any position, that is after any earlier calls *)
Theorem C67_read : forall k content a, archive_ok content a ->
  exists es f, zf_open k content = Val (es, f) /\ fc f = content /\
    map ename es = map mname (members a) /\ map eusize es = map (fun m => zlen (mdata m)) (members a) /\ zf_count es = zlen (members a) /\
    forall more g, fc g = content -> Forall2 (fun e m => exists s g', zf_stream true more k g e = Val (s, g') /\ fc g' = content /\ ssize s = zlen (mdata m) /\ zs_read_all s = Val (map Some (mdata m))) es (members a).
Proof.
  intros k content a H. destruct (open_ok k content a H) as (es & f & E & FC & D). exists es, f. split; [exact E|]. split; [exact FC|]. destruct H as (HC & _ & HN & _ & _ & HM & _).
  assert (L : zlen es = zlen (members a)) by (unfold zlen; f_equal; clear - D; induction D; cbn [length]; congruence).
  split. { clear - D. induction D as [|m e ms es (A & _) D IH]; [reflexivity|]. cbn [map]. f_equal; assumption. }
  split. { clear - D. induction D as [|m e ms es (_ & A & _) D IH]; [reflexivity|]. cbn [map]. f_equal; assumption. }
  split. { unfold zf_count. rewrite L. pose proof (zlen_nonneg (members a)). apply Z.mod_small. lia. }
  intros more g FG. clear - HC HM D FG. induction D as [|m e ms es A D IH]; [constructor|]. apply Forall_cons_iff in HM as [M1 M2]. constructor; [|apply IH; exact M2].
  rewrite <- FG in *. destruct (stream_ok_data k more g m e HC M1 A) as (s & g' & S1 & S2 & S3 & S4). exists s, g'. auto.
Qed.
Print Assumptions C67_read.
(** entry(name): the first member with that name, or nullptr *)
Lemma entry_spec es name : (zf_entry es name = None /\ ~ In name (map ename es)) \/ exists i e, zf_entry es name = Some e /\ nth_error es i = Some e /\ ename e = name /\ ~ In name (map ename (firstn i es)).
Proof.
  unfold zf_entry. induction es as [|e es IH]; [left; split; [reflexivity|intros []]|]. cbn [List.find map]. destruct (list_eq_dec Z.eq_dec (ename e) name) as [E|N].
  - right. exists 0%nat, e. cbn. auto.
  - destruct IH as [[-> IH]|(i & e' & H1 & H2 & H3 & H4)]; [left; split; [reflexivity|]; intros [K|K]; auto|]. right. exists (S i), e'. cbn [nth_error firstn map]. repeat match goal with |- _ /\ _ => split end; auto. intros [K|K]; auto.
Qed.
Theorem C67_lookup : forall k content a name, archive_ok content a -> exists es f, zf_open k content = Val (es, f) /\
  (zf_entry es name = None /\ ~ In name (map mname (members a)) \/
   exists before m after e, members a = before ++ m :: after /\ mname m = name /\ ~ In name (map mname before) /\ zf_entry es name = Some e /\ nth_error es (length before) = Some e).
Proof.
  intros k content a name H. destruct (C67_read k content a H) as (es & f & E & _ & N & _). exists es, f. split; [exact E|]. destruct (entry_spec es name) as [[E1 E2]|(i & e & E1 & E2 & E3 & E4)].
  - left. rewrite <- N. auto.
  - right. assert (I : (i < length (members a))%nat) by (rewrite <- (map_length mname), <- N, map_length; apply nth_error_Some; congruence).
    destruct (nth_error (members a) i) as [m|] eqn:M; [|apply nth_error_None in M; lia]. apply nth_error_split in M as (b & c & M & L). exists b, m, c, e. split; [exact M|]. rewrite M in N.
    assert (ename e = mname m) as EN. { assert (nth_error (map ename es) i = nth_error (map mname (b ++ m :: c)) i) as K by congruence. rewrite nth_error_map, E2, map_app, nth_error_app2, map_length, L, Nat.sub_diag in K by (rewrite map_length; lia). cbn in K. congruence. }
    split; [congruence|]. split; [|split; [exact E1|rewrite L; exact E2]]. intros K. apply E4. rewrite <- firstn_map, N, map_app. rewrite firstn_app, map_length, L, Nat.sub_diag, firstn_O, app_nil_r. rewrite firstn_all2 by (rewrite map_length; lia). exact K.
Qed.
Print Assumptions C67_lookup.

(** a case with a deflated member (S_Inflate: 97 98 97 98 97 98 97), another time stamp in the local header, binary extra fields and comments *)
Definition ex_member : member := Member [98] 20 (Meta 20 0 8 1 2 0 5 7) [0;0;0;0;9;9;9;9] 1 [85; 84; 9; 0; 195] [104; 105] (Meta 20 8 8 3 4 0 0 0) [98] [85; 84; 5; 0; 255] [75; 76; 2; 67; 0] [97; 98; 97; 98; 97; 98; 97].
Definition ex_archive : archive := Archive (repeat 0 6) 42 [80; 75] [ex_member].
Definition ex_content : list Z := [0] ++ local (lmeta ex_member) (lname ex_member) (lextra ex_member) ++ packed ex_member ++ member_record ex_member ++ ending (repeat 0 6) 1 54 42 [80; 75].
Lemma isbytes_b l : forallb (fun b => (0 <=? b) && (b <? 256)) l = true -> Forall byte l.
Proof. intros H. rewrite forallb_forall in H. apply Forall_forall. intros x Hx. specialize (H x Hx). unfold byte. lia. Qed.
Lemma ex_nosig : forall q, 96 < q <= 98 -> ~ has_signature ex_content q.
Proof.
  intros q Hq (p & s & E & L). assert (C : q = 97 \/ q = 98) by lia. assert (F : firstn 4 (skipn (length p) ex_content) = le_bytes 4 101010256).
  { rewrite E. rewrite skipn_app, skipn_all, Nat.sub_diag. cbn [skipn app]. rewrite firstn_app. reflexivity. }
  replace (length p) with (Z.to_nat q) in F by (unfold zlen in L; lia). destruct C as [->| ->]; vm_compute in F; discriminate.
Qed.
Example C67_ex : archive_ok ex_content ex_archive.
Proof.
  unfold archive_ok. cbn [members ex_archive disks start archive_comment]. split; [vm_compute; reflexivity|]. split; [apply isbytes_b; vm_compute; reflexivity|]. split; [vm_compute; reflexivity|]. split; [vm_compute; reflexivity|]. split; [reflexivity|].
  split.
  - constructor; [|constructor]. unfold member_ok. cbn [ex_member mname mextra mcomment mattr mmeta packed mdata lname lextra lmeta moffset csize usize method].
    split; [split; [repeat constructor; lia|split; [vm_compute; discriminate|vm_compute; reflexivity]]|].
    split; [split; [apply isbytes_b; reflexivity|exists [85; 84; 9]; reflexivity]|]. split; [split; [apply isbytes_b; reflexivity|exists [104; 105]; reflexivity]|].
    split; [vm_compute; reflexivity|]. split; [vm_compute; reflexivity|]. split; [reflexivity|]. split; [reflexivity|]. split; [reflexivity|]. split; [vm_compute; reflexivity|]. split; [apply isbytes_b; reflexivity|]. split; [vm_compute; reflexivity|]. split; [vm_compute; reflexivity|]. split; [right; reflexivity|].
    split.
    + right. split; [reflexivity|]. exists [Fixed [Lit 97; Lit 98; Match 259 0 1 0]], [0; 0]. split; [discriminate|]. split; [|split; vm_compute; reflexivity].
      cbn [stream_ok body_ok tokens_ok token_ok near]. repeat match goal with |- _ /\ _ => split end; try exact I; vm_compute; try reflexivity; discriminate.
    + exists [0], (member_record ex_member ++ ending (repeat 0 6) 1 54 42 [80; 75]). split; vm_compute; reflexivity.
  - split; [exists (firstn 42 ex_content), (ending (repeat 0 6) 1 54 42 [80; 75]); split; vm_compute; reflexivity|].
    exists (firstn 96 ex_content). split; [vm_compute; reflexivity|]. split; [left; vm_compute; discriminate|]. intros q Hq. apply ex_nosig. change (zlen (firstn 96 ex_content)) with 96 in Hq. change (zlen ex_content) with 120 in Hq. lia.
Qed.

(** comment() does not tell the comment *)
Theorem C67_comment_refuted : exists content a, archive_ok content a /\ archive_comment a <> zf_comment content.
Proof. exists ex_content, ex_archive. split; [exact C67_ex|discriminate]. Qed.
Print Assumptions C67_comment_refuted.
(** an archive of no files with a comment is rejected *)
Theorem C67_empty_with_comment_refuted : forall k c, byte c -> zf_open k (ending (repeat 0 6) 0 0 0 [c]) = Exn.
Proof. intros [] c H; reflexivity. Qed.
Print Assumptions C67_empty_with_comment_refuted.
(** isDirectory() does not look at the last character of the name *)
Theorem C67_is_directory_refuted : forall name, is_directory (ze_new (name ++ [47])) = false.
Proof. reflexivity. Qed.
Print Assumptions C67_is_directory_refuted.
(** malformed files, neither rejected nor read safely: a directory shorter than its number of records; an extra field that ends inside a UTF-8 sequence; an entry that is stored with a compressed
    size above the uncompressed size; a compression method other than 0 and 8 *)
Theorem C67_malformed_refuted :
  (forall k, zf_open k (0 :: ending (repeat 0 6) 1 0 0 []) = UB) /\
  (forall k, zf_open k (0 :: central 0 (Meta 0 0 0 0 0 0 0 0) (repeat 0 8) 0 [97] [195] [] ++ ending (repeat 0 6) 1 48 1 []) = UB) /\
  (forall k more, exists f e, zf_open k (local (Meta 0 0 0 0 0 0 1 0) [] [] ++ [5] ++ central 0 (Meta 0 0 0 0 0 0 1 0) (repeat 0 8) 0 [] [] [] ++ ending (repeat 0 6) 1 46 31 []) = Val ([e], f) /\ zf_stream true more k f e = UB) /\
  (forall k more, exists f e s f', zf_open k (local (Meta 0 0 9 0 0 0 1 1) [] [] ++ [5] ++ central 0 (Meta 0 0 9 0 0 0 1 1) (repeat 0 8) 0 [] [] [] ++ ending (repeat 0 6) 1 46 31 []) = Val ([e], f) /\
     zf_stream true more k f e = Val (s, f') /\ zs_read_all s = UB).
Proof.
  split; [intros []; vm_compute; reflexivity|]. split; [intros []; vm_compute; reflexivity|]. split.
  - intros [] more; (eexists _, _; split; [vm_compute; reflexivity|vm_compute; reflexivity]).
  - intros [] more; (eexists _, _, _, _; split; [vm_compute; reflexivity|split; [vm_compute; reflexivity|vm_compute; reflexivity]]).
Qed.
Print Assumptions C67_malformed_refuted.

(** ** C68: what is written can be read *)
Theorem C68_round_trip : forall h l is, NoDup (map fst l) -> Forall2 (stands_for h) l is -> items_ok is ->
  exists content, make_archive None h l = Val content /\
  forall k, exists es f, zf_open k content = Val (es, f) /\ fc f = content /\ map ename es = map iname is /\ map eusize es = map (fun i => zlen (idata i)) is /\ zf_count es = zlen is /\
    forall more g, fc g = content -> Forall2 (fun e i => exists s g', zf_stream true more k g e = Val (s, g') /\ fc g' = content /\ zs_read_all s = Val (map Some (idata i))) es is.
Proof.
  intros h l is H1 H2 H3. exists (stored_archive is). split; [apply (C66_archive h l is H1 H2 H3)|]. intros k. destruct (C67_read k _ _ (stored_archive_ok is H3)) as (es & f & E & FC & N & U & C & S). exists es, f.
  cbn [archive_of members] in *. split; [exact E|]. split; [exact FC|].
  assert (M : forall off, map mname (members_of off is) = map iname is /\ map (fun m => zlen (mdata m)) (members_of off is) = map (fun i => zlen (idata i)) is).
  { clear. induction is as [|i is IH]; intros off; [split; reflexivity|]. cbn [members_of map mname mdata]. destruct (IH (off + zlen (stored_item i))) as [A B]. rewrite A, B. split; reflexivity. }
  destruct (M 0) as [M1 M2]. rewrite M1 in N. rewrite M2 in U. rewrite members_length in C. split; [exact N|]. split; [exact U|]. split; [exact C|]. intros more g FG. specialize (S more g FG). revert S. generalize (stored_archive is) as cc. clear. intros cc. generalize 0 as off. revert es.
  induction is as [|i is IH]; intros es off S; inversion S as [|e m es' ms (s & g' & A & B & _ & D) S']; subst; [constructor|]. constructor; [exists s, g'; auto|]. eapply IH. exact S'.
Qed.
Print Assumptions C68_round_trip.

(** ** C69: the checksum is CRC-32, it changes when up to four adjacent bytes change; the reader does not look at it *)
Theorem C69_crc32 : forall data, Forall byte data -> CRC32 data = crc32 data.
Proof. exact crc_ok. Qed.
Print Assumptions C69_crc32.
Theorem C69_burst_detected : forall p x y s, Forall byte (p ++ x ++ s) -> Forall byte y -> length x = length y -> (length x <= 4)%nat -> x <> y -> CRC32 (p ++ x ++ s) <> CRC32 (p ++ y ++ s).
Proof.
  intros p x y s H HY L L4 N E. assert (H' : Forall byte (p ++ y ++ s)) by (rewrite !Forall_app in *; tauto). rewrite !crc_ok in E by assumption. apply N. eapply crc32_burst; eassumption.
Qed.
Print Assumptions C69_burst_detected.
Example C69_ex : CRC32 [49; 50; 51; 52; 53; 54; 55; 56; 57] = 3421780262 /\ CRC32 [200] <> CRC32 [201].  (* 0xCBF43926, the check value *)
Proof. split; vm_compute; [reflexivity|discriminate]. Qed.
Theorem C69_not_checked_refuted : exists content a m, archive_ok content a /\ In m (members a) /\ crc (mmeta m) <> crc32 (mdata m).
Proof. exists ex_content, ex_archive, ex_member. split; [exact C67_ex|]. split; [left; reflexivity|]. vm_compute. discriminate. Qed.
Print Assumptions C69_not_checked_refuted.
