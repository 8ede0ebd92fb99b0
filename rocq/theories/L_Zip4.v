(** L_Zip4.v -- the archive of uncompressed files is an archive. *)
From Verif Require Import Base M_Utf8 S_Utf8 L_Utf8 S_Serializer L_Serializer S_Inflate S_Zip L_Zip L_Zip3.
Ltac Zify.zify_post_hook ::= Z.to_euclidean_division_equations.

Fixpoint members_of (off : Z) (is : list item) : list member :=
  match is with
  | [] => []
  | i :: is => Member (iname i) 0 (stored_meta (idata i)) (repeat 0 8) off (utf8s (iextra i)) (utf8s (icomment i)) (stored_meta (idata i)) (utf8s (iname i)) (utf8s (iextra i)) (idata i) (idata i)
      :: members_of (off + zlen (stored_item i)) is
  end.
Lemma records_ok : forall is off, flat_map member_record (members_of off is) = directory off is.
Proof. induction is as [|i is IH]; intros off; [reflexivity|]. cbn [members_of flat_map directory]. rewrite IH. reflexivity. Qed.
Lemma members_length : forall is off, zlen (members_of off is) = zlen is.
Proof. induction is as [|i is IH]; intros off; [reflexivity|]. cbn [members_of]. rewrite !zlen_cons, IH. reflexivity. Qed.
Lemma utf8s_nz name : name_ok name -> Forall nz (utf8s name).
Proof. intros (H & _). apply nz_concat. eapply Forall_impl; [|exact H]. intros c Hc. cbv beta in Hc. lia. Qed.
Lemma utf8s_byte name : name_ok name -> Forall byte (utf8s name).
Proof. intros H. eapply Forall_impl; [|apply utf8s_nz; exact H]. intros c Hc. unfold nz in Hc. unfold byte. lia. Qed.
Lemma to_zero_nz l : Forall nz l -> to_zero l = l.
Proof. induction 1 as [|b l Hb H IH]; [reflexivity|]. cbn [to_zero]. unfold nz in Hb. replace (b =? 0) with false by lia. rewrite IH. reflexivity. Qed.
Lemma utf8s_text name : name_ok name -> is_text (utf8s name).
Proof.
  intros H. split; [apply utf8s_byte; exact H|]. pose proof (utf8s_nz _ H) as N. rewrite to_zero_nz by exact N. pose proof (decode_total _ N) as D. rewrite (decode_name _ H) in D. destruct (utf8_meaning (utf8s name)) as [t| |]; try discriminate. exists t. reflexivity.
Qed.
Lemma le_b n v : Forall byte (le_bytes n v). Proof. apply le_bytes_byte. Qed.
Lemma meta_b m : Forall byte (meta_bytes m). Proof. unfold meta_bytes. rewrite !Forall_app. repeat match goal with |- _ /\ _ => split end; apply le_b. Qed.
Lemma members_ok is : Forall item_ok is -> forall off content, zlen content < 2 ^ 32 -> placed content off (stored_items is) -> Forall (member_ok content) (members_of off is).
Proof.
  induction 1 as [|i is (N & X & C & D) H IH]; intros off content HC P; [constructor|]. unfold stored_items in P. cbn [flat_map] in P. destruct (placed_app _ _ _ _ P) as [P1 P2]. cbn [members_of]. constructor; [|apply IH; assumption].
  pose proof (placed_range _ _ _ P1) as R. unfold stored_item in R. rewrite zlen_app in R. pose proof (zlen_nonneg (local (stored_meta (idata i)) (utf8s (iname i)) (utf8s (iextra i)))).
  unfold member_ok. cbn [mname mextra mcomment mattr mmeta packed mdata lname lextra lmeta moffset]. pose proof N as (_ & _ & N'). pose proof X as (_ & _ & X'). pose proof C as (_ & _ & C').
  split; [exact N|]. split; [apply utf8s_text; exact X|]. split; [apply utf8s_text; exact C|]. split; [exact X'|]. split; [exact C'|]. split; [reflexivity|]. split; [reflexivity|]. split; [reflexivity|]. split; [lia|]. split; [exact D|].
  split; [exact N'|]. split; [exact X'|]. split; [left; reflexivity|]. split; [left; split; reflexivity|]. exact P1.
Qed.
Lemma stored_byte is : Forall item_ok is -> Forall byte (stored_archive is).
Proof.
  intros H. unfold stored_archive. rewrite !Forall_app. repeat match goal with |- _ /\ _ => split end.
  - unfold stored_items. induction H as [|i is (N & X & C & D) H IH]; [constructor|]. cbn [flat_map]. apply Forall_app. split; [|exact IH]. unfold stored_item, local. rewrite !Forall_app. repeat match goal with |- _ /\ _ => split end; try apply le_b; try apply meta_b; try (apply utf8s_byte; assumption). exact D.
  - generalize 0 as off. induction H as [|i is (N & X & C & D) H IH]; intros off; [constructor|]. cbn [directory]. apply Forall_app. split; [|apply IH]. unfold central. rewrite !Forall_app. repeat match goal with |- _ /\ _ => split end; try apply le_b; try apply meta_b; try (apply utf8s_byte; assumption). cbn [repeat]. repeat constructor; unfold byte; lia.
  - unfold ending. rewrite !Forall_app. repeat match goal with |- _ /\ _ => split end; try apply le_b. constructor.
Qed.
Definition archive_of (is : list item) : archive := Archive (le_bytes 2 0 ++ le_bytes 2 0 ++ le_bytes 2 (zlen is)) (zlen (stored_items is)) [] (members_of 0 is).
Theorem stored_archive_ok is : items_ok is -> archive_ok (stored_archive is) (archive_of is).
Proof.
  intros (HI & HN & HC). unfold archive_ok, archive_of. cbn [members disks start archive_comment]. rewrite records_ok, members_length. rewrite zlen_nil.
  split; [exact HC|]. split; [apply stored_byte; exact HI|]. split; [exact HN|]. split; [lia|]. split; [rewrite !zlen_app, !le_zlen; reflexivity|].
  split. { apply members_ok; [exact HI|exact HC|]. unfold stored_archive. exists [], (directory 0 is ++ ending (le_bytes 2 0 ++ le_bytes 2 0 ++ le_bytes 2 (zlen is)) (zlen is) (zlen (directory 0 is)) (zlen (stored_items is)) []). split; reflexivity. }
  split. { exists (stored_items is). eexists. unfold stored_archive. split; reflexivity. }
  exists (stored_items is ++ directory 0 is). split; [unfold stored_archive; rewrite <- !app_assoc; reflexivity|]. split; [right; reflexivity|].
  intros q Hq _. unfold stored_archive, ending in Hq. rewrite ?zlen_app, ?le_zlen in Hq. change (zlen (@nil Z)) with 0 in Hq. lia.
Qed.
