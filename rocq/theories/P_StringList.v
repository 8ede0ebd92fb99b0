(** P_StringList.v -- StringList (C21, and its sort for C27). *)
From Verif Require Import Base M_String M_Sort M_StringList S_String S_Sort S_StringList L_String L_String3 L_Sort L_StringList.
Ltac Zify.zify_post_hook ::= Z.to_euclidean_division_equations.

Lemma lsound_lrepr l : lsound l -> lrepr l (texts l) /\ Forall (fun t => zlen t < 2 ^ 32) (texts l).
Proof.
  intros (L & S & F). split; [|exact F]. exists (zdrop (ssize l) (map text (sdata l))). unfold texts. rewrite take_drop. split; [now apply holds_map|]. rewrite zlen_ztake; [reflexivity|rewrite zlen_map; exact L].
Qed.
Lemma lrepr_lsound l ts : lrepr l ts -> Forall (fun t => zlen t < 2 ^ 32) ts -> lsound l /\ texts l = ts.
Proof.
  intros (junk & H & S) F. pose proof (holds_text _ _ H) as [T Sd]. pose proof (holds_len _ _ H) as L. rewrite zlen_app in L. pose proof (zlen_nonneg ts). pose proof (zlen_nonneg junk).
  assert (E : texts l = ts) by (unfold texts; rewrite T, S; apply ztake_app; reflexivity). split; [|exact E]. split; [lia|]. split; [exact Sd|]. now rewrite E.
Qed.
Lemma lexec_ok o l ts : lrepr l ts -> Forall (fun t => zlen t < 2 ^ 32) ts -> zlen ts < 2 ^ 62 -> lop_ok o ->
  exists b ts', lstep (lop_text o) ts b ts' /\ Forall (fun t => zlen t < 2 ^ 32) ts' /\ zlen ts' <= zlen ts + 1 /\
   ((b = true /\ exists l', lexec o l = Val l' /\ lrepr l' ts') \/ (b = false /\ ts' = ts /\ lexec o l = Exn)).
Proof.
  intros H F Hl Ho. destruct o as [s|s|i s| | |n]; cbn [lexec lop_text lop_ok] in *.
  - destruct Ho as [Hs Hz]. apply sound_repr in Hs. destruct (append_list_ok l ts s _ H Hl Hs) as (l' & E & R). exists true, (ts ++ [text s]). split; [constructor|]. split; [apply Forall_app; split; [exact F|constructor; [exact Hz|constructor]]|]. split; [rewrite zlen_app; change (zlen [text s]) with 1; lia|]. left. eauto.
  - destruct Ho as [Hs Hz]. apply sound_repr in Hs. destruct (remove_ok l ts s _ H Hs F) as (l' & E & R). exists true. eexists. split; [constructor|]. split; [|split; [|left; eauto]].
    + rewrite Forall_forall in *. intros x Hx. apply filter_In in Hx as [Hx _]. now apply F.
    + clear. induction ts as [|x ts IH]; cbn [filter]; [lia|]. destruct (negb (teq x (text s))); rewrite ?zlen_cons; lia.
  - destruct Ho as [Hs Hz]. apply sound_repr in Hs. destruct (Z.leb_spec 0 i) as [A|A]; [destruct (Z.ltb_spec i (zlen ts)) as [B|B]|].
    + destruct (set_ok l ts i s _ H Hs ltac:(lia)) as (l' & E & R). exists true. eexists. split; [constructor; lia|]. split; [|split; [|left; eauto]].
      * destruct (split_at ts i ltac:(lia)) as (v & x & w & -> & Lv). rewrite (ztake_app v) by lia. replace (v ++ x :: w) with ((v ++ [x]) ++ w) by (rewrite <- app_assoc; reflexivity). rewrite (zdrop_app (v ++ [x])) by (rewrite zlen_app; change (zlen [x]) with 1; lia).
        apply Forall_app in F as [F1 F2]. inversion F2; subst. apply Forall_app. split; [exact F1|]. constructor; assumption.
      * destruct (split_at ts i ltac:(lia)) as (v & x & w & -> & Lv). rewrite (ztake_app v) by lia. replace (v ++ x :: w) with ((v ++ [x]) ++ w) by (rewrite <- app_assoc; reflexivity). rewrite (zdrop_app (v ++ [x])) by (rewrite zlen_app; change (zlen [x]) with 1; lia).
        rewrite ?zlen_app, ?zlen_cons. change (zlen (@nil (list Z))) with 0. lia.
    + exists false, ts. split; [constructor; lia|]. split; [exact F|]. split; [lia|]. right. split; [reflexivity|]. split; [reflexivity|]. destruct H as (junk & _ & S). unfold sl_set. rewrite S. replace ((i <? 0) || (i >=? zlen ts)) with true by lia. reflexivity.
    + exists false, ts. split; [constructor; lia|]. split; [exact F|]. split; [lia|]. right. split; [reflexivity|]. split; [reflexivity|]. unfold sl_set. replace (i <? 0) with true by lia. reflexivity.
  - exists true, []. split; [constructor|]. split; [constructor|]. split; [change (zlen (@nil (list Z))) with 0; pose proof (zlen_nonneg ts); lia|]. left. split; [reflexivity|]. eexists. split; [reflexivity|]. destruct H as (junk & H & _). exists (ts ++ junk). auto.
  - destruct (sort_list_ok l ts H) as (l' & ts' & E & R & P & So). exists true, ts'. split; [constructor; assumption|]. split; [|split; [|left; eauto]].
    + rewrite Forall_forall in *. intros x Hx. apply F. eapply Permutation_in; eauto.
    + unfold zlen. rewrite (Permutation_length P). lia.
  - destruct (check_size_ok l ts n H Ho Hl) as (l' & b & junk & E & R & S & _). exists true, ts. split; [constructor|]. split; [exact F|]. split; [lia|]. left. split; [reflexivity|]. exists l'. unfold sl_reserve. rewrite E. split; [reflexivity|]. exists junk. auto.
Qed.
(** every history of calls behaves as on a plain list of texts; set() outside the list throws and changes nothing; storage is never left *)
Theorem C21_histories : forall os l, lsound l -> Forall lop_ok os -> zlen (texts l) + zlen os < 2 ^ 62 ->
  exists bs l', lexec_all os l = Val (bs, l') /\ lsound l' /\ lsteps (map lop_text os) (texts l) bs (texts l').
Proof.
  intros os l Hl Ho Hn. apply lsound_lrepr in Hl as [H F].
  assert (K : forall os l ts, lrepr l ts -> Forall (fun t => zlen t < 2 ^ 32) ts -> Forall lop_ok os -> zlen ts + zlen os < 2 ^ 62 ->
    exists bs l' ts', lexec_all os l = Val (bs, l') /\ lrepr l' ts' /\ Forall (fun t => zlen t < 2 ^ 32) ts' /\ lsteps (map lop_text os) ts bs ts').
  { clear. induction os as [|o os IH]; intros l ts H F Ho Hn; cbn [lexec_all map].
    - exists [], l, ts. split; [reflexivity|]. split; [exact H|]. split; [exact F|constructor].
    - inversion Ho as [|? ? O1 O2]; subst. rewrite zlen_cons in Hn. pose proof (zlen_nonneg os). pose proof (zlen_nonneg ts). destruct (lexec_ok o l ts H F ltac:(lia) O1) as (b & ts1 & St & F1 & Z1 & [(-> & l1 & E & R)|(-> & -> & E)]); rewrite E.
      + destruct (IH l1 ts1 R F1 O2 ltac:(lia)) as (bs & l' & ts' & -> & R' & F' & St'). exists (true :: bs), l', ts'. split; [reflexivity|]. split; [exact R'|]. split; [exact F'|]. econstructor; eauto.
      + destruct (IH l ts H F O2 ltac:(lia)) as (bs & l' & ts' & -> & R' & F' & St'). exists (false :: bs), l', ts'. split; [reflexivity|]. split; [exact R'|]. split; [exact F'|]. econstructor; eauto. }
  destruct (K os l _ H F Ho Hn) as (bs & l' & ts' & E & R & F' & St). destruct (lrepr_lsound l' ts' R F') as [S T]. exists bs, l'. rewrite T. auto.
Qed.
(** observations: get, contains, join, copy *)
Theorem C21_get : forall l i, lsound l -> match lget (texts l) i with Some t => exists s, sl_get l i = Val s /\ text s = t | None => sl_get l i = Exn end.
Proof. intros l i H. apply lsound_lrepr in H as [H _]. pose proof (get_ok l _ i H) as G. destruct (lget (texts l) i); [|exact G]. destruct G as (s & E & R). apply repr_text in R as [T _]. eauto. Qed.
Theorem C21_contains : forall l s, lsound l -> sound s -> exists b, sl_contains l s = Val b /\ (b = true <-> In (text s) (texts l)).
Proof.
  intros l s H Hs. apply lsound_lrepr in H as [(junk & H & S) F]. apply sound_repr in Hs. unfold sl_contains. rewrite S. apply (contains_loop_ok s _ Hs (texts l) [] (sdata l) junk); [exact H|exact F|unfold zlen; lia].
Qed.
Theorem C21_join : forall l c, lsound l -> exists r, sl_join l c = Val r /\ sound r /\ text r = joined c (texts l).
Proof. intros l c H. apply lsound_lrepr in H as [H _]. destruct (join_ok l _ c H) as (r & E & R). apply repr_text in R as [T S]. eauto. Qed.
Theorem C21_copy : forall l, lsound l -> exists l', sl_copy l = Val l' /\ lsound l' /\ texts l' = texts l.
Proof.
  intros l H. pose proof H as (L & _ & _). apply lsound_lrepr in H as [(junk & H & S) F]. unfold sl_copy. destruct (new_holds (zlen (sdata l)) ltac:(lia)) as (d & -> & Hd). cbn [bind]. rewrite S.
  pose proof (holds_len _ _ H) as Ld. rewrite zlen_app in Ld. pose proof (zlen_nonneg junk).
  assert (Es : repeat (@nil Z) (Z.to_nat (zlen (sdata l))) = repeat [] (length (texts l)) ++ repeat [] (length junk)). { rewrite <- repeat_app. f_equal. unfold zlen in *. lia. }
  rewrite Es in Hd. destruct (copy_strings_ok (texts l) [] d (sdata l) (repeat [] (length (texts l))) (repeat [] (length junk)) junk (Z.to_nat (zlen (texts l))) Hd H) as (d' & E & H'); [unfold zlen; rewrite repeat_length; reflexivity|unfold zlen; lia|].
  change (zlen (@nil (list Z))) with 0 in E. rewrite E. cbn [bind]. eexists. split; [reflexivity|]. apply lrepr_lsound; [|exact F]. eexists. cbn [sdata ssize]. split; [exact H'|reflexivity].
Qed.
Theorem C21_new_is_sound : lsound sl_new /\ texts sl_new = [].
Proof. apply lrepr_lsound; [|constructor]. exists (repeat [] 8). cbn [sl_new sdata ssize app]. split; [|reflexivity]. cbn [repeat]. repeat (constructor; [apply str_new_repr|]). constructor. Qed.
(** arguments that are elements of the same list: append needs a free slot, remove compares with what the reference shows at that time *)
Theorem C21_append_own_element_refuted : exists l bs, lexec_all (repeat (LAppend (str_of [97])) 7) sl_new = Val (bs, l) /\ texts l = repeat [97] 7 /\ sl_append_own l 0 = UB.
Proof. eexists _, _. split; [vm_compute; reflexivity|]. split; vm_compute; reflexivity. Qed.
Theorem C21_remove_own_element_refuted : exists l bs l', lexec_all [LAppend (str_of [97]); LAppend (str_of [98])] sl_new = Val (bs, l) /\ texts l = [[97]; [98]] /\
  sl_remove_own l 0 = Val l' /\ texts l' = [].
Proof. eexists _, _, _. split; [vm_compute; reflexivity|]. repeat split; vm_compute; reflexivity. Qed.
(** append b, a, b; sort; remove a *)
Example C21_ex : exists bs l r, lexec_all [LAppend (str_of [98]); LAppend (str_of [97]); LAppend (str_of [98; 99]); LSet 7 (str_of []); LSort; LRemove (str_of [97])] sl_new = Val (bs, l) /\
  bs = [true; true; true; false; true; true] /\ texts l = [[98]; [98; 99]] /\ sl_join l 44 = Val r /\ text r = [98; 44; 98; 99].
Proof. eexists _, _, _. split; [vm_compute; reflexivity|]. repeat split; vm_compute; reflexivity. Qed.

(** * C27 for StringList: sorted lexicographically, a permutation *)
Theorem C27_stringlist_sort : forall l, lsound l -> exists l', sl_sort l = Val l' /\ lsound l' /\ Permutation (texts l') (texts l) /\ sorted (fun a b => lex a b <> Gt) (texts l').
Proof.
  intros l H. apply lsound_lrepr in H as [H F]. destruct (sort_list_ok l _ H) as (l' & ts' & E & R & P & So). exists l'.
  assert (F' : Forall (fun t => zlen t < 2 ^ 32) ts'). { rewrite Forall_forall in *. intros x Hx. apply F. eapply Permutation_in; eauto. }
  destruct (lrepr_lsound l' ts' R F') as [S T]. rewrite T. auto.
Qed.
Print Assumptions C21_histories. Print Assumptions C21_get. Print Assumptions C21_contains. Print Assumptions C21_join. Print Assumptions C21_copy. Print Assumptions C21_new_is_sound.
Print Assumptions C21_append_own_element_refuted. Print Assumptions C21_remove_own_element_refuted. Print Assumptions C27_stringlist_sort.
