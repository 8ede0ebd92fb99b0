(** P_Exception.v -- C138: the stack trace of an exception. *)
From Verif Require Import Base M_Utf8 S_Utf8 P_Utf8 M_Charset M_String S_String L_String L_StringList M_StringList S_StringList P_StringList M_DiffInfo M_Exception S_Exception.
Import Coq.Strings.String.StringSyntax.
Local Open Scope string_scope.
(** the name of a call: bytes without zero that mean [t] in UTF-8 *)
Definition names (frame t : list Z) : Prop := Forall (fun b => 0 < b < 256) frame /\ utf8_meaning frame = Units t.
Lemma add_symbols_ok : forall fs ts l have, lrepr l have -> Forall2 names fs ts -> zlen have + zlen ts < 2 ^ 62 -> exists l', add_symbols l fs = Val l' /\ lrepr l' (have ++ ts).
Proof.
  induction fs as [|f fs IH]; intros ts l have R F N; inversion F; subst; cbn [add_symbols].
  - exists l. rewrite app_nil_r. auto.
  - destruct H1 as [B M]. rewrite C06_utf8_decode_total by exact B. rewrite M. cbn [bind]. rewrite zlen_cons in N. pose proof (zlen_nonneg l'). destruct (append_list_ok l have (str_of y) y R ltac:(lia) (str_of_repr y)) as (l1 & -> & R1). cbn [bind].
    destruct (IH l' l1 (have ++ [y]) R1 H3 ltac:(rewrite zlen_app; change (zlen [y]) with 1; lia)) as (l2 & E & R2). exists l2. split; [exact E|]. now rewrite <- app_assoc in R2.
Qed.
(** what an exception is for its user *)
Definition erepr (e : exc) (m : list Z) (ts : list (list Z)) : Prop := repr (message e) m /\ lrepr (symbols e) ts /\ addrlen e = zlen ts.
Lemma Forall2_firstn {A B} (P : A -> B -> Prop) n l m : Forall2 P l m -> Forall2 P (firstn n l) (firstn n m).
Proof. intros H. revert n. induction H; intros [|n]; cbn; constructor; auto. Qed.
Lemma Forall2_zlen {A B} (P : A -> B -> Prop) l m : Forall2 P l m -> zlen l = zlen m.
Proof. unfold zlen. intros H. f_equal. induction H; cbn; congruence. Qed.
Lemma lrepr_new : lrepr sl_new [].
Proof. exists (repeat [] 8). cbn [sl_new sdata ssize app]. split; [|reflexivity]. cbn [repeat]. repeat (constructor; [apply str_new_repr|]). constructor. Qed.
Lemma exception_ok m t fs ts : repr m t -> Forall2 names (firstn 10 fs) ts -> exists e, exception m fs = Val e /\ erepr e t ts.
Proof.
  intros R F. unfold exception. destruct (assign_ok str_new m t R) as (s & -> & Rs & _). cbn [bind]. cbv zeta. change (backtrace fs) with (firstn 10 fs). pose proof (Forall2_zlen _ _ _ F) as L.
  destruct (add_symbols_ok _ ts sl_new [] lrepr_new F) as (l & -> & Rl). { rewrite <- L. unfold zlen. rewrite firstn_length. cbn [length]. lia. }
  cbn [bind]. eexists. split; [reflexivity|]. split; [exact Rs|]. split; [exact Rl|exact L].
Qed.
Lemma lcopy_ok l ts : lrepr l ts -> exists l', sl_copy l = Val l' /\ lrepr l' ts.
Proof.
  intros (junk & H & S). unfold sl_copy. destruct (new_holds (zlen (sdata l)) (zlen_nonneg _)) as (d & -> & Hd). cbn [bind]. rewrite S.
  pose proof (holds_len _ _ H) as Ld. rewrite zlen_app in Ld. pose proof (zlen_nonneg junk).
  assert (Es : repeat (@nil Z) (Z.to_nat (zlen (sdata l))) = repeat [] (length ts) ++ repeat [] (length junk)). { rewrite <- repeat_app. f_equal. unfold zlen in *. lia. }
  rewrite Es in Hd. destruct (copy_strings_ok ts [] d (sdata l) (repeat [] (length ts)) (repeat [] (length junk)) junk (Z.to_nat (zlen ts)) Hd H) as (d' & E & H'); [unfold zlen; rewrite repeat_length; reflexivity|unfold zlen; lia|].
  change (zlen (@nil (list Z))) with 0 in E. rewrite E. cbn [bind]. eexists. split; [reflexivity|]. eexists. split; [exact H'|reflexivity].
Qed.
Lemma copies_ok n : forall e m ts, erepr e m ts -> exists c, copies n e = Val c /\ erepr c m ts.
Proof.
  induction n as [|n IH]; intros e m ts H; [exists e; auto|]. destruct H as (A & B & C). cbn [copies]. unfold exception_copy. destruct (copy_ctor_ok _ _ A) as (s & -> & Rs & _). cbn [bind]. destruct (lcopy_ok _ _ B) as (l & -> & Rl). cbn [bind]. apply IH. repeat split; auto.
Qed.
Lemma line_ok e m ts a f b : erepr e m ts -> ts = a ++ f :: b -> exists s, line e (zlen a) = Val s /\ repr s f.
Proof.
  intros (_ & (junk & H & S) & _) ->. unfold line, sl_get. pose proof (zlen_nonneg a). pose proof (zlen_nonneg b). rewrite S, zlen_app, zlen_cons. replace ((zlen a <? 0) || (zlen a >=? zlen a + (1 + zlen b))) with false by lia.
  rewrite <- app_assoc in H. cbn [app] in H. destruct (rd_holds _ a f _ _ H eq_refl) as (y & -> & R). cbn [bind]. destruct (copy_ctor_ok _ _ R) as (s & -> & Rs & _). eauto.
Qed.
Lemma trace_lines_ok e m ts : erepr e m ts -> forall b a ret t, ts = a ++ b -> repr ret t ->
  exists r, trace_lines e ret (zlen a) (length b) = Val r /\ repr r (t ++ concat (map (fun f => [9; 97] ++ f ++ [13; 10]) b)).
Proof.
  intros H. induction b as [|f b IH]; intros a ret t E R; cbn [length trace_lines map concat].
  - exists ret. rewrite app_nil_r. auto.
  - destruct (line_ok _ _ _ a f b H E) as (l & -> & Rl). cbn [bind]. unfold add_lit. destruct (append_ok ret t _ _ R (str_of_repr [9; 97])) as (r1 & -> & R1). cbn [bind]. destruct (append_ok r1 _ _ _ R1 Rl) as (r2 & -> & R2). cbn [bind].
    destruct (append_ok r2 _ _ _ R2 (str_of_repr [13; 10])) as (r3 & -> & R3). cbn [bind]. destruct (IH (a ++ [f]) r3 _ ltac:(now rewrite <- app_assoc) R3) as (r & E4 & R4). rewrite zlen_app in E4. change (zlen [f]) with 1 in E4. exists r. split; [exact E4|]. rewrite <- !app_assoc in R4. rewrite <- ?app_assoc. exact R4.
Qed.
Lemma tail_split (ts : list (list Z)) : exists a, (ts = [] /\ a = [] \/ zlen a = 1) /\ ts = a ++ tl ts /\ Z.to_nat (zlen ts - 1) = length (tl ts).
Proof. destruct ts as [|t ts]; [exists []; auto|]. exists [t]. repeat split; [auto|]. rewrite zlen_cons. cbn [tl]. unfold zlen. lia. Qed.
Lemma calls_firstn (ts : list (list Z)) : (length ts <= 10)%nat -> calls ts = tl ts.
Proof. intros H. unfold calls. apply firstn_all2. destruct ts; cbn in *; lia. Qed.
Lemma repr_len s t : repr s t -> len s = zlen t. Proof. intros (j & _ & L). exact L. Qed.
Lemma get_trace_ok e m ts : erepr e m ts -> (length ts <= 10)%nat -> exists r, get_stack_trace e = Val r /\ repr r (report [] m [13; 10] ts).
Proof.
  intros H L. unfold get_stack_trace, report, header. rewrite calls_firstn by exact L. pose proof H as (A & B & C). unfold add_lit. cbn [app].
  destruct (append_ok str_new [] _ _ str_new_repr (str_of_repr (lit_ "Exception in thread " ++ [34]))) as (r1 & -> & R1). cbn [bind]. destruct (append_ok r1 _ _ _ R1 (str_of_repr [34])) as (r2 & -> & R2). cbn [bind]. cbn [app] in R1, R2.
  assert (exists r3, (if len (message e) >? 0 then let* r := append r2 (str_of (lit_ " : ")) in append r (message e) else Val r2) = Val r3 /\ repr r3 (lit_ "Exception in thread " ++ [34; 34] ++ match m with [] => [] | _ => lit_ " : " ++ m end)) as (r3 & -> & R3).
  { rewrite (repr_len _ _ A). destruct m as [|c m].
    - change (zlen [] >? 0) with false. cbv iota. exists r2. split; [reflexivity|]. exact R2.
    - rewrite zlen_cons. pose proof (zlen_nonneg m). replace (1 + zlen m >? 0) with true by lia. destruct (append_ok r2 _ _ _ R2 (str_of_repr (lit_ " : "))) as (x & -> & X). cbn [bind]. destruct (append_ok x _ _ _ X A) as (y & -> & Y). exists y. split; [reflexivity|]. rewrite <- !app_assoc in Y. exact Y. }
  cbn [bind]. destruct (append_char_ok r3 _ 13 R3) as (r4 & -> & R4 & _). cbn [bind]. destruct (append_char_ok r4 _ 10 R4) as (r5 & -> & R5 & _). cbn [bind]. rewrite C.
  destruct (tail_split ts) as (a & Ha & E & N). rewrite N. destruct Ha as [[-> ->]|Ha].
  - cbn [tl length trace_lines map concat]. exists r5. split; [reflexivity|]. match goal with |- repr _ ?x => match type of R5 with repr _ ?y => replace x with y; [exact R5|rewrite <- ?app_assoc; reflexivity] end end.
  - rewrite <- Ha. destruct (trace_lines_ok e m ts H (tl ts) a r5 _ E R5) as (r & -> & R). exists r. split; [reflexivity|]. match goal with |- repr _ ?x => match type of R with repr _ ?y => replace x with y; [exact R|rewrite <- ?app_assoc; reflexivity] end end.
Qed.
Lemma shown_ok s t : repr s t -> shown s = console t.
Proof. intros R. unfold shown, console. destruct (repr_text _ _ R) as [E _]. unfold text in E. rewrite E. generalize (w1252_encode t). intros b. induction b as [|x b IH]; cbn; [reflexivity|]. now rewrite IH. Qed.
Lemma print_lines_ok e m ts : erepr e m ts -> forall b a, ts = a ++ b -> print_lines e (zlen a) (length b) = Val (concat (map (fun f => [9; 97] ++ f ++ [10]) (map console b))).
Proof.
  intros H. induction b as [|f b IH]; intros a E; cbn [length print_lines map concat]; [reflexivity|]. destruct (line_ok _ _ _ a f b H E) as (l & -> & Rl). cbn [bind]. specialize (IH (a ++ [f]) ltac:(now rewrite <- app_assoc)). rewrite zlen_app in IH. change (zlen [f]) with 1 in IH. rewrite IH. cbn [bind]. now rewrite (shown_ok _ _ Rl), <- !app_assoc.
Qed.
(** A thrown exception, copied any number of times on its way: its message, and the trace it gives. *)
Theorem C138_trace : forall m stack ts n, sound m -> Forall2 names (firstn 10 stack) ts ->
  exists e c s r, exception m stack = Val e /\ copies n e = Val c /\ error_message c = Val s /\ text s = text m /\
    get_stack_trace c = Val r /\ text r = report [] (text m) [13; 10] ts.
Proof.
  intros m fs ts n Sm F. apply sound_repr in Sm. destruct (exception_ok m _ fs ts Sm F) as (e & E & H). destruct (copies_ok n e _ _ H) as (c & Ec & Hc). pose proof Hc as (A & _).
  assert (L : (length ts <= 10)%nat). { pose proof (Forall2_zlen _ _ _ F) as L. unfold zlen in L. rewrite firstn_length in L. lia. }
  destruct (get_trace_ok c _ ts Hc L) as (r & Er & R). destruct (copy_ctor_ok _ _ A) as (s & Es & Rs & _). exists e, c, s, r. repeat split; auto; [exact (proj1 (repr_text _ _ Rs))|exact (proj1 (repr_text _ _ R))].
Qed.
Print Assumptions C138_trace.
(** What printStackTrace writes: the message and the lines are written in Windows-1252 and end at a zero. *)
Theorem C138_print : forall m stack ts n tid, sound m -> Forall2 names (firstn 10 stack) ts ->
  exists e c, exception m stack = Val e /\ copies n e = Val c /\
    print_stack_trace tid c = Val (header tid [] ++ match text m with [] => [] | _ => lit_ " : " ++ console (text m) end ++ [10] ++ concat (map (fun f => [9; 97] ++ f ++ [10]) (calls (map console ts)))).
Proof.
  intros m fs ts n tid Sm F. apply sound_repr in Sm. destruct (exception_ok m _ fs ts Sm F) as (e & E & H). destruct (copies_ok n e _ _ H) as (c & Ec & Hc). exists e, c. split; [exact E|]. split; [exact Ec|]. pose proof Hc as (A & B & C).
  assert (L : (length ts <= 10)%nat). { pose proof (Forall2_zlen _ _ _ F) as L. unfold zlen in L. rewrite firstn_length in L. lia. }
  unfold print_stack_trace, header. cbv zeta. rewrite (repr_len _ _ A), (shown_ok _ _ A), C. replace (if zlen (text m) >? 0 then lit_ " : " ++ console (text m) else []) with (match text m with [] => [] | _ => lit_ " : " ++ console (text m) end) by (destruct (text m); [reflexivity|rewrite zlen_cons; pose proof (zlen_nonneg l); replace (1 + zlen l >? 0) with true by lia; reflexivity]).
  rewrite calls_firstn by now rewrite map_length. destruct (tail_split ts) as (a & Ha & Et & Nt). rewrite Nt. replace (tl (map console ts)) with (map console (tl ts)) by (destruct ts; reflexivity). destruct Ha as [[-> ->]|Ha].
  - cbn [tl length print_lines map concat bind]. rewrite ?app_nil_r, <- ?app_assoc. reflexivity.
  - rewrite <- Ha. rewrite (print_lines_ok c _ ts Hc (tl ts) a Et). cbn [bind]. rewrite ?app_nil_r, <- ?app_assoc. reflexivity.
Qed.
Print Assumptions C138_print.
(** Only the ten innermost calls count, whatever is further out. *)
Theorem C138_depth : forall m inner outer, length inner = 10%nat -> exception m (inner ++ outer) = exception m inner.
Proof. intros m i o L. unfold exception, backtrace, ztake, max_frames. change (Z.to_nat 10) with 10%nat. rewrite <- L, firstn_app, Nat.sub_diag, firstn_all, firstn_O, app_nil_r. reflexivity. Qed.
Print Assumptions C138_depth.
(** Names of ASCII characters are their own texts. *)
Theorem C138_ascii : forall f, Forall (fun b => 0 < b < 128) f -> names f f.
Proof.
  intros f F. assert (F2 : Forall (fun b => 0 < b < 256) f) by (eapply Forall_impl; [|exact F]; cbn; lia). split; [exact F2|].
  assert (D : utf8_decode (f ++ [0]) = Val f).
  { assert (E : concat (map utf8 f) = f). { clear F2. induction F as [|x f H F IH]; [reflexivity|]. cbn [map concat]. rewrite IH. unfold utf8. replace (x <? 128) with true by lia. reflexivity. }
    rewrite <- E at 1. rewrite C07_utf8_decode_loses_high_bits; [|eapply Forall_impl; [|exact F]; cbn; lia|inversion F; subst; cbn; [lia|]; lia]. f_equal. rewrite <- (map_id f) at 2. apply map_ext_in. intros x X. rewrite Forall_forall in F. specialize (F x X). apply Z.mod_small. lia. }
  rewrite C06_utf8_decode_total in D by exact F2. destruct (utf8_meaning f); congruence.
Qed.
Print Assumptions C138_ascii.
(** A program whose path is not UTF-8 (a directory with the bytes FF FE in its name): making any exception is undefined. *)
Theorem C138_path_not_utf8_refuted : forall m, sound m -> exception m [lit_ "/opt/" ++ [255; 254] ++ lit_ "/a.out(main+0x1) [0x400000]"] = UB.
Proof.
  intros m S. apply sound_repr in S. unfold exception. destruct (assign_ok str_new m _ S) as (s & -> & _). cbn [bind]. cbv zeta.
  match goal with |- context [add_symbols ?a ?b] => replace (add_symbols a b) with (@UB slist) by (vm_compute; reflexivity) end. reflexivity.
Qed.
Print Assumptions C138_path_not_utf8_refuted.
Example C138_ex : exists e c r, exception (str_of (lit_ "Oops")) [lit_ "libCore.so(_ZN2jm9ExceptionC1)"; lit_ "a.out(f+1)"; lit_ "a.out(main+2)"] = Val e /\ copies 3 e = Val c /\
  get_stack_trace c = Val r /\ text r = lit_ "Exception in thread " ++ [34; 34] ++ lit_ " : Oops" ++ [13; 10; 9] ++ lit_ "aa.out(f+1)" ++ [13; 10; 9] ++ lit_ "aa.out(main+2)" ++ [13; 10] /\
  print_stack_trace (lit_ "7") c = Val (lit_ "Exception in thread " ++ [34; 55; 34] ++ lit_ " : Oops" ++ [10; 9] ++ lit_ "aa.out(f+1)" ++ [10; 9] ++ lit_ "aa.out(main+2)" ++ [10]).
Proof. eexists _, _, _. split; [vm_compute; reflexivity|]. split; [vm_compute; reflexivity|]. split; [vm_compute; reflexivity|]. split; vm_compute; reflexivity. Qed.
