(** P_File.v -- path names, reading in pieces, tags of a file (C75-C79), and String::split (C20). *)
From Verif Require Import L_Utf8.
From Verif Require Import Base M_Utf8 M_String M_Tokenizer M_StringList M_File S_String S_Utf8 S_Tokenizer S_StringList S_File.
From Verif Require Import L_String L_String2 L_StringList L_Tokenizer L_File L_File2 P_StringList.
Ltac Zify.zify_post_hook ::= Z.to_euclidean_division_equations.

(** * C75: the path of a File is the shortest name with the same components *)
Theorem C75_canonical : forall p, sound p -> exists f, file_of_path p = Val f /\ sound f /\ text f = canonical (text p).
Proof. intros p S. apply sound_repr in S. destruct (normalize_ok p _ S) as (f & E & R). apply repr_text in R as [T S']. exists f. auto. Qed.
Theorem C75_same_place : forall t, components (canonical t) = components t /\ absolute (canonical t) = absolute t /\ canonical (canonical t) = canonical t.
Proof. intros t. split; [apply canonical_comps|]. split; [apply canonical_abs|apply canonical_idem]. Qed.
Lemma squeeze_len t : forall b, zlen (squeeze b t) <= zlen t.
Proof. induction t as [|c t IH]; intros b; cbn [squeeze]; [lia|]. rewrite zlen_cons. destruct (b && (c =? 47)); [specialize (IH true); lia|]. rewrite zlen_cons. specialize (IH (c =? 47)). lia. Qed.
Lemma canonical_len t : zlen (canonical t) <= zlen t.
Proof.
  rewrite <- normal_canonical. unfold normal. cbv zeta. pose proof (squeeze_len t false). destruct (zlen (squeeze false t) >? 1); [|lia]. unfold untrail. destruct (last (squeeze false t) 0 =? 47); [|lia].
  destruct (squeeze false t) as [|c r] eqn:E; [cbn [removelast]; lia|]. destruct (@exists_last _ (c :: r) ltac:(discriminate)) as (a & x & Ea). rewrite Ea in *. rewrite removelast_last. rewrite zlen_app, zlen_cons, zlen_nil in *. lia.
Qed.
Theorem C75_shortest : forall t u, components u = components t -> absolute u = absolute t -> zlen (canonical t) <= zlen u.
Proof. intros t u C A. replace (canonical t) with (canonical u) by (unfold canonical; now rewrite C, A). apply canonical_len. Qed.
(** two names give the same path exactly if they have the same components and both or neither begin with / *)
Theorem C75_equal_paths : forall p q, sound p -> sound q -> exists f g, file_of_path p = Val f /\ file_of_path q = Val g /\
  (text f = text g <-> components (text p) = components (text q) /\ absolute (text p) = absolute (text q)).
Proof.
  intros p q Sp Sq. destruct (C75_canonical p Sp) as (f & Ef & _ & Tf). destruct (C75_canonical q Sq) as (g & Eg & _ & Tg). exists f, g. split; [exact Ef|]. split; [exact Eg|]. rewrite Tf, Tg. split.
  - intros E. split; [rewrite <- canonical_comps, E; apply canonical_comps|rewrite <- canonical_abs, E; apply canonical_abs].
  - intros [C A]. unfold canonical. now rewrite C, A.
Qed.
(** //a///b.c/ *)
Example C75_ex : exists f, file_of_path (str_of [47; 47; 97; 47; 47; 47; 98; 46; 99; 47]) = Val f /\ text f = [47; 97; 47; 98; 46; 99] /\ components [47; 47; 97; 47; 47; 47; 98; 46; 99; 47] = [[97]; [98; 46; 99]].
Proof. eexists. split; [vm_compute; reflexivity|]. split; vm_compute; reflexivity. Qed.

(** * C76: files below a directory *)
Theorem C76_two_names : forall p c, sound p -> sound c -> zlen (text p) < 2 ^ 32 -> components (text c) <> [] ->
  exists f, file_of_names p c = Val f /\ sound f /\ text f = canonical (text p ++ 47 :: text c).
Proof.
  intros p c Sp Sc L N. apply sound_repr in Sp, Sc. unfold file_of_names. rewrite (repr_len _ _ Sc). destruct (Z.ltb_spec (zlen (text c)) 1) as [E|_]; [exfalso; apply N; assert (text c = []) as -> by (apply zlen_zero; pose proof (zlen_nonneg (text c)); lia); reflexivity|].
  destruct (normalize_ok p _ Sp) as (p' & -> & Rp). cbn [bind]. destruct (normalize_ok c _ Sc) as (c' & -> & Rc). cbn [bind]. pose proof (canonical_len (text p)). destruct (resolve_ok p' _ c' _ Rp Rc ltac:(lia) N) as (f & E & R). apply repr_text in R as [T S]. exists f. auto.
Qed.
(** the same for a parent that is itself a File, and the components of the result *)
Theorem C76_below_file : forall d t c, sound d -> text d = canonical t -> sound c -> zlen t < 2 ^ 32 -> components (text c) <> [] ->
  exists f, file_in d c = Val f /\ sound f /\ text f = canonical (t ++ 47 :: text c) /\ components (text f) = components (text d) ++ components (text c).
Proof.
  intros d t c Sd Td Sc L N. apply sound_repr in Sd, Sc. unfold file_in. rewrite (repr_len _ _ Sc). destruct (Z.ltb_spec (zlen (text c)) 1) as [E|_]; [exfalso; apply N; assert (text c = []) as -> by (apply zlen_zero; pose proof (zlen_nonneg (text c)); lia); reflexivity|].
  destruct (normalize_ok c _ Sc) as (c' & -> & Rc). cbn [bind]. destruct (copy_ctor_ok d _ Sd) as (d' & -> & Rd & _). cbn [bind]. rewrite Td in Rd. pose proof (canonical_len t). destruct (resolve_ok d' _ c' _ Rd Rc ltac:(lia) N) as (f & E & R). apply repr_text in R as [T S]. exists f. split; [exact E|]. split; [exact S|]. split; [exact T|]. rewrite T, Td, !canonical_comps. apply comps_app.
Qed.
Theorem C76_empty_child : forall p c, sound c -> text c = [] -> file_of_names p c = Exn /\ file_in p c = Exn.
Proof. intros p c S T. apply sound_repr in S. unfold file_of_names, file_in. rewrite (repr_len _ _ S), T. split; reflexivity. Qed.
(** name() is the last component, parent() what is in front of it *)
Theorem C76_name_parent : forall f t ps x, sound f -> text f = canonical t -> components t = ps ++ [x] ->
  exists n d, name f = Val n /\ text n = x /\ parent f = Val d /\ text d = directory (absolute t) ps.
Proof.
  intros f t ps x S T C. apply sound_repr in S. rewrite T in S. destruct (name_ok f t ps x S C) as (n & En & Rn). destruct (parent_ok f t ps x S C) as (d & Ed & Rd). apply repr_text in Rn as [Tn _], Rd as [Td _]. eauto 8.
Qed.
(** the root and the empty name have neither *)
Theorem C76_root : forall f t, sound f -> text f = canonical t -> components t = [] -> exists n d, name f = Val n /\ text n = [] /\ parent f = Val d /\ text d = [].
Proof.
  intros f t S T C. apply sound_repr in S. rewrite T in S. destruct (root_name f t S C) as (n & En & Rn). apply repr_text in Rn as [Tn _]. exists n.
  assert (P : exists d, parent f = Val d /\ repr d []). { unfold canonical in S. rewrite C in S. cbn [joined] in S. rewrite app_nil_r in S. unfold parent. change DIR_SEP with 47. destruct (absolute t).
    - rewrite (last_index_ok f 47 [] [] S ltac:(intros [])). cbn [bind]. apply (substring_mid f [] [] [47]). exact S.
    - rewrite (last_index_none f 47 _ S ltac:(intros [])). cbn [bind]. apply (substring_mid f [] [] []). exact S. }
  destruct P as (d & Ed & Rd). apply repr_text in Rd as [Td _]. eauto 8.
Qed.
(** putting parent() and name() together gives the file back, except for a relative name of one component *)
Theorem C76_reassemble : forall f t ps x, sound f -> text f = canonical t -> components t = ps ++ [x] -> zlen t < 2 ^ 32 -> absolute t = true \/ ps <> [] ->
  exists n d g, name f = Val n /\ parent f = Val d /\ file_of_names d n = Val g /\ text g = text f.
Proof.
  intros f t ps x S T C L A. apply sound_repr in S. rewrite T in S. destruct (name_ok f t ps x S C) as (n & En & Rn). destruct (parent_ok f t ps x S C) as (d & Ed & Rd). destruct (canonical_last t ps x C) as [Cx Sh].
  apply repr_text in Rn as [Tn Sn]. apply repr_text in Rd as [Td Sd]. assert (Nn : components (text n) <> []) by (rewrite Tn, comps_one by exact Cx; discriminate).
  assert (Sh' : canonical t = directory (absolute t) ps ++ 47 :: x). { rewrite Sh. destruct ps; [destruct A as [A|A]; [now rewrite A|contradiction]|reflexivity]. }
  assert (Ld : zlen (text d) < 2 ^ 32). { rewrite Td. pose proof (canonical_len t) as Q. rewrite Sh', zlen_app, zlen_cons in Q. pose proof (zlen_nonneg x). lia. }
  destruct (C76_two_names d n Sd Sn Ld Nn) as (g & Eg & _ & Tg). exists n, d, g. split; [exact En|]. split; [exact Ed|]. split; [exact Eg|]. rewrite Tg, Td, Tn, <- Sh', T. apply canonical_idem.
Qed.
Theorem C76_relative_refuted : exists f n d g, file_of_path (str_of [120]) = Val f /\ name f = Val n /\ parent f = Val d /\ file_of_names d n = Val g /\ text f = [120] /\ text g = [47; 120].
Proof. eexists _, _, _, _. split; [vm_compute; reflexivity|]. split; [vm_compute; reflexivity|]. split; [vm_compute; reflexivity|]. split; [vm_compute; reflexivity|]. split; vm_compute; reflexivity. Qed.
(** a child of separators only gives a path that is not canonical and has an empty name: File(a, /) *)
Theorem C76_separator_child_refuted : exists f n, file_of_names (str_of [97]) (str_of [47]) = Val f /\ text f = [97; 47] /\ canonical (text f) = [97] /\ name f = Val n /\ text n = [].
Proof. eexists _, _. split; [vm_compute; reflexivity|]. split; [vm_compute; reflexivity|]. split; [vm_compute; reflexivity|]. split; vm_compute; reflexivity. Qed.
(** File(File(/usr//), lib/x.so) *)
Example C76_ex : exists d f n, file_of_path (str_of [47; 117; 47; 47]) = Val d /\ text d = canonical [47; 117; 47; 47] /\ file_in d (str_of [108; 47; 47; 120]) = Val f /\ text f = [47; 117; 47; 108; 47; 120] /\ name f = Val n /\ text n = [120].
Proof. eexists _, _, _. split; [vm_compute; reflexivity|]. split; [vm_compute; reflexivity|]. split; [vm_compute; reflexivity|]. split; [vm_compute; reflexivity|]. split; vm_compute; reflexivity. Qed.

(** * C77: extension and hidden files *)
Theorem C77_extension : forall f t ps x r, sound f -> text f = canonical t -> components t = ps ++ [x] -> behind_last 46 x r -> exists e, extension f = Val e /\ text e = r.
Proof.
  intros f t ps x r S T C [[p Ep] N]. apply sound_repr in S. rewrite T in S. destruct (canonical_last t ps x C) as [_ Sh]. rewrite Sh, Ep in S.
  assert (E : exists p', (if match ps with [] => absolute t | _ => true end then directory (absolute t) ps ++ 47 :: p ++ 46 :: r else p ++ 46 :: r) = p' ++ 46 :: r) by (destruct (match ps with [] => absolute t | _ => true end); [exists (directory (absolute t) ps ++ 47 :: p); now rewrite <- app_assoc|eauto]).
  destruct E as [p' E]. rewrite E in S. destruct (extension_ok f _ _ S N) as (e & Ee & R). apply repr_text in R as [Te _]. eauto.
Qed.
(** a path without any full stop: the extension is the whole path *)
Theorem C77_no_dot : forall f, sound f -> ~ In 46 (text f) -> exists e, extension f = Val e /\ text e = text f.
Proof. intros f S N. apply sound_repr in S. destruct (extension_none f _ S N) as (e & E & R). apply repr_text in R as [T _]. eauto. Qed.
(** and a full stop in a directory counts: /a.d/b has the extension d/b *)
Theorem C77_directory_dot_refuted : exists f n e, file_of_path (str_of [47; 97; 46; 100; 47; 98]) = Val f /\ name f = Val n /\ text n = [98] /\ extension f = Val e /\ text e = [100; 47; 98].
Proof. eexists _, _, _. split; [vm_compute; reflexivity|]. split; [vm_compute; reflexivity|]. split; [vm_compute; reflexivity|]. split; vm_compute; reflexivity. Qed.
Theorem C77_hidden : forall f t, sound f -> text f = canonical t ->
  match rev (components t) with [] => is_hidden f = Exn | x :: _ => exists b, is_hidden f = Val b /\ (b = true <-> exists r, x = 46 :: r) end.
Proof.
  intros f t S T. apply sound_repr in S. rewrite T in S. destruct (rev (components t)) as [|x ys] eqn:E.
  - apply (hidden_root f t S). rewrite <- (rev_involutive (components t)), E. reflexivity.
  - assert (C : components t = rev ys ++ [x]) by (rewrite <- (rev_involutive (components t)), E; reflexivity). rewrite (hidden_ok f t _ x S C). eexists. split; [reflexivity|]. destruct (canonical_last t _ x C) as [[NE _] _]. destruct x as [|c x]; [contradiction|]. cbn [hd]. rewrite Z.eqb_eq. split; [intros ->; eauto|intros [r Q]; congruence].
Qed.
Example C77_ex : exists f e, file_of_path (str_of [47; 97; 47; 46; 98; 46; 99; 46; 100]) = Val f /\ extension f = Val e /\ text e = [100] /\ is_hidden f = Val true /\ behind_last 46 [46; 98; 46; 99; 46; 100] [100].
Proof. eexists _, _. split; [vm_compute; reflexivity|]. split; [vm_compute; reflexivity|]. split; [vm_compute; reflexivity|]. split; [vm_compute; reflexivity|]. split; [exists [46; 98; 46; 99]; reflexivity|intros [H|[]]; discriminate]. Qed.

(** * C78: reading under every schedule of short reads *)
Theorem C78_read_fully : forall content pos buf length reads, 0 <= pos -> 0 <= length <= zlen buf ->
  let all := Z.min length (Z.max 0 (zlen content - pos)) in
  exists n, 0 <= n <= all /\ read_fully content pos buf length 0 reads = Val (n, pos + n, ztake n (zdrop pos content) ++ zdrop n buf) /\ (delivers reads all -> n = all).
Proof.
  intros content pos buf length reads Hp Hl all. destruct (read_fully_ok content reads pos [] (ztake length buf) length Hp ltac:(apply zlen_ztake; lia) (zdrop length buf)) as (n & Hn & E & D). exists n. split; [exact Hn|]. split; [|exact D]. cbn [app] in E. rewrite take_drop in E. rewrite zlen_nil, Z.add_0_l in E. rewrite E. f_equal. f_equal. f_equal.
  assert (Q : zdrop n (ztake length buf) ++ zdrop length buf = zdrop n buf). { unfold zdrop, ztake. rewrite <- (firstn_skipn (Z.to_nat length) buf) at 3. rewrite skipn_app. f_equal. rewrite firstn_length. replace (Z.to_nat n - Nat.min (Z.to_nat length) (List.length buf))%nat with 0%nat by (unfold zlen in *; lia). reflexivity. }
  exact Q.
Qed.
(** 6 of 7 bytes in reads of 2, 1 and 9 bytes; a read that delivers nothing ends it *)
Example C78_ex : read_fully [1; 2; 3; 4; 5; 6; 7] 0 (zeros 6) 6 0 [2; 1; 9] = Val (6, 6, [1; 2; 3; 4; 5; 6]) /\ delivers [2; 1; 9] 6 /\ read_fully [1; 2; 3; 4; 5; 6; 7] 4 (zeros 6) 6 0 [2; 0; 9] = Val (2, 6, [5; 6; 0; 0; 0; 0]).
Proof. split; [vm_compute; reflexivity|]. split; [cbn; lia|vm_compute; reflexivity]. Qed.

(** * C79: every history of setTags, addTag, removeTag and getTags *)
Theorem C79_history : forall os, all_gfit os [] -> exists x, gexec_all os None = Val (fst (gspecs os []), x).
Proof.
  intros os A. destruct (gexec_all_ok os None [] ltac:(split; [split; [constructor|cbn; lia]|reflexivity]) A) as (x & E & _). eauto.
Qed.
(** the tags survive a new File object: what is stored in the attribute is the text of the tags *)
Theorem C79_stored : forall os, all_gfit os [] -> exists r v, gexec_all os None = Val (r, v) /\ match v with None => snd (gspecs os []) = [] | Some b => b = concat (map utf8 (joined 44 (snd (gspecs os [])))) end.
Proof.
  intros os A. destruct (gexec_all_ok os None [] ltac:(split; [split; [constructor|cbn; lia]|reflexivity]) A) as (x & E & _ & X). exists (fst (gspecs os [])), x. split; [exact E|]. destruct x; exact X.
Qed.
(** a comma in a tag makes two of it *)
Theorem C79_comma_refuted : exists x l, add_tag None (str_of [97; 44; 98]) = Val x /\ get_tags x = Val l /\ texts l = [[97]; [98]].
Proof. eexists _, _. split; [vm_compute; reflexivity|]. split; vm_compute; reflexivity. Qed.
(** more than 4096 bytes of tags: getTags() answers that there are none, and the next addTag() throws all of them away *)
Theorem C79_long_refuted : forall ts t, lsound ts -> Forall good_tag (texts ts) -> 4096 < zlen (concat (map utf8 (joined 44 (texts ts)))) < 2 ^ 32 -> sound t -> good_tag (text t) -> zlen (text t) < 2 ^ 10 ->
  exists x x' l l', set_tags ts = Val x /\ get_tags x = Val l /\ texts l = [] /\ add_tag x t = Val x' /\ get_tags x' = Val l' /\ texts l' = [text t].
Proof.
  intros ts t S F L St Gt Lt. apply lsound_lrepr in S as [R _]. apply sound_repr in St. destruct (good_joined _ F) as [Fj _].
  assert (E : set_tags ts = Val (Some (concat (map utf8 (joined 44 (texts ts)))))).
  { unfold set_tags. destruct (join_ok ts _ 44 R) as (s & -> & Rs). cbn [bind]. destruct (copy_ctor_ok s _ Rs) as (s1 & -> & S1 & _). cbn [bind]. rewrite (repr_len _ _ S1). pose proof S1 as (j & E & _). rewrite E, memcpy_zeros by lia. cbn [bind]. rewrite Z.sub_diag. change (zeros 0) with (@nil Z). rewrite app_nil_r. rewrite encode_spec; [reflexivity| |lia]. eapply Forall_impl; [|exact Fj]. cbv beta. unfold unitz. intros; lia. }
  set (v := concat (map utf8 (joined 44 (texts ts)))) in *. assert (G : get_tags (Some v) = Val sl_new). { unfold get_tags. destruct (Z.ltb_spec 0 (zlen v)); [|lia]. destruct (Z.leb_spec (zlen v) 4096); [lia|reflexivity]. }
  assert (Fit : tags_fit [text t]). { split; [constructor; [exact Gt|constructor]|]. cbn [joined]. destruct Gt as (_ & _ & Ft & _). assert (Q : zlen (concat (map utf8 (text t))) <= 3 * zlen (text t)); [|lia]. clear - Ft. induction (text t) as [|c u IH]; [cbn; lia|]. apply Forall_cons_iff in Ft as [Fc Ft]. cbn [map concat]. rewrite zlen_app, zlen_cons. specialize (IH Ft). assert (zlen (utf8 c) <= 3); [|lia]. unfold utf8. repeat match goal with |- context[if ?b then _ else _] => destruct b eqn:? end; cbn; lia. }
  assert (C : sl_contains sl_new t = Val false). { rewrite (contains_ok sl_new [] t _ L_Preferences5.new_list St ltac:(constructor)). reflexivity. }
  destruct (append_list_ok sl_new [] t _ L_Preferences5.new_list ltac:(cbn; lia) St) as (r & Er & Rr). destruct (set_tags_ok r _ Rr Fit) as (x' & Ex & Tx). destruct (get_tags_ok x' _ Tx) as (l' & El & Rl). destruct (lrepr_lsound l' _ Rl (fit_small _ Fit)) as [_ Tl].
  exists (Some v), x', sl_new, l'. split; [exact E|]. split; [exact G|]. split; [reflexivity|]. split; [unfold add_tag; rewrite G; cbn [bind]; rewrite C; cbn [bind negb]; rewrite Er; cbn [bind]; exact Ex|]. split; assumption.
Qed.
(** set, add, add again, remove, read *)
Example C79_ex : let os := [GAdd (str_of [97; 228]); GAdd (str_of [98]); GAdd (str_of [97; 228]); GRemove (str_of [97; 228]); GGet; GRemove (str_of [98]); GGet] in
  all_gfit os [] /\ exists x, gexec_all os None = Val ([None; None; None; None; Some [[98]]; None; Some []], x).
Proof.
  cbv zeta. assert (G1 : good_tag [97; 228]) by (split; [discriminate|]; split; [cbn; lia|]; split; [repeat (constructor; [lia|]); constructor|cbn; lia]). assert (G2 : good_tag [98]) by (split; [discriminate|]; split; [cbn; lia|]; split; [repeat (constructor; [lia|]); constructor|cbn; lia]).
  assert (S : forall u, sound (str_of u)) by (intros u; apply (repr_text _ u), str_of_repr). assert (T : forall u, text (str_of u) = u) by (intros u; apply (repr_text _ u), str_of_repr).
  split; [|eexists; vm_compute; reflexivity]. unfold all_gfit, gfits, tags_fit, gspec. cbn [snd]. rewrite !T. change (existsb (fun y => teq y [97; 228]) []) with false. cbv iota. cbn [app]. change (existsb (fun y => teq y [98]) [[97; 228]]) with false. cbv iota. cbn [app]. change (existsb (fun y => teq y [97; 228]) [[97; 228]; [98]]) with true. cbv iota. change (filter (fun y => negb (teq y [97; 228])) [[97; 228]; [98]]) with [[98]]. change (filter (fun y => negb (teq y [98])) [[98]]) with (@nil (list Z)).
  repeat split; try apply S; try (match goal with |- Forall _ _ => repeat (constructor; [assumption|]); constructor end); vm_compute; congruence.
Qed.

(** * C20: String::split(c) gives the tokens *)
Theorem C20_split : forall s c, sound s -> zlen (text s) < 2 ^ 32 -> exists l, split s c = Val l /\ lsound l /\ texts l = tokens false (is_in [c]) [] (text s).
Proof.
  intros s c S L. apply sound_repr in S. destruct (split_ok s _ c S ltac:(lia)) as (l & E & R). exists l. split; [exact E|]. apply lrepr_lsound; [exact R|]. rewrite Forall_forall. intros x I. apply (L_Preferences4.tokens_In false (is_in [c]) eq_refl) in I as [I _]. rewrite zlen_nil in I. lia.
Qed.
(** joining with c and splitting at c are inverse for elements that are not empty and do not contain c *)
Theorem C20_split_join : forall l c, lsound l -> Forall (fun x => x <> [] /\ ~ In c x) (texts l) -> zlen (joined c (texts l)) < 2 ^ 32 -> exists s l', sl_join l c = Val s /\ split s c = Val l' /\ texts l' = texts l.
Proof.
  intros l c S F L. apply lsound_lrepr in S as [R _]. destruct (join_ok l _ c R) as (s & E & Rs). apply repr_text in Rs as [T Ss]. destruct (C20_split s c Ss ltac:(rewrite T; exact L)) as (l' & E' & _ & T'). exists s, l'. split; [exact E|]. split; [exact E'|]. rewrite T', T. now apply joined_tokens.
Qed.
Example C20_split_ex : exists l, split (str_of [97; 44; 44; 98]) 44 = Val l /\ texts l = [[97]; [98]].
Proof. eexists. split; vm_compute; reflexivity. Qed.
Print Assumptions C75_canonical. Print Assumptions C75_same_place. Print Assumptions C75_shortest. Print Assumptions C75_equal_paths.
Print Assumptions C76_two_names. Print Assumptions C76_below_file. Print Assumptions C76_empty_child. Print Assumptions C76_name_parent. Print Assumptions C76_root. Print Assumptions C76_reassemble. Print Assumptions C76_relative_refuted. Print Assumptions C76_separator_child_refuted.
Print Assumptions C77_extension. Print Assumptions C77_no_dot. Print Assumptions C77_directory_dot_refuted. Print Assumptions C77_hidden. Print Assumptions C78_read_fully.
Print Assumptions C79_history. Print Assumptions C79_stored. Print Assumptions C79_comma_refuted. Print Assumptions C79_long_refuted. Print Assumptions C20_split. Print Assumptions C20_split_join.
