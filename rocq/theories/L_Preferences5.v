From Verif Require Import L_Utf8.
From Verif Require Import Base M_Utf8 M_String M_Hashtable M_Tokenizer M_StringList M_Preferences S_String S_Utf8 S_Sort S_Tokenizer S_StringList S_Integer S_Hashtable S_Preferences.
From Verif Require Import L_String L_String2 L_String3 L_String4 L_Integer L_Sort L_Hashtable L_StringList L_Preferences L_Preferences2 L_Preferences3 L_Preferences4.
Ltac Zify.zify_post_hook ::= Z.to_euclidean_division_equations.

(** * iterating *)
Lemma it_step h t b fuel it es : Forall2 (fun p l => seg h p l 0) (hdata t) b -> (length b < fuel)%nat -> itrep h t b it es ->
  match es with
  | [] => exists it', it_has_next t it fuel = Val (false, it')
  | e :: es' => exists it', it_has_next t it fuel = Val (true, it') /\ exists r it2, it_next h t it' fuel = Val (Some (HN (eh e) (ek e) (ev e) r), it2) /\ itrep h t b it2 es'
  end.
Proof.
  intros F Hf R. assert (Fu : forall it0 es0, itrep h t b it0 es0 -> (Z.to_nat (zlen b - iindex it0) < fuel)%nat) by (intros it0 es0 (l & b1 & b2 & _ & _ & L & _); pose proof (zlen_nonneg b1); unfold zlen in *; lia).
  destruct (it_skip_ok h t b F fuel it es R (Fu _ _ R)) as (it' & E & R' & _ & Z0). unfold it_has_next. rewrite E. cbn [bind]. destruct es as [|e es].
  - exists it'. destruct (Z.eqb_spec (ientry it') 0) as [E0|N0]; [reflexivity|]. exfalso. tauto.
  - exists it'. destruct (Z.eqb_spec (ientry it') 0) as [E0|N0]; [apply Z0 in E0; discriminate|]. split; [reflexivity|]. unfold it_next.
    destruct (it_skip_ok h t b F fuel it' _ R' (Fu _ _ R')) as (it2 & E2 & R2 & _ & Z2). rewrite E2. cbn [bind]. destruct (Z.eqb_spec (ientry it2) 0) as [E0|N2]; [apply Z2 in E0; discriminate|]. cbn [negb].
    destruct R2 as (l & b1 & b2 & S & Eb & L & Ee). destruct l as [|e0 l]; [cbn in S; contradiction|]. cbn [app] in Ee. injection Ee as <- Ee. destruct S as (A & B & r & D & S). rewrite D. cbn [bind nnext]. exists r, (HI r (iindex it2)). split; [reflexivity|]. exists l, b1, b2. auto.
Qed.
Lemma stored_key h t b e : inv [] h t b -> In e (concat b) -> good_key (ek e).
Proof. intros I H. pose proof (inv_eok _ _ _ _ I) as Ek. rewrite Forall_forall in Ek. destruct (Ek e H) as (S0 & L & U & Hh). split; [split; [exact S0|split; assumption]|now apply clean_zero]. Qed.
Definition eline (m : settings) (e : ent) : list Z := line_of (text (ek e), text_or (lookup m (text (ek e)))).
Lemma zlen_utf8_ge t : Forall unit16 t -> zlen t <= zlen (bytes_of t).
Proof.
  induction 1 as [|c t U F IH]; [cbn; lia|]. unfold bytes_of in *. cbn [map concat]. rewrite zlen_app, zlen_cons. rewrite utf8_len by exact U. destruct (c <? 128); [lia|]. destruct (c <? 2048); lia.
Qed.
Lemma bytes_app a b : bytes_of (a ++ b) = bytes_of a ++ bytes_of b.
Proof. unfold bytes_of. rewrite map_app. apply concat_app. Qed.
Lemma esc_unit t : Forall unit16 t -> Forall unit16 (esc t).
Proof. induction 1 as [|c t U F IH]; [constructor|]. rewrite esc_cons. apply Forall_app. split; [|exact IH]. destruct (c =? 92); [|destruct (c =? 9)]; repeat constructor; unfold unit16 in *; lia. Qed.
Lemma eline_unit m e : Forall rowok m -> Forall unit16 (text (ek e)) -> Forall unit16 (eline m e).
Proof.
  intros F U. unfold eline, line_of. cbn [fst snd]. apply Forall_app. split; [exact U|]. apply Forall_app. split; [repeat constructor; unfold unit16; lia|]. apply Forall_app. split; [apply esc_unit, rowok_lookup, F|repeat constructor; unfold unit16; lia].
Qed.
Lemma entry_loop_ok p b mz m K fuel : pstate p b mz m K -> (Z.to_nat (3 * K + 7) < fuel)%nat -> 0 <= K ->
  forall es it entries ts k, itrep (pnodes p) (ptab p) b it es -> (forall e, In e es -> In e (concat b)) -> Forall (fun e => zlen (bytes_of (eline m e)) < 2 ^ 32) es -> lrepr entries ts -> zlen ts + zlen es < 2 ^ 62 -> (length es < k)%nat ->
  exists entries', entry_loop p it entries fuel k = Val entries' /\ lrepr entries' (ts ++ map (eline m) es).
Proof.
  intros St Hf HK. pose proof St as (I & M & P & F & R & ND & Dead & Ok). pose proof (count_K _ _ _ _ I F) as [C1 C2].
  induction es as [|e es IH]; intros it entries ts k Ir Sub Sz Le B Hk; (destruct k as [|k]; [cbn [length] in Hk; lia|]); cbn [entry_loop].
  - destruct (it_step _ _ b fuel it [] ltac:(apply I) ltac:(unfold zlen in C2; lia) Ir) as (it' & ->). cbn [bind]. exists entries. split; [reflexivity|]. now rewrite app_nil_r.
  - destruct (it_step _ _ b fuel it (e :: es) ltac:(apply I) ltac:(unfold zlen in C2; lia) Ir) as (it' & -> & r & it2 & Ex & I2). cbn [bind]. rewrite Ex. cbn [bind nkey].
    pose proof (stored_key _ _ _ e I (Sub e ltac:(now left))) as Gk. pose proof Gk as ((Sk & Uk & Lk) & _). destruct (copy_ctor_ok (ek e) (text (ek e)) ltac:(now apply sound_repr)) as (key & -> & Rk & Hh & _). cbn [bind].
    assert (Tk : text key = text (ek e)) by (now apply repr_text). assert (Gk' : good_key key). { destruct Gk as [_ Cl]. unfold good_key, proper, clean, reported in *. rewrite Tk, Hh. split; [|exact Cl]. split; [eapply repr_text; eauto|auto]. }
    destruct (value_ok p m K key fuel ltac:(now exists b, mz) Gk' ltac:(lia)) as (v & -> & Rv). cbn [bind]. rewrite Tk in Rv. set (t := text_or (lookup m (text (ek e)))) in *.
    apply Forall_cons_iff in Sz as [Se Sz]. pose proof (eline_unit m e Ok Uk) as Ul. assert (Lt : zlen (esc t) < 4294967296). { pose proof (zlen_utf8_ge _ Ul) as G. unfold eline, line_of in G, Se. cbn [fst snd] in G, Se. fold t in G, Se. rewrite !zlen_app in G. pose proof (zlen_nonneg (text (ek e))). change (zlen [61]) with 1 in G. change (zlen [10]) with 1 in G. lia. }
    assert (Lv : len v = zlen t) by (destruct Rv as (? & _ & L); exact L).
    destruct (escape_loop_ok (S (Z.to_nat (len v))) t [] v Rv Lt) as (v' & Ee & Rv'); [rewrite Lv, length_zlen; lia|]. change (zlen (@nil Z)) with 0 in Ee. rewrite Ee. cbn [bind app] in *.
    destruct (append_char_ok key _ 61 Rk) as (k1 & -> & R1 & _). cbn [bind]. destruct (append_ok k1 _ v' _ R1 Rv') as (k2 & -> & R2). cbn [bind]. destruct (append_ok k2 _ l_lf [10] R2 (str_of_repr _)) as (k3 & -> & R3). cbn [bind]. rewrite zlen_cons in B. pose proof (zlen_nonneg es).
    destruct (append_list_ok entries ts k3 _ Le ltac:(lia) R3) as (en & -> & Le'). cbn [bind]. cbn [length] in Hk. destruct (IH it2 en _ k I2 (fun x Hx => Sub x (or_intror Hx)) Sz Le') as (en' & E & L'); [rewrite zlen_app; change (zlen [_]) with 1; lia|lia|].
    exists en'. split; [exact E|]. rewrite <- app_assoc in L'. cbn [app map] in *. unfold eline at 1, line_of. cbn [fst snd]. fold t. rewrite <- !app_assoc in L'. cbn [app] in L'. exact L'.
Qed.
(** * the order of the lines *)
Lemma lookup_in m k v : NoDup (map fst m) -> In (k, v) m -> lookup m k = Some v.
Proof.
  induction m as [|[k' v'] m IH]; intros N H; [destruct H|]. cbn [map fst lookup] in *. inversion N as [|? ? N1 N2]; subst. destruct H as [E|H]; [injection E as -> ->; destruct (text_dec k k); [reflexivity|contradiction]|]. destruct (text_dec k' k) as [->|]; [|auto]. exfalso. apply N1. now apply (in_map fst) in H.
Qed.
Lemma rows_keys vals mt m : Forall2 (row vals) mt m -> map fst mt = map fst m.
Proof. induction 1 as [|e r mt m (E & _) F IH]; [reflexivity|]. cbn [map]. now rewrite E, IH. Qed.
Lemma pstate_nodup p b mz m K : pstate p b mz m K -> NoDup (map fst m).
Proof.
  intros (I & M & P & F & R & _). rewrite <- (rows_keys _ _ _ R). rewrite map_map. apply pure_nodup; [exact P|]. eapply models_nodup; [|exact M]. destruct I as (_ & _ & _ & _ & _ & X & _). exact X.
Qed.
Lemma elines_perm p b mz m K : pstate p b mz m K -> Permutation (map (eline m) (concat b)) (map line_of m).
Proof.
  intros St. pose proof (pstate_nodup _ _ _ _ _ St) as N. pose proof St as (I & M & P & F & R & _). pose proof (rows_keys _ _ _ R) as Ek.
  assert (E1 : map line_of m = map (fun k => line_of (k, text_or (lookup m k))) (map fst m)). { rewrite map_map. apply map_ext_in. intros [k v] H. cbn [fst]. now rewrite (lookup_in m k v N H). }
  rewrite E1, <- Ek, !map_map. assert (E2 : map (eline m) (concat b) = map (fun e => line_of (fst (drop_hash e), text_or (lookup m (fst (drop_hash e))))) (map absent (concat b))) by (rewrite map_map; reflexivity). rewrite E2. apply Permutation_map, Permutation_sym, M.
Qed.
Lemma lex_eq a : forall b, lex a b = Eq -> a = b.
Proof. induction a as [|x a IH]; intros [|y b] H; try discriminate; [reflexivity|]. cbn [lex] in H. destruct (Z.compare_spec x y) as [->|?|?]; try discriminate. f_equal. auto. Qed.
Lemma lex_flip a : forall b, lex b a = CompOpp (lex a b).
Proof. induction a as [|x a IH]; intros [|y b]; try reflexivity. cbn [lex]. rewrite (Z.compare_antisym x y). destruct (x ?= y); cbn [CompOpp]; auto. Qed.
Inductive up : list (list Z) -> Prop := up_nil : up [] | up_cons x l : Forall (fun y => lex x y <> Gt) l -> up l -> up (x :: l).
Lemma sorted_up l : sorted (fun a b => lex a b <> Gt) l -> up l.
Proof.
  induction l as [|x l IH]; intros H; constructor.
  - apply Forall_forall. intros y Hy. apply In_lget in Hy as (i & Hi & E). apply (H 0 (i + 1)); [lia|apply lget_cons_0|]. rewrite lget_cons_S by lia. replace (i + 1 - 1) with i by lia. exact E.
  - apply IH. intros i j a b Hij Ha Hb. pose proof (lget_some_range _ _ _ Ha). pose proof (lget_some_range _ _ _ Hb). apply (H (i + 1) (j + 1)); [lia| |]; rewrite lget_cons_S by lia; [replace (i + 1 - 1) with i by lia|replace (j + 1 - 1) with j by lia]; assumption.
Qed.
Lemma up_unique : forall l l', up l -> up l' -> Permutation l l' -> l = l'.
Proof.
  induction l as [|x l IH]; intros l' U U' P; [apply Permutation_nil in P; now subst|]. destruct l' as [|y l']; [apply Permutation_sym, Permutation_nil in P; discriminate|]. inversion U as [|? ? Fx Ul]; inversion U' as [|? ? Fy Ul']; subst.
  assert (x = y). { assert (Hx : In x (y :: l')) by (eapply Permutation_in; [exact P|now left]). assert (Hy : In y (x :: l)) by (eapply Permutation_in; [apply Permutation_sym, P|now left]). destruct Hx as [|Hx]; [auto|]. destruct Hy as [|Hy]; [auto|]. rewrite Forall_forall in *. pose proof (Fx y Hy) as A. pose proof (Fy x Hx) as B. rewrite lex_flip in B. destruct (lex x y) eqn:E; [now apply lex_eq|exfalso; apply B; reflexivity|contradiction]. }
  subst y. f_equal. apply IH; auto. eapply Permutation_cons_inv; eauto.
Qed.
Lemma insert_perm x l : Permutation (insert_line x l) (x :: l).
Proof. induction l as [|y l IH]; [reflexivity|]. cbn [insert_line]. destruct (lex x y); try reflexivity. etransitivity; [constructor; exact IH|]. constructor. Qed.
Lemma lex_trans a b c : lex a b <> Gt -> lex b c <> Gt -> lex a c <> Gt.
Proof. destruct lex_preorder as (_ & T & _). apply T. Qed.
Lemma insert_up x l : up l -> up (insert_line x l).
Proof.
  induction 1 as [|y l F U IH]; cbn [insert_line]; [constructor; constructor|]. destruct (lex x y) eqn:E.
  - constructor; [|constructor; assumption]. constructor; [congruence|]. rewrite Forall_forall in *. intros z Hz. apply (lex_trans x y z); [congruence|auto].
  - constructor; [|constructor; assumption]. constructor; [congruence|]. rewrite Forall_forall in *. intros z Hz. apply (lex_trans x y z); [congruence|auto].
  - constructor; [|exact IH]. rewrite Forall_forall in *. intros z Hz. apply (Permutation_in z (insert_perm x l)) in Hz as [<-|Hz]; [|auto]. rewrite lex_flip, E. discriminate.
Qed.
Lemma sort_lines_ok ls : up (sort_lines ls) /\ Permutation (sort_lines ls) ls.
Proof.
  induction ls as [|l ls [U P]]; [split; constructor|]. cbn [sort_lines fold_right]. fold (sort_lines ls). split; [now apply insert_up|]. etransitivity; [apply insert_perm|]. now constructor.
Qed.
(** * writing *)
Lemma write_lines_ok w : forall v d junk k, holds d (v ++ w ++ junk) -> Forall (fun t => Forall unit16 t /\ zlen (bytes_of t) < 2 ^ 32) w -> k = length w -> write_lines d (zlen v) k = Val (bytes_of (concat w)).
Proof.
  induction w as [|t w IH]; intros v d junk k H F ->; [reflexivity|]. cbn [length write_lines]. apply Forall_cons_iff in F as [[U L] F]. destruct (rd_holds d v t (w ++ junk) (zlen v) H eq_refl) as (s & -> & R). cbn [bind]. destruct R as (j & Eb & El). rewrite Eb, El, memcpy_zeros by lia. cbn [bind]. rewrite Z.sub_diag. change (zeros 0) with (@nil Z). rewrite app_nil_r. unfold bytes_of in L. rewrite encode_spec by (assumption || lia). cbn [bind].
  replace (zlen v + 1) with (zlen (v ++ [t])) by (rewrite zlen_app; reflexivity). rewrite (IH (v ++ [t]) d junk (length w)); [|rewrite <- app_assoc; exact H|exact F|reflexivity]. cbn [bind concat]. rewrite bytes_app. reflexivity.
Qed.
Lemma itrep_new p b : itrep (pnodes p) (ptab p) b it_new (concat b).
Proof. exists [], [], b. repeat split; reflexivity. Qed.
Lemma new_list : lrepr sl_new [].
Proof. exists (repeat [] 8). cbn [sl_new sdata ssize app]. split; [|reflexivity]. cbn [repeat]. repeat (constructor; [apply str_new_repr|]). constructor. Qed.
Lemma save_ok p m K fuel : pinv p m K -> Forall (fun l => zlen (bytes_of l) < 2 ^ 32) (map line_of m) -> (Z.to_nat (3 * K + 8) < fuel)%nat -> 0 <= K < 2 ^ 59 -> save p fuel = Val (file_of m).
Proof.
  intros (b & mz & St) Sz Hf HK. pose proof St as (I & M & P & F & R & ND & Dead & Ok). pose proof (elines_perm _ _ _ _ _ St) as Pe. pose proof (count_K _ _ _ _ I F) as [C1 C2]. unfold save.
  destruct (entry_loop_ok p b mz m K fuel St ltac:(lia) ltac:(lia) (concat b) it_new sl_new [] fuel (itrep_new p b) (fun e H => H)) as (en & -> & Le); [|exact new_list|change (zlen (@nil (list Z))) with 0; lia|unfold zlen in C1; lia|].
  - apply Forall_forall. intros e He. rewrite Forall_forall in Sz. apply Sz. eapply Permutation_in; [exact Pe|]. now apply in_map.
  - cbn [bind app] in *. destruct (sort_list_ok en _ Le) as (en' & ts & -> & (junk & Hh & Ln) & Pt & So). cbn [bind]. rewrite Ln. rewrite <- length_zlen. change 0 with (zlen (@nil (list Z))) at 1.
    assert (Ef : ts = file_lines m). { destruct (sort_lines_ok (map line_of m)) as [U P2]. apply up_unique; [now apply sorted_up|exact U|]. etransitivity; [exact Pt|]. etransitivity; [exact Pe|]. apply Permutation_sym, P2. }
    rewrite (write_lines_ok ts [] (sdata en') junk (length ts)); [rewrite Ef; reflexivity|exact Hh| |reflexivity].
    apply Forall_forall. intros t Ht. assert (In t (map line_of m)) as Hm by (eapply Permutation_in; [exact (Permutation_trans Pt Pe)|exact Ht]). rewrite Forall_forall in Sz. split; [|now apply Sz]. apply in_map_iff in Hm as (r & <- & Hr). rewrite Forall_forall in Ok. destruct (Ok r Hr) as (A & _ & B & _). unfold line_of. apply Forall_app. split; [exact A|]. apply Forall_app. split; [repeat constructor; unfold unit16; lia|]. apply Forall_app. split; [now apply esc_unit|repeat constructor; unfold unit16; lia].
Qed.
(** * the destructor *)
Lemma drop_values_ok p b mz m K fuel : pstate p b mz m K -> (Z.to_nat (3 * K + 7) < fuel)%nat -> 0 <= K ->
  forall es it vals k, itrep (pnodes p) (ptab p) b it es -> (forall e, In e es -> In e (concat b)) -> NoDup (map ev es) -> (forall e, In e es -> exists s, vderef vals (ev e) = Val s) -> (length es < k)%nat ->
  exists vals', drop_values (pnodes p) (ptab p) vals it fuel k = Val vals' /\ forall q, vderef vals' q = if in_dec Z.eq_dec q (map ev es) then UB else vderef vals q.
Proof.
  intros St Hf HK. pose proof St as (I & M & P & F & R & ND & Dead & Ok). pose proof (count_K _ _ _ _ I F) as [C1 C2].
  induction es as [|e es IH]; intros it vals k Ir Sub Nd Lv Hk; (destruct k as [|k]; [cbn [length] in Hk; lia|]); cbn [drop_values].
  - destruct (it_step _ _ b fuel it [] ltac:(apply I) ltac:(unfold zlen in C2; lia) Ir) as (it' & ->). cbn [bind]. exists vals. split; [reflexivity|]. intros q. reflexivity.
  - destruct (it_step _ _ b fuel it (e :: es) ltac:(apply I) ltac:(unfold zlen in C2; lia) Ir) as (it' & -> & r & it2 & Ex & I2). cbn [bind]. rewrite Ex. cbn [bind nkey].
    pose proof (Sub e ltac:(now left)) as Ie. pose proof (stored_key _ _ _ e I Ie) as Gk.
    assert (Eg : ht_get (pnodes p) (ptab p) (ek e) fuel = Val (ev e)).
    { rewrite (L_Hashtable.get_ok [] _ _ b mz (ek e) fuel I M ltac:(apply Gk) ltac:(unfold zlen in C1; lia)). f_equal. unfold mval. assert (NK : NoDup (map fst mz)) by (eapply models_nodup; [|exact M]; destruct I as (_ & _ & _ & _ & _ & X & _); exact X).
      assert (Im : In (absent e) mz) by (eapply Permutation_in; [apply Permutation_sym, M|now apply in_map]). assert (Ek : fst (absent e) = key_of (ek e)). { unfold pure in P. rewrite Forall_forall in P. specialize (P _ Im). destruct Gk as [_ Cl]. unfold clean in Cl. unfold key_of. rewrite Cl. cbn [absent fst ekey] in *. unfold ekey in *. cbn [fst snd] in P. now rewrite P. }
      clear - NK Im Ek. induction mz as [|[k0 v0] mz IH]; [destruct Im|]. cbn [mget map fst] in *. inversion NK as [|? ? N1 N2]; subst. destruct Im as [E|Im]; [|].
      - assert (k0 = key_of (ek e)) by (rewrite <- E in Ek; exact Ek). assert (v0 = ev e) by (injection E as _ ->; reflexivity). subst. replace (same pair_dec (key_of (ek e)) (key_of (ek e))) with true by (symmetry; now apply same_true). reflexivity.
      - destruct (same pair_dec k0 (key_of (ek e))) eqn:Sm; [|auto]. apply same_true in Sm. exfalso. apply N1. rewrite Sm, <- Ek. now apply in_map. }
    rewrite Eg. cbn [bind]. destruct (Lv e ltac:(now left)) as (s & D). assert (N0 : ev e <> 0) by (apply vderef_range in D; lia). destruct (Z.eqb_spec (ev e) 0); [contradiction|]. destruct (vfree_ok vals (ev e) s D) as (v1 & -> & _ & V1). cbn [bind map] in *. inversion Nd as [|? ? N1 N2]; subst. cbn [length] in Hk.
    destruct (IH it2 v1 k I2 (fun x Hx => Sub x (or_intror Hx)) N2) as (v' & E & V'); [|lia|].
    + intros x Hx. rewrite V1. destruct (Z.eqb_spec (ev x) (ev e)) as [Eq|]; [exfalso; apply N1; rewrite <- Eq; now apply in_map|]. apply Lv. now right.
    + exists v'. split; [exact E|]. intros q. rewrite V', V1. destruct (in_dec Z.eq_dec q (map ev es)) as [J|J], (in_dec Z.eq_dec q (ev e :: map ev es)) as [J'|J']; try reflexivity.
      * exfalso. apply J'. now right.
      * destruct J' as [->|J']; [now rewrite Z.eqb_refl|contradiction].
      * destruct (Z.eqb_spec q (ev e)) as [->|]; [exfalso; apply J'; now left|reflexivity].
Qed.
Lemma destroy_ok p m K fuel : pinv p m K -> (Z.to_nat (3 * K + 8) < fuel)%nat -> 0 <= K -> exists p', destroy p fuel = Val p' /\ (forall q, hderef (pnodes p') q = UB) /\ (forall q, vderef (pvals p') q = UB) /\ hcount (ptab p') = 0.
Proof.
  intros (b & mz & St) Hf HK. pose proof St as (I & M & P & F & R & ND & Dead & Ok). pose proof (count_K _ _ _ _ I F) as [C1 C2]. unfold destroy.
  assert (Pv : Permutation (map snd mz) (map ev (concat b))). { etransitivity; [apply Permutation_map, M|]. rewrite map_map. apply Permutation_refl. }
  destruct (drop_values_ok p b mz m K fuel St ltac:(lia) HK (concat b) it_new (pvals p) fuel (itrep_new p b) (fun e H => H)) as (vals & -> & V); [eapply Permutation_NoDup; [exact Pv|exact ND]| |unfold zlen in C1; lia|].
  - intros e He. assert (In (ev e) (map snd mz)) as J by (eapply Permutation_in; [apply Permutation_sym, Pv|now apply in_map]). remember (map drop_hash mz) as mt eqn:Em. assert (Eq : map snd mz = map snd mt) by (subst mt; rewrite map_map; reflexivity). rewrite Eq in J. clear - R J. induction R as [|x r mt m (_ & _ & s & D & _) R IH]; [destruct J|]. cbn [map] in J. destruct J as [<-|J]; eauto.
  - cbn [bind]. destruct (clear_ok [] _ _ b fuel K I ltac:(unfold zlen in C1; lia) F HK) as (h' & t' & b' & -> & I' & Eb & _ & Back). cbn [bind]. eexists. split; [reflexivity|]. cbn [pnodes pvals ptab]. split; [|split].
    + intros q. rewrite Back. unfold hderef. destruct (lget [] (q - 1)) eqn:E; [|reflexivity]. apply lget_In in E. destruct E.
    + intros q. rewrite V. destruct (in_dec Z.eq_dec q (map ev (concat b))) as [J|J]; [reflexivity|]. apply Dead. intros J'. apply J. eapply Permutation_in; [exact Pv|exact J'].
    + destruct I' as (_ & _ & _ & _ & _ & _ & C & _). rewrite C, Eb. reflexivity.
Qed.
