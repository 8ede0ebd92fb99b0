From Verif Require Import L_Utf8.
From Verif Require Import Base M_Utf8 M_String M_Hashtable M_Tokenizer M_StringList M_Preferences S_String S_Utf8 S_Sort S_Tokenizer S_StringList S_Integer S_Hashtable S_Preferences.
From Verif Require Import L_String L_String2 L_String3 L_String4 L_Integer L_Sort L_Hashtable L_StringList L_Preferences L_Preferences2 L_Preferences3 L_Preferences4 L_Preferences5.
From Verif Require L_Tokenizer.
Ltac Zify.zify_post_hook ::= Z.to_euclidean_division_equations.

(** * the overrun *)
Lemma index_overrun s2 x y : repr s2 [x; y] -> forall q p, never [x; y] q -> index_str_loop (p ++ q ++ [x]) s2 (zlen p) (length (q ++ [x])) = UB \/ exists r, q = r ++ [x] /\ x = y.
Proof.
  intros R. induction q as [|c q IH]; intros p N.
  - left. cbn [app length index_str_loop]. rewrite (match_at_ok s2 [x; y] p [x] (zlen p) R eq_refl). cbn [pm]. rewrite Z.eqb_refl. reflexivity.
  - cbn [app length index_str_loop]. rewrite (match_at_ok s2 [x; y] p (c :: q ++ [x]) (zlen p) R eq_refl).
    assert (E : pm [x; y] (c :: q ++ [x]) = Val false \/ q = [] /\ c = x /\ x = y).
    { cbn [pm]. destruct (Z.eqb_spec c x) as [->|]; [|auto]. destruct q as [|d q]; cbn [app]; [destruct (Z.eqb_spec x y); auto|]. destruct (Z.eqb_spec d y) as [->|]; [|auto]. exfalso. apply (never_head _ _ q N). reflexivity. }
    destruct E as [->|(-> & -> & E)]; [|right; exists []; auto]. cbn [bind]. destruct (IH (p ++ [c]) (never_tail _ _ _ N)) as [H|(r & -> & E)]; [left|right; exists (c :: r); auto]. rewrite zlen_app in H. change (zlen [c]) with 1 in H. rewrite <- app_assoc in H. exact H.
Qed.
Lemma index_of_overrun s s2 x y t : x <> y -> repr s2 [x; y] -> buf s = t -> len s = zlen t -> last t y = x -> never [x; y] t -> index_of_str s s2 0 = UB.
Proof.
  intros Nxy R Eb El La N. assert (t <> []) as Nt by (intros ->; cbn in La; congruence). destruct (exists_last Nt) as (q & c & ->). rewrite last_last in La. subst c. unfold index_of_str. cbn [Z.ltb Z.compare]. rewrite Eb, El, Z.sub_0_r, <- length_zlen.
  destruct (index_overrun s2 x y R q [] (never_left _ _ _ N)) as [E|(r & _ & E)]; [exact E|contradiction].
Qed.
(** * one value through the file *)
Lemma unesc_plain c X : c <> 92 -> unesc (c :: X) = c :: unesc X.
Proof. intros N. destruct X as [|d X]; [reflexivity|]. rewrite unesc2. replace (c =? 92) with false by lia. reflexivity. Qed.
Lemma breaks2 c d r : breaks (c :: d :: r) = if (c =? 92) && (d =? 110) then 10 :: breaks r else c :: breaks (d :: r). Proof. reflexivity. Qed.
Lemma breaks_plain c X : c <> 92 -> breaks (c :: X) = c :: breaks X.
Proof. intros N. destruct X as [|d X]; [reflexivity|]. rewrite breaks2. replace (c =? 92) with false by lia. reflexivity. Qed.
Lemma breaks_head c X : hd 0 X <> 110 -> breaks (c :: X) = c :: breaks X.
Proof. intros N. destruct X as [|d X]; [reflexivity|]. cbn [hd] in N. rewrite breaks2. replace (d =? 110) with false by lia. rewrite andb_false_r. reflexivity. Qed.
Lemma esc_hd d r : d <> 110 -> hd 0 (esc (d :: r)) <> 110.
Proof. intros N. rewrite esc_cons. destruct (d =? 92); [cbn; lia|]. destruct (d =? 9); cbn; lia. Qed.
Lemma file_value v : unesc (breaks (esc v)) = prep 92 110 [92; 10] v.
Proof.
  induction v as [|c|c d r I1 I2] using pair_ind; [reflexivity| |].
  - rewrite esc_cons. change (esc []) with (@nil Z). rewrite app_nil_r. destruct (Z.eqb_spec c 92) as [->|]; [reflexivity|]. destruct (Z.eqb_spec c 9) as [->|]; [reflexivity|]. reflexivity.
  - rewrite prep2. rewrite esc_cons. destruct (Z.eqb_spec c 92) as [->|N].
    + destruct (Z.eqb_spec d 110) as [->|Nd]; cbn [andb].
      * rewrite esc_cons. cbn [Z.eqb Pos.eqb app]. rewrite (breaks_head 92) by (cbn; lia). rewrite breaks2. cbn [Z.eqb Pos.eqb andb]. cbn [app]. rewrite unesc2. cbn [Z.eqb Pos.eqb andb]. rewrite unesc_plain by lia. rewrite I1. reflexivity.
      * pose proof (esc_hd d r Nd) as Hh. cbn [app]. rewrite (breaks_head 92) by (cbn; lia). rewrite (breaks_head 92) by exact Hh. rewrite unesc2. cbn [Z.eqb Pos.eqb andb]. rewrite I2. reflexivity.
    + cbn [andb]. destruct (Z.eqb_spec c 9) as [->|N9]; cbn [app].
      * rewrite (breaks_head 92) by (cbn; lia). rewrite breaks_plain by lia. rewrite unesc2. cbn [Z.eqb Pos.eqb andb]. rewrite I2. reflexivity.
      * rewrite breaks_plain by lia. rewrite unesc_plain by lia. rewrite I2. reflexivity.
Qed.
Lemma esc_begins v : begins_bsn (esc v) = false.
Proof.
  destruct v as [|c r]; [reflexivity|]. rewrite esc_cons. destruct (Z.eqb_spec c 92) as [->|N]; [reflexivity|]. destruct (Z.eqb_spec c 9); [reflexivity|]. cbn [app begins_bsn]. destruct (esc r); [reflexivity|]. lia.
Qed.
Lemma grow_line v : ~ In 13 v -> ~ In 10 v -> one_line (prep 92 110 [92; 10] v) = grow v.
Proof.
  rewrite grow_prep. induction v as [|c|c d r I1 I2] using pair_ind; intros A B; [reflexivity| |].
  - cbn [prep In] in *. apply one_line_id; cbn; tauto.
  - rewrite !prep2. cbn [In] in A, B. destruct ((c =? 92) && (d =? 110)).
    + cbn [app]. change (one_line (92 :: 10 :: prep 92 110 [92; 10] r)) with (92 :: 92 :: 110 :: one_line (prep 92 110 [92; 10] r)). rewrite I1 by tauto. reflexivity.
    + assert (E : forall X, one_line (c :: X) = c :: one_line X) by (intros X; cbn [one_line]; destruct (Z.eqb_spec c 13); [tauto|]; destruct (Z.eqb_spec c 10); [tauto|]; reflexivity). rewrite E. rewrite I2; [reflexivity|cbn [In]; tauto|cbn [In]; tauto].
Qed.
Lemma file_round v : ~ In 13 v -> ~ In 10 v -> one_line (unesc (unbreak (esc v))) = grow v.
Proof. intros A B. unfold unbreak. rewrite esc_begins, file_value. now apply grow_line. Qed.
(** * the whole file *)
Lemma tokens_line isd body rest : body <> [] -> isd 10 = true -> Forall (fun c => isd c = false) body -> tokens false isd [] (body ++ 10 :: rest) = body :: tokens false isd [] rest.
Proof.
  intros N D F. assert (K : forall cur, tokens false isd cur (body ++ 10 :: rest) = tokens false isd (cur ++ body) (10 :: rest)).
  { clear N. induction F as [|c body Hc F IH]; intros cur; [now rewrite app_nil_r|]. cbn [app]. cbn [tokens]. rewrite Hc. rewrite IH. rewrite <- app_assoc. reflexivity. }
  rewrite K. cbn [app tokens]. rewrite D. destruct body; [contradiction|]. reflexivity.
Qed.
Lemma strip_unpadded t : unpadded t -> strip t = t.
Proof.
  intros H. destruct t as [|c r]; [reflexivity|]. assert (W : forall x, ~ blank x -> is_ws x = false) by (intros x Hx; unfold is_ws; unfold blank in Hx; lia). destruct (@exists_last _ (c :: r) ltac:(discriminate)) as (q & y & E).
  rewrite <- (app_nil_r (c :: r)) at 1. change ((c :: r) ++ []) with ([] ++ (c :: r) ++ []). apply (strip_mid [] (c :: r) [] c r q y); auto; apply W, H; eauto.
Qed.
Lemma esc_In v c : In c (esc v) -> In c v \/ c = 92 \/ c = 116.
Proof. unfold esc. intros H. apply in_flat_map in H as (x & Hx & Hc). destruct (Z.eqb_spec x 92); [cbn in Hc; lia|]. destruct (Z.eqb_spec x 9); [cbn in Hc; lia|]. destruct Hc as [<-|[]]. auto. Qed.
Lemma esc_app a b : esc (a ++ b) = esc a ++ esc b. Proof. unfold esc. apply flat_map_app. Qed.
Lemma esc_unpadded v : framed v -> ~ In 13 v -> ~ In 10 v -> unpadded (esc v).
Proof.
  intros F A B c (r & [E|E]).
  - destruct v as [|x v]; [discriminate|]. destruct (F x ltac:(eauto)) as (H1 & H2 & H3). rewrite esc_cons in E. cbn [In] in A, B. unfold blank. destruct (Z.eqb_spec x 92); [injection E as <- _; lia|]. destruct (Z.eqb_spec x 9); [injection E as <- _; lia|]. injection E as <- _. intros [?|[?|[?|[?|[?|?]]]]]; try lia; subst; tauto.
  - destruct v as [|x v]; [destruct r; discriminate|]. destruct (@exists_last _ (x :: v) ltac:(discriminate)) as (q & y & Ev). rewrite Ev in *. destruct (F y ltac:(eauto)) as (H1 & H2 & H3). rewrite in_app_iff in A, B. cbn [In] in A, B. rewrite esc_app, esc_cons in E. change (esc []) with (@nil Z) in E. rewrite app_nil_r in E. unfold blank.
    destruct (Z.eqb_spec y 92); [change [92; 92] with ([92] ++ [92]) in E; rewrite app_assoc in E; apply app_inj_tail in E as [_ <-]; lia|]. destruct (Z.eqb_spec y 9); [change [92; 116] with ([92] ++ [116]) in E; rewrite app_assoc in E; apply app_inj_tail in E as [_ <-]; lia|]. apply app_inj_tail in E as [_ <-]. intros [?|[?|[?|[?|[?|?]]]]]; try lia; subst; tauto.
Qed.
Lemma setting_of_line r : plain_row r -> setting_of (fst r ++ [61] ++ esc (snd r)) = Some (fst r, esc (snd r)).
Proof.
  intros (N & N61 & _ & _ & U & _ & F & A & B & _). unfold setting_of. replace (cut (fst r ++ [61] ++ esc (snd r))) with (Some (fst r, esc (snd r))) by (symmetry; apply cut_some; auto). destruct (fst r) as [|c k] eqn:E; [contradiction|]. rewrite <- E in *. rewrite strip_unpadded by exact U. rewrite strip_unpadded by (now apply esc_unpadded). reflexivity.
Qed.
Lemma lines_of_file : forall rs, Forall plain_row rs -> lines_of (concat (map line_of rs)) = map (fun r => fst r ++ [61] ++ esc (snd r)) rs.
Proof.
  induction 1 as [|r rs P F IH]; [reflexivity|]. cbn [map concat]. unfold line_of at 1. unfold lines_of in *. replace ((fst r ++ [61] ++ esc (snd r) ++ [10]) ++ concat (map line_of rs)) with ((fst r ++ [61] ++ esc (snd r)) ++ 10 :: concat (map line_of rs)) by (rewrite <- !app_assoc; reflexivity).
  rewrite tokens_line; [now rewrite IH|destruct (fst r); discriminate|reflexivity|]. destruct P as (_ & _ & K13 & K10 & _ & _ & _ & V13 & V10 & _). apply Forall_forall. intros c Hc. unfold is_in. cbn [existsb]. apply in_app_iff in Hc as [Hc|Hc]; [destruct (Z.eqb_spec c 13) as [->|]; [contradiction|]; destruct (Z.eqb_spec c 10) as [->|]; [contradiction|]; reflexivity|].
  apply in_app_iff in Hc as [[<-|[]]|Hc]; [reflexivity|]. apply esc_In in Hc as [Hc|[->| ->]]; [|reflexivity|reflexivity]. destruct (Z.eqb_spec c 13) as [->|]; [contradiction|]; destruct (Z.eqb_spec c 10) as [->|]; [contradiction|]; reflexivity.
Qed.
Definition grown (r : list Z * list Z) : list Z * list Z := (fst r, grow (snd r)).
Lemma read_file : forall rs m, Forall plain_row rs -> read_text m (concat (map line_of rs)) = fold_left (fun m r => update m (fst r) (snd r)) (map grown rs) m.
Proof.
  intros rs m F. unfold read_text. rewrite lines_of_file by exact F. revert m. induction F as [|r rs P F IH]; intros m; [reflexivity|]. cbn [map fold_left]. rewrite <- IH. f_equal. unfold read_line. rewrite setting_of_line by exact P. unfold store. destruct P as (_ & _ & _ & _ & _ & _ & _ & A & B & _). now rewrite file_round.
Qed.
Lemma lookup_update m k v k' : lookup (update m k v) k' = if text_dec k k' then Some v else lookup m k'.
Proof.
  unfold update. cbn [lookup]. destruct (text_dec k k') as [->|N]; [reflexivity|]. induction m as [|[k2 v2] m IH]; [reflexivity|]. cbn [filter fst lookup]. destruct (text_dec k2 k) as [->|N2]; cbn [lookup]; [destruct (text_dec k k'); [contradiction|exact IH]|]. destruct (text_dec k2 k'); [reflexivity|exact IH].
Qed.
Lemma lookup_fold k : forall rs m, NoDup (map fst rs) -> lookup (fold_left (fun m r => update m (fst r) (snd r)) rs m) k = match lookup rs k with Some v => Some v | None => lookup m k end.
Proof.
  induction rs as [|[k1 v1] rs IH]; intros m N; [reflexivity|]. cbn [map fst] in N. inversion N as [|? ? N1 N2]; subst. cbn [fold_left]. rewrite IH by exact N2. cbn [fst snd lookup]. rewrite lookup_update. destruct (text_dec k1 k) as [->|]; [|reflexivity]. replace (lookup rs k) with (@None (list Z)); [reflexivity|]. symmetry. clear - N1. induction rs as [|[k2 v2] rs IH]; [reflexivity|]. cbn [map fst In lookup] in *. destruct (text_dec k2 k); [tauto|]. apply IH. tauto.
Qed.
Lemma lookup_perm m m' k : NoDup (map fst m) -> Permutation m m' -> lookup m' k = lookup m k.
Proof.
  intros N P. assert (N' : NoDup (map fst m')) by (eapply Permutation_NoDup; [apply Permutation_map, P|exact N]). assert (S : forall a b, NoDup (map fst b) -> Permutation a b -> forall v, lookup a k = Some v -> lookup b k = Some v).
  { intros a b Nb Pab v E. apply lookup_in; [exact Nb|]. eapply Permutation_in; [exact Pab|]. clear - E. induction a as [|[k2 v2] a IH]; [discriminate|]. cbn [lookup] in E. destruct (text_dec k2 k) as [->|]; [injection E as ->; now left|right; auto]. }
  destruct (lookup m k) as [v|] eqn:E; [eapply S; eauto|]. destruct (lookup m' k) as [v|] eqn:E'; [|reflexivity]. apply (S m' m N (Permutation_sym P)) in E'. congruence.
Qed.
Lemma lookup_grown rs k : lookup (map grown rs) k = option_map grow (lookup rs k).
Proof. induction rs as [|[k1 v1] rs IH]; [reflexivity|]. cbn [map grown fst snd lookup]. destruct (text_dec k1 k); [reflexivity|exact IH]. Qed.
Lemma file_rows m : exists rs, file_lines m = map line_of rs /\ Permutation m rs.
Proof. destruct (sort_lines_ok (map line_of m)) as [_ P]. apply Permutation_map_inv in P as (rs & E & P). exists rs. split; [exact E|]. exact P. Qed.
Lemma file_text_of m : Forall plain_row m -> Forall (fun x => 0 < x < 256) (file_of m) /\ utf8_meaning (file_of m) = Units (concat (file_lines m)).
Proof.
  intros F. destruct (file_rows m) as (rs & E & P). unfold file_of. rewrite E. assert (Fr : Forall plain_row rs) by (rewrite Forall_forall in *; intros r Hr; apply F; eapply Permutation_in; [apply Permutation_sym, P|exact Hr]).
  assert (U : Forall (fun c => 0 < c < 65536) (concat (map line_of rs))). { clear - Fr. induction Fr as [|r rs P F IH]; [constructor|]. cbn [map concat]. apply Forall_app. split; [|exact IH]. destruct P as (_ & _ & _ & _ & _ & _ & _ & _ & _ & U). apply Forall_app in U as [U1 U2]. unfold line_of. apply Forall_app. split; [exact U1|]. apply Forall_app. split; [repeat constructor; lia|]. apply Forall_app. split; [|repeat constructor; lia].
    apply Forall_forall. intros c Hc. apply esc_In in Hc as [Hc|Hc]; [|lia]. rewrite Forall_forall in U2. auto. }
  assert (U' : Forall (fun c => 0 < c < 1114112) (concat (map line_of rs))) by (eapply Forall_impl; [|exact U]; cbv beta; intros; lia).
  assert (H : hd 0 (concat (map line_of rs)) <> 65279). { destruct Fr as [|r rs Pr F0]; [cbn; lia|]. destruct Pr as (N & _ & _ & _ & _ & H & _). cbn [map concat]. unfold line_of. destruct (fst r); [contradiction|]. cbn in *. exact H. }
  unfold bytes_of. split; [now apply nz_concat|]. pose proof (decode_code_points _ U' H) as D. rewrite decode_total in D by (now apply nz_concat). destruct (utf8_meaning _) as [l| |]; try discriminate. cbn [outcome_of] in D. injection D as ->. f_equal. rewrite <- (map_id (concat (map line_of rs))) at 2. apply map_ext_in. intros c Hc. rewrite Forall_forall in U. specialize (U c Hc). cbv beta in U. lia.
Qed.
Lemma esc_never v : never [92; 110] v -> never [92; 110] (esc v).
Proof.
  intros N. assert (E : breaks (esc v) = esc v).
  { induction v as [|c|c d r I1 I2] using pair_ind; [reflexivity| |].
    - rewrite esc_cons. change (esc []) with (@nil Z). rewrite app_nil_r. destruct (Z.eqb_spec c 92) as [->|]; [reflexivity|]. destruct (Z.eqb_spec c 9) as [->|]; reflexivity.
    - specialize (I2 (never_tail _ _ _ N)). rewrite esc_cons. destruct (Z.eqb_spec c 92) as [->|N92].
      + assert (d <> 110) by (intros ->; apply (never_head _ _ r N); reflexivity). cbn [app]. rewrite (breaks_head 92) by (cbn; lia). rewrite (breaks_head 92) by (now apply esc_hd). now rewrite I2.
      + destruct (Z.eqb_spec c 9) as [->|]; cbn [app]; [rewrite (breaks_head 92) by (cbn; lia); rewrite breaks_plain by lia; now rewrite I2|]. rewrite breaks_plain by lia. now rewrite I2. }
  intros i (a & r & Ea & _). rewrite Ea in E. clear Ea N. rewrite breaks_prep in E. assert (L : forall t, zlen (prep 92 110 [10] t) <= zlen t) by (induction t as [|c|c d t I1 I2] using pair_ind; [cbn; lia|cbn; lia|]; rewrite prep2; destruct (_ && _); cbn [app]; rewrite !zlen_cons in *; lia).
  assert (K : forall a, zlen (prep 92 110 [10] (a ++ [92; 110] ++ r)) < zlen (a ++ [92; 110] ++ r)).
  { clear - L. induction a as [|c|c d a I1 I2] using pair_ind; cbn [app] in *.
    - rewrite prep2. cbn [Z.eqb Pos.eqb andb app]. rewrite !zlen_cons. pose proof (L r). lia.
    - rewrite prep2. destruct ((c =? 92) && (92 =? 110)) eqn:X; [lia|]. rewrite prep2. cbn [Z.eqb Pos.eqb andb app]. rewrite !zlen_cons. pose proof (L r). lia.
    - rewrite prep2. destruct (_ && _); cbn [app]; rewrite !zlen_cons in *; lia. }
  pose proof (K a) as X. rewrite E in X. lia.
Qed.
Lemma esc_last v : last (esc v) 0 = 92 -> last v 0 = 92.
Proof.
  destruct v as [|x v]; [discriminate|]. destruct (@exists_last _ (x :: v) ltac:(discriminate)) as (q & y & ->). rewrite esc_app, esc_cons. change (esc []) with (@nil Z). rewrite app_nil_r, !last_last. destruct (Z.eqb_spec y 92); [auto|]. destruct (Z.eqb_spec y 9); [rewrite last_app by discriminate; cbn; lia|]. now rewrite last_last.
Qed.
Lemma grow_never v : grow v = v <-> never [92; 110] v.
Proof.
  rewrite grow_prep. split; [|apply prep_never]. intros E i (a & r & Ea & _). rewrite Ea in E. assert (L : forall t, zlen t <= zlen (prep 92 110 [92; 92; 110] t)) by (induction t as [|c|c d t I1 I2] using pair_ind; [cbn; lia|cbn; lia|]; rewrite prep2; destruct (_ && _); cbn [app]; rewrite !zlen_cons in *; lia).
  assert (K : forall a, zlen (a ++ [92; 110] ++ r) < zlen (prep 92 110 [92; 92; 110] (a ++ [92; 110] ++ r))).
  { clear - L. induction a as [|c|c d a I1 I2] using pair_ind; cbn [app] in *.
    - rewrite prep2. cbn [Z.eqb Pos.eqb andb app]. rewrite !zlen_cons. pose proof (L r). lia.
    - rewrite prep2. destruct ((c =? 92) && (92 =? 110)) eqn:X; [lia|]. rewrite prep2. cbn [Z.eqb Pos.eqb andb app]. rewrite !zlen_cons. pose proof (L r). lia.
    - rewrite prep2. destruct (_ && _); cbn [app]; rewrite !zlen_cons in *; lia. }
  pose proof (K a) as X. rewrite E in X. lia.
Qed.
(** * histories *)
Lemma step_ok p m K o fuel : pinv p m K -> pfits o m -> 0 <= K -> K + weight o < 2 ^ 59 -> (Z.to_nat (3 * (K + weight o) + 8) < fuel)%nat ->
  exists p', pexec o fuel p = Val (fst (pspec o m), p') /\ pinv p' (snd (pspec o m)) (K + weight o).
Proof.
  intros I F HK HB Hf. destruct o as [k v|k n|k b|k|k|k d|k d|k d| |b]; cbn [pexec pspec fst snd weight pfits] in *.
  - destruct F as [Gk Gv]. destruct (set_value_ok p m K k v fuel I Gk Gv ltac:(lia) ltac:(lia)) as (p' & -> & I'). exists p'. auto.
  - destruct F as [Gk Rn]. unfold set_int. destruct (decimal_ok n Rn) as (s & -> & R). cbn [bind]. pose proof (repr_text _ _ R) as [T Sd].
    assert (D : Forall (fun c => 45 <= c <= 57) (decimal n) /\ zlen (decimal n) < 2 ^ 31).
    { assert (G : forall k x, 0 <= x -> Forall (fun c => 45 <= c <= 57) (decimal_digits k x) /\ zlen (decimal_digits k x) <= Z.of_nat k). { induction k0 as [|k0 IH]; intros x Hx; cbn [decimal_digits]; [split; [constructor|cbn; lia]|]. destruct (Z.ltb_spec x 10); [split; [repeat constructor; lia|cbn; lia]|]. destruct (IH (x / 10) ltac:(lia)) as [A B]. split; [apply Forall_app; split; [exact A|repeat constructor; lia]|]. rewrite zlen_app. change (zlen [48 + x mod 10]) with 1. lia. }
      unfold decimal. destruct (Z.ltb_spec n 0); [destruct (G 20%nat (- n) ltac:(lia)); split; [constructor; [lia|assumption]|rewrite zlen_cons; lia]|]. destruct (G 20%nat n ltac:(lia)); split; [assumption|lia]. }
    destruct D as [D Ln]. rewrite <- T. destruct (set_value_ok p m K k s fuel I Gk) as (p' & -> & I'); [|lia|lia|exists p'; auto]. split.
    + split; [exact Sd|]. rewrite T. split; [|exact Ln]. eapply Forall_impl; [|exact D]. cbv beta. unfold unit16. intros; lia.
    + left. rewrite T. intros E. destruct (decimal n) as [|x r] eqn:Ed; [discriminate|]. assert (J : In 13 (x :: r)) by (rewrite <- E; apply last_in; discriminate). rewrite Forall_forall in D. specialize (D _ J). lia.
  - destruct (set_value_ok p m K k (if b then l_true else l_false) fuel I F) as (p' & E & I'); [|lia|lia|]. { destruct b; (split; [split; [unfold sound; vm_compute; split; discriminate|]|left; vm_compute; discriminate]); [change (text l_true) with t_true|change (text l_false) with t_false]; (split; [unfold t_true, t_false; repeat (apply Forall_cons; [unfold unit16; lia|]); apply Forall_nil|vm_compute; reflexivity]). }
    unfold set_bool. rewrite E. cbn [bind]. exists p'. split; [reflexivity|]. destruct b; exact I'.
  - rewrite (has_ok p m K k fuel I F) by lia. exists p. split; [reflexivity|]. eapply pinv_up; [exact I|lia].
  - destruct (value_ok p m K k fuel I F ltac:(lia)) as (s & -> & R). cbn [bind]. apply repr_text in R as [-> _]. exists p. split; [reflexivity|]. eapply pinv_up; [exact I|lia].
  - destruct F as [Gk Sd]. destruct (value_or_ok p m K k d fuel I Gk Sd ltac:(lia)) as (s & -> & R). cbn [bind]. apply repr_text in R as [-> _]. exists p. split; [reflexivity|]. eapply pinv_up; [exact I|lia].
  - destruct F as [Gk Mg]. rewrite (value_int_ok p m K k d fuel I Gk Mg) by lia. exists p. split; [reflexivity|]. eapply pinv_up; [exact I|lia].
  - rewrite (value_bool_ok p m K k d fuel I F) by lia. exists p. split; [reflexivity|]. eapply pinv_up; [exact I|lia].
  - rewrite (save_ok p m K fuel I F) by lia. exists p. split; [reflexivity|]. eapply pinv_up; [exact I|lia].
  - destruct F as (F1 & F2 & F3 & F4). pose proof (zlen_nonneg b). destruct (load_ok p m K b fuel I F1 F2 F3 F4 ltac:(lia) ltac:(lia) ltac:(lia)) as (p' & -> & I'). exists p'. auto.
Qed.
Lemma weights_nonneg os : 0 <= weights os.
Proof. induction os as [|o os IH]; cbn [weights fold_right]; [lia|]. fold (weights os). destruct o; cbn [weight]; try lia. pose proof (zlen_nonneg bytes). lia. Qed.
Lemma history_ok fuel : forall os p m K, pinv p m K -> all_pfit os m -> 0 <= K -> K + weights os < 2 ^ 59 -> (Z.to_nat (3 * (K + weights os) + 8) < fuel)%nat ->
  exists p', pexec_all os fuel p = Val (fst (pspecs os m), p') /\ pinv p' (snd (pspecs os m)) (K + weights os).
Proof.
  induction os as [|o os IH]; intros p m K I F HK HB Hf; cbn [pexec_all pspecs all_pfit weights fold_right fst snd] in *.
  - exists p. rewrite Z.add_0_r. auto.
  - fold (weights os) in *. pose proof (weights_nonneg os). destruct F as [Fo Fs]. assert (0 <= weight o) by (destruct o; cbn [weight]; try lia; apply zlen_nonneg). destruct (step_ok p m K o fuel I Fo HK ltac:(lia) ltac:(lia)) as (p1 & -> & I1). cbn [bind]. destruct (pspec o m) as [a m1]. cbn [fst snd] in *. destruct (IH p1 m1 (K + weight o) I1 Fs ltac:(lia) ltac:(lia) ltac:(lia)) as (p2 & -> & I2). cbn [bind]. destruct (pspecs os m1) as [r m2]. cbn [fst snd] in *. exists p2. split; [reflexivity|]. now rewrite Z.add_assoc.
Qed.
Lemma reach os fuel a p : all_pfit os [] -> weights os < 2 ^ 59 -> (Z.to_nat (3 * weights os + 8) < fuel)%nat -> pexec_all os fuel prefs_new = Val (a, p) -> pinv p (snd (pspecs os [])) (weights os).
Proof. intros F B Hf E. destruct (history_ok fuel os prefs_new [] 0 pinv_new F ltac:(lia) ltac:(lia) ltac:(lia)) as (p' & E' & I). rewrite E in E'. injection E' as -> ->. exact I. Qed.
Lemma line_size m : zlen (file_of m) < 2 ^ 31 -> Forall (fun l => zlen (bytes_of l) < 2 ^ 32) (map line_of m).
Proof.
  intros B. unfold file_of in B. destruct (sort_lines_ok (map line_of m)) as [_ P]. fold (file_lines m) in P. apply Forall_forall. intros l Hl. apply (Permutation_in l (Permutation_sym P)) in Hl. revert B Hl. generalize (file_lines m). clear. induction l0 as [|x l0 IH]; intros B H; [destruct H|]. cbn [concat] in B. rewrite bytes_app, zlen_app in B. pose proof (zlen_nonneg (bytes_of x)). pose proof (zlen_nonneg (bytes_of (concat l0))). destruct H as [->|H]; [lia|]. apply IH; [lia|exact H].
Qed.
Lemma round_trip p m K fuel : pinv p m K -> 0 <= K < 2 ^ 59 -> (Z.to_nat (3 * K + 8) < fuel)%nat -> Forall plain_row m -> Forall (fun r => safe_value (esc (snd r))) m -> zlen (file_of m) < 2 ^ 31 -> (Z.to_nat (zlen (file_of m)) < fuel)%nat ->
  exists q mq, save p fuel = Val (file_of m) /\ load prefs_new (file_of m) fuel = Val q /\ pinv q mq (zlen (file_of m)) /\ forall k, lookup mq k = option_map grow (lookup m k).
Proof.
  intros I HK Hf Pl Sf Sz Hf2. destruct (file_text_of m Pl) as [Nz Me]. assert (Et : file_text (file_of m) = concat (file_lines m)) by (unfold file_text; now rewrite Me). destruct (file_rows m) as (rs & El & Pm).
  assert (Fr : Forall plain_row rs) by (rewrite Forall_forall in *; intros r Hr; apply Pl; eapply Permutation_in; [apply Permutation_sym, Pm|exact Hr]). pose proof (zlen_nonneg (file_of m)).
  destruct (load_ok prefs_new [] 0 (file_of m) fuel pinv_new Nz Sz) as (q & E & Iq); [now rewrite Et| |lia|lia|lia|].
  - rewrite Et, El, lines_of_file by exact Fr. apply Forall_forall. intros l Hl. apply in_map_iff in Hl as (r & <- & Hr). unfold safe_line. rewrite setting_of_line by (rewrite Forall_forall in Fr; auto). rewrite Forall_forall in Sf. apply Sf. eapply Permutation_in; [apply Permutation_sym, Pm|exact Hr].
  - exists q, (read_text [] (concat (file_lines m))). split; [apply (save_ok p m K); auto; now apply line_size|]. split; [exact E|]. split; [rewrite Et in Iq; exact Iq|]. intros k. rewrite El, read_file by exact Fr.
    assert (N : NoDup (map fst m)) by (destruct I as (b & mz & St); eapply pstate_nodup; eauto). assert (Nr : NoDup (map fst rs)) by (eapply Permutation_NoDup; [apply Permutation_map, Pm|exact N]).
    rewrite lookup_fold by (rewrite map_map; exact Nr). rewrite lookup_grown, (lookup_perm m rs k N Pm). cbn [lookup]. now destruct (option_map grow (lookup m k)).
Qed.
(** * the unsafe line *)
Lemma substring_full s b e s' t : substring s b e = Val s' -> repr s' t -> t <> [] -> zlen t mod 16 = 0 -> buf s' = t.
Proof.
  unfold substring. set (b' := if b <? 0 then 0 else b). set (e0 := if e <? b' then b' else e). set (e' := if e0 >? len s then len s else e0). cbv zeta. clearbody e'. clear e0. clearbody b'. destruct (Z.gtb_spec (e' - b') 0) as [P|P]; intros E R Nt Hm.
  - assert (En : e' - b' = zlen t). { destruct R as (j & _ & El). destruct (check_capacity (e' - b') str_new) as [r| | |]; try discriminate. cbn [bind] in E. destruct (memcpy (buf r) 0 (buf s) b' (e' - b')); try discriminate. cbn [bind] in E. injection E as <-. exact El. }
    unfold check_capacity in E. cbn [str_new len buf hash] in E. rewrite zlen_zeros in E by lia. destruct (Z.ltb_spec (0 + (e' - b')) 16); [pose proof (zlen_nonneg t); lia|]. replace (round16 (0 + (e' - b'))) with (e' - b') in E by (unfold round16; rewrite Z.rem_mod_nonneg by lia; rewrite Z.add_0_l, En, Hm; reflexivity).
    destruct (Z.ltb_spec (e' - b') 0); [lia|]. pose proof (memcpy_zeros (e' - b') [] (zeros 16) ltac:(cbn; lia)) as Em. cbn [app] in Em. change (zlen (@nil Z)) with 0 in Em. rewrite Em in E. cbn [bind buf hash] in E. rewrite Z.sub_0_r in E. unfold memcpy in E. destruct ((0 <=? 0) && _ && _ && _ && _) eqn:G; [|discriminate]. cbn [bind] in E. injection E as <-. destruct R as (j & Eb & El). cbn [buf len] in *. rewrite Z.add_0_l in *.
    assert (Lx : zlen (ztake (e' - b') (zdrop b' (buf s))) = e' - b') by (rewrite zlen_ztake; [reflexivity|rewrite zlen_zdrop; rewrite zlen_zeros in G; lia]). assert (Ed : zdrop (e' - b') (zeros (e' - b')) = []) by (apply zlen_zero; rewrite zlen_zdrop; rewrite zlen_zeros; lia). rewrite Ed, app_nil_r in *. apply (f_equal zlen) in Eb as El2. rewrite zlen_app in El2. pose proof (zlen_nonneg j). assert (j = []) as -> by (apply zlen_zero; lia). rewrite app_nil_r in Eb. exact Eb.
  - injection E as <-. exfalso. apply Nt. destruct R as (j & _ & El). cbn [str_new len] in El. apply zlen_zero. lia.
Qed.
Lemma trim_strict s t : repr s t -> strip t <> [] -> zlen (strip t) mod 16 = 0 -> exists s', trim s = Val s' /\ buf s' = strip t /\ len s' = zlen (strip t).
Proof.
  intros R N Hm. destruct (trim_strip s t R) as (s' & E & R'). exists s'. split; [exact E|]. split; [|destruct R' as (? & _ & L); exact L]. unfold trim in E. assert (New : Val str_new = Val s' -> buf s' = strip t) by (intros X; injection X as <-; exfalso; apply N; destruct R' as (j & _ & El); cbn [str_new len] in El; apply zlen_zero; lia).
  destruct (len s =? 0); [auto|]. destruct (skip_left _ _ _ _) as [i| | |]; try discriminate. cbn [bind] in E. destruct (skip_right _ _ _) as [k| | |]; try discriminate. cbn [bind] in E. destruct (k <=? i); [auto|]. eapply substring_full; eauto.
Qed.
Lemma load_line_unsafe p line t k v fuel : repr line t -> setting_of t = Some (k, v) -> last v 0 = 92 -> (forall i, ~ occurs [92; 110] v i) -> zlen v mod 16 = 0 -> load_line p line fuel = UB.
Proof.
  intros R St La Nv Md. unfold load_line. rewrite (index_cut line t R). cbn [bind]. unfold setting_of in St. destruct (cut t) as [[a w]|] eqn:C; [|discriminate]. apply cut_some in C as [-> Na]. destruct a as [|c a]; [discriminate|]. injection St as <- <-.
  replace (zlen (c :: a) >? 0) with true by (rewrite zlen_cons; pose proof (zlen_nonneg a); lia). set (key := c :: a) in *. clearbody key. clear c a.
  destruct (substring_mid line [] key (61 :: w) R) as (s1 & E1 & R1). change (zlen (@nil Z)) with 0 in E1. rewrite Z.add_0_l in E1. rewrite E1. cbn [bind]. destruct (trim_strip s1 key R1) as (k1 & -> & _). cbn [bind].
  destruct (substring_from_mid line (key ++ [61]) w) as (s2 & E2 & R2); [rewrite <- app_assoc; exact R|]. rewrite zlen_app in E2. change (zlen [61]) with 1 in E2. rewrite E2. cbn [bind]. destruct (trim_strict s2 w R2) as (v0 & -> & Eb & El); [intros E; rewrite E in La; discriminate|exact Md|]. cbn [bind break_loop].
  rewrite (index_of_overrun v0 l_bsn 92 110 (strip w)); [reflexivity|lia|apply str_of_repr|exact Eb|exact El| |exact Nv]. destruct (strip w) as [|c r] eqn:Ew; [discriminate|]. clear - La. destruct (@exists_last _ (c :: r) ltac:(discriminate)) as (q & y & E). rewrite E in *. rewrite last_last in *. exact La.
Qed.
Lemma load_lines_unsafe s d fuel l k v ls2 : setting_of l = Some (k, v) -> last v 0 = 92 -> (forall i, ~ occurs [92; 110] v i) -> zlen v mod 16 = 0 ->
  forall ts p m K st n, L_Tokenizer.inv s d false st (ts ++ l :: ls2) -> pinv p m K -> Forall (fun t => Forall unit16 t /\ ~ In 13 t /\ zlen t < 2 ^ 31 /\ safe_line t) ts ->
  (Z.to_nat (K + zlen ts) < fuel)%nat -> 0 <= K -> K + zlen ts < 2 ^ 59 -> (length ts < n)%nat -> load_lines p st fuel n = UB.
Proof.
  intros Se La Nv Md. induction ts as [|t ts IH]; intros p m K st n It I F Hf HK HB Hn; (destruct n as [|n]; [cbn [length] in Hn; lia|]); cbn [load_lines app] in *; destruct (L_Tokenizer.has_next_ok s d false st _ It) as (st1 & -> & I1); cbn [bind]; destruct (L_Tokenizer.next_ok s d false st1 _ I1) as (o & st2 & -> & (line & -> & Rl) & I2); cbn [bind].
  - rewrite (load_line_unsafe p line l k v fuel Rl Se La Nv Md). reflexivity.
  - apply Forall_cons_iff in F as [(U & N & L & Sf) F]. rewrite zlen_cons in *. pose proof (zlen_nonneg ts). destruct (load_line_ok p m K line t fuel I Rl U N L Sf ltac:(lia) ltac:(lia)) as (p1 & -> & Ip). cbn [bind length] in *. eapply IH; eauto; lia.
Qed.
Lemma breaks_in_grow v : zlen (grow v) = zlen v + breaks_in v.
Proof.
  induction v as [|c|c d r I1 I2] using pair_ind; [reflexivity|reflexivity|]. change (grow (c :: d :: r)) with (if (c =? 92) && (d =? 110) then 92 :: 92 :: 110 :: grow r else c :: grow (d :: r)). change (breaks_in (c :: d :: r)) with (if (c =? 92) && (d =? 110) then 1 + breaks_in r else breaks_in (d :: r)). destruct (_ && _); rewrite !zlen_cons in *; lia.
Qed.
Lemma one_line_same v : one_line v = v <-> ~ In 13 v /\ ~ In 10 v.
Proof.
  split; [|intros [A B]; now apply one_line_id]. intros E. pose proof (one_line_clean v) as [A B]. rewrite E in A, B. auto.
Qed.
Lemma decimal_digit_chars : forall k x c, 0 <= x -> In c (decimal_digits k x) -> 48 <= c <= 57.
Proof.
  induction k as [|k IH]; intros x c Hx; cbn [decimal_digits]; [intros []|]. destruct (Z.ltb_spec x 10); [intros [<-|[]]; lia|]. intros J. apply in_app_iff in J as [J|[<-|[]]]; [apply (IH (x / 10)); [lia|exact J]|lia].
Qed.
Lemma decimal_chars n c : In c (decimal n) -> c = 45 \/ 48 <= c <= 57.
Proof.
  unfold decimal. destruct (Z.ltb_spec n 0); [intros [<-|J]; [now left|]|intros J]; right; eapply decimal_digit_chars; eauto; lia.
Qed.
