From Verif Require Import L_Utf8.
From Verif Require Import Base M_Utf8 M_String M_Hashtable M_Tokenizer M_StringList M_Preferences S_String S_Utf8 S_Sort S_Tokenizer S_StringList S_Integer S_Hashtable S_Preferences.
From Verif Require Import L_String L_String2 L_String3 L_String4 L_Integer L_Sort L_Hashtable L_StringList L_Preferences L_Preferences2 L_Preferences3.
From Verif Require L_Tokenizer.
Ltac Zify.zify_post_hook ::= Z.to_euclidean_division_equations.

(** * the queries *)
Lemma value_ok p m K key fuel : pinv p m K -> good_key key -> (Z.to_nat K < fuel)%nat -> exists s, value p key fuel = Val s /\ repr s (text_or (lookup m (text key))).
Proof.
  intros (b & mz & St) G Hf. unfold value. destruct (find_ok p b mz m K key fuel St G Hf) as (q & -> & C). cbn [bind]. destruct C as [(-> & ->)|(N & _ & t & s & -> & D & R)].
  - cbn [Z.eqb text_or]. destruct (copy_ctor_ok (str_of []) [] (str_of_repr _)) as (s & -> & R & _). eauto.
  - destruct (Z.eqb_spec q 0); [contradiction|]. rewrite D. cbn [bind text_or]. destruct (copy_ctor_ok s t R) as (s' & -> & R' & _). eauto.
Qed.
Lemma has_ok p m K key fuel : pinv p m K -> good_key key -> (Z.to_nat K < fuel)%nat -> has_value p key fuel = Val (match lookup m (text key) with Some _ => true | None => false end).
Proof.
  intros (b & mz & St) G Hf. unfold has_value. destruct (find_ok p b mz m K key fuel St G Hf) as (q & -> & C). cbn [bind]. destruct C as [(-> & ->)|(N & _ & t & s & -> & D & R)]; [reflexivity|]. destruct (Z.eqb_spec q 0); [contradiction|]. reflexivity.
Qed.
Lemma value_or_ok p m K key d fuel : pinv p m K -> good_key key -> sound d -> (Z.to_nat K < fuel)%nat ->
  exists s, value_or p key d fuel = Val s /\ repr s (match text_or (lookup m (text key)) with [] => text d | v => v end).
Proof.
  intros (b & mz & St) G Sd Hf. unfold value_or. apply sound_repr in Sd. destruct (copy_ctor_ok d _ Sd) as (s0 & E0 & R0 & _). destruct (find_ok p b mz m K key fuel St G Hf) as (q & -> & C). cbn [bind]. destruct C as [(-> & ->)|(N & _ & t & s & -> & D & R)].
  - cbn [Z.eqb text_or]. eauto.
  - destruct (Z.eqb_spec q 0); [contradiction|]. rewrite D. cbn [bind text_or]. assert (L : len s = zlen t) by (destruct R as (? & _ & L); exact L). rewrite L. destruct t as [|c t]; [cbn [Z.eqb zlen length Z.of_nat]; change (zlen (@nil Z)) with 0; cbn [Z.eqb]; eauto|].
    replace (zlen (c :: t) =? 0) with false by (rewrite zlen_cons; pose proof (zlen_nonneg t); lia). destruct (copy_ctor_ok s _ R) as (s' & -> & R' & _). eauto.
Qed.
Lemma rowok_lookup m k : Forall rowok m -> Forall unit16 (text_or (lookup m k)) /\ zlen (text_or (lookup m k)) < 2 ^ 32.
Proof. induction 1 as [|[k' v] m (_ & _ & A & B) F IH]; cbn [lookup text_or]; [split; [constructor|cbn; lia]|]. cbn [snd] in *. destruct (text_dec k' k); [auto|exact IH]. Qed.
Lemma value_int_ok p m K key d fuel : pinv p m K -> good_key key -> magnitude (text_or (lookup m (text key))) < 2 ^ 63 -> (Z.to_nat K < fuel)%nat ->
  value_int p key d fuel = Val (int_or (text_or (lookup m (text key))) d).
Proof.
  intros I G B Hf. unfold value_int. destruct (value_ok p m K key fuel I G Hf) as (s & -> & R). cbn [bind]. set (t := text_or (lookup m (text key))) in *. assert (L : len s = zlen t) by (destruct R as (? & _ & L); exact L). rewrite L. destruct t as [|c t]; [reflexivity|].
  replace (zlen (c :: t) =? 0) with false by (rewrite zlen_cons; pose proof (zlen_nonneg t); lia). cbn [int_or]. rewrite magnitude_digs in *. destruct (numeral (c :: t)) eqn:Nu.
  - rewrite (to_int_ok s _ R); [reflexivity|now apply numeral_iff|lia].
  - rewrite (to_int_throws s _ R Nu) by lia. reflexivity.
Qed.
Lemma value_bool_ok p m K key d fuel : pinv p m K -> good_key key -> (Z.to_nat K < fuel)%nat ->
  value_bool p key d fuel = Val (match text_or (lookup m (text key)) with [] => d | v => if text_dec v t_true then true else false end).
Proof.
  intros I G Hf. unfold value_bool. destruct (value_ok p m K key fuel I G Hf) as (s & -> & R). cbn [bind]. assert (B : zlen (text_or (lookup m (text key))) < 2 ^ 32) by (destruct I as (b & mz & St); apply rowok_lookup, St). set (t := text_or (lookup m (text key))) in *. assert (L : len s = zlen t) by (destruct R as (? & _ & L); exact L). rewrite L. destruct t as [|c t]; [reflexivity|].
  replace (zlen (c :: t) =? 0) with false by (rewrite zlen_cons; pose proof (zlen_nonneg t); lia). change l_true with (str_of t_true). rewrite (equals_teq s _ _ t_true R (str_of_repr _)) by exact B. reflexivity.
Qed.
(** * reading *)
Lemma substring_room s b e s' t : substring s b e = Val s' -> repr s' t -> hash s' = 0 /\ (zlen t mod 16 <> 0 -> exists j, buf s' = t ++ 0 :: j).
Proof.
  unfold substring. set (b' := if b <? 0 then 0 else b). set (e0 := if e <? b' then b' else e). set (e' := if e0 >? len s then len s else e0). cbv zeta. destruct (Z.gtb_spec (e' - b') 0) as [P|P].
  - intros E R. clearbody e'. clear e0. clearbody b'. assert (Cap : exists N, check_capacity (e' - b') str_new = Val (JS (zeros N) 0 0) /\ e' - b' <= N /\ ((e' - b') mod 16 <> 0 -> e' - b' < N)).
    { unfold check_capacity. cbn [str_new len buf hash]. rewrite zlen_zeros by lia. destruct (Z.ltb_spec (0 + (e' - b')) 16); [exists 16; split; [reflexivity|lia]|]. set (N := round16 (0 + (e' - b'))). assert (HN : e' - b' <= N /\ ((e' - b') mod 16 <> 0 -> e' - b' < N)) by (unfold N, round16; rewrite Z.rem_mod_nonneg by lia; rewrite Z.add_0_l; destruct (Z.eqb_spec ((e' - b') mod 16) 0); lia).
      destruct (Z.ltb_spec N 0); [lia|]. exists N. split; [|exact HN]. pose proof (memcpy_zeros N [] (zeros 16) ltac:(cbn; lia)) as Em. cbn [app] in Em. change (zlen (@nil Z)) with 0 in Em. rewrite Em. cbn [bind]. now rewrite Z.sub_0_r. }
    destruct Cap as (N & Ec & L1 & L2). rewrite Ec in E. cbn [bind buf hash] in E. unfold memcpy in E. destruct ((0 <=? 0) && _ && _ && _ && _) eqn:G; [|discriminate]. cbn [bind] in E. injection E as <-. cbn [hash]. split; [reflexivity|]. intros Hm. destruct R as (j & Eb & El). cbn [buf len] in *.
    assert (Lx : zlen (ztake (e' - b') (zdrop b' (buf s))) = e' - b') by (rewrite zlen_ztake; [reflexivity|rewrite zlen_zdrop; lia]).
    assert (Et : ztake (e' - b') (zdrop b' (buf s)) = t /\ zdrop (e' - b') (zeros N) = j). { split; [apply (f_equal (ztake (e' - b'))) in Eb|apply (f_equal (zdrop (e' - b'))) in Eb]; rewrite ?ztake_app, ?zdrop_app in Eb by lia; exact Eb. }
    destruct Et as [E1 E2]. rewrite E1. specialize (L2 ltac:(rewrite El; exact Hm)). replace (zeros N) with (zeros (e' - b') ++ 0 :: zeros (N - (e' - b') - 1)).
    + rewrite zdrop_app by (rewrite zlen_zeros; lia). eauto.
    + unfold zeros. change (0 :: repeat 0 (Z.to_nat (N - (e' - b') - 1))) with (repeat 0 (S (Z.to_nat (N - (e' - b') - 1)))). rewrite <- repeat_app. f_equal. lia.
  - intros E R. injection E as <-. split; [reflexivity|]. destruct R as (j & _ & El). cbn [str_new len] in El. rewrite <- El. intros H. exfalso. apply H. reflexivity.
Qed.
Lemma trim_full s t : repr s t -> exists s' x y, trim s = Val s' /\ repr s' (strip t) /\ t = x ++ strip t ++ y /\ hash s' = 0 /\ (zlen (strip t) mod 16 <> 0 -> exists j, buf s' = strip t ++ 0 :: j).
Proof.
  intros R. destruct (trim_strip s t R) as (s' & E & R'). destruct (trim_ok s t R) as (s2 & a & m & b & E2 & R2 & Et & _). rewrite E in E2. injection E2 as <-. assert (m = strip t) by (apply repr_text in R2 as [<- _]; apply repr_text in R' as [<- _]; reflexivity). subst m.
  exists s', a, b. split; [exact E|]. split; [exact R'|]. split; [exact Et|]. unfold trim in E. assert (New : Val str_new = Val s' -> hash s' = 0 /\ (zlen (strip t) mod 16 <> 0 -> exists j, buf s' = strip t ++ 0 :: j)). { intros X. injection X as <-. split; [reflexivity|]. destruct R' as (j & _ & El). cbn [str_new len] in El. rewrite <- El. intros H. exfalso. apply H. reflexivity. }
  destruct (len s =? 0); [auto|]. destruct (skip_left _ _ _ _) as [i| | |]; try discriminate. cbn [bind] in E. destruct (skip_right _ _ _) as [k| | |]; try discriminate. cbn [bind] in E. destruct (k <=? i); [auto|]. eapply substring_room; eauto.
Qed.
Lemma unbreak_In t c : In c (unbreak t) -> In c t \/ c = 10.
Proof.
  unfold unbreak. destruct (begins_bsn t); [auto|]. induction t as [|x|x d r I1 I2] using pair_ind; [intros []|auto|]. change (breaks (x :: d :: r)) with (if (x =? 92) && (d =? 110) then 10 :: breaks r else x :: breaks (d :: r)).
  cbn [In]. destruct ((x =? 92) && (d =? 110)); intros [E|H]; auto; [apply I1 in H|apply I2 in H; cbn [In] in H]; tauto.
Qed.
Lemma unbreak_len t : zlen (unbreak t) <= zlen t.
Proof.
  unfold unbreak. destruct (begins_bsn t); [lia|]. induction t as [|x|x d r I1 I2] using pair_ind; [cbn; lia|cbn; lia|]. change (breaks (x :: d :: r)) with (if (x =? 92) && (d =? 110) then 10 :: breaks r else x :: breaks (d :: r)).
  rewrite !zlen_cons in *. destruct ((x =? 92) && (d =? 110)); rewrite zlen_cons; lia.
Qed.
Lemma unesc_In t c : In c (unesc t) -> In c t \/ c = 9 \/ c = 92.
Proof.
  induction t as [|x|x d r I1 I2] using pair_ind; [intros []|auto|]. rewrite unesc2. cbn [In]. destruct ((x =? 92) && (d =? 116)); [|destruct ((x =? 92) && (d =? 92))]; intros [E|H]; auto; [apply I1 in H|apply I1 in H|apply I2 in H; cbn [In] in H]; tauto.
Qed.
Lemma unesc_len t : zlen (unesc t) <= zlen t.
Proof.
  induction t as [|x|x d r I1 I2] using pair_ind; [cbn; lia|cbn; lia|]. rewrite unesc2. rewrite !zlen_cons in *. destruct ((x =? 92) && (d =? 116)); [|destruct ((x =? 92) && (d =? 92))]; rewrite zlen_cons; lia.
Qed.
Lemma clean_zero s : hash s = 0 -> clean s.
Proof. intros H. unfold clean, reported. now rewrite H. Qed.
Lemma last_in (t : list Z) d : t <> [] -> In (last t d) t.
Proof. intros N. destruct (exists_last N) as (a & x & ->). rewrite last_last. apply in_or_app. right. now left. Qed.
Lemma load_line_ok p m K line t fuel : pinv p m K -> repr line t -> Forall unit16 t -> ~ In 13 t -> zlen t < 2 ^ 31 -> safe_line t -> (Z.to_nat K < fuel)%nat -> 0 <= K < 2 ^ 59 ->
  exists p', load_line p line fuel = Val p' /\ pinv p' (read_line m t) (K + 1).
Proof.
  intros I R U N13 B Sf Hf HK. unfold load_line. rewrite (index_cut line t R). cbn [bind]. unfold read_line, safe_line, setting_of in *. destruct (cut t) as [[a v]|] eqn:C.
  2:{ change (-1 >? 0) with false. exists p. split; [reflexivity|]. eapply pinv_up; [exact I|lia]. }
  apply cut_some in C as [-> Na]. destruct a as [|c a]; [change (zlen (@nil Z) >? 0) with false; exists p; split; [reflexivity|]; eapply pinv_up; [exact I|lia]|].
  replace (zlen (c :: a) >? 0) with true by (rewrite zlen_cons; pose proof (zlen_nonneg a); lia). set (k := c :: a) in *. clearbody k. clear c a.
  destruct (substring_mid line [] k (61 :: v) R) as (s1 & E1 & R1). change (zlen (@nil Z)) with 0 in E1. rewrite Z.add_0_l in E1. rewrite E1. cbn [bind]. destruct (trim_full s1 k R1) as (key & kx & ky & -> & Rk & Ek & Hk & _). cbn [bind].
  destruct (substring_from_mid line (k ++ [61]) v) as (s2 & E2 & R2); [rewrite <- app_assoc; exact R|]. rewrite zlen_app in E2. change (zlen [61]) with 1 in E2. rewrite E2. cbn [bind]. destruct (trim_full s2 v R2) as (v0 & vx & vy & -> & Rv & Ev & _ & Room). cbn [bind].
  apply Forall_app in U as [Uk U]. apply Forall_cons_iff in U as [_ Uv]. rewrite zlen_app, zlen_cons in B. pose proof (zlen_nonneg k). pose proof (zlen_nonneg v).
  assert (Uk' : Forall unit16 (strip k) /\ zlen (strip k) <= zlen k). { rewrite Ek in Uk. apply Forall_app in Uk as [_ Uk]. apply Forall_app in Uk as [Uk _]. split; [exact Uk|]. rewrite Ek at 2. rewrite !zlen_app. pose proof (zlen_nonneg kx). pose proof (zlen_nonneg ky). lia. }
  assert (Uv' : Forall unit16 (strip v) /\ zlen (strip v) <= zlen v /\ ~ In 13 (strip v)). { rewrite Ev in Uv. apply Forall_app in Uv as [_ Uv]. apply Forall_app in Uv as [Uv _]. split; [exact Uv|]. split; [rewrite Ev at 2; rewrite !zlen_app; pose proof (zlen_nonneg vx); pose proof (zlen_nonneg vy); lia|]. intros X. apply N13. apply in_or_app. right. right. rewrite Ev. apply in_or_app. right. apply in_or_app. now left. }
  assert (Gk : good_key key). { pose proof (repr_text _ _ Rk) as [Tk Sk]. split; [|now apply clean_zero]. unfold proper. rewrite Tk. split; [exact Sk|]. split; [apply Uk'|lia]. }
  assert (Lv : len v0 = zlen (strip v)) by (destruct Rv as (? & _ & L); exact L).
  assert (Br : exists v1, break_loop v0 (S (Z.to_nat (len v0))) = Val v1 /\ repr v1 (unbreak (strip v))).
  { unfold safe_value in Sf. destruct Sf as [Sf|[Nv Md]].
    - apply (break_loop_ok _ (strip v)); auto. rewrite Lv, length_zlen. lia.
    - destruct (Room Md) as (j & Eb). exists v0. destruct (break_loop_room (Z.to_nat (len v0)) (strip v) v0 (0 :: j) Eb Lv eq_refl Nv) as [-> ->]. split; [reflexivity|exact Rv]. }
  destruct Br as (v1 & -> & R1v). cbn [bind]. assert (Lv1 : len v1 = zlen (unbreak (strip v))) by (destruct R1v as (? & _ & L); exact L).
  destruct (unescape_loop_ok (S (Z.to_nat (len v1))) (unbreak (strip v)) [] v1 R1v) as (v2 & E3 & R2v); [rewrite Lv1, length_zlen; lia|]. change (zlen (@nil Z)) with 0 in E3. cbn [app] in R2v. rewrite E3. cbn [bind].
  pose proof (repr_text _ _ Rk) as [Tk _]. pose proof (repr_text _ _ R2v) as [Tv Sv]. rewrite <- Tk, <- Tv. apply set_value_ok; auto.
  pose proof (unesc_len (unbreak (strip v))). pose proof (unbreak_len (strip v)). split.
  - unfold proper. rewrite Tv. split; [exact Sv|]. split; [|lia]. apply Forall_forall. intros x Ix. apply unesc_In in Ix as [Ix|Ix]; [apply unbreak_In in Ix as [Ix|Ix]|]; [|unfold unit16; lia|unfold unit16; lia]. destruct Uv' as (Uv' & _). rewrite Forall_forall in Uv'. auto.
  - left. rewrite Tv. intros E. destruct (unesc (unbreak (strip v))) as [|x r] eqn:Eu; [discriminate|]. assert (J : In 13 (unesc (unbreak (strip v)))) by (rewrite Eu, <- E; apply last_in; discriminate). apply unesc_In in J as [J|J]; [apply unbreak_In in J as [J|J]|]; [|lia|lia]. destruct Uv' as (_ & _ & X). contradiction.
Qed.
Lemma tokens_In ret isd : ret = false -> forall t cur tk, In tk (tokens ret isd cur t) -> zlen tk <= zlen cur + zlen t /\ forall c, In c tk -> In c cur \/ In c t /\ isd c = false.
Proof.
  intros ->. assert (Fl : forall cur t tk, In tk (match cur with [] => [] | _ => [cur] end) -> zlen tk <= zlen cur + zlen t /\ forall c, In c tk -> In c cur \/ In c t /\ isd c = false).
  { intros [|x cur] t tk H; [destruct H|]. destruct H as [<-|[]]. pose proof (zlen_nonneg t). split; [lia|auto]. }
  induction t as [|x t IH]; intros cur tk H; cbn [tokens] in H; [apply Fl; exact H|]. rewrite zlen_cons. destruct (isd x) eqn:D.
  - cbn [app] in H. apply in_app_iff in H as [H|H]; [rewrite <- zlen_cons with (a := x); apply Fl; exact H|]. destruct (IH [] tk H) as [L C]. change (zlen (@nil Z)) with 0 in L. pose proof (zlen_nonneg cur). split; [lia|]. intros c Hc. destruct (C c Hc) as [[]|[I J]]. right. split; [now right|exact J].
  - destruct (IH (cur ++ [x]) tk H) as [L C]. rewrite zlen_app in L. change (zlen [x]) with 1 in L. split; [lia|]. intros c Hc. destruct (C c Hc) as [I|[I J]]; [|right; split; [now right|exact J]]. apply in_app_iff in I as [I|[<-|[]]]; [now left|right; split; [now left|exact D]].
Qed.
Lemma tokens_count isd : forall t cur, zlen (tokens false isd cur t) <= zlen t + match cur with [] => 0 | _ => 1 end.
Proof.
  induction t as [|x t IH]; intros cur; cbn [tokens]; [destruct cur; cbn; lia|]. rewrite zlen_cons. destruct (isd x).
  - cbn [app]. rewrite zlen_app. specialize (IH []). cbn in IH. destruct cur; cbn [zlen length] in *; change (zlen (@nil (list Z))) with 0; try change (zlen [_]) with 1; unfold zlen in *; cbn [length] in *; lia.
  - specialize (IH (cur ++ [x])). destruct cur; cbn [app] in *; lia.
Qed.
Lemma load_lines_ok s d fuel : forall ts p m K st k, L_Tokenizer.inv s d false st ts -> pinv p m K -> Forall (fun t => Forall unit16 t /\ ~ In 13 t /\ zlen t < 2 ^ 31 /\ safe_line t) ts ->
  (Z.to_nat (K + zlen ts) < fuel)%nat -> 0 <= K -> K + zlen ts < 2 ^ 59 -> (length ts < k)%nat -> exists p', load_lines p st fuel k = Val p' /\ pinv p' (fold_left read_line ts m) (K + zlen ts).
Proof.
  induction ts as [|t ts IH]; intros p m K st k It I F Hf HK HB Hk; (destruct k as [|k]; [cbn [length] in Hk; lia|]); cbn [load_lines]; destruct (L_Tokenizer.has_next_ok s d false st _ It) as (st1 & -> & I1); cbn [bind].
  - change (zlen (@nil (list Z))) with 0. exists p. rewrite Z.add_0_r. auto.
  - destruct (L_Tokenizer.next_ok s d false st1 _ I1) as (o & st2 & -> & (line & -> & Rl) & I2). cbn [bind]. apply Forall_cons_iff in F as [(U & N & L & Sf) F]. rewrite zlen_cons in *. pose proof (zlen_nonneg ts). destruct (load_line_ok p m K line t fuel I Rl U N L Sf ltac:(lia) ltac:(lia)) as (p1 & -> & Ip). cbn [bind fold_left length] in *.
    destruct (IH p1 (read_line m t) (K + 1) st2 k I2 Ip F ltac:(lia) ltac:(lia) ltac:(lia) ltac:(lia)) as (p' & E & I'). exists p'. split; [exact E|]. replace (K + (1 + zlen ts)) with (K + 1 + zlen ts) by lia. exact I'.
Qed.
Lemma seqs_count : forall n t cs, (length t <= n)%nat -> seqs t = Some cs -> zlen cs <= zlen t.
Proof.
  induction n as [|n IH]; intros t cs Hn E; (destruct t as [|b r]; [injection E as <-; cbn; lia|]); [cbn [length] in Hn; lia|]. cbn [seqs] in E. assert (St : forall x r', (length r' <= n)%nat -> zlen r' < zlen (b :: r) -> option_map (cons x) (seqs r') = Some cs -> zlen cs <= zlen (b :: r)).
  { intros x r' Hr Hl Ex. destruct (seqs r') as [cs'|] eqn:Es; [|discriminate]. injection Ex as <-. specialize (IH r' cs' Hr Es). rewrite zlen_cons in *. lia. }
  cbn [length] in Hn. destruct (seq_len b =? 1); [eapply St; eauto; [lia|rewrite zlen_cons; lia]|]. destruct (seq_len b =? 2); [destruct r as [|x r]; [discriminate|]; cbn [length] in *; eapply St; eauto; [lia|rewrite !zlen_cons; lia]|]. destruct (seq_len b =? 3); [destruct r as [|x [|y r]]; try discriminate; cbn [length] in *; eapply St; eauto; [lia|rewrite !zlen_cons; lia]|].
  destruct r as [|x [|y [|z r]]]; try discriminate; cbn [length] in *; eapply St; eauto; [lia|rewrite !zlen_cons; lia].
Qed.
Lemma file_text_ok b : utf8_meaning b = Units (file_text b) -> Forall unit16 (file_text b) /\ zlen (file_text b) <= zlen b.
Proof.
  unfold utf8_meaning. destruct (utf16_bom b); [discriminate|]. destruct (seqs (skip_bom b)) as [cs|] eqn:E; [|discriminate]. destruct (has_fffe cs); [discriminate|]. intros H. injection H as <-. split.
  - apply Forall_forall. intros x Hx. apply in_map_iff in Hx as (s & <- & _). unfold unit16. lia.
  - unfold zlen at 1. rewrite map_length. fold (zlen cs). pose proof (seqs_count _ _ _ (le_n _) E) as L. enough (zlen (skip_bom b) <= zlen b) by lia. unfold skip_bom. destruct b as [|x [|y [|z r]]]; try lia. destruct (_ && _ && _); [rewrite !zlen_cons; lia|lia].
Qed.
Lemma load_ok p m K bytes fuel : pinv p m K -> Forall (fun x => 0 < x < 256) bytes -> zlen bytes < 2 ^ 31 -> utf8_meaning bytes = Units (file_text bytes) -> Forall safe_line (lines_of (file_text bytes)) ->
  (Z.to_nat (K + zlen bytes) < fuel)%nat -> 0 <= K -> K + zlen bytes < 2 ^ 59 -> exists p', load p bytes fuel = Val p' /\ pinv p' (read_text m (file_text bytes)) (K + zlen bytes).
Proof.
  intros I Fb Lb Me Sf Hf HK HB. pose proof (file_text_ok bytes Me) as [U Lt]. set (t := file_text bytes) in *. unfold load.
  assert (D : exists data, (if zlen bytes >? 0 then let* xs := utf8_decode (bytes ++ [0]) in Val (str_of xs) else Val str_new) = Val data /\ repr data t).
  { destruct (Z.gtb_spec (zlen bytes) 0) as [P|P].
    - rewrite decode_total by exact Fb. rewrite Me. cbn [outcome_of bind]. exists (str_of t). split; [reflexivity|apply str_of_repr].
    - pose proof (zlen_nonneg bytes). pose proof (zlen_nonneg t). exists str_new. split; [reflexivity|]. assert (t = []) as -> by (apply zlen_zero; lia). apply str_new_repr. }
  destruct D as (data & -> & R). cbn [bind]. unfold tok_new. destruct (copy_ctor_ok data t R) as (s1 & -> & R1 & _). cbn [bind]. destruct (copy_ctor_ok l_crlf [13; 10] (str_of_repr _)) as (d1 & -> & Rd & _). cbn [bind].
  assert (Ld : len data = zlen t) by (destruct R as (? & _ & L); exact L). pose proof (tokens_count (is_in [13; 10]) t []) as Tc. fold (lines_of t) in Tc. cbv iota in Tc. rewrite Z.add_0_r in Tc.
  destruct (load_lines_ok t [13; 10] fuel (lines_of t) p m K (TK s1 d1 0 (-1) false) (S (Z.to_nat (len data)))) as (p' & E & I'); auto.
  - split; [split; [exact R1|]; split; [exact Rd|reflexivity]|]. exists [], t. split; [reflexivity|]. split; [reflexivity|]. left. auto.
  - apply Forall_forall. intros tk Ht. rewrite Forall_forall in Sf. pose proof (Sf tk Ht). destruct (tokens_In false (is_in [13; 10]) eq_refl t [] tk Ht) as [L C]. change (zlen (@nil Z)) with 0 in L. split; [apply Forall_forall; intros c Hc; destruct (C c Hc) as [[]|[Ic _]]; rewrite Forall_forall in U; auto|]. split; [|split; [lia|assumption]]. intros Hc. destruct (C 13 Hc) as [[]|[_ X]]. discriminate.
  - lia.
  - lia.
  - rewrite Ld, length_zlen. lia.
  - exists p'. split; [exact E|]. eapply pinv_up; [exact I'|lia].
Qed.
