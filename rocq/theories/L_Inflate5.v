(** L_Inflate5.v -- Inflater: the data of a block with fixed or dynamic codes *)
From Verif Require Import Base M_Inflate S_Inflate L_Inflate L_Inflate2 L_Inflate3 L_Inflate4.
Ltac Zify.zify_post_hook ::= Z.to_euclidean_division_equations.
Lemma in_zrange v n : 0 <= v < Z.of_nat n -> In v (zrange n).
Proof. intros H. unfold zrange. apply in_map_iff. exists (Z.to_nat v). split; [lia|]. apply in_seq. lia. Qed.
(** ** the tables *)
Definition tab_ok (t : list Z) (f : Z -> Z) (off : Z) : bool := forallb (fun k => match lget t k with Some v => v =? f (k + off) | None => false end) (zrange (length t)).
Lemma tab_rd t f off k : tab_ok t f off = true -> 0 <= k < zlen t -> rd t k = Val (f (k + off)).
Proof.
  unfold tab_ok. rewrite forallb_forall. intros H R. specialize (H k (in_zrange k (length t) ltac:(unfold zlen in R; lia))). cbn beta in H. unfold rd. destruct (lget t k); [|discriminate]. cbn beta in H. apply Z.eqb_eq in H. now rewrite H.
Qed.
Lemma length_extra_rd v : 257 <= v <= 285 -> rd LENGTH_EXTRA (v - 257) = Val (length_extra v).
Proof. intros H. rewrite (tab_rd _ length_extra 257); [do 2 f_equal; lia|vm_compute; reflexivity|change (zlen LENGTH_EXTRA) with 29; lia]. Qed.
Lemma length_base_rd v : 257 <= v <= 285 -> rd LENGTH_OFFSET (v - 257) = Val (length_base v).
Proof. intros H. rewrite (tab_rd _ length_base 257); [do 2 f_equal; lia|vm_compute; reflexivity|change (zlen LENGTH_OFFSET) with 29; lia]. Qed.
Lemma dist_extra_rd v : 0 <= v <= 29 -> rd DIST_EXTRA v = Val (dist_extra v).
Proof. intros H. rewrite (tab_rd _ dist_extra 0); [do 2 f_equal; lia|vm_compute; reflexivity|change (zlen DIST_EXTRA) with 30; lia]. Qed.
Lemma dist_base_rd v : 0 <= v <= 29 -> rd DIST_OFFSET v = Val (dist_base v).
Proof. intros H. rewrite (tab_rd _ dist_base 0); [do 2 f_equal; lia|vm_compute; reflexivity|change (zlen DIST_OFFSET) with 30; lia]. Qed.
Lemma length_bounds v : 257 <= v <= 285 -> 0 <= length_extra v <= 5 /\ 3 <= length_base v /\ length_base v + 2 ^ length_extra v <= 259.
Proof.
  intros H. assert (G : forallb (fun k => (0 <=? length_extra k) && (length_extra k <=? 5) && (3 <=? length_base k) && (length_base k + 2 ^ length_extra k <=? 259)) (map (Z.add 257) (zrange 29)) = true) by (vm_compute; reflexivity).
  rewrite forallb_forall in G. specialize (G v). assert (I : In v (map (Z.add 257) (zrange 29))) by (apply in_map_iff; exists (v - 257); split; [lia|apply in_zrange; lia]). specialize (G I). rewrite !andb_true_iff in G. lia.
Qed.
Lemma dist_bounds v : 0 <= v <= 29 -> 0 <= dist_extra v <= 13 /\ 1 <= dist_base v /\ dist_base v + 2 ^ dist_extra v <= 32769.
Proof.
  intros H. assert (G : forallb (fun k => (0 <=? dist_extra k) && (dist_extra k <=? 13) && (1 <=? dist_base k) && (dist_base k + 2 ^ dist_extra k <=? 32769)) (zrange 30) = true) by (vm_compute; reflexivity).
  rewrite forallb_forall in G. specialize (G v (in_zrange v 30 ltac:(lia))). rewrite !andb_true_iff in G. lia.
Qed.
(** ** the fixed codes *)
Definition fixed_code (v : Z) : Z := if v <? 144 then 48 + v else if v <? 256 then 256 + v else if v <? 280 then v - 256 else v - 88.
Definition fixed_len (v : Z) : Z := if v <? 144 then 8 else if v <? 256 then 9 else if v <? 280 then 7 else 8.
Lemma fixed_codes v : 0 <= v <= 287 -> code fixed_ll v = fixed_code v /\ len_of fixed_ll v = fixed_len v.
Proof.
  intros H. assert (G : forallb (fun v => (code fixed_ll v =? fixed_code v) && (len_of fixed_ll v =? fixed_len v)) (zrange 288) = true) by (vm_compute; reflexivity).
  rewrite forallb_forall in G. specialize (G v (in_zrange v 288 ltac:(lia))). rewrite !andb_true_iff in G. lia.
Qed.
Lemma fixed_dist v : 0 <= v <= 31 -> word fixed_dl v = msb 5 v.
Proof.
  intros H. assert (G : forallb (fun v => (code fixed_dl v =? v) && (len_of fixed_dl v =? 5)) (zrange 32) = true) by (vm_compute; reflexivity).
  rewrite forallb_forall in G. specialize (G v (in_zrange v 32 ltac:(lia))). rewrite !andb_true_iff in G. unfold word. replace (len_of fixed_dl v) with 5 by lia. f_equal; lia.
Qed.
Lemma msb_snoc n v : msb (S n) v = msb n (v / 2) ++ [v mod 2].
Proof. reflexivity. Qed.
Lemma lor_bit a b : 0 <= a -> b = 0 \/ b = 1 -> Z.lor (a * 2) b = a * 2 + b.
Proof. intros H [-> | ->]; [rewrite Z.lor_0_r; lia|]. rewrite (Z.mul_comm a). destruct a; [reflexivity|reflexivity|lia]. Qed.
Lemma step_bit c : 0 <= c < 32768 -> u16 (Z.lor (u16 (Z.shiftl (c / 2) 1)) (c mod 2)) = c.
Proof.
  intros H. rewrite Z.shiftl_mul_pow2 by lia. change (2 ^ 1) with 2. rewrite (u16_id (c / 2 * 2)) by lia. rewrite lor_bit by lia. rewrite u16_id by lia. lia.
Qed.
Lemma next_fixed_ok D s p v r o l : St D s p (word fixed_ll v ++ r) o l -> 0 <= v <= 287 -> exists s', next_fixed s = Val (v, s') /\ St D s' (p + zlen (word fixed_ll v)) r o l.
Proof.
  intros Hs Hv. destruct (fixed_codes v Hv) as [Ec El]. unfold word in *. rewrite Ec, El in *. rewrite zlen_msb. unfold next_fixed, fixed_code, fixed_len in *.
  destruct (Z.ltb_spec v 144); [|destruct (Z.ltb_spec v 256); [|destruct (Z.ltb_spec v 280)]].
  - change (Z.to_nat 8) with 8%nat in *. rewrite msb_snoc, <- app_assoc in Hs. cbn [app] in Hs.
    destruct (next_uintx_ok D l o 7 s p ((48 + v) / 2) _ Hs) as (s1 & -> & S1); [lia|lia|]. cbn [bind]. replace ((48 + v) / 2 <=? 23) with false by lia.
    destruct (next_bit_ok _ _ _ _ _ _ _ S1) as (s2 & -> & S2). cbn [bind]. rewrite step_bit by lia. replace ((192 <=? 48 + v) && (48 + v <=? 199)) with false by lia. replace ((48 <=? 48 + v) && (48 + v <=? 191)) with true by lia.
    exists s2. rewrite u16_id by lia. split; [do 2 f_equal; lia|]. replace (p + Z.of_nat 8) with (p + 7 + 1) by lia. exact S2.
  - change (Z.to_nat 9) with 9%nat in *. rewrite !msb_snoc, <- !app_assoc in Hs. cbn [app] in Hs.
    destruct (next_uintx_ok D l o 7 s p ((256 + v) / 2 / 2) _ Hs) as (s1 & -> & S1); [lia|lia|]. cbn [bind]. replace ((256 + v) / 2 / 2 <=? 23) with false by lia.
    destruct (next_bit_ok _ _ _ _ _ _ _ S1) as (s2 & -> & S2). cbn [bind]. rewrite step_bit by lia. replace ((192 <=? (256 + v) / 2) && ((256 + v) / 2 <=? 199)) with false by lia. replace ((48 <=? (256 + v) / 2) && ((256 + v) / 2 <=? 191)) with false by lia.
    destruct (next_bit_ok _ _ _ _ _ _ _ S2) as (s3 & -> & S3). cbn [bind]. rewrite step_bit by lia. replace ((400 <=? 256 + v) && (256 + v <=? 511)) with true by lia.
    exists s3. rewrite u16_id by lia. split; [do 2 f_equal; lia|]. replace (p + Z.of_nat 9) with (p + 7 + 1 + 1) by lia. exact S3.
  - change (Z.to_nat 7) with 7%nat in *. destruct (next_uintx_ok D l o 7 s p (v - 256) _ Hs) as (s1 & -> & S1); [lia|lia|]. cbn [bind]. replace (v - 256 <=? 23) with true by lia.
    exists s1. rewrite u16_id by lia. split; [do 2 f_equal; lia|exact S1].
  - change (Z.to_nat 8) with 8%nat in *. rewrite msb_snoc, <- app_assoc in Hs. cbn [app] in Hs.
    destruct (next_uintx_ok D l o 7 s p ((v - 88) / 2) _ Hs) as (s1 & -> & S1); [lia|lia|]. cbn [bind]. replace ((v - 88) / 2 <=? 23) with false by lia.
    destruct (next_bit_ok _ _ _ _ _ _ _ S1) as (s2 & -> & S2). cbn [bind]. rewrite step_bit by lia. replace ((192 <=? v - 88) && (v - 88 <=? 199)) with true by lia.
    exists s2. rewrite u16_id by lia. split; [do 2 f_equal; lia|]. replace (p + Z.of_nat 8) with (p + 7 + 1) by lia. exact S2.
Qed.
Lemma word_pos lens s : used lens s -> 1 <= zlen (word lens s).
Proof. unfold used, word. intros U. rewrite zlen_msb. lia. Qed.
(** ** the loops *)
Section Loops.
Context (more : Z -> Z -> Z -> Z).
Lemma copy_from_ok D p r l src n : forall s o a, St D s p r o l -> 8 <= p -> 0 <= src + a < zlen o -> exists s', copy_loop more s src a n = Val s' /\ St D s' p r (copy_from n (src + a) o) l.
Proof.
  induction n as [|n IH]; intros s o a S P R; cbn [copy_loop copy_from]; [eauto|]. destruct (lget_range o (src + a)) as (b & G); [lia|]. rewrite (out_at_ok more _ _ _ _ _ _ _ _ S G). cbn [bind].
  destruct (write_ok more _ _ _ _ _ _ b S P) as (s1 & -> & S1). cbn [bind]. rewrite G. replace (src + a + 1) with (src + (a + 1)) by lia. apply IH; auto. rewrite zlen_app. change (zlen [b]) with 1. lia.
Qed.
Lemma zlen_copy_from n : forall src o, zlen (copy_from n src o) = zlen o + Z.of_nat n.
Proof. induction n as [|n IH]; intros src o; cbn [copy_from]; [lia|]. rewrite IH, zlen_app. match goal with |- context [zlen [?x]] => change (zlen [x]) with 1 end. lia. Qed.
Lemma zlen_copy n d : forall o, zlen (copy n d o) = zlen o + Z.of_nat n.
Proof. induction n as [|n IH]; intros o; cbn [copy]; [lia|]. rewrite IH, zlen_app. match goal with |- context [zlen [?x]] => change (zlen [x]) with 1 end. lia. Qed.
Lemma copy_from_copy n d : forall o, copy_from n (zlen o - d) o = copy n d o.
Proof. induction n as [|n IH]; intros o; cbn [copy_from copy]; [reflexivity|]. rewrite <- IH. f_equal. rewrite zlen_app. match goal with |- context [zlen [?x]] => change (zlen [x]) with 1 end. lia. Qed.
Lemma zlen_lib_token o o' t : zlen o = zlen o' -> zlen (lib_token o t) = zlen (out_token o' t).
Proof. intros E. destruct t; cbn [lib_token out_token]; [rewrite !zlen_app; lia|]. rewrite zlen_copy_from, zlen_copy. lia. Qed.
Lemma zlen_out_token o o' t : zlen o = zlen o' -> zlen (out_token o t) = zlen (out_token o' t).
Proof. intros E. destruct t; cbn [out_token]; [rewrite !zlen_app; lia|]. rewrite !zlen_copy. lia. Qed.
Lemma tokens_ok_len lim ll dl ts : forall o o', zlen o = zlen o' -> tokens_ok lim ll dl o ts -> tokens_ok lim ll dl o' ts.
Proof.
  induction ts as [|t ts IH]; intros o o' E; cbn [tokens_ok]; [auto|]. intros (A & B & C). repeat match goal with |- _ /\ _ => split end.
  - destruct t; cbn [token_ok] in *; [exact A|]. rewrite <- E. exact A.
  - destruct t; cbn [near] in *; [exact B|]. rewrite <- E. exact B.
  - eapply IH; [|exact C]. now apply zlen_out_token.
Qed.
Lemma fixed_loop_ok D l ts : forall s p r o fuel, St D s p (tokens_bits fixed_ll fixed_dl ts ++ r) o l -> 3 <= p -> tokens_ok None fixed_ll fixed_dl o ts -> (length ts < fuel)%nat ->
  exists s', fixed_loop more s fuel = Val s' /\ St D s' (p + zlen (tokens_bits fixed_ll fixed_dl ts)) r (fold_left lib_token ts o) l.
Proof.
  unfold tokens_bits. induction ts as [|t ts IH]; intros s p r o [|fuel] Hs Hp Ok Hf; cbn [length] in Hf; try lia; cbn [flat_map app fixed_loop] in *.
  - destruct (next_fixed_ok _ _ _ _ _ _ _ Hs ltac:(lia)) as (s1 & -> & S1). cbn [bind]. exists s1. split; [reflexivity|exact S1].
  - cbn [tokens_ok] in Ok. destruct Ok as (Tk & Nr & Ok). apply (tokens_ok_len _ _ _ ts _ (lib_token o t)) in Ok; [|symmetry; now apply zlen_lib_token]. rewrite <- (app_assoc (token_bits fixed_ll fixed_dl t)) in Hs. rewrite <- (app_assoc (token_bits fixed_ll fixed_dl t)) in Hs. cbn [fold_left]. rewrite <- app_assoc, (zlen_app (token_bits fixed_ll fixed_dl t)).
    destruct t as [b|ls le ds de]; cbn [token_ok token_bits near lib_token] in *.
    + destruct Tk as (Hb & U). destruct (next_fixed_ok _ _ _ _ _ _ _ Hs ltac:(lia)) as (s1 & -> & S1). cbn [bind]. replace (b <? 256) with true by lia.
      assert (P8 : 8 <= p + zlen (word fixed_ll b)) by (unfold word; rewrite zlen_msb, (proj2 (fixed_codes b ltac:(lia))); unfold fixed_len; destruct (b <? 144), (b <? 256), (b <? 280); lia).
      destruct (write_ok more _ _ _ _ _ _ (u8 b) S1 P8) as (s2 & -> & S2). cbn [bind]. rewrite u8_id in S2 by lia.
      destruct (IH s2 _ r _ fuel S2 ltac:(lia) Ok ltac:(lia)) as (s3 & E3 & S3). exists s3. split; [exact E3|]. rewrite <- Z.add_assoc in S3. exact S3.
    + destruct Tk as (Hls & Hle & Hds & Hde & Ul & Ud & Hd). rewrite <- (app_assoc (word _ ls)), <- (app_assoc (lsb _ le)), <- (app_assoc (word _ ds)) in Hs.
      destruct (length_bounds ls Hls) as (L1 & L2 & L3). destruct (dist_bounds ds Hds) as (D1 & D2 & D3).
      destruct (next_fixed_ok _ _ _ _ _ _ _ Hs ltac:(lia)) as (s1 & -> & S1). cbn [bind]. replace (ls <? 256) with false by lia. replace (ls =? 256) with false by lia. replace (ls <=? 285) with true by lia.
      assert (P7 : 7 <= zlen (word fixed_ll ls)) by (unfold word; rewrite zlen_msb, (proj2 (fixed_codes ls ltac:(lia))); unfold fixed_len; destruct (ls <? 144), (ls <? 256), (ls <? 280); lia).
      rewrite length_extra_rd by lia. cbn [bind]. destruct (next_uintxr_ok _ _ _ _ _ _ _ _ S1 ltac:(lia) Hle) as (s2 & -> & S2). cbn [bind]. rewrite length_base_rd by lia. cbn [bind].
      rewrite fixed_dist in S2 by lia. destruct (next_uintx_ok D l o 5 s2 _ ds _ S2 ltac:(lia) ltac:(lia)) as (s3 & -> & S3). cbn [bind].
      rewrite dist_extra_rd by lia. cbn [bind]. destruct (next_uintxr_ok _ _ _ _ _ _ _ _ S3 ltac:(lia) Hde) as (s4 & -> & S4). cbn [bind]. rewrite dist_base_rd by lia. cbn [bind].
      unfold mlen, mdist in *. rewrite (u16_id (le + length_base ls)), (u16_id (de + dist_base ds)) by lia.
      assert (Eu : ui s4 = zlen o) by (destruct S4 as (_ & _ & _ & _ & _ & _ & j & _ & ->); reflexivity). rewrite Eu.
      change 32767 with (Z.ones 15). rewrite Z.land_ones by lia. change (2 ^ 15) with 32768. set (src := (zlen o - (de + dist_base ds)) mod 32768). assert (Hsrc : 0 <= src < zlen o) by (unfold src; lia). replace (src <? 0) with false by lia.
      destruct (copy_from_ok D _ _ l src (Z.to_nat (le + length_base ls)) s4 o 0 S4 ltac:(lia) ltac:(lia)) as (s5 & -> & S5). cbn [bind]. rewrite Z.add_0_r in S5. unfold src in S5.
      rewrite (Z.add_comm le), (Z.add_comm de) in S5. destruct (IH s5 _ r _ fuel S5 ltac:(lia) Ok ltac:(lia)) as (s6 & E6 & S6). exists s6. split; [exact E6|].
      match goal with |- St _ _ ?x _ _ _ => match type of S6 with St _ _ ?y _ _ _ => replace x with y; [exact S6|] end end. rewrite !zlen_app, fixed_dist, !zlen_lsb, zlen_msb by lia. lia.
Qed.
Lemma dynamic_loop_ok D l ll dl lt dt ts : fits ll -> fits dl -> tree_for ll lt -> tree_for dl dt ->
  forall s p r o fuel, St D s p (tokens_bits ll dl ts ++ r) o l -> 8 <= p -> tokens_ok None ll dl o ts -> (length ts < fuel)%nat ->
  exists s', dynamic_loop more s lt dt fuel = Val s' /\ St D s' (p + zlen (tokens_bits ll dl ts)) r (out_tokens o ts) l.
Proof.
  intros Fl Fd Tl Td. unfold tokens_bits. induction ts as [|t ts IH]; intros s p r o [|fuel] Hs Hp Ok Hf; cbn [length] in Hf; try lia; cbn [flat_map app dynamic_loop] in *.
  - cbn [tokens_ok] in Ok. pose proof (len_range _ _ (proj1 Fl) Ok) as HL. destruct (decode_symbol_ok _ _ _ _ _ _ _ _ _ 15 Tl Fl Ok ltac:(lia) ltac:(lia) Hs) as (s1 & -> & S1). cbn [bind]. exists s1. split; [reflexivity|exact S1].
  - cbn [tokens_ok] in Ok. destruct Ok as (Tk & Nr & Ok). rewrite <- (app_assoc (token_bits ll dl t)) in Hs. rewrite <- (app_assoc (token_bits ll dl t)) in Hs. cbn [out_tokens fold_left]. rewrite <- app_assoc, (zlen_app (token_bits ll dl t)).
    destruct t as [b|ls le ds de]; cbn [token_ok token_bits near out_token] in *.
    + destruct Tk as (Hb & U). pose proof (len_range _ _ (proj1 Fl) U) as HL. destruct (decode_symbol_ok _ _ _ _ _ _ _ _ _ 15 Tl Fl U ltac:(lia) ltac:(lia) Hs) as (s1 & -> & S1). cbn [bind]. replace (b <? 256) with true by lia.
      pose proof (word_pos _ _ U).
      destruct (write_ok more _ _ _ _ _ _ (u8 b) S1 ltac:(lia)) as (s2 & -> & S2). cbn [bind]. rewrite u8_id in S2 by lia.
      destruct (IH s2 _ r _ fuel S2 ltac:(lia) Ok ltac:(lia)) as (s3 & E3 & S3). exists s3. split; [exact E3|]. rewrite <- Z.add_assoc in S3. exact S3.
    + destruct Tk as (Hls & Hle & Hds & Hde & Ul & Ud & Hd). rewrite <- (app_assoc (word _ ls)), <- (app_assoc (lsb _ le)), <- (app_assoc (word _ ds)) in Hs. pose proof (len_range _ _ (proj1 Fl) Ul) as HL. pose proof (len_range _ _ (proj1 Fd) Ud) as HD.
      destruct (length_bounds ls Hls) as (L1 & L2 & L3). destruct (dist_bounds ds Hds) as (D1 & D2 & D3). pose proof (word_pos _ _ Ul). pose proof (word_pos _ _ Ud).
      destruct (decode_symbol_ok _ _ _ _ _ _ _ _ _ 15 Tl Fl Ul ltac:(lia) ltac:(lia) Hs) as (s1 & -> & S1). cbn [bind]. replace (ls <? 256) with false by lia. replace (ls =? 256) with false by lia. replace (ls <=? 285) with true by lia.
      rewrite length_extra_rd by lia. cbn [bind]. destruct (next_uintxr_ok _ _ _ _ _ _ _ _ S1 ltac:(lia) Hle) as (s2 & -> & S2). cbn [bind]. rewrite length_base_rd by lia. cbn [bind].
      destruct (decode_symbol_ok _ _ _ _ _ _ _ _ _ 15 Td Fd Ud ltac:(lia) ltac:(lia) S2) as (s3 & -> & S3). cbn [bind].
      rewrite dist_extra_rd by lia. cbn [bind]. destruct (next_uintxr_ok _ _ _ _ _ _ _ _ S3 ltac:(lia) Hde) as (s4 & -> & S4). cbn [bind]. rewrite dist_base_rd by lia. cbn [bind].
      unfold mlen, mdist in *. rewrite (u16_id (le + length_base ls)), (u16_id (de + dist_base ds)) by lia.
      assert (Eu : ui s4 = zlen o) by (destruct S4 as (_ & _ & _ & _ & _ & _ & j & _ & ->); reflexivity). rewrite Eu.
      replace (zlen o - (de + dist_base ds) <? 0) with false by lia.
      destruct (copy_ok more D _ _ l (zlen o - (de + dist_base ds)) (de + dist_base ds) (Z.to_nat (le + length_base ls)) s4 o 0 S4 ltac:(lia) ltac:(lia) ltac:(lia) ltac:(lia) ltac:(lia)) as (s5 & -> & S5). cbn [bind].
      rewrite (Z.add_comm le), (Z.add_comm de) in S5. destruct (IH s5 _ r _ fuel S5 ltac:(lia) Ok ltac:(lia)) as (s6 & E6 & S6). exists s6. split; [exact E6|].
      match goal with |- St _ _ ?x _ _ _ => match type of S6 with St _ _ ?y _ _ _ => replace x with y; [exact S6|] end end. rewrite !zlen_app, !zlen_lsb by lia. lia.
Qed.
(** a match that reaches before the start *)
Lemma dynamic_bad D l ll dl lt dt ts : fits ll -> fits dl -> tree_for ll lt -> tree_for dl dt ->
  forall s p r o fuel ls le ds de, used ll 256 -> St D s p (flat_map (token_bits ll dl) ts ++ token_bits ll dl (Match ls le ds de) ++ r) o l -> 8 <= p -> tokens_ok None ll dl o ts -> (length ts < fuel)%nat ->
  257 <= ls <= 285 -> 0 <= le < 2 ^ length_extra ls -> 0 <= ds <= 29 -> 0 <= de < 2 ^ dist_extra ds -> used ll ls -> used dl ds -> zlen (out_tokens o ts) < mdist ds de ->
  dynamic_loop more s lt dt fuel = Exn.
Proof.
  intros Fl Fd Tl Td. induction ts as [|t ts IH]; intros s p r o [|fuel] ls le ds de U256 Hs Hp Ok Hf Hls Hle Hds Hde Ul Ud Hd; cbn [length] in Hf; try lia; cbn [flat_map app dynamic_loop token_bits] in *.
  - rewrite <- !app_assoc in Hs. pose proof (len_range _ _ (proj1 Fl) Ul) as HL. pose proof (len_range _ _ (proj1 Fd) Ud) as HD.
    destruct (length_bounds ls Hls) as (L1 & L2 & L3). destruct (dist_bounds ds Hds) as (D1 & D2 & D3).
    destruct (decode_symbol_ok _ _ _ _ _ _ _ _ _ 15 Tl Fl Ul ltac:(lia) ltac:(lia) Hs) as (s1 & -> & S1). cbn [bind]. replace (ls <? 256) with false by lia. replace (ls =? 256) with false by lia. replace (ls <=? 285) with true by lia.
    rewrite length_extra_rd by lia. cbn [bind]. destruct (next_uintxr_ok _ _ _ _ _ _ _ _ S1 ltac:(lia) Hle) as (s2 & -> & S2). cbn [bind]. rewrite length_base_rd by lia. cbn [bind].
    destruct (decode_symbol_ok _ _ _ _ _ _ _ _ _ 15 Td Fd Ud ltac:(lia) ltac:(lia) S2) as (s3 & -> & S3). cbn [bind].
    rewrite dist_extra_rd by lia. cbn [bind]. destruct (next_uintxr_ok _ _ _ _ _ _ _ _ S3 ltac:(lia) Hde) as (s4 & -> & S4). cbn [bind]. rewrite dist_base_rd by lia. cbn [bind].
    cbn [out_tokens fold_left] in Hd. unfold mdist in *. rewrite (u16_id (de + dist_base ds)) by lia.
    assert (Eu : ui s4 = zlen o) by (destruct S4 as (_ & _ & _ & _ & _ & _ & j & _ & ->); reflexivity). rewrite Eu. replace (zlen o - (de + dist_base ds) <? 0) with true by lia. reflexivity.
  - cbn [tokens_ok] in Ok. destruct Ok as (Tk & Nr & Ok). rewrite <- (app_assoc (token_bits ll dl t)) in Hs. cbn [out_tokens fold_left] in Hd.
    destruct t as [b|ls' le' ds' de']; cbn [token_ok token_bits near out_token] in *.
    + destruct Tk as (Hb & U). pose proof (len_range _ _ (proj1 Fl) U) as HL. destruct (decode_symbol_ok _ _ _ _ _ _ _ _ _ 15 Tl Fl U ltac:(lia) ltac:(lia) Hs) as (s1 & -> & S1). cbn [bind]. replace (b <? 256) with true by lia.
      pose proof (word_pos _ _ U). destruct (write_ok more _ _ _ _ _ _ (u8 b) S1 ltac:(lia)) as (s2 & -> & S2). cbn [bind]. rewrite u8_id in S2 by lia.
      eapply (IH s2 _ r (o ++ [b]) fuel ls le ds de); eauto; lia.
    + destruct Tk as (Hls' & Hle' & Hds' & Hde' & Ul' & Ud' & Hd'). rewrite <- (app_assoc (word _ ls')), <- (app_assoc (lsb _ le')), <- (app_assoc (word _ ds')) in Hs. pose proof (len_range _ _ (proj1 Fl) Ul') as HL. pose proof (len_range _ _ (proj1 Fd) Ud') as HD.
      destruct (length_bounds ls' Hls') as (L1 & L2 & L3). destruct (dist_bounds ds' Hds') as (D1 & D2 & D3). pose proof (word_pos _ _ Ul'). pose proof (word_pos _ _ Ud').
      destruct (decode_symbol_ok _ _ _ _ _ _ _ _ _ 15 Tl Fl Ul' ltac:(lia) ltac:(lia) Hs) as (s1 & -> & S1). cbn [bind]. replace (ls' <? 256) with false by lia. replace (ls' =? 256) with false by lia. replace (ls' <=? 285) with true by lia.
      rewrite length_extra_rd by lia. cbn [bind]. destruct (next_uintxr_ok _ _ _ _ _ _ _ _ S1 ltac:(lia) Hle') as (s2 & -> & S2). cbn [bind]. rewrite length_base_rd by lia. cbn [bind].
      destruct (decode_symbol_ok _ _ _ _ _ _ _ _ _ 15 Td Fd Ud' ltac:(lia) ltac:(lia) S2) as (s3 & -> & S3). cbn [bind].
      rewrite dist_extra_rd by lia. cbn [bind]. destruct (next_uintxr_ok _ _ _ _ _ _ _ _ S3 ltac:(lia) Hde') as (s4 & -> & S4). cbn [bind]. rewrite dist_base_rd by lia. cbn [bind].
      unfold mlen in *. assert (Hd2 : dist_base ds' + de' <= zlen o) by exact Hd'. rewrite (u16_id (le' + length_base ls')), (u16_id (de' + dist_base ds')) by lia.
      assert (Eu : ui s4 = zlen o) by (destruct S4 as (_ & _ & _ & _ & _ & _ & j & _ & ->); reflexivity). rewrite Eu.
      replace (zlen o - (de' + dist_base ds') <? 0) with false by lia.
      destruct (copy_ok more D _ _ l (zlen o - (de' + dist_base ds')) (de' + dist_base ds') (Z.to_nat (le' + length_base ls')) s4 o 0 S4 ltac:(lia) ltac:(lia) ltac:(lia) ltac:(lia) ltac:(lia)) as (s5 & -> & S5). cbn [bind].
      rewrite (Z.add_comm le'), (Z.add_comm de') in S5. eapply (IH s5 _ r _ fuel ls le ds de); eauto; lia.
Qed.
End Loops.
