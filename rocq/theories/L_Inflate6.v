(** L_Inflate6.v -- Inflater: stored blocks, the header of a dynamic block, the sequence of the blocks *)
From Verif Require Import Base M_Inflate S_Inflate L_Inflate L_Inflate2 L_Inflate3 L_Inflate4 L_Inflate5.
Ltac Zify.zify_post_hook ::= Z.to_euclidean_division_equations.
Lemma skipn_skipn' {A} (l : list A) : forall a b, skipn (a + b) l = skipn b (skipn a l).
Proof. induction l as [|x l IH]; intros [|a] b; cbn [plus skipn]; try reflexivity; [destruct b; reflexivity|apply IH]. Qed.
(** ** stored blocks *)
Lemma skip_ok D s p pad r o l : St D s p (pad ++ r) o l -> zlen pad = (- p) mod 8 -> St D (skip_byte_bits s) (p + zlen pad) r o l.
Proof.
  intros (C & L & B & I & P & K & O) E. unfold skip_byte_bits. destruct (Z.eqb_spec (bit s) 0) as [B0|B0].
  - assert (pad = []) as -> by (apply zlen_zero; rewrite E; lia). change (zlen []) with 0. rewrite Z.add_0_r. unfold St. repeat match goal with |- _ /\ _ => split end; try assumption; lia.
  - unfold St, set_in. cbn [cb lastb bit ci ub ui]. repeat match goal with |- _ /\ _ => split end; try assumption; try lia.
    replace (Z.to_nat (p + zlen pad)) with (Z.to_nat p + length pad)%nat by (unfold zlen; lia). rewrite skipn_skipn', K. replace (length pad) with (length pad + 0)%nat by lia. rewrite skipn_past. reflexivity.
Qed.
Lemma lsb_app a b : forall v, lsb (a + b) v = lsb a v ++ lsb b (v / 2 ^ Z.of_nat a).
Proof.
  induction a as [|a IH]; intros v; [cbn [plus lsb app]; change (2 ^ Z.of_nat 0) with 1; now rewrite Z.div_1_r|]. cbn [plus lsb app]. rewrite IH, Nat2Z.inj_succ, Z.pow_succ_r by lia. rewrite Z.div_div by (try lia; apply Z.pow_pos_nonneg; lia). reflexivity.
Qed.
Lemma lsb_mod n : forall v, lsb n v = lsb n (v mod 2 ^ Z.of_nat n).
Proof.
  induction n as [|n IH]; intros v; [reflexivity|]. cbn [lsb]. rewrite Nat2Z.inj_succ, Z.pow_succ_r by lia. assert (P : 0 < 2 ^ Z.of_nat n) by (apply Z.pow_pos_nonneg; lia). f_equal.
  - rewrite Z.rem_mul_r by lia. rewrite Z.add_mod, Z.mul_comm, Z.mod_mul, Z.add_0_r, !Z.mod_mod by lia. reflexivity.
  - rewrite IH. rewrite Z.rem_mul_r by lia. f_equal. replace (v mod 2 + 2 * ((v / 2) mod 2 ^ Z.of_nat n)) with (v mod 2 + (v / 2) mod 2 ^ Z.of_nat n * 2) by lia. rewrite Z.div_add by lia. rewrite (Z.div_small (v mod 2)) by lia. reflexivity.
Qed.
Lemma next_u16_ok D s p v r o l : St D s p (lsb 16 v ++ r) o l -> 0 <= v < 65536 -> p mod 8 = 0 -> Forall byte D -> exists s', next_u16 s = Val (v, s') /\ St D s' (p + 16) r o l.
Proof.
  intros Hs Hv P8 Hd. change 16%nat with (8 + 8)%nat in Hs. rewrite lsb_app, lsb_mod, <- app_assoc in Hs. change (2 ^ Z.of_nat 8) with 256 in Hs. unfold next_u16.
  destruct (next_u8_ok _ _ _ _ _ _ _ Hs) as (s1 & -> & S1); [unfold byte; lia|assumption|assumption|]. cbn [bind].
  destruct (next_u8_ok _ _ _ _ _ _ _ S1) as (s2 & -> & S2); [unfold byte; lia|lia|assumption|]. cbn [bind]. exists s2. split; [|replace (p + 16) with (p + 8 + 8) by lia; exact S2]. do 2 f_equal.
  assert (E : Z.lor (Z.shiftl (v / 256) 8) (v mod 256) = v); [|rewrite E; apply u16_id; lia].
  rewrite Z.lor_comm. rewrite <- Z.lxor_lor; [rewrite <- Z.add_nocarry_lxor; [rewrite Z.shiftl_mul_pow2 by lia; change (2 ^ 8) with 256; lia|]|]; apply Z.bits_inj'; intros i Hi; rewrite Z.land_spec, Z.bits_0, Z.shiftl_spec by lia; (destruct (Z.ltb_spec i 8); [rewrite (Z.testbit_neg_r _ (i - 8)) by lia; apply andb_false_r|]); change 256 with (2 ^ 8); rewrite Z.mod_pow2_bits_high by lia; reflexivity.
Qed.
Lemma complement n : 0 <= n < 65536 -> Z.land (65535 - n) n = 0.
Proof.
  intros H. change 65535 with (Z.ones 16). rewrite Z.sub_nocarry_ldiff; [apply Z.land_ldiff|]. apply Z.ldiff_ones_r_low; [lia|]. destruct (Z.eq_dec n 0) as [->|]; [cbn; lia|]. apply Z.log2_lt_pow2; lia.
Qed.
Section Blocks.
Context (more : Z -> Z -> Z -> Z).
Lemma stored_loop_ok D l data : Forall byte D -> forall s p r o, St D s p (bits_of data ++ r) o l -> Forall byte data -> p mod 8 = 0 -> 0 <= p -> exists s', stored_loop more s (length data) = Val s' /\ St D s' (p + 8 * zlen data) r (o ++ data) l.
Proof.
  intros Hd. induction data as [|c data IH]; intros s p r o Hs F P8 P0; cbn [length stored_loop].
  - exists s. change (zlen []) with 0. rewrite Z.mul_0_r, Z.add_0_r, app_nil_r. auto.
  - inversion F; subst. cbn [bits_of flat_map] in Hs. rewrite <- app_assoc in Hs. destruct (next_u8_ok _ _ _ _ _ _ _ Hs) as (s1 & -> & S1); auto. cbn [bind].
    destruct (write_ok more _ _ _ _ _ _ c S1 ltac:(lia)) as (s2 & -> & S2). cbn [bind]. destruct (IH s2 _ r _ S2) as (s3 & -> & S3); try assumption; try lia. exists s3. split; [reflexivity|]. rewrite zlen_cons. rewrite <- app_assoc in S3. cbn [app] in S3. replace (p + 8 * (1 + zlen data)) with (p + 8 + 8 * zlen data) by lia. exact S3.
Qed.
Lemma stored_block_ok D l s p q r o pad data : Forall byte D -> St D s p (body_bits (Stored pad data) ++ r) o l -> body_ok None q o (Stored pad data) -> q mod 8 = p mod 8 -> 0 <= p ->
  exists s', stored_block more s = Val s' /\ St D s' (p + zlen (body_bits (Stored pad data))) r (o ++ data) l.
Proof.
  cbn [body_bits body_ok]. intros Hd Hs (Pad & Len & F) Q P0. rewrite <- !app_assoc in Hs. pose proof (zlen_nonneg data). unfold stored_block.
  assert (Pad' : zlen pad = (- p) mod 8) by lia. pose proof (skip_ok _ _ _ _ _ _ _ Hs Pad') as S1.
  destruct (next_u16_ok _ _ _ _ _ _ _ S1) as (s2 & -> & S2); [lia|lia|assumption|]. cbn [bind].
  destruct (next_u16_ok _ _ _ _ _ _ _ S2) as (s3 & -> & S3); [lia|lia|assumption|]. cbn [bind]. rewrite complement by lia. cbn [Z.eqb negb].
  destruct (stored_loop_ok D l data Hd s3 _ r o S3 F ltac:(lia) ltac:(pose proof (zlen_nonneg pad); lia)) as (s4 & E4 & S4). unfold zlen at 1. rewrite Nat2Z.id. exists s4. split; [exact E4|].
  rewrite !zlen_app, !zlen_lsb, zlen_bits. match goal with |- St _ _ ?x _ _ _ => match type of S4 with St _ _ ?y _ _ _ => replace x with y by lia; exact S4 end end.
Qed.
(** ** the header of a dynamic block *)
Fixpoint set_all (cl acc : list Z) (l : list Z) : option (list Z) := match l with [] => Some acc | a :: l => match lset acc a (len_of cl a) with Some acc => set_all cl acc l | None => None end end.
Lemma read_cl_ok D l o cl : Forall (fun l => 0 <= l <= 7) cl -> forall k alpha s p r acc res, St D s p (flat_map (fun a => lsb 3 (len_of cl a)) (firstn k alpha) ++ r) o l -> (k <= length alpha)%nat ->
  set_all cl acc (firstn k alpha) = Some res -> exists s', read_cl s acc alpha k = Val (res, s') /\ St D s' (p + 3 * Z.of_nat k) r o l.
Proof.
  intros F. induction k as [|k IH]; intros alpha s p r acc res Hs Hk E; cbn [firstn read_cl] in *.
  - cbn in E. injection E as <-. exists s. replace (p + 3 * Z.of_nat 0) with p by lia. split; [destruct alpha; reflexivity|exact Hs].
  - destruct alpha as [|a alpha]; [cbn in Hk; lia|]. cbn [flat_map set_all length read_cl] in *. rewrite <- app_assoc in Hs.
    assert (R : 0 <= len_of cl a < 2 ^ 3). { unfold len_of. destruct (lget cl a) as [x|] eqn:G; [|lia]. rewrite Forall_forall in F. pose proof (F x (lget_In _ _ _ G)). lia. }
    destruct (next_uintxr_ok D l o 3 s p (len_of cl a) _ Hs ltac:(lia) R) as (s1 & -> & S1). cbn [bind]. destruct (lset acc a (len_of cl a)) as [acc'|] eqn:Es; [|discriminate]. cbn [bind].
    destruct (IH alpha s1 _ r acc' res S1 ltac:(lia) E) as (s2 & -> & S2). exists s2. split; [reflexivity|]. replace (p + 3 * Z.of_nat (S k)) with (p + 3 + 3 * Z.of_nat k) by lia. exact S2.
Qed.
Lemma set_all_order cl n : zlen cl = 19 -> (4 <= n <= 19)%nat -> Forall (fun a => len_of cl a = 0) (skipn n order) -> set_all cl (repeat 0 19) (firstn n order) = Some cl.
Proof.
  intros L N F. do 19 (destruct cl as [|? cl]; [discriminate L|]). destruct cl; [|rewrite !zlen_cons in L; pose proof (zlen_nonneg cl); lia]. clear L.
  unfold order in *. assert (I : In n (seq 4 16)) by (apply in_seq; lia). clear N. cbn [seq In] in I.
  repeat (destruct I as [<-|I]; [cbn [skipn] in F; repeat match goal with F : Forall _ (_ :: _) |- _ => inversion F; clear F; subst end; repeat match goal with H : len_of _ _ = 0 |- _ => vm_compute in H end; subst; vm_compute; reflexivity|]). contradiction.
Qed.
Lemma fill_ok x count k : forall acc, zlen acc + Z.of_nat k <= count -> fill acc count x k = Val (acc ++ repeat x k).
Proof.
  induction k as [|k IH]; intros acc H; cbn [fill repeat]; [now rewrite app_nil_r|]. replace (zlen acc <? count) with true by lia. rewrite IH by (rewrite zlen_app; change (zlen [x]) with 1; lia). rewrite <- app_assoc. reflexivity.
Qed.
Lemma expand_len cl rs : Forall (run_ok cl) rs -> forall acc, zlen acc + zlen rs <= zlen (expand acc rs).
Proof.
  induction 1 as [|x rs Hx F IH]; intros acc; [change (zlen []) with 0; cbn [expand]; lia|]. rewrite zlen_cons.
  destruct x; cbn [expand run_ok] in *; (eapply Z.le_trans; [|apply IH]); rewrite zlen_app, ?zlen_repeat; try (change (zlen [l]) with 1); lia.
Qed.
Lemma max_bits_ge l : forall a, a <= fold_left Z.max l a /\ forall x, In x l -> x <= fold_left Z.max l a.
Proof. induction l as [|y l IH]; intros a; cbn [fold_left]; [split; [lia|contradiction]|]. destruct (IH (Z.max a y)) as [A B]. split; [lia|]. intros x [<-|I]; [lia|auto]. Qed.
Lemma len_max cl s : len_of cl s <= max_bits cl /\ 0 <= max_bits cl.
Proof. unfold len_of, max_bits. destruct (max_bits_ge cl 0) as [A B]. split; [|exact A]. destruct (lget cl s) eqn:E; [apply B; now apply lget_In in E|exact A]. Qed.
Lemma last_rev (acc : list Z) : acc <> [] -> exists y, rev acc = last acc 0 :: y.
Proof. intros N. destruct (exists_last N) as (a & x & ->). rewrite last_last, rev_app_distr. eexists. reflexivity. Qed.
Lemma read_lengths_ok D l o cl t count : fits cl -> tree_for cl t -> forall rs s p r acc fuel, St D s p (flat_map (run_bits cl) rs ++ r) o l -> Forall (run_ok cl) rs -> (acc <> [] \/ forall n rs', rs <> Prev n :: rs') ->
  count = zlen (expand acc rs) -> (length rs < fuel)%nat ->
  exists s', read_lengths s t (max_bits cl) count acc fuel = Val (expand acc rs, s') /\ St D s' (p + zlen (flat_map (run_bits cl) rs)) r o l.
Proof.
  intros Fc T. induction rs as [|x rs IH]; intros s p r acc [|fuel] Hs F Hp Hc Hf; cbn [length] in Hf; try lia; cbn [read_lengths].
  - cbn [expand] in *. replace (zlen acc <? count) with false by lia. exists s. cbn [flat_map] in *. change (zlen []) with 0. rewrite Z.add_0_r. auto.
  - inversion F as [|? ? Hx F']; subst x0 l0. pose proof (expand_len cl rs F') as Ge. pose proof (zlen_nonneg rs). pose proof (zlen_nonneg acc). cbn [flat_map] in *. rewrite <- app_assoc in Hs.
    assert (Gt : zlen acc <? count = true). { pose proof (expand_len cl (x :: rs) F acc) as G. rewrite zlen_cons in G. lia. } rewrite Gt.
    assert (Cont : forall s1 acc' , acc' <> [] -> St D s1 (p + zlen (run_bits cl x)) (flat_map (run_bits cl) rs ++ r) o l -> expand acc (x :: rs) = expand acc' rs ->
      exists s', read_lengths s1 t (max_bits cl) count acc' fuel = Val (expand acc (x :: rs), s') /\ St D s' (p + zlen (run_bits cl x ++ flat_map (run_bits cl) rs)) r o l).
    { intros s1 acc' N S1 Ex. rewrite Ex in *. destruct (IH s1 _ r acc' fuel S1 F' ltac:(now left) Hc ltac:(lia)) as (s2 & -> & S2). exists s2. split; [reflexivity|]. rewrite zlen_app, Z.add_assoc. exact S2. }
    destruct x as [v|n|n|n]; cbn [run_ok run_bits expand] in *.
    + destruct Hx as (Hv & U). destruct (len_max cl v) as [M1 M2]. destruct (decode_symbol_ok _ _ _ _ _ _ _ _ _ (max_bits cl) T Fc U ltac:(lia) M2 Hs) as (s1 & -> & S1). cbn [bind].
      replace (v =? 16) with false by lia. replace (v =? 17) with false by lia. replace (v =? 18) with false by lia. rewrite fill_ok by (specialize (Ge (acc ++ [v])); rewrite zlen_app in Ge; change (zlen [v]) with 1 in Ge; lia). cbn [bind repeat].
      apply Cont; [destruct acc; discriminate|exact S1|reflexivity].
    + destruct Hx as (Hn & U). destruct (len_max cl 16) as [M1 M2]. rewrite <- app_assoc in Hs. destruct (decode_symbol_ok _ _ _ _ _ _ _ _ _ (max_bits cl) T Fc U ltac:(lia) M2 Hs) as (s1 & -> & S1). cbn [bind]. change (16 =? 16) with true. cbn match.
      destruct (next_uintxr_ok D l o 2 s1 _ (n - 3) _ S1 ltac:(lia) ltac:(lia)) as (s2 & -> & S2). cbn [bind]. assert (Na : acc <> []) by (destruct Hp as [Hp|Hp]; [exact Hp|exfalso; eapply Hp; reflexivity]).
      destruct (last_rev acc Na) as (y & ->). replace (n - 3 + 3) with n by lia. rewrite fill_ok by (specialize (Ge (acc ++ repeat (last acc 0) (Z.to_nat n))); rewrite zlen_app, zlen_repeat in Ge; lia). cbn [bind].
      apply Cont; [destruct acc; [contradiction|discriminate]| |reflexivity]. rewrite zlen_app, zlen_lsb. replace (p + (zlen (word cl 16) + Z.of_nat 2)) with (p + zlen (word cl 16) + 2) by lia. exact S2.
    + destruct Hx as (Hn & U). destruct (len_max cl 17) as [M1 M2]. rewrite <- app_assoc in Hs. destruct (decode_symbol_ok _ _ _ _ _ _ _ _ _ (max_bits cl) T Fc U ltac:(lia) M2 Hs) as (s1 & -> & S1). cbn [bind]. change (17 =? 16) with false. change (17 =? 17) with true. cbn match.
      destruct (next_uintxr_ok D l o 3 s1 _ (n - 3) _ S1 ltac:(lia) ltac:(lia)) as (s2 & -> & S2). cbn [bind].
      replace (n - 3 + 3) with n by lia. rewrite fill_ok by (specialize (Ge (acc ++ repeat 0 (Z.to_nat n))); rewrite zlen_app, zlen_repeat in Ge; lia). cbn [bind].
      apply Cont; [intros N; apply (f_equal zlen) in N; rewrite zlen_app, zlen_repeat in N; change (zlen []) with 0 in N; lia| |reflexivity]. rewrite zlen_app, zlen_lsb. replace (p + (zlen (word cl 17) + Z.of_nat 3)) with (p + zlen (word cl 17) + 3) by lia. exact S2.
    + destruct Hx as (Hn & U). destruct (len_max cl 18) as [M1 M2]. rewrite <- app_assoc in Hs. destruct (decode_symbol_ok _ _ _ _ _ _ _ _ _ (max_bits cl) T Fc U ltac:(lia) M2 Hs) as (s1 & -> & S1). cbn [bind]. change (18 =? 16) with false. change (18 =? 17) with false. change (18 =? 18) with true. cbn match.
      destruct (next_uintxr_ok D l o 7 s1 _ (n - 11) _ S1 ltac:(lia) ltac:(lia)) as (s2 & -> & S2). cbn [bind].
      replace (n - 11 + 11) with n by lia. rewrite fill_ok by (specialize (Ge (acc ++ repeat 0 (Z.to_nat n))); rewrite zlen_app, zlen_repeat in Ge; lia). cbn [bind].
      apply Cont; [intros N; apply (f_equal zlen) in N; rewrite zlen_app, zlen_repeat in N; change (zlen []) with 0 in N; lia| |reflexivity]. rewrite zlen_app, zlen_lsb. replace (p + (zlen (word cl 18) + Z.of_nat 7)) with (p + zlen (word cl 18) + 7) by lia. exact S2.
Qed.
Lemma dynamic_header_ok D l s p r o cl n la da fuel : St D s p (dynamic_header cl n la da ++ r) o l -> header_ok cl n la da -> 0 <= p ->
  exists s' lt dt, dynamic_block more s fuel = dynamic_loop more s' lt dt fuel /\ St D s' (p + zlen (dynamic_header cl n la da)) r o l /\ tree_for (expand [] la) lt /\ tree_for (expand [] da) dt /\ 14 <= zlen (dynamic_header cl n la da).
Proof.
  unfold dynamic_header. intros Hs (L19 & F7 & Cc & Hn & Z0 & (Rl & Pl) & (Rd & Pd) & Hl & Hd & Cl & Cd) P0. rewrite <- !app_assoc in Hs. unfold dynamic_block.
  destruct (next_uintxr_ok D l o 5 s p (zlen (expand [] la) - 257) _ Hs ltac:(lia) ltac:(lia)) as (s1 & -> & S1). cbn [bind].
  destruct (next_uintxr_ok D l o 5 s1 _ (zlen (expand [] da) - 1) _ S1 ltac:(lia) ltac:(lia)) as (s2 & -> & S2). cbn [bind].
  destruct (next_uintxr_ok D l o 4 s2 _ (Z.of_nat n - 4) _ S2 ltac:(lia) ltac:(lia)) as (s3 & -> & S3). cbn [bind].
  replace (zlen (expand [] la) - 257 + 257) with (zlen (expand [] la)) by lia. replace (zlen (expand [] da) - 1 + 1) with (zlen (expand [] da)) by lia. replace (Z.of_nat n - 4 + 4) with (Z.of_nat n) by lia. rewrite !u16_id by lia. rewrite Nat2Z.id.
  destruct (read_cl_ok D l o cl F7 n order s3 _ _ (repeat 0 19) cl S3 ltac:(change (length order) with 19%nat; lia) (set_all_order cl n L19 Hn Z0)) as (s4 & E4 & S4). change ALPHABET with order. rewrite E4. cbn [bind].
  destruct (create_ok cl Cc) as (codes & t & -> & Et & T). cbn [bind]. rewrite Et. cbn [bind].
  pose proof (expand_len cl la Rl []) as La. pose proof (expand_len cl da Rd []) as Da. change (zlen []) with 0 in La, Da.
  destruct (read_lengths_ok D l o cl t _ (code_ok_fits _ Cc) T la s4 _ _ [] (S (Z.to_nat (zlen (expand [] la)))) S4 Rl ltac:(now right) eq_refl ltac:(unfold zlen in *; lia)) as (s5 & -> & S5). cbn [bind].
  destruct (read_lengths_ok D l o cl t _ (code_ok_fits _ Cc) T da s5 _ _ [] (S (Z.to_nat (zlen (expand [] da)))) S5 Rd ltac:(now right) eq_refl ltac:(unfold zlen in *; lia)) as (s6 & -> & S6). cbn [bind].
  destruct (create_ok _ Cl) as (lc & lt & -> & Elt & Tl). destruct (create_ok _ Cd) as (dc & dt & -> & Edt & Td). cbn [bind]. rewrite Elt. cbn [bind]. rewrite Edt. cbn [bind].
  exists s6, lt, dt. split; [reflexivity|]. pose proof (zlen_nonneg (flat_map (run_bits cl) la)). pose proof (zlen_nonneg (flat_map (run_bits cl) da)).
  rewrite !zlen_app, !zlen_lsb. assert (E3 : zlen (flat_map (fun a => lsb 3 (len_of cl a)) (firstn n order)) = 3 * Z.of_nat n).
  { assert (G : forall x, zlen (flat_map (fun a => lsb 3 (len_of cl a)) x) = 3 * zlen x) by (induction x as [|y x IHx]; [reflexivity|]; cbn [flat_map]; rewrite zlen_app, zlen_lsb, IHx, zlen_cons; lia). rewrite G. unfold zlen. rewrite firstn_length. change (length order) with 19%nat. lia. }
  rewrite E3. split; [|split; [exact Tl|split; [exact Td|lia]]]. match goal with |- St _ _ ?x _ _ _ => match type of S6 with St _ _ ?y _ _ _ => replace x with y by lia; exact S6 end end.
Qed.
Lemma dynamic_block_ok D l s p q r o cl n la da ts fuel : St D s p (body_bits (Dynamic cl n la da ts) ++ r) o l -> body_ok None q o (Dynamic cl n la da ts) -> 0 <= p -> (length ts < fuel)%nat ->
  exists s', dynamic_block more s fuel = Val s' /\ St D s' (p + zlen (body_bits (Dynamic cl n la da ts))) r (out_tokens o ts) l.
Proof.
  cbn [body_bits body_ok]. intros Hs (Hh & Tk) P0 Hf. rewrite <- app_assoc in Hs. destruct (dynamic_header_ok D l s p _ o cl n la da fuel Hs Hh P0) as (s6 & lt & dt & -> & S6 & Tl & Td & L14). destruct Hh as (_ & _ & _ & _ & _ & _ & _ & _ & _ & Cl & Cd).
  destruct (dynamic_loop_ok more D l _ _ lt dt ts (code_ok_fits _ Cl) (code_ok_fits _ Cd) Tl Td s6 _ r o fuel S6 ltac:(lia) Tk Hf) as (s7 & -> & S7). exists s7. split; [reflexivity|]. rewrite zlen_app, Z.add_assoc. exact S7.
Qed.
(** ** the blocks *)
Lemma tokens_len lim ll dl ts : forall o, tokens_ok lim ll dl o ts -> zlen ts <= zlen (tokens_bits ll dl ts).
Proof.
  unfold tokens_bits. induction ts as [|t ts IH]; intros o Ok; [change (zlen []) with 0; apply zlen_nonneg|]. cbn [tokens_ok flat_map] in *. destruct Ok as (Tk & _ & Ok). apply IH in Ok. rewrite zlen_cons, <- app_assoc, zlen_app.
  assert (1 <= zlen (token_bits ll dl t)); [|lia]. destruct t; cbn [token_bits token_ok] in *; [destruct Tk as (_ & U); apply word_pos; exact U|]. destruct Tk as (_ & _ & _ & _ & U & _). rewrite zlen_app. pose proof (word_pos _ _ U). match goal with |- _ <= _ + ?z => assert (0 <= z) by apply zlen_nonneg end. lia.
Qed.
Lemma St_len D s p r o l : St D s p r o l -> p + zlen r <= 8 * zlen D \/ r = [].
Proof. intros (_ & _ & _ & _ & P & K & _). destruct r as [|x r]; [now right|left]. apply (f_equal (@length Z)) in K. rewrite skipn_length, bits_len in K. unfold zlen. cbn [length] in *. lia. Qed.
Lemma zlen_tokens ts : forall o o', zlen o = zlen o' -> zlen (fold_left lib_token ts o) = zlen (out_tokens o' ts).
Proof. unfold out_tokens. induction ts as [|t ts IH]; intros o o' E; cbn [fold_left]; [exact E|]. apply IH. now apply zlen_lib_token. Qed.
Lemma zlen_tokens' ts : forall o o', zlen o = zlen o' -> zlen (out_tokens o ts) = zlen (out_tokens o' ts).
Proof. unfold out_tokens. induction ts as [|t ts IH]; intros o o' E; cbn [fold_left]; [exact E|]. apply IH. now apply zlen_out_token. Qed.
Lemma zlen_lib_block o o' b : zlen o = zlen o' -> zlen (lib_block o b) = zlen (out_block o' b).
Proof. intros E. destruct b; cbn [lib_block out_block]; [rewrite !zlen_app; lia|now apply zlen_tokens|now apply zlen_tokens']. Qed.
Lemma zlen_out_block o o' b : zlen o = zlen o' -> zlen (out_block o b) = zlen (out_block o' b).
Proof. intros E. destruct b; cbn [out_block]; [rewrite !zlen_app; lia|now apply zlen_tokens'|now apply zlen_tokens']. Qed.
Lemma body_ok_len lim p o o' b : zlen o = zlen o' -> body_ok lim p o b -> body_ok lim p o' b.
Proof.
  intros E. destruct b; cbn [body_ok]; [auto|now apply tokens_ok_len|]. intros H. destruct H as (A & B). split; [exact A|]. eapply tokens_ok_len; eauto.
Qed.
Lemma stream_ok_len lim bs : forall p o o', zlen o = zlen o' -> stream_ok lim p o bs -> stream_ok lim p o' bs.
Proof. induction bs as [|b bs IH]; intros p o o' E; cbn [stream_ok]; [auto|]. intros (A & B). split; [eapply body_ok_len; eauto|]. eapply IH; [|exact B]. now apply zlen_out_block. Qed.
(** the limit excludes the deviation *)
Lemma near_eq ll dl ts : forall o, tokens_ok (Some 32768) ll dl o ts -> fold_left lib_token ts o = out_tokens o ts /\ tokens_ok None ll dl o ts.
Proof.
  unfold out_tokens. induction ts as [|t ts IH]; intros o; cbn [tokens_ok fold_left]; [auto|]. intros (A & B & C). assert (E : lib_token o t = out_token o t).
  { destruct t as [b|ls le ds de]; [reflexivity|]. cbn [lib_token out_token near token_ok] in *. destruct A as (_ & _ & _ & _ & _ & _ & A). rewrite Z.mod_small by lia. apply (copy_from_copy more). }
  rewrite E. apply IH in C as [C1 C2]. split; [exact C1|]. split; [exact A|]. split; [destruct t; exact I|exact C2].
Qed.
Lemma near_stream bs : forall p o, stream_ok (Some 32768) p o bs -> fold_left lib_block bs o = fold_left out_block bs o /\ stream_ok None p o bs.
Proof.
  induction bs as [|b bs IH]; intros p o; cbn [stream_ok fold_left]; [auto|]. intros (A & B). assert (E : lib_block o b = out_block o b /\ body_ok None (p + 3) o b).
  { destruct b; cbn [lib_block out_block body_ok] in *; [auto|now apply near_eq in A|auto]. }
  destruct E as [-> A']. apply IH in B as [B1 B2]. auto.
Qed.
Lemma block_loop_ok D fuel : Forall byte D -> (8 * length D < fuel)%nat -> forall bs s p q r o n, bs <> [] -> St D s p (stream_bits bs ++ r) o false -> stream_ok None q o bs -> q mod 8 = p mod 8 -> 0 <= p -> (length bs <= n)%nat ->
  exists s', block_loop true more s n fuel = Val s' /\ eof s' = true /\ St D s' (p + zlen (stream_bits bs)) r (fold_left lib_block bs o) true.
Proof.
  intros Hd Hfu. induction bs as [|b bs IH]; intros s p q r o n Nb Hs Ok Q P0 Hn; [contradiction|]. destruct n as [|n]; [cbn [length] in Hn; lia|]. cbn [stream_bits stream_ok fold_left length] in *. destruct Ok as (Ob & Ok). apply (stream_ok_len _ _ _ _ (lib_block o b)) in Ok; [|symmetry; now apply zlen_lib_block]. unfold block_bits in *.
  set (fin := match bs with [] => true | _ => false end) in *. cbn [app] in Hs. rewrite <- !app_assoc in Hs. cbn [block_loop].
  destruct (next_bit_ok _ _ _ _ _ _ _ Hs) as (s1 & -> & S1). cbn [bind lsb app] in *.
  destruct (next_bit_ok _ _ _ _ _ _ _ S1) as (s2 & -> & S2). cbn [bind]. destruct (next_bit_ok _ _ _ _ _ _ _ S2) as (s3 & -> & S3). cbn [bind].
  set (s4 := if (if fin then 1 else 0) =? 1 then _ else s3). assert (S4 : St D s4 (p + 3) (body_bits b ++ stream_bits bs ++ r) o fin).
  { replace (p + 3) with (p + 1 + 1 + 1) by lia. unfold s4. destruct S3 as (C & L & S3). destruct fin; [change (1 =? 1) with true|change (0 =? 1) with false]; cbn match; unfold St; cbn [cb lastb bit ci ub ui]; tauto. }
  clearbody s4. clear S1 S2 S3 Hs. cbn [block_type].
  assert (B : exists s5, (if block_type b mod 2 + block_type b / 2 mod 2 * 2 =? 0 then stored_block more s4 else if block_type b mod 2 + block_type b / 2 mod 2 * 2 =? 1 then fixed_loop more s4 fuel else if block_type b mod 2 + block_type b / 2 mod 2 * 2 =? 2 then dynamic_block more s4 fuel else Val s4) = Val s5
    /\ St D s5 (p + 3 + zlen (body_bits b)) (stream_bits bs ++ r) (lib_block o b) fin).
  { pose proof (St_len _ _ _ _ _ _ S4) as Ln. rewrite zlen_app in Ln. match type of Ln with _ + (_ + ?z) <= _ \/ _ => assert (0 <= z) by apply zlen_nonneg end.
    destruct b as [pad data|ts|cl k la da ts]; cbn [block_type lib_block].
    - change (0 mod 2 + 0 / 2 mod 2 * 2 =? 0) with true. cbn match. eapply (stored_block_ok D fin s4 (p + 3) (q + 3)); eauto; lia.
    - change (1 mod 2 + 1 / 2 mod 2 * 2 =? 0) with false. change (1 mod 2 + 1 / 2 mod 2 * 2 =? 1) with true. cbn match. cbn [body_ok] in Ob. pose proof (tokens_len _ _ _ _ _ Ob) as Tl. cbn [body_bits] in *.
      eapply fixed_loop_ok; eauto; [lia|]. destruct Ln as [Ln|Ln]; [unfold zlen in *; lia|]. apply (f_equal zlen) in Ln. rewrite zlen_app in Ln. change (zlen []) with 0 in Ln. pose proof (zlen_nonneg (stream_bits bs ++ r)). unfold zlen in *. lia.
    - change (2 mod 2 + 2 / 2 mod 2 * 2 =? 0) with false. change (2 mod 2 + 2 / 2 mod 2 * 2 =? 1) with false. change (2 mod 2 + 2 / 2 mod 2 * 2 =? 2) with true. cbn match.
      eapply dynamic_block_ok; eauto; [lia|]. cbn [body_ok] in Ob. destruct Ob as (_ & Ob). pose proof (tokens_len _ _ _ _ _ Ob) as Tl. cbn [body_bits] in Ln. set (TB := tokens_bits _ _ ts) in *.
      assert (zlen TB <= 8 * zlen D); [|unfold zlen in *; lia]. destruct Ln as [Ln|Ln]; [rewrite !zlen_app in Ln|apply (f_equal zlen) in Ln; rewrite !zlen_app in Ln; change (zlen []) with 0 in Ln];
      repeat match type of Ln with context [zlen ?z] => lazymatch goal with _ : 0 <= zlen z |- _ => fail | _ => pose proof (zlen_nonneg z) end end; pose proof (zlen_nonneg D); lia. }
  destruct B as (s5 & -> & S5). cbn [bind]. assert (E5 : lastb s5 = fin) by apply S5. rewrite E5. match goal with |- context [p + zlen ?X] => replace (zlen X) with (3 + zlen (body_bits b) + zlen (stream_bits bs)) by (repeat rewrite ?zlen_cons, ?zlen_app; lia) end. destruct bs as [|b' bs].
  - cbn [negb]. eexists. split; [reflexivity|]. split; [reflexivity|]. cbn [fold_left stream_bits app] in *. change (zlen []) with 0.
    replace (p + (3 + zlen (body_bits b) + 0)) with (p + 3 + zlen (body_bits b)) by lia. destruct S5 as (C & L & S5). unfold St. cbn [cb lastb bit ci ub ui]. tauto.
  - cbn [negb]. destruct (IH s5 _ (q + 3 + zlen (body_bits b)) r _ n ltac:(discriminate) S5 Ok ltac:(lia) ltac:(pose proof (zlen_nonneg (body_bits b)); lia) ltac:(lia)) as (s6 & -> & E6 & S6). exists s6. split; [reflexivity|]. split; [exact E6|].
    match goal with |- St _ _ ?x _ _ _ => match type of S6 with St _ _ ?y _ _ _ => replace x with y; [exact S6|] end end. lia.
Qed.
Lemma stream_len bs : zlen bs <= zlen (stream_bits bs).
Proof. induction bs as [|b bs IH]; [reflexivity|]. cbn [stream_bits]. unfold block_bits. rewrite !zlen_app, !zlen_cons, zlen_app. pose proof (zlen_nonneg (lsb 2 (block_type b))). pose proof (zlen_nonneg (body_bits b)). lia. Qed.
Lemma inflate_result D s p r o : St D s p r o true -> match ub s with Some u => Val (firstn (Z.to_nat (ui s)) u, s) | None => Val ([], s) end = Val (map Some o, s).
Proof.
  intros (_ & _ & _ & _ & _ & _ & j & -> & ->). do 2 f_equal. rewrite firstn_app, map_length. replace (Z.to_nat (zlen o) - length o)%nat with 0%nat by (unfold zlen; lia). cbn [firstn]. rewrite app_nil_r. apply firstn_all2. rewrite map_length. unfold zlen. lia.
Qed.
Lemma inflate_raw data bs rest : Forall byte data -> bs <> [] -> stream_ok None 0 [] bs -> bits_of data = stream_bits bs ++ rest ->
  exists s, inflate_bytes true more true data = Val (map Some (lib_out bs), s) /\ eof s = true /\ 8 * ci s + bit s = zlen (stream_bits bs).
Proof.
  intros Hd Nb Ok E. unfold inflate_bytes, inflate. cbn [tin wrap set_input inf_new Z.eqb andb negb]. cbn [bind]. unfold fuel_of. cbn [cb ci bit ub ui tin tout lastb eof wrap set_input inf_new].
  set (s0 := INF data 0 0 (Some (repeat None 1024)) 0 0 0 false false true). assert (S0 : St data s0 0 (stream_bits bs ++ rest) [] false).
  { unfold St, s0. cbn [cb lastb bit ci ub ui]. repeat match goal with |- _ /\ _ => split end; try reflexivity; try lia; try (rewrite E; reflexivity). exists (repeat None 1024). auto. }
  destruct (block_loop_ok data (S (8 * length data)) Hd ltac:(lia) bs s0 0 0 rest [] (S (8 * length data)) Nb S0 Ok eq_refl ltac:(lia)) as (s1 & E1 & Ef & S1).
  { pose proof (stream_len bs). apply (f_equal zlen) in E. rewrite zlen_bits, zlen_app in E. pose proof (zlen_nonneg rest). unfold zlen in *. lia. }
  rewrite E1. cbn [bind]. rewrite (inflate_result _ _ _ _ _ S1). exists s1. split; [reflexivity|]. split; [exact Ef|]. destruct S1 as (_ & _ & _ & _ & P & _). lia.
Qed.
Lemma inflate_zlib cmf flg body bs rest : byte cmf -> byte flg -> Forall byte body -> zlib_header cmf flg -> bs <> [] -> stream_ok None 0 [] bs -> bits_of body = stream_bits bs ++ rest ->
  exists s, inflate_bytes true more false (cmf :: flg :: body) = Val (map Some (lib_out bs), s) /\ eof s = true /\ 8 * ci s + bit s = 16 + zlen (stream_bits bs).
Proof.
  intros Hc Hg Hd (H1 & H2 & H3 & H4) Nb Ok E. unfold byte in *. unfold inflate_bytes, inflate. cbn [tin wrap set_input inf_new Z.eqb andb negb]. unfold fuel_of. cbn [cb ci bit ub ui tin tout lastb eof wrap set_input inf_new].
  set (data := cmf :: flg :: body). assert (Ln : zlen data <? 2 = false) by (unfold data; rewrite !zlen_cons; pose proof (zlen_nonneg body); lia). rewrite Ln. change (rd data 0) with (Val cmf). change (rd data 1) with (Val flg). cbn [bind].
  change 15 with (Z.ones 4). rewrite !Z.land_ones by lia. change (2 ^ 4) with 16. rewrite H1. change (8 =? 8) with true. cbn [negb]. rewrite Z.shiftr_div_pow2 by lia. change (2 ^ 4) with 16. replace ((cmf / 16) mod 16 >? 7) with false by lia.
  rewrite (Z.shiftr_div_pow2 flg) by lia. change (2 ^ 5) with 32. change 1 with (Z.ones 1) at 1. rewrite Z.land_ones by lia. change (2 ^ 1) with 2. rewrite H3. cbn [Z.eqb negb]. rewrite u16_id by lia. replace ((cmf * 256 + flg) mod 31) with 0 by (rewrite <- H4; f_equal; lia). cbn [Z.eqb negb bind].
  unfold set_in. cbn [cb ci bit ub ui tin tout lastb eof wrap].
  set (s0 := INF data 2 0 (Some (repeat None 1024)) 0 2 0 false false false). assert (S0 : St data s0 16 (stream_bits bs ++ rest) [] false).
  { unfold St, s0. cbn [cb lastb bit ci ub ui]. repeat match goal with |- _ /\ _ => split end; try reflexivity; try lia; try (rewrite <- E; reflexivity). exists (repeat None 1024). auto. }
  assert (Fd : Forall byte data) by (unfold data; constructor; [exact Hc|constructor; [exact Hg|exact Hd]]).
  destruct (block_loop_ok data (S (8 * length data)) Fd ltac:(lia) bs s0 16 0 rest [] (S (8 * length data)) Nb S0 Ok eq_refl ltac:(lia)) as (s1 & E1 & Ef & S1).
  { pose proof (stream_len bs). apply (f_equal zlen) in E. rewrite zlen_bits, zlen_app in E. pose proof (zlen_nonneg rest). unfold data. cbn [length]. unfold zlen in *. lia. }
  rewrite E1. cbn [bind]. rewrite (inflate_result _ _ _ _ _ S1). exists s1. split; [reflexivity|]. split; [exact Ef|]. destruct S1 as (_ & _ & _ & _ & P & _). lia.
Qed.
(** a dynamic block with a match that reaches before the start, behind a header and any valid data *)
Lemma inflate_bad data fin cl n la da ts ls le ds de rest : Forall byte data -> header_ok cl n la da -> tokens_ok None (expand [] la) (expand [] da) [] ts -> 257 <= ls <= 285 -> 0 <= le < 2 ^ length_extra ls -> 0 <= ds <= 29 -> 0 <= de < 2 ^ dist_extra ds ->
  used (expand [] la) ls -> used (expand [] da) ds -> zlen (out_tokens [] ts) < mdist ds de ->
  bits_of data = fin :: lsb 2 2 ++ dynamic_header cl n la da ++ flat_map (token_bits (expand [] la) (expand [] da)) ts ++ token_bits (expand [] la) (expand [] da) (Match ls le ds de) ++ rest -> inflate_bytes true more true data = Exn.
Proof.
  intros Hd Hh Tk A1 A2 A3 A4 A5 A6 A7 E. unfold inflate_bytes, inflate. cbn [tin wrap set_input inf_new Z.eqb andb negb]. cbn [bind]. unfold fuel_of. cbn [cb ci bit ub ui tin tout lastb eof wrap set_input inf_new].
  set (s0 := INF data 0 0 (Some (repeat None 1024)) 0 0 0 false false true). assert (S0 : St data s0 0 (bits_of data) [] false).
  { unfold St, s0. cbn [cb lastb bit ci ub ui]. repeat match goal with |- _ /\ _ => split end; try reflexivity; try lia. exists (repeat None 1024). auto. }
  assert (Lb : zlen ts <= 8 * zlen data).
  { pose proof (tokens_len _ _ _ _ _ Tk) as TL. unfold tokens_bits in TL. rewrite zlen_app in TL. rewrite <- zlen_bits, E. repeat rewrite ?zlen_cons, ?zlen_app. repeat match goal with |- context [zlen ?z] => lazymatch goal with _ : 0 <= zlen z |- _ => fail | _ => pose proof (zlen_nonneg z) end end.
    assert (Q : zlen ts <= zlen (flat_map (token_bits (expand [] la) (expand [] da)) ts)); [|lia]. clear - Tk. revert Tk. generalize (@nil Z) at 3. induction ts as [|t ts IH]; intros o Ok; [change (zlen []) with 0; apply zlen_nonneg|]. cbn [tokens_ok flat_map] in *. destruct Ok as (Tk & _ & Ok). apply IH in Ok. rewrite zlen_cons, zlen_app.
    assert (1 <= zlen (token_bits (expand [] la) (expand [] da) t)); [|lia]. destruct t; cbn [token_bits token_ok] in *; [destruct Tk as (_ & U); apply word_pos; exact U|]. destruct Tk as (_ & _ & _ & _ & U & _). rewrite zlen_app. pose proof (word_pos _ _ U). match goal with |- _ <= _ + ?z => assert (0 <= z) by apply zlen_nonneg end. lia. }
  rewrite E in S0. cbn [block_loop]. destruct (next_bit_ok _ _ _ _ _ _ _ S0) as (s1 & -> & S1). cbn [bind lsb app] in *. destruct (next_bit_ok _ _ _ _ _ _ _ S1) as (s2 & -> & S2). cbn [bind]. destruct (next_bit_ok _ _ _ _ _ _ _ S2) as (s3 & -> & S3). cbn [bind].
  change (2 mod 2 + 2 / 2 mod 2 * 2 =? 0) with false. change (2 mod 2 + 2 / 2 mod 2 * 2 =? 1) with false. change (2 mod 2 + 2 / 2 mod 2 * 2 =? 2) with true. cbn match.
  set (s4 := if fin =? 1 then _ else s3). assert (S4 : exists f, St data s4 (0 + 1 + 1 + 1) (dynamic_header cl n la da ++ flat_map (token_bits (expand [] la) (expand [] da)) ts ++ token_bits (expand [] la) (expand [] da) (Match ls le ds de) ++ rest) [] f).
  { unfold s4. destruct (fin =? 1); [exists true|exists false; exact S3]. destruct S3 as (C & L & S3). unfold St. cbn [cb lastb bit ci ub ui]. tauto. }
  clearbody s4. destruct S4 as (f & S4). destruct (dynamic_header_ok data f s4 _ _ [] cl n la da (S (8 * length data)) S4 Hh ltac:(lia)) as (s6 & lt & dt & -> & S6 & Tl & Td & L14). destruct Hh as (_ & _ & _ & _ & _ & _ & _ & _ & _ & Cl & Cd).
  assert (U256 : used (expand [] la) 256) by (clear - Tk; revert Tk; generalize (@nil Z) at 3; induction ts as [|t ts IH]; intros o Ok; [exact Ok|]; destruct Ok as (_ & _ & Ok); eapply IH; exact Ok).
  erewrite (dynamic_bad more data f _ _ lt dt ts (code_ok_fits _ Cl) (code_ok_fits _ Cd) Tl Td s6 _ rest [] (S (8 * length data)) ls le ds de U256 S6); eauto; [lia|unfold zlen in *; lia].
Qed.
End Blocks.
