From Verif Require Import Base L_Bits S_Utf8 M_Utf8.
Ltac Zify.zify_post_hook ::= Z.to_euclidean_division_equations.
Ltac zl := repeat rewrite ?zlen_app, ?zlen_cons, ?zlen_nil; lia.

Definition nz (b : Z) : Prop := 0 < b < 256.

(** classification of lead bytes *)
Lemma kinds c : 0 <= c < 256 ->
  (Z.land c 128 =? 0) = (c <? 128) /\ (Z.land c 224 =? 192) = ((192 <=? c) && (c <? 224)) /\
  (Z.land c 240 =? 224) = ((224 <=? c) && (c <? 240)) /\ (Z.land c 248 =? 240) = ((240 <=? c) && (c <? 248)).
Proof.
  intros H.
  assert (S : (Bool.eqb (Z.land c 128 =? 0) (c <? 128) && Bool.eqb (Z.land c 224 =? 192) ((192 <=? c) && (c <? 224))
    && Bool.eqb (Z.land c 240 =? 224) ((224 <=? c) && (c <? 240)) && Bool.eqb (Z.land c 248 =? 240) ((240 <=? c) && (c <? 248))) = true)
    by (revert c H; apply (sweep 256); vm_compute; reflexivity).
  apply andb_true_iff in S as [S S4]. apply andb_true_iff in S as [S S3]. apply andb_true_iff in S as [S1 S2].
  apply Bool.eqb_prop in S1, S2, S3, S4. auto.
Qed.

Lemma m31 c : Z.land c 31 = c mod 32. Proof. apply (land_ones_mod c 5). lia. Qed.
Lemma m15 c : Z.land c 15 = c mod 16. Proof. apply (land_ones_mod c 4). lia. Qed.
Lemma m7 c : Z.land c 7 = c mod 8. Proof. apply (land_ones_mod c 3). lia. Qed.
Lemma m63 c : Z.land c 63 = c mod 64. Proof. apply (land_ones_mod c 6). lia. Qed.

Lemma unit2 c x : u16 (Z.lor (u16 (Z.shiftl (Z.land c 31) 6)) (u16 (Z.land x 63))) = code_point [c; x] mod 65536.
Proof.
  rewrite m31, m63, shiftl_mul by lia. change (2 ^ 6) with 64. cbn [code_point].
  rewrite (u16_id (c mod 32 * 64)), (u16_id (x mod 64)) by lia.
  rewrite (lor_disjoint' (c mod 32) (x mod 64) 6) by (change (2 ^ 6) with 64; lia). reflexivity.
Qed.
Lemma unit3 c x y : u16 (Z.lor (Z.lor (u16 (Z.shiftl (Z.land c 15) 12)) (u16 (Z.shiftl (Z.land x 63) 6))) (u16 (Z.land y 63)))
  = code_point [c; x; y] mod 65536.
Proof.
  rewrite m15, !m63, !shiftl_mul by lia. change (2 ^ 6) with 64. change (2 ^ 12) with 4096. cbn [code_point].
  rewrite (u16_id (c mod 16 * 4096)), (u16_id (x mod 64 * 64)), (u16_id (y mod 64)) by lia.
  rewrite (lor_disjoint' (c mod 16) (x mod 64 * 64) 12) by (change (2 ^ 12) with 4096; lia).
  rewrite (lor_disjoint' (c mod 16 * 64 + x mod 64) (y mod 64) 6) by (change (2 ^ 6) with 64; lia).
  unfold u16. f_equal. lia.
Qed.
Lemma unit4 c x y z : u16 (Z.lor (Z.lor (Z.lor (u16 (Z.shiftl (Z.land c 7) 18)) (u16 (Z.shiftl (Z.land x 63) 12)))
    (u16 (Z.shiftl (Z.land y 63) 6))) (u16 (Z.land z 63))) = code_point [c; x; y; z] mod 65536.
Proof.
  rewrite m7, !m63, !shiftl_mul by lia. change (2 ^ 6) with 64. change (2 ^ 12) with 4096. change (2 ^ 18) with 262144. cbn [code_point].
  replace (u16 (c mod 8 * 262144)) with 0 by (unfold u16; lia). rewrite Z.lor_0_l.
  replace (u16 (x mod 64 * 4096)) with (x mod 16 * 4096) by (unfold u16; lia).
  rewrite (u16_id (y mod 64 * 64)), (u16_id (z mod 64)) by lia.
  rewrite (lor_disjoint' (x mod 16) (y mod 64 * 64) 12) by (change (2 ^ 12) with 4096; lia).
  rewrite (lor_disjoint' (x mod 16 * 64 + y mod 64) (z mod 64) 6) by (change (2 ^ 6) with 64; lia).
  rewrite u16_id by lia. lia.
Qed.

Lemma zlen_option_cons {A} (a : A) n (o : option (list A)) :
  match option_map (cons a) o with Some cs => Val (n + zlen cs) | None => UB end
  = match o with Some cs => Val (n + 1 + zlen cs) | None => @UB Z end.
Proof. destruct o; cbn [option_map]; [|reflexivity]. rewrite zlen_cons. f_equal. lia. Qed.

Lemma count_out fuel mem i n : 0 <= i -> zlen mem <= i -> utf8_count (S fuel) mem i n = UB.
Proof. intros H0 H. cbn [utf8_count]. rewrite rd_out by lia. reflexivity. Qed.

Ltac shift_mem p pre rest :=
  match goal with |- context[p ++ pre ++ ?t] => idtac end.

Lemma seq_len_cases b : 0 <= b < 256 ->
  (b < 128 \/ 128 <= b < 192 \/ 248 <= b) /\ seq_len b = 1 \/ 192 <= b < 224 /\ seq_len b = 2 \/
  224 <= b < 240 /\ seq_len b = 3 \/ 240 <= b < 248 /\ seq_len b = 4.
Proof.
  intros H. unfold seq_len. destruct (b <? 128) eqn:?; [left; lia|]. destruct (b <? 192) eqn:?; [left; lia|].
  destruct (b <? 224) eqn:?; [right; left; lia|]. destruct (b <? 240) eqn:?; [right; right; left; lia|].
  destruct (b <? 248) eqn:?; [right; right; right; lia|left; lia].
Qed.

Lemma app_shift {A} (p a b : list A) : p ++ a ++ b = (p ++ a) ++ b. Proof. apply app_assoc. Qed.

Lemma count_spec fuel : forall text p n, Forall nz text -> (length text < fuel)%nat ->
  utf8_count fuel (p ++ text ++ [0]) (zlen p) n
  = match seqs text with Some cs => Val (n + zlen cs) | None => UB end.
Proof.
  induction fuel as [|fuel IH]; intros text p n HB HF; [lia|].
  destruct text as [|b r].
  - cbn [app seqs utf8_count]. rewrite rd_mid. cbn [bind]. change (0 =? 0) with true. cbv iota. rewrite zlen_nil. f_equal. lia.
  - inversion_clear HB as [|? ? Hb Hr]. unfold nz in Hb. cbn [app utf8_count]. rewrite rd_mid. cbn [bind].
    destruct (b =? 0) eqn:E0; [lia|].
    destruct (kinds b ltac:(lia)) as (-> & -> & -> & ->).
    cbn [length] in HF. cbn [seqs].
    destruct (seq_len_cases b ltac:(lia)) as [[Hk ->]|[[Hk ->]|[[Hk ->]|[Hk ->]]]].
    + change (1 =? 1) with true. cbv iota. rewrite zlen_option_cons.
      specialize (IH r (p ++ [b]) (n + 1) Hr ltac:(lia)). rewrite <- app_assoc in IH. cbn [app] in IH.
      replace (zlen (p ++ [b])) with (zlen p + 1) in IH by zl.
      destruct (b <? 128) eqn:E1; [exact IH|].
      destruct ((192 <=? b) && (b <? 224)) eqn:E2; [lia|]. destruct ((224 <=? b) && (b <? 240)) eqn:E3; [lia|].
      destruct ((240 <=? b) && (b <? 248)) eqn:E4; [lia|]. exact IH.
    + change (2 =? 1) with false. change (2 =? 2) with true. cbv iota.
      destruct (b <? 128) eqn:E1; [lia|]. destruct ((192 <=? b) && (b <? 224)) eqn:E2; [|lia].
      destruct r as [|x r].
      * destruct fuel; [lia|]. apply count_out; [pose proof (zlen_nonneg p); lia|cbn [app]; zl].
      * rewrite zlen_option_cons. inversion_clear Hr as [|? ? Hx Hr'].
        specialize (IH r (p ++ [b; x]) (n + 1) Hr' ltac:(cbn [length] in HF; lia)). rewrite <- app_assoc in IH. cbn [app] in IH |- *.
        replace (zlen (p ++ [b; x])) with (zlen p + 2) in IH by zl. exact IH.
    + change (3 =? 1) with false. change (3 =? 2) with false. change (3 =? 3) with true. cbv iota.
      destruct (b <? 128) eqn:E1; [lia|]. destruct ((192 <=? b) && (b <? 224)) eqn:E2; [lia|].
      destruct ((224 <=? b) && (b <? 240)) eqn:E3; [|lia].
      destruct r as [|x [|y r]].
      * destruct fuel; [lia|]. apply count_out; [pose proof (zlen_nonneg p); lia|cbn [app]; zl].
      * destruct fuel; [cbn [length] in HF; lia|]. apply count_out; [pose proof (zlen_nonneg p); lia|cbn [app]; zl].
      * rewrite zlen_option_cons. inversion_clear Hr as [|? ? Hx Hr']. inversion_clear Hr' as [|? ? Hy Hr''].
        specialize (IH r (p ++ [b; x; y]) (n + 1) Hr'' ltac:(cbn [length] in HF; lia)). rewrite <- app_assoc in IH. cbn [app] in IH |- *.
        replace (zlen (p ++ [b; x; y])) with (zlen p + 3) in IH by zl. exact IH.
    + change (4 =? 1) with false. change (4 =? 2) with false. change (4 =? 3) with false. cbv iota.
      destruct (b <? 128) eqn:E1; [lia|]. destruct ((192 <=? b) && (b <? 224)) eqn:E2; [lia|].
      destruct ((224 <=? b) && (b <? 240)) eqn:E3; [lia|]. destruct ((240 <=? b) && (b <? 248)) eqn:E4; [|lia].
      destruct r as [|x [|y [|z r]]].
      * destruct fuel; [lia|]. apply count_out; [pose proof (zlen_nonneg p); lia|cbn [app]; zl].
      * destruct fuel; [cbn [length] in HF; lia|]. apply count_out; [pose proof (zlen_nonneg p); lia|cbn [app]; zl].
      * destruct fuel; [cbn [length] in HF; lia|]. apply count_out; [pose proof (zlen_nonneg p); lia|cbn [app]; zl].
      * rewrite zlen_option_cons. inversion_clear Hr as [|? ? Hx Hr']. inversion_clear Hr' as [|? ? Hy Hr'']. inversion_clear Hr'' as [|? ? Hz Hr3].
        specialize (IH r (p ++ [b; x; y; z]) (n + 1) Hr3 ltac:(cbn [length] in HF; lia)). rewrite <- app_assoc in IH. cbn [app] in IH |- *.
        replace (zlen (p ++ [b; x; y; z])) with (zlen p + 4) in IH by zl. exact IH.
Qed.

(** relation between the text and its sequences *)
Inductive cut : list Z -> list (list Z) -> Prop :=
| cut_nil : cut [] []
| cut1 b r cs : seq_len b = 1 -> cut r cs -> cut (b :: r) ([b] :: cs)
| cut2 b x r cs : seq_len b = 2 -> cut r cs -> cut (b :: x :: r) ([b; x] :: cs)
| cut3 b x y r cs : seq_len b = 3 -> cut r cs -> cut (b :: x :: y :: r) ([b; x; y] :: cs)
| cut4 b x y z r cs : seq_len b = 4 -> cut r cs -> cut (b :: x :: y :: z :: r) ([b; x; y; z] :: cs).

Lemma seqs_cut n : forall text cs, (length text <= n)%nat -> Forall nz text -> seqs text = Some cs -> cut text cs.
Proof.
  induction n as [|n IH]; intros text cs HL HB HS.
  - destruct text; [|cbn in HL; lia]. injection HS as <-. constructor.
  - destruct text as [|b r]; [injection HS as <-; constructor|].
    inversion_clear HB as [|? ? Hb Hr]. unfold nz in Hb. cbn [length] in HL. cbn [seqs] in HS.
    destruct (seq_len_cases b ltac:(lia)) as [[Hk E]|[[Hk E]|[[Hk E]|[Hk E]]]]; rewrite E in HS.
    + change (1 =? 1) with true in HS. cbv iota in HS. destruct (seqs r) eqn:Er; [|discriminate].
      injection HS as <-. constructor; [exact E|]. apply IH; auto; lia.
    + change (2 =? 1) with false in HS. change (2 =? 2) with true in HS. cbv iota in HS.
      destruct r as [|x r]; [discriminate|]. destruct (seqs r) eqn:Er; [|discriminate].
      inversion_clear Hr as [|? ? Hx Hr']. cbn [length] in HL. injection HS as <-. constructor; [exact E|]. apply IH; auto; lia.
    + change (3 =? 1) with false in HS. change (3 =? 2) with false in HS. change (3 =? 3) with true in HS. cbv iota in HS.
      destruct r as [|x [|y r]]; try discriminate. destruct (seqs r) eqn:Er; [|discriminate].
      inversion_clear Hr as [|? ? Hx Hr']. inversion_clear Hr' as [|? ? Hy Hr'']. cbn [length] in HL. injection HS as <-. constructor; [exact E|]. apply IH; auto; lia.
    + change (4 =? 1) with false in HS. change (4 =? 2) with false in HS. change (4 =? 3) with false in HS. cbv iota in HS.
      destruct r as [|x [|y [|z r]]]; try discriminate. destruct (seqs r) eqn:Er; [|discriminate].
      inversion_clear Hr as [|? ? Hx Hr']. inversion_clear Hr' as [|? ? Hy Hr'']. inversion_clear Hr'' as [|? ? Hz Hr3].
      cbn [length] in HL. injection HS as <-. constructor; [exact E|]. apply IH; auto; lia.
Qed.
Lemma cut_seqs text cs : cut text cs -> seqs text = Some cs.
Proof.
  induction 1 as [|b r cs E H IH|b x r cs E H IH|b x y r cs E H IH|b x y z r cs E H IH]; cbn [seqs]; rewrite ?E, ?IH; reflexivity.
Qed.

Definition punit (s : list Z) : Z := code_point s mod 65536.

Lemma fill_stop fuel mem i n acc : n <= zlen acc -> utf8_fill (S fuel) mem i n acc = Val acc.
Proof. intros H. cbn [utf8_fill]. destruct (zlen acc <? n) eqn:E; [lia|reflexivity]. Qed.

Lemma fill_over fuel p i n acc : i = zlen p -> zlen acc + 2 <= n ->
  utf8_fill (S (S fuel)) (p ++ [0]) i n acc = UB.
Proof.
  intros -> H. cbn [utf8_fill]. destruct (zlen acc <? n) eqn:E; [|lia]. rewrite rd_mid. cbn [bind].
  change (Z.land 0 128 =? 0) with true. cbv iota.
  destruct (zlen (acc ++ [0]) <? n) eqn:E2; [|revert E2; zl].
  rewrite rd_out by (right; zl). reflexivity.
Qed.

(** second pass with [k] characters too many announced *)
Lemma fill_spec fuel : forall text cs, cut text cs -> Forall nz text -> forall p n acc k, (length text + 2 <= fuel)%nat ->
  n = zlen acc + zlen cs + k -> k = 0 \/ 2 <= k ->
  utf8_fill fuel (p ++ text ++ [0]) (zlen p) n acc
  = if has_fffe cs || (2 <=? k) then UB else Val (acc ++ map punit cs).
Proof.
  induction fuel as [|fuel IH]; intros text cs HC HB p n acc k HF Hn Hk; [lia|].
  destruct HC as [|b r cs E HC|b x r cs E HC|b x y r cs E HC|b x y z r cs E HC].
  - cbn [app map has_fffe orb]. rewrite zlen_nil in Hn. rewrite app_nil_r.
    destruct (2 <=? k) eqn:E2.
    + destruct fuel; [cbn [length] in HF; lia|]. apply fill_over; [reflexivity|lia].
    + apply fill_stop. lia.
  - inversion_clear HB as [|? ? Hb Hr]. unfold nz in Hb. rewrite zlen_cons in Hn. pose proof (zlen_nonneg cs) as Hcs.
    cbn [app utf8_fill]. destruct (zlen acc <? n) eqn:E1; [|lia]. rewrite rd_mid. cbn [bind].
    destruct (kinds b ltac:(lia)) as (-> & -> & -> & ->). cbn [length] in HF.
    assert (Hgo : has_fffe ([b] :: cs) = has_fffe cs ->
      utf8_fill fuel (p ++ b :: r ++ [0]) (zlen p + 1) n (acc ++ [b])
      = (if has_fffe ([b] :: cs) || (2 <=? k) then UB else Val (acc ++ map punit ([b] :: cs)))).
    { intros Hf. specialize (IH r cs HC Hr (p ++ [b]) n (acc ++ [b]) k ltac:(lia) ltac:(revert Hn; zl) Hk).
      rewrite <- app_assoc in IH. cbn [app] in IH. replace (zlen (p ++ [b])) with (zlen p + 1) in IH by zl.
      rewrite IH, Hf. cbn [map]. rewrite <- app_assoc. cbn [app]. unfold punit at 2. cbn [code_point].
      rewrite (Z.mod_small b) by lia. reflexivity. }
    destruct (b <? 128) eqn:E2.
    { apply Hgo. cbn [has_fffe is1]. destruct (Z.eqb_spec b 255); [lia|reflexivity]. }
    destruct (seq_len_cases b ltac:(lia)) as [[Hr1 _]|[[_ E']|[[_ E']|[_ E']]]]; try congruence.
    destruct ((192 <=? b) && (b <? 224)) eqn:E3; [lia|]. destruct ((224 <=? b) && (b <? 240)) eqn:E4; [lia|].
    destruct ((240 <=? b) && (b <? 248)) eqn:E5; [lia|].
    destruct (Z.eqb_spec b 255) as [->|Hne].
    + unfold char_is. destruct r as [|x r].
      * inversion HC; subst. cbn [app]. replace (p ++ [255; 0]) with ((p ++ [255]) ++ [0]) by (now rewrite <- app_assoc).
        rewrite (rd_mid' (p ++ [255]) 0 []) by zl. cbn [bind]. change (0 =? 254) with false. cbv iota.
        rewrite <- app_assoc. cbn [app]. apply Hgo. reflexivity.
      * cbn [app]. replace (p ++ 255 :: x :: r ++ [0]) with ((p ++ [255]) ++ x :: r ++ [0]) by (now rewrite <- app_assoc).
        rewrite (rd_mid' (p ++ [255]) x) by zl. cbn [bind].
        destruct (Z.eqb_spec x 254) as [->|Hne].
        -- inversion HC as [|? ? cs' ? HC'| | |]; subst; try discriminate.
           inversion_clear Hr as [|? ? Hx Hr'].
           specialize (IH r cs' HC' Hr' (p ++ [255; 254]) (zlen acc + (1 + zlen ([254] :: cs')) + k) acc (k + 2)).
           rewrite <- app_assoc in IH. cbn [app length] in IH, HF.
           replace (zlen (p ++ [255; 254])) with (zlen p + 2) in IH by zl.
           rewrite <- app_assoc. cbn [app]. rewrite IH; [|lia|rewrite zlen_cons; lia|lia].
           assert (2 <=? k + 2 = true) as -> by lia. rewrite orb_true_r. reflexivity.
        -- rewrite <- app_assoc. cbn [app]. apply Hgo.
           inversion HC; subst; try reflexivity. cbn [has_fffe is1].
           destruct (Z.eqb_spec x 254); [congruence|]. now rewrite andb_false_r.
    + cbn [bind]. apply Hgo. cbn [has_fffe is1]. destruct (Z.eqb_spec b 255); [congruence|reflexivity].
  - inversion_clear HB as [|? ? Hb Hr]. inversion_clear Hr as [|? ? Hx Hr'].
    unfold nz in Hb. rewrite zlen_cons in Hn. pose proof (zlen_nonneg cs) as Hcs.
    cbn [app utf8_fill]. destruct (zlen acc <? n) eqn:E1; [|lia]. rewrite rd_mid. cbn [bind].
    destruct (kinds b ltac:(lia)) as (-> & -> & -> & ->). cbn [length] in HF.
    destruct (seq_len_cases b ltac:(lia)) as [[_ E']|[[Hr1 _]|[[_ E']|[_ E']]]]; try congruence.
    destruct (b <? 128) eqn:E2; [lia|]. destruct ((192 <=? b) && (b <? 224)) eqn:E3; [|lia].
    replace (p ++ b :: x :: r ++ [0]) with ((p ++ [b]) ++ x :: r ++ [0]) by (now rewrite <- app_assoc).
    rewrite (rd_mid' (p ++ [b]) x) by zl. cbn [bind]. rewrite unit2. fold (punit [b; x]).
    specialize (IH r cs HC Hr' (p ++ [b; x]) n (acc ++ [punit [b; x]]) k ltac:(lia) ltac:(revert Hn; zl) Hk).
    replace (zlen (p ++ [b; x])) with (zlen p + 2) in IH by zl.
    rewrite <- !app_assoc in *. cbn [app] in *. rewrite IH.
    assert (Hf : has_fffe ([b; x] :: cs) = has_fffe cs) by reflexivity.
    rewrite Hf. cbn [map]. reflexivity.
  - inversion_clear HB as [|? ? Hb Hr]. inversion_clear Hr as [|? ? Hx Hr']. inversion_clear Hr' as [|? ? Hy Hr''].
    unfold nz in Hb. rewrite zlen_cons in Hn. pose proof (zlen_nonneg cs) as Hcs.
    cbn [app utf8_fill]. destruct (zlen acc <? n) eqn:E1; [|lia]. rewrite rd_mid. cbn [bind].
    destruct (kinds b ltac:(lia)) as (-> & -> & -> & ->). cbn [length] in HF.
    destruct (seq_len_cases b ltac:(lia)) as [[_ E']|[[_ E']|[[Hr1 _]|[_ E']]]]; try congruence.
    destruct (b <? 128) eqn:E2; [lia|]. destruct ((192 <=? b) && (b <? 224)) eqn:E3; [lia|].
    destruct ((224 <=? b) && (b <? 240)) eqn:E4; [|lia].
    replace (p ++ b :: x :: y :: r ++ [0]) with ((p ++ [b]) ++ x :: y :: r ++ [0]) by (now rewrite <- app_assoc).
    rewrite (rd_mid' (p ++ [b]) x) by zl. cbn [bind].
    replace ((p ++ [b]) ++ x :: y :: r ++ [0]) with ((p ++ [b; x]) ++ y :: r ++ [0]) by (now rewrite <- !app_assoc).
    rewrite (rd_mid' (p ++ [b; x]) y) by zl. cbn [bind]. rewrite unit3. fold (punit [b; x; y]).
    specialize (IH r cs HC Hr'' (p ++ [b; x; y]) n (acc ++ [punit [b; x; y]]) k ltac:(lia) ltac:(revert Hn; zl) Hk).
    replace (zlen (p ++ [b; x; y])) with (zlen p + 3) in IH by zl.
    rewrite <- !app_assoc in *. cbn [app] in *. rewrite IH.
    assert (Hf : has_fffe ([b; x; y] :: cs) = has_fffe cs) by reflexivity.
    rewrite Hf. cbn [map]. reflexivity.
  - inversion_clear HB as [|? ? Hb Hr]. inversion_clear Hr as [|? ? Hx Hr']. inversion_clear Hr' as [|? ? Hy Hr'']. inversion_clear Hr'' as [|? ? Hz Hr3].
    unfold nz in Hb. rewrite zlen_cons in Hn. pose proof (zlen_nonneg cs) as Hcs.
    cbn [app utf8_fill]. destruct (zlen acc <? n) eqn:E1; [|lia]. rewrite rd_mid. cbn [bind].
    destruct (kinds b ltac:(lia)) as (-> & -> & -> & ->). cbn [length] in HF.
    destruct (seq_len_cases b ltac:(lia)) as [[_ E']|[[_ E']|[[_ E']|[Hr1 _]]]]; try congruence.
    destruct (b <? 128) eqn:E2; [lia|]. destruct ((192 <=? b) && (b <? 224)) eqn:E3; [lia|].
    destruct ((224 <=? b) && (b <? 240)) eqn:E4; [lia|]. destruct ((240 <=? b) && (b <? 248)) eqn:E5; [|lia].
    replace (p ++ b :: x :: y :: z :: r ++ [0]) with ((p ++ [b]) ++ x :: y :: z :: r ++ [0]) by (now rewrite <- app_assoc).
    rewrite (rd_mid' (p ++ [b]) x) by zl. cbn [bind].
    replace ((p ++ [b]) ++ x :: y :: z :: r ++ [0]) with ((p ++ [b; x]) ++ y :: z :: r ++ [0]) by (now rewrite <- !app_assoc).
    rewrite (rd_mid' (p ++ [b; x]) y) by zl. cbn [bind].
    replace ((p ++ [b; x]) ++ y :: z :: r ++ [0]) with ((p ++ [b; x; y]) ++ z :: r ++ [0]) by (now rewrite <- !app_assoc).
    rewrite (rd_mid' (p ++ [b; x; y]) z) by zl. cbn [bind]. rewrite unit4. fold (punit [b; x; y; z]).
    specialize (IH r cs HC Hr3 (p ++ [b; x; y; z]) n (acc ++ [punit [b; x; y; z]]) k ltac:(lia) ltac:(revert Hn; zl) Hk).
    replace (zlen (p ++ [b; x; y; z])) with (zlen p + 4) in IH by zl.
    rewrite <- !app_assoc in *. cbn [app] in *. rewrite IH.
    assert (Hf : has_fffe ([b; x; y; z] :: cs) = has_fffe cs) by reflexivity.
    rewrite Hf. cbn [map]. reflexivity.
Qed.

Lemma decode_from text fuel2 p : Forall nz text -> (length text + 2 <= fuel2)%nat -> forall fuel1, (length text < fuel1)%nat ->
  (let* n := utf8_count fuel1 (p ++ text ++ [0]) (zlen p) 0 in utf8_fill fuel2 (p ++ text ++ [0]) (zlen p) n [])
  = match seqs text with None => UB | Some cs => if has_fffe cs then UB else Val (map punit cs) end.
Proof.
  intros HB HF fuel1 HF1. rewrite count_spec by assumption.
  destruct (seqs text) as [cs|] eqn:E; [|reflexivity]. cbn [bind].
  pose proof (seqs_cut (length text) text cs (le_n _) HB E) as HC.
  rewrite (fill_spec fuel2 text cs HC HB p (0 + zlen cs) [] 0); [|assumption|change (zlen (@nil Z)) with 0; lia|lia].
  change (2 <=? 0) with false. rewrite orb_false_r. reflexivity.
Qed.

Definition outcome_of (d : decoded) : out (list Z) :=
  match d with Units l => Val l | WrongCharset => Exn | OutOfBounds => UB end.

Lemma char_is0 a r v : char_is (a :: r) 0 v = Val (a =? v). Proof. reflexivity. Qed.
Lemma char_is1 a b r v : char_is (a :: b :: r) 1 v = Val (b =? v). Proof. reflexivity. Qed.
Lemma char_is2 a b c r v : char_is (a :: b :: c :: r) 2 v = Val (c =? v). Proof. reflexivity. Qed.

Lemma decode_plain text : Forall nz text -> utf16_bom text = false ->
  (forall r, text = 239 :: 187 :: 191 :: r -> False) ->
  utf8_decode (text ++ [0]) =
  match seqs text with None => UB | Some cs => if has_fffe cs then UB else Val (map punit cs) end.
Proof.
  intros HB HU HS. pose proof (decode_from text (S (S (length (text ++ [0])))) [] HB) as HD.
  cbn [app] in HD. change (zlen (@nil Z)) with 0 in HD.
  unfold utf8_decode.
  assert (andb_then (char_is (text ++ [0]) 0 254) (char_is (text ++ [0]) 1 255) = Val false) as ->.
  { destruct text as [|a [|b r]]; cbn [app]; rewrite char_is0; unfold andb_then; cbn [bind].
    - reflexivity.
    - rewrite char_is1. destruct (a =? 254); reflexivity.
    - rewrite char_is1. cbn [utf16_bom] in HU. destruct (a =? 254); [|reflexivity]. destruct (b =? 255); [discriminate|reflexivity]. }
  cbn [bind].
  assert (andb_then (char_is (text ++ [0]) 0 255) (char_is (text ++ [0]) 1 254) = Val false) as ->.
  { destruct text as [|a [|b r]]; cbn [app]; rewrite char_is0; unfold andb_then; cbn [bind].
    - reflexivity.
    - rewrite char_is1. destruct (a =? 255); reflexivity.
    - rewrite char_is1. cbn [utf16_bom] in HU. destruct (a =? 255) eqn:Ea; [|reflexivity]. destruct (b =? 254); [|reflexivity].
      rewrite orb_true_r in HU. discriminate. }
  cbn [bind].
  assert (andb_then (char_is (text ++ [0]) 0 239) (andb_then (char_is (text ++ [0]) 1 187) (char_is (text ++ [0]) 2 191)) = Val false) as ->.
  { destruct text as [|a [|b [|c r]]]; cbn [app]; rewrite char_is0; unfold andb_then; cbn [bind].
    - reflexivity.
    - rewrite char_is1. destruct (a =? 239); reflexivity.
    - rewrite char_is1, char_is2. destruct (a =? 239); [|reflexivity]. cbn [bind]. destruct (b =? 187); reflexivity.
    - rewrite char_is1, char_is2. destruct (Z.eqb_spec a 239) as [->|]; [|reflexivity]. cbn [bind].
      destruct (Z.eqb_spec b 187) as [->|]; [|reflexivity].
      destruct (Z.eqb_spec c 191) as [->|]; [|reflexivity]. destruct (HS r eq_refl). }
  cbn [bind]. cbv iota zeta. apply HD; rewrite app_length; cbn [length]; lia.
Qed.

Lemma decode_total text : Forall nz text -> utf8_decode (text ++ [0]) = outcome_of (utf8_meaning text).
Proof.
  intros HB. unfold utf8_meaning.
  destruct (utf16_bom text) eqn:EU.
  - cbn [outcome_of]. destruct text as [|a [|b r]]; try discriminate. cbn [utf16_bom app] in *.
    unfold utf8_decode. rewrite !char_is0, !char_is1. unfold andb_then at 1. cbn [bind].
    destruct (a =? 254) eqn:Ea; cbn [bind]; [destruct (b =? 255) eqn:Eb; [reflexivity|]|].
    + cbn [andb orb] in EU. unfold andb_then at 1. cbn [bind]. destruct (a =? 255) eqn:?; [lia|discriminate].
    + cbn [andb orb] in EU. unfold andb_then at 1. cbn [bind]. destruct (a =? 255); [|discriminate].
      destruct (b =? 254); [reflexivity|discriminate].
  - destruct text as [|a [|b [|c r]]].
    1,2,3: rewrite decode_plain; [|assumption|assumption|intros ? X; discriminate X]; cbn [skip_bom];
      match goal with |- context[seqs ?t] => destruct (seqs t) as [cs|] end; [destruct (has_fffe cs)|]; reflexivity.
    destruct ((a =? 239) && (b =? 187) && (c =? 191)) eqn:E3.
    + apply andb_true_iff in E3 as [E3 Ec]. apply andb_true_iff in E3 as [Ea Eb].
      apply Z.eqb_eq in Ea, Eb, Ec. subst.
      inversion_clear HB as [|? ? _ HB1]. inversion_clear HB1 as [|? ? _ HB2]. inversion_clear HB2 as [|? ? _ HB3].
      cbn [skip_bom]. change ((239 =? 239) && (187 =? 187) && (191 =? 191)) with true. cbv iota.
      pose proof (decode_from r (S (S (length ((239 :: 187 :: 191 :: r) ++ [0])))) [239; 187; 191] HB3) as HD.
      cbn [app length] in HD. rewrite app_length in HD. cbn [length] in HD.
      unfold utf8_decode. cbn [app]. rewrite !char_is0, !char_is1, !char_is2. unfold andb_then. cbn [bind].
      change (239 =? 254) with false. change (239 =? 255) with false. change (239 =? 239) with true. change (187 =? 187) with true.
      change (191 =? 191) with true. cbv iota. cbn [bind].
      change 3 with (zlen [239; 187; 191]). cbn [length]. rewrite app_length. cbn [length].
      rewrite HD by lia. destruct (seqs r) as [cs|]; [destruct (has_fffe cs)|]; reflexivity.
    + rewrite decode_plain; [|assumption|assumption|].
      2:{ intros ? X. injection X as -> -> -> ->. discriminate E3. }
      cbn [skip_bom]. rewrite E3. destruct (seqs (a :: b :: c :: r)) as [cs|]; [destruct (has_fffe cs)|]; reflexivity.
Qed.

(** * encode *)
Definition unitz (c : Z) : Prop := 0 <= c < 65536.

Lemma utf8_len c : unitz c -> zlen (utf8 c) = if c <? 128 then 1 else if c <? 2048 then 2 else 3.
Proof.
  intros H. unfold unitz in H. unfold utf8. destruct (c <? 128); [reflexivity|]. destruct (c <? 2048); [reflexivity|].
  destruct (c <? 65536) eqn:E; [reflexivity|lia].
Qed.
Lemma utf8_size_spec s : Forall unitz s -> forall n, 0 <= n -> n + zlen (concat (map utf8 s)) < 4294967296 ->
  utf8_size s n = n + zlen (concat (map utf8 s)).
Proof.
  induction s as [|c r IH]; intros HU n Hn HL; cbn [utf8_size map concat] in *.
  - rewrite zlen_nil. lia.
  - inversion_clear HU as [|? ? Hc Hr]. rewrite zlen_app, utf8_len in * by assumption.
    pose proof (zlen_nonneg (concat (map utf8 r))).
    rewrite u32_id by (destruct (c <? 128); [lia|]; destruct (c <? 2048); lia).
    rewrite IH; [|assumption|destruct (c <? 128); [lia|]; destruct (c <? 2048); lia|destruct (c <? 128); [lia|]; destruct (c <? 2048); lia].
    destruct (c <? 128); [lia|]. destruct (c <? 2048); lia.
Qed.
Lemma put_ok cap acc b : zlen acc < cap -> put cap acc b = Val (acc ++ [b]).
Proof. intros H. unfold put. destruct (zlen acc <? cap) eqn:E; [reflexivity|lia]. Qed.

Lemma enc2a c : 128 <= c < 2048 -> u8 (Z.lor (s8 (Z.land (Z.shiftr c 6) 31)) 192) = 192 + c / 64.
Proof.
  intros H. rewrite m31, shiftr_div by lia. change (2 ^ 6) with 64.
  replace (s8 (c / 64 mod 32)) with (c / 64) by (unfold s8; lia).
  assert (0 <= c / 64 < 32) by lia.
  rewrite (Z.lor_comm (c / 64) 192). change 192 with (3 * 2 ^ 6). rewrite (lor_disjoint' 3 (c / 64) 6) by (change (2 ^ 6) with 64; lia). 
  unfold u8. change (3 * 2 ^ 6) with 192. lia.
Qed.
Lemma enc_tail c : 0 <= c -> u8 (Z.lor (s8 (Z.land c 63)) 128) = 128 + c mod 64.
Proof.
  intros H. rewrite m63.
  replace (s8 (c mod 64)) with (c mod 64) by (unfold s8; lia).
  rewrite (Z.lor_comm (c mod 64) 128). change 128 with (2 * 2 ^ 6) at 1. rewrite (lor_disjoint' 2 (c mod 64) 6) by (change (2 ^ 6) with 64; lia).
  unfold u8. lia.
Qed.
Lemma enc3a c : 0 <= c < 65536 -> u8 (Z.lor (s8 (Z.land (Z.shiftr c 12) 15)) 224) = 224 + c / 4096.
Proof.
  intros H. rewrite m15, shiftr_div by lia. change (2 ^ 12) with 4096.
  replace (s8 (c / 4096 mod 16)) with (c / 4096) by (unfold s8; lia).
  rewrite (Z.lor_comm (c / 4096) 224). change 224 with (7 * 2 ^ 5). rewrite (lor_disjoint' 7 (c / 4096) 5) by (change (2 ^ 5) with 32; lia).
  unfold u8. change (7 * 2 ^ 5) with 224. lia.
Qed.

Lemma utf8_write_spec cap s : Forall unitz s -> forall acc, zlen acc + zlen (concat (map utf8 s)) <= cap ->
  utf8_write cap s acc = Val (acc ++ concat (map utf8 s)).
Proof.
  induction s as [|c r IH]; intros HU acc HL; cbn [utf8_write map concat] in *.
  - now rewrite app_nil_r.
  - inversion_clear HU as [|? ? Hc Hr]. rewrite zlen_app, utf8_len in HL by assumption. unfold unitz in Hc.
    pose proof (zlen_nonneg (concat (map utf8 r))).
    unfold utf8 at 1. destruct (c <? 128) eqn:E1; [|destruct (c <? 2048) eqn:E2; [|destruct (c <? 65536) eqn:E3; [|lia]]].
    + rewrite put_ok by lia. cbn [bind]. replace (u8 (s8 c)) with c by (unfold u8, s8; lia).
      rewrite IH; [|assumption|zl]. now rewrite <- app_assoc.
    + rewrite enc2a, enc_tail by lia. rewrite put_ok by lia. cbn [bind]. rewrite put_ok by zl. cbn [bind].
      rewrite IH; [|assumption|zl]. now rewrite <- !app_assoc.
    + rewrite enc3a, !enc_tail by (rewrite ?shiftr_div by lia; lia). rewrite put_ok by lia. cbn [bind]. rewrite put_ok by zl. cbn [bind].
      rewrite put_ok by zl. cbn [bind].
      rewrite IH; [|assumption|zl]. rewrite shiftr_div by lia. change (2 ^ 6) with 64. now rewrite <- !app_assoc.
Qed.
Lemma encode_spec s : Forall unitz s -> zlen (concat (map utf8 s)) < 4294967296 ->
  utf8_encode s = Val (concat (map utf8 s)).
Proof.
  intros HU HL. unfold utf8_encode. rewrite utf8_size_spec by (assumption || lia).
  rewrite utf8_write_spec by (assumption || (rewrite zlen_nil; lia)). cbn [bind app].
  replace (0 + zlen (concat (map utf8 s)) - zlen (concat (map utf8 s))) with 0 by lia. cbn [Z.to_nat repeat]. now rewrite app_nil_r.
Qed.

(** * round trip *)
Lemma utf8_bytes_nz c : 0 < c < 65536 -> Forall nz (utf8 c).
Proof.
  intros H. unfold utf8. destruct (c <? 128) eqn:?; [|destruct (c <? 2048) eqn:?; [|destruct (c <? 65536) eqn:?; [|lia]]];
  repeat constructor; unfold nz; lia.
Qed.
Lemma cut_utf8 c r cs : 0 <= c < 1114112 -> cut r cs -> cut (utf8 c ++ r) (utf8 c :: cs).
Proof.
  intros H HC. unfold utf8. destruct (c <? 128) eqn:?; [|destruct (c <? 2048) eqn:?; [|destruct (c <? 65536) eqn:?]]; cbn [app].
  - apply cut1; [|assumption]. unfold seq_len. destruct (c <? 128) eqn:?; lia.
  - apply cut2; [|assumption]. unfold seq_len. destruct (192 + c / 64 <? 128) eqn:?; [lia|]. destruct (192 + c / 64 <? 192) eqn:?; [lia|].
    destruct (192 + c / 64 <? 224) eqn:?; lia.
  - apply cut3; [|assumption]. unfold seq_len. destruct (224 + c / 4096 <? 128) eqn:?; [lia|]. destruct (224 + c / 4096 <? 192) eqn:?; [lia|].
    destruct (224 + c / 4096 <? 224) eqn:?; [lia|]. destruct (224 + c / 4096 <? 240) eqn:?; lia.
  - apply cut4; [|assumption]. unfold seq_len. set (b := 240 + c / 262144) in *. assert (240 <= b < 248) by (subst b; lia).
    destruct (b <? 128) eqn:?; [lia|]. destruct (b <? 192) eqn:?; [lia|].
    destruct (b <? 224) eqn:?; [lia|]. destruct (b <? 240) eqn:?; [lia|]. destruct (b <? 248) eqn:?; lia.
Qed.
Lemma cut_all s : Forall (fun c => 0 <= c < 1114112) s -> cut (concat (map utf8 s)) (map utf8 s).
Proof.
  induction s as [|c r IH]; intros H; cbn [map concat]; [constructor|]. inversion_clear H. apply cut_utf8; auto.
Qed.
Lemma cp_utf8 c : 0 <= c < 1114112 -> code_point (utf8 c) = c.
Proof.
  intros H. unfold utf8. destruct (c <? 128) eqn:?; [|destruct (c <? 2048) eqn:?; [|destruct (c <? 65536) eqn:?]]; cbn [code_point]; lia.
Qed.
Lemma no_fffe s : Forall (fun c => 0 <= c < 1114112) s -> has_fffe (map utf8 s) = false.
Proof.
  induction s as [|c r IH]; intros H; cbn [map has_fffe]; [reflexivity|]. inversion_clear H. rewrite IH by assumption.
  rewrite orb_false_r. assert (is1 (utf8 c) 255 = false) as ->; [|reflexivity].
  unfold utf8. destruct (c <? 128) eqn:?; [cbn [is1]; lia|]. destruct (c <? 2048); [reflexivity|]. destruct (c <? 65536); reflexivity.
Qed.
Lemma lead_small c r : 0 <= c < 1114112 -> exists b t, utf8 c ++ r = b :: t /\ b < 254.
Proof.
  intros H. unfold utf8. destruct (c <? 128) eqn:?; [|destruct (c <? 2048) eqn:?; [|destruct (c <? 65536) eqn:?]]; cbn [app];
  eexists _, _; (split; [reflexivity|lia]).
Qed.
Lemma nz_concat s : Forall (fun c => 0 < c < 1114112) s -> Forall nz (concat (map utf8 s)).
Proof.
  induction s as [|c r IH]; intros H; cbn [map concat]; [constructor|]. inversion_clear H as [|? ? Hc Hr]. apply Forall_app; split; [|auto].
  unfold utf8. destruct (c <? 128) eqn:?; [|destruct (c <? 2048) eqn:?; [|destruct (c <? 65536) eqn:?]];
  repeat constructor; unfold nz; lia.
Qed.
Lemma decode_code_points s : Forall (fun c => 0 < c < 1114112) s -> hd 0 s <> 65279 ->
  utf8_decode (concat (map utf8 s) ++ [0]) = Val (map (fun c => c mod 65536) s).
Proof.
  intros HU Hh. assert (HU' : Forall (fun c => 0 <= c < 1114112) s) by (eapply Forall_impl; [|exact HU]; cbv beta; intros; lia).
  rewrite decode_total by (now apply nz_concat). unfold utf8_meaning.
  assert (utf16_bom (concat (map utf8 s)) = false) as ->.
  { destruct s as [|c r]; [reflexivity|]. cbn [map concat]. inversion_clear HU' as [|? ? Hc Hr].
    destruct (lead_small c (concat (map utf8 r)) Hc) as (b & t & -> & Hb). destruct t; cbn [utf16_bom]; lia. }
  assert (skip_bom (concat (map utf8 s)) = concat (map utf8 s)) as ->.
  { destruct s as [|c r]; [reflexivity|]. cbn [map concat hd] in *. inversion_clear HU' as [|? ? Hc Hr].
    unfold utf8 at 1 3. destruct (c <? 128) eqn:?; [|destruct (c <? 2048) eqn:?; [|destruct (c <? 65536) eqn:?]]; cbn [app skip_bom].
    - destruct (concat (map utf8 r)) as [|x [|y t]]; try reflexivity. destruct (Z.eqb_spec c 239); [lia|reflexivity].
    - destruct (concat (map utf8 r)) as [|y t]; try reflexivity. destruct (Z.eqb_spec (192 + c / 64) 239); [lia|reflexivity].
    - destruct (Z.eqb_spec (224 + c / 4096) 239); [|reflexivity]. destruct (Z.eqb_spec (128 + c / 64 mod 64) 187); [|reflexivity].
      destruct (Z.eqb_spec (128 + c mod 64) 191); [lia|reflexivity].
    - destruct (Z.eqb_spec (240 + c / 262144) 239); [lia|reflexivity]. }
  rewrite (cut_seqs _ _ (cut_all s HU')), no_fffe by assumption. cbn [outcome_of]. f_equal. rewrite map_map.
  apply map_ext_in. intros c Hc. rewrite Forall_forall in HU'. rewrite cp_utf8 by auto. reflexivity.
Qed.
Lemma decode_bom s : Forall (fun c => 0 < c < 1114112) s ->
  utf8_decode (concat (map utf8 (65279 :: s)) ++ [0]) = Val (map (fun c => c mod 65536) s).
Proof.
  intros HU. assert (HU' : Forall (fun c => 0 <= c < 1114112) s) by (eapply Forall_impl; [|exact HU]; cbv beta; intros; lia).
  rewrite decode_total by (apply nz_concat; constructor; [lia|assumption]). unfold utf8_meaning.
  cbn [map concat]. change (utf8 65279) with [239; 187; 191]. cbn [app utf16_bom skip_bom].
  change ((239 =? 254) && (187 =? 255) || (239 =? 255) && (187 =? 254)) with false.
  change ((239 =? 239) && (187 =? 187) && (191 =? 191)) with true. cbv iota.
  rewrite (cut_seqs _ _ (cut_all s HU')), no_fffe by assumption. cbn [outcome_of]. f_equal. rewrite map_map.
  apply map_ext_in. intros c Hc. rewrite Forall_forall in HU'. rewrite cp_utf8 by auto. reflexivity.
Qed.
