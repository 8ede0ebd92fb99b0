(** P_Integer.v -- numbers as text (C16-C19, C61). *)
From Verif Require Import Base M_String S_String S_Integer L_String L_String2 L_String3 L_Integer L_Integer2.
Ltac Zify.zify_post_hook ::= Z.to_euclidean_division_equations.

(** * C16 -- decimal *)
Theorem C16_valueOf_canonical : forall n, - 2 ^ 63 < n < 2 ^ 63 ->
  exists s ds, value_of_int n = Val s /\ sound s /\ text s = (if n <? 0 then [45] else []) ++ map dec_char ds /\ canonical 10 (Z.abs n) ds.
Proof.
  intros n Hn. change (2 ^ 63) with 9223372036854775808 in Hn. destruct (value_of_int_ok n ltac:(lia)) as (s & ds & E & R & C). apply repr_text in R as [T S]. exists s, ds. auto.
Qed.
Theorem C16_valueOf_unsigned_canonical : forall n, 0 <= n < 2 ^ 64 ->
  exists s ds, value_of_uint n = Val s /\ sound s /\ text s = map dec_char ds /\ canonical 10 n ds.
Proof. intros n Hn. destruct (value_of_uint_ok n Hn) as (s & ds & E & R & C). apply repr_text in R as [T S]. exists s, ds. auto. Qed.
Theorem C16_roundtrip : forall n, - 2 ^ 63 < n < 2 ^ 63 -> exists s, value_of_int n = Val s /\ to_int s = Val n.
Proof.
  intros n Hn. change (2 ^ 63) with 9223372036854775808 in Hn. destruct (value_of_int_ok n ltac:(lia)) as (s & ds & E & R & (V & F & D)). exists s. split; [exact E|].
  destruct (digs_dec ds F) as (E1 & E2 & E3). destruct (Z.ltb_spec n 0) as [N|N].
  - assert (Ed : digs ([45] ++ map dec_char ds) = ds) by (unfold digs in *; cbn [app filter is_digit]; exact E1).
    rewrite (to_int_ok s _ R); [|cbn [app]; constructor; [auto|exact E2]|rewrite Ed, V; lia]. rewrite Ed, V. cbn [app existsb Z.eqb Pos.eqb orb]. f_equal. lia.
  - cbn [app] in R. rewrite (to_int_ok s _ R E2); [|rewrite E1, V; lia]. rewrite E1, E3, V. f_equal. lia.
Qed.
(** the most negative number: -n overflows *)
Theorem C16_most_negative_refuted : value_of_int (- 2 ^ 63) = UB.
Proof. vm_compute. reflexivity. Qed.
(** toInt on any text: digits give the number, a minus sign anywhere (and any number of them) negates it, the empty text is 0;
    any other character prevents a result *)
Theorem C16_toInt : forall s, sound s ->
  (Forall (fun c => 48 <= c <= 57 \/ c = 45) (text s) -> pos_value 10 (map (fun c => c - 48) (filter (fun c => (48 <=? c) && (c <=? 57)) (text s))) < 2 ^ 63 ->
     to_int s = Val (let v := pos_value 10 (map (fun c => c - 48) (filter (fun c => (48 <=? c) && (c <=? 57)) (text s))) in if existsb (Z.eqb 45) (text s) then - v else v)) /\
  (~ Forall (fun c => 48 <= c <= 57 \/ c = 45) (text s) -> forall v, to_int s <> Val v).
Proof.
  intros s H. apply sound_repr in H.
  assert (K : Forall (fun c => is_digit c = true \/ c = 45) (text s) <-> Forall (fun c => 48 <= c <= 57 \/ c = 45) (text s)).
  { rewrite !Forall_forall. unfold is_digit. split; intros F c Hc; specialize (F c Hc); lia. }
  split.
  - intros F Hv. apply (to_int_ok s (text s) H); [now apply K|]. change (2 ^ 63) with 9223372036854775808 in Hv. unfold digs, is_digit. lia.
  - intros N v. apply (to_int_bad s (text s) H). intros F. apply N. now apply K.
Qed.
Example C16_ex : exists s, value_of_int (-1203) = Val s /\ text s = [45; 49; 50; 48; 51] /\ to_int s = Val (-1203).
Proof. eexists. repeat split; vm_compute; reflexivity. Qed.
Example C16_toInt_ex : to_int (str_of [49; 45; 50]) = Val (-12) /\ to_int (str_of []) = Val 0 /\ to_int (str_of [49; 46]) = Exn.
Proof. repeat split; vm_compute; reflexivity. Qed.
(** Integer::digits counts the characters of the decimal text *)
Theorem C16_digits : forall n, - 2 ^ 63 < n < 2 ^ 63 -> exists s, value_of_int n = Val s /\ digits n = Val (zlen (text s)).
Proof.
  intros n Hn. destruct (C16_valueOf_canonical n Hn) as (s & ds & E & _ & T & C). exists s. split; [exact E|]. rewrite T. change (2 ^ 63) with 9223372036854775808 in Hn. unfold digits.
  assert (B : 10 ^ Z.of_nat 19 = 10000000000000000000) by reflexivity.
  destruct (Z.ltb_spec n 0) as [N|N].
  - unfold chk64, in_s64. replace ((-9223372036854775808 <=? n * -1) && (n * -1 <=? 9223372036854775807)) with true by lia. cbn [bind].
    destruct (digit_count_ok 19 (n * -1) 2) as (es & -> & Ce); [rewrite B; lia|lia|lia|]. replace (Z.abs n) with (n * -1) in C by lia. rewrite (canonical_len 10 _ ds es ltac:(lia) C Ce).
    f_equal. rewrite zlen_app, zlen_map. change (zlen [45]) with 1. lia.
  - destruct (digit_count_ok 19 n 1) as (es & -> & Ce); [rewrite B; lia|lia|lia|]. replace (Z.abs n) with n in C by lia. rewrite (canonical_len 10 _ ds es ltac:(lia) C Ce).
    f_equal. cbn [app]. rewrite zlen_map. lia.
Qed.
Example C16_digits_ex : digits (-1203) = Val 5 /\ digits 0 = Val 1. Proof. split; reflexivity. Qed.
Theorem C16_canonical_unique : forall b n ds es, 2 <= b -> canonical b n ds -> canonical b n es -> ds = es.
Proof. exact canonical_len. Qed.

(** * C17 -- hexadecimal *)
Theorem C17_toHex_canonical : forall n, 0 <= n < 2 ^ 63 -> exists s ds, to_hex n = Val s /\ sound s /\ text s = map hex_upper ds /\ canonical 16 n ds.
Proof.
  intros n Hn. change (2 ^ 63) with 9223372036854775808 in Hn. unfold to_hex. destruct (Z.eqb_spec n 0) as [->|N0].
  - destruct (append_char_ok str_new [] 48 str_new_repr) as (s0 & -> & R0 & _). apply repr_text in R0 as [T S]. exists s0, [0]. split; [reflexivity|]. split; [exact S|]. split; [exact T|]. split; [reflexivity|]. split; [constructor; [lia|constructor]|auto].
  - rewrite hex_gen. destruct (gen_ok 16 hex_char 16 ltac:(lia) str_new [] n str_new_repr) as (s1 & ds & E & R & V & F & D); [change (16 ^ Z.of_nat 16) with 18446744073709551616; lia|discriminate|].
    rewrite E. cbn [bind app] in *. destruct (reverse_ok s1 _ R) as (s2 & -> & R2 & _). rewrite map_rev, rev_involutive in R2. apply repr_text in R2 as [T S]. exists s2, ds. split; [reflexivity|]. split; [exact S|].
    split; [|split; [exact V|]; split; [exact F|]; right; destruct D as [(D & _)|D]; [lia|exact D]]. rewrite T. apply map_ext_in. intros d Hd. apply hex_char_upper. rewrite Forall_forall in F. exact (F d Hd).
Qed.
(** any text below 2^32 characters: hexadecimal digits of either case, other characters count as 0, the result wraps at 64 bits *)
Theorem C17_fromHex : forall s, sound s -> zlen (text s) < 2 ^ 32 -> from_hex s = Val (s64 (pos_value 16 (map hex_value (text s)))).
Proof.
  intros s H Hl. apply sound_repr in H. rewrite (from_hex_ok s _ H Hl). f_equal. unfold s64. f_equal. apply Zplus_mod_idemp_l.
Qed.
Theorem C17_roundtrip : forall n, 0 <= n < 2 ^ 63 -> exists s, to_hex n = Val s /\ from_hex s = Val n.
Proof.
  intros n Hn. destruct (C17_toHex_canonical n Hn) as (s & ds & E & S & T & (V & F & D)). exists s. split; [exact E|].
  assert (M : map hex_value (text s) = ds).
  { rewrite T, map_map. rewrite <- (map_id ds) at 2. apply map_ext_in. intros d Hd. rewrite Forall_forall in F. specialize (F d Hd).
    assert (Sw : forallb (fun d => hex_value (hex_upper d) =? d) (zrange 16) = true) by reflexivity. pose proof (sweep 16 _ Sw d ltac:(lia)). cbv beta in *. lia. }
  assert (L : zlen (text s) < 2 ^ 32).
  { (* at most 16 digits *)
    assert (P : forall l, Forall (fun d => 0 <= d < 16) l -> forall a, 0 < a -> a * 16 ^ zlen l <= fold_left (fun a d => 16 * a + d) l a).
    { induction l as [|x l IH]; intros Fl a Ha; cbn [fold_left]; [change (zlen (@nil Z)) with 0; lia|]. inversion Fl; subst. specialize (IH ltac:(assumption) (16 * a + x) ltac:(lia)).
      rewrite zlen_cons, Z.pow_add_r, Z.pow_1_r by (try apply zlen_nonneg; lia). pose proof (Z.pow_pos_nonneg 16 (zlen l) ltac:(lia) (zlen_nonneg l)). nia. }
    rewrite <- (zlen_map hex_value), M. destruct D as [->|(d & r & -> & Hd)]; [cbn; lia|]. inversion F; subst. unfold pos_value in *. cbn [fold_left] in *.
    specialize (P r ltac:(assumption) (16 * 0 + d) ltac:(lia)). rewrite zlen_cons. destruct (Z.leb_spec (zlen r) 16); [lia|]. exfalso.
    assert (16 ^ 16 <= 16 ^ zlen r) by (apply Z.pow_le_mono_r; lia). change (16 ^ 16) with 18446744073709551616 in *. change (2 ^ 63) with 9223372036854775808 in *. nia. }
  rewrite (C17_fromHex s S L), M, V. f_equal. apply s64_id. change (2 ^ 63) with 9223372036854775808 in Hn. lia.
Qed.
(** negative numbers have no digits at all *)
Theorem C17_negative_is_empty : forall n, n < 0 -> exists s, to_hex n = Val s /\ text s = [].
Proof. intros n Hn. unfold to_hex. replace (n =? 0) with false by lia. cbn [hex_digits]. replace (n >? 0) with false by lia. cbn [bind]. eexists. split; reflexivity. Qed.
Example C17_ex : exists s, to_hex 48879 = Val s /\ text s = [66; 69; 69; 70] /\ from_hex s = Val 48879 /\ from_hex (str_of [98; 69; 101; 70]) = Val 48879.
Proof. eexists. repeat split; vm_compute; reflexivity. Qed.

(** * C18 -- Roman numerals *)
Theorem C18_roman : forall n, 0 <= n -> exists s, to_roman n = Val s /\ sound s /\ text s = roman n /\ roman_value (text s) = n.
Proof.
  intros n Hn. unfold to_roman. destruct (roman_loop_ok g_roman str_new [] n str_new_repr) as (s & E & R). cbn [app] in R. rewrite roman_text_ok in R by exact Hn.
  apply repr_text in R as [T S]. exists s. rewrite T. split; [exact E|]. split; [exact S|]. split; [reflexivity|]. now apply roman_value_ok.
Qed.
Theorem C18_injective : forall n m s t, 0 <= n -> 0 <= m -> to_roman n = Val s -> to_roman m = Val t -> text s = text t -> n = m.
Proof.
  intros n m s t Hn Hm E1 E2 Et. destruct (C18_roman n Hn) as (s' & E1' & _ & _ & V1). destruct (C18_roman m Hm) as (t' & E2' & _ & _ & V2). congruence.
Qed.
(** zero and negative numbers give the empty text *)
Theorem C18_nonpositive_is_empty : forall n, n <= 0 -> exists s, to_roman n = Val s /\ text s = [].
Proof.
  intros n Hn. unfold to_roman. destruct (roman_loop_ok g_roman str_new [] n str_new_repr) as (s & E & R). rewrite roman_text_neg in R; [|exact Hn|repeat constructor]. apply repr_text in R as [T _]. eauto.
Qed.
Example C18_ex : roman 1994 = [77; 67; 77; 88; 67; 73; 86] /\ exists s, to_roman 3888 = Val s /\ text s = [77; 77; 77; 68; 67; 67; 67; 76; 88; 88; 88; 86; 73; 73; 73].
Proof. split; [reflexivity|]. eexists. split; vm_compute; reflexivity. Qed.

(** * C19 -- latin alphabet numbering *)
(** the text is the base 26 notation with the digits '@' (zero), 'A' (1) .. 'Y' (25), for numbers below 26 * 2^31 *)
Theorem C19_latin : forall n, 0 < n < 26 * 2 ^ 31 -> exists s ds, to_latin n = Val s /\ sound s /\ text s = map (fun d => 64 + d) ds /\ canonical 26 n ds.
Proof.
  intros n Hn. change (2 ^ 31) with 2147483648 in Hn. destruct (to_latin_ok n ltac:(lia)) as (s & ds & E & R & V & F & D). apply repr_text in R as [T S]. exists s, ds. split; [exact E|]. split; [exact S|]. split; [exact T|].
  split; [exact V|]. split; [exact F|]. right. destruct D as [(D & _)|D]; [lia|exact D].
Qed.
Theorem C19_small : forall n, 1 <= n <= 25 -> exists s, to_latin n = Val s /\ text s = [64 + n].
Proof.
  intros n Hn. destruct (C19_latin n) as (s & ds & E & _ & T & C); [change (2 ^ 31) with 2147483648; lia|]. exists s. split; [exact E|]. rewrite T.
  assert (canonical 26 n [n]). { split; [reflexivity|]. split; [constructor; [lia|constructor]|]. right. exists n, []. split; [reflexivity|lia]. }
  rewrite (canonical_len 26 n ds [n]); auto; lia.
Qed.
(** 26 is not "Z" but "A@"; the letter Z never appears; and large numbers lose their upper part *)
Theorem C19_letters_only_refuted : (exists s, to_latin 26 = Val s /\ text s = [65; 64]) /\
  (forall n s, 0 < n < 26 * 2 ^ 31 -> to_latin n = Val s -> ~ In 90 (text s)) /\
  (exists s, to_latin (26 * 2 ^ 32 + 1) = Val s /\ text s = [65]).
Proof.
  split; [eexists; split; vm_compute; reflexivity|]. split; [|eexists; split; vm_compute; reflexivity].
  intros n s Hn E I. destruct (C19_latin n Hn) as (s' & ds & E' & _ & T & (_ & F & _)). rewrite E in E'. injection E' as <-. rewrite T in I. apply in_map_iff in I as (d & Hd & I).
  rewrite Forall_forall in F. specialize (F d I). lia.
Qed.
Example C19_ex : exists s, to_latin 703 = Val s /\ text s = [65; 65; 65]. Proof. eexists. split; vm_compute; reflexivity. Qed.

Print Assumptions C16_valueOf_canonical. Print Assumptions C16_valueOf_unsigned_canonical. Print Assumptions C16_roundtrip. Print Assumptions C16_most_negative_refuted. Print Assumptions C16_toInt. Print Assumptions C16_digits. Print Assumptions C16_canonical_unique.
Print Assumptions C17_toHex_canonical. Print Assumptions C17_fromHex. Print Assumptions C17_roundtrip. Print Assumptions C17_negative_is_empty.
Print Assumptions C18_roman. Print Assumptions C18_injective. Print Assumptions C18_nonpositive_is_empty. Print Assumptions C19_latin. Print Assumptions C19_small. Print Assumptions C19_letters_only_refuted.
