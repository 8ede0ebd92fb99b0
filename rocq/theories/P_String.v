(** P_String.v -- theorems about String (C10-C15, C53, C59, C60). *)
From Verif Require Import Base M_String S_String L_String L_String2 L_String3 L_String4.

(** * C10, C11 -- histories of mutations *)
Lemma edit_exec o s : sound s -> arg_sound o -> fits (arg_text o) (text s) ->
  match edit_list (arg_text o) (text s) with
  | Some t => exists s', exec o s = Val s' /\ sound s' /\ text s' = t
  | None => exec o s = Exn
  end.
Proof.
  intros Hs Ha (Hb & Hf). apply sound_repr in Hs. set (t := text s) in *.
  assert (K : forall m u, (exists s', m = Val s' /\ repr s' u) -> exists s', m = Val s' /\ sound s' /\ text s' = u).
  { intros m u (s' & -> & R). exists s'. apply repr_text in R as [? ?]. auto. }
  assert (Lt : len s = zlen t) by (destruct Hs as (j & _ & L); exact L). pose proof (zlen_nonneg t).
  destruct o; cbn [arg_text edit_list exec arg_sound] in *; try apply sound_repr in Ha.
  - apply K. apply append_ok; auto.
  - apply K. destruct (append_char_ok s t c Hs) as (s' & E & R & _). eauto.
  - destruct ((0 <=? i) && (i <=? zlen t)) eqn:G; [apply K, insert_char_ok; auto; lia|]. unfold insert_char. rewrite Lt. replace ((i <? 0) || (i >? zlen t)) with true by lia. reflexivity.
  - destruct ((0 <=? i) && (i <=? zlen t)) eqn:G; [apply K, insert_str_ok; auto; lia|]. unfold insert_str. rewrite Lt. replace ((i <? 0) || (i >? zlen t)) with true by lia. reflexivity.
  - destruct ((0 <=? i) && (i <? zlen t)) eqn:G.
    + apply K. destruct (set_char_ok s t i c Hs ltac:(lia)) as (s' & E & R & _). eauto.
    + unfold set_char_at. rewrite Lt. replace ((i <? 0) || (i >=? zlen t)) with true by lia. reflexivity.
  - destruct ((0 <=? i) && (i <? zlen t)) eqn:G; [apply K, delete_char_ok; auto; lia|]. unfold delete_char_at. rewrite Lt. replace ((i <? 0) || (i >=? zlen t)) with true by lia. reflexivity.
  - destruct ((0 <=? i) && (i <=? zlen t)) eqn:G; [apply K, delete_range_ok; auto; lia|]. unfold delete_range. rewrite Lt. replace ((i <? 0) || (i >? zlen t)) with true by lia. reflexivity.
  - apply K. eexists. split; [reflexivity|]. eapply clear_ok; eauto.
  - apply K. eexists. split; [reflexivity|]. eapply zero_ok; eauto.
Qed.

(** any history of mutating calls behaves as the list edits; a call with a wrong index throws and changes nothing *)
Theorem C10_string_history : forall os s, sound s -> Forall arg_sound os -> all_fit (map arg_text os) (text s) ->
  exists s', exec_all os s = Val (fst (edit_all (map arg_text os) (text s)), s') /\
             sound s' /\ text s' = snd (edit_all (map arg_text os) (text s)).
Proof.
  induction os as [|o os IH]; intros s Hs Ha Hf; cbn [map edit_all exec_all all_fit] in *.
  - exists s. auto.
  - destruct Hf as [F1 F2]. inversion Ha as [|? ? A1 A2]; subst. pose proof (edit_exec o s Hs A1 F1) as E.
    destruct (edit_list (arg_text o) (text s)) as [t'|].
    + destruct E as (s1 & -> & S1 & <-). destruct (IH s1 S1 A2 F2) as (s' & -> & S' & T'). destruct (edit_all (map arg_text os) (text s1)) as [l r]. cbn [bind fst snd] in *. exists s'. auto.
    + rewrite E. destruct (IH s Hs A2 F2) as (s' & -> & S' & T'). destruct (edit_all (map arg_text os) (text s)) as [l r]. cbn [bind fst snd] in *. exists s'. auto.
Qed.
Example C10_ex :
  exec_all [SAppend (str_of [97; 98; 99]); SInsertChar 1 120; SInsert 9 (str_of [65]); SInsert 4 (str_of [65; 66]); SDeleteRange 0 2; SSetChar 0 122; SDelete 7] str_new
  = Val ([true; true; false; true; true; true; false], JS [122; 99; 65; 66; 65; 66; 0; 0; 0; 0; 0; 0; 0; 0; 0; 0] 4 0).
Proof. vm_compute. reflexivity. Qed.
Example C10_ex_spec : edit_all [SAppend [97; 98; 99]; SInsertChar 1 120; SInsert 9 [65]; SInsert 4 [65; 66]; SDeleteRange 0 2; SSetChar 0 122; SDelete 7] []
  = ([true; true; false; true; true; true; false], [122; 99; 65; 66]).
Proof. vm_compute. reflexivity. Qed.

(** reading a character *)
Theorem C10_char_at : forall s i, sound s -> char_at s i = match lget (text s) i with Some c => Val c | None => Exn end.
Proof. intros s i H. apply char_at_ok. now apply sound_repr. Qed.

(** * C11 -- the storage invariant *)
(** no undefined behaviour in any history that respects deleteCharRangeAt's bounds, and the length stays within the capacity *)
Theorem C11_storage_invariant : forall os s, sound s -> Forall arg_sound os -> all_fit (map arg_text os) (text s) ->
  exists l s', exec_all os s = Val (l, s') /\ 0 <= len s' <= zlen (buf s').
Proof. intros os s Hs Ha Hf. destruct (C10_string_history os s Hs Ha Hf) as (s' & E & S & _). exists (fst (edit_all (map arg_text os) (text s))), s'. split; [exact E|exact S]. Qed.
(** constructors establish it *)
Theorem C11_constructors_sound : forall xs s, sound s -> sound (str_of xs) /\ sound str_new /\
  (exists s', copy_ctor s = Val s' /\ sound s' /\ text s' = text s) /\ (forall this, exists s', assign this s = Val s' /\ sound s' /\ text s' = text s).
Proof.
  intros xs s Hs. apply sound_repr in Hs. split; [apply (repr_text _ _ (str_of_repr xs))|]. split; [apply (repr_text _ _ str_new_repr)|]. split.
  - destruct (copy_ctor_ok s _ Hs) as (s' & E & R & _). apply repr_text in R as [T S]. eauto.
  - intros this. destruct (assign_ok this s _ Hs) as (s' & E & R & _). apply repr_text in R as [T S]. eauto.
Qed.
(** deleteCharRangeAt with a length beyond the end: characters before the index disappear as well, and a length that
    exceeds the whole text leaves a negative length, after which append is undefined *)
Theorem C11_delete_range_past_end_refuted : forall s i n, sound s -> zlen (text s) <= 2 ^ 62 -> n <= 2 ^ 62 -> 0 <= i <= zlen (text s) -> zlen (text s) < i + n ->
  exists s', delete_range s i n = Val s' /\ len s' = zlen (text s) - n /\
    (n <= zlen (text s) -> text s' = ztake (zlen (text s) - n) (text s)) /\
    (zlen (text s) < n -> ~ sound s' /\ forall c, len s' + 1 < zlen (buf s') -> append_char s' c = UB).
Proof.
  intros s i n Hs Hb Hn Hi Hin. apply sound_repr in Hs. destruct Hs as (j & E & L). set (t := text s) in *. unfold delete_range. rewrite L. pose proof (zlen_nonneg t).
  replace ((i <? 0) || (i >? zlen t)) with false by lia. change (2 ^ 62) with 4611686018427387904 in *.
  unfold chk64, in_s64. replace ((-9223372036854775808 <=? zlen t - n) && (zlen t - n <=? 9223372036854775807)) with true by lia. cbn [bind].
  replace (Z.to_nat (zlen t - n - i)) with O by lia. cbn [shift_down bind]. eexists. split; [reflexivity|]. cbn [len buf]. split; [reflexivity|]. split.
  - intros Hle. unfold text at 1. cbn [len buf]. rewrite E. unfold ztake at 1. rewrite firstn_app. replace (Z.to_nat (zlen t - n) - length t)%nat with O by (unfold zlen in *; lia). cbn [firstn]. apply app_nil_r.
  - intros Hlt. split; [unfold sound; cbn [len]; lia|]. intros c Hc. unfold append_char, check_capacity. cbn [len buf hash]. replace (zlen t - n + 1 <? zlen (buf s)) with true by lia. cbn [bind len buf].
    rewrite wr_out by lia. reflexivity.
Qed.
Example C11_delete_range_ex : exists s', delete_range (str_of [97; 98; 99; 100; 101; 102]) 4 3 = Val s' /\ text s' = [97; 98; 99].
Proof. eexists. split; vm_compute; reflexivity. Qed.
(** inserting a string into itself writes wrong characters: "abcd".insert(1, itself) gives "aaacd..." *)
Theorem C11_insert_self_refuted : exists s', insert_self (str_of [97; 98; 99; 100]) 1 = Val s' /\
  text s' = [97; 97; 97; 97; 97; 98; 99; 100] /\ edit_list (SInsert 1 [97; 98; 99; 100]) [97; 98; 99; 100] = Some [97; 97; 98; 99; 100; 98; 99; 100].
Proof. eexists. split; [vm_compute; reflexivity|]. split; vm_compute; reflexivity. Qed.

(** * C12 -- searching *)
Theorem C12_indexOf_char : forall s c from, sound s -> exists r, index_of_char s c from = Val r /\
  first_at (fun i => lget (text s) i = Some c) (Z.max 0 from) (zlen (text s)) r.
Proof. intros s c from H. apply index_of_char_ok. now apply sound_repr. Qed.
Theorem C12_lastIndexOf_char : forall s c from, sound s ->
  (from < zlen (text s) -> exists r, last_index_of_char_from s c from = Val r /\
     last_at (fun i => lget (text s) i = Some c) 0 (Z.min (zlen (text s)) (Z.max 0 from + 1)) r) /\
  (zlen (text s) <= from -> last_index_of_char_from s c from = Exn) /\
  exists r, last_index_of_char s c = Val r /\ last_at (fun i => lget (text s) i = Some c) 0 (zlen (text s)) r.
Proof.
  intros s c from H. apply sound_repr in H. assert (L : len s = zlen (text s)) by (destruct H as (j & _ & L); exact L). pose proof (zlen_nonneg (text s)) as P.
  pose proof (last_index_char_ok s (text s) c from H) as K. split; [|split].
  - intros F. replace (from >=? zlen (text s)) with false in K by lia. exact K.
  - intros F. replace (from >=? zlen (text s)) with true in K by lia. exact K.
  - unfold last_index_of_char. rewrite L. pose proof (last_index_char_ok s (text s) c (zlen (text s) - 1) H) as K2.
    replace (zlen (text s) - 1 >=? zlen (text s)) with false in K2 by lia. destruct K2 as (r & E & F). exists r. split; [exact E|].
    replace (Z.min (zlen (text s)) (Z.max 0 (zlen (text s) - 1) + 1)) with (zlen (text s)) in F by lia. exact F.
Qed.
Theorem C12_lastIndexOf_string : forall s p from, sound s -> sound p -> exists r, last_index_of_str_from s p from = Val r /\
  last_at (occurs (text p) (text s)) 0 (from + 1) r.
Proof. intros s p from H H2. apply last_index_of_str_ok; now apply sound_repr. Qed.
(** indexOf(String): right if the pattern cannot run over the end of the text ... *)
Theorem C12_indexOf_string : forall s p from, sound s -> sound p -> no_overrun (text p) (text s) ->
  exists r, index_of_str s p from = Val r /\ first_at (occurs (text p) (text s)) (Z.max 0 from) (zlen (text s)) r.
Proof.
  intros s p from H H2 G. apply sound_repr in H. destruct H as (j & E & L). apply (index_of_str_ok s (text s) j); auto; [now apply sound_repr|]. left. exact G.
Qed.
(** ... or if the character stored behind the end is not in the pattern (a fresh buffer has 0 there, if it is not full) *)
Theorem C12_indexOf_string_spare : forall s p from z, sound s -> sound p -> lget (buf s) (len s) = Some z -> ~ In z (text p) ->
  exists r, index_of_str s p from = Val r /\ first_at (occurs (text p) (text s)) (Z.max 0 from) (zlen (text s)) r.
Proof.
  intros s p from z H H2 G N. apply sound_repr in H. destruct H as (j & E & L). apply (index_of_str_ok s (text s) j); auto; [now apply sound_repr|].
  right. rewrite E, L, lget_app_r in G by lia. replace (zlen (text s) - zlen (text s)) with 0 in G by lia. destruct j as [|z' j']; [discriminate|]. injection G as ->. eauto.
Qed.
(** without such a condition it reports matches that are not in the string, and reads behind its buffer *)
Theorem C12_indexOf_string_refuted :
  (exists s p, sound s /\ sound p /\ delete_char_at (str_of [97; 98; 99]) 2 = Val s /\ text s = [97; 98] /\ index_of_str s p 0 = Val 1 /\ ~ occurs (text p) (text s) 1) /\
  (let s := str_of [97; 98; 99; 100; 101; 102; 103; 104; 105; 106; 107; 108; 109; 110; 111; 112] in
   let p := str_of [112; 113] in sound s /\ sound p /\ index_of_str s p 0 = UB).
Proof.
  split.
  - exists (JS [97; 98; 99; 0; 0; 0; 0; 0; 0; 0; 0; 0; 0; 0; 0; 0] 2 0), (str_of [98; 99]).
    split; [unfold sound; cbn; lia|]. split; [unfold sound; cbn; lia|]. split; [reflexivity|]. split; [reflexivity|]. split; [reflexivity|].
    intros O. apply occurs_range in O. vm_compute in O. destruct O as [_ O]. apply O. reflexivity.
  - split; [unfold sound; vm_compute; split; discriminate|]. split; [unfold sound; vm_compute; split; discriminate|]. vm_compute. reflexivity.
Qed.
Theorem C12_startsWith_endsWith_at : forall s p, sound s -> sound p ->
  (exists b, starts_with s p = Val b /\ (b = true <-> exists r, text s = text p ++ r)) /\
  (exists b, ends_with s p = Val b /\ (b = true <-> exists r, text s = r ++ text p)) /\
  (forall pos, 0 <= pos < 2 ^ 62 -> zlen (text p) <= 2 ^ 62 -> exists b, at_is s pos p = Val b /\ (b = true <-> occurs (text p) (text s) pos)).
Proof.
  intros s p H H2. apply sound_repr in H, H2. split; [now apply starts_with_ok|]. split; [now apply ends_with_ok|]. intros. now apply at_is_ok.
Qed.
Theorem C12_at_negative_refuted : at_is (str_of [97; 98]) (-1) (str_of [97]) = UB.
Proof. vm_compute. reflexivity. Qed.
Theorem C12_count : forall s c, sound s -> count s c = Val (Z.of_nat (count_occ Z.eq_dec (text s) c)).
Proof. intros s c H. apply count_ok. now apply sound_repr. Qed.
Example C12_ex : index_of_str (str_of [97; 98; 97; 98; 99]) (str_of [97; 98; 99]) 0 = Val 2 /\ no_overrun [97; 98; 99] [97; 98; 97; 98; 99] /\
  last_index_of_str (str_of [97; 98; 97; 98; 99]) (str_of [97; 98]) = Val 2 /\ last_index_of_char (str_of [97; 98; 97]) 97 = Val 2.
Proof.
  split; [reflexivity|]. split; [|split; reflexivity]. intros u v w E1 E2 N.
  destruct u as [|a [|b [|c [|d u]]]]; cbn in E1; try congruence; injection E1; intros; subst; auto.
  - exfalso. apply (f_equal (@rev Z)) in E2. rewrite rev_app_distr in E2. cbn in E2. congruence.
  - exfalso. apply (f_equal (@rev Z)) in E2. rewrite rev_app_distr in E2. cbn in E2. congruence.
Qed.

(** * C13 -- comparison *)
Theorem C13_compareTo : forall s t, sound s -> sound t -> compare_to s t = Val (sign (lex (text s) (text t))).
Proof. intros s t H H2. apply compare_ok; now apply sound_repr. Qed.
Theorem C13_compareTo_order : forall s t u, sound s -> sound t -> sound u ->
  (compare_to s t = Val 0 <-> text s = text t) /\
  (exists r, compare_to s t = Val r /\ compare_to t s = Val (- r) /\ (r = -1 \/ r = 0 \/ r = 1)) /\
  (forall a b, compare_to s t = Val a -> compare_to t u = Val b -> a <= 0 -> b <= 0 -> exists c, compare_to s u = Val c /\ c <= 0).
Proof.
  intros s t u Hs Ht Hu. rewrite !C13_compareTo by assumption. split; [|split].
  - rewrite <- lex_eq. destruct (lex (text s) (text t)); cbn; split; congruence.
  - exists (sign (lex (text s) (text t))). rewrite (lex_sym (text s) (text t)). destruct (lex (text s) (text t)); cbn; auto.
  - intros a b Ea Eb Ha Hb. injection Ea as <-. injection Eb as <-. eexists. split; [reflexivity|].
    destruct (lex (text s) (text t)) eqn:E1; cbn [sign] in Ha; [| |lia].
    + apply lex_eq in E1. rewrite E1. exact Hb.
    + destruct (lex (text t) (text u)) eqn:E2; cbn [sign] in Hb; [| |lia].
      * apply lex_eq in E2. rewrite <- E2, E1. cbn. lia.
      * rewrite (lex_trans _ _ _ E1 E2). cbn. lia.
Qed.
(** equals; the loop counter is a uint32, so the texts are assumed shorter than 2^32 *)
Theorem C13_equals : forall s t, sound s -> sound t -> zlen (text s) < 2 ^ 32 -> exists b, equals s t = Val b /\ (b = true <-> text s = text t).
Proof.
  intros s t H H2 Hl. apply sound_repr in H, H2. destruct (eq_gen (fun c => c) s _ t _ H H2 Hl) as (b & E & B). exists b. split; [exact E|]. rewrite B, !map_id. reflexivity.
Qed.
Example C13_ex : compare_to (str_of [97; 98]) (str_of [97; 98; 0]) = Val (-1) /\ compare_to (str_of [98]) (str_of [97; 98; 0]) = Val 1 /\ equals (str_of [97; 98]) (str_of [97; 98]) = Val true.
Proof. repeat split; vm_compute; reflexivity. Qed.

(** * C14 -- hash codes *)
Theorem C14_hash_is_polynomial : forall s, sound s -> Forall unit16 (text s) -> zlen (text s) < 2 ^ 31 -> hash s = 0 ->
  const_hash_code s = Val (poly (text s)) /\ exists s', hash_code s = Val (poly (text s), s') /\ text s' = text s /\ hash s' = s32 (poly (text s)).
Proof.
  intros s H Hu Hl H0. unfold const_hash_code, hash_code. rewrite H0. cbn [Z.eqb negb]. rewrite (hash_ok s (text s)); [|now apply sound_repr|change (2 ^ 31) with 2147483648 in Hl; lia|exact Hu].
  cbn [bind]. split; [reflexivity|]. eexists. split; [reflexivity|]. auto.
Qed.
Theorem C14_equal_strings_equal_hash : forall s t, sound s -> sound t -> Forall unit16 (text s) -> zlen (text s) < 2 ^ 31 -> hash s = 0 -> hash t = 0 -> text s = text t ->
  exists h, const_hash_code s = Val h /\ const_hash_code t = Val h.
Proof.
  intros s t Hs Ht Hu Hl H1 H2 E. exists (poly (text s)). split; [now apply C14_hash_is_polynomial|]. rewrite E in *. now apply C14_hash_is_polynomial.
Qed.
(** any mutation forgets the cached hash *)
Theorem C14_mutation_resets_hash : forall o s s', exec o s = Val s' -> (forall u, o = SAppend u -> text u <> []) -> hash s' = 0.
Proof.
  intros o s s' E N. destruct o; cbn [exec] in E.
  - unfold append in E. destruct (Z.eqb_spec (len t) 0) as [Z0|_]; [exfalso; apply (N _ eq_refl); unfold text; rewrite Z0; reflexivity|]. destruct (check_capacity _ s); cbn [bind] in E; try discriminate. destruct (memcpy _ _ _ _ _); cbn [bind] in E; try discriminate. now injection E as <-.
  - unfold append_char in E. destruct (check_capacity 1 s); cbn [bind] in E; try discriminate. destruct (wr _ _ _); cbn [bind] in E; try discriminate. now injection E as <-.
  - unfold insert_char in E. destruct (_ || _); try discriminate. destruct (check_capacity 1 s); cbn [bind] in E; try discriminate. destruct (shift_up _ _ _ _); cbn [bind] in E; try discriminate. destruct (wr _ _ _); cbn [bind] in E; try discriminate. now injection E as <-.
  - unfold insert_str in E. destruct (_ || _); try discriminate. cbv zeta in E. destruct (check_capacity _ s); cbn [bind] in E; try discriminate. destruct (shift_up _ _ _ _); cbn [bind] in E; try discriminate. destruct (write_all _ _ _ _ _); cbn [bind] in E; try discriminate. now injection E as <-.
  - unfold set_char_at in E. destruct (_ || _); try discriminate. destruct (wr _ _ _); cbn [bind] in E; try discriminate. now injection E as <-.
  - unfold delete_char_at in E. destruct (_ || _); try discriminate. destruct (shift_down _ _ _ _); cbn [bind] in E; try discriminate. now injection E as <-.
  - unfold delete_range in E. destruct (_ || _); try discriminate. destruct (chk64 _); cbn [bind] in E; try discriminate. destruct (shift_down _ _ _ _); cbn [bind] in E; try discriminate. now injection E as <-.
  - injection E as <-. unfold clear. cbn [zero buf hash]. destruct (_ >? 16); reflexivity.
  - injection E as <-. reflexivity.
Qed.
(** two calls on one string disagree when the top bit is set; assignment and case conversion keep a stale hash, so equal
    strings have different hash codes *)
Theorem C14_hash_consistency_refuted :
  (exists s s1 s2 h1 h2, sound s /\ hash s = 0 /\ hash_code s = Val (h1, s1) /\ hash_code s1 = Val (h2, s2) /\ h1 <> h2) /\
  (exists s s1 s2 h h2, hash_code s = Val (h, s1) /\ to_upper s1 = Val s2 /\ text s2 = [65; 66] /\ const_hash_code s2 = Val h2 /\ const_hash_code (str_of [65; 66]) <> Val h2) /\
  (exists s s1 s2 h h2, hash_code s = Val (h, s1) /\ assign s1 (str_of [65; 66]) = Val s2 /\ text s2 = [65; 66] /\ const_hash_code s2 = Val h2 /\ const_hash_code (str_of [65; 66]) <> Val h2).
Proof.
  split; [|split].
  - exists (str_of [122; 122; 122; 122; 122; 122]). do 4 eexists. split; [unfold sound; vm_compute; split; discriminate|]. split; [reflexivity|]. split; [vm_compute; reflexivity|]. split; [vm_compute; reflexivity|]. discriminate.
  - exists (str_of [97; 98]). do 4 eexists. split; [vm_compute; reflexivity|]. split; [vm_compute; reflexivity|]. split; [vm_compute; reflexivity|]. split; [vm_compute; reflexivity|]. vm_compute. discriminate.
  - exists (str_of [97; 98]). do 4 eexists. split; [vm_compute; reflexivity|]. split; [vm_compute; reflexivity|]. split; [vm_compute; reflexivity|]. split; [vm_compute; reflexivity|]. vm_compute. discriminate.
Qed.
Example C14_ex : const_hash_code (str_of [97; 98]) = Val 3105 /\ poly [97; 98] = 97 * 31 + 98.
Proof. split; vm_compute; reflexivity. Qed.

(** * C15 -- replacement *)
(** a non-empty pattern that cannot run over the end (or whose characters do not contain the one behind the end) *)
Theorem C15_replace : forall s p n fuel, sound s -> sound p -> sound n -> text p <> [] ->
  (no_overrun (text p) (text s) \/ exists z, lget (buf s) (len s) = Some z /\ ~ In z (text p)) -> zlen (text s) < Z.of_nat fuel ->
  exists s', replace_str s p n fuel = Val s' /\ sound s' /\ replaced (text p) (text n) (text s) (text s').
Proof.
  intros s p n fuel Hs Hp Hn Ne G Hf. apply sound_repr in Hs, Hp, Hn. destruct Hs as (j & E & L).
  destruct (replace_ok s (text s) j p (text p) n (text n) fuel E L Hp Hn Ne) as (s' & r & -> & R & P); auto.
  - destruct G as [G|(z & Gz & N)]; [left; exact G|right]. rewrite E, L, lget_app_r in Gz by lia. replace (zlen (text s) - zlen (text s)) with 0 in Gz by lia. destruct j as [|z' j']; [discriminate|]. injection Gz as ->. eauto.
  - apply repr_text in R as [<- S]. eauto.
Qed.
(** with any non-empty pattern the loop ends *)
Theorem C15_replace_terminates : forall s p n fuel, sound s -> sound p -> sound n -> text p <> [] -> zlen (text s) < Z.of_nat fuel ->
  (exists s', replace_str s p n fuel = Val s') \/ replace_str s p n fuel = UB.
Proof. intros s p n fuel Hs Hp Hn Ne Hf. apply sound_repr in Hs, Hp, Hn. eapply replace_terminates; eauto. Qed.
(** with an empty pattern and a non-empty text it never ends *)
Theorem C15_replace_empty_pattern_refuted : forall s p n, sound s -> sound p -> sound n -> text p = [] -> text s <> [] -> forall fuel, replace_str s p n fuel = Fuel.
Proof. intros s p n Hs Hp Hn Ep Ns. apply sound_repr in Hs, Hp, Hn. rewrite Ep in Hp. eapply replace_empty; eauto. Qed.
Theorem C15_replace_char : forall s o n, sound s -> exists s', replace_char s o n = Val s' /\ sound s' /\ text s' = map (fun c => if c =? o then n else c) (text s).
Proof. intros s o n H. apply sound_repr in H. destruct (map_str_ok (fun c => if c =? o then n else c) s _ H) as (s' & E & R & _). apply repr_text in R as [T S]. eauto. Qed.
(** the specification determines the result *)
Lemma replaced_fun o n : o <> [] -> forall t r1, replaced o n t r1 -> forall r2, replaced o n t r2 -> r1 = r2.
Proof.
  intros No t r1 H. induction H as [t N|a r r' N H IH]; intros r2 H2.
  - inversion H2 as [t' N'|a r r' N' H' Ea]; subst; [reflexivity|]. exfalso. apply (N (zlen a)). exists a, r. auto.
  - inversion H2 as [t' N' Et|a2 r2' r2'' N' H' Ea]; subst.
    + exfalso. apply (N' (zlen a)). exists a, r. auto.
    + assert (La : zlen a = zlen a2).
      { assert (O1 : occurs o (a ++ o ++ r) (zlen a)) by (exists a, r; auto). assert (O2 : occurs o (a ++ o ++ r) (zlen a2)) by (rewrite <- Ea; exists a2, r2'; auto).
        destruct (Z.lt_trichotomy (zlen a) (zlen a2)) as [C|[C|C]]; auto; exfalso; [apply (N' (zlen a) C); now rewrite Ea|apply (N (zlen a2) C O2)]. }
      assert (a = a2). { apply (f_equal (ztake (zlen a))) in Ea. rewrite ztake_app in Ea by exact La. rewrite ztake_app in Ea by reflexivity. auto. } subst a2.
      apply app_inv_head in Ea. apply app_inv_head in Ea. subst r2'. rewrite (IH _ H'). reflexivity.
Qed.
Theorem C15_spec_deterministic : forall o n t r1 r2, o <> [] -> replaced o n t r1 -> replaced o n t r2 -> r1 = r2.
Proof. intros o n t r1 r2 No H1 H2. eapply replaced_fun; eauto. Qed.
Example C15_ex : exists s', replace_str (str_of [97; 97; 97; 98]) (str_of [97; 97]) (str_of [120; 97; 97]) 9 = Val s' /\ text s' = [120; 97; 97; 97; 98].
Proof. eexists. split; vm_compute; reflexivity. Qed.

(** * C53 -- case conversion *)
Theorem C53_case_conversion : forall s, sound s ->
  (exists s', to_lower s = Val s' /\ sound s' /\ text s' = map lower (text s)) /\ (exists s', to_upper s = Val s' /\ sound s' /\ text s' = map upper (text s)).
Proof.
  intros s H. apply sound_repr in H. split.
  - destruct (map_str_ok lower s _ H) as (s' & E & R & _). apply repr_text in R as [T S]. eauto.
  - destruct (map_str_ok upper s _ H) as (s' & E & R & _). apply repr_text in R as [T S]. eauto.
Qed.
(** what happens to one character: A-Z, a-z and the three German umlauts, everything else stays *)
Theorem C53_characters : forall c,
  (lower c <> c <-> (65 <= c <= 90 \/ c = 196 \/ c = 214 \/ c = 220)) /\ (lower c <> c -> lower c = c + 32) /\
  (upper c <> c <-> (97 <= c <= 122 \/ c = 228 \/ c = 246 \/ c = 252)) /\ (upper c <> c -> upper c = c - 32) /\
  lower (lower c) = lower c /\ upper (upper c) = upper c /\ lower (upper c) = lower c /\ upper (lower c) = upper c.
Proof.
  intros c. destruct (Z.leb_spec 0 c) as [L|L]; [destruct (Z.ltb_spec c 256) as [U|U]|].
  - set (isl := fun c => ((65 <=? c) && (c <=? 90)) || (c =? 196) || (c =? 214) || (c =? 220)). set (isu := fun c => ((97 <=? c) && (c <=? 122)) || (c =? 228) || (c =? 246) || (c =? 252)).
    assert (Sw : forallb (fun c => (lower c =? (if isl c then c + 32 else c)) && (upper c =? (if isu c then c - 32 else c)) && (lower (lower c) =? lower c) && (upper (upper c) =? upper c) && (lower (upper c) =? lower c) && (upper (lower c) =? upper c)) (zrange 256) = true) by (vm_compute; reflexivity).
    pose proof (sweep 256 _ Sw c ltac:(lia)) as H. cbv beta in H. apply andb_true_iff in H as [H H6]. apply andb_true_iff in H as [H H5]. apply andb_true_iff in H as [H H4]. apply andb_true_iff in H as [H H3]. apply andb_true_iff in H as [H1 H2].
    apply Z.eqb_eq in H1, H2, H3, H4, H5, H6. rewrite H3, H4, H5, H6. rewrite H1, H2. clear. subst isl isu. cbv beta.
    split; [|split; [|split; [|split; [|auto]]]].
    + destruct (((65 <=? c) && (c <=? 90)) || (c =? 196) || (c =? 214) || (c =? 220)) eqn:E; lia.
    + destruct (((65 <=? c) && (c <=? 90)) || (c =? 196) || (c =? 214) || (c =? 220)) eqn:E; lia.
    + destruct (((97 <=? c) && (c <=? 122)) || (c =? 228) || (c =? 246) || (c =? 252)) eqn:E; lia.
    + destruct (((97 <=? c) && (c <=? 122)) || (c =? 228) || (c =? 246) || (c =? 252)) eqn:E; lia.
  - assert (E : lower c = c). { unfold lower. replace ((65 <=? c) && (c <=? 90)) with false by lia. replace (c =? 196) with false by lia. replace (c =? 214) with false by lia. replace (c =? 220) with false by lia. reflexivity. }
    assert (E' : upper c = c). { unfold upper. replace ((97 <=? c) && (c <=? 122)) with false by lia. replace (c =? 228) with false by lia. replace (c =? 246) with false by lia. replace (c =? 252) with false by lia. reflexivity. }
    rewrite E, E', E, E'. lia.
  - assert (E : lower c = c). { unfold lower. replace ((65 <=? c) && (c <=? 90)) with false by lia. replace (c =? 196) with false by lia. replace (c =? 214) with false by lia. replace (c =? 220) with false by lia. reflexivity. }
    assert (E' : upper c = c). { unfold upper. replace ((97 <=? c) && (c <=? 122)) with false by lia. replace (c =? 228) with false by lia. replace (c =? 246) with false by lia. replace (c =? 252) with false by lia. reflexivity. }
    rewrite E, E', E, E'. lia.
Qed.
Theorem C53_idempotent : forall s, sound s -> exists l l2 u u2, to_lower s = Val l /\ to_lower l = Val l2 /\ text l2 = text l /\ zlen (text l) = zlen (text s) /\
  to_upper s = Val u /\ to_upper u = Val u2 /\ text u2 = text u /\ zlen (text u) = zlen (text s).
Proof.
  intros s H. destruct (C53_case_conversion s H) as ((l & El & Sl & Tl) & (u & Eu & Su & Tu)).
  destruct (C53_case_conversion l Sl) as ((l2 & El2 & _ & Tl2) & _). destruct (C53_case_conversion u Su) as (_ & (u2 & Eu2 & _ & Tu2)).
  exists l, l2, u, u2. rewrite Tl2, Tu2, Tl, Tu, !map_map, !zlen_map.
  assert (E1 : map (fun x => lower (lower x)) (text s) = map lower (text s)) by (apply map_ext; intros c; apply (C53_characters c)).
  assert (E2 : map (fun x => upper (upper x)) (text s) = map upper (text s)) by (apply map_ext; intros c; apply (C53_characters c)).
  rewrite E1, E2. auto 10.
Qed.
Theorem C53_equalsIgnoreCase : forall s t, sound s -> sound t -> zlen (text s) < 2 ^ 32 ->
  exists b, equals_ignore_case s t = Val b /\ (b = true <-> map lower (text s) = map lower (text t)).
Proof. intros s t H H2 Hl. apply sound_repr in H, H2. exact (eq_gen lower s _ t _ H H2 Hl). Qed.
Example C53_ex : exists s', to_upper (str_of [97; 228; 64; 122; 223]) = Val s' /\ text s' = [65; 196; 64; 90; 223].
Proof. eexists. split; vm_compute; reflexivity. Qed.

(** * C59 -- pieces of a string *)
Theorem C59_substring : forall s b e, sound s -> let b' := Z.max 0 b in let e' := Z.min (zlen (text s)) (Z.max b' e) in
  exists s', substring s b e = Val s' /\ sound s' /\ text s' = ztake (e' - b') (zdrop b' (text s)) /\ hash s' = 0.
Proof. intros s b e H. apply sound_repr in H. destruct (substring_ok s (text s) b e H) as (s' & E & R & Hh). apply repr_text in R as [T S]. exists s'. auto. Qed.
(** the white space characters: blank, CR, LF, tab, backspace, form feed *)
Definition white (c : Z) : Prop := In c [32; 13; 10; 9; 8; 12].
Lemma is_ws_white c : is_ws c = true <-> white c.
Proof. unfold is_ws, white. rewrite !orb_true_iff, !Z.eqb_eq. cbn [In]. split; intros H; intuition (subst; auto). Qed.
Theorem C59_trim : forall s, sound s -> exists s' a b, trim s = Val s' /\ sound s' /\ text s = a ++ text s' ++ b /\
  Forall white a /\ Forall white b /\
  (forall x m, text s' = x :: m -> ~ white x) /\ (forall x m, text s' = m ++ [x] -> ~ white x).
Proof.
  intros s H. apply sound_repr in H. destruct (trim_ok s _ H) as (s' & a & m & b & E & R & Et & Fa & Fb & D). apply repr_text in R as [T S]. exists s', a, b. rewrite T. rewrite !Forall_forall.
  rewrite forallb_forall in Fa, Fb. assert (N : forall c, is_ws c = false -> ~ white c) by (intros c Hc Hw; apply is_ws_white in Hw; congruence).
  split; [exact E|]. split; [exact S|]. split; [exact Et|]. split; [intros c Hc; apply is_ws_white; auto|]. split; [intros c Hc; apply is_ws_white; auto|]. split.
  - intros x m' ->. destruct D as [D|[(y & m2 & D & W) _]]; [discriminate|]. injection D as -> _. now apply N.
  - intros x m' ->. destruct D as [D|[_ (m2 & y & D & W)]]; [destruct m'; discriminate|]. apply app_inj_tail in D as [_ ->]. now apply N.
Qed.
Theorem C59_reverse : forall s, sound s -> exists s', reverse s = Val s' /\ sound s' /\ text s' = rev (text s).
Proof. intros s H. apply sound_repr in H. destruct (reverse_ok s _ H) as (s' & E & R & _). apply repr_text in R as [T S]. eauto. Qed.
Example C59_ex : exists s1 s2 s3, substring (str_of [97; 98; 99; 100]) 1 3 = Val s1 /\ text s1 = [98; 99] /\ trim (str_of [32; 9; 97; 32; 98; 10]) = Val s2 /\ text s2 = [97; 32; 98] /\
  reverse (str_of [97; 98; 99]) = Val s3 /\ text s3 = [99; 98; 97].
Proof. do 3 eexists. repeat split; vm_compute; reflexivity. Qed.

(** * C60 -- the natural order *)
Theorem C60_compareFancyTo : forall s t, sound s -> sound t ->
  compare_fancy s t = Val (sign (lex (nat_key None (ztake 256 (text s))) (nat_key None (ztake 256 (text t))))).
Proof. intros s t H H2. apply compare_fancy_ok; now apply sound_repr. Qed.
(** hence a total preorder *)
Theorem C60_total_preorder : forall s t u, sound s -> sound t -> sound u ->
  (exists r, compare_fancy s t = Val r /\ compare_fancy t s = Val (- r)) /\ compare_fancy s s = Val 0 /\
  (forall a b, compare_fancy s t = Val a -> compare_fancy t u = Val b -> a <= 0 -> b <= 0 -> exists c, compare_fancy s u = Val c /\ c <= 0).
Proof.
  intros s t u Hs Ht Hu. rewrite !C60_compareFancyTo by assumption. set (a := nat_key None (ztake 256 (text s))). set (b := nat_key None (ztake 256 (text t))). set (c := nat_key None (ztake 256 (text u))). split; [|split].
  - exists (sign (lex a b)). rewrite (lex_sym a b). destruct (lex a b); auto.
  - assert (lex a a = Eq) as -> by now apply lex_eq. reflexivity.
  - intros x y Ex Ey Hx Hy. injection Ex as <-. injection Ey as <-. eexists. split; [reflexivity|].
    destruct (lex a b) eqn:E1; cbn [sign] in Hx; [| |lia].
    + apply lex_eq in E1. rewrite E1. exact Hy.
    + destruct (lex b c) eqn:E2; cbn [sign] in Hy; [| |lia].
      * apply lex_eq in E2. rewrite <- E2, E1. cbn. lia.
      * rewrite (lex_trans _ _ _ E1 E2). cbn. lia.
Qed.
(** but not an order on texts: different texts can compare equal *)
Theorem C60_not_antisymmetric_refuted : exists s t, sound s /\ sound t /\ compare_fancy s t = Val 0 /\ text s <> text t.
Proof. exists (str_of [48; 49]), (str_of [49]). repeat split; try (vm_compute; discriminate). Qed.
Example C60_ex : compare_fancy (str_of [97; 49; 48]) (str_of [97; 57]) = Val 1 /\ compare_to (str_of [97; 49; 48]) (str_of [97; 57]) = Val (-1).
Proof. split; vm_compute; reflexivity. Qed.

Print Assumptions C10_string_history. Print Assumptions C10_char_at.
Print Assumptions C11_storage_invariant. Print Assumptions C11_constructors_sound. Print Assumptions C11_delete_range_past_end_refuted. Print Assumptions C11_insert_self_refuted.
Print Assumptions C12_indexOf_char. Print Assumptions C12_lastIndexOf_char. Print Assumptions C12_lastIndexOf_string. Print Assumptions C12_indexOf_string. Print Assumptions C12_indexOf_string_spare.
Print Assumptions C12_indexOf_string_refuted. Print Assumptions C12_startsWith_endsWith_at. Print Assumptions C12_at_negative_refuted. Print Assumptions C12_count.
Print Assumptions C13_compareTo. Print Assumptions C13_compareTo_order. Print Assumptions C13_equals.
Print Assumptions C14_hash_is_polynomial. Print Assumptions C14_equal_strings_equal_hash. Print Assumptions C14_mutation_resets_hash. Print Assumptions C14_hash_consistency_refuted.
Print Assumptions C15_replace. Print Assumptions C15_replace_terminates. Print Assumptions C15_replace_empty_pattern_refuted. Print Assumptions C15_replace_char. Print Assumptions C15_spec_deterministic.
Print Assumptions C53_case_conversion. Print Assumptions C53_characters. Print Assumptions C53_idempotent. Print Assumptions C53_equalsIgnoreCase.
Print Assumptions C59_substring. Print Assumptions C59_trim. Print Assumptions C59_reverse. Print Assumptions C60_compareFancyTo. Print Assumptions C60_total_preorder. Print Assumptions C60_not_antisymmetric_refuted.
