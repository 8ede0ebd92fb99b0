(** P_Property.v -- Property and Variant (C117, C118). *)
From Coq Require Import String QArith Qabs.
From Flocq Require Import Core.
From Coq Require Import SpecFloat.
From Verif Require Import Base M_Float M_MathF M_Xml L_Xml M_Property S_Double S_Property P_MathF.
Local Open Scope Z_scope.

(** ** bits of a double *)
Lemma valid_parts s m e : double (S754_finite s m e) -> Zpos m < 2 ^ 53 /\ -1074 <= e <= 971 /\ (Zpos m < 2 ^ 52 -> e = -1074).
Proof.
  intros V. unfold double, valid_binary, SpecFloat.bounded, SpecFloat.canonical_mantissa in V. apply andb_prop in V as [V1 V2]. apply Zeq_bool_eq in V1. apply Zle_bool_imp_le in V2. unfold SpecFloat.fexp, SpecFloat.emin in V1.
  pose proof (Digits.Zdigits_correct radix2 (Zpos m)) as D. rewrite <- Digits.Zpos_digits2_pos in D. set (k := Zpos (SpecFloat.digits2_pos m)) in *. change (Z.abs (Zpos m)) with (Zpos m) in D. change (radix_val radix2) with 2 in D.
  assert (K : k <= 53 /\ -1074 <= e) by lia. destruct K as [K1 K2].
  assert (P : 2 ^ k <= 2 ^ 53) by (apply Z.pow_le_mono_r; lia). split; [lia|]. split; [lia|]. intros L.
  assert (2 ^ (k - 1) < 2 ^ 52) by lia. assert (k - 1 < 52) by (apply (Z.pow_lt_mono_r_iff 2); lia). lia.
Qed.
Ltac p2 := change (2 ^ 52) with 4503599627370496 in *; change (2 ^ 53) with 9007199254740992 in *; change (2 ^ 63) with 9223372036854775808 in *; change (2 ^ 64) with 18446744073709551616 in *; change (2 ^ 51) with 2251799813685248 in *.
Lemma bits_range x : double x -> 0 <= bits x < 2 ^ 64.
Proof.
  destruct x as [s|s| |s m e]; unfold bits; intros V; p2; [destruct s; lia|destruct s; lia|lia|].
  apply valid_parts in V. p2. destruct V as (A & B & C). destruct (Z.ltb_spec (Zpos m) 4503599627370496); destruct s; lia.
Qed.
Lemma of_bits_fields s e m : 0 <= e < 2048 -> 0 <= m < 2 ^ 52 -> let w := (if s : bool then 2 ^ 63 else 0) + e * 2 ^ 52 + m in
  (2 ^ 63 <=? w) = s /\ w / 2 ^ 52 mod 2048 = e /\ w mod 2 ^ 52 = m.
Proof.
  intros E M w. unfold w. p2. split; [destruct s; [apply Z.leb_le|apply Z.leb_gt]; lia|].
  assert (R : ((if s then 9223372036854775808 else 0) + e * 4503599627370496 + m) = ((if s then 2048 else 0) + e) * 4503599627370496 + m) by (destruct s; lia). rewrite R. split.
  - rewrite Z.div_add_l by lia. rewrite (Z.div_small m) by lia. rewrite Z.add_0_r. destruct s; [rewrite Z.add_comm; change 2048 with (1 * 2048) at 1; rewrite Z.mod_add by lia|]; apply Z.mod_small; lia.
  - rewrite Z.add_comm, Z.mod_add by lia. apply Z.mod_small. lia.
Qed.
Lemma of_bits_bits x : double x -> of_bits (bits x) = x.
Proof.
  destruct x as [s|s| |s m e]; intros V; [destruct s; reflexivity|destruct s; reflexivity|reflexivity|]. apply valid_parts in V as (A & B & C). unfold bits.
  destruct (Z.ltb_spec (Zpos m) (2 ^ 52)) as [L|L].
  - rewrite (C L). destruct (of_bits_fields s 0 (Zpos m) ltac:(lia) ltac:(lia)) as (F1 & F2 & F3). rewrite Z.mul_0_l, Z.add_0_r in F1, F2, F3. unfold of_bits. rewrite F1, F2, F3. reflexivity.
  - destruct (of_bits_fields s (e + 1075) (Zpos m - 2 ^ 52) ltac:(lia) ltac:(p2; lia)) as (F1 & F2 & F3). rewrite <- Z.add_assoc in F1, F2, F3. unfold of_bits. rewrite F1, F2, F3.
    rewrite (proj2 (Z.eqb_neq _ _)) by lia. rewrite (proj2 (Z.eqb_neq _ _)) by lia. replace (Zpos m - 2 ^ 52 + 2 ^ 52) with (Zpos m) by lia. f_equal. lia.
Qed.
Lemma word_int n : int64 n -> to_int64 (word_of n) = n.
Proof. unfold int64, to_int64, word_of. intros H. p2. destruct (Z.ltb_spec (n mod 18446744073709551616) 9223372036854775808); lia. Qed.
Lemma int_word w v : 0 <= w < 2 ^ 64 -> 0 <= v < 2 ^ 64 -> to_int64 w = to_int64 v -> w = v.
Proof. unfold to_int64. intros A B H. p2. destruct (Z.ltb_spec w 9223372036854775808), (Z.ltb_spec v 9223372036854775808); lia. Qed.
Lemma made_word p : made p -> 0 <= word p < 2 ^ 64.
Proof.
  induction 1; cbn [word new new_id new_full setStringValue setUnitValue setIntegerValue setDoubleValue setBoolValue setType setValue]; try assumption; try (p2; lia); try (now apply bits_range).
  - unfold word_of. p2. lia.
  - p2. destruct b; lia.
  - unfold setIcon. now destruct (about p).
Qed.

(** * C117: what was set is read *)
(** the number and the text stay until they are set again; nothing but the icon changes the description *)
Lemma calls_word p l : Forall keeps_number l -> word (calls p l) = word p.
Proof. intros F. revert p. induction F as [|o l K F IH]; intros p; [reflexivity|]. cbn [calls fold_left]. fold (calls (call p o) l). rewrite IH. destruct o; try contradiction; try reflexivity. cbn [call setIcon]. unfold setIcon. now destruct (about p). Qed.
Lemma calls_text p l : Forall keeps_text l -> stringValue (calls p l) = stringValue p.
Proof. intros F. revert p. induction F as [|o l K F IH]; intros p; [reflexivity|]. cbn [calls fold_left]. fold (calls (call p o) l). rewrite IH. destruct o; try contradiction; try reflexivity. cbn [call setIcon]. unfold setIcon. now destruct (about p). Qed.
Theorem C117_integer p n l : int64 n -> Forall keeps_number l -> integerValue (calls (setIntegerValue p n) l) = n.
Proof. intros N F. unfold integerValue. rewrite calls_word by exact F. now apply word_int. Qed.
Theorem C117_double p x l : double x -> Forall keeps_number l -> doubleValue (calls (setDoubleValue p x) l) = x.
Proof. intros N F. unfold doubleValue. rewrite calls_word by exact F. now apply of_bits_bits. Qed.
Theorem C117_unit p x u l : double x -> Forall keeps_number l -> doubleValue (calls (setUnitValue p x u) l) = x.
Proof. intros N F. unfold doubleValue. rewrite calls_word by exact F. now apply of_bits_bits. Qed.
Theorem C117_bool p b l : made p -> Forall keeps_number l -> boolValue (calls (setBoolValue p b) l) = Val b.
Proof.
  intros P F. unfold boolValue. rewrite calls_word by exact F. cbn [setBoolValue word]. apply made_word in P.
  replace ((word p - word p mod 256 + (if b then 1 else 0)) mod 256) with (if b then 1 else 0) by (destruct b; lia). now destruct b.
Qed.
Theorem C117_text p s x u l : Forall keeps_text l -> stringValue (calls (setStringValue p s) l) = s /\ stringValue (calls (setUnitValue p x u) l) = u.
Proof. intros F. now rewrite !calls_text by exact F. Qed.
(** setting one of number and text leaves the other *)
Theorem C117_separate p s n x b : integerValue (setStringValue p s) = integerValue p /\ doubleValue (setStringValue p s) = doubleValue p /\ boolValue (setStringValue p s) = boolValue p /\
  stringValue (setIntegerValue p n) = stringValue p /\ stringValue (setDoubleValue p x) = stringValue p /\ stringValue (setBoolValue p b) = stringValue p.
Proof. repeat split. Qed.
(** the type is the one of the last setter; the description never changes but for the icon *)
Theorem C117_type p s x u n b t q i : type (setStringValue p s) = kString /\ type (setUnitValue p x u) = kValue /\ type (setIntegerValue p n) = kInteger /\ type (setDoubleValue p x) = kDouble /\ type (setBoolValue p b) = kBoolean /\
  type (setType p t) = t /\ type (setValue p q) = type q /\ type (setIcon p i) = type p.
Proof. repeat split. unfold setIcon. now destruct (about p). Qed.
Theorem C117_about p l : let a := about (calls p l) in id a = id (about p) /\ group a = group (about p) /\ name a = name (about p) /\ hint a = hint (about p) /\ editor a = editor (about p) /\
  isReadOnly a = isReadOnly (about p) /\ allowEmpty a = allowEmpty (about p) /\ changeMode a = changeMode (about p).
Proof.
  revert p. induction l as [|o l IH]; intros p; [cbn; auto 9|]. cbn [calls fold_left]. fold (calls (call p o) l). cbv zeta in *. destruct (IH (call p o)) as (A1 & A2 & A3 & A4 & A5 & A6 & A7 & A8). rewrite A1, A2, A3, A4, A5, A6, A7, A8.
  destruct o; cbn [call]; try (repeat split; fail). unfold setIcon. destruct (about p); cbn. repeat split.
Qed.
(** setValue copies text, number and type *)
Theorem C117_copy p q : let r := setValue p q in isValueEquals r q = true /\ type r = type q /\ integerValue r = integerValue q /\ doubleValue r = doubleValue q /\ boolValue r = boolValue q /\ stringValue r = stringValue q /\ about r = about p.
Proof. cbn. unfold isValueEquals, integerValue. cbn. rewrite same_refl, Z.eqb_refl. cbn. repeat split. Qed.
(** the numbers are not converted: an integer below 2^52 is read as a double of that many smallest steps, a positive double as its bits *)
Theorem C117_pun_refuted p n : 0 < n < 2 ^ 52 -> dbl (doubleValue (setIntegerValue p n)) (inject_Z n * q2 (-1074)) /\ integerValue (setDoubleValue p (int64f 1)) = 4607182418800017408.
Proof.
  intros N. split; [|reflexivity]. unfold doubleValue. cbn [word setIntegerValue]. unfold word_of. rewrite Z.mod_small by (p2; lia). destruct n as [|m|m]; try lia.
  assert (E : Zpos m = bits (S754_finite false m (-1074))). { unfold bits. rewrite (proj2 (Z.ltb_lt _ _)) by lia. reflexivity. }
  assert (V : double (S754_finite false m (-1074))).
  { unfold double, valid_binary, SpecFloat.bounded, SpecFloat.canonical_mantissa, SpecFloat.fexp, SpecFloat.emin. apply andb_true_intro. split; [|reflexivity]. apply Zeq_is_eq_bool. rewrite Digits.Zpos_digits2_pos.
    assert (Digits.Zdigits radix2 (Zpos m) <= 52) by (apply Digits.Zdigits_le_Zpower; change (radix_val radix2 ^ 52) with (2 ^ 52); rewrite Z.abs_eq; lia). lia. }
  replace (of_bits (Zpos m)) with (S754_finite false m (-1074)) by (rewrite E; symmetry; now apply of_bits_bits). split; [exact V|]. reflexivity.
Qed.
(** setBoolValue writes the lowest byte of the number only; boolValue reads that byte only, and is undefined when it is not 0 or 1 *)
Theorem C117_byte_refuted p n b : made p -> integerValue (setBoolValue p b) = integerValue p / 256 * 256 + (if b then 1 else 0) /\
  (int64 n -> boolValue (setIntegerValue p n) = (if n mod 256 =? 0 then Val false else if n mod 256 =? 1 then Val true else UB)).
Proof.
  intros P. apply made_word in P. split.
  - unfold integerValue, to_int64. cbn [word setBoolValue]. p2. destruct b; destruct (Z.ltb_spec (word p) 9223372036854775808); destruct (Z.ltb_spec (word p - word p mod 256 + 1) 9223372036854775808); try destruct (Z.ltb_spec (word p - word p mod 256 + 0) 9223372036854775808); lia.
  - intros N. unfold boolValue. cbn [word setIntegerValue]. unfold word_of. replace (n mod 2 ^ 64 mod 256) with (n mod 256); [reflexivity|]. p2. lia.
Qed.

(** * C118: operator== and isValueEquals *)
(** isValueEquals is an equivalence, true exactly when text and 64 bits of the number are the same *)
Lemma ive_iff p q : isValueEquals p q = true <-> stringValue p = stringValue q /\ integerValue p = integerValue q.
Proof.
  unfold isValueEquals. destruct (same (stringValue p) (stringValue q)) eqn:E; cbn [negb].
  - apply same_iff in E. destruct (Z.eqb_spec (integerValue p) (integerValue q)); cbn [negb]; split; intros H; auto; try discriminate. now destruct H.
  - split; [discriminate|]. intros [H _]. apply same_iff in H. congruence.
Qed.
Theorem C118_value_equals p q : made p -> made q -> (isValueEquals p q = true <-> stringValue p = stringValue q /\ integerValue p = integerValue q) /\ (isValueEquals p q = true -> doubleValue p = doubleValue q /\ boolValue p = boolValue q).
Proof.
  intros P Q. split; [apply ive_iff|]. intros H. apply ive_iff in H as [_ H]. apply int_word in H; [|now apply made_word|now apply made_word]. unfold doubleValue, boolValue. now rewrite H.
Qed.
Theorem C118_value_equivalence p q r : isValueEquals p p = true /\ (isValueEquals p q = true -> isValueEquals q p = true) /\ (isValueEquals p q = true -> isValueEquals q r = true -> isValueEquals p r = true).
Proof. rewrite !ive_iff. split; [now split|]. split; [intros [-> ->]; now split|]. intros [-> ->] [-> ->]. now split. Qed.
(** it tells 0.0 from -0.0, and two checkboxes that are both set, if one of them held a number before *)
Theorem C118_bits_refuted p : made p -> isValueEquals (setDoubleValue p (S754_zero false)) (setDoubleValue p (S754_zero true)) = false /\
  (forall n b, int64 n -> 256 <= n -> let q := setBoolValue (setIntegerValue p n) b in let r := setBoolValue (setIntegerValue p 0) b in boolValue q = Val b /\ boolValue r = Val b /\ isValueEquals q r = false).
Proof.
  intros P. split.
  - apply Bool.not_true_is_false. intros H. apply ive_iff in H as [_ H]. discriminate H.
  - intros n b N L q r. split; [exact (C117_bool (setIntegerValue p n) b [] (made_integer _ _ P N) (Forall_nil _))|]. split; [exact (C117_bool (setIntegerValue p 0) b [] (made_integer _ 0 P ltac:(unfold int64; lia)) (Forall_nil _))|].
    apply Bool.not_true_is_false. intros H. apply ive_iff in H as [_ H]. unfold q, r in H.
    rewrite (proj1 (C117_byte_refuted (setIntegerValue p n) 0 b (made_integer _ _ P N))), (proj1 (C117_byte_refuted (setIntegerValue p 0) 0 b (made_integer _ 0 P ltac:(unfold int64; lia)))) in H.
    pose proof (C117_integer p n [] N (Forall_nil _)) as A1. pose proof (C117_integer p 0 [] ltac:(unfold int64; lia) (Forall_nil _)) as A2. cbn [calls fold_left] in A1, A2. rewrite A1, A2 in H. lia.
Qed.

(** operator==: another id or another editor is never equal; otherwise the editor says what is compared *)
Theorem C118_place p q : ~ same_place p q -> eqp p q = Val false.
Proof.
  intros N. unfold eqp. destruct (same (id (about p)) (id (about q))) eqn:E1; [|reflexivity]. destruct (same (editor (about p)) (editor (about q))) eqn:E2; [|reflexivity]. apply same_iff in E1, E2. now destruct N.
Qed.
Definition meaning (w : way) (p q : property) : out bool :=
  match w with
  | ByText => Val (same (stringValue p) (stringValue q))
  | ByNumber => Val (integerValue p =? integerValue q)
  | ByBool => let* a := boolValue p in let* b := boolValue q in Val (Bool.eqb a b)
  | ByUnit => Val (same (stringValue p) (stringValue q) && isEqual (doubleValue p) (doubleValue q))
  end.
Lemma eqp_meaning p q w : same_place p q -> compares p w -> eqp p q = meaning w p q.
Proof.
  intros [A B] C. unfold eqp. rewrite (proj2 (same_iff _ _) A), (proj2 (same_iff _ _) B). cbn [negb]. destruct C as [[T ->]|[T I]].
  - now rewrite T.
  - replace (match type p with kValue => true | _ => false end) with false by (destruct (type p); congruence).
    unfold editors in I. cbn [In] in I. repeat (destruct I as [I|I]; [injection I as <- <-; reflexivity|]). destruct I.
Qed.
Theorem C118_text p q : same_place p q -> compares p ByText -> exists b, eqp p q = Val b /\ (b = true <-> stringValue p = stringValue q).
Proof. intros S C. rewrite (eqp_meaning p q _ S C). eexists. split; [reflexivity|]. apply same_iff. Qed.
Theorem C118_number p q : same_place p q -> compares p ByNumber -> exists b, eqp p q = Val b /\ (b = true <-> integerValue p = integerValue q).
Proof. intros S C. rewrite (eqp_meaning p q _ S C). eexists. split; [reflexivity|]. apply Z.eqb_eq. Qed.
Theorem C118_bool p q a b : same_place p q -> compares p ByBool -> boolValue p = Val a -> boolValue q = Val b -> exists e, eqp p q = Val e /\ (e = true <-> a = b).
Proof. intros S C A B. rewrite (eqp_meaning p q _ S C). unfold meaning. rewrite A, B. eexists. split; [reflexivity|]. apply Bool.eqb_true_iff. Qed.
(** values with a unit: the same unit and, up to a millionth, the same number *)
Theorem C118_unit p q x y : same_place p q -> compares p ByUnit -> dbl (doubleValue p) x -> dbl (doubleValue q) y -> exists b, eqp p q = Val b /\
  (b = true -> stringValue p = stringValue q /\ (Qabs (x - y) < 1 # 1000000)%Q) /\ (stringValue p = stringValue q -> (Qabs (x - y) <= (1 # 1000000) - q2 (-71))%Q -> b = true).
Proof.
  intros S C X Y. rewrite (eqp_meaning p q _ S C). eexists. split; [reflexivity|]. destruct (C92_equal _ _ _ _ X Y) as [E1 E2]. split.
  - intros H. apply andb_prop in H as [H1 H2]. split; [now apply same_iff|auto].
  - intros H1 H2. now rewrite (proj2 (same_iff _ _) H1), (E2 H2).
Qed.
(** among properties that are compared by text, by number or by a defined bool, operator== is an equivalence *)
Lemma plain_eq p q w : plain p w -> plain q w -> (eqp p q = Val true <-> same_place p q /\ match w with ByText => stringValue p = stringValue q | ByNumber => integerValue p = integerValue q | _ => boolValue p = boolValue q end).
Proof.
  intros (P & N & B) (Q & _ & B'). split.
  - intros H. assert (S : same_place p q).
    { unfold eqp in H. destruct (same (id (about p)) (id (about q))) eqn:E1; [|discriminate]. destruct (same (editor (about p)) (editor (about q))) eqn:E2; [|discriminate]. apply same_iff in E1, E2. now split. }
    split; [exact S|]. rewrite (eqp_meaning p q w S P) in H. destruct w; cbn [meaning] in H; try congruence.
    + injection H as H. now apply same_iff.
    + injection H as H. now apply Z.eqb_eq.
    + destruct (B eq_refl) as [b E]. destruct (B' eq_refl) as [b' E']. rewrite E, E' in *. cbn in H. injection H as H. apply Bool.eqb_prop in H. now subst.
  - intros [S E]. rewrite (eqp_meaning p q w S P). destruct w; cbn [meaning]; try congruence.
    + now rewrite (proj2 (same_iff _ _) E).
    + now rewrite E, Z.eqb_refl.
    + rewrite <- E. destruct (B eq_refl) as [b ->]. cbn. now rewrite Bool.eqb_reflx.
Qed.
Theorem C118_equivalence p q r w : plain p w -> plain q w -> plain r w ->
  eqp p p = Val true /\ (eqp p q = Val true -> eqp q p = Val true) /\ (eqp p q = Val true -> eqp q r = Val true -> eqp p r = Val true).
Proof.
  intros P Q R. rewrite !(plain_eq _ _ w) by assumption. unfold same_place. split; [destruct w; auto|]. split.
  - intros [[A B] C]. destruct w; intuition congruence.
  - intros [[A B] C] [[D E] F]. destruct w; intuition congruence.
Qed.
(** a property whose editor is not one of the eight is not even equal to itself *)
Theorem C118_editor_refuted p q : (forall w, ~ In (editor (about p), w) editors) -> type p <> kValue -> eqp p q = Val false.
Proof.
  intros N T. unfold eqp. destruct (negb _); [reflexivity|]. destruct (negb _); [reflexivity|]. replace (match type p with kValue => true | _ => false end) with false by (destruct (type p); congruence).
  assert (H : forall s w, In (s, w) editors -> same (editor (about p)) s = false). { intros s w I. apply Bool.not_true_is_false. intros E. apply same_iff in E. rewrite <- E in I. exact (N w I). }
  rewrite (H (str "textfield") ByText), (H (str "number") ByNumber), (H (str "checkbox") ByBool), (H (str "file") ByText), (H (str "combobox") ByNumber), (H (str "value") ByUnit), (H (str "dwgcolour") ByNumber), (H (str "dwglayer") ByText) by (cbn; auto 12). reflexivity.
Qed.
(** a value that is no number, or infinite, is not equal to itself *)
Theorem C118_infinite_refuted p u : eqp (setUnitValue p S754_nan u) (setUnitValue p S754_nan u) = Val false /\ forall s, eqp (setUnitValue p (S754_infinity s) u) (setUnitValue p (S754_infinity s) u) = Val false.
Proof.
  split; [|intros s]; (rewrite (eqp_meaning _ _ ByUnit); [|now split|left; now split]); cbn [meaning stringValue setUnitValue]; rewrite same_refl.
  - change (doubleValue (setUnitValue p S754_nan u)) with (of_bits (bits S754_nan)). rewrite of_bits_bits by reflexivity. reflexivity.
  - change (doubleValue (setUnitValue p (S754_infinity s) u)) with (of_bits (bits (S754_infinity s))). rewrite of_bits_bits by reflexivity. now rewrite C92_infinite_refuted.
Qed.
(** the type of the left operand alone decides: p == q and q == p can differ, for two properties with the same id and editor *)
Theorem C118_symmetric_refuted : exists p q, made p /\ made q /\ same_place p q /\ eqp p q = Val true /\ eqp q p = Val false.
Proof.
  set (e := new_full (str "length") [] [] [] (str "number") false kItself true). set (p := setUnitValue e (S754_zero false) (str "m")). exists p, (setDoubleValue p (S754_zero true)).
  assert (E : made p) by (apply made_unit; [apply made_full|reflexivity]). split; [exact E|]. split; [apply made_double; [exact E|reflexivity]|]. split; [now split|]. split; vm_compute; reflexivity.
Qed.
(** equal values with a unit are not transitive *)
Theorem C118_transitive_refuted : exists p q r, made p /\ made q /\ made r /\ eqp p q = Val true /\ eqp q r = Val true /\ eqp p r = Val false.
Proof.
  set (e := new_full (str "length") [] [] [] (str "value") false kItself true). set (v x := setUnitValue e x (str "m")). exists (v (S754_zero false)), (v (S754_finite false 6755399441055744 (-73))), (v (S754_finite false 6755399441055744 (-72))).
  assert (E : forall x, double x -> made (v x)) by (intros x D; apply made_unit; [apply made_full|exact D]). split; [apply E; reflexivity|]. split; [apply E; reflexivity|]. split; [apply E; reflexivity|]. split; [|split]; vm_compute; reflexivity.
Qed.
(** a checkbox whose number was set to something else than 0 and 1 modulo 256 cannot be compared *)
Theorem C118_bool_refuted p q n : same_place p q -> In (editor (about p), ByBool) editors -> int64 n -> 2 <= n mod 256 -> eqp (setIntegerValue p n) q = UB.
Proof.
  intros S E N M. assert (C : compares (setIntegerValue p n) ByBool) by (right; split; [discriminate|exact E]). rewrite (eqp_meaning (setIntegerValue p n) q _ S C). cbn [meaning].
  unfold boolValue. cbn [word setIntegerValue]. unfold word_of. replace (n mod 2 ^ 64 mod 256) with (n mod 256) by (p2; lia). rewrite (proj2 (Z.eqb_neq _ _)) by lia. rewrite (proj2 (Z.eqb_neq _ _)) by lia. reflexivity.
Qed.

(** * C119: Variant *)
Theorem C119_number n x : (int64 n -> toInt64 (vint n) = Val n /\ vtype (vint n) = kInteger) /\ (double x -> toDouble (vdouble x) = Val x /\ vtype (vdouble x) = kDouble).
Proof. split; intros H; split; try reflexivity; unfold toInt64, toDouble; cbn; f_equal; [now apply word_int|now apply of_bits_bits]. Qed.
Theorem C119_string s : toString (vstring s) = s /\ vtype (vstring s) = kString.
Proof. now split. Qed.
(** a copy and an assignment give what the original gives; the text only if it is a string *)
Theorem C119_copy v o : (forall c, c = vcopy o \/ c = vassign v o -> vtype c = vtype o /\ toInt64 c = toInt64 o /\ toInt32 c = toInt32 o /\ toDouble c = toDouble o /\ (vtype o = kString -> toString c = toString o)).
Proof. intros c [->| ->]; cbn; (split; [reflexivity|]); (split; [reflexivity|]); (split; [reflexivity|]); (split; [reflexivity|]); now intros ->. Qed.
(** toInt32 gives the number when it fits, and the number modulo 2^32 otherwise *)
Theorem C119_int32 n : int64 n -> exists m, toInt32 (vint n) = Val m /\ - 2 ^ 31 <= m < 2 ^ 31 /\ (m - n) mod 2 ^ 32 = 0 /\ (- 2 ^ 31 <= n < 2 ^ 31 -> m = n).
Proof.
  intros N. unfold toInt32. cbn [vint vword]. rewrite word_int by exact N. eexists. split; [reflexivity|]. cbv zeta. change (2 ^ 32) with 4294967296. change (2 ^ 31) with 2147483648.
  pose proof (Z.mod_pos_bound n 4294967296 ltac:(lia)). pose proof (Z.div_mod n 4294967296 ltac:(lia)) as D. set (q := n / 4294967296) in *. set (r := n mod 4294967296) in *. clearbody q r.
  destruct (Z.ltb_spec r 2147483648); (split; [lia|]); split; try lia.
Qed.
(** the text of a string stays behind when a number is assigned over it; the number of a string is not initialised *)
Theorem C119_stale_refuted s n : toString (vassign (vstring s) (vint n)) = s /\ toString (vcopy (vassign (vstring s) (vint n))) = [].
Proof. now split. Qed.
Theorem C119_string_refuted s : toInt64 (vstring s) = UB /\ toDouble (vstring s) = UB /\ toInt64 (vcopy (vstring s)) = UB.
Proof. repeat split. Qed.

(** ** cases that meet the hypotheses *)
Definition length_of (x : spec_float) : property := setUnitValue (new_full (str "length") (str "geo") (str "Length") [] (str "value") true kOthers false) x (str "m").
Definition check (b : bool) : property := setBoolValue (new_full (str "on") [] [] [] (str "checkbox") false kItself true) b.
Example ex_made : made (length_of (int64f 7)) /\ made (check true).
Proof. split; [apply made_unit; [apply made_full|reflexivity]|apply made_bool, made_full]. Qed.
Example ex_plain : plain (check true) ByBool /\ plain (check false) ByBool /\ eqp (check true) (check false) = Val false /\ eqp (check true) (check true) = Val true.
Proof. split; [|split; [|split; reflexivity]]; (split; [right; split; [discriminate|cbn; auto 12]|split; [discriminate|intros _; eexists; reflexivity]]). Qed.
Example ex_unit : compares (length_of (int64f 7)) ByUnit /\ eqp (length_of (int64f 7)) (length_of (int64f 7)) = Val true /\ eqp (length_of (int64f 7)) (length_of (int64f 8)) = Val false.
Proof. split; [left; now split|]. split; vm_compute; reflexivity. Qed.
Example ex_keep : doubleValue (calls (length_of (int64f 7)) [OString (str "cm"); OType kDouble; OIcon (str "ruler")]) = int64f 7.
Proof. apply C117_unit; [reflexivity|repeat constructor]. Qed.
Example ex_editor : forall w, ~ In (editor (about new), w) editors.
Proof. intros w. cbn. intuition discriminate. Qed.
Example ex_byte : boolValue (setIntegerValue new 512) = Val false /\ boolValue (setIntegerValue new 2) = UB /\ integerValue (setBoolValue (setIntegerValue new 513) false) = 512.
Proof. repeat split. Qed.
Example ex_int32 : toInt32 (vint (2 ^ 31)) = Val (- 2 ^ 31). Proof. reflexivity. Qed.
Print Assumptions C117_integer.
Print Assumptions C117_double.
Print Assumptions C117_unit.
Print Assumptions C117_bool.
Print Assumptions C117_text.
Print Assumptions C117_separate.
Print Assumptions C117_type.
Print Assumptions C117_about.
Print Assumptions C117_copy.
Print Assumptions C117_pun_refuted.
Print Assumptions C117_byte_refuted.
Print Assumptions C118_value_equals.
Print Assumptions C118_value_equivalence.
Print Assumptions C118_bits_refuted.
Print Assumptions C118_place.
Print Assumptions C118_text.
Print Assumptions C118_number.
Print Assumptions C118_bool.
Print Assumptions C118_unit.
Print Assumptions C118_equivalence.
Print Assumptions C118_editor_refuted.
Print Assumptions C118_infinite_refuted.
Print Assumptions C118_symmetric_refuted.
Print Assumptions C118_transitive_refuted.
Print Assumptions C118_bool_refuted.
Print Assumptions C119_number.
Print Assumptions C119_string.
Print Assumptions C119_copy.
Print Assumptions C119_int32.
Print Assumptions C119_stale_refuted.
Print Assumptions C119_string_refuted.
