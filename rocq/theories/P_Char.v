(** P_Char.v -- property C130: classes and cases of characters. *)
From Verif Require Import Base M_String M_Char S_Char.
Ltac pick := match goal with |- context [(?a <=? ?b)] => destruct (Z.leb_spec a b) | |- context [(?a =? ?b)] => destruct (Z.eqb_spec a b) end; cbn [andb orb]; try (exfalso; lia).
Ltac bools := repeat pick.
Definition count_true (l : list bool) : nat := length (filter (fun b => b) l).
Lemma digit_range c : is_digit c = true <-> 48 <= c <= 57. Proof. unfold is_digit. bools; split; intros; lia || congruence. Qed.
Lemma upper_range c : is_upper_case c = true <-> 65 <= c <= 90 \/ 192 <= c <= 214 \/ 216 <= c <= 222. Proof. unfold is_upper_case. bools; split; intros; lia || congruence. Qed.
Lemma lower_range c : is_lower_case c = true <-> 97 <= c <= 122 \/ 223 <= c <= 246 \/ 248 <= c <= 255. Proof. unfold is_lower_case. bools; split; intros; lia || congruence. Qed.
Lemma white_range c : is_whitespace c = true <-> c = 32 \/ c = 13 \/ 8 <= c <= 10 \/ c = 12. Proof. unfold is_whitespace. bools; split; intros; lia || congruence. Qed.
Lemma lower_val c : 65 <= c <= 90 /\ lower c = c + 32 \/ c = 196 /\ lower c = 228 \/ c = 214 /\ lower c = 246 \/ c = 220 /\ lower c = 252 \/ ~ 65 <= c <= 90 /\ c <> 196 /\ c <> 214 /\ c <> 220 /\ lower c = c.
Proof. unfold lower. bools; lia. Qed.
Lemma upper_val c : 97 <= c <= 122 /\ upper c = c - 32 \/ c = 228 /\ upper c = 196 \/ c = 246 /\ upper c = 214 \/ c = 252 /\ upper c = 220 \/ ~ 97 <= c <= 122 /\ c <> 228 /\ c <> 246 /\ c <> 252 /\ upper c = c.
Proof. unfold upper. bools; lia. Qed.
(** every character is in at most one class; letters are the upper and the lower case characters *)
Theorem C130_classes : forall c, (count_true [is_digit c; is_upper_case c; is_lower_case c; is_whitespace c] <= 1)%nat /\ is_letter c = is_upper_case c || is_lower_case c.
Proof.
  intros c. split; [|unfold is_letter; now destruct (is_lower_case c), (is_upper_case c)]. pose proof (digit_range c). pose proof (upper_range c). pose proof (lower_range c). pose proof (white_range c).
  destruct (is_digit c), (is_upper_case c), (is_lower_case c), (is_whitespace c); unfold count_true; cbn [filter length]; try lia; exfalso; clear - H H0 H1 H2; intuition lia.
Qed.
(** the digits and their values *)
Theorem C130_digits : forall c, (forall n, 0 <= n <= 9 -> (digit_value c = n <-> c = 48 + n)) /\ (is_digit c = false <-> digit_value c = -1) /\ -1 <= digit_value c <= 9.
Proof.
  intros c. unfold digit_value, is_digit. destruct (Z.leb_spec 48 c), (Z.leb_spec c 57); cbn [andb]; repeat split; intros; try lia; discriminate.
Qed.
Lemma german_lower u l : german u l -> lower u = l.
Proof. intros [(n & N & -> & ->)|[[-> ->]|[[-> ->]|[-> ->]]]]; [|reflexivity..]. unfold lower. bools; lia. Qed.
Lemma german_upper u l : german u l -> upper l = u.
Proof. intros [(n & N & -> & ->)|[[-> ->]|[[-> ->]|[-> ->]]]]; [|reflexivity..]. unfold upper. bools; lia. Qed.
(** toLowerCase changes the capitals that have a pair, to the other one of the pair, and nothing else; toUpperCase back *)
Theorem C130_case : forall c,
  ((exists l, german c l) \/ lower c = c) /\ ((exists u, german u c) \/ upper c = c) /\
  (forall l, german c l -> lower c = l /\ upper l = c /\ is_upper_case c = true /\ is_lower_case l = true) /\
  lower (lower c) = lower c /\ upper (upper c) = upper c /\ lower (upper (lower c)) = lower c /\ (char16 c -> char16 (lower c) /\ char16 (upper c)).
Proof.
  intros c. split; [|split; [|split; [|split; [|split; [|split]]]]].
  - unfold lower. bools; auto; left; [exists (c + 32); left; exists (c - 65); lia|exists 228|exists 246|exists 252]; unfold german; lia.
  - unfold upper. bools; auto; left; [exists (c - 32); left; exists (c - 97); lia|exists 196|exists 214|exists 220]; unfold german; lia.
  - intros l G. rewrite (german_lower c l G), (german_upper c l G). split; [reflexivity|]. split; [reflexivity|]. destruct G as [(n & N & -> & ->)|[[-> ->]|[[-> ->]|[-> ->]]]]; [|split; reflexivity..]. unfold is_upper_case, is_lower_case. split; bools; auto; lia.
  - pose proof (lower_val c). pose proof (lower_val (lower c)). lia.
  - pose proof (upper_val c). pose proof (upper_val (upper c)). lia.
  - pose proof (lower_val c). pose proof (upper_val (lower c)). pose proof (lower_val (upper (lower c))). lia.
  - unfold char16. pose proof (lower_val c). pose proof (upper_val c). lia.
Qed.
(** the other capitals of Latin-1 are known as upper case, their partners as lower case, but the case functions leave both as they are *)
Theorem C130_case_refuted : forall u l, latin1 u l -> ~ german u l -> is_upper_case u = true /\ is_lower_case l = true /\ lower u = u /\ upper l = l /\ lower u <> lower l.
Proof.
  intros u l [G|(R & N & ->)] Ng; [destruct Ng; now left|]. assert (u <> 196 /\ u <> 214 /\ u <> 220) by (repeat split; intros ->; apply Ng; unfold german; lia).
  unfold is_upper_case, is_lower_case, lower, upper. repeat split; bools; auto; lia.
Qed.
(** beyond Latin-1 nothing is a letter, and nothing is white space; of the ASCII white space the vertical tab is missing, the backspace is white space *)
Theorem C130_unicode_refuted : (forall c, 255 < c -> is_letter c = false /\ is_whitespace c = false) /\ is_whitespace 8 = true /\ is_whitespace 11 = false /\ is_whitespace 160 = false.
Proof.
  split; [|repeat split]. intros c G. unfold is_letter, is_lower_case, is_upper_case, is_whitespace. split; bools; auto; lia.
Qed.
Example ex_case : german 65 97 /\ lower 65 = 97 /\ latin1 192 224 /\ ~ german 192 224. Proof. unfold german, latin1. split; [left; exists 0; lia|]. split; [reflexivity|]. split; [right; lia|]. intros [(n & N & E & _)|E]; lia. Qed.
Print Assumptions C130_classes.
Print Assumptions C130_digits.
Print Assumptions C130_case.
Print Assumptions C130_case_refuted.
Print Assumptions C130_unicode_refuted.
