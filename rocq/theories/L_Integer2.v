From Verif Require Import Base M_String S_String S_Integer L_String L_String2 L_String3 L_Integer.
Ltac Zify.zify_post_hook ::= Z.to_euclidean_division_equations.

(** * Roman numerals *)
Fixpoint roman_text (n : Z) (l : list (Z * list Z)) : list Z :=
  match l with [] => [] | (v, t) :: l => concat (repeat t (Z.to_nat (Z.quot n v))) ++ roman_text (Z.rem n v) l end.
Lemma append_times_ok t : forall k s u, repr s u -> exists s', append_times s (str_of t) k = Val s' /\ repr s' (u ++ concat (repeat t k)).
Proof.
  induction k as [|k IH]; intros s u H; cbn [append_times repeat concat]; [exists s; rewrite app_nil_r; auto|].
  destruct (append_ok s u (str_of t) t H (str_of_repr t)) as (s1 & -> & H1). cbn [bind]. destruct (IH s1 _ H1) as (s' & E & R). exists s'. rewrite <- app_assoc in R. auto.
Qed.
Lemma roman_loop_ok l : forall s u n, repr s u -> exists s', roman_loop s n l = Val s' /\ repr s' (u ++ roman_text n l).
Proof.
  induction l as [|[v t] l IH]; intros s u n H; cbn [roman_loop roman_text]; [exists s; rewrite app_nil_r; auto|].
  destruct (append_times_ok t (Z.to_nat (Z.quot n v)) s u H) as (s1 & -> & H1). cbn [bind]. destruct (IH s1 _ (Z.rem n v) H1) as (s' & E & R). exists s'. rewrite <- app_assoc in R. auto.
Qed.
Definition roman3 (n : Z) : list Z := roman_digit 67 68 77 (n / 100 mod 10) ++ roman_digit 88 76 67 (n / 10 mod 10) ++ roman_digit 73 86 88 (n mod 10).
Fixpoint leqb (a b : list Z) : bool := match a, b with [], [] => true | x :: a, y :: b => (x =? y) && leqb a b | _, _ => false end.
Lemma leqb_eq a : forall b, leqb a b = true -> a = b.
Proof. induction a as [|x a IH]; intros [|y b] H; cbn in H; try discriminate; [reflexivity|]. apply andb_true_iff in H as [H1 H2]. apply Z.eqb_eq in H1. subst. f_equal. auto. Qed.
Lemma roman_sweep r : 0 <= r < 1000 -> roman_text r (tl g_roman) = roman3 r /\ roman_value (roman3 r) = r.
Proof.
  intros H. assert (S : forallb (fun r => leqb (roman_text r (tl g_roman)) (roman3 r) && (roman_value (roman3 r) =? r)) (zrange 1000) = true) by (vm_compute; reflexivity).
  pose proof (sweep 1000 _ S r ltac:(lia)) as K. cbv beta in K. apply andb_true_iff in K as [K1 K2]. apply leqb_eq in K1. split; [exact K1|]. apply Z.eqb_eq. exact K2.
Qed.
Lemma roman3_mod n : 0 <= n -> roman3 (n mod 1000) = roman3 n.
Proof.
  intros H. unfold roman3. replace (n mod 1000 / 100 mod 10) with (n / 100 mod 10) by lia. replace (n mod 1000 / 10 mod 10) with (n / 10 mod 10) by lia. replace (n mod 1000 mod 10) with (n mod 10) by lia. reflexivity.
Qed.
Lemma concat_single (x : Z) k : concat (repeat [x] k) = repeat x k.
Proof. induction k; cbn; congruence. Qed.
Lemma roman_text_ok n : 0 <= n -> roman_text n g_roman = roman n.
Proof.
  intros H. change (roman_text n g_roman) with (concat (repeat [77] (Z.to_nat (Z.quot n 1000))) ++ roman_text (Z.rem n 1000) (tl g_roman)).
  rewrite concat_single. rewrite Z.quot_div_nonneg, Z.rem_mod_nonneg by lia. destruct (roman_sweep (n mod 1000) ltac:(lia)) as [-> _]. rewrite roman3_mod by lia. reflexivity.
Qed.
Lemma roman_symbol_le c : 0 <= roman_symbol c <= 1000.
Proof. unfold roman_symbol. repeat match goal with |- context [if ?b then _ else _] => destruct b end; lia. Qed.
Lemma roman_value_M k t : roman_value (repeat 77 k ++ t) = 1000 * Z.of_nat k + roman_value t.
Proof.
  induction k as [|k IH]; [cbn [repeat app]; lia|]. cbn [repeat app roman_value]. rewrite IH. change (roman_symbol 77) with 1000. destruct (repeat 77 k ++ t) as [|d q]; [lia|].
  pose proof (roman_symbol_le d). replace (1000 <? roman_symbol d) with false by lia. lia.
Qed.
Lemma roman_value_ok n : 0 <= n -> roman_value (roman n) = n.
Proof.
  intros H. unfold roman. rewrite roman_value_M. fold (roman3 n). rewrite <- roman3_mod by lia. destruct (roman_sweep (n mod 1000) ltac:(lia)) as [_ ->]. lia.
Qed.
Lemma roman_text_neg l : forall n, n <= 0 -> Forall (fun p => 0 < fst p) l -> roman_text n l = [].
Proof.
  induction l as [|[v t] l IH]; intros n H F; cbn [roman_text]; [reflexivity|]. inversion F as [|? ? F1 F2]; subst. cbn [fst] in F1.
  assert (Z.quot n v <= 0). { rewrite <- (Z.opp_involutive n), Z.quot_opp_l by lia. pose proof (Z.quot_pos (- n) v ltac:(lia) ltac:(lia)). lia. }
  replace (Z.to_nat (Z.quot n v)) with O by lia. cbn [repeat concat app]. apply IH; [|exact F2]. destruct (Z.eq_dec n 0) as [->|]; [rewrite Z.rem_0_l; lia|]. pose proof (Z.rem_nonpos n v ltac:(lia) ltac:(lia)). lia.
Qed.

(** * latin alphabet numbering *)
Lemma latin_loop_ok fuel : forall s t n, repr s t -> 0 <= n < 26 ^ Z.of_nat fuel -> n < 26 * 2147483648 ->
  exists s' ds, latin_loop s n (S fuel) = Val s' /\ repr s' (t ++ map (fun d => 64 + d) (rev ds)) /\ pos_value 26 ds = n /\ Forall (fun d => 0 <= d < 26) ds /\ (n = 0 /\ ds = [] \/ exists d r, ds = d :: r /\ 0 < d).
Proof.
  induction fuel as [|fuel IH]; intros s t n H Hn Hb.
  - change (26 ^ Z.of_nat 0) with 1 in Hn. assert (n = 0) by lia. subst n. exists s, []. cbn [latin_loop]. change (0 >? 0) with false. cbn [map rev]. rewrite app_nil_r. repeat split; auto.
  - assert (G : forall k s n, latin_loop s n (S k) = if n >? 0 then let* s := append_char s (u16 (65 + s16 (Z.rem n 26 - 1))) in latin_loop s (s32 (Z.quot n 26)) k else Val s) by reflexivity.
    rewrite G. clear G. destruct (Z.gtb_spec n 0) as [Hp|Hp].
    + assert (Ec : u16 (65 + s16 (Z.rem n 26 - 1)) = 64 + Z.rem n 26) by (unfold u16, s16; lia). rewrite Ec.
      destruct (append_char_ok s t (64 + Z.rem n 26) H) as (s1 & -> & H1 & _). cbn [bind]. rewrite Nat2Z.inj_succ, Z.pow_succ_r in Hn by lia.
      assert (Hq : 0 <= Z.quot n 26 < 26 ^ Z.of_nat fuel) by (split; [apply Z.quot_pos; lia|apply Z.quot_lt_upper_bound; lia]).
      rewrite s32_id by lia. destruct (IH s1 _ (Z.quot n 26) H1 Hq) as (s' & ds & E & R & V & F & D); [lia|].
      exists s', (ds ++ [Z.rem n 26]). split; [exact E|]. split; [rewrite rev_app_distr; cbn [rev app map]; rewrite <- app_assoc in R; exact R|]. split; [rewrite pos_value_app, V; lia|].
      split; [apply Forall_app; split; [exact F|]; constructor; [lia|constructor]|]. right. destruct D as [(D1 & ->)|(d & r & -> & D)].
      * exists (Z.rem n 26), []. split; [reflexivity|]. lia.
      * exists d, (r ++ [Z.rem n 26]). auto.
    + assert (n = 0) by lia. subst n. exists s, []. cbn [map rev]. rewrite app_nil_r. repeat split; auto.
Qed.
Lemma to_latin_ok n : 0 <= n < 26 * 2147483648 -> exists s' ds, to_latin n = Val s' /\ repr s' (map (fun d => 64 + d) ds) /\ pos_value 26 ds = n /\ Forall (fun d => 0 <= d < 26) ds /\ (n = 0 /\ ds = [] \/ exists d r, ds = d :: r /\ 0 < d).
Proof.
  intros Hn. unfold to_latin. destruct (latin_loop_ok 15 str_new [] n str_new_repr) as (s1 & ds & -> & R & V & F & D); [|lia|].
  { change (26 ^ Z.of_nat 15) with 1677259342285725925376. lia. }
  cbn [bind]. destruct (reverse_ok s1 _ R) as (s2 & -> & R2 & _). exists s2, ds. cbn [app] in R2. rewrite map_rev, rev_involutive in R2. auto.
Qed.
(** * number of digits *)
Lemma digit_count_ok fuel : forall n i, 0 <= n < 10 ^ Z.of_nat fuel -> 0 <= i -> i + Z.of_nat fuel < 256 -> 
  exists ds, digit_count n i (S fuel) = Val (i + zlen ds - 1) /\ canonical 10 n ds.
Proof.
  induction fuel as [|fuel IH]; intros n i Hn Hi Hb.
  - change (10 ^ Z.of_nat 0) with 1 in Hn. assert (n = 0) by lia. subst n. exists [0]. cbn [digit_count]. change (0 >? 9) with false. change (zlen [0]) with 1. split; [f_equal; lia|]. split; [reflexivity|]. split; [constructor; [lia|constructor]|auto].
  - assert (G : forall k n i, digit_count n i (S k) = if n >? 9 then digit_count (Z.quot n 10) (u8 (i + 1)) k else Val i) by reflexivity. rewrite G. clear G.
    destruct (Z.gtb_spec n 9) as [H9|H9].
    + rewrite Nat2Z.inj_succ, Z.pow_succ_r in Hn by lia. rewrite u8_id by lia. destruct (IH (Z.quot n 10) (i + 1)) as (ds & -> & (V & F & D)); [lia|lia|lia|].
      exists (ds ++ [Z.rem n 10]). split; [f_equal; zl|]. split; [rewrite pos_value_app, V; lia|]. split; [apply Forall_app; split; [exact F|]; constructor; [lia|constructor]|].
      right. destruct D as [->|(d & r & -> & D)]; [unfold pos_value in V; cbn in V; lia|]. exists d, (r ++ [Z.rem n 10]). auto.
    + exists [n]. change (zlen [n]) with 1. split; [f_equal; lia|]. split; [unfold pos_value; cbn; lia|]. split; [constructor; [lia|constructor]|]. destruct (Z.eq_dec n 0) as [->|]; [auto|]. right. exists n, []. split; [reflexivity|lia].
Qed.
(** canonical digits are unique *)
Lemma canonical_len b n ds es : 2 <= b -> canonical b n ds -> canonical b n es -> ds = es.
Proof.
  intros Hb. 
  assert (N : forall l, Forall (fun d => 0 <= d < b) l -> forall d, 0 < d -> 0 < fold_left (fun a d => b * a + d) l d).
  { induction l as [|x l IH]; intros F d Hd; cbn [fold_left]; [exact Hd|]. inversion F; subst. apply IH; [assumption|nia]. }
  assert (K : forall ds es, Forall (fun d => 0 <= d < b) ds -> Forall (fun d => 0 <= d < b) es -> (ds = [] \/ exists d r, ds = d :: r /\ 0 < d) -> (es = [] \/ exists d r, es = d :: r /\ 0 < d) -> pos_value b ds = pos_value b es -> ds = es).
  { intros l. induction l as [|x l IH] using rev_ind; intros m Fl Fm Dl Dm E.
    - destruct Dm as [->|(d & r & -> & Hd)]; [reflexivity|]. exfalso. unfold pos_value in E. cbn [fold_left] in E. inversion Fm; subst. pose proof (N r ltac:(assumption) (b * 0 + d) ltac:(lia)). lia.
    - destruct m as [|y m _] using rev_ind.
      + exfalso. destruct Dl as [Dl|(d & r & Dl & Hd)]; [destruct l; discriminate|]. rewrite Dl in *. unfold pos_value in E. cbn [fold_left] in E. inversion Fl; subst. pose proof (N r ltac:(assumption) (b * 0 + d) ltac:(lia)). lia.
      + rewrite !pos_value_app in E. apply Forall_app in Fl as [Fl Fx], Fm as [Fm Fy]. inversion Fx; subst. inversion Fy; subst.
        assert (x = y /\ pos_value b l = pos_value b m) as [-> E2].
        { destruct (Z.div_mod_unique b (pos_value b l) (pos_value b m) x y) as [E1 E3]; [left; assumption|left; assumption|lia|auto]. }
        f_equal. apply IH; auto.
        * destruct l as [|z l]; [auto|right]. destruct Dl as [Dl|(d & r & Dl & Hd)]; [discriminate|]. injection Dl as -> _. eauto.
        * destruct m as [|z m]; [auto|right]. destruct Dm as [Dm|(d & r & Dm & Hd)]; [discriminate|]. injection Dm as -> _. eauto. }
  intros (V1 & F1 & D1) (V2 & F2 & D2). destruct D1 as [->|D1], D2 as [->|D2]; auto.
  - exfalso. destruct D2 as (d & r & -> & Hd). unfold pos_value in V1, V2. cbn [fold_left] in *. inversion F2; subst. pose proof (N r ltac:(assumption) (b * 0 + d) ltac:(lia)). lia.
  - exfalso. destruct D1 as (d & r & -> & Hd). unfold pos_value in V1, V2. cbn [fold_left] in *. inversion F1; subst. pose proof (N r ltac:(assumption) (b * 0 + d) ltac:(lia)). lia.
  - apply K; auto. congruence.
Qed.
