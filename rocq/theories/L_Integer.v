From Verif Require Import Base M_String S_String S_Integer L_String L_String2 L_String3.
Ltac Zify.zify_post_hook ::= Z.to_euclidean_division_equations.

Lemma set_mid s p x q c i : repr s (p ++ x :: q) -> i = zlen p -> exists s', set_char_at s i c = Val s' /\ repr s' (p ++ c :: q).
Proof.
  intros H ->. pose proof (zlen_nonneg p). pose proof (zlen_nonneg q). destruct (set_char_ok s _ (zlen p) c H) as (s' & E & R & _); [zl|]. exists s'. split; [exact E|].
  rewrite ztake_app in R by reflexivity. replace (p ++ x :: q) with ((p ++ [x]) ++ q) in R by (rewrite <- app_assoc; reflexivity). rewrite zdrop_app in R by zl. exact R.
Qed.
Lemma swap_loop_ok k : forall s p m q a, repr s (p ++ m ++ q) -> k = Z.to_nat (Z.quot (zlen m) 2) -> zlen p = zlen q -> a = zlen p ->
  exists s', swap_loop s a k = Val s' /\ repr s' (p ++ rev m ++ q).
Proof.
  induction k as [|k IH]; intros s p m q a H Hk Hpq Ha; cbn [swap_loop].
  - assert (zlen m <= 1) by (pose proof (zlen_nonneg m); lia). exists s. split; [reflexivity|]. destruct m as [|x [|y m]]; [exact H|exact H|]. rewrite !zlen_cons in *. pose proof (zlen_nonneg m). lia.
  - destruct m as [|x m]; [change (zlen (@nil Z)) with 0 in Hk; discriminate|]. destruct m as [|y m] using rev_ind; [discriminate|]. clear IHm.
    assert (Lm : zlen (x :: m ++ [y]) = zlen m + 2) by zl. rewrite Lm in *. pose proof (zlen_nonneg m). subst a.
    assert (Ls : len s = zlen p + (zlen m + 2) + zlen q) by (destruct H as (j & _ & ->); zl).
    replace (p ++ (x :: m ++ [y]) ++ q) with (p ++ x :: (m ++ y :: q)) in H by (cbn [app]; rewrite <- !app_assoc; reflexivity).
    rewrite (char_at_ok s _ _ H), lget_mid. cbn [bind].
    replace (len s - 1 - zlen p) with (zlen (p ++ x :: m)) by (rewrite zlen_app, zlen_cons; lia).
    rewrite (char_at_ok s _ _ H). replace (p ++ x :: m ++ y :: q) with ((p ++ x :: m) ++ y :: q) in * by (rewrite <- app_assoc; reflexivity). rewrite lget_mid. cbn [bind].
    destruct (set_mid s p x (m ++ y :: q) y (zlen p)) as (s1 & -> & H1); [rewrite <- app_assoc in H; exact H|reflexivity|]. cbn [bind].
    assert (Ls1 : len s1 = len s) by (rewrite Ls; destruct H1 as (j & _ & ->); zl). rewrite Ls1. replace (len s - 1 - zlen p) with (zlen (p ++ y :: m)) by zl.
    destruct (set_mid s1 (p ++ y :: m) y q x (zlen (p ++ y :: m))) as (s2 & -> & H2); [rewrite <- app_assoc; exact H1|reflexivity|]. cbn [bind].
    destruct (IH s2 (p ++ [y]) m ([x] ++ q) (zlen p + 1)) as (s' & -> & R); [rewrite <- app_assoc in *; exact H2|lia|zl|zl|].
    exists s'. split; [reflexivity|]. cbn [rev]. rewrite rev_app_distr. cbn [rev app]. rewrite <- !app_assoc in *. exact R.
Qed.
Lemma swap_all s t : repr s t -> exists s', swap_loop s 0 (Z.to_nat (Z.quot (len s) 2)) = Val s' /\ repr s' (rev t).
Proof.
  intros H. assert (L : len s = zlen t) by (destruct H as (j & _ & L); exact L). rewrite L.
  destruct (swap_loop_ok (Z.to_nat (Z.quot (zlen t) 2)) s [] t [] 0) as (s' & E & R); auto; [now rewrite app_nil_r|]. rewrite app_nil_r in R. eauto.
Qed.

(** * digit loops *)
Fixpoint gen (b : Z) (f : Z -> Z) (s : jstr) (n : Z) (fuel : nat) : out jstr :=
  match fuel with
  | O => Fuel
  | S fuel => if n >? 0 then let* s := append_char s (f (Z.rem n b)) in gen b f s (Z.quot n b) fuel else Val s
  end.
Lemma digits_gen fuel : forall s n, digits_loop s n fuel = gen 10 (fun d => d + 48) s n fuel.
Proof. induction fuel; intros; cbn [digits_loop gen]; [reflexivity|]. destruct (n >? 0); [|reflexivity]. destruct (append_char s (Z.rem n 10 + 48)); cbn [bind]; auto. Qed.
Lemma hex_gen fuel : forall s n, hex_digits s n fuel = gen 16 hex_char s n fuel.
Proof. induction fuel; intros; cbn [hex_digits gen]; [reflexivity|]. destruct (n >? 0); [|reflexivity]. destruct (append_char s (hex_char (Z.rem n 16))); cbn [bind]; auto. Qed.
Lemma pos_value_app b ds d : pos_value b (ds ++ [d]) = b * pos_value b ds + d.
Proof. unfold pos_value. rewrite fold_left_app. reflexivity. Qed.
Lemma gen_ok b f fuel : 2 <= b -> forall s t n, repr s t -> 0 <= n < b ^ Z.of_nat fuel -> fuel <> O ->
  exists s' ds, gen b f s n (S fuel) = Val s' /\ repr s' (t ++ map f (rev ds)) /\ pos_value b ds = n /\ Forall (fun d => 0 <= d < b) ds /\ (n = 0 /\ ds = [] \/ exists d r, ds = d :: r /\ 0 < d).
Proof.
  intros Hb s t n H Hn _. revert s t n H Hn. induction fuel as [|fuel IH]; intros s t n H Hn.
  - change (b ^ Z.of_nat 0) with 1 in Hn. assert (n = 0) by lia. subst n. exists s, []. cbn [gen]. change (0 >? 0) with false. cbn [map rev]. rewrite app_nil_r. repeat split; auto.
  - assert (G : forall k s n, gen b f s n (S k) = if n >? 0 then let* s := append_char s (f (Z.rem n b)) in gen b f s (Z.quot n b) k else Val s) by reflexivity.
    rewrite G. clear G. destruct (Z.gtb_spec n 0) as [Hp|Hp].
    + destruct (append_char_ok s t (f (Z.rem n b)) H) as (s1 & -> & H1 & _). cbn [bind]. rewrite Nat2Z.inj_succ, Z.pow_succ_r in Hn by lia.
      assert (Hq : 0 <= Z.quot n b < b ^ Z.of_nat fuel). { split; [apply Z.quot_pos; lia|]. apply Z.quot_lt_upper_bound; lia. }
      destruct (IH s1 _ (Z.quot n b) H1 Hq) as (s' & ds & E & R & V & F & D).
      assert (Eqr : n = b * Z.quot n b + Z.rem n b) by (apply Z.quot_rem'). pose proof (Z.rem_bound_pos n b ltac:(lia) ltac:(lia)) as Rb.
      exists s', (ds ++ [Z.rem n b]). split; [exact E|]. split; [rewrite rev_app_distr; cbn [rev app map]; rewrite <- app_assoc in R; exact R|]. split; [rewrite pos_value_app, V; lia|].
      split; [apply Forall_app; split; [exact F|]; constructor; [lia|constructor]|]. right. destruct D as [(D1 & ->)|(d & r & -> & D)].
      * exists (Z.rem n b), []. split; [reflexivity|]. rewrite D1 in Eqr. lia.
      * exists d, (r ++ [Z.rem n b]). auto.
    + assert (n = 0) by lia. subst n. exists s, []. cbn [map rev]. rewrite app_nil_r. repeat split; auto.
Qed.
Lemma value_of_int_ok n : -9223372036854775807 <= n <= 9223372036854775807 ->
  exists s' ds, value_of_int n = Val s' /\ repr s' ((if n <? 0 then [45] else []) ++ map dec_char ds) /\ canonical 10 (Z.abs n) ds.
Proof.
  intros Hn. unfold value_of_int.
  assert (K : forall m s t (tl : list Z), repr s t -> (0 < m \/ m = 0 /\ t = [48]) -> (0 < m -> t = []) -> m < 10 ^ 20 -> exists s1 ds, digits_loop s m 21 = Val s1 /\ repr s1 (map dec_char (rev ds)) /\ canonical 10 m ds).
  { intros m s t tl H D1 D2 D3. rewrite digits_gen. destruct (gen_ok 10 (fun d => d + 48) 20 ltac:(lia) s t m H) as (s1 & ds & E & R & V & F & D); [lia|discriminate|].
    rewrite E. assert (MM : forall l, map (fun d => d + 48) l = map dec_char l) by (intros l; apply map_ext; intros; unfold dec_char; lia). rewrite MM in R.
    destruct D1 as [D1|(-> & ->)].
    - rewrite (D2 D1) in R. exists s1, ds. split; [reflexivity|]. split; [exact R|]. split; [exact V|]. split; [exact F|]. right. destruct D as [(D & _)|D]; [lia|exact D].
    - destruct D as [(_ & ->)|(d & r & -> & D)].
      + exists s1, [0]. split; [reflexivity|]. split; [exact R|]. split; [reflexivity|]. split; [constructor; [lia|constructor]|auto].
      + exfalso. inversion F as [|? ? F1 F2]; subst. assert (P : forall l a, 0 < a -> Forall (fun d => 0 <= d < 10) l -> 0 < fold_left (fun a d => 10 * a + d) l a).
        { induction l as [|x l IHl]; intros a Ha Fl; cbn [fold_left]; [exact Ha|]. inversion Fl; subst. apply IHl; [lia|assumption]. }
        unfold pos_value in V. cbn [fold_left] in V. specialize (P r (10 * 0 + d) ltac:(lia) F2). lia. }
  change (10 ^ 20) with 100000000000000000000 in K. destruct (Z.ltb_spec n 0) as [N|N].
  - unfold chk64, in_s64. replace ((-9223372036854775808 <=? n * -1) && (n * -1 <=? 9223372036854775807)) with true by lia. cbn [bind].
    destruct (K (n * -1) str_new [] [] str_new_repr) as (s1 & ds & -> & R1 & C); [lia|auto|lia|]. cbn [bind].
    destruct (append_char_ok s1 _ 45 R1) as (s2 & -> & R2 & _). cbn [bind]. destruct (swap_all s2 _ R2) as (s3 & -> & R3). exists s3, ds. split; [reflexivity|].
    rewrite rev_app_distr, map_rev, rev_involutive in R3. split; [exact R3|]. replace (Z.abs n) with (n * -1) by lia. exact C.
  - destruct (Z.eqb_spec n 0) as [->|N0].
    + destruct (append_char_ok str_new [] 48 str_new_repr) as (s0 & -> & R0 & _). cbn [bind].
      destruct (K 0 s0 [48] [] R0) as (s1 & ds & -> & R1 & C); [auto|lia|lia|]. cbn [bind].
      destruct (swap_all s1 _ R1) as (s3 & -> & R3). exists s3, ds. rewrite map_rev, rev_involutive in R3. auto.
    + cbn [bind]. destruct (K n str_new [] [] str_new_repr) as (s1 & ds & -> & R1 & C); [lia|auto|lia|]. cbn [bind].
      destruct (swap_all s1 _ R1) as (s3 & -> & R3). exists s3, ds. rewrite map_rev, rev_involutive in R3. replace (Z.abs n) with n by lia. auto.
Qed.
Lemma value_of_uint_ok n : 0 <= n < 18446744073709551616 ->
  exists s' ds, value_of_uint n = Val s' /\ repr s' (map dec_char ds) /\ canonical 10 n ds.
Proof.
  intros Hn. unfold value_of_uint. destruct (Z.eqb_spec n 0) as [->|N0].
  - destruct (append_char_ok str_new [] 48 str_new_repr) as (s0 & -> & R0 & _). exists s0, [0]. split; [reflexivity|]. split; [exact R0|]. split; [reflexivity|]. split; [constructor; [lia|constructor]|auto].
  - rewrite digits_gen. destruct (gen_ok 10 (fun d => d + 48) 20 ltac:(lia) str_new [] n str_new_repr) as (s1 & ds & E & R & V & F & D); [|discriminate|].
    { change (10 ^ Z.of_nat 20) with 100000000000000000000. lia. }
    rewrite E. cbn [bind]. cbn [app] in R. destruct (swap_all s1 _ R) as (s3 & -> & R3). exists s3, ds. rewrite map_rev, rev_involutive in R3. split; [reflexivity|].
    replace (map (fun d => d + 48) ds) with (map dec_char ds) in R3 by (apply map_ext; intros; unfold dec_char; lia). split; [exact R3|]. split; [exact V|]. split; [exact F|]. right. destruct D as [(D & _)|D]; [lia|exact D].
Qed.
(** * reading numbers *)
Definition digs (t : list Z) : list Z := map (fun c => c - 48) (filter is_digit t).
Lemma fold_ge l : forall a, 0 <= a -> Forall (fun d => 0 <= d) l -> a <= fold_left (fun a d => 10 * a + d) l a.
Proof. induction l as [|x l IH]; intros a Ha F; cbn [fold_left]; [lia|]. inversion F; subst. specialize (IH (10 * a + x) ltac:(lia) ltac:(assumption)). lia. Qed.
Lemma digs_nonneg t : Forall (fun d => 0 <= d) (digs t).
Proof. unfold digs. apply Forall_map, Forall_forall. intros c Hc. apply filter_In in Hc as [_ Hc]. unfold is_digit in Hc. lia. Qed.
Lemma to_int_loop_ok t2 : forall t1 s val neg k, repr s (t1 ++ t2) -> 0 <= val -> Forall (fun c => is_digit c = true \/ c = 45) t2 ->
  fold_left (fun a d => 10 * a + d) (digs t2) val <= 9223372036854775807 -> k = length t2 ->
  to_int_loop s val neg (zlen t1) k = Val (fold_left (fun a d => 10 * a + d) (digs t2) val, orb neg (existsb (Z.eqb 45) t2)).
Proof.
  induction t2 as [|c t2 IH]; intros t1 s val neg k H Hv F Hb Hk; subst k; cbn [length to_int_loop].
  - cbn. now rewrite orb_false_r.
  - rewrite (char_at_ok s _ _ H), lget_mid. cbn [bind]. inversion F as [|? ? F1 F2]; subst. replace (t1 ++ c :: t2) with ((t1 ++ [c]) ++ t2) in H by (rewrite <- app_assoc; reflexivity).
    replace (zlen t1 + 1) with (zlen (t1 ++ [c])) by zl. unfold digs in *. cbn [filter] in *. destruct (is_digit c) eqn:D.
    + cbn [map fold_left] in *. assert (Hc : 0 <= c - 48 <= 9) by (unfold is_digit in D; lia). pose proof (fold_ge (digs t2) (10 * val + (c - 48)) ltac:(lia) (digs_nonneg t2)) as G. unfold digs in G.
      unfold chk64, in_s64. replace ((-9223372036854775808 <=? val * 10) && (val * 10 <=? 9223372036854775807)) with true by lia. cbn [bind]. unfold digit_value. rewrite D.
      replace ((-9223372036854775808 <=? val * 10 + (c - 48)) && (val * 10 + (c - 48) <=? 9223372036854775807)) with true by lia. cbn [bind].
      replace (val * 10 + (c - 48)) with (10 * val + (c - 48)) by lia. rewrite (IH (t1 ++ [c]) s); auto; [|lia].
      cbn [existsb]. replace (45 =? c) with false by (unfold is_digit in D; lia). reflexivity.
    + destruct F1 as [F1|F1]; [congruence|]. subst c. cbn [Z.eqb Pos.eqb]. rewrite (IH (t1 ++ [45]) s); auto. cbn [existsb Z.eqb Pos.eqb orb]. destruct neg; reflexivity.
Qed.
Lemma to_int_ok s t : repr s t -> Forall (fun c => is_digit c = true \/ c = 45) t -> pos_value 10 (digs t) <= 9223372036854775807 ->
  to_int s = Val (if existsb (Z.eqb 45) t then - pos_value 10 (digs t) else pos_value 10 (digs t)).
Proof.
  intros H F Hb. unfold to_int. assert (L : len s = zlen t) by (destruct H as (j & _ & L); exact L). rewrite L, <- length_zlen.
  pose proof (to_int_loop_ok t [] s 0 false (length t) H ltac:(lia) F Hb eq_refl) as E. change (zlen (@nil Z)) with 0 in E. rewrite E. cbn [bind orb]. fold (pos_value 10 (digs t)).
  pose proof (fold_ge (digs t) 0 ltac:(lia) (digs_nonneg t)). fold (pos_value 10 (digs t)) in *.
  destruct (existsb (Z.eqb 45) t); [|reflexivity]. unfold chk64, in_s64. replace ((-9223372036854775808 <=? pos_value 10 (digs t) * -1) && (pos_value 10 (digs t) * -1 <=? 9223372036854775807)) with true by lia. f_equal. lia.
Qed.
Lemma to_int_bad s t : repr s t -> ~ Forall (fun c => is_digit c = true \/ c = 45) t -> forall v, to_int s <> Val v.
Proof.
  intros H N v. unfold to_int. assert (L : len s = zlen t) by (destruct H as (j & _ & L); exact L). rewrite L, <- length_zlen.
  assert (K : forall t2 t1 val neg k, t = t1 ++ t2 -> ~ Forall (fun c => is_digit c = true \/ c = 45) t2 -> k = length t2 -> forall w, to_int_loop s val neg (zlen t1) k <> Val w).
  { induction t2 as [|c t2 IH]; intros t1 val neg k Et N2 Hk w; subst k; [exfalso; apply N2; constructor|]. cbn [length to_int_loop]. rewrite (char_at_ok s _ _ H), Et, lget_mid. cbn [bind].
    replace (zlen t1 + 1) with (zlen (t1 ++ [c])) by zl. assert (Et' : t = (t1 ++ [c]) ++ t2) by (rewrite Et, <- app_assoc; reflexivity).
    destruct (is_digit c) eqn:D.
    - unfold chk64. destruct (in_s64 _); cbn [bind]; [|discriminate]. destruct (in_s64 _); cbn [bind]; [|discriminate]. apply IH; auto.
    - destruct (Z.eqb_spec c 45) as [->|]; [|discriminate]. apply IH; auto. }
  specialize (K t [] 0 false (length t) eq_refl N eq_refl). change (zlen (@nil Z)) with 0 in K. destruct (to_int_loop s 0 false 0 (length t)) as [[w b]| | |]; cbn [bind]; try discriminate. exfalso. eapply K; reflexivity.
Qed.
Lemma digs_dec ds : Forall (fun d => 0 <= d < 10) ds -> digs (map dec_char ds) = ds /\ Forall (fun c => is_digit c = true \/ c = 45) (map dec_char ds) /\ existsb (Z.eqb 45) (map dec_char ds) = false.
Proof.
  induction ds as [|d ds IH]; intros F; [cbn; auto|]. inversion F as [|? ? F1 F2]; subst. destruct (IH F2) as (E1 & E2 & E3). unfold digs in *. cbn [map filter existsb].
  assert (D : is_digit (dec_char d) = true) by (unfold is_digit, dec_char; lia). rewrite D. cbn [map]. rewrite E1, E3. split; [f_equal; unfold dec_char; lia|]. split; [constructor; auto|]. unfold dec_char. lia.
Qed.
(** * hexadecimal *)
Lemma hex_char_upper d : 0 <= d < 16 -> hex_char d = hex_upper d.
Proof. intros H. assert (forallb (fun d => hex_char d =? hex_upper d) (zrange 16) = true) as S by reflexivity. pose proof (sweep 16 _ S d ltac:(lia)). lia. Qed.
Lemma hex_digit_value c : hex_digit c = hex_value c.
Proof. unfold hex_digit, hex_value, digit_value, is_digit. repeat match goal with |- context [if ?b then _ else _] => destruct b eqn:? end; lia. Qed.
Lemma hex_value_range c : 0 <= hex_value c < 16.
Proof. unfold hex_value. repeat match goal with |- context [if ?b then _ else _] => destruct b eqn:? end; lia. Qed.
Lemma lor_shift4 r d : 0 <= d < 16 -> Z.lor (u64 (Z.shiftl r 4)) d = (16 * r + d) mod 18446744073709551616.
Proof.
  intros H. unfold u64. rewrite Z.shiftl_mul_pow2 by lia. change (2 ^ 4) with 16.
  assert (E : (r * 16) mod 18446744073709551616 = Z.shiftl (r mod 2 ^ 60) 4). { rewrite Z.shiftl_mul_pow2 by lia. change (2 ^ 4) with 16. change 18446744073709551616 with (2 ^ 60 * 16). rewrite Z.mul_mod_distr_r by lia. reflexivity. }
  rewrite E.
  assert (L : Z.land (Z.shiftl (r mod 2 ^ 60) 4) d = 0).
  { apply Z.bits_inj'. intros i Hi. rewrite Z.land_spec, Z.bits_0. destruct (Z.ltb_spec i 4).
    - rewrite Z.shiftl_spec_low by lia. reflexivity.
    - rewrite (Z.bits_above_log2 d i); [apply andb_false_r|lia|]. destruct (Z.eq_dec d 0) as [->|]; [cbn; lia|]. apply Z.log2_lt_pow2; [lia|]. apply Z.lt_le_trans with (2 ^ 4); [lia|]. apply Z.pow_le_mono_r; lia. }
  rewrite Z.shiftl_mul_pow2 in * by lia. change (2 ^ 4) with 16 in *. change (2 ^ 60) with 1152921504606846976 in *.
  replace (Z.lor (r mod 1152921504606846976 * 16) d) with (r mod 1152921504606846976 * 16 + d); [|rewrite (Z.add_nocarry_lxor _ _ L); apply Z.bits_inj'; intros i Hi; rewrite Z.lxor_spec, Z.lor_spec; assert (B : Z.testbit (Z.land (r mod 1152921504606846976 * 16) d) i = false) by (rewrite L; apply Z.bits_0); rewrite Z.land_spec in B; destruct (Z.testbit (r mod 1152921504606846976 * 16) i), (Z.testbit d i); cbn in *; congruence].
  clear L E. lia.
Qed.
Lemma hex_loop_ok t2 : forall t1 s r k, repr s (t1 ++ t2) -> zlen t1 + zlen t2 < 4294967296 -> 0 <= r -> k = length t2 ->
  exists q, hex_loop s (r mod 18446744073709551616) (zlen t1) k = Val q /\ q = fold_left (fun a d => 16 * a + d) (map hex_value t2) r mod 18446744073709551616.
Proof.
  induction t2 as [|c t2 IH]; intros t1 s r k H Hl Hr Hk; subst k; cbn [length hex_loop map fold_left].
  - eauto.
  - rewrite (char_at_ok s _ _ H), lget_mid. cbn [bind]. rewrite zlen_cons in Hl. pose proof (zlen_nonneg t1). pose proof (zlen_nonneg t2). rewrite u32_id by lia.
    replace (t1 ++ c :: t2) with ((t1 ++ [c]) ++ t2) in H by (rewrite <- app_assoc; reflexivity). replace (zlen t1 + 1) with (zlen (t1 ++ [c])) by zl.
    pose proof (hex_value_range c). rewrite hex_digit_value, lor_shift4 by assumption.
    replace ((16 * (r mod 18446744073709551616) + hex_value c) mod 18446744073709551616) with ((16 * r + hex_value c) mod 18446744073709551616)
      by (rewrite <- (Zplus_mod_idemp_l (16 * (r mod _))), Zmult_mod_idemp_r, Zplus_mod_idemp_l; reflexivity).
    apply IH; auto; [zl|lia].
Qed.
Lemma from_hex_ok s t : repr s t -> zlen t < 4294967296 -> from_hex s = Val (s64 (pos_value 16 (map hex_value t) mod 18446744073709551616)).
Proof.
  intros H Hl. unfold from_hex, from_hex_range. assert (L : len s = zlen t) by (destruct H as (j & _ & L); exact L). pose proof (zlen_nonneg t).
  assert (U : u32 (s32 (len s)) = zlen t). { rewrite L. unfold u32, s32. rewrite Zminus_mod, Zmod_mod, <- Zminus_mod. replace (zlen t + 2147483648 - 2147483648) with (zlen t) by lia. apply Z.mod_small. lia. }
  rewrite U. cbv zeta. rewrite Z.add_0_l, u32_id by lia. rewrite Z.sub_0_r, <- length_zlen.
  destruct (hex_loop_ok t [] s 0 (length t) H) as (q & E & Eq); auto; [lia|]. change (zlen (@nil Z)) with 0 in E. change (0 mod 18446744073709551616) with 0 in E. rewrite E. cbn [bind]. rewrite Eq. reflexivity.
Qed.
