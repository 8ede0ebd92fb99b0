From Verif Require Import Base M_String M_Preferences S_String S_Integer S_Preferences L_String L_String2 L_String3 L_String4 L_Integer L_Integer2 L_Preferences.
Ltac Zify.zify_post_hook ::= Z.to_euclidean_division_equations.

(** * the loops of load and save *)
Lemma prep_skip x y n z b : z <> x -> z <> y -> forall a, never [x; y] a -> prep x y n (a ++ z :: b) = a ++ z :: prep x y n b.
Proof.
  intros Nx Ny. induction a as [|c|c d r I1 I2] using pair_ind; intros H.
  - cbn [app]. destruct b as [|d b]; [reflexivity|]. rewrite prep2. replace ((z =? x) && (d =? y)) with false by lia. reflexivity.
  - cbn [app]. rewrite prep2. replace ((c =? x) && (z =? y)) with false by lia. f_equal. destruct b as [|d b]; [reflexivity|]. rewrite prep2. replace ((z =? x) && (d =? y)) with false by lia. reflexivity.
  - cbn [app] in *. rewrite prep2. specialize (I2 (never_tail _ _ _ H)). destruct ((c =? x) && (d =? y)) eqn:E; [|now rewrite I2]. exfalso. apply (never_head _ _ r H). cbn [app]. f_equal; [|f_equal]; lia.
Qed.
Lemma begins_iff t : begins_bsn t = true <-> occurs [92; 110] t 0.
Proof.
  split.
  - destruct t as [|c [|d r]]; try discriminate. cbn [begins_bsn]. intros E. exists [], r. split; [|reflexivity]. cbn [app]. f_equal; [|f_equal]; lia.
  - intros (a & r & -> & L). apply zlen_zero in L. subst a. reflexivity.
Qed.
Lemma never_left p a b : never p (a ++ b) -> never p a.
Proof. intros H i (u & r & -> & L). apply (H i). exists u, (r ++ b). rewrite <- !app_assoc. auto. Qed.
Lemma last_app (a b : list Z) : b <> [] -> last (a ++ b) 0 = last b 0.
Proof. intros N. destruct (exists_last N) as (b' & x & ->). rewrite app_assoc, !last_last. reflexivity. Qed.
Lemma break_loop_ok : forall fuel t v, repr v t -> last t 0 <> 92 -> (length t < fuel)%nat -> exists v', break_loop v fuel = Val v' /\ repr v' (unbreak t).
Proof.
  induction fuel as [|fuel IH]; intros t v R G Hf; [lia|]. cbn [break_loop]. destruct R as (j & Eb & El). destruct (index_of_str_ok v t j l_bsn [92; 110] 0 Eb El (str_of_repr _)) as (pos & -> & F); [left; now apply no_overrun_pair|]. cbn [bind]. change (Z.max 0 0) with 0 in F.
  assert (R : repr v t) by (exists j; auto). destruct F as [(Rg & O & NB)|(-> & N)].
  - destruct (Z.gtb_spec pos 0) as [P|P].
    + destruct O as (a & b & -> & La). destruct (substring_mid v [] a ([92; 110] ++ b) R) as (sa & Ea & Ra). change (zlen (@nil Z)) with 0 in Ea. rewrite Z.add_0_l, La in Ea. rewrite Ea. cbn [bind]. destruct (copy_ctor_ok sa a Ra) as (x & -> & Rx & _). cbn [bind]. destruct (append_ok x a l_lf [10] Rx (str_of_repr _)) as (x1 & -> & Rx1). cbn [bind].
      destruct (substring_from_mid v (a ++ [92; 110]) b) as (sb & Esb & Rb); [rewrite <- app_assoc; exact R|]. rewrite zlen_app in Esb. change (zlen [92; 110]) with 2 in Esb. rewrite La in Esb. rewrite Esb. cbn [bind]. destruct (copy_ctor_ok x1 _ Rx1) as (y & -> & Ry & _). cbn [bind]. destruct (append_ok y _ sb b Ry Rb) as (y1 & -> & Ry1). cbn [bind].
      destruct (assign_ok v y1 _ Ry1) as (v1 & -> & Rv1 & _). cbn [bind].
      assert (G1 : last ((a ++ [10]) ++ b) 0 <> 92). { destruct b as [|b0 b]; [rewrite app_nil_r, last_last; lia|]. rewrite last_app by discriminate. rewrite !last_app in G by discriminate. exact G. }
      destruct (IH _ v1 Rv1 G1) as (v' & Ev & Rv); [rewrite !app_length in *; cbn [length] in *; lia|]. exists v'. split; [exact Ev|].
      assert (NA : never [92; 110] a). { intros i (u & r & Eu & Lu). pose proof (zlen_nonneg u). assert (i < pos) by (rewrite <- La, Eu, !zlen_app; change (zlen [92; 110]) with 2; pose proof (zlen_nonneg r); lia). apply (NB i); [lia|]. exists u, (r ++ [92; 110] ++ b). rewrite Eu, <- !app_assoc. auto. }
      assert (B0 : begins_bsn (a ++ [92; 110] ++ b) = false). { destruct (begins_bsn _) eqn:B; [|reflexivity]. apply begins_iff in B. exfalso. apply (NB 0); [lia|exact B]. }
      assert (B1 : begins_bsn ((a ++ [10]) ++ b) = false). { rewrite <- app_assoc. destruct a as [|c [|d a]]; [change (zlen (@nil Z)) with 0 in La; lia|cbn; lia|exact B0]. }
      unfold unbreak in *. rewrite B1 in Rv. rewrite B0. rewrite breaks_prep in *. rewrite prep_at; [|lia|intros i Hi; destruct (Z.ltb_spec i 0) as [Hi0|Hi0]; [intros O'; apply occurs_range in O'; lia|apply NB; lia]]. rewrite <- app_assoc in Rv. cbn [app] in Rv. rewrite prep_skip in Rv by (auto; lia). exact Rv.
    + assert (pos = 0) by lia. subst pos. exists v. split; [reflexivity|]. unfold unbreak. apply begins_iff in O. rewrite O. exact R.
  - change (-1 >? 0) with false. cbv iota. exists v. split; [reflexivity|]. assert (NV : never [92; 110] t). { intros i O. apply (N i); [|exact O]. apply occurs_range in O. change (zlen [92; 110]) with 2 in O. lia. }
    unfold unbreak. destruct (begins_bsn t) eqn:B; [exact R|]. rewrite breaks_prep, prep_never by exact NV. exact R.
Qed.
Lemma break_loop_room fuel t v j : buf v = t ++ j -> len v = zlen t -> hd 1 j = 0 -> never [92; 110] t -> break_loop v (S fuel) = Val v /\ unbreak t = t.
Proof.
  intros Eb El Hj N. cbn [break_loop]. destruct (index_of_str_ok v t j l_bsn [92; 110] 0 Eb El (str_of_repr _)) as (pos & -> & F); [right; destruct j as [|z j']; [discriminate|]; cbn [hd] in Hj; subst z; eexists _, _; split; [reflexivity|]; cbn [In]; lia|]. cbn [bind].
  destruct F as [(_ & O & _)|(-> & _)]; [exfalso; exact (N _ O)|]. change (-1 >? 0) with false. split; [reflexivity|]. unfold unbreak. destruct (begins_bsn t); [reflexivity|]. rewrite breaks_prep, prep_never by exact N. reflexivity.
Qed.
Lemma unesc2 c d r : unesc (c :: d :: r) = if (c =? 92) && (d =? 116) then 9 :: unesc r else if (c =? 92) && (d =? 92) then 92 :: unesc r else c :: unesc (d :: r). Proof. reflexivity. Qed.
Lemma unescape_loop_ok : forall fuel t d v, repr v (d ++ t) -> (length t < fuel)%nat -> exists v', unescape_loop v (zlen d) fuel = Val v' /\ repr v' (d ++ unesc t).
Proof.
  induction fuel as [|fuel IH]; intros t d v R Hf; [lia|]. cbn [unescape_loop]. assert (L : len v = zlen d + zlen t) by (destruct R as (? & _ & L); rewrite L; zl). rewrite L.
  destruct t as [|c t]; [change (zlen (@nil Z)) with 0; replace (zlen d <? zlen d + 0) with false by lia; exists v; auto|].
  rewrite zlen_cons. pose proof (zlen_nonneg t). replace (zlen d <? zlen d + (1 + zlen t)) with true by lia. rewrite (char_at_ok v _ _ R), lget_mid. cbn [bind].
  assert (Step : forall x t' v1, repr v1 (d ++ x :: t') -> (length t' < fuel)%nat -> exists v', unescape_loop v1 (zlen d + 1) fuel = Val v' /\ repr v' (d ++ x :: unesc t')).
  { intros x t' v1 R1 Hf1. destruct (IH t' (d ++ [x]) v1) as (v' & E & R'); [now rewrite <- app_assoc|exact Hf1|]. rewrite zlen_app in E. change (zlen [x]) with 1 in E. rewrite E. exists v'. split; [reflexivity|]. now rewrite <- app_assoc in R'. }
  cbn [length] in Hf. destruct t as [|e t].
  - change (zlen (@nil Z)) with 0. replace ((c =? 92) && (zlen d + 1 <? zlen d + (1 + 0))) with false by lia. cbn [bind]. change (unesc [c]) with (c :: unesc []). apply Step; [exact R|cbn; lia].
  - rewrite zlen_cons. pose proof (zlen_nonneg t). replace (zlen d + 1 <? zlen d + (1 + (1 + zlen t))) with true by lia. rewrite andb_true_r, unesc2. cbn [length] in Hf.
    destruct (Z.eqb_spec c 92) as [->|Nc]; cbn [andb]; [|apply Step; [exact R|cbn [length]; lia]].
    assert (R' : repr v ((d ++ [92]) ++ e :: t)) by (rewrite <- app_assoc; exact R). assert (E1 : char_at v (zlen d + 1) = Val e). { rewrite (char_at_ok v _ _ R'). replace (zlen d + 1) with (zlen (d ++ [92])) by zl. now rewrite lget_mid. } rewrite E1. cbn [bind].
    assert (Del : forall x v1, repr v1 (d ++ x :: e :: t) -> exists v2, delete_char_at v1 (zlen d + 1) = Val v2 /\ repr v2 (d ++ x :: t)).
    { intros x v1 R1. destruct (delete_char_ok v1 _ (zlen d + 1) R1) as (v2 & E2 & R2); [rewrite zlen_app, !zlen_cons; pose proof (zlen_nonneg d); lia|]. exists v2. split; [exact E2|]. replace (d ++ x :: e :: t) with ((d ++ [x]) ++ e :: t) in R2 by (rewrite <- app_assoc; reflexivity).
      rewrite ztake_app in R2 by zl. replace ((d ++ [x]) ++ e :: t) with ((d ++ [x; e]) ++ t) in R2 by (rewrite <- !app_assoc; reflexivity). rewrite zdrop_app in R2 by zl. rewrite <- app_assoc in R2. exact R2. }
    destruct (Z.eqb_spec e 116) as [->|Ne].
    + destruct (set_char_ok v _ (zlen d) 9 R) as (v1 & -> & R1 & _); [rewrite zlen_app, !zlen_cons; pose proof (zlen_nonneg d); lia|]. cbn [bind]. rewrite ztake_app in R1 by reflexivity. replace (d ++ 92 :: 116 :: t) with ((d ++ [92]) ++ 116 :: t) in R1 by (rewrite <- app_assoc; reflexivity). rewrite zdrop_app in R1 by zl.
      destruct (Del 9 v1 R1) as (v2 & -> & R2). cbn [bind]. change (116 =? 92) with false. cbv iota. cbn [bind]. apply Step; [exact R2|lia].
    + cbn [bind]. destruct (Z.eqb_spec e 92) as [->|Ne2]; [|cbn [bind]; apply Step; [exact R|cbn [length]; lia]]. destruct (Del 92 v R) as (v2 & -> & R2). cbn [bind]. apply Step; [exact R2|lia].
Qed.
Lemma esc_cons c t : esc (c :: t) = (if c =? 92 then [92; 92] else if c =? 9 then [92; 116] else [c]) ++ esc t. Proof. reflexivity. Qed.
Lemma escape_loop_ok : forall fuel t d v, repr v (d ++ t) -> zlen (d ++ esc t) < 4294967296 -> (length t < fuel)%nat -> exists v', escape_loop v (zlen d) fuel = Val v' /\ repr v' (d ++ esc t).
Proof.
  induction fuel as [|fuel IH]; intros t d v R B Hf; [lia|]. cbn [escape_loop]. assert (L : len v = zlen d + zlen t) by (destruct R as (? & _ & L); rewrite L; zl). rewrite L. rewrite zlen_app in B. pose proof (zlen_nonneg d).
  destruct t as [|c t]; [change (zlen (@nil Z)) with 0; replace (zlen d <? zlen d + 0) with false by lia; exists v; auto|].
  rewrite zlen_cons. pose proof (zlen_nonneg t). replace (zlen d <? zlen d + (1 + zlen t)) with true by lia. rewrite (char_at_ok v _ _ R), lget_mid. cbn [bind length] in *. rewrite esc_cons in *. rewrite zlen_app in B. pose proof (zlen_nonneg (esc t)).
  destruct (Z.eqb_spec c 92) as [->|N1]; [|destruct (Z.eqb_spec c 9) as [->|N2]].
  - change (zlen [92; 92]) with 2 in B. rewrite (u32_id (zlen d + 1)) by lia. rewrite (u32_id (zlen d + 1 + 1)) by lia. destruct (insert_char_ok v _ (zlen d + 1) 92 R) as (v1 & -> & R1); [rewrite zlen_app, zlen_cons; lia|]. cbn [bind].
    replace (d ++ 92 :: t) with ((d ++ [92]) ++ t) in R1 by (rewrite <- app_assoc; reflexivity). rewrite ztake_app, zdrop_app in R1 by zl. destruct (IH t (d ++ [92; 92]) v1) as (v' & E & R'); [rewrite <- app_assoc in *; exact R1|rewrite !zlen_app; change (zlen [92; 92]) with 2; lia|lia|].
    rewrite zlen_app in E. change (zlen [92; 92]) with 2 in E. replace (zlen d + 1 + 1) with (zlen d + 2) by lia. rewrite E. exists v'. split; [reflexivity|]. now rewrite <- app_assoc in R'.
  - change (zlen [92; 116]) with 2 in B. rewrite (u32_id (zlen d + 1)) by lia. rewrite (u32_id (zlen d + 1 + 1)) by lia. destruct (set_char_ok v _ (zlen d) 92 R) as (v0 & -> & R0 & _); [rewrite zlen_app, zlen_cons; lia|]. cbn [bind]. rewrite ztake_app in R0 by reflexivity. replace (d ++ 9 :: t) with ((d ++ [9]) ++ t) in R0 by (rewrite <- app_assoc; reflexivity). rewrite zdrop_app in R0 by zl.
    destruct (insert_char_ok v0 _ (zlen d + 1) 116 R0) as (v1 & -> & R1); [rewrite zlen_app, zlen_cons; lia|]. cbn [bind]. replace (d ++ 92 :: t) with ((d ++ [92]) ++ t) in R1 by (rewrite <- app_assoc; reflexivity). rewrite ztake_app, zdrop_app in R1 by zl.
    destruct (IH t (d ++ [92; 116]) v1) as (v' & E & R'); [rewrite <- app_assoc in *; exact R1|rewrite !zlen_app; change (zlen [92; 116]) with 2; lia|lia|].
    rewrite zlen_app in E. change (zlen [92; 116]) with 2 in E. replace (zlen d + 1 + 1) with (zlen d + 2) by lia. rewrite E. exists v'. split; [reflexivity|]. now rewrite <- app_assoc in R'.
  - change (zlen [c]) with 1 in B. rewrite (u32_id (zlen d + 1)) by lia. destruct (IH t (d ++ [c]) v) as (v' & E & R'); [rewrite <- app_assoc; exact R|rewrite !zlen_app; change (zlen [c]) with 1; lia|lia|].
    rewrite zlen_app in E. change (zlen [c]) with 1 in E. rewrite E. exists v'. split; [reflexivity|]. now rewrite <- app_assoc in R'.
Qed.
(** * trim and the first equals sign *)
Lemma ws_eq c : existsb (Z.eqb c) [32; 13; 10; 9; 8; 12] = is_ws c.
Proof. cbn [existsb]. unfold is_ws. rewrite !orb_false_r, !orb_assoc. reflexivity. Qed.
Lemma skip_blank_app a : forall t, forallb is_ws a = true -> skip_blank (a ++ t) = skip_blank t.
Proof. induction a as [|c a IH]; intros t H; [reflexivity|]. cbn [forallb] in H. apply andb_true_iff in H as [H1 H2]. cbn [app skip_blank]. rewrite ws_eq, H1. auto. Qed.
Lemma skip_blank_stop c t : is_ws c = false -> skip_blank (c :: t) = c :: t.
Proof. intros H. cbn [skip_blank]. now rewrite ws_eq, H. Qed.
Lemma forallb_rev (f : Z -> bool) l : forallb f (rev l) = forallb f l.
Proof. induction l as [|x l IH]; [reflexivity|]. cbn [rev]. rewrite forallb_app, IH. cbn [forallb]. rewrite andb_true_r. apply andb_comm. Qed.
Lemma strip_all a : forallb is_ws a = true -> strip a = [].
Proof. intros H. unfold strip. rewrite <- (app_nil_r a), skip_blank_app by exact H. reflexivity. Qed.
Lemma strip_mid a m b x m1 m2 y : forallb is_ws a = true -> forallb is_ws b = true -> m = x :: m1 -> m = m2 ++ [y] -> is_ws x = false -> is_ws y = false -> strip (a ++ m ++ b) = m.
Proof.
  intros A B E1 E2 X Y. unfold strip. rewrite skip_blank_app by exact A. rewrite E1. cbn [app]. rewrite skip_blank_stop by exact X. change (x :: m1 ++ b) with ((x :: m1) ++ b). rewrite rev_app_distr, skip_blank_app by (now rewrite forallb_rev). rewrite <- E1, E2, rev_app_distr. cbn [rev app]. rewrite skip_blank_stop by exact Y. cbn [rev]. now rewrite rev_involutive.
Qed.
Lemma trim_strip s t : repr s t -> exists s', trim s = Val s' /\ repr s' (strip t).
Proof.
  intros R. destruct (trim_ok s t R) as (s' & a & m & b & E & R' & Et & A & B & M). exists s'. split; [exact E|]. replace (strip t) with m; [exact R'|]. symmetry. rewrite Et. destruct M as [->|((x & m1 & E1 & X) & (m2 & y & E2 & Y))].
  - cbn [app]. apply strip_all. now rewrite forallb_app, A, B.
  - eapply strip_mid; eauto.
Qed.
Lemma cut_none t : cut t = None <-> ~ In 61 t.
Proof.
  induction t as [|c t IH]; cbn [cut In]; [split; auto|]. destruct (Z.eqb_spec c 61) as [->|N]; [split; [discriminate|tauto]|]. destruct (cut t) as [[a b]|]; [split; [discriminate|]; intros H; exfalso; apply H; right; destruct (in_dec Z.eq_dec 61 t) as [I|I]; [exact I|]; apply IH in I; discriminate|]. split; [|reflexivity]. intros _ [?|I]; [lia|]. now apply IH.
Qed.
Lemma cut_some t a b : cut t = Some (a, b) <-> t = a ++ 61 :: b /\ ~ In 61 a.
Proof.
  revert a b. induction t as [|c t IH]; intros a b; cbn [cut].
  - split; [discriminate|]. intros [E _]. destruct a; discriminate.
  - destruct (Z.eqb_spec c 61) as [->|N].
    + split; [intros E; injection E as <- <-; auto|]. intros [E NI]. destruct a as [|x a]; [injection E as <-; reflexivity|]. injection E as <- _. exfalso. apply NI. now left.
    + destruct (cut t) as [[a0 b0]|] eqn:C.
      * destruct (proj1 (IH a0 b0) eq_refl) as [-> N0]. split.
        -- intros E. injection E as <- <-. split; [reflexivity|]. cbn [In]. intros [?|?]; [lia|tauto].
        -- intros [E NI]. destruct a as [|x a]; [injection E as -> _; contradiction|]. injection E as <- E. assert (E' : Some (a0, b0) = Some (a, b)). { apply IH. split; [exact E|]. intros I. apply NI. now right. } now injection E' as -> ->.
      * split; [discriminate|]. intros [E NI]. destruct a as [|x a]; [injection E as -> _; contradiction|]. injection E as <- E. assert (E' : None = Some (a, b)). { apply IH. split; [exact E|]. intros I. apply NI. now right. } discriminate.
Qed.
Lemma index_cut s t : repr s t -> index_of_char s 61 0 = Val (match cut t with Some (a, _) => zlen a | None => -1 end).
Proof.
  intros R. destruct (index_of_char_ok s t 61 0 R) as (r & -> & F). f_equal. change (Z.max 0 0) with 0 in F. destruct (cut t) as [[a b]|] eqn:C.
  - apply cut_some in C as [-> N]. destruct F as [(Rg & G & B)|(_ & B)].
    + destruct (Z.lt_trichotomy r (zlen a)) as [H|[H|H]]; [|exact H|].
      * rewrite lget_app_l in G by lia. apply lget_In in G. contradiction.
      * exfalso. apply (B (zlen a)); [pose proof (zlen_nonneg a); lia|]. apply lget_mid.
    + exfalso. apply (B (zlen a)); [rewrite zlen_app, zlen_cons; pose proof (zlen_nonneg a); pose proof (zlen_nonneg b); lia|]. apply lget_mid.
  - apply cut_none in C. destruct F as [(_ & G & _)|(-> & _)]; [apply lget_In in G; contradiction|reflexivity].
Qed.
(** * numbers *)
Lemma decimal_digits_ok : forall k n, 0 <= n < 10 ^ Z.of_nat k -> (0 < k)%nat -> exists ds, decimal_digits k n = map dec_char ds /\ canonical 10 n ds.
Proof.
  induction k as [|k IH]; intros n Hn Hk; [lia|]. cbn [decimal_digits]. destruct (Z.ltb_spec n 10) as [S0|S0].
  - exists [n]. split; [reflexivity|]. split; [cbn; lia|]. split; [repeat constructor; lia|]. destruct (Z.eq_dec n 0) as [->|]; [left; reflexivity|right; eexists _, _; split; [reflexivity|lia]].
  - rewrite Nat2Z.inj_succ, Z.pow_succ_r in Hn by lia. assert (Hk' : (0 < k)%nat) by (destruct k; [change (10 ^ Z.of_nat 0) with 1 in Hn; lia|lia]). destruct (IH (n / 10)) as (ds & E & V & F & D); [lia|exact Hk'|]. exists (ds ++ [n mod 10]). rewrite E, map_app. split; [reflexivity|]. split; [|split].
    + unfold pos_value in *. rewrite fold_left_app. cbn [fold_left]. rewrite V. lia.
    + apply Forall_app. split; [exact F|]. constructor; [lia|constructor].
    + right. destruct D as [->|(d & r & -> & P)]; [cbn in V; lia|]. cbn [app]. eauto.
Qed.
Lemma decimal_ok n : - 2 ^ 63 < n < 2 ^ 63 -> exists s, value_of_int n = Val s /\ repr s (decimal n).
Proof.
  intros Hn. destruct (value_of_int_ok n ltac:(lia)) as (s & ds & E & R & C). exists s. split; [exact E|]. unfold decimal. destruct (Z.ltb_spec n 0) as [N|N].
  - destruct (decimal_digits_ok 20 (- n) ltac:(lia) ltac:(lia)) as (es & -> & C2). rewrite Z.abs_neq in C by lia. rewrite (canonical_len 10 _ es ds ltac:(lia) C2 C). exact R.
  - destruct (decimal_digits_ok 20 n ltac:(lia) ltac:(lia)) as (es & -> & C2). rewrite Z.abs_eq in C by lia. rewrite (canonical_len 10 _ es ds ltac:(lia) C2 C). exact R.
Qed.
Lemma numeral_iff t : numeral t = true <-> Forall (fun c => is_digit c = true \/ c = 45) t.
Proof.
  unfold numeral. rewrite forallb_forall, Forall_forall. split; intros H c Hc; specialize (H c Hc); unfold is_digit in *; [apply orb_true_iff in H as [H|H]; [now left|right; lia]|]. apply orb_true_iff. destruct H as [H|H]; [now left|right; lia].
Qed.
Lemma magnitude_digs t : magnitude t = pos_value 10 (digs t). Proof. reflexivity. Qed.
Lemma to_int_throws s t : repr s t -> numeral t = false -> pos_value 10 (digs t) <= 9223372036854775807 -> to_int s = Exn.
Proof.
  intros H N B. unfold to_int. assert (L : len s = zlen t) by (destruct H as (j & _ & L); exact L). rewrite L, <- length_zlen.
  assert (K : forall t2 t1 val neg, t = t1 ++ t2 -> numeral t2 = false -> 0 <= val -> fold_left (fun a d => 10 * a + d) (digs t2) val <= 9223372036854775807 -> to_int_loop s val neg (zlen t1) (length t2) = Exn).
  { induction t2 as [|c t2 IH]; intros t1 val neg Et N2 Hv Hb; [discriminate|]. cbn [length to_int_loop]. rewrite (char_at_ok s _ _ H), Et, lget_mid. cbn [bind].
    replace (zlen t1 + 1) with (zlen (t1 ++ [c])) by zl. assert (Et' : t = (t1 ++ [c]) ++ t2) by (rewrite Et, <- app_assoc; reflexivity). unfold numeral in N2. cbn [forallb] in N2. fold (numeral t2) in N2. unfold digs in Hb. cbn [filter] in Hb.
    destruct (is_digit c) eqn:D.
    - cbn [map fold_left] in Hb. assert (Hc : 0 <= c - 48 <= 9) by (unfold is_digit in D; lia). pose proof (fold_ge (digs t2) (10 * val + (c - 48)) ltac:(lia) (digs_nonneg t2)) as G. unfold digs in G.
      unfold chk64, in_s64. replace ((-9223372036854775808 <=? val * 10) && (val * 10 <=? 9223372036854775807)) with true by lia. cbn [bind]. unfold digit_value. rewrite D.
      replace ((-9223372036854775808 <=? val * 10 + (c - 48)) && (val * 10 + (c - 48) <=? 9223372036854775807)) with true by lia. cbn [bind]. replace (val * 10 + (c - 48)) with (10 * val + (c - 48)) by lia. apply IH; auto; [|lia].
      unfold is_digit in D. rewrite D in N2. exact N2.
    - destruct (Z.eqb_spec c 45) as [->|]; [|reflexivity]. apply IH; auto. }
  pose proof (K t [] 0 false eq_refl N ltac:(lia) B) as E. change (zlen (@nil Z)) with 0 in E. rewrite E. reflexivity.
Qed.
