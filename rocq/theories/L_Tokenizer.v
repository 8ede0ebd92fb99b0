From Verif Require Import Base M_String M_Tokenizer S_String S_Tokenizer L_String.
Ltac Zify.zify_post_hook ::= Z.to_euclidean_division_equations.

Lemma is_delim_loop_ok d2 : forall d1 s c k, repr s (d1 ++ d2) -> k = length d2 -> is_delim_loop s c (zlen d1) k = Val (is_in d2 c).
Proof.
  induction d2 as [|x d2 IH]; intros d1 s c k H ->; cbn [length is_delim_loop is_in existsb]; [reflexivity|]. rewrite (char_at_ok s _ _ H), lget_mid. cbn [bind]. rewrite (Z.eqb_sym c x). destruct (x =? c); [reflexivity|].
  replace (zlen d1 + 1) with (zlen (d1 ++ [x])) by zl. apply IH; [|reflexivity]. now rewrite <- app_assoc.
Qed.
Section Tok.
Context (s d : list Z) (ret : bool).
Notation isd := (is_in d).
Definition at_state (t : tok) : Prop := repr (tstr t) s /\ repr (tdel t) d /\ tret t = ret.
Lemma is_delim_ok t p c q : at_state t -> s = p ++ c :: q -> is_delim t (zlen p) = Val (isd c).
Proof.
  intros (H1 & H2 & _) E. unfold is_delim. rewrite (char_at_ok _ _ _ H1), E, lget_mid. cbn [bind]. assert (L : len (tdel t) = zlen d) by (destruct H2 as (? & _ & L); exact L). rewrite L. apply (is_delim_loop_ok d []); [exact H2|unfold zlen; lia].
Qed.
Lemma scan_ok t want : at_state t -> forall q p, s = p ++ q ->
  exists m r, q = m ++ r /\ scan t want (zlen p) (length q) = Val (zlen (p ++ m)) /\ forallb (fun c => negb (Bool.eqb (isd c) want)) m = true /\ (forall c r', r = c :: r' -> isd c = want).
Proof.
  intros Ht. induction q as [|c q IH]; intros p E; cbn [length scan].
  - exists [], []. rewrite ?app_nil_r. split; [reflexivity|]. split; [reflexivity|]. split; [reflexivity|]. discriminate.
  - rewrite (is_delim_ok t p c q Ht E). cbn [bind]. destruct (Bool.eqb (isd c) want) eqn:B.
    + exists [], (c :: q). rewrite ?app_nil_r. split; [reflexivity|]. split; [reflexivity|]. split; [reflexivity|]. intros c' r' E'. injection E' as <- _. now apply eqb_prop.
    + replace (zlen p + 1) with (zlen (p ++ [c])) by zl. destruct (IH (p ++ [c])) as (m & r & -> & E1 & E2 & E3); [now rewrite <- app_assoc|]. exists (c :: m), r. split; [reflexivity|]. split; [rewrite E1, <- app_assoc; reflexivity|]. cbn [forallb]. rewrite B, E2. auto.
Qed.
Lemma tokens_run m : forall cur r, forallb (fun c => negb (Bool.eqb (isd c) true)) m = true -> tokens ret isd cur (m ++ r) = tokens ret isd (cur ++ m) r.
Proof.
  induction m as [|c m IH]; intros cur r H; cbn [app tokens]; [now rewrite app_nil_r|]. cbn [forallb] in H. apply andb_true_iff in H as [H1 H2]. destruct (isd c); [discriminate|]. rewrite IH by exact H2. now rewrite <- app_assoc.
Qed.
Lemma tokens_skip m : forall r, forallb (fun c => negb (Bool.eqb (isd c) false)) m = true -> ret = false -> tokens ret isd [] (m ++ r) = tokens ret isd [] r.
Proof.
  induction m as [|c m IH]; intros r H R; cbn [app tokens]; [reflexivity|]. cbn [forallb] in H. apply andb_true_iff in H as [H1 H2]. destruct (isd c); [|discriminate]. rewrite R at 1. cbn [app]. now apply IH.
Qed.
Lemma tokens_flush c r : isd c = true -> forall cur, cur <> [] -> tokens ret isd cur (c :: r) = cur :: tokens ret isd [] (c :: r).
Proof. intros H cur N. cbn [tokens]. rewrite H. destruct cur; [contradiction|]. reflexivity. Qed.

(** where the next token starts *)
Lemma fde_ok t p q : at_state t -> s = p ++ q -> exists m r, q = m ++ r /\ find_delimiter_end t (zlen p) = Val (zlen (p ++ m)) /\
  tokens ret isd [] q = tokens ret isd [] r /\ (forall c r', r = c :: r' -> isd c = true -> ret = true) /\ (ret = true -> m = []).
Proof.
  intros Ht E. pose proof Ht as (H1 & H2 & H3). assert (L : len (tstr t) = zlen s) by (destruct H1 as (? & _ & L); exact L). unfold find_delimiter_end. rewrite L, H3, E, zlen_app.
  replace (Z.to_nat (zlen p + zlen q - zlen p)) with (length q) by (unfold zlen; lia). destruct ret eqn:R.
  - destruct q as [|c q].
    + change (zlen (@nil Z)) with 0. replace (zlen p <? zlen p + 0) with false by lia. cbn [andb bind length scan]. exists [], []. rewrite ?app_nil_r. repeat split; auto.
    + rewrite zlen_cons. pose proof (zlen_nonneg q). replace (zlen p <? zlen p + (1 + zlen q)) with true by lia. cbn [andb]. rewrite (is_delim_ok t p c q Ht E). cbn [bind]. exists [], (c :: q). rewrite ?app_nil_r. split; [reflexivity|]. split; [|repeat split; auto].
      destruct (isd c) eqn:B; [reflexivity|]. cbn [length scan]. rewrite (is_delim_ok t p c q Ht E), B. reflexivity.
  - cbn [andb bind]. destruct (scan_ok t false Ht q p E) as (m & r & -> & E1 & E2 & E3). exists m, r. split; [reflexivity|]. split; [exact E1|]. rewrite <- R. rewrite tokens_skip by (auto; congruence). split; [reflexivity|]. split; [|congruence]. intros c r' E4 B. rewrite (E3 c r' E4) in B. discriminate.
Qed.
(** the state between calls: [q] is the unread rest *)
Definition inv (t : tok) (ts : list (list Z)) : Prop :=
  at_state t /\ exists p q, s = p ++ q /\ tokens ret isd [] q = ts /\
   ((tnew t = -1 /\ tpos t = zlen p) \/ (tnew t = zlen p /\ forall c r', q = c :: r' -> isd c = true -> ret = true)).
Lemma tokens_nil r : (forall c r', r = c :: r' -> isd c = true -> ret = true) -> (tokens ret isd [] r = [] <-> r = []).
Proof.
  intros H. split; [|now intros ->]. destruct r as [|c r]; [reflexivity|]. cbn [tokens]. destruct (isd c) eqn:B; [rewrite (H c r eq_refl B); discriminate|].
  assert (G : forall r cur, cur <> [] -> tokens ret isd cur r <> []). { clear. induction r as [|c r IH]; intros cur N; cbn [tokens]; [destruct cur; [contradiction|discriminate]|]. destruct (isd c); [destruct cur; [contradiction|discriminate]|]. apply IH. now destruct cur. }
  intros E. exfalso. apply (G r ([] ++ [c])); [discriminate|exact E].
Qed.
Lemma start_ok t ts : inv t ts -> exists p q, s = p ++ q /\ tokens ret isd [] q = ts /\ (forall c r', q = c :: r' -> isd c = true -> ret = true) /\
  (if tnew t <? 0 then find_delimiter_end t (tpos t) else Val (tnew t)) = Val (zlen p) /\ (if tnew t >? -1 then Val (tnew t) else find_delimiter_end t (tpos t)) = Val (zlen p).
Proof.
  intros (Ht & p & q & E & T & [(N & Pp)|(N & B)]).
  - rewrite N, Pp. cbn [Z.ltb Z.gtb Z.compare Pos.compare Pos.compare_cont CompOpp]. destruct (fde_ok t p q Ht E) as (m & r & -> & E1 & E2 & E3 & _). exists (p ++ m), r. split; [now rewrite <- app_assoc|]. split; [congruence|]. split; [exact E3|]. auto.
  - exists p, q. pose proof (zlen_nonneg p). rewrite N. replace (zlen p <? 0) with false by lia. replace (zlen p >? -1) with true by lia. auto.
Qed.
Lemma has_next_ok t ts : inv t ts -> exists t', has_next t = Val (match ts with [] => false | _ => true end, t') /\ inv t' ts.
Proof.
  intros I. pose proof I as (Ht & _). destruct (start_ok t ts I) as (p & q & E & T & B & S1 & _). unfold has_next. rewrite S1. cbn [bind]. pose proof Ht as (H1 & H2 & H3). assert (L : len (tstr t) = zlen s) by (destruct H1 as (? & _ & L); exact L). rewrite L, E, zlen_app.
  eexists. split.
  - f_equal. f_equal. pose proof (tokens_nil q B) as TN. rewrite T in TN. destruct q as [|c q].
    + rewrite (proj2 TN eq_refl). change (zlen (@nil Z)) with 0. apply Z.ltb_ge. lia.
    + rewrite zlen_cons. pose proof (zlen_nonneg q). replace (zlen p <? zlen p + (1 + zlen q)) with true by lia. destruct ts; [|reflexivity]. destruct TN as [TN _]. discriminate (TN eq_refl).
  - split; [split; [exact H1|split; [exact H2|exact H3]]|]. exists p, q. split; [exact E|]. split; [exact T|]. right. auto.
Qed.
Lemma next_ok t ts : inv t ts -> exists o t', next t = Val (o, t') /\
  match ts with [] => o = None /\ inv t' [] | x :: ts' => (exists r, o = Some r /\ repr r x) /\ inv t' ts' end.
Proof.
  intros I. pose proof I as (Ht & _). destruct (start_ok t ts I) as (p & q & E & T & B & _ & S2). unfold next. rewrite S2. cbn [bind tstr tret]. pose proof Ht as (H1 & H2 & H3). assert (L : len (tstr t) = zlen s) by (destruct H1 as (? & _ & L); exact L). rewrite L, H3.
  set (t1 := TK (tstr t) (tdel t) (zlen p) (-1) ret). assert (Ht1 : at_state t1) by (split; [exact H1|split; [exact H2|reflexivity]]). pose proof (tokens_nil q B) as TN. rewrite T in TN.
  assert (SPQ : zlen s = zlen p + zlen q) by (rewrite E; apply zlen_app). destruct q as [|c q].
  - change (zlen (@nil Z)) with 0 in SPQ. replace (zlen p >=? zlen s) with true by lia. rewrite (proj2 TN eq_refl). exists None. eexists. split; [reflexivity|]. split; [reflexivity|]. split; [exact Ht1|]. exists p, []. split; [exact E|]. split; [reflexivity|]. left. auto.
  - rewrite zlen_cons in SPQ. pose proof (zlen_nonneg q). replace (zlen p >=? zlen s) with false by lia. destruct ts as [|x ts]; [destruct TN as [TN _]; discriminate (TN eq_refl)|]. cbn [tokens] in T.
    assert (Fin : forall m r, c :: q = m ++ r -> m = x -> tokens ret isd [] r = ts -> exists o t', (let* r0 := substring (tstr t) (zlen p) (zlen (p ++ m)) in Val (Some r0, TK (tstr t) (tdel t) (zlen (p ++ m)) (-1) ret)) = Val (o, t') /\ ((exists r0, o = Some r0 /\ repr r0 x) /\ inv t' ts)).
    { intros m r Em Ex Et. subst x. destruct (substring_mid (tstr t) p m r) as (r0 & Es & Rs); [rewrite <- Em, <- E; exact H1|]. rewrite zlen_app. rewrite Es. cbn [bind]. eexists _, _. split; [reflexivity|]. split; [eauto|].
      split; [split; [exact H1|split; [exact H2|reflexivity]]|]. exists (p ++ m), r. split; [rewrite <- app_assoc, <- Em; exact E|]. split; [exact Et|]. left. cbn [tnew tpos]. rewrite zlen_app. auto. }
    destruct ret eqn:R.
    + rewrite (is_delim_ok t1 p c q Ht1 E). cbn [bind]. destruct (isd c) eqn:D.
      * cbn [bind]. replace (zlen p + 1) with (zlen (p ++ [c])) by zl. cbn [app] in T. injection T as T1 T2. apply (Fin [c] q); auto.
      * unfold find_token_end. cbn [tstr]. change (len (tstr t1)) with (len (tstr t)). rewrite L, SPQ. replace (Z.to_nat (zlen p + (1 + zlen q) - zlen p)) with (length (c :: q)) by (cbn [length]; unfold zlen; lia).
        destruct (scan_ok t1 true Ht1 (c :: q) p E) as (m & r & Em & E1 & E2 & E3). rewrite E1. cbn [bind]. assert (TR : tokens ret isd [] (c :: q) = x :: ts) by (rewrite R; cbn [tokens]; rewrite D; exact T). rewrite Em, tokens_run in TR by exact E2. cbn [app] in TR.
        assert (Nm : m <> []). { intros ->. cbn [app] in Em. subst r. rewrite (E3 c q eq_refl) in D. discriminate. }
        destruct r as [|c' r]; [destruct m; [contradiction|]; cbn [tokens] in TR; injection TR as TR1 TR2; apply (Fin _ [] Em TR1); cbn [tokens]; exact TR2|]. rewrite (tokens_flush c' r (E3 c' r eq_refl) m Nm) in TR. injection TR as TR1 TR2. rewrite R in TR2. apply (Fin m (c' :: r) Em TR1 TR2).
    + cbn [bind]. destruct (isd c) eqn:D; [discriminate (B c q eq_refl D)|].
        unfold find_token_end. cbn [tstr]. change (len (tstr t1)) with (len (tstr t)). rewrite L, SPQ. replace (Z.to_nat (zlen p + (1 + zlen q) - zlen p)) with (length (c :: q)) by (cbn [length]; unfold zlen; lia).
        destruct (scan_ok t1 true Ht1 (c :: q) p E) as (m & r & Em & E1 & E2 & E3). rewrite E1. cbn [bind]. assert (TR : tokens ret isd [] (c :: q) = x :: ts) by (rewrite R; cbn [tokens]; rewrite D; exact T). rewrite Em, tokens_run in TR by exact E2. cbn [app] in TR.
        assert (Nm : m <> []). { intros ->. cbn [app] in Em. subst r. rewrite (E3 c q eq_refl) in D. discriminate. }
        destruct r as [|c' r]; [destruct m; [contradiction|]; cbn [tokens] in TR; injection TR as TR1 TR2; apply (Fin _ [] Em TR1); cbn [tokens]; exact TR2|]. rewrite (tokens_flush c' r (E3 c' r eq_refl) m Nm) in TR. injection TR as TR1 TR2. rewrite R in TR2. apply (Fin m (c' :: r) Em TR1 TR2).
Qed.
Lemma run_ok cs : forall t ts, inv t ts -> run_tok cs t = Val (iterate cs ts).
Proof.
  induction cs as [|[|] cs IH]; intros t ts I; cbn [run_tok iterate]; [reflexivity| |].
  - destruct (has_next_ok t ts I) as (t' & -> & I'). cbn [bind]. rewrite (IH t' ts I'). reflexivity.
  - destruct (next_ok t ts I) as (o & t' & -> & D). cbn [bind]. destruct ts as [|x ts].
    + destruct D as (-> & I'). rewrite (IH t' [] I'). reflexivity.
    + destruct D as ((r & -> & Rr) & I'). rewrite (IH t' ts I'). apply repr_text in Rr as [Tr _]. cbn [bind option_map]. now rewrite Tr.
Qed.
End Tok.
