From Verif Require Import L_Utf8.
From Verif Require Import Base M_Utf8 M_String M_Tokenizer M_StringList M_File S_String S_Utf8 S_Tokenizer S_StringList S_File.
From Verif Require Import L_String L_String2 L_StringList L_Tokenizer.
Ltac Zify.zify_post_hook ::= Z.to_euclidean_division_equations.

(** * normalising *)
Fixpoint squeeze (p : bool) (t : list Z) : list Z := match t with [] => [] | c :: r => if p && (c =? 47) then squeeze true r else c :: squeeze (c =? 47) r end.
Definition untrail (t : list Z) : list Z := if last t 0 =? 47 then removelast t else t.
Lemma norm_loop_ok : forall q p s prev k, repr s (p ++ q) -> prev = last p 0 -> (length q < k)%nat ->
  exists s', norm_loop s (zlen p) (zlen p + zlen q) prev k = Val (s', last (p ++ squeeze (prev =? 47) q) 0) /\ repr s' (p ++ squeeze (prev =? 47) q).
Proof.
  induction q as [|c q IH]; intros p s prev k R Hp Hk; (destruct k as [|k]; [cbn [length] in Hk; lia|]); cbn [norm_loop squeeze].
  - rewrite zlen_nil. destruct (Z.ltb_spec (zlen p) (zlen p + 0)); [lia|]. exists s. rewrite app_nil_r in *. subst prev. auto.
  - rewrite zlen_cons. pose proof (zlen_nonneg q). destruct (Z.ltb_spec (zlen p) (zlen p + (1 + zlen q))); [|lia]. rewrite (char_at_ok s _ _ R), lget_mid. cbn [bind]. unfold DIR_SEP. cbn [length] in Hk. destruct ((prev =? 47) && (c =? 47)) eqn:E.
    + apply andb_true_iff in E as [E1 E2]. apply Z.eqb_eq in E1, E2. destruct (delete_char_ok s (p ++ c :: q) (zlen p) R ltac:(rewrite zlen_app, zlen_cons; pose proof (zlen_nonneg p); lia)) as (s1 & -> & R1). cbn [bind]. rewrite ztake_app in R1 by reflexivity. replace (zdrop (zlen p + 1) (p ++ c :: q)) with q in R1 by (change (c :: q) with ([c] ++ q); rewrite app_assoc, zdrop_app; [reflexivity|rewrite zlen_app; reflexivity]).
      destruct (IH p s1 c k R1 ltac:(congruence) ltac:(lia)) as (s' & E' & R'). replace (zlen p + (1 + zlen q) - 1) with (zlen p + zlen q) by lia. rewrite E2 in *. exists s'. auto.
    + destruct (IH (p ++ [c]) s c k ltac:(rewrite <- app_assoc; exact R) ltac:(now rewrite last_last) ltac:(lia)) as (s' & E' & R'). rewrite zlen_app, zlen_cons, zlen_nil in E'. replace (zlen p + (1 + 0) + zlen q) with (zlen p + (1 + zlen q)) in E' by lia. replace (zlen p + (1 + 0)) with (zlen p + 1) in E' by lia. rewrite E'. exists s'. rewrite <- app_assoc in *. split; [reflexivity|exact R'].
Qed.
Lemma delete_last_ok s a x : repr s (a ++ [x]) -> exists s', delete_char_at s (zlen (a ++ [x]) - 1) = Val s' /\ repr s' a.
Proof.
  intros R. pose proof (zlen_nonneg a). assert (L : zlen (a ++ [x]) = zlen a + 1) by (rewrite zlen_app; reflexivity). rewrite L. destruct (delete_char_ok s (a ++ [x]) (zlen a + 1 - 1) R ltac:(lia)) as (s2 & E & R2). exists s2. split; [exact E|]. rewrite ztake_app, zdrop_all, app_nil_r in R2 by lia. exact R2.
Qed.
Definition normal (t : list Z) : list Z := let q := squeeze false t in if zlen q >? 1 then untrail q else q.
Lemma normalize_sq s t : repr s t -> exists s', normalize s = Val s' /\ repr s' (normal t).
Proof.
  intros R. unfold normalize. destruct (copy_ctor_ok s t R) as (s0 & -> & R0 & _). cbn [bind]. assert (L0 : len s0 = zlen t) by (destruct R0 as (? & _ & L); exact L). rewrite L0.
  destruct (norm_loop_ok t [] s0 0 (S (Z.to_nat (zlen t))) R0 eq_refl ltac:(unfold zlen; lia)) as (s1 & E & R1). change (zlen (@nil Z)) with 0 in E. rewrite Z.add_0_l in E. rewrite E. clear E. cbn [app Z.eqb] in *. cbn [bind]. unfold normal. set (q := squeeze false t) in *. cbv zeta.
  assert (L1 : len s1 = zlen q) by (destruct R1 as (? & _ & L); exact L). rewrite L1. unfold DIR_SEP. destruct (Z.gtb_spec (zlen q) 1) as [G|G]; rewrite ?andb_true_r, ?andb_false_r.
  - unfold untrail. destruct (last q 0 =? 47) eqn:El.
    + assert (N : q <> []) by (intros Eq; rewrite Eq, zlen_nil in G; lia). destruct (exists_last N) as (a & x & Ea). rewrite Ea in *. destruct (delete_last_ok s1 a x R1) as (s2 & -> & R2). cbn [bind]. rewrite removelast_last. destruct (copy_ctor_ok s2 _ R2) as (s3 & -> & R3 & _). eauto.
    + cbn [bind]. destruct (copy_ctor_ok s1 _ R1) as (s3 & -> & R3 & _). eauto.
  - cbn [bind]. destruct (copy_ctor_ok s1 _ R1) as (s3 & -> & R3 & _). eauto.
Qed.
Lemma untrail_app a t : t <> [] -> untrail (a ++ t) = a ++ untrail t.
Proof.
  intros N. destruct (exists_last N) as (b & x & ->). unfold untrail. rewrite app_assoc, !last_last, !removelast_last. destruct (x =? 47); [reflexivity|]. now rewrite <- app_assoc.
Qed.
Lemma squeeze_comps t : (forall cur, cur <> [] -> last cur 0 <> 47 -> untrail (cur ++ squeeze false t) = joined 47 (tokens false (is_in [47]) cur t)) /\
  (components t = [] -> squeeze true t = []) /\ (components t <> [] -> untrail (squeeze true t) = joined 47 (components t) /\ squeeze true t <> []).
Proof.
  unfold components. induction t as [|c t (F & G1 & G2)].
  - split; [|split; [reflexivity|intros N; now destruct N]]. intros cur N L. cbn [squeeze tokens]. rewrite app_nil_r. unfold untrail. apply Z.eqb_neq in L. rewrite L. destruct cur; [contradiction|reflexivity].
  - assert (D : is_in [47] c = (c =? 47)) by (unfold is_in; cbn [existsb]; apply orb_false_r). split.
    + intros cur N L. cbn [squeeze andb tokens]. rewrite D. destruct (Z.eqb_spec c 47) as [->|Nc].
      * destruct cur as [|x cur]; [contradiction|]. cbn [app]. set (k := x :: cur) in *. change (untrail (k ++ 47 :: squeeze true t) = joined 47 (k :: tokens false (is_in [47]) [] t)). destruct (tokens false (is_in [47]) [] t) as [|y ys] eqn:T.
        -- rewrite G1 by reflexivity. cbn [joined]. rewrite untrail_app by discriminate. change (untrail [47]) with (@nil Z). apply app_nil_r.
        -- destruct (G2 ltac:(discriminate)) as [E NE]. change (joined 47 (k :: y :: ys)) with (k ++ 47 :: joined 47 (y :: ys)). rewrite <- E. change (47 :: squeeze true t) with ([47] ++ squeeze true t). rewrite app_assoc, untrail_app by exact NE. now rewrite <- app_assoc.
      * rewrite <- F; [now rewrite <- app_assoc|now destruct cur|now rewrite last_last].
    + cbn [tokens squeeze andb]. rewrite D. destruct (Z.eqb_spec c 47) as [->|Nc]; [cbn [app]; auto|]. cbn [app]. split.
      * intros E. exfalso. clear - E. assert (X : forall t cur, cur <> [] -> tokens false (is_in [47]) cur t <> []) by (induction t0 as [|d u IH]; intros cur N; cbn [tokens]; [destruct cur; [contradiction|discriminate]|]; destruct (is_in [47] d); [destruct cur; [contradiction|discriminate]|apply IH; now destruct cur]). apply (X t [c]); [discriminate|exact E].
      * intros _. split; [|discriminate]. rewrite <- F; [reflexivity|discriminate|exact Nc].
Qed.
Lemma normal_canonical t : normal t = canonical t.
Proof.
  destruct t as [|c t]; [reflexivity|]. unfold canonical, components. cbn [absolute]. unfold normal. cbn [squeeze andb tokens]. assert (D : is_in [47] c = (c =? 47)) by (unfold is_in; cbn [existsb]; apply orb_false_r). rewrite D. destruct (squeeze_comps t) as (F & G1 & G2). unfold components in *. destruct (Z.eqb_spec c 47) as [->|Nc]; cbn [app].
  - destruct (tokens false (is_in [47]) [] t) as [|y ys] eqn:T; [rewrite G1 by reflexivity; reflexivity|]. destruct (G2 ltac:(discriminate)) as [E NE]. rewrite <- E. destruct (squeeze true t) as [|a u] eqn:Es; [contradiction|]. rewrite !zlen_cons. pose proof (zlen_nonneg u). destruct (Z.gtb_spec (1 + (1 + zlen u)) 1); [|lia]. change (47 :: a :: u) with ([47] ++ a :: u). rewrite untrail_app by discriminate. reflexivity.
  - rewrite <- F by (try discriminate; exact Nc). cbn [app]. destruct (Z.gtb_spec (zlen (c :: squeeze false t)) 1) as [G|G]; [reflexivity|]. rewrite zlen_cons in G. assert (Z0 : squeeze false t = []) by (apply zlen_zero; pose proof (zlen_nonneg (squeeze false t)); lia). rewrite Z0. unfold untrail. cbn [last]. apply Z.eqb_neq in Nc. now rewrite Nc.
Qed.
Lemma normalize_ok s t : repr s t -> exists s', normalize s = Val s' /\ repr s' (canonical t).
Proof. intros R. rewrite <- normal_canonical. now apply normalize_sq. Qed.

(** * components *)
Notation sep47 := (is_in [47]) (only parsing).
Lemma sep47_eq c : is_in [47] c = (c =? 47).
Proof. unfold is_in. cbn [existsb]. apply orb_false_r. Qed.
Definition comp (x : list Z) : Prop := x <> [] /\ ~ In 47 x.
Lemma tokens_split a : forall cur b, tokens false (is_in [47]) cur (a ++ 47 :: b) = tokens false (is_in [47]) cur a ++ components b.
Proof.
  unfold components. induction a as [|c a IH]; intros cur b; cbn [app tokens].
  - rewrite sep47_eq, Z.eqb_refl. cbn [app]. reflexivity.
  - rewrite IH. destruct (is_in [47] c); [|apply IH]. now rewrite !app_assoc.
Qed.
Lemma comps_app a b : components (a ++ 47 :: b) = components a ++ components b.
Proof. apply tokens_split. Qed.
Lemma tokens_one x : forall cur, ~ In 47 x -> cur ++ x <> [] -> tokens false (is_in [47]) cur x = [cur ++ x].
Proof.
  induction x as [|c x IH]; intros cur N NE; cbn [tokens].
  - rewrite app_nil_r in *. now destruct cur.
  - rewrite sep47_eq. destruct (Z.eqb_spec c 47) as [->|Nc]; [exfalso; apply N; now left|]. rewrite IH; [now rewrite <- app_assoc|intros I; apply N; now right|destruct cur; discriminate].
Qed.
Lemma comps_one x : comp x -> components x = [x].
Proof. intros [NE N]. unfold components. now apply (tokens_one x []). Qed.
Lemma joined_comps cs : Forall comp cs -> components (joined 47 cs) = cs.
Proof.
  induction cs as [|x cs IH]; intros F; [reflexivity|]. apply Forall_cons_iff in F as [Fx F]. destruct cs as [|y cs]; [apply comps_one; exact Fx|].
  change (joined 47 (x :: y :: cs)) with (x ++ 47 :: joined 47 (y :: cs)). rewrite comps_app, comps_one by exact Fx. now rewrite IH.
Qed.
Lemma comps_comp_gen t : forall cur, ~ In 47 cur -> Forall comp (tokens false (is_in [47]) cur t).
Proof.
  induction t as [|c t IH]; intros cur N; cbn [tokens].
  - destruct cur; [constructor|]. constructor; [|constructor]. split; [discriminate|exact N].
  - rewrite sep47_eq. destruct (Z.eqb_spec c 47) as [->|Nc].
    + destruct cur; cbn [app]; [apply IH; intros []|]. constructor; [split; [discriminate|exact N]|]. apply IH. intros [].
    + apply IH. intros I. apply in_app_or in I as [I|[I|[]]]; [now apply N|now apply Nc].
Qed.
Lemma comps_comp t : Forall comp (components t).
Proof. apply comps_comp_gen. intros []. Qed.
Lemma comps_abs t : components (47 :: t) = components t.
Proof. unfold components. cbn [tokens]. rewrite sep47_eq, Z.eqb_refl. reflexivity. Qed.
Lemma canonical_comps t : components (canonical t) = components t.
Proof. unfold canonical. destruct (absolute t); cbn [app]; rewrite ?comps_abs; apply joined_comps, comps_comp. Qed.
Lemma joined_abs cs : Forall comp cs -> absolute (joined 47 cs) = false.
Proof.
  intros F. destruct cs as [|x cs]; [reflexivity|]. apply Forall_cons_iff in F as [[NE N] _]. destruct x as [|c x]; [contradiction|].
  assert (Nc : c =? 47 = false) by (apply Z.eqb_neq; intros ->; apply N; now left). destruct cs; exact Nc.
Qed.
Lemma canonical_abs t : absolute (canonical t) = absolute t.
Proof. unfold canonical. destruct (absolute t) eqn:A; [reflexivity|]. cbn [app]. apply joined_abs, comps_comp. Qed.
Lemma canonical_idem t : canonical (canonical t) = canonical t.
Proof. unfold canonical at 1. now rewrite canonical_comps, canonical_abs. Qed.
Lemma joined_snoc cs x : cs <> [] -> joined 47 (cs ++ [x]) = joined 47 cs ++ 47 :: x.
Proof.
  induction cs as [|y cs IH]; intros N; [contradiction|]. destruct cs as [|z cs]; [reflexivity|].
  change (joined 47 ((y :: z :: cs) ++ [x])) with (y ++ 47 :: joined 47 ((z :: cs) ++ [x])). rewrite IH by discriminate. change (joined 47 (y :: z :: cs)) with (y ++ 47 :: joined 47 (z :: cs)). now rewrite <- app_assoc.
Qed.
Lemma joined_app cs ds : cs <> [] -> ds <> [] -> joined 47 (cs ++ ds) = joined 47 cs ++ 47 :: joined 47 ds.
Proof.
  intros N M. induction cs as [|y cs IH]; [contradiction|]. destruct cs as [|z cs]; [destruct ds; [contradiction|reflexivity]|].
  change (joined 47 ((y :: z :: cs) ++ ds)) with (y ++ 47 :: joined 47 ((z :: cs) ++ ds)). rewrite IH by discriminate. change (joined 47 (y :: z :: cs)) with (y ++ 47 :: joined 47 (z :: cs)). now rewrite <- app_assoc.
Qed.
Lemma joined_nil cs : Forall comp cs -> joined 47 cs = [] -> cs = [].
Proof. destruct cs as [|x cs]; [reflexivity|]. intros F. apply Forall_cons_iff in F as [[NE _] _]. destruct x; [contradiction|]. destruct cs; discriminate. Qed.
Lemma absolute_app p c : absolute (p ++ 47 :: c) = match p with [] => true | _ => absolute p end.
Proof. destruct p; reflexivity. Qed.
(** the three shapes of a canonical name *)
Lemma canonical_shape t : canonical t = [] /\ t = [] \/ canonical t = [47] /\ absolute t = true /\ components t = [] \/ components t <> [] /\ t <> [].
Proof.
  unfold canonical. destruct t as [|c t]; [left; split; reflexivity|right]. destruct (components (c :: t)) as [|x cs] eqn:E; [|right; split; discriminate]. left.
  cbn [absolute]. destruct (Z.eqb_spec c 47) as [->|Nc]; [auto|]. exfalso. unfold components in E. cbn [tokens] in E. rewrite sep47_eq in E. apply Z.eqb_neq in Nc. rewrite Nc in E. cbn [app] in E.
  assert (X : forall t cur, cur <> [] -> tokens false (is_in [47]) cur t <> []) by (induction t0 as [|d u IH]; intros cur N; cbn [tokens]; [destruct cur; [contradiction|discriminate]|]; destruct (is_in [47] d); [destruct cur; [contradiction|discriminate]|apply IH; now destruct cur]). apply (X t [c]); [discriminate|exact E].
Qed.

(** * constructing from two names *)
Lemma plus_ok a ta b tb : repr a ta -> repr b tb -> exists s, plus a b = Val s /\ repr s (ta ++ tb).
Proof. intros A B. unfold plus. destruct (copy_ctor_ok a ta A) as (x & -> & X & _). cbn [bind]. now apply append_ok. Qed.
Lemma teq_spec a b : teq a b = true <-> a = b.
Proof. unfold teq. destruct (list_eq_dec Z.eq_dec a b); split; congruence. Qed.
Lemma repr_len s t : repr s t -> len s = zlen t.
Proof. intros (? & _ & L). exact L. Qed.
Lemma resolve_ok p tp c tc : repr p (canonical tp) -> repr c (canonical tc) -> zlen (canonical tp) < 2 ^ 32 -> components tc <> [] ->
  exists s, resolve p c = Val s /\ repr s (canonical (tp ++ 47 :: tc)).
Proof.
  intros P C L N. unfold resolve. destruct (append_char_ok str_new [] DIR_SEP str_new_repr) as (sp & -> & S & _). cbn [bind app] in *. change DIR_SEP with 47 in *.
  assert (Nc : canonical tc <> []) by (intros E; apply N; rewrite <- canonical_comps, E; reflexivity). rewrite (repr_len _ _ P), (repr_len _ _ C).
  assert (Lc : 0 < zlen (canonical tc)) by (destruct (canonical tc); [contradiction|rewrite zlen_cons; pose proof (zlen_nonneg l); lia]). destruct (Z.ltb_spec (zlen (canonical tc)) 1); [lia|]. rewrite andb_false_r.
  rewrite (char_at_ok c _ 0 C), (equals_teq p _ sp _ P S L). assert (G : canonical (tp ++ 47 :: tc) = (if match tp with [] => true | _ => absolute tp end then [47] else []) ++ joined 47 (components tp ++ components tc)) by (unfold canonical; now rewrite comps_app, absolute_app). rewrite G. clear G.
  assert (J : joined 47 (components tc) <> []) by (intros E; apply joined_nil in E; [contradiction|apply comps_comp]). pose proof (joined_abs _ (comps_comp tc)) as JA.
  destruct (canonical_shape tp) as [[Ep ->]|[(Ep & Ap & Cp)|[Cp Np]]].
  - rewrite Ep in *. change (components []) with (@nil (list Z)). cbn [app]. unfold canonical in *. destruct (absolute tc) eqn:A; cbn [app] in *.
    + change (lget (47 :: joined 47 (components tc)) 0) with (Some 47). cbn [bind Z.eqb Pos.eqb]. cbn [teq]. unfold teq. destruct (list_eq_dec Z.eq_dec [] [47]); [discriminate|]. cbn [bind]. destruct (plus_ok p _ c _ P C) as (s & -> & R). eauto.
    + destruct (joined 47 (components tc)) as [|a u] eqn:Ej; [contradiction|]. change (lget (a :: u) 0) with (Some a). cbn [bind absolute] in *. rewrite JA. unfold teq. destruct (list_eq_dec Z.eq_dec [] [47]); [discriminate|]. cbn [bind]. destruct (plus_ok p _ sp _ P S) as (x & -> & X). cbn [bind]. destruct (plus_ok x _ c _ X C) as (s & -> & R). eauto.
  - rewrite Ep in *. rewrite Cp. assert (Nt : tp <> []) by (intros ->; discriminate). destruct tp as [|z tp]; [contradiction|]. rewrite Ap. cbn [app]. unfold canonical in *. destruct (absolute tc) eqn:A; cbn [app] in *.
    + change (lget (47 :: joined 47 (components tc)) 0) with (Some 47). cbn [bind Z.eqb Pos.eqb]. replace (teq [47] [47]) with true by (symmetry; now apply teq_spec). cbn [bind]. destruct (copy_ctor_ok c _ C) as (s & -> & R & _). eauto.
    + destruct (joined 47 (components tc)) as [|a u] eqn:Ej; [contradiction|]. change (lget (a :: u) 0) with (Some a). cbn [bind absolute] in *. rewrite JA. replace (teq [47] [47]) with true by (symmetry; now apply teq_spec). cbn [bind]. destruct (plus_ok p _ c _ P C) as (s & -> & R). eauto.
  - destruct tp as [|z tp]; [contradiction|]. assert (T : teq (canonical (z :: tp)) [47] = false). { unfold teq. destruct (list_eq_dec Z.eq_dec (canonical (z :: tp)) [47]) as [E|]; [|reflexivity]. exfalso. apply Cp. rewrite <- canonical_comps, E. reflexivity. }
    rewrite T. rewrite joined_app by assumption. replace ((if absolute (z :: tp) then [47] else []) ++ joined 47 (components (z :: tp)) ++ 47 :: joined 47 (components tc)) with (canonical (z :: tp) ++ 47 :: joined 47 (components tc)) by (unfold canonical; now rewrite <- app_assoc). set (K := canonical (z :: tp)) in *. clearbody K. unfold canonical in *. destruct (absolute tc) eqn:A; cbn [app] in *.
    + change (lget (47 :: joined 47 (components tc)) 0) with (Some 47). cbn [bind Z.eqb Pos.eqb]. destruct (plus_ok p _ c _ P C) as (s & -> & R). eauto.
    + destruct (joined 47 (components tc)) as [|a u] eqn:Ej; [contradiction|]. change (lget (a :: u) 0) with (Some a). cbn [bind absolute] in *. rewrite JA. destruct (plus_ok p _ sp _ P S) as (x & -> & X). cbn [bind]. destruct (plus_ok x _ c _ X C) as (s & -> & R). rewrite <- app_assoc in R. eauto.
Qed.
Lemma last_index_ok s c a b : repr s (a ++ c :: b) -> ~ In c b -> last_index_of_char s c = Val (zlen a).
Proof.
  intros R N. unfold last_index_of_char. rewrite (repr_len _ _ R). pose proof (zlen_nonneg a). pose proof (zlen_nonneg b). pose proof (last_index_char_ok s _ c (zlen (a ++ c :: b) - 1) R) as H1. rewrite zlen_app, zlen_cons in *. destruct (Z.geb_spec (zlen a + (1 + zlen b) - 1) (zlen a + (1 + zlen b))); [lia|]. destruct H1 as (r & E & H1). rewrite E. f_equal. unfold last_at in H1.
  destruct H1 as [(Hr & Pr & No)|(-> & No)].
  - destruct (Z.lt_trichotomy r (zlen a)) as [L|[L|L]]; [exfalso|exact L|exfalso].
    + apply (No (zlen a)); [lia|apply lget_mid].
    + apply N. replace (a ++ c :: b) with ((a ++ [c]) ++ b) in Pr by (now rewrite <- app_assoc). rewrite lget_app_r in Pr by (rewrite zlen_app, zlen_cons, zlen_nil; lia). apply lget_In in Pr. exact Pr.
  - exfalso. apply (No (zlen a)); [lia|apply lget_mid].
Qed.
Lemma last_index_none s c t : repr s t -> ~ In c t -> last_index_of_char s c = Val (-1).
Proof.
  intros R N. unfold last_index_of_char. rewrite (repr_len _ _ R). pose proof (zlen_nonneg t). pose proof (last_index_char_ok s _ c (zlen t - 1) R) as H1. destruct (Z.geb_spec (zlen t - 1) (zlen t)); [lia|]. destruct H1 as (r & E & [(_ & P & _)|(-> & _)]); [|exact E]. exfalso. apply N. apply lget_In in P. exact P.
Qed.
