(** P_Locale.v -- C136: the language of the program and the file its translations are looked for in. *)
From Verif Require Import Base M_String S_String L_String L_String2 L_String3 M_DiffInfo M_Locale S_Locale.
Import Coq.Strings.String.StringSyntax.
Local Open Scope string_scope.
Lemma first_upto c t r : first_at (fun i => lget t i = Some c) 0 (zlen t) r -> (r = -1 /\ upto c t = t) \/ (0 <= r /\ ztake r t = upto c t).
Proof.
  revert r. induction t as [|x t IH]; intros r H.
  - left. destruct H as [((A & B) & _)|[E _]]; [change (zlen []) with 0 in B; lia|auto].
  - rewrite zlen_cons in H. pose proof (zlen_nonneg t) as N. cbn [upto]. destruct (Z.eqb_spec x c) as [->|D].
    + right. destruct H as [(A & B & F)|[_ F]]; [|exfalso; apply (F 0); [lia|reflexivity]]. destruct (Z.eq_dec r 0) as [->|P]; [split; [lia|reflexivity]|]. exfalso. apply (F 0); [lia|reflexivity].
    + assert (SH : forall i, 0 <= i -> lget (x :: t) (i + 1) = lget t i) by (intros i I; rewrite lget_cons_S by lia; f_equal; lia).
      destruct H as [(A & B & F)|[E F]].
      * assert (r <> 0) by (intros ->; cbn in B; congruence). destruct (IH (r - 1)) as [[E _]|[G E]]; [|lia|].
        { left. split; [lia|]. split; [rewrite <- SH by lia; now replace (r - 1 + 1) with r by lia|]. intros j J. rewrite <- SH by lia. apply F. lia. }
        right. split; [lia|]. unfold ztake in *. replace (Z.to_nat r) with (S (Z.to_nat (r - 1))) by lia. cbn [firstn]. now rewrite E.
      * left. split; [exact E|]. f_equal. destruct (IH (-1)) as [[_ G]|[G _]]; [|exact G|lia]. right. split; [reflexivity|]. intros j J. rewrite <- SH by lia. apply F. lia.
Qed.
Lemma upto_nil c t : upto c t = [] -> t = [] \/ exists r, t = c :: r.
Proof. destruct t as [|x t]; [auto|]. cbn. destruct (Z.eqb_spec x c) as [->|]; [eauto|discriminate]. Qed.
(** the pattern of both callers: cut at the first c unless it is the first character *)
Lemma cut_ok s t c : repr s t -> exists r, index_of_char s c 0 = Val r /\
  exists s', (if r >? 0 then let* x := substring s 0 r in assign s x else Val s) = Val s' /\ repr s' (head_of c t).
Proof.
  intros R. destruct (index_of_char_ok s t c 0 R) as (r & E & F). exists r. split; [exact E|]. change (Z.max 0 0) with 0 in F. pose proof (first_upto _ _ _ F) as U. rewrite Z.gtb_ltb. destruct (Z.ltb_spec 0 r) as [P|P].
  - destruct (substring_ok s t 0 r R) as (x & -> & Rx & _). cbn [bind]. destruct (assign_ok s x _ Rx) as (s' & -> & Rs & _). exists s'. split; [reflexivity|].
    destruct U as [[U _]|[_ U]]; [lia|]. assert (L : r < zlen t) by (destruct F as [(F & _)|[F _]]; lia). revert Rs. rewrite Z.max_id. replace (Z.min (zlen t) (Z.max 0 r) - 0) with r by lia. change (zdrop 0 t) with t. rewrite U.
    unfold head_of. destruct (upto c t) eqn:Q; [|auto]. exfalso. assert (Z0 : zlen (ztake r t) = 0) by now rewrite U. rewrite zlen_ztake in Z0; lia.
  - exists s. split; [reflexivity|]. replace (head_of c t) with t; [exact R|]. unfold head_of. destruct (upto c t) eqn:Q; [reflexivity|]. destruct U as [[_ U]|[U1 U]]; [congruence|]. assert (r = 0) by lia. subst r. discriminate.
Qed.
Lemma language_of_ok name : exists s, language_of name = Val s /\ repr s (without_codeset name).
Proof. unfold language_of. cbv zeta. destruct (cut_ok (str_of name) name 46 (str_of_repr _)) as (r & -> & s & E & R). cbn [bind]. eauto. Qed.
Lemma without_region_ok s t : repr s t -> exists s', without_region s = Val s' /\ repr s' (base_language t).
Proof. intros R. unfold without_region. destruct (cut_ok s t 95 R) as (r & E & s' & E2 & R2). rewrite E. cbn [bind]. exists s'. split; [|exact R2]. rewrite <- E2. destruct (r >? 0); reflexivity. Qed.
Lemma plus_ok a b s t : repr a s -> repr b t -> exists x, plus a b = Val x /\ repr x (s ++ t).
Proof. intros A B. unfold plus. destruct (copy_ctor_ok a s A) as (x & -> & X & _). cbn [bind]. apply append_ok; auto. Qed.
Lemma upto_no c t : ~ In c (upto c t).
Proof. induction t as [|x t IH]; cbn; [tauto|]. destruct (Z.eqb_spec x c) as [|D]; cbn; [tauto|]. intros [H|H]; auto. Qed.
Lemma upto_id c t : ~ In c t -> upto c t = t.
Proof. induction t as [|x t IH]; cbn; [reflexivity|]. intros N. destruct (Z.eqb_spec x c) as [->|D]; [tauto|]. f_equal. tauto. Qed.
Lemma head_of_twice c t : head_of c (head_of c t) = head_of c t.
Proof. unfold head_of. destruct (upto c t) as [|x r] eqn:E; [now rewrite E|]. rewrite <- E, upto_id by apply upto_no. rewrite E. reflexivity. Qed.
Lemma path_long_ok d f l dt ft lt : repr d dt -> repr f ft -> repr l lt -> exists s, path_long d f l = Val s /\ repr s (dt ++ ft ++ lit_ "." ++ lt ++ lit_ ".mo").
Proof.
  intros D F L. unfold path_long. destruct (plus_ok _ _ _ _ D F) as (a & -> & A). cbn [bind]. destruct (plus_ok _ _ _ _ A (str_of_repr (lit_ "."))) as (b & -> & B). cbn [bind]. destruct (plus_ok _ _ _ _ B L) as (c & -> & C). cbn [bind].
  destruct (plus_ok _ _ _ _ C (str_of_repr (lit_ ".mo"))) as (e & -> & X). exists e. split; [reflexivity|]. now rewrite <- !app_assoc in X.
Qed.
Lemma path_short_ok d l dt lt : repr d dt -> repr l lt -> exists s, path_short d l = Val s /\ repr s (dt ++ lt ++ lit_ ".mo").
Proof. intros D L. unfold path_short. destruct (plus_ok _ _ _ _ D L) as (a & -> & A). cbn [bind]. destruct (plus_ok _ _ _ _ A (str_of_repr (lit_ ".mo"))) as (b & -> & B). exists b. split; [reflexivity|]. now rewrite <- !app_assoc in B. Qed.
Lemma text_of s t : repr s t -> ztake (len s) (buf s) = t. Proof. intros R. exact (proj1 (repr_text _ _ R)). Qed.
Lemma file_ok found env ins f l ft lt : repr f ft -> repr l lt ->
  exists r, trans_file found env ins f l = Val r /\ map text r = until found (candidates ft (underscores (match lt with [] => without_codeset (locale_name env ins) | _ => lt end))).
Proof.
  intros F L. unfold trans_file. cbv zeta. destruct (copy_ctor_ok l lt L) as (l0 & -> & L0 & _). cbn [bind].
  assert (exists l1, (if len l0 =? 0 then let* x := language env ins in assign l0 x else Val l0) = Val l1 /\ repr l1 (match lt with [] => without_codeset (locale_name env ins) | _ => lt end)) as (l1 & -> & L1).
  { destruct L0 as (j & E & N). rewrite N. destruct lt as [|c lt].
    - change (zlen [] =? 0) with true. cbv iota. unfold language. destruct (language_of_ok (locale_name env ins)) as (x & -> & X). cbn [bind]. destruct (assign_ok l0 x _ X) as (y & -> & Y & _). eauto.
    - rewrite zlen_cons. pose proof (zlen_nonneg lt). destruct (Z.eqb_spec (1 + zlen lt) 0); [lia|]. exists l0. split; [reflexivity|]. exists j. auto. }
  cbn [bind]. set (lx := match lt with [] => _ | _ => _ end) in *. clearbody lx. unfold replace_char. destruct (map_str_ok (fun c => if c =? 45 then 95 else c) l1 lx L1) as (x & -> & X & _). cbn [bind]. destruct (assign_ok l1 x _ X) as (l2 & -> & L2 & _). cbn [bind]. change (map _ lx) with (underscores lx) in L2.
  set (n := underscores lx) in *. clearbody n. destruct (append_char (str_of (lit_ "translations")) 47) as [dir| | |] eqn:ED; [|vm_compute in ED; discriminate..].
  assert (D : repr dir (lit_ "translations/")). { vm_compute in ED. injection ED as <-. exists [0;0;0]. split; reflexivity. }
  cbn [bind]. unfold candidates, until.
  destruct (path_long_ok _ _ _ _ _ _ D F L2) as (c1 & -> & C1). cbn [bind]. rewrite (text_of _ _ C1). destruct (found _); [exists [c1]; cbn; unfold text; now rewrite (text_of _ _ C1)|].
  destruct (path_short_ok _ _ _ _ D L2) as (c2 & -> & C2). cbn [bind]. rewrite (text_of _ _ C2). destruct (found (_ ++ n ++ _)); [exists [c1; c2]; cbn; unfold text; now rewrite (text_of _ _ C1), (text_of _ _ C2)|].
  destruct (without_region_ok _ _ L2) as (l3 & -> & L3). cbn [bind]. destruct (path_long_ok _ _ _ _ _ _ D F L3) as (c3 & -> & C3). cbn [bind]. rewrite (text_of _ _ C3). destruct (found _); [exists [c1; c2; c3]; cbn; unfold text; now rewrite (text_of _ _ C1), (text_of _ _ C2), (text_of _ _ C3)|].
  destruct (without_region_ok _ _ L3) as (l4 & -> & L4). cbn [bind]. unfold base_language in L4. rewrite head_of_twice in L4. destruct (path_short_ok _ _ _ _ D L4) as (c4 & -> & C4). cbn [bind]. exists [c1; c2; c3; c4]. split; [reflexivity|].
  cbn [map]. unfold text. rewrite (text_of _ _ C1), (text_of _ _ C2), (text_of _ _ C3), (text_of _ _ C4). destruct (found _); reflexivity.
Qed.
(** The search: the files that are looked for, and the one that is used (the last of them), for any file name, language and set of files. *)
Theorem C136_search : forall found env installed filename lang, sound filename -> sound lang -> text lang <> [] ->
  exists r, trans_file found env installed filename lang = Val r /\ map text r = until found (candidates (text filename) (underscores (text lang))).
Proof.
  intros found env ins f l F L N. apply sound_repr in F, L. destruct (file_ok found env ins f l _ _ F L) as (r & E & T). exists r. split; [exact E|]. rewrite T. destruct (text l); [congruence|reflexivity].
Qed.
Print Assumptions C136_search.
(** The environment: LC_ALL is n, or it is not set, no category has a variable of its own and LANG is n *)
Definition one_locale (env : list Z -> list Z) (n : list Z) : Prop := n <> [] /\ (env (lit_ "LC_ALL") = n \/ env (lit_ "LC_ALL") = [] /\ (forall c, In c CATEGORIES -> env c = []) /\ env (lit_ "LANG") = n).
Lemma one_locale_category env n c : one_locale env n -> In c CATEGORIES -> category env c = n.
Proof. intros (N & H) I. unfold category. destruct H as [->|(-> & A & B)]; [destruct n; congruence|]. rewrite (A c I), B. destruct n; congruence. Qed.
Lemma all_same ns n : ns <> [] -> (forall m, In m ns -> m = n) -> all_name ns = n.
Proof.
  intros N A. destruct ns as [|m r]; [congruence|]. cbn [all_name]. assert (m = n) by (apply A; now left). subst m. replace (forallb _ r) with true; [reflexivity|]. symmetry. apply forallb_forall. intros x I. destruct (list_eq_dec Z.eq_dec x n); [reflexivity|]. exfalso. apply n0, A. now right.
Qed.
Lemma one_locale_name env ins n : one_locale env n -> locale_name env ins = if ins n then n else lit_ "C".
Proof.
  intros H. unfold locale_name. cbv zeta. assert (A : forall m, In m (map (category env) CATEGORIES) -> m = n) by (intros m I; apply in_map_iff in I as (c & <- & I); eapply one_locale_category; eauto).
  replace (forallb ins (map (category env) CATEGORIES)) with (ins n).
  - destruct (ins n); [|reflexivity]. apply all_same; [discriminate|exact A].
  - destruct (ins n) eqn:E; symmetry.
    + apply forallb_forall. intros m I. now rewrite (A m I).
    + cbn [map CATEGORIES forallb]. rewrite (A (category env (lit_ "LC_CTYPE"))) by (cbn; auto). now rewrite E.
Qed.
(** The language: with one locale for everything, the name without the character set; "C" if the locale is not installed. *)
Theorem C136_language : forall env installed n, one_locale env n ->
  exists s, language env installed = Val s /\ sound s /\ text s = if installed n then without_codeset n else lit_ "C".
Proof.
  intros env ins n H. unfold language. rewrite (one_locale_name env ins n H). destruct (language_of_ok (if ins n then n else lit_ "C")) as (s & E & R). apply repr_text in R as [T S]. exists s. split; [exact E|]. split; [exact S|]. rewrite T. destruct (ins n); reflexivity.
Qed.
Print Assumptions C136_language.
Lemma init_ok found env ins b : b <> [] -> exists r, init_default found env ins b = Val r /\ map text r = until found (candidates [] (underscores (without_codeset (locale_name env ins)))).
Proof.
  intros B. unfold init_default, language. destruct (language_of_ok (locale_name env ins)) as (s & E & R). rewrite E. cbn [bind]. destruct b; [congruence|].
  destruct (file_ok found env ins (str_of []) s [] _ (str_of_repr _) R) as (r & E2 & T). exists r. split; [exact E2|]. rewrite T. destruct (without_codeset _); reflexivity.
Qed.
(** The translations of the program: a user whose locale is, for instance, de_DE.UTF-8 gets the first file that is there of those of de_DE and of de. *)
Lemma upto_app c a b : ~ In c a -> upto c (a ++ c :: b) = a.
Proof. induction a as [|x a IH]; intros N; cbn; [now rewrite Z.eqb_refl|]. destruct (Z.eqb_spec x c) as [->|D]; [exfalso; apply N; now left|]. f_equal. apply IH. intros I. apply N. now right. Qed.
Lemma head_app c a b : a <> [] -> ~ In c a -> head_of c (a ++ c :: b) = a.
Proof. intros N I. unfold head_of. rewrite upto_app by exact I. destruct a; congruence. Qed.
Lemma underscores_id l : ~ In 45 l -> underscores l = l.
Proof. intros N. induction l as [|x l IH]; [reflexivity|]. cbn. destruct (Z.eqb_spec x 45) as [->|D]; [exfalso; apply N; now left|]. f_equal. apply IH. intros I. apply N. now right. Qed.
Theorem C136_user_language : forall found env installed bundle l r codeset,
  one_locale env (l ++ lit_ "_" ++ r ++ lit_ "." ++ codeset) -> installed (l ++ lit_ "_" ++ r ++ lit_ "." ++ codeset) = true ->
  l <> [] -> ~ In 45 (l ++ r) -> ~ In 46 (l ++ r) -> ~ In 95 l -> bundle <> [] ->
  exists p, init_default found env installed bundle = Val p /\
    map text p = until found [lit_ "translations/." ++ l ++ lit_ "_" ++ r ++ lit_ ".mo"; lit_ "translations/" ++ l ++ lit_ "_" ++ r ++ lit_ ".mo";
                              lit_ "translations/." ++ l ++ lit_ ".mo"; lit_ "translations/" ++ l ++ lit_ ".mo"].
Proof.
  intros found env ins b l r cs H I L D1 D2 U B. destruct (init_ok found env ins b B) as (p & E & T). exists p. split; [exact E|]. rewrite T, (one_locale_name env ins _ H), I.
  assert (W : without_codeset (l ++ lit_ "_" ++ r ++ lit_ "." ++ cs) = l ++ lit_ "_" ++ r).
  { replace (l ++ lit_ "_" ++ r ++ lit_ "." ++ cs) with ((l ++ lit_ "_" ++ r) ++ 46 :: cs) by (rewrite <- !app_assoc; reflexivity). apply head_app; [destruct l; discriminate|]. revert D2. clear. rewrite !in_app_iff. cbn. intuition lia. }
  rewrite W. rewrite underscores_id by (revert D1; clear; rewrite !in_app_iff; cbn; intuition lia). unfold candidates, base_language. change (lit_ "_" ++ r) with (95 :: r). rewrite head_app by auto. rewrite <- !app_assoc. reflexivity.
Qed.
Print Assumptions C136_user_language.
(** the separator may also be a minus: both forms look for the same files *)
Theorem C136_minus : forall found env installed filename a b, sound filename -> sound a -> sound b -> text a <> [] -> underscores (text a) = underscores (text b) ->
  exists r r', trans_file found env installed filename a = Val r /\ trans_file found env installed filename b = Val r' /\ map text r = map text r'.
Proof.
  intros found env ins f a b F A B N E. destruct (C136_search found env ins f a F A N) as (r & R & T). assert (N2 : text b <> []) by (intros X; rewrite X in E; destruct (text a); [congruence|discriminate]).
  destruct (C136_search found env ins f b F B N2) as (r' & R' & T'). exists r, r'. split; [exact R|]. split; [exact R'|]. now rewrite T, T', E.
Qed.
Print Assumptions C136_minus.
(** without a bundle id nothing is looked for *)
Theorem C136_no_bundle : forall found env installed, exists s, language env installed = Val s /\ init_default found env installed [] = Val [].
Proof. intros found env ins. unfold init_default, language. destruct (language_of_ok (locale_name env ins)) as (s & -> & _). eauto. Qed.
Print Assumptions C136_no_bundle.
(** ** what does not hold *)
(** As soon as two categories have different locales (LANG=en_US.UTF-8 with LC_TIME=de_DE.UTF-8, say), the C library answers with the list of all of them: the "language" begins with "LC_CTYPE=", and whatever
    languages the user chose, the files looked for after those with that long name are those of a language "LC". *)
Lemma mixed_name env ins c1 c2 : In c1 CATEGORIES -> In c2 CATEGORIES -> category env c1 <> category env c2 -> (forall c, In c CATEGORIES -> ins (category env c) = true) ->
  exists x, locale_name env ins = lit_ "LC_CTYPE=" ++ x.
Proof.
  intros I1 I2 D A. unfold locale_name. cbv zeta. replace (forallb ins _) with true; [|symmetry; apply forallb_forall; intros m I; apply in_map_iff in I as (c & <- & I); auto].
  assert (I1' : In (category env c1) (map (category env) CATEGORIES)) by now apply in_map. assert (I2' : In (category env c2) (map (category env) CATEGORIES)) by now apply in_map.
  set (ns := map (category env) CATEGORIES) in *. assert (L : length ns = 12%nat) by reflexivity. destruct ns as [|n r]; [discriminate|]. cbn [all_name]. destruct (forallb _ r) eqn:F.
  - exfalso. rewrite forallb_forall in F. assert (S : forall m, In m (n :: r) -> m = n) by (intros m [->|I]; [reflexivity|]; specialize (F m I); destruct (list_eq_dec Z.eq_dec m n); [auto|discriminate]). apply D. now rewrite (S _ I1'), (S _ I2').
  - destruct r as [|n2 r]; [discriminate|]. unfold CATEGORIES, composite. fold composite. eexists. cbn [lit_ app]. reflexivity.
Qed.
Theorem C136_mixed_locales_refuted : forall env installed c1 c2 bundle, In c1 CATEGORIES -> In c2 CATEGORIES -> category env c1 <> category env c2 -> (forall c, In c CATEGORIES -> installed (category env c) = true) -> bundle <> [] ->
  exists s x, language env installed = Val s /\ text s = lit_ "LC_CTYPE=" ++ x /\
  exists p y, init_default (fun _ => false) env installed bundle = Val p /\
    map text p = [lit_ "translations/.LC_CTYPE=" ++ y; lit_ "translations/LC_CTYPE=" ++ y; lit_ "translations/.LC.mo"; lit_ "translations/LC.mo"].
Proof.
  intros env ins c1 c2 b I1 I2 D A B. destruct (mixed_name env ins c1 c2 I1 I2 D A) as (x & X). destruct (init_ok (fun _ => false) env ins b B) as (p & E & T). unfold language. destruct (language_of_ok (locale_name env ins)) as (s & Es & R). apply repr_text in R as [Ts _].
  assert (W : without_codeset (locale_name env ins) = lit_ "LC_CTYPE=" ++ upto 46 x). { rewrite X. reflexivity. }
  exists s, (upto 46 x). split; [exact Es|]. split; [now rewrite Ts|]. exists p, (underscores (upto 46 x) ++ lit_ ".mo"). split; [exact E|]. rewrite T, W. reflexivity.
Qed.
Print Assumptions C136_mixed_locales_refuted.
(** the file name before the first dot is empty (initDefault passes kEmptyString): the bundle id makes no difference, a file <bundle id>.de_DE.mo is never looked for *)
Theorem C136_bundle_refuted : forall found env installed b b', b <> [] -> b' <> [] -> init_default found env installed b = init_default found env installed b'.
Proof. intros found env ins b b' B B'. unfold init_default. destruct b, b'; congruence. Qed.
Print Assumptions C136_bundle_refuted.
(** a modifier without a region hides the language: de@euro does not find translations/de.mo *)
Theorem C136_modifier_refuted : forall env installed bundle, one_locale env (lit_ "de@euro") -> installed (lit_ "de@euro") = true -> bundle <> [] ->
  exists p, init_default (fun f => if list_eq_dec Z.eq_dec f (lit_ "translations/de.mo") then true else false) env installed bundle = Val p /\
    map text p = [lit_ "translations/.de@euro.mo"; lit_ "translations/de@euro.mo"; lit_ "translations/.de@euro.mo"; lit_ "translations/de@euro.mo"].
Proof.
  intros env ins b H I B. destruct (init_ok (fun f => if list_eq_dec Z.eq_dec f (lit_ "translations/de.mo") then true else false) env ins b B) as (p & E & T). exists p. split; [exact E|]. rewrite T, (one_locale_name env ins _ H), I. vm_compute. reflexivity.
Qed.
Print Assumptions C136_modifier_refuted.
(** concrete environments *)
Definition german (v : list Z) : list Z := if list_eq_dec Z.eq_dec v (lit_ "LANG") then lit_ "de_DE.UTF-8" else [].
Example C136_german_ex : one_locale german (lit_ "de_DE.UTF-8") /\
  exists p, init_default (fun f => if list_eq_dec Z.eq_dec f (lit_ "translations/de.mo") then true else false) german (fun _ => true) (lit_ "app") = Val p /\
    map text p = [lit_ "translations/.de_DE.mo"; lit_ "translations/de_DE.mo"; lit_ "translations/.de.mo"; lit_ "translations/de.mo"].
Proof.
  split; [split; [discriminate|]; right; split; [reflexivity|]; split; [|reflexivity]; intros c I; cbn in I; repeat (destruct I as [<-|I]; [reflexivity|]); destruct I|].
  eexists. split; [vm_compute; reflexivity|]. vm_compute. reflexivity.
Qed.
Definition english_with_german_dates (v : list Z) : list Z := if list_eq_dec Z.eq_dec v (lit_ "LANG") then lit_ "en_US.UTF-8" else if list_eq_dec Z.eq_dec v (lit_ "LC_TIME") then lit_ "de_DE.UTF-8" else [].
Example C136_mixed_ex : exists s, language english_with_german_dates (fun _ => true) = Val s /\ text s = lit_ "LC_CTYPE=en_US".
Proof. eexists. split; [vm_compute; reflexivity|]. vm_compute. reflexivity. Qed.
