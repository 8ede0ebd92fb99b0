(** P_Xml.v -- XMLWriter and SAXParser (C44-C46, C61). *)
From Coq Require Import Ascii String.
From Verif Require Import Base M_Base64 S_Base64 M_String M_Tokenizer S_String M_Xml S_Xml L_Xml L_Xml2 L_Xml3 L_Xml4 L_Xml5.
Open Scope list_scope.
Lemma calls_bytes h : Forall call_ok h -> Forall bytes_ok h.
Proof. apply Forall_impl. intros [| |n| |t enc|d|n v] H; try exact I. exact H. Qed.
(** C45: what a history of calls writes, when all elements are closed at the end: the document, well nested; its elements are the started ones in order, each with the
    attributes written directly after its start, all other attributes being ignored *)
Theorem C45_document : forall h, Forall bytes_ok h -> closed h ->
  exists w, write_document h = Val w /\ w_out w = prolog ++ flat_map show (document h) /\ forest (document h) /\ opened (document h) = started h.
Proof.
  intros h Hb Hc. destruct (run_calls h Hb) as [A _]. destruct (A prolog [] 0 false (depth_shut h O false Hc ltac:(discriminate))) as (w & E & O). exists w. split; [exact E|]. split; [exact O|]. split; [now apply document_forest|apply document_opened].
Qed.
(** C45: the text of the calls is in the document, in order; with indentation switched off there is no other text *)
Definition item_text (i : item) : list Z := match i with IText t => kept t | IRaw t => t | _ => [] end.
Definition gtext (g : gcall) : list Z := match g with GText t => kept t | GRaw t => t | GBase64 d => rfc_encode d | _ => [] end.
Lemma group_text h : flat_map gtext (group h) = flat_map call_text h.
Proof. induction h as [|[| |n| |t []|b|n v] h IH]; cbn [group flat_map gtext call_text app]; auto; now rewrite IH. Qed.
Definition no_indent (h : list call) : Prop := ~ In CStartIndent h.
Lemma group_no_indent h : no_indent h -> Forall (fun g => g <> GIndent) (group h).
Proof.
  unfold no_indent. induction h as [|c h IH]; intros H; [constructor|]. assert (H' : ~ In CStartIndent h) by (intros X; apply H; now right). specialize (IH H'). destruct c as [| |n| |t []|b|n v]; cbn [group]; first [exfalso; apply H; now left | constructor; [discriminate|exact IH] | exact IH].
Qed.
Lemma items_text k : forall g st ind fresh, (List.length g <= k)%nat -> Forall (fun g => g <> GIndent) g -> Forall (fun f : frame => snd (fst f) = false) st -> flat_map item_text (items g st ind false fresh) = flat_map gtext g.
Proof.
  induction k as [|k IH]; intros g st ind fresh Hk Hg Hst; [destruct g; [reflexivity|cbn in Hk; lia]|]. destruct g as [|c g]; [reflexivity|]. cbn [List.length] in Hk. apply Forall_cons_iff in Hg as [Hc Hg].
  assert (HC : Forall (fun f : frame => snd (fst f) = false) (has_chars st)) by (destruct st as [|[[n i] c'] st]; [constructor|]; apply Forall_cons_iff in Hst as [H1 H2]; constructor; auto).
  destruct c as [n a| |t|t|d| |]; cbn [items flat_map gtext item_text app].
  - assert (O : flat_map item_text (IOpen n a :: items g ((n, false, false) :: st) ind false true) = flat_map gtext g) by (cbn [flat_map item_text app]; apply IH; [lia|exact Hg|constructor; auto]).
    destruct g as [|[] g]; exact O.
  - destruct st as [|[[n i] c] st]; [apply IH; auto; lia|]. apply Forall_cons_iff in Hst as [H1 H2]. cbn [fst snd] in H1. subst i. cbn [andb app flat_map item_text]. apply IH; auto; lia.
  - f_equal. apply IH; auto; lia.
  - f_equal. apply IH; auto; lia.
  - f_equal. apply IH; auto; [lia|]. destruct fresh; auto.
  - congruence.
  - apply IH; auto; lia.
Qed.
Theorem C45_text : forall h, no_indent h -> flat_map item_text (document h) = flat_map call_text h.
Proof. intros h H. unfold document. rewrite (items_text _ _ _ _ _ (le_n _)); [apply group_text|now apply group_no_indent|constructor]. Qed.
(** C46 (and C44, C45): the parser reports the document, whatever the history, the texts and the values: names, order and nesting are those of the calls, texts and values
    are complete except for the apostrophes *)
Theorem C46_parse_back : forall h, Forall call_ok h -> closed h ->
  exists w, write_document h = Val w /\ parse (w_out w) = Val (EStartDoc :: prolog_start :: report [10] (document h) ++ [EEndDoc]).
Proof.
  intros h Hok Hc. destruct (C45_document h (calls_bytes h Hok) Hc) as (w & E & O & _). exists w. split; [exact E|]. rewrite O, parse_ok, ploop_prolog by now apply document_ok. reflexivity.
Qed.
Lemma starts_app a b : starts (a ++ b) = starts a ++ starts b. Proof. apply flat_map_app. Qed.
Lemma data_app a b : data (a ++ b) = data a ++ data b. Proof. apply flat_map_app. Qed.
Lemma starts_if f t : (forall x, starts [f x] = []) -> starts (event_if f t) = []. Proof. intros H. destruct t; [reflexivity|apply H]. Qed.
Lemma starts_flush t : starts (flush t) = [].
Proof. unfold flush. destruct t; [reflexivity|]. cbv zeta. rewrite !starts_app, !starts_if by reflexivity. reflexivity. Qed.
Lemma data_if f t : (forall x, data [f x] = x) -> data (event_if f t) = t. Proof. intros H. destruct t; [reflexivity|apply H]. Qed.
Lemma ws_split t : exists r, t = ws_prefix t ++ r /\ Forall (fun c => is_ws c = true) (ws_prefix t) /\ (forall x m, r = x :: m -> is_ws x = false).
Proof.
  induction t as [|c t (r & E & F & N)]; [exists []; repeat split; [constructor|discriminate]|]. cbn [ws_prefix]. destruct (is_ws c) eqn:W.
  - exists r. split; [cbn [app]; now f_equal|]. split; [constructor; auto|exact N].
  - exists (c :: t). split; [reflexivity|]. split; [constructor|]. intros x m H. injection H as <- _. exact W.
Qed.
(** C44: how text is reported: some white space as ignorable, then characters, then ignorable white space again; nothing is lost, and the characters
    start and end with at most one white space character *)
Theorem C44_text_split : forall t, t <> [] -> exists b m e, t = b ++ m ++ e /\ m <> [] /\ flush t = event_if EIgnorable b ++ [EChars m] ++ event_if EIgnorable e /\
  Forall (fun c => In c [32; 13; 10; 9; 8; 12]) (b ++ e) /\
  (forall x y r, m = x :: y :: r -> ~ In y [32; 13; 10; 9; 8; 12] \/ ~ In x [32; 13; 10; 9; 8; 12]) /\ (forall x y r, m = r ++ [x; y] -> ~ In y [32; 13; 10; 9; 8; 12] \/ ~ In x [32; 13; 10; 9; 8; 12]).
Proof.
  assert (W : forall c, is_ws c = true <-> In c [32; 13; 10; 9; 8; 12]). { intros c. unfold is_ws. rewrite !orb_true_iff, !Z.eqb_eq. cbn [In]. split; intros H; intuition (subst; auto). }
  assert (W' : forall c, is_ws c = false -> ~ In c [32; 13; 10; 9; 8; 12]) by (intros c H I; apply W in I; congruence).
  intros t Nt. destruct (ws_split t) as (r & E & F & N). destruct (ws_split (rev r)) as (q & E2 & F2 & N2). set (e := rev (ws_prefix (rev r))). set (m := rev q).
  assert (Er : r = m ++ e) by (unfold m, e; rewrite <- rev_app_distr, <- E2; symmetry; apply rev_involutive). assert (Fe : Forall (fun c => is_ws c = true) e) by (unfold e; now apply Forall_rev).
  assert (Nl : forall x r', m = r' ++ [x] -> is_ws x = false). { intros x r' H. apply (N2 x (rev r')). unfold m in H. rewrite <- (rev_involutive q), H, rev_app_distr. reflexivity. }
  assert (Em : m = [] -> e = []). { intros H. destruct e as [|x e']; [reflexivity|]. exfalso. assert (X : r = x :: e') by (rewrite Er, H; reflexivity). apply Forall_cons_iff in Fe as [Wx _]. rewrite (N x e' X) in Wx. discriminate. }
  set (b := ws_prefix t) in *.
  assert (Fl : flush t = (let mb := match b with [] => (m, b) | _ => (last b 0 :: m, removelast b) end in let me := match e with [] => (fst mb, e) | x :: e' => (fst mb ++ [x], e') end in event_if EIgnorable (snd mb) ++ event_if EChars (fst me) ++ event_if EIgnorable (snd me))).
  { unfold flush. destruct t as [|t0 t']; [contradiction|]. cbv zeta. fold b. assert (Sk : skipn (List.length b) (t0 :: t') = r) by (rewrite E; rewrite skipn_app, skipn_all2, Nat.sub_diag by lia; reflexivity). rewrite Sk. fold e. replace (firstn (List.length r - List.length e) r) with m; [reflexivity|]. rewrite Er at 2. rewrite Er, app_length. replace (List.length m + List.length e - List.length e)%nat with (List.length m + 0)%nat by lia. rewrite firstn_app_2. cbn. now rewrite app_nil_r. }
  rewrite Fl. clear Fl. cbv zeta.
  assert (Fb : Forall (fun c => In c [32; 13; 10; 9; 8; 12]) b) by (eapply Forall_impl; [|exact F]; intros c; apply W). assert (Fe' : Forall (fun c => In c [32; 13; 10; 9; 8; 12]) e) by (eapply Forall_impl; [|exact Fe]; intros c; apply W).
  assert (Hd : forall x r', m = x :: r' -> is_ws x = false) by (intros x r' H; apply (N x (r' ++ e)); rewrite Er, H; reflexivity).
  destruct b as [|b0 b'] eqn:Eb.
  - cbn [fst snd]. assert (Nm : m <> []). { intros H. apply Nt. rewrite E, Er, H, (Em H). reflexivity. }
    destruct e as [|x e'].
    + exists [], m, []. rewrite app_nil_r in *. cbn [event_if app fst snd]. subst r. split; [exact E|]. split; [exact Nm|]. split; [destruct m; [contradiction|reflexivity]|]. split; [constructor|]. split.
      * intros x y r' H. right. apply W'. eapply Hd. exact H.
      * intros x y r' H. left. apply W'. apply (Nl y (r' ++ [x])). rewrite H, <- app_assoc. reflexivity.
    + exists [], (m ++ [x]), e'. cbn [event_if app fst snd]. apply Forall_cons_iff in Fe' as [Fx Fe']. split; [rewrite E, Er; cbn [app]; now rewrite <- app_assoc|]. split; [destruct m; discriminate|]. split; [destruct m; [contradiction|reflexivity]|]. split; [exact Fe'|]. split.
      * intros z y r' H. right. apply W'. destruct m as [|m0 m']; [contradiction|]. injection H as <- _. eapply Hd. reflexivity.
      * intros z y r' H. right. apply W'. apply (Nl z r'). replace (r' ++ [z; y]) with ((r' ++ [z]) ++ [y]) in H by (rewrite <- app_assoc; reflexivity). now apply app_inj_tail in H as [H _].
  - destruct (exists_last (l := b0 :: b') ltac:(discriminate)) as (bi & bl & Ebl). rewrite Ebl in *. assert (La : last (bi ++ [bl]) 0 = bl) by apply last_last. assert (Ra : removelast (bi ++ [bl]) = bi) by apply removelast_last.
    cbn [fst snd]. rewrite ?La, ?Ra. cbn [fst snd]. apply Forall_app in Fb as [Fbi Fbl].
    destruct e as [|x e'].
    + exists bi, (bl :: m), []. cbn [event_if app fst snd]. rewrite !app_nil_r in *. subst r. split; [rewrite E, <- app_assoc; reflexivity|]. split; [discriminate|]. split; [reflexivity|]. split; [exact Fbi|]. split.
      * intros z y r' H. injection H as -> H. left. apply W'. eapply Hd. exact H.
      * intros z y r' H. left. apply W'. destruct r' as [|r0 r']; cbn [app] in H; injection H as -> H; [apply (Nl y []); exact H|]. apply (Nl y (r' ++ [z])). rewrite H, <- app_assoc. reflexivity.
    + apply Forall_cons_iff in Fe' as [Fx Fe']. exists bi, (bl :: m ++ [x]), e'. cbn [event_if app fst snd]. assert (Nm : m <> []) by (intros H; specialize (Em H); discriminate). split; [rewrite E, Er; cbn [app]; rewrite <- !app_assoc; reflexivity|]. split; [discriminate|]. split; [reflexivity|]. split; [apply Forall_app; auto|]. split.
      * intros z y r' H. injection H as -> H. left. apply W'. destruct m as [|m0 m']; [contradiction|]. injection H as <- _. eapply Hd. reflexivity.
      * intros z y r' H. right. apply W'. destruct r' as [|r0 r']; cbn [app] in H; injection H as -> H; [destruct m as [|m0 m']; [contradiction|]; destruct m'; discriminate|]. replace (r' ++ [z; y]) with ((r' ++ [z]) ++ [y]) in H by (rewrite <- app_assoc; reflexivity). apply app_inj_tail in H as [H _]. now apply (Nl z r').
Qed.
Lemma data_flush t : data (flush t) = t.
Proof.
  destruct t as [|c t]; [reflexivity|]. destruct (C44_text_split (c :: t) ltac:(discriminate)) as (b & m & e & E & _ & -> & _). rewrite !data_app, !data_if by (intros; cbn; apply app_nil_r). cbn. now rewrite app_nil_r.
Qed.
(** C46: the attributes of every element arrive: same elements, same order, same names, values without their apostrophes *)
Theorem C46_attributes : forall h, Forall call_ok h -> closed h -> exists w evs, write_document h = Val w /\ parse (w_out w) = Val evs /\
  starts evs = (str "?xml", str "?xml", [(str "version", str "1.0"); (str "encoding", str "UTF-8")]) :: map (fun p => (local (fst p), fst p, map (fun a => (fst a, filter (fun c => negb (c =? 39)) (snd a))) (snd p))) (started h).
Proof.
  intros h Hok Hc. destruct (C46_parse_back h Hok Hc) as (w & E & P). exists w. eexists. split; [exact E|]. split; [exact P|]. rewrite <- document_opened. change (starts (EStartDoc :: prolog_start :: report [10] (document h) ++ [EEndDoc])) with ((str "?xml", str "?xml", [(str "version", str "1.0"); (str "encoding", str "UTF-8")]) :: starts (report [10] (document h) ++ [EEndDoc])).
  f_equal. rewrite starts_app, app_nil_r. generalize [10]. clear. induction (document h) as [|i l IH]; intros buf; [reflexivity|]. unfold opened. destruct i as [n a|n a|n|t|t]; cbn [report flat_map app map]; try apply IH.
  - rewrite starts_app, starts_flush. cbn [app]. change (starts (EStart (local n) n (map kept_attr a) :: report [] l)) with ((local n, n, map kept_attr a) :: starts (report [] l)). rewrite IH. reflexivity.
  - rewrite starts_app, starts_flush. cbn [app]. change (starts (EStart (local n) n (map kept_attr a) :: EEnd (local n) n :: report [] l)) with ((local n, n, map kept_attr a) :: starts (report [] l)). rewrite IH. reflexivity.
  - rewrite starts_app, starts_flush. cbn [app]. apply (IH []).
Qed.
(** C46: exact without apostrophes *)
Theorem C46_exact_without_apostrophes : forall h, Forall call_ok h -> closed h -> (forall n v, In (CAttr n v) h -> ~ In 39 v) -> exists w evs, write_document h = Val w /\ parse (w_out w) = Val evs /\
  starts evs = (str "?xml", str "?xml", [(str "version", str "1.0"); (str "encoding", str "UTF-8")]) :: map (fun p => (local (fst p), fst p, snd p)) (started h).
Proof.
  intros h Hok Hc Ha. destruct (C46_attributes h Hok Hc) as (w & evs & E & P & S1). exists w, evs. split; [exact E|]. split; [exact P|]. rewrite S1. f_equal. apply map_ext_in. intros [n a] I. cbn [fst snd]. f_equal.
  assert (K : forall p, In p a -> In (CAttr (fst p) (snd p)) h).
  { clear - I. induction h as [|c h IH]; [contradiction|]. assert (R : forall h p, In p (attr_run h) -> In (CAttr (fst p) (snd p)) h). { clear. induction h as [|c h IH]; intros p H; [contradiction|]. destruct c; cbn [attr_run] in H; try contradiction. destruct H as [<-|H]; [now left|right; auto]. }
    destruct c; cbn [started] in I; try (intros p Hp; right; now apply IH). destruct I as [I|I]; [injection I as -> <-; intros p Hp; right; now apply R|intros p Hp; right; now apply IH]. }
  enough (X : map (fun a0 : list Z * list Z => (fst a0, filter (fun c : Z => negb (c =? 39)) (snd a0))) a = a) by (rewrite X; reflexivity).
  clear I. induction a as [|[x v] a IH]; [reflexivity|]. cbn [map fst snd]. refine (f_equal2 cons _ _); [|apply IH; intros p Hp; apply K; now right]. refine (f_equal (pair x) _). specialize (Ha x v (K (x, v) (or_introl eq_refl))). clear - Ha. induction v as [|c v IH]; [reflexivity|]. cbn [filter]. destruct (Z.eqb_spec c 39) as [->|N]; [exfalso; apply Ha; now left|]. cbn [negb]. f_equal. apply IH. intros H. apply Ha. now right.
Qed.
(** C44: one text in one element *)
Theorem C44_text_round_trip : forall n t, name_ok n -> exists w evs, write_document [CStart n; CData t true; CEnd] = Val w /\
  parse (w_out w) = Val ([EStartDoc; prolog_start; EChars [10]; EStart (local n) n []] ++ evs ++ [EEnd (local n) n; EEndDoc]) /\ data evs = filter (fun c => negb (c =? 39)) t /\ starts evs = [].
Proof.
  intros n t Hn. destruct (C46_parse_back [CStart n; CData t true; CEnd]) as (w & E & P); [repeat constructor; apply Hn|reflexivity|]. exists w, (flush (kept t)). split; [exact E|]. split; [rewrite P|split; [apply data_flush|apply starts_flush]].
  cbn [document group attr_run items app report has_chars andb negb map]. change (flush [10]) with [EChars [10]]. cbn [app]. rewrite <- app_assoc. reflexivity.
Qed.
(** C44: all text of a document that ends with the end of an element *)
Definition is_tag (i : item) : Prop := match i with IText _ | IRaw _ => False | _ => True end.
Lemma items_last k : forall g st ind last fresh, (List.length g <= k)%nat -> gdepth (List.length st) g = 1%nat -> exists l x, items (g ++ [GEnd]) st ind last fresh = l ++ [x] /\ is_tag x.
Proof.
  induction k as [|k IH]; intros g st ind last fresh Hk Hd.
  - destruct g; [|cbn in Hk; lia]. cbn [gdepth] in Hd. destruct st as [|[[n i] c] [|]]; try discriminate. cbn [app items]. eexists _, (IClose n). split; [reflexivity|exact I].
  - assert (HC : forall g' st' ind' l' f' pre, (List.length g' <= k)%nat -> gdepth (List.length st') g' = 1%nat -> exists l x, pre ++ items (g' ++ [GEnd]) st' ind' l' f' = l ++ [x] /\ is_tag x).
    { intros g' st' ind' l' f' pre H1 H2. destruct (IH g' st' ind' l' f' H1 H2) as (l & x & E & T). exists (pre ++ l), x. rewrite E, app_assoc. auto. }
    assert (LC : List.length (has_chars st) = List.length st) by (destruct st as [|[[? ?] ?] ?]; reflexivity).
    destruct g as [|c g]; [cbn [gdepth] in Hd; destruct st as [|[[n i] c] [|]]; try discriminate; cbn [app items]; eexists _, (IClose n); split; [reflexivity|exact I]|]. cbn [List.length] in Hk. destruct c as [n a| |t|t|d| |]; cbn [app items gdepth] in *.
    + destruct g as [|c g].
      * cbn [app]. cbn [gdepth] in Hd. destruct st; [|discriminate]. eexists _, (IEmpty n a). split; [reflexivity|exact I].
      * assert (O : exists l x, (if last then [newline ind] else []) ++ IOpen n a :: items ((c :: g) ++ [GEnd]) ((n, last, false) :: st) ind false true = l ++ [x] /\ is_tag x).
        { destruct (HC (c :: g) ((n, last, false) :: st) ind false true ((if last then [newline ind] else []) ++ [IOpen n a]) ltac:(lia) Hd) as (l & x & E & T). exists l, x. rewrite <- E, <- app_assoc. auto. }
        destruct c; cbn [app] in *; try exact O. cbn [gdepth pred] in Hd. destruct (HC g st ind false false ((if last then [newline ind] else []) ++ [IEmpty n a]) ltac:(cbn in Hk; lia) Hd) as (l & x & E & T). exists l, x. rewrite <- E, <- app_assoc. auto.
    + destruct st as [|[[n i] c] st]; [apply (HC g [] ind false false []); [lia|exact Hd]|]. destruct (HC g st ind false false ((if i && negb c then [newline ind] else []) ++ [IClose n]) ltac:(lia) Hd) as (l & x & E & T). exists l, x. rewrite <- E, <- app_assoc. auto.
    + apply (HC g (has_chars st) ind false false [IText t]); [lia|congruence].
    + apply (HC g (has_chars st) ind false false [IRaw t]); [lia|congruence].
    + apply (HC g _ ind false false [IRaw (rfc_encode d)]); [lia|destruct fresh; congruence].
    + apply (HC g st _ _ _ []); [lia|exact Hd].
    + apply (HC g st _ _ _ []); [lia|exact Hd].
Qed.
Lemma data_report l : forall buf x, is_tag x -> data (report buf (l ++ [x])) = buf ++ flat_map item_text (l ++ [x]).
Proof.
  assert (C : forall e r, (match e with EChars _ | EIgnorable _ => False | _ => True end) -> data (e :: r) = data r) by (intros [] r H; try contradiction; reflexivity).
  induction l as [|i l IH]; intros buf x T; cbn [app].
  - destruct x; try contradiction; cbn [report flat_map item_text app]; rewrite data_app, data_flush; reflexivity.
  - destruct i as [n a|n a|n|t|t]; cbn [report flat_map item_text app]; rewrite ?data_app, ?data_flush, ?C by exact I; rewrite IH by exact T; cbn [app]; rewrite <- ?app_assoc; reflexivity.
Qed.
Theorem C44_all_text : forall h, Forall call_ok h -> no_indent h -> depth 0 h = 1%nat -> exists w evs, write_document (h ++ [CEnd]) = Val w /\ parse (w_out w) = Val evs /\ data evs = 10 :: flat_map call_text h.
Proof.
  intros h Hok Hi Hd.
  assert (D : forall h d, depth d (h ++ [CEnd]) = pred (depth d h)) by (clear; induction h as [|[] h IH]; intros d; cbn [app depth]; auto).
  assert (Gr : forall h, group (h ++ [CEnd]) = group h ++ [GEnd]). { clear. assert (AR : forall h, attr_run (h ++ [CEnd]) = attr_run h) by (induction h as [|[] h IH]; cbn [app attr_run]; auto; now rewrite IH). induction h as [|c h IH]; [reflexivity|]. cbn [app]. destruct c as [| |n| |t []|b|n v]; cbn [group app]; rewrite ?AR, IH; reflexivity. }
  destruct (C46_parse_back (h ++ [CEnd])) as (w & E & P); [apply Forall_app; split; [exact Hok|repeat constructor]|unfold closed; rewrite D, Hd; reflexivity|]. exists w. eexists. split; [exact E|]. split; [exact P|].
  change (data (EStartDoc :: prolog_start :: report [10] (document (h ++ [CEnd])) ++ [EEndDoc])) with (data (report [10] (document (h ++ [CEnd])) ++ [EEndDoc])). rewrite data_app, app_nil_r.
  assert (Tx : flat_map item_text (document (h ++ [CEnd])) = flat_map call_text h). { rewrite C45_text; [rewrite flat_map_app; cbn; apply app_nil_r|]. intros X. apply in_app_or in X as [X|[X|[]]]; [contradiction|discriminate]. }
  unfold document in *. rewrite Gr in *. destruct (items_last _ (group h) [] 0 false false (le_n _)) as (l & x & El & T); [rewrite group_depth; exact Hd|]. rewrite El in *. rewrite data_report by exact T. rewrite Tx. reflexivity.
Qed.
(** C44, C46 are false with apostrophes *)
Theorem C44_apostrophe_refuted : exists n t w evs, name_ok n /\ write_document [CStart n; CData t true; CEnd] = Val w /\ parse (w_out w) = Val evs /\ data evs <> 10 :: t.
Proof.
  exists (str "p"), (str "it's"). eexists _, _. split; [split; [discriminate|]; intros c [<-|[]] H; cbn in H; intuition discriminate|]. split; [vm_compute; reflexivity|]. split; [vm_compute; reflexivity|]. vm_compute. discriminate.
Qed.
(** C45: the reported elements are well nested too, apart from the processing instruction, which is reported as an element that never ends *)
Lemma nesting_flush t : forall o l, nesting o (flush t ++ l) = nesting o l.
Proof. intros o l. unfold flush. destruct t; [reflexivity|]. cbv zeta. rewrite <- !app_assoc. assert (X : forall f u o l, (forall x l, nesting o (f x :: l) = nesting o l) -> nesting o (event_if f u ++ l) = nesting o l) by (intros f [|] ? ? H; [reflexivity|apply H]). rewrite !X by reflexivity. reflexivity. Qed.
Lemma nesting_forest l : forest l -> forall o buf r, exists buf', nesting o (report buf (l ++ r)) = nesting o (report buf' r).
Proof.
  induction 1 as [|t l H IH|t l H IH|n a l H IH|n a body l H1 IH1 H2 IH2]; intros o buf r; cbn [app report].
  - exists buf. reflexivity.
  - apply IH.
  - apply IH.
  - rewrite nesting_flush. cbn [nesting]. rewrite same_refl. apply IH.
  - rewrite nesting_flush. cbn [nesting]. rewrite <- app_assoc. cbn [app]. destruct (IH1 (n :: o) [] (IClose n :: l ++ r)) as (b & ->). cbn [report]. rewrite nesting_flush. cbn [nesting]. rewrite same_refl. apply IH2.
Qed.
Theorem C45_events_nested : forall h, Forall call_ok h -> closed h -> exists w evs, write_document h = Val w /\ parse (w_out w) = Val (EStartDoc :: prolog_start :: evs) /\ nesting [] evs = Some [].
Proof.
  intros h Hok Hc. destruct (C46_parse_back h Hok Hc) as (w & E & P). exists w. eexists. split; [exact E|]. split; [exact P|]. pose proof (document_forest h Hc) as F.
  assert (A : forall l o, nesting o (l ++ [EEndDoc]) = nesting o l). { clear. induction l as [|e l IH]; intros o; [reflexivity|]. cbn [app]. destruct e; cbn [nesting]; auto. destruct o; [reflexivity|]. destruct (same qualified l0); [apply IH|reflexivity]. }
  rewrite A. destruct (nesting_forest _ F [] [10] []) as (b & X). rewrite app_nil_r in X. rewrite X. reflexivity.
Qed.
Theorem C45_prolog_refuted : exists w evs, write_document [CStart (str "a"); CEnd] = Val w /\ parse (w_out w) = Val evs /\ nesting [] evs = Some [str "?xml"].
Proof. eexists _, _. split; [vm_compute; reflexivity|]. split; [vm_compute; reflexivity|]. vm_compute. reflexivity. Qed.
(** C46: looking an attribute up by name finds the first one *)
Theorem C46_lookup : forall l q, attr_value l q = Val (match find (fun p => same (fst p) q) l with Some p => snd p | None => [] end) /\ (attr_has l q = true <-> In q (map fst l)).
Proof.
  intros l q.
  assert (K : forall l a, 0 <= a -> (exists i, attr_index l q a = a + i /\ 0 <= i < zlen l /\ (exists p, lget l i = Some p /\ find (fun p => same (fst p) q) l = Some p) /\ In q (map fst l)) \/ (attr_index l q a = -1 /\ find (fun p => same (fst p) q) l = None /\ ~ In q (map fst l))).
  { clear l. induction l as [|[n v] l IH]; intros a Ha; cbn [attr_index find map fst]; [right; repeat split; auto|]. destruct (same n q) eqn:S1.
    - left. apply same_iff in S1. subst. exists 0. rewrite zlen_cons. pose proof (zlen_nonneg l). split; [lia|]. split; [lia|]. split; [exists (q, v); auto|now left].
    - destruct (IH (a + 1) ltac:(lia)) as [(i & E & B & (p & G & Fd) & I)|(E & Fd & NI)].
      + left. exists (i + 1). rewrite zlen_cons. split; [lia|]. split; [lia|]. split; [|now right]. exists p. split; [|exact Fd]. replace ((n, v) :: l) with ([(n, v)] ++ l) by reflexivity. rewrite lget_app_r by (change (zlen [(n, v)]) with 1; lia). change (zlen [(n, v)]) with 1. now replace (i + 1 - 1) with i by lia.
      + right. split; [exact E|]. split; [exact Fd|]. intros [H|H]; [subst; rewrite same_refl in S1; discriminate|contradiction]. }
  unfold attr_value, attr_has. destruct (K l 0 ltac:(lia)) as [(i & E & B & (p & G & Fd) & I)|(E & Fd & NI)]; rewrite E, Fd.
  - replace (0 + i >? -1) with true by lia. replace (0 + i) with i by lia. rewrite G. destruct p. split; [reflexivity|]. split; auto.
  - split; [reflexivity|]. split; [discriminate|contradiction].
Qed.
(** C61: for every text whatsoever parse returns or throws *)
Theorem C61_parser_total : forall xml, (exists evs, parse xml = Val (EStartDoc :: evs ++ [EEndDoc])) \/ parse xml = Exn.
Proof. intros xml. rewrite parse_ok. pose proof (ploop_total xml None false false 34 []) as T. destruct (ploop xml None false false 34 []) as [l| | |]; try contradiction; cbn [bind]; [left|right]; eauto. Qed.
(** C61: ... but it throws on some texts and misreads comments *)
Theorem C61_texts_refuted : parse (str "<>") = Exn /\ parse (str "<a>x</a>&") = Exn /\
  parse (str "<!--a>b--><a/>") = Val [EStartDoc; EStart (str "!--a") (str "!--a") []; EChars (str "b-->"); EStart (str "a") (str "a") []; EEnd (str "a") (str "a"); EEndDoc].
Proof. repeat split; vm_compute; reflexivity. Qed.
(** a nested document with indentation, attributes with markup characters, a late attribute and an unmatched end *)
Definition sample : list call := [CEnd; CStart (str "a"); CAttr (str "k") (str "<&>"" 1"); CAttr (str "l") []; CStartIndent; CAttr (str "late") (str "x"); CStart (str "n:b"); CData (str " x < y ") true; CEnd; CBase64 [0; 255; 7]; CEndIndent; CStart (str "c"); CEnd; CEnd].
Example sample_ok : Forall call_ok sample /\ closed sample /\ started sample = [(str "a", [(str "k", str "<&>"" 1"); (str "l", [])]); (str "n:b", []); (str "c", [])] /\
  exists w, write_document sample = Val w /\ w_out w = prolog ++ str "<a k=""&lt;&amp;&gt;&quot; 1"" l="""">" ++ [10] ++ str "   <n:b> x &lt; y </n:b>AP8H<c/></a>".
Proof.
  assert (N : forall n, n <> [] -> forallb (fun c => negb (existsb (Z.eqb c) ([32; 13; 10; 9; 8; 12] ++ str "=/""'>"))) n = true -> name_ok n).
  { intros n H1 H. split; [exact H1|]. intros c I Q. rewrite forallb_forall in H. specialize (H c I). rewrite (proj2 (existsb_exists _ _)) in H; [discriminate|]. exists c. split; [exact Q|apply Z.eqb_refl]. }
  split; [repeat (constructor; [first [exact I|apply N; [discriminate|reflexivity]|repeat constructor; unfold byte; lia]|]); constructor|]. split; [reflexivity|]. split; [reflexivity|]. eexists. split; vm_compute; reflexivity.
Qed.
Print Assumptions C45_document. Print Assumptions C45_text. Print Assumptions C46_parse_back. Print Assumptions C44_text_split. Print Assumptions C46_attributes. Print Assumptions C46_exact_without_apostrophes.
Print Assumptions C44_text_round_trip. Print Assumptions C44_all_text. Print Assumptions C44_apostrophe_refuted. Print Assumptions C45_events_nested. Print Assumptions C45_prolog_refuted. Print Assumptions C46_lookup. Print Assumptions C61_parser_total. Print Assumptions C61_texts_refuted.
