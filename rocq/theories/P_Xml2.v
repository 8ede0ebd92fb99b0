(** P_Xml2.v -- SAXParser on documents written by hand (C46): attributes in either kind of quotes, any white space between the parts of a tag. *)
From Coq Require Import Ascii String.
From Verif Require Import Base M_Base64 S_Base64 M_String M_Tokenizer S_String M_Xml S_Xml L_Xml L_Xml2 L_Xml3 L_Xml4 L_Xml5.
Open Scope list_scope.
Definition ws (c : Z) : Prop := In c [32; 13; 10; 9; 8; 12].
Definition blanks (w : list Z) : Prop := forall c, In c w -> ws c.
(** an attribute: blanks, name, blanks, equals sign, blanks, quote, value, quote *)
Record hattr := HA { h_before : list Z; h_name : list Z; h_w1 : list Z; h_w2 : list Z; h_quote : Z; h_value : list Z }.
Definition hattr_text (a : hattr) : list Z := h_before a ++ h_name a ++ h_w1 a ++ str "=" ++ h_w2 a ++ [h_quote a] ++ h_value a ++ [h_quote a].
(** the value contains neither an ampersand nor its own quote; the other quote and both angle brackets are allowed *)
Definition hattr_ok (a : hattr) : Prop :=
  h_before a <> [] /\ blanks (h_before a) /\ name_ok (h_name a) /\ blanks (h_w1 a) /\ blanks (h_w2 a) /\ (h_quote a = 34 \/ h_quote a = 39) /\ ~ In (h_quote a) (h_value a) /\ ~ In 38 (h_value a).
Inductive hitem := HOpen (n : list Z) (l : list hattr) (w : list Z) | HEmpty (n : list Z) (l : list hattr) (w w' : list Z) | HClose (n : list Z) (w : list Z) | HText (t : list Z).
Definition htext (i : hitem) : list Z :=
  match i with
  | HOpen n l w => str "<" ++ n ++ flat_map hattr_text l ++ w ++ str ">"
  | HEmpty n l w w' => str "<" ++ n ++ flat_map hattr_text l ++ w ++ str "/" ++ w' ++ str ">"
  | HClose n w => str "</" ++ n ++ w ++ str ">"
  | HText t => t
  end.
Definition hitem_ok (i : hitem) : Prop :=
  match i with
  | HOpen n l w => name_ok n /\ Forall hattr_ok l /\ blanks w
  | HEmpty n l w w' => name_ok n /\ Forall hattr_ok l /\ blanks w /\ blanks w'
  | HClose n w => name_ok n /\ blanks w
  | HText t => ~ In 60 t /\ ~ In 38 t
  end.
Fixpoint hreport (buf : list Z) (l : list hitem) : list event :=
  match l with
  | [] => []
  | HText t :: l => hreport (buf ++ t) l
  | HOpen n a _ :: l => flush buf ++ EStart (local n) n (map (fun p => (h_name p, h_value p)) a) :: hreport [] l
  | HEmpty n a _ _ :: l => flush buf ++ EStart (local n) n (map (fun p => (h_name p, h_value p)) a) :: EEnd (local n) n :: hreport [] l
  | HClose n _ :: l => flush buf ++ EEnd (local n) n :: hreport [] l
  end.
Lemma ws_true c : ws c <-> is_ws c = true.
Proof. unfold ws, is_ws. rewrite !orb_true_iff, !Z.eqb_eq. cbn [In]. split; intros H; intuition (subst; auto). Qed.
Lemma ws_facts c : ws c -> (c =? 34) = false /\ (c =? 39) = false /\ (c =? 38) = false /\ (c =? 62) = false /\ is_ws c = true.
Proof. intros H. pose proof H as W. apply ws_true in W. unfold ws in H. cbn [In] in H. destruct H as [<-|[<-|[<-|[<-|[<-|[<-|[]]]]]]]; auto. Qed.
Lemma blanks_forall w : blanks w -> Forall ws w. Proof. intros H. apply Forall_forall. exact H. Qed.
(** ** the tag parser *)
Lemma tl_blank_name op n an tn (st : Z) at_ c : n <> [] -> st = 0 \/ st = 1 -> ws c \/ c = 47 \/ c = 61 ->
  tag_char (TS false op st n tn an at_) c = if st =? 0 then TS false op 1 [] n an at_ else TS false op 2 [] tn n at_.
Proof.
  intros N St H. unfold tag_char. cbn [t_inval t_token t_step t_opener t_tname t_aname t_attrs negb].
  assert (Q : (c =? 34) || (c =? 39) = false /\ is_ws c || (c =? 61) || (c =? 47) = true).
  { destruct H as [H|[->| ->]]; [|split; reflexivity|split; reflexivity]. destruct (ws_facts c H) as (A & B & _ & _ & W). rewrite A, B, W. auto. }
  destruct Q as [-> ->]. cbn [andb]. destruct n; [contradiction|]. destruct St as [-> | ->]; reflexivity.
Qed.
Lemma tl_blank op st tn an at_ c : ws c \/ c = 47 \/ c = 61 -> tag_char (TS false op st [] tn an at_) c = TS false op st [] tn an at_.
Proof.
  intros H. unfold tag_char. cbn [t_inval t_token t_step t_opener t_tname t_aname t_attrs negb].
  assert (Q : (c =? 34) || (c =? 39) = false /\ is_ws c || (c =? 61) || (c =? 47) = true).
  { destruct H as [H|[->| ->]]; [|split; reflexivity|split; reflexivity]. destruct (ws_facts c H) as (A & B & _ & _ & W). rewrite A, B, W. auto. }
  destruct Q as [-> ->]. reflexivity.
Qed.
Lemma tl_step c r s : t_inval s = false -> tloop (c :: r) None s = tloop r None (tag_char s c).
Proof. intros H. cbn [tloop]. now rewrite H, andb_false_r. Qed.
Lemma tl_blanks w : forall rest op st tn an at_, Forall (fun c => ws c \/ c = 47 \/ c = 61) w -> tloop (w ++ rest) None (TS false op st [] tn an at_) = tloop rest None (TS false op st [] tn an at_).
Proof. induction w as [|c w IH]; intros rest op st tn an at_ F; [reflexivity|]. apply Forall_cons_iff in F as [Hc F]. cbn [app]. rewrite tl_step by reflexivity. rewrite tl_blank by exact Hc. now apply IH. Qed.
Lemma tl_val v : forall rest q st tk tn an at_, ~ In q v -> ~ In 38 v -> tloop (v ++ rest) None (TS true q st tk tn an at_) = tloop rest None (TS true q st (tk ++ v) tn an at_).
Proof.
  induction v as [|c v IH]; intros rest q st tk tn an at_ H1 H2; [now rewrite app_nil_r|]. cbn [app tloop]. rewrite (neqb c 38) by (intros ->; apply H2; now left). cbn [andb].
  assert (X : tag_char (TS true q st tk tn an at_) c = TS true q st (tk ++ [c]) tn an at_).
  { unfold tag_char. cbn [t_inval t_token t_step t_opener t_tname t_aname t_attrs negb]. rewrite (neqb q c) by (intros ->; apply H1; now left). rewrite andb_false_r. destruct ((c =? 34) || (c =? 39)); reflexivity. }
  rewrite X, IH by (intros I; (apply H1 + apply H2); now right). now rewrite <- app_assoc.
Qed.
Lemma wsb w : blanks w -> Forall (fun c => ws c \/ c = 47 \/ c = 61) w.
Proof. intros H. apply Forall_forall. intros c I. left. now apply H. Qed.
Lemma tl_quote q st tk tn an at_ op : q = 34 \/ q = 39 -> tag_char (TS false op st tk tn an at_) q = TS true q st tk tn an at_ /\ tag_char (TS true q 2 tk tn an at_) q = TS false q 1 [] tn an (at_ ++ [(an, tk)]).
Proof. intros [-> | ->]; split; reflexivity. Qed.
Definition hpair (a : hattr) : attribute := (h_name a, h_value a).
(** one attribute, its first blank being already read *)
Lemma tl_hattr a b rest op an at_ tn : hattr_ok a -> blanks b -> exists op' , tloop (b ++ h_name a ++ h_w1 a ++ str "=" ++ h_w2 a ++ [h_quote a] ++ h_value a ++ [h_quote a] ++ rest) None (TS false op 1 [] tn an at_)
  = tloop rest None (TS false op' 1 [] tn (h_name a) (at_ ++ [hpair a])).
Proof.
  intros (_ & _ & [Nn Fn] & B1 & B2 & Q & V1 & V2) Bb. rewrite tl_blanks by now apply wsb. rewrite tl_name by (try reflexivity; apply Forall_forall; exact Fn). unfold add_token. cbn [t_inval t_opener t_step t_token t_tname t_aname t_attrs app].
  change (str "=") with [61]. assert (E : exists c x, h_w1 a ++ [61] = c :: x /\ (ws c \/ c = 47 \/ c = 61) /\ Forall (fun c => ws c \/ c = 47 \/ c = 61) x).
  { destruct (h_w1 a) as [|c w] eqn:Ew; [exists 61, []; split; [reflexivity|]; split; [auto|constructor]|]. apply wsb in B1. apply Forall_cons_iff in B1 as [H1 H2]. exists c, (w ++ [61]). split; [reflexivity|]. split; [exact H1|]. apply Forall_app. split; [exact H2|constructor; [auto|constructor]]. }
  destruct E as (c & x & E & Hc & Fx). rewrite (app_assoc (h_w1 a)), E. cbn [app]. rewrite tl_step by reflexivity. rewrite tl_blank_name by auto. change (1 =? 0) with false. cbn match. rewrite <- ?app_assoc. rewrite tl_blanks by exact Fx. rewrite tl_blanks by now apply wsb.
  cbn [app]. rewrite tl_step by reflexivity. destruct (tl_quote (h_quote a) 2 [] tn (h_name a) at_ op Q) as [-> _]. rewrite tl_val by assumption. cbn [app]. rewrite app_nil_l || idtac.
  cbn [tloop]. replace (h_quote a =? 38) with false by (destruct Q as [-> | ->]; reflexivity). cbn [andb]. destruct (tl_quote (h_quote a) 2 (h_value a) tn (h_name a) at_ op Q) as [_ ->]. eexists. reflexivity.
Qed.
Lemma tl_hattrs l : forall rest op an at_ tn, Forall hattr_ok l -> exists op' an', tloop (flat_map hattr_text l ++ rest) None (TS false op 1 [] tn an at_) = tloop rest None (TS false op' 1 [] tn an' (at_ ++ map hpair l)).
Proof.
  induction l as [|a l IH]; intros rest op an at_ tn F; [exists op, an; now rewrite app_nil_r|]. apply Forall_cons_iff in F as [Ha F]. cbn [flat_map map]. unfold hattr_text at 1. rewrite <- !app_assoc.
  destruct (tl_hattr a (h_before a) (flat_map hattr_text l ++ rest) op an at_ tn Ha ltac:(apply Ha)) as (op1 & E). rewrite E.
  destruct (IH rest op1 (h_name a) (at_ ++ [hpair a]) tn F) as (op2 & an2 & ->). exists op2, an2. now rewrite <- app_assoc.
Qed.
(** name, attributes, and a tail of blanks and slashes *)
Lemma tl_htag n l tail : name_ok n -> Forall hattr_ok l -> Forall (fun c => ws c \/ c = 47 \/ c = 61) tail -> tail <> [] ->
  exists s', tloop (n ++ flat_map hattr_text l ++ tail) None (TS false 0 0 [] [] [] []) = Val s' /\ t_tname s' = n /\ t_attrs s' = map hpair l.
Proof.
  intros [Nn Fn] F T Nt. rewrite tl_name by (try reflexivity; apply Forall_forall; exact Fn). unfold add_token. cbn [t_inval t_opener t_step t_token t_tname t_aname t_attrs app].
  destruct l as [|a l].
  - cbn [flat_map app map]. destruct tail as [|c tail]; [contradiction|]. apply Forall_cons_iff in T as [Hc T]. rewrite tl_step by reflexivity. rewrite tl_blank_name by auto. change (0 =? 0) with true. cbn match. rewrite <- (app_nil_r tail), tl_blanks by exact T. eexists. split; [reflexivity|]. split; reflexivity.
  - apply Forall_cons_iff in F as [Ha F]. cbn [flat_map]. unfold hattr_text at 1. rewrite <- !app_assoc. destruct Ha as (N1 & B & Ha). destruct (h_before a) as [|c b] eqn:Eb; [contradiction|]. cbn [app]. rewrite tl_step by reflexivity. rewrite tl_blank_name by (first [exact Nn|now left|left; apply B; now left]). change (0 =? 0) with true. cbn match.
    assert (Bb : blanks b) by (intros x I; apply B; now right). assert (Ha' : hattr_ok a) by (unfold hattr_ok; rewrite Eb; auto).
    destruct (tl_hattr a b (flat_map hattr_text l ++ tail) 0 [] [] n Ha' Bb) as (op1 & E). cbn [app] in E |- *. rewrite E. destruct (tl_hattrs l tail op1 (h_name a) ([] ++ [hpair a]) n F) as (op2 & an2 & E2). cbn [app] in E2. rewrite E2. rewrite <- (app_nil_r tail), tl_blanks by exact T. eexists. split; [reflexivity|]. split; reflexivity.
Qed.
(** the last character that is not blank *)
Lemma back_blanks w : forall l x fuel, is_ws x = false -> Forall ws w -> (List.length w < fuel)%nat -> back_loop (l ++ x :: w) (zlen (l ++ x :: w) - 1) fuel = Val (zlen l) /\ char_of (l ++ x :: w) (zlen l) = Val x.
Proof.
  intros l x fuel Hx F L. split; [|apply char_mid]. assert (K : forall u v fuel, w = u ++ v -> (List.length u < fuel)%nat -> back_loop (l ++ x :: w) (zlen (l ++ x :: u) - 1) fuel = Val (zlen l)).
  { induction u as [|c u IH] using rev_ind; intros v f E Lf; (destruct f as [|f]; [lia|]); cbn [back_loop].
    - replace (zlen (l ++ [x]) - 1) with (zlen l) by (rewrite zlen_app; change (zlen [x]) with 1; lia). rewrite char_mid. cbn [bind]. now rewrite Hx.
    - replace (zlen (l ++ x :: u ++ [c]) - 1) with (zlen (l ++ x :: u)) by (rewrite !zlen_app, !zlen_cons, zlen_app; change (zlen [c]) with 1; lia).
      assert (Ew : l ++ x :: w = (l ++ x :: u) ++ c :: v) by (rewrite E, <- !app_assoc; reflexivity). rewrite Ew at 1. rewrite char_mid. cbn [bind].
      assert (Wc : is_ws c = true) by (apply ws_true; rewrite Forall_forall in F; apply F; rewrite E; apply in_or_app; left; apply in_or_app; right; now left). rewrite Wc.
      apply (IH (c :: v)); [rewrite E, <- app_assoc; reflexivity|rewrite app_length in Lf; cbn in Lf; lia]. }
  apply (K w [] fuel); [now rewrite app_nil_r|exact L].
Qed.
Lemma attrs_hlast l a : hattr_ok a -> exists w q, flat_map hattr_text (l ++ [a]) = w ++ [q] /\ is_ws q = false /\ (q =? 47) = false.
Proof. intros (_ & _ & _ & _ & _ & Q & _). rewrite flat_map_app. cbn [flat_map]. unfold hattr_text at 2. rewrite app_nil_r, !app_assoc. eexists _, _. split; [reflexivity|]. destruct Q as [-> | ->]; auto. Qed.
Lemma solid_last n l : name_ok n -> Forall hattr_ok l -> exists w x, n ++ flat_map hattr_text l = w ++ [x] /\ is_ws x = false /\ (x =? 47) = false.
Proof.
  intros Hn F. destruct l as [|a l _] using rev_ind; [destruct (name_last n Hn) as (w & c & E & Hc); exists w, c; cbn [flat_map]; rewrite app_nil_r; split; [exact E|]; destruct (nchar_facts c Hc) as (A & _ & C & _); auto|].
  apply Forall_app in F as [_ F]. inversion F; subst. destruct (attrs_hlast l a H1) as (w & q & E & A & B). exists (n ++ w), q. rewrite E, app_assoc. auto.
Qed.
(** a start tag, ending in blanks; [sl]: a slash and more blanks *)
Lemma parse_htag n l w (sl : bool) w' : name_ok n -> Forall hattr_ok l -> blanks w -> blanks w' ->
  parse_tag (n ++ flat_map hattr_text l ++ w ++ (if sl then 47 :: w' else [])) = Val (EStart (local n) n (map hpair l) :: if sl then [EEnd (local n) n] else []).
Proof.
  intros Hn Hl Bw Bw'. unfold parse_tag. cbv zeta. set (raw := n ++ flat_map hattr_text l ++ w ++ (if sl then 47 :: w' else [])).
  assert (B : exists u x v, raw ++ [32] = u ++ x :: v /\ is_ws x = false /\ (x =? 47) = sl /\ Forall ws v).
  { assert (W32 : Forall ws [32]) by (repeat constructor; now left). unfold raw. destruct sl.
    - exists (n ++ flat_map hattr_text l ++ w), 47, (w' ++ [32]). rewrite <- !app_assoc. split; [reflexivity|]. split; [reflexivity|]. split; [reflexivity|]. apply Forall_app. split; [now apply blanks_forall|exact W32].
    - destruct (solid_last n l Hn Hl) as (u & x & E & A & C). exists u, x, (w ++ [32]). rewrite app_nil_r. rewrite app_assoc, E, <- !app_assoc. split; [reflexivity|]. split; [exact A|]. split; [exact C|]. apply Forall_app. split; [now apply blanks_forall|exact W32]. }
  destruct B as (u & x & v & Er & Wx & X & Fv). destruct (back_blanks v u x (S (S (List.length (raw ++ [32])))) Wx Fv) as [E1 E2]; [rewrite Er, app_length; cbn; lia|]. rewrite <- Er in E1, E2. rewrite E1. cbn [bind]. rewrite E2. cbn [bind]. rewrite X.
  destruct (name_first n Hn) as (c & r & En & Hc). destruct (nchar_facts c Hc) as (A & _ & C & _). assert (E3 : exists z, raw ++ [32] = c :: z) by (unfold raw; rewrite En; eexists; reflexivity). destruct E3 as (z & E3).
  destruct (skip_ok c z (S (List.length (raw ++ [32]))) A) as [K1 K2]. rewrite <- E3 in K1, K2. rewrite K1. cbn [bind]. rewrite K2. cbn [bind]. rewrite C.
  pose proof (tag_loop_ok _ (raw ++ [32]) [] (TS false 0 0 [] [] [] []) (S (S (List.length (raw ++ [32])))) (le_n _) ltac:(lia)) as TL. cbn [app] in TL. change (zlen (@nil Z)) with 0 in TL. rewrite TL. unfold raw. rewrite <- !app_assoc.
  destruct (tl_htag n l (w ++ (if sl then 47 :: w' else []) ++ [32]) Hn Hl) as (s' & -> & T1 & T2).
  { apply Forall_app. split; [now apply wsb|]. apply Forall_app. split; [destruct sl; [constructor; [auto|now apply wsb]|constructor]|constructor; [left; now left|constructor]]. }
  { intros N. apply app_eq_nil in N as [_ N]. apply app_eq_nil in N as [_ N]. discriminate. }
  cbn [bind]. rewrite T1, T2, local_name_ok. destruct sl; reflexivity.
Qed.
Lemma parse_hclose n w : name_ok n -> blanks w -> parse_tag (47 :: n ++ w) = Val [EEnd (local n) n].
Proof.
  intros Hn Bw. unfold parse_tag. cbv zeta. destruct (name_last n Hn) as (u & x & Eu & Hx). destruct (nchar_facts x Hx) as (A & _ & C & _).
  assert (Er : (47 :: n ++ w) ++ [32] = (47 :: u) ++ x :: (w ++ [32])) by (rewrite Eu; cbn [app]; rewrite <- !app_assoc; reflexivity).
  destruct (back_blanks (w ++ [32]) (47 :: u) x (S (S (List.length ((47 :: n ++ w) ++ [32])))) A) as [E1 E2].
  { apply Forall_app. split; [now apply blanks_forall|repeat constructor; now left]. } { rewrite Er. cbn [app List.length]. rewrite !app_length. cbn [List.length]. rewrite app_length. cbn. lia. }
  rewrite <- Er in E1, E2. rewrite E1. cbn [bind]. rewrite E2. cbn [bind]. rewrite C. cbn [app].
  destruct (skip_ok 47 ((n ++ w) ++ [32]) (S (List.length (47 :: (n ++ w) ++ [32]))) eq_refl) as [K1 K2]. rewrite K1. cbn [bind]. rewrite K2. cbn [bind]. change (47 =? 47) with true. cbn match. change (0 + 1) with (zlen [47]).
  pose proof (tag_loop_ok _ ((n ++ w) ++ [32]) [47] (TS false 0 0 [] [] [] []) (S (S (List.length (47 :: (n ++ w) ++ [32])))) (le_n _) ltac:(cbn [List.length]; lia)) as TL. cbn [app] in TL. rewrite TL. rewrite <- app_assoc.
  destruct (tl_htag n [] (w ++ [32]) Hn (Forall_nil _)) as (s' & E & T1 & T2). { apply Forall_app. split; [now apply wsb|constructor; [left; now left|constructor]]. } { intros N. apply app_eq_nil in N as [_ N]. discriminate. }
  cbn [flat_map app] in E. rewrite E. cbn [bind]. rewrite T1, local_name_ok. reflexivity.
Qed.
(** ** the text parser *)
Lemma pl_blanks w : forall rest op tok, blanks w -> ploop (w ++ rest) None true false op tok = ploop rest None true false op (tok ++ w).
Proof.
  induction w as [|c w IH]; intros rest op tok B; [now rewrite app_nil_r|]. destruct (ws_facts c (B c (or_introl eq_refl))) as (A1 & A2 & A3 & A4 & _). cbn [app ploop negb andb]. rewrite A1, A2, A3, A4. cbn [andb orb]. rewrite andb_false_r. cbn [andb]. rewrite IH by (intros x I; apply B; now right). now rewrite <- app_assoc.
Qed.
Lemma pl_hvalue q w : forall rest tok, q = 34 \/ q = 39 -> ~ In q w -> ploop (w ++ rest) None true true q tok = ploop rest None true true q (tok ++ w).
Proof.
  induction w as [|c w IH]; intros rest tok Q H; cbn [app]; [now rewrite app_nil_r|]. cbn [ploop negb]. rewrite !andb_false_r.
  rewrite (neqb q c) by (intros ->; apply H; now left). destruct (((c =? 34) || (c =? 39)) && true); rewrite IH by (auto; intros I; apply H; now right); now rewrite <- app_assoc.
Qed.
Lemma pl_q q rest op tok : q = 34 \/ q = 39 -> ploop (q :: rest) None true false op tok = ploop rest None true true q (tok ++ [q]) /\ ploop (q :: rest) None true true q tok = ploop rest None true false q (tok ++ [q]).
Proof. intros [-> | ->]; split; reflexivity. Qed.
Lemma pl_hattrs l : forall rest op tok, Forall hattr_ok l -> exists op', ploop (flat_map hattr_text l ++ rest) None true false op tok = ploop rest None true false op' (tok ++ flat_map hattr_text l).
Proof.
  induction l as [|a l IH]; intros rest op tok F; cbn [flat_map]; [exists op; now rewrite app_nil_r|]. apply Forall_cons_iff in F as [(N & B & [_ Fn] & B1 & B2 & Q & V1 & V2) F]. unfold hattr_text at 1. rewrite <- !app_assoc.
  rewrite pl_blanks by exact B. rewrite pl_name by (apply Forall_forall; exact Fn). rewrite pl_blanks by exact B1. change (str "=") with [61]. cbn [app].
  match goal with |- exists _, ploop (61 :: ?r) None true false ?o ?t = _ => change (ploop (61 :: r) None true false o t) with (ploop r None true false o (t ++ [61])) end.
  rewrite pl_blanks by exact B2. rewrite (proj1 (pl_q (h_quote a) _ _ _ Q)). rewrite pl_hvalue by assumption. rewrite (proj2 (pl_q (h_quote a) _ 0 _ Q)).
  match goal with |- exists _, ploop _ None true false ?o ?t = _ => destruct (IH rest o t F) as (op' & ->) end. exists op'. f_equal. unfold hattr_text. rewrite <- !app_assoc. reflexivity.
Qed.
Lemma ploop_hitems l : forall op buf, Forall hitem_ok l -> ploop (flat_map htext l) None false false op buf = Val (hreport buf l).
Proof.
  assert (Gt : forall c r op tok, (c = 47) -> ploop (c :: r) None true false op tok = ploop r None true false op (tok ++ [c])) by (intros c r op tok ->; reflexivity).
  induction l as [|i l IH]; intros op buf F; [reflexivity|]. apply Forall_cons_iff in F as [Hi F]. cbn [flat_map]. destruct i as [n a w|n a w w'|n w|t]; cbn [htext hreport hitem_ok] in *.
  - destruct Hi as (Hn & Ha & Bw). change (str "<") with [60]. change (str ">") with [62]. rewrite <- !app_assoc. cbn [app]. rewrite pl_lt. rewrite pl_name by (apply Forall_forall; exact (proj2 Hn)). destruct (pl_hattrs a (w ++ 62 :: flat_map htext l) op ([] ++ n) Ha) as (op' & E). cbn [app] in E |- *. rewrite E. rewrite pl_blanks by exact Bw. rewrite pl_gt.
    pose proof (parse_htag n a w false [] Hn Ha Bw ltac:(intros c [])) as P. rewrite app_nil_r in P. rewrite <- app_assoc, P. cbn [bind]. rewrite IH by exact F. reflexivity.
  - destruct Hi as (Hn & Ha & Bw & Bw'). change (str "<") with [60]. change (str ">") with [62]. change (str "/") with [47]. rewrite <- !app_assoc. cbn [app]. rewrite pl_lt. rewrite pl_name by (apply Forall_forall; exact (proj2 Hn)). destruct (pl_hattrs a (w ++ 47 :: w' ++ 62 :: flat_map htext l) op ([] ++ n) Ha) as (op' & E). cbn [app] in E |- *. rewrite E. rewrite pl_blanks by exact Bw. rewrite Gt by reflexivity. rewrite pl_blanks by exact Bw'. rewrite pl_gt.
    pose proof (parse_htag n a w true w' Hn Ha Bw Bw') as P. rewrite <- !app_assoc. cbn [app]. rewrite P. cbn [bind]. rewrite IH by exact F. reflexivity.
  - destruct Hi as (Hn & Bw). change (str "</") with [60; 47]. change (str ">") with [62]. rewrite <- !app_assoc. cbn [app]. rewrite pl_lt. rewrite Gt by reflexivity. rewrite pl_name by (apply Forall_forall; exact (proj2 Hn)). rewrite pl_blanks by exact Bw. cbn [app]. rewrite pl_gt, parse_hclose by assumption. cbn [bind]. rewrite IH by exact F. reflexivity.
  - destruct Hi. rewrite pl_raw by assumption. now apply IH.
Qed.
(** C46: for every sequence of tags and texts in this form, however spaced and quoted, the parser reports exactly its elements, attributes and texts: a value keeps every character, in particular the other
    kind of quote and angle brackets *)
Theorem C46_hand_written : forall l, Forall hitem_ok l -> parse (flat_map htext l) = Val (EStartDoc :: hreport [] l ++ [EEndDoc]).
Proof. intros l F. rewrite parse_ok, ploop_hitems by exact F. reflexivity. Qed.
Definition hsample : list hitem := [HOpen (str "a") [HA [32; 10] (str "k") [32] [] 34 (str "it's < 5"); HA [9] (str "n:l") [] [32; 32] 39 (str "say ""x"">")] [32]; HText (str " 'text' "); HEmpty (str "b") [] [32] [10]; HClose (str "a") [32]].
Example hsample_ok : Forall hitem_ok hsample /\ parse (flat_map htext hsample) = Val [EStartDoc; EStart (str "a") (str "a") [(str "k", str "it's < 5"); (str "n:l", str "say ""x"">")]; EChars (str " 'text' "); EStart (str "b") (str "b") []; EEnd (str "b") (str "b"); EEnd (str "a") (str "a"); EEndDoc].
Proof.
  assert (N : forall n, n <> [] -> forallb (fun c => negb (existsb (Z.eqb c) ([32; 13; 10; 9; 8; 12] ++ str "=/""'>"))) n = true -> name_ok n).
  { intros n H1 H. split; [exact H1|]. intros c I Q. rewrite forallb_forall in H. specialize (H c I). rewrite (proj2 (existsb_exists _ _)) in H; [discriminate|]. exists c. split; [exact Q|apply Z.eqb_refl]. }
  assert (B : forall w, forallb is_ws w = true -> blanks w) by (intros w H c I; apply ws_true; rewrite forallb_forall in H; now apply H).
  assert (NI : forall c v, existsb (Z.eqb c) v = false -> ~ In c v) by (intros c v H I; rewrite (proj2 (existsb_exists _ _)) in H; [discriminate|]; exists c; split; [exact I|apply Z.eqb_refl]).
  split; [|vm_compute; reflexivity]. unfold hsample.
  assert (A : forall a, forallb is_ws (h_before a ++ h_w1 a ++ h_w2 a) = true -> name_ok (h_name a) -> h_before a <> [] -> (h_quote a = 34 \/ h_quote a = 39) -> existsb (Z.eqb (h_quote a)) (h_value a) || existsb (Z.eqb 38) (h_value a) = false -> hattr_ok a).
  { intros a H1 H2 H3 H4 H5. rewrite !forallb_app, !andb_true_iff in H1. apply orb_false_iff in H5 as [H5 H6]. destruct H1 as (W1 & W2 & W3). unfold hattr_ok. auto 10. }
  constructor; [|constructor; [|constructor; [|constructor; [|constructor]]]]; cbn [hitem_ok].
  - split; [apply N; [discriminate|reflexivity]|]. split; [|apply B; reflexivity]. constructor; [|constructor; [|constructor]]; (apply A; cbn; [reflexivity|apply N; [discriminate|reflexivity]|discriminate|auto|reflexivity]).
  - split; apply NI; reflexivity.
  - split; [apply N; [discriminate|reflexivity]|]. split; [constructor|]. split; apply B; reflexivity.
  - split; [apply N; [discriminate|reflexivity]|]. apply B; reflexivity.
Qed.
Print Assumptions C46_hand_written.
