From Coq Require Import Ascii String.
From Verif Require Import Base M_Base64 S_Base64 M_String M_Tokenizer S_String M_Xml S_Xml L_Xml L_Xml2 L_Xml3 L_Xml4.
Open Scope list_scope.
Lemma neqb x y : x <> y -> (x =? y) = false. Proof. apply Z.eqb_neq. Qed.
Lemma pl_text t : forall rest op buf, ploop (flat_map escape t ++ rest) None false false op buf = ploop rest None false false op (buf ++ kept t).
Proof.
  induction t as [|c t IH]; intros rest op buf; cbn [flat_map app]; [now rewrite app_nil_r|]. rewrite kept_cons, <- app_assoc, (app_assoc buf).
  destruct (esc_cases c) as [(e & -> & Ne & F & _ & U)|(-> & N1 & N2 & N3 & N4 & N5 & K)].
  - cbn [app]. rewrite <- (app_assoc e). cbn [app ploop]. change (38 =? 60) with false. change (38 =? 38) with true. cbn [andb negb]. replace (is_nil (e ++ 59 :: flat_map escape t ++ rest)) with false by (destruct e; reflexivity). rewrite pl_escape by exact F. cbn [app]. rewrite U. apply IH.
  - cbn [app ploop]. rewrite (neqb c 60), (neqb c 38), (neqb c 62), (neqb c 34), (neqb c 39) by assumption. cbn [andb orb]. rewrite K. apply IH.
Qed.
Lemma pl_raw t : forall rest op buf, ~ In 60 t -> ~ In 38 t -> ploop (t ++ rest) None false false op buf = ploop rest None false false op (buf ++ t).
Proof.
  induction t as [|c t IH]; intros rest op buf H1 H2; cbn [app]; [now rewrite app_nil_r|]. cbn [ploop]. rewrite (neqb c 60), (neqb c 38) by (intros ->; (apply H1 + apply H2); now left). cbn [andb negb]. rewrite !andb_false_r. cbn [andb]. rewrite IH by (intros I; (apply H1 + apply H2); now right). now rewrite <- app_assoc.
Qed.
Lemma pl_name n : forall rest op tok, Forall nchar n -> ploop (n ++ rest) None true false op tok = ploop rest None true false op (tok ++ n).
Proof.
  induction n as [|c n IH]; intros rest op tok F; cbn [app]; [now rewrite app_nil_r|]. apply Forall_cons_iff in F as [Hc F]. destruct (nchar_facts c Hc) as (A & B & C & D & E & G). cbn [ploop]. rewrite D, E, G. cbn [negb andb orb]. rewrite !andb_false_r. cbn [andb]. rewrite IH by exact F. now rewrite <- app_assoc.
Qed.
Lemma pl_value w : forall rest tok, ~ In 34 w -> ploop (w ++ rest) None true true 34 tok = ploop rest None true true 34 (tok ++ w).
Proof.
  induction w as [|c w IH]; intros rest tok H; cbn [app]; [now rewrite app_nil_r|]. cbn [ploop negb]. rewrite !andb_false_r. rewrite (neqb c 34) by (intros ->; apply H; now left). cbn [andb orb].
  rewrite (neqb 34 c) by (intros E; apply H; now left). rewrite andb_true_r. destruct (c =? 39); rewrite IH by (intros I; apply H; now right); now rewrite <- app_assoc.
Qed.
Lemma escape_no34 v : ~ In 34 (flat_map escape v).
Proof.
  intros H. apply in_flat_map in H as (c & _ & H). destruct (esc_cases c) as [(e & E & _ & F & _)|(E & _ & _ & _ & N & _)]; rewrite E in H.
  - destruct H as [H|H]; [discriminate|]. apply in_app_or in H as [H|[H|[]]]; [|discriminate]. rewrite Forall_forall in F. apply F in H. lia.
  - destruct H as [H|[]]. congruence.
Qed.
Lemma pl_attr p rest op tok : name_ok (fst p) -> ploop (show_attr p ++ rest) None true false op tok = ploop rest None true false 34 (tok ++ show_attr p).
Proof.
  intros [_ F]. unfold show_attr. change (str " ") with [32]. change (str "=""") with [61; 34]. change (str """") with [34]. rewrite <- !app_assoc. cbn [app].
  change (ploop (32 :: fst p ++ 61 :: 34 :: flat_map escape (snd p) ++ 34 :: rest) None true false op tok) with (ploop (fst p ++ 61 :: 34 :: flat_map escape (snd p) ++ 34 :: rest) None true false op (tok ++ [32])).
  rewrite pl_name by (apply Forall_forall; exact F).
  change (ploop (61 :: 34 :: flat_map escape (snd p) ++ 34 :: rest) None true false op ((tok ++ [32]) ++ fst p)) with (ploop (flat_map escape (snd p) ++ 34 :: rest) None true true 34 ((((tok ++ [32]) ++ fst p) ++ [61]) ++ [34])).
  rewrite pl_value by apply escape_no34.
  match goal with |- ploop (34 :: rest) None true true 34 ?t = _ => change (ploop (34 :: rest) None true true 34 t) with (ploop rest None true false 34 (t ++ [34])) end.
  rewrite <- !app_assoc. reflexivity.
Qed.
Lemma pl_attrs l : forall rest op tok, Forall (fun p : attribute => name_ok (fst p)) l -> exists op', ploop (flat_map show_attr l ++ rest) None true false op tok = ploop rest None true false op' (tok ++ flat_map show_attr l).
Proof.
  induction l as [|p l IH]; intros rest op tok F; cbn [flat_map app]; [exists op; now rewrite app_nil_r|]. apply Forall_cons_iff in F as [Fp F]. rewrite <- app_assoc. rewrite pl_attr by exact Fp. destruct (IH rest 34 (tok ++ show_attr p) F) as (op' & ->). exists op'. now rewrite <- app_assoc.
Qed.
Lemma pl_lt rest op buf : ploop (60 :: rest) None false false op buf = let* x := ploop rest None true false op [] in Val (flush buf ++ x). Proof. reflexivity. Qed.
Lemma pl_gt rest op tok : ploop (62 :: rest) None true false op tok = let* e := parse_tag tok in let* x := ploop rest None false false op [] in Val (e ++ x). Proof. reflexivity. Qed.
Lemma ploop_items l : forall op buf, Forall item_ok l -> ploop (flat_map show l) None false false op buf = Val (report buf l).
Proof.
  induction l as [|i l IH]; intros op buf F; [reflexivity|]. apply Forall_cons_iff in F as [Hi F]. cbn [flat_map]. destruct i as [n a|n a|n|t|t]; cbn [show report item_ok] in *.
  - destruct Hi as [Hn Ha]. change (str "<") with [60]. change (str ">") with [62]. rewrite <- !app_assoc. cbn [app]. rewrite pl_lt. rewrite pl_name by (apply Forall_forall; exact (proj2 Hn)). destruct (pl_attrs a ([62] ++ flat_map show l) op ([] ++ n) Ha) as (op' & E). cbn [app] in E |- *. rewrite E. rewrite pl_gt, parse_open by assumption. cbn [bind]. rewrite IH by exact F. reflexivity.
  - destruct Hi as [Hn Ha]. change (str "<") with [60]. change (str "/>") with [47; 62]. rewrite <- !app_assoc. cbn [app]. rewrite pl_lt. rewrite pl_name by (apply Forall_forall; exact (proj2 Hn)). destruct (pl_attrs a ([47; 62] ++ flat_map show l) op ([] ++ n) Ha) as (op' & E). cbn [app] in E |- *. rewrite E.
    change (ploop (47 :: 62 :: flat_map show l) None true false op' (n ++ flat_map show_attr a)) with (ploop (62 :: flat_map show l) None true false op' ((n ++ flat_map show_attr a) ++ [47])). rewrite <- app_assoc. rewrite pl_gt, parse_empty by assumption. cbn [bind]. rewrite IH by exact F. reflexivity.
  - change (str "</") with [60; 47]. change (str ">") with [62]. rewrite <- !app_assoc. cbn [app]. rewrite pl_lt. change (ploop (47 :: n ++ 62 :: flat_map show l) None true false op []) with (ploop (n ++ 62 :: flat_map show l) None true false op [47]). rewrite pl_name by (apply Forall_forall; exact (proj2 Hi)). cbn [app]. rewrite pl_gt, parse_close by assumption. cbn [bind]. rewrite IH by exact F. reflexivity.
  - rewrite pl_text. now apply IH.
  - destruct Hi. rewrite pl_raw by assumption. now apply IH.
Qed.
Definition prolog_start : event := EStart (str "?xml") (str "?xml") [(str "version", str "1.0"); (str "encoding", str "UTF-8")].
Lemma ploop_prolog l : Forall item_ok l -> ploop (prolog ++ flat_map show l) None false false 34 [] = Val (prolog_start :: report [10] l).
Proof.
  intros F. set (at_ := [(str "version", str "1.0"); (str "encoding", str "UTF-8")]).
  assert (E : prolog ++ flat_map show l = 60 :: str "?xml" ++ flat_map show_attr at_ ++ str "?" ++ 62 :: 10 :: flat_map show l) by reflexivity. rewrite E. rewrite pl_lt.
  assert (Nm : forall n, forallb (fun c => negb (existsb (Z.eqb c) ([32; 13; 10; 9; 8; 12] ++ str "=/""'>"))) n = true -> Forall nchar n).
  { intros n H. apply Forall_forall. intros c I Q. rewrite forallb_forall in H. specialize (H c I). rewrite (proj2 (existsb_exists _ _)) in H; [discriminate|]. exists c. split; [exact Q|apply Z.eqb_refl]. }
  assert (Na : Forall (fun p : attribute => name_ok (fst p)) at_). { assert (Nn : forall n, n <> [] -> Forall nchar n -> name_ok n) by (intros n A B; split; [exact A|now apply Forall_forall]). constructor; [|constructor; [|constructor]]; (apply Nn; [discriminate|apply Nm; reflexivity]). }
  rewrite pl_name by (now apply Nm). destruct (pl_attrs at_ (str "?" ++ 62 :: 10 :: flat_map show l) 34 ([] ++ str "?xml") Na) as (op' & ->). rewrite pl_name by (now apply Nm). rewrite pl_gt.
  replace (parse_tag ((([] ++ str "?xml") ++ flat_map show_attr at_) ++ str "?")) with (Val [prolog_start]) by (vm_compute; reflexivity). cbn [bind].
  change (ploop (10 :: flat_map show l) None false false op' []) with (ploop (flat_map show l) None false false op' [10]). rewrite ploop_items by exact F. reflexivity.
Qed.
(** ** the parser never goes wrong *)
Definition ok_or_exn {A} (o : out A) : Prop := match o with Val _ | Exn => True | _ => False end.
Lemma bind_ok {A B} (o : out A) (f : A -> out B) : ok_or_exn o -> (forall a, ok_or_exn (f a)) -> ok_or_exn (let* x := o in f x).
Proof. destruct o; cbn; auto. Qed.
Lemma char_ok l i : ok_or_exn (char_of l i). Proof. unfold char_of. destruct (lget l i); exact I. Qed.
Lemma back_total line : forall fuel pos, -1 <= pos -> pos + 1 < Z.of_nat fuel -> ok_or_exn (back_loop line pos fuel).
Proof.
  induction fuel as [|fuel IH]; intros pos P H; [lia|]. cbn [back_loop]. unfold char_of. destruct (Z.eq_dec pos (-1)) as [->|N]; [rewrite lget_out by lia; exact I|]. destruct (lget line pos); cbn [bind]; [|exact I]. destruct (is_ws z); [apply IH; lia|exact I].
Qed.
Lemma skip_total line : forall fuel pos, 0 <= pos <= zlen line -> zlen line < pos + Z.of_nat fuel -> ok_or_exn (skip_loop line pos fuel) /\ forall r, skip_loop line pos fuel = Val r -> 0 <= r < zlen line.
Proof.
  induction fuel as [|fuel IH]; intros pos P H; [lia|]. cbn [skip_loop]. unfold char_of. destruct (lget line pos) as [c|] eqn:E; cbn [bind]; [|split; [exact I|discriminate]].
  assert (pos < zlen line) by (destruct (Z_lt_dec pos (zlen line)); [assumption|]; rewrite lget_out in E by lia; discriminate). destruct (is_ws c); [apply IH; lia|]. split; [exact I|]. intros r R. injection R as <-. lia.
Qed.
Lemma tloop_total q : forall esc s, ok_or_exn (tloop q esc s).
Proof.
  induction q as [|c q IH]; intros esc s; cbn [tloop]; [exact I|]. destruct esc as [e|]; [destruct ((c =? 59) || is_nil q); apply IH|]. destruct ((c =? 38) && t_inval s); [|apply IH]. destruct (is_nil q); [exact I|apply IH].
Qed.
Lemma parse_tag_total t : ok_or_exn (parse_tag t).
Proof.
  unfold parse_tag. cbv zeta. set (line := t ++ [32]). apply bind_ok.
  - apply back_total; unfold line, zlen; rewrite app_length; cbn [List.length]; lia.
  - intros p. apply bind_ok; [apply char_ok|]. intros c. destruct (skip_total line (S (S (List.length line))) 0) as [S1 S2]; [pose proof (zlen_nonneg line); lia|unfold zlen; lia|].
    destruct (skip_loop line 0 (S (S (List.length line)))) as [pos| | |]; cbn [bind]; try exact S1; try contradiction. specialize (S2 pos eq_refl). apply bind_ok; [apply char_ok|]. intros d.
    assert (T : forall k, 0 <= k <= zlen line -> ok_or_exn (tag_loop line k (TS false 0 0 [] [] [] []) (S (S (List.length line))))).
    { intros k Hk. assert (E : line = firstn (Z.to_nat k) line ++ skipn (Z.to_nat k) line) by (symmetry; apply firstn_skipn). assert (Ek : k = zlen (firstn (Z.to_nat k) line)) by (unfold zlen in *; rewrite firstn_length; lia).
      rewrite E at 1. rewrite Ek at 3. rewrite (tag_loop_ok _ _ _ _ _ (le_n _)); [apply tloop_total|]. rewrite skipn_length. lia. }
    destruct (d =? 47); (apply bind_ok; [apply T; lia|]); intros s; rewrite local_name_ok; exact I.
Qed.
Lemma ploop_total q : forall esc a b o t, ok_or_exn (ploop q esc a b o t).
Proof.
  induction q as [|c q IH]; intros esc a b o t; cbn [ploop]; [exact I|]. destruct esc as [e|]; [destruct ((c =? 59) || is_nil q); apply IH|].
  destruct ((c =? 60) && negb a && negb b); [apply bind_ok; [apply IH|intros; exact I]|]. destruct ((c =? 38) && negb a); [destruct (is_nil q); [exact I|apply IH]|].
  destruct ((c =? 62) && a && negb b); [apply bind_ok; [apply parse_tag_total|intros e; apply bind_ok; [apply IH|intros; exact I]]|].
  destruct (((c =? 34) || (c =? 39)) && a); [|apply IH]. destruct (negb b); [apply IH|]. destruct (o =? c); apply IH.
Qed.
