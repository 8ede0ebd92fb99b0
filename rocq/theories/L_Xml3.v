From Coq Require Import Ascii String.
From Verif Require Import Base M_Base64 S_Base64 M_String M_Tokenizer S_String S_Tokenizer L_String L_String2 P_String M_Xml S_Xml L_Xml L_Xml2.
Open Scope list_scope.
Definition is_nil (q : list Z) : bool := match q with [] => true | _ => false end.
(** the loops by recursion on the rest of the text *)
Fixpoint ploop (q : list Z) (esc : option (list Z)) (inTag inValue : bool) (opener : Z) (token : list Z) : out (list event) :=
  match q with
  | [] => Val []
  | c :: r =>
    match esc with
    | Some e => if (c =? 59) || is_nil r then ploop r None inTag inValue opener (token ++ unescape_text (e ++ [c])) else ploop r (Some (e ++ [c])) inTag inValue opener token
    | None =>
      if (c =? 60) && negb inTag && negb inValue then let* x := ploop r None true inValue opener [] in Val (flush token ++ x)
      else if (c =? 38) && negb inTag then (if is_nil r then Exn else ploop r (Some []) inTag inValue opener token)
      else if (c =? 62) && inTag && negb inValue then let* e := parse_tag token in let* x := ploop r None false inValue opener [] in Val (e ++ x)
      else if ((c =? 34) || (c =? 39)) && inTag then
        let '(inValue, opener) := if negb inValue then (true, c) else if opener =? c then (false, opener) else (inValue, opener) in
        ploop r None inTag inValue opener (token ++ [c])
      else ploop r None inTag inValue opener (token ++ [c])
    end
  end.
Definition add_token (s : tagst) (t : list Z) : tagst := TS (t_inval s) (t_opener s) (t_step s) (t_token s ++ t) (t_tname s) (t_aname s) (t_attrs s).
Fixpoint tloop (q : list Z) (esc : option (list Z)) (s : tagst) : out tagst :=
  match q with
  | [] => Val s
  | c :: r =>
    match esc with
    | Some e => if (c =? 59) || is_nil r then tloop r None (add_token s (unescape_value (e ++ [c]))) else tloop r (Some (e ++ [c])) s
    | None => if (c =? 38) && t_inval s then (if is_nil r then Exn else tloop r (Some []) s) else tloop r None (tag_char s c)
    end
  end.
Lemma char_mid p c r : char_of (p ++ c :: r) (zlen p) = Val c.
Proof. unfold char_of. now rewrite lget_mid. Qed.
Lemma escape_ok q : forall p esc fuel, q <> [] -> (List.length q <= fuel)%nat -> exists m r, q = m ++ r /\ m <> [] /\
  escape_loop (p ++ q) (zlen p - 1) esc fuel = Val (zlen p + zlen m - 1, esc ++ m) /\
  (forall inTag inValue opener token, ploop q (Some esc) inTag inValue opener token = ploop r None inTag inValue opener (token ++ unescape_text (esc ++ m))) /\
  (forall s, tloop q (Some esc) s = tloop r None (add_token s (unescape_value (esc ++ m)))).
Proof.
  induction q as [|c q IH]; intros p esc fuel N F; [contradiction|]. destruct fuel as [|fuel]; [cbn in F; lia|]. cbn [List.length] in F. cbn [escape_loop]. replace (zlen p - 1 + 1) with (zlen p) by lia. rewrite char_mid. cbn [bind].
  assert (B : (zlen p <? zlen (p ++ c :: q) - 1) = negb (is_nil q)). { rewrite zlen_app, zlen_cons. destruct q as [|d q]; cbn [is_nil negb]; [change (zlen (@nil Z)) with 0; apply Z.ltb_ge; lia|rewrite zlen_cons; pose proof (zlen_nonneg q); apply Z.ltb_lt; lia]. }
  rewrite B. destruct ((c =? 59) || is_nil q) eqn:D.
  - exists [c], q. split; [reflexivity|]. split; [discriminate|]. split.
    + assert (X : negb (c =? 59) && negb (is_nil q) = false) by (destruct (c =? 59), (is_nil q); auto; discriminate). rewrite X. change (zlen [c]) with 1. replace (zlen p + 1 - 1) with (zlen p) by lia. reflexivity.
    + split; intros; cbn [ploop tloop]; rewrite D; reflexivity.
  - assert (X : negb (c =? 59) && negb (is_nil q) = true) by (destruct (c =? 59), (is_nil q); auto; discriminate). rewrite X.
    assert (Nq : q <> []) by (intros ->; destruct (c =? 59); discriminate).
    destruct (IH (p ++ [c]) (esc ++ [c]) fuel Nq ltac:(lia)) as (m & r & E & Nm & E1 & E2 & E3). exists (c :: m), r. split; [now rewrite E|]. split; [discriminate|].
    replace (zlen (p ++ [c]) - 1) with (zlen p) in E1 by (rewrite zlen_app; change (zlen [c]) with 1; lia). rewrite <- app_assoc in E1. cbn [app] in E1. rewrite E1.
    split; [replace (zlen p + zlen (c :: m) - 1) with (zlen (p ++ [c]) + zlen m - 1) by (unfold zlen; rewrite app_length; cbn [List.length]; lia); now rewrite <- app_assoc|]. split; intros; cbn [ploop tloop]; rewrite D, ?E2, ?E3, <- app_assoc; reflexivity.
Qed.
Lemma parse_loop_ok k : forall q p inTag inValue opener token fuel, (List.length q <= k)%nat -> (List.length q < fuel)%nat ->
  parse_loop (p ++ q) (zlen p) inTag inValue opener token fuel = ploop q None inTag inValue opener token.
Proof.
  induction k as [|k IH]; intros q p inTag inValue opener token fuel Hk Hf; (destruct fuel as [|fuel]; [lia|]); cbn [parse_loop].
  - destruct q; [|cbn in Hk; lia]. rewrite app_nil_r. rewrite Z.ltb_irrefl. reflexivity.
  - destruct q as [|c q]; [rewrite app_nil_r, Z.ltb_irrefl; reflexivity|]. cbn [List.length] in Hk, Hf.
    assert (L : (zlen p <? zlen (p ++ c :: q)) = true) by (rewrite zlen_app, zlen_cons; pose proof (zlen_nonneg q); apply Z.ltb_lt; lia). rewrite L, char_mid. cbn [bind ploop].
    assert (Nx : forall a b d e f, (List.length q < f)%nat -> parse_loop (p ++ c :: q) (zlen p + 1) a b d e f = ploop q None a b d e).
    { intros. replace (p ++ c :: q) with ((p ++ [c]) ++ q) by (rewrite <- app_assoc; reflexivity). replace (zlen p + 1) with (zlen (p ++ [c])) by (rewrite zlen_app; reflexivity). apply IH; lia. }
    rewrite !Nx by lia. destruct ((c =? 60) && negb inTag && negb inValue); [reflexivity|]. destruct ((c =? 38) && negb inTag).
    + destruct q as [|d q]; cbn [is_nil].
      * destruct fuel as [|fuel]; [cbn in Hf; lia|]. cbn [escape_loop]. unfold char_of. rewrite lget_out by (rewrite zlen_app, zlen_cons; change (zlen (@nil Z)) with 0; lia). reflexivity.
      * destruct (escape_ok (d :: q) (p ++ [c]) [] fuel ltac:(discriminate) ltac:(lia)) as (m & r & E & Nm & E1 & E2 & _). replace (zlen (p ++ [c]) - 1) with (zlen p) in E1 by (rewrite zlen_app; change (zlen [c]) with 1; lia). rewrite <- app_assoc in E1. cbn [app] in E1. rewrite E1. cbn [bind].
        rewrite E2. cbn [app]. rewrite E. replace (p ++ c :: m ++ r) with (((p ++ [c]) ++ m) ++ r) by (rewrite <- !app_assoc; reflexivity). replace (zlen (p ++ [c]) + zlen m - 1 + 1) with (zlen ((p ++ [c]) ++ m)) by (rewrite (zlen_app (p ++ [c])); lia).
        assert (List.length (d :: q) = List.length m + List.length r)%nat by (rewrite E; apply app_length). assert (0 < List.length m)%nat by (destruct m; [contradiction|cbn; lia]). apply IH; lia.
    + destruct ((c =? 62) && inTag && negb inValue); [reflexivity|]. destruct (((c =? 34) || (c =? 39)) && inTag); [|reflexivity]. destruct (negb inValue); [apply Nx; lia|]. destruct (opener =? c); apply Nx; lia.
Qed.
Lemma parse_ok xml : parse xml = let* r := ploop xml None false false 34 [] in Val (EStartDoc :: r ++ [EEndDoc]).
Proof. unfold parse. pose proof (parse_loop_ok _ xml [] false false 34 [] (S (S (List.length xml))) (le_n _) ltac:(lia)) as H. cbn [app] in H. change (zlen (@nil Z)) with 0 in H. now rewrite H. Qed.
Lemma tag_loop_ok k : forall q p s fuel, (List.length q <= k)%nat -> (List.length q < fuel)%nat -> tag_loop (p ++ q) (zlen p) s fuel = tloop q None s.
Proof.
  induction k as [|k IH]; intros q p s fuel Hk Hf; (destruct fuel as [|fuel]; [lia|]); cbn [tag_loop].
  - destruct q; [|cbn in Hk; lia]. rewrite app_nil_r. rewrite Z.ltb_irrefl. reflexivity.
  - destruct q as [|c q]; [rewrite app_nil_r, Z.ltb_irrefl; reflexivity|]. cbn [List.length] in Hk, Hf.
    assert (L : (zlen p <? zlen (p ++ c :: q)) = true) by (rewrite zlen_app, zlen_cons; pose proof (zlen_nonneg q); apply Z.ltb_lt; lia). rewrite L, char_mid. cbn [bind tloop].
    assert (Nx : forall a f, (List.length q < f)%nat -> tag_loop (p ++ c :: q) (zlen p + 1) a f = tloop q None a).
    { intros. replace (p ++ c :: q) with ((p ++ [c]) ++ q) by (rewrite <- app_assoc; reflexivity). replace (zlen p + 1) with (zlen (p ++ [c])) by (rewrite zlen_app; reflexivity). apply IH; lia. }
    rewrite !Nx by lia. destruct ((c =? 38) && t_inval s); [|reflexivity]. destruct q as [|d q]; cbn [is_nil].
    + destruct fuel as [|fuel]; [cbn in Hf; lia|]. cbn [escape_loop]. unfold char_of. rewrite lget_out by (rewrite zlen_app, zlen_cons; change (zlen (@nil Z)) with 0; lia). reflexivity.
    + destruct (escape_ok (d :: q) (p ++ [c]) [] fuel ltac:(discriminate) ltac:(lia)) as (m & r & E & Nm & E1 & _ & E2). replace (zlen (p ++ [c]) - 1) with (zlen p) in E1 by (rewrite zlen_app; change (zlen [c]) with 1; lia). rewrite <- app_assoc in E1. cbn [app] in E1. rewrite E1. cbn [bind].
      rewrite E2. cbn [app]. rewrite E. replace (p ++ c :: m ++ r) with (((p ++ [c]) ++ m) ++ r) by (rewrite <- !app_assoc; reflexivity). replace (zlen (p ++ [c]) + zlen m - 1 + 1) with (zlen ((p ++ [c]) ++ m)) by (rewrite (zlen_app (p ++ [c])); lia).
      assert (List.length (d :: q) = List.length m + List.length r)%nat by (rewrite E; apply app_length). assert (0 < List.length m)%nat by (destruct m; [contradiction|cbn; lia]). apply IH; lia.
Qed.
