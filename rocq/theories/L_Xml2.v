From Coq Require Import Ascii String.
From Verif Require Import Base M_Base64 S_Base64 M_String M_Tokenizer S_String S_Tokenizer L_String L_Tokenizer M_Xml S_Xml L_Xml.
Open Scope list_scope.
Lemma depth_shut h : forall d pend, depth d h = O -> (pend = true -> d <> O) -> shut pend h = true.
Proof.
  induction h as [|c h IH]; intros d pend H P; cbn [depth shut] in *.
  - destruct pend; [exfalso; now apply P|reflexivity].
  - destruct c; (apply (IH _ _ H); intros ?; try discriminate; now apply P).
Qed.
Fixpoint gdepth (d : nat) (g : list gcall) : nat :=
  match g with [] => d | GStart _ _ :: g => gdepth (S d) g | GEnd :: g => gdepth (pred d) g | _ :: g => gdepth d g end.
Lemma group_depth h : forall d, gdepth d (group h) = depth d h.
Proof. induction h as [|[| |n| |t []|b|n v] h IH]; intros d; cbn [group gdepth depth]; auto. Qed.
(** a sequence that closes the elements of the stack *)
Fixpoint closes (st : list frame) (l : list item) : Prop :=
  match st with
  | [] => forest l
  | f :: st => exists body r, l = body ++ IClose (fst (fst f)) :: r /\ forest body /\ closes st r
  end.
Lemma closes_chars st l : closes (has_chars st) l = closes st l. Proof. destruct st as [|[[n i] c] st]; reflexivity. Qed.
Lemma closes_text st i l : (match i with IText _ | IRaw _ | IEmpty _ _ => True | _ => False end) -> closes st l -> closes st (i :: l).
Proof.
  destruct st as [|f st]; cbn [closes].
  - intros Hi H. destruct i; try contradiction; now constructor.
  - intros Hi (b & r & -> & F & C). exists (i :: b), r. split; [reflexivity|]. split; [|exact C]. destruct i; try contradiction; now constructor.
Qed.
Lemma forest_app a b : forest a -> forest b -> forest (a ++ b).
Proof. induction 1; intros Hb; cbn [app]; auto; try (constructor; now auto). rewrite <- app_assoc. cbn [app]. constructor; auto. Qed.
Lemma closes_open st n i c a l : closes ((n, i, c) :: st) l -> closes st (IOpen n a :: l).
Proof.
  cbn [closes fst]. intros (b & r & -> & F & C). destruct st as [|f st]; cbn [closes] in *; [now constructor|]. destruct C as (b' & r' & -> & F' & C). exists (IOpen n a :: b ++ IClose n :: b'), r'. split; [cbn [app]; f_equal; now rewrite <- app_assoc|]. split; [now constructor|exact C].
Qed.
Lemma items_close k : forall g st ind last fresh, (List.length g <= k)%nat -> gdepth (List.length st) g = O -> closes st (items g st ind last fresh).
Proof.
  induction k as [|k IH]; intros g st ind last fresh Hk Hd.
  - destruct g; [|cbn in Hk; lia]. cbn [gdepth] in Hd. destruct st; [constructor|discriminate].
  - assert (HC : forall st' g' ind' l' f', (List.length g' <= k)%nat -> gdepth (List.length st) g' = O -> List.length st' = List.length st -> closes st' (items g' st' ind' l' f')) by (intros; apply IH; [lia|congruence]).
    assert (LC : List.length (has_chars st) = List.length st) by (destruct st as [|[[? ?] ?] ?]; reflexivity).
    destruct g as [|c g]; [cbn [gdepth] in Hd; destruct st; [constructor|discriminate]|]. cbn [List.length] in Hk. destruct c as [n a| |t|t|d| |]; cbn [items gdepth] in *.
    + assert (X : closes st (match g with GEnd :: g0 => IEmpty n a :: items g0 st ind false false | _ => IOpen n a :: items g ((n, last, false) :: st) ind false true end)).
      { assert (O : closes st (IOpen n a :: items g ((n, last, false) :: st) ind false true)) by (eapply closes_open; apply IH; [lia|exact Hd]).
        destruct g as [|[] g]; try exact O. apply closes_text; [exact I|]. apply IH; [cbn [List.length] in Hk; lia|]. exact Hd. }
      destruct last; [apply closes_text; [exact I|]|]; exact X.
    + destruct st as [|[[n i] c] st]; [apply (IH g []); [lia|exact Hd]|]. cbn [closes fst]. exists (if i && negb c then [newline ind] else []), (items g st ind false false). split; [reflexivity|]. split; [destruct (i && negb c); repeat constructor|]. apply IH; [lia|exact Hd].
    + apply closes_text; [exact I|]. rewrite <- closes_chars. apply HC; [lia|exact Hd|exact LC].
    + apply closes_text; [exact I|]. rewrite <- closes_chars. apply HC; [lia|exact Hd|exact LC].
    + apply closes_text; [exact I|]. destruct fresh; [rewrite <- closes_chars|]; apply HC; auto; lia.
    + apply HC; auto; lia.
    + apply HC; auto; lia.
Qed.
Lemma document_forest h : closed h -> forest (document h).
Proof. intros H. apply (items_close _ _ [] 0 false false (le_n _)). cbn [List.length]. rewrite group_depth. exact H. Qed.
Fixpoint gstarts (g : list gcall) := match g with [] => [] | GStart n a :: g => (n, a) :: gstarts g | _ :: g => gstarts g end.
Lemma group_starts h : gstarts (group h) = started h.
Proof. induction h as [|[| |n| |t []|b|n v] h IH]; cbn [group gstarts started]; auto. now rewrite IH. Qed.
Lemma items_opened k : forall g st ind last fresh, (List.length g <= k)%nat -> opened (items g st ind last fresh) = gstarts g.
Proof.
  unfold opened. induction k as [|k IH]; intros g st ind last fresh Hk; [destruct g; [reflexivity|cbn in Hk; lia]|]. destruct g as [|c g]; [reflexivity|]. cbn [List.length] in Hk. destruct c as [n a| |t|t|d| |]; cbn [items gstarts flat_map app].
  - rewrite flat_map_app. replace (flat_map _ (if last then [newline ind] else [])) with (@nil (list Z * list attribute)) by (destruct last; reflexivity). cbn [app].
    assert (O : flat_map (fun i => match i with IOpen n a | IEmpty n a => [(n, a)] | _ => [] end) (IOpen n a :: items g ((n, last, false) :: st) ind false true) = (n, a) :: gstarts g) by (cbn [flat_map app]; rewrite IH by lia; reflexivity).
    destruct g as [|[] g]; try exact O. cbn [flat_map app gstarts]. rewrite IH by (cbn [List.length] in Hk; lia). reflexivity.
  - destruct st as [|[[n i] c] st]; [apply IH; lia|]. rewrite flat_map_app. cbn [flat_map]. rewrite IH by lia. destruct (i && negb c); reflexivity.
  - apply IH; lia. - apply IH; lia. - apply IH; lia. - apply IH; lia. - apply IH; lia.
Qed.
Lemma document_opened h : opened (document h) = started h.
Proof. unfold document. rewrite (items_opened _ _ _ _ _ _ (le_n _)). apply group_starts. Qed.
(** all names and raw texts of the document come from the calls *)
Definition item_ok (i : item) : Prop :=
  match i with
  | IOpen n a | IEmpty n a => name_ok n /\ Forall (fun p => name_ok (fst p)) a
  | IClose n => name_ok n
  | IRaw t => ~ In 60 t /\ ~ In 38 t
  | IText _ => True
  end.
Definition gcall_ok (g : gcall) : Prop := match g with GStart n a => name_ok n /\ Forall (fun p => name_ok (fst p)) a | GRaw t => ~ In 60 t /\ ~ In 38 t | GBase64 d => Forall byte d | _ => True end.
Lemma group_ok h : Forall call_ok h -> Forall gcall_ok (group h).
Proof.
  induction h as [|c h IH]; intros H; [constructor|]. apply Forall_cons_iff in H as [Hc H]. specialize (IH H). destruct c as [| |n| |t []|b|n v]; cbn [group]; try (constructor; [|exact IH]); auto; try exact I.
  split; [exact Hc|]. clear - H. induction h as [|c h IH]; [constructor|]. apply Forall_cons_iff in H as [Hc H]. destruct c; cbn [attr_run]; constructor; auto.
Qed.
Lemma newline_ok ind : item_ok (newline ind).
Proof. split; intros [E|E]; try discriminate; apply repeat_spec in E; discriminate. Qed.
Lemma rfc_digit_ok v : 0 <= v -> rfc_digit v <> 60 /\ rfc_digit v <> 38.
Proof. intros H. unfold rfc_digit. destruct (Z.ltb_spec v 26); [lia|]. destruct (Z.ltb_spec v 52); [lia|]. destruct (Z.ltb_spec v 62); [lia|]. destruct (v =? 62); lia. Qed.
Lemma rfc_encode_ok k : forall d, (List.length d <= k)%nat -> Forall byte d -> ~ In 60 (rfc_encode d) /\ ~ In 38 (rfc_encode d).
Proof.
  assert (P : forall x l, 0 <= x -> ~ In 60 l /\ ~ In 38 l -> ~ In 60 (rfc_digit x :: l) /\ ~ In 38 (rfc_digit x :: l)). { intros x l Hx [A B]. pose proof (rfc_digit_ok x Hx) as [C D]. split; intros [E|E]; auto. }
  assert (Q : forall l, ~ In 60 l /\ ~ In 38 l -> ~ In 60 (61 :: l) /\ ~ In 38 (61 :: l)). { intros l [A B]. split; intros [E|E]; auto; lia. }
  assert (N : ~ In 60 (@nil Z) /\ ~ In 38 (@nil Z)) by (split; intros []).
  induction k as [|k IH]; intros [|a [|b [|c d]]] Hk F; cbn [rfc_encode]; auto; try (cbn in Hk; lia); unfold byte in F; repeat match goal with H : Forall _ (_ :: _) |- _ => apply Forall_cons_iff in H as [? ?] end.
  - repeat first [apply P; [|]|apply Q|exact N]; apply Z.div_pos || apply Z.mod_pos_bound; lia.
  - repeat first [apply P; [|]|apply Q|exact N]; first [apply Z.div_pos; lia|apply Z.mod_pos_bound; lia].
  - repeat (apply P; [first [apply Z.div_pos; lia|apply Z.mod_pos_bound; lia]|]). apply IH; [cbn in Hk; lia|assumption].
Qed.
Lemma items_ok k : forall g st ind last fresh, (List.length g <= k)%nat -> Forall gcall_ok g -> Forall (fun f => name_ok (fst (fst f))) st -> Forall item_ok (items g st ind last fresh).
Proof.
  induction k as [|k IH]; intros g st ind last fresh Hk Hg Hst; [destruct g; [constructor|cbn in Hk; lia]|].
  assert (HC : Forall (fun f : frame => name_ok (fst (fst f))) (has_chars st)) by (destruct st as [|[[n i] c] st]; [constructor|]; apply Forall_cons_iff in Hst as [H1 H2]; constructor; auto).
  destruct g as [|c g]; [constructor|]. cbn [List.length] in Hk. apply Forall_cons_iff in Hg as [Hc Hg]. destruct c as [n a| |t|t|d| |]; cbn [items gcall_ok] in *.
  - apply Forall_app. split; [destruct last; repeat constructor; apply newline_ok|].
    assert (O : Forall item_ok (IOpen n a :: items g ((n, last, false) :: st) ind false true)) by (constructor; [exact Hc|]; apply IH; [lia|exact Hg|]; constructor; [exact (proj1 Hc)|exact Hst]).
    destruct g as [|[] g]; try exact O. constructor; [exact Hc|]. apply IH; [cbn [List.length] in Hk; lia|now apply Forall_cons_iff in Hg as [_ Hg]|exact Hst].
  - destruct st as [|[[n i] c] st]; [apply IH; auto; lia|]. apply Forall_cons_iff in Hst as [H1 H2]. apply Forall_app. split; [destruct (i && negb c); repeat constructor; apply newline_ok|]. constructor; [exact H1|]. apply IH; auto; lia.
  - constructor; [exact I|]. apply IH; auto; lia.
  - constructor; [exact Hc|]. apply IH; auto; lia.
  - constructor; [exact (rfc_encode_ok _ d (le_n _) Hc)|]. apply IH; [lia|exact Hg|destruct fresh; assumption].
  - apply IH; auto; lia.
  - apply IH; auto; lia.
Qed.
Lemma document_ok h : Forall call_ok h -> Forall item_ok (document h).
Proof. intros H. apply (items_ok _ _ _ _ _ _ (le_n _)); [now apply group_ok|constructor]. Qed.
