From Coq Require Import Ascii String.
From Verif Require Import Base M_Base64 S_Base64 M_String M_Tokenizer S_String S_Tokenizer L_String L_String2 P_String M_Xml S_Xml L_Xml L_Xml2 L_Xml3.
Open Scope list_scope.
Lemma no_colon q : ~ In 58 q -> local q = q.
Proof. intros H. destruct q as [|c q]; [reflexivity|]. cbn [local]. destruct (existsb (Z.eqb 58) (c :: q)) eqn:E; [|reflexivity]. apply existsb_exists in E as (x & I & X). apply Z.eqb_eq in X. subst x. contradiction. Qed.
Lemma local_split a b : ~ In 58 b -> local (a ++ 58 :: b) = b.
Proof.
  intros H. induction a as [|c a IH]; cbn [app local].
  - cbn [existsb]. rewrite Z.eqb_refl. cbn [orb]. now apply no_colon.
  - assert (E : existsb (Z.eqb 58) (c :: a ++ 58 :: b) = true). { apply existsb_exists. exists 58. split; [right; apply in_or_app; right; now left|apply Z.eqb_refl]. } rewrite E. exact IH.
Qed.
Lemma in_lget (l : list Z) x : In x l -> exists i, 0 <= i < zlen l /\ lget l i = Some x.
Proof. intros H. apply in_split in H as (a & b & ->). exists (zlen a). rewrite zlen_app, zlen_cons. pose proof (zlen_nonneg a). pose proof (zlen_nonneg b). split; [lia|apply lget_mid]. Qed.
Lemma lget_split (l : list Z) i : 0 <= i < zlen l -> exists a x b, l = a ++ x :: b /\ zlen a = i.
Proof.
  intros H. exists (firstn (Z.to_nat i) l). unfold zlen in *. destruct (skipn (Z.to_nat i) l) as [|x b] eqn:E.
  - exfalso. assert (L : List.length (skipn (Z.to_nat i) l) = O) by now rewrite E. rewrite skipn_length in L. lia.
  - exists x, b. split; [rewrite <- E; symmetry; apply firstn_skipn|]. rewrite firstn_length. lia.
Qed.
Lemma local_name_ok q : local_name q = Val (local q).
Proof.
  unfold local_name. pose proof (str_of_repr q) as R. destruct (C12_lastIndexOf_char (str_of q) 58 0 (proj2 (repr_text _ _ R))) as (_ & _ & r & E & L). rewrite E. cbn [bind]. rewrite (proj1 (repr_text _ _ R)) in L.
  unfold substring_from. destruct (substring_ok (str_of q) q (r + 1) (len (str_of q)) R) as (s' & -> & Rs & _). cbn [bind]. rewrite (repr_chars _ _ Rs). f_equal. change (len (str_of q)) with (zlen q). pose proof (zlen_nonneg q) as P.
  destruct L as [(B & G & N)|(-> & N)].
  - destruct (lget_split q r ltac:(lia)) as (a & x & b & -> & Ha). rewrite <- Ha, lget_mid in G. injection G as ->.
    assert (Nb : ~ In 58 b). { intros I. destruct (in_lget b 58 I) as (i & Bi & Gi). apply (N (zlen a + 1 + i)); [rewrite zlen_app, zlen_cons in *; lia|]. replace (a ++ 58 :: b) with ((a ++ [58]) ++ b) by (rewrite <- app_assoc; reflexivity). rewrite lget_app_r by (rewrite zlen_app; change (zlen [58]) with 1; lia). rewrite zlen_app. change (zlen [58]) with 1. replace (zlen a + 1 + i - (zlen a + 1)) with i by lia. exact Gi. }
    rewrite (local_split a b Nb). rewrite zlen_app, zlen_cons in *. pose proof (zlen_nonneg a). pose proof (zlen_nonneg b). replace (a ++ 58 :: b) with ((a ++ [58]) ++ b) by (rewrite <- app_assoc; reflexivity).
    rewrite zdrop_app by (rewrite zlen_app; change (zlen [58]) with 1; lia). rewrite ztake_all by lia. reflexivity.
  - rewrite no_colon by (intros I; destruct (in_lget q 58 I) as (i & Bi & Gi); now apply (N i)). rewrite zdrop_0 by lia. rewrite ztake_all by lia. reflexivity.
Qed.
(** ** characters of names *)
Definition nchar (c : Z) : Prop := ~ In c ([32; 13; 10; 9; 8; 12] ++ str "=/""'>").
Lemma nchar_facts c : nchar c -> is_ws c = false /\ (c =? 61) = false /\ (c =? 47) = false /\ (c =? 34) = false /\ (c =? 39) = false /\ (c =? 62) = false.
Proof.
  intros H. unfold nchar in H. change ([32; 13; 10; 9; 8; 12] ++ str "=/""'>") with [32; 13; 10; 9; 8; 12; 61; 47; 34; 39; 62] in H. cbn [In] in H. unfold is_ws.
  rewrite !orb_false_iff, !Z.eqb_neq. repeat split; intros ->; apply H; tauto.
Qed.
Lemma add_nil s : add_token s [] = s. Proof. destruct s. unfold add_token. cbn. now rewrite app_nil_r. Qed.
Lemma add_add s a b : add_token (add_token s a) b = add_token s (a ++ b). Proof. destruct s. unfold add_token. cbn. now rewrite app_assoc. Qed.
Lemma tl_name n : forall rest s, t_inval s = false -> Forall nchar n -> tloop (n ++ rest) None s = tloop rest None (add_token s n).
Proof.
  induction n as [|c n IH]; intros rest s V F; [now rewrite add_nil|]. apply Forall_cons_iff in F as [Hc F]. cbn [app tloop]. rewrite V, andb_false_r.
  destruct (nchar_facts c Hc) as (A & B & C & D & E & _). assert (X : tag_char s c = add_token s [c]) by (unfold tag_char; rewrite A, B, C, D, E; reflexivity). rewrite X, IH; [now rewrite add_add|exact V|exact F].
Qed.
Lemma esc_cases c : (exists e, escape c = 38 :: e ++ [59] /\ e <> [] /\ Forall (fun x => x <> 59 /\ x <> 34 /\ x <> 39) e /\ unescape_value (e ++ [59]) = kept [c] /\ unescape_text (e ++ [59]) = kept [c]) \/
  (escape c = [c] /\ c <> 38 /\ c <> 60 /\ c <> 62 /\ c <> 34 /\ c <> 39 /\ kept [c] = [c]).
Proof.
  unfold escape. destruct (Z.eqb_spec c 38) as [->|N1]; [left; exists (str "amp")|]. { split; [reflexivity|]. split; [discriminate|]. split; [repeat constructor; discriminate|]. split; reflexivity. }
  destruct (Z.eqb_spec c 60) as [->|N2]; [left; exists (str "lt")|]. { split; [reflexivity|]. split; [discriminate|]. split; [repeat constructor; discriminate|]. split; reflexivity. }
  destruct (Z.eqb_spec c 62) as [->|N3]; [left; exists (str "gt")|]. { split; [reflexivity|]. split; [discriminate|]. split; [repeat constructor; discriminate|]. split; reflexivity. }
  destruct (Z.eqb_spec c 34) as [->|N4]; [left; exists (str "quot")|]. { split; [reflexivity|]. split; [discriminate|]. split; [repeat constructor; discriminate|]. split; reflexivity. }
  destruct (Z.eqb_spec c 39) as [->|N5]; [left; exists (str "apos")|]. { split; [reflexivity|]. split; [discriminate|]. split; [repeat constructor; discriminate|]. split; reflexivity. }
  right. repeat split; auto. unfold kept. cbn [filter]. replace (c =? 39) with false by (symmetry; now apply Z.eqb_neq). reflexivity.
Qed.
Lemma kept_cons c v : kept (c :: v) = kept [c] ++ kept v.
Proof. unfold kept. cbn [filter]. destruct (negb (c =? 39)); reflexivity. Qed.
Lemma tl_escape e : forall e0 rest s, Forall (fun x => x <> 59 /\ x <> 34 /\ x <> 39) e -> tloop (e ++ 59 :: rest) (Some e0) s = tloop rest None (add_token s (unescape_value (e0 ++ e ++ [59]))).
Proof.
  induction e as [|x e IH]; intros e0 rest s F; cbn [app tloop]; [reflexivity|]. apply Forall_cons_iff in F as [Hx F]. replace (x =? 59) with false by (symmetry; now apply Z.eqb_neq). cbn [orb]. replace (is_nil (e ++ 59 :: rest)) with false by (destruct e; reflexivity). rewrite IH by exact F. now rewrite <- app_assoc.
Qed.
Lemma pl_escape e : forall e0 rest a b o t, Forall (fun x => x <> 59 /\ x <> 34 /\ x <> 39) e -> ploop (e ++ 59 :: rest) (Some e0) a b o t = ploop rest None a b o (t ++ unescape_text (e0 ++ e ++ [59])).
Proof.
  induction e as [|x e IH]; intros e0 rest a b o t F; cbn [app ploop]; [reflexivity|]. apply Forall_cons_iff in F as [Hx F]. replace (x =? 59) with false by (symmetry; now apply Z.eqb_neq). cbn [orb]. replace (is_nil (e ++ 59 :: rest)) with false by (destruct e; reflexivity). rewrite IH by exact F. now rewrite <- app_assoc.
Qed.
Lemma tl_value v : forall rest s, t_inval s = true -> t_opener s = 34 -> tloop (flat_map escape v ++ rest) None s = tloop rest None (add_token s (kept v)).
Proof.
  induction v as [|c v IH]; intros rest s V O; cbn [flat_map app]; [now rewrite add_nil|]. rewrite kept_cons, <- app_assoc, <- add_add.
  destruct (esc_cases c) as [(e & -> & Ne & F & U & _)|(-> & N1 & N2 & N3 & N4 & N5 & K)].
  - cbn [app]. rewrite <- app_assoc. cbn [app tloop]. rewrite Z.eqb_refl, V. cbn [andb]. replace (is_nil (e ++ 59 :: flat_map escape v ++ rest)) with false by (destruct e; reflexivity). rewrite tl_escape by exact F. cbn [app]. rewrite U. apply IH; assumption.
  - cbn [app tloop]. replace (c =? 38) with false by (symmetry; now apply Z.eqb_neq). cbn [andb]. rewrite K.
    assert (X : tag_char s c = add_token s [c]). { unfold tag_char, add_token. replace (c =? 34) with false by (symmetry; now apply Z.eqb_neq). replace (c =? 39) with false by (symmetry; now apply Z.eqb_neq). cbn [orb]. rewrite V. cbn [negb]. rewrite andb_false_r. reflexivity. }
    rewrite X. apply IH; assumption.
Qed.
(** between the attributes *)
Definition ready (s : tagst) (n : list Z) (a : list attribute) : Prop := t_inval s = false /\ t_step s = 1 /\ t_token s = [] /\ t_tname s = n /\ t_attrs s = a.
Lemma blank_ready s n a c : ready s n a -> is_ws c = true \/ c = 47 -> tag_char s c = s.
Proof.
  intros (A & B & C & D & E) H. unfold tag_char. assert (Q : (c =? 34) || (c =? 39) = false) by (destruct H as [H|H]; [unfold is_ws in H; rewrite !orb_true_iff, !Z.eqb_eq in H; destruct H as [[[[[H|H]|H]|H]|H]|H]; subst c; reflexivity|subst c; reflexivity]).
  rewrite Q, A, C. cbn [negb]. rewrite andb_true_r. destruct H as [H|H]; [rewrite H; reflexivity|subst c; reflexivity].
Qed.
Lemma tl_attr p rest s n a : ready s n a -> Forall nchar (fst p) -> fst p <> [] -> exists s', ready s' n (a ++ [kept_attr p]) /\ tloop (show_attr p ++ rest) None s = tloop rest None s'.
Proof.
  intros R F Np. unfold show_attr. change (str " ") with [32]. change (str "=""") with [61; 34]. change (str """") with [34]. rewrite <- !app_assoc. cbn [app tloop]. change (32 =? 38) with false. cbn [andb]. rewrite (blank_ready s n a 32 R) by (left; reflexivity).
  destruct R as (A & B & C & D & E). rewrite tl_name by assumption. cbn [tloop]. change (61 =? 38) with false. change (34 =? 38) with false. cbn [andb]. destruct s as [iv op st tk tn an at_]. cbn [t_inval t_step t_token t_tname t_attrs] in *. subst iv st tk tn at_.
  unfold add_token. cbn [t_inval t_opener t_step t_token t_tname t_aname t_attrs app].
  assert (T1 : tag_char (TS false op 1 (fst p) n an a) 61 = TS false op 2 [] n (fst p) a) by (unfold tag_char; cbn; destruct (fst p); [contradiction|reflexivity]). rewrite T1.
  change (tag_char (TS false op 2 [] n (fst p) a) 34) with (TS true 34 2 [] n (fst p) a). rewrite tl_value by reflexivity. cbn [tloop]. change (34 =? 38) with false. cbn [andb]. unfold add_token. cbn [t_inval t_opener t_step t_token t_tname t_aname t_attrs app].
  eexists. split; [|reflexivity]. unfold tag_char. cbn. repeat split.
Qed.
Lemma tl_attrs l : forall rest s n a, ready s n a -> Forall (fun p : attribute => name_ok (fst p)) l -> exists s', ready s' n (a ++ map kept_attr l) /\ tloop (flat_map show_attr l ++ rest) None s = tloop rest None s'.
Proof.
  induction l as [|p l IH]; intros rest s n a R F; cbn [flat_map app map]; [exists s; rewrite app_nil_r; auto|]. apply Forall_cons_iff in F as [[Np Fp] F]. rewrite <- app_assoc.
  destruct (tl_attr p (flat_map show_attr l ++ rest) s n a R) as (s1 & R1 & ->); [apply Forall_forall; exact Fp|exact Np|]. destruct (IH rest s1 n _ R1 F) as (s2 & R2 & ->). exists s2. rewrite <- app_assoc in R2. auto.
Qed.
Lemma tl_tag n l tail : name_ok n -> Forall (fun p : attribute => name_ok (fst p)) l -> tail = [32] \/ tail = [47; 32] ->
  exists s', tloop (n ++ flat_map show_attr l ++ tail) None (TS false 0 0 [] [] [] []) = Val s' /\ t_tname s' = n /\ t_attrs s' = map kept_attr l.
Proof.
  intros [Nn Fn] F T. rewrite tl_name by (try reflexivity; apply Forall_forall; exact Fn). unfold add_token. cbn [t_inval t_opener t_step t_token t_tname t_aname t_attrs app].
  assert (S1 : forall c, is_ws c = true \/ c = 47 -> tag_char (TS false 0 0 n [] [] []) c = TS false 0 1 [] n [] []).
  { intros c H. unfold tag_char. assert (Q : (c =? 34) || (c =? 39) = false) by (destruct H as [H|H]; [unfold is_ws in H; rewrite !orb_true_iff, !Z.eqb_eq in H; destruct H as [[[[[H|H]|H]|H]|H]|H]; subst c; reflexivity|subst c; reflexivity]).
    rewrite Q. cbn [t_inval t_token t_step negb]. rewrite andb_true_r. replace (is_ws c || (c =? 61) || (c =? 47)) with true by (destruct H as [H|H]; [now rewrite H|subst c; reflexivity]). destruct n; [contradiction|reflexivity]. }
  set (s1 := TS false 0 1 [] n [] []). assert (R1 : ready s1 n []) by (repeat split).
  assert (Fin : forall s a, ready s n a -> tloop tail None s = Val s). { intros s a R. destruct T as [-> | ->]; cbn [tloop]; change (32 =? 38) with false; change (47 =? 38) with false; cbn [andb]; rewrite ?(blank_ready s n a 47 R) by auto; rewrite (blank_ready s n a 32 R) by auto; reflexivity. }
  destruct l as [|p l].
  - exists s1. split; [|split; reflexivity]. cbn [flat_map app]. destruct T as [-> | ->]; cbn [tloop]; change (32 =? 38) with false; change (47 =? 38) with false; cbn [andb]; rewrite S1 by auto; [reflexivity|]. fold s1. rewrite (blank_ready s1 n [] 32 R1) by auto. reflexivity.
  - destruct (tl_attrs (p :: l) tail s1 n [] R1 F) as (s2 & R2 & E). exists s2. split.
    + assert (H : exists w, flat_map show_attr (p :: l) ++ tail = 32 :: w) by (eexists; reflexivity). destruct H as [w H]. rewrite H in *. cbn [tloop] in *. change (32 =? 38) with false in *. cbn [andb] in *. rewrite S1 by auto. fold s1. rewrite (blank_ready s1 n [] 32 R1) in E by auto. rewrite E. now apply (Fin s2 _ R2).
    + destruct R2 as (_ & _ & _ & D & E2). split; [exact D|exact E2].
Qed.
(** ** a whole tag *)
Lemma back_ok l x fuel : is_ws x = false -> back_loop ((l ++ [x]) ++ [32]) (zlen ((l ++ [x]) ++ [32]) - 1) (S (S fuel)) = Val (zlen l) /\ char_of ((l ++ [x]) ++ [32]) (zlen l) = Val x.
Proof.
  intros H. assert (C : char_of ((l ++ [x]) ++ [32]) (zlen l) = Val x) by (rewrite <- app_assoc; apply char_mid). split; [|exact C].
  cbn [back_loop]. replace (zlen ((l ++ [x]) ++ [32]) - 1) with (zlen (l ++ [x])) by (rewrite (zlen_app (l ++ [x])); change (zlen [32]) with 1; lia). rewrite char_mid. cbn [bind]. change (is_ws 32) with true. cbn match.
  replace (zlen (l ++ [x]) - 1) with (zlen l) by (rewrite zlen_app; change (zlen [x]) with 1; lia). rewrite C. cbn [bind]. now rewrite H.
Qed.
Lemma skip_ok c r fuel : is_ws c = false -> skip_loop (c :: r) 0 (S fuel) = Val 0 /\ char_of (c :: r) 0 = Val c.
Proof. intros H. cbn [skip_loop]. change (char_of (c :: r) 0) with (Val c). cbn [bind]. now rewrite H. Qed.
Lemma name_first n : name_ok n -> exists c r, n = c :: r /\ nchar c.
Proof. intros [N F]. destruct n as [|c r]; [contradiction|]. exists c, r. split; [reflexivity|]. apply F. now left. Qed.
Lemma name_last n : name_ok n -> exists l c, n = l ++ [c] /\ nchar c.
Proof. intros [N F]. destruct (exists_last N) as (l & c & ->). exists l, c. split; [reflexivity|]. apply F. apply in_or_app. right. now left. Qed.
Lemma attrs_last l p : exists w, flat_map show_attr (l ++ [p]) = w ++ [34].
Proof. rewrite flat_map_app. cbn [flat_map]. unfold show_attr at 2. change (str """") with [34]. rewrite app_nil_r. rewrite !app_assoc. eauto. Qed.
Lemma parse_open n l : name_ok n -> Forall (fun p : attribute => name_ok (fst p)) l -> parse_tag (n ++ flat_map show_attr l) = Val [EStart (local n) n (map kept_attr l)].
Proof.
  intros Hn Hl. unfold parse_tag. set (raw := n ++ flat_map show_attr l).
  assert (B : exists w x, raw = w ++ [x] /\ is_ws x = false /\ (x =? 47) = false).
  { destruct l as [|p l] using rev_ind; [destruct (name_last n Hn) as (w & c & E & Hc); exists w, c; unfold raw; cbn [flat_map]; rewrite app_nil_r; split; [exact E|]; destruct (nchar_facts c Hc) as (A & _ & C & _); auto|].
    destruct (attrs_last l p) as (w & E). exists (n ++ w), 34. unfold raw. rewrite E, app_assoc. auto. }
  destruct B as (w & x & Ew & Wx & X). cbv zeta. destruct (back_ok w x (List.length (raw ++ [32])) Wx) as [E1 E2]. rewrite <- Ew in E1, E2. rewrite E1. cbn [bind]. rewrite E2. cbn [bind]. rewrite X.
  destruct (name_first n Hn) as (c & r & En & Hc). destruct (nchar_facts c Hc) as (A & _ & C & _). assert (Er : raw ++ [32] = c :: r ++ flat_map show_attr l ++ [32]) by (unfold raw; rewrite En; cbn [app]; now rewrite <- app_assoc).
  rewrite Er. destruct (skip_ok c (r ++ flat_map show_attr l ++ [32]) (S (List.length (c :: r ++ flat_map show_attr l ++ [32]))) A) as [K1 K2]. rewrite K1. cbn [bind]. rewrite K2. cbn [bind]. rewrite C. rewrite <- Er.
  pose proof (tag_loop_ok _ (raw ++ [32]) [] (TS false 0 0 [] [] [] []) (S (S (List.length (raw ++ [32])))) (le_n _) ltac:(lia)) as TL. cbn [app] in TL. change (zlen (@nil Z)) with 0 in TL. rewrite TL. unfold raw. rewrite <- app_assoc.
  destruct (tl_tag n l [32] Hn Hl (or_introl eq_refl)) as (s' & -> & T1 & T2). cbn [bind]. rewrite T1, T2, local_name_ok. reflexivity.
Qed.
Lemma parse_empty n l : name_ok n -> Forall (fun p : attribute => name_ok (fst p)) l -> parse_tag (n ++ flat_map show_attr l ++ [47]) = Val [EStart (local n) n (map kept_attr l); EEnd (local n) n].
Proof.
  intros Hn Hl. unfold parse_tag. set (raw := n ++ flat_map show_attr l ++ [47]). cbv zeta.
  assert (Rw : raw ++ [32] = ((n ++ flat_map show_attr l) ++ [47]) ++ [32]) by (unfold raw; rewrite <- !app_assoc; reflexivity).
  destruct (back_ok (n ++ flat_map show_attr l) 47 (List.length (raw ++ [32])) eq_refl) as [E1 E2]. rewrite <- Rw in E1, E2.
  rewrite E1. cbn [bind]. rewrite E2. cbn [bind]. change (47 =? 47) with true. cbn match.
  destruct (name_first n Hn) as (c & r & En & Hc). destruct (nchar_facts c Hc) as (A & _ & C & _). assert (Er : raw ++ [32] = c :: r ++ flat_map show_attr l ++ [47; 32]) by (unfold raw; rewrite En; cbn [app]; rewrite <- !app_assoc; reflexivity).
  rewrite Er. destruct (skip_ok c (r ++ flat_map show_attr l ++ [47; 32]) (S (List.length (c :: r ++ flat_map show_attr l ++ [47; 32]))) A) as [K1 K2]. rewrite K1. cbn [bind]. rewrite K2. cbn [bind]. rewrite C. rewrite <- Er.
  pose proof (tag_loop_ok _ (raw ++ [32]) [] (TS false 0 0 [] [] [] []) (S (S (List.length (raw ++ [32])))) (le_n _) ltac:(lia)) as TL. cbn [app] in TL. change (zlen (@nil Z)) with 0 in TL. rewrite TL. unfold raw. rewrite <- !app_assoc. change ([47] ++ [32]) with [47; 32].
  destruct (tl_tag n l [47; 32] Hn Hl (or_intror eq_refl)) as (s' & -> & T1 & T2). cbn [bind]. rewrite T1, T2, local_name_ok. reflexivity.
Qed.
Lemma parse_close n : name_ok n -> parse_tag (47 :: n) = Val [EEnd (local n) n].
Proof.
  intros Hn. unfold parse_tag. cbv zeta. destruct (name_last n Hn) as (w & x & Ew & Hx). destruct (nchar_facts x Hx) as (A & _ & C & _).
  destruct (back_ok (47 :: w) x (List.length ((47 :: n) ++ [32])) A) as [E1 E2]. cbn [app] in E1, E2. rewrite <- Ew in E1, E2. cbn [app]. cbn [app] in E1. rewrite E1. cbn [bind]. rewrite E2. cbn [bind]. rewrite C.
  destruct (skip_ok 47 (n ++ [32]) (S (List.length (47 :: n ++ [32]))) eq_refl) as [K1 K2]. rewrite K1. cbn [bind]. rewrite K2. cbn [bind]. change (47 =? 47) with true. cbn match. change (0 + 1) with (zlen [47]).
  pose proof (tag_loop_ok _ (n ++ [32]) [47] (TS false 0 0 [] [] [] []) (S (S (List.length (47 :: n ++ [32])))) (le_n _) ltac:(cbn [List.length]; lia)) as TL. cbn [app] in TL. rewrite TL.
  destruct (tl_tag n [] [32] Hn (Forall_nil _) (or_introl eq_refl)) as (s' & E & T1 & T2). cbn [flat_map app] in E. rewrite E. cbn [bind]. rewrite T1, local_name_ok. reflexivity.
Qed.
