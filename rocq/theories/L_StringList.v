From Verif Require Import Base M_String M_Sort M_StringList S_String S_Sort S_StringList L_String L_String2 L_String3 L_Sort.
Ltac Zify.zify_post_hook ::= Z.to_euclidean_division_equations.

(** [d] holds the texts [v] *)
Definition holds (d : list jstr) (v : list (list Z)) : Prop := Forall2 repr d v.
Lemma holds_len d v : holds d v -> zlen d = zlen v.
Proof. induction 1; [reflexivity|]. rewrite !zlen_cons. lia. Qed.
Lemma holds_map d : Forall sound d <-> holds d (map text d).
Proof.
  unfold holds. induction d as [|x d IH]; cbn [map]; [split; constructor|]. split; intros H; inversion H; subst; constructor; try (now apply sound_repr); now apply IH.
Qed.
Lemma holds_text d v : holds d v -> map text d = v /\ Forall sound d.
Proof. induction 1 as [|x t d v R H [IH1 IH2]]; cbn [map]; [split; [reflexivity|constructor]|]. apply repr_text in R as [T S]. split; [now rewrite T, IH1|constructor; auto]. Qed.
Lemma holds_app d v e w : holds d v -> holds e w -> holds (d ++ e) (v ++ w).
Proof. apply Forall2_app. Qed.
Lemma holds_split d v w : holds d (v ++ w) -> exists a b, d = a ++ b /\ holds a v /\ holds b w.
Proof. intros H. apply Forall2_app_inv_r in H as (a & b & H1 & H2 & ->). eauto. Qed.
Lemma holds_split3 d v x w : holds d (v ++ x :: w) -> exists a y b, d = a ++ y :: b /\ holds a v /\ repr y x /\ holds b w.
Proof. intros H. apply holds_split in H as (a & b & -> & H1 & H2). inversion H2; subst. eauto 8. Qed.
Lemma holds_zlen_app a v (x : Z) : holds a v -> x = zlen v -> x = zlen a.
Proof. intros H ->. symmetry. now apply holds_len. Qed.
Lemma rd_holds d v x w i : holds d (v ++ x :: w) -> i = zlen v -> exists y, rd d i = Val y /\ repr y x.
Proof. intros H ->. apply holds_split3 in H as (a & y & b & -> & H1 & R & _). exists y. split; [|exact R]. apply rd_mid'. symmetry. now apply holds_len. Qed.
Lemma wr_holds d v x w i z u : holds d (v ++ x :: w) -> i = zlen v -> repr z u -> exists d', wr d i z = Val d' /\ holds d' (v ++ u :: w).
Proof.
  intros H -> R. apply holds_split3 in H as (a & y & b & -> & H1 & _ & H2). exists (a ++ z :: b). split; [apply wr_mid; symmetry; now apply holds_len|]. apply holds_app; [exact H1|constructor; auto].
Qed.
Lemma new_holds n : 0 <= n -> exists d, new_strings n = Val d /\ holds d (repeat [] (Z.to_nat n)).
Proof.
  intros H. unfold new_strings. replace (n <? 0) with false by lia. eexists. split; [reflexivity|]. induction (Z.to_nat n); cbn [repeat]; constructor; [apply str_new_repr|assumption].
Qed.
(** copying the first texts *)
Lemma copy_strings_ok w2 : forall w1 dst src v2 v3 r k, holds dst (w1 ++ v2 ++ v3) -> holds src (w1 ++ w2 ++ r) -> zlen v2 = zlen w2 -> k = length w2 ->
  exists d, copy_strings dst src (zlen w1) k = Val d /\ holds d (w1 ++ w2 ++ v3).
Proof.
  induction w2 as [|x w2 IH]; intros w1 dst src v2 v3 r k Hd Hs L ->; cbn [length copy_strings].
  - assert (v2 = []) by (apply zlen_zero; exact L). subst v2. eauto.
  - destruct v2 as [|y v2]; [rewrite zlen_cons in L; change (zlen (@nil (list Z))) with 0 in L; pose proof (zlen_nonneg w2); lia|]. rewrite !zlen_cons in L. cbn [app] in Hd, Hs.
    destruct (rd_holds src w1 x _ (zlen w1) Hs eq_refl) as (sx & -> & Rx). cbn [bind]. destruct (rd_holds dst w1 y _ (zlen w1) Hd eq_refl) as (sy & -> & Ry). cbn [bind].
    destruct (assign_ok sy sx x Rx) as (z & -> & Rz & _). cbn [bind]. destruct (wr_holds dst w1 y _ (zlen w1) z x Hd eq_refl Rz) as (d1 & -> & H1). cbn [bind].
    replace (zlen w1 + 1) with (zlen (w1 ++ [x])) by (rewrite zlen_app; reflexivity). destruct (IH (w1 ++ [x]) d1 src v2 v3 r (length w2)) as (d & E & H2); [rewrite <- app_assoc; exact H1|rewrite <- app_assoc; exact Hs|lia|reflexivity|].
    exists d. split; [exact E|]. rewrite <- app_assoc in H2. exact H2.
Qed.
Definition lrepr (l : slist) (ts : list (list Z)) : Prop := exists junk, holds (sdata l) (ts ++ junk) /\ ssize l = zlen ts.
Lemma grow8_ge m t k : m + 8 * Z.of_nat k >= t -> m <= grow8 m t k /\ t <= grow8 m t k.
Proof. revert m. induction k as [|k IH]; intros m H; cbn [grow8]; [lia|]. destruct (Z.ltb_spec m t); [|lia]. specialize (IH (m + 8)). lia. Qed.
Lemma check_size_ok l ts n : lrepr l ts -> Z.abs n <= 2 ^ 62 -> zlen ts < 2 ^ 62 -> exists l' b junk, check_size l n = Val (l', b) /\ holds (sdata l') (ts ++ junk) /\ ssize l' = zlen ts /\ (b = false -> l' = l) /\
   n <= zlen junk.
Proof.
  intros (junk & H & S) Hn Ht. change (2 ^ 62) with 4611686018427387904 in *. unfold check_size. rewrite S. unfold chk64, in_s64. pose proof (zlen_nonneg ts). replace ((-9223372036854775808 <=? zlen ts + n) && (zlen ts + n <=? 9223372036854775807)) with true by lia. cbn [bind].
  pose proof (holds_len _ _ H) as L. rewrite zlen_app in L. pose proof (zlen_nonneg junk). destruct (Z.ltb_spec (zlen ts + n) (zlen (sdata l))) as [C|C].
  - exists l, false, junk. repeat split; auto. lia.
  - set (m := grow8 _ _ _). assert (Hm : zlen (sdata l) <= m /\ zlen ts + n <= m) by (apply grow8_ge; lia). clearbody m.
    destruct (new_holds m ltac:(lia)) as (d & -> & Hd). cbn [bind].
    assert (Es : repeat (@nil Z) (Z.to_nat m) = repeat [] (length ts) ++ repeat [] (Z.to_nat m - length ts)). { rewrite <- repeat_app. f_equal. unfold zlen in *. lia. }
    rewrite Es in Hd. destruct (copy_strings_ok ts [] d (sdata l) (repeat [] (length ts)) (repeat [] (Z.to_nat m - length ts)) junk (Z.to_nat (zlen ts)) Hd H) as (d' & E & H'); [unfold zlen; rewrite repeat_length; reflexivity|unfold zlen; lia|].
    change (zlen (@nil (list Z))) with 0 in E. rewrite E. cbn [bind]. exists (SL d' (zlen ts)), true, (repeat [] (Z.to_nat m - length ts)). cbn [sdata ssize app] in *. split; [reflexivity|]. split; [exact H'|]. split; [reflexivity|]. split; [discriminate|]. rewrite zlen_repeat. unfold zlen in *. lia.
Qed.
Lemma append_list_ok l ts s t : lrepr l ts -> zlen ts < 2 ^ 62 -> repr s t -> exists l', sl_append l s = Val l' /\ lrepr l' (ts ++ [t]).
Proof.
  intros H Ht R. unfold sl_append. destruct (check_size_ok l ts 1 H ltac:(change (2 ^ 62) with 4611686018427387904; lia) Ht) as (l1 & b & junk & -> & H1 & S1 & _ & J). cbn [bind]. rewrite S1.
  destruct junk as [|y junk]; [change (zlen (@nil (list Z))) with 0 in J; lia|]. destruct (rd_holds _ ts y junk _ H1 eq_refl) as (sy & -> & Ry). cbn [bind]. destruct (assign_ok sy s t R) as (z & -> & Rz & _). cbn [bind].
  destruct (wr_holds _ ts y junk _ z t H1 eq_refl Rz) as (d' & -> & H'). cbn [bind]. eexists. split; [reflexivity|]. exists junk. cbn [sdata ssize]. rewrite <- app_assoc. split; [exact H'|]. rewrite zlen_app. reflexivity.
Qed.
Lemma shift_strings_ok w : forall v x d r k, holds d (v ++ x :: w ++ r) -> k = length w -> exists d' y, shift_strings d (zlen v + 1) k = Val d' /\ holds d' (v ++ w ++ y :: r).
Proof.
  induction w as [|a w IH]; intros v x d r k H ->; cbn [length shift_strings].
  - exists d, x. auto.
  - replace (v ++ x :: (a :: w) ++ r) with ((v ++ [x]) ++ a :: w ++ r) in H by (rewrite <- app_assoc; reflexivity). destruct (rd_holds d _ a _ (zlen v + 1) H) as (sa & -> & Ra); [rewrite zlen_app; reflexivity|]. cbn [bind].
    rewrite <- app_assoc in H. cbn [app] in H. replace (zlen v + 1 - 1) with (zlen v) by lia. destruct (rd_holds d _ x _ (zlen v) H eq_refl) as (sx & -> & Rx). cbn [bind]. destruct (assign_ok sx sa a Ra) as (z & -> & Rz & _). cbn [bind].
    destruct (wr_holds d v x _ (zlen v) z a H eq_refl Rz) as (d1 & -> & H1). cbn [bind]. replace (zlen v + 1 + 1) with (zlen (v ++ [a]) + 1) by (rewrite zlen_app; change (zlen [a]) with 1; lia).
    replace (v ++ a :: a :: w ++ r) with ((v ++ [a]) ++ a :: w ++ r) in H1 by (rewrite <- app_assoc; reflexivity). destruct (IH (v ++ [a]) a d1 r (length w) H1 eq_refl) as (d' & y & E & H'). exists d', y. split; [exact E|]. rewrite <- app_assoc in H'. exact H'.
Qed.
Lemma equals_teq s t s2 t2 : repr s t -> repr s2 t2 -> zlen t < 2 ^ 32 -> equals s s2 = Val (teq t t2).
Proof.
  intros H H2 Hl. destruct (eq_gen (fun c => c) s _ s2 _ H H2 Hl) as (b & E & B). unfold equals. rewrite E. f_equal. rewrite !map_id in B. unfold teq. destruct (list_eq_dec Z.eq_dec t t2) as [Q|Q]; destruct b; try reflexivity; [apply B in Q; discriminate|exfalso; apply Q; now apply B].
Qed.
Lemma remove_loop_ok s t : repr s t -> forall w v d junk fuel, holds d (v ++ w ++ junk) -> Forall (fun x => zlen x < 2 ^ 32) w -> (length w < fuel)%nat ->
  exists l', remove_loop (fun _ => Val s) d (zlen v + zlen w) (zlen v) fuel = Val l' /\ lrepr l' (v ++ filter (fun y => negb (teq y t)) w).
Proof.
  intros Rs. induction w as [|x w IH]; intros v d junk fuel H F Hf; (destruct fuel as [|fuel]; [lia|]); cbn [remove_loop filter].
  - change (zlen (@nil (list Z))) with 0. replace (zlen v <? zlen v + 0) with false by lia. eexists. split; [reflexivity|]. exists junk. cbn [sdata ssize]. rewrite app_nil_r. split; [exact H|lia].
  - inversion F as [|? ? F1 F2]; subst. pose proof (zlen_nonneg w). rewrite zlen_cons. replace (zlen v <? zlen v + (1 + zlen w)) with true by lia. cbn [app] in H. destruct (rd_holds d v x _ (zlen v) H eq_refl) as (sx & -> & Rx). cbn [bind].
    rewrite (equals_teq sx x s t Rx Rs F1). cbn [bind length] in *. destruct (teq x t); cbn [negb].
    + replace (Z.to_nat (zlen v + (1 + zlen w) - (zlen v + 1))) with (length w) by (unfold zlen; lia). destruct (shift_strings_ok w v x d junk (length w) H eq_refl) as (d' & y & -> & H'). cbn [bind].
      replace (zlen v + (1 + zlen w) - 1) with (zlen v + zlen w) by lia. apply (IH v d' (y :: junk) fuel H' F2). lia.
    + replace (zlen v + 1) with (zlen (v ++ [x])) by (rewrite zlen_app; reflexivity). replace (zlen v + (1 + zlen w)) with (zlen (v ++ [x]) + zlen w) by (rewrite zlen_app; change (zlen [x]) with 1; lia).
      destruct (IH (v ++ [x]) d junk fuel) as (l' & E & H'); [rewrite <- app_assoc; exact H|exact F2|lia|]. exists l'. split; [exact E|]. rewrite <- app_assoc in H'. exact H'.
Qed.
Lemma remove_ok l ts s t : lrepr l ts -> repr s t -> Forall (fun x => zlen x < 2 ^ 32) ts -> exists l', sl_remove l s = Val l' /\ lrepr l' (filter (fun y => negb (teq y t)) ts).
Proof.
  intros (junk & H & S) Rs F. unfold sl_remove. rewrite S. apply (remove_loop_ok s t Rs ts [] (sdata l) junk); [exact H|exact F|unfold zlen; lia].
Qed.
Lemma set_ok l ts i s t : lrepr l ts -> repr s t -> 0 <= i < zlen ts -> exists l', sl_set l i s = Val l' /\ lrepr l' (ztake i ts ++ t :: zdrop (i + 1) ts).
Proof.
  intros (junk & H & S) Rs Hi. unfold sl_set. rewrite S. replace ((i <? 0) || (i >=? zlen ts)) with false by lia. destruct (split_at ts i Hi) as (v & x & w & -> & Lv). rewrite <- app_assoc in H. cbn [app] in H.
  destruct (rd_holds _ v x _ i H (eq_sym Lv)) as (sx & -> & Rx). cbn [bind]. destruct (assign_ok sx s t Rs) as (z & -> & Rz & _). cbn [bind]. destruct (wr_holds _ v x _ i z t H (eq_sym Lv) Rz) as (d' & -> & H'). cbn [bind].
  eexists. split; [reflexivity|]. exists junk. cbn [sdata ssize]. rewrite (ztake_app v) by lia. replace (v ++ x :: w) with ((v ++ [x]) ++ w) by (rewrite <- app_assoc; reflexivity). rewrite (zdrop_app (v ++ [x])) by (rewrite zlen_app; change (zlen [x]) with 1; lia).
  rewrite <- app_assoc. split; [exact H'|]. rewrite ?zlen_app, ?zlen_cons. change (zlen (@nil (list Z))) with 0. lia.
Qed.
Definition lex_gtb (a b : list Z) : bool := match lex a b with Gt => true | _ => false end.
Lemma lex_preorder : preorder (fun a b => lex a b <> Gt).
Proof.
  split; [|split].
  - intros x. rewrite (proj2 (lex_eq x x) eq_refl). discriminate.
  - intros x y z H1 H2. destruct (lex x y) eqn:E1; [apply lex_eq in E1; now subst| |contradiction]. destruct (lex y z) eqn:E2; [apply lex_eq in E2; subst; congruence| |contradiction]. rewrite (lex_trans x y z E1 E2). discriminate.
  - intros x y. rewrite (lex_sym x y). destruct (lex x y); cbn [CompOpp]; auto; try (left; discriminate). right; discriminate.
Qed.
Lemma lex_gtb_ok a b : lex_gtb a b = false <-> lex a b <> Gt.
Proof. unfold lex_gtb. destruct (lex a b); split; intros; try discriminate; try reflexivity; try contradiction. Qed.
Lemma sort_list_ok l ts : lrepr l ts -> exists l' ts', sl_sort l = Val l' /\ lrepr l' ts' /\ Permutation ts' ts /\ sorted (fun a b => lex a b <> Gt) ts'.
Proof.
  intros (junk & H & S). unfold sl_sort. apply holds_split in H as (d & j & E & H1 & H2). rewrite E, S, <- (holds_len _ _ H1). pose proof (holds_text _ _ H1) as [T1 Sd].
  destruct (sort_ok text sound (fun a b => lex a b <> Gt) lex_gtb str_gt str_swap) with (l := d) (junk := j) as (d' & -> & P1 & P2 & P3 & _ & P5).
  - intros a b Ha Hb. unfold str_gt. apply sound_repr in Ha, Hb. rewrite (compare_ok a _ b _ Ha Hb). cbn [bind]. f_equal. unfold lex_gtb. destruct (lex (text a) (text b)); reflexivity.
  - intros a b Ha Hb. apply sound_repr in Ha, Hb. unfold str_swap. destruct (copy_ctor_ok a _ Ha) as (tmp & -> & Rt & _). cbn [bind]. destruct (assign_ok a b _ Hb) as (a' & -> & Ra & _). cbn [bind]. destruct (assign_ok b tmp _ Rt) as (b' & -> & Rb & _). cbn [bind].
    apply repr_text in Ra as [Ta Sa]. apply repr_text in Rb as [Tb Sb]. exists a', b'. auto.
  - exact lex_preorder.
  - exact lex_gtb_ok.
  - exact Sd.
  - cbn [bind]. unfold view in *. rewrite T1 in P3. eexists _, (map text d'). split; [reflexivity|]. split; [|split; [exact P3|exact P5]]. exists junk. cbn [sdata ssize]. split; [apply holds_app; [now apply holds_map|exact H2]|]. rewrite zlen_map. lia.
Qed.
Lemma get_ok l ts i : lrepr l ts -> match lget ts i with Some t => exists s, sl_get l i = Val s /\ repr s t | None => sl_get l i = Exn end.
Proof.
  intros (junk & H & S). unfold sl_get. rewrite S. destruct (lget ts i) as [t|] eqn:G.
  - pose proof (lget_some_range _ _ _ G) as Hi. replace ((i <? 0) || (i >=? zlen ts)) with false by lia. destruct (split_at ts i Hi) as (v & x & w & -> & Lv). rewrite <- Lv, lget_mid in G. injection G as ->. rewrite <- app_assoc in H. apply (rd_holds _ v t _ i H (eq_sym Lv)).
  - apply lget_none_range in G. replace ((i <? 0) || (i >=? zlen ts)) with true by lia. reflexivity.
Qed.
Lemma contains_loop_ok s t : repr s t -> forall w v d junk k, holds d (v ++ w ++ junk) -> Forall (fun x => zlen x < 2 ^ 32) w -> k = length w ->
  exists b, contains_loop d s (zlen v) k = Val b /\ (b = true <-> In t w).
Proof.
  intros Rs. induction w as [|x w IH]; intros v d junk k H F ->; cbn [length contains_loop].
  - exists false. split; [reflexivity|]. split; [discriminate|intros []].
  - inversion F as [|? ? F1 F2]; subst. cbn [app] in H. destruct (rd_holds d v x _ (zlen v) H eq_refl) as (sx & -> & Rx). cbn [bind]. rewrite (equals_teq sx x s t Rx Rs F1). cbn [bind]. unfold teq. destruct (list_eq_dec Z.eq_dec x t) as [Q|Q].
    + exists true. split; [reflexivity|]. split; [intros _; now left|reflexivity].
    + replace (zlen v + 1) with (zlen (v ++ [x])) by (rewrite zlen_app; reflexivity). destruct (IH (v ++ [x]) d junk (length w)) as (b & E & B); [rewrite <- app_assoc; exact H|exact F2|reflexivity|]. exists b. split; [exact E|]. rewrite B. split; [now right|]. intros [?|?]; [contradiction|assumption].
Qed.
Lemma sizes_ok w : forall v d junk acc k, holds d (v ++ w ++ junk) -> k = length w -> sizes d (zlen v) acc k = Val (acc + zlen (concat w)).
Proof.
  induction w as [|x w IH]; intros v d junk acc k H ->; cbn [length sizes concat]; [change (zlen (@nil Z)) with 0; f_equal; lia|]. cbn [app] in H. destruct (rd_holds d v x _ (zlen v) H eq_refl) as (sx & -> & Rx). cbn [bind].
  assert (L : len sx = zlen x) by (destruct Rx as (? & _ & L); exact L). rewrite L. replace (zlen v + 1) with (zlen (v ++ [x])) by (rewrite zlen_app; reflexivity). rewrite (IH (v ++ [x]) d junk _ (length w)); [|rewrite <- app_assoc; exact H|reflexivity]. rewrite zlen_app. f_equal. lia.
Qed.
Definition sep (c : Z) (v : list (list Z)) : list Z := match v with [] => [] | _ => [c] end.
Lemma join_loop_ok c w : forall v d junk r u k, holds d (v ++ w ++ junk) -> repr r u -> k = length w ->
  exists r', join_loop d c r (zlen v) k = Val r' /\ repr r' (u ++ match w with [] => [] | _ => sep c v ++ joined c w end).
Proof.
  induction w as [|x w IH]; intros v d junk r u k H R ->; cbn [length join_loop]; [exists r; rewrite app_nil_r; auto|].
  assert (K : exists r1, (if zlen v >? 0 then append_char r c else Val r) = Val r1 /\ repr r1 (u ++ sep c v)).
  { unfold sep. destruct v as [|y v]; [exists r; rewrite app_nil_r; auto|]. rewrite zlen_cons. pose proof (zlen_nonneg v). replace (1 + zlen v >? 0) with true by lia. destruct (append_char_ok r u c R) as (r1 & E & R1 & _). eauto. }
  destruct K as (r1 & -> & R1). cbn [bind]. cbn [app] in H. destruct (rd_holds d v x _ (zlen v) H eq_refl) as (sx & -> & Rx). cbn [bind]. destruct (append_ok r1 _ sx _ R1 Rx) as (r2 & -> & R2). cbn [bind].
  replace (zlen v + 1) with (zlen (v ++ [x])) by (rewrite zlen_app; reflexivity). destruct (IH (v ++ [x]) d junk r2 ((u ++ sep c v) ++ x) (length w)) as (r' & E & R'); [rewrite <- app_assoc; exact H|exact R2|reflexivity|]. exists r'. split; [exact E|].
  assert (Sx : sep c (v ++ [x]) = [c]) by (destruct v; reflexivity). rewrite Sx in R'. cbn [joined]. destruct w; [rewrite app_nil_r in R'; rewrite <- app_assoc in R'; exact R'|]. rewrite <- !app_assoc in R'. exact R'.
Qed.
Lemma join_ok l ts c : lrepr l ts -> exists r, sl_join l c = Val r /\ repr r (joined c ts).
Proof.
  intros (junk & H & S). unfold sl_join. rewrite S. pose proof (sizes_ok ts [] (sdata l) junk (zlen ts - 1) (Z.to_nat (zlen ts)) H ltac:(unfold zlen; lia)) as E. change (zlen (@nil (list Z))) with 0 in E. rewrite E. cbn [bind].
  assert (K : exists r, check_capacity (zlen ts - 1 + zlen (concat ts)) str_new = Val r /\ repr r []).
  { pose proof (zlen_nonneg ts). pose proof (zlen_nonneg (concat ts)). destruct (Z.ltb_spec (zlen ts - 1 + zlen (concat ts)) 0) as [N|N].
    - exists str_new. split; [|apply str_new_repr]. unfold check_capacity. cbn [len buf str_new]. rewrite zlen_zeros by lia. replace (0 + (zlen ts - 1 + zlen (concat ts)) <? 16) with true by lia. reflexivity.
    - destruct (check_capacity_ok str_new [] _ str_new_repr N) as (r & j & E1 & E2 & E3 & _ & _). exists r. split; [exact E1|]. exists j. auto. }
  destruct K as (r & -> & R). cbn [bind]. destruct (join_loop_ok c ts [] (sdata l) junk r [] (Z.to_nat (zlen ts)) H R ltac:(unfold zlen; lia)) as (r' & E' & R'). change (zlen (@nil (list Z))) with 0 in E'. exists r'. split; [exact E'|]. cbn [app sep] in R'. destruct ts; exact R'.
Qed.
