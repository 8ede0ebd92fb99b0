From Verif Require Import Base M_Undo M_LinkedList S_LinkedList L_LinkedList L_LinkedList2 L_LinkedList3.
Ltac Zify.zify_post_hook ::= Z.to_euclidean_division_equations.
Notation datas es := (map snd es).
Definition alive (r : Z -> Z) (es : list (Z * Z)) : Prop := forall e, In e (ids es) -> e <> 0 /\ 1 <= r e.
Lemma alive_tl r n es : alive r (n :: es) -> alive r es. Proof. intros H e He. apply H. now right. Qed.
Lemma index_of_app_r x a : forall b, ~ In x a -> index_of x (a ++ b) = match index_of x b with Some i => Some (length a + i)%nat | None => None end.
Proof.
  induction a as [|y a IH]; intros b N; cbn [app index_of length]; [destruct (index_of x b); reflexivity|].
  destruct (Z.eqb_spec y x) as [->|Ne]; [exfalso; apply N; now left|]. rewrite IH by (intros I; apply N; now right). destruct (index_of x b); reflexivity.
Qed.
Lemma index_of_none x l : index_of x l = None <-> ~ In x l.
Proof.
  induction l as [|y l IH]; cbn [index_of In]; [tauto|]. destruct (Z.eqb_spec y x) as [->|Ne]; [split; [discriminate|intros H; exfalso; tauto]|].
  destruct (index_of x l); split; try discriminate; intros H.
  - exfalso. destruct IH as [_ IH]. discriminate IH. tauto.
  - intros [?|?]; [congruence|tauto].
  - reflexivity.
Qed.
Lemma index_of_some x l i : index_of x l = Some i -> exists a b, l = a ++ x :: b /\ length a = i /\ ~ In x a.
Proof.
  revert i. induction l as [|y l IH]; intros i H; cbn [index_of] in H; [discriminate|]. destruct (Z.eqb_spec y x) as [->|Ne].
  - injection H as <-. exists [], l. split; [reflexivity|]. split; [reflexivity|intros []].
  - destruct (index_of x l) as [j|]; [|discriminate]. injection H as <-. destruct (IH j eq_refl) as (a & b & -> & Ha & Na). exists (y :: a), b. split; [reflexivity|]. split; [cbn [length]; lia|]. intros [?|?]; [congruence|tauto].
Qed.
Lemma next_element_ok c r g e d es q s : dls c q ((e, d) :: es) 0 -> alive r ((e, d) :: es) -> lcur s = e -> ll_next_element (World c r g) s = Val (e, LL (hd_id es 0) (lfresh s)).
Proof. intros D A E. unfold ll_next_element. rewrite E. destruct D as (_ & D2 & _). destruct (A e (or_introl eq_refl)) as [A1 A2]. rewrite (getm_ok _ _ _ _ _ _ A1 A2 D2). reflexivity. Qed.
Lemma find_ok x c r g es : forall p s fuel, dls c p es 0 -> alive r es -> lcur s = hd_id es 0 -> (length es < fuel)%nat ->
  (exists a e b, es = a ++ (e, x) :: b /\ ~ In x (datas a) /\ ll_find x (World c r g) s fuel = Val (e, LL (hd_id b 0) (lfresh s))) \/
  (~ In x (datas es) /\ ll_find x (World c r g) s fuel = Val (0, LL 0 (lfresh s))).
Proof.
  induction es as [|[e d] es IH]; intros p s fuel D A E Hf; (destruct fuel as [|fuel]; [cbn [length] in Hf; lia|]); cbn [ll_find]; unfold ll_has_next.
  - cbn [hd_id] in E. rewrite E. right. split; [intros []|]. destruct s as [u0 v0]; cbn [lcur lfresh] in *. now subst.
  - cbn [hd_id] in E. destruct (A e (or_introl eq_refl)) as [A1 A2]. rewrite E. replace (negb (e =? 0)) with true by lia. rewrite (next_element_ok _ _ _ _ _ _ _ _ D A E). cbn [bind]. destruct D as (D1 & D2 & D3 & D4). rewrite (getm_ok _ _ _ _ _ _ A1 A2 D3). cbn [bind].
    destruct (Z.eqb_spec d x) as [->|Ne].
    + left. exists [], e, es. split; [reflexivity|]. split; [intros []|reflexivity].
    + cbn [length] in Hf. destruct (IH e (LL (hd_id es 0) (lfresh s)) fuel D4 (alive_tl _ _ _ A) eq_refl ltac:(lia)) as [(a & e' & b & -> & Na & F)|(Na & F)].
      * left. exists ((e, d) :: a), e', b. split; [reflexivity|]. split; [cbn [map snd]; intros [?|?]; [congruence|tauto]|exact F].
      * right. split; [cbn [map snd]; intros [?|?]; [congruence|tauto]|exact F].
Qed.
(** the element of the last node holding x, 0 if there is none *)
Fixpoint lastid (x : Z) (es : list (Z * Z)) : Z := match es with [] => 0 | (e, d) :: t => if lastid x t =? 0 then (if d =? x then e else 0) else lastid x t end.
Lemma lastid_snoc x a e d : e <> 0 -> lastid x (a ++ [(e, d)]) = if d =? x then e else lastid x a.
Proof.
  intros H. induction a as [|[e' d'] a IH]; cbn [app lastid]; [destruct (d =? x); reflexivity|]. rewrite IH. destruct (d =? x); [replace (e =? 0) with false by lia; reflexivity|reflexivity].
Qed.
Lemma find2_ok x y c r g b : forall a p s fuel, dls c p b 0 -> alive r b -> lcur s = hd_id b 0 -> (length b < fuel)%nat -> lastid x a = 0 \/ lastid y a = 0 ->
  (exists b1 n b2, b = b1 ++ n :: b2 /\ lastid x (a ++ b1 ++ [n]) <> 0 /\ lastid y (a ++ b1 ++ [n]) <> 0 /\ (lastid x (a ++ b1) = 0 \/ lastid y (a ++ b1) = 0) /\
    ll_find2 x y (lastid x a) (lastid y a) (World c r g) s fuel = Val (lastid x (a ++ b1 ++ [n]), lastid y (a ++ b1 ++ [n]), LL (hd_id b2 0) (lfresh s))) \/
  ((lastid x (a ++ b) = 0 \/ lastid y (a ++ b) = 0) /\ ll_find2 x y (lastid x a) (lastid y a) (World c r g) s fuel = Val (lastid x (a ++ b), lastid y (a ++ b), LL 0 (lfresh s))).
Proof.
  induction b as [|[e d] b IH]; intros a p s fuel D A E Hf H0; (destruct fuel as [|fuel]; [cbn [length] in Hf; lia|]); cbn [ll_find2]; unfold ll_has_next.
  - cbn [hd_id] in E. rewrite E. right. rewrite app_nil_r. split; [exact H0|]. destruct s as [u0 v0]; cbn [lcur lfresh] in *. now subst.
  - cbn [hd_id] in E. destruct (A e (or_introl eq_refl)) as [A1 A2]. rewrite E. replace (negb (e =? 0)) with true by lia. rewrite (next_element_ok _ _ _ _ _ _ _ _ D A E). cbn [bind]. destruct D as (D1 & D2 & D3 & D4). rewrite (getm_ok _ _ _ _ _ _ A1 A2 D3). cbn [bind].
    rewrite <- !lastid_snoc by exact A1.
    destruct (negb (lastid x (a ++ [(e, d)]) =? 0) && negb (lastid y (a ++ [(e, d)]) =? 0)) eqn:K.
    + left. exists [], (e, d), b. split; [reflexivity|]. rewrite app_nil_r. cbn [app]. apply andb_true_iff in K as [K1 K2]. split; [lia|]. split; [lia|]. split; [exact H0|reflexivity].
    + cbn [length] in Hf. destruct (IH (a ++ [(e, d)]) e (LL (hd_id b 0) (lfresh s)) fuel D4 (alive_tl _ _ _ A) eq_refl ltac:(lia)) as [(b1 & n & b2 & -> & K1 & K2 & K3 & F)|(K1 & F)].
      * destruct (lastid x (a ++ [(e, d)]) =? 0) eqn:K1; [left; lia|right; cbn [negb andb] in K; lia].
      * left. exists ((e, d) :: b1), n, b2. rewrite <- !app_assoc in *. cbn [app] in *. split; [reflexivity|]. auto.
      * right. rewrite <- !app_assoc in *. cbn [app] in *. auto.
Qed.
Lemma lastid_in x es : (forall e, In e (ids es) -> e <> 0) -> (lastid x es = 0 <-> ~ In x (datas es)).
Proof.
  induction es as [|[e d] es IH]; intros A; cbn [lastid map snd In]; [tauto|]. assert (IH' := IH (fun z H => A z (or_intror H))). pose proof (A e (or_introl eq_refl)).
  destruct (Z.eqb_spec (lastid x es) 0) as [E|E]; destruct (Z.eqb_spec d x) as [->|N]; split; intros K; try tauto; try lia; try (exfalso; tauto).
Qed.
Lemma reach_prefix x y a n b : In x (a ++ [n]) -> In y (a ++ [n]) -> ~ In x a \/ ~ In y a -> reach x y (a ++ n :: b) = Some (S (length a)).
Proof.
  intros Hx Hy H. unfold reach.
  assert (K : forall z, In z (a ++ [n]) -> exists i, index_of z (a ++ n :: b) = Some i /\ (i <= length a)%nat /\ (~ In z a -> i = length a)).
  { intros z Hz. destruct (index_of z (a ++ n :: b)) as [i|] eqn:E.
    - exists i. split; [reflexivity|]. destruct (index_of_some _ _ _ E) as (u & v & E' & L & N). split.
      + destruct (Nat.le_gt_cases i (length a)); [assumption|]. exfalso. apply N. rewrite <- L in *. assert (firstn (length u) (a ++ n :: b) = u) by (rewrite E'; rewrite firstn_app, Nat.sub_diag, firstn_all; cbn [firstn]; apply app_nil_r). rewrite <- H1. replace (a ++ n :: b) with ((a ++ [n]) ++ b) by (rewrite <- app_assoc; reflexivity). rewrite firstn_app. apply in_or_app. left. rewrite firstn_all2; [exact Hz|]. rewrite app_length. cbn [length]. lia.
      + intros Nz. rewrite index_of_app_r in E by exact Nz. cbn [index_of] in E. apply in_app_or in Hz as [Hz|[Hz|[]]]; [contradiction|]. subst n. rewrite Z.eqb_refl in E. injection E as <-. lia.
    - exfalso. apply index_of_none in E. apply E. apply in_app_or in Hz as [Hz|[Hz|[]]]; apply in_or_app; [now left|right; now left]. }
  destruct (K x Hx) as (i & -> & Hi & Hi'). destruct (K y Hy) as (j & -> & Hj & Hj'). f_equal. f_equal. destruct H as [H|H]; [specialize (Hi' H)|specialize (Hj' H)]; lia.
Qed.
Lemma reach_none x y l : ~ In x l \/ ~ In y l -> reach x y l = None.
Proof. intros [H|H]; apply index_of_none in H; unfold reach; rewrite H; [reflexivity|]. destruct (index_of x l); reflexivity. Qed.
Lemma walk_next_ok c r g es : forall p fuel, dls c p es 0 -> alive r es -> (length es < fuel)%nat -> walk_next (hd_id es 0) (World c r g) fuel = Val (datas es).
Proof.
  induction es as [|[e d] es IH]; intros p fuel D A Hf; (destruct fuel as [|fuel]; [cbn [length] in Hf; lia|]); cbn [walk_next hd_id]; [reflexivity|].
  destruct (A e (or_introl eq_refl)) as [A1 A2]. replace (e =? 0) with false by lia. destruct D as (D1 & D2 & D3 & D4). rewrite (getm_ok _ _ _ _ _ _ A1 A2 D3), (getm_ok _ _ _ _ _ _ A1 A2 D2). cbn [bind]. rewrite (IH e fuel D4 (alive_tl _ _ _ A)); [reflexivity|]. cbn [length] in Hf. lia.
Qed.
Lemma walk_prev_ok c r g es : forall q fuel, dls c 0 es q -> alive r es -> (length es < fuel)%nat -> walk_prev (last_id 0 es) (World c r g) fuel = Val (rev (datas es)).
Proof.
  induction es as [|[e d] es IH] using rev_ind; intros q fuel D A Hf; (destruct fuel as [|fuel]; [lia|]); cbn [walk_prev]; [reflexivity|].
  rewrite last_id_snoc. destruct (A e) as [A1 A2]; [rewrite ids_app; apply in_or_app; right; now left|]. replace (e =? 0) with false by lia. rewrite dls_app in D. destruct D as [D (D1 & D2 & D3 & _)]. rewrite (getm_ok _ _ _ _ _ _ A1 A2 D3), (getm_ok _ _ _ _ _ _ A1 A2 D1). cbn [bind]. rewrite (IH e fuel).
  - cbn [bind]. rewrite map_app, rev_app_distr. reflexivity.
  - exact D.
  - intros z Hz. apply A. rewrite ids_app. apply in_or_app. now left.
  - rewrite app_length in Hf. cbn [length] in Hf. lia.
Qed.
Lemma shows_ok N f c r g es : lrep N f c es -> alive r es -> shows (World c r g) (datas es).
Proof.
  intros R A. exists (hd_id es 0), (last_id 0 es). split; [apply read_ok, R|]. split; [apply read_ok, R|]. split; [rewrite zlen_map; apply read_ok, R|]. intros fuel Hf. rewrite map_length in Hf. split; [eapply walk_next_ok; eauto; apply R|eapply walk_prev_ok; eauto; apply R].
Qed.
