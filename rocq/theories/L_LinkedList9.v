From Verif Require Import Base M_Undo S_Undo L_Undo L_Undo2 L_Undo3 M_LinkedList S_LinkedList L_LinkedList L_LinkedList2 L_LinkedList3 L_LinkedList4 L_LinkedList5 L_LinkedList6 L_LinkedList7 L_LinkedList8.
Ltac Zify.zify_post_hook ::= Z.to_euclidean_division_equations.
(** * swapData *)
Definition upd (e y : Z) (es : list (Z * Z)) : list (Z * Z) := map (fun n => if fst n =? e then (fst n, y) else n) es.
Lemma upd_ids e y es : ids (upd e y es) = ids es.
Proof. unfold upd. rewrite map_map. apply map_ext. intros [z d]. cbn [fst]. destruct (z =? e); reflexivity. Qed.
Lemma upd_other e y es : ~ In e (ids es) -> upd e y es = es.
Proof. unfold upd. intros H. rewrite <- (map_id es) at 2. apply map_ext_in. intros [z d] Hn. cbn [fst]. destruct (Z.eqb_spec z e) as [E|]; [|reflexivity]. exfalso. apply H. rewrite <- E. apply (in_map fst _ _ Hn). Qed.
Lemma upd_split e y u d v : NoDup (ids (u ++ (e, d) :: v)) -> upd e y (u ++ (e, d) :: v) = u ++ (e, y) :: v.
Proof.
  intros ND. rewrite ids_app in ND. cbn [map fst] in ND. pose proof (NoDup_remove_2 _ _ _ ND) as Ne. rewrite in_app_iff in Ne. unfold upd. rewrite map_app. cbn [map fst]. rewrite Z.eqb_refl. fold (upd e y u) (upd e y v). rewrite !upd_other by tauto. reflexivity.
Qed.
Lemma upd_hd e y es q : hd_id (upd e y es) q = hd_id es q. Proof. destruct es as [|[z d] es]; [reflexivity|]. unfold upd. cbn [map fst hd_id]. destruct (z =? e); reflexivity. Qed.
Lemma upd_last e y es : forall q, last_id q (upd e y es) = last_id q es.
Proof. induction es as [|[z d] es IH]; intros q; [reflexivity|]. unfold upd. cbn [map fst last_id]. fold (upd e y es). destruct (z =? e); apply IH. Qed.
Lemma upd_dls N c e y es : forall p q, dls c p es q -> zlen c = 3 * Z.of_nat N + 3 -> (forall z, In z (ids es) -> 2 <= z < Z.of_nat N + 2) -> 2 <= e < Z.of_nat N + 2 -> dls (cset c (cdata e) y) p (upd e y es) q.
Proof.
  induction es as [|[z d] es IH]; intros p q D L H He; [exact Logic.I|]. pose proof (H z (or_introl eq_refl)) as Hz. destruct D as (D1 & D2 & D3 & D4). specialize (IH z q D4 L (fun x Hx => H x (or_intror Hx)) He). unfold upd. cbn [map fst]. fold (upd e y es).
  destruct (Z.eqb_spec z e) as [->|Ne]; cbn [dls]; rewrite upd_hd; ucell; cg; eqs; auto; lia.
Qed.
Lemma upd_rep N f c es e y : lrep N f c es -> In e (ids es) -> lrep N f (cset c (cdata e) y) (upd e y es).
Proof.
  intros R He. pose proof (rep_ids _ _ _ _ _ R He) as Be. destruct R as [L Gs Ge Gn D ND In_ Hf Fr]. constructor; rewrite ?cset_zlen, ?upd_ids, ?upd_hd, ?upd_last; auto.
  - ceval; lia.
  - ceval; lia.
  - unfold upd. rewrite zlen_map. ceval; lia.
  - apply (upd_dls N); auto; [|lia]. intros z Hz. pose proof (proj1 (Forall_forall _ _) In_ z Hz) as B. cbn beta in B. lia.
  - intros z Hz. destruct (Fr z Hz). ucell. split; ceval; lia.
Qed.
Lemma upd_datas e y u d v : NoDup (ids (u ++ (e, d) :: v)) -> datas (upd e y (u ++ (e, d) :: v)) = set_at (length u) y (datas (u ++ (e, d) :: v)).
Proof.
  intros ND. rewrite upd_split by exact ND. unfold set_at. rewrite !map_app. cbn [map snd]. rewrite firstn_len by now rewrite map_length. replace (datas u ++ d :: datas v) with ((datas u ++ [d]) ++ datas v) by (rewrite <- app_assoc; reflexivity). rewrite skipn_len; [reflexivity|]. rewrite app_length, map_length. cbn [length]. lia.
Qed.
Lemma upd_okS N f K s es e y : okS N f K s es -> In e (ids es) -> cli N K y -> okS N f K (Snap (cset (vals s) (cdata e) y) (refs s)) (upd e y es).
Proof.
  intros O He Cy. pose proof (rep_ids _ _ _ _ _ (o_rep _ _ _ _ _ O) He) as Be. pose proof (lr_f _ _ _ _ (o_rep _ _ _ _ _ O)). pose proof (lr_len _ _ _ _ (o_rep _ _ _ _ _ O)) as L. constructor; cbn [vals refs].
  - apply upd_rep; [apply O|exact He].
  - intros z Hz Nz. rewrite upd_ids in Nz. destruct (o_lz _ _ _ _ _ O z Hz Nz). ucell. split; ceval; lia.
  - intros z Hz. rewrite cset_get by (ucell; lia). destruct (Z.eqb_spec (cdata z) (cdata e)); [exists y; split; [reflexivity|exact Cy]|apply (o_data _ _ _ _ _ O z Hz)].
  - intros z Hz. rewrite upd_ids. apply (o_in _ _ _ _ _ O z Hz).
  - apply O.
Qed.
Lemma lastid_split x es : (forall e, In e (ids es) -> e <> 0) -> lastid x es <> 0 -> exists u v, es = u ++ (lastid x es, x) :: v /\ ~ In x (datas v).
Proof.
  induction es as [|[e d] es IH]; intros A; cbn [lastid]; [congruence|]. assert (A' : forall z, In z (ids es) -> z <> 0) by (intros z Hz; apply A; now right). destruct (Z.eqb_spec (lastid x es) 0) as [E|E].
  - destruct (Z.eqb_spec d x) as [->|]; [|congruence]. intros _. exists [], es. split; [reflexivity|]. now apply lastid_in.
  - intros _. destruct (IH A' E) as (u & v & E1 & E2). exists ((e, d) :: u), v. split; [cbn [app]; now rewrite <- E1|exact E2].
Qed.
Lemma last_index_split x (u v : list (Z * Z)) e : ~ In x (datas v) -> last_index_of x (datas (u ++ (e, x) :: v)) = Some (length u).
Proof.
  intros H. unfold last_index_of. rewrite map_app. cbn [map snd]. rewrite rev_app_distr. cbn [rev]. rewrite <- app_assoc. rewrite index_of_app_r by (rewrite <- in_rev; exact H). cbn [app index_of]. rewrite Z.eqb_refl. f_equal. rewrite app_length, rev_length, !map_length. cbn [length]. rewrite map_length. lia.
Qed.
Lemma ceq N c v e : zlen c = 3 * Z.of_nat N + 3 -> 2 <= e < Z.of_nat N + 2 -> lget c (cdata e) = Some v -> cset c (cdata e) v = c.
Proof. intros L H G. apply lget_ext. intros j. rewrite cset_get by (ucell; lia). destruct (Z.eqb_spec j (cdata e)); congruence. Qed.
Lemma dls_data c es : forall p q u e d v, dls c p es q -> es = u ++ (e, d) :: v -> lget c (cdata e) = Some d.
Proof. intros p q u e d v D ->. rewrite dls_app in D. apply D. Qed.
Lemma swap_um N f K n d m r g q rest x y (s : llist) : sim (rcs N) n d m (World (vals (cur d)) r g) -> tx d = None -> okS N f K (cur d) (q ++ rest) -> 0 <= n -> n + 8 < 4294967296 -> cli N K x -> cli N K y ->
  let e1 := lastid x q in let e2 := lastid y q in e1 <> 0 -> e2 <> 0 ->
  exists m' s' r' es' i j, (let* (m, w) := reg_ref e1 (cdata e1) (Some m) (World (vals (cur d)) r g) in
      let* (m, w) := reg_ref e2 (cdata e2) m w in
      let* w := putm e1 (cdata e1) y w in
      let* w := putm e2 (cdata e2) x w in
      Val (m, w, s)) = Val (Some m', World (vals s') r' g, s) /\
    sim (rcs N) (n + 8) (edit s' d) m' (World (vals s') r' g) /\ okS N f K s' es' /\
    last_index_of x (datas q) = Some i /\ last_index_of y (datas q) = Some j /\ datas es' = set_at j x (set_at i y (datas (q ++ rest))).
Proof.
  intros S T O Hn Hb Cx Cy e1 e2 N1 N2. pose proof (o_rep _ _ _ _ _ O) as R. pose proof (lr_len _ _ _ _ R) as L. pose proof (lr_f _ _ _ _ R) as Bf. pose proof (lr_nd _ _ _ _ R) as ND.
  assert (A0 : forall e, In e (ids q) -> e <> 0) by (intros e He; assert (In e (ids (q ++ rest))) by (rewrite ids_app; apply in_or_app; now left); pose proof (rep_ids _ _ _ _ _ R H); lia).
  destruct (lastid_split x q A0 N1) as (u1 & v1 & Q1 & V1). destruct (lastid_split y q A0 N2) as (u2 & v2 & Q2 & V2). fold e1 in Q1. fold e2 in Q2.
  set (c := vals (cur d)) in *. set (es := q ++ rest) in *.
  assert (I1 : In e1 (ids es)) by (unfold es; rewrite Q1, !ids_app, !in_app_iff; left; right; now left). assert (I2 : In e2 (ids es)) by (unfold es; rewrite Q2, !ids_app, !in_app_iff; left; right; now left).
  pose proof (rep_ids _ _ _ _ _ R I1) as B1. pose proof (rep_ids _ _ _ _ _ R I2) as B2.
  assert (G1 : lget c (cdata e1) = Some x) by (apply (dls_data c es 0 0 u1 e1 x (v1 ++ rest) (lr_dls _ _ _ _ R)); unfold es; rewrite Q1, <- app_assoc; reflexivity).
  assert (G2 : lget c (cdata e2) = Some y) by (apply (dls_data c es 0 0 u2 e2 y (v2 ++ rest) (lr_dls _ _ _ _ R)); unfold es; rewrite Q2, <- app_assoc; reflexivity).
  set (xs := swap_effs e1 e2 x y).
  assert (Ow : forall z, In z (ids es) -> owned d z) by (intros z Hz; destruct (member_refs _ _ _ _ _ _ O Hz) as (K1 & _ & K2); eapply own_refs; eauto; lia).
  destruct (edits_ok (rcs N) xs n d m c r g S T Hn ltac:(change (zlen xs) with 2; lia)) as (m1 & r1 & d1 & E1 & S1 & D1).
  - unfold xs, swap_effs. constructor; [|constructor; [|constructor]]; (apply ef_intro; [auto|exact L|ucell; lia|ucell; lia|eapply cli_refs; eauto]).
  - unfold xs, swap_effs. cbn [changing eref]. split; [discriminate|]. split; [discriminate|exact Logic.I].
  - unfold xs, swap_effs. cbn [fits el evl]. split; [reflexivity|]. split; [|exact Logic.I]. fold c. rewrite cset_get by (ucell; lia). destruct (Z.eqb_spec (cdata e2) (cdata e1)) as [E|E]; [|reflexivity]. assert (e1 = e2) by (ucell; lia). rewrite G2. reflexivity.
  - fold c in S1, D1. destruct D1 as [[D1 _]|[_ D1]]; [discriminate|]. change (zlen xs) with 2 in S1.
    set (s1 := Snap (cset c (cdata e1) y) (refs (cur d))). pose proof (upd_okS N f K (cur d) es e1 y O I1 Cy) as O1. fold c s1 in O1.
    assert (I2' : In e2 (ids (upd e1 y es))) by (rewrite upd_ids; exact I2). pose proof (upd_okS N f K s1 _ e2 x O1 I2' Cx) as O2. cbn [vals refs s1] in O2. set (s2 := Snap (cset (cset c (cdata e1) y) (cdata e2) x) (refs (cur d))) in *.
    assert (D1' : d1 = edit s2 d) by exact D1.
    assert (A2 : alive r1 (upd e2 x (upd e1 y es))) by (eapply sim_alive; [exact S1|rewrite D1', edit_cur; exact O2]).
    assert (P1 : 1 <= r1 e1) by (apply A2; rewrite !upd_ids; exact I1). assert (P2 : 1 <= r1 e2) by (apply A2; rewrite !upd_ids; exact I2).
    exists m1, s2, r1, (upd e2 x (upd e1 y es)), (length u1), (length u2). split; [|split; [|split; [exact O2|split; [|split]]]].
    + unfold xs, swap_effs in E1. cbn [regs] in E1. unfold reg1 in E1. cbn [eref eo el] in E1. destruct (reg_ref e1 (cdata e1) (Some m) (World c r g)) as [[ma wa]| | |]; try discriminate. cbn [bind] in *. destruct (reg_ref e2 (cdata e2) ma wa) as [[mb wb]| | |]; try discriminate. cbn [bind] in *. injection E1 as -> ->.
      rewrite putm_ok by (auto; ucell; lia). cbn [bind]. rewrite putm_ok by (rewrite ?cset_zlen; auto; ucell; lia). cbn [bind]. reflexivity.
    + rewrite <- D1'. eapply sim_weaken; [|exact S1]. lia.
    + rewrite Q1. now apply last_index_split.
    + rewrite Q2. now apply last_index_split.
    + assert (Es2 : es = u2 ++ (e2, y) :: v2 ++ rest) by (unfold es; rewrite Q2, <- app_assoc; reflexivity).
      assert (Es1 : es = u1 ++ (e1, x) :: v1 ++ rest) by (unfold es; rewrite Q1, <- app_assoc; reflexivity).
      assert (Eu : exists dd vv uu, upd e1 y es = uu ++ (e2, dd) :: vv /\ length uu = length u2).
      { rewrite Es2. unfold upd. rewrite map_app. cbn [map fst]. exists (if e2 =? e1 then y else y), (map (fun n0 => if fst n0 =? e1 then (fst n0, y) else n0) (v2 ++ rest)), (map (fun n0 => if fst n0 =? e1 then (fst n0, y) else n0) u2). split; [destruct (e2 =? e1); reflexivity|apply map_length]. }
      destruct Eu as (dd & vv & uu & Eu & Lu). rewrite Eu, upd_datas by (rewrite <- Eu, upd_ids; exact ND). rewrite <- Eu, Lu. f_equal. rewrite Es1 at 1. rewrite upd_datas by (rewrite <- Es1; exact ND). rewrite <- Es1. reflexivity.
Qed.
(** * clear *)
Lemma clear_um N f K g es : forall n d m r fuel, sim (rcs N) n d m (World (vals (cur d)) r g) -> tx d = None -> okS N f K (cur d) es -> 0 <= n -> n + 8 * zlen es < 4294967296 -> 1 <= plain d this -> (length es < fuel)%nat ->
  exists m' d' r', ll_clear_um (Some m) (World (vals (cur d)) r g) fuel = Val (Some m', World (vals (cur d')) r' g) /\ sim (rcs N) (n + 8 * zlen es) d' m' (World (vals (cur d')) r' g) /\ okS N f K (cur d') [] /\
    (es = [] /\ d' = d \/ es <> [] /\ d' = edit (cur d') d).
Proof.
  induction es as [|[e de] es IH]; intros n d m r fuel S T O Hn Hb Pl Hf; (destruct fuel as [|fuel]; [cbn [length] in Hf; lia|]); cbn [ll_clear_um]; rewrite (read_ok _ _ _ _ _ (lr_start _ _ _ _ (o_rep _ _ _ _ _ O))); cbn [bind hd_id].
  - exists m, d, r. change (zlen (@nil (Z * Z))) with 0. rewrite Z.add_0_r. split; [reflexivity|]. split; [exact S|]. split; [exact O|]. left. split; reflexivity.
  - rewrite zlen_cons in *. pose proof (zlen_nonneg es). pose proof (rep_ids _ _ _ _ _ (o_rep _ _ _ _ _ O) (or_introl eq_refl)) as Be. cbn [fst] in Be. replace (negb (e =? 0)) with true by lia.
    destruct (remove_um N f K n d m r g [] e de es S T O Hn ltac:(lia) Pl) as (m1 & s1 & r1 & E1 & S1 & O1). rewrite E1. cbn [bind app] in *. cbn [length] in Hf.
    assert (V : cur (edit s1 d) = s1) by apply edit_cur.
    destruct (IH (n + 8) (edit s1 d) m1 r1 fuel) as (m' & d' & r' & E' & S' & O' & D'); try (rewrite V); auto; try lia.
    + now apply edit_tx.
    + rewrite edit_plain. exact Pl.
    + rewrite V in E'. rewrite E'. exists m', d', r'. split; [reflexivity|]. split; [replace (n + 8 * (1 + zlen es)) with (n + 8 + 8 * zlen es) by lia; exact S'|]. split; [exact O'|]. right. split; [discriminate|].
      destruct D' as [[_ ->]|[_ D']]; [rewrite V; reflexivity|]. rewrite edit_edit in D' by exact T. exact D'.
Qed.
