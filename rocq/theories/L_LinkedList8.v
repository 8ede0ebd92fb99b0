From Verif Require Import Base M_Undo S_Undo L_Undo L_Undo2 L_Undo3 M_LinkedList S_LinkedList L_LinkedList L_LinkedList2 L_LinkedList3 L_LinkedList4 L_LinkedList5 L_LinkedList6 L_LinkedList7.
Ltac Zify.zify_post_hook ::= Z.to_euclidean_division_equations.
Lemma own_refs rs n d m w o : sim rs n d m w -> o <> 0 -> 1 <= refs (cur d) o -> owned d o.
Proof. intros S H K. split; [exact H|]. pose proof (s_plain _ _ _ _ _ S o). lia. Qed.
Lemma own_this rs n d m w : sim rs n d m w -> (forall o, 0 <= refs (cur d) o) -> 1 <= plain d this -> owned d this.
Proof. intros S R H. split; [discriminate|]. pose proof (R this). lia. Qed.
Lemma fresh_refs N f K s es : okS N f K s es -> f < Z.of_nat N + 2 -> refs s f = 1.
Proof. intros O H. pose proof (lr_f _ _ _ _ (o_rep _ _ _ _ _ O)). apply (o_in _ _ _ _ _ O); [lia|right; lia]. Qed.
Lemma sim_nn rs n d m w : sim rs n d m w -> forall o, 0 <= refs (cur d) o.
Proof. intros S. apply (s_wf _ _ _ _ _ S). Qed.
Lemma sim_alive rs n d m N f K es c r g : sim rs n d m (World c r g) -> okS N f K (cur d) es -> alive r es.
Proof. intros S O e He. destruct (member_refs _ _ _ _ _ _ O He) as (H1 & H2 & H3). split; [lia|]. pose proof (sim_rc _ _ _ _ _ e S) as B. cbn [rc] in B. lia. Qed.
Lemma ids_refs N f K s es e : okS N f K s es -> e = 0 \/ In e (ids es) -> e = 0 \/ 1 <= refs s e.
Proof. intros O [->|H]; [now left|right]. destruct (member_refs _ _ _ _ _ _ O H) as (_ & _ & ->). lia. Qed.
Lemma last_mem (es : list (Z * Z)) : last_id 0 es = 0 \/ In (last_id 0 es) (ids es). Proof. destruct es; [now left|right; apply last_in; discriminate]. Qed.
Lemma hd_mem (es : list (Z * Z)) : hd_id es 0 = 0 \/ In (hd_id es 0) (ids es). Proof. destruct es; [now left|right; apply hd_in; discriminate]. Qed.
Lemma ef_intro N d c o l v : owned d o -> zlen c = 3 * Z.of_nat N + 3 -> 0 <= l < 3 * Z.of_nat N + 3 -> l <> 2 -> v = 0 \/ 1 <= refs (cur d) v -> ef_ok (rcs N) d c (EF o l v true).
Proof. intros H1 H2 H3 H4 H5. split; [exact H1|]. cbn [el eo evl eref]. split; [lia|]. split; [apply in_rcs; lia|exact H5]. Qed.
Lemma ef_intro_n N d c o v : owned d o -> zlen c = 3 * Z.of_nat N + 3 -> ef_ok (rcs N) d c (EF o ccount (u32 v) false).
Proof. intros H1 H2. split; [exact H1|]. cbn [el eo evl eref]. split; [ucell; lia|]. split; [rewrite in_rcs; ucell; lia|]. unfold u32. lia. Qed.
Lemma u32_ne n : u32 (u32 n + 1) <> u32 n /\ u32 (u32 n - 1) <> u32 n. Proof. unfold u32. lia. Qed.
Ltac nodup := repeat (apply NoDup_cons; [cbn [In el]; lia|]); apply NoDup_nil.

(** add *)
Lemma set_data N f K n d m r g es x : sim (rcs N) n d m (World (vals (cur d)) r g) -> tx d = None -> okS N f K (cur d) es -> f < Z.of_nat N + 2 -> 0 <= n -> n + 1 < 4294967296 -> cli N K x ->
  exists m1 r1, regs [EF f (cdata f) x true] (Some m) (World (vals (cur d)) r g) = Val (Some m1, World (vals (cur d)) r1 g) /\
    sim (rcs N) (n + 1) (edit (Snap (cset (vals (cur d)) (cdata f) x) (refs (cur d))) d) m1 (World (cset (vals (cur d)) (cdata f) x) r1 g).
Proof.
  intros S T O Hf Hn Hb Cx. pose proof (o_rep _ _ _ _ _ O) as R. pose proof (lr_len _ _ _ _ R) as L. pose proof (lr_f _ _ _ _ R) as Bf.
  destruct (edits_ok (rcs N) [EF f (cdata f) x true] n d m (vals (cur d)) r g S T Hn ltac:(change (zlen [EF f (cdata f) x true]) with 1; lia)) as (m1 & r1 & d1 & E & S1 & D1).
  - constructor; [|constructor]. apply ef_intro; [eapply own_refs; eauto; [lia|rewrite (fresh_refs _ _ _ _ _ O Hf); lia]|exact L|ucell; lia|ucell; lia|]. eapply cli_refs; eauto.
  - cbn [changing]. split; [discriminate|exact Logic.I].
  - cbn [fits]. auto.
  - exists m1, r1. split; [exact E|]. destruct D1 as [[D1 _]|[_ D1]]; [discriminate|]. rewrite D1 in S1. exact S1.
Qed.
Lemma add_um N f K n d m r g es x cu : sim (rcs N) n d m (World (vals (cur d)) r g) -> tx d = None -> okS N f K (cur d) es -> f < Z.of_nat N + 2 -> 0 <= n -> n + 8 < 4294967296 -> cli N K x -> 1 <= plain d this ->
  exists m' s' r', ll_add x (Some m) (World (vals (cur d)) r g) (LL cu f) = Val (Some m', World (vals s') r' g, LL cu (f + 1)) /\
    sim (rcs N) (n + 8) (edit s' d) m' (World (vals s') r' g) /\ okS N (f + 1) K s' (es ++ [(f, x)]).
Proof.
  intros S T O Hf Hn Hb Cx Pl. pose proof (o_rep _ _ _ _ _ O) as R. pose proof (lr_len _ _ _ _ R) as L. pose proof (lr_f _ _ _ _ R) as Bf.
  destruct (set_data N f K n d m r g es x S T O Hf Hn ltac:(lia) Cx) as (m1 & r1 & E1 & S1).
  set (c := vals (cur d)) in *. set (c1 := cset c (cdata f) x) in *. set (d1 := edit (Snap c1 (refs (cur d))) d) in *.
  assert (V1 : vals (cur d1) = c1) by (unfold d1; rewrite edit_cur; reflexivity). assert (R1 : refs (cur d1) = refs (cur d)) by (unfold d1; rewrite edit_cur; reflexivity).
  set (xs := add_effs f (last_id 0 es) (hd_id es 0) (u32 (zlen es))). rewrite <- V1 in S1.
  pose proof (fresh_refs _ _ _ _ _ O Hf) as Ff. pose proof (last_0 f es (lr_in _ _ _ _ R)) as HL. pose proof (hd_0 f es (lr_in _ _ _ _ R)) as HH.
  assert (L1 : zlen c1 = 3 * Z.of_nat N + 3) by (unfold c1; rewrite cset_zlen; exact L).
  assert (Of : owned d1 f) by (eapply own_refs; eauto; [lia|rewrite R1; lia]).
  assert (Ot : owned d1 this) by (eapply own_this; eauto; [rewrite R1; eapply sim_nn; eauto|unfold d1; rewrite edit_plain; exact Pl]).
  assert (Ol : last_id 0 es <> 0 -> owned d1 (last_id 0 es)) by (intros K0; eapply own_refs; eauto; rewrite R1; destruct (ids_refs _ _ _ _ _ _ O (last_mem es)); [contradiction|assumption]).
  assert (Lx : zlen xs <= 5) by (unfold xs, add_effs; destruct (negb _), (_ =? _); cbn [opt app]; unfold zlen; cbn [length]; lia).
  destruct (edits_ok (rcs N) xs (n + 1) d1 m1 (vals (cur d1)) r1 g S1) as (m2 & r2 & d2 & E2 & S2 & D2).
  - unfold d1. now apply edit_tx.
  - lia.
  - lia.
  - rewrite V1. unfold xs, add_effs. apply Forall_cons; [apply ef_intro; [exact Of|exact L1|ucell; lia|ucell; lia|rewrite R1; apply (ids_refs _ _ _ _ _ _ O (last_mem es))]|]. apply Forall_app; split; [|apply Forall_app; split].
    + destruct (Z.eqb_spec (last_id 0 es) 0) as [E0|E0]; [constructor|]. cbn [negb opt]. constructor; [|constructor]. apply ef_intro; [auto|exact L1|ucell; lia|ucell; lia|rewrite R1; right; lia].
    + destruct (hd_id es 0 =? 0); [|constructor]. constructor; [|constructor]. apply ef_intro; [exact Ot|exact L1|ucell; lia|ucell; lia|rewrite R1; right; lia].
    + constructor; [apply ef_intro; [exact Ot|exact L1|ucell; lia|ucell; lia|rewrite R1; right; lia]|]. constructor; [apply ef_intro_n; [exact Ot|exact L1]|constructor].
  - rewrite V1. assert (Gn : lget c1 2 = Some (u32 (zlen es))) by (pose proof (lr_count _ _ _ _ R) as G; unfold c1; fold c in G; ceval; lia). pose proof (proj1 (u32_ne (zlen es))) as Ne.
    unfold xs, add_effs. destruct (Z.eqb_spec (last_id 0 es) 0), (Z.eqb_spec (hd_id es 0) 0); cbn [negb opt app changing el evl eref]; ucell; repeat (split; [discriminate || (intros _; cg; eqs; try lia; rewrite Gn; intros K0; injection K0 as K0; lia)|]); exact Logic.I.
  - apply fits_nodup; [|reflexivity|].
    + unfold xs, add_effs. destruct (Z.eqb_spec (last_id 0 es) 0), (Z.eqb_spec (hd_id es 0) 0); cbn [negb opt app map el]; ucell; nodup.
    + rewrite V1, L1. unfold xs, add_effs. destruct (Z.eqb_spec (last_id 0 es) 0), (Z.eqb_spec (hd_id es 0) 0); cbn [negb opt app]; ucell; repeat (apply Forall_cons; [cbn [el]; lia|]); apply Forall_nil.
  - rewrite V1 in *. destruct D2 as [[D2 _]|[_ D2]]; [unfold xs, add_effs in D2; discriminate|]. rewrite R1 in D2.
    assert (D2' : d2 = edit (Snap (apply_ef xs c1) (refs (cur d))) d) by (rewrite D2; unfold d1; now apply edit_edit).
    destruct (add_rep N f c es x R Hf) as (R' & Z' & Da'). fold c1 xs in R', Z', Da'.
    assert (O' : okS N (f + 1) K (Snap (apply_ef xs c1) (refs (cur d))) (es ++ [(f, x)])).
    { constructor; cbn [vals refs]; [exact R'|apply Z', (o_lz _ _ _ _ _ O)|..].
      - intros e He. rewrite (Da' e He). destruct (Z.eqb_spec e f); [exists x; split; [reflexivity|exact Cx]|apply (o_data _ _ _ _ _ O e He)].
      - intros e He Hi. apply (o_in _ _ _ _ _ O e He). rewrite ids_app, in_app_iff in Hi. cbn [map fst In] in Hi. destruct Hi as [[Hi|[Hi|[]]]|Hi]; [now left|right; lia|right; lia].
      - apply (o_else _ _ _ _ _ O). }
    assert (A2 : alive r2 (es ++ [(f, x)])) by (eapply sim_alive; [exact S2|rewrite D2', edit_cur; exact O']). assert (A1 : alive r1 (es ++ [(f, x)])).
    { assert (O1 : forall e, In e (ids (es ++ [(f, x)])) -> refs (cur d1) e = 1) by (intros e He; rewrite R1; destruct (member_refs _ _ _ _ _ _ O' He) as (_ & _ & K1); exact K1). intros e He. destruct (member_refs _ _ _ _ _ _ O' He) as (K1 & _). split; [lia|]. pose proof (sim_rc _ _ _ _ _ e S1) as B. rewrite (O1 e He) in B. exact B. }
    exists m2, (Snap (apply_ef xs c1) (refs (cur d))), r2. split; [|split; [|exact O']].
    + apply (add_code N f c r g es x (Some m) (Some m1) r1 (Some m2) r2 cu R Hf); auto.
      * apply A1. rewrite ids_app. apply in_or_app. right. now left.
      * intros e He. apply A2. rewrite ids_app. apply in_or_app. now left.
      * apply A2. rewrite ids_app. apply in_or_app. right. now left.
    + rewrite <- D2'. cbn [vals]. eapply sim_weaken; [|exact S2]. lia.
Qed.
(** addBefore *)
Lemma before_um N f K n d m r g a e de b x cu : sim (rcs N) n d m (World (vals (cur d)) r g) -> tx d = None -> okS N f K (cur d) (a ++ (e, de) :: b) -> f < Z.of_nat N + 2 -> 0 <= n -> n + 8 < 4294967296 -> cli N K x -> 1 <= plain d this ->
  exists m' s' r', (let item := f in
    let* (m, w) := reg_ref item (cdata item) (Some m) (World (vals (cur d)) r g) in
    let* w := putm item (cdata item) x w in
    let* (m, w) := ll_add_before_item e item m w in
    Val (m, w, LL cu (f + 1))) = Val (Some m', World (vals s') r' g, LL cu (f + 1)) /\
    sim (rcs N) (n + 8) (edit s' d) m' (World (vals s') r' g) /\ okS N (f + 1) K s' (a ++ (f, x) :: (e, de) :: b).
Proof.
  intros S T O Hf Hn Hb Cx Pl. pose proof (o_rep _ _ _ _ _ O) as R. pose proof (lr_len _ _ _ _ R) as L. pose proof (lr_f _ _ _ _ R) as Bf.
  destruct (set_data N f K n d m r g _ x S T O Hf Hn ltac:(lia) Cx) as (m1 & r1 & E1 & S1).
  set (c := vals (cur d)) in *. set (c1 := cset c (cdata f) x) in *. set (d1 := edit (Snap c1 (refs (cur d))) d) in *. set (es := a ++ (e, de) :: b) in *.
  assert (V1 : vals (cur d1) = c1) by (unfold d1; rewrite edit_cur; reflexivity). assert (R1 : refs (cur d1) = refs (cur d)) by (unfold d1; rewrite edit_cur; reflexivity).
  set (p := last_id 0 a). set (xs := before_effs e f p (hd_id es 0) (u32 (zlen es))). rewrite <- V1 in S1.
  assert (Ie : In e (ids es)) by (unfold es; rewrite ids_app; apply in_or_app; right; now left). pose proof (rep_ids _ _ _ _ _ R Ie) as Be.
  assert (Pm : p = 0 \/ In p (ids es)) by (destruct (last_mem a) as [K0|K0]; [now left|right; unfold es; rewrite ids_app; apply in_or_app; now left]).
  assert (Hp : p = 0 \/ 2 <= p < f) by (destruct Pm as [->|Pm]; [now left|right; exact (rep_ids _ _ _ _ _ R Pm)]).
  assert (Npe : p <> e). { unfold p. destruct a as [|n0 a0]; [cbn [last_id]; lia|]. intros E. pose proof (lr_nd _ _ _ _ R) as ND. unfold es in ND. rewrite ids_app in ND. apply nd_app_iff in ND as (_ & _ & ND). apply (ND e); [rewrite <- E at 1; apply last_in; discriminate|now left]. }
  pose proof (fresh_refs _ _ _ _ _ O Hf) as Ff.
  assert (L1 : zlen c1 = 3 * Z.of_nat N + 3) by (unfold c1; rewrite cset_zlen; exact L).
  assert (Of : owned d1 f) by (eapply own_refs; eauto; [lia|rewrite R1; lia]).
  assert (Oe : owned d1 e) by (eapply own_refs; eauto; [lia|rewrite R1; destruct (member_refs _ _ _ _ _ _ O Ie) as (_ & _ & ->); lia]).
  assert (Ot : owned d1 this) by (eapply own_this; eauto; [rewrite R1; eapply sim_nn; eauto|unfold d1; rewrite edit_plain; exact Pl]).
  assert (Re : 1 <= refs (cur d) e) by (destruct (member_refs _ _ _ _ _ _ O Ie) as (_ & _ & ->); lia).
  assert (Lx : zlen xs <= 7) by (unfold xs, before_effs; destruct (negb _), (_ =? _); cbn [opt app]; unfold zlen; cbn [length]; lia).
  destruct (edits_ok (rcs N) xs (n + 1) d1 m1 (vals (cur d1)) r1 g S1) as (m2 & r2 & d2 & E2 & S2 & D2).
  - unfold d1. now apply edit_tx.
  - lia.
  - lia.
  - rewrite V1. unfold xs, before_effs. apply Forall_cons; [apply ef_intro; [exact Of|exact L1|ucell; lia|ucell; lia|rewrite R1; apply (ids_refs _ _ _ _ _ _ O Pm)]|]. apply Forall_cons; [apply ef_intro; [exact Of|exact L1|ucell; lia|ucell; lia|rewrite R1; now right]|]. apply Forall_app; split; [|apply Forall_cons; [|apply Forall_app; split]].
    + destruct (hd_id es 0 =? e); [|constructor]. constructor; [|constructor]. apply ef_intro; [exact Ot|exact L1|ucell; lia|ucell; lia|rewrite R1; right; lia].
    + apply ef_intro; [exact Oe|exact L1|ucell; lia|ucell; lia|rewrite R1; right; lia].
    + destruct (Z.eqb_spec p 0) as [E0|E0]; [constructor|]. cbn [negb opt]. constructor; [|constructor]. apply ef_intro; [exact Oe|exact L1|ucell; lia|ucell; lia|rewrite R1; right; lia].
    + constructor; [apply ef_intro_n; [exact Ot|exact L1]|constructor].
  - rewrite V1. assert (Gn : lget c1 2 = Some (u32 (zlen es))) by (pose proof (lr_count _ _ _ _ R) as G; unfold c1; fold c in G; ceval; lia). pose proof (proj1 (u32_ne (zlen es))) as Ne.
    unfold xs, before_effs. destruct (Z.eqb_spec p 0), (Z.eqb_spec (hd_id es 0) e); cbn [negb opt app changing el evl eref]; ucell; repeat (split; [discriminate || (intros _; cg; eqs; try lia; rewrite Gn; intros K0; injection K0 as K0; lia)|]); exact Logic.I.
  - apply fits_nodup; [|reflexivity|].
    + unfold xs, before_effs. destruct (Z.eqb_spec p 0), (Z.eqb_spec (hd_id es 0) e); cbn [negb opt app map el]; ucell; nodup.
    + rewrite V1, L1. unfold xs, before_effs. destruct (Z.eqb_spec p 0), (Z.eqb_spec (hd_id es 0) e); cbn [negb opt app]; ucell; repeat (apply Forall_cons; [cbn [el]; lia|]); apply Forall_nil.
  - rewrite V1 in *. destruct D2 as [[D2 _]|[_ D2]]; [unfold xs, before_effs in D2; discriminate|]. rewrite R1 in D2.
    assert (D2' : d2 = edit (Snap (apply_ef xs c1) (refs (cur d))) d) by (rewrite D2; unfold d1; now apply edit_edit).
    destruct (before_rep N f c a e de b x R Hf) as (R' & Z' & Da'). fold es p in R', Z', Da'. fold c1 xs in R', Z', Da'. set (es' := a ++ (f, x) :: (e, de) :: b) in *.
    assert (Hids : forall z, In z (ids es') <-> z = f \/ In z (ids es)) by (intros z; unfold es', es; rewrite !ids_app, !in_app_iff; cbn [map fst In]; intuition).
    assert (O' : okS N (f + 1) K (Snap (apply_ef xs c1) (refs (cur d))) es').
    { constructor; cbn [vals refs]; [exact R'|apply Z', (o_lz _ _ _ _ _ O)|..].
      - intros z Hz. rewrite (Da' z Hz). destruct (Z.eqb_spec z f); [exists x; split; [reflexivity|exact Cx]|apply (o_data _ _ _ _ _ O z Hz)].
      - intros z Hz Hi. apply (o_in _ _ _ _ _ O z Hz). rewrite Hids in Hi. destruct Hi as [[->|Hi]|Hi]; [right; lia|now left|right; lia].
      - apply (o_else _ _ _ _ _ O). }
    assert (A2 : alive r2 es') by (eapply sim_alive; [exact S2|rewrite D2', edit_cur; exact O']). assert (A1 : alive r1 es').
    { assert (O1 : forall z, In z (ids es') -> refs (cur d1) z = 1) by (intros z Hz; rewrite R1; destruct (member_refs _ _ _ _ _ _ O' Hz) as (_ & _ & K1); exact K1). intros z Hz. destruct (member_refs _ _ _ _ _ _ O' Hz) as (K1 & _). split; [lia|]. pose proof (sim_rc _ _ _ _ _ z S1) as B. rewrite (O1 z Hz) in B. exact B. }
    exists m2, (Snap (apply_ef xs c1) (refs (cur d))), r2. split; [|split; [|exact O']].
    + apply (before_code N f c r g a e de b x (Some m) (Some m1) r1 (Some m2) r2 cu R Hf); auto.
      * apply A1, Hids. now left.
      * intros z Hz. apply A1, Hids. now right.
      * intros z Hz. apply A2, Hids. now right.
      * apply A2, Hids. now left.
    + rewrite <- D2'. cbn [vals]. eapply sim_weaken; [|exact S2]. lia.
Qed.
(** removeItem *)
Lemma remove_um N f K n d m r g a e de b : sim (rcs N) n d m (World (vals (cur d)) r g) -> tx d = None -> okS N f K (cur d) (a ++ (e, de) :: b) -> 0 <= n -> n + 8 < 4294967296 -> 1 <= plain d this ->
  exists m' s' r', ll_remove_item e (Some m) (World (vals (cur d)) r g) = Val (Some m', World (vals s') r' g) /\ sim (rcs N) (n + 8) (edit s' d) m' (World (vals s') r' g) /\ okS N f K s' (a ++ b).
Proof.
  intros S T O Hn Hb Pl. pose proof (o_rep _ _ _ _ _ O) as R. pose proof (lr_len _ _ _ _ R) as L. pose proof (lr_f _ _ _ _ R) as Bf.
  set (c := vals (cur d)) in *. set (es := a ++ (e, de) :: b) in *. set (p := last_id 0 a). set (q := hd_id b 0). set (xs := remove_effs e p q (hd_id es 0) (last_id 0 es) (u32 (zlen es))).
  assert (Ie : In e (ids es)) by (unfold es; rewrite ids_app; apply in_or_app; right; now left). pose proof (rep_ids _ _ _ _ _ R Ie) as Be.
  assert (Pm : p = 0 \/ In p (ids es)) by (destruct (last_mem a) as [K0|K0]; [now left|right; unfold es; rewrite ids_app; apply in_or_app; now left]).
  assert (Qm : q = 0 \/ In q (ids es)) by (destruct (hd_mem b) as [K0|K0]; [now left|right; unfold es; rewrite ids_app; apply in_or_app; right; now right]).
  assert (Hp : p = 0 \/ 2 <= p < f) by (destruct Pm as [->|Pm]; [now left|right; exact (rep_ids _ _ _ _ _ R Pm)]).
  assert (Hq : q = 0 \/ 2 <= q < f) by (destruct Qm as [->|Qm]; [now left|right; exact (rep_ids _ _ _ _ _ R Qm)]).
  pose proof (lr_nd _ _ _ _ R) as ND. assert (ND0 := ND). unfold es in ND. rewrite ids_app in ND. apply nd_app_iff in ND as (_ & NDb & ND). cbn [map fst] in NDb. apply NoDup_cons_iff in NDb as [NDe _].
  assert (Npe : p <> e). { unfold p. destruct a as [|n0 a0]; [cbn [last_id]; lia|]. intros E. apply (ND e); [rewrite <- E at 1; apply last_in; discriminate|now left]. }
  assert (Nqe : q <> e). { unfold q. destruct b as [|n0 b0]; [cbn [hd_id]; lia|]. intros E. apply NDe. rewrite <- E at 1. apply hd_in. discriminate. }
  assert (Npq : p <> 0 -> q <> 0 -> p <> q). { intros P0 Q0 E. unfold p, q in *. destruct a as [|n0 a0]; [cbn [last_id] in P0; lia|]. destruct b as [|n1 b0]; [cbn [hd_id] in Q0; lia|]. apply (ND (last_id 0 (n0 :: a0))); [apply last_in; discriminate|]. rewrite E. right. apply hd_in. discriminate. }
  assert (Ow : forall z, In z (ids es) -> owned d z) by (intros z Hz; destruct (member_refs _ _ _ _ _ _ O Hz) as (K1 & _ & K2); eapply own_refs; eauto; lia).
  assert (Ot : owned d this) by (eapply own_this; eauto; eapply sim_nn; eauto).
  assert (Lx : zlen xs <= 7) by (unfold xs, remove_effs; destruct (negb (p =? 0)), (negb (q =? 0)), (hd_id es 0 =? e), (last_id 0 es =? e); cbn [opt app]; unfold zlen; cbn [length]; lia).
  destruct (edits_ok (rcs N) xs n d m c r g S T Hn ltac:(lia)) as (m1 & r1 & d1 & E1 & S1 & D1).
  - unfold xs, remove_effs. fold c. repeat (apply Forall_app; split).
    + destruct (Z.eqb_spec p 0) as [E0|E0]; [constructor|]. cbn [negb opt]. constructor; [|constructor]. apply ef_intro; [destruct Pm; [contradiction|auto]|exact L|ucell; lia|ucell; lia|apply (ids_refs _ _ _ _ _ _ O Qm)].
    + destruct (Z.eqb_spec q 0) as [E0|E0]; [constructor|]. cbn [negb opt]. constructor; [|constructor]. apply ef_intro; [destruct Qm; [contradiction|auto]|exact L|ucell; lia|ucell; lia|apply (ids_refs _ _ _ _ _ _ O Pm)].
    + destruct (hd_id es 0 =? e); [|constructor]. constructor; [|constructor]. apply ef_intro; [exact Ot|exact L|ucell; lia|ucell; lia|apply (ids_refs _ _ _ _ _ _ O Qm)].
    + destruct (last_id 0 es =? e); [|constructor]. constructor; [|constructor]. apply ef_intro; [exact Ot|exact L|ucell; lia|ucell; lia|apply (ids_refs _ _ _ _ _ _ O Pm)].
    + constructor; [apply ef_intro; [auto|exact L|ucell; lia|ucell; lia|now left]|]. constructor; [apply ef_intro; [auto|exact L|ucell; lia|ucell; lia|now left]|]. constructor; [apply ef_intro_n; [exact Ot|exact L]|constructor].
  - fold c. pose proof (lr_count _ _ _ _ R) as Gn. fold c in Gn. pose proof (proj2 (u32_ne (zlen es))) as Ne.
    unfold xs, remove_effs. destruct (Z.eqb_spec p 0), (Z.eqb_spec q 0), (Z.eqb_spec (hd_id es 0) e), (Z.eqb_spec (last_id 0 es) e); cbn [negb opt app changing el evl eref]; ucell; repeat (split; [discriminate || (intros _; cg; eqs; try lia; rewrite Gn; intros K0; injection K0 as K0; lia)|]); exact Logic.I.
  - apply fits_nodup; [|reflexivity|].
    + unfold xs, remove_effs. destruct (Z.eqb_spec p 0), (Z.eqb_spec q 0), (Z.eqb_spec (hd_id es 0) e), (Z.eqb_spec (last_id 0 es) e); cbn [negb opt app map el]; ucell; nodup.
    + fold c. rewrite L. unfold xs, remove_effs. destruct (Z.eqb_spec p 0), (Z.eqb_spec q 0), (Z.eqb_spec (hd_id es 0) e), (Z.eqb_spec (last_id 0 es) e); cbn [negb opt app]; ucell; repeat (apply Forall_cons; [cbn [el]; lia|]); apply Forall_nil.
  - fold c in S1, D1. assert (Nx : xs <> []) by (unfold xs, remove_effs; intros K0; apply app_eq_nil in K0 as [_ K0]; apply app_eq_nil in K0 as [_ K0]; apply app_eq_nil in K0 as [_ K0]; apply app_eq_nil in K0 as [_ K0]; discriminate).
    destruct D1 as [[D1 _]|[_ D1]]; [contradiction|]. set (s1 := Snap (apply_ef xs c) (refs (cur d))) in *.
    assert (V1 : cur d1 = s1) by (rewrite D1; apply edit_cur).
    destruct (remove_rep N f c a e de b R) as (R' & Z' & Da'). fold es p q in R', Z', Da'. fold xs in R', Z', Da'.
    assert (Ne : ~ In e (ids (a ++ b))) by (unfold es in ND0; rewrite ids_app in ND0; cbn [map fst] in ND0; rewrite ids_app; eapply NoDup_remove_2; exact ND0).
    assert (Hids : forall z, In z (ids (a ++ b)) -> In z (ids es)) by (intros z; unfold es; rewrite !ids_app, !in_app_iff; cbn [map fst In]; tauto).
    assert (Da2 : forall z, 2 <= z < Z.of_nat N + 2 -> exists v, lget (apply_ef xs c) (cdata z) = Some v /\ cli N K v) by (intros z Hz; rewrite (Da' z Hz); apply (o_data _ _ _ _ _ O z Hz)).
    assert (S1' : sim (rcs N) (n + zlen xs) d1 m1 (World (vals (cur d1)) r1 g)) by (rewrite V1; exact S1).
    destruct (L_LinkedList.release_ok (rcs N) (n + zlen xs) d1 m1 c r1 g e S1') as (m2 & r2 & r3 & E2 & E3 & S2).
    + rewrite D1. now apply edit_tx.
    + pose proof (zlen_nonneg xs). lia.
    + lia.
    + cbn [allowed]. rewrite V1. cbn [s1 refs vals]. split; [lia|]. destruct (member_refs _ _ _ _ _ _ O Ie) as (_ & _ & K2). split; [lia|]. right. intros l Hl. eapply no_ref; eauto; [apply Z', (o_lz _ _ _ _ _ O)|lia].
    + rewrite V1 in *. assert (O' : okS N f K (add_ref s1 e (-1)) (a ++ b)).
      { constructor; cbn [add_ref vals refs s1]; [exact R'|apply Z', (o_lz _ _ _ _ _ O)|exact Da2|..].
        - intros z Hz Hi. destruct (Z.eqb_spec z e) as [Ez|Ez]; [subst z; destruct Hi as [Hi|Hi]; [contradiction|lia]|]. apply (o_in _ _ _ _ _ O z Hz). destruct Hi as [Hi|Hi]; [left; now apply Hids|now right].
        - intros z Hz. destruct (Z.eqb_spec z e) as [Ez|Ez]; [lia|]. now apply (o_else _ _ _ _ _ O). }
      assert (D2 : edit (add_ref s1 e (-1)) d1 = edit (add_ref s1 e (-1)) d) by (rewrite D1; now apply edit_edit). rewrite D2 in S2.
      assert (A2 : forall z, In z (ids es) -> 1 <= r2 z).
      { intros z Hz. specialize (E3 c). unfold release in E3. cbn [rc cells regen] in E3. destruct (Z.leb_spec (r2 e) 0) as [|Pe]; [discriminate|]. injection E3 as E3. destruct (Z.eq_dec z e) as [Ez|Nz]; [subst z; lia|].
        assert (Hz' : In z (ids (a ++ b))). { unfold es in Hz. rewrite !ids_app, !in_app_iff in *. cbn [map fst In] in Hz. destruct Hz as [Hz|[Hz|Hz]]; [tauto|congruence|tauto]. }
        pose proof (sim_rc _ _ _ _ _ z S2) as B. rewrite edit_cur in B. destruct (member_refs _ _ _ _ _ _ O' Hz') as (_ & _ & K2). rewrite K2 in B. cbn [rc] in B. rewrite <- E3 in B. unfold fupd in B. replace (z =? e) with false in B by lia. exact B. }
      exists m2, (add_ref s1 e (-1)), r3. split; [|split; [|exact O']].
      * apply (remove_code N f c r g a e de b (Some m) (Some m1) r1 (Some m2) r2 r3 R); auto.
        -- destruct (member_refs _ _ _ _ _ _ O Ie) as (_ & _ & K2). pose proof (sim_rc _ _ _ _ _ e S) as B. cbn [rc] in B. lia.
        -- intros z Hz. split; [pose proof (rep_ids _ _ _ _ _ R Hz); lia|auto].
      * cbn [add_ref vals s1]. eapply sim_weaken; [|exact S2]. lia.
Qed.
