From Verif Require Import Base M_Undo M_LinkedList S_LinkedList L_LinkedList L_LinkedList2 L_LinkedList3 L_LinkedList4 L_LinkedList5.
Ltac Zify.zify_post_hook ::= Z.to_euclidean_division_equations.
Lemma release_all_ok es : forall c r g p s fuel, dls c p es 0 -> NoDup (ids es) -> alive r es -> lcur s = hd_id es 0 -> (length es < fuel)%nat ->
  exists r' s', ll_release_all (World c r g) s fuel = Val (World c r' g, s') /\ forall o, (In o (ids es) -> r' o = r o - 1) /\ (~ In o (ids es) -> r' o = r o).
Proof.
  induction es as [|[e d] es IH]; intros c r g p s fuel D ND A E Hf; (destruct fuel as [|fuel]; [cbn [length] in Hf; lia|]); cbn [ll_release_all]; unfold ll_has_next.
  - cbn [hd_id] in E. rewrite E. exists r, s. split; [reflexivity|]. intros o. split; [intros []|reflexivity].
  - cbn [hd_id] in E. destruct (A e (or_introl eq_refl)) as [A1 A2]. rewrite E. replace (negb (e =? 0)) with true by lia. rewrite (next_element_ok _ _ _ _ _ _ _ _ D A E). cbn [bind]. unfold release. cbn [rc cells regen]. replace (r e <=? 0) with false by lia. cbn [bind].
    destruct D as (D1 & D2 & D3 & D4). cbn [map fst] in ND. apply NoDup_cons_iff in ND as [Ne ND]. cbn [length] in Hf.
    destruct (IH c (fupd r e (r e - 1)) g e (LL (hd_id es 0) (lfresh s)) fuel D4 ND) as (r' & s' & F & K); [|reflexivity|lia|].
    + intros x Hx. destruct (A x (or_intror Hx)) as [B1 B2]. split; [exact B1|]. unfold fupd. destruct (Z.eqb_spec x e) as [->|]; [contradiction|exact B2].
    + exists r', s'. split; [exact F|]. intros o. destruct (K o) as [K1 K2]. unfold fupd in *. cbn [map fst In]. split.
      * intros [<-|Ho]; [rewrite (K2 Ne); replace (e =? e) with true by lia; reflexivity|]. rewrite (K1 Ho). destruct (Z.eqb_spec o e) as [Eo|]; [exfalso; apply Ne; rewrite <- Eo; exact Ho|reflexivity].
      * intros No. rewrite K2 by tauto. destruct (Z.eqb_spec o e) as [Eo|]; [exfalso; apply No; left; now symmetry|reflexivity].
Qed.
Lemma lstep_ok N r0 w s l cp es o fuel : i29 N r0 w s l cp es -> lfresh s < Z.of_nat N + 2 -> zlen l + 1 < 4294967296 -> (length l < fuel)%nat ->
  match lstep o l cp with
  | Some (a, l', cp') => exists w' s' es', lexec o fuel w s = Val (a, w', s') /\ i29 N r0 w' s' l' cp' es' /\ lfresh s' <= lfresh s + 1 /\ zlen l' <= zlen l + 1
  | None => lexec o fuel w s = UB
  end.
Proof.
  intros I Hf Hl Hfu. destruct w as [c r g]. destruct s as [cu f]. pose proof (i29_alive _ _ _ _ _ _ _ _ _ I) as A. assert (I' := I). destruct I as [R El Iin Iout Ielse Icur]. cbn [cells rc lfresh lcur] in *.
  assert (Len : length es = length l) by (rewrite <- El, map_length; reflexivity). assert (Zl : zlen es = zlen l) by (unfold zlen; lia).
  pose proof (lr_f _ _ _ _ R) as Bf. assert (Af : 1 <= r f) by (rewrite (Iin f) by (try right; lia); lia).
  destruct o as [x|x y|x|x y| | | | | | | ]; cbn [lstep lexec].
  - (* add *)
    rewrite (add_code N f c r g es x None None r None r cu R Hf Af A Af) by (apply regs_none). cbn [bind].
    destruct (add_rep N f c es x R Hf) as (R' & _ & _). eexists _, _, _. split; [reflexivity|]. split; [|split; [cbn [lfresh]; lia|rewrite zlen_app; change (zlen [x]) with 1; lia]].
    constructor; cbn [cells rc lfresh lcur]; [exact R'|now rewrite map_app, El|..].
    + intros e He Hi. apply Iin; [exact He|]. destruct Hi as [Hi|Hi]; [|right; lia]. rewrite ids_app in Hi. apply in_app_or in Hi as [Hi|[<-|[]]]; [now left|right; cbn [fst]; lia].
    + intros e He Hi. rewrite ids_app, in_app_iff in Hi. cbn [map fst In] in Hi. apply Iout; [|tauto]. assert (e <> f) by (intros ->; tauto). lia.
    + exact Ielse.
    + destruct cp as [k|]; [|exact Icur]. rewrite ids_app. rewrite nth_error_app1; [exact Icur|]. apply nth_error_Some. congruence.
  - (* addBefore *)
    unfold ll_add_before. rewrite (rewind_ok _ _ _ _ _ _ _ R). cbn [bind lfresh].
    destruct (find_ok x c r g es 0 (LL (hd_id es 0) f) fuel (lr_dls _ _ _ _ R) A eq_refl ltac:(lia)) as [(a & e & b & Ees & Na & F)|(Na & F)]; rewrite F; cbn [bind lfresh].
    + rewrite <- El, Ees, (index_datas _ _ _ _ Na), (insert_datas _ _ f). rewrite Ees in *.
      assert (Ie : In e (ids (a ++ (e, x) :: b))) by (rewrite ids_app; apply in_or_app; right; now left). pose proof (rep_ids _ _ _ _ _ R Ie). replace (negb (e =? 0)) with true by lia. cbn [lfresh lcur].
      pose proof (before_code N f c r g a e x b y None None r None r (hd_id b 0) R Hf Af A A Af (regs_none _ _) (regs_none _ _)) as BC. cbv zeta in BC. rewrite BC. cbn [bind].
      destruct (before_rep N f c a e x b y R Hf) as (R' & _ & _). eexists _, _, _. split; [reflexivity|]. split; [|split; [cbn [lfresh]; lia|rewrite ?zlen_map, !zlen_app, !zlen_cons; lia]].
      constructor; cbn [cells rc lfresh lcur]; [exact R'|reflexivity|..].
      * intros z Hz Hi. apply Iin; [exact Hz|]. destruct Hi as [Hi|Hi]; [|right; lia]. rewrite ids_app, in_app_iff in *. cbn [map fst In] in *. destruct Hi as [Hi|[<-|Hi]]; [tauto|right; lia|tauto].
      * intros z Hz Hi. rewrite ids_app, in_app_iff in *. cbn [map fst In] in *. assert (z <> f) by (intros ->; tauto). apply Iout; [lia|rewrite ?ids_app, in_app_iff; cbn [map fst In]; tauto].
      * exact Ielse.
      * apply at_pos_hd'. replace (a ++ (f, y) :: (e, x) :: b) with ((a ++ [(f, y); (e, x)]) ++ b) by (rewrite <- app_assoc; reflexivity). rewrite skipn_len; [reflexivity|]. rewrite app_length. cbn [length]. lia.
    + rewrite El in Na. rewrite (proj2 (index_of_none _ _) Na). change (negb (0 =? 0)) with false. eexists _, _, es. split; [reflexivity|]. split; [|split; [cbn [lfresh]; lia|lia]]. constructor; cbn [cells rc lfresh lcur]; auto.
  - (* remove *)
    unfold ll_remove. rewrite (rewind_ok _ _ _ _ _ _ _ R). cbn [bind lfresh].
    destruct (find_ok x c r g es 0 (LL (hd_id es 0) f) fuel (lr_dls _ _ _ _ R) A eq_refl ltac:(lia)) as [(a & e & b & Ees & Na & F)|(Na & F)]; rewrite F; cbn [bind lfresh].
    + rewrite <- El, Ees, (index_datas _ _ _ _ Na), remove_datas. rewrite Ees in *.
      assert (Ie : In e (ids (a ++ (e, x) :: b))) by (rewrite ids_app; apply in_or_app; right; now left). pose proof (rep_ids _ _ _ _ _ R Ie). replace (negb (e =? 0)) with true by lia. destruct (A e Ie) as [_ Ae].
      assert (Hrel : forall c0, release e (World c0 r g) = Val (World c0 (fupd r e (r e - 1)) g)) by (intros c0; unfold release; cbn [rc cells regen]; replace (r e <=? 0) with false by lia; reflexivity).
      rewrite (remove_code N f c r g a e x b None None r None r _ R Ae A (regs_none _ _) eq_refl Hrel). cbn [bind].
      destruct (remove_rep N f c a e x b R) as (R' & _ & _).
      assert (Re : r e = 1) by (apply Iin; [lia|now left]).
      pose proof (lr_nd _ _ _ _ R) as ND. rewrite ids_app in ND. pose proof (NoDup_remove_2 _ _ _ ND) as Ne. rewrite <- ids_app in Ne.
      eexists _, _, _. split; [reflexivity|]. split; [|split; [cbn [lfresh]; lia|rewrite ?zlen_map, !zlen_app, !zlen_cons; lia]].
      constructor; cbn [cells rc lfresh lcur]; [exact R'|reflexivity|..].
      * intros z Hz Hi. unfold fupd. destruct (Z.eqb_spec z e) as [->|Nz]; [destruct Hi as [Hi|Hi]; [contradiction|lia]|]. apply Iin; [exact Hz|]. destruct Hi as [Hi|Hi]; [|right; lia]. left. rewrite ids_app, in_app_iff in *. cbn [map fst In] in *. tauto.
      * intros z Hz Hi. unfold fupd. destruct (Z.eqb_spec z e) as [->|Nz]; [lia|]. apply Iout; [lia|]. rewrite ids_app, in_app_iff in *. cbn [map fst In]. intros [K|[K|K]]; [tauto|congruence|tauto].
      * intros z Hz. unfold fupd. destruct (Z.eqb_spec z e) as [->|Nz]; [lia|]. now apply Ielse.
      * apply at_pos_hd'. rewrite skipn_len; reflexivity.
    + rewrite El in Na. rewrite (proj2 (index_of_none _ _) Na). change (negb (0 =? 0)) with false. eexists _, _, es. split; [reflexivity|]. split; [|split; [cbn [lfresh]; lia|lia]]. constructor; cbn [cells rc lfresh lcur]; auto.
  - (* swapData *)
    unfold ll_swap_data. rewrite (rewind_ok _ _ _ _ _ _ _ R). cbn [bind lfresh].
    assert (A0 : forall e, In e (ids es) -> e <> 0) by (intros e He; apply A; exact He).
    destruct (find2_ok x y c r g es [] 0 (LL (hd_id es 0) f) fuel (lr_dls _ _ _ _ R) A eq_refl ltac:(lia) (or_introl eq_refl)) as [(b1 & n & b2 & Ees & K1 & K2 & K3 & F)|(K1 & F)]; cbn [lastid] in F; rewrite F; cbn [bind lfresh app] in *.
    + replace (negb (lastid x (b1 ++ [n]) =? 0) && negb (lastid y (b1 ++ [n]) =? 0)) with true by lia. eexists _, _, es. split; [reflexivity|]. split; [|split; [cbn [lfresh]; lia|lia]]. constructor; cbn [cells rc lfresh lcur]; auto.
      assert (A1 : forall e, In e (ids (b1 ++ [n])) -> e <> 0) by (intros e He; apply A0; rewrite Ees; rewrite ids_app in *; cbn [map] in *; rewrite in_app_iff in *; cbn [In] in *; tauto).
      assert (A2 : forall e, In e (ids b1) -> e <> 0) by (intros e He; apply A0; rewrite Ees; rewrite ids_app; apply in_or_app; now left).
      rewrite <- El, Ees, map_app. cbn [map]. rewrite reach_prefix.
      * replace (datas b1 ++ snd n :: datas b2) with (datas es) by (rewrite Ees, map_app; reflexivity). rewrite Ees. apply at_pos_hd'. rewrite map_length. replace (b1 ++ n :: b2) with ((b1 ++ [n]) ++ b2) by (rewrite <- app_assoc; reflexivity). rewrite skipn_len; [reflexivity|]. rewrite app_length. cbn [length]. lia.
      * change [snd n] with (datas [n]). rewrite <- map_app. destruct (in_dec Z.eq_dec x (datas (b1 ++ [n]))) as [K|K]; [exact K|]. apply (lastid_in x _ A1) in K. contradiction.
      * change [snd n] with (datas [n]). rewrite <- map_app. destruct (in_dec Z.eq_dec y (datas (b1 ++ [n]))) as [K|K]; [exact K|]. apply (lastid_in y _ A1) in K. contradiction.
      * destruct K3 as [K3|K3]; [left|right]; now apply lastid_in.
    + replace (negb (lastid x es =? 0) && negb (lastid y es =? 0)) with false by lia. eexists _, _, es. split; [reflexivity|]. split; [|split; [cbn [lfresh]; lia|lia]]. constructor; cbn [cells rc lfresh lcur]; auto.
      rewrite reach_none; [reflexivity|]. rewrite <- El. destruct K1 as [K1|K1]; [left|right]; now apply lastid_in.
  - (* clear *)
    unfold ll_clear. rewrite (rewind_ok _ _ _ _ _ _ _ R). cbn [bind lfresh].
    destruct (release_all_ok es c r g 0 (LL (hd_id es 0) f) fuel (lr_dls _ _ _ _ R) (lr_nd _ _ _ _ R) A eq_refl ltac:(lia)) as (r' & s' & F & K). rewrite F. cbn [bind].
    pose proof (lr_len _ _ _ _ R) as L. rewrite write_ok by (ucell; lia). cbn [bind]. rewrite write_ok by (rewrite ?cset_zlen; ucell; lia). cbn [bind]. rewrite write_ok by (rewrite ?cset_zlen; ucell; lia). cbn [bind].
    eexists _, _, []. split; [reflexivity|]. split; [|split; [cbn [lfresh]; lia|change (zlen (@nil Z)) with 0; pose proof (zlen_nonneg l); lia]]. constructor; cbn [cells rc lfresh lcur]; auto.
    + constructor; rewrite ?cset_zlen; auto; cbn [hd_id last_id]; try (ceval; lia); try exact Logic.I; [constructor|constructor|]. intros e He. destruct (lr_fresh _ _ _ _ R e He). ucell. split; ceval; lia.
    + intros e He [[]|Hi]. destruct (K e) as [_ K2]. rewrite K2; [apply Iin; [exact He|now right]|]. intros Hin. pose proof (rep_ids _ _ _ _ _ R Hin). lia.
    + intros e He _. destruct (K e) as [K1 K2]. destruct (in_dec Z.eq_dec e (ids es)) as [Hi|Hi]; [rewrite (K1 Hi), (Iin e) by (try left; auto; lia); lia|]. rewrite (K2 Hi). now apply Iout.
    + intros e He. destruct (K e) as [_ K2]. rewrite K2; [now apply Ielse|]. intros Hin. pose proof (rep_ids _ _ _ _ _ R Hin). lia.
  - (* rewind *)
    rewrite (rewind_ok _ _ _ _ _ _ _ R). cbn [bind lfresh]. eexists _, _, es. split; [reflexivity|]. split; [|split; [cbn [lfresh]; lia|lia]]. constructor; cbn [cells rc lfresh lcur]; auto. rewrite <- El. apply at_pos_hd'. reflexivity.
  - (* hasNext *)
    eexists _, _, es. split; [|split; [exact I'|cbn [lfresh]; lia]]. unfold ll_has_next. cbn [lcur]. do 4 f_equal. destruct cp as [k|]; [|rewrite Icur; reflexivity]. apply nth_error_In in Icur. destruct (A _ Icur). replace (cu =? 0) with false by lia. reflexivity.
  - (* next *)
    destruct cp as [k|].
    + unfold ll_next. cbn [lcur lfresh]. assert (Icur' := Icur). rewrite nth_error_map in Icur. destruct (nth_error es k) as [[e d]|] eqn:Nk; [|discriminate]. cbn [option_map fst] in Icur. injection Icur as ->.
      apply nth_error_split in Nk as (a & b & Ees & La). destruct (A cu) as [A1 A2]; [rewrite Ees, ids_app; apply in_or_app; right; now left|]. pose proof (lr_dls _ _ _ _ R) as D. rewrite Ees, dls_app in D. destruct D as [_ (D1 & D2 & D3 & D4)].
      rewrite (getm_ok _ _ _ _ _ _ A1 A2 D3), (getm_ok _ _ _ _ _ _ A1 A2 D2). cbn [bind]. exists (World c r g), (LL (hd_id b 0) f), es. split; [|split; [|cbn [lfresh]; split; lia]].
      * do 4 f_equal. rewrite <- El, Ees, map_app. cbn [map snd]. rewrite app_nth2 by (rewrite map_length; lia). rewrite map_length, La, Nat.sub_diag. reflexivity.
      * constructor; cbn [cells rc lfresh lcur]; auto. rewrite <- El. apply at_pos_hd'. rewrite Ees. replace (a ++ (cu, d) :: b) with ((a ++ [(cu, d)]) ++ b) by (rewrite <- app_assoc; reflexivity). rewrite skipn_len; [reflexivity|]. rewrite app_length. cbn [length]. lia.
    + unfold ll_next. cbn [lcur]. rewrite Icur. unfold getm. reflexivity.
  - (* first *)
    unfold ll_first. rewrite (read_ok _ _ _ _ _ (lr_count _ _ _ _ R)). cbn [bind]. pose proof (zlen_nonneg es). rewrite u32_id by lia. destruct es as [|[e d] es].
    + change (zlen (@nil (Z * Z)) =? 0) with true. cbn [bind]. rewrite <- El. cbn [map hd]. eexists _, _, []. split; [reflexivity|]. rewrite <- El in I'. split; [exact I'|cbn [lfresh]; lia].
    + rewrite zlen_cons in *. replace (1 + zlen es =? 0) with false by (pose proof (zlen_nonneg es); lia). rewrite (read_ok _ _ _ _ _ (lr_start _ _ _ _ R)). cbn [bind hd_id]. destruct (A e (or_introl eq_refl)) as [A1 A2]. destruct (lr_dls _ _ _ _ R) as (D1 & D2 & D3 & D4). rewrite (getm_ok _ _ _ _ _ _ A1 A2 D3). cbn [bind]. rewrite <- El. cbn [map hd snd]. eexists _, _, ((e, d) :: es). split; [reflexivity|]. rewrite <- El in I'. split; [exact I'|cbn [lfresh]; lia].
  - (* last *)
    unfold ll_last. rewrite (read_ok _ _ _ _ _ (lr_count _ _ _ _ R)). cbn [bind]. pose proof (zlen_nonneg es). rewrite u32_id by lia. destruct (snoc_cases es) as [Ees|(a & [e d] & Ees)].
    + rewrite Ees. change (zlen (@nil (Z * Z)) =? 0) with true. cbn [bind]. rewrite <- El, Ees. cbn [map last]. eexists _, _, []. split; [reflexivity|]. rewrite Ees in I'. rewrite <- El, Ees in I'. split; [exact I'|cbn [lfresh]; lia].
    + replace (zlen es =? 0) with false by (rewrite Ees, zlen_app; change (zlen [(e, d)]) with 1; pose proof (zlen_nonneg a); lia). rewrite (read_ok _ _ _ _ _ (lr_end _ _ _ _ R)). cbn [bind]. rewrite Ees, last_id_snoc. destruct (A e) as [A1 A2]; [rewrite Ees, ids_app; apply in_or_app; right; now left|]. pose proof (lr_dls _ _ _ _ R) as D. rewrite Ees, dls_app in D. destruct D as [_ (D1 & D2 & D3 & D4)]. rewrite (getm_ok _ _ _ _ _ _ A1 A2 D3). cbn [bind]. eexists _, _, es. split; [|split; [exact I'|cbn [lfresh]; lia]]. rewrite <- El, Ees, map_app. cbn [map snd]. rewrite last_last. reflexivity.
  - (* size *)
    unfold ll_size. rewrite (read_ok _ _ _ _ _ (lr_count _ _ _ _ R)). cbn [bind]. pose proof (zlen_nonneg es). rewrite u32_id by lia. rewrite Zl. eexists _, _, es. split; [reflexivity|]. split; [exact I'|cbn [lfresh]; lia].
Qed.
Lemma fresh_i29 N w : fresh_world N w -> i29 N (rc w) w ll_new [] None [].
Proof.
  intros (Hc & H1 & H2 & H3). assert (L : zlen (cells w) = 3 * Z.of_nat N + 3) by (rewrite Hc, zlen_repeat; lia).
  assert (G : forall j, 0 <= j < 3 * Z.of_nat N + 3 -> lget (cells w) j = Some 0).
  { intros j Hj. destruct (lget_range (cells w) j ltac:(lia)) as [v E]. rewrite E. f_equal. apply lget_In in E. rewrite Hc in E. now apply repeat_spec in E. }
  constructor; cbn [ll_new lfresh lcur]; auto.
  - constructor; cbn [hd_id last_id dls map]; auto; try (apply G; ucell; lia); try lia; try apply NoDup_nil; try apply Forall_nil. intros x Hx. split; apply G; ucell; lia.
  - intros e He. exfalso. lia.
Qed.
Lemma lsteps_ok N r0 os : forall w s l cp es fuel, i29 N r0 w s l cp es -> lfresh s + zlen os <= Z.of_nat N + 2 -> zlen l + zlen os < 4294967296 -> zlen l + zlen os < Z.of_nat fuel ->
  match lsteps os l cp with
  | Some (rs, l', cp') => exists w' s' es', lexec_all os fuel w s = Val (rs, w', s') /\ i29 N r0 w' s' l' cp' es'
  | None => lexec_all os fuel w s = UB
  end.
Proof.
  induction os as [|o os IH]; intros w s l cp es fuel I Hf Hl Hfu; cbn [lsteps lexec_all].
  - exists w, s, es. split; [reflexivity|exact I].
  - rewrite zlen_cons in *. pose proof (zlen_nonneg os). pose proof (zlen_nonneg l). pose proof (lstep_ok N r0 w s l cp es o fuel I ltac:(lia) ltac:(lia) ltac:(unfold zlen in *; lia)) as S.
    destruct (lstep o l cp) as [[[a l'] cp']|]; [|rewrite S; reflexivity]. destruct S as (w' & s' & es' & E & I' & B1 & B2). rewrite E. cbn [bind].
    pose proof (IH w' s' l' cp' es' fuel I' ltac:(lia) ltac:(lia) ltac:(lia)) as R. destruct (lsteps os l' cp') as [[[rs l''] cp'']|]; [|rewrite R; reflexivity].
    destruct R as (w'' & s'' & es'' & E' & I''). rewrite E'. cbn [bind]. exists w'', s'', es''. split; [reflexivity|exact I''].
Qed.
Lemma it_all_ok c r g es : forall p fuel, dls c p es 0 -> alive r es -> (length es < fuel)%nat -> it_all (hd_id es 0) (World c r g) fuel = Val (datas es, 0).
Proof.
  induction es as [|[e d] es IH]; intros p fuel D A Hf; (destruct fuel as [|fuel]; [cbn [length] in Hf; lia|]); cbn [it_all hd_id]; unfold lit_has_next, lit_seek, lit_next.
  - reflexivity.
  - destruct (A e (or_introl eq_refl)) as [A1 A2]. replace (e =? 0) with false by lia. cbn [negb]. destruct D as (D1 & D2 & D3 & D4). rewrite (getm_ok _ _ _ _ _ _ A1 A2 D3), (getm_ok _ _ _ _ _ _ A1 A2 D2). cbn [bind]. cbn [length] in Hf. rewrite (IH e fuel D4 (alive_tl _ _ _ A)) by lia. cbn [bind]. replace (d =? d) with true by lia. reflexivity.
Qed.
