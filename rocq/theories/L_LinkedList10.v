From Verif Require Import Base M_Undo S_Undo L_Undo L_Undo2 L_Undo3 M_LinkedList S_LinkedList L_LinkedList L_LinkedList2 L_LinkedList3 L_LinkedList4 L_LinkedList5 L_LinkedList6 L_LinkedList7 L_LinkedList8 L_LinkedList9.
Ltac Zify.zify_post_hook ::= Z.to_euclidean_division_equations.
Definition okl (N : nat) (f : Z) (K : Z -> Z) (s : snap) (l : list Z) : Prop := exists es, okS N f K s es /\ datas es = l.
Record usim (N : nat) (f : Z) (K : Z -> Z) (d : doc) (ld : ldoc) : Prop := Usim {
  u_tx : tx d = None;
  u_plain : 1 <= plain d this;
  u_past : Forall2 (okl N f K) (past d) (lpast ld);
  u_cur : okl N f K (cur d) (lnow ld);
  u_fut : Forall2 (okl N f K) (future d) (lfuture ld);
  u_base : match base d, lbase ld with Some s, Some l => okl N f K s l | None, None => True | _, _ => False end
}.
Lemma okl_mono N f f' K s l : f <= f' <= Z.of_nat N + 2 -> okl N f K s l -> okl N f' K s l.
Proof. intros H (es & O & E). exists es. split; [eapply okS_mono; eauto|exact E]. Qed.
Lemma okl_mono2 N f f' K a b : f <= f' <= Z.of_nat N + 2 -> Forall2 (okl N f K) a b -> Forall2 (okl N f' K) a b.
Proof. intros H. induction 1; constructor; auto. eapply okl_mono; eauto. Qed.
Lemma edit_usim N f f' K d ld s l : usim N f K d ld -> f <= f' <= Z.of_nat N + 2 -> okl N f' K s l -> usim N f' K (edit s d) (ledit l ld).
Proof.
  intros [T Pl Pa Cu Fu Ba] H O. unfold edit, ledit. rewrite T. constructor; cbn [tx plain past cur future base lpast lnow lfuture lbase]; auto.
  - eapply okl_mono2; eauto.
  - destruct (base d) as [b|], (lbase ld) as [lb|]; try contradiction; eapply okl_mono; eauto.
Qed.
Lemma c3_eq N f K s : okS N f K s [] -> cset (cset (cset (vals s) cstart 0) cend 0) ccount 0 = vals s.
Proof.
  intros O. destruct (o_rep _ _ _ _ _ O) as [L Gs Ge Gn _ _ _ _ _]. cbn [hd_id last_id] in *. change (u32 (zlen (@nil (Z * Z)))) with 0 in Gn. apply lget_ext. intros j. rewrite !cset_get by (rewrite ?cset_zlen; ucell; lia).
  destruct (Z.eqb_spec j ccount) as [->|]; [now rewrite Gn|]. destruct (Z.eqb_spec j cend) as [->|]; [now rewrite Ge|]. destruct (Z.eqb_spec j cstart) as [->|]; [now rewrite Gs|reflexivity].
Qed.
Lemma datas_cli N f K s es x : okS N f K s es -> In x (datas es) -> cli N K x.
Proof.
  intros O Hx. apply in_map_iff in Hx as ([e d] & E & Hin). cbn [snd] in E. subst d. pose proof (rep_ids _ _ _ _ _ (o_rep _ _ _ _ _ O) (in_map fst _ _ Hin)) as Be. cbn [fst] in Be. pose proof (lr_f _ _ _ _ (o_rep _ _ _ _ _ O)).
  apply in_split in Hin as (u & v & E). pose proof (dls_data _ _ _ _ _ _ _ _ (lr_dls _ _ _ _ (o_rep _ _ _ _ _ O)) E) as G. destruct (o_data _ _ _ _ _ O e ltac:(lia)) as (v' & G' & C). rewrite G in G'. injection G' as <-. exact C.
Qed.
Lemma ustep_ok N K n d ld m w s o fuel : sim (rcs N) n d m w -> usim N (lfresh s) K d ld -> lfresh s < Z.of_nat N + 2 -> 0 <= n -> lfresh s - 2 <= n -> n + ucost o (lnow ld) < 4294967296 -> (length (lnow ld) < fuel)%nat -> Forall (cli N K) (uop_objs o) ->
  exists m' w' s' d', uexec o fuel m w s = Val (fst (ustep o ld), m', w', s') /\ sim (rcs N) (n + ucost o (lnow ld)) d' m' w' /\ usim N (lfresh s') K d' (snd (ustep o ld)) /\ lfresh s <= lfresh s' <= lfresh s + 1 /\ lfresh s' - 2 <= n + ucost o (lnow ld).
Proof.
  intros S U Hf Hn Hfn Hb Hfu Ho. destruct w as [c r g]. destruct s as [cu f]. cbn [lfresh] in *. assert (U' := U). destruct U as [T Pl Pa (es & O & El) Fu Ba]. destruct (s_w _ _ _ _ _ S) as [Ec _]. cbn [cells] in Ec. subst c.
  pose proof (o_rep _ _ _ _ _ O) as R. pose proof (lr_f _ _ _ _ R) as Bf. pose proof (sim_alive _ _ _ _ _ _ _ _ _ _ _ S O) as A. pose proof (len_f _ _ _ _ R) as Lf. assert (Len : length es = length (lnow ld)) by (rewrite <- El, map_length; reflexivity).
  assert (Ide : forall s0 l, okl N f K s0 l -> usim N f K (edit s0 d) (ledit l ld)) by (intros s0 l Hs; eapply edit_usim; eauto; lia).
  assert (Idf : forall s0 l, okl N (f + 1) K s0 l -> usim N (f + 1) K (edit s0 d) (ledit l ld)) by (intros s0 l Hs; eapply edit_usim; eauto; lia).
  assert (Sw : forall k m0 w0 d0, n <= k -> sim (rcs N) n d0 m0 w0 -> sim (rcs N) k d0 m0 w0) by (intros; eapply sim_weaken; eauto).
  destruct o as [x|x y|x|x y| | | | | | | | | ]; cbn [uexec ustep fst snd ucost uop_objs] in *.
  - (* add *)
    inversion Ho as [|? ? Cx _]; subst. destruct (add_um N f K n d m r g es x cu S T O Hf Hn Hb Cx Pl) as (m' & s' & r' & E & S' & O'). rewrite E. cbn [bind um_of]. exists m', (World (vals s') r' g), (LL cu (f + 1)), (edit s' d). split; [reflexivity|]. split; [exact S'|]. cbn [lfresh]. split; [|lia]. apply Idf. exists (es ++ [(f, x)]). split; [exact O'|]. rewrite map_app. now rewrite El.
  - (* addBefore *)
    inversion Ho as [|? ? Cy _]; subst. unfold ll_add_before. rewrite (rewind_ok _ _ _ _ _ _ _ R). cbn [bind lfresh].
    destruct (find_ok x (vals (cur d)) r g es 0 (LL (hd_id es 0) f) fuel (lr_dls _ _ _ _ R) A eq_refl ltac:(lia)) as [(a & e & b & Ees & Na & F)|(Na & F)]; rewrite F; cbn [bind lfresh lcur].
    + rewrite <- El, Ees, (index_datas _ _ _ _ Na), (insert_datas _ _ f). rewrite Ees in *.
      assert (Ie : In e (ids (a ++ (e, x) :: b))) by (rewrite ids_app; apply in_or_app; right; now left). pose proof (rep_ids _ _ _ _ _ R Ie). replace (negb (e =? 0)) with true by lia.
      destruct (before_um N f K n d m r g a e x b y (hd_id b 0) S T O Hf Hn Hb Cy Pl) as (m' & s' & r' & E & S' & O'). cbv zeta in E. rewrite E. cbn [bind um_of]. exists m', (World (vals s') r' g), (LL (hd_id b 0) (f + 1)), (edit s' d). split; [reflexivity|]. split; [exact S'|]. cbn [lfresh]. split; [|lia]. apply Idf. eexists. split; [exact O'|reflexivity].
    + rewrite El in Na. rewrite (proj2 (index_of_none _ _) Na). change (negb (0 =? 0)) with false. cbn [bind um_of]. exists m, (World (vals (cur d)) r g), (LL 0 f), d. split; [reflexivity|]. split; [apply Sw; [lia|exact S]|]. cbn [lfresh]. split; [exact U'|lia].
  - (* remove *)
    unfold ll_remove. rewrite (rewind_ok _ _ _ _ _ _ _ R). cbn [bind lfresh].
    destruct (find_ok x (vals (cur d)) r g es 0 (LL (hd_id es 0) f) fuel (lr_dls _ _ _ _ R) A eq_refl ltac:(lia)) as [(a & e & b & Ees & Na & F)|(Na & F)]; rewrite F; cbn [bind lfresh lcur].
    + assert (Ei : index_of x (lnow ld) = Some (length a)) by (rewrite <- El, Ees; now apply index_datas). rewrite Ei. cbn [fst snd].
      assert (Er : remove_at (length a) (lnow ld) = datas (a ++ b)) by (rewrite <- El, Ees; apply remove_datas). rewrite Er. rewrite Ees in *.
      assert (Ie : In e (ids (a ++ (e, x) :: b))) by (rewrite ids_app; apply in_or_app; right; now left). pose proof (rep_ids _ _ _ _ _ R Ie). replace (negb (e =? 0)) with true by lia.
      destruct (remove_um N f K n d m r g a e x b S T O Hn Hb Pl) as (m' & s' & r' & E & S' & O'). rewrite E. cbn [bind um_of]. exists m', (World (vals s') r' g), (LL (hd_id b 0) f), (edit s' d). split; [reflexivity|]. split; [exact S'|]. cbn [lfresh]. split; [|lia]. apply Ide. eexists. split; [exact O'|reflexivity].
    + rewrite El in Na. rewrite (proj2 (index_of_none _ _) Na). cbn [fst snd]. change (negb (0 =? 0)) with false. cbn [bind um_of]. exists m, (World (vals (cur d)) r g), (LL 0 f), d. split; [reflexivity|]. split; [apply Sw; [lia|exact S]|]. cbn [lfresh]. split; [exact U'|lia].
  - (* swapData *)
    unfold ll_swap_data. rewrite (rewind_ok _ _ _ _ _ _ _ R). cbn [bind lfresh].
    assert (A0 : forall e, In e (ids es) -> e <> 0) by (intros e He; apply A; exact He).
    destruct (find2_ok x y (vals (cur d)) r g es [] 0 (LL (hd_id es 0) f) fuel (lr_dls _ _ _ _ R) A eq_refl ltac:(lia) (or_introl eq_refl)) as [(b1 & nn & b2 & Ees & K1 & K2 & K3 & F)|(K1 & F)]; cbn [lastid] in F; rewrite F; cbn [bind lfresh app] in *.
    + replace (negb (lastid x (b1 ++ [nn]) =? 0) && negb (lastid y (b1 ++ [nn]) =? 0)) with true by lia.
      assert (A1 : forall e, In e (ids (b1 ++ [nn])) -> e <> 0) by (intros e He; apply A0; rewrite Ees; rewrite ids_app in *; cbn [map] in *; rewrite in_app_iff in *; cbn [In] in *; tauto).
      assert (A2 : forall e, In e (ids b1) -> e <> 0) by (intros e He; apply A0; rewrite Ees; rewrite ids_app; apply in_or_app; now left).
      assert (Ix : In x (datas (b1 ++ [nn]))) by (destruct (in_dec Z.eq_dec x (datas (b1 ++ [nn]))) as [Kx|Kx]; [exact Kx|]; apply (lastid_in x _ A1) in Kx; contradiction).
      assert (Iy : In y (datas (b1 ++ [nn]))) by (destruct (in_dec Z.eq_dec y (datas (b1 ++ [nn]))) as [Ky|Ky]; [exact Ky|]; apply (lastid_in y _ A1) in Ky; contradiction).
      assert (Ees' : es = (b1 ++ [nn]) ++ b2) by (rewrite Ees, <- app_assoc; reflexivity).
      assert (Cx : cli N K x) by (eapply datas_cli; [exact O|rewrite Ees', map_app; apply in_or_app; now left]). assert (Cy : cli N K y) by (eapply datas_cli; [exact O|rewrite Ees', map_app; apply in_or_app; now left]).
      assert (Rc : reach x y (lnow ld) = Some (Datatypes.S (length b1))).
      { rewrite <- El, Ees, map_app. cbn [map]. rewrite reach_prefix; [now rewrite map_length|..]; try (change [snd nn] with (datas [nn]); rewrite <- map_app; assumption). destruct K3 as [K3|K3]; [left|right]; now apply lastid_in. }
      rewrite Rc. assert (Fi : firstn (Datatypes.S (length b1)) (lnow ld) = datas (b1 ++ [nn])) by (rewrite <- El, Ees', map_app; apply firstn_len; rewrite map_length, app_length; cbn [length]; lia). rewrite Fi.
      rewrite Ees' in O. destruct (swap_um N f K n d m r g (b1 ++ [nn]) b2 x y (LL (hd_id b2 0) f) S T O Hn Hb Cx Cy K1 K2) as (m' & s' & r' & es' & i & j & E & S' & O' & Li & Lj & Ed). rewrite E. cbn [bind um_of]. rewrite Li, Lj.
      exists m', (World (vals s') r' g), (LL (hd_id b2 0) f), (edit s' d). split; [reflexivity|]. split; [exact S'|]. cbn [lfresh]. split; [|lia]. apply Ide. exists es'. split; [exact O'|]. rewrite Ed, <- Ees', El. reflexivity.
    + replace (negb (lastid x es =? 0) && negb (lastid y es =? 0)) with false by lia. cbn [bind um_of].
      assert (Rn : reach x y (lnow ld) = None) by (apply reach_none; rewrite <- El; destruct K1 as [K1|K1]; [left|right]; now apply lastid_in). rewrite Rn. exists m, (World (vals (cur d)) r g), (LL 0 f), d. split; [reflexivity|]. split; [apply Sw; [lia|exact S]|]. cbn [lfresh]. split; [exact U'|lia].
  - (* clear *)
    assert (Zl : zlen (lnow ld) = zlen es) by (unfold zlen; lia). rewrite Zl in *. pose proof (zlen_nonneg es).
    destruct (clear_um N f K g es n d m r fuel S T O Hn ltac:(lia) Pl ltac:(lia)) as (m' & d' & r' & E & S' & O' & D').
    unfold ll_clear. rewrite E. cbn [bind]. pose proof (lr_len _ _ _ _ (o_rep _ _ _ _ _ O')) as L. rewrite write_ok by (ucell; lia). cbn [bind]. rewrite write_ok by (rewrite ?cset_zlen; ucell; lia). cbn [bind]. rewrite write_ok by (rewrite ?cset_zlen; ucell; lia). cbn [bind um_of lfresh]. rewrite (c3_eq _ _ _ _ O').
    exists m', (World (vals (cur d')) r' g), (LL 0 f), d'. split; [reflexivity|]. split; [eapply sim_weaken; [|exact S']; lia|]. cbn [lfresh]. split; [|lia].
    destruct D' as [[E0 ->]|[E0 ->]].
    + rewrite E0 in El. cbn [map] in El. rewrite <- El. exact U'.
    + destruct (lnow ld) as [|z l]; [destruct es; [congruence|discriminate]|]. apply Ide. exists []. split; [|reflexivity]. exact O'.
  - (* contents *)
    rewrite (read_ok _ _ _ _ _ (lr_start _ _ _ _ R)). cbn [bind]. rewrite (walk_next_ok _ _ _ _ 0 fuel (lr_dls _ _ _ _ R) A) by lia. cbn [bind]. rewrite El. exists m, (World (vals (cur d)) r g), (LL cu f), d. split; [reflexivity|]. split; [apply Sw; [lia|exact S]|]. cbn [lfresh]. split; [exact U'|lia].
  - (* first *)
    exists m, (World (vals (cur d)) r g), (LL cu f), d. split; [|split; [apply Sw; [lia|exact S]|cbn [lfresh]; split; [exact U'|lia]]].
    unfold ll_first. rewrite (read_ok _ _ _ _ _ (lr_count _ _ _ _ R)). cbn [bind]. pose proof (zlen_nonneg es). rewrite u32_id by lia. destruct es as [|[e d0] es].
    + change (zlen (@nil (Z * Z)) =? 0) with true. cbn [bind]. rewrite <- El. reflexivity.
    + rewrite zlen_cons in *. replace (1 + zlen es =? 0) with false by (pose proof (zlen_nonneg es); lia). rewrite (read_ok _ _ _ _ _ (lr_start _ _ _ _ R)). cbn [bind hd_id]. destruct (A e (or_introl eq_refl)) as [A1 A2]. destruct (lr_dls _ _ _ _ R) as (D1 & D2 & D3 & D4). rewrite (getm_ok _ _ _ _ _ _ A1 A2 D3). cbn [bind]. rewrite <- El. reflexivity.
  - (* last *)
    exists m, (World (vals (cur d)) r g), (LL cu f), d. split; [|split; [apply Sw; [lia|exact S]|cbn [lfresh]; split; [exact U'|lia]]].
    unfold ll_last. rewrite (read_ok _ _ _ _ _ (lr_count _ _ _ _ R)). cbn [bind]. pose proof (zlen_nonneg es). rewrite u32_id by lia. destruct (snoc_cases es) as [Ees|(a & [e d0] & Ees)].
    + rewrite Ees. change (zlen (@nil (Z * Z)) =? 0) with true. cbn [bind]. rewrite <- El, Ees. reflexivity.
    + replace (zlen es =? 0) with false by (rewrite Ees, zlen_app; change (zlen [(e, d0)]) with 1; pose proof (zlen_nonneg a); lia). rewrite (read_ok _ _ _ _ _ (lr_end _ _ _ _ R)). cbn [bind]. rewrite Ees, last_id_snoc. destruct (A e) as [A1 A2]; [rewrite Ees, ids_app; apply in_or_app; right; now left|]. pose proof (lr_dls _ _ _ _ R) as D. rewrite Ees, dls_app in D. destruct D as [_ (D1 & D2 & D3 & D4)]. rewrite (getm_ok _ _ _ _ _ _ A1 A2 D3). cbn [bind]. rewrite <- El, Ees, map_app. cbn [map snd]. rewrite last_last. reflexivity.
  - (* size *)
    exists m, (World (vals (cur d)) r g), (LL cu f), d. split; [|split; [apply Sw; [lia|exact S]|cbn [lfresh]; split; [exact U'|lia]]].
    unfold ll_size. rewrite (read_ok _ _ _ _ _ (lr_count _ _ _ _ R)). cbn [bind]. rewrite <- El, zlen_map. reflexivity.
  - (* close *)
    destruct (exec_ok (rcs N) n d m _ OClose S ltac:(lia) Logic.I) as (m' & w' & E & S'). cbn [exec do_op fst snd] in *. injection E as <- <-. exists (close m), (World (vals (cur d)) r g), (LL cu f), (close_step d). split; [reflexivity|]. split; [eapply sim_weaken; [|exact S']; lia|]. cbn [lfresh]. split; [|lia].
    unfold close_step. destruct (base d) as [b|] eqn:Eb, (lbase ld) as [lb|] eqn:Elb; try contradiction; [|exact U']. constructor; cbn [tx plain past cur future base lpast lnow lfuture lbase]; try (constructor; assumption); try assumption; try (exists es; split; assumption); exact Logic.I.
  - (* undo *)
    destruct (exec_ok (rcs N) n d m _ OUndo S ltac:(lia) T) as (m' & w' & E & S'). cbn [exec] in E. destruct (undo m _) as [[[b m1] w1]| | |]; try discriminate. cbn [bind] in *. injection E as E <- <-.
    cbn [do_op] in *. destruct (base d) as [bs|] eqn:Eb, (lbase ld) as [lb|] eqn:Elb; try contradiction; cbn [fst snd] in *.
    + injection E as ->. eexists m1, w1, (LL cu f), d. split; [reflexivity|]. split; [eapply sim_weaken; [|exact S']; lia|]. cbn [lfresh]. split; [exact U'|lia].
    + inversion Pa as [E1 E2|sp lp ps lps P1 P2 E1 E2].
      * rewrite <- E1 in *. cbn [fst snd] in *. injection E as ->. eexists m1, w1, (LL cu f), d. split; [reflexivity|]. split; [eapply sim_weaken; [|exact S']; lia|]. cbn [lfresh]. split; [exact U'|lia].
      * rewrite <- E1 in *. cbn [fst snd] in *. injection E as ->. eexists m1, w1, (LL cu f), _. split; [reflexivity|]. split; [eapply sim_weaken; [|exact S']; lia|]. cbn [lfresh]. split; [|lia]. constructor; cbn [tx plain past cur future base lpast lnow lfuture lbase]; auto. constructor; [|exact Fu]. exists es. auto.
  - (* redo *)
    destruct (exec_ok (rcs N) n d m _ ORedo S ltac:(lia) T) as (m' & w' & E & S'). cbn [exec] in E. destruct (redo m _) as [[[b m1] w1]| | |]; try discriminate. cbn [bind] in *. injection E as E <- <-.
    cbn [do_op] in *. destruct (base d) as [bs|] eqn:Eb, (lbase ld) as [lb|] eqn:Elb; try contradiction; cbn [fst snd] in *.
    + injection E as ->. eexists m1, w1, (LL cu f), d. split; [reflexivity|]. split; [eapply sim_weaken; [|exact S']; lia|]. cbn [lfresh]. split; [exact U'|lia].
    + inversion Fu as [E1 E2|sp lp ps lps P1 P2 E1 E2].
      * rewrite <- E1 in *. cbn [fst snd] in *. injection E as ->. eexists m1, w1, (LL cu f), d. split; [reflexivity|]. split; [eapply sim_weaken; [|exact S']; lia|]. cbn [lfresh]. split; [exact U'|lia].
      * rewrite <- E1 in *. cbn [fst snd] in *. injection E as ->. eexists m1, w1, (LL cu f), _. split; [reflexivity|]. split; [eapply sim_weaken; [|exact S']; lia|]. cbn [lfresh]. split; [|lia]. constructor; cbn [tx plain past cur future base lpast lnow lfuture lbase]; auto. constructor; [|exact Pa]. exists es. auto.
  - (* forget *)
    destruct (exec_ok (rcs N) n d m _ OClear S ltac:(lia) Logic.I) as (m' & w' & E & S'). cbn [exec do_op fst snd] in *. destruct (clear_stacks m _) as [[m1 w1]| | |]; try discriminate. cbn [bind] in *. injection E as <- <-.
    eexists m1, w1, (LL cu f), _. split; [reflexivity|]. split; [eapply sim_weaken; [|exact S']; lia|]. cbn [lfresh]. split; [|lia]. constructor; cbn [tx plain past cur future base lpast lnow lfuture lbase]; auto. exists es. auto.
Qed.
