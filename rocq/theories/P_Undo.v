(** P_Undo.v -- properties C31-C34: the undo manager. *)
From Verif Require Import Base M_Undo S_Undo L_Undo L_Undo2 L_Undo3.

Definition start_um : um := set_active true new_um.

Lemma all_allowed_app rs xs ys : forall d, all_allowed rs (xs ++ ys) d <-> all_allowed rs xs d /\ all_allowed rs ys (snd (do_all xs d)).
Proof.
  induction xs as [|x xs IH]; intros d; cbn [app all_allowed do_all snd]; [tauto|]. rewrite IH. destruct (do_op x d) as [a d1]. cbn [snd].
  destruct (do_all xs d1); cbn [snd]. tauto.
Qed.
Lemma do_all_app xs ys : forall d, snd (do_all (xs ++ ys) d) = snd (do_all ys (snd (do_all xs d))) /\
  fst (do_all (xs ++ ys) d) = fst (do_all xs d) ++ fst (do_all ys (snd (do_all xs d))).
Proof.
  induction xs as [|x xs IH]; intros d; cbn [app do_all fst snd]; [split; reflexivity|]. destruct (do_op x d) as [a d1]. cbn [snd].
  specialize (IH d1). destruct (do_all (xs ++ ys) d1), (do_all xs d1); cbn [fst snd] in *. destruct IH as [-> ->]. split; reflexivity.
Qed.
Lemma run_sim rs s p w xs l m w' : begins rs s p w -> all_allowed rs xs (start s p) -> zlen xs < 4294967296 ->
  exec_all xs start_um w = Val (l, m, w') -> l = fst (do_all xs (start s p)) /\ sim rs (zlen xs) (snd (do_all xs (start s p))) m w'.
Proof.
  intros (B1 & B2 & B3 & B4) HA HL HE. destruct (exec_all_ok rs xs 0 (start s p) start_um w (sim_start rs s p w B1 B2 B3 B4)) as (m1 & w1 & E & S); auto; try lia.
  rewrite HE in E. injection E as -> -> ->. auto.
Qed.

(** * C34 first part and the refinement: no history the client may issue ever touches a deleted object, and all results,
    the contents of memory and the counters are those of the history of snapshots *)
Theorem C31_history_refinement : forall rcells s p w xs,
  begins rcells s p w -> all_allowed rcells xs (start s p) -> zlen xs < 2 ^ 32 ->
  exists m' w', exec_all xs start_um w = Val (fst (do_all xs (start s p)), m', w') /\
    let d := snd (do_all xs (start s p)) in
    cells w' = vals (cur d) /\ undoN m' = zlen (past d) /\ redoN m' = zlen (future d) /\
    open_ m' = is_open d /\ tstatus m' = tstat d /\ level m' = match tx d with Some (n, _, _) => n | None => 0 end.
Proof.
  intros rs s p w xs (B1 & B2 & B3 & B4) HA HL. change (2 ^ 32) with 4294967296 in HL.
  destruct (exec_all_ok rs xs 0 (start s p) start_um w (sim_start rs s p w B1 B2 B3 B4)) as (m1 & w1 & E & S); auto; try lia.
  exists m1, w1. split; [exact E|]. cbv zeta. destruct S as [Sa Sw Sp Sl [St1 St2] Sb Spa Sf Swf (N1 & N2 & N3)].
  split; [apply Sw|]. split; [rewrite N1; eapply ustack_len; eauto|]. split; [rewrite N2; eapply rstack_len; eauto|].
  split; [unfold is_open; destruct (base _); apply Sb|]. split; [exact St1|]. destruct (tx _) as [[[k s0] b]|]; apply Sl.
Qed.
Print Assumptions C31_history_refinement.

(** a list of edits outside a transaction leaves past alone and opens the step at the present snapshot *)
Lemma edits_spec ys : forall d, forallb is_edit ys = true -> tx d = None -> base d = None ->
  let d' := snd (do_all ys d) in past d' = past d /\ tx d' = None /\
    (base d' = None /\ cur d' = cur d /\ future d' = future d \/ base d' = Some (cur d)).
Proof.
  assert (H : forall ys d b, forallb is_edit ys = true -> tx d = None -> base d = Some b ->
     past (snd (do_all ys d)) = past d /\ tx (snd (do_all ys d)) = None /\ base (snd (do_all ys d)) = Some b).
  { induction ys0 as [|y ys0 IH]; intros d b HE Ht Hb; cbn [do_all snd]; [auto|]. cbn [forallb] in HE. apply andb_true_iff in HE as [H1 H2].
    destruct (do_op y d) as [a d1] eqn:E1. specialize (IH d1 b H2).
    assert (K : past d1 = past d /\ tx d1 = None /\ base d1 = Some b).
    { destruct y; try discriminate; cbn [do_op] in E1; unfold edit in E1; rewrite Ht, Hb in E1.
      - destruct (match lget (vals (cur d)) l with Some y => y =? v | None => false end); [|destruct ((lo <=? v) && (v <=? hi))]; injection E1 as <- <-; auto.
      - injection E1 as <- <-; auto.
      - injection E1 as <- <-; auto.
      - injection E1 as <- <-; auto.
      - injection E1 as <- <-; auto. }
    destruct K as (K1 & K2 & K3). destruct (do_all ys0 d1) as [l d2]. cbn [snd] in *. destruct (IH K2 K3) as (-> & ? & ?). auto. }
  induction ys as [|y ys IH]; intros d HE Ht Hb; cbn [do_all snd]; [cbv zeta; auto 10|]. cbn [forallb] in HE. apply andb_true_iff in HE as [H1 H2].
  destruct (do_op y d) as [a d1] eqn:E1. 
  assert (K : past d1 = past d /\ tx d1 = None /\ (base d1 = None /\ cur d1 = cur d /\ future d1 = future d \/ base d1 = Some (cur d))).
  { destruct y; try discriminate; cbn [do_op] in E1; unfold edit in E1; rewrite Ht, Hb in E1.
    - destruct (match lget (vals (cur d)) l with Some y => y =? v | None => false end); [|destruct ((lo <=? v) && (v <=? hi))]; injection E1 as <- <-; auto 10.
    - injection E1 as <- <-; auto 10.
    - injection E1 as <- <-; auto 10.
    - injection E1 as <- <-; auto 10.
    - injection E1 as <- <-; auto 10. }
  destruct K as (K1 & K2 & [(K3 & K4 & K5)|K3]).
  - specialize (IH d1 H2 K2 K3). cbv zeta in *. destruct (do_all ys d1) as [l d2]. cbn [snd] in *. rewrite K1, K4, K5 in IH. exact IH.
  - specialize (H ys d1 _ H2 K2 K3). destruct (do_all ys d1) as [l d2]. cbn [snd] in *. cbv zeta. destruct H as (-> & ? & ?). auto.
Qed.

(** C31: undo of a step restores the memory from before the step; redo restores the memory from after it *)
Theorem C31_undo_restores_redo_reinstates : forall rcells s p w xs ys rx ry m0 w0 m1 w1,
  begins rcells s p w -> all_allowed rcells (xs ++ ys) (start s p) -> zlen xs + zlen ys < 2 ^ 32 - 2 ->
  exec_all xs start_um w = Val (rx, m0, w0) -> open_ m0 = false -> level m0 = 0 ->
  forallb is_edit ys = true ->
  exec_all (ys ++ [OClose]) m0 w0 = Val (ry, m1, w1) ->
  (undoN m1 = undoN m0 /\ cells w1 = cells w0) \/
  (undoN m1 = undoN m0 + 1 /\ redoN m1 = 0 /\
   exists m2 w2 m3 w3,
     undo m1 w1 = Val (true, m2, w2) /\ cells w2 = cells w0 /\ undoN m2 = undoN m0 /\
     redo m2 w2 = Val (true, m3, w3) /\ cells w3 = cells w1 /\ undoN m3 = undoN m1).
Proof.
  intros rs s p w xs ys rx ry m0 w0 m1 w1 HB HA HL HX HO Hlv HE HY. change (2 ^ 32 - 2) with 4294967294 in HL.
  pose proof (zlen_nonneg xs). pose proof (zlen_nonneg ys).
  apply all_allowed_app in HA as [HA1 HA2].
  destruct (run_sim rs s p w xs rx m0 w0 HB HA1 ltac:(lia) HX) as [_ S0]. set (d := snd (do_all xs (start s p))) in *.
  assert (Htx : tx d = None). { pose proof (s_level _ _ _ _ _ S0) as Sl. destruct (tx d) as [[[k s0] b]|]; [|reflexivity]. lia. }
  assert (Hb : base d = None). { pose proof (s_base _ _ _ _ _ S0) as Sb. destruct (base d); [|reflexivity]. destruct Sb. congruence. }
  destruct (edits_spec ys d HE Htx Hb) as (P1 & P2 & P3). cbv zeta in *.
  destruct (exec_all_ok rs (ys ++ [OClose]) (zlen xs) d m0 w0 S0) as (m1' & w1' & E1 & S1); try lia.
  { rewrite zlen_app. change (zlen [OClose]) with 1. lia. }
  { apply all_allowed_app. split; [exact HA2|]. cbn. auto. }
  rewrite HY in E1. injection E1 as -> <- <-.
  destruct (do_all_app ys [OClose] d) as [Ed _]. rewrite Ed in S1. clear Ed. cbn [do_all do_op snd] in S1. set (d1 := snd (do_all ys d)) in *.
  assert (N0 : undoN m0 = zlen (past d)). { destruct (s_n _ _ _ _ _ S0) as [-> _]. eapply ustack_len. apply (s_past _ _ _ _ _ S0). }
  assert (NN : forall n d' m' w', sim rs n d' m' w' -> undoN m' = zlen (past d') /\ redoN m' = zlen (future d') /\ cells w' = vals (cur d')).
  { intros n d' m' w' S. destruct (s_n _ _ _ _ _ S) as (-> & -> & _). split; [|split].
    - eapply ustack_len. apply (s_past _ _ _ _ _ S).
    - eapply rstack_len. apply (s_fut _ _ _ _ _ S).
    - apply (s_w _ _ _ _ _ S). }
  destruct (NN _ _ _ _ S0) as (_ & _ & C0). destruct (NN _ _ _ _ S1) as (N1 & M1 & C1).
  destruct P3 as [(B1 & B2 & B3)|B1].
  - left. unfold close_step in *. rewrite B1 in *. rewrite N1, N0, P1, C1, C0, B2. auto.
  - right. unfold close_step in *. rewrite B1 in *. cbn [past cur future] in *. rewrite P1 in *. rewrite zlen_cons in *. split; [lia|].
    assert (F1 : future d1 = []). { subst d1. clear - HE Htx Hb B1. 
      assert (H : forall ys d, forallb is_edit ys = true -> tx d = None -> (base d <> None -> future d = []) -> base (snd (do_all ys d)) <> None -> future (snd (do_all ys d)) = []).
      { clear. induction ys as [|y ys IH]; intros d HE Ht Hf; [exact Hf|]. cbn [do_all forallb] in *. apply andb_true_iff in HE as [H1 H2].
        destruct (do_op y d) as [a d1] eqn:E1. specialize (IH d1 H2). destruct (do_all ys d1) as [l d2]. cbn [snd] in *. apply IH.
        - destruct y; try discriminate; cbn [do_op] in E1; unfold edit in E1; rewrite Ht in E1;
            [destruct (match lget (vals (cur d)) l0 with Some y => y =? v | None => false end); [|destruct ((lo <=? v) && (v <=? hi))]|..]; injection E1 as <- <-; auto.
        - destruct y; try discriminate; cbn [do_op] in E1; unfold edit in E1; rewrite Ht in E1;
            [destruct (match lget (vals (cur d)) l0 with Some y => y =? v | None => false end); [|destruct ((lo <=? v) && (v <=? hi))]|..]; injection E1 as <- <-; auto. }
      apply H; auto; congruence. }
    split; [rewrite M1, F1; reflexivity|].
    destruct (undo_op_ok _ _ _ _ _ S1) as (m2 & w2 & E2 & S2).
    { rewrite zlen_app. change (zlen [OClose]) with 1. lia. }
    { exact P2. }
    cbn [do_op base past fst snd] in *. cbn [exec] in E2. destruct (undo m1 w1) as [[[b2 m2'] w2']| | |] eqn:EU; cbn [bind] in E2; try discriminate.
    injection E2 as -> -> ->.
    destruct (redo_op_ok _ _ _ _ _ S2) as (m3 & w3 & E3 & S3).
    { rewrite zlen_app. change (zlen [OClose]) with 1. lia. }
    { exact P2. }
    cbn [do_op base future fst snd] in *. cbn [exec] in E3. destruct (redo m2 w2) as [[[b3 m3'] w3']| | |] eqn:ER; cbn [bind] in E3; try discriminate.
    injection E3 as -> -> ->.
    destruct (NN _ _ _ _ S2) as (N2 & _ & C2). destruct (NN _ _ _ _ S3) as (N3 & _ & C3). cbn [past cur future] in *. rewrite zlen_cons in *.
    exists m2, w2, m3, w3. sp; auto; try congruence; try lia.
Qed.
Print Assumptions C31_undo_restores_redo_reinstates.

(** C31: however one walks through the history, the memory depends only on the number of applied steps *)
Lemma walk_spec zs : forall d, forallb is_walk zs = true -> let d' := snd (do_all zs d) in
  rev (past d') ++ cur d' :: future d' = rev (past d) ++ cur d :: future d.
Proof.
  induction zs as [|z zs IH]; intros d HE; cbn [do_all snd]; [reflexivity|]. cbn [forallb] in HE. apply andb_true_iff in HE as [H1 H2].
  destruct (do_op z d) as [a d1] eqn:E1. specialize (IH d1 H2). cbv zeta in *. destruct (do_all zs d1) as [l d2]. cbn [snd] in *. rewrite IH. clear IH.
  destruct z; try discriminate; cbn [do_op] in E1.
  - destruct (base d); [injection E1 as <- <-; reflexivity|]. destruct (past d) as [|s r] eqn:Ep; injection E1 as <- <-; rewrite ?Ep; [reflexivity|].
    cbn [past cur future rev]. rewrite <- app_assoc. reflexivity.
  - destruct (base d); [injection E1 as <- <-; reflexivity|]. destruct (future d) as [|s r] eqn:Ep; injection E1 as <- <-; rewrite ?Ep; [reflexivity|].
    cbn [past cur future rev]. rewrite <- app_assoc. reflexivity.
Qed.
Theorem C31_memory_depends_on_position_only : forall rcells s p w xs zs zs' rx r r' m0 w0 m m' w1 w1',
  begins rcells s p w -> all_allowed rcells (xs ++ zs) (start s p) -> all_allowed rcells (xs ++ zs') (start s p) ->
  zlen xs + zlen zs < 2 ^ 32 -> zlen xs + zlen zs' < 2 ^ 32 ->
  exec_all xs start_um w = Val (rx, m0, w0) ->
  forallb is_walk zs = true -> forallb is_walk zs' = true ->
  exec_all zs m0 w0 = Val (r, m, w1) -> exec_all zs' m0 w0 = Val (r', m', w1') ->
  undoN m = undoN m' -> cells w1 = cells w1' /\ redoN m = redoN m'.
Proof.
  intros rs s p w xs zs zs' rx r r' m0 w0 m m' w1 w1' HB HA HA' HL HL' HX HZ HZ' E E' HN. change (2 ^ 32) with 4294967296 in *.
  pose proof (zlen_nonneg xs). pose proof (zlen_nonneg zs). pose proof (zlen_nonneg zs').
  apply all_allowed_app in HA as [HA1 HA2]. apply all_allowed_app in HA' as [_ HA2'].
  destruct (run_sim rs s p w xs rx m0 w0 HB HA1 ltac:(lia) HX) as [_ S0]. set (d := snd (do_all xs (start s p))) in *.
  destruct (exec_all_ok rs zs _ _ _ _ S0) as (m1 & w2 & E1 & S1); try lia; auto. rewrite E in E1. injection E1 as -> <- <-.
  destruct (exec_all_ok rs zs' _ _ _ _ S0) as (m1 & w2 & E1 & S1'); try lia; auto. rewrite E' in E1. injection E1 as -> <- <-.
  pose proof (walk_spec zs d HZ) as W. pose proof (walk_spec zs' d HZ') as W'. cbv zeta in *.
  destruct (s_n _ _ _ _ _ S1) as (A1 & A2 & _). destruct (s_n _ _ _ _ _ S1') as (B1 & B2 & _).
  rewrite (ustack_len _ _ _ (s_past _ _ _ _ _ S1)) in A1. rewrite (ustack_len _ _ _ (s_past _ _ _ _ _ S1')) in B1.
  rewrite (rstack_len _ _ _ (s_fut _ _ _ _ _ S1)) in A2. rewrite (rstack_len _ _ _ (s_fut _ _ _ _ _ S1')) in B2.
  destruct (s_w _ _ _ _ _ S1) as [-> _]. destruct (s_w _ _ _ _ _ S1') as [-> _]. rewrite A2, B2.
  rewrite <- W' in W. clear W'.
  assert (K : forall (a a' : list snap) b b', zlen a = zlen a' -> a ++ b = a' ++ b' -> a = a' /\ b = b').
  { clear. induction a as [|x a IH]; intros [|x' a'] b b' HL HE; rewrite ?zlen_cons in HL; try (change (zlen (@nil snap)) with 0 in HL).
    - auto. - pose proof (zlen_nonneg a'). lia. - pose proof (zlen_nonneg a). lia.
    - injection HE as -> HE. destruct (IH a' b b' ltac:(lia) HE) as [-> ->]. auto. }
  apply K in W as [_ W]; [|rewrite !zlen_rev; congruence]. injection W as W1 W2. rewrite W1, W2. auto.
Qed.
Print Assumptions C31_memory_depends_on_position_only.

(** C31: undo and redo flag every object of the step for regeneration, and no object loses its flag *)
Lemma swap_regen c w c' w' : swap c w = Val (c', w') -> c_obj c' = c_obj c /\ regen w' (c_obj c) = true /\ forall o, regen w o = true -> regen w' o = true.
Proof.
  unfold swap. intros H. destruct (rc w (c_obj c) <=? 0); [discriminate|].
  assert (G : forall k w1, (let* w2 := base_swap (c_obj c) w1 in Val (Change (c_obj c) k, w2)) = Val (c', w') -> regen w1 = regen w ->
     c_obj c' = c_obj c /\ regen w' (c_obj c) = true /\ (forall o, regen w o = true -> regen w' o = true)).
  { intros k w1 HE Hr. unfold base_swap in HE. destruct (rc w1 (c_obj c) <=? 0); [discriminate|]. cbn [bind] in HE. injection HE as <- <-. cbn [regen c_obj].
    split; [reflexivity|]. split; [unfold fupd; now rewrite Z.eqb_refl|]. intros o Ho. unfold fupd. destruct (o =? c_obj c); congruence. }
  destruct (c_kind c) as [l v|l v v1 v2 sw| |r].
  - unfold read_cell, write_cell in H. destruct (rd (cells w) l); try discriminate. cbn [bind] in H. destruct (wr (cells w) l v); try discriminate. cbn [bind] in H.
    eapply G; [exact H|reflexivity].
  - unfold read_cell, write_cell in H. destruct (rd (cells w) l) as [t| | |]; try discriminate. cbn [bind] in H. destruct sw; cbn [bind] in H.
    + destruct (wr (cells w) l v); try discriminate. cbn [bind] in H. eapply G; [exact H|reflexivity].
    + unfold retain_opt, retain in H. destruct (t =? 0); cbn [bind] in H.
      * destruct (wr (cells w) l v); try discriminate. cbn [bind] in H. eapply G; [exact H|reflexivity].
      * destruct (rc w t <=? 0); try discriminate. cbn [bind cells] in H. destruct (wr (cells w) l v); try discriminate. cbn [bind] in H. eapply G; [exact H|reflexivity].
  - cbn [bind] in H. eapply G; [exact H|reflexivity].
  - unfold retain, release in H. destruct r; destruct (rc w (c_obj c) <=? 0); try discriminate; cbn [bind] in H; (eapply G; [exact H|reflexivity]).
Qed.
Lemma swap_all_regen cs : forall w cs' w', swap_all cs w = Val (cs', w') ->
  (forall c, In c cs -> regen w' (c_obj c) = true) /\ forall o, regen w o = true -> regen w' o = true.
Proof.
  induction cs as [|c cs IH]; intros w cs' w' H; cbn [swap_all] in H.
  - injection H as <- <-. split; [intros c []|auto].
  - destruct (swap c w) as [[c1 w1]| | |] eqn:E1; try discriminate. cbn [bind] in H. destruct (swap_all cs w1) as [[r w2]| | |] eqn:E2; try discriminate.
    cbn [bind] in H. injection H as <- <-. destruct (swap_regen _ _ _ _ E1) as (_ & K1 & K2). destruct (IH _ _ _ E2) as (I1 & I2). split.
    + intros x [->|Hx]; auto.
    + auto.
Qed.
Theorem C31_undo_redo_mark_for_regeneration : forall m w m' w' s rest,
  (undo m w = Val (true, m', w') -> undoS m = s :: rest ->
     (forall c, In c s -> regen w' (c_obj c) = true) /\ forall o, regen w o = true -> regen w' o = true) /\
  (redo m w = Val (true, m', w') -> redoS m = s :: rest ->
     (forall c, In c s -> regen w' (c_obj c) = true) /\ forall o, regen w o = true -> regen w' o = true).
Proof.
  intros m w m' w' s rest. split; intros HU HS.
  - unfold undo in HU. rewrite HS in HU. destruct (open_ m); [discriminate|]. destruct (swap_all (rev s) w) as [[r w1]| | |] eqn:E; try discriminate.
    cbn [bind] in HU. injection HU as _ <-. destruct (swap_all_regen _ _ _ _ E) as [K1 K2]. split; [|exact K2]. intros c Hc. apply K1. now apply in_rev in Hc.
  - unfold redo in HU. rewrite HS in HU. destruct (open_ m); [discriminate|]. destruct (swap_all s w) as [[r w1]| | |] eqn:E; try discriminate.
    cbn [bind] in HU. injection HU as _ <-. exact (swap_all_regen _ _ _ _ E).
Qed.
Print Assumptions C31_undo_redo_mark_for_regeneration.

(** * C32 *)
Lemma sim_obs rs n d m w : sim rs n d m w ->
  undoN m = zlen (undoS m) /\ redoN m = zlen (redoS m) /\ undoN m = zlen (past d) /\ redoN m = zlen (future d) /\ cells w = vals (cur d) /\
  open_ m = is_open d /\ (open_ m = false <-> current m = []) /\ level m = match tx d with Some (n, _, _) => n | None => 0 end.
Proof.
  intros S. destruct (s_n _ _ _ _ _ S) as (E1 & E2 & _). rewrite E1, E2.
  rewrite <- (ustack_len _ _ _ (s_past _ _ _ _ _ S)), <- (rstack_len _ _ _ (s_fut _ _ _ _ _ S)). sp; auto.
  - apply (s_w _ _ _ _ _ S).
  - pose proof (s_base _ _ _ _ _ S) as B. unfold is_open. destruct (base d); apply B.
  - pose proof (s_base _ _ _ _ _ S) as B. destruct (base d); [destruct B as (-> & B & _)|destruct B as (-> & ->)]; split; intros K; try discriminate; try contradiction; auto.
  - pose proof (s_base _ _ _ _ _ S) as B. pose proof (s_level _ _ _ _ _ S) as L. destruct (tx d) as [[[k s0] b]|]; apply L.
Qed.
Theorem C32_counts : forall rcells s p w xs l m w',
  begins rcells s p w -> all_allowed rcells xs (start s p) -> zlen xs < 2 ^ 32 -> exec_all xs start_um w = Val (l, m, w') ->
  undoN m = zlen (undoS m) /\ redoN m = zlen (redoS m) /\
  (forall b m1 w1, undo m w' = Val (b, m1, w1) -> (b = false <-> open_ m = true \/ undoN m = 0) /\ (b = false -> m1 = m /\ w1 = w')) /\
  (forall b m1 w1, redo m w' = Val (b, m1, w1) -> (b = false <-> open_ m = true \/ redoN m = 0) /\ (b = false -> m1 = m /\ w1 = w')) /\
  (open_ m = false -> close m = m).
Proof.
  intros rs s p w xs l m w' HB HA HL HX. change (2 ^ 32) with 4294967296 in *.
  destruct (run_sim rs s p w xs l m w' HB HA ltac:(lia) HX) as [_ S0]. destruct (sim_obs _ _ _ _ _ S0) as (N1 & N2 & _ & _ & _ & _ & Ho & _).
  split; [exact N1|]. split; [exact N2|]. split; [|split].
  - intros b m1 w1 HU. unfold undo in HU. destruct (open_ m). { injection HU as <- <- <-. tauto. }
    destruct (undoS m) as [|u us]. { injection HU as <- <- <-. rewrite N1. change (zlen (@nil (list change))) with 0. tauto. }
    destruct (swap_all (rev u) w') as [[r w2]| | |]; try discriminate. cbn [bind] in HU. injection HU as <- <- <-. rewrite N1, zlen_cons. pose proof (zlen_nonneg us).
    split; [|discriminate]. split; [discriminate|]. intros [?|?]; [discriminate|lia].
  - intros b m1 w1 HU. unfold redo in HU. destruct (open_ m). { injection HU as <- <- <-. tauto. }
    destruct (redoS m) as [|u us]. { injection HU as <- <- <-. rewrite N2. change (zlen (@nil (list change))) with 0. tauto. }
    destruct (swap_all u w') as [[r w2]| | |]; try discriminate. cbn [bind] in HU. injection HU as <- <- <-. rewrite N2, zlen_cons. pose proof (zlen_nonneg us).
    split; [|discriminate]. split; [discriminate|]. intros [?|?]; [discriminate|lia].
  - intros Hc. unfold close. apply Ho in Hc. rewrite Hc. reflexivity.
Qed.
Print Assumptions C32_counts.

(** outside a transaction, undo works exactly undoCount() times, redo then exactly undoCount() + redoCount() times *)
Lemma undo_times n : forall d, base d = None -> Z.of_nat n = zlen (past d) ->
  fst (do_all (repeat OUndo n ++ [OUndo]) d) = repeat (RBool true) n ++ [RBool false] /\
  zlen (future (snd (do_all (repeat OUndo n ++ [OUndo]) d))) = zlen (past d) + zlen (future d) /\
  past (snd (do_all (repeat OUndo n ++ [OUndo]) d)) = [] /\ base (snd (do_all (repeat OUndo n ++ [OUndo]) d)) = None /\ tx (snd (do_all (repeat OUndo n ++ [OUndo]) d)) = tx d.
Proof.
  induction n as [|n IH]; intros d Hb Hn; cbn [repeat app do_all do_op]; rewrite Hb.
  - symmetry in Hn. apply zlen_zero in Hn. rewrite Hn. cbn [fst snd past future base tx]. change (zlen (@nil snap)) with 0. sp; auto.
  - destruct (past d) as [|s r]; [change (zlen (@nil snap)) with 0 in Hn; lia|]. rewrite zlen_cons in *.
    specialize (IH (Doc r s (cur d :: future d) None (tx d) (tstat d) (plain d)) eq_refl). cbn [past future tx] in IH.
    destruct IH as (I1 & I2 & I3 & I4 & I5); [lia|].
    destruct (do_all (repeat OUndo n ++ [OUndo]) (Doc r s (cur d :: future d) None (tx d) (tstat d) (plain d))) as [l d2]. cbn [fst snd] in *.
    rewrite zlen_cons in I2. sp; auto; [congruence|lia].
Qed.
Lemma redo_times n : forall d, base d = None -> Z.of_nat n = zlen (future d) ->
  fst (do_all (repeat ORedo n ++ [ORedo]) d) = repeat (RBool true) n ++ [RBool false].
Proof.
  induction n as [|n IH]; intros d Hb Hn; cbn [repeat app do_all do_op]; rewrite Hb.
  - symmetry in Hn. apply zlen_zero in Hn. rewrite Hn. reflexivity.
  - destruct (future d) as [|s r]; [change (zlen (@nil snap)) with 0 in Hn; lia|]. rewrite zlen_cons in *.
    specialize (IH (Doc (cur d :: past d) s r None (tx d) (tstat d) (plain d)) eq_refl). cbn [past future tx] in IH.
    destruct (do_all (repeat ORedo n ++ [ORedo]) (Doc (cur d :: past d) s r None (tx d) (tstat d) (plain d))) as [l d2]. cbn [fst snd] in *.
    rewrite IH by lia. reflexivity.
Qed.
Lemma all_allowed_walk rs zs : forall d, forallb is_walk zs = true -> tx d = None -> all_allowed rs zs d.
Proof.
  induction zs as [|z zs IH]; intros d HE Ht; cbn [all_allowed]; [exact I|]. cbn [forallb] in HE. apply andb_true_iff in HE as [H1 H2].
  split; [destruct z; try discriminate; exact Ht|]. apply IH; [exact H2|].
  destruct z; try discriminate; cbn [do_op]; destruct (base d); cbn [snd]; auto; [destruct (past d)|destruct (future d)]; cbn [snd tx]; auto.
Qed.
Theorem C32_counts_are_available_steps : forall rcells s p w xs l m w',
  begins rcells s p w -> all_allowed rcells xs (start s p) -> 4 * zlen xs + 2 < 2 ^ 32 -> exec_all xs start_um w = Val (l, m, w') ->
  open_ m = false -> level m = 0 ->
  exists m1 w1 m2 w2,
    exec_all (repeat OUndo (Z.to_nat (undoN m)) ++ [OUndo]) m w' = Val (repeat (RBool true) (Z.to_nat (undoN m)) ++ [RBool false], m1, w1) /\
    let n := Z.to_nat (undoN m + redoN m) in
    exec_all (repeat ORedo n ++ [ORedo]) m1 w1 = Val (repeat (RBool true) n ++ [RBool false], m2, w2).
Proof.
  intros rs s p w xs l m w' HB HA HL HX HO HLv. change (2 ^ 32) with 4294967296 in *. pose proof (zlen_nonneg xs).
  destruct (run_sim rs s p w xs l m w' HB HA ltac:(lia) HX) as [_ S0]. set (d := snd (do_all xs (start s p))) in *.
  destruct (sim_obs _ _ _ _ _ S0) as (M1 & M2 & N1 & N2 & _ & Ho & _ & Hlv). unfold is_open in Ho.
  assert (Hb : base d = None) by (destruct (base d); congruence).
  assert (Ht : tx d = None). { pose proof (s_level _ _ _ _ _ S0) as L. destruct (tx d) as [[[k s0] b]|]; [|reflexivity]. lia. }
  pose proof (s_n _ _ _ _ _ S0) as (_ & _ & N3). rewrite <- M1, <- M2 in N3. pose proof (zlen_nonneg (current m)). pose proof (zlen_nonneg (trans m)).
  pose proof (zlen_nonneg (past d)). pose proof (zlen_nonneg (future d)).
  destruct (undo_times (Z.to_nat (undoN m)) d Hb) as (T1 & T2 & T3 & T4 & T5); [lia|].
  assert (WU : forall n, forallb is_walk (repeat OUndo n ++ [OUndo]) = true) by (intros n; rewrite forallb_app; induction n; auto).
  assert (WR : forall n, forallb is_walk (repeat ORedo n ++ [ORedo]) = true) by (intros n; rewrite forallb_app; induction n; auto).
  assert (ZU : forall n, zlen (repeat OUndo n ++ [OUndo]) = Z.of_nat n + 1) by (intros n; rewrite zlen_app, zlen_repeat; reflexivity).
  assert (ZR : forall n, zlen (repeat ORedo n ++ [ORedo]) = Z.of_nat n + 1) by (intros n; rewrite zlen_app, zlen_repeat; reflexivity).
  destruct (exec_all_ok rs (repeat OUndo (Z.to_nat (undoN m)) ++ [OUndo]) _ _ _ _ S0) as (m1 & w1 & E1 & S1); try lia.
  { rewrite ZU. lia. }
  { apply all_allowed_walk; auto. }
  rewrite E1, T1. cbv zeta.
  destruct (exec_all_ok rs (repeat ORedo (Z.to_nat (undoN m + redoN m)) ++ [ORedo]) _ _ _ _ S1) as (m2 & w2 & E2 & S2).
  { rewrite ZU. lia. }
  { rewrite ZU, ZR. lia. }
  { apply all_allowed_walk; auto. congruence. }
  rewrite redo_times in E2; auto; [|lia]. exists m1, w1, m2, w2. auto.
Qed.
Print Assumptions C32_counts_are_available_steps.

(** registering outside a transaction drops everything that could have been redone; inside one it does not *)
Theorem C32_registering_clears_redo : forall rcells s p w xs x rx r m0 w0 m1 w1,
  begins rcells s p w -> all_allowed rcells (xs ++ [x]) (start s p) -> zlen xs + 1 < 2 ^ 32 ->
  exec_all xs start_um w = Val (rx, m0, w0) -> exec x m0 w0 = Val (r, m1, w1) ->
  is_edit x = true -> r = RUnit \/ r = RStatus eOK ->
  undoN m1 = undoN m0 /\ (level m0 = 0 -> redoN m1 = 0 /\ open_ m1 = true) /\ (level m0 > 0 -> redoN m1 = redoN m0 /\ open_ m1 = open_ m0).
Proof.
  intros rs s p w xs x rx r m0 w0 m1 w1 HB HA HL HX HE Hx Hr. change (2 ^ 32) with 4294967296 in *. pose proof (zlen_nonneg xs).
  apply all_allowed_app in HA as [HA1 [HA2 _]].
  destruct (run_sim rs s p w xs rx m0 w0 HB HA1 ltac:(lia) HX) as [_ S0]. set (d := snd (do_all xs (start s p))) in *.
  destruct (exec_ok rs _ d m0 w0 x S0) as (m2 & w2 & E2 & S2); auto; try lia. rewrite HE in E2. injection E2 as Er <- <-.
  assert (K : exists s', snd (do_op x d) = edit s' d).
  { destruct x; try discriminate; cbn [do_op] in *.
    - destruct (match lget (vals (cur d)) l with Some y => y =? v | None => false end).
      + cbn [fst] in Er. subst r. destruct Hr; discriminate.
      + destruct ((lo <=? v) && (v <=? hi)); [cbn [snd]; eauto|]. cbn [fst] in Er. subst r. destruct Hr; discriminate.
    - cbn [snd]; eauto. - cbn [snd]; eauto. - cbn [snd]; eauto. - cbn [snd]; eauto. }
  destruct K as [s' K]. rewrite K in S2. destruct (sim_obs _ _ _ _ _ S0) as (_ & _ & A1 & A2 & _ & A3 & _ & A4).
  destruct (sim_obs _ _ _ _ _ S2) as (_ & _ & B1 & B2 & _ & B3 & _ & B4). unfold edit, is_open in *.
  pose proof (s_level _ _ _ _ _ S0) as L.
  destruct (tx d) as [[[k s0] b]|]; cbn [past future base] in *; rewrite A1, A2, A3, B1, B2, B3; sp; auto; intros; try lia; auto.
Qed.
Print Assumptions C32_registering_clears_redo.

(** * C33 *)
Lemma inside rs ys : forall d n s0 b k, tx d = Some (n, s0, b) -> 1 <= n -> (b = false -> cur d = s0) -> depth n ys = Some k -> all_allowed rs ys d ->
  let d' := snd (do_all ys d) in
  exists b', tx d' = Some (k, s0, b') /\ (b' = false -> cur d' = s0) /\ tstat d' = last_bad (tstat d) ys (fst (do_all ys d)) /\ 1 <= k /\
    (forallb (fun x => negb (is_close x)) ys = true -> past d' = past d /\ future d' = future d /\ base d' = base d).
Proof.
  induction ys as [|y ys IH]; intros d n s0 b k Ht Hn Hc Hd HA; cbv zeta.
  { cbn [depth] in Hd. injection Hd as <-. cbn [do_all snd fst last_bad]. exists b. sp; auto. }
  cbn [all_allowed] in HA. destruct HA as [HA1 HA2]. cbn [do_all]. destruct (do_op y d) as [a d1] eqn:E1. cbn [snd] in HA2.
  assert (K : exists n1 b1, tx d1 = Some (n1, s0, b1) /\ 1 <= n1 /\ (b1 = false -> cur d1 = s0) /\ depth n1 ys = Some k /\
     (forall l, last_bad (tstat d) (y :: ys) (a :: l) = last_bad (tstat d1) ys l) /\
     (negb (is_close y) = true -> past d1 = past d /\ future d1 = future d /\ base d1 = base d)).
  { destruct y; cbn [do_op] in E1; cbn [depth is_close negb] in Hd |- *; unfold edit, commit_tx, rollback_tx in E1; rewrite ?Ht in E1.
    - destruct (match lget (vals (cur d)) l with Some y => y =? v | None => false end); [|destruct ((lo <=? v) && (v <=? hi))]; injection E1 as <- <-; cbn [tx cur tstat past future base last_bad bad].
      + exists n, b. sp; auto.
      + exists n, true. sp; auto; discriminate.
      + exists n, b. sp; auto.
    - injection E1 as <- <-. exists n, true. cbn [tx cur tstat past future base last_bad]. sp; auto; discriminate.
    - injection E1 as <- <-. exists n, true. cbn [tx cur tstat past future base last_bad]. sp; auto; discriminate.
    - injection E1 as <- <-. exists n, true. cbn [tx cur tstat past future base last_bad]. sp; auto; discriminate.
    - injection E1 as <- <-. exists n, true. cbn [tx cur tstat past future base last_bad]. sp; auto; discriminate.
    - injection E1 as <- <-. exists n, b. cbn [tx cur tstat past future base last_bad]. sp; auto.
    - injection E1 as <- <-. exists n, b. cbn [tx cur tstat past future base last_bad]. sp; auto.
    - injection E1 as <- <-. exists n, b. unfold close_step. destruct (base d) eqn:Eb; cbn [tx cur tstat past future base last_bad]; sp; auto; discriminate.
    - cbn [allowed] in HA1. congruence.
    - cbn [allowed] in HA1. congruence.
    - injection E1 as <- <-. exists n, b. cbn [tx cur tstat past future base last_bad]. sp; auto; discriminate.
    - injection E1 as <- <-. exists (n + 1), b. cbn [tx cur tstat past future base last_bad]. sp; auto; lia.
    - destruct (Z.eqb_spec n 1); [discriminate|]. exists (n - 1), b. destruct (bad (tstat d)); injection E1 as <- <-; cbn [tx cur tstat past future base last_bad]; sp; auto; lia.
    - destruct (Z.eqb_spec n 1); [discriminate|]. injection E1 as <- <-. exists (n - 1), b. cbn [tx cur tstat past future base last_bad]. sp; auto; lia.
    - destruct (Z.eqb_spec n 1); [discriminate|]. injection E1 as <- <-. exists (n - 1), b. cbn [tx cur tstat past future base last_bad]. sp; auto; lia.
    - injection E1 as <- <-. exists n, b. destruct (bad s) eqn:Eb; cbn [tx cur tstat past future base last_bad]; sp; auto; intros; cbn [last_bad]; rewrite Eb; reflexivity. }
  destruct K as (n1 & b1 & K1 & K2 & K3 & K4 & K5 & K6). specialize (IH d1 n1 s0 b1 k K1 K2 K3 K4 HA2). cbv zeta in IH.
  destruct (do_all ys d1) as [l d2]. cbn [fst snd] in *. destruct IH as (b' & I1 & I2 & I3 & I4 & I5). exists b'. rewrite K5. sp; auto.
  cbn [forallb]. intros HF. apply andb_true_iff in HF as [F1 F2]. destruct (K6 F1) as (? & ? & ?). destruct (I5 F2) as (? & ? & ?). sp; congruence.
Qed.
Lemma exec_all_app xs ys : forall m w, exec_all (xs ++ ys) m w =
  let* (l, m, w) := exec_all xs m w in let* (l', m, w) := exec_all ys m w in Val (l ++ l', m, w).
Proof.
  induction xs as [|x xs IH]; intros m w; cbn [app exec_all bind].
  - destruct (exec_all ys m w) as [[[l m1] w1]| | |]; reflexivity.
  - destruct (exec x m w) as [[[a m1] w1]| | |]; cbn [bind]; try reflexivity. rewrite IH.
    destruct (exec_all xs m1 w1) as [[[l m2] w2]| | |]; cbn [bind]; try reflexivity. destruct (exec_all ys m2 w2) as [[[l' m3] w3]| | |]; reflexivity.
Qed.

Lemma tx_begin d : tx d = None -> snd (do_op OBegin d) = Doc (past d) (cur d) (future d) (base d) (Some (1, cur d, false)) eOK (plain d).
Proof. intros H. cbn [do_op snd]. now rewrite H. Qed.

(** the common situation: calls xs, then openTransaction, then calls ys that stay inside the transaction and end at level 1 *)
Lemma tx_run rs s p w xs ys rx m0 w0 :
  begins rs s p w -> all_allowed rs (xs ++ OBegin :: ys) (start s p) -> zlen xs + zlen ys < 4294967294 ->
  exec_all xs start_um w = Val (rx, m0, w0) -> level m0 = 0 -> depth 1 ys = Some 1 ->
  let d := snd (do_all xs (start s p)) in
  exists d2 ry m2 w2 b, exec_all (OBegin :: ys) m0 w0 = Val (RUnit :: ry, m2, w2) /\ sim rs (zlen xs + (1 + zlen ys)) d2 m2 w2 /\
    exec_all ys (open_transaction m0) w0 = Val (ry, m2, w2) /\
    tx d2 = Some (1, cur d, b) /\ (b = false -> cur d2 = cur d) /\ tstat d2 = last_bad eOK ys ry /\
    (forallb (fun x => negb (is_close x)) ys = true -> past d2 = past d /\ future d2 = future d /\ base d2 = base d) /\
    sim rs (zlen xs) d m0 w0 /\ tx d = None.
Proof.
  intros HB HA HL HX Hlv Hd d. pose proof (zlen_nonneg xs). pose proof (zlen_nonneg ys).
  apply all_allowed_app in HA as [HA1 HA2]. destruct (run_sim rs s p w xs rx m0 w0 HB HA1 ltac:(lia) HX) as [_ S0]. fold d in S0, HA2.
  assert (Ht : tx d = None). { pose proof (s_level _ _ _ _ _ S0) as L. destruct (tx d) as [[[k s0] b]|]; [|reflexivity]. lia. }
  destruct (exec_all_ok rs (OBegin :: ys) _ d m0 w0 S0) as (m2 & w2 & E2 & S2); auto; try lia.
  { rewrite zlen_cons. lia. }
  destruct HA2 as [_ HA2]. rewrite (tx_begin d Ht) in HA2.
  destruct (inside rs ys (Doc (past d) (cur d) (future d) (base d) (Some (1, cur d, false)) eOK (plain d)) 1 (cur d) false 1 eq_refl ltac:(lia) (fun _ => eq_refl) Hd HA2) as (b & I1 & I2 & I3 & I4 & I5). cbv zeta in *.
  cbn [exec_all exec do_all] in E2, S2. cbn [bind] in E2. cbn [do_op] in E2, S2. rewrite Ht in E2, S2.
  destruct (do_all ys _) as [l d2] eqn:ED. cbn [fst snd past future base tstat cur] in *.
  destruct (exec_all ys (open_transaction m0) w0) as [[[ry m3] w3]| | |] eqn:EY; cbn [bind] in E2; try discriminate. injection E2 as <- <- <-.
  exists d2, ry, m3, w3, b. rewrite zlen_cons in S2. sp; auto; try (apply I5; assumption). cbn [exec_all exec bind]. rewrite EY. reflexivity.
Qed.

Theorem C33_rollback_restores : forall rcells s p w xs ys rx m0 w0,
  begins rcells s p w -> all_allowed rcells (xs ++ OBegin :: ys) (start s p) -> zlen xs + zlen ys < 2 ^ 32 - 2 ->
  exec_all xs start_um w = Val (rx, m0, w0) -> level m0 = 0 -> depth 1 ys = Some 1 ->
  exists r m1 w1, exec_all (OBegin :: ys ++ [ORollback]) m0 w0 = Val (r, m1, w1) /\
    cells w1 = cells w0 /\ level m1 = 0 /\
    (forallb (fun x => negb (is_close x)) ys = true -> undoN m1 = undoN m0 /\ redoN m1 = redoN m0 /\ open_ m1 = open_ m0).
Proof.
  intros rs s p w xs ys rx m0 w0 HB HA HL HX Hlv Hd. change (2 ^ 32 - 2) with 4294967294 in *. pose proof (zlen_nonneg xs). pose proof (zlen_nonneg ys).
  destruct (tx_run rs s p w xs ys rx m0 w0 HB HA HL HX Hlv Hd) as (d2 & ry & m2 & w2 & b & E2 & S2 & _ & T1 & T2 & T3 & T4 & S0 & Ht).
  set (d := snd (do_all xs (start s p))) in *.
  destruct (rollback_ok _ _ _ _ _ S2 ltac:(lia)) as (m3 & w3 & E3 & S3). unfold rollback_tx in S3. rewrite T1 in S3. change (1 =? 1) with true in S3. cbv iota in S3.
  exists (RUnit :: ry ++ [RUnit]), m3, w3. split.
  { change (OBegin :: ys ++ [ORollback]) with ((OBegin :: ys) ++ [ORollback]). rewrite exec_all_app, E2. cbn [bind exec_all exec]. rewrite E3. reflexivity. }
  destruct (sim_obs _ _ _ _ _ S0) as (_ & _ & A1 & A2 & AC & A3 & _ & A4). destruct (sim_obs _ _ _ _ _ S3) as (_ & _ & B1 & B2 & BC & B3 & _ & B4).
  unfold is_open in *. cbn [cur tx past future base] in *. rewrite AC, BC. split; [reflexivity|]. split; [exact B4|].
  intros HF. destruct (T4 HF) as (F1 & F2 & F3). rewrite A1, A2, A3, B1, B2, B3, F1, F2, F3. auto.
Qed.
Print Assumptions C33_rollback_restores.

Theorem C33_commit_is_one_step : forall rcells s p w xs ys rx m0 w0,
  begins rcells s p w -> all_allowed rcells (xs ++ OBegin :: ys) (start s p) -> zlen xs + zlen ys < 2 ^ 32 - 2 ->
  exec_all xs start_um w = Val (rx, m0, w0) -> level m0 = 0 -> open_ m0 = false -> depth 1 ys = Some 1 ->
  forallb (fun x => negb (is_close x)) ys = true ->
  exists r m1 w1, exec_all (OBegin :: ys ++ [OCommit; OClose]) m0 w0 = Val (r, m1, w1) /\ level m1 = 0 /\
    ((undoN m1 = undoN m0 /\ redoN m1 = redoN m0 /\ cells w1 = cells w0) \/
     (undoN m1 = undoN m0 + 1 /\ redoN m1 = 0 /\
      exists m2 w2, undo m1 w1 = Val (true, m2, w2) /\ cells w2 = cells w0 /\ undoN m2 = undoN m0)).
Proof.
  intros rs s p w xs ys rx m0 w0 HB HA HL HX Hlv Hop Hd HF. change (2 ^ 32 - 2) with 4294967294 in *. pose proof (zlen_nonneg xs). pose proof (zlen_nonneg ys).
  destruct (tx_run rs s p w xs ys rx m0 w0 HB HA HL HX Hlv Hd) as (d2 & ry & m2 & w2 & b & E2 & S2 & _ & T1 & T2 & T3 & T4 & S0 & Ht).
  set (d := snd (do_all xs (start s p))) in *. destruct (T4 HF) as (F1 & F2 & F3).
  destruct (sim_obs _ _ _ _ _ S0) as (_ & _ & A1 & A2 & AC & A3 & _ & A4).
  assert (Hb : base d = None) by (unfold is_open in A3; destruct (base d); congruence).
  destruct (commit_ok _ _ _ _ _ S2 ltac:(lia)) as (m3 & w3 & E3 & S3). pose proof (close_ok _ _ _ _ _ S3 ltac:(lia)) as S4.
  exists (RUnit :: ry ++ [RUnit; RUnit]), (close m3), w3. split.
  { change (OBegin :: ys ++ [OCommit; OClose]) with ((OBegin :: ys) ++ [OCommit; OClose]). rewrite exec_all_app, E2. cbn [bind exec_all exec]. rewrite E3. reflexivity. }
  unfold commit_tx in S4. rewrite T1 in S4. change (1 =? 1) with true in S4. cbv iota in S4. unfold close_step in S4.
  destruct (sim_obs _ _ _ _ _ S4) as (_ & _ & B1 & B2 & BC & B3 & _ & B4). destruct b; cbn [base] in *; rewrite F3, Hb in *; cbn [cur tx past future base] in *.
  - split; [exact B4|]. right. rewrite F1, zlen_cons in *. split; [lia|]. split; [exact B2|].
    destruct (undo_op_ok _ _ _ _ _ S4 ltac:(lia) eq_refl) as (m5 & w5 & E5 & S5). cbn [do_op base past fst snd] in *. cbn [exec] in E5.
    destruct (undo (close m3) w3) as [[[b5 m5'] w5']| | |] eqn:EU; cbn [bind] in E5; try discriminate. injection E5 as -> -> ->.
    exists m5, w5. split; [reflexivity|]. destruct (sim_obs _ _ _ _ _ S5) as (_ & _ & C1 & C2 & CC & C3 & _ & C4). cbn [cur past] in *. rewrite CC, AC. split; [reflexivity|congruence].
  - split; [exact B4|]. left. rewrite A1, A2, AC, B1, B2, BC, F1, F2, T2 by reflexivity. auto.
Qed.
Print Assumptions C33_commit_is_one_step.

Theorem C33_close_transaction : forall rcells s p w xs ys rx m0 w0,
  begins rcells s p w -> all_allowed rcells (xs ++ OBegin :: ys) (start s p) -> zlen xs + zlen ys < 2 ^ 32 - 2 ->
  exec_all xs start_um w = Val (rx, m0, w0) -> level m0 = 0 -> depth 1 ys = Some 1 ->
  exists ry m1 w1 st m2 w2,
    exec_all ys (open_transaction m0) w0 = Val (ry, m1, w1) /\
    close_transaction m1 w1 = Val (st, m2, w2) /\ level m2 = 0 /\
    st = last_bad eOK ys ry /\
    (bad st = true -> cells w2 = cells w0) /\ (bad st = false -> st = eOK /\ cells w2 = cells w1).
Proof.
  intros rs s p w xs ys rx m0 w0 HB HA HL HX Hlv Hd. change (2 ^ 32 - 2) with 4294967294 in *. pose proof (zlen_nonneg xs). pose proof (zlen_nonneg ys).
  destruct (tx_run rs s p w xs ys rx m0 w0 HB HA HL HX Hlv Hd) as (d2 & ry & m2 & w2 & b & E2 & S2 & EY & T1 & T2 & T3 & T4 & S0 & Ht).
  set (d := snd (do_all xs (start s p))) in *.
  destruct (exec_ok rs _ d2 m2 w2 OEnd S2 ltac:(lia) I) as (m3 & w3 & E3 & S3). cbn [do_op fst snd] in *. cbn [exec] in E3.
  destruct (close_transaction m2 w2) as [[[st m3'] w3']| | |] eqn:EC; cbn [bind] in E3; try discriminate. injection E3 as -> -> ->.
  exists ry, m2, w2, (tstat d2), m3, w3. sp; auto; destruct (sim_obs _ _ _ _ _ S3) as (_ & _ & _ & _ & CC & _ & _ & C4).
  - rewrite C4. unfold rollback_tx, commit_tx. rewrite T1. change (1 =? 1) with true. cbv iota. destruct (bad (tstat d2)); [reflexivity|]. destruct b; reflexivity.
  - intros Hbad. rewrite Hbad in CC. unfold rollback_tx in CC. rewrite T1 in CC. cbn [cur Z.eqb Pos.eqb] in CC. destruct (s_w _ _ _ _ _ S0) as [-> _]. exact CC.
  - intros Hbad. split; [destruct (s_stat _ _ _ _ _ S2) as [_ Hs]; destruct (tstat d2); try discriminate; auto; contradiction|].
    rewrite Hbad in CC. unfold commit_tx in CC. rewrite T1 in CC. cbn [cur Z.eqb Pos.eqb] in CC. destruct (s_w _ _ _ _ _ S2) as [-> _]. destruct b; exact CC.
Qed.
Print Assumptions C33_close_transaction.

(** inner levels only change the nesting level *)
Definition with_level (m : um) (k : Z) : um :=
  UM (active m) (open_ m) (current m) (undoS m) (redoS m) (undoN m) (redoN m) k (trans m) (tstatus m) (changed m).
Theorem C33_inner_levels_have_no_effect : forall m w, 1 < level m ->
  commit m w = Val (with_level m (level m - 1), w) /\
  rollback m w = Val (with_level m (level m - 1), w) /\
  close_transaction m w = Val (tstatus m, with_level m (level m - 1), w) /\
  open_transaction m = with_level m (level m + 1).
Proof.
  intros m w H. assert (E1 : (level m =? 0) = false) by (apply Z.eqb_neq; lia). assert (E2 : (level m - 1 =? 0) = false) by (apply Z.eqb_neq; lia).
  unfold close_transaction, commit, rollback, open_transaction. rewrite E1, E2. sp; try reflexivity. unfold with_level. destruct (tstatus m); reflexivity.
Qed.
Print Assumptions C33_inner_levels_have_no_effect.
(** commit and rollback without an open transaction do nothing *)
Theorem C33_end_without_transaction : forall m w, level m = 0 -> commit m w = Val (m, w) /\ rollback m w = Val (m, w).
Proof. intros m w H. unfold commit, rollback. rewrite H. auto. Qed.
Print Assumptions C33_end_without_transaction.

(** * C34 *)
Lemma held_mention c o : mentions c o -> 1 <= held c o.
Proof.
  unfold mentions, held. intros H. pose proof (b2z_nn (c_obj c =? o)). destruct H as [<-|H].
  - rewrite Z.eqb_refl. cbn [b2z]. destruct (c_kind c); try lia.
    pose proof (b2z_nn (negb (v1 =? 0) && (v1 =? c_obj c))). pose proof (b2z_nn (negb (v2 =? 0) && (v2 =? c_obj c))). lia.
  - destruct (c_kind c); try contradiction. pose proof (b2z_nn (negb (v1 =? 0) && (v1 =? o))). pose proof (b2z_nn (negb (v2 =? 0) && (v2 =? o))).
    destruct H as [Ho [<-|<-]].
    + rewrite Z.eqb_refl, (proj2 (Z.eqb_neq v1 0) Ho) in *. cbn [negb andb b2z] in *. lia.
    + rewrite Z.eqb_refl, (proj2 (Z.eqb_neq v2 0) Ho) in *. cbn [negb andb b2z] in *. lia.
Qed.
Lemma heldl_in cs c o : In c cs -> held c o <= heldl cs o.
Proof.
  induction cs as [|x cs IH]; [contradiction|]. intros [->|H]; cbn [heldl].
  - pose proof (heldl_nn cs o). lia.
  - pose proof (held_nn x o). specialize (IH H). lia.
Qed.
Lemma heldss_in ss s o : In s ss -> heldl s o <= heldss ss o.
Proof.
  induction ss as [|x ss IH]; [contradiction|]. intros [->|H]; cbn [heldss].
  - pose proof (heldss_nn ss o). lia.
  - pose proof (heldl_nn x o). specialize (IH H). lia.
Qed.
Lemma in_history_held m c o : in_history m c -> mentions c o -> 1 <= held_um m o.
Proof.
  intros H M. apply held_mention in M. unfold held_um.
  pose proof (heldl_nn (current m) o). pose proof (heldl_nn (trans m) o). pose proof (heldss_nn (undoS m) o). pose proof (heldss_nn (redoS m) o).
  destruct H as [H|[H|[(s & K1 & K2)|(s & K1 & K2)]]].
  - pose proof (heldl_in _ _ o H). lia.
  - pose proof (heldl_in _ _ o H). lia.
  - pose proof (heldl_in _ _ o K2). pose proof (heldss_in _ _ o K1). lia.
  - pose proof (heldl_in _ _ o K2). pose proof (heldss_in _ _ o K1). lia.
Qed.

(** every object a change record refers to is alive, on top of all references the client owns *)
Theorem C34_history_keeps_objects_alive : forall rcells s p w xs l m w' c o,
  begins rcells s p w -> all_allowed rcells xs (start s p) -> zlen xs < 2 ^ 32 -> exec_all xs start_um w = Val (l, m, w') ->
  in_history m c -> mentions c o ->
  let d := snd (do_all xs (start s p)) in rc w' o >= plain d o + refs (cur d) o + 1.
Proof.
  intros rs s p w xs l m w' c o HB HA HL HX Hc Ho d. change (2 ^ 32) with 4294967296 in *.
  destruct (run_sim rs s p w xs l m w' HB HA ltac:(lia) HX) as [_ S0]. destruct (s_w _ _ _ _ _ S0) as [_ R]. rewrite R. fold d.
  pose proof (in_history_held m c o Hc Ho). lia.
Qed.
Print Assumptions C34_history_keeps_objects_alive.
(** every object reference stored in a cell that the client declared to be a reference refers to a living object *)
Theorem C34_no_dangling_reference : forall rcells s p w xs l m w' i v,
  begins rcells s p w -> all_allowed rcells xs (start s p) -> zlen xs < 2 ^ 32 -> exec_all xs start_um w = Val (l, m, w') ->
  In i rcells -> lget (cells w') i = Some v -> v = 0 \/ rc w' v >= 1.
Proof.
  intros rs s p w xs l m w' i v HB HA HL HX Hi Hv. change (2 ^ 32) with 4294967296 in *.
  destruct (run_sim rs s p w xs l m w' HB HA ltac:(lia) HX) as [_ S0]. destruct (s_w _ _ _ _ _ S0) as [E R]. rewrite E in Hv.
  destruct (s_wf _ _ _ _ _ S0) as ([W _] & _ & _). destruct (W i v Hi Hv) as [?|Hr]; [auto|right]. rewrite R.
  pose proof (s_plain _ _ _ _ _ S0 v). pose proof (held_um_nn m v). lia.
Qed.
Print Assumptions C34_no_dangling_reference.
(** deleting the stacks gives back exactly the references taken: only the client's references remain *)
Theorem C34_clear_gives_references_back : forall rcells s p w xs l m w',
  begins rcells s p w -> all_allowed rcells xs (start s p) -> zlen xs < 2 ^ 32 - 1 -> exec_all xs start_um w = Val (l, m, w') ->
  level m = 0 ->
  exists m1 w1, clear_stacks m w' = Val (m1, w1) /\ cells w1 = cells w' /\ undoN m1 = 0 /\ redoN m1 = 0 /\
    let d := snd (do_all xs (start s p)) in forall o, rc w1 o = plain d o + refs (cur d) o.
Proof.
  intros rs s p w xs l m w' HB HA HL HX Hlv. change (2 ^ 32 - 1) with 4294967295 in *.
  destruct (run_sim rs s p w xs l m w' HB HA ltac:(lia) HX) as [_ S0]. set (d := snd (do_all xs (start s p))) in *.
  destruct (clear_op_ok _ _ _ _ _ S0 ltac:(lia)) as (m1 & w1 & E1 & S1). cbn [exec] in E1.
  destruct (clear_stacks m w') as [[m1' w1']| | |]; cbn [bind] in E1; try discriminate. injection E1 as -> ->. cbn [do_op snd] in S1.
  exists m1, w1. split; [reflexivity|]. destruct (sim_obs _ _ _ _ _ S0) as (_ & _ & _ & _ & C0 & _). destruct (sim_obs _ _ _ _ _ S1) as (N1 & N2 & M1 & M2 & C1 & O1 & P1 & L1).
  cbn [cur past future tx base] in *. split; [congruence|]. split; [exact M1|]. split; [exact M2|]. cbv zeta. intros o. destruct (s_w _ _ _ _ _ S1) as [_ R]. rewrite R. cbn [plain cur].
  unfold held_um. rewrite (proj1 P1 O1). rewrite M1 in N1. rewrite M2 in N2. change (zlen (@nil snap)) with 0 in *. symmetry in N1, N2. apply zlen_zero in N1, N2. rewrite N1, N2.
  assert (Ht : trans m1 = []). { pose proof (s_level _ _ _ _ _ S0) as L0. pose proof (s_level _ _ _ _ _ S1) as L. cbn [tx] in L. destruct (tx d) as [[[k s0] b]|]; [lia|apply L]. }
  rewrite Ht. cbn [heldl heldss]. lia.
Qed.
Print Assumptions C34_clear_gives_references_back.

(** * Examples: the hypotheses are met, and the conclusions say something *)
Definition ex_w : world := World [1; 2; 0] (fun o => if o =? 7 then 2 else if o =? 9 then 1 else 0) (fun _ => false).
Definition ex_r : Z -> Z := fun o => if o =? 9 then 1 else 0.
Definition ex_s : snap := Snap [1; 2; 0] ex_r.
Definition ex_p : Z -> Z := fun o => if o =? 7 then 2 else 0.
Example ex_begins : begins [2] ex_s ex_p ex_w.
Proof.
  split; [reflexivity|]. split; [intros o; unfold ex_w, ex_s, ex_p, ex_r; cbn [rc refs]; destruct (Z.eqb_spec o 7), (Z.eqb_spec o 9); lia|]. split; [intros o; unfold ex_p; destruct (o =? 7); lia|].
  split; [|intros o; unfold ex_s, ex_r; cbn [refs]; destruct (o =? 9); lia]. intros l v [<-|[]] H. cbn in H. injection H as <-. auto.
Qed.
(** two values and a reference changed in one step, a second step, then a transaction that is rolled back *)
Definition ex_xs : list op :=
  [OSet 7 0 10 0 100; OSet 7 0 11 0 100; OSetRef 7 2 9; OClose; OSet 7 1 20 0 100; OClose].
Definition ex_ys : list op := [OSet 7 0 30 0 100; OBegin; OSet 7 1 99 0 50; OEnd].
Ltac ex_step := match goal with |- all_allowed ?rs (?x :: ?r) ?d =>
    let d' := eval lazy -[ex_p ex_r] in (snd (do_op x d)) in refine (conj _ (_ : all_allowed rs r d')) end.
Ltac ex_obl := cbn [allowed]; unfold owned; cbn [plain cur refs vals];
  repeat match goal with |- _ /\ _ => split end; try (vm_compute; congruence); try (vm_compute; auto; fail); try (vm_compute; intros [H|[]]; discriminate); try (right; vm_compute; congruence).
Example ex_allowed : all_allowed [2] (ex_xs ++ OBegin :: ex_ys) (start ex_s ex_p).
Proof.
  unfold ex_xs, ex_ys, start, ex_s. cbn [app]. repeat (ex_step; [ex_obl|]). exact I.
Qed.
Definition outcome (x : out (list res * um * world)) : option (list res * list Z * Z * Z) :=
  match x with Val (l, m, w) => Some (l, cells w, undoN m, redoN m) | _ => None end.
Example ex_undo : outcome (exec_all (ex_xs ++ [OUndo; OUndo; OUndo; ORedo]) start_um ex_w)
  = Some ([RStatus eOK; RStatus eOK; RUnit; RUnit; RStatus eOK; RUnit; RBool true; RBool true; RBool false; RBool true], [11; 2; 9], 1, 1).
Proof. reflexivity. Qed.
Example ex_tx : depth 1 ex_ys = Some 1 /\ forallb (fun x => negb (is_close x)) ex_ys = true /\
  outcome (exec_all (ex_xs ++ OBegin :: ex_ys ++ [OEnd]) start_um ex_w)
  = Some ([RStatus eOK; RStatus eOK; RUnit; RUnit; RStatus eOK; RUnit; RUnit; RStatus eOK; RUnit; RStatus eInvalidInput; RStatus eInvalidInput; RStatus eInvalidInput], [11; 20; 9], 2, 0).
Proof. repeat split. Qed.

(** * What the obligations rule out.
    undo is not refused while a transaction is open: undoing inside one and then rolling back leaves a memory that is
    neither the one before the transaction nor any other state of the document's history. *)
Definition final_cells (xs : list op) (w : world) : option (list Z) :=
  match exec_all xs start_um w with Val (_, _, w') => Some (cells w') | _ => None end.
Theorem C33_undo_inside_transaction_refuted :
  ~ forall rcells s p w xs, begins rcells s p w -> In OBegin xs ->
      exists n, final_cells (xs ++ [OUndo; ORollback]) w = final_cells (firstn n xs) w.
Proof.
  intros H.
  destruct (H [2] ex_s ex_p ex_w [OSet 7 1 20 0 100; OSet 7 0 10 0 100; OClose; OBegin; OSet 7 0 30 0 100] ex_begins) as [n Hn]; [cbn; auto|].
  do 6 (destruct n as [|n]; [vm_compute in Hn; discriminate|]). cbn [firstn] in Hn. vm_compute in Hn. discriminate.
Qed.
Print Assumptions C33_undo_inside_transaction_refuted.
