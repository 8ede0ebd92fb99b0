From Verif Require Import Base M_Undo S_Undo L_Undo L_Undo2 L_Undo3 M_LinkedList S_LinkedList L_LinkedList L_LinkedList2 L_LinkedList3 L_LinkedList4 L_LinkedList5 L_LinkedList6 L_LinkedList7 L_LinkedList8 L_LinkedList9 L_LinkedList10.
Ltac Zify.zify_post_hook ::= Z.to_euclidean_division_equations.
Lemma okl_len N f K s l : okl N f K s l -> zlen l <= f - 2.
Proof. intros (es & O & E). rewrite <- E, zlen_map. exact (len_f _ _ _ _ (o_rep _ _ _ _ _ O)). Qed.
Lemma ucost_pos o l : 0 <= ucost o l.
Proof. pose proof (zlen_nonneg l). destruct o; cbn [ucost]; lia. Qed.
Lemma ucosts_pos os : forall d, 0 <= ucosts os d.
Proof. induction os as [|o os IH]; intros d; cbn [ucosts]; [lia|]. pose proof (ucost_pos o (lnow d)). specialize (IH (snd (ustep o d))). lia. Qed.
Lemma usteps_ok N K os : forall n d ld m w s fuel, sim (rcs N) n d m w -> usim N (lfresh s) K d ld -> lfresh s + zlen os <= Z.of_nat N + 2 -> 0 <= n -> lfresh s - 2 <= n -> n + ucosts os ld < 4294967296 ->
  lfresh s - 2 + zlen os < Z.of_nat fuel -> Forall (fun o => Forall (cli N K) (uop_objs o)) os ->
  exists m' w' s' d' n', uexec_all os fuel m w s = Val (fst (usteps os ld), m', w', s') /\ sim (rcs N) n' d' m' w' /\ usim N (lfresh s') K d' (snd (usteps os ld)).
Proof.
  induction os as [|o os IH]; intros n d ld m w s fuel S U Hf Hn Hfn Hb Hfu Ho; cbn [uexec_all usteps ucosts] in *.
  - exists m, w, s, d, n. auto.
  - rewrite zlen_cons in *. pose proof (zlen_nonneg os). pose proof (okl_len _ _ _ _ _ (u_cur _ _ _ _ _ U)) as Ll. unfold zlen in Ll. inversion Ho as [|? ? Ho1 Ho2]; subst. pose proof (ucosts_pos os (snd (ustep o ld))).
    destruct (ustep_ok N K n d ld m w s o fuel S U ltac:(lia) Hn Hfn ltac:(lia) ltac:(lia) Ho1) as (m1 & w1 & s1 & d1 & E & S1 & U1 & F1 & F2).
    rewrite E. cbn [bind]. destruct (ustep o ld) as [a ld1]. cbn [fst snd] in *. pose proof (ucost_pos o (lnow ld)).
    destruct (IH _ d1 ld1 m1 w1 s1 fuel S1 U1 ltac:(lia) ltac:(lia) ltac:(lia) ltac:(lia) ltac:(lia) Ho2) as (m2 & w2 & s2 & d2 & n2 & E2 & S2 & U2).
    rewrite E2. cbn [bind]. destruct (usteps os ld1) as [rs ld2]. cbn [fst snd] in *. exists m2, w2, s2, d2, n2. auto.
Qed.
Lemma ustart N w : fresh_world N w -> let K o := if o =? 1 then 0 else rc w o in
  sim (rcs N) 0 (start (Snap (cells w) K) (fun o => if o =? 1 then rc w 1 else 0)) (set_active true new_um) w /\ usim N 2 K (start (Snap (cells w) K) (fun o => if o =? 1 then rc w 1 else 0)) (LDoc [] [] [] None).
Proof.
  intros F K. assert (I := fresh_i29 _ _ F). destruct F as (Hc & H1 & H2 & H3).
  assert (L : zlen (cells w) = 3 * Z.of_nat N + 3) by (rewrite Hc, zlen_repeat; lia).
  assert (G : forall j v, lget (cells w) j = Some v -> v = 0) by (intros j v E; apply lget_In in E; rewrite Hc in E; now apply repeat_spec in E).
  assert (G2 : forall j, 0 <= j < 3 * Z.of_nat N + 3 -> lget (cells w) j = Some 0) by (intros j Hj; destruct (lget_range (cells w) j ltac:(lia)) as [v E]; rewrite E; f_equal; eauto).
  split.
  - apply sim_start; cbn [vals refs]; auto.
    + intros o. unfold K. destruct (Z.eqb_spec o 1) as [->|]; lia.
    + intros o. destruct (o =? 1); [apply H3|lia].
    + split; cbn [vals refs]; [intros l v _ E; left; eauto|intros o; unfold K; destruct (o =? 1); [lia|apply H3]].
  - unfold start. constructor; cbn [tx plain past cur future base lpast lnow lfuture lbase]; auto.
    exists []. split; [|reflexivity]. constructor; cbn [vals refs]; [exact (i_rep _ _ _ _ _ _ _ I)|..].
    + intros e He _. split; apply G2; ucell; lia.
    + intros e He. exists 0. split; [apply G2; ucell; lia|now left].
    + intros e He _. unfold K. replace (e =? 1) with false by lia. now apply H2.
    + reflexivity.
Qed.
