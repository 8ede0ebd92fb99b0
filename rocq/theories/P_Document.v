(** P_Document.v -- property C127: documents, their changed flag and their undo manager. *)
From Verif Require Import Base M_Undo S_Undo L_Undo L_Undo2 L_Undo3 M_Document S_Document.
From Verif Require P_Undo.
Import P_Undo(sim_obs, start_um, all_allowed_app, do_all_app, ex_w, ex_s, ex_p, ex_begins).

(** ** the flag, on the manager's side *)
Ltac bnd H := match type of H with
  | bind ?e _ = Val _ => let E := fresh "E" in destruct e as [?| | |] eqn:E; cbn [bind] in H; try discriminate
  | (match ?p with pair _ _ => _ end) = Val _ => destruct p; cbn [fst snd] in H
  | (let (_, _) := ?p in _) = Val _ => destruct p
  end.
Ltac bnds H := repeat bnd H.
Lemma clear_redo_changed m w m' w' : clear_redo m w = Val (m', w') -> changed m' = changed m.
Proof. unfold clear_redo. intros H. bnds H. now injection H as <- <-. Qed.
Lemma register_changed c m w m' w' : register c m w = Val (m', w') -> changed m' = changed m.
Proof.
  unfold register. destruct (active m); cbn [negb]; intros H.
  - destruct (level m >? 0); [now injection H as <- <-|]. bnds H. apply clear_redo_changed in E. injection H as <- <-. exact E.
  - bnds H. now injection H as <- <-.
Qed.
Lemma register_all_changed cs : forall m w m' w', register_all cs m w = Val (m', w') -> changed m' = changed m.
Proof.
  induction cs as [|c cs IH]; intros m w m' w' H; cbn [register_all] in H; [now injection H as <- <-|]. bnds H. apply register_changed in E. apply IH in H. congruence.
Qed.
Lemma commit_changed m w m' w' : commit m w = Val (m', w') -> changed m' = changed m.
Proof.
  unfold commit. destruct (level m =? 0); [intros H; now injection H as <- <-|]. destruct (level m - 1 =? 0); intros H; [|now injection H as <- <-].
  bnds H. apply register_all_changed in E. now injection H as <- <-.
Qed.
Lemma rollback_changed m w m' w' : rollback m w = Val (m', w') -> changed m' = changed m.
Proof.
  unfold rollback. destruct (level m =? 0); [intros H; now injection H as <- <-|]. destruct (level m - 1 =? 0); intros H; [|now injection H as <- <-].
  bnds H. now injection H as <- <-.
Qed.
Lemma close_changed m : changed (close m) = if u32 (zlen (current m)) =? 0 then changed m else true.
Proof. unfold close. now destruct (_ =? 0). Qed.
Lemma clear_changed m w m' w' : clear_stacks m w = Val (m', w') -> changed m' = changed (close m).
Proof.
  unfold clear_stacks, clear_undo. intros H. bnds H. apply clear_redo_changed in H. rewrite H. bnds E. now injection E as <- <-.
Qed.
(** what an unset flag tells about the last call *)
Ltac reg := match goal with X : register _ _ _ = Val _ |- _ => apply register_changed in X end.
Lemma exec_changed x m w r m' w' : exec x m w = Val (r, m', w') -> changed m' = false -> changed m = false /\
  match x with OUndo | ORedo => r = RBool false /\ m' = m /\ w' = w | OClose | OClear => u32 (zlen (current m)) = 0 | _ => True end.
Proof.
  intros H C. destruct x as [o l v lo hi|o l p|o|o|o|o|o| | | | | | | | |s]; cbn [exec] in H.
  - bnds H. unfold set_member in E. bnds E. destruct (v =? _); [injection E as <- <- <-; injection H as <- <- <-; auto|]. destruct (negb _).
    + injection E as <- <- <-. injection H as <- <- <-. split; [exact C|exact I].
    + bnds E. reg. injection E as <- <- <-. injection H as <- <- <-. split; [congruence|exact I].
  - bnds H. unfold set_ref in E. bnds E. reg. injection E as <- <-. injection H as <- <- <-. split; [congruence|exact I].
  - bnds H. unfold undoable_retain in E. bnds E. reg. injection E as <- <-. injection H as <- <- <-. split; [congruence|exact I].
  - bnds H. unfold undoable_release in E. bnds E. reg. injection E as <- <-. injection H as <- <- <-. split; [congruence|exact I].
  - bnds H. unfold mark in E. bnds E. reg. injection H as <- <- <-. split; [congruence|exact I].
  - bnds H. injection H as <- <- <-. auto.
  - bnds H. injection H as <- <- <-. auto.
  - injection H as <- <- <-. rewrite close_changed in C. destruct (Z.eqb_spec (u32 (zlen (current m))) 0); [auto|discriminate].
  - bnds H. unfold undo in E. destruct (open_ m); [injection E as <- <- <-; injection H as <- <- <-; auto|]. destruct (undoS m); [injection E as <- <- <-; injection H as <- <- <-; auto|]. bnds E. injection E as <- <- <-. injection H as <- <- <-. discriminate.
  - bnds H. unfold redo in E. destruct (open_ m); [injection E as <- <- <-; injection H as <- <- <-; auto|]. destruct (redoS m); [injection E as <- <- <-; injection H as <- <- <-; auto|]. bnds E. injection E as <- <- <-. injection H as <- <- <-. discriminate.
  - bnds H. apply clear_changed in E. injection H as <- <- <-. rewrite close_changed in E. destruct (Z.eqb_spec (u32 (zlen (current m))) 0); [split; congruence|congruence].
  - injection H as <- <- <-. unfold open_transaction in C. split; [now destruct (level m =? 0)|exact I].
  - bnds H. unfold close_transaction in E. bnds E. injection E as <- <- <-. injection H as <- <- <-. split; [|exact I].
    destruct (tstatus m); [apply commit_changed in E0|apply rollback_changed in E0|apply rollback_changed in E0|apply rollback_changed in E0]; congruence.
  - bnds H. apply commit_changed in E. injection H as <- <- <-. split; [congruence|exact I].
  - bnds H. apply rollback_changed in E. injection H as <- <- <-. split; [congruence|exact I].
  - injection H as <- <- <-. split; [|exact I]. now destruct s.
Qed.

(** ** a managed document goes through the history of snapshots of S_Undo *)
Lemma sim_lend rs n d m w b : sim rs n d m w -> sim rs n d (lend b m) w.
Proof. intros [? ? ? ? ? ? ? ? ? ?]. constructor; auto. Qed.
Lemma dexec_ok rs n d D w x : forall m, mgr D = Some m -> sim rs n d m w -> 0 <= n < 4294967295 -> x <> DManager false ->
  match x with DCall x => allowed rs x d | _ => True end ->
  exists r D' m' w', dexec x D w = Val (r, D', w') /\ mgr D' = Some m' /\ sim rs (n + 1) (match x with DCall x => snd (do_op x d) | _ => d end) m' w'.
Proof.
  intros m Em S Hn NM HA. assert (WK : sim rs (n + 1) d m w) by (eapply sim_weaken; [|eassumption]; lia). destruct x as [x|b|[|]|b|b]; cbn [dexec]; try rewrite Em.
  - destruct (exec_ok rs n d (lend (dchanged D) m) w x (sim_lend _ _ _ _ _ _ S) Hn HA) as (m' & w' & E & S'). rewrite E. cbn [bind]. eexists _, _, m', w'. split; [reflexivity|]. split; [reflexivity|exact S'].
  - eexists _, _, m, w. split; [reflexivity|]. split; [reflexivity|exact WK].
  - eexists _, _, m, w. split; [reflexivity|]. split; [exact Em|exact WK].
  - congruence.
  - eexists _, _, m, w. split; [reflexivity|]. split; [reflexivity|exact WK].
  - eexists _, _, m, w. split; [reflexivity|]. split; [reflexivity|exact WK].
Qed.
Lemma dexec_all_ok rs h : forall n d D w m, mgr D = Some m -> sim rs n d m w -> 0 <= n -> n + zlen h < 4294967296 -> managed h -> all_allowed rs (calls h) d ->
  exists r D' m' w', dexec_all h D w = Val (r, D', w') /\ mgr D' = Some m' /\ sim rs (n + zlen h) (snd (do_all (calls h) d)) m' w'.
Proof.
  induction h as [|x h IH]; intros n d D w m Em S Hn Hl HM HA.
  - cbn. eexists _, _, m, w. rewrite Z.add_0_r. auto.
  - rewrite zlen_cons in *. pose proof (zlen_nonneg h). assert (HM' : managed h) by (intros C; apply HM; now right). assert (NM : x <> DManager false) by (intros ->; apply HM; now left).
    assert (A : match x with DCall x => allowed rs x d | _ => True end) by (destruct x; auto; apply HA).
    destruct (dexec_ok rs n d D w x m Em S ltac:(lia) NM A) as (r & D1 & m1 & w1 & E & Em1 & S1). cbn [dexec_all]. rewrite E. cbn [bind].
    set (d1 := match x with DCall x => snd (do_op x d) | _ => d end) in *.
    assert (HA' : all_allowed rs (calls h) d1 /\ snd (do_all (calls (x :: h)) d) = snd (do_all (calls h) d1)).
    { subst d1. destruct x; cbn [calls] in *; auto. split; [apply HA|]. cbn [do_all]. destruct (do_op x d) as [a d1]. cbn [snd]. now destruct (do_all (calls h) d1). }
    destruct HA' as [HA' ->]. destruct (IH (n + 1) d1 D1 w1 m1 Em1 S1 ltac:(lia) ltac:(lia) HM' HA') as (r2 & D2 & m2 & w2 & E2 & Em2 & S2). rewrite E2. cbn [bind].
    eexists _, D2, m2, w2. split; [reflexivity|]. split; [exact Em2|]. now replace (n + (1 + zlen h)) with (n + 1 + zlen h) by lia.
Qed.
(** the flag is unset: if no step is open, what is to be saved is what was saved; during a transaction this holds of what a rollback would bring back *)
Definition clean (V : list Z) (d : doc) : Prop := base d = None ->
  match tx d with None => vals (cur d) = V | Some (_, s0, dirty) => vals s0 = V /\ (dirty = false -> vals (cur d) = V) end.
Lemma clean_edit V d s : clean V d -> clean V (edit s d).
Proof. unfold clean, edit. destruct (tx d) as [[[n s0] b]|] eqn:T; cbn; [|discriminate]. intros H B. split; [now apply H|discriminate]. Qed.
Lemma clean_commit V d : clean V d -> clean V (commit_tx d).
Proof.
  unfold clean, commit_tx. destruct (tx d) as [[[n s0] b]|] eqn:T; [|now rewrite T]. destruct (n =? 1); [|auto]. destruct b; cbn; [discriminate|]. intros H B. now apply H.
Qed.
Lemma clean_rollback V d : clean V d -> clean V (rollback_tx d).
Proof. unfold clean, rollback_tx. destruct (tx d) as [[[n s0] b]|] eqn:T; [|now rewrite T]. destruct (n =? 1); [|auto]. cbn. intros H B. now apply H. Qed.
Lemma base_current rs n d m w : sim rs n d m w -> 0 <= n < 4294967296 -> u32 (zlen (current m)) = 0 -> base d = None.
Proof.
  intros S Hn Z0. destruct (s_n _ _ _ _ _ S) as (_ & _ & N). pose proof (zlen_nonneg (current m)). pose proof (zlen_nonneg (trans m)). pose proof (zlen_nonneg (undoS m)). pose proof (zlen_nonneg (redoS m)).
  rewrite u32_id in Z0 by lia. apply zlen_zero in Z0. pose proof (s_base _ _ _ _ _ S) as B. destruct (base d); [destruct B as (_ & B & _); contradiction|reflexivity].
Qed.
Lemma clean_step rs n d m w x r m' w' V : sim rs n d m w -> 0 <= n < 4294967295 -> allowed rs x d -> exec x m w = Val (r, m', w') -> changed m' = false -> clean V d -> clean V (snd (do_op x d)).
Proof.
  intros S Hn HA E C Cl. destruct (exec_ok rs n d m w x S Hn HA) as (m2 & w2 & E2 & _). rewrite E in E2. assert (Er : r = fst (do_op x d)) by congruence. clear E2 m2 w2.
  destruct (exec_changed _ _ _ _ _ _ E C) as [_ K].
  destruct x as [o l v lo hi|o l p|o|o|o|o|o| | | | | | | | |s]; cbn [do_op snd fst] in *; try (apply clean_edit; exact Cl); try exact Cl.
  - destruct (match lget (vals (cur d)) l with Some y => y =? v | None => false end); [exact Cl|]. destruct (_ && _); [apply clean_edit; exact Cl|exact Cl].
  - unfold close_step. now rewrite (base_current _ _ _ _ _ S ltac:(lia) K).
  - destruct K as [K _]. destruct (base d), (past d); try exact Cl; cbn in Er; congruence.
  - destruct K as [K _]. destruct (base d), (future d); try exact Cl; cbn in Er; congruence.
  - pose proof (base_current _ _ _ _ _ S ltac:(lia) K) as B. unfold clean in *. cbn. intros _. now apply Cl.
  - unfold clean in *. destruct (tx d) as [[[k s0] b]|] eqn:T; cbn; auto.
  - destruct (bad (tstat d)); [now apply clean_rollback|now apply clean_commit].
  - now apply clean_commit.
  - now apply clean_rollback.
  - destruct (bad s); exact Cl.
Qed.
Lemma dexec_changed_mono x D w r D' w' m : mgr D = Some m -> x <> DManager false -> x <> DChanged false -> dexec x D w = Val (r, D', w') -> dchanged D' = false -> dchanged D = false.
Proof.
  intros Em NM NC H C. destruct x as [x|[|]|[|]|b|b]; cbn [dexec] in H; try rewrite Em in H; try congruence.
  - bnds H. injection H as <- <- <-. cbn in C. apply (exec_changed _ _ _ _ _ _ E) in C. exact (proj1 C).
  - injection H as <- <- <-. discriminate.
  - injection H as <- <- <-. exact C.
  - injection H as <- <- <-. exact C.
Qed.
Lemma clean_all rs V h : forall n d D w m r D' w', mgr D = Some m -> sim rs n d m w -> 0 <= n -> n + zlen h < 4294967296 -> managed h -> not_saved h -> all_allowed rs (calls h) d ->
  dexec_all h D w = Val (r, D', w') -> dchanged D' = false -> clean V d -> dchanged D = false /\ clean V (snd (do_all (calls h) d)).
Proof.
  induction h as [|x h IH]; intros n d D w m r D' w' Em S Hn Hl HM NS HA H C Cl.
  - cbn in H. injection H as <- <- <-. auto.
  - rewrite zlen_cons in *. pose proof (zlen_nonneg h). assert (HM' : managed h) by (intros X; apply HM; now right). assert (NS' : not_saved h) by (intros X; apply NS; now right).
    assert (NM : x <> DManager false) by (intros ->; apply HM; now left). assert (NC : x <> DChanged false) by (intros ->; apply NS; now left).
    assert (A : match x with DCall x => allowed rs x d | _ => True end) by (destruct x; auto; apply HA).
    destruct (dexec_ok rs n d D w x m Em S ltac:(lia) NM A) as (r1 & D1 & m1 & w1 & E & Em1 & S1). cbn [dexec_all] in H. rewrite E in H. cbn [bind] in H. bnds H. injection H as <- <- <-.
    set (d1 := match x with DCall x => snd (do_op x d) | _ => d end) in *.
    assert (HA' : all_allowed rs (calls h) d1 /\ snd (do_all (calls (x :: h)) d) = snd (do_all (calls h) d1)).
    { subst d1. destruct x; cbn [calls] in *; auto. split; [apply HA|]. cbn [do_all]. destruct (do_op x d) as [a d1]. cbn [snd]. now destruct (do_all (calls h) d1). }
    destruct HA' as [HA' ->].
    assert (K : dchanged D1 = false -> dchanged D = false /\ clean V d1).
    { intros C1. split; [eapply dexec_changed_mono; eauto|]. subst d1. destruct x as [x|b|b|b|b]; try exact Cl. cbn [dexec] in E. rewrite Em in E. bnds E. injection E as <- <- <-.
      eapply clean_step; [apply sim_lend; exact S|lia|exact A|exact E1|exact C1|exact Cl]. }
    assert (C1 : dchanged D1 = false).
    { clear - E0 C HM' NS' Em1 S1 HA' Hl Hn. revert E0 C HM' NS' Em1 S1 HA' Hl Hn. assert (G : forall h n d D w m r D' w', mgr D = Some m -> sim rs n d m w -> 0 <= n -> n + zlen h < 4294967296 -> managed h -> not_saved h -> all_allowed rs (calls h) d -> dexec_all h D w = Val (r, D', w') -> dchanged D' = false -> dchanged D = false).
      { clear. induction h as [|x h IH]; intros n d D w m r D' w' Em S Hn Hl HM NS HA H C; [cbn in H; injection H as <- <- <-; auto|].
        rewrite zlen_cons in *. pose proof (zlen_nonneg h). assert (HM' : managed h) by (intros X; apply HM; now right). assert (NS' : not_saved h) by (intros X; apply NS; now right).
        assert (NM : x <> DManager false) by (intros ->; apply HM; now left). assert (NC : x <> DChanged false) by (intros ->; apply NS; now left).
        assert (A : match x with DCall x => allowed rs x d | _ => True end) by (destruct x; auto; apply HA).
        destruct (dexec_ok rs n d D w x m Em S ltac:(lia) NM A) as (r1 & D1 & m1 & w1 & E & Em1 & S1). cbn [dexec_all] in H. rewrite E in H. cbn [bind] in H. bnds H. injection H as <- <- <-.
        eapply dexec_changed_mono; eauto. eapply (IH (n + 1)); eauto; try lia. destruct x; cbn [calls] in HA; auto; apply HA. }
      intros. eapply (G h (n + 1)); eauto; lia. }
    destruct (K C1) as [C0 Cl1]. split; [exact C0|]. eapply (IH (n + 1) d1); eauto; lia.
Qed.
Lemma start_sim rs s p w : begins rs s p w -> sim rs 0 (start s p) (set_active true new_um) w.
Proof. intros (B1 & B2 & B3 & B4). now apply sim_start. Qed.
Lemma calls_app h1 h2 : calls (h1 ++ h2) = calls h1 ++ calls h2.
Proof. induction h1 as [|[x|b|b|b|b] h1 IH]; cbn; [reflexivity|now rewrite IH|exact IH|exact IH|exact IH|exact IH]. Qed.

(** * C127 *)
(** a document whose manager is never switched off goes through the history of snapshots of S_Undo, whatever is done with its flags *)
Theorem C127_same_history : forall rcells s p w h,
  begins rcells s p w -> managed h -> all_allowed rcells (calls h) (start s p) -> zlen h < 2 ^ 32 ->
  exists r d m w', dexec_all h new_document w = Val (r, d, w') /\ mgr d = Some m /\
    let e := snd (do_all (calls h) (start s p)) in cells w' = vals (cur e) /\ undoN m = zlen (past e) /\ redoN m = zlen (future e) /\ open_ m = match base e with Some _ => true | None => false end.
Proof.
  intros rs s p w h HB HM HA HL. change (2 ^ 32) with 4294967296 in HL.
  destruct (dexec_all_ok rs h 0 (start s p) new_document w _ eq_refl (start_sim _ _ _ _ HB) ltac:(lia) ltac:(lia) HM HA) as (r & d & m & w' & E & Em & S).
  exists r, d, m, w'. split; [exact E|]. split; [exact Em|]. cbv zeta. destruct (s_n _ _ _ _ _ S) as (N1 & N2 & _). split; [apply (s_w _ _ _ _ _ S)|].
  split; [rewrite N1; eapply ustack_len; apply (s_past _ _ _ _ _ S)|]. split; [rewrite N2; eapply rstack_len; apply (s_fut _ _ _ _ _ S)|].
  pose proof (s_base _ _ _ _ _ S) as B. destruct (base _); apply B.
Qed.
(** isDocumentChanged() is false, no step and no transaction is open: then the document is what it was when it was saved (setDocumentChanged(false)), whatever
    was edited, closed, undone, redone, committed and rolled back in between *)
Theorem C127_unchanged_is_saved : forall rcells s p w h1 h2 r1 d1 m1 w1 r2 d2 m2 w2,
  begins rcells s p w -> managed (h1 ++ DChanged false :: h2) -> not_saved h2 -> all_allowed rcells (calls (h1 ++ h2)) (start s p) -> zlen h1 + zlen h2 < 2 ^ 32 - 2 ->
  dexec_all h1 new_document w = Val (r1, d1, w1) -> mgr d1 = Some m1 -> level m1 = 0 ->
  dexec_all (DChanged false :: h2) d1 w1 = Val (r2, d2, w2) -> mgr d2 = Some m2 ->
  dchanged d2 = false -> open_ m2 = false -> level m2 = 0 -> cells w2 = cells w1.
Proof.
  intros rs s p w h1 h2 r1 d1 m1 w1 r2 d2 m2 w2 HB HM NS HA HL E1 Em1 L1 E2 Em2 C O L2. change (2 ^ 32) with 4294967296 in HL. pose proof (zlen_nonneg h1). pose proof (zlen_nonneg h2).
  assert (HM1 : managed h1) by (intros X; apply HM, in_or_app; now left). assert (HM2 : managed h2) by (intros X; apply HM, in_or_app; right; now right).
  rewrite calls_app, all_allowed_app in HA. destruct HA as [HA1 HA2].
  destruct (dexec_all_ok rs h1 0 (start s p) new_document w _ eq_refl (start_sim _ _ _ _ HB) ltac:(lia) ltac:(lia) HM1 HA1) as (r & d & m & w' & E & Em & S). rewrite E in E1. injection E1 as <- <- <-. assert (m1 = m) by congruence. subst m1. clear Em1.
  set (e1 := snd (do_all (calls h1) (start s p))) in *. cbn [dexec_all dexec bind] in E2. bnds E2. injection E2 as <- <- <-.
  assert (Cl : clean (cells w') e1). { unfold clean. intros _. pose proof (s_level _ _ _ _ _ S) as L. destruct (tx e1) as [[[k s0] b]|]; [lia|]. symmetry. apply (s_w _ _ _ _ _ S). }
  match goal with X : dexec_all h2 _ _ = Val _ |- _ => rename X into E2 end.
  destruct (clean_all rs (cells w') h2 (0 + zlen h1) e1 (D (mgr d) false (dregen d) (fopen d)) _ m _ _ _ Em S ltac:(lia) ltac:(lia) HM2 NS HA2 E2 C Cl) as [_ K].
  destruct (dexec_all_ok rs h2 (0 + zlen h1) e1 (D (mgr d) false (dregen d) (fopen d)) _ m Em S ltac:(lia) ltac:(lia) HM2 HA2) as (r3 & d3 & m3 & w3 & E3 & Em3 & S3). rewrite E3 in E2. injection E2 as <- <- <-. assert (m3 = m2) by congruence. subst m3.
  pose proof (s_w _ _ _ _ _ S3) as [W _]. rewrite W. unfold clean in K. pose proof (s_base _ _ _ _ _ S3) as B. pose proof (s_level _ _ _ _ _ S3) as Lv.
  destruct (base (snd (do_all (calls h2) e1))) as [b|]; [destruct B as [B _]; congruence|]. specialize (K eq_refl). destruct (tx (snd (do_all (calls h2) e1))) as [[[k s0] b]|]; [lia|exact K].
Qed.
(** an edit does not set the flag: as long as its step is open, isDocumentChanged() answers false after a save although the document was edited *)
Theorem C127_open_step_refuted : forall x d w r d' w', is_edit x = true -> dexec (DCall x) d w = Val (r, d', w') -> dchanged d' = dchanged d.
Proof.
  intros x d w r d' w' X H. cbn [dexec] in H. destruct (mgr d) as [m|].
  - bnds H. injection H as <- <- <-. cbn [dchanged]. change (dchanged d) with (changed (lend (dchanged d) m)). revert E. generalize (lend (dchanged d) m). intros m0 E.
    destruct x; try discriminate; cbn [exec] in E; bnds E; injection E as <- <- <-;
      match goal with
      | Y : set_member _ _ _ _ _ _ _ = Val _ |- _ => unfold set_member in Y; bnds Y; destruct (v =? _); [now injection Y as <- <- <-|]; destruct (negb _); [now injection Y as <- <- <-|]; bnds Y; reg; injection Y as <- <- <-; assumption
      | Y : set_ref _ _ _ _ _ = Val _ |- _ => unfold set_ref in Y; bnds Y; reg; injection Y as <- <-; assumption
      | Y : undoable_retain _ _ _ = Val _ |- _ => unfold undoable_retain in Y; bnds Y; reg; injection Y as <- <-; assumption
      | Y : undoable_release _ _ _ = Val _ |- _ => unfold undoable_release in Y; bnds Y; reg; injection Y as <- <-; assumption
      | Y : mark _ _ _ = Val _ |- _ => unfold mark in Y; bnds Y; reg; assumption
      end.
  - bnds H. now injection H as <- <- <-.
Qed.
(** switching the manager off gives all references of the history back, keeps the memory, and tells that an open step changed the document *)
Theorem C127_switch_off : forall rcells s p w h r d m w',
  begins rcells s p w -> managed h -> all_allowed rcells (calls h) (start s p) -> zlen h < 2 ^ 32 - 2 ->
  dexec_all h new_document w = Val (r, d, w') -> mgr d = Some m -> level m = 0 ->
  exists w1, dexec (DManager false) d w' = Val (RUnit, D None (open_ m || dchanged d) (dregen d) (fopen d), w1) /\ delete_document d w' = Val (false, w1) /\ cells w1 = cells w' /\
    let e := snd (do_all (calls h) (start s p)) in forall o, rc w1 o = plain e o + refs (cur e) o.
Proof.
  intros rs s p w h r d m w' HB HM HA HL HX Em Lv. change (2 ^ 32) with 4294967296 in HL. pose proof (zlen_nonneg h).
  destruct (dexec_all_ok rs h 0 (start s p) new_document w _ eq_refl (start_sim _ _ _ _ HB) ltac:(lia) ltac:(lia) HM HA) as (r0 & d0 & m0 & w0 & E & Em0 & S). rewrite E in HX. injection HX as -> -> ->. assert (m0 = m) by congruence. subst m0.
  set (e := snd (do_all (calls h) (start s p))) in *. pose proof (sim_lend _ _ _ _ _ (dchanged d) S) as S0.
  destruct (clear_op_ok _ _ _ _ _ S0 ltac:(lia)) as (m1 & w1 & E1 & S1). cbn [exec] in E1. destruct (clear_stacks (lend (dchanged d) m) w') as [[m1' w1']| | |] eqn:EC; cbn [bind] in E1; try discriminate. injection E1 as -> ->. cbn [do_op snd] in S1.
  destruct (sim_obs _ _ _ _ _ S1) as (N1 & N2 & M1 & M2 & C1 & O1 & P1 & L1). cbn [cur past future tx base] in *. destruct (sim_obs _ _ _ _ _ S) as (_ & _ & _ & _ & C0 & O0 & _).
  assert (Cu : current m1 = []) by now apply (s_base _ _ _ _ _ S1).
  exists w1. unfold delete_document. cbn [dexec]. rewrite Em. unfold delete_um. rewrite EC. cbn [bind]. rewrite Cu. unfold delete_step. cbn [rev delete_all bind].
  assert (Ch : changed m1 = open_ m || dchanged d).
  { rewrite (clear_changed _ _ _ _ EC), close_changed. change (current (lend (dchanged d) m)) with (current m). pose proof (s_base _ _ _ _ _ S) as B. destruct (base e) as [b|] eqn:Eb.
    - destruct B as (-> & B & _). destruct (Z.eqb_spec (u32 (zlen (current m))) 0) as [Q|Q]; [|reflexivity]. pose proof (base_current _ _ _ _ _ S ltac:(lia) Q). congruence.
    - destruct B as (-> & Cn). rewrite Cn. reflexivity. }
  rewrite Ch. split; [reflexivity|]. split; [reflexivity|]. split; [congruence|]. cbv zeta. intros o. destruct (s_w _ _ _ _ _ S1) as [_ R]. rewrite R. cbn [plain cur].
  unfold held_um. rewrite Cu. rewrite M1 in N1. rewrite M2 in N2. change (zlen (@nil snap)) with 0 in *. symmetry in N1, N2. apply zlen_zero in N1, N2. rewrite N1, N2.
  assert (Ht : trans m1 = []). { pose proof (s_level _ _ _ _ _ S) as L0. pose proof (s_level _ _ _ _ _ S1) as L. cbn [tx] in L. destruct (tx e) as [[[k s0] b]|]; [lia|apply L]. }
  rewrite Ht. cbn [heldl heldss]. lia.
Qed.
(** with a transaction open this is false: the changes registered in it are never deleted and keep their objects alive for ever *)
Theorem C127_open_transaction_leaks_refuted : forall rcells s p w h r d m w' c,
  begins rcells s p w -> managed h -> all_allowed rcells (calls h) (start s p) -> zlen h < 2 ^ 32 - 2 ->
  dexec_all h new_document w = Val (r, d, w') -> mgr d = Some m -> In c (trans m) ->
  exists w1, delete_document d w' = Val (false, w1) /\ let e := snd (do_all (calls h) (start s p)) in rc w1 (c_obj c) >= plain e (c_obj c) + refs (cur e) (c_obj c) + 1.
Proof.
  intros rs s p w h r d m w' c HB HM HA HL HX Em Hc. change (2 ^ 32) with 4294967296 in HL. pose proof (zlen_nonneg h).
  destruct (dexec_all_ok rs h 0 (start s p) new_document w _ eq_refl (start_sim _ _ _ _ HB) ltac:(lia) ltac:(lia) HM HA) as (r0 & d0 & m0 & w0 & E & Em0 & S). rewrite E in HX. injection HX as -> -> ->. assert (m0 = m) by congruence. subst m0.
  set (e := snd (do_all (calls h) (start s p))) in *. pose proof (sim_lend _ _ _ _ _ (dchanged d) S) as S0.
  destruct (clear_op_ok _ _ _ _ _ S0 ltac:(lia)) as (m1 & w1 & E1 & S1). cbn [exec] in E1. destruct (clear_stacks (lend (dchanged d) m) w') as [[m1' w1']| | |] eqn:EC; cbn [bind] in E1; try discriminate. injection E1 as -> ->. cbn [do_op snd] in S1.
  assert (Cu : current m1 = []) by now apply (s_base _ _ _ _ _ S1).
  assert (Tr : trans m1 = trans m).
  { revert EC. unfold clear_stacks, clear_undo, clear_redo. intros EC. bnds EC. injection EC as <- <-. cbn [trans]. bnds E0. injection E0 as <- <-. cbn [trans]. unfold close. now destruct (_ =? 0). }
  exists w1. unfold delete_document. rewrite Em. unfold delete_um. rewrite EC. cbn [bind]. rewrite Cu. unfold delete_step. cbn [rev delete_all bind]. split; [reflexivity|]. cbv zeta.
  destruct (s_w _ _ _ _ _ S1) as [_ R]. rewrite R. cbn [plain cur]. unfold held_um. rewrite Cu, Tr.
  pose proof (heldss_nn (undoS m1) (c_obj c)). pose proof (heldss_nn (redoS m1) (c_obj c)).
  assert (K : heldl (trans m) (c_obj c) >= 1).
  { clear -Hc. revert Hc. generalize (trans m) as l. intros l Hc. induction l as [|x l IH]; [destruct Hc|]. cbn [heldl]. pose proof (heldl_nn l (c_obj c)). pose proof (held_nn x (c_obj c)). destruct Hc as [->|Hc]; [|specialize (IH Hc); lia].
    pose proof (P_Undo.held_mention c (c_obj c) (or_introl eq_refl)). lia. }
  cbn [heldl]. lia.
Qed.

(** ** the life of the manager *)
Record linv (s : life) (own : nat -> nat) (at_ : option nat) : Prop := LInv {
  l_own : owner s = Some at_;
  l_at : forall i, at_ = Some i -> (i < length (mans s))%nat;
  l_new : forall i, (length (mans s) <= i)%nat -> own i = 0%nat;
  l_man : forall i, match nth_error (mans s) i with
                    | Some (Man r c) => r = Z.of_nat (own i) + (match at_ with Some j => if Nat.eqb i j then 1 else 0 | None => 0 end) /\ 1 <= r
                    | Some Gone => own i = 0%nat /\ at_ <> Some i
                    | None => True
                    end }.
Lemma mput_nth l i v j : nth_error (mput l i v) j = if Nat.eqb j i then (match nth_error l i with Some _ => Some v | None => None end) else nth_error l j.
Proof.
  revert i j. induction l as [|x l IH]; intros [|i] [|j]; cbn; auto. now destruct (Nat.eqb j i).
Qed.
Lemma mput_len l i v : length (mput l i v) = length l.
Proof. revert i. induction l as [|x l IH]; intros [|i]; cbn; auto. Qed.
Lemma lclose_alive c : lclose false c = Val tt. Proof. unfold lclose. now destruct (c =? 0). Qed.
Lemma has_man s own at_ i : linv s own at_ -> (own i > 0 \/ at_ = Some i)%nat -> exists r c, nth_error (mans s) i = Some (Man r c) /\ (i < length (mans s))%nat.
Proof.
  intros I H. pose proof (l_man _ _ _ I i) as M. assert (L : (i < length (mans s))%nat).
  { destruct H as [H|H]; [|now apply (l_at _ _ _ I)]. destruct (Nat.lt_ge_cases i (length (mans s))) as [B|B]; [exact B|]. rewrite (l_new _ _ _ I i B) in H. lia. }
  destruct (nth_error (mans s) i) as [[r c|]|] eqn:E; [eauto| |apply nth_error_None in E; lia]. destruct M as [M1 M2]. destruct H as [H|H]; [lia|contradiction].
Qed.
(** a polite client never touches a deleted document or manager, and with the document no manager is left *)
Theorem C127_manager_lifetime : forall l, polite l (fun _ => 0%nat) (Some 0%nat) 1 ->
  exists s, lexec_all l newborn = Val s /\ (In LDelete l -> owner s = None /\ forall i m, nth_error (mans s) i = Some m -> m = Gone).
Proof.
  assert (K : forall l s own at_, linv s own at_ -> polite l own at_ (length (mans s)) ->
    exists s', lexec_all l s = Val s' /\ (In LDelete l -> owner s' = None /\ forall i m, nth_error (mans s') i = Some m -> m = Gone)).
  { induction l as [|o l IH]; intros s own at_ I P; cbn [lexec_all]; [exists s; split; [reflexivity|intros []]|].
    assert (Go : forall s1 own1 at1, lexec o s = Val s1 -> linv s1 own1 at1 -> polite l own1 at1 (length (mans s1)) -> o <> LDelete ->
       exists s', (let* s := lexec o s in lexec_all l s) = Val s' /\ (In LDelete (o :: l) -> owner s' = None /\ forall i m, nth_error (mans s') i = Some m -> m = Gone)).
    { intros s1 own1 at1 E I1 P1 N. rewrite E. cbn [bind]. destruct (IH s1 own1 at1 I1 P1) as (s' & E' & D). exists s'. split; [exact E'|]. intros [C|C]; [congruence|auto]. }
    pose proof (l_own _ _ _ I) as O. assert (ND : is_dead s = false) by (unfold is_dead; now rewrite O).
    (* releasing a reference of manager i, where afterwards the client owns own1 and the document at1 *)
    assert (Rel : forall i own1 at1, (i < length (mans s))%nat -> (forall j, j <> i -> own1 j = own j /\ (at1 = Some j <-> at_ = Some j)) -> (at1 = Some i -> at_ = Some i) ->
       (Z.of_nat (own1 i) + (if match at1 with Some j => Nat.eqb i j | None => false end then 1 else 0) + 1 = Z.of_nat (own i) + (if match at_ with Some j => Nat.eqb i j | None => false end then 1 else 0)) ->
       exists s1, lrelease i s = Val s1 /\ owner s1 = Some at_ /\ linv (Life (Some at1) (mans s1)) own1 at1 /\ length (mans s1) = length (mans s)).
    { intros i own1 at1 L Ne Ai B. destruct (has_man s own at_ i I) as (r & c & E & _).
      { destruct at_ as [j|]; [destruct (Nat.eqb_spec i j) as [<-|]|]; [now right| |]; destruct (match at1 with Some j => Nat.eqb i j | None => false end); left; lia. }
      unfold lrelease. rewrite E, ND, lclose_alive. cbn [bind]. pose proof (l_man _ _ _ I i) as M. rewrite E in M. destruct M as [M1 M2].
      assert (V : r - 1 = Z.of_nat (own1 i) + (match at1 with Some j => if Nat.eqb i j then 1 else 0 | None => 0 end)) by (rewrite M1; destruct at_ as [a|], at1 as [b|]; repeat match goal with |- context [Nat.eqb ?x ?y] => destruct (Nat.eqb x y) end; lia).
      destruct (Z.eqb_spec (r - 1) 0) as [Q|Q]; (eexists; split; [reflexivity|]; cbn [owner mans]; split; [exact O|]; rewrite mput_len; split; [|reflexivity]).
      - constructor; cbn [owner mans]; try rewrite mput_len.
        + reflexivity.
        + intros j Hj. destruct (Nat.eq_dec j i) as [->|Nj]; [exact L|]. apply (l_at _ _ _ I), (Ne j Nj), Hj.
        + intros j Hj. destruct (Nat.eq_dec j i) as [->|Nj]; [lia|]. rewrite (proj1 (Ne j Nj)). now apply (l_new _ _ _ I).
        + intros j. rewrite mput_nth. destruct (Nat.eqb_spec j i) as [->|Nj].
          * rewrite E. assert (A : at1 <> Some i) by (intros ->; rewrite Nat.eqb_refl in V; lia). split; [|exact A]. destruct at1 as [b|]; [destruct (Nat.eqb i b)|]; lia.
          * pose proof (l_man _ _ _ I j) as Mj. destruct (Ne j Nj) as [W1 W2]. rewrite W1. destruct (nth_error (mans s) j) as [[rj cj|]|]; [|rewrite W2; exact Mj|exact Logic.I].
            destruct Mj as [-> Mj]. split; [|exact Mj]. f_equal. assert (W3 := proj2 W2). assert (W4 := proj1 W2). destruct at_ as [a|], at1 as [b|]; repeat match goal with |- context [Nat.eqb ?x ?y] => destruct (Nat.eqb_spec x y); subst end; try reflexivity; exfalso; first [now specialize (W3 eq_refl)|now specialize (W4 eq_refl)|specialize (W3 eq_refl); congruence|specialize (W4 eq_refl); congruence].
      - constructor; cbn [owner mans]; try rewrite mput_len.
        + reflexivity.
        + intros j Hj. destruct (Nat.eq_dec j i) as [->|Nj]; [exact L|]. apply (l_at _ _ _ I), (Ne j Nj), Hj.
        + intros j Hj. destruct (Nat.eq_dec j i) as [->|Nj]; [lia|]. rewrite (proj1 (Ne j Nj)). now apply (l_new _ _ _ I).
        + intros j. rewrite mput_nth. destruct (Nat.eqb_spec j i) as [->|Nj].
          * rewrite E. split; [exact V|lia].
          * pose proof (l_man _ _ _ I j) as Mj. destruct (Ne j Nj) as [W1 W2]. rewrite W1. destruct (nth_error (mans s) j) as [[rj cj|]|]; [|rewrite W2; exact Mj|exact Logic.I].
            destruct Mj as [-> Mj]. split; [|exact Mj]. f_equal. assert (W3 := proj2 W2). assert (W4 := proj1 W2). destruct at_ as [a|], at1 as [b|]; repeat match goal with |- context [Nat.eqb ?x ?y] => destruct (Nat.eqb_spec x y); subst end; try reflexivity; exfalso; first [now specialize (W3 eq_refl)|now specialize (W4 eq_refl)|specialize (W3 eq_refl); congruence|specialize (W4 eq_refl); congruence]. }
    destruct o as [| |i|i|i|i|]; cbn [polite] in P.
    - destruct at_ as [a|].
      + eapply (Go s own (Some a)); [cbn; now rewrite O|exact I|exact P|discriminate].
      + eapply (Go (Life (Some (Some (length (mans s)))) (mans s ++ [Man 1 0])) own (Some (length (mans s)))); [cbn; now rewrite O| |cbn [mans]; rewrite app_length, Nat.add_1_r; exact P|discriminate].
        constructor; cbn [owner mans]; [reflexivity| | |].
        * intros i [= <-]. rewrite app_length. cbn. lia.
        * intros i Hi. apply (l_new _ _ _ I). rewrite app_length in Hi. cbn in Hi. lia.
        * intros i. destruct (Nat.lt_ge_cases i (length (mans s))) as [B|B].
          -- rewrite nth_error_app1 by exact B. pose proof (l_man _ _ _ I i) as M. destruct (nth_error (mans s) i) as [[r c|]|]; [|split; [apply M|intros [= Q]; lia]|exact Logic.I]. destruct (Nat.eqb_spec i (length (mans s))); [lia|exact M].
          -- rewrite nth_error_app2 by exact B. destruct (i - length (mans s))%nat as [|k] eqn:K; cbn; [|now destruct k]. assert (i = length (mans s)) by lia. subst i. rewrite Nat.eqb_refl, (l_new _ _ _ I) by lia. lia.
    - destruct at_ as [a|].
      + destruct (Rel a own None) as (s1 & E1 & O1 & I1 & L1).
        { now apply (l_at _ _ _ I). } { intros j Nj. split; [reflexivity|]. split; [discriminate|congruence]. } { discriminate. } { rewrite Nat.eqb_refl. lia. }
        eapply (Go _ own None); [cbn; rewrite O, E1; reflexivity|exact I1|cbn [mans]; rewrite L1; exact P|discriminate].
      + eapply (Go s own None); [cbn; now rewrite O|exact I|exact P|discriminate].
    - destruct P as [H P]. destruct (has_man _ _ _ _ I H) as (r & c & E & L). eapply (Go _ _ at_); [cbn; rewrite E; reflexivity| |cbn [mans]; rewrite mput_len; exact P|discriminate].
      constructor; cbn [owner mans]; try rewrite mput_len; [exact O|apply (l_at _ _ _ I)| |].
      * intros j Hj. destruct (Nat.eqb_spec j i) as [->|]; [lia|now apply (l_new _ _ _ I)].
      * intros j. rewrite mput_nth. pose proof (l_man _ _ _ I j) as M. destruct (Nat.eqb_spec j i) as [->|Nj]; [|exact M]. rewrite E in *. destruct M as [M1 M2]. destruct at_ as [a|]; [destruct (Nat.eqb i a)|]; lia.
    - destruct P as [H P]. destruct (has_man _ _ _ _ I (or_introl H)) as (r & c & E & L). destruct (Rel i (fun j => if Nat.eqb j i then pred (own j) else own j) at_) as (s1 & E1 & O1 & I1 & L1).
      { exact L. } { intros j Nj. destruct (Nat.eqb_spec j i); [congruence|]. tauto. } { auto. } { rewrite Nat.eqb_refl. destruct (match at_ with Some j => Nat.eqb i j | None => false end); lia. }
      eapply (Go s1 _ at_); [exact E1| |rewrite L1; exact P|discriminate]. destruct s1 as [o1 m1]. cbn in O1. subst o1. exact I1.
    - destruct P as [H P]. destruct (has_man _ _ _ _ I H) as (r & c & E & L). eapply (Go _ own at_); [cbn; rewrite E; reflexivity| |cbn [mans]; rewrite mput_len; exact P|discriminate].
      constructor; cbn [owner mans]; try rewrite mput_len; [exact O|apply (l_at _ _ _ I)|apply (l_new _ _ _ I)|].
      intros j. rewrite mput_nth. pose proof (l_man _ _ _ I j) as M. destruct (Nat.eqb_spec j i) as [->|Nj]; [|exact M]. rewrite E in *. exact M.
    - destruct P as [H P]. destruct (has_man _ _ _ _ I H) as (r & c & E & L). eapply (Go _ own at_); [cbn; rewrite E, ND, lclose_alive; reflexivity| |cbn [mans]; rewrite mput_len; exact P|discriminate].
      constructor; cbn [owner mans]; try rewrite mput_len; [exact O|apply (l_at _ _ _ I)|apply (l_new _ _ _ I)|].
      intros j. rewrite mput_nth. pose proof (l_man _ _ _ I j) as M. destruct (Nat.eqb_spec j i) as [->|Nj]; [|exact M]. rewrite E in *. exact M.
    - destruct P as [H ->]. cbn [lexec]. rewrite O. destruct at_ as [a|].
      + destruct (has_man _ _ _ _ I (or_intror eq_refl)) as (r & c & E & L). rewrite E, lclose_alive. cbn [bind lexec_all]. eexists. split; [reflexivity|]. intros _. split; [reflexivity|]. cbn [mans]. intros i m Hi. rewrite mput_nth, E in Hi.
        destruct (Nat.eqb_spec i a) as [->|Ni]; [congruence|]. pose proof (l_man _ _ _ I i) as M. rewrite Hi in M. destruct m as [ri ci|]; [|reflexivity]. rewrite H in M. destruct (Nat.eqb_spec i a); [congruence|lia].
      + cbn [bind lexec_all]. eexists. split; [reflexivity|]. intros _. split; [reflexivity|]. cbn [mans]. intros i m Hi. pose proof (l_man _ _ _ I i) as M. rewrite Hi in M. destruct m as [ri ci|]; [|reflexivity]. rewrite H in M. lia. }
  intros l P. apply (K l newborn (fun _ => 0%nat) (Some 0%nat)); [|exact P]. constructor; cbn; [reflexivity|intros i [= <-]; lia|reflexivity|]. intros [|[|i]]; cbn; [lia|exact Logic.I|exact Logic.I].
Qed.
(** a reference does not keep the manager alive: the document deletes it, using or releasing it afterwards is undefined *)
Theorem C127_kept_manager_refuted : forall s s1 i, owner s = Some (Some i) -> lexec (LRetain i) s = Val s1 -> lexec_all [LDelete; LRelease i] s1 = UB /\ lexec_all [LDelete; LEdit i] s1 = UB.
Proof.
  intros s s1 i O H. cbn [lexec] in H. destruct (nth_error (mans s) i) as [[r c|]|] eqn:E; try discriminate. injection H as <-. cbn [lexec_all lexec owner mans]. rewrite O, mput_nth, Nat.eqb_refl, E, lclose_alive. cbn [bind].
  unfold lrelease. cbn [mans lexec]. rewrite !mput_nth, Nat.eqb_refl, E. split; reflexivity.
Qed.
(** a manager that was switched off and kept still writes to its document: closing its step, or releasing it with a step open, is undefined once the document is gone *)
Theorem C127_detached_manager_refuted : lexec_all [LRetain 0; LOff; LEdit 0; LDelete; LClose 0]%nat newborn = UB /\ lexec_all [LRetain 0; LEdit 0; LOff; LDelete; LRelease 0]%nat newborn = UB /\
  exists s, lexec_all [LRetain 0; LOff; LEdit 0; LClose 0; LDelete; LRelease 0]%nat newborn = Val s.
Proof. split; [reflexivity|]. split; [reflexivity|]. eexists. reflexivity. Qed.

(** ** Without a manager: the edits are made, answered as with a manager, and cannot be undone, also not when the manager is there again *)
Lemma direct_same cs e : lget cs (e_loc e) = Some (e_new e) -> direct cs e = cs.
Proof.
  intros H. unfold direct. pose proof (lget_some_range _ _ _ H) as R. destruct (lset_range cs (e_loc e) (e_new e) R) as [c E]. rewrite E. destruct (_ && _); [|reflexivity].
  apply lget_ext. intros j. rewrite (lset_get _ _ _ _ _ E). destruct (Z.eqb_spec j (e_loc e)) as [->|]; congruence.
Qed.
Theorem C127_unmanaged_edits : forall es d w, mgr d = None -> Forall (fun e => 0 <= e_loc e < zlen (cells w)) es ->
  exists w' d' w'', dexec_all (map edit_call es) d w = Val (told es (cells w), d, w') /\ cells w' = fold_left direct es (cells w) /\ rc w' = rc w /\
    dexec_all [DManager true; DCall OUndo; DCall ORedo] d w' = Val ([RUnit; RBool false; RBool false], d', w'') /\ cells w'' = cells w' /\ dchanged d' = dchanged d.
Proof.
  intros es d w Hm F. assert (K : exists w', dexec_all (map edit_call es) d w = Val (told es (cells w), d, w') /\ cells w' = fold_left direct es (cells w) /\ rc w' = rc w).
  { revert w F. induction es as [|e es IH]; intros w F; [exists w; auto|]. inversion F as [|? ? He Fe]; subst. cbn [map dexec_all fold_left told]. unfold edit_call at 1. cbn [dexec]. rewrite Hm. cbn [exec_unmanaged]. unfold read_cell, rd.
    destruct (lget_range (cells w) (e_loc e) He) as [y Ey]. rewrite Ey. cbn [bind]. rewrite (Z.eqb_sym y). destruct (Z.eqb_spec (e_new e) y) as [<-|N].
    - cbn [bind]. rewrite (direct_same _ _ Ey). destruct (IH w Fe) as (w' & -> & C & R). cbn [bind]. exists w'. auto.
    - destruct (lset_range (cells w) (e_loc e) (e_new e) He) as [c Ec]. assert (D : direct (cells w) e = if (e_min e <=? e_new e) && (e_new e <=? e_max e) then c else cells w) by (unfold direct; now rewrite Ec). rewrite D. destruct ((e_min e <=? e_new e) && (e_new e <=? e_max e)); cbn [negb bind].
      + unfold write_cell, wr. rewrite Ec. cbn [bind]. destruct (IH (World c (rc w) (regen w))) as (w' & E & C & R); [cbn [cells]; rewrite (lset_zlen _ _ _ _ Ec); exact Fe|]. cbn [cells rc] in *. rewrite E. cbn [bind]. exists w'. auto.
      + destruct (IH w Fe) as (w' & -> & C & R). cbn [bind]. exists w'. auto. }
  destruct K as (w' & E & C & R). exists w'. do 2 eexists. split; [exact E|]. split; [exact C|]. split; [exact R|]. cbn [dexec_all dexec]. rewrite Hm. cbn. split; [reflexivity|]. split; reflexivity.
Qed.
Print Assumptions C127_unmanaged_edits.
Example ex_unmanaged : forall rc rg, exists w' d' w'', dexec_all (map edit_call [Edit 7 0 5 0 9; Edit 7 1 50 0 9; Edit 7 0 5 0 9]) (D None false false false) (World [1; 2] rc rg) = Val ([RStatus eOK; RStatus eInvalidInput; RStatus eNotChanged], D None false false false, w') /\ cells w' = [5; 2] /\
  dexec_all [DManager true; DCall OUndo; DCall ORedo] (D None false false false) w' = Val ([RUnit; RBool false; RBool false], d', w'').
Proof.
  intros rc rg. destruct (C127_unmanaged_edits [Edit 7 0 5 0 9; Edit 7 1 50 0 9; Edit 7 0 5 0 9] (D None false false false) (World [1; 2] rc rg) eq_refl) as (w' & d' & w'' & E & C & _ & U & _); [repeat constructor; cbn; lia|].
  exists w', d', w''. split; [exact E|]. split; [exact C|exact U].
Qed.

(** ** cases that meet the hypotheses *)
Definition ex_h1 : list dop := [DCall (OSet 7 0 10 0 100); DCall OClose; DOpenFile true].
Definition ex_h2 : list dop := [DRegenerate true; DCall OBegin; DCall (OSet 7 1 99 0 100); DCall ORollback; DCall OUndo].
Example ex_document : managed (ex_h1 ++ DChanged false :: ex_h2) /\ not_saved ex_h2 /\ all_allowed [2] (calls (ex_h1 ++ ex_h2)) (start ex_s ex_p) /\
  match dexec_all (ex_h1 ++ DChanged false :: firstn 4 ex_h2) new_document ex_w with Val (_, d, w') => (dchanged d, cells w') = (false, [10; 2; 0]) | _ => False end /\
  match dexec_all (ex_h1 ++ DChanged false :: ex_h2) new_document ex_w with Val (_, d, w') => (dchanged d, cells w') = (true, [1; 2; 0]) | _ => False end.
Proof.
  split; [cbn; intros X; repeat destruct X as [X|X]; discriminate || contradiction|]. split; [cbn; intros X; repeat destruct X as [X|X]; discriminate || contradiction|].
  split; [cbn [calls app ex_h1 ex_h2]; unfold start, ex_s; repeat (P_Undo.ex_step; [P_Undo.ex_obl|]); exact Logic.I|]. split; vm_compute; reflexivity.
Qed.
Example ex_life : polite [LRetain 0; LOff; LEdit 0; LOn; LClose 0; LRelease 0; LEdit 1; LDelete]%nat (fun _ => 0%nat) (Some 0%nat) 1.
Proof. cbn. repeat split; auto; try lia. intros [|i]; reflexivity. Qed.
Print Assumptions C127_same_history.
Print Assumptions C127_unchanged_is_saved.
Print Assumptions C127_open_step_refuted.
Print Assumptions C127_switch_off.
Print Assumptions C127_open_transaction_leaks_refuted.
Print Assumptions C127_manager_lifetime.
Print Assumptions C127_kept_manager_refuted.
Print Assumptions C127_detached_manager_refuted.
