From Verif Require Import Base M_Undo S_Undo L_Undo L_Undo2.

Ltac unf := cbn [active open_ current undoS redoS undoN redoN level trans tstatus changed tx base cur past future tstat plain];
  unfold bottom, anchor; cbn [tx base cur past future tstat plain].

Lemma sim_status rs n d m w s : sim rs n d m w -> s <> eNotChanged ->
  sim rs n (Doc (past d) (cur d) (future d) (base d) (tx d) s (plain d))
    (UM (active m) (open_ m) (current m) (undoS m) (redoS m) (undoN m) (redoN m) (level m) (trans m) s (changed m)) w.
Proof.
  intros S Hs. destruct S as [Sa Sw Sp Sl [St1 St2] Sb Spa Sf Swf Sn]. unfold bottom, anchor in *. constructor; unf; auto.
Qed.
Lemma sim_plain rs n d m w w' p : sim rs n d m w -> nn p -> winv w' (cur d) p (held_um m) ->
  sim rs n (Doc (past d) (cur d) (future d) (base d) (tx d) (tstat d) p) m w'.
Proof.
  intros S Hp Hw. destruct S as [Sa Sw Sp Sl [St1 St2] Sb Spa Sf Swf Sn]. unfold bottom, anchor in *. constructor; unf; auto.
Qed.
Lemma write_ok w s l v p H : winv w s p H -> lset (vals s) l v = Some (vals (set_val s l v)) ->
  exists w', write_cell l v w = Val w' /\ winv w' (set_val s l v) p H /\ regen w' = regen w.
Proof.
  intros [E R] HS. unfold write_cell, wr. rewrite E, HS. cbn [bind]. eexists. split; [reflexivity|]. split; [|reflexivity].
  split; [reflexivity|]. exact R.
Qed.

Lemma set_member_ok rs n d m w o l v lo hi : sim rs n d m w -> 0 <= n -> allowed rs (OSet o l v lo hi) d ->
  exists m' w', exec (OSet o l v lo hi) m w = Val (fst (do_op (OSet o l v lo hi) d), m', w') /\
                sim rs (n + 1) (snd (do_op (OSet o l v lo hi) d)) m' w'.
Proof.
  intros S Hn (Ho & Hl & Hrs). destruct (lget_range (vals (cur d)) l Hl) as [x Hx].
  cbn [exec do_op]. unfold set_member, read_cell. destruct (s_w _ _ _ _ _ S) as [EC _]. rewrite EC, Hx. unfold rd. rewrite Hx. cbn [bind].
  rewrite (Z.eqb_sym x v). destruct (v =? x); cbn [bind].
  { eexists _, _. split; [reflexivity|]. cbn [snd]. eapply sim_weaken; [|exact S]. lia. }
  destruct ((lo <=? v) && (v <=? hi)); cbn [negb bind fst snd].
  2:{ eexists _, _. split; [reflexivity|]. eapply sim_weaken; [|apply sim_status; [exact S|discriminate]]. lia. }
  destruct (close_edit_val rs d m w n o l v S Ho Hl Hrs) as (c & w1 & -> & W1 & G1 & U1 & F1 & L1). cbn [bind].
  destruct (register_edit rs n d m w c (set_val (cur d) l v) w1 S U1 F1 W1 Hn) as (m' & w2 & -> & W2 & G2 & K). cbn [bind].
  destruct (write_ok w2 (cur d) l v (plain d) (held_um m') W2 L1) as (w3 & -> & W3 & G3). cbn [bind].
  eexists _, _. split; [reflexivity|]. now apply K.
Qed.
Lemma set_ref_ok rs n d m w o l p : sim rs n d m w -> 0 <= n -> allowed rs (OSetRef o l p) d ->
  exists m' w', exec (OSetRef o l p) m w = Val (RUnit, m', w') /\ sim rs (n + 1) (edit (set_val (cur d) l p) d) m' w'.
Proof.
  intros S Hn (Ho & Hl & Hrs & Hp). cbn [exec]. unfold set_ref.
  destruct (edit_ref rs d m w n o l p S Ho Hl Hrs Hp) as (c & w1 & -> & W1 & G1 & U1 & F1 & L1). cbn [bind].
  destruct (register_edit rs n d m w c (set_val (cur d) l p) w1 S U1 F1 W1 Hn) as (m' & w2 & -> & W2 & G2 & K). cbn [bind].
  destruct (write_ok w2 (cur d) l p (plain d) (held_um m') W2 L1) as (w3 & -> & W3 & G3). cbn [bind].
  eexists _, _. split; [reflexivity|]. now apply K.
Qed.
Lemma retained rs n d m w o k : sim rs n d m w -> 1 <= plain d o + refs (cur d) o ->
  (match k with KVal _ _ | KRef _ _ _ _ _ => False | _ => True end) ->
  exists w1, retain o w = Val w1 /\ winv w1 (cur d) (plain d) (fun q => held_um m q + held (Change o k) q) /\ regen w1 = regen w.
Proof.
  intros S Ho Hk. destruct (s_wf _ _ _ _ _ S) as (Wc & _ & _).
  destruct (rc_retained w (cur d) (plain d) (held_um m) o) as (w1 & E1 & C1 & G1 & R1);
    [exact (s_w _ _ _ _ _ S)|exact (s_plain _ _ _ _ _ S)|apply held_um_nn|exact (proj2 Wc)|exact Ho|].
  exists w1. split; [exact E1|]. split; [|exact G1]. destruct (s_w _ _ _ _ _ S) as [EC _]. split; [congruence|].
  intros q. rewrite R1. unfold held. cbn [c_obj c_kind]. destruct k; try contradiction; lia.
Qed.
Lemma retain_op_ok rs n d m w o : sim rs n d m w -> 0 <= n -> owned d o ->
  exists m' w', exec (ORetain o) m w = Val (RUnit, m', w') /\ sim rs (n + 1) (edit (add_ref (cur d) o 1) d) m' w'.
Proof.
  intros S Hn Ho. cbn [exec]. unfold undoable_retain, new_rel. destruct (s_wf _ _ _ _ _ S) as (Wc & _ & _).
  destruct (retained rs n d m w o (KRel false) S (proj2 Ho) I) as (w1 & -> & W1 & G1). cbn [bind].
  destruct (register_edit rs n d m w (Change o (KRel false)) (add_ref (cur d) o 1) w1 S) as (m' & w2 & -> & W2 & G2 & K); auto.
  { split; [exact (proj2 Wc)|]. split.
    - intros q. cbn [add_ref refs]. pose proof (proj2 Wc q). pose proof (proj2 Wc o). destruct (q =? o); lia.
    - cbn [c_kind c_obj vals add_ref refs]. split; [reflexivity|]. intros q. destruct (Z.eqb_spec q o) as [Hq|Hq]; [subst q|]; lia. }
  { split; cbn [add_ref vals refs].
    - intros l v Hl Hv. destruct (proj1 Wc l v Hl Hv) as [?|Hr]; [now left|right]. destruct (Z.eqb_spec v o) as [Hq|Hq]; [subst v|]; lia.
    - intros q. pose proof (proj2 Wc q). pose proof (proj2 Wc o). destruct (q =? o); lia. }
  cbn [bind]. destruct W2 as [E2 R2]. rewrite retain_ok.
  2:{ rewrite R2. pose proof (held_um_nn m' o). destruct Ho. lia. }
  cbn [bind]. eexists _, _. split; [reflexivity|]. apply K. split; [exact E2|]. intros q. cbn [rc add_ref refs]. rewrite fupd_eq.
  destruct (Z.eqb_spec q o) as [Hq|Hq]; [subst q|]; rewrite R2; lia.
Qed.
Lemma release_op_ok rs n d m w o : sim rs n d m w -> 0 <= n -> allowed rs (ORelease o) d ->
  exists m' w', exec (ORelease o) m w = Val (RUnit, m', w') /\ sim rs (n + 1) (edit (add_ref (cur d) o (-1)) d) m' w'.
Proof.
  intros S Hn (Ho & Hr & Hx). cbn [exec]. unfold undoable_release, new_rel. destruct (s_wf _ _ _ _ _ S) as (Wc & _ & _).
  pose proof (s_plain _ _ _ _ _ S o) as Hpl.
  destruct (retained rs n d m w o (KRel true) S ltac:(lia) I) as (w1 & -> & W1 & G1). cbn [bind].
  destruct (register_edit rs n d m w (Change o (KRel true)) (add_ref (cur d) o (-1)) w1 S) as (m' & w2 & -> & W2 & G2 & K); auto.
  { split; [exact (proj2 Wc)|]. split.
    - intros q. cbn [add_ref refs]. pose proof (proj2 Wc q). pose proof (proj2 Wc o). destruct (q =? o); lia.
    - cbn [c_kind c_obj vals add_ref refs]. split; [reflexivity|]. intros q. destruct (Z.eqb_spec q o) as [Hq|Hq]; [subst q|]; lia. }
  { split; cbn [add_ref vals refs].
    - intros l v Hl Hv. destruct (proj1 Wc l v Hl Hv) as [?|Hr']; [now left|]. destruct (Z.eqb_spec v o) as [Hq|Hq]; [subst v|]; [|now right].
      right. destruct Hx as [Hx|Hx]; [lia|]. now specialize (Hx l Hl).
    - intros q. pose proof (proj2 Wc q). pose proof (proj2 Wc o). destruct (q =? o); lia. }
  cbn [bind]. destruct W2 as [E2 R2]. rewrite release_ok.
  2:{ rewrite R2. pose proof (held_um_nn m' o). lia. }
  cbn [bind]. eexists _, _. split; [reflexivity|]. apply K. split; [exact E2|]. intros q. cbn [rc add_ref refs]. rewrite fupd_eq.
  destruct (Z.eqb_spec q o) as [Hq|Hq]; [subst q|]; rewrite R2; lia.
Qed.
Lemma mark_op_ok rs n d m w o : sim rs n d m w -> 0 <= n -> owned d o ->
  exists m' w', exec (OMark o) m w = Val (RUnit, m', w') /\ sim rs (n + 1) (edit (cur d) d) m' w'.
Proof.
  intros S Hn Ho. cbn [exec]. unfold mark, new_mark. destruct (s_wf _ _ _ _ _ S) as (Wc & _ & _).
  destruct (retained rs n d m w o KMark S (proj2 Ho) I) as (w1 & -> & W1 & G1). cbn [bind].
  destruct (register_edit rs n d m w (Change o KMark) (cur d) w1 S) as (m' & w2 & -> & W2 & G2 & K); auto.
  { split; [exact (proj2 Wc)|]. split; [exact (proj2 Wc)|]. cbn [c_kind]. split; [reflexivity|intros q; reflexivity]. }
  cbn [bind]. eexists _, _. split; [reflexivity|]. now apply K.
Qed.
Lemma keep_ok rs n d m w o : sim rs n d m w -> owned d o ->
  exists w', exec (OKeep o) m w = Val (RUnit, m, w') /\ sim rs n (snd (do_op (OKeep o) d)) m w'.
Proof.
  intros S Ho. cbn [exec do_op snd]. pose proof (s_plain _ _ _ _ _ S) as Hpl. rewrite retain_ok by (eapply owned_rc; eauto). cbn [bind].
  eexists. split; [reflexivity|]. destruct (s_w _ _ _ _ _ S) as [E R]. eapply sim_plain; eauto.
  - intros q. pose proof (Hpl q). pose proof (Hpl o). destruct (q =? o); lia.
  - split; [exact E|]. intros q. cbn [rc]. rewrite fupd_eq. destruct (Z.eqb_spec q o) as [Hq|Hq]; [subst q|]; rewrite R; lia.
Qed.
Lemma drop_ok rs n d m w o : sim rs n d m w -> allowed rs (ODrop o) d ->
  exists w', exec (ODrop o) m w = Val (RUnit, m, w') /\ sim rs n (snd (do_op (ODrop o) d)) m w'.
Proof.
  intros S Ho. cbn [exec do_op snd]. cbn [allowed] in Ho. pose proof (s_plain _ _ _ _ _ S) as Hpl. destruct (s_w _ _ _ _ _ S) as [E R].
  destruct (s_wf _ _ _ _ _ S) as (Wc & _ & _).
  rewrite release_ok. 2:{ rewrite R. pose proof (held_um_nn m o). pose proof (proj2 Wc o). lia. } cbn [bind].
  eexists. split; [reflexivity|]. eapply sim_plain; eauto.
  - intros q. pose proof (Hpl q). pose proof (Hpl o). destruct (q =? o); lia.
  - split; [exact E|]. intros q. cbn [rc]. rewrite fupd_eq. destruct (Z.eqb_spec q o) as [Hq|Hq]; [subst q|]; rewrite R; lia.
Qed.
Lemma undo_op_ok rs n d m w : sim rs n d m w -> n < 4294967295 -> tx d = None ->
  exists m' w', exec OUndo m w = Val (fst (do_op OUndo d), m', w') /\ sim rs n (snd (do_op OUndo d)) m' w'.
Proof.
  intros S Hn Htx. pose proof S as S'. destruct S as [Sa Sw Sp Sl [St1 St2] Sb Spa Sf (Wc & Wp & Wf) (N1 & N2 & N3)].
  unfold bottom, anchor in *. rewrite Htx in *. cbn [exec do_op]. unfold undo.
  destruct (base d) as [b|] eqn:Eb.
  { destruct Sb as (-> & _). cbn [bind]. eauto. }
  destruct Sb as (-> & Ec). destruct (undoS m) as [|s ss] eqn:Eu, (past d) as [|p ps] eqn:Ep; try contradiction.
  { cbn [bind fst snd]. eauto. }
  destruct Spa as [P1 P2]. cbn [fst snd].
  destruct (undo_list s p (cur d) w (plain d) (fun o => heldl (current m) o + heldl (trans m) o + heldss ss o + heldss (redoS m) o) P1 Sp) as (r & w1 & -> & R1 & L1 & W1 & G1).
  { intros o. pose proof (heldl_nn (current m) o). pose proof (heldl_nn (trans m) o). pose proof (heldss_nn ss o). pose proof (heldss_nn (redoS m) o). lia. }
  { destruct Sw as [E R]. split; [exact E|]. intros o. rewrite R. unfold held_um. rewrite Eu. cbn [heldss]. lia. }
  cbn [bind]. eexists _, _. split; [reflexivity|].
  pose proof (zlen_nonneg (current m)). pose proof (zlen_nonneg (trans m)). pose proof (zlen_nonneg ss). pose proof (zlen_nonneg (redoS m)).
  rewrite zlen_cons in *. inversion Wp; subst.
  constructor; unf; rewrite ?Htx; auto.
  + destruct W1 as [E R]. split; [exact E|]. intros o. rewrite R. unfold held_um. cbn [current trans undoS redoS heldss]. rewrite heldl_rev. lia.
  + cbn [rstack]. split; [exact R1|exact Sf].
  + rewrite zlen_cons. rewrite !u32_id by lia. sp; lia.
Qed.
Lemma redo_op_ok rs n d m w : sim rs n d m w -> n < 4294967295 -> tx d = None ->
  exists m' w', exec ORedo m w = Val (fst (do_op ORedo d), m', w') /\ sim rs n (snd (do_op ORedo d)) m' w'.
Proof.
  intros S Hn Htx. pose proof S as S'. destruct S as [Sa Sw Sp Sl [St1 St2] Sb Spa Sf (Wc & Wp & Wf) (N1 & N2 & N3)].
  unfold bottom, anchor in *. rewrite Htx in *. cbn [exec do_op]. unfold redo.
  destruct (base d) as [b|] eqn:Eb.
  { destruct Sb as (-> & _). cbn [bind]. eauto. }
  destruct Sb as (-> & Ec). destruct (redoS m) as [|s ss] eqn:Eu, (future d) as [|p ps] eqn:Ep; try contradiction.
  { cbn [bind fst snd]. eauto. }
  destruct Sf as [P1 P2]. cbn [fst snd].
  destruct (redo_list s (cur d) p w (plain d) (fun o => heldl (current m) o + heldl (trans m) o + heldss ss o + heldss (undoS m) o) P1 Sp) as (r & w1 & -> & R1 & L1 & W1 & G1).
  { intros o. pose proof (heldl_nn (current m) o). pose proof (heldl_nn (trans m) o). pose proof (heldss_nn ss o). pose proof (heldss_nn (undoS m) o). lia. }
  { destruct Sw as [E R]. split; [exact E|]. intros o. rewrite R. unfold held_um. rewrite Eu. cbn [heldss]. lia. }
  cbn [bind]. eexists _, _. split; [reflexivity|].
  pose proof (zlen_nonneg (current m)). pose proof (zlen_nonneg (trans m)). pose proof (zlen_nonneg ss). pose proof (zlen_nonneg (undoS m)).
  rewrite zlen_cons in *. inversion Wf; subst.
  constructor; unf; rewrite ?Htx; auto.
  + destruct W1 as [E R]. split; [exact E|]. intros o. rewrite R. unfold held_um. cbn [current trans undoS redoS heldss]. lia.
  + cbn [ustack]. split; [exact R1|exact Spa].
  + rewrite zlen_cons. rewrite !u32_id by lia. sp; lia.
Qed.
Lemma clear_op_ok rs n d m w : sim rs n d m w -> n < 4294967295 ->
  exists m' w', exec OClear m w = Val (RUnit, m', w') /\ sim rs n (snd (do_op OClear d)) m' w'.
Proof.
  intros S Hn. cbn [exec do_op snd]. pose proof (close_ok _ _ _ _ _ S ltac:(lia)) as S2.
  unfold clear_stacks.
  assert (Hd : Doc [] (cur (close_step d)) [] None (tx (close_step d)) (tstat (close_step d)) (plain (close_step d)) = Doc [] (cur d) [] None (tx d) (tstat d) (plain d))
    by (unfold close_step; destruct (base d); reflexivity).
  assert (Hb : base (close_step d) = None) by (unfold close_step; destruct (base d) eqn:E; [reflexivity|exact E]).
  rewrite <- Hd. clear Hd. revert S2 Hb. generalize (close m) (close_step d). clear S m d. intros m d S Eb.
  destruct S as [Sa Sw Sp Sl [St1 St2] Sb Spa Sf (Wc & Wp & Wf) (N1 & N2 & N3)].
  unfold bottom, anchor in *. rewrite Eb in *. destruct Sb as [So Sc].
  unfold clear_undo, clear_redo.
  destruct (delete_steps_ok (undoS m) w (cur d) (plain d) (fun o => heldl (current m) o + heldl (trans m) o + heldss (redoS m) o)) as (w1 & -> & W1 & G1); auto.
  { destruct Sw as [E R]. split; [exact E|]. intros o. rewrite R. unfold held_um. lia. }
  { intros o. pose proof (heldl_nn (current m) o). pose proof (heldl_nn (trans m) o). pose proof (heldss_nn (redoS m) o). lia. }
  { exact (proj2 Wc). }
  cbn [bind redoS active open_ current undoS undoN redoN level trans tstatus changed].
  destruct (delete_steps_ok (redoS m) w1 (cur d) (plain d) (fun o => heldl (current m) o + heldl (trans m) o)) as (w2 & -> & W2 & G2); auto.
  { intros o. pose proof (heldl_nn (current m) o). pose proof (heldl_nn (trans m) o). lia. }
  { exact (proj2 Wc). }
  cbn [bind]. eexists _, _. split; [reflexivity|].
  constructor; unf; auto.
  - destruct W2 as [E R]. split; [exact E|]. intros o. rewrite R. unfold held_um. cbn [current trans undoS redoS heldss]. lia.
  - exact I.
  - exact I.
  - change (zlen (@nil (list change))) with 0. pose proof (zlen_nonneg (undoS m)). pose proof (zlen_nonneg (redoS m)). sp; lia.
Qed.
Lemma begin_op_ok rs n d m w : sim rs n d m w -> sim rs n (snd (do_op OBegin d)) (open_transaction m) w.
Proof.
  intros S. pose proof S as S'. destruct S as [Sa Sw Sp Sl [St1 St2] Sb Spa Sf (Wc & Wp & Wf) (N1 & N2 & N3)].
  unfold bottom, anchor in *. cbn [do_op snd]. unfold open_transaction. destruct (tx d) as [[[k s0] dirty]|] eqn:Etx.
  - destruct Sl as (Hk & Hl & HC & Hw0 & Hd). destruct (Z.eqb_spec (level m) 0); [lia|]. constructor; unf; auto. sp; auto; lia.
  - destruct Sl as (Hl & Ht). rewrite Hl. change (0 =? 0) with true. cbv iota. rewrite Ht in N3. constructor; unf; auto.
    + destruct Sw as [E R]. split; [exact E|]. intros o. rewrite R. unfold held_um. cbn [current trans undoS redoS]. rewrite Ht. reflexivity.
    + cbn [uchain is_nil negb]. sp; auto; try lia. apply seq_refl.
    + split; [reflexivity|discriminate].
Qed.

Lemma exec_ok rs n d m w x : sim rs n d m w -> 0 <= n < 4294967295 -> allowed rs x d ->
  exists m' w', exec x m w = Val (fst (do_op x d), m', w') /\ sim rs (n + 1) (snd (do_op x d)) m' w'.
Proof.
  intros S Hn HA.
  assert (WK : forall d' m' w', sim rs n d' m' w' -> sim rs (n + 1) d' m' w') by (intros; eapply sim_weaken; [|eassumption]; lia).
  destruct x as [o l v lo hi|o l p|o|o|o|o|o| | | | | | | | |s].
  - apply set_member_ok; auto. lia.
  - destruct (set_ref_ok rs n d m w o l p S ltac:(lia) HA) as (m' & w' & E & K); eauto.
  - destruct (retain_op_ok rs n d m w o S ltac:(lia) HA) as (m' & w' & E & K); eauto.
  - destruct (release_op_ok rs n d m w o S ltac:(lia) HA) as (m' & w' & E & K); eauto.
  - destruct (mark_op_ok rs n d m w o S ltac:(lia) HA) as (m' & w' & E & K); eauto.
  - destruct (keep_ok rs n d m w o S HA) as (w' & E & K); eauto.
  - destruct (drop_ok rs n d m w o S HA) as (w' & E & K); eauto.
  - cbn [exec do_op fst snd]. eexists _, _. split; [reflexivity|]. apply WK, close_ok; [exact S|lia].
  - destruct (undo_op_ok rs n d m w S ltac:(lia) HA) as (m' & w' & E & K); eauto.
  - destruct (redo_op_ok rs n d m w S ltac:(lia) HA) as (m' & w' & E & K); eauto.
  - destruct (clear_op_ok rs n d m w S ltac:(lia)) as (m' & w' & E & K); eauto.
  - eexists _, _. split; [reflexivity|]. apply WK, begin_op_ok, S.
  - cbn [exec do_op fst snd]. unfold close_transaction. destruct (s_stat _ _ _ _ _ S) as [-> Hst].
    destruct (commit_ok rs n d m w S ltac:(lia)) as (m1 & w1 & E1 & K1). destruct (rollback_ok rs n d m w S ltac:(lia)) as (m2 & w2 & E2 & K2).
    destruct (tstat d) eqn:Et; cbn [bad]; rewrite ?E1, ?E2; cbn [bind]; eauto. contradiction.
  - cbn [exec do_op fst snd]. destruct (commit_ok rs n d m w S ltac:(lia)) as (m1 & w1 & -> & K1). cbn [bind]. eauto.
  - cbn [exec do_op fst snd]. destruct (rollback_ok rs n d m w S ltac:(lia)) as (m1 & w1 & -> & K1). cbn [bind]. eauto.
  - cbn [exec do_op fst snd]. eexists _, _. split; [reflexivity|]. apply WK.
    unfold register_status. destruct s; cbn [bad]; auto; apply sim_status; auto; discriminate.
Qed.
Lemma exec_all_ok rs xs : forall n d m w, sim rs n d m w -> 0 <= n -> n + zlen xs < 4294967296 -> all_allowed rs xs d ->
  exists m' w', exec_all xs m w = Val (fst (do_all xs d), m', w') /\ sim rs (n + zlen xs) (snd (do_all xs d)) m' w'.
Proof.
  induction xs as [|x xs IH]; intros n d m w S Hn Hl HA.
  - cbn [exec_all do_all fst snd]. eexists _, _. split; [reflexivity|]. change (zlen (@nil op)) with 0. now rewrite Z.add_0_r.
  - destruct HA as [H1 H2]. rewrite zlen_cons in *. pose proof (zlen_nonneg xs).
    destruct (exec_ok rs n d m w x S ltac:(lia) H1) as (m1 & w1 & E1 & S1). cbn [exec_all do_all]. rewrite E1. cbn [bind].
    destruct (do_op x d) as [a d1]. cbn [fst snd] in *.
    destruct (IH (n + 1) d1 m1 w1 S1 ltac:(lia) ltac:(lia) H2) as (m2 & w2 & -> & S2). cbn [bind].
    destruct (do_all xs d1) as [l d2]. cbn [fst snd] in *. eexists _, _. split; [reflexivity|]. replace (n + (1 + zlen xs)) with (n + 1 + zlen xs) by lia. exact S2.
Qed.
Lemma sim_start rs s p w : cells w = vals s -> (forall o, rc w o = p o + refs s o) -> nn p -> wf_snap rs s ->
  sim rs 0 (start s p) (set_active true new_um) w.
Proof.
  intros E R Np W. unfold start, set_active, new_um. constructor; unf; auto.
  - split; [exact E|]. intros o. rewrite R. unfold held_um. cbn [current trans undoS redoS heldl heldss]. lia.
  - split; [reflexivity|discriminate].
  - exact I.
  - exact I.
  - sp; reflexivity || (cbn; lia).
Qed.
