From Verif Require Import Base M_Undo S_Undo L_Undo.

Definition anchor (d : doc) : snap := match tx d with Some (_, s0, _) => s0 | None => cur d end.
Definition bottom (d : doc) : snap := match base d with Some b => b | None => anchor d end.
Fixpoint ustack (ss : list (list change)) (ps : list snap) (top : snap) : Prop :=
  match ss, ps with
  | [], [] => True
  | s :: ss, p :: ps => uchain p s top /\ ustack ss ps p
  | _, _ => False
  end.
Fixpoint rstack (ss : list (list change)) (fs : list snap) (at_ : snap) : Prop :=
  match ss, fs with
  | [], [] => True
  | s :: ss, f :: fs => rchain at_ s f /\ rstack ss fs f
  | _, _ => False
  end.
Ltac sp := repeat match goal with |- _ /\ _ => split end.
Definition is_nil {A} (l : list A) : bool := match l with [] => true | _ => false end.

Record sim (rs : list Z) (n : Z) (d : doc) (m : um) (w : world) : Prop := Sim {
  s_active : active m = true;
  s_w : winv w (cur d) (plain d) (held_um m);
  s_plain : nn (plain d);
  s_level : match tx d with
            | None => level m = 0 /\ trans m = []
            | Some (k, s0, dirty) => 1 <= k /\ level m = k /\ uchain s0 (trans m) (cur d) /\ wf_snap rs s0 /\ dirty = negb (is_nil (trans m))
            end;
  s_stat : tstatus m = tstat d /\ tstat d <> eNotChanged;
  s_base : match base d with
           | None => open_ m = false /\ current m = []
           | Some b => open_ m = true /\ current m <> [] /\ uchain b (current m) (anchor d) /\ wf_snap rs b /\ future d = []
           end;
  s_past : ustack (undoS m) (past d) (bottom d);
  s_fut : rstack (redoS m) (future d) (anchor d);
  s_wf : wf_snap rs (cur d) /\ Forall (wf_snap rs) (past d) /\ Forall (wf_snap rs) (future d);
  s_n : undoN m = zlen (undoS m) /\ redoN m = zlen (redoS m) /\
        zlen (current m) + zlen (trans m) + zlen (undoS m) + zlen (redoS m) <= n
}.

Lemma rstack_nil ss at_ : rstack ss [] at_ -> ss = [].
Proof. destruct ss; [reflexivity|intros []]. Qed.
Lemma ustack_len ss : forall ps top, ustack ss ps top -> zlen ss = zlen ps.
Proof. induction ss as [|s ss IH]; intros [|p ps] top H; try contradiction; [reflexivity|]. destruct H as [_ H]. rewrite !zlen_cons, (IH _ _ H). reflexivity. Qed.
Lemma rstack_len ss : forall ps top, rstack ss ps top -> zlen ss = zlen ps.
Proof. induction ss as [|s ss IH]; intros [|p ps] top H; try contradiction; [reflexivity|]. destruct H as [_ H]. rewrite !zlen_cons, (IH _ _ H). reflexivity. Qed.
Lemma held_um_nn m : nn (held_um m).
Proof. intros o. unfold held_um. pose proof (heldl_nn (current m) o). pose proof (heldl_nn (trans m) o). pose proof (heldss_nn (undoS m) o). pose proof (heldss_nn (redoS m) o). lia. Qed.

Lemma owned_rc d m w o rs n : sim rs n d m w -> owned d o -> 1 <= rc w o.
Proof. intros S [_ H]. destruct (s_w _ _ _ _ _ S) as [_ R]. rewrite R. pose proof (held_um_nn m o). lia. Qed.

Lemma rc_retained w s p H o : winv w s p H -> nn p -> nn H -> nn (refs s) -> 1 <= p o + refs s o ->
  exists w', retain o w = Val w' /\ cells w' = cells w /\ regen w' = regen w /\ forall q, rc w' q = p q + refs s q + H q + b2z (o =? q).
Proof.
  intros [E R] Np NH Ns Ho. rewrite retain_ok by (rewrite R; specialize (NH o); lia).
  eexists. split; [reflexivity|]. cbn [cells rc regen]. split; [reflexivity|split; [reflexivity|]]. intros q. rewrite fupd_eq, (Z.eqb_sym q o).
  destruct (Z.eqb_spec o q) as [<-|]; rewrite R; cbn [b2z]; lia.
Qed.

(** registering a change that leads from the present snapshot to [s'] *)
Lemma register_edit rs n d m w0 c s' w : sim rs n d m w0 -> undoable (cur d) c s' -> wf_snap rs s' ->
  winv w (cur d) (plain d) (fun o => held_um m o + held c o) -> 0 <= n ->
  exists m' w', register c m w = Val (m', w') /\ winv w' (cur d) (plain d) (held_um m') /\ regen w' = regen w /\
    forall w'', winv w'' s' (plain d) (held_um m') -> sim rs (n + 1) (edit s' d) m' w''.
Proof.
  intros S HU Hwf HW Hn. destruct S as [Sa Sw Sp Sl [St1 St2] Sb Spa Sf (Wc & Wp & Wf) (N1 & N2 & N3)].
  unfold register. rewrite Sa. cbn [negb].
  destruct (tx d) as [[[k s0] dirty]|] eqn:Etx.
  - destruct Sl as (Hk & Hl & HC & Hw0 & Hd). destruct (level m >? 0) eqn:El; [|lia].
    eexists _, _. split; [reflexivity|].
    assert (HH : forall o, held_um {| active := true; open_ := open_ m; current := current m; undoS := undoS m; redoS := redoS m; undoN := undoN m; redoN := redoN m; level := level m; trans := trans m ++ [c]; tstatus := tstatus m; changed := changed m |} o = held_um m o + held c o).
    { intros o. unfold held_um. cbn [current trans undoS redoS]. rewrite heldl_app. cbn [heldl]. lia. }
    split; [|split; [reflexivity|]].
    + destruct HW as [E R]. split; [exact E|]. intros o. rewrite R, HH. reflexivity.
    + intros w'' Hw''. unfold edit. rewrite Etx.
      unfold bottom, anchor in *. rewrite ?Etx in *.
      constructor; cbn [active open_ current undoS redoS undoN redoN level trans tstatus changed tx base cur past future tstat plain]; unfold bottom, anchor; cbn [tx base cur past future tstat plain]; auto.
      * sp; auto; try lia.
        -- apply uchain_app. exists (cur d). split; [exact HC|]. now apply uchain_one.
        -- destruct (trans m); reflexivity.
      * rewrite zlen_app, zlen_cons, zlen_nil. sp; auto. lia.
  - destruct Sl as (Hl & Ht). destruct (level m >? 0) eqn:El; [lia|]. unfold anchor in *. rewrite ?Etx in *.
    unfold clear_redo. cbn [redoS].
    destruct (delete_steps_ok (redoS m) w (cur d) (plain d) (fun o => heldl (current m) o + heldl (trans m) o + heldss (undoS m) o + held c o)) as (w1 & -> & W1 & G1).
    { destruct HW as [E R]. split; [exact E|]. intros o. rewrite R. unfold held_um. lia. }
    { exact Sp. }
    { intros o. pose proof (heldl_nn (current m) o). pose proof (heldl_nn (trans m) o). pose proof (heldss_nn (undoS m) o). pose proof (held_nn c o). lia. }
    { exact (proj2 Wc). }
    cbn [bind active open_ current undoS redoS undoN redoN level trans tstatus changed].
    eexists _, _. split; [reflexivity|]. split; [|split; [exact G1|]].
    + destruct W1 as [E R]. split; [exact E|]. intros o. rewrite R. unfold held_um. cbn [current trans undoS redoS heldss]. rewrite heldl_app. cbn [heldl]. lia.
    + intros w'' Hw''. unfold edit. rewrite Etx.
      unfold bottom, anchor in *.
      constructor; cbn [active open_ current undoS redoS undoN redoN level trans tstatus changed tx base cur past future tstat plain]; unfold bottom, anchor;
        cbn [active open_ current undoS redoS undoN redoN level trans tstatus changed tx base cur past future tstat plain]; auto.
      * sp; auto.
        -- destruct (current m); discriminate.
        -- destruct (base d) as [b|].
           ++ destruct Sb as (_ & _ & Hb & _). apply uchain_app. exists (cur d). rewrite ?Etx in Hb. split; [exact Hb|]. now apply uchain_one.
           ++ destruct Sb as (_ & ->). cbn [app]. now apply uchain_one.
        -- destruct (base d); [apply Sb|exact Wc].
      * destruct (base d); [exact Spa|]. rewrite ?Etx in Spa. exact Spa.
      * exact I.
      * rewrite zlen_app, zlen_cons. change (zlen (@nil (list change))) with 0. change (zlen (@nil change)) with 0. change (zlen (@nil Z)) with 0. pose proof (zlen_nonneg (redoS m)). sp; auto. lia.
Qed.

Lemma register_all_ok cs : forall m w s p, cs <> [] -> active m = true -> level m = 0 -> nn p -> nn (refs s) ->
  winv w s p (fun o => held_um m o + heldl cs o) ->
  exists w' m', register_all cs m w = Val (m', w') /\
    m' = UM true true (current m ++ cs) (undoS m) [] (undoN m) 0 0 (trans m) (tstatus m) (changed m) /\
    winv w' s p (held_um m') /\ regen w' = regen w.
Proof.
  induction cs as [|c cs IH]; intros m w s p Hne Ha Hl Np Ns HW; [contradiction|]. clear Hne. cbn [register_all].
  unfold register. rewrite Ha, Hl. cbn [negb]. change (0 >? 0) with false. cbv iota. unfold clear_redo. cbn [redoS].
  destruct (delete_steps_ok (redoS m) w s p (fun o => heldl (current m) o + heldl (trans m) o + heldss (undoS m) o + heldl (c :: cs) o)) as (w1 & -> & W1 & G1); auto.
  { destruct HW as [E R]. split; [exact E|]. intros o. rewrite R. unfold held_um. lia. }
  { intros o. pose proof (heldl_nn (current m) o). pose proof (heldl_nn (trans m) o). pose proof (heldss_nn (undoS m) o). pose proof (heldl_nn (c :: cs) o). lia. }
  cbn [bind active open_ current undoS redoS undoN redoN level trans tstatus changed].
  destruct cs as [|c2 cs].
  - cbn [register_all]. eexists _, _. split; [reflexivity|]. split; [reflexivity|]. split; [|exact G1].
    destruct W1 as [E R]. split; [exact E|]. intros o. rewrite R. unfold held_um. cbn [current trans undoS redoS heldss]. rewrite heldl_app. cbn [heldl]. lia.
  - destruct (IH (UM true true (current m ++ [c]) (undoS m) [] (undoN m) 0 0 (trans m) (tstatus m) (changed m)) w1 s p) as (w2 & m2 & -> & -> & W2 & G2); auto.
    { discriminate. }
    { destruct W1 as [E R]. split; [exact E|]. intros o. rewrite R. unfold held_um. cbn [current trans undoS redoS heldss]. rewrite heldl_app. cbn [heldl]. lia. }
    cbn [bind current undoS undoN trans tstatus changed]. eexists _, _. split; [reflexivity|]. rewrite <- app_assoc. cbn [app].
    split; [reflexivity|]. split; [|congruence]. cbn [current] in W2; rewrite <- app_assoc in W2. exact W2.
Qed.

Definition is_open (d : doc) : bool := match base d with Some _ => true | None => false end.

(** one call *)
Lemma commit_ok rs n d m w : sim rs n d m w -> 0 <= n -> exists m' w', commit m w = Val (m', w') /\ sim rs n (commit_tx d) m' w'.
Proof.
  intros S Hn. pose proof S as S'. destruct S as [Sa Sw Sp Sl [St1 St2] Sb Spa Sf (Wc & Wp & Wf) (N1 & N2 & N3)].
  unfold commit, commit_tx. unfold bottom, anchor in *. destruct (tx d) as [[[k s0] dirty]|] eqn:Etx.
  2:{ destruct Sl as [-> _]. change (0 =? 0) with true. cbv iota. eauto. }
  destruct Sl as (Hk & Hl & HC & Hw0 & Hd). destruct (Z.eqb_spec (level m) 0); [lia|].
  destruct (Z.eqb_spec (level m - 1) 0) as [E1|E1].
  - destruct (Z.eqb_spec k 1); [|lia]. destruct (trans m) as [|c cs] eqn:Et.
    + cbn [register_all bind is_nil negb] in *. subst dirty. cbn [active open_ current undoS redoS undoN redoN changed].
      eexists _, _. split; [reflexivity|].
      destruct HC as [E R]. 
      assert (Hss : seq_snap s0 (cur d)) by (split; assumption).
      constructor; cbn [active open_ current undoS redoS undoN redoN level trans tstatus changed tx base cur past future tstat plain]; unfold bottom, anchor;
        cbn [tx base cur past future tstat plain]; auto.
      * destruct Sw as [Ew Rw]. split; [exact Ew|]. intros o. rewrite Rw. unfold held_um. cbn [current trans undoS redoS]. rewrite Et. reflexivity.
      * split; [reflexivity|discriminate].
      * destruct (base d); [|exact Sb]. destruct Sb as (B1 & B2 & B3 & B4 & B5). sp; auto.
        eapply uchain_seq_r; eauto.
      * destruct (base d); [exact Spa|]. destruct (undoS m), (past d); auto; cbn [ustack] in *. destruct Spa as [P1 P2]. split; [|exact P2].
        eapply uchain_seq_r; eauto.
      * destruct (redoS m) as [|r rr], (future d) as [|f ff]; auto; cbn [rstack] in *. destruct Sf as [P1 P2]. split; [|exact P2].
        change r with ([] ++ r). apply rchain_app. exists s0. split; [|exact P1]. cbn [rchain]. split; [congruence|]. intros o. now rewrite R.
    + destruct (register_all_ok (c :: cs) (UM (active m) (open_ m) (current m) (undoS m) (redoS m) (undoN m) (redoN m) 0 [] (tstatus m) (changed m)) w (cur d) (plain d)) as (w1 & m1 & -> & -> & W1 & G1); auto.
      { discriminate. }
      { exact (proj2 Wc). }
      { destruct Sw as [E R]. split; [exact E|]. intros o. rewrite R. unfold held_um. cbn [current trans undoS redoS]. rewrite Et. cbn [heldl]. lia. }
      cbn [bind active open_ current undoS redoS undoN redoN changed]. eexists _, _. split; [reflexivity|]. subst dirty. cbn [is_nil negb].
      constructor; cbn [active open_ current undoS redoS undoN redoN level trans tstatus changed tx base cur past future tstat plain]; unfold bottom, anchor;
        cbn [tx base cur past future tstat plain]; auto.
      * split; [reflexivity|discriminate].
      * destruct (base d) as [b|].
        -- destruct Sb as (B1 & B2 & B3 & B4 & B5). sp; auto.
           ++ destruct (current m); discriminate.
           ++ apply uchain_app. exists s0. split; [exact B3|exact HC].
        -- destruct Sb as (B1 & ->). cbn [app]. sp; auto; try discriminate.
      * cbn [rstack]. exact I.
      * rewrite zlen_app. change (zlen (@nil (list change))) with 0. change (zlen (@nil change)) with 0. pose proof (zlen_nonneg (redoS m)). sp; auto. rewrite zlen_cons in *. lia.
  - destruct (Z.eqb_spec k 1); [lia|]. eexists _, _. split; [reflexivity|].
    constructor; cbn [active open_ current undoS redoS undoN redoN level trans tstatus changed tx base cur past future tstat plain]; unfold bottom, anchor;
        cbn [tx base cur past future tstat plain]; auto. sp; auto; try lia.
Qed.
Lemma rollback_ok rs n d m w : sim rs n d m w -> 0 <= n -> exists m' w', rollback m w = Val (m', w') /\ sim rs n (rollback_tx d) m' w'.
Proof.
  intros S Hn. pose proof S as S'. destruct S as [Sa Sw Sp Sl [St1 St2] Sb Spa Sf (Wc & Wp & Wf) (N1 & N2 & N3)].
  unfold rollback, rollback_tx. unfold bottom, anchor in *. destruct (tx d) as [[[k s0] dirty]|] eqn:Etx.
  2:{ destruct Sl as [-> _]. change (0 =? 0) with true. cbv iota. eauto. }
  destruct Sl as (Hk & Hl & HC & Hw0 & Hd). destruct (Z.eqb_spec (level m) 0); [lia|].
  destruct (Z.eqb_spec (level m - 1) 0) as [E1|E1].
  - destruct (Z.eqb_spec k 1); [|lia].
    destruct (undo_list (trans m) s0 (cur d) w (plain d) (fun o => heldl (current m) o + heldss (undoS m) o + heldss (redoS m) o) HC) as (r & w1 & -> & R1 & L1 & W1 & G1); auto.
    { intros o. pose proof (heldl_nn (current m) o). pose proof (heldss_nn (undoS m) o). pose proof (heldss_nn (redoS m) o). lia. }
    { destruct Sw as [E R]. split; [exact E|]. intros o. rewrite R. unfold held_um. lia. }
    cbn [bind]. unfold delete_step. rewrite rev_involutive.
    destruct (delete_all_ok r w1 s0 (plain d) (fun o => heldl (current m) o + heldss (undoS m) o + heldss (redoS m) o)) as (w2 & -> & W2 & G2); auto.
    { intros o. pose proof (heldl_nn (current m) o). pose proof (heldss_nn (undoS m) o). pose proof (heldss_nn (redoS m) o). lia. }
    { exact (proj2 Hw0). }
    cbn [bind]. eexists _, _. split; [reflexivity|].
    constructor; cbn [active open_ current undoS redoS undoN redoN level trans tstatus changed tx base cur past future tstat plain]; unfold bottom, anchor;
        cbn [tx base cur past future tstat plain]; auto.
    + destruct W2 as [E R]. split; [exact E|]. intros o. rewrite R. unfold held_um. cbn [current trans undoS redoS heldl]. lia.
    + split; [reflexivity|discriminate].
    + change (zlen (@nil change)) with 0. pose proof (zlen_nonneg (trans m)). sp; auto. lia.
  - destruct (Z.eqb_spec k 1); [lia|]. eexists _, _. split; [reflexivity|].
    constructor; cbn [active open_ current undoS redoS undoN redoN level trans tstatus changed tx base cur past future tstat plain]; unfold bottom, anchor;
        cbn [tx base cur past future tstat plain]; auto. sp; auto; try lia.
Qed.

Lemma sim_weaken rs n n' d m w : n <= n' -> sim rs n d m w -> sim rs n' d m w.
Proof. intros H S. destruct S as [Sa Sw Sp Sl St Sb Spa Sf Swf (N1 & N2 & N3)]. constructor; auto. sp; auto. lia. Qed.

Lemma close_ok rs n d m w : sim rs n d m w -> n < 4294967296 -> sim rs n (close_step d) (close m) w.
Proof.
  intros S Hn. pose proof S as S'. destruct S as [Sa Sw Sp Sl [St1 St2] Sb Spa Sf (Wc & Wp & Wf) (N1 & N2 & N3)].
  unfold close_step, close. pose proof (zlen_nonneg (current m)). pose proof (zlen_nonneg (trans m)). pose proof (zlen_nonneg (undoS m)). pose proof (zlen_nonneg (redoS m)).
  rewrite u32_id by lia. destruct (base d) as [b|] eqn:Eb.
  - destruct Sb as (B1 & B2 & B3 & B4 & B5). destruct (Z.eqb_spec (zlen (current m)) 0) as [E0|E0]; [apply zlen_zero in E0; contradiction|].
    constructor; cbn [active open_ current undoS redoS undoN redoN level trans tstatus changed tx base cur past future tstat plain]; unfold bottom, anchor;
        cbn [tx base cur past future tstat plain]; auto.
    + destruct Sw as [E R]. split; [exact E|]. intros o. rewrite R. unfold held_um. cbn [current trans undoS redoS heldl heldss]. lia.
    + cbn [ustack]. unfold bottom in Spa. rewrite Eb in Spa. split; [exact B3|exact Spa].
    + rewrite zlen_cons. change (zlen (@nil change)) with 0. rewrite u32_id by lia. sp; auto; lia.
  - destruct Sb as [_ ->]. change (zlen (@nil change) =? 0) with true. cbv iota. exact S'.
Qed.

Lemma close_edit_val rs d m w n o l v : sim rs n d m w -> owned d o -> 0 <= l < zlen (vals (cur d)) -> ~ In l rs ->
  exists c w1, new_val o l w = Val (c, w1) /\ winv w1 (cur d) (plain d) (fun q => held_um m q + held c q) /\ regen w1 = regen w /\
  undoable (cur d) c (set_val (cur d) l v) /\ wf_snap rs (set_val (cur d) l v) /\ lset (vals (cur d)) l v = Some (vals (set_val (cur d) l v)).
Proof.
  intros S Ho Hl Hrs. destruct (s_wf _ _ _ _ _ S) as (Wc & _ & _).
  destruct (rc_retained w (cur d) (plain d) (held_um m) o) as (w1 & E1 & C1 & G1 & R1);
    [exact (s_w _ _ _ _ _ S)|exact (s_plain _ _ _ _ _ S)|apply held_um_nn|exact (proj2 Wc)|exact (proj2 Ho)|].
  unfold new_val. rewrite E1. cbn [bind]. unfold read_cell. destruct (s_w _ _ _ _ _ S) as [EC _]. rewrite C1, EC.
  destruct (lget_range (vals (cur d)) l Hl) as [x Hx]. unfold rd. rewrite Hx. cbn [bind].
  destruct (lset_range (vals (cur d)) l v Hl) as [cs Hcs].
  eexists _, _. split; [reflexivity|]. split; [|split; [exact G1|split; [|split]]].
  - split; [congruence|]. intros q. rewrite R1. unfold held. cbn [c_obj c_kind]. lia.
  - split; [exact (proj2 Wc)|]. split; [unfold set_val; rewrite Hcs; exact (proj2 Wc)|]. cbn [c_kind]. unfold set_val. rewrite Hcs. cbn [vals]. split; [|intros q; reflexivity].
    destruct (lset_range cs l x) as [z Hz]; [pose proof (lset_zlen _ _ _ _ Hcs); lia|]. rewrite Hz. f_equal.
    apply lget_ext. intros j. rewrite (lset_get _ _ _ _ j Hz), (lset_get _ _ _ _ j Hcs). destruct (Z.eqb_spec j l) as [->|]; [now rewrite Hx|reflexivity].
  - split; [|unfold set_val; rewrite Hcs; exact (proj2 Wc)]. intros j y Hj. unfold set_val. rewrite Hcs. cbn [vals refs]. rewrite (lset_get _ _ _ _ j Hcs).
    destruct (Z.eqb_spec j l) as [->|]; [contradiction|]. now apply Wc.
  - unfold set_val. rewrite Hcs. reflexivity.
Qed.
Lemma edit_ref rs d m w n o l p : sim rs n d m w -> owned d o -> 0 <= l < zlen (vals (cur d)) -> In l rs -> p = 0 \/ 1 <= refs (cur d) p ->
  exists c w1, new_ref o l w = Val (c, w1) /\ winv w1 (cur d) (plain d) (fun q => held_um m q + held c q) /\ regen w1 = regen w /\
  undoable (cur d) c (set_val (cur d) l p) /\ wf_snap rs (set_val (cur d) l p) /\ lset (vals (cur d)) l p = Some (vals (set_val (cur d) l p)).
Proof.
  intros S Ho Hl Hrs Hp. destruct (s_wf _ _ _ _ _ S) as (Wc & _ & _). pose proof (s_plain _ _ _ _ _ S) as Np.
  destruct (rc_retained w (cur d) (plain d) (held_um m) o) as (w1 & E1 & C1 & G1 & R1);
    [exact (s_w _ _ _ _ _ S)|exact (s_plain _ _ _ _ _ S)|apply held_um_nn|exact (proj2 Wc)|exact (proj2 Ho)|].
  unfold new_ref. rewrite E1. cbn [bind]. unfold read_cell. destruct (s_w _ _ _ _ _ S) as [EC _]. rewrite C1, EC.
  destruct (lget_range (vals (cur d)) l Hl) as [x Hx]. unfold rd. rewrite Hx. cbn [bind].
  destruct (lset_range (vals (cur d)) l p Hl) as [cs Hcs].
  assert (Hret : exists w2, retain_opt x w1 = Val w2 /\ cells w2 = cells w1 /\ regen w2 = regen w1 /\
        forall q, rc w2 q = rc w1 q + b2z (negb (x =? 0) && (x =? q))).
  { unfold retain_opt. destruct (Z.eqb_spec x 0) as [->|Hx0].
    - exists w1. sp; auto. intros q. cbn. lia.
    - destruct Wc as [Wc Wn]. destruct (Wc l x Hrs Hx) as [?|Hr]; [contradiction|]. rewrite retain_ok.
      + eexists. split; [reflexivity|]. cbn [cells regen rc]. sp; auto. intros q. rewrite fupd_eq. cbn [negb andb].
        rewrite (Z.eqb_sym q x). destruct (Z.eqb_spec x q) as [->|]; cbn [b2z]; lia.
      + rewrite R1. specialize (Np x). pose proof (held_um_nn m x). pose proof (b2z_nn (o =? x)). lia. }
  destruct Hret as (w2 & -> & C2 & G2 & R2). cbn [bind].
  eexists _, _. split; [reflexivity|]. split; [|split; [congruence|split; [|split]]].
  - split; [congruence|]. intros q. rewrite R2, R1. unfold held. cbn [c_obj c_kind]. change (negb (0 =? 0) && (0 =? q)) with false. cbn [b2z]. lia.
  - split; [exact (proj2 Wc)|]. split; [unfold set_val; rewrite Hcs; exact (proj2 Wc)|]. cbn [c_kind]. unfold set_val. rewrite Hcs. cbn [vals refs]. sp; auto.
    + destruct (lset_range cs l x) as [z Hz]; [pose proof (lset_zlen _ _ _ _ Hcs); lia|]. rewrite Hz. f_equal.
      apply lget_ext. intros j. rewrite (lset_get _ _ _ _ j Hz), (lset_get _ _ _ _ j Hcs). destruct (Z.eqb_spec j l) as [->|]; [now rewrite Hx|reflexivity].
    + intros q; reflexivity.
    + intros q. rewrite (lset_get _ _ _ _ l Hcs), Z.eqb_refl. intros Hq. injection Hq as <-. exact Hp.
  - split; [|unfold set_val; rewrite Hcs; exact (proj2 Wc)]. intros j y Hj. unfold set_val. rewrite Hcs. cbn [vals refs]. rewrite (lset_get _ _ _ _ j Hcs).
    destruct (Z.eqb_spec j l) as [->|]; [intros Hq; injection Hq as <-; exact Hp|]. now apply Wc.
  - unfold set_val. rewrite Hcs. reflexivity.
Qed.
