From Verif Require Import Base M_Undo S_Undo.

(** * references held by the history *)
Definition b2z (b : bool) : Z := if b then 1 else 0.
Definition held (c : change) (o : Z) : Z :=
  b2z (c_obj c =? o) +
  match c_kind c with
  | KRef _ _ v1 v2 _ => b2z (negb (v1 =? 0) && (v1 =? o)) + b2z (negb (v2 =? 0) && (v2 =? o))
  | _ => 0
  end.
Fixpoint heldl (cs : list change) (o : Z) : Z := match cs with [] => 0 | c :: r => held c o + heldl r o end.
Fixpoint heldss (ss : list (list change)) (o : Z) : Z := match ss with [] => 0 | s :: r => heldl s o + heldss r o end.
Definition held_um (m : um) (o : Z) : Z :=
  heldl (current m) o + heldl (trans m) o + heldss (undoS m) o + heldss (redoS m) o.

Lemma b2z_nn b : 0 <= b2z b <= 1. Proof. destruct b; cbn; lia. Qed.
Lemma held_nn c o : 0 <= held c o.
Proof. unfold held. pose proof (b2z_nn (c_obj c =? o)). destruct (c_kind c); try lia.
  pose proof (b2z_nn (negb (v1 =? 0) && (v1 =? o))). pose proof (b2z_nn (negb (v2 =? 0) && (v2 =? o))). lia. Qed.
Lemma held_obj c : 1 <= held c (c_obj c).
Proof. unfold held. rewrite Z.eqb_refl. change (b2z true) with 1. destruct (c_kind c); try lia.
  pose proof (b2z_nn (negb (v1 =? 0) && (v1 =? c_obj c))). pose proof (b2z_nn (negb (v2 =? 0) && (v2 =? c_obj c))). lia. Qed.
Lemma heldl_nn cs o : 0 <= heldl cs o.
Proof. induction cs as [|c r IH]; cbn [heldl]; [lia|]. pose proof (held_nn c o). lia. Qed.
Lemma heldl_app a b o : heldl (a ++ b) o = heldl a o + heldl b o.
Proof. induction a as [|c r IH]; cbn [app heldl]; [lia|]. rewrite IH. lia. Qed.
Lemma heldl_rev a o : heldl (rev a) o = heldl a o.
Proof. induction a as [|c r IH]; cbn [rev heldl]; [lia|]. rewrite heldl_app, IH. cbn [heldl]. lia. Qed.
Lemma heldss_nn ss o : 0 <= heldss ss o.
Proof. induction ss as [|s r IH]; cbn [heldss]; [lia|]. pose proof (heldl_nn s o). lia. Qed.

(** * what the world looks like: cells, and reference counts = client's + history's *)
Definition winv (w : world) (s : snap) (p H : Z -> Z) : Prop :=
  cells w = vals s /\ forall o, rc w o = p o + refs s o + H o.
Definition nn (f : Z -> Z) : Prop := forall o, 0 <= f o.
Definition req (a b : snap) : Prop := forall o, refs a o = refs b o.

Definition undoable (a : snap) (c : change) (b : snap) : Prop :=
  nn (refs a) /\ nn (refs b) /\
  match c_kind c with
  | KVal l v => lset (vals b) l v = Some (vals a) /\ req a b
  | KRef l v v1 v2 sw =>
    lset (vals b) l v = Some (vals a) /\ v = v1 /\ req a b /\
    (if sw then lget (vals b) l = Some v2 else v2 = 0 /\ forall q, lget (vals b) l = Some q -> q = 0 \/ 1 <= refs b q)
  | KMark => vals a = vals b /\ req a b
  | KRel r => vals a = vals b /\ forall o, refs b o = refs a o + (if o =? c_obj c then if r then -1 else 1 else 0)
  end.
Definition redoable (a : snap) (c : change) (b : snap) : Prop :=
  nn (refs a) /\ nn (refs b) /\
  match c_kind c with
  | KVal l v => lset (vals a) l v = Some (vals b) /\ req a b
  | KRef l v v1 v2 sw => lset (vals a) l v = Some (vals b) /\ v = v2 /\ sw = true /\ lget (vals a) l = Some v1 /\ req a b
  | KMark => vals a = vals b /\ req a b
  | KRel r => vals a = vals b /\ forall o, refs b o = refs a o + (if o =? c_obj c then if r then 1 else -1 else 0)
  end.
Definition seq_snap (a b : snap) : Prop := vals a = vals b /\ req a b.
Fixpoint uchain (a : snap) (cs : list change) (b : snap) : Prop :=
  match cs with [] => seq_snap a b | c :: r => exists m, undoable a c m /\ uchain m r b end.
Fixpoint rchain (a : snap) (cs : list change) (b : snap) : Prop :=
  match cs with [] => seq_snap a b | c :: r => exists m, redoable a c m /\ rchain m r b end.

Lemma seq_refl a : seq_snap a a. Proof. split; [reflexivity|intros o; reflexivity]. Qed.
Lemma undoable_seq_l a a' c b : seq_snap a a' -> undoable a c b -> undoable a' c b.
Proof.
  intros [E R] (N1 & N2 & H). split; [intros o; rewrite <- (R o); apply N1|]. split; [exact N2|].
  unfold req in *. rewrite <- E. destruct (c_kind c).
  - destruct H as [H1 H2]. split; [exact H1|]. intros o. rewrite <- R. apply H2.
  - destruct H as (H1 & H2 & H3 & H4). repeat split; auto. intros o. rewrite <- R. apply H3.
  - destruct H as [H1 H2]. split; [exact H1|]. intros o. rewrite <- R. apply H2.
  - destruct H as [H1 H2]. split; [exact H1|]. intros o. rewrite <- R. apply H2.
Qed.
Lemma undoable_seq_r a c b b' : seq_snap b b' -> undoable a c b -> undoable a c b'.
Proof.
  intros [E R] (N1 & N2 & H). split; [exact N1|]. split; [intros o; rewrite <- (R o); apply N2|].
  unfold req in *. rewrite <- E. destruct (c_kind c).
  - destruct H as [H1 H2]. split; [exact H1|]. intros o. rewrite <- R. apply H2.
  - destruct H as (H1 & H2 & H3 & H4). repeat split; auto. { intros o. rewrite <- R. apply H3. }
    destruct swapped; [exact H4|]. destruct H4 as [H4 H5]. split; [exact H4|]. intros q Hq. rewrite <- R. auto.
  - destruct H as [H1 H2]. split; [exact H1|]. intros o. rewrite <- R. apply H2.
  - destruct H as [H1 H2]. split; [exact H1|]. intros o. rewrite <- R. apply H2.
Qed.
Lemma uchain_seq_l a a' cs b : seq_snap a a' -> uchain a cs b -> uchain a' cs b.
Proof.
  intros S. destruct cs as [|c r]; cbn [uchain].
  - intros [E R]. destruct S as [E' R']. split; [congruence|]. intros o. rewrite <- R', R. reflexivity.
  - intros (m & H1 & H2). exists m. split; [eapply undoable_seq_l; eauto|exact H2].
Qed.
Lemma uchain_seq_r cs : forall a b b', seq_snap b b' -> uchain a cs b -> uchain a cs b'.
Proof.
  induction cs as [|c r IH]; intros a b b' S; cbn [uchain].
  - intros [E R]. destruct S as [E' R']. split; [congruence|]. intros o. rewrite R, R'. reflexivity.
  - intros (m & H1 & H2). exists m. split; eauto.
Qed.
Lemma uchain_app cs : forall a ds b, uchain a (cs ++ ds) b <-> exists m, uchain a cs m /\ uchain m ds b.
Proof.
  induction cs as [|c r IH]; intros a ds b; cbn [app uchain].
  - split; [intros H; exists a; split; [apply seq_refl|exact H]|].
    intros (m & S & H). apply (uchain_seq_l m); [|exact H]. destruct S as [E R]. split; [congruence|]. intros o. now rewrite R.
  - split.
    + intros (m & H1 & H2). apply IH in H2 as (m' & H2 & H3). exists m'. split; [exists m; auto|exact H3].
    + intros (m' & (m & H1 & H2) & H3). exists m. split; [exact H1|]. apply IH. eauto.
Qed.
Lemma uchain_one a c b : undoable a c b -> uchain a [c] b.
Proof. intros H. exists b. split; [exact H|apply seq_refl]. Qed.
Lemma uchain_snoc a cs c b : uchain a (cs ++ [c]) b -> exists m, uchain a cs m /\ undoable m c b.
Proof.
  intros H. apply uchain_app in H as (m & H1 & H2). destruct H2 as (m' & H2 & S).
  exists m. split; [exact H1|]. eapply undoable_seq_r; eauto.
Qed.
Lemma rchain_seq_r cs : forall a b b', seq_snap b b' -> rchain a cs b -> rchain a cs b'.
Proof.
  induction cs as [|c r IH]; intros a b b' S; cbn [rchain].
  - intros [E R]. destruct S as [E' R']. split; [congruence|]. intros o. rewrite R, R'. reflexivity.
  - intros (m & H1 & H2). exists m. split; eauto.
Qed.
Lemma rchain_app cs : forall a ds b, (exists m, rchain a cs m /\ rchain m ds b) -> rchain a (cs ++ ds) b.
Proof.
  induction cs as [|c r IH]; intros a ds b (m & H1 & H2); cbn [app rchain] in *.
  - destruct ds as [|d ds]; cbn [rchain] in *.
    + destruct H1 as [E R], H2 as [E' R']. split; [congruence|]. intros o. rewrite R, R'. reflexivity.
    + destruct H2 as (m' & (N1 & N2 & H2) & H3). exists m'. split; [|exact H3]. destruct H1 as [E R].
      split; [intros o; rewrite R; apply N1|]. split; [exact N2|]. unfold req in *. rewrite E. destruct (c_kind d).
      * destruct H2 as [G1 G2]. split; [exact G1|]. intros o. rewrite R. apply G2.
      * destruct H2 as (G1 & G2 & G3 & G4 & G5). repeat split; auto. intros o. rewrite R. apply G5.
      * destruct H2 as [G1 G2]. split; [exact G1|]. intros o. rewrite R. apply G2.
      * destruct H2 as [G1 G2]. split; [exact G1|]. intros o. rewrite R. apply G2.
  - destruct H1 as (m' & H1 & H3). exists m'. split; [exact H1|]. apply IH. eauto.
Qed.

(** * basic world steps *)
Lemma fupd_eq {A} (f : Z -> A) k v x : fupd f k v x = if x =? k then v else f x. Proof. reflexivity. Qed.
Lemma retain_ok o w : 1 <= rc w o -> retain o w = Val (World (cells w) (fupd (rc w) o (rc w o + 1)) (regen w)).
Proof. intros H. unfold retain. destruct (rc w o <=? 0) eqn:E; [lia|reflexivity]. Qed.
Lemma release_ok o w : 1 <= rc w o -> release o w = Val (World (cells w) (fupd (rc w) o (rc w o - 1)) (regen w)).
Proof. intros H. unfold release. destruct (rc w o <=? 0) eqn:E; [lia|reflexivity]. Qed.
Lemma winv_ext w s s' p p' H H' : winv w s p H -> vals s = vals s' ->
  (forall o, p o + refs s o + H o = p' o + refs s' o + H' o) -> winv w s' p' H'.
Proof. intros [E R] Ev Hx. split; [congruence|]. intros o. rewrite R. apply Hx. Qed.

Lemma base_swap_ok o w : 1 <= rc w o -> base_swap o w = Val (World (cells w) (rc w) (fupd (regen w) o true)).
Proof. intros H. unfold base_swap. destruct (rc w o <=? 0) eqn:E; [lia|reflexivity]. Qed.

Lemma eqb_b2z x y : b2z (x =? y) = if x =? y then 1 else 0. Proof. destruct (x =? y); reflexivity. Qed.

(** undoing one change *)
Lemma swap_undo a c b w p H : undoable a c b -> nn p -> nn H -> winv w b p (fun o => H o + held c o) ->
  exists c' w', swap c w = Val (c', w') /\ redoable a c' b /\ c_obj c' = c_obj c /\ winv w' a p (fun o => H o + held c' o)
    /\ regen w' = fupd (regen w) (c_obj c) true.
Proof.
  intros (Na & Nb & HU) Np NH [EC ER].
  assert (Ho : 1 <= rc w (c_obj c)) by (rewrite ER; pose proof (held_obj c); specialize (Np (c_obj c)); specialize (Nb (c_obj c)); specialize (NH (c_obj c)); lia).
  unfold swap. destruct (rc w (c_obj c) <=? 0) eqn:E0; [lia|].
  destruct c as [o k]. cbn [c_obj c_kind] in *. destruct k as [l v|l v v1 v2 sw| |r]; cbn [bind].
  - destruct HU as [HS HR]. unfold read_cell, write_cell. rewrite EC. unfold wr. rewrite HS.
    destruct (lget_range (vals b) l) as [x Hx].
    { pose proof (lset_get _ _ _ _ l HS) as G. rewrite Z.eqb_refl in G. apply lget_some_range in G. pose proof (lset_zlen _ _ _ _ HS). lia. }
    unfold rd. rewrite Hx. cbn [bind]. rewrite base_swap_ok by exact Ho. cbn [bind cells rc regen].
    eexists _, _. split; [reflexivity|]. split; [|split; [reflexivity|split; [split; [reflexivity|]|reflexivity]]].
    + split; [exact Na|]. split; [exact Nb|]. cbn [c_kind]. split; [|exact HR].
      pose proof (lset_get _ _ _ _ l HS) as G. rewrite Z.eqb_refl in G. destruct (lset_range (vals a) l x) as [z Hz]; [eapply lget_some_range; eauto|].
      rewrite Hz. f_equal. apply lget_ext. intros j. rewrite (lset_get _ _ _ _ j Hz), (lset_get _ _ _ _ j HS).
      destruct (Z.eqb_spec j l) as [->|]; [now rewrite Hx|reflexivity].
    + intros q. cbn [rc]. rewrite ER, (HR q). unfold held. cbn [c_obj c_kind]. lia.
  - destruct HU as (HS & -> & HR & HV). unfold read_cell, write_cell. rewrite EC.
    destruct (lget_range (vals b) l) as [x Hx].
    { pose proof (lset_get _ _ _ _ l HS) as G. rewrite Z.eqb_refl in G. apply lget_some_range in G. pose proof (lset_zlen _ _ _ _ HS). lia. }
    unfold rd. rewrite Hx. cbn [bind].
    assert (Hredo : redoable a (Change o (KRef l x v1 x true)) b).
    { split; [exact Na|]. split; [exact Nb|]. cbn [c_kind].
      pose proof (lset_get _ _ _ _ l HS) as G. rewrite Z.eqb_refl in G. destruct (lset_range (vals a) l x) as [z Hz]; [eapply lget_some_range; eauto|].
      rewrite Hz. repeat split; auto. f_equal. apply lget_ext. intros j. rewrite (lset_get _ _ _ _ j Hz), (lset_get _ _ _ _ j HS).
      destruct (Z.eqb_spec j l) as [->|]; [now rewrite Hx|reflexivity]. }
    destruct sw.
    + rewrite Hx in HV. injection HV as ->. cbn [bind]. rewrite EC. unfold wr. rewrite HS. cbn [bind].
      rewrite base_swap_ok by exact Ho. cbn [bind cells rc regen].
      eexists _, _. split; [reflexivity|]. split; [exact Hredo|]. split; [reflexivity|]. split; [split; [reflexivity|]|reflexivity].
      intros q. cbn [rc]. rewrite ER, (HR q). unfold held. cbn [c_obj c_kind]. lia.
    + destruct HV as [-> HV]. specialize (HV x Hx).
      assert (Hret : exists w1, retain_opt x w = Val w1 /\ cells w1 = vals b /\ regen w1 = regen w /\
        forall q, rc w1 q = rc w q + b2z (negb (x =? 0) && (x =? q))).
      { unfold retain_opt. destruct (Z.eqb_spec x 0) as [->|Hx0].
        - exists w. repeat split; auto. intros q. cbn. lia.
        - destruct HV as [HV|HV]; [contradiction|]. rewrite retain_ok.
          + eexists. split; [reflexivity|]. cbn [cells regen rc]. repeat split; auto. intros q. rewrite fupd_eq. cbn [negb andb].
            rewrite (Z.eqb_sym q x). destruct (Z.eqb_spec x q) as [->|]; cbn [b2z]; lia.
          + rewrite ER. pose proof (held_nn (Change o (KRef l v1 v1 0 false)) x). specialize (Np x). specialize (NH x). lia. }
      destruct Hret as (w1 & -> & Ec1 & Er1 & Rc1). cbn [bind]. rewrite Ec1. unfold wr. rewrite HS. cbn [bind].
      rewrite base_swap_ok by (cbn [rc]; rewrite Rc1; pose proof (b2z_nn (negb (x =? 0) && (x =? o))); lia). cbn [bind cells rc regen].
      eexists _, _. split; [reflexivity|]. split; [exact Hredo|]. split; [reflexivity|]. split; [split; [reflexivity|]|now rewrite Er1].
      intros q. cbn [rc]. rewrite Rc1, ER, (HR q). unfold held. cbn [c_obj c_kind]. change (negb (0 =? 0) && (0 =? q)) with false. cbn [b2z]. lia.
  - destruct HU as [HS HR]. rewrite base_swap_ok by exact Ho. cbn [bind cells rc regen].
    eexists _, _. split; [reflexivity|]. split; [|split; [reflexivity|split; [split; [cbn [cells]; congruence|]|reflexivity]]].
    + split; [exact Na|]. split; [exact Nb|]. cbn [c_kind]. auto.
    + intros q. cbn [rc]. rewrite ER, (HR q). reflexivity.
  - destruct HU as [HS HR].
    assert (Hh : held (Change o (KRel r)) o = 1) by (unfold held; cbn [c_obj c_kind]; rewrite Z.eqb_refl; reflexivity).
    pose proof (HR o) as HRo. rewrite Z.eqb_refl in HRo.
    assert (Hr : (if r then retain o w else release o w) = Val (World (cells w) (fupd (rc w) o (rc w o + (if r then 1 else -1))) (regen w))).
    { destruct r; [now rewrite retain_ok by exact Ho|rewrite release_ok by exact Ho; reflexivity]. }
    rewrite Hr. cbn [bind]. rewrite base_swap_ok.
    2:{ cbn [rc]. rewrite fupd_eq, Z.eqb_refl, ER, Hh. specialize (Np o). specialize (NH o). specialize (Na o). destruct r; lia. }
    cbn [bind cells rc regen]. eexists _, _. split; [reflexivity|]. split; [|split; [reflexivity|split; [split; [cbn [cells]; congruence|]|reflexivity]]].
    + split; [exact Na|]. split; [exact Nb|]. cbn [c_kind c_obj]. split; [exact HS|]. intros q. rewrite HR. destruct r; reflexivity.
    + intros q. cbn [rc]. rewrite fupd_eq. specialize (HR q). unfold held. cbn [c_obj c_kind].
      destruct (Z.eqb_spec q o) as [Hq|Hq]; [subst q|]; rewrite ER; unfold held; cbn [c_obj c_kind]; destruct r; lia.
Qed.
(** redoing one change *)
Lemma swap_redo a c b w p H : redoable a c b -> nn p -> nn H -> winv w a p (fun o => H o + held c o) ->
  exists c' w', swap c w = Val (c', w') /\ undoable a c' b /\ c_obj c' = c_obj c /\ winv w' b p (fun o => H o + held c' o)
    /\ regen w' = fupd (regen w) (c_obj c) true.
Proof.
  intros (Na & Nb & HU) Np NH [EC ER].
  assert (Ho : 1 <= rc w (c_obj c)) by (rewrite ER; pose proof (held_obj c); specialize (Np (c_obj c)); specialize (Na (c_obj c)); specialize (NH (c_obj c)); lia).
  unfold swap. destruct (rc w (c_obj c) <=? 0) eqn:E0; [lia|].
  destruct c as [o k]. cbn [c_obj c_kind] in *. destruct k as [l v|l v v1 v2 sw| |r]; cbn [bind].
  - destruct HU as [HS HR]. unfold read_cell, write_cell. rewrite EC. unfold wr. rewrite HS.
    destruct (lget_range (vals a) l) as [x Hx].
    { pose proof (lset_get _ _ _ _ l HS) as G. rewrite Z.eqb_refl in G. apply lget_some_range in G. pose proof (lset_zlen _ _ _ _ HS). lia. }
    unfold rd. rewrite Hx. cbn [bind]. rewrite base_swap_ok by exact Ho. cbn [bind cells rc regen].
    eexists _, _. split; [reflexivity|]. split; [|split; [reflexivity|split; [split; [reflexivity|]|reflexivity]]].
    + split; [exact Na|]. split; [exact Nb|]. cbn [c_kind]. split; [|exact HR].
      pose proof (lset_get _ _ _ _ l HS) as G. rewrite Z.eqb_refl in G. destruct (lset_range (vals b) l x) as [z Hz]; [eapply lget_some_range; eauto|].
      rewrite Hz. f_equal. apply lget_ext. intros j. rewrite (lset_get _ _ _ _ j Hz), (lset_get _ _ _ _ j HS).
      destruct (Z.eqb_spec j l) as [->|]; [now rewrite Hx|reflexivity].
    + intros q. cbn [rc]. rewrite ER, (HR q). unfold held. cbn [c_obj c_kind]. lia.
  - destruct HU as (HS & -> & -> & Hx & HR). unfold read_cell, write_cell. rewrite EC. unfold rd. rewrite Hx. cbn [bind].
    rewrite EC. unfold wr. rewrite HS. cbn [bind]. rewrite base_swap_ok by exact Ho. cbn [bind cells rc regen].
    eexists _, _. split; [reflexivity|]. split; [|split; [reflexivity|split; [split; [reflexivity|]|reflexivity]]].
    + split; [exact Na|]. split; [exact Nb|]. cbn [c_kind].
      pose proof (lset_get _ _ _ _ l HS) as G. rewrite Z.eqb_refl in G. destruct (lset_range (vals b) l v1) as [z Hz]; [eapply lget_some_range; eauto|].
      rewrite Hz. repeat split; auto. f_equal. apply lget_ext. intros j. rewrite (lset_get _ _ _ _ j Hz), (lset_get _ _ _ _ j HS).
      destruct (Z.eqb_spec j l) as [->|]; [now rewrite Hx|reflexivity].
    + intros q. cbn [rc]. rewrite ER, (HR q). unfold held. cbn [c_obj c_kind]. lia.
  - destruct HU as [HS HR]. rewrite base_swap_ok by exact Ho. cbn [bind cells rc regen].
    eexists _, _. split; [reflexivity|]. split; [|split; [reflexivity|split; [split; [cbn [cells]; congruence|]|reflexivity]]].
    + split; [exact Na|]. split; [exact Nb|]. cbn [c_kind]. auto.
    + intros q. cbn [rc]. rewrite ER, (HR q). reflexivity.
  - destruct HU as [HS HR].
    assert (Hh : held (Change o (KRel r)) o = 1) by (unfold held; cbn [c_obj c_kind]; rewrite Z.eqb_refl; reflexivity).
    pose proof (HR o) as HRo. rewrite Z.eqb_refl in HRo.
    assert (Hr : (if r then retain o w else release o w) = Val (World (cells w) (fupd (rc w) o (rc w o + (if r then 1 else -1))) (regen w))).
    { destruct r; [now rewrite retain_ok by exact Ho|rewrite release_ok by exact Ho; reflexivity]. }
    rewrite Hr. cbn [bind]. rewrite base_swap_ok.
    2:{ cbn [rc]. rewrite fupd_eq, Z.eqb_refl, ER, Hh. specialize (Np o). specialize (NH o). specialize (Nb o). destruct r; lia. }
    cbn [bind cells rc regen]. eexists _, _. split; [reflexivity|]. split; [|split; [reflexivity|split; [split; [cbn [cells]; congruence|]|reflexivity]]].
    + split; [exact Na|]. split; [exact Nb|]. cbn [c_kind c_obj]. split; [exact HS|]. intros q. rewrite HR. destruct r; reflexivity.
    + intros q. cbn [rc]. rewrite fupd_eq. specialize (HR q). unfold held. cbn [c_obj c_kind].
      destruct (Z.eqb_spec q o) as [Hq|Hq]; [subst q|]; rewrite ER; unfold held; cbn [c_obj c_kind]; destruct r; lia.
Qed.

(** whole steps *)
Lemma undo_list cs : forall a b w p H, uchain a cs b -> nn p -> nn H -> winv w b p (fun o => H o + heldl cs o) ->
  exists r w', swap_all (rev cs) w = Val (r, w') /\ rchain a (rev r) b /\ length r = length cs /\ winv w' a p (fun o => H o + heldl r o)
    /\ (forall o, regen w' o = regen w o || existsb (fun c => c_obj c =? o) cs).
Proof.
  induction cs as [|c r IH] using rev_ind; intros a b w p H HC Np NH HW.
  - cbn [uchain] in HC. exists [], w. cbn [rev swap_all rchain length heldl] in *. repeat split; auto; try (apply HC).
    + destruct HW as [E _]. destruct HC. congruence.
    + destruct HW as [_ R], HC as [_ R2]. intros o. rewrite R, R2. reflexivity.
    + intros o. cbn. now rewrite orb_false_r.
  - apply uchain_snoc in HC as (m & H1 & H2). rewrite rev_app_distr. cbn [rev app swap_all].
    destruct (swap_undo m c b w p (fun o => H o + heldl r o) H2 Np) as (c' & w1 & E1 & R1 & O1 & W1 & G1).
    { intros o. pose proof (heldl_nn r o). specialize (NH o). lia. }
    { destruct HW as [E R]. split; [exact E|]. intros o. rewrite R, heldl_app. cbn [heldl]. lia. }
    rewrite E1. cbn [bind].
    destruct (IH a m w1 p (fun o => H o + held c' o) H1 Np) as (r' & w2 & E2 & R2 & L2 & W2 & G2).
    { intros o. pose proof (held_nn c' o). specialize (NH o). lia. }
    { destruct W1 as [E R]. split; [exact E|]. intros o. rewrite R. lia. }
    rewrite E2. cbn [bind]. exists (c' :: r'), w2. split; [reflexivity|]. cbn [rev length]. split; [|split; [rewrite app_length; cbn [length]; lia|split]].
    + apply rchain_app. exists m. split; [exact R2|]. exists b. split; [exact R1|apply seq_refl].
    + destruct W2 as [E R]. split; [exact E|]. intros o. rewrite R. cbn [heldl]. lia.
    + intros o. rewrite G2, G1, existsb_app. cbn [existsb]. rewrite fupd_eq, orb_false_r, (Z.eqb_sym o).
      destruct (c_obj c =? o), (regen w o), (existsb (fun c0 => c_obj c0 =? o) r); reflexivity.
Qed.
Lemma redo_list cs : forall a b w p H, rchain a cs b -> nn p -> nn H -> winv w a p (fun o => H o + heldl cs o) ->
  exists r w', swap_all cs w = Val (r, w') /\ uchain a r b /\ length r = length cs /\ winv w' b p (fun o => H o + heldl r o)
    /\ (forall o, regen w' o = regen w o || existsb (fun c => c_obj c =? o) cs).
Proof.
  induction cs as [|c cs IH]; intros a b w p H HC Np NH HW.
  - cbn [rchain] in HC. exists [], w. cbn [rev swap_all uchain length heldl] in *. repeat split; auto; try (apply HC).
    + destruct HW as [E _]. destruct HC. congruence.
    + destruct HW as [_ R], HC as [_ R2]. intros o. rewrite R, R2. reflexivity.
    + intros o. cbn. now rewrite orb_false_r.
  - cbn [rchain] in HC. destruct HC as (m & H1 & H2). cbn [swap_all].
    destruct (swap_redo a c m w p (fun o => H o + heldl cs o) H1 Np) as (c' & w1 & E1 & R1 & O1 & W1 & G1).
    { intros o. pose proof (heldl_nn cs o). specialize (NH o). lia. }
    { destruct HW as [E R]. split; [exact E|]. intros o. rewrite R. cbn [heldl]. lia. }
    rewrite E1. cbn [bind].
    destruct (IH m b w1 p (fun o => H o + held c' o) H2 Np) as (r' & w2 & E2 & R2 & L2 & W2 & G2).
    { intros o. pose proof (held_nn c' o). specialize (NH o). lia. }
    { destruct W1 as [E R]. split; [exact E|]. intros o. rewrite R. lia. }
    rewrite E2. cbn [bind]. exists (c' :: r'), w2. split; [reflexivity|]. split; [exists m; auto|]. cbn [length]. split; [lia|]. split.
    + destruct W2 as [E R]. split; [exact E|]. intros o. rewrite R. cbn [heldl]. lia.
    + intros o. rewrite G2, G1. cbn [existsb]. rewrite fupd_eq, (Z.eqb_sym o).
      destruct (c_obj c =? o), (regen w o), (existsb (fun c0 => c_obj c0 =? o) cs); reflexivity.
Qed.

(** deleting *)
Lemma release_opt_ok v w (X : Z -> Z) : (forall q, rc w q = X q + b2z (negb (v =? 0) && (v =? q))) -> (forall q, 0 <= X q) ->
  exists w', release_opt v w = Val w' /\ cells w' = cells w /\ (forall q, rc w' q = X q) /\ regen w' = regen w.
Proof.
  intros HR HN. unfold release_opt. destruct (Z.eqb_spec v 0) as [->|Hv].
  - exists w. repeat split; auto. intros q. rewrite HR. cbn. lia.
  - rewrite release_ok by (rewrite HR; cbn [negb andb]; rewrite Z.eqb_refl; cbn [b2z]; specialize (HN v); lia).
    eexists. split; [reflexivity|]. cbn [cells rc regen]. repeat split. intros q. rewrite fupd_eq.
    destruct (Z.eqb_spec q v) as [->|Hq]; rewrite HR; cbn [negb andb].
    + rewrite Z.eqb_refl. cbn [b2z]. lia.
    + destruct (Z.eqb_spec v q); [congruence|]. cbn [b2z]. lia.
Qed.
Lemma delete_change_ok c w s p H : winv w s p (fun o => H o + held c o) -> nn p -> nn H -> nn (refs s) ->
  exists w', delete_change c w = Val w' /\ winv w' s p H /\ regen w' = regen w.
Proof.
  intros [E R] Np NH Ns. unfold delete_change. destruct c as [o k]. cbn [c_obj c_kind] in *.
  assert (G : exists w1, (match k with KRef _ _ v1 v2 _ => let* w := release_opt v1 w in release_opt v2 w | _ => Val w end) = Val w1
    /\ cells w1 = cells w /\ (forall q, rc w1 q = p q + refs s q + H q + b2z (o =? q)) /\ regen w1 = regen w).
  { destruct k as [l v|l v v1 v2 sw| |r]; try (exists w; repeat split; auto; intros q; rewrite R; unfold held; cbn [c_obj c_kind]; lia).
    destruct (release_opt_ok v1 w (fun q => p q + refs s q + H q + b2z (o =? q) + b2z (negb (v2 =? 0) && (v2 =? q)))) as (w1 & -> & C1 & R1 & G1).
    - intros q. rewrite R. unfold held. cbn [c_obj c_kind]. lia.
    - intros q. pose proof (b2z_nn (o =? q)). pose proof (b2z_nn (negb (v2 =? 0) && (v2 =? q))). specialize (Np q). specialize (NH q). specialize (Ns q). lia.
    - cbn [bind]. destruct (release_opt_ok v2 w1 (fun q => p q + refs s q + H q + b2z (o =? q))) as (w2 & -> & C2 & R2 & G2).
      + intros q. rewrite R1. reflexivity.
      + intros q. pose proof (b2z_nn (o =? q)). specialize (Np q). specialize (NH q). specialize (Ns q). lia.
      + exists w2. repeat split; congruence || auto. }
  destruct G as (w1 & -> & C1 & R1 & G1). cbn [bind].
  rewrite release_ok by (rewrite R1, Z.eqb_refl; cbn [b2z]; specialize (Np o); specialize (NH o); specialize (Ns o); lia).
  eexists. split; [reflexivity|]. cbn [cells rc regen]. split; [|congruence]. split; [cbn [cells]; congruence|]. intros q. cbn [rc].
  rewrite fupd_eq. destruct (Z.eqb_spec q o) as [->|Hq]; rewrite R1.
  - rewrite Z.eqb_refl. cbn [b2z]. lia.
  - destruct (Z.eqb_spec o q); [congruence|]. cbn [b2z]. lia.
Qed.
Lemma delete_all_ok cs : forall w s p H, winv w s p (fun o => H o + heldl cs o) -> nn p -> nn H -> nn (refs s) ->
  exists w', delete_all cs w = Val w' /\ winv w' s p H /\ regen w' = regen w.
Proof.
  induction cs as [|c r IH]; intros w s p H HW Np NH Ns; cbn [delete_all].
  - exists w. split; [reflexivity|]. split; [|reflexivity]. destruct HW as [E R]. split; [exact E|]. intros o. rewrite R. cbn [heldl]. lia.
  - destruct (delete_change_ok c w s p (fun o => H o + heldl r o)) as (w1 & -> & W1 & G1); auto.
    { destruct HW as [E R]. split; [exact E|]. intros o. rewrite R. cbn [heldl]. lia. }
    { intros o. pose proof (heldl_nn r o). specialize (NH o). lia. }
    cbn [bind]. destruct (IH w1 s p H W1 Np NH Ns) as (w2 & -> & W2 & G2). exists w2. repeat split; congruence || apply W2.
Qed.
Lemma delete_steps_ok ss : forall w s p H, winv w s p (fun o => H o + heldss ss o) -> nn p -> nn H -> nn (refs s) ->
  exists w', delete_steps ss w = Val w' /\ winv w' s p H /\ regen w' = regen w.
Proof.
  induction ss as [|c r IH]; intros w s p H HW Np NH Ns; cbn [delete_steps].
  - exists w. split; [reflexivity|]. split; [|reflexivity]. destruct HW as [E R]. split; [exact E|]. intros o. rewrite R. cbn [heldss]. lia.
  - unfold delete_step. destruct (delete_all_ok (rev c) w s p (fun o => H o + heldss r o)) as (w1 & -> & W1 & G1); auto.
    { destruct HW as [E R]. split; [exact E|]. intros o. rewrite R, heldl_rev. cbn [heldss]. lia. }
    { intros o. pose proof (heldss_nn r o). specialize (NH o). lia. }
    cbn [bind]. destruct (IH w1 s p H W1 Np NH Ns) as (w2 & -> & W2 & G2). exists w2. repeat split; congruence || apply W2.
Qed.
