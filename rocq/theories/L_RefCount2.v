(** L_RefCount2.v -- the invariant is preserved by every step. *)
From Coq Require Import ZArith List Bool Lia.
From Verif Require Import Base M_RefCount L_RefCount.
Import ListNotations.
Open Scope nat_scope.
Lemma count_mod raw : count_of raw = (raw mod 2147483648)%Z.
Proof. unfold count_of. change 2147483647%Z with (Z.ones 31). rewrite Z.land_ones by lia. reflexivity. Qed.
Ltac weights := intros ?o; rewrite ?sumf_cons; cbn [dtorW zeroW countW]; repeat split; lia.
Ltac poolkeep := let q := fresh "q" in let W := fresh "W" in let I := fresh "I" in intros q W I; repeat (destruct I as [<-|I]; [first [discriminate W|now left]|]); first [now right|now (right; right)|exact I].
Lemma access_alive s o k (P : st -> Prop) : inv s -> 0 < cnt o (refs s) -> (forall raw, nth_error (heap s) o = Some (Alive raw) -> P (k raw)) -> P (access s o k).
Proof. intros H C HP. pose proof (i_D s H o) as D. unfold objinv in D. unfold access. destruct (nth_error (heap s) o) as [[raw| |]|]; try (exfalso; lia). now apply HP. Qed.
(** a statement that only moves the thread on *)
Lemma inv_goto s t k k' : inv s -> nth_error (threads s) t = Some k -> stack_ok t (refs s) k' -> sumf critW k' = sumf critW k -> sumf poolW k' = sumf poolW k ->
  (forall o, sumf (dtorW o) k' = sumf (dtorW o) k /\ sumf (zeroW o) k' = sumf (zeroW o) k /\ sumf (countW o) k' = sumf (countW o) k) -> (forall p, poolW p = 1 -> In p k -> In p k') -> inv (goto s t k').
Proof.
  intros [He HA HB HC HD HE HF] Hk Hs W1 W2 W3 Hi. constructor; cbn [goto err threads refs heap lockC lockP entries head top added drained deleted]; auto.
  - eapply A_upd; eauto. - eapply B_same; eauto. - eapply B_same; eauto. - eapply D_same; eauto. - eapply F_keep; eauto.
Qed.
Lemma holder_is f th l t k p : invB f th l -> nth_error th t = Some (p :: k) -> f p = 1 -> l = Some t.
Proof. intros [H _] Hk W. specialize (H t _ Hk). rewrite sumf_cons, W in H. destruct l as [x|]; cbn [holds] in H; [|lia]. destruct (Nat.eqb_spec x t); [congruence|lia]. Qed.
Lemma tot_lt f th t k : nth_error th t = Some k -> sumf f k <= tot f th. Proof. apply tot_le. Qed.
Lemma lock_step s t p k p' : inv s -> nth_error (threads s) t = Some (p :: k) -> lockC s = None -> critW p = 0 -> critW p' = 1 -> poolW p = 0 -> poolW p' = 0 -> plain p' -> needs p' = needs p ->
  (forall o, dtorW o p' = dtorW o p /\ zeroW o p' = zeroW o p /\ countW o p' = countW o p) -> inv (goto (set_lockC s (Some t)) t (p' :: k)).
Proof.
  intros [He HA HB HC HD HE HF] Hk L C0 C1 P0 P1 Pl Nd W. constructor; cbn [goto set_lockC err threads refs heap lockC lockP entries head top added drained deleted]; auto.
  - destruct (HA t _ Hk) as (A1 & A2 & A3). eapply A_upd; eauto. repeat split; auto. intros o Ho. apply A3. congruence.
  - rewrite L in HB. eapply B_lock; eauto. rewrite !sumf_cons. lia.
  - eapply B_same; eauto. rewrite !sumf_cons. lia.
  - eapply D_same; eauto. intros o. rewrite !sumf_cons. destruct (W o) as (-> & -> & ->). auto.
  - eapply F_keep; eauto. intros q Wq [<-|I]; [congruence|now right].
Qed.
Lemma unlock_step s t p k k' : inv s -> nth_error (threads s) t = Some (p :: k) -> critW p = 1 -> poolW p = 0 -> sumf critW k' = sumf critW k -> sumf poolW k' = sumf poolW k -> stack_ok t (refs s) k' ->
  (forall o, sumf (dtorW o) k' = sumf (dtorW o) (p :: k) /\ sumf (zeroW o) k' = sumf (zeroW o) (p :: k) /\ sumf (countW o) k' = sumf (countW o) (p :: k)) -> (forall q, poolW q = 1 -> In q k -> In q k') -> inv (goto (set_lockC s None) t k').
Proof.
  intros [He HA HB HC HD HE HF] Hk C1 P0 E1 E2 Ok W Hi. constructor; cbn [goto set_lockC err threads refs heap lockC lockP entries head top added drained deleted]; auto.
  - eapply A_upd; eauto. - eapply B_unlock; eauto. rewrite sumf_cons. lia. - eapply B_same; eauto. rewrite sumf_cons. lia. - eapply D_same; eauto. - eapply F_keep; eauto. intros q Wq [<-|I]; [congruence|auto].
Qed.
Lemma low_ok t r k : Forall low k -> stack_ok t r k.
Proof. intros H. destruct k as [|p k]; [exact I|]. apply Forall_cons_iff in H as [L H]. destruct p; try contradiction; repeat split; auto; discriminate. Qed.
(** retain: the counter *)
Lemma retinc_step s t o k : inv s -> nth_error (threads s) t = Some (RetInc o :: k) -> (Z.of_nat (S (cnt o (refs s))) < 2147483648)%Z ->
  inv (access s o (fun raw => if Z.eqb raw 2147483647 then fail s else goto (set_refs (set_obj s o (Alive (raw + 1))) ((OThread t, o) :: refs s)) t (RetUnlock o :: k))).
Proof.
  intros H Hk Lim. pose proof H as [He HA HB HC HD HE HF]. destruct (HA t _ Hk) as (A1 & A2 & A3). assert (C0 : 0 < cnt o (refs s)) by (eapply cnt_in; now apply A3). apply access_alive; [exact H|exact C0|]. intros raw Hr.
  pose proof (HD o) as D. unfold objinv in D. rewrite Hr in D. destruct D as (D1 & D2 & D3 & D4 & D5).
  assert (R : raw <> 2147483647%Z /\ raw <> (-1)%Z) by (split; intros ->; cbn in D2; lia). destruct R as [R1 R2]. destruct (Z.eqb_spec raw 2147483647); [congruence|].
  constructor; cbn [goto set_refs set_obj err threads refs heap lockC lockP entries head top added drained deleted]; auto.
  - eapply A_upd; [exact HA|exact Hk|repeat split; auto; discriminate|intros; now right].
  - eapply B_same; eauto. - eapply B_same; eauto.
  - intros o'. pose proof (HD o') as D. unfold objinv in *. pose proof (tot_upd (dtorW o') _ t _ (RetUnlock o :: k) Hk) as T1. pose proof (tot_upd (zeroW o') _ t _ (RetUnlock o :: k) Hk) as T2. pose proof (tot_upd (countW o') _ t _ (RetUnlock o :: k) Hk) as T3. rewrite !sumf_cons in *. cbn [dtorW zeroW countW] in *.
    rewrite cnt_cons. cbn [snd]. destruct (Nat.eqb_spec o o') as [<-|N].
    + rewrite (upd_same _ _ _ _ Hr). split; [lia|]. split; [|lia].
      rewrite Zplus_mod, D2. rewrite Z.mod_small; cbn; lia.
    + rewrite upd_other by exact N. cbn [plus]. destruct (nth_error (heap s) o') as [[r| |]|]; intuition lia.
  - destruct HE as [E1 E2]. split; [exact E1|]. intros o'. rewrite E2. destruct (Nat.eq_dec o o') as [<-|N]; [rewrite (upd_same _ _ _ _ Hr), Hr; split; intros [X|X]; discriminate|now rewrite upd_other].
  - eapply F_keep; [exact HF|exact Hk|poolkeep|]. intros x. rewrite pcnt_cons. reflexivity.
Qed.
Lemma reldec_step s t o k : inv s -> nth_error (threads s) t = Some (RelDec o :: k) ->
  inv (access s o (fun raw => if Z.eqb raw (-2147483648) then fail s else goto (set_refs (set_obj s o (Alive (raw - 1))) (drop1 (OThread t, o) (refs s))) t (RelCount o :: k))).
Proof.
  intros H Hk. pose proof H as [He HA HB HC HD HE HF]. destruct (HA t _ Hk) as (A1 & A2 & A3). assert (In0 : In (OThread t, o) (refs s)) by now apply A3. assert (C0 : 0 < cnt o (refs s)) by (eapply cnt_in; exact In0). apply access_alive; [exact H|exact C0|]. intros raw Hr.
  pose proof (HD o) as D. unfold objinv in D. rewrite Hr in D. destruct D as (D1 & D2 & D3 & D4 & D5).
  assert (R : raw <> (-2147483648)%Z) by (intros ->; cbn in D2; lia). destruct (Z.eqb_spec raw (-2147483648)); [congruence|].
  assert (T0 : tot critW (threads s) = 1) by (destruct HB as [B1 B2]; rewrite B2; pose proof (holder_is critW _ _ _ _ _ (conj B1 B2) Hk eq_refl) as ->; reflexivity).
  constructor; cbn [goto set_refs set_obj err threads refs heap lockC lockP entries head top added drained deleted]; auto.
  - eapply A_upd; [exact HA|exact Hk|repeat split; auto; discriminate|intros; apply in_drop1; [assumption|congruence]].
  - eapply B_same; eauto. - eapply B_same; eauto.
  - intros o'. pose proof (HD o') as D. unfold objinv in *. pose proof (tot_upd (dtorW o') _ t _ (RelCount o :: k) Hk) as T1. pose proof (tot_upd (zeroW o') _ t _ (RelCount o :: k) Hk) as T2. pose proof (tot_upd (countW o') _ t _ (RelCount o :: k) Hk) as T3.
    pose proof (tot_upd critW _ t _ (RelCount o :: k) Hk) as T4. pose proof (tot_mono _ _ (upd (threads s) t (RelCount o :: k)) (count_crit o')) as T5. rewrite !sumf_cons in *. cbn [dtorW zeroW countW critW] in *.
    pose proof (cnt_drop1 o' (OThread t, o) _ In0) as CD. cbn [snd] in CD. destruct (Nat.eqb_spec o o') as [<-|N].
    + rewrite (upd_same _ _ _ _ Hr). split; [lia|]. split; [|lia].
      rewrite Zminus_mod, D2. rewrite Z.mod_small; cbn; lia.
    + rewrite upd_other by exact N. replace (cnt o' (drop1 (OThread t, o) (refs s))) with (cnt o' (refs s)) by lia. destruct (nth_error (heap s) o') as [[r| |]|]; intuition lia.
  - destruct HE as [E1 E2]. split; [exact E1|]. intros o'. rewrite E2. destruct (Nat.eq_dec o o') as [<-|N]; [rewrite (upd_same _ _ _ _ Hr), Hr; split; intros [X|X]; discriminate|now rewrite upd_other].
  - eapply F_keep; [exact HF|exact Hk|poolkeep|]. intros x. pose proof (pcnt_drop1 x _ _ In0) as P. cbn in P. lia.
Qed.
Lemma relcount_step s t o k : inv s -> nth_error (threads s) t = Some (RelCount o :: k) -> inv (access s o (fun raw => goto s t (RelUnlock o (count_of raw) :: k))).
Proof.
  intros H Hk. pose proof H as [He HA HB HC HD HE HF]. destruct (HA t _ Hk) as (A1 & A2 & A3).
  pose proof (HD o) as D. unfold access. pose proof (tot_le (countW o) _ _ _ Hk) as L. rewrite sumf_cons in L. cbn [countW] in L. rewrite Nat.eqb_refl in L.
  unfold objinv in D. destruct (nth_error (heap s) o) as [[raw| |]|] eqn:Hr; try (exfalso; lia). destruct D as (D1 & D2 & D3 & D4 & D5).
  constructor; cbn [goto err threads refs heap lockC lockP entries head top added drained deleted]; auto.
  - eapply A_upd; [exact HA|exact Hk| |auto]. repeat split; auto; discriminate.
  - eapply B_same; eauto. - eapply B_same; eauto.
  - intros o'. pose proof (HD o') as D. unfold objinv in *. pose proof (tot_upd (dtorW o') _ t _ (RelUnlock o (count_of raw) :: k) Hk) as T1. pose proof (tot_upd (zeroW o') _ t _ (RelUnlock o (count_of raw) :: k) Hk) as T2. pose proof (tot_upd (countW o') _ t _ (RelUnlock o (count_of raw) :: k) Hk) as T3.
    rewrite !sumf_cons in *. cbn [dtorW zeroW countW] in *. rewrite count_mod in *. destruct (Nat.eqb_spec o o') as [<-|N]; cbn [andb] in *.
    + rewrite Hr in *. rewrite D2 in *. destruct (Z.eqb_spec (Z.of_nat (cnt o (refs s))) 0); intuition lia.
    + destruct (nth_error (heap s) o') as [[r| |]|]; intuition lia.
  - eapply F_keep; eauto. poolkeep.
Qed.
Lemma reldelete_step s t o k : inv s -> nth_error (threads s) t = Some (RelDelete o 0 :: k) ->
  inv (access s o (fun _ => goto (set_refs (log_delete (set_obj s o Dying) o) (inherit o t (refs s))) t (RelDtor o :: k))).
Proof.
  intros H Hk. pose proof H as [He HA HB HC HD HE HF]. destruct (HA t _ Hk) as (A1 & A2 & A3).
  pose proof (HD o) as D. unfold access. pose proof (tot_le (zeroW o) _ _ _ Hk) as L. rewrite sumf_cons in L. cbn [zeroW] in L. rewrite Nat.eqb_refl in L. cbn in L.
  unfold objinv in D. destruct (nth_error (heap s) o) as [[raw| |]|] eqn:Hr; try (exfalso; lia). destruct D as (D1 & D2 & D3 & D4 & D5).
  constructor; cbn [goto set_refs log_delete set_obj err threads refs heap lockC lockP entries head top added drained deleted]; auto.
  - eapply A_upd; [exact HA|exact Hk|repeat split; auto; discriminate|intros; now apply in_inherit].
  - eapply B_same; eauto. - eapply B_same; eauto.
  - intros o'. pose proof (HD o') as D. unfold objinv in *. pose proof (tot_upd (dtorW o') _ t _ (RelDtor o :: k) Hk) as T1. pose proof (tot_upd (zeroW o') _ t _ (RelDtor o :: k) Hk) as T2. pose proof (tot_upd (countW o') _ t _ (RelDtor o :: k) Hk) as T3.
    rewrite !sumf_cons in *. cbn [dtorW zeroW countW] in *. rewrite cnt_inherit. destruct (Nat.eqb_spec o o') as [<-|N]; cbn [andb Z.eqb] in *.
    + rewrite (upd_same _ _ _ _ Hr). lia.
    + rewrite upd_other by exact N. destruct (nth_error (heap s) o') as [[r| |]|]; intuition lia.
  - destruct HE as [E1 E2]. assert (NI : ~ In o (deleted s)) by (rewrite E2, Hr; intros [X|X]; discriminate). split.
    + apply NoDup_rev in E1. rewrite <- (rev_involutive (deleted s ++ [o])). apply NoDup_rev. rewrite rev_app_distr. cbn. constructor; [now rewrite <- in_rev|exact E1].
    + intros o'. rewrite in_app_iff, E2. cbn [In]. destruct (Nat.eq_dec o o') as [<-|N]; [rewrite (upd_same _ _ _ _ Hr); intuition|rewrite upd_other by exact N; intuition congruence].
  - eapply F_keep; [exact HF|exact Hk|poolkeep|]. intros x. apply pcnt_inherit.
Qed.
