(** L_RefCount3.v -- pool steps, client actions, the invariant holds in every reachable state. *)
From Coq Require Import ZArith List Bool Lia.
From Verif Require Import Base M_RefCount L_RefCount L_RefCount2.
Import ListNotations.
Open Scope nat_scope.
Ltac projs := cbn [goto set_refs set_obj set_lockC set_lockP set_pool log_delete log_add log_drain new_obj err threads refs heap lockC lockP entries head top added drained deleted].
(** a statement under the pool mutex that changes the pool *)
Lemma pool_step s t p k k' E h tp r ad dr : inv s -> nth_error (threads s) t = Some (p :: k) -> poolW p = 1 -> critW p = 0 -> sumf critW k' = sumf critW k -> sumf poolW k' = S (sumf poolW k) -> stack_ok t r k' ->
  (forall t' o, t' <> t -> In (OThread t', o) (refs s) -> In (OThread t', o) r) -> (forall o, cnt o r = cnt o (refs s)) ->
  (forall o, sumf (dtorW o) k' = sumf (dtorW o) (p :: k) /\ sumf (zeroW o) k' = sumf (zeroW o) (p :: k) /\ sumf (countW o) k' = sumf (countW o) (p :: k)) ->
  (exists q, In q k' /\ poolW q = 1 /\ exists es pend, shape (Some q) E h tp es pend /\ NoDup es /\ ad = dr ++ pend /\ (forall o, pcnt o r = count_occ Nat.eq_dec pend o)) ->
  inv (mkSt (upd (threads s) t k') (heap s) r (lockC s) (lockP s) E h tp (err s) (deleted s) ad dr).
Proof.
  intros [He HA HB HC HD HE HF] Hk P1 C0 S1 S2 Ok Hr Hc W (q & Iq & Wq & X). constructor; projs; auto.
  - eapply A_upd; [exact HA|exact Hk|exact Ok|exact Hr]. - eapply B_same; [exact HB|exact Hk|rewrite sumf_cons; lia]. - eapply B_same; [exact HC|exact Hk|rewrite sumf_cons; lia].
  - eapply D_same; eauto. - eapply F_set; [exact Hk|eapply holder_is; eauto|exact Iq|exact Wq|exact X].
Qed.
Lemma poollock_step s t p k p' : inv s -> nth_error (threads s) t = Some (p :: k) -> lockP s = None -> critW p = 0 -> critW p' = 0 -> poolW p = 0 -> poolW p' = 1 -> plain p' -> needs p' = needs p ->
  (forall o, dtorW o p' = dtorW o p /\ zeroW o p' = zeroW o p /\ countW o p' = countW o p) -> (forall E h tp es pend, regular E h tp es pend -> shape (Some p') E h tp es pend) -> inv (goto (set_lockP s (Some t)) t (p' :: k)).
Proof.
  intros [He HA HB HC HD HE HF] Hk L C0 C1 P0 P1 Pl Nd W Sh. constructor; projs; auto.
  - destruct (HA t _ Hk) as (A1 & A2 & A3). eapply A_upd; [exact HA|exact Hk| |auto]. repeat split; auto. intros o Ho. apply A3. congruence.
  - eapply B_same; [exact HB|exact Hk|rewrite !sumf_cons; lia].
  - rewrite L in HC. eapply B_lock; [exact HC|exact Hk|rewrite !sumf_cons; lia].
  - eapply D_same; eauto. intros o. rewrite !sumf_cons. destruct (W o) as (-> & -> & ->). auto.
  - destruct HF as (m & es & pend & Hm & Hs & X). eapply F_set with (p := p'); [exact Hk|reflexivity|now left|exact P1|]. exists es, pend. split; [|exact X]. apply Sh. destruct m as [q|]; [|exact Hs]. destruct Hm as (_ & ? & ? & X2 & _). congruence.
Qed.
Lemma poolunlock_step s t p k : inv s -> nth_error (threads s) t = Some (p :: k) -> critW p = 0 -> poolW p = 1 -> (forall o, dtorW o p = 0 /\ zeroW o p = 0 /\ countW o p = 0) ->
  (forall E h tp es pend, shape (Some p) E h tp es pend -> regular E h tp es pend) -> inv (goto (set_lockP s None) t k).
Proof.
  intros [He HA HB HC HD HE HF] Hk C0 P1 W Sh. constructor; projs; auto.
  - destruct (HA t _ Hk) as (A1 & A2 & A3). eapply A_upd; [exact HA|exact Hk|now apply low_ok|auto].
  - eapply B_same; [exact HB|exact Hk|rewrite !sumf_cons; lia].
  - eapply B_unlock; [exact HC|exact Hk|rewrite !sumf_cons; lia].
  - eapply D_same; eauto. intros o. rewrite !sumf_cons. destruct (W o) as (-> & -> & ->). auto.
  - destruct (F_get _ _ _ _ _ _ _ _ _ _ _ HF HC Hk P1) as (es & pend & Hs & X). apply F_none. exists es, pend. split; [|exact X]. apply Sh. exact Hs.
Qed.
Lemma nth_app_l {A} (l : list A) x i : i < length l -> nth_error (l ++ [x]) i = nth_error l i. Proof. apply nth_error_app1. Qed.
Lemma nth_app_last {A} (l : list A) x : nth_error (l ++ [x]) (length l) = Some x. Proof. rewrite nth_error_app2, Nat.sub_diag by lia. reflexivity. Qed.
Lemma count_occ_snoc l (x o : nat) : count_occ Nat.eq_dec (l ++ [x]) o = count_occ Nat.eq_dec l o + (if x =? o then 1 else 0).
Proof. rewrite count_occ_app. cbn. destruct (Nat.eq_dec x o) as [->|N]; [now rewrite Nat.eqb_refl|]. destruct (Nat.eqb_spec x o); [congruence|reflexivity]. Qed.
Lemma micro_inv s t s' : inv s -> micro t s = Some s' -> (forall o, (Z.of_nat (nrefs o s) < 2147483647)%Z) -> inv s'.
Proof.
  intros H M Lim. pose proof H as [He HA HB HC HD HE HF]. unfold micro in M. destruct (nth_error (threads s) t) as [[|p k]|] eqn:Hk; try discriminate. destruct (HA t _ Hk) as (A1 & A2 & A3).
  assert (NC : forall o, needs p = Some o -> 0 < cnt o (refs s)) by (intros o Ho; eapply cnt_in; apply A3; exact Ho).
  assert (FG : poolW p = 1 -> exists es pend, shape (Some p) (entries s) (head s) (top s) es pend /\ NoDup es /\ added s = drained s ++ pend /\ (forall o, pcnt o (refs s) = count_occ Nat.eq_dec pend o)) by (intros W; eapply F_get; eauto).
  destruct p as [o|o|o|o|o|o|o|o|o c|o c|o|o|o|o|o e|o e| | | |[e|]|e| | | |o b|o b n]; cbn [needs plain] in *; try contradiction; try discriminate.
  - (* RetGet *) injection M as <-. apply access_alive; [exact H|now apply NC|]. intros raw _. eapply inv_goto; [exact H|exact Hk|repeat split; auto|reflexivity|reflexivity|weights|poolkeep].
  - (* RetLock *) destruct (lockC s) eqn:L; [discriminate|]. injection M as <-. eapply lock_step; [exact H|exact Hk|exact L|reflexivity..|exact I|reflexivity|auto].
  - (* RetInc *) injection M as <-. apply retinc_step; auto. specialize (Lim o). unfold nrefs in Lim. fold (cnt o (refs s)) in Lim. lia.
  - (* RetUnlock *) injection M as <-. eapply unlock_step; [exact H|exact Hk|reflexivity..|now apply low_ok|weights|auto].
  - (* RelGet *) injection M as <-. apply access_alive; [exact H|now apply NC|]. intros raw _. eapply inv_goto; [exact H|exact Hk|repeat split; auto|reflexivity|reflexivity|weights|poolkeep].
  - (* RelLock *) destruct (lockC s) eqn:L; [discriminate|]. injection M as <-. eapply lock_step; [exact H|exact Hk|exact L|reflexivity..|exact I|reflexivity|auto].
  - (* RelDec *) injection M as <-. now apply reldec_step.
  - (* RelCount *) injection M as <-. now apply relcount_step.
  - (* RelUnlock *) injection M as <-. eapply unlock_step; [exact H|exact Hk|reflexivity..|repeat split; auto; discriminate|intros o'; rewrite !sumf_cons; cbn [dtorW zeroW countW]; auto|intros q W I; now right].
  - (* RelDelete *) injection M as <-. destruct (Z.eqb_spec c 0) as [->|N]; [now apply reldelete_step|]. eapply inv_goto; [exact H|exact Hk|now apply low_ok|reflexivity|reflexivity| |poolkeep].
    intros o'. rewrite !sumf_cons. cbn [dtorW zeroW countW]. destruct (Z.eqb_spec c 0); [congruence|]. rewrite andb_false_r. auto.
  - (* AutGet *) injection M as <-. apply access_alive; [exact H|now apply NC|]. intros raw _. eapply inv_goto; [exact H|exact Hk|repeat split; auto|reflexivity|reflexivity|weights|poolkeep].
  - (* AutLock *) destruct (lockP s) eqn:L; [discriminate|]. injection M as <-. eapply poollock_step; [exact H|exact Hk|exact L|reflexivity..|exact I|reflexivity|auto|auto].
  - (* AutNew *) injection M as <-. destruct (FG eq_refl) as (es & pend & [Sh1 Sh2] & X). pose proof (chain_valid _ _ _ _ Sh1) as V.
    assert (NI : ~ In (length (entries s)) es) by (intros I; destruct (V _ I) as (? & ? & E); assert (length (entries s) < length (entries s)) by (apply nth_error_Some; congruence); lia).
    eapply (pool_step s t); [exact H|exact Hk|reflexivity..|repeat split; auto|auto|auto|weights|].
    exists (AutLink o (length (entries s))). split; [now left|]. split; [reflexivity|]. exists es, pend. split; [|exact X]. split; [split; [|exact Sh2]|split; [apply nth_app_last|exact NI]].
    eapply chain_ext; [exact Sh1|]. intros x Hx. apply nth_app_l. destruct (V _ Hx) as (? & ? & E). apply nth_error_Some. congruence.
  - (* AutLink *) injection M as <-. destruct (FG eq_refl) as (es & pend & ([Sh1 Sh2] & He1 & NI) & Nd & Ad & Pc). assert (In0 : In (OThread t, o) (refs s)) by now apply A3.
    assert (R1 : forall t' x, t' <> t -> In (OThread t', x) (refs s) -> In (OThread t', x) (move (OThread t, o) (OPool, o) (refs s))) by (intros t' x Nt Hx; right; apply in_drop1; [exact Hx|congruence]).
    assert (R2 : forall x, cnt x (move (OThread t, o) (OPool, o) (refs s)) = cnt x (refs s)) by (intros x; unfold move; rewrite cnt_cons; pose proof (cnt_drop1 x _ _ In0) as C; cbn [snd] in *; lia).
    assert (R3 : forall x, pcnt x (move (OThread t, o) (OPool, o) (refs s)) = count_occ Nat.eq_dec (pend ++ [o]) x).
    { intros x. unfold move. rewrite pcnt_cons, count_occ_snoc, <- Pc. pose proof (pcnt_drop1 x _ _ In0) as P. cbn in P. unfold ref_eqb. cbn [fst snd owner_eqb andb]. rewrite (Nat.eqb_sym x o). lia. }
    assert (Nd' : NoDup (es ++ [e])). { rewrite <- (rev_involutive (es ++ [e])). apply NoDup_rev. rewrite rev_app_distr. cbn. constructor; [now rewrite <- in_rev|now apply NoDup_rev]. }
    cbv zeta. destruct (top s) as [q|] eqn:Tp.
    + symmetry in Sh2. pose proof (last_opt_in _ _ Sh2) as Iq. destruct (chain_valid _ _ _ _ Sh1 q Iq) as (o' & n' & Eq). unfold entry. rewrite Eq.
      eapply (pool_step s t); [exact H|exact Hk|reflexivity..|repeat split; auto; discriminate|exact R1|exact R2|weights|].
      exists (AutTop o e). split; [now left|]. split; [reflexivity|]. exists (es ++ [e]), (pend ++ [o]). split; [split|]; [|apply last_opt_app|].
      * eapply chain_app; [exact He1|reflexivity|exact Sh1|intros ->; discriminate|exact Sh2|exact Nd|exact NI|exact Eq].
      * split; [exact Nd'|]. split; [projs; rewrite Ad; now rewrite <- app_assoc|exact R3].
    + symmetry in Sh2. apply last_opt_none in Sh2. subst es. destruct pend; cbn [chain] in Sh1; [|contradiction].
      eapply (pool_step s t); [exact H|exact Hk|reflexivity..|repeat split; auto; discriminate|exact R1|exact R2|weights|].
      exists (AutTop o e). split; [now left|]. split; [reflexivity|]. exists ([] ++ [e]), ([] ++ [o]). split; [split|]; [|apply last_opt_app|].
      * cbn [app chain]. split; [reflexivity|]. exists None. auto.
      * split; [exact Nd'|]. split; [projs; rewrite Ad; now rewrite <- app_assoc|exact R3].
  - (* AutTop *) injection M as <-. destruct (FG eq_refl) as (es & pend & [Sh1 Sh2] & X).
    eapply (pool_step s t); [exact H|exact Hk|reflexivity..|repeat split; auto; discriminate|auto|auto|weights|]. exists AutUnlock. split; [now left|]. split; [reflexivity|]. exists es, pend. split; [split; [exact Sh1|now symmetry]|exact X].
  - (* AutUnlock *) injection M as <-. eapply poolunlock_step; [exact H|exact Hk|reflexivity..|auto|auto].
  - (* DraLock *) destruct (lockP s) eqn:L; [discriminate|]. injection M as <-. eapply poollock_step; [exact H|exact Hk|exact L|reflexivity..|exact I|reflexivity|auto|auto].
  - (* DraHead *) injection M as <-. destruct (FG eq_refl) as (es & pend & [Sh1 Sh2] & X).
    eapply (pool_step s t); [exact H|exact Hk|reflexivity..|repeat split; auto; discriminate|auto|auto|weights|]. exists (DraLoop (head s)). split; [now left|]. split; [reflexivity|]. exists es, pend. split; [exact Sh1|exact X].
  - (* DraLoop Some *) injection M as <-. destruct (FG eq_refl) as (es & pend & Sh1 & Nd & Ad & Pc). cbn [shape] in Sh1. destruct es as [|x es]; [destruct pend; cbn [chain] in Sh1; [discriminate|contradiction]|]. destruct pend as [|o pend]; cbn [chain] in Sh1; [contradiction|]. destruct Sh1 as (Ex & n & En & Ch). injection Ex as <-.
    apply NoDup_cons_iff in Nd as [NI Nd]. unfold entry. rewrite En.
    assert (In0 : In (OPool, o) (refs s)) by (apply pcnt_in; rewrite Pc; cbn; destruct (Nat.eq_dec o o); [lia|congruence]).
    eapply (pool_step s t); [exact H|exact Hk|reflexivity|reflexivity|reflexivity|reflexivity| | | |weights|].
    + cbn [stack_ok]. split; [constructor; [exact I|exact A1]|]. split; [exact I|]. intros x Hx. injection Hx as <-. now left.
    + intros t' x Nt Hx. right. apply in_drop1; [exact Hx|discriminate].
    + intros x. projs. unfold move. rewrite cnt_cons. pose proof (cnt_drop1 x _ _ In0) as C. cbn [snd] in *. lia.
    + exists (DraNext e). split; [right; now left|]. split; [reflexivity|]. exists es, pend. split; [exists o, n; auto|]. split; [exact Nd|]. split; [projs; rewrite Ad, <- app_assoc; reflexivity|].
      intros x. projs. unfold move. rewrite pcnt_cons. pose proof (pcnt_drop1 x _ _ In0) as P. unfold ref_eqb in *. cbn [fst snd owner_eqb andb] in *. rewrite Pc in P. cbn [count_occ] in P. destruct (Nat.eq_dec o x) as [->|Nx]; [rewrite Nat.eqb_refl in P; lia|]. destruct (Nat.eqb_spec x o); [congruence|lia].
  - (* DraLoop None *) injection M as <-. destruct (FG eq_refl) as (es & pend & Sh1 & X). cbn [shape] in Sh1. destruct es as [|x es], pend as [|o pend]; cbn [chain] in Sh1; try contradiction; [|destruct Sh1; discriminate].
    eapply (pool_step s t); [exact H|exact Hk|reflexivity..|repeat split; auto; discriminate|auto|auto|weights|]. exists DraTop. split; [now left|]. split; [reflexivity|]. exists [], []. split; [repeat split; discriminate|exact X].
  - (* DraNext *) injection M as <-. destruct (FG eq_refl) as (es & pend & (o & n & En & Ch & NI) & X). unfold entry. rewrite En.
    eapply (pool_step s t); [exact H|exact Hk|reflexivity..|repeat split; auto; discriminate|auto|auto|weights|]. exists (DraLoop n). split; [now left|]. split; [reflexivity|]. exists es, pend. split; [|exact X]. cbn [shape]. eapply chain_ext; [exact Ch|]. intros x Hx. apply upd_other. congruence.
  - (* DraTop *) injection M as <-. destruct (FG eq_refl) as (es & pend & (-> & -> & _) & X).
    eapply (pool_step s t); [exact H|exact Hk|reflexivity..|repeat split; auto; discriminate|auto|auto|weights|]. exists DraReset. split; [now left|]. split; [reflexivity|]. exists [], []. split; [repeat split|exact X].
  - (* DraReset *) injection M as <-. destruct (FG eq_refl) as (es & pend & (-> & -> & Tp) & X).
    eapply (pool_step s t); [exact H|exact Hk|reflexivity..|repeat split; auto; discriminate|auto|auto|weights|]. exists DraUnlock. split; [now left|]. split; [reflexivity|]. exists [], []. split; [repeat split; now apply Tp|exact X].
  - (* DraUnlock *) injection M as <-. eapply poolunlock_step; [exact H|exact Hk|reflexivity..|auto|]. intros E h tp es pend (-> & -> & -> & ->). split; reflexivity.
Qed.
Lemma ready_ok t s k p r : invA (threads s) (refs s) -> ready t s k -> plain p -> (forall o, needs p = Some o -> In (OThread t, o) r) -> stack_ok t r (p :: k).
Proof. intros HA [Hk Hd] Pl Nd. split; [|auto]. destruct Hd as [->|(o & k' & ->)]; [constructor|]. destruct (HA t _ Hk) as (A1 & _). constructor; [exact I|exact A1]. Qed.
Lemma client_inv s t s' : inv s -> client false t s s' -> inv s'.
Proof.
  intros H C. pose proof H as [He HA HB HC HD HE HF].
  assert (MV : forall w w' o, (forall t', w = OThread t' -> t' = t \/ w' = w) -> w <> OPool -> w' <> OPool -> In (w, o) (refs s) -> (exists k, ready t s k) -> inv (set_refs s (move (w, o) (w', o) (refs s)))).
  { intros w w' o Hw Np Np' I0 (k & Hk & Hd). constructor; projs; auto.
    - intros u q Hu. destruct q as [|p q]; [exact I|]. destruct (HA u _ Hu) as (A1 & A2 & A3). repeat split; auto. intros x Hx. destruct (Nat.eq_dec u t) as [->|Nu].
      + exfalso. rewrite Hk in Hu. injection Hu as ->. destruct Hd as [Hd|(o' & k' & Hd)]; [discriminate|]. injection Hd as -> ->. discriminate.
      + specialize (A3 x Hx). destruct (ref_eqb (w, o) (OThread u, x)) eqn:Q; [|right; apply in_drop1; [exact A3|intros X; rewrite X in Q; rewrite (proj2 (ref_eqb_eq _ _) eq_refl) in Q; discriminate]].
        apply ref_eqb_eq in Q. injection Q as -> ->. destruct (Hw u eq_refl) as [->| ->]; [contradiction|now left].
    - apply (D_refs _ _ (refs s)); [exact HD|]. intros x. unfold move. rewrite cnt_cons. pose proof (cnt_drop1 x _ _ I0) as Q. cbn [snd] in *. lia.
    - apply (F_refs _ _ _ _ _ _ _ (refs s)); [exact HF|]. intros x. unfold move. rewrite pcnt_cons. pose proof (pcnt_drop1 x _ _ I0) as Q. unfold ref_eqb in *. cbn [fst snd] in *. destruct w, w'; try congruence; cbn in *; lia. }
  destruct C as [k flag R|k o R I0|k o R I0|k o R I0|k R|k o t' R I0|k o p R I0 I1|k o p R I1 I0|k o Hk|k o b E R I0]; [| | | | | | | | |discriminate].
  - constructor; projs; auto.
    + eapply A_refs; [exact HA|]. intros; now right.
    + intros o. pose proof (HD o) as D. unfold objinv in *. rewrite cnt_cons. cbn [snd]. destruct (Nat.eqb_spec (length (heap s)) o) as [<-|N].
      * rewrite nth_app_last. pose proof (HD (length (heap s))) as D'. unfold objinv in D'. rewrite (proj2 (nth_error_None _ _) (le_n _)) in D'. destruct D' as (D1 & D2 & D3 & D4). rewrite D1. split; [destruct flag; lia|]. split; [destruct flag; reflexivity|]. lia.
      * cbn [plus]. destruct (Nat.lt_ge_cases o (length (heap s))) as [L|L]; [rewrite nth_error_app1 by exact L; exact D|]. rewrite (proj2 (nth_error_None (heap s ++ _) o)) by (rewrite app_length; cbn; lia). rewrite (proj2 (nth_error_None (heap s) o)) in D by exact L. exact D.
    + destruct HE as [E1 E2]. split; [exact E1|]. intros o. rewrite E2. destruct (Nat.lt_ge_cases o (length (heap s))) as [L|L]; [rewrite nth_error_app1 by exact L; reflexivity|]. rewrite (proj2 (nth_error_None (heap s) o)) by exact L. destruct (Nat.eq_dec o (length (heap s))) as [->|N]; [rewrite nth_app_last|rewrite (proj2 (nth_error_None (heap s ++ _) o)) by (rewrite app_length; cbn; lia)]; split; intros [X|X]; discriminate.
  - eapply inv_goto; [exact H|exact (proj1 R)|eapply ready_ok; [exact HA|exact R|exact I|intros x Hx; injection Hx as <-; exact I0]|reflexivity|reflexivity|weights|intros q W X; now right].
  - eapply inv_goto; [exact H|exact (proj1 R)|eapply ready_ok; [exact HA|exact R|exact I|intros x Hx; injection Hx as <-; exact I0]|reflexivity|reflexivity|weights|intros q W X; now right].
  - eapply inv_goto; [exact H|exact (proj1 R)|eapply ready_ok; [exact HA|exact R|exact I|intros x Hx; injection Hx as <-; exact I0]|reflexivity|reflexivity|weights|intros q W X; now right].
  - eapply inv_goto; [exact H|exact (proj1 R)|eapply ready_ok; [exact HA|exact R|exact I|intros x Hx; discriminate]|reflexivity|reflexivity|weights|intros q W X; now right].
  - apply MV; [intros u X; injection X as ->; now left|discriminate|discriminate|exact I0|eauto].
  - apply MV; [intros u X; injection X as ->; now left|discriminate|discriminate|exact I0|eauto].
  - apply MV; [intros u X; discriminate|discriminate|discriminate|exact I0|eauto].
  - destruct (HA t _ Hk) as (A1 & A2 & A3). pose proof (HD o) as D. pose proof (tot_le (dtorW o) _ _ _ Hk) as L. rewrite sumf_cons in L. cbn [dtorW] in L. rewrite Nat.eqb_refl in L.
    unfold objinv in D. destruct (nth_error (heap s) o) as [[raw| |]|] eqn:Hr; try (exfalso; lia). destruct D as (D1 & D2 & D3 & D4).
    constructor; projs; auto.
    + eapply A_upd; [exact HA|exact Hk|now apply low_ok|auto].
    + eapply B_same; [exact HB|exact Hk|reflexivity]. + eapply B_same; [exact HC|exact Hk|reflexivity].
    + intros o'. pose proof (HD o') as D. unfold objinv in *. pose proof (tot_upd (dtorW o') _ t _ k Hk) as T1. pose proof (tot_upd (zeroW o') _ t _ k Hk) as T2. pose proof (tot_upd (countW o') _ t _ k Hk) as T3. rewrite !sumf_cons in *. cbn [dtorW zeroW countW] in *.
      destruct (Nat.eqb_spec o o') as [<-|N]; [rewrite (upd_same _ _ _ _ Hr); lia|]. rewrite upd_other by exact N. destruct (nth_error (heap s) o') as [[r| |]|]; intuition lia.
    + destruct HE as [E1 E2]. split; [exact E1|]. intros o'. rewrite E2. destruct (Nat.eq_dec o o') as [<-|N]; [rewrite (upd_same _ _ _ _ Hr), Hr; intuition|now rewrite upd_other].
    + eapply F_keep; [exact HF|exact Hk|poolkeep|auto].
Qed.
Lemma inv_init n : inv (init n).
Proof.
  assert (TR : forall f, tot f (repeat [] n) = 0) by (intros f; induction n as [|n IH]; [reflexivity|cbn [repeat]; rewrite tot_cons, IH; reflexivity]).
  assert (NR : forall t k, nth_error (repeat (@nil pc) n) t = Some k -> k = []) by (intros t k Hk; apply nth_error_In in Hk; now apply repeat_spec in Hk).
  constructor; cbn [init err threads refs heap lockC lockP entries head top added drained deleted].
  - reflexivity.
  - intros t k Hk. rewrite (NR _ _ Hk). exact I.
  - split; [|apply TR]. intros t k Hk. rewrite (NR _ _ Hk). reflexivity.
  - split; [|apply TR]. intros t k Hk. rewrite (NR _ _ Hk). reflexivity.
  - intros o. unfold objinv. destruct o; cbn [nth_error]; rewrite !TR; auto.
  - split; [constructor|]. intros o. destruct o; cbn; intuition discriminate.
  - exists None, [], []. split; [reflexivity|]. split; [split; reflexivity|]. split; [constructor|]. auto.
Qed.
Theorem run_inv s : run false s -> inv s.
Proof. induction 1 as [n|s s' R IH Lim St]; [apply inv_init|]. destruct St as [t _ M|t _ C]; [eapply micro_inv; eauto|eapply client_inv; eauto]. Qed.
