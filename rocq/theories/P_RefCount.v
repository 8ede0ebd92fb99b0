(** P_RefCount.v -- reference counting (C51) and the autorelease pool (C52) under every schedule. *)
From Coq Require Import ZArith List Bool Lia.
From Verif Require Import Base M_RefCount L_RefCount L_RefCount2 L_RefCount3.
Import ListNotations.
Open Scope nat_scope.
(** C51: no call ever touches an object whose deletion has begun, no pool entry is used after its deletion, the counter does not overflow *)
Theorem C51_no_error : forall s, run false s -> err s = false.
Proof. intros s R. now apply i_err, run_inv. Qed.
(** C51: the counter of an object is the number of references held, by whomever *)
Theorem C51_count : forall s o raw, run false s -> nth_error (heap s) o = Some (Alive raw) -> count_of raw = Z.of_nat (nrefs o s).
Proof. intros s o raw R Hr. pose proof (i_D s (run_inv s R) o) as D. unfold objinv in D. rewrite Hr in D. destruct D as (_ & D & _). rewrite count_mod. exact D. Qed.
(** C51: an object that somebody holds a reference to is alive *)
Theorem C51_referenced_is_alive : forall s w o, run false s -> In (w, o) (refs s) -> exists raw, nth_error (heap s) o = Some (Alive raw) /\ ~ In o (deleted s).
Proof.
  intros s w o R I0. pose proof (run_inv s R) as V. pose proof (i_D s V o) as D. pose proof (i_E s V) as [E1 E2]. pose proof (cnt_in _ _ _ I0). unfold objinv in D. destruct (nth_error (heap s) o) as [[raw| |]|] eqn:Hr; try (exfalso; lia).
  exists raw. split; [reflexivity|]. rewrite E2, Hr. intros [X|X]; discriminate.
Qed.
(** C51: no object is deleted twice; what is not deleted is alive *)
Theorem C51_deleted_once : forall s, run false s -> NoDup (deleted s) /\ forall o, o < length (heap s) -> In o (deleted s) \/ exists raw, nth_error (heap s) o = Some (Alive raw).
Proof.
  intros s R. destruct (i_E s (run_inv s R)) as [E1 E2]. split; [exact E1|]. intros o L. rewrite E2. destruct (nth_error (heap s) o) as [[raw| |]|] eqn:Hr; eauto. apply nth_error_None in Hr. lia.
Qed.
(** C51: the deletion happens when no reference is left, and by a thread that has given one back *)
Theorem C51_deleted_by_last_release : forall s s' o, run false s -> step false s s' -> deleted s' = deleted s ++ [o] ->
  nrefs o s = 0 /\ nrefs o s' = 0 /\ exists t k, nth_error (threads s) t = Some (RelDelete o 0 :: k) /\ nth_error (threads s') t = Some (RelDtor o :: k).
Proof.
  intros s s' o R St Hd. pose proof (run_inv s R) as V. assert (NE : forall l : list nat, l = l ++ [o] -> False) by (intros l X; apply (f_equal (@length nat)) in X; rewrite app_length in X; cbn in X; lia).
  destruct St as [t _ M|t _ C].
  - unfold micro in M. destruct (nth_error (threads s) t) as [[|p k]|] eqn:Hk; try discriminate.
    assert (AC : forall o' f, (forall raw, deleted (f raw) = deleted s) -> deleted (access s o' f) = deleted s) by (intros o' f X; unfold access; destruct (nth_error (heap s) o') as [[| |]|]; auto).
    assert (EC : forall e f, (forall x n, deleted (f x n) = deleted s) -> deleted (entry s e f) = deleted s) by (intros e f X; unfold entry; destruct (nth_error (entries s) e) as [[[x n]|]|]; auto).
    assert (Q : forall s1, Some s1 = Some s' -> deleted s1 = deleted s -> False) by (intros s1 X Y; injection X as ->; apply (NE (deleted s)); congruence).
    destruct p as [x|x|x|x|x|x|x|x|x c|x c|x|x|x|x|x e|x e| | | |[e|]|e| | | |x b|x b n]; try discriminate;
      try (exfalso; eapply Q; [exact M|]; first [reflexivity|apply AC; intros raw; try destruct (_ =? _)%Z; reflexivity|apply EC; reflexivity]; fail);
      try (destruct (lockC s); [discriminate|exfalso; eapply Q; [exact M|reflexivity]]); try (destruct (lockP s); [discriminate|exfalso; eapply Q; [exact M|reflexivity]]).
    + destruct (Z.eqb_spec c 0) as [->|N]; [|exfalso; eapply Q; [exact M|reflexivity]]. injection M as <-. unfold access in *. pose proof (i_D s V x) as D. pose proof (tot_le (zeroW x) _ _ _ Hk) as L. rewrite sumf_cons in L. cbn [zeroW] in L. rewrite Nat.eqb_refl in L. cbn in L. unfold objinv in D.
      destruct (nth_error (heap s) x) as [[raw| |]|] eqn:Hr; try (exfalso; lia). cbn [goto set_refs log_delete deleted set_obj] in Hd. apply app_inj_tail in Hd as [_ ->]. destruct D as (_ & _ & _ & _ & D5). unfold nrefs. cbn [goto set_refs refs threads].
      fold (cnt o (refs s)). fold (cnt o (inherit o t (refs s))). rewrite cnt_inherit. assert (cnt o (refs s) = 0) by lia. split; [assumption|]. split; [assumption|]. exists t, k. split; [exact Hk|]. cbn. eapply upd_same. exact Hk.
    + exfalso. destruct (top s) as [q|]; (eapply Q; [exact M|]); [cbv zeta; apply EC; reflexivity|reflexivity].
  - exfalso. destruct C; cbn [goto set_refs set_obj new_obj deleted] in Hd; eapply NE; exact Hd.
Qed.
(** C51: an object without references that is still alive is about to be deleted by exactly one thread, whatever the other threads do *)
Definition deleting (o : nat) (p : pc) : Prop := p = RelCount o \/ p = RelUnlock o 0 \/ p = RelDelete o 0.
Lemma tot_find f l : tot f l = 1 -> exists t k, nth_error l t = Some k /\ sumf f k = 1 /\ forall t' k', nth_error l t' = Some k' -> t' <> t -> sumf f k' = 0.
Proof.
  induction l as [|a l IH]; [discriminate|]. rewrite tot_cons. intros H. assert (C : sumf f a = 1 /\ tot f l = 0 \/ sumf f a = 0 /\ tot f l = 1) by lia. destruct C as [[H1 H2]|[H1 H2]].
  - exists 0, a. split; [reflexivity|]. split; [exact H1|]. intros [|t'] k' Hk N; [congruence|]. cbn in Hk. pose proof (tot_le f l t' k' Hk). lia.
  - destruct (IH H2) as (t & k & Hk & Hs & Ho). exists (S t), k. split; [exact Hk|]. split; [exact Hs|]. intros [|t'] k' Hk' N; cbn in Hk'; [congruence|]. apply (Ho t'); [exact Hk'|congruence].
Qed.
Theorem C51_unreferenced_is_being_deleted : forall s o raw, run false s -> nth_error (heap s) o = Some (Alive raw) -> nrefs o s = 0 ->
  exists t p k, nth_error (threads s) t = Some (p :: k) /\ deleting o p /\ forall t' p' k', nth_error (threads s) t' = Some (p' :: k') -> deleting o p' -> t' = t.
Proof.
  intros s o raw R Hr N0. pose proof (run_inv s R) as V. pose proof (i_D s V o) as D. unfold objinv in D. rewrite Hr in D. destruct D as (_ & _ & _ & D4 & _). specialize (D4 N0).
  set (f := fun p => zeroW o p + countW o p). assert (Sf : forall k, sumf f k = sumf (zeroW o) k + sumf (countW o) k) by (induction k as [|p k IH]; [reflexivity|rewrite !sumf_cons; unfold f at 1; lia]).
  assert (T : tot f (threads s) = 1). { assert (X : forall l, tot f l = tot (zeroW o) l + tot (countW o) l) by (induction l as [|k l IH]; [reflexivity|]; rewrite !tot_cons, Sf; lia). rewrite X. exact D4. }
  destruct (tot_find f _ T) as (t & k & Hk & Hs & Ho). assert (FD : forall p, deleting o p -> f p = 1) by (intros p [->|[->| ->]]; unfold f; cbn; now rewrite Nat.eqb_refl).
  assert (LW : forall l, Forall low l -> sumf f l = 0) by (induction l as [|q l IH]; intros L; [reflexivity|]; apply Forall_cons_iff in L as [L1 L2]; rewrite sumf_cons, (IH L2); destruct q; try contradiction; reflexivity).
  destruct k as [|p k]; [discriminate|]. pose proof (i_A s V t _ Hk) as (A1 & _). exists t, p, k. split; [exact Hk|]. rewrite sumf_cons, (LW k A1) in Hs. split.
  - unfold f in Hs. unfold deleting. destruct p as [x|x|x|x|x|x|x|x|x c|x c|x|x|x|x|x e|x e| | | |[e|]|e| | | |x b|x b n]; cbn in Hs; try lia; destruct (Nat.eqb_spec x o) as [->|]; cbn in Hs; try lia; auto; destruct (Z.eqb_spec c 0) as [->|]; cbn in Hs; try lia; auto.
  - intros t' p' k' Hk' Hd. destruct (Nat.eq_dec t' t) as [|N]; [assumption|]. specialize (Ho t' _ Hk' N). rewrite sumf_cons, (FD _ Hd) in Ho. lia.
Qed.
(** C51: no leak: when no thread is inside a call, every object without references has been deleted and freed *)
Theorem C51_no_leak : forall s o, run false s -> (forall t k, nth_error (threads s) t = Some k -> k = []) -> o < length (heap s) -> nrefs o s = 0 -> nth_error (heap s) o = Some Freed /\ In o (deleted s).
Proof.
  intros s o R Idle L N0. pose proof (run_inv s R) as V. destruct (i_E s V) as [_ E2]. assert (F : nth_error (heap s) o = Some Freed); [|split; [exact F|apply E2; now right]].
  destruct (nth_error (heap s) o) as [[raw| |]|] eqn:Hr; [| |reflexivity|apply nth_error_None in Hr; lia]; exfalso.
  - destruct (C51_unreferenced_is_being_deleted s o raw R Hr N0) as (t & p & k & Hk & _). specialize (Idle t _ Hk). discriminate.
  - pose proof (i_D s V o) as D. unfold objinv in D. rewrite Hr in D. destruct D as (_ & D & _). destruct (tot_find _ _ D) as (t & k & Hk & Hs & _). rewrite (Idle t k Hk) in Hs. discriminate.
Qed.
(** C51: two threads are never both at a statement that reads or writes a counter *)
Definition at_counter (p : pc) : Prop := match p with RetInc _ | RelDec _ | RelCount _ => True | _ => False end.
Theorem C51_no_race : forall s t t' p p' k k', run false s -> nth_error (threads s) t = Some (p :: k) -> nth_error (threads s) t' = Some (p' :: k') -> at_counter p -> at_counter p' -> t = t'.
Proof.
  intros s t t' p p' k k' R Hk Hk' C C'. pose proof (i_B s (run_inv s R)) as B. assert (W : forall p, at_counter p -> critW p = 1) by (intros []; cbn; tauto). pose proof (holder_is _ _ _ _ _ _ B Hk (W _ C)). pose proof (holder_is _ _ _ _ _ _ B Hk' (W _ C')). congruence.
Qed.
(** C51, C52: a waiting thread waits for a thread that can go on or is inside a destructor; the only exception is a destructor, run from drain, that itself calls autorelease
    or drain (it waits for itself) *)
Lemma tot_some f th l : invB f th l -> forall t, l = Some t -> exists k, nth_error th t = Some k /\ sumf f k = 1.
Proof.
  intros [B1 B2] t ->. cbn [taken] in B2. destruct (tot_find f th B2) as (u & k & Hk & Hs & _). pose proof (B1 u k Hk) as X. cbn [holds] in X. destruct (Nat.eqb_spec t u) as [->|]; [eauto|lia].
Qed.
Theorem C51_progress : forall s t p k, run false s -> nth_error (threads s) t = Some (p :: k) -> micro t s = None -> (forall o, p <> RelDtor o) ->
  exists t' p' k', nth_error (threads s) t' = Some (p' :: k') /\
    (micro t' s <> None \/ (exists o, p' = RelDtor o) \/ (lockP s = Some t' /\ (p' = DraLock \/ exists o, p' = AutLock o) /\ exists e, In (DraNext e) k')).
Proof.
  intros s t p k R Hk M Np. pose proof (run_inv s R) as V. pose proof (i_A s V) as A. pose proof (i_B s V) as B. pose proof (i_C s V) as C.
  assert (HC : lockC s <> None -> exists u q l, nth_error (threads s) u = Some (q :: l) /\ micro u s <> None).
  { intros X. destruct (lockC s) as [u|] eqn:Lu; [|congruence]. destruct (tot_some _ _ _ B u eq_refl) as (l & Hl & Hs). destruct l as [|q l]; [discriminate|]. exists u, q, l. split; [exact Hl|]. pose proof (A u _ Hl) as (A1 & _).
    assert (LW : sumf critW l = 0) by (clear - A1; induction l as [|x l IH]; [reflexivity|]; apply Forall_cons_iff in A1 as [L1 L2]; rewrite sumf_cons, (IH L2); destruct x; try contradiction; reflexivity).
    rewrite sumf_cons, LW in Hs. unfold micro. rewrite Hl. destruct q; cbn in Hs; try lia; discriminate. }
  assert (HP : lockP s <> None -> exists u q l, nth_error (threads s) u = Some (q :: l) /\ (micro u s <> None \/ (exists o, q = RelDtor o) \/ lockC s <> None \/ (lockP s = Some u /\ (q = DraLock \/ exists o, q = AutLock o) /\ exists e, In (DraNext e) l))).
  { intros X. destruct (lockP s) as [u|] eqn:Lu; [|congruence]. destruct (tot_some _ _ _ C u eq_refl) as (l & Hl & Hs). destruct l as [|q l]; [discriminate|]. exists u, q, l. split; [exact Hl|]. pose proof (A u _ Hl) as (A1 & A2 & A3). unfold micro. rewrite Hl. rewrite sumf_cons in Hs.
    assert (DN : poolW q = 0 -> exists e, In (DraNext e) l). { intros W. rewrite W in Hs. cbn in Hs. clear - A1 Hs. induction l as [|x l IH]; [discriminate|]. apply Forall_cons_iff in A1 as [L1 L2]. destruct x; try contradiction; [destruct (IH Hs L2) as (e & I0); exists e; now right|]. eexists. now left. }
    destruct q as [x|x|x|x|x|x|x|x|x c|x c|x|x|x|x|x e|x e| | | |[e|]|e| | | |x b|x b n]; try (left; discriminate); try contradiction.
    - destruct (lockC s); [right; right; left; discriminate|left; discriminate].
    - destruct (lockC s); [right; right; left; discriminate|left; discriminate].
    - right; left; eauto.
    - right; right; right. eauto 7.
    - right; right; right. eauto 7. }
  assert (FIN : lockC s <> None \/ lockP s <> None).
  { unfold micro in M. rewrite Hk in M. destruct p as [x|x|x|x|x|x|x|x|x c|x c|x|x|x|x|x e|x e| | | |[e|]|e| | | |x b|x b n]; try discriminate; try (destruct (lockC s); [left; discriminate|discriminate]); try (destruct (lockP s); [right; discriminate|discriminate]). exfalso. now apply (Np x). }
  assert (K : lockC s <> None -> exists t' p' k', nth_error (threads s) t' = Some (p' :: k') /\ (micro t' s <> None \/ (exists o, p' = RelDtor o) \/ (lockP s = Some t' /\ (p' = DraLock \/ exists o, p' = AutLock o) /\ exists e, In (DraNext e) k'))).
  { intros X. destruct (HC X) as (u & q & l & Hl & Hm). exists u, q, l. auto. }
  destruct FIN as [X|X]; [now apply K|]. destruct (HP X) as (u & q & l & Hl & [Hm|[Hm|[Hm|Hm]]]); [exists u, q, l; auto|exists u, q, l; auto|now apply K|exists u, q, l; auto].
Qed.
(** C52: objects are released by drain in the order in which they were added, once per add; what has not been released yet is still held by the pool *)
Theorem C52_order : forall s, run false s -> exists pend, added s = drained s ++ pend /\ forall o, length (filter (ref_eqb (OPool, o)) (refs s)) = count_occ Nat.eq_dec pend o.
Proof. intros s R. destruct (i_F s (run_inv s R)) as (m & es & pend & _ & _ & _ & Ha & Hp). exists pend. auto. Qed.
(** C52: when drain is about to return, everything added so far has been released *)
Theorem C52_drain_is_complete : forall s t k, run false s -> nth_error (threads s) t = Some (DraUnlock :: k) -> drained s = added s /\ head s = None.
Proof.
  intros s t k R Hk. pose proof (run_inv s R) as V. destruct (F_get _ _ _ _ _ _ _ _ _ _ _ (i_F s V) (i_C s V) Hk eq_refl) as (es & pend & (H1 & H2 & H3 & ->) & _ & Ha & _). rewrite app_nil_r in Ha. auto.
Qed.
(** C52: between calls the list in memory holds exactly the objects added and not yet released, in order *)
Theorem C52_pool_contents : forall s, run false s -> lockP s = None -> exists es pend, chain (entries s) (head s) es pend /\ added s = drained s ++ pend.
Proof.
  intros s R L. destruct (i_F s (run_inv s R)) as (m & es & pend & Hm & Hs & _ & Ha & _). exists es, pend. split; [|exact Ha]. destruct m as [p|]; [destruct Hm as (_ & ? & ? & X & _); congruence|]. apply Hs.
Qed.
(** ** schedules as lists of actions, for the examples *)
Inductive act := Mi (t : nat) | Ne (t : nat) (flag : bool) | Re (t o : nat) | Rl (t o : nat) | Au (t o : nat) | Dr (t : nat) | Pa (t o t' : nat) | Sto (t o p : nat) | En (t : nat) | Fl (t o : nat) (b : bool).
Definition idle (t : nat) (s : st) : option (list pc) := match nth_error (threads s) t with Some [] => Some [] | Some (RelDtor o :: k) => Some (RelDtor o :: k) | _ => None end.
Definition own (w : owner) (o : nat) (l : list (owner * nat)) : bool := existsb (ref_eqb (w, o)) l.
Definition call (t : nat) (s : st) (p : pc) : option st := match idle t s with Some k => Some (goto s t (p :: k)) | None => None end.
Definition callo (t o : nat) (s : st) (p : pc) : option st := if own (OThread t) o (refs s) then call t s p else None.
Definition do_act (hb : bool) (a : act) (s : st) : option st :=
  if err s || Nat.ltb 100 (length (refs s)) then None else
  match a with
  | Mi t => micro t s
  | Ne t flag => match idle t s with Some _ => Some (set_refs (new_obj s flag) ((OThread t, length (heap s)) :: refs s)) | None => None end
  | Re t o => callo t o s (RetGet o) | Rl t o => callo t o s (RelGet o) | Au t o => callo t o s (AutGet o) | Dr t => call t s DraLock
  | Pa t o t' => match idle t s with Some _ => if own (OThread t) o (refs s) then Some (set_refs s (move (OThread t, o) (OThread t', o) (refs s))) else None | None => None end
  | Sto t o p => match idle t s with Some _ => if own (OThread t) o (refs s) && own (OThread t) p (drop1 (OThread t, o) (refs s)) then Some (set_refs s (move (OThread t, o) (OMember p, o) (refs s))) else None | None => None end
  | En t => match nth_error (threads s) t with Some (RelDtor o :: k) => Some (goto (set_obj s o Freed) t k) | _ => None end
  | Fl t o b => if hb then callo t o s (HbRead o b) else None
  end.
Fixpoint do_acts (hb : bool) (l : list act) (s : st) : option st := match l with [] => Some s | a :: l => match do_act hb a s with Some s => do_acts hb l s | None => None end end.
Lemma idle_ready t s k : idle t s = Some k -> ready t s k.
Proof. unfold idle, ready. destruct (nth_error (threads s) t) as [[|[] q]|]; intros H; try discriminate; injection H as <-; split; eauto. Qed.
Lemma own_in w o l : own w o l = true -> In (w, o) l.
Proof. unfold own. rewrite existsb_exists. intros (x & I0 & E). apply ref_eqb_eq in E. now subst. Qed.
Lemma do_acts_run hb l : forall s s', run hb s -> do_acts hb l s = Some s' -> run hb s'.
Proof.
  induction l as [|a l IH]; intros s s' R H; cbn [do_acts] in H; [congruence|]. destruct (do_act hb a s) as [s1|] eqn:D; [|discriminate]. apply (IH s1); [|exact H]. unfold do_act in D. destruct (err s) eqn:E; [discriminate|]. cbn [orb] in D. destruct (Nat.ltb_spec 100 (length (refs s))) as [|L]; [discriminate|].
  apply (run_step hb s); [exact R| |].
  - intros o. unfold nrefs. pose proof (count_occ_bound Nat.eq_dec o (map snd (refs s))) as Bd. rewrite map_length in Bd. lia.
  - assert (CL : forall t p, (forall k, ready t s k -> client hb t s (goto s t (p :: k))) -> forall s2, call t s p = Some s2 -> client hb t s s2).
    { intros t p X s2 Q. unfold call in Q. destruct (idle t s) eqn:Id; [|discriminate]. injection Q as <-. apply X. now apply idle_ready. }
    assert (CO : forall t o p, (forall k, ready t s k -> In (OThread t, o) (refs s) -> client hb t s (goto s t (p :: k))) -> forall s2, callo t o s p = Some s2 -> client hb t s s2).
    { intros t o p X s2 Q. unfold callo in Q. destruct (own _ _ _) eqn:Ow; [|discriminate]. apply own_in in Ow. eapply CL; [|exact Q]. intros k Rk. now apply X. }
    destruct a as [t|t flag|t o|t o|t o|t|t o t'|t o p|t|t o b].
    + eapply s_micro; [exact E|exact D].
    + apply (s_client hb s s1 t E). destruct (idle t s) eqn:Id; [|discriminate]. injection D as <-. eapply c_new. apply idle_ready. exact Id.
    + apply (s_client hb s s1 t E). eapply CO; [|exact D]. intros. now apply c_retain.
    + apply (s_client hb s s1 t E). eapply CO; [|exact D]. intros. now apply c_release.
    + apply (s_client hb s s1 t E). eapply CO; [|exact D]. intros. now apply c_autorelease.
    + apply (s_client hb s s1 t E). eapply CL; [|exact D]. intros. now apply c_drain.
    + apply (s_client hb s s1 t E). destruct (idle t s) eqn:Id; [|discriminate]. destruct (own _ _ _) eqn:Ow; [|discriminate]. injection D as <-. eapply c_pass; [apply idle_ready; exact Id|now apply own_in].
    + apply (s_client hb s s1 t E). destruct (idle t s) eqn:Id; [|discriminate]. destruct (own _ _ _) eqn:Ow; [|discriminate]. cbn [andb] in D. destruct (own (OThread t) p _) eqn:Ow2; [|discriminate]. injection D as <-. eapply c_store; [apply idle_ready; exact Id|now apply own_in|now apply own_in].
    + apply (s_client hb s s1 t E). destruct (nth_error (threads s) t) as [[|[] k]|] eqn:Hk; try discriminate. injection D as <-. now apply c_end.
    + destruct hb; [|discriminate]. apply (s_client true s s1 t E). eapply CO; [|exact D]. intros. now apply c_flag.
Qed.
(** C52 is false if a destructor calls autorelease (or drain) while the pool is drained: the thread waits for itself for ever (the mutex is not recursive) *)
Theorem C52_autorelease_in_destructor_refuted : exists s, run false s /\ nth_error (threads s) 0 = Some [AutLock 1; RelDtor 0; DraNext 0] /\ lockP s = Some 0 /\ micro 0 s = None /\ length (threads s) = 1.
Proof.
  set (l := [Ne 0 false; Ne 0 false; Au 0 0] ++ repeat (Mi 0) 6 ++ [Dr 0] ++ repeat (Mi 0) 9 ++ [Au 0 1; Mi 0]). destruct (do_acts false l (init 1)) as [s|] eqn:E; [|vm_compute in E; discriminate].
  exists s. split; [eapply do_acts_run; [apply run_init|exact E]|]. vm_compute in E. injection E as <-. repeat split.
Qed.
(** C51 is false if setHighBit is called while another thread retains: an update is lost and the object is deleted although somebody holds a reference *)
Theorem C51_setHighBit_refuted : exists s o t, run true s /\ In (OThread t, o) (refs s) /\ nth_error (heap s) o = Some Freed.
Proof.
  set (l := [Ne 0 false; Re 0 0] ++ repeat (Mi 0) 4 ++ [Pa 0 0 1; Fl 0 0 true; Mi 0; Re 1 0] ++ repeat (Mi 1) 4 ++ [Mi 0; Rl 0 0] ++ repeat (Mi 0) 6 ++ [Rl 1 0] ++ repeat (Mi 1) 6 ++ [En 1]). destruct (do_acts true l (init 2)) as [s|] eqn:E; [|vm_compute in E; discriminate].
  exists s, 0, 1. split; [eapply do_acts_run; [apply run_init|exact E]|]. vm_compute in E. injection E as <-. split; [cbn; auto|reflexivity].
Qed.
(** a schedule of two threads: an object with a member, shared, released concurrently, the last release runs the destructor, which releases the member *)
Example schedule_ok : exists s, run false s /\ deleted s = [0; 1] /\ heap s = [Freed; Freed] /\ refs s = [] /\ added s = [0] /\ drained s = [0].
Proof.
  set (l := [Ne 0 false; Ne 0 true; Sto 0 1 0; Re 0 0] ++ repeat (Mi 0) 4 ++ [Pa 0 0 1; Rl 0 0; Au 1 0; Mi 0; Mi 1; Mi 1; Mi 0; Mi 1; Mi 0; Mi 1; Mi 1; Mi 0; Mi 1; Mi 0; Mi 0; Dr 1] ++ repeat (Mi 1) 9 ++ [Rl 1 1] ++ repeat (Mi 1) 6 ++ [En 1; En 1] ++ repeat (Mi 1) 5).
  destruct (do_acts false l (init 2)) as [s|] eqn:E; [|vm_compute in E; discriminate]. exists s. split; [eapply do_acts_run; [apply run_init|exact E]|]. vm_compute in E. injection E as <-. repeat split.
Qed.
Print Assumptions C51_no_error. Print Assumptions C51_count. Print Assumptions C51_referenced_is_alive. Print Assumptions C51_deleted_once. Print Assumptions C51_deleted_by_last_release. Print Assumptions C51_unreferenced_is_being_deleted. Print Assumptions C51_no_leak. Print Assumptions C51_no_race. Print Assumptions C51_progress. Print Assumptions C51_setHighBit_refuted.
Print Assumptions C52_order. Print Assumptions C52_drain_is_complete. Print Assumptions C52_pool_contents. Print Assumptions C52_autorelease_in_destructor_refuted.
