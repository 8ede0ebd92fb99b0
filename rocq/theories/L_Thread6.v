From Verif Require Import Base M_Thread S_Thread L_Thread L_Thread2 L_Thread3 L_Thread4 L_Thread5.
Local Open Scope nat_scope.
Lemma list_neq_cons {A} (x : A) l : l <> x :: l.
Proof. intros H. apply (f_equal (@length A)) in H. cbn in H. lia. Qed.
(** * the interrupt that came too early: the flag is up again and thread 1 waits for an end that does not come *)
Definition lw (s : st prog) : Prop :=
  match s with
  | Run Announce todo _ (Poll CSleepFor) => todo = [PUnlock] \/ todo = []
  | Idle _ (Poll CSleepFor) => True
  | Run (Api CIsAlive) todo r (Asked CSleepFor) => In PGet todo \/ r = true
  | Idle r (Asked CSleepFor) => r = true
  | Run (Api CSleepFor) _ _ (Poll CSleepFor) => True
  | _ => False
  end.
Definition lost (c : config prog) : Prop := alive c = true /\ lw (thr c worker) /\ (exists r q, thr c 1 = Run (Api CInterrupt) [PJoin] r q) /\ forall t, 2 <= t -> thr c t = Done.
Lemma lost_thread c t : lost c -> forall j todo r q, thr c t = Run j todo r q -> t = worker \/ (t = 1 /\ todo = [PJoin]).
Proof.
  intros (_ & _ & (r1 & q1 & E1) & D) j todo r q E. destruct t as [|[|t]]; [now left|right; rewrite E in E1; injection E1; auto|]. rewrite (D (S (S t))) in E by lia. discriminate.
Qed.
Lemma lw_local c c1 : alive c = true -> lw (thr c worker) -> (local worker (thr c worker) (thr c1 worker)) -> (forall j l r q b, thr c worker = Run j (PGet :: l) r q -> thr c1 worker = Run j l b q -> b = alive c) -> lw (thr c1 worker).
Proof.
  intros A W L G. destruct (thr c worker) as [q|r q|j todo r q|] eqn:E; try contradiction.
  - destruct q as [l|[]|[]]; try contradiction; cbn in L.
    + rewrite L. cbn. tauto.
    + cbn in W. rewrite W in L. rewrite L. exact I.
  - destruct j as [|[]]; destruct q as [l|[]|[]]; try contradiction; cbn in W.
    + destruct W as [->| ->]; cbn in L; rewrite L; cbn; auto.
    + destruct todo as [|p l]; cbn in L; [rewrite L; cbn; destruct W as [[]|W]; exact W|].
      destruct p; try (rewrite L; cbn; destruct W as [[X|X]|X]; try discriminate X; tauto).
      * destruct L as [b L]. rewrite L. cbn. right. rewrite (G _ _ _ _ _ eq_refl L). exact A.
    + destruct todo as [|p l]; cbn in L; [rewrite L; exact I|]. destruct p; try (rewrite L; exact I). destruct L as [b L]. rewrite L. exact I.
Qed.
Lemma lost_keep c c1 e : Inv c -> lost c -> sr c c1 e -> lost c1 /\ forall j r, e <> Some (1, Returned j r).
Proof.
  intros I L S. pose proof (lost_thread c) as T. specialize (fun t => T t L) as T1. clear T. destruct L as (A & W & (r1 & q1 & E1) & D).
  assert (NJ : thr c worker <> Done) by (intros X; rewrite X in W; contradiction). assert (NU : forall q, thr c worker <> Unborn q) by (intros q X; rewrite X in W; contradiction).
  assert (E : thr c1 1 = thr c 1 /\ (forall t, 2 <= t -> thr c1 t = thr c t) /\ (forall j r, e <> Some (1, Returned j r)) /\ alive c1 = true /\ (forall j l r q b, thr c worker = Run j (PGet :: l) r q -> thr c1 worker = Run j l b q -> b = alive c)).
  { assert (AL : alive c1 = true). { destruct S; cbn [alive with_thr]; auto. destruct b; [reflexivity|]. destruct (T1 _ _ _ _ _ H) as [->|[_ X]]; [|discriminate]. exfalso. rewrite H in W. pose proof (i_stage _ _ I _ _ _ _ _ H) as G. destruct j as [|[]]; destruct q as [?|[]|[]]; cbn in W, G; repeat (destruct G as [G|G]); try discriminate G; try contradiction. }
    assert (X : forall x, (x = worker \/ thr c1 x = thr c x)).
    { intros x. destruct S; cbn [thr with_thr] in *; unfold upd; try (destruct (Nat.eqb_spec x t) as [->|Nx]; [|now right]); try (left; destruct (T1 _ _ _ _ _ H) as [Y|[-> Y]]; [exact Y|discriminate Y]); try (now right).
      - left. destruct t as [|[|t]]; [reflexivity|congruence|]. rewrite (D (S (S t))) in H by lia. discriminate.
      - left. destruct t as [|[|t]]; [reflexivity|congruence|]. rewrite (D (S (S t))) in H by lia. discriminate.
      - now destruct (NU q0).
      }
    split; [destruct (X 1) as [Y|Y]; [discriminate|exact Y]|]. split; [intros t Lt; destruct (X t) as [Y|Y]; [unfold worker in Y; lia|exact Y]|]. split; [|split; [exact AL|]].
    - intros j r. destruct S; congruence.
    - intros j l r q b Ew Ew1. destruct S; cbn [thr with_thr] in *; unfold upd in *; try (destruct (Nat.eqb_spec worker t) as [<-|Nx]; [|rewrite Ew in Ew1; injection Ew1; intros; exfalso; eapply (list_neq_cons PGet l); congruence]);
        try (rewrite Ew in H; try discriminate H; injection H; intros; subst; discriminate); try (rewrite Ew in Ew1; injection Ew1; intros X1; exfalso; eapply (list_neq_cons PGet l); congruence).
      + injection Ew1; auto. }
  destruct E as (Ea & Eb & Ec & Ed & Ee). split; [|exact Ec]. split; [exact Ed|]. split; [|split; [rewrite Ea; eauto|intros t Lt; rewrite Eb by exact Lt; now apply D]].
  destruct (sr_local' _ _ _ I S worker) as [Y|[Y|(_ & q & t & l & r & q2 & Y & _)]]; [now rewrite Y|exact (lw_local c c1 A W Y Ee)|now destruct (NU q)].
Qed.
Lemma lost_run c tr c1 : run prog_code c tr c1 -> Inv c -> lost c -> lost c1 /\ forall j r, ~ In (1, Returned j r) tr.
Proof.
  induction 1 as [c|c ch c1 tr c2 S R IH|c ch c1 e tr c2 S R IH]; intros I L; [auto| |]; pose proof (step_inv _ _ _ _ _ _ I S) as I1; apply step_sr in S; destruct (lost_keep _ _ _ I L S) as [L1 N]; destruct (IH I1 L1) as [L2 N2]; split; try exact L2; [exact N2|].
  intros j r [->|X]; [now apply (N j r)|now apply (N2 j r)].
Qed.
