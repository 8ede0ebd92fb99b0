From Verif Require Import Base M_Thread S_Thread L_Thread.
Local Open Scope nat_scope.

Section L.
Variable Q : Type.
Variable code : nat -> Q -> bool -> option (call * Q).
Notation cfg := (config Q).
Notation step := (step code).
Notation Inv := (Inv Q).
Notation sr := (sr Q code).
Ltac inv H := inversion H; subst; clear H.
Ltac simp := cbn [thr owner waiters alive joined with_thr] in *; unfold upd in *.
Ltac who x t := destruct (Nat.eqb_spec x t).

Lemma ret_of c c1 t j r : sr c c1 (Some (t, Returned j r)) -> exists q, thr c t = Run j [] r q /\ c1 = with_thr c t (Idle r q).
Proof. intros S. inv S. eauto. Qed.
Lemma call_of c c1 t f : sr c c1 (Some (t, Called f)) -> exists r q, thr c1 t = Run (Api f) (body (Api f)) r q.
Proof. intros S. inv S. cbn. unfold upd. rewrite Nat.eqb_refl. eauto. Qed.
(** what can be undefined *)
Lemma undefined_cases c ch : Inv c -> step c ch = Undefined -> exists t pick j todo r q, ch = Step t pick /\ thr c t = Run j todo r q /\
  ((j = Api CUnlock /\ owner c <> Some t) \/ (j = Api CStart /\ forall q0, thr c worker <> Unborn q0) \/
   (j = Api CInterrupt /\ (t = worker \/ joined c = true \/ exists q0, thr c worker = Unborn q0))).
Proof.
  intros [I1 I2 _ _ _]. destruct ch as [t pick|t]; cbn; [|now destruct (waits c t)]. destruct (thr c t) as [q|r q|j todo r q|] eqn:T; try discriminate.
  - destruct (code t q r) as [[f q']|]; discriminate.
  - destruct todo as [|p l]; [discriminate|]. intros H. exists t, pick, j, (p :: l), r, q. split; [reflexivity|]. split; [exact T|]. revert H. unfold do_prim. specialize (I1 _ _ _ _ _ T). specialize (I2 _ _ _ _ _ T).
    assert (O : inside j (p :: l) -> owns c t = true) by (intros P; apply owns_spec; auto). destruct p; cbn -[stages] in *.
    + destruct (owner c); discriminate.
    + destruct (owns c t) eqn:E; [discriminate|]. intros _. left. assert (j = Api CUnlock \/ j <> Api CUnlock) as [->|N] by (destruct j as [|[]]; try (now left); right; discriminate); [|specialize (O N); discriminate]. split; [reflexivity|]. intros A. apply owns_spec in A. congruence.
    + rewrite O by exact I. discriminate.
    + rewrite O by exact I. discriminate.
    + rewrite O by exact I. discriminate.
    + destruct (waits c t); [discriminate|]. destruct (owner c); discriminate.
    + destruct (nth_error _ _); [discriminate|]. destruct (waiters c); discriminate.
    + assert (j = Api CStart) as -> by (destruct j as [|[]]; cbn in I1; repeat (destruct I1 as [I1|I1]); try discriminate I1; try contradiction; reflexivity). intros H. right. left. split; [reflexivity|]. intros q0 E. rewrite E in H. discriminate.
    + assert (j = Api CInterrupt) as -> by (destruct j as [|[]]; cbn in I1; repeat (destruct I1 as [I1|I1]); try discriminate I1; try contradiction; reflexivity). intros H. right. right. split; [reflexivity|]. destruct (Nat.eqb_spec t worker) as [->|]; [now left|]. destruct (joined c); [auto|]. cbn in H. destruct (thr c worker); try discriminate. eauto.
Qed.

(** * the flag *)
Definition announced (c : cfg) : Prop := match thr c worker with Unborn _ => False | Run Announce (PLock :: _) _ _ | Run Announce (PSet _ :: _) _ _ => False | _ => True end.
Definition dead (c : cfg) : Prop := announced c /\ alive c = false.
Lemma announced_keep c c1 e : Inv c -> announced c -> sr c c1 e -> announced c1.
Proof.
  intros [I1 _ _ _ _] A S. unfold announced in *. destruct S; simp; try assumption; who worker t; subst; try assumption; rewrite ?H, ?H0 in *; try exact I; try contradiction;
    try (destruct j as [|g]; [|exact I]; specialize (I1 _ _ _ _ _ H); cbn in I1; repeat (destruct I1 as [I1|I1]); inversion I1; subst; cbn in *; try contradiction; exact I); discriminate H0.
Qed.
Lemma dead_keep c c1 e : Inv c -> dead c -> sr c c1 e -> dead c1.
Proof.
  intros I [A D] S. split; [eapply announced_keep; eassumption|]. destruct S; simp; try assumption. destruct b; [|reflexivity]. exfalso.
  pose proof (i_stage _ _ I _ _ _ _ _ H) as G. assert (j = Announce) as -> by (destruct j as [|[]]; cbn in G; repeat (destruct G as [G|G]); inversion G; reflexivity). pose proof (i_ann _ _ I _ _ _ _ H) as ->. unfold announced in A. now rewrite H in A.
Qed.
(** interrupt in progress, begun after the announcement *)
Definition cleared (t : nat) (c : cfg) : Prop := announced c /\ forall todo r q, thr c t = Run (Api CInterrupt) todo r q -> In (PSet false) todo \/ alive c = false.
Lemma cleared_keep t c c1 e : Inv c -> cleared t c -> sr c c1 e -> cleared t c1.
Proof.
  intros I [A K] S. split; [eapply announced_keep; eassumption|]. intros todo r q E. assert (D : alive c = false -> alive c1 = false) by (intros D; exact (proj2 (dead_keep c c1 e I (conj A D) S))).
  assert (G : In (PSet false) todo \/ alive c = false \/ alive c1 = false).
  { destruct S; simp; try (who t t0; [subst; inv E|destruct (K _ _ _ E); tauto]); try (destruct (K _ _ _ E); tauto); try (left; cbn; tauto);
      try (specialize (K _ _ _ H); cbn in K; destruct K as [[K|K]|K]; try discriminate K; try tauto; fail).
    - specialize (K _ _ _ H). cbn in K. destruct K as [[K|K]|K]; [inv K; right; right; reflexivity|tauto|]. destruct b; [|tauto]. pose proof (i_stage _ _ I _ _ _ _ _ H) as G. cbn in G. repeat (destruct G as [G|G]); inv G.
    - pose proof (i_stage _ _ I _ _ _ _ _ H) as G. cbn in G. repeat (destruct G as [G|G]); inv G.
    - who t t0; [subst; inv E; destruct (K _ _ _ H) as [K1|K1]; cbn in K1; [destruct K1 as [K1|K1]; [discriminate|]|]; tauto|]. who t worker; [discriminate|]. destruct (K _ _ _ E); tauto.
    - destruct (K _ _ _ H1); tauto.
    }
  tauto.
Qed.
(** isAlive in progress, begun when the flag was down for good *)
Definition asked (t : nat) (c : cfg) : Prop := dead c /\ forall todo r q, thr c t = Run (Api CIsAlive) todo r q -> In PGet todo \/ r = false.
Lemma asked_keep t c c1 e : Inv c -> asked t c -> sr c c1 e -> asked t c1.
Proof.
  intros I [D K] S. split; [eapply dead_keep; eassumption|]. intros todo r q E.
  destruct S; simp; try (who t t0; [subst; inv E|exact (K _ _ _ E)]); try exact (K _ _ _ E); try (left; cbn; tauto); try (specialize (K _ _ _ H); cbn in K; destruct K as [[K|K]|K]; try discriminate K; try tauto; fail).
  - right. exact (proj2 D).
  - pose proof (i_stage _ _ I _ _ _ _ _ H) as G. cbn in G. repeat (destruct G as [G|G]); inv G.
  - who t t0; [subst; inv E; destruct (K _ _ _ H) as [K1|K1]; cbn in K1; [destruct K1 as [K1|K1]; [discriminate|]|]; tauto|]. who t worker; [discriminate|]. exact (K _ _ _ E).
  - exact (K _ _ _ H1).
Qed.
Lemma keeps (P : cfg -> Prop) : (forall c c1 e, Inv c -> P c -> sr c c1 e -> P c1) -> forall c tr c1, run code c tr c1 -> Inv c -> P c -> P c1.
Proof. intros K. apply run_keeps. intros c ch c1 e I p S. eapply K; [exact I|exact p|]. eapply step_sr. exact S. Qed.

Lemma interrupted_then_false c0 a t r1 b r2 d t' e r3 f c : fresh c0 ->
  run code c0 (a ++ (worker, Returned Announce r1) :: b ++ (t, Called CInterrupt) :: d ++ (t, Returned (Api CInterrupt) r2) :: e ++ (t', Called CIsAlive) :: f ++ [(t', Returned (Api CIsAlive) r3)]) c -> r3 = false.
Proof.
  intros F R. apply run_app_inv in R. destruct R as (m0 & R0 & R). pose proof (run_inv _ _ _ _ _ R0 (fresh_inv _ code _ F)) as I0.
  apply run_cons_inv in R. destruct R as (m1 & ch1 & m2 & R1 & S1 & R). pose proof (run_inv _ _ _ _ _ R1 I0) as I1. pose proof (step_inv _ _ _ _ _ _ I1 S1) as I2. apply step_sr in S1.
  assert (A2 : announced m2) by (inv S1; unfold announced; simp; exact Logic.I).
  apply run_app_inv in R. destruct R as (m3 & R3 & R). pose proof (run_inv _ _ _ _ _ R3 I2) as I3. pose proof (keeps announced announced_keep _ _ _ R3 I2 A2) as A3.
  apply run_cons_inv in R. destruct R as (m4 & ch4 & m5 & R4 & S4 & R). pose proof (run_inv _ _ _ _ _ R4 I3) as I4. pose proof (keeps announced announced_keep _ _ _ R4 I3 A3) as A4. pose proof (step_inv _ _ _ _ _ _ I4 S4) as I5. apply step_sr in S4.
  assert (K5 : cleared t m5). { split; [exact (announced_keep _ _ _ I4 A4 S4)|]. inv S4. simp. rewrite Nat.eqb_refl. intros todo r0 q0 E. inv E. left. cbn. tauto. }
  apply run_app_inv in R. destruct R as (m6 & R6 & R). pose proof (run_inv _ _ _ _ _ R6 I5) as I6. pose proof (keeps _ (cleared_keep t) _ _ _ R6 I5 K5) as K6.
  apply run_cons_inv in R. destruct R as (m7 & ch7 & m8 & R7 & S7 & R). pose proof (run_inv _ _ _ _ _ R7 I6) as I7. pose proof (keeps _ (cleared_keep t) _ _ _ R7 I6 K6) as K7. pose proof (step_inv _ _ _ _ _ _ I7 S7) as I8. apply step_sr in S7.
  assert (D7 : dead m7). { destruct K7 as [A7 K7]. split; [exact A7|]. destruct (ret_of _ _ _ _ _ S7) as (q7 & E7 & _). destruct (K7 _ _ _ E7) as [[]|E]; exact E. }
  pose proof (dead_keep _ _ _ I7 D7 S7) as D8.
  apply run_app_inv in R. destruct R as (m9 & R9 & R). pose proof (run_inv _ _ _ _ _ R9 I8) as I9. pose proof (keeps _ dead_keep _ _ _ R9 I8 D8) as D9.
  apply run_cons_inv in R. destruct R as (m10 & ch10 & m11 & R10 & S10 & R). pose proof (run_inv _ _ _ _ _ R10 I9) as I10. pose proof (keeps _ dead_keep _ _ _ R10 I9 D9) as D10. pose proof (step_inv _ _ _ _ _ _ I10 S10) as I11. apply step_sr in S10.
  assert (K11 : asked t' m11). { split; [exact (dead_keep _ _ _ I10 D10 S10)|]. inv S10. simp. rewrite Nat.eqb_refl. intros todo r0 q0 E. inv E. left. cbn. tauto. }
  apply run_app_inv in R. destruct R as (m12 & R12 & R). pose proof (run_inv _ _ _ _ _ R12 I11) as I12. pose proof (keeps _ (asked_keep t') _ _ _ R12 I11 K11) as K12.
  apply run_cons_inv in R. destruct R as (m13 & ch13 & m14 & R13 & S13 & R). pose proof (keeps _ (asked_keep t') _ _ _ R13 I12 K12) as [_ K13]. apply step_sr in S13. destruct (ret_of _ _ _ _ _ S13) as (q13 & E13 & _). destruct (K13 _ _ _ E13) as [[]|E]; exact E.
Qed.

(** * interrupt waits for the end *)
Definition ended (c : cfg) : Prop := thr c worker = Done.
Lemma ended_keep c c1 e : ended c -> sr c c1 e -> ended c1 /\ forall v, e <> Some (worker, v).
Proof.
  unfold ended. intros E S. destruct S; simp; try (who worker t; [subst; congruence|]); try (split; [assumption|intros v X; congruence]).
  exfalso. congruence.
Qed.
Lemma ended_run c tr c1 : run code c tr c1 -> ended c -> ended c1 /\ forall v, ~ In (worker, v) tr.
Proof.
  induction 1 as [c|c ch c1 tr c2 S R IH|c ch c1 e tr c2 S R IH]; intros E; [auto| |]; apply step_sr in S; destruct (ended_keep _ _ _ E S) as [E1 N]; destruct (IH E1) as [E2 N2]; split; try exact E2; [exact N2|].
  intros v [->|X]; [now apply (N v)|now apply (N2 v)].
Qed.
Lemma ended_exit c tr c1 : run code c tr c1 -> ~ ended c -> ended c1 -> In (worker, Exited) tr.
Proof.
  induction 1 as [c|c ch c1 tr c2 S R IH|c ch c1 e tr c2 S R IH]; intros N E; [contradiction| |]; apply step_sr in S.
  - apply IH; [|exact E]. intros E1. apply N. unfold ended in *. inv S; simp; try (who worker t; [discriminate|assumption]); try assumption. who worker t; [discriminate|]. rewrite Nat.eqb_refl in E1. discriminate.
  - unfold ended in *. inv S; simp; try (right; apply IH; [|exact E]; who worker t; [discriminate|assumption]). who worker t; [subst; left; reflexivity|]. right. now apply IH.
Qed.
Definition joins_ok (c : cfg) : Prop := forall t r q, thr c t = Run (Api CInterrupt) [] r q -> ended c.
Lemma joins_keep c c1 e : Inv c -> joins_ok c -> sr c c1 e -> joins_ok c1.
Proof.
  intros I K S t r q E. assert (EE : ended c -> ended c1) by (intros X; now destruct (ended_keep _ _ _ X S)). pose proof (i_stage _ _ I) as I1.
  destruct S; simp; try (who t t0; [subst|apply EE; now apply (K t r q)]); try (inv E); try (apply EE; now apply (K t r q)); try (apply EE; now apply (K t0 r q));
    try (specialize (I1 _ _ _ _ _ H); cbn in I1; repeat (destruct I1 as [I1|I1]); inv I1; fail); try discriminate.
  - who t t0; [subst; inv H2; specialize (I1 _ _ _ _ _ H); cbn in I1; repeat (destruct I1 as [I1|I1]); inv I1|]. who t worker; [discriminate|]. apply EE. now apply (K t r q).
  - apply EE. assumption.
Qed.
Lemma interrupt_waits c0 a t r b c : fresh c0 -> run code c0 (a ++ (t, Returned (Api CInterrupt) r) :: b) c -> In (worker, Exited) a /\ forall v, ~ In (worker, v) b.
Proof.
  intros F R. pose proof (fresh_inv _ code _ F) as I. assert (NE : ~ ended c0) by (destruct F as (q0 & o & -> & _); unfold ended; cbn; unfold upd; cbn; discriminate).
  assert (J0 : joins_ok c0). { intros x r0 q E. destruct F as (q0 & o & -> & H). cbn in E. unfold upd in E. destruct (Nat.eqb x worker); [discriminate|]. destruct (H x) as [X|[? X]]; congruence. }
  apply run_app_inv in R. destruct R as (m & R0 & R). apply run_cons_inv in R. destruct R as (m1 & ch & m2 & R1 & S & R2). pose proof (run_trans _ _ _ _ _ _ _ R0 R1) as R01. rewrite app_nil_r in R01. pose proof (keeps _ joins_keep _ _ _ R01 I J0) as J1.
  apply step_sr in S. assert (E1 : ended m1) by (destruct (ret_of _ _ _ _ _ S) as (q7 & E7 & _); now apply (J1 t r q7)). split; [eapply ended_exit; eassumption|]. destruct (ended_keep _ _ _ E1 S) as [E2 _]. now destruct (ended_run _ _ _ R2 E2).
Qed.

(** * lock and unlock *)
Definition holds (t : nat) (c : cfg) : Prop := owner c = Some t /\
  match thr c t with
  | Idle _ _ | Done => True
  | Run j todo _ _ => j <> Api CUnlock /\ (todo = body j \/ j = Api CStart \/ j = Api CWakeUp)
  | Unborn _ => False
  end.
Lemma holds_keep t c c1 e : Inv c -> holds t c -> sr c c1 e -> e <> Some (t, Called CUnlock) -> holds t c1 /\ forall x r, e <> Some (x, Returned (Api CLock) r).
Proof.
  intros I [O H] S N. unfold holds. destruct S; simp.
  - who t t0; [subst|now split]. split; [|discriminate]. split; [exact O|]. split; [congruence|now left].
  - who t t0; [subst|now split]. split; [|discriminate]. auto.
  - assert (X : forall x r1, Some (t0, Returned j r) <> Some (x, Returned (Api CLock) r1)).
    { intros x r1 E. inv E. assert (O2 : owner c = Some x) by (apply (i_own _ _ I _ _ _ _ _ H0); reflexivity). rewrite O in O2. inv O2. rewrite H0 in H. destruct H as (_ & [H|[H|H]]); discriminate. }
    who t t0; [subst|now split]. auto.
  - congruence.
  - rewrite O in H1. inv H1. rewrite H0 in H. destruct H as (NU & [H|[->| ->]]).
    + destruct j as [|[]]; cbn in H; try discriminate. congruence.
    + pose proof (i_stage _ _ I _ _ _ _ _ H0) as G. cbn in G. repeat (destruct G as [G|G]); inv G.
    + pose proof (i_stage _ _ I _ _ _ _ _ H0) as G. cbn in G. repeat (destruct G as [G|G]); inv G.
  - rewrite O in H1. inv H1. rewrite H0 in H. destruct H as (NU & [H|[->| ->]]).
    + destruct j as [|[]]; cbn in H; try discriminate.
    + pose proof (i_stage _ _ I _ _ _ _ _ H0) as G. cbn in G. repeat (destruct G as [G|G]); inv G.
    + pose proof (i_stage _ _ I _ _ _ _ _ H0) as G. cbn in G. repeat (destruct G as [G|G]); inv G.
  - rewrite O in H1. inv H1. rewrite H0 in H. destruct H as (NU & [H|[->| ->]]).
    + destruct j as [|[]]; cbn in H; try discriminate.
    + pose proof (i_stage _ _ I _ _ _ _ _ H0) as G. cbn in G. repeat (destruct G as [G|G]); inv G.
    + pose proof (i_stage _ _ I _ _ _ _ _ H0) as G. cbn in G. repeat (destruct G as [G|G]); inv G.
  - rewrite O in H1. inv H1. rewrite H0 in H. destruct H as (NU & [H|[->| ->]]).
    + destruct j as [|[]]; cbn in H; try discriminate.
    + pose proof (i_stage _ _ I _ _ _ _ _ H0) as G. cbn in G. repeat (destruct G as [G|G]); inv G.
    + pose proof (i_stage _ _ I _ _ _ _ _ H0) as G. cbn in G. repeat (destruct G as [G|G]); inv G.
  - congruence.
  - split; [|discriminate]. split; [exact O|]. who t t0; [subst|exact H]. rewrite H0 in H. destruct H as (NU & [H|[->| ->]]); [|split; [discriminate|auto]|split; [discriminate|auto]]. destruct j as [|[]]; cbn in H; try discriminate. split; [discriminate|auto].
  - split; [|discriminate]. split; [exact O|]. who t t0; [subst|exact H]. rewrite H0 in H. destruct H as (NU & [H|[->| ->]]); [|split; [discriminate|auto]|split; [discriminate|auto]]. destruct j as [|[]]; cbn in H; try discriminate. split; [discriminate|auto].
  - split; [|discriminate]. split; [exact O|]. who t t0; [subst|]. 
    + rewrite H0 in H. destruct H as (NU & [H|[->| ->]]); [|split; [discriminate|auto]|split; [discriminate|auto]]. destruct j as [|[]]; cbn in H; try discriminate. split; [discriminate|auto].
    + who t worker; [|exact H]. subst. rewrite H1 in H. contradiction.
  - split; [|discriminate]. split; [exact O|]. who t t0; [subst|exact H]. rewrite H0 in H. destruct H as (NU & [H|[->| ->]]); [|split; [discriminate|auto]|split; [discriminate|auto]]. destruct j as [|[]]; cbn in H; try discriminate.
  - split; [|discriminate]. now split.
Qed.
Lemma holds_run t c tr c1 : run code c tr c1 -> Inv c -> holds t c -> ~ In (t, Called CUnlock) tr -> holds t c1 /\ forall x r, ~ In (x, Returned (Api CLock) r) tr.
Proof.
  induction 1 as [c|c ch c1 tr c2 S R IH|c ch c1 e tr c2 S R IH]; intros I H N; [auto| |]; pose proof (step_inv _ _ _ _ _ _ I S) as I1; apply step_sr in S.
  - destruct (holds_keep t _ _ _ I H S ltac:(discriminate)) as [H1 _]. now apply IH.
  - assert (Ne : Some e <> Some (t, Called CUnlock)) by (intros E; injection E as ->; apply N; now left). destruct (holds_keep t _ _ _ I H S Ne) as [H1 X]. destruct (IH I1 H1) as [H2 Y]; [intros Z; apply N; now right|]. split; [exact H2|]. intros x r [E|E]; [subst; now apply (X x r)|now apply (Y x r)].
Qed.
Lemma lock_excludes c0 a t r b c : fresh c0 -> run code c0 (a ++ (t, Returned (Api CLock) r) :: b) c -> ~ In (t, Called CUnlock) b -> (forall x r', ~ In (x, Returned (Api CLock) r') b) /\ holds t c.
Proof.
  intros F R N. pose proof (fresh_inv _ code _ F) as I0. apply run_app_inv in R. destruct R as (m & R0 & R). pose proof (run_inv _ _ _ _ _ R0 I0) as I. apply run_cons_inv in R. destruct R as (m1 & ch & m2 & R1 & S & R2). pose proof (run_inv _ _ _ _ _ R1 I) as I1. pose proof (step_inv _ _ _ _ _ _ I1 S) as I2. apply step_sr in S.
  assert (H : holds t m2). { destruct (ret_of _ _ _ _ _ S) as (q7 & E7 & ->). split; simp; [|rewrite Nat.eqb_refl; exact Logic.I]. apply (i_own _ _ I1 _ _ _ _ _ E7). reflexivity. }
  destruct (holds_run t _ _ _ R2 I2 H N). auto.
Qed.
(** a holder that asks for the mutex again *)
Definition stuck (t : nat) (c : cfg) : Prop := owner c = Some t /\ exists j l r q, thr c t = Run j (PLock :: l) r q.
Lemma stuck_keep t c c1 e : stuck t c -> sr c c1 e -> stuck t c1 /\ forall v, e <> Some (t, v).
Proof.
  intros [O (j & l & r & q & E)] S. unfold stuck. destruct S; simp; try congruence; try (destruct (Nat.eqb_spec t t0) as [->|N]; [congruence|]); try (split; [split; [assumption|eauto 6]|congruence]).
  - destruct (Nat.eqb_spec t worker) as [->|N2]; [congruence|]. eauto 6.
Qed.
Lemma stuck_run t c tr c1 : run code c tr c1 -> stuck t c -> forall v, ~ In (t, v) tr.
Proof.
  induction 1 as [c|c ch c1 tr c2 S R IH|c ch c1 e tr c2 S R IH]; intros K v; [intros []| |]; apply step_sr in S; destruct (stuck_keep _ _ _ _ K S) as [K1 N]; [now apply IH|]. intros [->|X]; [now apply (N v)|now apply (IH K1 v)].
Qed.
Lemma relock c0 a t r b f d c : fresh c0 -> run code c0 (a ++ (t, Returned (Api CLock) r) :: b ++ (t, Called f) :: d) c -> ~ In (t, Called CUnlock) b -> f <> CStart -> f <> CWakeUp -> f <> CUnlock ->
  forall v, ~ In (t, v) d.
Proof.
  intros F R N N1 N2 N3. change ((t, Returned (Api CLock) r) :: b ++ (t, Called f) :: d) with (((t, Returned (Api CLock) r) :: b) ++ (t, Called f) :: d) in R. rewrite app_assoc in R. apply run_app_inv in R. destruct R as (m & R0 & R).
  destruct (lock_excludes _ _ _ _ _ _ F R0 N) as [_ H]. pose proof (run_inv _ _ _ _ _ R0 (fresh_inv _ code _ F)) as I. apply run_cons_inv in R. destruct R as (m1 & ch & m2 & R1 & S & R2).
  destruct (holds_run t _ _ _ R1 I H ltac:(intros [])) as [H1 _]. pose proof (step_sr _ _ _ _ _ _ S) as S1. pose proof (run_inv _ _ _ _ _ R1 I) as I1. destruct (holds_keep t _ _ _ I1 H1 S1 ltac:(congruence)) as [[O2 _] _].
  apply (stuck_run t _ _ _ R2). split; [exact O2|]. destruct (call_of _ _ _ _ S1) as (r0 & q0 & E). rewrite E. destruct f; cbn; eauto 6; congruence.
Qed.
End L.
