(** P_Thread.v -- C86 to C91: Thread and Mutex. Q, code: what the threads do, arbitrary; the schedule is arbitrary in every theorem. *)
From Verif Require Import Base M_Thread S_Thread L_Thread L_Thread2 L_Thread5 L_Thread3 L_Thread4 L_Thread6.
Local Open Scope nat_scope.

(** * C86: no data race and nothing undefined, unless a thread unlocks what it does not hold, starts the object twice, or interrupts itself, an object that was not started
    or one that was interrupted already *)
Theorem C86_defined : forall Q (code : nat -> Q -> bool -> option (call * Q)) c ch, reachable code c -> step code c ch = Undefined ->
  exists t pick j todo r q, ch = Step t pick /\ thr c t = Run j todo r q /\
  ((j = Api CUnlock /\ owner c <> Some t) \/ (j = Api CStart /\ forall q0, thr c worker <> Unborn q0) \/
   (j = Api CInterrupt /\ (t = worker \/ joined c = true \/ exists q0, thr c worker = Unborn q0))).
Proof. intros Q code c ch R H. eapply undefined_cases; [eapply reach_inv; eassumption|eassumption]. Qed.
Print Assumptions C86_defined.
(** the polling worker and its friends never get there *)
Theorem C86_polling : forall n c0 tr c ch, polling n c0 -> run prog_code c0 tr c -> step prog_code c ch <> Undefined.
Proof.
  intros n c0 tr c ch P R. destruct (polling_start _ _ P) as (F & Sh & Sm & Ln). pose proof (fresh_inv _ prog_code _ F) as I.
  destruct (shape_run n _ _ _ R I Sh Sm Ln) as (I1 & Sh1 & _). now apply shape_defined.
Qed.
Print Assumptions C86_polling.
(** between two returns of lock() the first thread calls unlock() *)
Theorem C86_exclusion : forall Q (code : nat -> Q -> bool -> option (call * Q)) c0 a t r b x r' d c, fresh c0 ->
  run code c0 (a ++ (t, Returned (Api CLock) r) :: b ++ (x, Returned (Api CLock) r') :: d) c -> In (t, Called CUnlock) b.
Proof.
  intros Q code c0 a t r b x r' d c F R.
  assert (D : forall e1 e2 : nat * event, {e1 = e2} + {e1 <> e2}) by (repeat decide equality).
  destruct (in_dec D (t, Called CUnlock) b) as [G|G]; [exact G|]. exfalso.
  change ((t, Returned (Api CLock) r) :: b ++ (x, Returned (Api CLock) r') :: d) with (((t, Returned (Api CLock) r) :: b) ++ [(x, Returned (Api CLock) r')] ++ d) in R. rewrite 2!app_assoc in R. apply run_app_inv in R. destruct R as (m & R & _). rewrite <- app_assoc in R. cbn in R.
  destruct (lock_excludes _ _ _ _ _ _ _ _ F R) as [N _].
  - intros X. apply in_app_or in X. destruct X as [X|[X|[]]]; [contradiction|discriminate].
  - apply (N x r'). apply in_or_app. right. now left.
Qed.
Print Assumptions C86_exclusion.

(** lock() is not recursive: a thread that has called lock() and then asks for the mutex again, with lock(), sleep(), isAlive() or interrupt(), does nothing more *)
Theorem C86_relock : forall Q (code : nat -> Q -> bool -> option (call * Q)) c0 a t r b f d c, fresh c0 ->
  run code c0 (a ++ (t, Returned (Api CLock) r) :: b ++ (t, Called f) :: d) c -> ~ In (t, Called CUnlock) b -> f <> CStart -> f <> CWakeUp -> f <> CUnlock -> forall v, ~ In (t, v) d.
Proof. exact relock. Qed.
Print Assumptions C86_relock.

(** * C87: isAlive *)
(** after the announcement of the worker and an interrupt() that began after it and has returned, isAlive() answers false, in every thread *)
Theorem C87_interrupted : forall Q (code : nat -> Q -> bool -> option (call * Q)) c0 a t r1 b r2 d t' e r3 f c, fresh c0 ->
  run code c0 (a ++ (worker, Returned Announce r1) :: b ++ (t, Called CInterrupt) :: d ++ (t, Returned (Api CInterrupt) r2) :: e ++ (t', Called CIsAlive) :: f ++ [(t', Returned (Api CIsAlive) r3)]) c -> r3 = false.
Proof. exact interrupted_then_false. Qed.
Print Assumptions C87_interrupted.
(** after the announcement, and as long as nobody calls interrupt(), it answers true *)
Theorem C87_true : forall Q (code : nat -> Q -> bool -> option (call * Q)) c0 a r1 b t d r c, fresh c0 ->
  run code c0 (a ++ (worker, Returned Announce r1) :: b ++ (t, Called CIsAlive) :: d ++ [(t, Returned (Api CIsAlive) r)]) c ->
  (forall x, ~ In (x, Called CInterrupt) (a ++ b ++ d)) -> r = true.
Proof. exact true_until_interrupt. Qed.
Print Assumptions C87_true.
Definition solo (q0 q1 : prog) : config prog := start_config q0 (upd (fun _ => Done) 1 (Idle false q1)).
Lemma solo_fresh q0 q1 : fresh (solo q0 q1).
Proof. eexists _, _. split; [reflexivity|]. intros t. unfold upd. destruct (Nat.eqb t 1); eauto. Qed.
(** that is not the answer to the question whether the thread runs: also when run() has ended, long ago *)
Theorem C87_ended_refuted : exists c0 a d c, fresh c0 /\ run prog_code c0 (a ++ (worker, Exited) :: (1, Called CIsAlive) :: d ++ [(1, Returned (Api CIsAlive) true)]) c.
Proof.
  exists (solo (Script []) (Script [CStart; CIsAlive])), [(1, Called CStart); (1, Returned (Api CStart) false); (worker, Returned Announce false)], [].
  destruct (exec prog prog_code (solo (Script []) (Script [CStart; CIsAlive])) (repeat (Step 1 0) 3 ++ repeat (Step 0 0) 5 ++ repeat (Step 1 0) 5)) as [[tr c]|] eqn:E; [|vm_compute in E; discriminate].
  exists c. split; [apply solo_fresh|]. pose proof (exec_run _ _ _ _ _ _ E) as R. vm_compute in E. injection E as <- _. exact R.
Qed.
Print Assumptions C87_ended_refuted.

(** * C88: interrupt() returns only when the worker has ended, and the worker does nothing afterwards *)
Theorem C88_interrupt_waits : forall Q (code : nat -> Q -> bool -> option (call * Q)) c0 a t r b c, fresh c0 ->
  run code c0 (a ++ (t, Returned (Api CInterrupt) r) :: b) c -> In (worker, Exited) a /\ forall v, ~ In (worker, v) b.
Proof. exact interrupt_waits. Qed.
Print Assumptions C88_interrupt_waits.

(** * C89: the worker while(isAlive()) sleep(ms) ends after interrupt() *)
(** once thread 1 has called interrupt() after the announcement: there is always a way to the end of all threads; nothing gets stuck; and as soon as the flag is down, every
    schedule comes to the end in a bounded number of steps *)
Theorem C89_ends : forall n c0 a r b d c, polling n c0 -> run prog_code c0 (a ++ (worker, Returned Announce r) :: b ++ (1, Called CInterrupt) :: d) c ->
  (exists tr c', run prog_code c tr c' /\ all_done c') /\
  (all_done c \/ can_step prog_code c) /\
  (alive c = false -> exists N, forall k c', runs prog_code k c c' -> k <= N /\ (all_done c' \/ can_step prog_code c')).
Proof.
  intros n c0 a r b d c P R. destruct (polling_start _ _ P) as (F & Sh & Sm & Ln). pose proof (fresh_inv _ prog_code _ F) as I.
  destruct (shape_run n _ _ _ R I Sh Sm Ln) as (I1 & Sh1 & Sm1). pose proof (K_of _ _ _ _ _ _ F R) as Kc. split; [|split].
  - destruct (to_dead _ I1 Sh1 Kc) as (m & Rm & Dm). destruct (shape_run n _ _ _ Rm I1 Sh1 Sm1 Ln) as (I2 & Sh2 & Sm2). destruct (dead_to_end n _ Ln I2 Sh2 Sm2 Dm) as (tr & c' & R2 & A). exists ([] ++ tr), c'. split; [eapply run_trans; eassumption|exact A].
  - eapply progress; eassumption.
  - intros A. assert (D : dead prog c) by (split; [exact (proj1 Kc)|exact A]). exists (mu n c). intros k c' Rk. split; [pose proof (bounded n _ _ _ Rk Ln I1 Sm1 D); lia|].
    assert (X : Inv c' /\ Shape c' /\ small n c').
    { clear - Rk I1 Sh1 Sm1 Ln. induction Rk as [c|k c ch c1 e c2 S R IH]; [auto|]. pose proof (step_inv _ _ _ _ _ _ I1 S). apply step_sr in S. apply IH; [assumption|exact (shape_keep _ _ _ I1 Sh1 S)|exact (small_keep n _ _ _ Ln Sm1 S)]. }
    destruct X as (I2 & Sh2 & Sm2). eapply progress; eassumption.
Qed.
Print Assumptions C89_ends.
(** the case exists: start, announcement, interrupt *)
Definition c_poll : config prog := solo (Poll CSleepFor) (Script [CStart; CInterrupt]).
Lemma c_poll_ok : polling 2 c_poll.
Proof.
  exists [], [], (fun _ => Done). split; [constructor|]. split; [constructor|]. split; [reflexivity|]. split; [lia|]. intros t. split; [now left|reflexivity].
Qed.
Example C89_ex : exists a b d c, run prog_code c_poll (a ++ (worker, Returned Announce false) :: b ++ (1, Called CInterrupt) :: d) c /\ alive c = false /\ all_done c.
Proof.
  exists [(1, Called CStart); (1, Returned (Api CStart) false)], [], [(worker, Called CIsAlive); (worker, Returned (Api CIsAlive) false); (worker, Exited); (1, Returned (Api CInterrupt) false); (1, Exited)].
  destruct (exec prog prog_code c_poll (repeat (Step 1 0) 3 ++ repeat (Step 0 0) 4 ++ repeat (Step 1 0) 5 ++ repeat (Step 0 0) 6 ++ repeat (Step 1 0) 3)) as [[tr c]|] eqn:E; [|vm_compute in E; discriminate].
  exists c. pose proof (exec_run _ _ _ _ _ _ E) as R. vm_compute in E. injection E as <- <-. split; [exact R|]. split; [reflexivity|]. intros t. cbn. unfold upd. destruct t as [|[|t]]; reflexivity.
Qed.
(** an interrupt() that comes before the worker has announced itself is lost: the worker sets the flag again, runs on, and interrupt() never returns *)
Theorem C89_early_refuted : exists n c0 tr c, polling n c0 /\ run prog_code c0 tr c /\ In (1, Called CInterrupt) tr /\
  forall tr' c' r, run prog_code c tr' c' -> ~ In (1, Returned (Api CInterrupt) r) tr' /\ ~ all_done c'.
Proof.
  destruct (exec prog prog_code c_poll (repeat (Step 1 0) 8 ++ repeat (Step 0 0) 3)) as [[tr c]|] eqn:E; [|vm_compute in E; discriminate].
  exists 2, c_poll, tr, c. pose proof (exec_run _ _ _ _ _ _ E) as R. split; [exact c_poll_ok|]. split; [exact R|]. pose proof (fresh_inv _ prog_code c_poll (solo_fresh _ _)) as I0. pose proof (run_inv _ _ _ _ _ R I0) as I1.
  assert (L : lost c /\ In (1, Called CInterrupt) tr). { vm_compute in E. injection E as <- <-. split; [|cbn; tauto]. split; [reflexivity|]. split; [cbn; auto|]. split; [cbn; eauto|]. intros t Lt. destruct t as [|[|t]]; [lia|lia|]. reflexivity. }
  destruct L as [L X]. split; [exact X|]. intros tr' c' r R'. destruct (lost_run _ _ _ R' I1 L) as [(_ & _ & (r1 & q1 & E1) & _) N]. split; [apply N|]. intros A. rewrite (A 1) in E1. discriminate.
Qed.
Print Assumptions C89_early_refuted.
(** and while(isAlive()) sleep() can miss the wake-up of interrupt(), because the question and the sleep are two sections: then only a spurious wake-up can end the two *)
Theorem C89_sleep_refuted : exists c0 a b c, fresh c0 /\ run prog_code c0 (a ++ (worker, Returned Announce false) :: b) c /\ In (1, Called CInterrupt) b /\ alive c = false /\ ~ all_done c /\
  forall ch c1 e, step prog_code c ch = Next c1 e -> ch = WakeUp worker.
Proof.
  exists (solo (Poll CSleep) (Script [CStart; CInterrupt])), [(1, Called CStart); (1, Returned (Api CStart) false)], [(worker, Called CIsAlive); (worker, Returned (Api CIsAlive) true); (1, Called CInterrupt); (worker, Called CSleep)].
  destruct (exec prog prog_code (solo (Poll CSleep) (Script [CStart; CInterrupt])) (repeat (Step 1 0) 3 ++ repeat (Step 0 0) 9 ++ repeat (Step 1 0) 5 ++ repeat (Step 0 0) 3)) as [[tr c]|] eqn:E; [|vm_compute in E; discriminate].
  exists c. split; [apply solo_fresh|]. pose proof (exec_run _ _ _ _ _ _ E) as R. vm_compute in E. injection E as <- <-. split; [exact R|]. split; [cbn; tauto|]. split; [reflexivity|]. split; [intros A; specialize (A 1); discriminate A|].
  intros ch c1 e S. destruct ch as [t pick|t].
  - destruct t as [|[|t]]; cbn in S; discriminate.
  - cbn in S. destruct t as [|t]; [reflexivity|]. cbn in S. discriminate.
Qed.
Print Assumptions C89_sleep_refuted.

(** * C90: wakeUp() wakes one of the sleeping threads, if there is one; so does interrupt() *)
Theorem C90_wakes : forall Q (code : nat -> Q -> bool -> option (call * Q)) c0 a x f b r c, fresh c0 -> f = CWakeUp \/ f = CInterrupt ->
  run code c0 (a ++ (x, Called f) :: b ++ [(x, Returned (Api f) r)]) c ->
  exists tr1 m1 ch m2 tr2, run code c0 (a ++ (x, Called f) :: tr1) m1 /\ step code m1 ch = Next m2 None /\ run code m2 tr2 c /\ b ++ [(x, Returned (Api f) r)] = tr1 ++ tr2 /\
    ((forall y, ~ asleep m1 y) \/ exists y, asleep m1 y /\ ~ asleep m2 y).
Proof.
  intros Q code c0 a x f b r c F Ff R. pose proof (fresh_inv _ code _ F) as I. apply run_app_inv in R. destruct R as (m0 & R0 & R). pose proof (run_inv _ _ _ _ _ R0 I) as I0.
  apply run_cons_inv in R. destruct R as (m & ch & m' & R1 & S & R2). pose proof (run_inv _ _ _ _ _ R1 I0) as I1. pose proof (step_inv _ _ _ _ _ _ I1 S) as I2. pose proof (step_sr _ _ _ _ _ _ S) as S1. destruct (call_of _ _ _ _ _ _ S1) as (r0 & q0 & E).
  destruct (wakes_run _ _ _ _ _ R2 x f (body (Api f)) r0 q0 (Api f) r I2 E) as (tr1 & m1 & ch1 & m2 & tr2 & A1 & A2 & A3 & A4 & A5).
  - destruct Ff as [->| ->]; cbn; tauto.
  - apply in_or_app. right. now left.
  - exists tr1, m1, ch1, m2, tr2. split; [|auto]. eapply run_trans; [exact R0|]. change ((x, Called f) :: tr1) with ([] ++ (x, Called f) :: tr1). eapply run_trans; [exact R1|]. eapply run_event; eassumption.
Qed.
Print Assumptions C90_wakes.
(** a wakeUp() before the sleep() is not remembered *)
Theorem C90_early_refuted : exists c0 a b c, fresh c0 /\ run prog_code c0 (a ++ (2, Returned (Api CWakeUp) false) :: (1, Called CSleep) :: b) c /\ thr c 2 = Done /\ asleep c 1 /\
  forall ch c1 e, step prog_code c ch = Next c1 e -> ch = WakeUp 1.
Proof.
  set (c0 := start_config (Script []) (upd (upd (fun _ => Done) 2 (Idle false (Script [CWakeUp]))) 1 (Idle false (Script [CSleep])))).
  assert (F : fresh c0). { eexists _, _. split; [reflexivity|]. intros t. unfold upd. destruct (Nat.eqb t 1); [eauto|]. destruct (Nat.eqb t 2); eauto. }
  destruct (exec prog prog_code c0 (repeat (Step 2 0) 3 ++ repeat (Step 1 0) 3 ++ [Step 2 0])) as [[tr c]|] eqn:E; [|vm_compute in E; discriminate].
  exists c0, [(2, Called CWakeUp)], [(2, Exited)], c. pose proof (exec_run _ _ _ _ _ _ E) as R. vm_compute in E. injection E as <- <-.
  split; [exact F|]. split; [exact R|]. split; [reflexivity|]. split; [now left|]. intros ch c1 e S. destruct ch as [t pick|t].
  - destruct t as [|[|[|t]]]; cbn in S; discriminate.
  - cbn in S. destruct t as [|[|t]]; cbn in S; [discriminate|reflexivity|discriminate].
Qed.
Print Assumptions C90_early_refuted.
(** the hypotheses of C90 and C86_exclusion and C88 are met: thread 1 sleeps, thread 2 wakes it *)
Example C90_ex : exists c0 a b c, fresh c0 /\ run prog_code c0 (a ++ (2, Called CWakeUp) :: b ++ [(2, Returned (Api CWakeUp) false)]) c /\ In (1, Called CSleep) a.
Proof.
  set (c0 := start_config (Script []) (upd (upd (fun _ => Done) 2 (Idle false (Script [CWakeUp]))) 1 (Idle false (Script [CSleep])))).
  assert (F : fresh c0). { eexists _, _. split; [reflexivity|]. intros t. unfold upd. destruct (Nat.eqb t 1); [eauto|]. destruct (Nat.eqb t 2); eauto. }
  destruct (exec prog prog_code c0 (repeat (Step 1 0) 3 ++ repeat (Step 2 0) 3)) as [[tr c]|] eqn:E; [|vm_compute in E; discriminate].
  exists c0, [(1, Called CSleep)], [], c. pose proof (exec_run _ _ _ _ _ _ E) as R. vm_compute in E. injection E as <- <-. split; [exact F|]. split; [exact R|]. now left.
Qed.
Example C86_ex : exists c0 a b d c, fresh c0 /\ run prog_code c0 (a ++ (1, Returned (Api CLock) false) :: b ++ (2, Returned (Api CLock) false) :: d) c.
Proof.
  set (c0 := start_config (Script []) (upd (upd (fun _ => Done) 2 (Idle false (Script [CLock]))) 1 (Idle false (Script [CLock; CUnlock])))).
  assert (F : fresh c0). { eexists _, _. split; [reflexivity|]. intros t. unfold upd. destruct (Nat.eqb t 1); [eauto|]. destruct (Nat.eqb t 2); eauto. }
  destruct (exec prog prog_code c0 (repeat (Step 1 0) 3 ++ [Step 2 0] ++ repeat (Step 1 0) 2 ++ repeat (Step 2 0) 2)) as [[tr c]|] eqn:E; [|vm_compute in E; discriminate].
  exists c0, [(1, Called CLock)], [(2, Called CLock); (1, Called CUnlock)], [], c. pose proof (exec_run _ _ _ _ _ _ E) as R. vm_compute in E. injection E as <- <-. split; [exact F|]. exact R.
Qed.
(** ... interrupt has returned and isAlive is asked again *)
Example C87_ex : exists c0 a b d e f c, fresh c0 /\
  run prog_code c0 (a ++ (worker, Returned Announce false) :: b ++ (1, Called CInterrupt) :: d ++ (1, Returned (Api CInterrupt) false) :: e ++ (1, Called CIsAlive) :: f ++ [(1, Returned (Api CIsAlive) false)]) c.
Proof.
  exists (solo (Poll CSleepFor) (Script [CStart; CInterrupt; CIsAlive])), [(1, Called CStart); (1, Returned (Api CStart) false)], [], [(worker, Called CIsAlive); (worker, Returned (Api CIsAlive) false); (worker, Exited)], [], [].
  destruct (exec prog prog_code (solo (Poll CSleepFor) (Script [CStart; CInterrupt; CIsAlive])) (repeat (Step 1 0) 3 ++ repeat (Step 0 0) 4 ++ repeat (Step 1 0) 5 ++ repeat (Step 0 0) 6 ++ repeat (Step 1 0) 7)) as [[tr c]|] eqn:E; [|vm_compute in E; discriminate].
  exists c. split; [apply solo_fresh|]. pose proof (exec_run _ _ _ _ _ _ E) as R. vm_compute in E. injection E as <- <-. exact R.
Qed.

(** * C91: sleep(millis) waits until millis milliseconds from now *)
Open Scope Z_scope.
(** seconds and nanoseconds of the end: the sum in nanoseconds is exact and the nanoseconds are in their range, when they fit in 63 bits: up to 292 years *)
Theorem C91_deadline : forall sec usec millis, 0 <= usec < 1000000 -> 0 <= millis -> usec * 1000 + millis * 1000000 < 2 ^ 63 ->
  let '(s, n) := deadline sec usec millis in s * 1000000000 + n = sec * 1000000000 + usec * 1000 + millis * 1000000 /\ 0 <= n < 1000000000.
Proof.
  intros sec usec millis U M L. unfold deadline, to_i64. rewrite (Z.mod_small millis), (Z.mod_small (millis * _)), (Z.mod_small (usec * _)) by lia. rewrite (Z.mod_small (usec * 1000 + millis * 1000000)) by lia.
  destruct (Z.ltb_spec (usec * 1000 + millis * 1000000) (2 ^ 63)); [|lia]. set (x := usec * 1000 + millis * 1000000) in *. pose proof (Z.quot_rem' x 1000000000). pose proof (Z.rem_bound_pos x 1000000000). lia.
Qed.
Print Assumptions C91_deadline.
(** beyond that the time lies in the past: sleep(millis) does not wait *)
Theorem C91_long_refuted : forall sec usec millis, 0 <= usec < 1000000 -> 2 ^ 63 <= usec * 1000 + millis * 1000000 < 2 ^ 64 ->
  let '(s, n) := deadline sec usec millis in s * 1000000000 + n < sec * 1000000000.
Proof.
  intros sec usec millis U L. unfold deadline, to_i64. rewrite (Z.mod_small millis), (Z.mod_small (millis * _)), (Z.mod_small (usec * _)) by lia. rewrite (Z.mod_small (usec * 1000 + millis * 1000000)) by lia.
  destruct (Z.ltb_spec (usec * 1000 + millis * 1000000) (2 ^ 63)); [lia|]. set (x := usec * 1000 + millis * 1000000) in *. pose proof (Z.quot_rem' (x - 2 ^ 64) 1000000000). lia.
Qed.
Print Assumptions C91_long_refuted.
(** a negative time less than a second gives a time before now; the nanoseconds may be negative, which pthread_cond_timedwait refuses *)
Theorem C91_negative : forall sec usec millis, 0 <= usec < 1000000 -> -1000 < millis < 0 ->
  let '(s, n) := deadline sec usec millis in s * 1000000000 + n = sec * 1000000000 + usec * 1000 + millis * 1000000 /\ (n < 0 <-> usec * 1000 + millis * 1000000 < 0).
Proof.
  intros sec usec millis U M. unfold deadline, to_i64.
  assert (E1 : millis mod 2 ^ 64 = millis + 2 ^ 64) by (symmetry; apply (Z.mod_unique _ _ (-1)); lia). rewrite E1.
  assert (E2 : ((millis + 2 ^ 64) * 1000000) mod 2 ^ 64 = millis * 1000000 + 2 ^ 64) by (symmetry; apply (Z.mod_unique _ _ 999999); lia). rewrite E2. rewrite (Z.mod_small (usec * 1000)) by lia.
  set (x := usec * 1000 + millis * 1000000).
  assert (E3 : (usec * 1000 + (millis * 1000000 + 2 ^ 64)) mod 2 ^ 64 = if x <? 0 then x + 2 ^ 64 else x) by (unfold x; destruct (Z.ltb_spec (usec * 1000 + millis * 1000000) 0); symmetry; [apply (Z.mod_unique _ _ 0)|apply (Z.mod_unique _ _ 1)]; lia). rewrite E3.
  assert (E4 : (if (if x <? 0 then x + 2 ^ 64 else x) <? 2 ^ 63 then if x <? 0 then x + 2 ^ 64 else x else (if x <? 0 then x + 2 ^ 64 else x) - 2 ^ 64) = x).
  { unfold x. destruct (Z.ltb_spec (usec * 1000 + millis * 1000000) 0); [destruct (Z.ltb_spec (usec * 1000 + millis * 1000000 + 2 ^ 64) (2 ^ 63))|destruct (Z.ltb_spec (usec * 1000 + millis * 1000000) (2 ^ 63))]; lia. }
  rewrite E4. pose proof (Z.quot_rem' x 1000000000). split; [unfold x in *; lia|]. assert (X : -1000000000 < x < 1000000000) by (unfold x; lia).
  assert (R : Z.rem x 1000000000 = x) by (apply Z.rem_small_iff; lia). rewrite R. reflexivity.
Qed.
Print Assumptions C91_negative.
Example C91_ex : deadline 1700000000 999999 1500 = (1700000002, 499999000).
Proof. reflexivity. Qed.
