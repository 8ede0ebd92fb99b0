From Verif Require Import Base M_Thread S_Thread L_Thread L_Thread2.
Local Open Scope nat_scope.
(** * runs by computation *)
Section E.
Variable Q : Type.
Variable code : nat -> Q -> bool -> option (call * Q).
Fixpoint exec (c : config Q) (l : list choice) : option (list (nat * event) * config Q) :=
  match l with
  | [] => Some ([], c)
  | ch :: l' => match step code c ch with
                | Next c1 e => match exec c1 l' with Some (tr, c2) => Some (match e with Some v => v :: tr | None => tr end, c2) | None => None end
                | _ => None
                end
  end.
Lemma exec_run c l tr c' : exec c l = Some (tr, c') -> run code c tr c'.
Proof.
  revert c tr. induction l as [|ch l IH]; intros c tr; cbn; [intros H; injection H as <- <-; constructor|]. destruct (step code c ch) as [c1 e| |] eqn:S; try discriminate. destruct (exec c1 l) as [[t2 c2]|] eqn:X; [|discriminate]. intros H; injection H as <- <-. destruct e as [v|]; [eapply run_event|eapply run_silent]; eauto.
Qed.

(** * signals *)
Notation sr := (sr Q code).
Lemma signalled c c1 e x f todo r q : Inv Q c -> thr c x = Run (Api f) todo r q -> In PSignal todo -> sr c c1 e ->
  (e = None /\ ((forall y, ~ asleep c y) \/ exists y, asleep c y /\ ~ asleep c1 y)) \/ ((forall j r0, e <> Some (x, Returned j r0)) /\ exists todo' r' q', thr c1 x = Run (Api f) todo' r' q' /\ In PSignal todo').
Proof.
  intros I E G S. pose proof (i_stage _ _ I _ _ _ _ _ E) as Z. pose proof (i_unborn _ _ I) as U.
  assert (T : (exists l, todo = PLock :: l /\ In PSignal l) \/ (exists l b, todo = PSet b :: l /\ In PSignal l) \/ (exists l, todo = PUnlock :: l /\ In PSignal l) \/ exists l, todo = PSignal :: l).
  { destruct f; cbn in Z; repeat (destruct Z as [Z|Z]); try contradiction; subst todo; cbn in G; repeat (destruct G as [G|G]; try discriminate); try contradiction; eauto 8;
      try (left; eexists; split; [reflexivity|cbn; tauto]); try (right; left; eexists _, _; split; [reflexivity|cbn; tauto]); try (right; right; left; eexists; split; [reflexivity|cbn; tauto]). }
  destruct S; cbn [thr owner waiters alive joined with_thr] in *; unfold upd; unfold asleep; cbn [waiters];
    try (destruct (Nat.eqb_spec x t) as [->|N]; [|right; split; [congruence|eauto 6]]);
    try (exfalso; rewrite H in E; inversion E; subst; destruct T as [(m & T & T2)|[(m & b1 & T & T2)|[(m & T & T2)|(m & T)]]]; discriminate);
    try (rewrite H in E; injection E; intros; subst; clear E; destruct T as [(m & T & T2)|[(m & b1 & T & T2)|[(m & T & T2)|(m & T)]]]; try discriminate; injection T; intros; subst; right; split; [congruence|eauto 6]; fail).
  - left. split; [reflexivity|]. right. exists w. split; [assumption|]. apply remove_In.
  - left. split; [reflexivity|]. left. intros y Y. rewrite H0 in Y. exact Y.
  - destruct (Nat.eqb_spec x worker) as [->|N2]; [congruence|]. eauto 6.
  - right. split; [congruence|eauto 6].
Qed.
Lemma wakes_run c tr c' : run code c tr c' -> forall x f todo r q j r0, Inv Q c -> thr c x = Run (Api f) todo r q -> In PSignal todo -> In (x, Returned j r0) tr ->
  exists tr1 m1 ch m2 tr2, run code c tr1 m1 /\ step code m1 ch = Next m2 None /\ run code m2 tr2 c' /\ tr = tr1 ++ tr2 /\ ((forall y, ~ asleep m1 y) \/ exists y, asleep m1 y /\ ~ asleep m2 y).
Proof.
  induction 1 as [c|c ch c1 tr c2 S R IH|c ch c1 e tr c2 S R IH]; intros x f todo r q j r0 I E G W; [destruct W| |]; pose proof (step_inv _ _ _ _ _ _ I S) as I1; pose proof (step_sr _ _ _ _ _ _ S) as S1; destruct (signalled _ _ _ _ _ _ _ _ I E G S1) as [[N X]|(N & todo' & r' & q' & E' & G')].
  - exists [], c, ch, c1, tr. split; [constructor|]. auto.
  - destruct (IH _ _ _ _ _ _ _ I1 E' G' W) as (tr1 & m1 & ch1 & m2 & tr2 & R1 & S2 & R2 & T & X). exists tr1, m1, ch1, m2, tr2. split; [eapply run_silent; eassumption|]. auto.
  - discriminate.
  - destruct W as [->|W]; [now destruct (N j r0)|]. destruct (IH _ _ _ _ _ _ _ I1 E' G' W) as (tr1 & m1 & ch1 & m2 & tr2 & R1 & S2 & R2 & T & X). exists (e :: tr1), m1, ch1, m2, tr2. split; [eapply run_event; eassumption|]. subst tr. auto.
Qed.
(** * the flag without interrupt *)
Definition calm (c : config Q) : Prop := forall t todo r q, thr c t <> Run (Api CInterrupt) todo r q.
Lemma calm_keep c c1 e : calm c -> sr c c1 e -> (forall t, e <> Some (t, Called CInterrupt)) -> calm c1.
Proof.
  intros C S N t todo r q. destruct S; cbn [thr with_thr]; unfold upd; try (destruct (Nat.eqb_spec t t0) as [->|Ne]; [|apply C]); try discriminate; try (intros E; injection E; intros; subst; eapply C; eassumption).
  - intros E. injection E; intros; subst. now apply (N t0).
  - destruct (Nat.eqb_spec t t0) as [->|Ne]; [intros E; injection E; intros; subst; eapply C; eassumption|]. destruct (Nat.eqb t worker); [discriminate|apply C].
  - apply C.
Qed.
Definition up (c : config Q) : Prop := announced Q c /\ alive c = true.
Lemma up_keep c c1 e : Inv Q c -> calm c -> up c -> sr c c1 e -> up c1.
Proof.
  intros I C [A D] S. split; [eapply announced_keep; eassumption|]. destruct S; cbn [alive with_thr]; try assumption. pose proof (i_stage _ _ I _ _ _ _ _ H) as G. destruct b; [reflexivity|]. exfalso.
  destruct j as [|[]]; cbn in G; repeat (destruct G as [G|G]); try discriminate G; try contradiction. eapply C; eassumption.
Qed.
(** the flag is up as soon as the announcement is past its assignment *)
Definition set_up (c : config Q) : Prop := forall todo r q, thr c worker = Run Announce todo r q -> In (PSet true) todo \/ alive c = true.
Lemma set_up_keep c c1 e : Inv Q c -> calm c -> set_up c -> sr c c1 e -> set_up c1.
Proof.
  intros I C K S todo r q E. pose proof (i_stage _ _ I) as I1.
  assert (AL : alive c = true -> alive c1 = true). { destruct S; cbn [alive with_thr]; auto. intros _. pose proof (I1 _ _ _ _ _ H) as G. destruct b; [reflexivity|]. exfalso. destruct j as [|[]]; cbn in G; repeat (destruct G as [G|G]); try discriminate G; try contradiction. eapply C; eassumption. }
  assert (G : In (PSet true) todo \/ alive c = true \/ alive c1 = true).
  { destruct S; cbn [thr with_thr alive] in *; unfold upd in *; try (destruct (Nat.eqb_spec worker t) as [<-|N]; [|destruct (K _ _ _ E); tauto]); try discriminate; try (destruct (K _ _ _ E); tauto);
      try (injection E; intros; subst; destruct (K _ _ _ H) as [[X|X]|X]; try discriminate X; tauto).
    - injection E; intros; subst. destruct (K _ _ _ H) as [[X|X]|X]; [injection X as ->|..]; tauto.
    - injection E; intros; subst. pose proof (I1 _ _ _ _ _ H) as G. cbn in G. repeat (destruct G as [G|G]); try discriminate G; contradiction.
    - destruct (Nat.eqb_spec worker t) as [<-|N]; [congruence|]. cbn in E. injection E; intros; subst. left. cbn. tauto. }
  tauto.
Qed.
(** isAlive in progress, begun when the flag was up *)
Definition askedT (t : nat) (c : config Q) : Prop := up c /\ forall todo r q, thr c t = Run (Api CIsAlive) todo r q -> In PGet todo \/ r = true.
Lemma askedT_keep t c c1 e : Inv Q c -> calm c -> askedT t c -> sr c c1 e -> askedT t c1.
Proof.
  intros I C [D K] S. split; [eapply up_keep; eassumption|]. intros todo r q E.
  destruct S; cbn [thr with_thr] in *; unfold upd in *; try (destruct (Nat.eqb_spec t t0) as [->|N]; [|exact (K _ _ _ E)]); try discriminate; try exact (K _ _ _ E);
    try (injection E; intros; subst; destruct (K _ _ _ H) as [[X|X]|X]; try discriminate X; tauto).
  - injection E; intros; subst. left. cbn. tauto.
  - injection E; intros; subst. right. exact (proj2 D).
  - injection E; intros; subst. pose proof (i_stage _ _ I _ _ _ _ _ H) as G. cbn in G. repeat (destruct G as [G|G]); try discriminate G; contradiction.
  - destruct (Nat.eqb_spec t t0) as [->|N]; [injection E; intros; subst; destruct (K _ _ _ H) as [[X|X]|X]; try discriminate X; tauto|]. destruct (Nat.eqb t worker); [discriminate|]. exact (K _ _ _ E).
Qed.
Lemma calm_run (P : config Q -> Prop) : (forall c c1 e, Inv Q c -> calm c -> P c -> sr c c1 e -> P c1) -> forall c tr c1, run code c tr c1 -> (forall t, ~ In (t, Called CInterrupt) tr) -> Inv Q c -> calm c -> P c -> Inv Q c1 /\ calm c1 /\ P c1.
Proof.
  intros Kp c tr c1 R. induction R as [c|c ch c1 tr c2 S R IH|c ch c1 e tr c2 S R IH]; intros N I C p; [auto| |]; pose proof (step_inv _ _ _ _ _ _ I S) as I1; apply step_sr in S; apply IH; auto.
  - eapply calm_keep; [exact C|exact S|]. discriminate.
  - exact (Kp _ _ _ I C p S).
  - intros t X. apply (N t). now right.
  - eapply calm_keep; [exact C|exact S|]. intros t X. injection X as ->. apply (N t). now left.
  - exact (Kp _ _ _ I C p S).
Qed.
Lemma true_until_interrupt c0 a r1 b t d r c : fresh c0 -> run code c0 (a ++ (worker, Returned Announce r1) :: b ++ (t, Called CIsAlive) :: d ++ [(t, Returned (Api CIsAlive) r)]) c ->
  (forall x, ~ In (x, Called CInterrupt) (a ++ b ++ d)) -> r = true.
Proof.
  intros F R N. pose proof (fresh_inv _ code _ F) as I. assert (Na : forall x, ~ In (x, Called CInterrupt) a) by (intros x X; apply (N x), in_or_app; now left).
  assert (Nb : forall x, ~ In (x, Called CInterrupt) b) by (intros x X; apply (N x), in_or_app; right; apply in_or_app; now left). assert (Nd : forall x, ~ In (x, Called CInterrupt) d) by (intros x X; apply (N x), in_or_app; right; apply in_or_app; now right). clear N.
  assert (C0 : calm c0 /\ set_up c0). { destruct F as (q0 & o & -> & H). split; [intros x todo r0 q E|intros todo r0 q E]; cbn in E; unfold upd in E. - destruct (Nat.eqb x worker); [discriminate|]. destruct (H x) as [X|[? X]]; congruence. - discriminate. }
  destruct C0 as [C0 U0]. apply run_app_inv in R. destruct R as (m0 & R0 & R). destruct (calm_run _ set_up_keep _ _ _ R0 Na I C0 U0) as (I0 & Cm0 & U1).
  apply run_cons_inv in R. destruct R as (m1 & ch1 & m2 & R1 & S1 & R). destruct (calm_run _ set_up_keep _ _ _ R1 ltac:(intros x []) I0 Cm0 U1) as (I1 & Cm1 & U2). pose proof (step_inv _ _ _ _ _ _ I1 S1) as I2. apply step_sr in S1.
  pose proof (calm_keep _ _ _ Cm1 S1 ltac:(intros x X; discriminate X)) as Cm2.
  assert (P2 : up m2). { destruct (ret_of _ _ _ _ _ _ _ S1) as (q & E & ->). split; [unfold announced; cbn; exact Logic.I|]. cbn. destruct (U2 _ _ _ E) as [[]|X]; exact X. }
  apply run_app_inv in R. destruct R as (m3 & R3 & R). destruct (calm_run _ up_keep _ _ _ R3 Nb I2 Cm2 P2) as (I3 & Cm3 & P3).
  apply run_cons_inv in R. destruct R as (m4 & ch4 & m5 & R4 & S4 & R). destruct (calm_run _ up_keep _ _ _ R4 ltac:(intros x []) I3 Cm3 P3) as (I4 & Cm4 & P4). pose proof (step_inv _ _ _ _ _ _ I4 S4) as I5. apply step_sr in S4.
  pose proof (calm_keep _ _ _ Cm4 S4 ltac:(intros x X; discriminate X)) as Cm5.
  assert (P5 : askedT t m5). { split; [eapply up_keep; [exact I4|exact Cm4|exact P4|exact S4]|]. destruct (call_of _ _ _ _ _ _ S4) as (r0 & q0 & E). intros todo r2 q2 X. rewrite E in X. injection X as <- _ _. left. cbn. tauto. }
  apply run_app_inv in R. destruct R as (m6 & R6 & R). destruct (calm_run _ (askedT_keep t) _ _ _ R6 Nd I5 Cm5 P5) as (I6 & Cm6 & P6).
  apply run_cons_inv in R. destruct R as (m7 & ch7 & m8 & R7 & S7 & R). destruct (calm_run _ (askedT_keep t) _ _ _ R7 ltac:(intros x []) I6 Cm6 P6) as (_ & _ & [_ K7]). apply step_sr in S7. destruct (ret_of _ _ _ _ _ _ _ S7) as (q & E & _). destruct (K7 _ _ _ E) as [[]|X]; exact X.
Qed.
End E.
