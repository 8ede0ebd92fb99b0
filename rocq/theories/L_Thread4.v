From Verif Require Import Base M_Thread S_Thread L_Thread L_Thread2 L_Thread3.
Local Open Scope nat_scope.
Ltac inv H := inversion H; subst; clear H.
Ltac who x t := destruct (Nat.eqb_spec x t).
Notation stp := (step prog_code).

(** * someone can always go on *)
Lemma owns_yes (c : config prog) t : owner c = Some t -> owns c t = true.
Proof. intros H. now apply owns_spec. Qed.
Lemma holder_goes c t j todo r q : Inv c -> owner c = Some t -> thr c t = Run j todo r q -> inside j todo -> j <> Api CLock -> exists c1, stp c (Step t 0) = Next c1 None /\ forall x, x <> t -> thr c1 x = thr c x.
Proof.
  intros I O E G N. cbn. rewrite E. destruct todo as [|p l]; [cbn in G; congruence|]. unfold do_prim. rewrite (owns_yes _ _ O).
  destruct p; cbn in G; try contradiction; eexists; (split; [reflexivity|]); intros x X; cbn; unfold upd; now who x t.
Qed.
(** a thread that is busy with a call other than start, interrupt, unlock can go on when the mutex is free *)
Lemma free_goes c t : Inv c -> owner c = None -> (forall q, thr c t <> Unborn q) -> thr c t <> Done ->
  (forall j l r q, thr c t = Run j l r q -> j <> Api CUnlock /\ ~ (exists m, l = PCreate :: m) /\ ~ (exists m, l = PJoin :: m)) -> can_step prog_code c.
Proof.
  intros I O U D K. destruct (thr c t) as [q|r q|j todo r q|] eqn:E; [now destruct (U q)| | |contradiction].
  - destruct (prog_code t q r) as [[f q']|] eqn:P; (exists (Step t 0); cbn; rewrite E, P; eauto).
  - destruct (K _ _ _ _ eq_refl) as (K1 & K2 & K3). destruct todo as [|p l]; [exists (Step t 0); cbn; rewrite E; eauto|].
    pose proof (i_own _ _ I _ _ _ _ _ E) as X. rewrite O in X.
    destruct p; try (exfalso; now discriminate X); try (destruct K2; eauto; fail); try (destruct K3; eauto; fail).
    + exists (Step t 0). cbn. rewrite E. cbn. rewrite O. eauto.
    + destruct (waits c t) eqn:W.
      * exists (WakeUp t). cbn. rewrite W. eauto.
      * exists (Step t 0). cbn. rewrite E. cbn. rewrite W, O. eauto.
    + exists (Step t 0). cbn. rewrite E. cbn. destruct (waiters c); cbn; eauto.
Qed.
Lemma all_or_one n (f : nat -> st prog) : (forall t, t < n -> f t = Done) \/ exists t, t < n /\ f t <> Done.
Proof.
  induction n as [|n [IH|(t & L & N)]]; [left; lia| |right; exists t; auto]. assert (D : f n = Done \/ f n <> Done) by (destruct (f n); try (right; discriminate); now left).
  destruct D as [D|D]; [left|right; exists n; auto]. intros t L. destruct (Nat.eq_dec t n) as [->|N]; [exact D|apply IH; lia].
Qed.
Lemma harmless_job c t j l r q : Inv c -> okh (thr c t) -> thr c t = Run j l r q -> j <> Api CUnlock /\ ~ (exists m, l = PCreate :: m) /\ ~ (exists m, l = PJoin :: m).
Proof.
  intros I H E. rewrite E in H. cbn in H. destruct j as [|g]; [contradiction|]. destruct q; try contradiction. destruct H as [H _]. destruct (harmless_not _ H) as (N1 & N2 & N3 & N4 & _). pose proof (i_stage _ _ I _ _ _ _ _ E) as G. split; [congruence|].
  split; intros [m ->]; [destruct (stage_create _ _ G) as [X _]|destruct (stage_join _ _ G) as [X _]]; congruence.
Qed.
Lemma progress n c : Inv c -> small n c -> Shape c -> all_done c \/ can_step prog_code c.
Proof.
  intros I Sm Sh. destruct (owner c) as [t|] eqn:O.
  { right. destruct (sh_o _ Sh _ O) as (j & todo & r & q & E & G & N). destruct (holder_goes _ _ _ _ _ _ I O E G N) as (c1 & S & _). exists (Step t 0), c1, None. exact S. }
  assert (W : (exists q, thr c worker = Unborn q) \/ thr c worker = Done \/ ((forall q, thr c worker <> Unborn q) /\ thr c worker <> Done)) by (destruct (thr c worker); eauto; right; right; split; congruence).
  destruct W as [[q0 W]|[W|[W1 W2]]].
  - right. pose proof (sh_1 _ Sh) as P. unfold unborn in P. rewrite W in P. destruct (thr c 1) as [q|r q|j todo r q|] eqn:E1; try (inversion P; fail).
    + destruct (prog_code 1 q r) as [[f q']|] eqn:PP; (exists (Step 1 0); cbn; rewrite E1, PP; eauto).
    + destruct (ph_job _ _ _ P _ _ _ _ eq_refl) as (g & -> & [(-> & [[-> _]| ->])|[(_ & _ & X & _)|X]]); try discriminate.
      * exists (Step 1 0). cbn -[worker]. rewrite E1. cbn -[worker]. rewrite W. eauto.
      * exists (Step 1 0). cbn. rewrite E1. eauto.
      * inversion P; subst; destruct (harmless_not _ X) as (N & _); congruence.
  - destruct (all_or_one n (thr c)) as [A|(t & L & N)]; [left; intros t; destruct (Nat.lt_ge_cases t n); [auto|now apply Sm]|]. right.
    assert (NW : t <> worker) by congruence. assert (NU : forall q, thr c t <> Unborn q) by (intros q X; now apply (i_unborn _ _ I) in X).
    destruct (Nat.eq_dec t 1) as [->|N1].
    + pose proof (sh_1 _ Sh) as P. unfold unborn in P. rewrite W in P.
      assert (K : (exists r q, thr c 1 = Run (Api CInterrupt) [PJoin] r q) \/ (forall j l r q, thr c 1 = Run j l r q -> j <> Api CUnlock /\ ~ (exists m, l = PCreate :: m) /\ ~ (exists m, l = PJoin :: m))).
      { destruct (thr c 1) as [q|r q|j todo r q|] eqn:E1; try (right; intros; discriminate). pose proof (i_stage _ _ I _ _ _ _ _ E1) as G. destruct (ph_job _ _ _ P _ _ _ _ eq_refl) as (g & -> & [(-> & [[_ X]| ->])|[(-> & _)|X]]).
        - discriminate.
        - right. intros j l r1 q1 Y. inv Y. split; [discriminate|]. split; intros [m X]; discriminate.
        - cbn in G. repeat (destruct G as [G|G]); try contradiction; subst todo; try (right; intros j l r1 q1 Y; inv Y; split; [discriminate|]; split; intros [m X]; discriminate). left. eauto.
        - right. intros j l r1 q1 Y. inv Y. destruct (harmless_not _ X) as (M1 & M2 & _ & M4 & _). split; [congruence|]. split; intros [m ->]; [destruct (stage_create _ _ G) as [Z _]|destruct (stage_join _ _ G) as [Z _]]; congruence. }
      destruct K as [(r & q & E1)|K].
      * exists (Step 1 0). destruct (ph_job _ _ _ P _ _ _ _ E1) as (g & Eg & [(X & _)|[(_ & J & _)|X]]); injection Eg as <-; [discriminate| |destruct (harmless_not _ X) as (_ & M2 & _); now destruct M2].
        cbn -[worker]. rewrite E1. cbn -[worker]. rewrite (J (or_introl eq_refl)), W. cbn. eauto.
      * eapply (free_goes c 1); eauto.
    + eapply (free_goes c t); eauto. intros j l r q E. eapply harmless_job; eauto. apply (sh_h _ Sh). unfold worker in *. lia.
  - right. eapply (free_goes c worker); eauto. intros j l r q E. pose proof (i_stage _ _ I _ _ _ _ _ E) as G. pose proof (sh_w _ Sh) as X. rewrite E in X. cbn in X.
    assert (Y : j = Announce \/ j = Api CIsAlive \/ j = Api CSleepFor) by tauto. split; [destruct Y as [->|[->| ->]]; discriminate|].
    split; intros [m ->]; [destruct (stage_create _ _ G) as [Z _]|destruct (stage_join _ _ G) as [Z _]]; destruct Y as [->|[->| ->]]; discriminate.
Qed.
(** * and nothing is undefined *)
Lemma shape_defined c ch : Inv c -> Shape c -> stp c ch <> Undefined.
Proof.
  intros I Sh H. destruct (undefined_cases _ _ _ _ I H) as (t & pick & j & todo & r & q & -> & E & K).
  pose proof (sh_w _ Sh) as W. pose proof (sh_1 _ Sh) as P. pose proof (i_stage _ _ I _ _ _ _ _ E) as G.
  destruct (Nat.eq_dec t worker) as [->|NW].
  { rewrite E in W. cbn in W. destruct K as [[-> _]|[[-> _]|[-> _]]]; intuition discriminate. }
  destruct (Nat.eq_dec t 1) as [->|N1].
  - destruct (ph_job _ _ _ P _ _ _ _ E) as (g & -> & X). destruct K as [[Y _]|[[Y K]|[Y K]]]; injection Y as ->.
    + destruct X as [(X & _)|[(X & _)|X]]; try discriminate. now destruct (harmless_not _ X) as (_ & _ & _ & M & _).
    + destruct X as [(_ & [[-> U]| ->])|[(X & _)|X]]; try discriminate; [| |now destruct (harmless_not _ X) as (M & _)].
      * unfold unborn in U. destruct (thr c worker) eqn:EW; try discriminate. now destruct (K q0).
      * cbn in H. rewrite E in H. discriminate.
    + destruct X as [(X & _)|[(_ & J & U & _)|X]]; try discriminate; [|now destruct (harmless_not _ X) as (_ & M & _)]. destruct K as [K|[K|[q0 K]]]; [contradiction| |unfold unborn in U; rewrite K in U; discriminate].
      cbn in G. repeat (destruct G as [G|G]); try contradiction; subst todo; cbn -[worker] in H; rewrite E in H; cbn -[worker] in H; try discriminate;
        try (rewrite (J ltac:(cbn; tauto)) in K; discriminate).
  - pose proof (sh_h _ Sh t ltac:(unfold worker in *; lia)) as O. rewrite E in O. cbn in O. destruct j as [|g]; [contradiction|]. destruct q; try contradiction. destruct O as [O _]. destruct (harmless_not _ O) as (M1 & M2 & M3 & M4 & _). destruct K as [[Y _]|[[Y _]|[Y _]]]; congruence.
Qed.
(** * the interrupted flag: down, or interrupt is about to put it down *)
Definition K (c : config prog) : Prop := announced prog c /\ (alive c = false \/ exists todo r q, thr c 1 = Run (Api CInterrupt) todo r q /\ In (PSet false) todo).
Lemma K_keep c c1 e : Inv c -> K c -> sr c c1 e -> K c1.
Proof.
  intros I [A D] S. split; [eapply announced_keep; eassumption|]. destruct D as [D|(todo & r & q & E & G)].
  { left. exact (proj2 (dead_keep _ _ _ _ _ I (conj A D) S)). }
  pose proof (i_stage _ _ I _ _ _ _ _ E) as Z. cbn in Z.
  destruct S; cbn [thr owner waiters alive joined with_thr] in *; unfold upd; try (who 1 t; [subst; rewrite H in E; inv E|right; eauto 6]); try (right; exists todo, r, q; split; [exact E|exact G]); try contradiction;
    try (right; eexists _, _, _; split; [reflexivity|]; cbn in G; destruct G as [G|G]; [discriminate|exact G]).
  - cbn in G. destruct G as [G|G]; [inv G; now left|]. right. eauto 6.
  - exfalso. repeat (destruct Z as [Z|Z]); inv Z.
Qed.
Lemma run1 c ch c1 tr c2 : stp c ch = Next c1 None -> run prog_code c1 tr c2 -> run prog_code c tr c2.
Proof. intros. eapply run_silent; eassumption. Qed.
Lemma release c t : Inv c -> Shape c -> owner c = Some t -> exists c1, run prog_code c [] c1 /\ owner c1 = None /\ forall x, x <> t -> thr c1 x = thr c x.
Proof.
  intros I Sh O. destruct (sh_o _ Sh _ O) as (j & todo & r & q & E & G & N). pose proof (i_stage _ _ I _ _ _ _ _ E) as Z.
  destruct todo as [|p l]; [cbn in G; congruence|]. destruct p; cbn in G; try contradiction.
  - eexists. split; [eapply (run1 _ (Step t 0)); [cbn; rewrite E; cbn; rewrite (owns_yes _ _ O); reflexivity|apply run_nil]|]. split; [reflexivity|]. intros x X. cbn. unfold upd. now who x t.
  - assert (exists m, l = PUnlock :: m) as [m ->] by (destruct j as [|[]]; cbn in Z; repeat (destruct Z as [Z|Z]); try discriminate Z; try contradiction; inv Z; eauto).
    eexists. split; [eapply (run1 _ (Step t 0)); [cbn; rewrite E; cbn; rewrite (owns_yes _ _ O); reflexivity|]; eapply (run1 _ (Step t 0)); [cbn; unfold upd at 1; rewrite Nat.eqb_refl; cbn; unfold owns; cbn; rewrite O, Nat.eqb_refl; reflexivity|apply run_nil]|].
    split; [reflexivity|]. intros x X. cbn. unfold upd. now who x t.
  - assert (exists m, l = PUnlock :: m) as [m ->] by (destruct j as [|[]]; cbn in Z; repeat (destruct Z as [Z|Z]); try discriminate Z; try contradiction; inv Z; eauto).
    eexists. split; [eapply (run1 _ (Step t 0)); [cbn; rewrite E; cbn; rewrite (owns_yes _ _ O); reflexivity|]; eapply (run1 _ (Step t 0)); [cbn; unfold upd at 1; rewrite Nat.eqb_refl; cbn; unfold owns; cbn; rewrite O, Nat.eqb_refl; reflexivity|apply run_nil]|].
    split; [reflexivity|]. intros x X. cbn. unfold upd. now who x t.
  - eexists. split; [eapply (run1 _ (Step t 0)); [cbn; rewrite E; cbn; rewrite (owns_yes _ _ O); reflexivity|apply run_nil]|]. split; [reflexivity|]. intros x X. cbn. unfold upd. now who x t.
Qed.
Lemma to_dead c : Inv c -> Shape c -> K c -> exists c1, run prog_code c [] c1 /\ dead prog c1.
Proof.
  intros I Sh Kc. destruct (proj2 Kc) as [D|(todo & r & q & E & G)]; [exists c; split; [constructor|split; [exact (proj1 Kc)|exact D]]|].
  assert (Lk : forall m l, run prog_code c [] m -> thr m 1 = Run (Api CInterrupt) (PSet false :: l) r q -> owner m = Some 1 -> exists c1, run prog_code c [] c1 /\ dead prog c1).
  { intros m l R Em O. pose proof (run_inv _ _ _ _ _ R I) as Im. pose proof (keeps _ prog_code K K_keep _ _ _ R I Kc) as Km.
    assert (S : exists m1, stp m (Step 1 0) = Next m1 None /\ alive m1 = false) by (cbn; rewrite Em; cbn; rewrite (owns_yes _ _ O); eauto). destruct S as (m1 & S & D). exists m1. split.
    - change (@nil (nat * event)) with (@nil (nat * event) ++ []). eapply run_trans; [exact R|]. eapply run1; [exact S|constructor].
    - apply step_sr in S. split; [eapply announced_keep; [exact Im|exact (proj1 Km)|exact S]|exact D]. }
  pose proof (i_stage _ _ I _ _ _ _ _ E) as Z. cbn in Z. repeat (destruct Z as [Z|Z]); try contradiction; subst todo; cbn in G; repeat (destruct G as [G|G]; try discriminate); try contradiction; clear G.
  - assert (F : exists m, run prog_code c [] m /\ owner m = None /\ thr m 1 = thr c 1).
    { destruct (owner c) as [t|] eqn:O; [|exists c; split; [constructor|auto]]. destruct (release _ _ I Sh O) as (m & R & Om & Ot). exists m. split; [exact R|]. split; [exact Om|]. apply Ot. intros <-.
      destruct (sh_o _ Sh _ O) as (j & todo & r1 & q1 & E1 & G1 & _). rewrite E in E1. inv E1. exact G1. }
    destruct F as (m & R & O & Em). rewrite E in Em.
    assert (S : exists m1, stp m (Step 1 0) = Next m1 None /\ thr m1 1 = Run (Api CInterrupt) [PSet false; PUnlock; PSignal; PJoin] r q /\ owner m1 = Some 1) by (cbn; rewrite Em; cbn; rewrite O; eauto).
    destruct S as (m1 & S & E1 & O1). eapply (Lk m1); [|exact E1|exact O1]. change (@nil (nat * event)) with (@nil (nat * event) ++ []). eapply run_trans; [exact R|]. eapply run1; [exact S|constructor].
  - eapply (Lk c); [constructor|exact E|]. apply (i_own _ _ I _ _ _ _ _ E). exact Logic.I.
Qed.
Lemma dead_to_end n c : 0 < n -> Inv c -> Shape c -> small n c -> dead prog c -> exists tr c1, run prog_code c tr c1 /\ all_done c1.
Proof.
  intros P. remember (mu n c) as k eqn:Ek. revert c Ek. induction (lt_wf k) as [k _ IH]. intros c -> I Sh Sm D. destruct (progress n c I Sm Sh) as [A|(ch & c1 & e & S)]; [exists [], c; split; [constructor|exact A]|].
  pose proof (step_inv _ _ _ _ _ _ I S) as I1. pose proof (step_sr _ _ _ _ _ _ S) as S1. destruct (IH (mu n c1) (mu_less n _ _ _ I Sm D S1) c1 eq_refl I1 (shape_keep _ _ _ I Sh S1) (small_keep n _ _ _ P Sm S1) (dead_keep _ _ _ _ _ I D S1)) as (tr & c2 & R & A).
  destruct e as [e|]; [exists (e :: tr), c2; split; [eapply run_event; eassumption|exact A]|exists tr, c2; split; [eapply run_silent; eassumption|exact A]].
Qed.
(** * the setting *)
Lemma polling_start n c : polling n c -> fresh c /\ Shape c /\ small n c /\ 0 < n.
Proof.
  intros (pre & post & others & Fpre & Fpost & -> & Ln & H). split; [|split; [|split]].
  - exists (Poll CSleepFor), (upd others 1 (Idle false (Script (CStart :: pre ++ CInterrupt :: post)))). split; [reflexivity|]. intros t. unfold upd. who t 1; [eauto|]. destruct (H t) as [[E|(l & _ & E)] _]; eauto.
  - split; cbn.
    + reflexivity.
    + unfold unborn. cbn. now apply ph0.
    + intros t L. unfold upd. destruct t as [|[|t]]; [lia|lia|]. cbn. destruct (H (S (S t))) as [[E|(l & F & E)] _]; rewrite E; [exact I|exact F].
    + discriminate.
  - intros t L. cbn. unfold upd. destruct t as [|[|t]]; [lia|lia|]. cbn. now apply H.
  - lia.
Qed.
Lemma shape_run n c tr c1 : run prog_code c tr c1 -> Inv c -> Shape c -> small n c -> 0 < n -> Inv c1 /\ Shape c1 /\ small n c1.
Proof. induction 1 as [c|c ch c1 tr c2 S R IH|c ch c1 e tr c2 S R IH]; intros I Sh Sm P; [auto| |]; (pose proof (step_inv _ _ _ _ _ _ I S); apply step_sr in S; apply IH; [assumption|eapply (shape_keep c); eassumption|eapply (small_keep n c); eassumption|assumption]). Qed.
Lemma K_of c0 a r b d c : fresh c0 -> run prog_code c0 (a ++ (worker, Returned Announce r) :: b ++ (1, Called CInterrupt) :: d) c -> K c.
Proof.
  intros F R. pose proof (fresh_inv _ prog_code _ F) as I. apply run_app_inv in R. destruct R as (m0 & R0 & R). pose proof (run_inv _ _ _ _ _ R0 I) as I0.
  apply run_cons_inv in R. destruct R as (m1 & ch1 & m2 & R1 & S1 & R). pose proof (run_inv _ _ _ _ _ R1 I0) as I1. pose proof (step_inv _ _ _ _ _ _ I1 S1) as I2. apply step_sr in S1.
  assert (A2 : announced prog m2). { destruct (ret_of _ _ _ _ _ _ _ S1) as (q & _ & ->). unfold announced. cbn. exact Logic.I. }
  apply run_app_inv in R. destruct R as (m3 & R3 & R). pose proof (run_inv _ _ _ _ _ R3 I2) as I3. pose proof (keeps _ prog_code (announced prog) (announced_keep _ _) _ _ _ R3 I2 A2) as A3.
  apply run_cons_inv in R. destruct R as (m4 & ch4 & m5 & R4 & S4 & R). pose proof (run_inv _ _ _ _ _ R4 I3) as I4. pose proof (keeps _ prog_code (announced prog) (announced_keep _ _) _ _ _ R4 I3 A3) as A4. pose proof (step_inv _ _ _ _ _ _ I4 S4) as I5. apply step_sr in S4.
  eapply (keeps _ prog_code K K_keep); [exact R|exact I5|]. split; [exact (announced_keep _ _ _ _ _ I4 A4 S4)|]. right. destruct (call_of _ _ _ _ _ _ S4) as (r0 & q0 & E). exists (body (Api CInterrupt)), r0, q0. split; [exact E|]. cbn. tauto.
Qed.
