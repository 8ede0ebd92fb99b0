From Verif Require Import Base M_Thread S_Thread L_Thread L_Thread2.
Local Open Scope nat_scope.
Ltac inv H := inversion H; subst; clear H.
Ltac simp := cbn [thr owner waiters alive joined with_thr] in *; unfold upd in *.
Ltac who x t := destruct (Nat.eqb_spec x t).

(** * every step is progress once the flag is down *)
Definition wp (p : prim) : nat := match p with PWait => 3 | _ => 1 end.
Fixpoint wb (l : list prim) : nat := match l with [] => 0 | p :: r => wp p + wb r end.
Definition gets (l : list prim) : bool := existsb (fun p => match p with PGet => true | _ => false end) l.
Definition wq (q : prog) (r : bool) : nat :=
  match q with
  | Script l => 1 + list_sum (map (fun c => 2 + wb (body (Api c))) l)
  | Poll _ => 6
  | Asked f => if r then 8 + wb (body (Api f)) else 1
  end.
Definition ws (s : st prog) : nat :=
  match s with
  | Unborn q => 0
  | Idle r q => wq q r
  | Run j todo r q => 1 + wb todo + wq q (if gets todo then false else r)
  | Done => 0
  end.
Fixpoint total (n : nat) (f : nat -> st prog) : nat := match n with O => 0 | S k => ws (f k) + total k f end.
Definition mu (n : nat) (c : config prog) : nat := length (waiters c) + total n (thr c).
Lemma total_upd n f t s : t < n -> total n (upd f t s) + ws (f t) = total n f + ws s.
Proof.
  induction n as [|n IH]; [lia|]. intros L. cbn. destruct (Nat.eq_dec n t) as [->|N].
  - assert (E : total t (upd f t s) = total t f). { clear. assert (G : forall k, k <= t -> total k (upd f t s) = total k f). { induction k; cbn; intros; [reflexivity|]. rewrite IHk by lia. unfold upd. destruct (Nat.eqb_spec k t); [lia|reflexivity]. } now apply G. }
    rewrite E. unfold upd. rewrite Nat.eqb_refl. lia.
  - rewrite <- Nat.add_assoc, IH by lia. unfold upd. destruct (Nat.eqb_spec n t); lia.
Qed.
Lemma remove_length (x : nat) l : In x l -> length (remove Nat.eq_dec x l) < length l.
Proof. apply remove_length_lt. Qed.
Definition small (n : nat) (c : config prog) : Prop := forall t, n <= t -> thr c t = Done.
Lemma small_lt n c t s : small n c -> thr c t = s -> s <> Done -> t < n.
Proof. intros S E N. destruct (Nat.lt_ge_cases t n); [assumption|]. exfalso. apply N. rewrite <- E. now apply S. Qed.
Notation sr := (sr prog prog_code).
Notation Inv := (Inv prog).
Lemma call_less t q r f q' : prog_code t q r = Some (f, q') -> 1 + wb (body (Api f)) + wq q' (if gets (body (Api f)) then false else r) < wq q r.
Proof.
  destruct q as [[|c l]|g|g]; cbn [prog_code]; intros E.
  - discriminate.
  - inv E. unfold wq, list_sum. cbn [map fold_right]. lia.
  - inv E. cbn. lia.
  - destruct r; inv E. destruct f; cbn; lia.
Qed.
Lemma wq_pos q r : 0 < wq q r.
Proof. destruct q as [l|g|g]; cbn; try lia. destruct r; lia. Qed.
Lemma mu_less n c c1 e : Inv c -> small n c -> dead prog c -> sr c c1 e -> mu n c1 < mu n c.
Proof.
  intros I Sm [A D] S. unfold mu. destruct S; cbn [thr owner waiters alive joined with_thr] in *;
    try (match goal with |- context [total n (upd ?f ?x ?s)] => assert (Lt : x < n) by (eapply small_lt; [exact Sm|eassumption|discriminate]); pose proof (total_upd n f x s Lt) as G; rewrite H in G; cbn [ws wb wp length] in G; unfold gets in G; cbn [existsb orb] in G end).
  - pose proof (call_less _ _ _ _ _ H0) as LL. unfold gets in LL. lia.
  - pose proof (wq_pos q r). lia.
  - lia.
  - lia.
  - lia.
  - lia.
  - rewrite D in G. destruct (existsb _ l); lia.
  - cbn [length]. lia.
  - lia.
  - pose proof (remove_length _ _ H0). lia.
  - lia.
  - exfalso. unfold announced in A. now rewrite H0 in A.
  - lia.
  - pose proof (remove_length _ _ H). lia.
Qed.
Lemma small_keep n c c1 e : 0 < n -> small n c -> sr c c1 e -> small n c1.
Proof.
  intros P Sm S t L. specialize (Sm t L) as T. destruct S; simp; try (who t t0; [subst; congruence|assumption]); try assumption.
  who t t0; [subst; congruence|]. who t worker; [unfold worker in *; lia|assumption].
Qed.
Lemma bounded n k c c1 : runs prog_code k c c1 -> 0 < n -> Inv c -> small n c -> dead prog c -> k + mu n c1 <= mu n c.
Proof.
  induction 1 as [c|k c ch c1 e c2 S R IH]; intros P I Sm D; [lia|]. pose proof (step_inv _ _ _ _ _ _ I S) as I1. apply step_sr in S.
  pose proof (mu_less n _ _ _ I Sm D S). pose proof (IH P I1 (small_keep n _ _ _ P Sm S) (dead_keep _ _ _ _ _ I D S)). lia.
Qed.

(** * what one thread does *)
Definition local (t : nat) (s s1 : st prog) : Prop :=
  match s with
  | Idle r q => match prog_code t q r with Some (f, q') => s1 = Run (Api f) (body (Api f)) r q' | None => s1 = Done end
  | Run j [] r q => s1 = Idle r q
  | Run j (PWait :: l) r q => s1 = Run j (PWake :: l) r q
  | Run j (PGet :: l) r q => exists b, s1 = Run j l b q
  | Run j (_ :: l) r q => s1 = Run j l r q
  | _ => False
  end.
Lemma sr_local c c1 e : sr c c1 e -> forall x, thr c1 x = thr c x \/ local x (thr c x) (thr c1 x) \/
  (x = worker /\ exists q t l r q1, thr c worker = Unborn q /\ thr c1 worker = Run Announce (body Announce) false q /\ t <> worker /\ thr c t = Run (Api CStart) (PCreate :: l) r q1) \/ ~ Inv c.
Proof.
  intros S x. destruct S; simp; try (who x t; [subst; right; left; rewrite H; cbn|now left]); try reflexivity; try (rewrite H0; reflexivity); eauto.
  who x t; [subst; right; left; rewrite H; reflexivity|]. who x worker; [subst|now left].
  destruct (Nat.eq_dec t worker) as [->|N]; [congruence|].
  assert (D : j = Api CStart \/ j <> Api CStart) by (destruct j as [|[]]; (now left) || (right; discriminate)). destruct D as [->|D].
  - right. right. left. split; [reflexivity|]. exists q0, t, l, r, q. split; [assumption|]. split; [|auto]. who worker t; [congruence|]. reflexivity.
  - right. right. right. intros I. pose proof (i_stage _ _ I _ _ _ _ _ H) as G. destruct j as [|[]]; cbn in G; repeat (destruct G as [G|G]); try discriminate G; congruence.
Qed.
Lemma sr_local' c c1 e : Inv c -> sr c c1 e -> forall x, thr c1 x = thr c x \/ local x (thr c x) (thr c1 x) \/
  (x = worker /\ exists q t l r q1, thr c worker = Unborn q /\ thr c1 worker = Run Announce (body Announce) false q /\ t <> worker /\ thr c t = Run (Api CStart) (PCreate :: l) r q1).
Proof. intros I S x. destruct (sr_local _ _ _ S x) as [H|[H|[H|H]]]; tauto. Qed.

(** * the polling worker: what each thread can be busy with *)
Definition okw (F : call) (s : st prog) : Prop :=
  match s with
  | Unborn q => q = Poll F
  | Idle _ q => q = Poll F \/ q = Asked F
  | Run j _ _ q => (j = Announce /\ q = Poll F) \/ (j = Api CIsAlive /\ q = Asked F) \/ (j = Api F /\ q = Poll F)
  | Done => True
  end.
Definition okh (s : st prog) : Prop :=
  match s with
  | Idle _ (Script l) => Forall harmless l
  | Run (Api c) _ _ (Script l) => harmless c /\ Forall harmless l
  | Done => True
  | _ => False
  end.
Inductive ph (J : bool) : bool -> st prog -> Prop :=
| ph0 r pre post : Forall harmless pre -> Forall harmless post -> J = false -> ph J true (Idle r (Script (CStart :: pre ++ CInterrupt :: post)))
| ph1 r pre post : Forall harmless pre -> Forall harmless post -> J = false -> ph J true (Run (Api CStart) [PCreate] r (Script (pre ++ CInterrupt :: post)))
| ph2 r pre post : Forall harmless pre -> Forall harmless post -> J = false -> ph J false (Run (Api CStart) [] r (Script (pre ++ CInterrupt :: post)))
| ph3 r pre post : Forall harmless pre -> Forall harmless post -> J = false -> ph J false (Idle r (Script (pre ++ CInterrupt :: post)))
| ph4 c todo r pre post : harmless c -> Forall harmless pre -> Forall harmless post -> J = false -> ph J false (Run (Api c) todo r (Script (pre ++ CInterrupt :: post)))
| ph5 todo r post : Forall harmless post -> (In PJoin todo -> J = false) -> ph J false (Run (Api CInterrupt) todo r (Script post))
| ph6 s : okh s -> ph J false s.
Definition unborn (c : config prog) : bool := match thr c worker with Unborn _ => true | _ => false end.
Record Shape (c : config prog) : Prop := {
  sh_w : okw CSleepFor (thr c worker);
  sh_1 : ph (joined c) (unborn c) (thr c 1);
  sh_h : forall t, 2 <= t -> okh (thr c t);
  sh_o : forall t, owner c = Some t -> exists j todo r q, thr c t = Run j todo r q /\ inside j todo /\ j <> Api CLock }.
Lemma local_okw F t s s1 : okw F s -> local t s s1 -> okw F s1.
Proof.
  destruct s as [q|r q|j todo r q|]; cbn; try contradiction.
  - intros [->| ->]; cbn; [intros ->; cbn; auto|]. destruct r; intros ->; cbn; auto.
  - intros H. destruct todo as [|[] l]; try (intros ->; exact H).
    + intros ->. cbn. destruct H as [[_ H]|[[_ H]|[_ H]]]; auto.
    + intros [b ->]. exact H.
Qed.
Lemma local_okh t s s1 : okh s -> local t s s1 -> okh s1.
Proof.
  destruct s as [q|r q|j todo r q|]; cbn; try contradiction.
  - destruct q as [l|f|f]; try contradiction. intros H. destruct l as [|c l]; cbn; intros ->; [exact I|]. cbn. inv H. auto.
  - destruct j as [|c]; [contradiction|]. destruct q as [l|f|f]; try contradiction. intros H. destruct todo as [|[] tl]; try (intros ->; exact H).
    + intros ->. cbn. tauto.
    + intros [b ->]. exact H.
Qed.
Lemma harmless_not c : harmless c -> c <> CStart /\ c <> CInterrupt /\ c <> CLock /\ c <> CUnlock /\ c <> CSleep.
Proof. intros [->|[->| ->]]; repeat split; discriminate. Qed.
(** the other threads than 1 do not join; [J] changes only when the worker is Done *)
Lemma local_ph J u s s1 : ph J u s -> local 1 s s1 -> ph J (match s with Run (Api CStart) (_ :: _) _ _ => false | _ => u end) s1.
Proof.
  intros P L. inv P; cbn in L.
  - subst. now apply ph1.
  - subst. now apply ph2.
  - subst. now apply ph3.
  - destruct pre as [|c pre]; cbn in L; subst s1.
    + apply ph5; auto.
    + inv H. now apply ph4.
  - destruct (harmless_not _ H) as (N1 & N2 & _).
    assert (G : ph false false s1). { destruct todo as [|[] l]; try (subst s1; now apply ph4); try (subst s1; now apply ph3). destruct L as [b ->]. now apply ph4. }
    destruct c; try exact G. now destruct N1.
  - destruct todo as [|p l]; [subst; now apply ph6|]. assert (D : In PJoin l -> J = false) by (intros X; apply H0; now right).
    destruct p; try (subst s1; now apply ph5).
    + destruct L as [b ->]. now apply ph5.
    + subst s1. apply ph5; [assumption|]. intros [X|X]; [discriminate|auto].
  - assert (G : ph J false s1) by (apply ph6; eapply local_okh; eassumption). destruct s as [q|r q|[|c] todo r q|]; try exact G. destruct c, todo; exact G.
Qed.
Lemma stage_create j l : In (PCreate :: l) (stages j) -> j = Api CStart /\ l = [].
Proof. intros G. destruct j as [|[]]; cbn in G; repeat (destruct G as [G|G]); try discriminate G; try contradiction; inv G; auto. Qed.
Lemma stage_join j l : In (PJoin :: l) (stages j) -> j = Api CInterrupt /\ l = [].
Proof. intros G. destruct j as [|[]]; cbn in G; repeat (destruct G as [G|G]); try discriminate G; try contradiction; inv G; auto. Qed.
Lemma sr_info c c1 e : Inv c -> sr c c1 e ->
  (joined c1 = joined c /\ unborn c1 = unborn c /\ forall x, thr c1 x = thr c x \/ (local x (thr c x) (thr c1 x) /\ forall j l r q, thr c x <> Run j (PCreate :: l) r q)) \/
  (exists t r q q0, thr c t = Run (Api CStart) [PCreate] r q /\ thr c worker = Unborn q0 /\ joined c1 = joined c /\ thr c1 = upd (upd (thr c) worker (Run Announce (body Announce) false q0)) t (Run (Api CStart) [] r q)) \/
  (exists t r q, thr c t = Run (Api CInterrupt) [PJoin] r q /\ t <> worker /\ thr c worker = Done /\ joined c1 = true /\ thr c1 = upd (thr c) t (Run (Api CInterrupt) [] r q)).
Proof.
  intros I S. pose proof (i_stage _ _ I) as I1. destruct S; cbn [thr owner waiters alive joined with_thr] in *;
  try (left; split; [reflexivity|]; split; [unfold unborn, with_thr; cbn [thr]; unfold upd; who worker t; [subst; rewrite H; reflexivity|reflexivity]|]; intros x; unfold upd; who x t; [subst; right; rewrite H; split; [cbn [local]; try rewrite H0; first [reflexivity|eexists; reflexivity]|congruence]|now left]).
  - right. left. destruct (stage_create _ _ (I1 _ _ _ _ _ H)) as [-> ->]. exists t, r, q, q0. auto.
  - right. right. destruct (stage_join _ _ (I1 _ _ _ _ _ H)) as [-> ->]. exists t, r, q. auto.
  - left. repeat split; auto.
Qed.
Lemma ph_start J u s r q : ph J u s -> s = Run (Api CStart) [PCreate] r q -> ph J false (Run (Api CStart) [] r q).
Proof.
  intros P E. destruct P as [r0 pre post A B C|r0 pre post A B C|r0 pre post A B C|r0 pre post A B C|c todo r0 pre post N A B C|todo r0 post A B|s A]; try discriminate.
  - injection E as <- <-. now apply ph2.
  - injection E as -> -> <- <-. destruct (harmless_not _ N) as (N1 & _). now destruct N1.
  - subst s. cbn in A. destruct q; try contradiction. destruct A as [A _]. destruct (harmless_not _ A) as (N & _). now destruct N.
Qed.
Lemma ph_job J u s : ph J u s -> forall j todo r q, s = Run j todo r q -> exists c, j = Api c /\
  ((c = CStart /\ ((todo = [PCreate] /\ u = true) \/ todo = [])) \/ (c = CInterrupt /\ (In PJoin todo -> J = false) /\ u = false /\ exists post, q = Script post /\ Forall harmless post) \/ harmless c).
Proof.
  intros P j todo0 r1 q E. destruct P as [r0 pre post A B C|r0 pre post A B C|r0 pre post A B C|r0 pre post A B C|c todo r0 pre post N A B C|todo r0 post A B|s A]; try discriminate.
  - injection E as <- <- <- <-. exists CStart. auto 6.
  - injection E as <- <- <- <-. exists CStart. auto 6.
  - injection E as <- -> <- <-. exists c. auto.
  - injection E as <- -> <- <-. exists CInterrupt. split; [reflexivity|]. right. left. split; [reflexivity|]. eauto 6.
  - subst s. cbn in A. destruct j as [|c]; [contradiction|]. destruct q; try contradiction. destruct A as [A _]. exists c. auto.
Qed.
Lemma shape_keep c c1 e : Inv c -> Shape c -> sr c c1 e -> Shape c1.
Proof.
  intros I Sh S. pose proof (sr_info _ _ _ I S) as Inf. destruct Sh as [W P H O].
  assert (Sh3 : okw CSleepFor (thr c1 worker) /\ ph (joined c1) (unborn c1) (thr c1 1) /\ (forall t, 2 <= t -> okh (thr c1 t))).
  { destruct Inf as [(Ej & Eu & L)|[(t & r & q & q0 & Et & Ew & Ej & Ec)|(t & r & q & Et & Nt & Ew & Ej & Ec)]].
    - split; [|split].
      + destruct (L worker) as [->|[Lw _]]; [exact W|eapply local_okw; eassumption].
      + rewrite Ej, Eu. destruct (L 1) as [->|[Lw N]]; [exact P|]. pose proof (local_ph _ _ _ _ P Lw) as G. destruct (thr c 1) as [?|? ?|[|[]] [|p l] r q|] eqn:E1; try exact G.
        pose proof (i_stage _ _ I _ _ _ _ _ E1) as GG. cbn in GG. repeat (destruct GG as [GG|GG]); try discriminate GG; try contradiction; inv GG. now destruct (N (Api CStart) [] r q).
      + intros t L2. destruct (L t) as [->|[Lw _]]; [now apply H|]. exact (local_okh _ _ _ (H t L2) Lw).
    - assert (t = 1) as ->.
      { destruct (Nat.eq_dec t worker) as [->|Nw]; [congruence|]. destruct (Nat.eq_dec t 1) as [->|N1]; [reflexivity|]. specialize (H t ltac:(unfold worker in *; lia)). rewrite Et in H. cbn in H. destruct q; try contradiction. destruct H as [H _]. destruct (harmless_not _ H) as (N & _). now destruct N. }
      rewrite Ec, Ej. unfold unborn. rewrite Ec. unfold upd. cbn. split; [|split].
      + left. rewrite Ew in W. cbn in W. auto.
      + eapply ph_start; eassumption.
      + intros t L2. destruct t as [|[|t]]; [lia|lia|]. cbn. apply H. lia.
    - assert (t = 1) as ->.
      { destruct (Nat.eq_dec t worker) as [->|Nw]; [congruence|]. destruct (Nat.eq_dec t 1) as [->|N1]; [reflexivity|]. specialize (H t ltac:(unfold worker in *; lia)). rewrite Et in H. cbn in H. destruct q; try contradiction. destruct H as [H _]. destruct (harmless_not _ H) as (_ & N & _). now destruct N. }
      rewrite Ec, Ej. unfold unborn. rewrite Ec. unfold upd. cbn. change 0 with worker. rewrite Ew. split; [exact Logic.I|split].
      + destruct (ph_job _ _ _ P _ _ _ _ Et) as (g & Eg & [[X _]|[(_ & _ & _ & post & -> & F)|X]]); injection Eg as <-; [discriminate| |destruct (harmless_not _ X) as (_ & N & _); now destruct N].
        apply ph5; [assumption|intros []].
      + intros t L2. destruct t as [|[|t]]; [lia|lia|]. cbn. apply H. lia. }
  destruct Sh3 as (W1 & P1 & H1). split; auto. clear W1 P1 H1 Inf.
  assert (NL : forall t j todo r q, thr c t = Run j todo r q -> j <> Api CLock).
  { intros t j todo r q E X. subst j. destruct (Nat.eq_dec t worker) as [->|Nw]; [rewrite E in W; cbn in W; intuition discriminate|]. destruct (Nat.eq_dec t 1) as [->|N1].
    - destruct (ph_job _ _ _ P _ _ _ _ E) as (g & Eg & [[X _]|[(X & _)|X]]); injection Eg as <-; try discriminate. destruct (harmless_not _ X) as (_ & _ & N & _); now destruct N.
    - specialize (H t ltac:(unfold worker in *; lia)). rewrite E in H. cbn in H. destruct q; try contradiction. destruct H as [H _]. destruct (harmless_not _ H) as (_ & _ & N & _); now destruct N. }
  pose proof (i_stage _ _ I) as I1.
  destruct S; cbn [thr owner waiters alive joined with_thr] in *; intros x Ox; unfold upd.
  - destruct (O x Ox) as (j & todo & r1 & q1 & E & G). who x t; [subst; congruence|eauto 8].
  - destruct (O x Ox) as (j & todo & r1 & q1 & E & G). who x t; [subst; congruence|eauto 8].
  - destruct (O x Ox) as (j1 & todo & r1 & q1 & E & G1 & G2). who x t; [|eauto 8]. subst. exfalso. rewrite H0 in E. inv E. cbn in G1. congruence.
  - inv Ox. rewrite Nat.eqb_refl. exists j, l, r, q. split; [reflexivity|]. split; [|now apply (NL _ _ _ _ _ H0)]. specialize (I1 _ _ _ _ _ H0). destruct j as [|[]]; cbn in I1; repeat (destruct I1 as [I1|I1]); try discriminate I1; try contradiction; inv I1; cbn; try exact Logic.I; try reflexivity; discriminate.
  - discriminate.
  - who x t; [|congruence]. subst. exists j, l, r, q. split; [reflexivity|]. split; [|now apply (NL _ _ _ _ _ H0)]. specialize (I1 _ _ _ _ _ H0). destruct j as [|[]]; cbn in I1; repeat (destruct I1 as [I1|I1]); try discriminate I1; try contradiction; inv I1; cbn; try exact Logic.I; try reflexivity; discriminate.
  - who x t; [|congruence]. subst. exists j, l, (alive c), q. split; [reflexivity|]. split; [|now apply (NL _ _ _ _ _ H0)]. specialize (I1 _ _ _ _ _ H0). destruct j as [|[]]; cbn in I1; repeat (destruct I1 as [I1|I1]); try discriminate I1; try contradiction; inv I1; cbn; try exact Logic.I; try reflexivity; discriminate.
  - discriminate.
  - inv Ox. rewrite Nat.eqb_refl. exists j, l, r, q. split; [reflexivity|]. split; [|now apply (NL _ _ _ _ _ H0)]. specialize (I1 _ _ _ _ _ H0). destruct j as [|[]]; cbn in I1; repeat (destruct I1 as [I1|I1]); try discriminate I1; try contradiction; inv I1; cbn; try exact Logic.I; try reflexivity; discriminate.
  - destruct (O x Ox) as (j1 & todo & r1 & q1 & E & G1 & G2). who x t; [|eauto 8]. subst. exfalso. rewrite H0 in E. inv E. exact G1.
  - destruct (O x Ox) as (j1 & todo & r1 & q1 & E & G1 & G2). who x t; [|eauto 8]. subst. exfalso. rewrite H0 in E. inv E. exact G1.
  - destruct (O x Ox) as (j1 & todo & r1 & q1 & E & G1 & G2). who x t; [|who x worker; [subst; congruence|eauto 8]]. subst. exfalso. rewrite H0 in E. inv E. exact G1.
  - destruct (O x Ox) as (j1 & todo & r1 & q1 & E & G1 & G2). who x t; [|eauto 8]. subst. exfalso. rewrite H0 in E. inv E. exact G1.
  - destruct (O x Ox) as (j1 & todo & r1 & q1 & E & G1 & G2). eauto 8.
Qed.
