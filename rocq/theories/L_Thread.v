From Verif Require Import Base M_Thread S_Thread.
Local Open Scope nat_scope.

Section L.
Variable Q : Type.
Variable code : nat -> Q -> bool -> option (call * Q).
Notation cfg := (config Q).
Notation step := (step code).

(** the step function as a relation *)
Inductive sr (c : cfg) : cfg -> option (nat * event) -> Prop :=
| s_call t r q f q' : thr c t = Idle r q -> code t q r = Some (f, q') -> sr c (with_thr c t (Run (Api f) (body (Api f)) r q')) (Some (t, Called f))
| s_exit t r q : thr c t = Idle r q -> code t q r = None -> sr c (with_thr c t Done) (Some (t, Exited))
| s_ret t j r q : thr c t = Run j [] r q -> sr c (with_thr c t (Idle r q)) (Some (t, Returned j r))
| s_lock t j l r q : thr c t = Run j (PLock :: l) r q -> owner c = None -> sr c (with_thr (Cfg (alive c) (Some t) (waiters c) (joined c) (thr c)) t (Run j l r q)) None
| s_unlock t j l r q : thr c t = Run j (PUnlock :: l) r q -> owner c = Some t -> sr c (with_thr (Cfg (alive c) None (waiters c) (joined c) (thr c)) t (Run j l r q)) None
| s_set t j b l r q : thr c t = Run j (PSet b :: l) r q -> owner c = Some t -> sr c (with_thr (Cfg b (owner c) (waiters c) (joined c) (thr c)) t (Run j l r q)) None
| s_get t j l r q : thr c t = Run j (PGet :: l) r q -> owner c = Some t -> sr c (with_thr c t (Run j l (alive c) q)) None
| s_wait t j l r q : thr c t = Run j (PWait :: l) r q -> owner c = Some t -> sr c (with_thr (Cfg (alive c) None (t :: waiters c) (joined c) (thr c)) t (Run j (PWake :: l) r q)) None
| s_wake t j l r q : thr c t = Run j (PWake :: l) r q -> ~ In t (waiters c) -> owner c = None -> sr c (with_thr (Cfg (alive c) (Some t) (waiters c) (joined c) (thr c)) t (Run j l r q)) None
| s_signal t j l r q w : thr c t = Run j (PSignal :: l) r q -> In w (waiters c) -> sr c (with_thr (Cfg (alive c) (owner c) (remove Nat.eq_dec w (waiters c)) (joined c) (thr c)) t (Run j l r q)) None
| s_signal0 t j l r q : thr c t = Run j (PSignal :: l) r q -> waiters c = [] -> sr c (with_thr c t (Run j l r q)) None
| s_create t j l r q q0 : thr c t = Run j (PCreate :: l) r q -> thr c worker = Unborn q0 ->
    sr c (with_thr (Cfg (alive c) (owner c) (waiters c) (joined c) (upd (thr c) worker (Run Announce (body Announce) false q0))) t (Run j l r q)) None
| s_join t j l r q : thr c t = Run j (PJoin :: l) r q -> t <> worker -> joined c = false -> thr c worker = Done -> sr c (with_thr (Cfg (alive c) (owner c) (waiters c) true (thr c)) t (Run j l r q)) None
| s_self t : In t (waiters c) -> sr c (Cfg (alive c) (owner c) (remove Nat.eq_dec t (waiters c)) (joined c) (thr c)) None.
Lemma owns_spec (c : cfg) t : owns c t = true <-> owner c = Some t.
Proof. unfold owns. destruct (owner c) as [x|]; [rewrite Nat.eqb_eq; split; [now intros ->|congruence]|split; discriminate]. Qed.
Lemma waits_spec (c : cfg) t : waits c t = true <-> In t (waiters c).
Proof. unfold waits. rewrite existsb_exists. split; [intros (x & H & E); apply Nat.eqb_eq in E; now subst|intros H; exists t; now rewrite Nat.eqb_refl]. Qed.
Lemma step_sr c ch c1 e : step c ch = Next c1 e -> sr c c1 e.
Proof.
  destruct ch as [t pick|t]; cbn.
  - destruct (thr c t) as [q|r q|j todo r q|] eqn:T; try discriminate.
    + destruct (code t q r) as [[f q']|] eqn:E; intros H; injection H as <- <-; [now apply (s_call c t r q f q')|now apply (s_exit c t r q)].
    + destruct todo as [|p l]; [intros H; injection H as <- <-; now apply s_ret|]. unfold do_prim. destruct p; cbn.
      * destruct (owner c) eqn:O; [discriminate|]. intros H; injection H as <- <-. eapply s_lock; eassumption.
      * destruct (owns c t) eqn:O; [|discriminate]. apply owns_spec in O. intros H; injection H as <- <-. eapply s_unlock; eassumption.
      * destruct (owns c t) eqn:O; [|discriminate]. apply owns_spec in O. intros H; injection H as <- <-. eapply s_set; eassumption.
      * destruct (owns c t) eqn:O; [|discriminate]. apply owns_spec in O. intros H; injection H as <- <-. eapply s_get; eassumption.
      * destruct (owns c t) eqn:O; [|discriminate]. apply owns_spec in O. intros H; injection H as <- <-. eapply s_wait; eassumption.
      * destruct (waits c t) eqn:W; [discriminate|]. destruct (owner c) eqn:O; [discriminate|]. intros H; injection H as <- <-. eapply s_wake; try eassumption. intros I. apply waits_spec in I. congruence.
      * destruct (nth_error (waiters c) pick) as [w|] eqn:N.
        -- intros H; injection H as <- <-. eapply s_signal; [eassumption|]. eapply nth_error_In. eassumption.
        -- destruct (waiters c) eqn:W; [|discriminate]. intros H; injection H as <- <-. eapply s_signal0; eassumption.
      * destruct (thr c worker) eqn:W; try discriminate. intros H; injection H as <- <-. eapply s_create; eassumption.
      * destruct (Nat.eqb_spec t worker); [discriminate|]. destruct (joined c) eqn:J; [discriminate|]. cbn. destruct (thr c worker) eqn:W; try discriminate. intros H; injection H as <- <-. eapply s_join; eassumption.
  - destruct (waits c t) eqn:W; [|discriminate]. apply waits_spec in W. intros H; injection H as <- <-. now apply s_self.
Qed.
Lemma upd_eq (f : nat -> st Q) t s : upd f t s t = s.
Proof. unfold upd. now rewrite Nat.eqb_refl. Qed.
Lemma upd_neq (f : nat -> st Q) t s x : x <> t -> upd f t s x = f x.
Proof. unfold upd. intros H. now destruct (Nat.eqb_spec x t). Qed.

(** * the invariant *)
Fixpoint tails {A} (l : list A) : list (list A) := match l with [] => [[]] | _ :: r => l :: tails r end.
Definition stages (j : job) : list (list prim) := tails (body j) ++ match j with Api CSleep | Api CSleepFor => [[PWake; PUnlock]] | _ => [] end.
(** these operations need the mutex *)
Definition inside (j : job) (todo : list prim) : Prop :=
  match todo with PSet _ :: _ | PGet :: _ | PWait :: _ => True | PUnlock :: _ => j <> Api CUnlock | [] => j = Api CLock | _ => False end.
Record Inv (c : cfg) : Prop := {
  i_stage : forall t j todo r q, thr c t = Run j todo r q -> In todo (stages j);
  i_own : forall t j todo r q, thr c t = Run j todo r q -> inside j todo -> owner c = Some t;
  i_wait : forall t, In t (waiters c) -> exists j l r q, thr c t = Run j (PWake :: l) r q;
  i_ann : forall t todo r q, thr c t = Run Announce todo r q -> t = worker;
  i_unborn : forall t q, thr c t = Unborn q -> t = worker }.
Lemma fresh_inv c : fresh c -> Inv c.
Proof.
  intros (q0 & others & -> & H). split; cbn; intros t; unfold upd; destruct (Nat.eqb_spec t worker) as [->|N]; try discriminate; try tauto; intros; destruct (H t) as [E|[q' E]]; congruence.
Qed.
Ltac stage_tac := match goal with H : In (_ :: _) (stages ?j) |- _ => destruct j as [|[]]; cbn in H; repeat (destruct H as [H|H]); try discriminate H; try contradiction; inversion H; subst; cbn; tauto end.
Lemma stage_tl j p l : In (p :: l) (stages j) -> p <> PWait -> In l (stages j).
Proof. intros H N. destruct j as [|[]]; cbn in *; repeat (destruct H as [H|H]); try discriminate H; try contradiction; inversion H; subst; cbn; try tauto; congruence. Qed.
Lemma stage_wait j l : In (PWait :: l) (stages j) -> In (PWake :: l) (stages j).
Proof. intros H. destruct j as [|[]]; cbn in *; repeat (destruct H as [H|H]); try discriminate H; try contradiction; inversion H; subst; cbn; tauto. Qed.
Lemma inside_tl j p l : In (p :: l) (stages j) -> inside j l -> p <> PWait -> p = PLock \/ p = PWake \/ inside j (p :: l).
Proof. intros H N P. destruct j as [|[]]; cbn in *; repeat (destruct H as [H|H]); try discriminate H; try contradiction; inversion H; subst; cbn in *; try tauto; try discriminate N; try (right; right; discriminate). Qed.
Lemma stage_unlock_out j l : In (PUnlock :: l) (stages j) -> ~ inside j l.
Proof. intros H. destruct j as [|[]]; cbn in *; repeat (destruct H as [H|H]); try discriminate H; try contradiction; inversion H; subst; cbn; try tauto; discriminate. Qed.
Lemma sr_inv c c1 e : Inv c -> sr c c1 e -> Inv c1.
Proof.
  intros [I1 I2 I3 I4 I5] S. destruct S; (split; cbn [thr owner waiters with_thr]; intros x; unfold upd).
  (* call *)
  - intros. destruct (Nat.eqb_spec x t); [|eapply I1; eassumption]. match goal with E : Run _ _ _ _ = Run _ _ _ _ |- _ => inversion E; subst end. destruct f; cbn; tauto.
  - intros. destruct (Nat.eqb_spec x t); [|eapply I2; eassumption]. match goal with E : Run _ _ _ _ = Run _ _ _ _ |- _ => inversion E; subst end. destruct f; cbn in *; try contradiction; congruence.
  - intros W. destruct (Nat.eqb_spec x t) as [->|]; [|now apply I3]. destruct (I3 _ W) as (? & ? & ? & ? & ?). congruence.
  - intros. destruct (Nat.eqb_spec x t); [discriminate|eapply I4; eassumption].
  - intros. destruct (Nat.eqb_spec x t); [discriminate|eapply I5; eassumption].
  (* exit *)
  - intros. destruct (Nat.eqb_spec x t); [discriminate|eapply I1; eassumption].
  - intros. destruct (Nat.eqb_spec x t); [discriminate|eapply I2; eassumption].
  - intros W. destruct (Nat.eqb_spec x t) as [->|]; [|now apply I3]. destruct (I3 _ W) as (? & ? & ? & ? & ?). congruence.
  - intros. destruct (Nat.eqb_spec x t); [discriminate|eapply I4; eassumption].
  - intros. destruct (Nat.eqb_spec x t); [discriminate|eapply I5; eassumption].
  (* ret *)
  - intros. destruct (Nat.eqb_spec x t); [discriminate|eapply I1; eassumption].
  - intros. destruct (Nat.eqb_spec x t); [discriminate|eapply I2; eassumption].
  - intros W. destruct (Nat.eqb_spec x t) as [->|]; [|now apply I3]. destruct (I3 _ W) as (? & ? & ? & ? & ?). congruence.
  - intros. destruct (Nat.eqb_spec x t); [discriminate|eapply I4; eassumption].
  - intros. destruct (Nat.eqb_spec x t); [discriminate|eapply I5; eassumption].
  (* lock *)
  - intros. destruct (Nat.eqb_spec x t); [|eapply I1; eassumption]. match goal with E : Run _ _ _ _ = Run _ _ _ _ |- _ => inversion E; subst end. eapply stage_tl; [eapply I1; eassumption|discriminate].
  - intros j1 todo1 r1 q1 E1 N1. destruct (Nat.eqb_spec x t); [now subst|]. pose proof (I2 _ _ _ _ _ E1 N1). congruence.
  - intros W. destruct (Nat.eqb_spec x t) as [->|]; [|now apply I3]. destruct (I3 _ W) as (? & ? & ? & ? & ?). congruence.
  - intros. destruct (Nat.eqb_spec x t); [|eapply I4; eassumption]. match goal with E : Run _ _ _ _ = Run _ _ _ _ |- _ => inversion E; subst end. eapply I4; eassumption.
  - intros. destruct (Nat.eqb_spec x t); [discriminate|eapply I5; eassumption].
  (* unlock *)
  - intros. destruct (Nat.eqb_spec x t); [|eapply I1; eassumption]. match goal with E : Run _ _ _ _ = Run _ _ _ _ |- _ => inversion E; subst end. eapply stage_tl; [eapply I1; eassumption|discriminate].
  - intros j1 todo1 r1 q1 E1 N1. destruct (Nat.eqb_spec x t) as [->|N].
    + inversion E1; subst. exfalso. eapply stage_unlock_out; [eapply I1; eassumption|eassumption].
    + pose proof (I2 _ _ _ _ _ E1 N1). congruence.
  - intros W. destruct (Nat.eqb_spec x t) as [->|]; [|now apply I3]. destruct (I3 _ W) as (? & ? & ? & ? & ?). congruence.
  - intros. destruct (Nat.eqb_spec x t); [|eapply I4; eassumption]. match goal with E : Run _ _ _ _ = Run _ _ _ _ |- _ => inversion E; subst end. eapply I4; eassumption.
  - intros. destruct (Nat.eqb_spec x t); [discriminate|eapply I5; eassumption].
  (* set *)
  - intros. destruct (Nat.eqb_spec x t); [|eapply I1; eassumption]. match goal with E : Run _ _ _ _ = Run _ _ _ _ |- _ => inversion E; subst end. eapply stage_tl; [eapply I1; eassumption|discriminate].
  - intros j1 todo1 r1 q1 E1 N1. destruct (Nat.eqb_spec x t) as [->|N]; [assumption|now apply (I2 _ _ _ _ _ E1)].
  - intros W. destruct (Nat.eqb_spec x t) as [->|]; [|now apply I3]. destruct (I3 _ W) as (? & ? & ? & ? & ?). congruence.
  - intros. destruct (Nat.eqb_spec x t); [|eapply I4; eassumption]. match goal with E : Run _ _ _ _ = Run _ _ _ _ |- _ => inversion E; subst end. eapply I4; eassumption.
  - intros. destruct (Nat.eqb_spec x t); [discriminate|eapply I5; eassumption].
  (* get *)
  - intros. destruct (Nat.eqb_spec x t); [|eapply I1; eassumption]. match goal with E : Run _ _ _ _ = Run _ _ _ _ |- _ => inversion E; subst end. eapply stage_tl; [eapply I1; eassumption|discriminate].
  - intros j1 todo1 r1 q1 E1 N1. destruct (Nat.eqb_spec x t) as [->|N]; [assumption|now apply (I2 _ _ _ _ _ E1)].
  - intros W. destruct (Nat.eqb_spec x t) as [->|]; [|now apply I3]. destruct (I3 _ W) as (? & ? & ? & ? & ?). congruence.
  - intros. destruct (Nat.eqb_spec x t); [|eapply I4; eassumption]. match goal with E : Run _ _ _ _ = Run _ _ _ _ |- _ => inversion E; subst end. eapply I4; eassumption.
  - intros. destruct (Nat.eqb_spec x t); [discriminate|eapply I5; eassumption].
  (* wait *)
  - intros. destruct (Nat.eqb_spec x t); [|eapply I1; eassumption]. match goal with E : Run _ _ _ _ = Run _ _ _ _ |- _ => inversion E; subst end. eapply stage_wait, I1; eassumption.
  - intros j1 todo1 r1 q1 E1 N1. destruct (Nat.eqb_spec x t) as [->|N]; [inversion E1; subst; contradiction N1|]. pose proof (I2 _ _ _ _ _ E1 N1). congruence.
  - intros W. destruct (Nat.eqb_spec x t) as [->|N]; [eauto|]. destruct W as [W|W]; [congruence|now apply I3].
  - intros. destruct (Nat.eqb_spec x t); [|eapply I4; eassumption]. match goal with E : Run _ _ _ _ = Run _ _ _ _ |- _ => inversion E; subst end. eapply I4; eassumption.
  - intros. destruct (Nat.eqb_spec x t); [discriminate|eapply I5; eassumption].
  (* wake *)
  - intros. destruct (Nat.eqb_spec x t); [|eapply I1; eassumption]. match goal with E : Run _ _ _ _ = Run _ _ _ _ |- _ => inversion E; subst end. eapply stage_tl; [eapply I1; eassumption|discriminate].
  - intros j1 todo1 r1 q1 E1 N1. destruct (Nat.eqb_spec x t); [now subst|]. pose proof (I2 _ _ _ _ _ E1 N1). congruence.
  - intros W. destruct (Nat.eqb_spec x t) as [->|]; [contradiction|now apply I3].
  - intros. destruct (Nat.eqb_spec x t); [|eapply I4; eassumption]. match goal with E : Run _ _ _ _ = Run _ _ _ _ |- _ => inversion E; subst end. eapply I4; eassumption.
  - intros. destruct (Nat.eqb_spec x t); [discriminate|eapply I5; eassumption].
  (* signal *)
  - intros. destruct (Nat.eqb_spec x t); [|eapply I1; eassumption]. match goal with E : Run _ _ _ _ = Run _ _ _ _ |- _ => inversion E; subst end. eapply stage_tl; [eapply I1; eassumption|discriminate].
  - intros j1 todo1 r1 q1 E1 N1. destruct (Nat.eqb_spec x t) as [->|N]; [|now apply (I2 _ _ _ _ _ E1)]. inversion E1; subst. destruct (inside_tl _ _ _ (I1 _ _ _ _ _ H) N1) as [Z|[Z|Z]]; try discriminate; contradiction.
  - intros W. apply in_remove in W. destruct W as [W _]. destruct (Nat.eqb_spec x t) as [->|]; [|now apply I3]. destruct (I3 _ W) as (? & ? & ? & ? & ?). congruence.
  - intros. destruct (Nat.eqb_spec x t); [|eapply I4; eassumption]. match goal with E : Run _ _ _ _ = Run _ _ _ _ |- _ => inversion E; subst end. eapply I4; eassumption.
  - intros. destruct (Nat.eqb_spec x t); [discriminate|eapply I5; eassumption].
  (* signal nobody *)
  - intros. destruct (Nat.eqb_spec x t); [|eapply I1; eassumption]. match goal with E : Run _ _ _ _ = Run _ _ _ _ |- _ => inversion E; subst end. eapply stage_tl; [eapply I1; eassumption|discriminate].
  - intros j1 todo1 r1 q1 E1 N1. destruct (Nat.eqb_spec x t) as [->|N]; [|now apply (I2 _ _ _ _ _ E1)]. inversion E1; subst. destruct (inside_tl _ _ _ (I1 _ _ _ _ _ H) N1) as [Z|[Z|Z]]; try discriminate; contradiction.
  - intros W. destruct (Nat.eqb_spec x t) as [->|]; [|now apply I3]. destruct (I3 _ W) as (? & ? & ? & ? & ?). congruence.
  - intros. destruct (Nat.eqb_spec x t); [|eapply I4; eassumption]. match goal with E : Run _ _ _ _ = Run _ _ _ _ |- _ => inversion E; subst end. eapply I4; eassumption.
  - intros. destruct (Nat.eqb_spec x t); [discriminate|eapply I5; eassumption].
  (* create *)
  - intros. destruct (Nat.eqb_spec x t); [|destruct (Nat.eqb_spec x worker); [|eapply I1; eassumption]]; match goal with E : Run _ _ _ _ = Run _ _ _ _ |- _ => inversion E; subst end; [eapply stage_tl; [eapply I1; eassumption|discriminate]|cbn; tauto].
  - intros j1 todo1 r1 q1 E1 N1. destruct (Nat.eqb_spec x t) as [->|N]; [inversion E1; subst; destruct (inside_tl _ _ _ (I1 _ _ _ _ _ H) N1) as [Z|[Z|Z]]; try discriminate; contradiction|]. destruct (Nat.eqb_spec x worker); [inversion E1; subst; contradiction|now apply (I2 _ _ _ _ _ E1)].
  - intros W. destruct (I3 _ W) as (? & ? & ? & ? & ?). destruct (Nat.eqb_spec x t) as [->|]; [congruence|]. destruct (Nat.eqb_spec x worker); [subst; congruence|eauto].
  - intros. destruct (Nat.eqb_spec x t); [|destruct (Nat.eqb_spec x worker); [assumption|eapply I4; eassumption]]. match goal with E : Run _ _ _ _ = Run _ _ _ _ |- _ => inversion E; subst end. eapply I4; eassumption.
  - intros. destruct (Nat.eqb_spec x t); [discriminate|]. destruct (Nat.eqb_spec x worker); [discriminate|eapply I5; eassumption].
  (* join *)
  - intros. destruct (Nat.eqb_spec x t); [|eapply I1; eassumption]. match goal with E : Run _ _ _ _ = Run _ _ _ _ |- _ => inversion E; subst end. eapply stage_tl; [eapply I1; eassumption|discriminate].
  - intros j1 todo1 r1 q1 E1 N1. destruct (Nat.eqb_spec x t) as [->|N]; [|now apply (I2 _ _ _ _ _ E1)]. inversion E1; subst. destruct (inside_tl _ _ _ (I1 _ _ _ _ _ H) N1) as [Z|[Z|Z]]; try discriminate; contradiction.
  - intros W. destruct (Nat.eqb_spec x t) as [->|]; [|now apply I3]. destruct (I3 _ W) as (? & ? & ? & ? & ?). congruence.
  - intros. destruct (Nat.eqb_spec x t); [|eapply I4; eassumption]. match goal with E : Run _ _ _ _ = Run _ _ _ _ |- _ => inversion E; subst end. eapply I4; eassumption.
  - intros. destruct (Nat.eqb_spec x t); [discriminate|eapply I5; eassumption].
  (* by itself *)
  - eauto.
  - eauto.
  - intros W. apply in_remove in W. destruct W as [W _]. now apply I3.
  - eauto.
  - eauto.
Qed.
Lemma step_inv c ch c1 e : Inv c -> step c ch = Next c1 e -> Inv c1.
Proof. intros I H. eapply sr_inv; [exact I|]. eapply step_sr. exact H. Qed.
Lemma run_inv c tr c1 : run code c tr c1 -> Inv c -> Inv c1.
Proof. induction 1; intros I; [exact I| |]; apply IHrun; eapply step_inv; eassumption. Qed.
Lemma reach_inv c : reachable code c -> Inv c.
Proof. intros (c0 & tr & F & R). eapply run_inv; [exact R|]. now apply fresh_inv. Qed.
Lemma run_app_inv c a b c' : run code c (a ++ b) c' -> exists m, run code c a m /\ run code m b c'.
Proof.
  intros R. remember (a ++ b) as tr eqn:E. revert a b E. induction R as [c|c ch c1 tr c2 S R IH|c ch c1 e tr c2 S R IH]; intros a b E.
  - symmetry in E. apply app_eq_nil in E. destruct E as [-> ->]. exists c. split; constructor.
  - destruct (IH a b E) as (m & R1 & R2). exists m. split; [eapply run_silent; eassumption|exact R2].
  - destruct a as [|x a].
    + cbn in E. subst b. exists c. split; [constructor|]. eapply run_event; eassumption.
    + cbn in E. injection E as <- E. destruct (IH a b E) as (m & R1 & R2). exists m. split; [eapply run_event; eassumption|exact R2].
Qed.
Lemma run_cons_inv c e b c' : run code c (e :: b) c' -> exists m1 ch m2, run code c [] m1 /\ step m1 ch = Next m2 (Some e) /\ run code m2 b c'.
Proof.
  intros R. remember (e :: b) as tr eqn:E. revert E. induction R as [c|c ch c1 tr c2 S R IH|c ch c1 x tr c2 S R IH]; intros E.
  - discriminate.
  - destruct (IH E) as (m1 & ch' & m2 & R1 & S2 & R2). exists m1, ch', m2. split; [eapply run_silent; eassumption|auto].
  - injection E as -> ->. exists c, ch, c1. split; [constructor|]. auto.
Qed.
Lemma run_trans c a m b c' : run code c a m -> run code m b c' -> run code c (a ++ b) c'.
Proof. induction 1; intros; cbn; [assumption|eapply run_silent; eauto|eapply run_event; eauto]. Qed.
(** a property that every step keeps is kept by every run *)
Lemma run_keeps (P : cfg -> Prop) : (forall c ch c1 e, Inv c -> P c -> step c ch = Next c1 e -> P c1) -> forall c tr c1, run code c tr c1 -> Inv c -> P c -> P c1.
Proof. intros K c tr c1 R. induction R as [c|c ch c1 tr c2 S R IH|c ch c1 x tr c2 S R IH]; intros I p; [exact p| |]; (apply IH; [eapply step_inv; eassumption|eapply K; eassumption]). Qed.
End L.
