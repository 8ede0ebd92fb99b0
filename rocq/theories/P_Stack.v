(** P_Stack.v -- C28: Stack<T> is a last-in first-out list, over every history. *)
From Verif Require Import Base M_Stack S_Stack L_Stack.

(** Every history of calls on a fresh stack, in any heap h (which may hold other stacks): as long as the list semantics gives the
    history a meaning, the calls return exactly its answers, no cell that was allocated before is touched, and the destructor
    (clear) afterwards gives back every node: the heap is then as it was before the stack was made. *)
Theorem C28_history A (h : heap A) os r l fuel : ksteps os [] = Some (r, l) -> (length os < fuel)%nat ->
  exists h' s', kexec_all os fuel h stack_new = Val (r, h', s') /\ (forall q, live h q -> deref h' q = deref h q) /\
  exists h'' s'', clear h' s' fuel = Val (h'', s'') /\ forall q, deref h'' q = deref h q.
Proof.
  intros H Hf. pose proof (steps_ok h fuel os h stack_new [] (inv_new h) Hf) as S1. rewrite H in S1. destruct S1 as (h' & s' & E & I). exists h', s'. split; [exact E|].
  pose proof (ksteps_length _ _ _ _ H) as Hl. cbn in Hl. destruct I as (ps & O & I1 & I2).
  split; [intros q (n & D); apply I2; intros i; rewrite I1 in D by exact i; discriminate|].
  destruct (clear_ok fuel h' s' ps l O ltac:(lia)) as (h'' & s'' & Ec & _ & G1 & G2). exists h'', s''. split; [exact Ec|].
  intros q. destruct (in_dec Z.eq_dec q ps) as [i|n]; [rewrite G1 by exact i; symmetry; auto|rewrite G2 by exact n; auto].
Qed.
Print Assumptions C28_history.
(** A history that pops or tops an empty stack is undefined: there is no check. *)
Theorem C28_empty_pop_undefined A (h : heap A) os fuel : ksteps os [] = None -> (length os < fuel)%nat -> kexec_all os fuel h stack_new = UB.
Proof. intros H Hf. pose proof (steps_ok h fuel os h stack_new [] (inv_new h) Hf) as S1. now rewrite H in S1. Qed.
Print Assumptions C28_empty_pop_undefined.
(** and those are the only undefined histories *)
Theorem C28_defined_iff A (h : heap A) os fuel : (length os < fuel)%nat -> kexec_all os fuel h stack_new = UB <-> ksteps os [] = None.
Proof.
  intros Hf. split; [|intros E; exact (C28_empty_pop_undefined A h os fuel E Hf)]. intros E. destruct (ksteps os []) as [[r l]|] eqn:K; [|reflexivity]. destruct (C28_history A h os r l fuel K Hf) as (h' & s' & E2 & _). congruence.
Qed.
Print Assumptions C28_defined_iff.
(** what was pushed comes back in reverse order, whatever happened before *)
Theorem C28_lifo A (h : heap A) (xs : list A) fuel : (2 * length xs < fuel)%nat ->
  exists h' s', kexec_all (map KPush xs ++ map (fun _ => KPop) xs) fuel h stack_new = Val (map (fun _ => KUnit) xs ++ map KVal (rev xs), h', s') /\ has_elements s' = false /\ forall q, deref h' q = deref h q.
Proof.
  intros Hf.
  assert (P : forall ys (m : list A) os, ksteps (map KPush ys ++ os) m = match ksteps os (rev ys ++ m) with Some (r, l) => Some (map (fun _ => KUnit) ys ++ r, l) | None => None end).
  { induction ys as [|y ys IH]; intros m os; [cbn; destruct (ksteps os m) as [[? ?]|]; reflexivity|]. cbn [map app ksteps kstep]. rewrite IH. cbn [rev]. rewrite <- app_assoc. cbn [app]. destruct (ksteps os (rev ys ++ y :: m)) as [[? ?]|]; reflexivity. }
  assert (Q : forall ys (zs : list A), length ys = length zs -> ksteps (map (fun _ : A => @KPop A) zs) ys = Some (map (@KVal A) ys, [])).
  { induction ys as [|y ys IH]; intros [|z zs] L; try discriminate; [reflexivity|]. injection L as L. cbn [map ksteps kstep]. rewrite (IH zs L). reflexivity. }
  assert (K : ksteps (map (@KPush A) xs ++ map (fun _ : A => @KPop A) xs) [] = Some (map (fun _ : A => @KUnit A) xs ++ map (@KVal A) (rev xs), [])). { rewrite P, app_nil_r, Q by apply rev_length. reflexivity. }
  pose proof (steps_ok h fuel (map KPush xs ++ map (fun _ => KPop) xs) h stack_new [] (inv_new h)) as S1. rewrite K in S1. destruct S1 as (h' & s' & E & I); [rewrite app_length, !map_length; cbn; lia|].
  exists h', s'. split; [exact E|]. destruct I as (ps & O & _ & I2). destruct (O) as (C & _). inversion C; subst. split; [now rewrite (owns_top _ _ _ _ O)|]. intros q. apply I2. intros [].
Qed.
Print Assumptions C28_lifo.
(** Refuted: the class is copyable, but original and copy share the nodes. After any history that leaves an element, popping
    both, or running both destructors, is undefined. *)
Theorem C28_copy_refuted A (h : heap A) os r x l fuel : ksteps os [] = Some (r, x :: l) -> (length os < fuel)%nat ->
  exists h' s', kexec_all os fuel h stack_new = Val (r, h', s') /\
  let copy := s' in
  (exists h1 s1, pop h' s' = Val (x, h1, s1) /\ pop h1 copy = UB) /\ (exists h1 s1, clear h' s' fuel = Val (h1, s1) /\ clear h1 copy fuel = UB).
Proof.
  intros H Hf. pose proof (steps_ok h fuel os h stack_new [] (inv_new h) Hf) as S1. rewrite H in S1. destruct S1 as (h' & s' & E & I). exists h', s'. split; [exact E|]. cbn zeta.
  pose proof (ksteps_length _ _ _ _ H) as Hl. cbn in Hl. destruct I as (ps & O & I1 & I2). destruct ps as [|p ps]; [destruct O as (C & _); inversion C|].
  destruct (owns_sprev _ _ _ _ _ _ O) as (-> & Nz & _). split.
  - destruct (pop_ok _ _ _ _ _ _ O) as (h1 & s1 & -> & _ & D & _). exists h1, s1. split; [reflexivity|]. unfold pop. now rewrite D.
  - destruct (clear_ok fuel _ _ _ _ O ltac:(cbn; lia)) as (h1 & s1 & -> & _ & D & _). exists h1, s1. split; [reflexivity|]. destruct fuel; [lia|]. cbn [clear]. unfold has_elements. destruct (Z.eqb_spec (stop s') 0); [contradiction|]. cbn [negb]. unfold pop. rewrite D by now left. reflexivity.
Qed.
Print Assumptions C28_copy_refuted.
(** not vacuous: a history with every call *)
Example C28_ex : ksteps [KPush 1; KPush 2; KPush 3; KTop3; KReverse; KTop; KPop; KTop3; KSize; KClear; KHas; KPush 9; KPush 8] [] = Some ([KUnit; KUnit; KUnit; KVal 1; KUnit; KVal 1; KVal 1; KThrow; KNum 2; KUnit; KBool false; KUnit; KUnit], [8; 9]).
Proof. reflexivity. Qed.
Example C28_ex_run : kexec_all [KPush 1; KPush 2; KReverse; KPop; KPop; KPop] 9 [] stack_new = UB. Proof. reflexivity. Qed.
