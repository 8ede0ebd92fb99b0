(** S_Thread.v -- runs of the machine, and the programs named in the properties. *)
From Verif Require Import Base M_Thread.

Section Runs.
Variable Q : Type.
Variable code : nat -> Q -> bool -> option (call * Q).
(** [run c tr c']: some schedule leads from c to c', with the events [tr] *)
Inductive run : config Q -> list (nat * event) -> config Q -> Prop :=
| run_nil c : run c [] c
| run_silent c ch c1 tr c2 : step code c ch = Next c1 None -> run c1 tr c2 -> run c tr c2
| run_event c ch c1 e tr c2 : step code c ch = Next c1 (Some e) -> run c1 tr c2 -> run c (e :: tr) c2.
(** the same, with the number of steps *)
Inductive runs : nat -> config Q -> config Q -> Prop :=
| runs_O c : runs 0 c c
| runs_S n c ch c1 e c2 : step code c ch = Next c1 e -> runs n c1 c2 -> runs (S n) c c2.
(** a new object; the other threads have not called anything yet *)
Definition fresh (c : config Q) : Prop := exists q0 others, c = start_config q0 others /\ forall t, others t = Done \/ exists q, others t = Idle false q.
Definition reachable (c : config Q) : Prop := exists c0 tr, fresh c0 /\ run c0 tr c.
(** every thread has ended *)
Definition all_done (c : config Q) : Prop := forall t, thr c t = Done.
Definition can_step (c : config Q) : Prop := exists ch c1 e, step code c ch = Next c1 e.
End Runs.
Arguments run {Q}. Arguments runs {Q}. Arguments fresh {Q}. Arguments reachable {Q}. Arguments all_done {Q}. Arguments can_step {Q}.

(** * programs *)
(** [Script l]: the calls l, one after the other. [Poll]: while(isAlive()) f(); with [Asked] between the two *)
Inductive prog := Script (l : list call) | Poll (f : call) | Asked (f : call).
Definition prog_code (t : nat) (q : prog) (r : bool) : option (call * prog) :=
  match q with
  | Script [] => None
  | Script (c :: l) => Some (c, Script l)
  | Poll f => Some (CIsAlive, Asked f)
  | Asked f => if r then Some (f, Poll f) else None
  end.
(** calls that neither block nor hold anything nor start or end the thread *)
Definition harmless (c : call) : Prop := c = CIsAlive \/ c = CWakeUp \/ c = CSleepFor.
(** * a worker that polls *)
(** the worker is while(isAlive()) sleep(ms); thread 1 starts it, does harmless calls, interrupts it, does harmless calls again; the other threads below [n] do harmless calls *)
Definition polling (n : nat) (c0 : config prog) : Prop :=
  exists pre post others, Forall harmless pre /\ Forall harmless post /\
  c0 = start_config (Poll CSleepFor) (upd others 1%nat (Idle false (Script (CStart :: pre ++ CInterrupt :: post)))) /\
  (1 < n)%nat /\ forall t, (others t = Done \/ exists l, Forall harmless l /\ others t = Idle false (Script l)) /\ ((n <= t)%nat -> others t = Done).
(** asleep: waiting for wakeUp, interrupt, the time or the whim of the system *)
Definition asleep {Q} (c : config Q) (t : nat) : Prop := In t (waiters c).
