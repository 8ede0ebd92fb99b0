(** M_Thread.v -- model of src/core/Thread.cpp and src/core/Mutex.cpp (pthread branch) as a machine of interleaved threads that work on one
    Thread object. The worker is thread 0, every other number is some other thread of the program. Each step is one pthread operation or one access
    to the flag. A program is arbitrary: [code t q r] is what thread [t] does next in its own state [q] after the last call answered [r]: nothing (it ends,
    for the worker: run() returns) or a call and its next state. *)
From Verif Require Import Base.

(** pthread operations and accesses to [alive] *)
Inductive prim := PLock | PUnlock | PSet (b : bool) | PGet | PWait | PWake | PSignal | PCreate | PJoin.
(** the functions of Thread.h 100-159 *)
Inductive call := CStart | CInterrupt | CIsAlive | CSleep | CSleepFor | CWakeUp | CLock | CUnlock.
(** what a thread is busy with: the first lines of StartThread, or a call *)
Inductive job := Announce | Api (c : call).
(** Thread.cpp 38-48 (Announce), 94-107 (start), 110-133 (sleep(millis)), 135-151 (lock, unlock), 153-164 (sleep), 166-173 (wakeUp), 175-186 (interrupt),
    188-203 (isAlive). Mutex.cpp 57-66, 68-78, 80-92, 94-104 have the same bodies for lock, unlock, sleep and wakeUp.
    The time of sleep(millis) is in [deadline] below. *)
Definition body (j : job) : list prim :=
  match j with
  | Announce => [PLock; PSet true; PUnlock]
  | Api CStart => [PCreate]
  | Api CInterrupt => [PLock; PSet false; PUnlock; PSignal; PJoin]
  | Api CIsAlive => [PLock; PGet; PUnlock]
  | Api CSleep | Api CSleepFor => [PLock; PWait; PUnlock]
  | Api CWakeUp => [PSignal]
  | Api CLock => [PLock]
  | Api CUnlock => [PUnlock]
  end.
Definition worker : nat := 0%nat.
Inductive event := Called (c : call) | Returned (j : job) (r : bool) | Exited.
(** who goes on; [pick] is the waiting thread that a signal wakes. [WakeUp t]: a sleeping thread wakes up by itself: the time is over, or the system
    does it for no reason (allowed by POSIX) *)
Inductive choice := Step (t pick : nat) | WakeUp (t : nat).

Section Machine.
Variable Q : Type.
Variable code : nat -> Q -> bool -> option (call * Q).
(** [Run j todo r q]: busy with [j], [todo] is left of it; [r] the last answer of isAlive *)
Inductive st := Unborn (q : Q) | Idle (r : bool) (q : Q) | Run (j : job) (todo : list prim) (r : bool) (q : Q) | Done.
Record config := Cfg { alive : bool; owner : option nat; waiters : list nat; joined : bool; thr : nat -> st }.
Inductive res := Next (c : config) (e : option (nat * event)) | Undefined | Disabled.
Definition upd (f : nat -> st) (t : nat) (s : st) : nat -> st := fun x => if Nat.eqb x t then s else f x.
Definition with_thr (c : config) (t : nat) (s : st) : config := Cfg (alive c) (owner c) (waiters c) (joined c) (upd (thr c) t s).
Definition owns (c : config) (t : nat) : bool := match owner c with Some x => Nat.eqb x t | None => false end.
Definition waits (c : config) (t : nat) : bool := existsb (Nat.eqb t) (waiters c).
(** one operation of thread [t]; access to the flag without the mutex is a data race, unlocking the mutex of another thread, joining oneself, a thread that was
    not started or that was joined before are undefined by POSIX; starting twice is not modelled (and counted as undefined) *)
Definition do_prim (c : config) (t pick : nat) (j : job) (p : prim) (l : list prim) (r : bool) (q : Q) : res :=
  let go c := Next (with_thr c t (Run j l r q)) None in
  match p with
  | PLock => match owner c with None => go (Cfg (alive c) (Some t) (waiters c) (joined c) (thr c)) | Some _ => Disabled end
  | PUnlock => if owns c t then go (Cfg (alive c) None (waiters c) (joined c) (thr c)) else Undefined
  | PSet b => if owns c t then go (Cfg b (owner c) (waiters c) (joined c) (thr c)) else Undefined
  | PGet => if owns c t then Next (with_thr c t (Run j l (alive c) q)) None else Undefined
  | PWait => if owns c t then Next (with_thr (Cfg (alive c) None (t :: waiters c) (joined c) (thr c)) t (Run j (PWake :: l) r q)) None else Undefined
  | PWake => if waits c t then Disabled else match owner c with None => go (Cfg (alive c) (Some t) (waiters c) (joined c) (thr c)) | Some _ => Disabled end
  | PSignal => match nth_error (waiters c) pick with
               | Some w => go (Cfg (alive c) (owner c) (remove Nat.eq_dec w (waiters c)) (joined c) (thr c))
               | None => match waiters c with [] => go c | _ => Disabled end
               end
  | PCreate => match thr c worker with
               | Unborn q0 => Next (with_thr (Cfg (alive c) (owner c) (waiters c) (joined c) (upd (thr c) worker (Run Announce (body Announce) false q0))) t (Run j l r q)) None
               | _ => Undefined
               end
  | PJoin => if Nat.eqb t worker || joined c then Undefined else
             match thr c worker with Unborn _ => Undefined | Done => go (Cfg (alive c) (owner c) (waiters c) true (thr c)) | _ => Disabled end
  end.
Definition step (c : config) (ch : choice) : res :=
  match ch with
  | Step t pick =>
    match thr c t with
    | Unborn _ | Done => Disabled
    | Idle r q => match code t q r with
                  | None => Next (with_thr c t Done) (Some (t, Exited))
                  | Some (f, q') => Next (with_thr c t (Run (Api f) (body (Api f)) r q')) (Some (t, Called f))
                  end
    | Run j [] r q => Next (with_thr c t (Idle r q)) (Some (t, Returned j r))
    | Run j (p :: l) r q => do_prim c t pick j p l r q
    end
  | WakeUp t => if waits c t then Next (Cfg (alive c) (owner c) (remove Nat.eq_dec t (waiters c)) (joined c) (thr c)) None else Disabled
  end.
(** a new object (Thread.cpp 69-83); the worker will begin its run() in [q0], the others are where [others] says *)
Definition start_config (q0 : Q) (others : nat -> st) : config := Cfg false None [] false (upd others worker (Unborn q0)).
End Machine.
Arguments Unborn {Q} q. Arguments Idle {Q} r q. Arguments Run {Q} j todo r q. Arguments Done {Q}.
Arguments Cfg {Q}. Arguments alive {Q} c. Arguments owner {Q} c. Arguments waiters {Q} c. Arguments joined {Q} c. Arguments thr {Q} c t.
Arguments Next {Q} c e. Arguments Undefined {Q}. Arguments Disabled {Q}.
Arguments upd {Q}. Arguments with_thr {Q}. Arguments owns {Q}. Arguments waits {Q}. Arguments do_prim {Q}. Arguments step {Q}. Arguments start_config {Q}.

(** Thread.cpp 113-127: the absolute time of the end of sleep(millis), for the time [sec], [usec] of the clock. int64 (time_t, long) and uint64; the sum of an
    int64 and a uint64 is a uint64, converted back to int64; division and remainder of C *)
Definition to_i64 (z : Z) : Z := let r := z mod 2 ^ 64 in if r <? 2 ^ 63 then r else r - 2 ^ 64.
Definition deadline (sec usec millis : Z) : Z * Z :=
  let m := millis mod 2 ^ 64 in
  let nsec := usec * 1000 in
  let nsec := to_i64 (nsec mod 2 ^ 64 + (m * 1000000) mod 2 ^ 64) in
  (sec + Z.quot nsec 1000000000, Z.rem nsec 1000000000).
