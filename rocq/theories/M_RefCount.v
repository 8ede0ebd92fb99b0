(** M_RefCount.v -- reference counting and the autorelease pool under threads: Object.cpp, AutoreleasePool.cpp, Mutex.cpp.
    Every thread executes the statements of retain, release, autorelease, drain and setHighBit one by one, in any interleaving with the other threads.  What
    the threads call, and when, is left open: [client] below only asks that a thread calls them for references it owns.  Simplifications: memory is sequentially
    consistent and a statement such as mRefCount-- is one step; addresses are not reused (an access to a deleted object or entry is an error); objects are created
    after System::init (System.cpp 434-442), so that mPool is never null before the destructor; allocation does not fail; mPool of an object is never changed while
    it lives (Object.cpp 36-48). *)
From Coq Require Import ZArith List Bool.
From Verif Require Import Base.
Import ListNotations.
(** who holds a reference: a thread (a local variable), an object (a member variable), the pool.  The code does not store this; it is what callers have to keep track of *)
Inductive owner := OThread (t : nat) | OMember (o : nat) | OPool.
(** the next statement of a call.  Object.cpp 70-77 retain, 50-68 release, 79-83 autorelease (calls AutoreleasePool.cpp 76-85 add), AutoreleasePool.cpp 56-74 drain,
    Object.cpp 105-108 setHighBit *)
Inductive pc :=
| RetGet (o : nat)   (* 72: mutex = mPool->mutex() *) | RetLock (o : nat) (* 73 *) | RetInc (o : nat) (* 74 *) | RetUnlock (o : nat) (* 75 *)
| RelGet (o : nat)   (* 52-55 *) | RelLock (o : nat) (* 57 *) | RelDec (o : nat) (* 58 *) | RelCount (o : nat) (* 59 *)
| RelUnlock (o : nat) (c : Z) (* 60 *) | RelDelete (o : nat) (c : Z) (* 62-67 *) | RelDtor (o : nat) (* 67: the destructor is running *)
| AutGet (o : nat)   (* 81 *) | AutLock (o : nat) (* AutoreleasePool 78 *) | AutNew (o : nat) (* 79-81 *) | AutLink (o e : nat) (* 82 *) | AutTop (o e : nat) (* 83 *) | AutUnlock (* 84 *)
| DraLock            (* 58 *) | DraHead (* 59 *) | DraLoop (p : option nat) (* 61-64 *) | DraNext (e : nat) (* 66-68 *) | DraTop (* 71 *) | DraReset (* 72 *) | DraUnlock (* 73 *)
| HbRead (o : nat) (b : bool) (* Object 107, read *) | HbWrite (o : nat) (b : bool) (n : Z) (* 107, write *).
(** an object: alive with the value of mRefCount (int32, the top bit being a flag), in its destructor, deleted *)
Inductive obj := Alive (raw : Z) | Dying | Freed.
Record st := mkSt {
  threads : list (list pc);            (* call stack of each thread, innermost call first *)
  heap : list obj;                     (* objects by address *)
  refs : list (owner * nat);           (* the references that are held, see [owner] *)
  lockC : option nat;                  (* AutoreleasePool.h 86: mMutex and the thread that holds it *)
  lockP : option nat;                  (* AutoreleasePool.h 89: mPoolMutex *)
  entries : list (option (nat * option nat)); (* AutoreleasePool.h 73-77: PoolEntry {object, next} by address; None: deleted *)
  head : option nat;                   (* mPool->next of the dummy entry *)
  top : option nat;                    (* mTop; None: the dummy entry *)
  err : bool;                          (* an access to a deleted object or entry, or a counter overflow, has happened *)
  deleted : list nat;                  (* history: objects in the order of their delete *)
  added : list nat;                    (* history: objects in the order of add *)
  drained : list nat                   (* history: objects in the order of the release calls of drain *)
}.
Fixpoint upd {A} (l : list A) (i : nat) (x : A) : list A := match l, i with [], _ => [] | _ :: l, O => x :: l | y :: l, S i => y :: upd l i x end.
Definition owner_eqb (a b : owner) : bool := match a, b with OThread x, OThread y => Nat.eqb x y | OMember x, OMember y => Nat.eqb x y | OPool, OPool => true | _, _ => false end.
Definition ref_eqb (a b : owner * nat) : bool := owner_eqb (fst a) (fst b) && Nat.eqb (snd a) (snd b).
Fixpoint drop1 (r : owner * nat) (l : list (owner * nat)) : list (owner * nat) := match l with [] => [] | x :: l => if ref_eqb r x then l else x :: drop1 r l end.
Definition move (r r' : owner * nat) (l : list (owner * nat)) : list (owner * nat) := r' :: drop1 r l.
Definition goto (s : st) (t : nat) (k : list pc) : st := mkSt (upd (threads s) t k) (heap s) (refs s) (lockC s) (lockP s) (entries s) (head s) (top s) (err s) (deleted s) (added s) (drained s).
Definition fail (s : st) : st := mkSt (threads s) (heap s) (refs s) (lockC s) (lockP s) (entries s) (head s) (top s) true (deleted s) (added s) (drained s).
Definition set_obj (s : st) (o : nat) (x : obj) : st := mkSt (threads s) (upd (heap s) o x) (refs s) (lockC s) (lockP s) (entries s) (head s) (top s) (err s) (deleted s) (added s) (drained s).
Definition set_refs (s : st) (r : list (owner * nat)) : st := mkSt (threads s) (heap s) r (lockC s) (lockP s) (entries s) (head s) (top s) (err s) (deleted s) (added s) (drained s).
Definition set_lockC (s : st) (x : option nat) : st := mkSt (threads s) (heap s) (refs s) x (lockP s) (entries s) (head s) (top s) (err s) (deleted s) (added s) (drained s).
Definition set_lockP (s : st) (x : option nat) : st := mkSt (threads s) (heap s) (refs s) (lockC s) x (entries s) (head s) (top s) (err s) (deleted s) (added s) (drained s).
Definition set_pool (s : st) (e : list (option (nat * option nat))) (h tp : option nat) : st := mkSt (threads s) (heap s) (refs s) (lockC s) (lockP s) e h tp (err s) (deleted s) (added s) (drained s).
Definition log_delete (s : st) (o : nat) : st := mkSt (threads s) (heap s) (refs s) (lockC s) (lockP s) (entries s) (head s) (top s) (err s) (deleted s ++ [o]) (added s) (drained s).
Definition log_add (s : st) (o : nat) : st := mkSt (threads s) (heap s) (refs s) (lockC s) (lockP s) (entries s) (head s) (top s) (err s) (deleted s) (added s ++ [o]) (drained s).
Definition log_drain (s : st) (o : nat) : st := mkSt (threads s) (heap s) (refs s) (lockC s) (lockP s) (entries s) (head s) (top s) (err s) (deleted s) (added s) (drained s ++ [o]).
(** any access to a member of an object *)
Definition access (s : st) (o : nat) (k : Z -> st) : st := match nth_error (heap s) o with Some (Alive raw) => k raw | _ => fail s end.
Definition entry (s : st) (e : nat) (k : nat -> option nat -> st) : st := match nth_error (entries s) e with Some (Some (o, n)) => k o n | _ => fail s end.
(** the members of a deleted object become the responsibility of the thread that runs the destructor *)
Definition inherit (o t : nat) (l : list (owner * nat)) : list (owner * nat) := map (fun r => if owner_eqb (fst r) (OMember o) then (OThread t, snd r) else r) l.
(** Object.cpp 85-88: referenceCount *)
Definition count_of (raw : Z) : Z := Z.land raw 2147483647.
(** one statement of thread [t]; None: the thread waits for a mutex or is not inside a call *)
Definition micro (t : nat) (s : st) : option st :=
  match nth_error (threads s) t with
  | Some (p :: k) =>
    match p with
    | RetGet o => Some (access s o (fun _ => goto s t (RetLock o :: k)))
    | RetLock o => match lockC s with None => Some (goto (set_lockC s (Some t)) t (RetInc o :: k)) | Some _ => None end
    | RetInc o => Some (access s o (fun raw => if Z.eqb raw 2147483647 then fail s else goto (set_refs (set_obj s o (Alive (raw + 1))) ((OThread t, o) :: refs s)) t (RetUnlock o :: k)))
    | RetUnlock o => Some (goto (set_lockC s None) t k)
    | RelGet o => Some (access s o (fun _ => goto s t (RelLock o :: k)))
    | RelLock o => match lockC s with None => Some (goto (set_lockC s (Some t)) t (RelDec o :: k)) | Some _ => None end
    | RelDec o => Some (access s o (fun raw => if Z.eqb raw (-2147483648) then fail s else goto (set_refs (set_obj s o (Alive (raw - 1))) (drop1 (OThread t, o) (refs s))) t (RelCount o :: k)))
    | RelCount o => Some (access s o (fun raw => goto s t (RelUnlock o (count_of raw) :: k)))
    | RelUnlock o c => Some (goto (set_lockC s None) t (RelDelete o c :: k))
    | RelDelete o c => Some (if Z.eqb c 0 then access s o (fun _ => goto (set_refs (log_delete (set_obj s o Dying) o) (inherit o t (refs s))) t (RelDtor o :: k)) else goto s t k)
    | RelDtor o => None
    | AutGet o => Some (access s o (fun _ => goto s t (AutLock o :: k)))
    | AutLock o => match lockP s with None => Some (goto (set_lockP s (Some t)) t (AutNew o :: k)) | Some _ => None end
    | AutNew o => Some (goto (set_pool s (entries s ++ [Some (o, None)]) (head s) (top s)) t (AutLink o (length (entries s)) :: k))
    | AutLink o e => Some (let s1 := log_add (set_refs s (move (OThread t, o) (OPool, o) (refs s))) o in
                           match top s with
                           | None => goto (set_pool s1 (entries s) (Some e) (top s)) t (AutTop o e :: k)
                           | Some q => entry s q (fun o' _ => goto (set_pool s1 (upd (entries s) q (Some (o', Some e))) (head s) (top s)) t (AutTop o e :: k))
                           end)
    | AutTop o e => Some (goto (set_pool s (entries s) (head s) (Some e)) t (AutUnlock :: k))
    | AutUnlock => Some (goto (set_lockP s None) t k)
    | DraLock => match lockP s with None => Some (goto (set_lockP s (Some t)) t (DraHead :: k)) | Some _ => None end
    | DraHead => Some (goto s t (DraLoop (head s) :: k))
    | DraLoop None => Some (goto s t (DraTop :: k))
    | DraLoop (Some e) => Some (entry s e (fun o _ => goto (log_drain (set_refs s (move (OPool, o) (OThread t, o) (refs s))) o) t (RelGet o :: DraNext e :: k)))
    | DraNext e => Some (entry s e (fun _ n => goto (set_pool s (upd (entries s) e None) (head s) (top s)) t (DraLoop n :: k)))
    | DraTop => Some (goto (set_pool s (entries s) (head s) None) t (DraReset :: k))
    | DraReset => Some (goto (set_pool s (entries s) None (top s)) t (DraUnlock :: k))
    | DraUnlock => Some (goto (set_lockP s None) t k)
    | HbRead o b => Some (access s o (fun raw => goto s t (HbWrite o b (count_of raw) :: k)))
    | HbWrite o b n => Some (access s o (fun _ => goto (set_obj s o (Alive (if b then n - 2147483648 else n))) t k))
    end
  | _ => None
  end.
(** what a thread may do between the library's statements: it is outside of all calls, or inside a destructor.  It may call the library for references it holds,
    pass a reference to another thread, store it in a member of an object it holds or take it out again, create an object, end the destructor.
    [hb]: whether setHighBit is called at all *)
Definition ready (t : nat) (s : st) (k : list pc) : Prop := nth_error (threads s) t = Some k /\ (k = [] \/ exists o k', k = RelDtor o :: k').
(** Object.cpp 36-42: a new object has the count 1; the flag may be set before the object is shared *)
Definition new_obj (s : st) (flag : bool) : st := mkSt (threads s) (heap s ++ [Alive (if flag then 1 - 2147483648 else 1)]) (refs s) (lockC s) (lockP s) (entries s) (head s) (top s) (err s) (deleted s) (added s) (drained s).
Inductive client (hb : bool) (t : nat) (s : st) : st -> Prop :=
| c_new k flag : ready t s k -> client hb t s (set_refs (new_obj s flag) ((OThread t, length (heap s)) :: refs s))
| c_retain k o : ready t s k -> In (OThread t, o) (refs s) -> client hb t s (goto s t (RetGet o :: k))
| c_release k o : ready t s k -> In (OThread t, o) (refs s) -> client hb t s (goto s t (RelGet o :: k))
| c_autorelease k o : ready t s k -> In (OThread t, o) (refs s) -> client hb t s (goto s t (AutGet o :: k))
| c_drain k : ready t s k -> client hb t s (goto s t (DraLock :: k))
| c_pass k o t' : ready t s k -> In (OThread t, o) (refs s) -> client hb t s (set_refs s (move (OThread t, o) (OThread t', o) (refs s)))
| c_store k o p : ready t s k -> In (OThread t, o) (refs s) -> In (OThread t, p) (drop1 (OThread t, o) (refs s)) -> client hb t s (set_refs s (move (OThread t, o) (OMember p, o) (refs s)))
| c_take k o p : ready t s k -> In (OThread t, p) (refs s) -> In (OMember p, o) (refs s) -> client hb t s (set_refs s (move (OMember p, o) (OThread t, o) (refs s)))
| c_end k o : nth_error (threads s) t = Some (RelDtor o :: k) -> client hb t s (goto (set_obj s o Freed) t k)
| c_flag k o b : hb = true -> ready t s k -> In (OThread t, o) (refs s) -> client hb t s (goto s t (HbRead o b :: k)).
(** a statement of a call or a client action, of any thread *)
Inductive step (hb : bool) (s s' : st) : Prop :=
| s_micro t : err s = false -> micro t s = Some s' -> step hb s s'
| s_client t : err s = false -> client hb t s s' -> step hb s s'.
(** [n] threads, no objects, an empty pool (AutoreleasePool.cpp 36-44) *)
Definition init (n : nat) : st := mkSt (repeat [] n) [] [] None None [] None None false [] [] [].
(** the number of references held to an object *)
Definition nrefs (o : nat) (s : st) : nat := count_occ Nat.eq_dec (map snd (refs s)) o.
(** the states reachable by any schedule in which all objects have less than 2^31 - 1 references before every step *)
Inductive run (hb : bool) : st -> Prop :=
| run_init n : run hb (init n)
| run_step s s' : run hb s -> (forall o, (Z.of_nat (nrefs o s) < 2147483647)%Z) -> step hb s s' -> run hb s'.
