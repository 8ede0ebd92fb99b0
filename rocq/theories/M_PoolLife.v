(** M_PoolLife.v -- objects and the life of the autorelease pool: Object.cpp 36-83, AutoreleasePool.cpp 36-85, System.cpp 419-477 (gMainThreadPool), by one thread.
    M_RefCount has any number of threads, but assumes that every object is created after System::init and is gone before System::quit; here that is not assumed.
    Objects are numbered in the order of their creation. Destructors that release other objects are left out (M_RefCount); counters with the high bit set too. *)
From Verif Require Import Base.
(** mRefCount; whether mPool is the pool (Object.cpp 36-38: what System::autoreleasePool() answers when the object is created) or nullptr *)
Record obj := Obj { cnt : Z; pooled : bool }.
(** gMainThreadPool: not yet created, living with its entries in order, or deleted (the pointer is nullptr again; the objects keep theirs) *)
Inductive pool := NotYet | Live (entries : list nat) | Gone.
(** the objects; None: deleted *)
Record st := St { heap : list (option obj); main : pool }.
Definition st_new : st := St [] NotYet.
Fixpoint hput (l : list (option obj)) (i : nat) (v : option obj) : list (option obj) := match l, i with [], _ => [] | _ :: l, O => v :: l | x :: l, S i => x :: hput l i v end.
Definition deref (h : list (option obj)) (i : nat) : out obj := match nth_error h i with Some (Some o) => Val o | _ => UB end.
(** Object.cpp 50-68: without a pool nothing happens; the mutex is the pool's *)
Definition release (i : nat) (alive : bool) (h : list (option obj)) : out (list (option obj)) :=
  let* o := deref h i in
  if negb (pooled o) then Val h
  else if negb alive then UB
  else if cnt o =? - 2 ^ 31 then UB
  else if cnt o - 1 =? 0 then Val (hput h i None) else Val (hput h i (Some (Obj (cnt o - 1) true))).
(** Object.cpp 70-77: there is no test for a missing pool *)
Definition retain (i : nat) (alive : bool) (h : list (option obj)) : out (list (option obj)) :=
  let* o := deref h i in
  if negb (pooled o) then UB
  else if negb alive then UB
  else if cnt o =? 2 ^ 31 - 1 then UB else Val (hput h i (Some (Obj (cnt o + 1) true))).
(** AutoreleasePool.cpp 56-74: in the order of the entries *)
Fixpoint drain (l : list nat) (h : list (option obj)) : out (list (option obj)) :=
  match l with [] => Val h | i :: l => let* h := release i true h in drain l h end.
Inductive op :=
| Init | Quit
| New                     (* new of a class derived from Object *)
| Retain (i : nat) | Release (i : nat) | Autorelease (i : nat)
| Drain                   (* System::autoreleasePool()->drain() *)
| Destroy (i : nat).      (* delete, or the end of the scope of an object on the stack: Object.cpp 45-48 *)
Definition is_live (p : pool) : bool := match p with Live _ => true | _ => false end.
Definition exec (x : op) (s : st) : out st :=
  match x with
  (* System.cpp 442; after quit init is undefined (C133) *)
  | Init => match main s with NotYet => Val (St (heap s) (Live [])) | Live l => Val s | Gone => UB end
  (* System.cpp 467-471, AutoreleasePool.cpp 47-54 *)
  | Quit => match main s with Live l => let* h := drain l (heap s) in Val (St h Gone) | _ => Val (St (heap s) Gone) end
  | New => Val (St (heap s ++ [Some (Obj 1 (is_live (main s)))]) (main s))
  | Retain i => let* h := retain i (is_live (main s)) (heap s) in Val (St h (main s))
  | Release i => let* h := release i (is_live (main s)) (heap s) in Val (St h (main s))
  (* Object.cpp 79-83, AutoreleasePool.cpp 76-85 *)
  | Autorelease i =>
    let* o := deref (heap s) i in
    if negb (pooled o) then UB else match main s with Live l => Val (St (heap s) (Live (l ++ [i]))) | _ => UB end
  | Drain => match main s with Live l => let* h := drain l (heap s) in Val (St h (Live [])) | _ => UB end
  | Destroy i => let* o := deref (heap s) i in Val (St (hput (heap s) i None) (main s))
  end.
Fixpoint exec_all (l : list op) (s : st) : out st := match l with [] => Val s | x :: l => let* s := exec x s in exec_all l s end.
