(** M_Log.v -- model of the log of src/core/System.cpp (lines 95-186) and of the constructor of Exception (Exception.cpp 14-17) as a machine of interleaved
    threads. Each step is one operation on gSystemMutex, one access to a global variable, or one insertion into std::cout. Text is a list of
    characters (what std::cout shows of a jm::String, without its encoding); the branches of macOS and Windows are not modelled. *)
From Verif Require Import Base.

(** System.h 43-49; the enumerators in their order *)
Inductive level := Debug | Information | Warning | Error.
Definition rank (l : level) : Z := match l with Debug => 0 | Information => 1 | Warning => 2 | Error => 3 end.
(** the functions; [LastError] is lastErrorMessage() *)
Inductive call := Log (m : list Z) (l : level) | EnableDate (b : bool) | EnableLabel (l : level) | LastError.
(** Exception.cpp 14-17: the constructor logs its message (what it does after that, the stack trace, is not modelled) *)
Definition new_exception (m : list Z) : call := Log m Error.
(** Types.h 42-46 *)
Definition txt_reset : list Z := [27; 91; 48; 109].
Definition txt_bold : list Z := [27; 91; 49; 109].
Definition txt_red : list Z := [27; 91; 51; 49; 109].
Definition txt_yellow : list Z := [27; 91; 51; 51; 109].
(** "ERROR: ", "WARNING: ", "INFO: ", "DEBUG: " of System.cpp 121, 127, 131, 135 *)
Definition key (l : level) : list Z :=
  match l with
  | Error => [69; 82; 82; 79; 82; 58; 32]
  | Warning => [87; 65; 82; 78; 73; 78; 71; 58; 32]
  | Information => [73; 78; 70; 79; 58; 32]
  | Debug => [68; 69; 66; 85; 71; 58; 32]
  end.
(** PDate: line 115, PLabel: the label if the level is high enough, PPrint and PEndl: the two insertions of line 154 *)
Inductive prim := PLock | PUnlock | PDate | PText (t : list Z) | PLabel (l : level) | PStoreError (m : list Z) | PPrint | PEndl
  | PStoreDate (b : bool) | PStoreLabel (l : level) | PLoadError.
(** System.cpp 95-100, 102-107, 110-180, 182-185 *)
Definition body (k : call) : list prim :=
  match k with
  | Log m l =>
    [PLock; PDate] ++
    match l with
    | Error => [PText txt_bold; PText txt_red; PLabel Error; PStoreError m]
    | Warning => [PText txt_bold; PText txt_yellow; PLabel Warning]
    | Information => [PLabel Information]
    | Debug => [PLabel Debug]
    end ++
    [PText m] ++
    match l with Error | Warning => [PText txt_reset] | _ => [] end ++
    (if rank l >? rank Debug then [PPrint; PEndl] else []) ++
    [PUnlock]
  | EnableDate b => [PLock; PStoreDate b; PUnlock]
  | EnableLabel l => [PLock; PStoreLabel l; PUnlock]
  | LastError => [PLoadError]
  end.
(** a thread: between two calls, or in [k] with [todo] left of it; [msg] is the local variable of the log (for LastError: the answer); [rest]: the calls after it *)
Inductive st := Idle (rest : list call) | Run (k : call) (todo : list prim) (msg : list Z) (rest : list call).
(** [bundle]: gDefaultTranslation, a null pointer before System::init and after System::quit *)
Record config := Cfg { date : bool; label : level; error : list Z; bundle : option (list Z -> list Z); owner : option nat; console : list Z; thr : nat -> st }.
Inductive res := Next (c : config) | Undefined | Disabled.
Definition upd (f : nat -> st) (t : nat) (s : st) : nat -> st := fun x => if Nat.eqb x t then s else f x.
Definition owns (c : config) (t : nat) : bool := match owner c with Some x => Nat.eqb x t | None => false end.
(** one operation of thread [t]; [now] is the text of the clock at this moment. Locking a locked mutex waits (also for the owner itself: the mutex of
    Mutex.cpp 36-44 is not recursive); Tr of a null bundle (I18nBundle.h 42) is undefined *)
Definition do_prim (c : config) (t : nat) (now : list Z) (p : prim) (k : call) (todo : list prim) (msg : list Z) (rest : list call) : res :=
  let go c msg := Next (Cfg (date c) (label c) (error c) (bundle c) (owner c) (console c) (upd (thr c) t (Run k todo msg rest))) in
  match p with
  | PLock => match owner c with None => go (Cfg (date c) (label c) (error c) (bundle c) (Some t) (console c) (thr c)) msg | Some _ => Disabled end
  | PUnlock => if owns c t then go (Cfg (date c) (label c) (error c) (bundle c) None (console c) (thr c)) msg else Undefined
  | PDate => go c (msg ++ if date c then [91] ++ now ++ [93; 32] else [])
  | PText x => go c (msg ++ x)
  | PLabel l => if rank (label c) <=? rank l then match bundle c with Some tr => go c (msg ++ tr (key l)) | None => Undefined end else go c msg
  | PStoreError m => go (Cfg (date c) (label c) m (bundle c) (owner c) (console c) (thr c)) msg
  | PPrint => go (Cfg (date c) (label c) (error c) (bundle c) (owner c) (console c ++ msg) (thr c)) msg
  | PEndl => go (Cfg (date c) (label c) (error c) (bundle c) (owner c) (console c ++ [10]) (thr c)) msg
  | PStoreDate b => go (Cfg b (label c) (error c) (bundle c) (owner c) (console c) (thr c)) msg
  | PStoreLabel l => go (Cfg (date c) l (error c) (bundle c) (owner c) (console c) (thr c)) msg
  | PLoadError => go c (error c)
  end.
Definition step (c : config) (t : nat) (now : list Z) : res :=
  let put s := Next (Cfg (date c) (label c) (error c) (bundle c) (owner c) (console c) (upd (thr c) t s)) in
  match thr c t with
  | Idle [] => Disabled
  | Idle (k :: rest) => put (Run k (body k) [] rest)
  | Run k [] msg rest => put (Idle rest)
  | Run k (p :: todo) msg rest => do_prim c t now p k todo msg rest
  end.
