(** S_Stack.v -- a stack as a client sees it: a list, top first. *)
From Verif Require Import Base M_Stack.
Inductive kop (A : Type) := KPush (x : A) | KPop | KTop | KTop2 | KTop3 | KClear | KReverse | KSize | KHas.
Arguments KPush {A}. Arguments KPop {A}. Arguments KTop {A}. Arguments KTop2 {A}. Arguments KTop3 {A}. Arguments KClear {A}. Arguments KReverse {A}. Arguments KSize {A}. Arguments KHas {A}.
Inductive kans (A : Type) := KUnit | KVal (x : A) | KNum (n : Z) | KBool (b : bool) | KThrow.
Arguments KUnit {A}. Arguments KVal {A}. Arguments KNum {A}. Arguments KBool {A}. Arguments KThrow {A}.
(** None: the call has no defined meaning (pop or top of an empty stack) *)
Definition kstep {A} (o : kop A) (l : list A) : option (kans A * list A) :=
  match o, l with
  | KPush x, l => Some (KUnit, x :: l)
  | KPop, x :: l => Some (KVal x, l)
  | KTop, x :: _ => Some (KVal x, l)
  | KPop, [] | KTop, [] => None
  | KTop2, _ :: y :: _ => Some (KVal y, l)
  | KTop3, _ :: _ :: z :: _ => Some (KVal z, l)
  | KTop2, _ | KTop3, _ => Some (KThrow, l)
  | KClear, _ => Some (KUnit, [])
  | KReverse, _ => Some (KUnit, rev l)
  | KSize, _ => Some (KNum (zlen l mod 2 ^ 32), l)
  | KHas, _ => Some (KBool (match l with [] => false | _ => true end), l)
  end.
Fixpoint ksteps {A} (os : list (kop A)) (l : list A) : option (list (kans A) * list A) :=
  match os with
  | [] => Some ([], l)
  | o :: os => match kstep o l with
               | Some (a, l) => match ksteps os l with Some (r, l) => Some (a :: r, l) | None => None end
               | None => None
               end
  end.
(** a throwing call leaves the stack alone *)
Definition thrown {A} (m : out A) : out (kans A) := match m with Val x => Val (KVal x) | Exn => Val KThrow | UB => UB | Fuel => Fuel end.
Definition kexec {A} (o : kop A) (fuel : nat) (h : heap A) (s : stack) : out (kans A * heap A * stack) :=
  match o with
  | KPush x => let (h, s) := push h s x in Val (KUnit, h, s)
  | KPop => let* (x, h, s) := pop h s in Val (KVal x, h, s)
  | KTop => let* x := top h s in Val (KVal x, h, s)
  | KTop2 => let* a := thrown (top2 h s) in Val (a, h, s)
  | KTop3 => let* a := thrown (top3 h s) in Val (a, h, s)
  | KClear => let* (h, s) := clear h s fuel in Val (KUnit, h, s)
  | KReverse => let* (h, s) := reverse h s fuel in Val (KUnit, h, s)
  | KSize => Val (KNum (scount s), h, s)
  | KHas => Val (KBool (has_elements s), h, s)
  end.
Fixpoint kexec_all {A} (os : list (kop A)) (fuel : nat) (h : heap A) (s : stack) : out (list (kans A) * heap A * stack) :=
  match os with
  | [] => Val ([], h, s)
  | o :: os => let* (a, h, s) := kexec o fuel h s in let* (r, h, s) := kexec_all os fuel h s in Val (a :: r, h, s)
  end.
(** the cells that are allocated *)
Definition live {A} (h : heap A) (p : Z) : Prop := exists n, deref h p = Val n.
