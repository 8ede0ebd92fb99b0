(** M_Stack.v -- model of include/core/Stack.h on a heap of nodes: a pointer is 0 (nullptr) or 1 + the index of a cell,
    a deleted cell is None, dereferencing nullptr or a deleted cell is undefined. *)
From Verif Require Import Base.

(** Stack.h 49-58 *)
Record snode (A : Type) := SN { sprev : Z; sval : A }.
Arguments SN {A}. Arguments sprev {A}. Arguments sval {A}.
Definition heap (A : Type) := list (option (snode A)).
Definition deref {A} (h : heap A) (p : Z) : out (snode A) := match lget h (p - 1) with Some (Some n) => Val n | _ => UB end.
Definition store {A} (h : heap A) (p : Z) (n : snode A) : out (heap A) := let* _ := deref h p in wr h (p - 1) (Some n).
Definition free {A} (h : heap A) (p : Z) : out (heap A) := let* _ := deref h p in wr h (p - 1) None.
Definition alloc {A} (h : heap A) (n : snode A) : heap A * Z := (h ++ [Some n], zlen h + 1).
(** mTop, mCount (uint32) *)
Record stack := ST { stop : Z; scount : Z }.
(** Stack.h 71-75 *)
Definition stack_new : stack := ST 0 0.
(** Stack.h 88-91 *)
Definition has_elements (s : stack) : bool := negb (stop s =? 0).
(** Stack.h 97-105 *)
Definition pop {A} (h : heap A) (s : stack) : out (A * heap A * stack) :=
  let p := stop s in
  let* n := deref h p in
  let* h := free h p in
  Val (sval n, h, ST (sprev n) (u32 (scount s - 1))).
(** Stack.h 111-114 *)
Definition top {A} (h : heap A) (s : stack) : out A := let* n := deref h (stop s) in Val (sval n).
(** Stack.h 129-138 *)
Definition top2 {A} (h : heap A) (s : stack) : out A :=
  if stop s =? 0 then Exn else
  let* n := deref h (stop s) in
  if sprev n =? 0 then Exn else let* m := deref h (sprev n) in Val (sval m).
(** Stack.h 144-153 *)
Definition top3 {A} (h : heap A) (s : stack) : out A :=
  if stop s =? 0 then Exn else
  let* n := deref h (stop s) in
  if sprev n =? 0 then Exn else let* m := deref h (sprev n) in
  if sprev m =? 0 then Exn else let* k := deref h (sprev m) in Val (sval k).
(** Stack.h 159-166 *)
Definition push {A} (h : heap A) (s : stack) (x : A) : heap A * stack :=
  let (h, p) := alloc h (SN (stop s) x) in (h, ST p (u32 (scount s + 1))).
(** Stack.h 171-174 *)
Fixpoint clear {A} (h : heap A) (s : stack) (fuel : nat) : out (heap A * stack) :=
  match fuel with
  | O => Fuel
  | S fuel => if has_elements s then let* (_, h, s) := pop h s in clear h s fuel else Val (h, s)
  end.
(** Stack.h 188-205: mTop, push *)
Fixpoint reverse_loop {A} (h : heap A) (t push : Z) (fuel : nat) : out (heap A * Z) :=
  match fuel with
  | O => Fuel
  | S fuel =>
    if t =? 0 then Val (h, push) else
    let* n := deref h t in
    let* h := store h t (SN push (sval n)) in
    reverse_loop h (sprev n) t fuel
  end.
Definition reverse {A} (h : heap A) (s : stack) (fuel : nat) : out (heap A * stack) :=
  let* (h, t) := reverse_loop h (stop s) 0 fuel in Val (h, ST t (scount s)).
