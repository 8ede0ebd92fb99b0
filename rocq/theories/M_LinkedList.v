(** M_LinkedList.v -- model of src/core/LinkedList.cpp on the memory of M_Undo, so that the calls work with or without an undo manager
    (None is um == nullptr). The list is object 1 with the cells listStart, listEnd, count; the LListElement objects are 2, 3, ...,
    each with the cells next, prev, data; other objects are client data and are never looked into. A pointer is the object's number,
    0 is nullptr. Access to a member of nullptr or of a deleted element is undefined.
    Allocation: element objects are numbered in the order of allocation; the next one exists unlinked, with reference count 1, as its
    constructor (36-41) and Object's leave it. Addresses are not reused. The member current, which is never registered, is kept beside
    the memory. The owner pointer and the warning in the constructor are left out. *)
From Verif Require Import Base M_Undo.

Definition this : Z := 1.
Definition cstart : Z := 0.
Definition cend : Z := 1.
Definition ccount : Z := 2.
Definition cnext (e : Z) : Z := 3 * e - 3.
Definition cprev (e : Z) : Z := 3 * e - 2.
Definition cdata (e : Z) : Z := 3 * e - 1.
(** member access through a pointer *)
Definition getm (e l : Z) (w : world) : out Z := if (e =? 0) || (rc w e <=? 0) then UB else read_cell l w.
Definition putm (e l v : Z) (w : world) : out world := if (e =? 0) || (rc w e <=? 0) then UB else write_cell l v w.
(** UndoManager.cpp 288-291, 303-306 and registerChange(Object*, uint32* ), behind "if(um != nullptr)" *)
Definition reg_ref (o l : Z) (m : option um) (w : world) : out (option um * world) :=
  match m with None => Val (None, w) | Some u => let* (c, w) := new_ref o l w in let* (u, w) := register c u w in Val (Some u, w) end.
Definition reg_val (o l : Z) (m : option um) (w : world) : out (option um * world) :=
  match m with None => Val (None, w) | Some u => let* (c, w) := new_val o l w in let* (u, w) := register c u w in Val (Some u, w) end.
Definition reg_release (o : Z) (m : option um) (w : world) : out (option um * world) :=
  match m with None => Val (None, w) | Some u => let* (c, w) := new_rel o true w in let* (u, w) := register c u w in Val (Some u, w) end.
(** current, and the number of the next element to be allocated *)
Record llist := LL { lcur : Z; lfresh : Z }.

(** LinkedList.cpp 61-64 *)
Definition ll_has_next (s : llist) : bool := negb (lcur s =? 0).
(** LinkedList.cpp 66-71 *)
Definition ll_next_element (w : world) (s : llist) : out (Z * llist) :=
  let* n := getm (lcur s) (cnext (lcur s)) w in Val (lcur s, LL n (lfresh s)).
(** LinkedList.cpp 73-78 *)
Definition ll_next (w : world) (s : llist) : out (Z * llist) :=
  let* d := getm (lcur s) (cdata (lcur s)) w in
  let* n := getm (lcur s) (cnext (lcur s)) w in Val (d, LL n (lfresh s)).
(** LinkedList.cpp 80-90 *)
Definition ll_first (w : world) : out Z :=
  let* c := read_cell ccount w in if c =? 0 then Val 0 else let* p := read_cell cstart w in getm p (cdata p) w.
Definition ll_last (w : world) : out Z :=
  let* c := read_cell ccount w in if c =? 0 then Val 0 else let* p := read_cell cend w in getm p (cdata p) w.
(** LinkedList.cpp 92-95 *)
Definition ll_rewind (w : world) (s : llist) : out llist := let* p := read_cell cstart w in Val (LL p (lfresh s)).
(** LinkedList.cpp 269-272 *)
Definition ll_size (w : world) : out Z := read_cell ccount w.
(** LinkedList.cpp 127-153 *)
Definition ll_add_item (item : Z) (m : option um) (w : world) : out (option um * world) :=
  let* e := read_cell cend w in
  let* st := read_cell cstart w in
  let* (m, w) := reg_ref item (cprev item) m w in
  let* (m, w) := (if negb (e =? 0) then reg_ref e (cnext e) m w else Val (m, w)) in
  let* (m, w) := (if st =? 0 then reg_ref this cstart m w else Val (m, w)) in
  let* (m, w) := reg_ref this cend m w in
  let* (m, w) := reg_val this ccount m w in
  let* w := putm item (cprev item) e w in
  let* w := (if negb (e =? 0) then let* w := putm e (cnext e) item w in putm item (cprev item) e w else Val w) in
  let* w := write_cell cend item w in
  let* w := (if st =? 0 then write_cell cstart item w else Val w) in
  let* c := read_cell ccount w in
  let* w := write_cell ccount (u32 (c + 1)) w in
  Val (m, w).
(** LinkedList.cpp 119-125 *)
Definition ll_add (data : Z) (m : option um) (w : world) (s : llist) : out (option um * world * llist) :=
  let item := lfresh s in
  let* (m, w) := reg_ref item (cdata item) m w in
  let* w := putm item (cdata item) data w in
  let* (m, w) := ll_add_item item m w in
  Val (m, w, LL (lcur s) (lfresh s + 1)).
(** LinkedList.cpp 160-168, 257-265: the first element with this data (or nullptr), and current afterwards *)
Fixpoint ll_find (x : Z) (w : world) (s : llist) (fuel : nat) : out (Z * llist) :=
  match fuel with
  | O => Fuel
  | S fuel =>
    if ll_has_next s then
      let* (e, s) := ll_next_element w s in
      let* d := getm e (cdata e) w in
      if d =? x then Val (e, s) else ll_find x w s fuel
    else Val (0, s)
  end.
(** LinkedList.cpp 180-210 *)
Definition ll_add_before_item (before item : Z) (m : option um) (w : world) : out (option um * world) :=
  let* after := getm before (cprev before) w in
  let* st := read_cell cstart w in
  let* (m, w) := reg_ref item (cprev item) m w in
  let* (m, w) := reg_ref item (cnext item) m w in
  let* (m, w) := (if st =? before then reg_ref this cstart m w else Val (m, w)) in
  let* (m, w) := reg_ref before (cprev before) m w in
  let* (m, w) := (if negb (after =? 0) then reg_ref before (cnext after) m w else Val (m, w)) in
  let* (m, w) := reg_val this ccount m w in
  let* w := (if st =? before then write_cell cstart item w else Val w) in
  let* w := putm item (cprev item) after w in
  let* w := putm item (cnext item) before w in
  let* w := (if negb (after =? 0) then putm after (cnext after) item w else Val w) in
  let* w := putm before (cprev before) item w in
  let* c := read_cell ccount w in
  let* w := write_cell ccount (u32 (c + 1)) w in
  Val (m, w).
(** LinkedList.cpp 155-178 *)
Definition ll_add_before (x data : Z) (m : option um) (w : world) (s : llist) (fuel : nat) : out (option um * world * llist) :=
  let* s := ll_rewind w s in
  let* (before, s) := ll_find x w s fuel in
  if negb (before =? 0) then
    let item := lfresh s in
    let* (m, w) := reg_ref item (cdata item) m w in
    let* w := putm item (cdata item) data w in
    let* (m, w) := ll_add_before_item before item m w in
    Val (m, w, LL (lcur s) (lfresh s + 1))
  else Val (m, w, s).
(** LinkedList.cpp 213-251 *)
Definition ll_remove_item (e : Z) (m : option um) (w : world) : out (option um * world) :=
  let* p := getm e (cprev e) w in
  let* n := getm e (cnext e) w in
  let* st := read_cell cstart w in
  let* en := read_cell cend w in
  let* (m, w) := (if negb (p =? 0) then reg_ref p (cnext p) m w else Val (m, w)) in
  let* (m, w) := (if negb (n =? 0) then reg_ref n (cprev n) m w else Val (m, w)) in
  let* (m, w) := (if st =? e then reg_ref this cstart m w else Val (m, w)) in
  let* (m, w) := (if en =? e then reg_ref this cend m w else Val (m, w)) in
  let* (m, w) := reg_ref e (cprev e) m w in
  let* (m, w) := reg_ref e (cnext e) m w in
  let* (m, w) := reg_val this ccount m w in
  let* (m, w) := reg_release e m w in
  let* w := (if negb (p =? 0) then putm p (cnext p) n w else Val w) in
  let* w := (if negb (n =? 0) then putm n (cprev n) p w else Val w) in
  let* w := (if st =? e then let* q := getm st (cnext st) w in if negb (q =? 0) then write_cell cstart q w else write_cell cstart 0 w else Val w) in
  let* w := (if en =? e then let* q := getm en (cprev en) w in if negb (q =? 0) then write_cell cend q w else write_cell cend 0 w else Val w) in
  let* w := putm e (cprev e) 0 w in
  let* w := putm e (cnext e) 0 w in
  let* w := release e w in
  let* c := read_cell ccount w in
  let* w := write_cell ccount (u32 (c - 1)) w in
  Val (m, w).
(** LinkedList.cpp 254-267: true is eOK, false eNotFound *)
Definition ll_remove (x : Z) (m : option um) (w : world) (s : llist) (fuel : nat) : out (bool * option um * world * llist) :=
  let* s := ll_rewind w s in
  let* (e, s) := ll_find x w s fuel in
  if negb (e =? 0) then let* (m, w) := ll_remove_item e m w in Val (true, m, w, s) else Val (false, m, w, s).
(** LinkedList.cpp 101-105 *)
Fixpoint ll_clear_um (m : option um) (w : world) (fuel : nat) : out (option um * world) :=
  match fuel with
  | O => Fuel
  | S fuel =>
    let* st := read_cell cstart w in
    if negb (st =? 0) then let* (m, w) := ll_remove_item st m w in ll_clear_um m w fuel else Val (m, w)
  end.
(** LinkedList.cpp 110 *)
Fixpoint ll_release_all (w : world) (s : llist) (fuel : nat) : out (world * llist) :=
  match fuel with
  | O => Fuel
  | S fuel => if ll_has_next s then let* (e, s) := ll_next_element w s in let* w := release e w in ll_release_all w s fuel else Val (w, s)
  end.
(** LinkedList.cpp 97-117; the destructor (56-59) is clear(nullptr) *)
Definition ll_clear (m : option um) (w : world) (s : llist) (fuel : nat) : out (option um * world * llist) :=
  let* (m, w) := (match m with
                  | Some _ => ll_clear_um m w fuel
                  | None => let* s := ll_rewind w s in let* (w, _) := ll_release_all w s fuel in Val (None, w)
                  end) in
  let* w := write_cell cstart 0 w in
  let* w := write_cell cend 0 w in
  let* w := write_cell ccount 0 w in
  Val (m, w, LL 0 (lfresh s)).
(** LinkedList.cpp 280-286: elem1, elem2 *)
Fixpoint ll_find2 (x y e1 e2 : Z) (w : world) (s : llist) (fuel : nat) : out (Z * Z * llist) :=
  match fuel with
  | O => Fuel
  | S fuel =>
    if ll_has_next s then
      let* (e, s) := ll_next_element w s in
      let* d := getm e (cdata e) w in
      let e1 := if d =? x then e else e1 in
      let e2 := if d =? y then e else e2 in
      if negb (e1 =? 0) && negb (e2 =? 0) then Val (e1, e2, s) else ll_find2 x y e1 e2 w s fuel
    else Val (e1, e2, s)
  end.
(** LinkedList.cpp 274-298: without an undo manager nothing is swapped *)
Definition ll_swap_data (x y : Z) (m : option um) (w : world) (s : llist) (fuel : nat) : out (option um * world * llist) :=
  let* s := ll_rewind w s in
  let* (e1, e2, s) := ll_find2 x y 0 0 w s fuel in
  if negb (e1 =? 0) && negb (e2 =? 0) then
    match m with
    | None => Val (m, w, s)
    | Some _ =>
      let* (m, w) := reg_ref e1 (cdata e1) m w in
      let* (m, w) := reg_ref e2 (cdata e2) m w in
      let* w := putm e1 (cdata e1) y w in
      let* w := putm e2 (cdata e2) x w in
      Val (m, w, s)
    end
  else Val (m, w, s).
(** LinkedListIterator, LinkedList.cpp 305-347: the member current *)
Definition lit_new (w : world) : out Z := read_cell cstart w.
Definition lit_has_next (p : Z) : bool := negb (p =? 0).
Definition lit_next (w : world) (p : Z) : out (Z * Z) :=
  if p =? 0 then Val (0, p) else let* d := getm p (cdata p) w in let* n := getm p (cnext p) w in Val (d, n).
Definition lit_seek (w : world) (p : Z) : out Z := if negb (p =? 0) then getm p (cdata p) w else Val 0.
