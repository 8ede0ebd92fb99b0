(** M_Diff.v -- model of src/core/DiffDiag.cpp, DiffDistance.cpp, DiffBacktrace.cpp.
    Objects are numbers, [eq a b] is a->equals(b) (a pure function; pointers are not null). A diagonal is identified by its mOffset: the diagonals are created
    once each, mBelow/mAbove link offset 0 with 1 and -1, k with k+1 for k > 0, -k with -k-1 (DiffDiag.cpp 57-78), and the diagonals below 0 have u and v
    exchanged (73, and 61 passes on the exchanged vectors). The memory of all mElements is a function of the offset; a diagonal not created yet has the one
    element it will get from the constructor (46). The statistics counter calc and the printing are left out; int64 sums do not overflow (vectors are
    shorter than 2^62). *)
From Verif Require Import Base.

(** std::vector::at: throws *)
Definition at_ {A} (l : list A) (i : Z) : out A := match lget l i with Some x => Val x | None => Exn end.
Definition memo := Z -> list Z.
(** DiffDiag.cpp 37-48 *)
Definition memo0 : memo := fun k => [Z.abs k].
Definition push_elem (st : memo) (k x : Z) : memo := fun k' => if k' =? k then st k ++ [x] else st k'.
(** DiffDiag.cpp 57-65 *)
Definition above (k : Z) : Z := if k >=? 0 then k + 1 else k - 1.
(** DiffDiag.cpp 67-78 *)
Definition below (k : Z) : Z := if k >? 0 then k - 1 else if k =? 0 then -1 else k + 1.
Section Diff.
Context (eq : Z -> Z -> bool) (u v : list Z).
(** DiffDiag.cpp 142-150 *)
Definition objectU (k i : Z) : out Z := at_ (if k <? 0 then v else u) (i - 1).
Definition objectV (k i : Z) : out Z := at_ (if k <? 0 then u else v) (Z.abs k + i - 1).
(** DiffDiag.cpp 93-97 around the loop *)
Definition entry_with (loop : Z -> Z -> Z -> memo -> out (Z * memo)) (k j : Z) (st : memo) : out (Z * memo) :=
  if j <? zlen (st k) then let* x := at_ (st k) j in Val (x, st)
  else let* x := at_ (st k) (zlen (st k) - 1) in loop k j x st.
(** DiffDiag.cpp 80-83, 85-91 *)
Definition upper_with loop (k i : Z) (st : memo) := entry_with loop (above k) (i - 1) st.
Definition left_with loop (k i : Z) (st : memo) := entry_with loop (below k) (if k =? 0 then i - 1 else i) st.
(** DiffDiag.cpp 99-139: the while loop, x is the local variable *)
Fixpoint entry_loop (fuel : nat) (k j x : Z) (st : memo) : out (Z * memo) :=
  match fuel with
  | O => Fuel
  | S fuel =>
    if zlen (st k) <=? j then
      let lu := x in
      let i := zlen (st k) in
      let* o1 := objectU k i in
      let* o2 := objectV k i in
      let* (x, st) := (if eq o1 o2 then Val (lu, st)
                       else let* (l, st) := left_with (entry_loop fuel) k i st in
                            if l <? lu then Val (l + 1, st)
                            else let* (up, st) := upper_with (entry_loop fuel) k i st in Val ((if lu <? up then lu else up) + 1, st)) in
      entry_loop fuel k j x (push_elem st k x)
    else Val (x, st)
  end.
Definition entry (fuel : nat) := entry_with (entry_loop fuel).
Definition left_entry (fuel : nat) := left_with (entry_loop fuel).
(** DiffTypes.h *)
Inductive dop := DAdd | DDelete | DModified | DEqual | DStart.
(** mOperation, mObj1, mObj2 (None: nullptr) *)
Record dstep := DStep { d_op : dop; d_obj1 : option Z; d_obj2 : option Z }.
(** DiffBacktrace.cpp 93-144 *)
Definition bt_op (fuel : nat) (k i : Z) (st : memo) : out (dop * memo) :=
  if i =? 0 then Val (if k =? 0 then DStart else if k >? 0 then DAdd else DDelete, st)
  else
    let* o1 := objectU k i in let* o2 := objectV k i in
    if eq o1 o2 then Val (DEqual, st)
    else
      let* (me, st) := entry fuel k i st in
      let* (w, st) := left_entry fuel k i st in
      let* (nw, st) := entry fuel k (i - 1) st in
      Val (if me =? 1 + w then (if k >=? 0 then DAdd else DDelete)
           else if me =? 1 + nw then DModified
           else (if k >=? 0 then DDelete else DAdd), st).
(** DiffBacktrace.cpp 82-231. The steps are pushed on a stack and linked in the opposite order (218-228): the list from the returned step along mNext.
    [fuel] bounds both loops. *)
Fixpoint backtrace (fuel : nat) (k i : Z) (st : memo) (n : nat) : out (list dstep) :=
  match n with
  | O => Fuel
  | S n =>
    let* (op, st) := bt_op fuel k i st in
    match op with
    | DEqual => let* r := backtrace fuel k (i - 1) st n in Val (r ++ [DStep op None None])
    | DModified => let* a := objectU k i in let* b := objectV k i in
                   let* r := backtrace fuel k (i - 1) st n in Val (r ++ [DStep op (Some a) (Some b)])
    | DAdd => let* a := objectV k i in
              let* r := (if k =? 0 then backtrace fuel (below k) (i - 1) st n
                         else if k >=? 0 then backtrace fuel (below k) i st n
                         else backtrace fuel (above k) (i - 1) st n) in Val (r ++ [DStep op (Some a) None])
    | DDelete => let* a := objectV k i in
                 let* r := (if k =? 0 then backtrace fuel (above k) (i - 1) st n
                            else if k >=? 0 then backtrace fuel (above k) (i - 1) st n
                            else backtrace fuel (below k) i st n) in Val (r ++ [DStep op (Some a) None])
    | DStart => Val [DStep op None None]
    end
  end.
(** DiffDistance.cpp 78-124: mDistance and the returned trace. ~lba is -lba - 1; 122 casts to int *)
Definition solve (fuel : nat) : out (Z * list dstep) :=
  let rows := zlen u in
  let cols := zlen v in
  let lba := cols - rows in
  let k := if lba >=? 0 then Nat.iter (Z.to_nat lba) above 0 else Nat.iter (Z.to_nat (- lba - 1)) above (below 0) in
  let* (d, st) := entry fuel k (Z.min rows cols) memo0 in
  let* r := backtrace fuel k (s32 (Z.min rows cols)) st fuel in
  Val (d, r).
End Diff.
