(** S_LinkedList.v -- a linked list as a client sees it: a sequence with a reading position; with an undo manager, a history of sequences. *)
From Verif Require Import Base M_Undo M_LinkedList.
(** first index of x *)
Fixpoint index_of (x : Z) (l : list Z) : option nat :=
  match l with [] => None | y :: l => if y =? x then Some O else match index_of x l with Some i => Some (S i) | None => None end end.
Definition last_index_of (x : Z) (l : list Z) : option nat := match index_of x (rev l) with Some i => Some (length l - 1 - i)%nat | None => None end.
Definition insert_at (i : nat) (y : Z) (l : list Z) : list Z := firstn i l ++ y :: skipn i l.
Definition remove_at (i : nat) (l : list Z) : list Z := firstn i l ++ skipn (S i) l.
Definition set_at (i : nat) (y : Z) (l : list Z) : list Z := firstn i l ++ y :: skipn (S i) l.
(** the shortest beginning of the list that holds both x and y *)
Definition reach (x y : Z) (l : list Z) : option nat := match index_of x l, index_of y l with Some i, Some j => Some (S (Nat.max i j)) | _, _ => None end.
(** position k, or None at the end *)
Definition at_pos (k : nat) (l : list Z) : option nat := if (k <? length l)%nat then Some k else None.

(** * without undo manager *)
Inductive lop := LAdd (x : Z) | LAddBefore (x y : Z) | LRemove (x : Z) | LSwap (x y : Z) | LClear | LRewind | LHasNext | LNext | LFirst | LLast | LSize.
Inductive lans := LUnit | LBool (b : bool) | LObj (x : Z) | LNum (n : Z) | LAll (l : list Z).
(** None: no defined meaning (next at the end) *)
Definition lstep (o : lop) (l : list Z) (c : option nat) : option (lans * list Z * option nat) :=
  match o with
  | LAdd x => Some (LUnit, l ++ [x], c)
  | LAddBefore x y => match index_of x l with
                      | Some i => let l := insert_at i y l in Some (LUnit, l, at_pos (i + 2) l)
                      | None => Some (LUnit, l, None)
                      end
  | LRemove x => match index_of x l with
                 | Some i => let l := remove_at i l in Some (LBool true, l, at_pos i l)
                 | None => Some (LBool false, l, None)
                 end
  | LSwap x y => Some (LUnit, l, match reach x y l with Some k => at_pos k l | None => None end)
  | LClear => Some (LUnit, [], None)
  | LRewind => Some (LUnit, l, at_pos 0 l)
  | LHasNext => Some (LBool (match c with Some _ => true | None => false end), l, c)
  | LNext => match c with Some k => Some (LObj (nth k l 0), l, at_pos (k + 1) l) | None => None end
  | LFirst => Some (LObj (hd 0 l), l, c)
  | LLast => Some (LObj (last l 0), l, c)
  | LSize => Some (LNum (zlen l), l, c)
  end.
Fixpoint lsteps (os : list lop) (l : list Z) (c : option nat) : option (list lans * list Z * option nat) :=
  match os with
  | [] => Some ([], l, c)
  | o :: os => match lstep o l c with
               | Some (a, l, c) => match lsteps os l c with Some (r, l, c) => Some (a :: r, l, c) | None => None end
               | None => None
               end
  end.
Definition lexec (o : lop) (fuel : nat) (w : world) (s : llist) : out (lans * world * llist) :=
  match o with
  | LAdd x => let* (_, w, s) := ll_add x None w s in Val (LUnit, w, s)
  | LAddBefore x y => let* (_, w, s) := ll_add_before x y None w s fuel in Val (LUnit, w, s)
  | LRemove x => let* (b, _, w, s) := ll_remove x None w s fuel in Val (LBool b, w, s)
  | LSwap x y => let* (_, w, s) := ll_swap_data x y None w s fuel in Val (LUnit, w, s)
  | LClear => let* (_, w, s) := ll_clear None w s fuel in Val (LUnit, w, s)
  | LRewind => let* s := ll_rewind w s in Val (LUnit, w, s)
  | LHasNext => Val (LBool (ll_has_next s), w, s)
  | LNext => let* (x, s) := ll_next w s in Val (LObj x, w, s)
  | LFirst => let* x := ll_first w in Val (LObj x, w, s)
  | LLast => let* x := ll_last w in Val (LObj x, w, s)
  | LSize => let* n := ll_size w in Val (LNum n, w, s)
  end.
Fixpoint lexec_all (os : list lop) (fuel : nat) (w : world) (s : llist) : out (list lans * world * llist) :=
  match os with
  | [] => Val ([], w, s)
  | o :: os => let* (a, w, s) := lexec o fuel w s in let* (r, w, s) := lexec_all os fuel w s in Val (a :: r, w, s)
  end.
(** the list at the start: empty, with memory for N elements; nothing else is in the cells *)
Definition fresh_world (N : nat) (w : world) : Prop :=
  cells w = repeat 0 (3 * N + 3) /\ 1 <= rc w this /\ (forall e, 2 <= e < Z.of_nat N + 2 -> rc w e = 1) /\ forall o, 0 <= rc w o.
Definition ll_new : llist := LL 0 2.
(** client objects: nullptr or none of the list's own objects, and alive *)
Definition client (N : nat) (w : world) (x : Z) : Prop := x = 0 \/ ~ (1 <= x < Z.of_nat N + 2) /\ 1 <= rc w x.

(** walking the whole list forwards, and backwards from the end *)
Fixpoint walk_next (p : Z) (w : world) (fuel : nat) : out (list Z) :=
  match fuel with O => Fuel | S fuel => if p =? 0 then Val [] else let* d := getm p (cdata p) w in let* n := getm p (cnext p) w in let* r := walk_next n w fuel in Val (d :: r) end.
Fixpoint walk_prev (p : Z) (w : world) (fuel : nat) : out (list Z) :=
  match fuel with O => Fuel | S fuel => if p =? 0 then Val [] else let* d := getm p (cdata p) w in let* n := getm p (cprev p) w in let* r := walk_prev n w fuel in Val (d :: r) end.
(** the memory holds exactly this sequence, forwards and backwards *)
Definition shows (w : world) (l : list Z) : Prop :=
  exists a b, read_cell cstart w = Val a /\ read_cell cend w = Val b /\ read_cell ccount w = Val (zlen l mod 2 ^ 32) /\
  forall fuel, (length l < fuel)%nat -> walk_next a w fuel = Val l /\ walk_prev b w fuel = Val (rev l).

(** * with an undo manager *)
Inductive uop := UAdd (x : Z) | UAddBefore (x y : Z) | URemove (x : Z) | USwap (x y : Z) | UClear | UContents | UFirst | ULast | USize | UClose | UUndo | URedo | UForget.
(** sequences to go back to, the present one, sequences to go forward to, the sequence at which the open step began *)
Record ldoc := LDoc { lpast : list (list Z); lnow : list Z; lfuture : list (list Z); lbase : option (list Z) }.
Definition ledit (l : list Z) (d : ldoc) : ldoc := LDoc (lpast d) l [] (Some (match lbase d with Some b => b | None => lnow d end)).
Definition ustep (o : uop) (d : ldoc) : lans * ldoc :=
  let l := lnow d in
  match o with
  | UAdd x => (LUnit, ledit (l ++ [x]) d)
  | UAddBefore x y => (LUnit, match index_of x l with Some i => ledit (insert_at i y l) d | None => d end)
  | URemove x => match index_of x l with Some i => (LBool true, ledit (remove_at i l) d) | None => (LBool false, d) end
  | USwap x y =>
    (LUnit, match reach x y l with
            | Some k => match last_index_of x (firstn k l), last_index_of y (firstn k l) with
                        | Some i, Some j => ledit (set_at j x (set_at i y l)) d
                        | _, _ => d
                        end
            | None => d
            end)
  | UClear => (LUnit, match l with [] => d | _ => ledit [] d end)
  | UContents => (LAll l, d)
  | UFirst => (LObj (hd 0 l), d)
  | ULast => (LObj (last l 0), d)
  | USize => (LNum (zlen l mod 2 ^ 32), d)
  | UClose => (LUnit, match lbase d with Some b => LDoc (b :: lpast d) l (lfuture d) None | None => d end)
  | UUndo => match lbase d, lpast d with None, p :: r => (LBool true, LDoc r p (l :: lfuture d) None) | _, _ => (LBool false, d) end
  | URedo => match lbase d, lfuture d with None, f :: r => (LBool true, LDoc (l :: lpast d) f r None) | _, _ => (LBool false, d) end
  | UForget => (LUnit, LDoc [] l [] None)
  end.
(** at most this many changes are registered *)
Definition ucost (o : uop) (l : list Z) : Z := match o with UClear => 8 * zlen l + 1 | _ => 8 end.
Fixpoint usteps (os : list uop) (d : ldoc) : list lans * ldoc :=
  match os with [] => ([], d) | o :: os => let (a, d) := ustep o d in let (r, d) := usteps os d in (a :: r, d) end.
Fixpoint ucosts (os : list uop) (d : ldoc) : Z :=
  match os with [] => 0 | o :: os => ucost o (lnow d) + ucosts os (snd (ustep o d)) end.
(** the code *)
Definition um_of (m : option um) : um := match m with Some u => u | None => new_um end.
Definition uexec (o : uop) (fuel : nat) (m : um) (w : world) (s : llist) : out (lans * um * world * llist) :=
  match o with
  | UAdd x => let* (m, w, s) := ll_add x (Some m) w s in Val (LUnit, um_of m, w, s)
  | UAddBefore x y => let* (m, w, s) := ll_add_before x y (Some m) w s fuel in Val (LUnit, um_of m, w, s)
  | URemove x => let* (b, m, w, s) := ll_remove x (Some m) w s fuel in Val (LBool b, um_of m, w, s)
  | USwap x y => let* (m, w, s) := ll_swap_data x y (Some m) w s fuel in Val (LUnit, um_of m, w, s)
  | UClear => let* (m, w, s) := ll_clear (Some m) w s fuel in Val (LUnit, um_of m, w, s)
  | UContents => let* p := read_cell cstart w in let* l := walk_next p w fuel in Val (LAll l, m, w, s)
  | UFirst => let* x := ll_first w in Val (LObj x, m, w, s)
  | ULast => let* x := ll_last w in Val (LObj x, m, w, s)
  | USize => let* n := ll_size w in Val (LNum n, m, w, s)
  | UClose => Val (LUnit, close m, w, s)
  | UUndo => let* (b, m, w) := undo m w in Val (LBool b, m, w, s)
  | URedo => let* (b, m, w) := redo m w in Val (LBool b, m, w, s)
  | UForget => let* (m, w) := clear_stacks m w in Val (LUnit, m, w, s)
  end.
Fixpoint uexec_all (os : list uop) (fuel : nat) (m : um) (w : world) (s : llist) : out (list lans * um * world * llist) :=
  match os with
  | [] => Val ([], m, w, s)
  | o :: os => let* (a, m, w, s) := uexec o fuel m w s in let* (r, m, w, s) := uexec_all os fuel m w s in Val (a :: r, m, w, s)
  end.
Definition lop_objs (o : lop) : list Z := match o with LAdd x => [x] | LAddBefore _ y => [y] | _ => [] end.
Definition uop_objs (o : uop) : list Z := match o with UAdd x => [x] | UAddBefore _ y => [y] | _ => [] end.
(** reading everything with a LinkedListIterator, then asking once more *)
Fixpoint it_all (p : Z) (w : world) (fuel : nat) : out (list Z * Z) :=
  match fuel with
  | O => Fuel
  | S fuel =>
    if lit_has_next p then let* d := lit_seek w p in let* (x, p) := lit_next w p in let* (r, q) := it_all p w fuel in if d =? x then Val (x :: r, q) else Exn
    else let* (x, _) := lit_next w p in Val ([], x)
  end.
