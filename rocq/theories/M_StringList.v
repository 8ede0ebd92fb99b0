(** M_StringList.v -- model of src/core/StringList.cpp. *)
From Verif Require Import Base M_String M_Sort.

(** include/core/String.h: mData (a block of mLength strings) and mSize *)
Record slist := SL { sdata : list jstr; ssize : Z }.
(** new String[n]; a negative length throws *)
Definition new_strings (n : Z) : out (list jstr) := if n <? 0 then Exn else Val (repeat str_new (Z.to_nat n)).
(** "dst[i] = src[i]" for k elements from i (65-68, 189, 210-213) *)
Fixpoint copy_strings (dst src : list jstr) (i : Z) (k : nat) : out (list jstr) :=
  match k with
  | O => Val dst
  | S k => let* x := rd src i in let* y := rd dst i in let* z := assign y x in let* dst := wr dst i z in copy_strings dst src (i + 1) k
  end.
(** StringList.cpp 37-42, 44-49 *)
Definition sl_new : slist := SL (repeat str_new 8) 0.
Definition sl_sized (n : Z) : out slist := let* d := new_strings n in Val (SL d n).
(** StringList.cpp 60-69, and 201-217 for another list *)
Definition sl_copy (l : slist) : out slist :=
  let* d := new_strings (zlen (sdata l)) in let* d := copy_strings d (sdata l) 0 (Z.to_nat (ssize l)) in Val (SL d (ssize l)).
(** the loop 187, at most target - length iterations *)
Fixpoint grow8 (m target : Z) (k : nat) : Z :=
  match k with O => m | S k => if m <? target then grow8 (m + 8) target k else m end.
(** StringList.cpp 184-192; also reserve, 78-81. The bool says whether the block was replaced (the old one is deleted, 190) *)
Definition check_size (l : slist) (size : Z) : out (slist * bool) :=
  let* target := chk64 (ssize l + size) in
  if target <? zlen (sdata l) then Val (l, false) else
  let m := grow8 (zlen (sdata l)) target (Z.to_nat (target - zlen (sdata l))) in
  let* tmp := new_strings m in
  let* tmp := copy_strings tmp (sdata l) 0 (Z.to_nat (ssize l)) in
  Val (SL tmp (ssize l), true).
Definition sl_reserve (l : slist) (n : Z) : out slist := let* (l, _) := check_size l n in Val l.
(** StringList.cpp 83-87 *)
Definition sl_append (l : slist) (s : jstr) : out slist :=
  let* (l, _) := check_size l 1 in
  let* y := rd (sdata l) (ssize l) in
  let* z := assign y s in
  let* d := wr (sdata l) (ssize l) z in
  Val (SL d (ssize l + 1)).
(** append(list.get(i)): the argument is a reference into the block, which is dangling once the block was replaced *)
Definition sl_append_own (l : slist) (i : Z) : out slist :=
  if (i <? 0) || (i >=? ssize l) then Exn else
  let* (l', moved) := check_size l 1 in
  if moved then UB else let* s := rd (sdata l') i in sl_append l s.
(** 95-98 *)
Fixpoint shift_strings (d : list jstr) (i : Z) (k : nat) : out (list jstr) :=
  match k with
  | O => Val d
  | S k => let* x := rd d i in let* y := rd d (i - 1) in let* z := assign y x in let* d := wr d (i - 1) z in shift_strings d (i + 1) k
  end.
(** StringList.cpp 89-103; [arg] yields the argument: a fixed string, or the element a reference points to at that time *)
Fixpoint remove_loop (arg : list jstr -> out jstr) (d : list jstr) (n i : Z) (fuel : nat) : out slist :=
  match fuel with
  | O => Fuel
  | S fuel =>
    if i <? n then
      let* x := rd d i in
      let* s := arg d in
      let* b := equals x s in
      if b then let* d := shift_strings d (i + 1) (Z.to_nat (n - (i + 1))) in remove_loop arg d (n - 1) i fuel
      else remove_loop arg d n (i + 1) fuel
    else Val (SL d n)
  end.
Definition sl_remove (l : slist) (s : jstr) : out slist := remove_loop (fun _ => Val s) (sdata l) (ssize l) 0 (S (Z.to_nat (ssize l))).
(** remove(list.get(j)) *)
Definition sl_remove_own (l : slist) (j : Z) : out slist :=
  if (j <? 0) || (j >=? ssize l) then Exn else remove_loop (fun d => rd d j) (sdata l) (ssize l) 0 (S (Z.to_nat (ssize l))).
(** StringList.cpp 110-136: 123 and 126-128 *)
Definition str_gt (a b : jstr) : out bool := let* c := compare_to a b in Val (c >? 0).
Definition str_swap (a b : jstr) : out (jstr * jstr) := let* tmp := copy_ctor a in let* a' := assign a b in let* b' := assign b tmp in Val (a', b').
Definition sl_sort (l : slist) : out slist := let* d := sort str_gt str_swap (sdata l) (ssize l) in Val (SL d (ssize l)).
(** StringList.cpp 155-167, 169-172 *)
Definition sl_get (l : slist) (i : Z) : out jstr := if (i <? 0) || (i >=? ssize l) then Exn else rd (sdata l) i.
Definition sl_set (l : slist) (i : Z) (s : jstr) : out slist :=
  if (i <? 0) || (i >=? ssize l) then Exn else
  let* y := rd (sdata l) i in let* z := assign y s in let* d := wr (sdata l) i z in Val (SL d (ssize l)).
Definition sl_clear (l : slist) : slist := SL (sdata l) 0.
(** StringList.cpp 174-181 *)
Fixpoint contains_loop (d : list jstr) (s : jstr) (i : Z) (k : nat) : out bool :=
  match k with
  | O => Val false
  | S k => let* x := rd d i in let* b := equals x s in if b then Val true else contains_loop d s (i + 1) k
  end.
Definition sl_contains (l : slist) (s : jstr) : out bool := contains_loop (sdata l) s 0 (Z.to_nat (ssize l)).
(** StringList.cpp 138-153; the sum of the sizes does not overflow *)
Fixpoint sizes (d : list jstr) (i acc : Z) (k : nat) : out Z :=
  match k with O => Val acc | S k => let* x := rd d i in sizes d (i + 1) (acc + len x) k end.
Fixpoint join_loop (d : list jstr) (c : Z) (r : jstr) (i : Z) (k : nat) : out jstr :=
  match k with
  | O => Val r
  | S k => let* r := (if i >? 0 then append_char r c else Val r) in let* x := rd d i in let* r := append r x in join_loop d c r (i + 1) k
  end.
Definition sl_join (l : slist) (c : Z) : out jstr :=
  let* n := sizes (sdata l) 0 (ssize l - 1) (Z.to_nat (ssize l)) in
  let* r := check_capacity n str_new in
  join_loop (sdata l) c r 0 (Z.to_nat (ssize l)).
