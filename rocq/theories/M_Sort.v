(** M_Sort.v -- the bubble sort that appears (with the same control flow) in include/core/Array.h 86-113, 209-236, 341-367,
    src/core/ByteArray.cpp 148-174 and src/core/StringList.cpp 110-136. It is written once, over the comparison
    [gt] ("a1 > a2") and the exchange [swp] of two elements; each container instantiates both.
    Counters are int64 or uint32 and stay below the number of elements, so they do not wrap; in the uint32 versions n - 1 is
    computed for n >= 1 only. *)
From Verif Require Import Base.

(** the for loop (StringList.cpp 118-132), k iterations from i; returns the array and newn *)
Fixpoint bubble_pass {A} (gt : A -> A -> out bool) (swp : A -> A -> out (A * A)) (l : list A) (i newn : Z) (k : nat) : out (list A * Z) :=
  match k with
  | O => Val (l, newn)
  | S k =>
    let* a1 := rd l i in
    let* a2 := rd l (i + 1) in
    let* g := gt a1 a2 in
    if g then
      let* (b1, b2) := swp a1 a2 in
      let* l := wr l i b1 in
      let* l := wr l (i + 1) b2 in
      bubble_pass gt swp l (i + 1) (i + 1) k
    else bubble_pass gt swp l (i + 1) newn k
  end.
(** the do loop (StringList.cpp 115-135); newn starts at 1 *)
Fixpoint bubble {A} (gt : A -> A -> out bool) (swp : A -> A -> out (A * A)) (l : list A) (n : Z) (fuel : nat) : out (list A) :=
  match fuel with
  | O => Fuel
  | S fuel =>
    let* (l, newn) := bubble_pass gt swp l 0 1 (Z.to_nat (n - 1)) in
    if newn >? 1 then bubble gt swp l newn fuel else Val l
  end.
(** StringList.cpp 112-114: [size] elements of the block are sorted *)
Definition sort {A} (gt : A -> A -> out bool) (swp : A -> A -> out (A * A)) (l : list A) (size : Z) : out (list A) :=
  if size <? 1 then Val l else bubble gt swp l size (Z.to_nat size).
