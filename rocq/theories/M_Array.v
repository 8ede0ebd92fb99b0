(** M_Array.v -- model of include/core/Array.h. The blocks made by new T[n] live in a memory (None: deleted); an array object
    holds the block's address (1 + index) and its size. [dflt] is the value of a default constructed T. Running out of memory
    is not modelled. *)
From Verif Require Import Base M_Sort.
From Coq Require Import Floats.SpecFloat.

Definition mem (A : Type) := list (option (list A)).
Record arr := AO { aptr : Z; asize : Z }.
Definition block {A} (m : mem A) (p : Z) : out (list A) := match lget m (p - 1) with Some (Some b) => Val b | _ => UB end.
(** new T[n]: a negative n throws std::bad_array_new_length *)
Definition new_block {A} (dflt : A) (m : mem A) (n : Z) : out (mem A * Z) := if n <? 0 then Exn else Val (m ++ [Some (repeat dflt (Z.to_nat n))], zlen m + 1).
(** delete[] *)
Definition del_block {A} (m : mem A) (p : Z) : out (mem A) := let* _ := block m p in wr m (p - 1) None.
Definition put_block {A} (m : mem A) (p : Z) (b : list A) : out (mem A) := let* _ := block m p in wr m (p - 1) (Some b).
(** Array.h 58-63 *)
Definition arr_new {A} (dflt : A) (m : mem A) (n : Z) : out (mem A * arr) := let* (m, p) := new_block dflt m n in Val (m, AO p n).
(** Array.h 69-72, 144-147: mData[a] = other.mData[a] *)
Fixpoint copy_loop {A} (dst src : list A) (a : Z) (k : nat) : out (list A) :=
  match k with O => Val dst | S k => let* x := rd src a in let* dst := wr dst a x in copy_loop dst src (a + 1) k end.
(** Array.h 65-73 *)
Definition arr_copy {A} (dflt : A) (m : mem A) (o : arr) : out (mem A * arr) :=
  let* (m, p) := new_block dflt m (asize o) in
  let* dst := block m p in
  let* src := block m (aptr o) in
  let* dst := copy_loop dst src 0 (Z.to_nat (asize o)) in
  let* m := put_block m p dst in Val (m, AO p (asize o)).
(** Array.h 136-151, for two different objects *)
Definition arr_assign {A} (dflt : A) (m : mem A) (this o : arr) : out (mem A * arr) :=
  let* m := del_block m (aptr this) in arr_copy dflt m o.
(** Array.h 75-79 *)
Definition arr_destroy {A} (m : mem A) (o : arr) : out (mem A) := del_block m (aptr o).
(** Array.h 115-120, 129-134 *)
Definition arr_get {A} (m : mem A) (o : arr) (i : Z) : out A :=
  if (i <? 0) || (i >=? asize o) then Exn else let* b := block m (aptr o) in rd b i.
(** Array.h 122-127 *)
Definition arr_set {A} (m : mem A) (o : arr) (i : Z) (x : A) : out (mem A) :=
  if (i <? 0) || (i >=? asize o) then Exn else let* b := block m (aptr o) in let* b := wr b i x in put_block m (aptr o) b.
(** Array.h 86-113; [gt a b] is a.compareTo(b) > 0, [comparable] tells whether T derives from Comparable<T> *)
Definition arr_sort {A} (comparable : bool) (gt : A -> A -> bool) (m : mem A) (o : arr) : out (mem A) :=
  if asize o <? 1 then Val m else
  if negb comparable then Val m else
  let* b := block m (aptr o) in
  let* b := sort (fun x y => Val (gt x y)) (fun x y => Val (y, x)) b (asize o) in
  put_block m (aptr o) b.
(** Array.h 209-236: the elements of an Array<T*>, None is nullptr; compareTo through or with nullptr is undefined *)
Definition ptr_sort {A} (gt : A -> A -> bool) (b : list (option A)) : out (list (option A)) :=
  if zlen b <? 1 then Val b else
  let* f := rd b 0 in
  match f with
  | None => Val b
  | Some _ => sort (fun x y => match x, y with Some x, Some y => Val (gt x y) | _, _ => UB end) (fun x y => Val (y, x)) b (zlen b)
  end.
(** Array.h 238-257: index is uint32 *)
Definition ptr_get {A} (b : list (option A)) (i : Z) : out (option A) := if u32 i >=? zlen b then Exn else rd b (u32 i).
Definition ptr_set {A} (b : list (option A)) (i : Z) (x : option A) : out (list (option A)) := if u32 i >=? zlen b then Exn else wr b (u32 i) x.
(** Array.h 341-367: a1 > a2 on floats *)
Definition float_gt (x y : spec_float) : bool := SFltb y x.
Definition float_sort (b : list spec_float) : out (list spec_float) := sort (fun x y => Val (float_gt x y)) (fun x y => Val (y, x)) b (zlen b).
(** Array.h 369-388: not checked *)
Definition float_get (b : list spec_float) (i : Z) : out spec_float := rd b (u32 i).
Definition float_set (b : list spec_float) (i : Z) (x : spec_float) : out (list spec_float) := wr b (u32 i) x.

(** a program's array variables *)
Record aworld (A : Type) := AW { wmem : mem A; wobj : list (option arr) }.
Arguments AW {A}. Arguments wmem {A}. Arguments wobj {A}.
