(** M_Hashtable.v -- model of src/core/Hashtable.cpp on a heap of entries: a pointer is 0 (nullptr) or 1 + the index of a cell,
    a deleted cell is None, using nullptr or a deleted cell is undefined. Keys are the model's strings (M_String), with their
    cached hash; a void* value is a number, 0 being nullptr. mArrLength is the length of the pointer array. Running out of
    memory is not modelled. *)
From Verif Require Import Base M_String.

(** Hashtable.h 143-158 *)
Record hnode := HN { nhash : Z; nkey : jstr; nval : Z; nnext : Z }.
Definition hheap := list (option hnode).
Definition hderef (h : hheap) (p : Z) : out hnode := match lget h (p - 1) with Some (Some n) => Val n | _ => UB end.
Definition hstore (h : hheap) (p : Z) (n : hnode) : out hheap := let* _ := hderef h p in wr h (p - 1) (Some n).
Definition hfree (h : hheap) (p : Z) : out hheap := let* _ := hderef h p in wr h (p - 1) None.
Record htab := HT { hdata : list Z; hcount : Z; hthreshold : Z }.
(** Hashtable.cpp 36-47: int64(7 * 0.75f) = 5 *)
Definition ht_new : htab := HT (repeat 0 7) 0 5.
(** Hashtable.cpp 61, 76, 95, 115, 190 *)
Definition hindex (hash n : Z) : Z := Z.land hash 2147483647 mod n.
(** Hashtable.cpp 62-70, 96-102: the entry with this hash and key, or nullptr *)
Fixpoint find_loop (h : hheap) (p hash : Z) (key : jstr) (fuel : nat) : out Z :=
  match fuel with
  | O => Fuel
  | S fuel =>
    if p =? 0 then Val 0 else
    let* e := hderef h p in
    let* eq := (if nhash e =? hash then equals (nkey e) key else Val false) in
    if eq then Val p else find_loop h (nnext e) hash key fuel
  end.
(** Hashtable.cpp 186-195: move one chain to the new array *)
Fixpoint move_loop (h : hheap) (nd : list Z) (p : Z) (fuel : nat) : out (hheap * list Z) :=
  match fuel with
  | O => Fuel
  | S fuel =>
    if p =? 0 then Val (h, nd) else
    let* e := hderef h p in
    let i := hindex (nhash e) (zlen nd) in
    let* q := rd nd i in
    let* h := hstore h p (HN (nhash e) (nkey e) (nval e) q) in
    let* nd := wr nd i p in
    move_loop h nd (nnext e) fuel
  end.
(** Hashtable.cpp 182-196 *)
Fixpoint move_all (h : hheap) (nd od : list Z) (fuel : nat) : out (hheap * list Z) :=
  match od with [] => Val (h, nd) | p :: od => let* (h, nd) := move_loop h nd p fuel in move_all h nd od fuel end.
(** Hashtable.cpp 168-199: ceil(newLength * 0.75), exact in a double below 2^53 *)
Definition rehash (h : hheap) (t : htab) (fuel : nat) : out (hheap * htab) :=
  let* n := chk64 (zlen (hdata t) * 2 + 1) in
  let* (h, nd) := move_all h (repeat 0 (Z.to_nat n)) (hdata t) fuel in
  Val (h, HT nd (hcount t) ((3 * n + 3) / 4)).
(** Hashtable.cpp 57-89. The key is passed by value; the new entry's key is an empty string that is assigned. *)
Definition ht_put (h : hheap) (t : htab) (key : jstr) (value : Z) (fuel : nat) : out (Z * hheap * htab) :=
  let* key := copy_ctor key in
  let* (hash, key) := hash_code key in
  let* p := rd (hdata t) (hindex hash (zlen (hdata t))) in
  let* f := find_loop h p hash key fuel in
  if negb (f =? 0) then
    let* e := hderef h f in
    let* h := hstore h f (HN (nhash e) (nkey e) value (nnext e)) in Val (nval e, h, t)
  else
    let* (h, t) := (if hcount t >=? hthreshold t then rehash h t fuel else Val (h, t)) in
    let i := hindex hash (zlen (hdata t)) in
    let* e := rd (hdata t) i in
    let* k := assign (str_of []) key in
    let h := h ++ [Some (HN hash k value e)] in
    let* d := wr (hdata t) i (zlen h) in
    Val (0, h, HT d (hcount t + 1) (hthreshold t)).
(** Hashtable.cpp 91-105 *)
Definition ht_get (h : hheap) (t : htab) (key : jstr) (fuel : nat) : out Z :=
  let* hash := const_hash_code key in
  let* p := rd (hdata t) (hindex hash (zlen (hdata t))) in
  let* f := find_loop h p hash key fuel in
  if f =? 0 then Val 0 else let* e := hderef h f in Val (nval e).
(** Hashtable.cpp 107-110 *)
Definition ht_contains (h : hheap) (t : htab) (key : jstr) (fuel : nat) : out bool := let* v := ht_get h t key fuel in Val (negb (v =? 0)).
(** Hashtable.cpp 117-141: prev and e; the result tells whether an entry was found, with its value *)
Fixpoint remove_loop (h : hheap) (d : list Z) (i prev p hash : Z) (key : jstr) (fuel : nat) : out (option Z * hheap * list Z) :=
  match fuel with
  | O => Fuel
  | S fuel =>
    if p =? 0 then Val (None, h, d) else
    let* e := hderef h p in
    let* eq := (if nhash e =? hash then equals (nkey e) key else Val false) in
    if eq then
      let* (h, d) := (if negb (prev =? 0)
                      then let* pe := hderef h prev in let* h := hstore h prev (HN (nhash pe) (nkey pe) (nval pe) (nnext e)) in Val (h, d)
                      else let* d := wr d i (nnext e) in Val (h, d)) in
      let* h := hfree h p in Val (Some (nval e), h, d)
    else remove_loop h d i p (nnext e) hash key fuel
  end.
(** Hashtable.cpp 112-145 *)
Definition ht_remove (h : hheap) (t : htab) (key : jstr) (fuel : nat) : out (Z * hheap * htab) :=
  let* hash := const_hash_code key in
  let i := hindex hash (zlen (hdata t)) in
  let* p := rd (hdata t) i in
  let* (r, h, d) := remove_loop h (hdata t) i 0 p hash key fuel in
  match r with Some v => Val (v, h, HT d (hcount t - 1) (hthreshold t)) | None => Val (0, h, HT d (hcount t) (hthreshold t)) end.
(** Hashtable.cpp 152-157 *)
Fixpoint free_chain (h : hheap) (p : Z) (fuel : nat) : out hheap :=
  match fuel with
  | O => Fuel
  | S fuel => if p =? 0 then Val h else let* e := hderef h p in let* h := hfree h p in free_chain h (nnext e) fuel
  end.
Fixpoint free_all (h : hheap) (d : list Z) (fuel : nat) : out hheap :=
  match d with [] => Val h | p :: d => let* h := free_chain h p fuel in free_all h d fuel end.
(** Hashtable.cpp 147-161 *)
Definition ht_clear (h : hheap) (t : htab) (fuel : nat) : out (hheap * htab) :=
  let* h := free_all h (hdata t) fuel in Val (h, HT (repeat 0 (length (hdata t))) 0 (hthreshold t)).
(** Hashtable.cpp 216-222: entry and index (last is never used) *)
Record hiter := HI { ientry : Z; iindex : Z }.
Definition it_new : hiter := HI 0 0.
(** Hashtable.cpp 226-229, 235-238 *)
Fixpoint it_skip (t : htab) (it : hiter) (fuel : nat) : out hiter :=
  match fuel with
  | O => Fuel
  | S fuel => if (ientry it =? 0) && (iindex it <? zlen (hdata t)) then let* e := rd (hdata t) (iindex it) in it_skip t (HI e (iindex it + 1)) fuel else Val it
  end.
(** Hashtable.cpp 224-231 *)
Definition it_has_next (t : htab) (it : hiter) (fuel : nat) : out (bool * hiter) := let* it := it_skip t it fuel in Val (negb (ientry it =? 0), it).
(** Hashtable.cpp 233-247: the entry whose key or value is returned *)
Definition it_next (h : hheap) (t : htab) (it : hiter) (fuel : nat) : out (option hnode * hiter) :=
  let* it := it_skip t it fuel in
  if negb (ientry it =? 0) then let* e := hderef h (ientry it) in Val (Some e, HI (nnext e) (iindex it)) else Val (None, it).
