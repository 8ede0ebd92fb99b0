(** M_ByteArray.v -- model of src/core/ByteArray.cpp. A cell is None while its value is indeterminate (new uint8[n] does not
    initialise); mData = nullptr is [bd = None]; mRawSize is the length of the block (0 without block). Copying an
    indeterminate uint8 is allowed and copies the indeterminacy, using its value is undefined. *)
From Verif Require Import Base M_Sort.

Notation cell := (option Z).
Record barr := BA { bd : option (list cell); bn : Z }.
Definition raw (b : barr) : Z := match bd b with Some l => zlen l | None => 0 end.
(** access through mData *)
Definition blk (b : barr) : out (list cell) := match bd b with Some l => Val l | None => UB end.
Definition det (c : cell) : out Z := match c with Some v => Val v | None => UB end.
(** new uint8[n]: a negative n throws std::bad_array_new_length *)
Definition fresh (n : Z) : out (list cell) := if n <? 0 then Exn else Val (repeat None (Z.to_nat n)).
(** a loop writing f(index) to index = i, i+1, ... *)
Fixpoint write_loop (l : list cell) (f : Z -> out cell) (i : Z) (k : nat) : out (list cell) :=
  match k with O => Val l | S k => let* c := f i in let* l := wr l i c in write_loop l f (i + 1) k end.
(** ByteArray.cpp 65-70: bytes up to the first 0 of the buffer *)
Fixpoint cstr_len (buffer : list Z) : out Z :=
  match buffer with [] => UB | b :: r => if b =? 0 then Val 0 else let* n := cstr_len r in Val (1 + n) end.
(** ByteArray.cpp 53-78. The buffer holds int8, seen here as bytes. *)
Definition ba_init (buffer : option (list Z)) (size : Z) : out barr :=
  match buffer with
  | None => Val (BA None 0)
  | Some buf =>
    let* n := (if size <? 0 then cstr_len buf else Val size) in
    let* l := fresh (n + 1) in
    let* l := wr l n (Some 0) in
    let* l := write_loop l (fun i => let* v := rd buf i in Val (Some v)) 0 (Z.to_nat n) in
    Val (BA (Some l) n)
  end.
(** ByteArray.cpp 176-179 *)
Definition ba_fill (b : barr) (ch : Z) : out barr :=
  if bn b <=? 0 then Val b else
  let* l := blk b in
  let* l := write_loop l (fun _ => Val (Some ch)) 0 (Z.to_nat (bn b)) in Val (BA (Some l) (bn b)).
(** ByteArray.cpp 81-88 *)
Definition ba_make (n ch : Z) : out barr :=
  let* l := fresh (n + 1) in
  let* l := wr l n (Some 0) in
  ba_fill (BA (Some l) n) ch.
(** ByteArray.cpp 101-113 *)
Definition ba_list (t : list Z) : out barr :=
  let* l := fresh (zlen t + 1) in
  let* l := write_loop l (fun i => let* v := rd t i in Val (Some v)) 0 (length t) in
  let* l := wr l (zlen t) (Some 0) in Val (BA (Some l) (zlen t)).
(** ByteArray.cpp 90-99; operator= (255-271) does the same for two different objects *)
Definition ba_copy (o : barr) : out barr :=
  let* l := fresh (raw o) in
  if raw o <=? 0 then Val (BA (Some l) (bn o)) else
  let* ol := blk o in
  let* l := write_loop l (fun i => rd ol i) 0 (Z.to_nat (raw o)) in Val (BA (Some l) (bn o)).
(** ByteArray.cpp 182-187, 241-246 *)
Definition ba_get (b : barr) (i : Z) : out Z := let* l := blk b in let* c := rd l i in det c.
(** ByteArray.cpp 189-194, 248-253 *)
Definition ba_set (b : barr) (i v : Z) : out barr := let* l := blk b in let* l := wr l i (Some v) in Val (BA (Some l) (bn b)).
(** ByteArray.cpp 196-205, for another buffer than the array itself. mArrSize - tgtOffset can overflow. *)
Definition ba_replace_range (b : barr) (tgt src : Z) (o : barr) (len : Z) : out barr :=
  let* d := chk64 (bn b - tgt) in
  let range := Z.min len d in
  if range <=? 0 then Val b else
  let* l := blk b in
  let* ol := blk o in
  let* l := write_loop l (fun a => rd ol (src + a)) 0 (Z.to_nat range) in Val (BA (Some l) (bn b)).
(** ByteArray.cpp 207-213 *)
Fixpoint replace_loop (l : list cell) (oldv newv i : Z) (k : nat) : out (list cell) :=
  match k with
  | O => Val l
  | S k =>
    let* c := rd l i in let* v := det c in
    if v =? oldv then let* l := wr l i (Some newv) in replace_loop l oldv newv (i + 1) k else replace_loop l oldv newv (i + 1) k
  end.
Definition ba_replace (b : barr) (oldv newv : Z) : out barr :=
  if bn b <=? 0 then Val b else
  let* l := blk b in let* l := replace_loop l oldv newv 0 (Z.to_nat (bn b)) in Val (BA (Some l) (bn b)).
(** ByteArray.cpp 216-239. [delete mData] for a block from new[] is formally undefined; it is modelled as delete[]. *)
Definition ba_resize (b : barr) (n : Z) : out barr :=
  if n <=? raw b - 1 then let* l := blk b in let* l := wr l n (Some 0) in Val (BA (Some l) n)
  else
    let* s := chk64 (n + 1) in
    let* t := fresh s in
    let* t := (if bn b <=? 0 then Val t else let* l := blk b in write_loop t (fun i => rd l i) 0 (Z.to_nat (bn b))) in
    let* t := write_loop t (fun _ => Val (Some 0)) (bn b) (Z.to_nat (n - bn b)) in
    Val (BA (Some t) n).
(** ByteArray.cpp 148-174 *)
Definition ba_sort (b : barr) : out barr :=
  if bn b <? 1 then Val b else
  let* l := blk b in
  let* l := sort (fun c1 c2 => let* v1 := det c1 in let* v2 := det c2 in Val (v1 >? v2)) (fun c1 c2 => Val (c2, c1)) l (bn b) in
  Val (BA (Some l) (bn b)).
(** ByteArray.cpp 275-285 *)
Fixpoint eq_loop (a b : barr) (i : Z) (k : nat) : out bool :=
  match k with
  | O => Val true
  | S k => let* x := ba_get a i in let* y := ba_get b i in if x =? y then eq_loop a b (i + 1) k else Val false
  end.
Definition ba_eq (a b : barr) : out bool := if bn a =? bn b then eq_loop a b 0 (Z.to_nat (bn a)) else Val false.
