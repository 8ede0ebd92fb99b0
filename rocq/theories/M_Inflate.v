(** M_Inflate.v -- model of src/core/Inflater.cpp.
    Simplifications: allocation succeeds and the byte counters do not overflow; the objects leaked by the code are not tracked; a Huffman tree is a tree value (every node has
    one parent), [Nil] is nullptr.  Reading behind the compressed data is undefined (UB).  A cell of the output is None while it is indeterminate (new uint8[n]).
    Two things are parameters: [lr], whether the compiler evaluates the two calls in "nextBit() + nextBit() * 2" from left to right, which C++ leaves open (708), and [more], the
    growth int64(mUncompLength / ratio) of the output buffer, computed with doubles (231-232). *)
From Verif Require Import Base.

(** Inflater.cpp 39-42 *)
Definition LENGTH_EXTRA : list Z := [0;0;0;0;0;0;0;0;1;1;1;1;2;2;2;2;3;3;3;3;4;4;4;4;5;5;5;5;0].
Definition LENGTH_OFFSET : list Z := [3;4;5;6;7;8;9;10;11;13;15;17;19;23;27;31;35;43;51;59;67;83;99;115;131;163;195;227;258].
Definition DIST_EXTRA : list Z := [0;0;0;0;1;1;2;2;3;3;4;4;5;5;6;6;7;7;8;8;9;9;10;10;11;11;12;12;13;13].
Definition DIST_OFFSET : list Z := [1;2;3;4;5;7;9;13;17;25;33;49;65;97;129;193;257;385;513;769;1025;1537;2049;3073;4097;6145;8193;12289;16385;24577].

(** include/core/Inflater.h 62-92: mCompBytes (of mCompLength bytes), mCompIndex, mBit, mUncompBytes (None: nullptr; its length is mUncompLength), mUncompIndex, mTotalIn, mTotalOut,
    mLastBlock, mEof, mWrap *)
Record inf := INF { cb : list Z; ci : Z; bit : Z; ub : option (list (option Z)); ui : Z; tin : Z; tout : Z; lastb : bool; eof : bool; wrap : bool }.
(** a step of the input position: index, bit, mTotalIn *)
Definition set_in (s : inf) (i b t : Z) : inf := INF (cb s) i b (ub s) (ui s) t (tout s) (lastb s) (eof s) (wrap s).
Definition set_out (s : inf) (u : list (option Z)) (i t : Z) : inf := INF (cb s) (ci s) (bit s) (Some u) i (tin s) t (lastb s) (eof s) (wrap s).
(** Inflater.cpp 60-65 with 133-147: Inflater(wrap) *)
Definition inf_new (w : bool) : inf := INF [] 0 0 (Some (repeat None 1024)) 0 0 0 false false w.
(** Inflater.cpp 44-58: the default constructor leaves the output buffer a nullptr (with mUncompLength = 1024) *)
Definition inf_default : inf := INF [] 0 0 None 0 0 0 false false false.
(** Inflater.cpp 71-76 *)
Definition set_input (s : inf) (b : list Z) : inf := INF b 0 (bit s) (ub s) (ui s) (tin s) (tout s) (lastb s) (eof s) (wrap s).

(** Inflater.cpp 165-177 *)
Definition next_bit (s : inf) : out (Z * inf) :=
  let* c := rd (cb s) (ci s) in
  let r := Z.shiftr (Z.land (Z.shiftl 1 (bit s)) c) (bit s) in
  if (bit s + 1) mod 8 =? 0 then Val (r, set_in s (ci s + 1) 0 (tin s + 1)) else Val (r, set_in s (ci s) (bit s + 1) (tin s)).
(** Inflater.cpp 179-185 *)
Definition skip_byte_bits (s : inf) : inf := if bit s =? 0 then s else set_in s (ci s + 1) 0 (tin s + 1).
(** Inflater.cpp 187-193 *)
Definition next_u8 (s : inf) : out (Z * inf) :=
  if negb (bit s =? 0) then Exn else let* c := rd (cb s) (ci s) in Val (c, set_in s (ci s + 1) (bit s) (tin s + 1)).
(** Inflater.cpp 195-203 with Serializer.cpp 196-199 *)
Definition next_u16 (s : inf) : out (Z * inf) :=
  let* (a, s) := next_u8 s in let* (b, s) := next_u8 s in Val (u16 (Z.lor (Z.shiftl b 8) a), s).
(** Inflater.cpp 205-214 *)
Fixpoint uintx (s : inf) (ret : Z) (k : nat) : out (Z * inf) :=
  match k with O => Val (ret, s) | S k => let* (b, s) := next_bit s in uintx s (u16 (Z.lor (u16 (Z.shiftl ret 1)) b)) k end.
Definition next_uintx (s : inf) (bits : Z) : out (Z * inf) := uintx s 0 (Z.to_nat bits).
(** Inflater.cpp 216-224 *)
Fixpoint uintxr (s : inf) (ret a : Z) (k : nat) : out (Z * inf) :=
  match k with O => Val (ret, s) | S k => let* (b, s) := next_bit s in uintxr s (u16 (Z.lor ret (Z.shiftl b a))) (a + 1) k end.
Definition next_uintxr (s : inf) (bits : Z) : out (Z * inf) := uintxr s 0 0 (Z.to_nat bits).

Section Inflate.
Context (lr : bool) (more : Z -> Z -> Z -> Z).
(** Inflater.cpp 226-239.  With mCompIndex = 0 the quotient is infinite and its conversion undefined *)
Definition check_capacity (s : inf) (u : list (option Z)) : out (list (option Z)) :=
  if ui s <? zlen u then Val u else
  if ci s =? 0 then UB else
  let n := zlen u + Z.max 4096 (more (zlen u) (ci s) (zlen (cb s))) in
  Val (firstn (Z.to_nat (ui s)) u ++ repeat None (Z.to_nat n - Z.to_nat (ui s))).
(** Inflater.cpp 241-246 *)
Definition write_byte (s : inf) (c : option Z) : out inf :=
  match ub s with
  | None => UB
  | Some u => let* u := check_capacity s u in let* u := wr u (ui s) c in Val (set_out s u (ui s + 1) (tout s + 1))
  end.
(** Inflater.cpp 314, 681: mUncompBytes[i] *)
Definition out_at (s : inf) (i : Z) : out (option Z) := match ub s with None => UB | Some u => rd u i end.
(** Inflater.cpp 261-265 *)
Fixpoint stored_loop (s : inf) (k : nat) : out inf :=
  match k with O => Val s | S k => let* (b, s) := next_u8 s in let* s := write_byte s (Some b) in stored_loop s k end.
(** Inflater.cpp 249-266 *)
Definition stored_block (s : inf) : out inf :=
  let s := skip_byte_bits s in
  let* (len, s) := next_u16 s in
  let* (nlen, s) := next_u16 s in
  if negb (Z.land nlen len =? 0) then Exn else stored_loop s (Z.to_nat len).
(** Inflater.cpp 312-315, 679-682 *)
Fixpoint copy_loop (s : inf) (src a : Z) (k : nat) : out inf :=
  match k with O => Val s | S k => let* c := out_at s (src + a) in let* s := write_byte s c in copy_loop s src (a + 1) k end.

(** Inflater.cpp 733-764; after 8 bits the value is below 0x30, in 0x30..0xBF, in 0xC0..0xC7 or above; "new Exception" (760) throws nothing *)
Definition next_fixed (s : inf) : out (Z * inf) :=
  let* (code, s) := next_uintx s 7 in
  if code <=? 23 then Val (u16 (code + 256), s) else
  let* (b, s) := next_bit s in
  let code := u16 (Z.lor (u16 (Z.shiftl code 1)) b) in
  if (192 <=? code) && (code <=? 199) then Val (u16 (code + 88), s) else
  if (48 <=? code) && (code <=? 191) then Val (u16 (code - 48), s) else
  let* (b, s) := next_bit s in
  let code := u16 (Z.lor (u16 (Z.shiftl code 1)) b) in
  if (400 <=? code) && (code <=? 511) then Val (u16 (code - 256), s) else Val (code, s).
(** Inflater.cpp 269-321: the loop, each round of which reads at least 7 bits *)
Fixpoint fixed_loop (s : inf) (fuel : nat) : out inf :=
  match fuel with
  | O => Fuel
  | S fuel =>
    let* (v, s) := next_fixed s in
    if v <? 256 then let* s := write_byte s (Some (u8 v)) in fixed_loop s fuel
    else if v =? 256 then Val s
    else if v <=? 285 then
      let* e := rd LENGTH_EXTRA (v - 257) in
      let* (l, s) := next_uintxr s e in
      let* o := rd LENGTH_OFFSET (v - 257) in
      let length := u16 (l + o) in
      let* (code, s) := next_uintx s 5 in
      let* e := rd DIST_EXTRA code in
      let* (d, s) := next_uintxr s e in
      let* o := rd DIST_OFFSET code in
      let distance := u16 (d + o) in
      let src := Z.land (ui s - distance) 32767 in
      if src <? 0 then Exn else
      let* s := copy_loop s src 0 (Z.to_nat length) in fixed_loop s fuel
    else Exn
  end.

(** Inflater.h 49-59: node0, node1, symbol, length, code *)
Inductive htree := Nil | HT (n0 n1 : htree) (sym len code : Z).
Definition hlen (t : htree) : Z := match t with Nil => 0 | HT _ _ _ l _ => l end.
Definition hcode (t : htree) : Z := match t with Nil => 0 | HT _ _ _ _ c => c end.
(** Inflater.cpp 337-352: the existing symbols from a on, and maxBits *)
Fixpoint leaves (lengths codes : list Z) (a : Z) : list htree :=
  match lengths, codes with
  | l :: lengths, c :: codes => if negb (l =? 0) then HT Nil Nil a l c :: leaves lengths codes (a + 1) else leaves lengths codes (a + 1)
  | _, _ => []
  end.
Definition max_len (nodes : list htree) : Z := fold_left (fun m t => Z.max m (hlen t)) nodes 0.
(** Inflater.cpp 374-382: the inner loop over k neighbours *)
Fixpoint sort_pass (l : list htree) (k : nat) : list htree :=
  match k, l with
  | S k, x :: y :: r => if hcode x >? hcode y then y :: sort_pass (x :: r) k else x :: sort_pass (y :: r) k
  | _, _ => l
  end.
(** Inflater.cpp 372-383: n = size .. 2 *)
Fixpoint sort_nodes (l : list htree) (n : nat) : list htree := match n with O | S O => l | S m => sort_nodes (sort_pass l m) m end.
(** Inflater.cpp 386-389; then 394: tmp *)
Fixpoint duplicates (l : list htree) : bool := match l with x :: ((y :: _) as r) => (hcode x =? hcode y) || duplicates r | _ => false end.
Definition tmp (t : htree) : Z := Z.shiftr (hcode t) 1.
(** Inflater.cpp 415-421, 431-438: the side is chosen by the last bit of tmp *)
Definition single (t : htree) : htree := if Z.land (tmp t) 1 =? 0 then HT t Nil 0 (u16 (hlen t - 1)) (tmp t) else HT Nil t 0 (u16 (hlen t - 1)) (tmp t).
(** Inflater.cpp 397-441 *)
Fixpoint pair (n : nat) (l : list htree) : list htree :=
  match n with
  | O => []
  | S n => match l with
           | x :: y :: r => if tmp x =? tmp y then HT x y 0 (u16 (hlen x - 1)) (tmp x) :: pair n r else single x :: pair n (y :: r)
           | [x] => [single x]
           | [] => []
           end
  end.
(** Inflater.cpp 354-447: one level, and the loop over the levels *)
Definition level (nodes : list htree) (maxbits : Z) : out (list htree) :=
  if maxbits <? 0 then Exn else
  let focus := filter (fun t => hlen t =? maxbits) nodes in
  let rest := filter (fun t => negb (hlen t =? maxbits)) nodes in
  let focus := sort_nodes focus (length focus) in
  if duplicates focus then Exn else Val (rest ++ pair (length focus) focus).
Fixpoint levels (nodes : list htree) (maxbits : Z) (fuel : nat) : out (list htree) :=
  match fuel with
  | O => Fuel
  | S fuel => let* nodes := level nodes maxbits in if (1 <? length nodes)%nat then levels nodes (maxbits - 1) fuel else Val nodes
  end.
(** Inflater.cpp 323-450; nodes[0] of an empty vector is undefined *)
Definition create_tree (lengths codes : list Z) : out htree :=
  let nodes := leaves lengths codes 0 in
  let m := max_len nodes in
  let* nodes := levels nodes m (S (S (Z.to_nat m))) in
  match nodes with t :: _ => Val t | [] => UB end.
(** Inflater.cpp 783-798 *)
Fixpoint find (t : htree) (code bits : Z) : option Z :=
  match t with
  | Nil => None
  | HT n0 n1 sym len c =>
    if (len =? bits) && (c =? code) && (match n0, n1 with Nil, Nil => true | _, _ => false end) then Some sym
    else if bits >? len then
      if Z.land (u16 (Z.shiftl 1 (bits - len - 1))) code =? 0 then find n0 code bits else find n1 code bits
    else None
  end.
(** Inflater.cpp 454-474: k more rounds at most *)
Fixpoint decode_loop (s : inf) (t : htree) (ret bits : Z) (k : nat) : out (Z * inf) :=
  match k with
  | O => Exn
  | S k =>
    let* (b, s) := next_bit s in
    let ret := u16 (Z.lor (u16 (Z.shiftl ret 1)) b) in
    let bits := bits + 1 in
    match find t ret bits with Some sym => Val (sym, s) | None => decode_loop s t ret bits k end
  end.
Definition decode_symbol (s : inf) (t : htree) (maxbits : Z) : out (Z * inf) := decode_loop s t 0 0 (S (Z.to_nat maxbits)).
(** Inflater.cpp 480-482 *)
Definition max_bits (l : list Z) : Z := fold_left Z.max l 0.
(** Inflater.cpp 484-499: blCount[b], with blCount[0] set to 0 (506) *)
Definition bl_count (l : list Z) (b : Z) : Z := if b =? 0 then 0 else u16 (zlen (filter (Z.eqb b) l)).
(** Inflater.cpp 505-511: nextCode[1 ..] *)
Fixpoint next_codes (l : list Z) (code b : Z) (k : nat) : list Z :=
  match k with O => [] | S k => let code := u16 (Z.shiftl (code + bl_count l (b - 1)) 1) in code :: next_codes l code (b + 1) k end.
(** Inflater.cpp 521-530 *)
Fixpoint assign_codes (next : list Z) (l : list Z) : out (list Z) :=
  match l with
  | [] => Val []
  | n :: l => if n =? 0 then let* r := assign_codes next l in Val (0 :: r)
              else let* c := rd next n in let* next := wr next n (u16 (c + 1)) in let* r := assign_codes next l in Val (c :: r)
  end.
(** Inflater.cpp 477-537 *)
Definition huffman_codes (l : list Z) : out (list Z) := assign_codes (0 :: next_codes l 0 1 (Z.to_nat (max_bits l))) l.
(** Inflater.cpp 557-586: writing n entries; [acc] are the entries 0 .. cnt - 1 set so far (the others are not read), the array has [count] entries and throws outside *)
Fixpoint fill (acc : list Z) (count x : Z) (k : nat) : out (list Z) :=
  match k with O => Val acc | S k => if zlen acc <? count then fill (acc ++ [x]) count x k else Exn end.
(** Inflater.cpp 540-591; every round writes at least one entry *)
Fixpoint read_lengths (s : inf) (t : htree) (maxbits : Z) (count : Z) (acc : list Z) (fuel : nat) : out (list Z * inf) :=
  match fuel with
  | O => Fuel
  | S fuel =>
    if zlen acc <? count then
      let* (v, s) := decode_symbol s t maxbits in
      if v =? 16 then let* (r, s) := next_uintxr s 2 in
                      match rev acc with [] => Exn | x :: _ => let* acc := fill acc count x (Z.to_nat (r + 3)) in read_lengths s t maxbits count acc fuel end
      else if v =? 17 then let* (r, s) := next_uintxr s 3 in let* acc := fill acc count 0 (Z.to_nat (r + 3)) in read_lengths s t maxbits count acc fuel
      else if v =? 18 then let* (r, s) := next_uintxr s 7 in let* acc := fill acc count 0 (Z.to_nat (r + 11)) in read_lengths s t maxbits count acc fuel
      else let* acc := fill acc count v 1 in read_lengths s t maxbits count acc fuel
    else Val (acc, s)
  end.
(** Inflater.cpp 605 *)
Definition ALPHABET : list Z := [16;17;18;0;8;7;9;6;10;5;11;4;12;3;13;2;14;1;15].
(** Inflater.cpp 608-616 *)
Fixpoint read_cl (s : inf) (cl : list Z) (alpha : list Z) (k : nat) : out (list Z * inf) :=
  match k with
  | O => Val (cl, s)
  | S k => match alpha with
           | [] => UB
           | a :: alpha => let* (l, s) := next_uintxr s 3 in let* cl := (match lset cl a l with Some cl => Val cl | None => Exn end) in read_cl s cl alpha k
           end
  end.
(** Inflater.cpp 639-687: the loop; a value above 285 is ignored (684 throws nothing) *)
Fixpoint dynamic_loop (s : inf) (lt dt : htree) (fuel : nat) : out inf :=
  match fuel with
  | O => Fuel
  | S fuel =>
    let* (v, s) := decode_symbol s lt 15 in
    if v <? 256 then let* s := write_byte s (Some (u8 v)) in dynamic_loop s lt dt fuel
    else if v =? 256 then Val s
    else if v <=? 285 then
      let* e := rd LENGTH_EXTRA (v - 257) in
      let* (l, s) := next_uintxr s e in
      let* o := rd LENGTH_OFFSET (v - 257) in
      let length := u16 (l + o) in
      let* (code, s) := decode_symbol s dt 15 in
      let* e := rd DIST_EXTRA code in
      let* (d, s) := next_uintxr s e in
      let* o := rd DIST_OFFSET code in
      let distance := u16 (d + o) in
      let src := ui s - distance in
      if src <? 0 then Exn else
      let* s := copy_loop s src 0 (Z.to_nat length) in dynamic_loop s lt dt fuel
    else dynamic_loop s lt dt fuel
  end.
(** Inflater.cpp 595-698 *)
Definition dynamic_block (s : inf) (fuel : nat) : out inf :=
  let* (a, s) := next_uintxr s 5 in
  let* (b, s) := next_uintxr s 5 in
  let* (c, s) := next_uintxr s 4 in
  let hlit := u16 (a + 257) in
  let hdist := u16 (b + 1) in
  let hclen := u16 (c + 4) in
  let* (cl, s) := read_cl s (repeat 0 19) ALPHABET (Z.to_nat hclen) in
  let* codes := huffman_codes cl in
  let* inter := create_tree cl codes in
  let* (ll, s) := read_lengths s inter (max_bits cl) hlit [] (S (Z.to_nat hlit)) in
  let* (dl, s) := read_lengths s inter (max_bits cl) hdist [] (S (Z.to_nat hdist)) in
  let* lc := huffman_codes ll in
  let* dc := huffman_codes dl in
  let* lt := create_tree ll lc in
  let* dt := create_tree dl dc in
  dynamic_loop s lt dt fuel.
(** Inflater.cpp 701-731; the fuel of the loops is the number of bits of the input (each round reads a bit) *)
Fixpoint block_loop (s : inf) (n fuel : nat) : out inf :=
  match n with
  | O => Fuel
  | S n =>
    let* (bfinal, s) := next_bit s in
    let* (b1, s) := next_bit s in
    let* (b2, s) := next_bit s in
    let btype := if lr then b1 + b2 * 2 else b2 + b1 * 2 in
    let s := if bfinal =? 1 then INF (cb s) (ci s) (bit s) (ub s) (ui s) (tin s) (tout s) true (eof s) (wrap s) else s in
    let* s := (if btype =? 0 then stored_block s else if btype =? 1 then fixed_loop s fuel else if btype =? 2 then dynamic_block s fuel else Val s) in
    if negb (lastb s) then block_loop s n fuel
    else Val (INF (cb s) (ci s) (bit s) (ub s) (ui s) (tin s) (tout s) (lastb s) true (wrap s))
  end.
Definition fuel_of (s : inf) : nat := S (8 * length (cb s)).
(** Inflater.cpp 88-131: the zlib header (RFC 1950), then inflate; the result is the buffer up to mUncompIndex *)
Definition inflate (s : inf) : out (list (option Z) * inf) :=
  let s := INF (cb s) (ci s) (bit s) (ub s) 0 (tin s) (tout s) (lastb s) (eof s) (wrap s) in
  let* s := (if (tin s =? 0) && negb (wrap s) then
               if zlen (cb s) <? 2 then Exn else
               let* cmf := rd (cb s) 0 in
               let* flg := rd (cb s) 1 in
               if negb (Z.land cmf 15 =? 8) then Exn else
               if Z.land (Z.shiftr cmf 4) 15 >? 7 then Exn else
               if negb (Z.land (Z.shiftr flg 5) 1 =? 0) then Exn else
               if negb (u16 (cmf * 256 + flg) mod 31 =? 0) then Exn else
               Val (set_in s 2 0 2)
             else Val s) in
  let* s := block_loop s (fuel_of s) (fuel_of s) in
  match ub s with Some u => Val (firstn (Z.to_nat (ui s)) u, s) | None => Val ([], s) end.
(** a fresh Inflater(wrap) on the given data *)
Definition inflate_bytes (w : bool) (data : list Z) : out (list (option Z) * inf) := inflate (set_input (inf_new w) data).
End Inflate.
