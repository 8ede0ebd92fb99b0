(** M_Utf8.v -- model of src/core/UTF8Decoder.cpp.
    A C string is the list of its bytes (0..255) up to and including the terminating 0; that list is the
    whole readable block. The uint32 counters of decode are not wrapped (texts below 4 GiB). *)
From Verif Require Import Base.

Definition char_is (mem : list Z) (i v : Z) : out bool := let* c := rd mem i in Val (c =? v).
(** short-circuit && *)
Definition andb_then (a : out bool) (b : out bool) : out bool := let* x := a in if x then b else Val false.

(** UTF8Decoder.cpp 69-99: first pass, counts the characters *)
Fixpoint utf8_count (fuel : nat) (mem : list Z) (cntC strLength : Z) : out Z :=
  match fuel with
  | O => Fuel
  | S fuel =>
    let* c := rd mem cntC in
    if c =? 0 then Val strLength                                              (* 69 *)
    else if Z.land c 128 =? 0 then utf8_count fuel mem (cntC + 1) (strLength + 1)          (* 73 *)
    else if Z.land c 224 =? 192 then utf8_count fuel mem (cntC + 2) (strLength + 1)        (* 78 *)
    else if Z.land c 240 =? 224 then utf8_count fuel mem (cntC + 3) (strLength + 1)        (* 83 *)
    else if Z.land c 248 =? 240 then utf8_count fuel mem (cntC + 4) (strLength + 1)        (* 88 *)
    else utf8_count fuel mem (cntC + 1) (strLength + 1)                                    (* 93 *)
  end.

(** UTF8Decoder.cpp 104-150: second pass; [acc] are the units written so far (cntV = their number).
    c, d, e, f are uint16. *)
Fixpoint utf8_fill (fuel : nat) (mem : list Z) (cntC strLength : Z) (acc : list Z) : out (list Z) :=
  match fuel with
  | O => Fuel
  | S fuel =>
    if zlen acc <? strLength then
      let* c := rd mem cntC in                                                (* 106 *)
      if Z.land c 128 =? 0 then utf8_fill fuel mem (cntC + 1) strLength (acc ++ [c])       (* 108 *)
      else if Z.land c 224 =? 192 then                                        (* 114 *)
        let c := u16 (Z.shiftl (Z.land c 31) 6) in
        let* x := rd mem (cntC + 1) in let d := u16 (Z.land x 63) in
        utf8_fill fuel mem (cntC + 2) strLength (acc ++ [u16 (Z.lor c d)])
      else if Z.land c 240 =? 224 then                                        (* 122 *)
        let c := u16 (Z.shiftl (Z.land c 15) 12) in
        let* x := rd mem (cntC + 1) in let d := u16 (Z.shiftl (Z.land x 63) 6) in
        let* y := rd mem (cntC + 2) in let e := u16 (Z.land y 63) in
        utf8_fill fuel mem (cntC + 3) strLength (acc ++ [u16 (Z.lor (Z.lor c d) e)])
      else if Z.land c 248 =? 240 then                                        (* 131 *)
        let c := u16 (Z.shiftl (Z.land c 7) 18) in
        let* x := rd mem (cntC + 1) in let d := u16 (Z.shiftl (Z.land x 63) 12) in
        let* y := rd mem (cntC + 2) in let e := u16 (Z.shiftl (Z.land y 63) 6) in
        let* z := rd mem (cntC + 3) in let f := u16 (Z.land z 63) in
        utf8_fill fuel mem (cntC + 4) strLength (acc ++ [u16 (Z.lor (Z.lor (Z.lor c d) e) f)])
      else
        let* skip := (if c =? 255 then char_is mem (cntC + 1) 254 else Val false) in       (* 141-142 *)
        if skip then utf8_fill fuel mem (cntC + 2) strLength acc
        else utf8_fill fuel mem (cntC + 1) strLength (acc ++ [c])             (* 143-149 *)
    else Val acc
  end.

(** UTF8Decoder.cpp 41-152: decode *)
Definition utf8_decode (mem : list Z) : out (list Z) :=
  let* be := andb_then (char_is mem 0 254) (char_is mem 1 255) in             (* 51 *)
  if be then Exn else
  let* le := andb_then (char_is mem 0 255) (char_is mem 1 254) in             (* 56 *)
  if le then Exn else
  let* bom := andb_then (char_is mem 0 239) (andb_then (char_is mem 1 187) (char_is mem 2 191)) in (* 61 *)
  let start := if bom then 3 else 0 in
  let* n := utf8_count (S (length mem)) mem start 0 in
  utf8_fill (S (S (length mem))) mem start n [].

(** UTF8Decoder.cpp 156-172: size computation (uint32 wraps) *)
Fixpoint utf8_size (s : list Z) (cntC : Z) : Z :=
  match s with
  | [] => cntC
  | c :: r => utf8_size r (u32 (if c <? 128 then cntC + 1 else if c <? 2048 then cntC + 2 else cntC + 3))
  end.
(** writes to the result: [cap] bytes, written in order; outside = UB *)
Definition put (cap : Z) (acc : list Z) (b : Z) : out (list Z) :=
  if zlen acc <? cap then Val (acc ++ [b]) else UB.
(** UTF8Decoder.cpp 175-197: second pass. "(int8)x | 0xC0" stored in a byte is (x lor 0xC0) mod 256,
    x being below 64 here. *)
Fixpoint utf8_write (cap : Z) (s : list Z) (acc : list Z) : out (list Z) :=
  match s with
  | [] => Val acc
  | c :: r =>
    if c <? 128 then
      let* acc := put cap acc (u8 (s8 c)) in utf8_write cap r acc             (* 181 *)
    else if c <? 2048 then
      let* acc := put cap acc (u8 (Z.lor (s8 (Z.land (Z.shiftr c 6) 31)) 192)) in   (* 186 *)
      let* acc := put cap acc (u8 (Z.lor (s8 (Z.land c 63)) 128)) in                (* 187 *)
      utf8_write cap r acc
    else
      let* acc := put cap acc (u8 (Z.lor (s8 (Z.land (Z.shiftr c 12) 15)) 224)) in  (* 192 *)
      let* acc := put cap acc (u8 (Z.lor (s8 (Z.land (Z.shiftr c 6) 63)) 128)) in   (* 193 *)
      let* acc := put cap acc (u8 (Z.lor (s8 (Z.land c 63)) 128)) in                (* 194 *)
      utf8_write cap r acc
  end.
(** UTF8Decoder.cpp 154-199: encode. The result is the written bytes; it fills the ByteArray exactly
    when its length equals the computed size, otherwise the rest stays 0 (174: ByteArray(cntC, 0)). *)
Definition utf8_encode (s : list Z) : out (list Z) :=
  let cap := utf8_size s 0 in
  let* l := utf8_write cap s [] in
  Val (l ++ repeat 0 (Z.to_nat (cap - zlen l))).
