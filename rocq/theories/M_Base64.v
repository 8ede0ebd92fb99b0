(** M_Base64.v -- model of src/core/Base64.cpp. *)
From Verif Require Import Base.

(** Base64.cpp 37: gBase64fillchar = '=' *)
Definition b64fill : Z := 61.

(** Base64.cpp 38: gBase64cvt, a string literal (64 characters and the terminator) *)
Definition b64cvt : list Z :=
  [65; 66; 67; 68; 69; 70; 71; 72; 73; 74; 75; 76; 77; 78; 79; 80;
   81; 82; 83; 84; 85; 86; 87; 88; 89; 90; 97; 98; 99; 100; 101; 102;
   103; 104; 105; 106; 107; 108; 109; 110; 111; 112; 113; 114; 115; 116; 117; 118;
   119; 120; 121; 122; 48; 49; 50; 51; 52; 53; 54; 55; 56; 57; 43; 47;
   0].

(** Base64.cpp 40-73: gBase64rcvt *)
Definition b64rcvt : list Z :=
  [66; 66; 66; 66; 66; 66; 66; 66; 66; 66; 64; 66; 66; 66; 66; 66;
   66; 66; 66; 66; 66; 66; 66; 66; 66; 66; 66; 66; 66; 66; 66; 66;
   66; 66; 66; 66; 66; 66; 66; 66; 66; 66; 66; 62; 66; 66; 66; 63;
   52; 53; 54; 55; 56; 57; 58; 59; 60; 61; 66; 66; 66; 65; 66; 66;
   66; 0; 1; 2; 3; 4; 5; 6; 7; 8; 9; 10; 11; 12; 13; 14;
   15; 16; 17; 18; 19; 20; 21; 22; 23; 24; 25; 66; 66; 66; 66; 66;
   66; 26; 27; 28; 29; 30; 31; 32; 33; 34; 35; 36; 37; 38; 39; 40;
   41; 42; 43; 44; 45; 46; 47; 48; 49; 50; 51; 66; 66; 66; 66; 66;
   66; 66; 66; 66; 66; 66; 66; 66; 66; 66; 66; 66; 66; 66; 66; 66;
   66; 66; 66; 66; 66; 66; 66; 66; 66; 66; 66; 66; 66; 66; 66; 66;
   66; 66; 66; 66; 66; 66; 66; 66; 66; 66; 66; 66; 66; 66; 66; 66;
   66; 66; 66; 66; 66; 66; 66; 66; 66; 66; 66; 66; 66; 66; 66; 66;
   66; 66; 66; 66; 66; 66; 66; 66; 66; 66; 66; 66; 66; 66; 66; 66;
   66; 66; 66; 66; 66; 66; 66; 66; 66; 66; 66; 66; 66; 66; 66; 66;
   66; 66; 66; 66; 66; 66; 66; 66; 66; 66; 66; 66; 66; 66; 66; 66;
   66; 66; 66; 66; 66; 66; 66; 66; 66; 66; 66; 66; 66; 66; 66; 66].

(** "ret[index++] = b" on a fresh block of [cap] bytes that is only ever written sequentially:
    [acc] holds the bytes written so far, [index] is their number. Writing outside the block is UB. *)
Definition push (cap : Z) (acc : list Z) (b : Z) : out (list Z) :=
  if zlen acc <? cap then Val (acc ++ [b]) else UB.

(** Base64.cpp 85-116: the encode loop. c1, c2 are assigned in each round, c3 and c4 persist. *)
Fixpoint b64_enc_loop (fuel : nat) (data : list Z) (len cap i c3 c4 : Z) (acc : list Z) : out (list Z) :=
  match fuel with
  | O => Fuel
  | S fuel =>
    if i <? len then
      let* b1 := rd data i in                                                (* 87 *)
      let* b2 := (if i + 1 <? len then rd data (i + 1) else Val 0) in        (* 88 *)
      let* b3 := (if i + 2 <? len then rd data (i + 2) else Val 0) in        (* 89 *)
      let c1 := u8 (Z.land (Z.shiftr b1 2) 63) in                            (* 92 *)
      let c2 := u8 (Z.land (Z.shiftl b1 4) 63) in                            (* 95 *)
      let c2 := if i + 1 <? len then u8 (Z.lor c2 (Z.land (Z.shiftr b2 4) 15)) else c2 in   (* 96-98 *)
      let c3 := if i + 1 <? len then
                  let c3 := u8 (Z.land (Z.shiftl b2 2) 63) in                (* 101 *)
                  if i + 2 <? len then u8 (Z.lor c3 (Z.land (Z.shiftr b3 6) 3)) else c3     (* 102-104 *)
                else c3 in
      let c4 := if i + 1 <? len then
                  if i + 2 <? len then u8 (Z.land b3 63) else c4             (* 107 *)
                else c4 in
      let* d1 := rd b64cvt c1 in let* acc := push cap acc d1 in              (* 111 *)
      let* d2 := rd b64cvt c2 in let* acc := push cap acc d2 in              (* 112 *)
      let* d3 := (if i + 1 <? len then rd b64cvt c3 else Val b64fill) in let* acc := push cap acc d3 in (* 113 *)
      let* d4 := (if i + 2 <? len then rd b64cvt c4 else Val b64fill) in let* acc := push cap acc d4 in (* 114 *)
      b64_enc_loop fuel data len cap (i + 3) c3 c4 acc
    else Val acc
  end.

(** Base64.cpp 75-120: Base64::encode(data, length). [data] is the block of exactly [length] bytes.
    The result is the written part of the returned block (its length is the new value of [length]).
    C integer division "/" on the non-negative length is Z.quot. *)
Definition b64_encode (data : list Z) : out (list Z) :=
  let len := zlen data in
  let cap := (Z.quot len 3 + 1) * 4 in                                       (* 79 *)
  let* acc := b64_enc_loop (S (length data)) data len cap 0 0 0 [] in
  if zlen acc >? cap then Exn else Val acc.                                  (* 118 *)

(** Base64.cpp 134-169: the decode loop.  The three writes, each followed by "if(brk) break". *)
Fixpoint b64_dec_loop (fuel : nat) (data : list Z) (len cap i : Z) (acc : list Z) : out (list Z) :=
  match fuel with
  | O => Fuel
  | S fuel =>
    if i <? len then
      let* x1 := rd data i in let* c1 := rd b64rcvt x1 in                    (* 136 *)
      let* x2 := rd data (i + 1) in let* c2 := rd b64rcvt x2 in
      let* x3 := rd data (i + 2) in let* c3 := rd b64rcvt x3 in
      let* x4 := rd data (i + 3) in let* c4 := rd b64rcvt x4 in              (* 139 *)
      let brk := c2 >=? 65 in
      let c2 := if brk then 0 else c2 in                                     (* 141-145 *)
      let b1 := u8 (Z.lor (Z.shiftl c1 2) (Z.land (Z.shiftr c2 4) 3)) in     (* 146 *)
      let* acc := push cap acc b1 in                                         (* 147 *)
      if brk then Val acc else                                               (* 148 *)
      let brk := c3 >=? 65 in
      let c3 := if brk then 0 else c3 in                                     (* 151-155 *)
      let b2 := u8 (Z.lor (Z.land (Z.shiftl c2 4) 240) (Z.land (Z.shiftr c3 2) 15)) in (* 156 *)
      let* acc := push cap acc b2 in
      if brk then Val acc else                                               (* 158 *)
      let brk := c4 >=? 65 in
      let c4 := if brk then 0 else c4 in                                     (* 160-164 *)
      let b3 := u8 (Z.lor (Z.land (Z.shiftl c3 6) 192) c4) in                (* 165 *)
      let* acc := push cap acc b3 in
      if brk then Val acc else                                               (* 167 *)
      b64_dec_loop fuel data len cap (i + 4) acc
    else Val acc
  end.

(** Base64.cpp 122-172: Base64::decode(data, length); [data] is the block of exactly [length] bytes.
    "int len = length" (126) wraps a uint32 to int; "len * 3" (128) is an int multiplication. *)
Definition b64_decode (data : list Z) : out (list Z) :=
  let len := s32 (u32 (zlen data)) in
  let* l3 := chk32 (len * 3) in
  let cap := u32 (Z.quot l3 4) in
  b64_dec_loop (S (length data)) data len cap 0 [].
