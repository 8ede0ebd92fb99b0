(** M_Serializer.v -- model of src/core/Serializer.cpp.  A buffer is the list of the bytes that may be accessed behind the pointer; offset + k is computed in uint32
    where the parameter is uint32.  A double or float is its bit pattern (the unions of 254-304; the low order byte comes first on the target, so that the pointer casts of
    306-319 read the bytes in the same order). *)
From Verif Require Import Base.

(** "buffer[i] = (uint8)value; value >>= 8;" for the given sequence of indices *)
Fixpoint put_bytes (b : list Z) (idx : list Z) (value : Z) : out (list Z) :=
  match idx with
  | [] => Val b
  | i :: idx => let* b := wr b i (u8 value) in put_bytes b idx (Z.shiftr value 8)
  end.
(** the index expressions *)
Definition ix (offset k : Z) : Z := u32 (offset + k).
(** Serializer.cpp 35-41 *)
Definition serializeBEInt16 (b : list Z) (o v : Z) : out (Z * list Z) := let* b := put_bytes b [ix o 1; ix o 0] v in Val (2, b).
(** 43-51 *)
Definition serializeBEInt24 (b : list Z) (o v : Z) : out (Z * list Z) := let* b := put_bytes b [ix o 2; ix o 1; ix o 0] v in Val (3, b).
(** 53-63 *)
Definition serializeBEInt32 (b : list Z) (o v : Z) : out (Z * list Z) := let* b := put_bytes b [ix o 3; ix o 2; ix o 1; ix o 0] v in Val (4, b).
(** 65-83 *)
Definition serializeBEInt64 (b : list Z) (o v : Z) : out (Z * list Z) :=
  let* b := put_bytes b [ix o 7; ix o 6; ix o 5; ix o 4; ix o 3; ix o 2; ix o 1; ix o 0] v in Val (8, b).
(** 85-91, 93-99 *)
Definition serializeLEInt16 (b : list Z) (o v : Z) : out (Z * list Z) := let* b := put_bytes b [ix o 0; ix o 1] v in Val (2, b).
Definition serializeLEUInt16 (b : list Z) (o v : Z) : out (Z * list Z) := let* b := put_bytes b [ix o 0; ix o 1] v in Val (2, b).
(** 101-109 *)
Definition serializeLEInt24 (b : list Z) (o v : Z) : out (Z * list Z) := let* b := put_bytes b [ix o 0; ix o 1; ix o 2] v in Val (3, b).
(** 111-121 *)
Definition serializeLEInt32 (b : list Z) (o v : Z) : out (Z * list Z) := let* b := put_bytes b [ix o 0; ix o 1; ix o 2; ix o 3] v in Val (4, b).
(** 123-141, and 254-282 (bit pattern of a double) *)
Definition serializeLEInt64 (b : list Z) (o v : Z) : out (Z * list Z) :=
  let* b := put_bytes b [ix o 0; ix o 1; ix o 2; ix o 3; ix o 4; ix o 5; ix o 6; ix o 7] v in Val (8, b).
Definition serializeLEDouble (b : list Z) (o v : Z) : out (Z * list Z) := serializeLEInt64 b o v.
(** 284-304 (bit pattern of a float) *)
Definition serializeLEFloat (b : list Z) (o v : Z) : out (Z * list Z) := serializeLEInt32 b o v.

(** buffer[i] << 8 | buffer[j] *)
Definition get16 (b : list Z) (i j : Z) : out Z := let* x := rd b i in let* y := rd b j in Val (Z.lor (Z.shiftl x 8) y).
(** buffer[i] << 24 | buffer[j] << 16 | buffer[k] << 8 | buffer[l], computed in int (the bit pattern 2^31 .. 2^32 - 1 is a negative int) *)
Definition get32 (b : list Z) (i j k l : Z) : out Z :=
  let* x := rd b i in let* y := rd b j in let* z := rd b k in let* w := rd b l in
  Val (s32 (Z.lor (Z.lor (Z.lor (Z.shiftl x 24) (Z.shiftl y 16)) (Z.shiftl z 8)) w)).
(** 143-146; 148-156 *)
Definition deserializeBEUInt16 (b : list Z) (o : Z) : out Z := let* v := get16 b (ix o 0) (ix o 1) in Val (u16 v).
Definition deserializeBEInt16 (b : list Z) (o : Z) : out Z := let* v := get16 b (ix o 0) (ix o 1) in Val (s16 v).
(** 158-180: int64 offset *)
Definition deserializeBEUInt32 (b : list Z) (o : Z) : out Z := let* v := get32 b o (o + 1) (o + 2) (o + 3) in Val (u32 v).
Definition deserializeBEInt32 (b : list Z) (o : Z) : out Z := let* v := get32 b o (o + 1) (o + 2) (o + 3) in Val (s32 v).
(** 182-194: p1 << 32 | p2; p1 is below 2^32, the shift wraps *)
Definition deserializeBEInt64 (b : list Z) (o : Z) : out Z :=
  let* p1 := deserializeBEUInt32 b (ix o 0) in let* p2 := deserializeBEUInt32 b (ix o 4) in Val (s64 (Z.lor (Z.shiftl p1 32) p2)).
(** 196-204; 206-214 *)
Definition deserializeLEUInt16 (b : list Z) (o : Z) : out Z := let* v := get16 b (ix o 1) (ix o 0) in Val (u16 v).
Definition deserializeLEInt16 (b : list Z) (o : Z) : out Z := let* v := get16 b (ix o 1) (ix o 0) in Val (s16 v).
(** 216-226; 228-238 *)
Definition deserializeLEUInt32 (b : list Z) (o : Z) : out Z := let* v := get32 b (ix o 3) (ix o 2) (ix o 1) (ix o 0) in Val (u32 v).
Definition deserializeLEInt32 (b : list Z) (o : Z) : out Z := let* v := get32 b (ix o 3) (ix o 2) (ix o 1) (ix o 0) in Val (s32 v).
(** 240-252 *)
Definition deserializeLEInt64 (b : list Z) (o : Z) : out Z :=
  let* p1 := deserializeLEUInt32 b (ix o 4) in let* p2 := deserializeLEUInt32 b (ix o 0) in Val (s64 (Z.lor (Z.shiftl p1 32) p2)).
(** 306-319: the bit pattern of the double or float at this place *)
Definition deserializeLEDouble (b : list Z) (o : Z) : out Z := let* v := deserializeLEInt64 b o in Val (u64 v).
Definition deserializeLEFloat (b : list Z) (o : Z) : out Z := deserializeLEUInt32 b o.
