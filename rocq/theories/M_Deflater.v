(** M_Deflater.v -- model of src/core/Deflater.cpp.
    zlib is not part of the repository: [z x] is the complete stream that deflateInit(Z_BEST_COMPRESSION) and deflate(Z_FINISH) produce for the bytes x when there is room; with room for
    [n] bytes only the first n of them are written and total_out is their number (zlib manual: deflate returns Z_BUF_ERROR or Z_OK then; line 72 ignores the result). Allocation succeeds. *)
From Verif Require Import Base.
Local Open Scope Z_scope.
Section Deflater.
Context (z : list Z -> list Z).
(** Deflater.h 65-71; [None]: the members that the constructor leaves uninitialised. The input is the memory behind the pointer, [dbytes], and the length given for it *)
Record deflater := D { dinput : option (list Z * Z); total_in : Z; total_out : Z }.
(** Deflater.cpp 36-40 *)
Definition d_new : deflater := D None 0 0.
(** Deflater.cpp 46-52 *)
Definition d_set_input (s : deflater) (memory : list Z) (length : Z) : out deflater :=
  let* t := chk64 (total_in s + length) in Val (D (Some (memory, length)) t (total_out s)).
(** Deflater.cpp 54-77. Lines 65 and 67 convert the length to uInt (32 bits); a negative array size throws; the compressor reads its input as far as it is said to be *)
Definition d_deflate (s : deflater) : out (list Z * Z * deflater) :=
  match dinput s with
  | None => UB
  | Some (memory, length) =>
    if length <? 0 then Exn else
    let n := u32 length in
    if n >? zlen memory then UB else
    let out := firstn (Z.to_nat n) (z (firstn (Z.to_nat n) memory)) in
    let l := u32 (zlen out) in
    let* t := chk64 (total_out s + l) in
    Val (out, l, D (dinput s) (total_in s) t)
  end.
(** Deflater.cpp 79-86: no input (nullptr, length 0) *)
Definition d_reset (s : deflater) : deflater := D (Some ([], 0)) 0 0.
(** Deflater.cpp 88-96 *)
Definition totalInSize (s : deflater) : Z := total_in s.
Definition totalOutSize (s : deflater) : Z := total_out s.
End Deflater.
