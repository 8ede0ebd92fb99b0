(** M_MemoryStream.v -- model of src/core/MemoryStream.cpp over its buffer: [mbytes] is the memory of mStream, of mStreamlength bytes. *)
From Verif Require Import Base M_String.

(** MemoryStream.cpp 36-43; the ownership flag only matters for the destructor and is left out *)
Record mstream := MS { mbytes : list Z; mpos : Z; mwlen : Z }.
Definition ms_new (b : list Z) : mstream := MS b 0 0.
(** MemoryStream.cpp 50-55, 62-65 *)
Definition ms_open (s : mstream) : mstream := MS (mbytes s) 0 0.
Definition ms_close (s : mstream) : mstream := MS (mbytes s) 0 (mwlen s).
(** MemoryStream.cpp 69, 100 *)
Definition available (s : mstream) (length : Z) : out Z :=
  let* e := chk64 (mpos s + length) in
  if e <? zlen (mbytes s) then Val length else chk64 (zlen (mbytes s) - mpos s).
(** MemoryStream.cpp 67-75 into the caller's [buffer] *)
Definition ms_read (s : mstream) (buffer : list Z) (length : Z) : out (Z * list Z * mstream) :=
  let* a := available s length in
  if a >? 0 then
    let* buffer := memcpy buffer 0 (mbytes s) (mpos s) a in
    let* p := chk64 (mpos s + a) in Val (a, buffer, MS (mbytes s) p (mwlen s))
  else Val (0, buffer, s).
(** MemoryStream.cpp 82-91 *)
Definition ms_seek (s : mstream) (p : Z) : mstream := MS (mbytes s) (if p <? zlen (mbytes s) then p else mpos s) (mwlen s).
Definition ms_move (s : mstream) (offset : Z) : out mstream := let* p := chk64 (mpos s + offset) in Val (ms_seek s p).
(** MemoryStream.cpp 98-105: memcpy gets [length], not [available]; a negative length becomes a huge size_t *)
Definition ms_write (s : mstream) (buffer : list Z) (length : Z) : out (Z * mstream) :=
  let* a := available s length in
  let* b := (if length <? 0 then UB else memcpy (mbytes s) (mpos s) buffer 0 length) in
  let* p := chk64 (mpos s + a) in
  Val (a, MS b p (if p >? mwlen s then p else mwlen s)).
