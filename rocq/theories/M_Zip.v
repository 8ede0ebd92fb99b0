(** M_Zip.v -- model of src/core/ZipFile.cpp and src/core/ZipOutputFile.cpp, with the parts of File.cpp and MemoryStream.cpp they use.
    Simplifications: a file is its bytes and the position of the one handle that is open on it (no buffering, no other process, the disk is not full, every open succeeds); the
    temporary file jmzipdata.tmp is the file [ztemp] (it exists between putNextEntry and closeEntry; other users of that name are left out); allocation succeeds; the list of entries
    is a list (LinkedList: M_LinkedList.v); reference counts are left out.  ZipEntry objects are cells of a heap, so that one object can be passed twice.
    Character and byte strings are M_String's lists of code units, and lists of bytes. *)
From Verif Require Import Base M_Utf8 M_Serializer M_Inflate.

(** ** files *)
Record file := F { fc : list Z; fp : Z }.
(** fread: at most n bytes from the position on (File.cpp 677-696; MemoryStream.cpp 67-80) *)
Definition f_read (f : file) (n : Z) : list Z * file :=
  let got := firstn (Z.to_nat n) (skipn (Z.to_nat (fp f)) (fc f)) in (got, F (fc f) (fp f + zlen got)).
(** readFully into a ByteArray of n zeros: what is missing stays (Stream.cpp 48-51) *)
Definition read_over (f : file) (old : list Z) : list Z * file := let (got, f) := f_read f (zlen old) in (got ++ skipn (length got) old, f).
(** fwrite (File.cpp 698-701): behind the end the gap is filled with zeros *)
Definition f_write (f : file) (d : list Z) : file :=
  let base := fc f ++ repeat 0 (Z.to_nat (fp f - zlen (fc f))) in
  F (firstn (Z.to_nat (fp f)) base ++ d ++ skipn (Z.to_nat (fp f) + length d) base) (fp f + zlen d).
(** fseek (File.cpp 657-662); all positions used here come from uint32 *)
Definition f_seek (f : file) (p : Z) : file := F (fc f) p.
(** MemoryStream.cpp 82-85: beyond the end the position stays *)
Definition m_seek (f : file) (p : Z) : file := F (fc f) (if p <? zlen (fc f) then p else fp f).

(** ** entries *)
(** include/core/ZipFile.h 78-85 *)
Record zentry := ZE { ename : list Z; eextra : list Z; ecomment : list Z; eusize : Z; ecsize : Z; eoff : Z; ecrc : Z; edata : Z }.
(** ZipFile.cpp 213-221 *)
Definition ze_new (name : list Z) : zentry := ZE name [] [] 0 0 0 0 0.
(** ZipFile.cpp 238-241 *)
Definition is_directory (e : zentry) : bool := false.

(** ** CRC32, ZipOutputFile.cpp 36-53: s is an array of (signed) char *)
Fixpoint crc32_bits (n : nat) (crc ch : Z) : Z :=
  match n with
  | O => crc
  | S n =>
    let b := Z.land (Z.lxor (u32 ch) crc) 1 in
    let crc := Z.shiftr crc 1 in
    let crc := if b =? 0 then crc else Z.lxor crc 3988292384 in
    crc32_bits n crc (Z.shiftr ch 1)
  end.
Fixpoint crc32_loop (s : list Z) (crc : Z) : Z := match s with [] => crc | b :: s => crc32_loop s (crc32_bits 8 crc (s8 b)) end.
Definition CRC32 (s : list Z) : Z := u32 (Z.lnot (crc32_loop s 4294967295)).

(** ** ZipOutputFile *)
(** mFile, mTemp, mEntries (pointers) and the ZipEntry objects *)
Record zout := ZO { zfile : file; ztemp : option file; zents : list Z; zheap : Z -> zentry }.
Definition put_heap (h : Z -> zentry) (p : Z) (e : zentry) : Z -> zentry := fun q => if q =? p then e else h q.
Definition put16 (o v : Z) (b : list Z) : out (list Z) := let* (_, b) := serializeLEInt16 b o (s16 v) in Val b.
Definition put32 (o v : Z) (b : list Z) : out (list Z) := let* (_, b) := serializeLEInt32 b o (s32 v) in Val b.
(** ZipOutputFile.cpp 62-66: the file is created if it does not exist, and not truncated if it does *)
Definition zo_open (existing : option (list Z)) (h : Z -> zentry) : zout := ZO (F (match existing with Some c => c | None => [] end) 0) None [] h.
(** ZipOutputFile.cpp 203-214.  All 30 bytes of the array are assigned *)
Definition local_header (nl el : Z) : out (list Z) :=
  let* b := put32 0 67324752 (repeat 0 30) in let* b := put16 4 0 b in let* b := put16 6 0 b in let* b := put16 8 0 b in let* b := put16 10 0 b in let* b := put16 12 0 b in
  let* b := put32 14 0 b in let* b := put32 18 0 b in let* b := put32 22 0 b in let* b := put16 26 nl b in put16 28 el b.
(** ZipOutputFile.cpp 195-227 *)
Definition zo_put (p : Z) (s : zout) : out zout :=
  let e := zheap s p in
  let off := u32 (fp (zfile s)) in
  let* cname := utf8_encode (ename e) in
  let* cextra := utf8_encode (eextra e) in
  let* lfh := local_header (zlen cname) (zlen cextra) in
  let f := f_write (zfile s) lfh in
  let f := if zlen cname >? 0 then f_write f cname else f in
  let f := if zlen cextra >? 0 then f_write f cextra else f in
  Val (ZO f (Some (F [] 0)) (zents s ++ [p]) (put_heap (zheap s) p (ZE (ename e) (eextra e) (ecomment e) (eusize e) (ecsize e) off (ecrc e) (u32 (fp f))))).
(** ZipOutputFile.cpp 229-232: [data] is the memory behind the pointer *)
Definition zo_write (data : list Z) (offset length : Z) (s : zout) : out zout :=
  if (offset <? 0) || (length <? 0) || (offset + length >? zlen data) then UB else
  match ztemp s with
  | None => UB
  | Some t => Val (ZO (zfile s) (Some (f_write t (firstn (Z.to_nat length) (skipn (Z.to_nat offset) data)))) (zents s) (zheap s))
  end.
(** 144-157, 179-192: the data, then CRC and sizes in the local header *)
Definition finish_entry (p : Z) (usize : Z) (buffer : list Z) (s : zout) : out zout :=
  let e := zheap s p in
  let crc := CRC32 buffer in
  let f := f_write (zfile s) buffer in
  let pos := u32 (fp f) in
  let* b := put32 0 crc (repeat 0 12) in let* b := put32 4 usize b in let* b := put32 8 usize b in
  let f := f_seek (f_write (f_seek f (u32 (eoff e + 14))) b) pos in
  Val (ZO f None (zents s) (put_heap (zheap s) p (ZE (ename e) (eextra e) (ecomment e) usize usize (eoff e) crc (edata e)))).
(** LinkedList::last(): nullptr if the list is empty; then the access through it is undefined *)
Definition last_entry (s : zout) : out Z := match rev (zents s) with [] => UB | p :: _ => Val p end.
(** ZipOutputFile.cpp 127-158 *)
Definition zo_close_entry (s : zout) : out zout :=
  let* p := last_entry s in
  match ztemp s with
  | None => UB
  | Some t =>
    let usize := u32 (fp t) in
    let (buffer, _) := read_over (f_seek t 0) (repeat 0 (Z.to_nat usize)) in
    finish_entry p usize buffer s
  end.
(** ZipOutputFile.cpp 160-193: [content] is the content of the other file *)
Definition zo_write_and_close (content : list Z) (s : zout) : out zout :=
  let* p := last_entry s in
  let usize := u32 (zlen content) in
  let (buffer, _) := read_over (F content 0) (repeat 0 (Z.to_nat usize)) in
  match ztemp s with None => UB | Some _ => finish_entry p usize buffer s end.
(** ZipOutputFile.cpp 82-99.  All 46 bytes are assigned *)
Definition central_header (e : zentry) (nl el cl : Z) : out (list Z) :=
  let* b := put32 0 33639248 (repeat 0 46) in let* b := put16 4 0 b in let* b := put16 6 0 b in let* b := put16 8 0 b in let* b := put16 10 0 b in let* b := put16 12 0 b in let* b := put16 14 0 b in
  let* b := put32 16 (ecrc e) b in let* b := put32 20 (ecsize e) b in let* b := put32 24 (eusize e) b in let* b := put16 28 nl b in let* b := put16 30 el b in let* b := put16 32 cl b in
  let* b := put16 34 0 b in let* b := put16 36 0 b in let* b := put32 38 0 b in put32 42 (eoff e) b.
(** 74-106 *)
Fixpoint write_directory (es : list zentry) (f : file) : out file :=
  match es with
  | [] => Val f
  | e :: es =>
    let* cname := utf8_encode (ename e) in
    let* cextra := utf8_encode (eextra e) in
    let* ccomment := utf8_encode (ecomment e) in
    let* cdfh := central_header e (zlen cname) (zlen cextra) (zlen ccomment) in
    let f := f_write f cdfh in
    let f := if zlen cname >? 0 then f_write f cname else f in
    let f := if zlen cextra >? 0 then f_write f cextra else f in
    let f := if zlen ccomment >? 0 then f_write f ccomment else f in
    write_directory es f
  end.
(** 111-120 *)
Definition end_record (count size start : Z) : out (list Z) :=
  let* b := put32 0 101010256 (repeat 0 22) in let* b := put16 4 0 b in let* b := put16 6 0 b in let* b := put16 8 count b in let* b := put16 10 count b in
  let* b := put32 12 size b in let* b := put32 16 start b in put16 20 0 b.
(** ZipOutputFile.cpp 68-125: the content of the file afterwards *)
Definition zo_close (s : zout) : out (list Z) :=
  let start := u32 (fp (zfile s)) in
  let* f := write_directory (map (zheap s) (zents s)) (zfile s) in
  let e := u32 (fp f) in
  let* b := end_record (zlen (zents s)) (u32 (e - start)) start in
  Val (fc (f_write f b)).

(** ** ZipFile on a stream: a File, or a MemoryStream *)
Inductive source := OnFile | OnMemory.
Definition seek (k : source) : file -> Z -> file := match k with OnFile => f_seek | OnMemory => m_seek end.
(** ZipFile.cpp 75-90: the do-while loop; [fuel] is the number of rounds until seek becomes 0 *)
Fixpoint find_end (k : source) (fuel : nat) (f : file) (eocd : list Z) (pos : Z) : out (list Z * file) :=
  match fuel with
  | O => Exn
  | S fuel =>
    let (eocd, f) := read_over (seek k f pos) eocd in
    let* signature := deserializeLEInt32 (eocd ++ [0]) 0 in
    if u32 signature =? 101010256 then Val (eocd, f) else find_end k fuel f eocd (u32 (pos - 1))
  end.
Definition rounds (pos : Z) : nat := Z.to_nat (if pos =? 0 then 4294967296 else pos).
(** the bytes of String((char* )&dict[a], n): a ByteArray has one zero behind its bytes *)
Definition dict_bytes (dict : list Z) (a n : Z) : out (list Z) :=
  if (a >? zlen dict + 1) || (a + n >? zlen dict + 1) then UB else Val (firstn (Z.to_nat n) (skipn (Z.to_nat a) (dict ++ [0]))).
(** String.cpp 61-75 *)
Definition dict_string (dict : list Z) (a n : Z) : out (list Z) := let* b := dict_bytes dict a n in utf8_decode (b ++ [0]).
(** ZipFile.cpp 101-130: [n] more records, index is uint32.  &dict[...] takes an int64: index + 46 ... is computed in uint32 before *)
Fixpoint read_directory (n : nat) (dict : list Z) (index : Z) : out (list zentry) :=
  match n with
  | O => Val []
  | S n =>
    let d := dict ++ [0] in
    let* csize := deserializeLEUInt32 d (u32 (index + 20)) in
    let* usize := deserializeLEUInt32 d (u32 (index + 24)) in
    let* fl := deserializeLEUInt16 d (u32 (index + 28)) in
    let* el := deserializeLEUInt16 d (u32 (index + 30)) in
    let* cl := deserializeLEUInt16 d (u32 (index + 32)) in
    let* offset := deserializeLEUInt32 d (u32 (index + 42)) in
    let* name := dict_string dict (u32 (index + 46)) fl in
    let* extra := dict_string dict (u32 (index + 46 + fl)) el in
    let* comment := dict_string dict (u32 (index + 46 + fl + el)) cl in
    let* rest := read_directory n dict (u32 (index + (46 + fl + el + cl))) in
    Val (ZE name extra comment usize csize offset 0 0 :: rest)
  end.
(** ZipFile.cpp 56-133: the entries, and the stream *)
Definition zf_open (k : source) (content : list Z) : out (list zentry * file) :=
  let length := u32 (zlen content) in
  let pos := u32 (length - 22) in
  let f := F content 0 in
  if length =? 0 then Val ([], f) else
  let* (eocd, f) := find_end k (rounds pos) f (repeat 0 22) pos in
  let* count := deserializeLEUInt16 (eocd ++ [0]) 10 in
  let* size := deserializeLEUInt32 (eocd ++ [0]) 12 in
  let* start := deserializeLEUInt32 (eocd ++ [0]) 16 in
  let (dict, f) := read_over (seek k f start) (repeat 0 (Z.to_nat size)) in
  let* es := read_directory (Z.to_nat count) dict 0 in
  Val (es, f).
(** ZipFile.cpp 145-156 *)
Definition zf_entry (es : list zentry) (name : list Z) : option zentry := List.find (fun e => if list_eq_dec Z.eq_dec (ename e) name then true else false) es.
(** ZipFile.cpp 140-143 *)
Definition zf_comment (content : list Z) : list Z := [].
(** ZipFile.cpp 163-166 *)
Definition zf_count (es : list zentry) : Z := u32 (zlen es).
(** what ZipFile.cpp 206 makes a MemoryStream of: the buffer (None: nullptr; a cell is None while indeterminate) and its alleged size *)
Record zstream := ZS { sbuf : option (list (option Z)); ssize : Z }.
Section Stream.
Context (lr : bool) (more : Z -> Z -> Z -> Z).   (* see M_Inflate *)
(** ZipFile.cpp 168-207 *)
Definition zf_stream (k : source) (f : file) (e : zentry) : out (zstream * file) :=
  let (h, f) := read_over (seek k f (eoff e)) (repeat 0 30) in
  let* signature := deserializeLEUInt32 (h ++ [0]) 0 in
  if negb (signature =? 67324752) then Exn else
  let* cm := deserializeLEUInt16 (h ++ [0]) 8 in
  let* fl := deserializeLEUInt16 (h ++ [0]) 26 in
  let* el := deserializeLEUInt16 (h ++ [0]) 28 in
  let (input, f) := read_over (seek k f (u32 (eoff e + 30 + fl + el))) (repeat 0 (Z.to_nat (ecsize e))) in
  let* b := (if cm =? 0 then
               if ecsize e >? eusize e then UB else Val (Some (map Some input ++ repeat None (Z.to_nat (eusize e - ecsize e))))
             else Val None) in
  let* b := (if cm =? 8 then let* (_, s) := inflate lr more (set_input (inf_new true) (input ++ [0])) in Val (ub s) else Val b) in
  Val (ZS b (eusize e), f).
End Stream.
(** MemoryStream.cpp 67-80: reading everything from that stream, into a buffer of the alleged size; beyond the block: undefined *)
Definition zs_read_all (s : zstream) : out (list (option Z)) :=
  if ssize s <=? 0 then Val [] else
  match sbuf s with None => UB | Some b => if ssize s >? zlen b then UB else Val (firstn (Z.to_nat (ssize s)) b) end.
