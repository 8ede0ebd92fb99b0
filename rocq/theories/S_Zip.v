(** S_Zip.v -- the ZIP format (PKWARE APPNOTE 4.3) and CRC-32, independent of the model. *)
From Verif Require Import Base S_Utf8 S_Serializer S_Inflate.

(** ** CRC-32 (APPNOTE 4.4.7; ISO 3309): reflected polynomial 0xEDB88320, preset to ones, complemented at the end *)
Definition crc32_bit (r : Z) : Z := if Z.odd r then Z.lxor (r / 2) 3988292384 else r / 2.
Definition crc32_byte (r b : Z) : Z := Nat.iter 8 crc32_bit (Z.lxor r b).
Definition crc32 (data : list Z) : Z := 4294967295 - fold_left crc32_byte data 4294967295.

(** ** the records of an archive *)
(** what both headers of a file tell: version needed, flags, method, time, date, CRC, compressed and uncompressed size *)
Record meta := Meta { version : Z; flags : Z; method : Z; time : Z; date : Z; crc : Z; csize : Z; usize : Z }.
Definition meta_bytes (m : meta) : list Z :=
  le_bytes 2 (version m) ++ le_bytes 2 (flags m) ++ le_bytes 2 (method m) ++ le_bytes 2 (time m) ++ le_bytes 2 (date m) ++ le_bytes 4 (crc m) ++ le_bytes 4 (csize m) ++ le_bytes 4 (usize m).
(** 4.3.7: the local file header *)
Definition local (m : meta) (name extra : list Z) : list Z :=
  le_bytes 4 67324752 ++ meta_bytes m ++ le_bytes 2 (zlen name) ++ le_bytes 2 (zlen extra) ++ name ++ extra.                       (* 0x04034b50 *)
(** 4.3.12: the central directory header.  [made]: version made by; [attr]: disk number, internal and external attributes (8 bytes) *)
Definition central (made : Z) (m : meta) (attr : list Z) (offset : Z) (name extra comment : list Z) : list Z :=
  le_bytes 4 33639248 ++ le_bytes 2 made ++ meta_bytes m ++ le_bytes 2 (zlen name) ++ le_bytes 2 (zlen extra) ++ le_bytes 2 (zlen comment) ++ attr ++
  le_bytes 4 offset ++ name ++ extra ++ comment.                                                                                   (* 0x02014b50 *)
(** 4.3.16: the end of central directory record.  [disks]: number of this disk, disk of the directory, entries on this disk (6 bytes) *)
Definition ending (disks : list Z) (count size start : Z) (comment : list Z) : list Z :=
  le_bytes 4 101010256 ++ disks ++ le_bytes 2 count ++ le_bytes 4 size ++ le_bytes 4 start ++ le_bytes 2 (zlen comment) ++ comment.   (* 0x06054b50 *)
Definition utf8s (name : list Z) : list Z := concat (map utf8 name).

(** ** the archive of uncompressed files (items, in this order), with all other fields 0; [directory]: the first item is stored at [off] *)
Record item := Item { iname : list Z; iextra : list Z; icomment : list Z; idata : list Z }.
Definition stored_meta (data : list Z) : meta := Meta 0 0 0 0 0 (crc32 data) (zlen data) (zlen data).
Definition stored_item (i : item) : list Z := local (stored_meta (idata i)) (utf8s (iname i)) (utf8s (iextra i)) ++ idata i.
Definition stored_items (is : list item) : list Z := flat_map stored_item is.
Fixpoint directory (off : Z) (is : list item) : list Z :=
  match is with
  | [] => []
  | i :: is => central 0 (stored_meta (idata i)) (repeat 0 8) off (utf8s (iname i)) (utf8s (iextra i)) (utf8s (icomment i)) ++ directory (off + zlen (stored_item i)) is
  end.
Definition stored_archive (is : list item) : list Z :=
  stored_items is ++ directory 0 is ++
  ending (le_bytes 2 0 ++ le_bytes 2 0 ++ le_bytes 2 (zlen is)) (zlen is) (zlen (directory 0 is)) (zlen (stored_items is)) [].
(** strings of code units other than 0, that do not start with a byte order mark *)
Definition name_ok (name : list Z) : Prop := Forall (fun c => 0 < c < 65536) name /\ hd 0 name <> 65279 /\ zlen (utf8s name) < 65536.
Definition item_ok (i : item) : Prop := name_ok (iname i) /\ name_ok (iextra i) /\ name_ok (icomment i) /\ Forall byte (idata i).
(** the limits of the format *)
Definition items_ok (is : list item) : Prop := Forall item_ok is /\ zlen is < 65536 /\ zlen (stored_archive is) < 2 ^ 32.

(** ** any archive.  A member of the directory: its fields, and what is stored locally (the local header may differ from the directory) *)
Record member := Member { mname : list Z; mmade : Z; mmeta : meta; mattr : list Z; moffset : Z; mextra : list Z; mcomment : list Z; lmeta : meta; lname : list Z; lextra : list Z;
  packed : list Z; mdata : list Z }.
Definition member_record (m : member) : list Z := central (mmade m) (mmeta m) (mattr m) (moffset m) (utf8s (mname m)) (mextra m) (mcomment m).
(** the packed data stands for the data: stored, or deflated (the limit: see S_Inflate) *)
Definition unpacks (meth : Z) (packed data : list Z) : Prop :=
  meth = 0 /\ packed = data \/
  meth = 8 /\ exists bs rest, bs <> [] /\ stream_ok (Some 32768) 0 [] bs /\ bits_of packed = stream_bits bs ++ rest /\ stream_out bs = data.
(** the bytes of an extra field or a comment, as far as the first zero, are text *)
Fixpoint to_zero (l : list Z) : list Z := match l with [] => [] | b :: l => if b =? 0 then [] else b :: to_zero l end.
Definition is_text (l : list Z) : Prop := Forall byte l /\ exists t, utf8_meaning (to_zero l) = Units t.
Definition placed (content : list Z) (off : Z) (block : list Z) : Prop := exists p s, content = p ++ block ++ s /\ zlen p = off.
Definition member_ok (content : list Z) (m : member) : Prop :=
  name_ok (mname m) /\ is_text (mextra m) /\ is_text (mcomment m) /\ zlen (mextra m) < 65536 /\ zlen (mcomment m) < 65536 /\ zlen (mattr m) = 8 /\
  csize (mmeta m) = zlen (packed m) /\ usize (mmeta m) = zlen (mdata m) /\ zlen (mdata m) < 2 ^ 32 /\ Forall byte (packed m) /\
  zlen (lname m) < 65536 /\ zlen (lextra m) < 65536 /\ (method (lmeta m) = 0 \/ method (lmeta m) = 8) /\ unpacks (method (lmeta m)) (packed m) (mdata m) /\
  placed content (moffset m) (local (lmeta m) (lname m) (lextra m) ++ packed m).
(** the file ends with the record, at position [at_]; its signature does not occur behind that position (in the comment) *)
Definition has_signature (content : list Z) (p : Z) : Prop := placed content p (le_bytes 4 101010256).
Record archive := Archive { disks : list Z; start : Z; archive_comment : list Z; members : list member }.
Definition archive_ok (content : list Z) (a : archive) : Prop :=
  let size := zlen (flat_map member_record (members a)) in
  zlen content < 2 ^ 32 /\ Forall byte content /\ zlen (members a) < 65536 /\ zlen (archive_comment a) < 65536 /\ zlen (disks a) = 6 /\
  Forall (member_ok content) (members a) /\
  placed content (start a) (flat_map member_record (members a)) /\
  exists pre, content = pre ++ ending (disks a) (zlen (members a)) size (start a) (archive_comment a) /\
    (pre <> [] \/ archive_comment a = []) /\ forall q, zlen pre < q <= zlen content - 22 -> ~ has_signature content q.
