(** S_ZipCalls.v -- clients of ZipOutputFile: which calls they make, and what they mean to store. *)
From Verif Require Import Base M_Zip S_Zip.

(** ** the calls a client makes to store files: putNextEntry, then write any number of times and closeEntry, or writeAndClose *)
Inductive feed := Pieces (l : list (list Z * Z * Z)) | Whole (content : list Z).
Fixpoint write_pieces (l : list (list Z * Z * Z)) (s : zout) : out zout :=
  match l with [] => Val s | (data, offset, length) :: l => let* s := zo_write data offset length s in write_pieces l s end.
Definition feed_entry (d : feed) (s : zout) : out zout :=
  match d with Pieces l => let* s := write_pieces l s in zo_close_entry s | Whole c => zo_write_and_close c s end.
Fixpoint store_files (l : list (Z * feed)) (s : zout) : out zout :=
  match l with [] => Val s | (p, d) :: l => let* s := zo_put p s in let* s := feed_entry d s in store_files l s end.
Definition make_archive (existing : option (list Z)) (h : Z -> zentry) (l : list (Z * feed)) : out (list Z) :=
  let* s := store_files l (zo_open existing h) in zo_close s.

(** the part of a piece that is written *)
Definition piece (x : list Z * Z * Z) : list Z := let '(data, offset, len) := x in firstn (Z.to_nat len) (skipn (Z.to_nat offset) data).
Definition piece_ok (x : list Z * Z * Z) : Prop := let '(data, offset, len) := x in 0 <= offset /\ 0 <= len /\ offset + len <= zlen data.
(** the content of a file *)
Definition feed_data (d : feed) : list Z := match d with Pieces l => flat_map piece l | Whole c => c end.
Definition feed_ok (d : feed) : Prop := match d with Pieces l => Forall piece_ok l | Whole _ => True end.
(** the calls stand for the items *)
Definition stands_for (h : Z -> zentry) (x : Z * feed) (i : item) : Prop :=
  ename (h (fst x)) = iname i /\ eextra (h (fst x)) = iextra i /\ ecomment (h (fst x)) = icomment i /\ feed_ok (snd x) /\ feed_data (snd x) = idata i.
(** an entry object tells what the directory says about a member *)
Definition describes (m : member) (e : zentry) : Prop := ename e = mname m /\ eusize e = zlen (mdata m) /\ ecsize e = zlen (packed m) /\ eoff e = moffset m.
