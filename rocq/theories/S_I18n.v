(** S_I18n.v -- the GNU .mo format (gettext manual, 10.3): what a message catalogue file says, and one way to write it. *)
From Verif Require Import Base S_Utf8 S_Serializer S_Hashtable S_Preferences.

(** a 32 bit word, least significant byte first, and a byte string, at an offset of a file *)
Definition bytes_at (file : list Z) (o : Z) (t : list Z) : Prop := exists p s, file = p ++ t ++ s /\ zlen p = o.
Definition word_at (file : list Z) (o v : Z) : Prop := bytes_at file o (le_bytes 4 v) /\ 0 <= v < 2 ^ 32.
(** a message: original and translation as bytes *)
Notation message := (list Z * list Z)%type (only parsing).
Definition magic_number : Z := 16 ^ 7 * 9 + 16 ^ 6 * 5 + 16 ^ 5 * 0 + 16 ^ 4 * 4 + 16 ^ 3 * 1 + 16 ^ 2 * 2 + 16 * 13 + 14.
(** a catalogue: revision 0; the tables of lengths and offsets and the strings may be anywhere, and may overlap *)
Definition catalogue (file : list Z) (ms : list message) : Prop :=
  word_at file 0 magic_number /\ word_at file 4 0 /\ word_at file 8 (zlen ms) /\
  exists O T, word_at file 12 O /\ word_at file 16 T /\
  forall i a b, lget ms i = Some (a, b) -> exists oa ob,
    word_at file (O + 8 * i) (zlen a) /\ word_at file (O + 8 * i + 4) oa /\ bytes_at file oa a /\
    word_at file (T + 8 * i) (zlen b) /\ word_at file (T + 8 * i + 4) ob /\ bytes_at file ob b.
(** a string ends at its first NUL (what follows are plural forms), and is UTF-8 *)
Fixpoint upto0 (t : list Z) : list Z := match t with [] => [] | c :: r => if c =? 0 then [] else c :: upto0 r end.
Definition msg (b : list Z) : list Z := file_text (upto0 b).
Definition utf8_ok (b : list Z) : Prop := utf8_meaning (upto0 b) = Units (msg b).
(** the translation of a text: the last message with that original *)
Fixpoint find_last (ms : list message) (k : list Z) : option (list Z) :=
  match ms with [] => None | (a, b) :: ms => match find_last ms k with Some x => Some x | None => if text_dec (msg a) k then Some b else None end end.
Definition translation (ms : list message) (k : list Z) : list Z := match find_last ms k with Some b => match one_line (msg b) with [] => k | t => t end | None => k end.
(** messages the code can take: original and translation are UTF-8; a translation that ends in CR leaves room behind it *)
Definition message_fits (m : message) : Prop := utf8_ok (fst m) /\ utf8_ok (snd m) /\ (last (msg (snd m)) 0 <> 13 \/ zlen (msg (snd m)) mod 16 <> 0).

(** the layout msgfmt uses, without hash table: header of 28 bytes, both tables, then the strings with a NUL behind each *)
Definition words (vs : list Z) : list Z := concat (map (le_bytes 4) vs).
Fixpoint table (ts : list (list Z)) (o : Z) : list Z := match ts with [] => [] | t :: ts => words [zlen t; o] ++ table ts (o + zlen t + 1) end.
Definition pool (ts : list (list Z)) : list Z := concat (map (fun t => t ++ [0]) ts).
Definition mo_image (ms : list message) : list Z :=
  let n := zlen ms in let d := 28 + 16 * n in
  words [magic_number; 0; n; 28; 28 + 8 * n; 0; d] ++
  table (map fst ms) d ++ table (map snd ms) (d + zlen (pool (map fst ms))) ++ pool (map fst ms) ++ pool (map snd ms).
