(** M_File.v -- model of the parts of src/core/File.cpp (Linux) that do not depend on the file system: path names, reading in pieces,
    tags. A File is its path name; the C string of the path (98-109) and the handle are not modelled. *)
From Verif Require Import Base M_Utf8 M_String M_Tokenizer M_StringList.

(** include/core/File.h 51 *)
Definition DIR_SEP : Z := 47.
(** File.cpp 139-151: the loop over [a]; a character that is deleted is followed by a look at the same position. k iterations *)
Fixpoint norm_loop (s : jstr) (a length prev : Z) (k : nat) : out (jstr * Z) :=
  match k with
  | O => Fuel
  | S k =>
    if a <? length then
      let* c := char_at s a in
      if (prev =? DIR_SEP) && (c =? DIR_SEP) then let* s := delete_char_at s a in norm_loop s a (length - 1) c k
      else norm_loop s (a + 1) length c k
    else Val (s, prev)
  end.
(** File.cpp 133-157 *)
Definition normalize (path : jstr) : out jstr :=
  let* s := copy_ctor path in
  let* (s, prev) := norm_loop s 0 (len s) 0 (S (Z.to_nat (len s))) in
  let* s := (if (prev =? DIR_SEP) && (len s >? 1) then delete_char_at s (len s - 1) else Val s) in copy_ctor s.
(** operator+ of String.cpp 1253-1258 *)
Definition plus (a b : jstr) : out jstr := let* x := copy_ctor a in append x b.
(** File.cpp 111-131 *)
Definition resolve (parent child : jstr) : out jstr :=
  let* sep := append_char str_new DIR_SEP in
  if (len parent <? 1) && (len child <? 1) then copy_ctor sep else
  let* c := char_at child 0 in
  if c =? DIR_SEP then let* e := equals parent sep in if e then copy_ctor child else plus parent child
  else let* e := equals parent sep in if e then plus parent child else let* x := plus parent sep in plus x child.
(** File.cpp 43-48 *)
Definition file_of_path (path : jstr) : out jstr := normalize path.
(** File.cpp 50-56 *)
Definition file_of_names (parent child : jstr) : out jstr :=
  if len child <? 1 then Exn else let* p := normalize parent in let* c := normalize child in resolve p c.
(** File.cpp 58-64 *)
Definition file_in (parent : jstr) (child : jstr) : out jstr :=
  if len child <? 1 then Exn else let* c := normalize child in let* p := copy_ctor parent in resolve p c.
(** File.cpp 559-564 *)
Definition parent (f : jstr) : out jstr := let* i := last_index_of_char f DIR_SEP in substring f 0 (if i <? 0 then 0 else i).
(** File.cpp 566-569 *)
Definition name (f : jstr) : out jstr := let* i := last_index_of_char f DIR_SEP in substring_from f (i + 1).
(** File.cpp 571-574; 46 is the full stop *)
Definition extension (f : jstr) : out jstr := let* i := last_index_of_char f 46 in substring_from f (i + 1).
(** File.cpp 291-298 *)
Definition is_hidden (f : jstr) : out bool := let* n := name f in let* c := char_at n 0 in Val (c =? 46).

(** File.cpp 682-696. [reads] are the answers of the coming calls of fread: how many bytes each delivers at most (it never delivers
    more than asked for, nor more than the rest of the file); when the list is used up fread delivers nothing. [pos] is the position
    in the file [content]; the buffer is [buf] *)
Fixpoint read_fully (content : list Z) (pos : Z) (buf : list Z) (rest count : Z) (reads : list Z) : out (Z * Z * list Z) :=
  match reads with
  | [] => Val (count, pos, buf)
  | n :: reads =>
    if rest >? 0 then
      let step := Z.min (Z.max 0 n) (Z.min rest (Z.max 0 (zlen content - pos))) in
      if step >? 0 then
        let* buf := memcpy buf count content pos step in
        read_fully content (pos + step) buf (rest - step) (count + step) reads
      else Val (count, pos, buf)
    else Val (count, pos, buf)
  end.

(** String.cpp 490-499 *)
Fixpoint split_loop (st : tok) (r : slist) (k : nat) : out slist :=
  match k with
  | O => Fuel
  | S k =>
    let* (b, st) := has_next st in
    if b then let* (o, st) := next st in match o with None => Exn | Some x => let* r := sl_append r x in split_loop st r k end
    else Val r
  end.
Definition split (s : jstr) (c : Z) : out slist :=
  let* delim := append_char str_new c in
  let* st := tok_new s delim false in split_loop st sl_new (S (Z.to_nat (len s))).
(** the attribute user.xdg.tags of the file: None if it does not exist *)
Definition xattr := option (list Z).
(** File.cpp 769-786: getxattr fails if the value is longer than the buffer of 4096 bytes *)
Definition get_tags (x : xattr) : out slist :=
  match x with
  | Some v => if (0 <? zlen v) && (zlen v <=? 4096) then let* t := utf8_decode (v ++ [0]) in split (str_of t) 44 else Val sl_new
  | None => Val sl_new
  end.
(** File.cpp 839-846, the call of setxattr succeeds; toCString is UTF-8 *)
Definition set_tags (tags : slist) : out xattr :=
  let* s := sl_join tags 44 in let* s := copy_ctor s in
  let* xs := memcpy (zeros (len s)) 0 (buf s) 0 (len s) in
  let* b := utf8_encode xs in Val (Some b).
(** File.cpp 854-864 *)
Definition add_tag (x : xattr) (tag : jstr) : out xattr :=
  let* tags := get_tags x in
  let* c := sl_contains tags tag in
  if negb c then let* tags := sl_append tags tag in set_tags tags else Val x.
(** File.cpp 871-881 *)
Definition remove_tag (x : xattr) (tag : jstr) : out xattr :=
  let* tags := get_tags x in
  let* c := sl_contains tags tag in
  if c then let* tags := sl_remove tags tag in set_tags tags else Val x.
