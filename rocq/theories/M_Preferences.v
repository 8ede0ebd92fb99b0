(** M_Preferences.v -- model of src/core/Preferences.cpp on the models of Hashtable, String, StringTokenizer, StringList and UTF-8.
    The values are String objects on a heap of their own: a pointer is 0 (nullptr) or 1 + the index of a cell, a deleted cell is
    None. The file is the list of its bytes: load gets the content of an existing file that is read completely (56-65, else the
    call returns or throws), save yields what is written to a file that could be opened (119-130). Log output is not modelled.
    setValue and value for double are not modelled. [fuel] bounds the loops of the hash table. *)
From Verif Require Import Base M_Utf8 M_String M_Hashtable M_Tokenizer M_StringList.

Definition vheap := list (option jstr).
Definition vderef (h : vheap) (p : Z) : out jstr := match lget h (p - 1) with Some (Some s) => Val s | _ => UB end.
Definition vfree (h : vheap) (p : Z) : out vheap := let* _ := vderef h p in wr h (p - 1) None.
Record prefs := PF { pnodes : hheap; ptab : htab; pvals : vheap }.
(** Preferences.cpp 36-38 *)
Definition prefs_new : prefs := PF [] ht_new [].
(** texts in the source: "\r\n" "\r" "\n" "\\n" "true" "false" *)
Definition l_crlf := str_of [13; 10].
Definition l_cr := str_of [13].
Definition l_lf := str_of [10].
Definition l_bsn := str_of [92; 110].
Definition l_true := str_of [116; 114; 117; 101].
Definition l_false := str_of [102; 97; 108; 115; 101].
(** String::replace on a string of its own length *)
Definition replace_all (s o n : jstr) : out jstr := replace_str s o n (S (Z.to_nat (len s))).
(** Preferences.cpp 189-192 *)
Definition has_value (p : prefs) (key : jstr) (fuel : nat) : out bool := let* v := ht_get (pnodes p) (ptab p) key fuel in Val (negb (v =? 0)).
(** Preferences.cpp 194-203 *)
Definition set_value (p : prefs) (key value : jstr) (fuel : nat) : out prefs :=
  let* tmp := copy_ctor value in
  let* r := replace_all tmp l_crlf l_bsn in let* tmp := assign tmp r in
  let* r := replace_all tmp l_cr l_bsn in let* tmp := assign tmp r in
  let* r := replace_all tmp l_lf l_bsn in let* tmp := assign tmp r in
  let* actual := copy_ctor tmp in
  let vals := pvals p ++ [Some actual] in
  let* (old, h, t) := ht_put (pnodes p) (ptab p) key (zlen vals) fuel in
  let* vals := (if negb (old =? 0) then vfree vals old else Val vals) in
  Val (PF h t vals).
(** Preferences.cpp 205-208 *)
Definition set_int (p : prefs) (key : jstr) (n : Z) (fuel : nat) : out prefs := let* s := value_of_int n in set_value p key s fuel.
(** Preferences.cpp 215-218 *)
Definition set_bool (p : prefs) (key : jstr) (b : bool) (fuel : nat) : out prefs := set_value p key (if b then l_true else l_false) fuel.
(** Preferences.cpp 220-225; kEmptyString is made from "" (String.h 722) *)
Definition value (p : prefs) (key : jstr) (fuel : nat) : out jstr :=
  let* r := ht_get (pnodes p) (ptab p) key fuel in
  if r =? 0 then copy_ctor (str_of []) else let* s := vderef (pvals p) r in copy_ctor s.
(** Preferences.cpp 227-232 *)
Definition value_or (p : prefs) (key dflt : jstr) (fuel : nat) : out jstr :=
  let* r := ht_get (pnodes p) (ptab p) key fuel in
  if r =? 0 then copy_ctor dflt else
  let* s := vderef (pvals p) r in if len s =? 0 then copy_ctor dflt else copy_ctor s.
(** Preferences.cpp 234-248: every exception gives the default *)
Definition value_int (p : prefs) (key : jstr) (dflt : Z) (fuel : nat) : out Z :=
  let* r := value p key fuel in
  if len r =? 0 then Val dflt else match to_int r with Exn => Val dflt | o => o end.
(** Preferences.cpp 268-275 *)
Definition value_bool (p : prefs) (key : jstr) (dflt : bool) (fuel : nat) : out bool :=
  let* r := value p key fuel in
  if len r =? 0 then Val dflt else equals r l_true.
(** Preferences.cpp 41-51: the values, then the base class clears the table (Hashtable.cpp 49-52) *)
Fixpoint drop_values (h : hheap) (t : htab) (vals : vheap) (it : hiter) (fuel : nat) (k : nat) : out vheap :=
  match k with
  | O => Fuel
  | S k =>
    let* (b, it) := it_has_next t it fuel in
    if b then
      let* (e, it) := it_next h t it fuel in
      match e with
      | None => UB
      | Some e => let* v := ht_get h t (nkey e) fuel in
                  let* vals := (if v =? 0 then Val vals else vfree vals v) in drop_values h t vals it fuel k
      end
    else Val vals
  end.
Definition destroy (p : prefs) (fuel : nat) : out prefs :=
  let* vals := drop_values (pnodes p) (ptab p) (pvals p) it_new fuel fuel in
  let* (h, t) := ht_clear (pnodes p) (ptab p) fuel in Val (PF h t vals).

(** Preferences.cpp 81-84; operator+ copies its left side and appends (String.cpp 1253-1258) *)
Fixpoint break_loop (v : jstr) (fuel : nat) : out jstr :=
  match fuel with
  | O => Fuel
  | S fuel =>
    let* pos := index_of_str v l_bsn 0 in
    if pos >? 0 then
      let* a := substring v 0 pos in
      let* x := copy_ctor a in let* x := append x l_lf in
      let* b := substring_from v (pos + 2) in
      let* y := copy_ctor x in let* y := append y b in
      let* v := assign v y in break_loop v fuel
    else Val v
  end.
(** Preferences.cpp 87-106 *)
Fixpoint unescape_loop (v : jstr) (index : Z) (fuel : nat) : out jstr :=
  match fuel with
  | O => Fuel
  | S fuel =>
    if index <? len v then
      let* c := char_at v index in
      let* v := (if (c =? 92) && (index + 1 <? len v) then
                   let* d := char_at v (index + 1) in
                   let* v := (if d =? 116 then let* v := set_char_at v index 9 in delete_char_at v (index + 1) else Val v) in
                   if d =? 92 then delete_char_at v (index + 1) else Val v
                 else Val v) in
      unescape_loop v (index + 1) fuel
    else Val v
  end.
(** Preferences.cpp 74-109: one line *)
Definition load_line (p : prefs) (line : jstr) (fuel : nat) : out prefs :=
  let* pos := index_of_char line 61 0 in
  if pos >? 0 then
    let* k := substring line 0 pos in let* key := trim k in
    let* v := substring_from line (pos + 1) in let* v := trim v in
    let* v := break_loop v (S (Z.to_nat (len v))) in
    let* v := unescape_loop v 0 (S (Z.to_nat (len v))) in
    set_value p key v fuel
  else Val p.
(** Preferences.cpp 70-110 *)
Fixpoint load_lines (p : prefs) (st : tok) (fuel : nat) (k : nat) : out prefs :=
  match k with
  | O => Fuel
  | S k =>
    let* (b, st) := has_next st in
    if b then
      let* (o, st) := next st in
      match o with None => Exn | Some line => let* p := load_line p line fuel in load_lines p st fuel k end
    else Val p
  end.
(** Preferences.cpp 54-113; String(ByteArray) (String.cpp 108-125) decodes the bytes and the terminator behind them *)
Definition load (p : prefs) (bytes : list Z) (fuel : nat) : out prefs :=
  let* data := (if zlen bytes >? 0 then let* xs := utf8_decode (bytes ++ [0]) in Val (str_of xs) else Val str_new) in
  let* st := tok_new data l_crlf false in
  load_lines p st fuel (S (Z.to_nat (len data))).

(** Preferences.cpp 143-160: index is a uint32 *)
Fixpoint escape_loop (v : jstr) (index : Z) (fuel : nat) : out jstr :=
  match fuel with
  | O => Fuel
  | S fuel =>
    if index <? len v then
      let* c := char_at v index in
      if c =? 92 then let* v := insert_char v (u32 (index + 1)) 92 in escape_loop v (u32 (u32 (index + 1) + 1)) fuel
      else if c =? 9 then
        let* v := set_char_at v index 92 in let* v := insert_char v (u32 (index + 1)) 116 in escape_loop v (u32 (u32 (index + 1) + 1)) fuel
      else escape_loop v (u32 (index + 1)) fuel
    else Val v
  end.
(** Preferences.cpp 132-168: the lines *)
Fixpoint entry_loop (p : prefs) (it : hiter) (entries : slist) (fuel : nat) (k : nat) : out slist :=
  match k with
  | O => Fuel
  | S k =>
    let* (b, it) := it_has_next (ptab p) it fuel in
    if b then
      let* (e, it) := it_next (pnodes p) (ptab p) it fuel in
      match e with
      | None => UB
      | Some e =>
        let* key := copy_ctor (nkey e) in
        let* v := value p key fuel in
        let* v := escape_loop v 0 (S (Z.to_nat (len v))) in
        let* key := append_char key 61 in
        let* key := append key v in
        let* key := append key l_lf in
        let* entries := sl_append entries key in entry_loop p it entries fuel k
      end
    else Val entries
  end.
(** Preferences.cpp 174-178: the range based for loop over the list; toCString is UTF-8 (String.cpp 215-225) *)
Fixpoint write_lines (d : list jstr) (i : Z) (k : nat) : out (list Z) :=
  match k with
  | O => Val []
  | S k => let* s := rd d i in
           let* xs := memcpy (zeros (len s)) 0 (buf s) 0 (len s) in
           let* bytes := utf8_encode xs in
           let* r := write_lines d (i + 1) k in Val (bytes ++ r)
  end.
(** Preferences.cpp 115-187 *)
Definition save (p : prefs) (fuel : nat) : out (list Z) :=
  let* entries := entry_loop p it_new sl_new fuel fuel in
  let* entries := sl_sort entries in
  write_lines (sdata entries) 0 (Z.to_nat (ssize entries)).
