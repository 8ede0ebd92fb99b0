(** M_Tokenizer.v -- model of src/core/StringTokenizer.cpp. *)
From Verif Require Import Base M_String.

(** include/core/StringTokenizer.h: mStr, mDelimiters (copies), mPosition, mNewStart, mRetDelim *)
Record tok := TK { tstr : jstr; tdel : jstr; tpos : Z; tnew : Z; tret : bool }.
(** StringTokenizer.cpp 36-44 *)
Definition tok_new (s d : jstr) (ret : bool) : out tok :=
  let* s := copy_ctor s in let* d := copy_ctor d in Val (TK s d 0 (-1) ret).
(** 52-56 *)
Fixpoint is_delim_loop (d : jstr) (c cnt : Z) (k : nat) : out bool :=
  match k with
  | O => Val false
  | S k => let* x := char_at d cnt in if x =? c then Val true else is_delim_loop d c (cnt + 1) k
  end.
(** StringTokenizer.cpp 46-57 *)
Definition is_delim (t : tok) (i : Z) : out bool :=
  let* c := char_at (tstr t) i in is_delim_loop (tdel t) c 0 (Z.to_nat (len (tdel t))).
(** the loops 64-68 (until a delimiter, [want] = true) and 79-83 (until another character); k iterations reach the end *)
Fixpoint scan (t : tok) (want : bool) (pos : Z) (k : nat) : out Z :=
  match k with
  | O => Val pos
  | S k => let* b := is_delim t pos in if Bool.eqb b want then Val pos else scan t want (pos + 1) k
  end.
(** StringTokenizer.cpp 59-70 *)
Definition find_token_end (t : tok) (start : Z) : out Z := scan t true start (Z.to_nat (len (tstr t) - start)).
(** StringTokenizer.cpp 72-85 *)
Definition find_delimiter_end (t : tok) (start : Z) : out Z :=
  let* stop := (if tret t && (start <? len (tstr t)) then is_delim t start else Val false) in
  if stop then Val start else scan t false start (Z.to_nat (len (tstr t) - start)).
(** StringTokenizer.cpp 87-92 *)
Definition has_next (t : tok) : out (bool * tok) :=
  let* n := (if tnew t <? 0 then find_delimiter_end t (tpos t) else Val (tnew t)) in
  Val (n <? len (tstr t), TK (tstr t) (tdel t) (tpos t) n (tret t)).
(** StringTokenizer.cpp 94-116: the new state is kept also when the exception is thrown; None: thrown *)
Definition next (t : tok) : out (option jstr * tok) :=
  let* p := (if tnew t >? -1 then Val (tnew t) else find_delimiter_end t (tpos t)) in
  let t := TK (tstr t) (tdel t) p (-1) (tret t) in
  if p >=? len (tstr t) then Val (None, t) else
  let* one := (if tret t then is_delim t p else Val false) in
  let* e := (if one then Val (p + 1) else find_token_end t p) in
  let* r := substring (tstr t) p e in
  Val (Some r, TK (tstr t) (tdel t) e (-1) (tret t)).
