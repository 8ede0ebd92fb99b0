(** M_Exception.v -- model of src/core/Exception.cpp (Linux): the message and the stack trace of an exception. The line that the constructor writes to the log
    (line 17) is in M_Log.
    Simplifications: the text of a symbol as backtrace_symbols(3) answers it is a list of bytes without zero; printStackTrace is the bytes it writes to
    std::cerr; the number of the thread is the text [tid] that the stream makes of it. *)
From Verif Require Import Base M_Utf8 M_Charset M_String M_StringList M_DiffInfo.
Import Coq.Strings.String.StringSyntax.
Local Open Scope string_scope.
(** Exception.h: mMessage, addrlen, mSymbolList *)
Record exc := Exc { message : jstr; addrlen : Z; symbols : slist }.
(** Exception.cpp 26, 32: the addresses of the innermost max_frames calls *)
Definition max_frames : Z := 10.
Definition backtrace (stack : list (list Z)) : list (list Z) := ztake max_frames stack.
(** Exception.cpp 38-41; String(const char* ), String.cpp 90-107 *)
Fixpoint add_symbols (l : slist) (frames : list (list Z)) : out slist :=
  match frames with
  | [] => Val l
  | f :: r => let* t := utf8_decode (f ++ [0]) in let* l := sl_append l (str_of t) in add_symbols l r
  end.
(** Exception.cpp 14-53; [stack] are the symbols of the calls in progress, innermost first (the first one is the constructor) *)
Definition exception (m : jstr) (stack : list (list Z)) : out exc :=
  let* s := assign str_new m in
  let frames := backtrace stack in
  let* l := add_symbols sl_new frames in
  Val (Exc s (zlen frames) l).
(** Exception.cpp 55-65 *)
Definition exception_copy (e : exc) : out exc :=
  let* s := copy_ctor (message e) in
  let* l := sl_copy (symbols e) in
  Val (Exc s (addrlen e) l).
(** Exception.cpp 72-75 *)
Definition error_message (e : exc) : out jstr := copy_ctor (message e).
(** String line = mSymbolList[i] (StringList.cpp 194-199), Exception.cpp 128, 194 *)
Definition line (e : exc) (i : Z) : out jstr := let* s := sl_get (symbols e) i in copy_ctor s.
(** String.cpp 1185-1189 with a literal *)
Definition add_lit (s : jstr) (t : list Z) : out jstr := append s (str_of t).
(** Exception.cpp 157-202 *)
Fixpoint trace_lines (e : exc) (ret : jstr) (i : Z) (k : nat) : out jstr :=
  match k with
  | O => Val ret
  | S k =>
    let* l := line e i in
    let* ret := add_lit ret [9; 97] in
    let* ret := append ret l in
    let* ret := add_lit ret [13; 10] in
    trace_lines e ret (i + 1) k
  end.
(** Exception.cpp 144-210 *)
Definition get_stack_trace (e : exc) : out jstr :=
  let* ret := add_lit str_new (lit_ "Exception in thread " ++ [34]) in
  let* ret := add_lit ret [34] in
  let* ret := (if len (message e) >? 0 then let* r := add_lit ret (lit_ " : ") in append r (message e) else Val ret) in
  let* ret := append_char ret 13 in
  let* ret := append_char ret 10 in
  trace_lines e ret 1 (Z.to_nat (addrlen e - 1)).
(** std::ostream << String, String.cpp 1167-1176: Windows-1252, up to the first zero *)
Fixpoint cstring (b : list Z) : list Z := match b with [] => [] | x :: r => if x =? 0 then [] else x :: cstring r end.
Definition shown (s : jstr) : list Z := cstring (w1252_encode (ztake (len s) (buf s))).
(** Exception.cpp 91-131 *)
Fixpoint print_lines (e : exc) (i : Z) (k : nat) : out (list Z) :=
  match k with
  | O => Val []
  | S k => let* l := line e i in let* r := print_lines e (i + 1) k in Val ([9; 97] ++ shown l ++ [10] ++ r)
  end.
(** Exception.cpp 77-142 *)
Definition print_stack_trace (tid : list Z) (e : exc) : out (list Z) :=
  let head := lit_ "Exception in thread " ++ [34] ++ tid ++ [34] ++ (if len (message e) >? 0 then lit_ " : " ++ shown (message e) else []) ++ [10] in
  let* r := print_lines e 1 (Z.to_nat (addrlen e - 1)) in
  Val (head ++ r).
(** the exception is passed on as a copy of a copy .. [n] times *)
Fixpoint copies (n : nat) (e : exc) : out exc := match n with O => Val e | S n => let* c := exception_copy e in copies n c end.
