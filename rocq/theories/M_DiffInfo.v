(** M_DiffInfo.v -- model of src/core/DiffInfo.cpp 46-230, 500-554 and DiffBacktrace::print (DiffBacktrace.cpp 57-68): what they write to std::cout, as bytes
    ([Val bytes]; [UB] undefined behaviour). The code between 238 and 497 is inside a comment. Objects are numbers as in M_Diff. The rendering of doubles
    by the stream (six significant digits) is a parameter, as are the virtual functions of the objects. *)
From Coq Require Import String Ascii.
From Verif Require Import Base M_Float M_MathF M_String M_Charset M_Diff.
From Verif Require M_Rect M_Geometry.
Local Open Scope Z_scope.
(** the bytes of a literal *)
Fixpoint lit_ (s : string) : list Z := match s with EmptyString => [] | String c r => Z.of_nat (nat_of_ascii c) :: lit_ r end.
(** std::endl *)
Definition nl : list Z := [10].
(** operator<<(std::ostream&, int64 / uint64): decimal digits *)
Fixpoint dec_digits (fuel : nat) (n : Z) : list Z :=
  match fuel with
  | O => []
  | S fuel => if n <? 10 then [48 + n] else dec_digits fuel (n / 10) ++ [48 + n mod 10]
  end.
Definition show_int (n : Z) : list Z := if n <? 0 then 45 :: dec_digits 20 (- n) else dec_digits 20 n.
(** writing a C string: up to its first zero *)
Fixpoint c_text (b : list Z) : list Z := match b with [] => [] | c :: r => if c =? 0 then [] else c :: c_text r end.
(** String.cpp 1167-1175: the text in Windows-1252, written as a C string (constData of a ByteArray ends with a zero, ByteArray.cpp 68-70, 78) *)
Definition show_str (s : jstr) : list Z := c_text (w1252_encode (ztake (len s) (buf s))).
(** DiffInfo.cpp 74, 83, ...: "  " << label << ": " << ... << std::endl *)
Definition row (label : jstr) (rest : list Z) : list Z := lit_ "  " ++ show_str label ++ lit_ ": " ++ rest ++ nl.
(** DiffInfo.cpp 67-92 (uint64): the difference is an uint64 *)
Definition print_u64 (op : dop) (a b : Z) (label : jstr) : list Z :=
  match op with
  | DAdd | DDelete => row label (show_int a)
  | DModified => if negb (a =? b) then row label (show_int a ++ lit_ " -> " ++ show_int b ++ lit_ " delta: " ++ show_int (u64 (b - a))) else []
  | _ => []
  end.
(** DiffInfo.cpp 94-117 (int64): the difference may overflow *)
Definition print_i64 (op : dop) (a b : Z) (label : jstr) : out (list Z) :=
  match op with
  | DAdd | DDelete => Val (row label (show_int a))
  | DModified => if negb (a =? b) then let* d := chk64 (b - a) in Val (row label (show_int a ++ lit_ " -> " ++ show_int b ++ lit_ " delta: " ++ show_int d)) else Val []
  | _ => Val []
  end.
(** DiffInfo.cpp 51-65: the conversions of int32 and uint32 keep the value *)
Definition print_i32 := print_i64.
Definition print_u32 := print_u64.
(** DiffInfo.cpp 143-166, 168-191 *)
Definition print_with (same : jstr -> jstr -> out bool) (op : dop) (a b label : jstr) : out (list Z) :=
  match op with
  | DAdd | DDelete => Val (row label (show_str a))
  | DModified => let* e := same a b in if negb e then Val (row label (show_str a ++ lit_ " -> " ++ show_str b)) else Val []
  | _ => Val []
  end.
Definition print_str := print_with equals.
Definition print_ignore_case := print_with equals_ignore_case.
Section Doubles.
(** operator<<(std::ostream&, double) *)
Context (fmt : spec_float -> list Z).
(** DiffInfo.cpp 119-141 *)
Definition print_double (op : dop) (a b : spec_float) (label : jstr) : list Z :=
  match op with
  | DAdd | DDelete => row label (fmt a)
  | DModified => if isNotEqual a b then row label (fmt a ++ lit_ " -> " ++ fmt b ++ lit_ " delta: " ++ fmt (sub64 b a)) else []
  | _ => []
  end.
(** Vertex2.cpp 203-207, Vertex3.cpp 211-215 *)
Definition show2 (v : M_Geometry.vertex2) : list Z := lit_ "[" ++ fmt (M_Geometry.px v) ++ lit_ " " ++ fmt (M_Geometry.py v) ++ lit_ "]".
Definition show3 (v : M_Rect.vertex3) : list Z := lit_ "[" ++ fmt (M_Rect.vx v) ++ lit_ " " ++ fmt (M_Rect.vy v) ++ lit_ " " ++ fmt (M_Rect.vz v) ++ lit_ "]".
(** DiffInfo.cpp 193-216, 218-230 ff. *)
Definition print_v2 (op : dop) (a b : M_Geometry.vertex2) (label : jstr) : list Z :=
  match op with
  | DAdd | DDelete => row label (show2 a)
  | DModified => if M_Geometry.ne2 a b then row label (show2 a ++ lit_ " -> " ++ show2 b) else []
  | _ => []
  end.
Definition print_v3 (op : dop) (a b : M_Rect.vertex3) (label : jstr) : list Z :=
  match op with
  | DAdd | DDelete => row label (show3 a)
  | DModified => if M_Geometry.ne3 a b then row label (show3 a ++ lit_ " -> " ++ show3 b) else []
  | _ => []
  end.
End Doubles.
Section Objects.
(** typeid, displayName() and what printDiffInfo(kDiffModified, other) writes (Object.cpp 96-104: "jm::Object", nothing) *)
Context (ty : Z -> Z) (name : Z -> jstr) (details : Z -> option Z -> list Z).
(** DiffInfo.cpp 500-554 *)
Definition print_obj (op : dop) (o1 o2 : option Z) : list Z :=
  match o1, o2 with
  | None, None => []
  | Some a, Some b =>
    if negb (ty a =? ty b) && (match op with DModified => true | _ => false end) then lit_ "R " ++ show_str (name a) ++ lit_ " -> " ++ show_str (name b) ++ lit_ ":" ++ nl
    else match op with
         | DAdd => lit_ "A " ++ show_str (name a) ++ nl
         | DDelete => lit_ "D " ++ show_str (name a) ++ nl
         | DModified => lit_ "M " ++ show_str (name a) ++ nl ++ details a (Some b)
         | _ => []
         end
  | None, Some b => lit_ "<nullptr_PROBLEM>" ++ nl
  | Some a, None =>
    match op with
    | DAdd => lit_ "A " ++ show_str (name a) ++ nl
    | DDelete => lit_ "D " ++ show_str (name a) ++ nl
    | DModified => lit_ "M " ++ show_str (name a) ++ nl ++ details a None
    | _ => []
    end
  end.
(** DiffBacktrace.cpp 57-68: the chain along mNext *)
Fixpoint print_trace (steps : list dstep) : list Z :=
  match steps with [] => [] | s :: r => print_obj (d_op s) (d_obj1 s) (d_obj2 s) ++ print_trace r end.
End Objects.
