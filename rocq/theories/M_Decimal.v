(** M_Decimal.v -- model of String::valueOf(double, precision, trunc) and String::arg(double, ...) (String.cpp). Doubles as in M_Float, strings as in M_String.
    valueOf(double) without a precision and toDouble use iostreams and are not modelled. *)
From Verif Require Import Base M_Float M_MathF M_String.

(** std::fmod(x, 1.0): exact, with the sign of x *)
Definition fmod1 (x : spec_float) : spec_float :=
  match x with
  | S754_zero s => S754_zero s
  | S754_finite s m e => if 0 <=? e then S754_zero s else binary_normalize 53 1024 (cond_Zopp s (Zpos m mod 2 ^ (- e))) e s
  | _ => S754_nan
  end.
(** conversion to int64 *)
Definition f2s64 : spec_float -> out Z := f2int (- 2 ^ 63) (2 ^ 63 - 1).
(** String.cpp 1079: k iterations *)
Fixpoint pad_loop (a : jstr) (k : nat) : out jstr := match k with O => Val a | S k => let* a := insert_char a 0 48 in pad_loop a k end.
(** String.cpp 1081 *)
Fixpoint cut_loop (a : jstr) (fuel : nat) : out jstr :=
  match fuel with
  | O => Fuel
  | S fuel =>
    if len a >? 1 then
      let* c := char_at a (len a - 1) in
      if c =? 48 then let* a := delete_char_at a (len a - 1) in cut_loop a fuel else Val a
    else Val a
  end.
(** String.cpp 1053-1085; [factor] is the answer of std::pow(10, precision) *)
Definition value_of_double (number factor : spec_float) (precision : Z) (trunc : bool) : out jstr :=
  let neg := isLess number (int64f 0) in
  let* before := f2s64 number in
  let* before := (if neg then chk64 (before * -1) else Val before) in
  let number := mul64 (mul64 (fmod1 number) (int64f 10)) factor in
  let* after := f2s64 (SFabs number) in
  let rnd := Z.rem after 10 in
  let after := Z.quot after 10 in
  let* after := (if rnd >=? 5 then chk64 (after + 1) else Val after) in
  let* (before, after) := (if SFeqb (int64f after) factor then let* b := chk64 (before + 1) in Val (b, 0) else Val (before, after)) in
  let* b := value_of_int before in
  let* b := (if neg then insert_char b 0 45 else Val b) in
  let* a := value_of_int after in
  let* a := pad_loop a (Z.to_nat (precision - len a)) in
  let* a := (if trunc then cut_loop a (S (Z.to_nat (len a))) else Val a) in
  if negb (after =? 0) || negb trunc then
    let* r := copy_ctor b in
    let* r := append r (str_of [44]) in
    let* q := copy_ctor r in
    append q a
  else Val b.
(** String.cpp 928-962; [f10] and [fp] are the answers of std::pow *)
Definition arg_double (s : jstr) (value : spec_float) (width precision fillc : Z) (f10 fp : spec_float) : out jstr :=
  let* r := arg_indices s in
  match r with
  | None => copy_ctor s
  | Some _ =>
    let* v := (if precision <? 0 then value_of_double value f10 10 true else value_of_double value fp precision false) in
    arg_str s v width fillc
  end.
(** String.cpp 842-870, 887-892: int64 and uint64 (converted to int64) *)
Definition arg_int (s : jstr) (value width fillc : Z) : out jstr :=
  let* r := arg_indices s in
  match r with
  | None => copy_ctor s
  | Some _ => let* v := value_of_int value in arg_str s v width fillc
  end.
Definition arg_uint (s : jstr) (value width fillc : Z) : out jstr := arg_int s (if value <? 2 ^ 63 then value else value - 2 ^ 64) width fillc.
