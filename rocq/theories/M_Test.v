(** M_Test.v -- model of src/core/Test.cpp and src/core/TestVector.cpp: the checks of a unit test, the counters, the execution of a vector of tests.
    A test is what its doTest() does in this execution: a sequence of checks and its end. The counters are int64; they are not given a bound here (an overflow
    takes 2^63 checks). What is printed is reduced to the two numbers that are reported for each test; the duration is not modelled. *)
From Verif Require Import Base M_Float M_MathF M_String.
Local Open Scope Z_scope.
(** the check methods of Test.h 147-330; a pointer is a number, 0 is null *)
Inductive check :=
| KFail                           (* testFail, testUnexpectedException *)
| KDouble (a e : spec_float)      (* testEquals(double, double) *)
| KI64 (a e : Z) | KI64I32 (a e : Z) | KU64 (a e : Z) | KPtr (a e : Z) | KU64I32 (a e : Z) | KU64U32 (a e : Z)
| KI32 (a e : Z) | KU32 (a e : Z) | KU32I32 (a e : Z) | KI32U32 (a e : Z)
| KIgnoreCase (a e : jstr) | KString (a e : jstr)
| KNull (p : Z) | KNotNull (p : Z) | KTrue (b : bool) | KFalse (b : bool).
(** Test.cpp 37-52 ... 246: the condition under which the method returns before it counts an error. Conversions: int32 to uint64 at 132-135 *)
Definition passed (k : check) : out bool :=
  match k with
  | KFail => Val false
  | KDouble a e => Val (SFleb (SFabs (sub64 a e)) RESABS)
  | KI64 a e | KI64I32 a e | KU64 a e | KPtr a e => Val (a =? e)
  | KU64I32 a e => Val (a =? e mod 2 ^ 64)
  | KU64U32 a e | KI32 a e | KU32 a e | KU32I32 a e | KI32U32 a e => Val (a =? e)
  | KIgnoreCase a e => equals_ignore_case e a
  | KString a e => equals e a
  | KNull p => Val (p =? 0)
  | KNotNull p => Val (negb (p =? 0))
  | KTrue b => Val b
  | KFalse b => Val (negb b)
  end.
(** Test.cpp 21-24: gTotalErrorCount, gTotalTestCount, gErrorCount, gTestCount *)
Record counts := Counts { total_errors : Z; total_tests : Z; errors : Z; tests : Z }.
(** Test.cpp: every check method *)
Definition do_check (k : check) (c : counts) : out counts :=
  let* b := passed k in
  Val (if b then Counts (total_errors c) (total_tests c + 1) (errors c) (tests c + 1)
       else Counts (total_errors c + 1) (total_tests c + 1) (errors c + 1) (tests c + 1)).
Fixpoint do_checks (l : list check) (c : counts) : out counts :=
  match l with [] => Val c | k :: l => let* c := do_check k c in do_checks l c end.
(** how doTest ends: it returns, or throws a jm::Exception, or something else *)
Inductive ending := Returns | Throws | ThrowsOther.
Record test := Test { checks : list check; ends : ending }.
(** TestVector.cpp 97-120: Some (t, e): "Test finished! t Tests, e Errors."; the flag: an exception leaves the method *)
Definition testrun (t : option test) (c : counts) : out (counts * list (Z * Z) * bool) :=
  match t with
  | None => Val (c, [], false)
  | Some t =>
    let* c := do_checks (checks t) c in
    match ends t with
    | ThrowsOther => Val (c, [], true)
    | e =>
      let* c := match e with Throws => do_check KFail c | _ => Val c end in
      Val (Counts (total_errors c) (total_tests c) 0 0, [(tests c, errors c)], false)
    end
  end.
(** TestVector.cpp 75-78 *)
Fixpoint run_all (single a : Z) (l : list (option test)) (c : counts) : out (counts * list (Z * Z) * bool) :=
  match l with
  | [] => Val (c, [], false)
  | t :: l =>
    if (single <? 0) || (single =? a) then
      let* (c, r, esc) := testrun t c in
      if esc then Val (c, r, true) else
      let* (c, r', esc) := run_all single (a + 1) l c in Val (c, r ++ r', esc)
    else run_all single (a + 1) l c
  end.
(** TestVector.cpp 56-95 with the argument of 36-43 (the empty string when there is none); the last component: what execute returns, None if an exception leaves it *)
Definition execute (arg : jstr) (l : list (option test)) (c : counts) : out (counts * list (Z * Z) * option Z) :=
  let c := Counts 0 0 (errors c) (tests c) in
  let* single := (if len arg >? 0 then match to_int arg with Exn => Val (-1) | o => o end else Val (-1)) in
  let* (c, r, esc) := run_all single 0 l c in
  Val (c, r, if esc then None else Some (total_errors c)).
