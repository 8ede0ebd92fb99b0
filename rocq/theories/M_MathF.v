(** M_MathF.v -- model of the functions of src/core/Math.cpp on doubles, and of its swap, random and epsilon functions. Doubles as in M_Float. degToRad, radToDeg,
    the float versions of roundFrac and interpolate and random() without bounds are not modelled. *)
From Verif Require Import Base M_Float.

(** a decimal constant n/d of the program: the double closest to it (one rounding) *)
Definition lit (n d : Z) : spec_float := div64 (int64f n) (int64f d).
(** Math.h 44: RESABS = 1E-6 *)
Definition RESABS : spec_float := lit 1 1000000.
Definition fneg (x : spec_float) : spec_float := SFopp x.

(** Math.cpp 49-52 *)
Definition sign (d : spec_float) : Z := Z.b2z (SFltb (int64f 0) d) - Z.b2z (SFltb d (int64f 0)).
(** std::floor and std::ceil as integers; None for infinities and NaN *)
Definition ffloor (x : spec_float) : option Z :=
  match x with
  | S754_zero _ => Some 0
  | S754_finite s m e => let n := if s then Zneg m else Zpos m in Some (if 0 <=? e then n * 2 ^ e else n / 2 ^ (- e))
  | _ => None
  end.
Definition fceil (x : spec_float) : option Z := match ffloor (fneg x) with Some z => Some (- z) | None => None end.
(** conversion of an integral double to int64 (return value): undefined outside *)
Definition to_int64 (z : option Z) : out Z := match z with Some z => chk64 z | None => UB end.
(** Math.cpp 54-62 *)
Definition jm_round (x : spec_float) : out Z :=
  to_int64 (if SFltb (int64f 0) x then ffloor (add64 x (lit 1 2)) else fceil (sub64 x (lit 1 2))).
(** Math.cpp 73-79; [factor] is the answer of std::pow(10, digits); the result of round is converted to double (and rounded if it needs more than 53 bits) *)
Definition roundFrac (value factor : spec_float) : out spec_float :=
  let* r := jm_round (mul64 value factor) in
  Val (div64 (int64f r) factor).
(** Math.cpp 81-116 *)
Definition isEqual (v1 v2 : spec_float) : bool := let d := sub64 v2 v1 in SFltb d RESABS && SFltb (fneg RESABS) d.
Definition isNotEqual (v1 v2 : spec_float) : bool := let d := sub64 v2 v1 in negb (SFltb d RESABS && SFltb (fneg RESABS) d).
Definition isLess (v1 v2 : spec_float) : bool := SFleb (add64 v1 RESABS) v2.
Definition isLessEqual (v1 v2 : spec_float) : bool := SFltb v1 (add64 v2 RESABS).
Definition isGreater (v1 v2 : spec_float) : bool := SFleb (add64 v2 RESABS) v1.
Definition isGreaterEqual (v1 v2 : spec_float) : bool := SFltb (sub64 v2 RESABS) v1.
Definition isNaN (d : spec_float) : bool := negb (SFeqb d d).
(** Math.cpp 125-151: swap of integers; the two references are cells of a memory and may be the same cell *)
Definition swap (m : Z -> Z) (a b : Z) : Z -> Z :=
  let set m x v := fun y => if y =? x then v else m y in
  let m := set m a (Z.lxor (m a) (m b)) in
  let m := set m b (Z.lxor (m b) (m a)) in
  set m a (Z.lxor (m a) (m b)).
(** Math.cpp 169-174: random(lower, upper) for the answer [r] of rand(); int arithmetic *)
Definition random (r lower upper : Z) : out Z :=
  let* a := chk32 (upper + 1) in
  let* n := chk32 (a - lower) in
  if n =? 0 then UB else let* _ := chk32 (Z.quot r n) in chk32 (Z.rem r n + lower).
(** Math.cpp 176-181 *)
Definition probability (r : Z) (percent : spec_float) : out bool :=
  let* value := random r 0 10000 in
  let* threshold := f2s32 (mul64 percent (int64f 10000)) in
  Val (value <=? threshold).
(** Math.cpp 188-191, 193-197 *)
Definition interpolate (b e percent : spec_float) : spec_float := add64 b (mul64 percent (sub64 e b)).
Definition interpolate5 (vb ve b e position : spec_float) : spec_float :=
  interpolate vb ve (div64 (sub64 position b) (sub64 e b)).
(** Math.cpp 217-224, 226-233: halves epsilon while it makes a difference; [p], [em] the format; [fuel] bounds the loop of the model *)
Fixpoint epsilon_loop (p em : Z) (fuel : nat) (eps : spec_float) : out spec_float :=
  let one := binary_normalize p em 1 0 false in
  let half := SFdiv p em one (binary_normalize p em 2 0 false) in
  match fuel with
  | O => Fuel
  | S n => if negb (SFeqb (SFadd p em one (SFmul p em half eps)) one) then epsilon_loop p em n (SFmul p em half eps) else Val eps
  end.
Definition epsilon (p em : Z) (fuel : nat) : out spec_float :=
  let* e := epsilon_loop p em fuel (binary_normalize p em 1 0 false) in
  Val (SFdiv p em e (binary_normalize p em 2 0 false)).
Definition doubleMaschineEpsilon := epsilon 53 1024.
Definition floatMaschineEpsilon := epsilon 24 128.
