(** M_Float.v -- IEEE 754 arithmetic of float (24 bits) and double (53 bits): the executable specification of the standard library
    (Coq.Floats.SpecFloat), round to nearest even. Assumed: the compiler evaluates float expressions in float (FLT_EVAL_METHOD 0, no
    contraction to fused operations), as it does on x86-64. *)
From Coq Require Export SpecFloat.
From Verif Require Import Base.

Notation f32 := spec_float (only parsing).
Definition add32 : f32 -> f32 -> f32 := SFadd 24 128.
Definition sub32 : f32 -> f32 -> f32 := SFsub 24 128.
Definition mul32 : f32 -> f32 -> f32 := SFmul 24 128.
Definition div32 : f32 -> f32 -> f32 := SFdiv 24 128.
(** conversion of an integer *)
Definition int32f (z : Z) : f32 := binary_normalize 24 128 z 0 false.
(** std::max(a, b) is (a < b) ? b : a; std::min(a, b) is (b < a) ? b : a *)
Definition fmax (a b : spec_float) : spec_float := if SFltb a b then b else a.
Definition fmin (a b : spec_float) : spec_float := if SFltb b a then b else a.
(** the value without its fraction; None for infinities and NaN *)
Definition ftrunc (x : spec_float) : option Z :=
  match x with
  | S754_zero _ => Some 0
  | S754_finite s m e => let a := if 0 <=? e then Zpos m * 2 ^ e else Zpos m / 2 ^ (- e) in Some (if s then - a else a)
  | _ => None
  end.
(** conversion to an integer type with the range lo..hi: undefined if the truncated value is outside *)
Definition f2int (lo hi : Z) (x : spec_float) : out Z := match ftrunc x with Some z => if (lo <=? z) && (z <=? hi) then Val z else UB | None => UB end.
Definition f2u8 : spec_float -> out Z := f2int 0 255.
Definition f2s8 : spec_float -> out Z := f2int (-128) 127.
Definition f2s32 : spec_float -> out Z := f2int (- 2 ^ 31) (2 ^ 31 - 1).

Definition add64 : spec_float -> spec_float -> spec_float := SFadd 53 1024.
Definition sub64 : spec_float -> spec_float -> spec_float := SFsub 53 1024.
Definition mul64 : spec_float -> spec_float -> spec_float := SFmul 53 1024.
Definition div64 : spec_float -> spec_float -> spec_float := SFdiv 53 1024.
Definition int64f (z : Z) : spec_float := binary_normalize 53 1024 z 0 false.
(** floor() followed by a conversion to int *)
Definition ffloor_s32 (x : spec_float) : out Z :=
  match x with
  | S754_zero _ => Val 0
  | S754_finite s m e => let n := if s then Zneg m else Zpos m in let z := if 0 <=? e then n * 2 ^ e else n / 2 ^ (- e) in if (- 2 ^ 31 <=? z) && (z <=? 2 ^ 31 - 1) then Val z else UB
  | _ => UB
  end.
