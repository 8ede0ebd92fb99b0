(** S_Double.v -- values of doubles as rational numbers. *)
From Coq Require Import QArith Qabs.
From Coq Require Import SpecFloat.
From Verif Require Import Base.
Local Open Scope Z_scope.

(** 2^k *)
Definition q2 (k : Z) : Q := Qpower (2 # 1) k.
(** x is a finite double with the value q *)
Definition dbl (x : spec_float) (q : Q) : Prop :=
  valid_binary 53 1024 x = true /\
  match x with
  | S754_zero _ => (q == 0)%Q
  | S754_finite s m e => (q == inject_Z (if s then Zneg m else Zpos m) * q2 e)%Q
  | _ => False
  end.
(** any double: infinities and NaN included *)
Definition double (x : spec_float) : Prop := valid_binary 53 1024 x = true.
(** x is z steps of the grid with the width 2^k, and not further than 2^50 steps from 0 *)
Definition grid (k : Z) (x : spec_float) (z : Z) : Prop := -1000 <= k <= 900 /\ Z.abs z <= 2 ^ 50 /\ dbl x (inject_Z z * q2 k).
