(** S_Point.v -- points with rational coordinates, and points of a grid. *)
From Coq Require Import QArith.
From Coq Require Import SpecFloat.
From Verif Require Import Base M_Point S_Double.
Local Open Scope Z_scope.
(** p is the point (a, b) *)
Definition at_xy (p : point) (a b : Q) : Prop := dbl (px p) a /\ dbl (py p) b.
(** p is the point a, b steps of the width 2^k away from the origin *)
Definition on_grid (k : Z) (p : point) (a b : Z) : Prop := grid k (px p) a /\ grid k (py p) b.
Definition has_nan (p : point) : Prop := px p = S754_nan \/ py p = S754_nan.
