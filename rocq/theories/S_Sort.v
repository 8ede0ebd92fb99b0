(** S_Sort.v -- sortedness, independent of any algorithm. *)
From Verif Require Import Base.
From Coq Require Export Permutation.

(** [le] holds from left to right *)
Definition sorted {V} (le : V -> V -> Prop) (l : list V) : Prop :=
  forall i j x y, i <= j -> lget l i = Some x -> lget l j = Some y -> le x y.
Definition preorder {V} (le : V -> V -> Prop) : Prop :=
  (forall x, le x x) /\ (forall x y z, le x y -> le y z -> le x z) /\ (forall x y, le x y \/ le y x).
(** stable: the elements of [l'] equivalent to any given [x] appear in the same order as in [l] *)
Definition keeps_order {V} (same : V -> V -> bool) (l l' : list V) : Prop := forall x, filter (same x) l' = filter (same x) l.
