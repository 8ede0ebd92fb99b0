(** S_Matrix.v -- what matrices show, and the algebra of integer matrices. *)
From Coq Require Import QArith.
From Verif Require Import Base M_Float M_MathF M_Rect M_Matrix S_Double.
Local Open Scope Z_scope.

(** A has r rows and c columns, and get(i,j) answers e i j *)
Definition shows (A : mat) (r c : Z) (e : Z -> Z -> spec_float) : Prop :=
  mm A = r /\ mn A = c /\ 0 <= r /\ 0 <= c /\ r * c <= 4294967295 /\ zlen (md A) = r * c /\
  forall i j, 0 <= i < r -> 0 <= j < c -> get A i j = Val (e i j).
(** one element replaced *)
Definition upd (e : Z -> Z -> spec_float) (i j : Z) (v : spec_float) : Z -> Z -> spec_float := fun i' j' => if (i' =? i) && (j' =? j) then v else e i' j'.
(** 0 + f 0 + f 1 + ... with the addition of doubles, from left to right *)
Definition fsum (n : Z) (f : Z -> spec_float) : spec_float := fold_left (fun s k => add64 s (f k)) (zrange (Z.to_nat n)) (S754_zero false).

(** sum of f 0 ... f (n-1) *)
Definition zsum (n : Z) (f : Z -> Z) : Z := fold_right Z.add 0 (map f (zrange (Z.to_nat n))).
Definition zprod (n : Z) (f g : Z -> Z -> Z) : Z -> Z -> Z := fun i j => zsum n (fun k => f i k * g k j).
Definition ident (i j : Z) : Z := if i =? j then 1 else 0.
(** determinant by expansion along the first column *)
Fixpoint zdet (n : nat) (f : Z -> Z -> Z) : Z :=
  match n with
  | O => 1
  | S n' => zsum (Z.of_nat n) (fun i => (if Z.even i then 1 else -1) * f i 0 * zdet n' (fun r c => f (if r <? i then r else r + 1) (c + 1)))
  end.
(** x is the double z * 2^k *)
Definition at_ (k z : Z) (x : spec_float) : Prop := dbl x (inject_Z z * q2 k).
(** A is the r x c matrix of the numbers f i j * 2^k *)
Definition holds (A : mat) (r c k : Z) (f : Z -> Z -> Z) : Prop := exists e, shows A r c e /\ forall i j, 0 <= i < r -> 0 <= j < c -> at_ k (f i j) (e i j).
(** all entries are at most B *)
Definition within (r c : Z) (f : Z -> Z -> Z) (B : Z) : Prop := forall i j, 0 <= i < r -> 0 <= j < c -> - B <= f i j <= B.
(** the adjugate: signed determinants of the matrix without row j and column i *)
Definition zadj (n : nat) (f : Z -> Z -> Z) (i j : Z) : Z :=
  (if Z.even (i + j) then 1 else -1) * zdet (n - 1) (fun r c => f (if r <? j then r else r + 1) (if c <? i then c else c + 1)).
(** entries of at most this size keep the arithmetic of n x n determinants exact *)
Definition limit (n : Z) : Z := if n =? 2 then 2 ^ 26 else if n =? 3 then 2 ^ 16 else if n =? 4 then 2 ^ 12 else 2 ^ 53.
(** x is a multiple q of 2^-k, at most 2^b steps from 0 *)
Definition coord (k b : Z) (x : spec_float) (q : Q) : Prop := dbl x q /\ exists z, - 2 ^ b <= z <= 2 ^ b /\ (q == inject_Z z * q2 (- k))%Q.
Definition coords (k b : Z) (v : vertex3) (x y z : Q) : Prop := coord k b (vx v) x /\ coord k b (vy v) y /\ coord k b (vz v) z.
(** the coordinates of v *)
Definition point (v : vertex3) (x y z : Q) : Prop := dbl (vx v) x /\ dbl (vy v) y /\ dbl (vz v) z.
(** the two doubles stand for the same number, or neither for any *)
Definition same_number (a b : spec_float) : Prop := forall q, dbl a q <-> dbl b q.
(** the largest of 0, g 0, ..., g (n-1) *)
Definition zmax (n : Z) (g : Z -> Z) : Z := fold_right Z.max 0 (map g (zrange (Z.to_nat n))).
(** 1 for every double but zero *)
Definition nz (x : spec_float) : Z := if SFeqb x (S754_zero false) then 0 else 1.
(** element i of a vector *)
Definition vat (l : list spec_float) (i : Z) : spec_float := nth (Z.to_nat i) l (S754_zero false).
(** the vector of the numbers f i * 2^k *)
Definition vholds (l : list spec_float) (k : Z) (f : Z -> Z) (B : Z) : Prop := forall i, 0 <= i < zlen l -> at_ k (f i) (vat l i) /\ - B <= f i <= B.
