(** S_Serializer.v -- what a byte order is. *)
From Verif Require Import Base.
(** the n low order bytes of v, least significant first *)
Fixpoint le_bytes (n : nat) (v : Z) : list Z := match n with O => [] | S n => v mod 256 :: le_bytes n (v / 256) end.
(** ... most significant first *)
Definition be_bytes (n : nat) (v : Z) : list Z := rev (le_bytes n v).
(** the number a byte sequence stands for *)
Fixpoint le_value (l : list Z) : Z := match l with [] => 0 | b :: l => b + 256 * le_value l end.
Definition be_value (l : list Z) : Z := le_value (rev l).
(** the number in the range of a signed type of n bytes that is congruent to v *)
Definition signed (n : nat) (v : Z) : Z := let m := 256 ^ Z.of_nat n in (v + m / 2) mod m - m / 2.
Definition isbyte (b : Z) : Prop := 0 <= b < 256.
(** f writes n bytes at the given offset, and nothing else; it returns n.  The offset is an uint32 *)
Definition writes (f : list Z -> Z -> Z -> out (Z * list Z)) (n : nat) (bytes : Z -> list Z) : Prop :=
  forall p old s v, length old = n -> zlen p + Z.of_nat n <= 2 ^ 32 -> f (p ++ old ++ s) (zlen p) v = Val (Z.of_nat n, p ++ bytes v ++ s).
(** f reads the n bytes at the given offset *)
Definition reads (f : list Z -> Z -> out Z) (n : nat) (value : list Z -> Z) : Prop :=
  forall p l s, length l = n -> zlen p + Z.of_nat n <= 2 ^ 32 -> Forall isbyte l -> f (p ++ l ++ s) (zlen p) = Val (value l).
