(** S_Decimal.v -- decimal fractions as text, with a comma. *)
From Verif Require Import Base S_Integer.

(** the number N / 10^p with p digits behind the comma *)
Definition decimal (neg : bool) (p N : Z) (t : list Z) : Prop :=
  exists ds es, t = (if neg then [45] else []) ++ map dec_char ds ++ [44] ++ map dec_char es /\
    canonical 10 (N / 10 ^ p) ds /\ zlen es = p /\ Forall (fun d => 0 <= d < 10) es /\ pos_value 10 es = N mod 10 ^ p.
(** the same without zeros at the end, and without the comma if only zeros follow it *)
Definition decimal_cut (neg : bool) (p N : Z) (t : list Z) : Prop :=
  exists ds, canonical 10 (N / 10 ^ p) ds /\
    (N mod 10 ^ p = 0 /\ t = (if neg then [45] else []) ++ map dec_char ds \/
     exists es k, t = (if neg then [45] else []) ++ map dec_char ds ++ [44] ++ map dec_char es /\ 0 <= k /\ zlen es + k = p /\
       Forall (fun d => 0 <= d < 10) es /\ pos_value 10 es * 10 ^ k = N mod 10 ^ p /\ last es 0 <> 0).
