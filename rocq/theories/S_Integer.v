(** S_Integer.v -- positional notation and Roman numerals. *)
From Verif Require Import Base.

(** value of a digit list, most significant digit first *)
Definition pos_value (b : Z) (ds : list Z) : Z := fold_left (fun a d => b * a + d) ds 0.
(** canonical digits of n in base b: right value, digits in range, no leading zero *)
Definition canonical (b n : Z) (ds : list Z) : Prop :=
  pos_value b ds = n /\ Forall (fun d => 0 <= d < b) ds /\ (ds = [0] \/ exists d r, ds = d :: r /\ 0 < d).
(** '0'..'9' and '0'..'9','A'..'F' *)
Definition dec_char (d : Z) : Z := 48 + d.
Definition hex_upper (d : Z) : Z := nth (Z.to_nat d) [48; 49; 50; 51; 52; 53; 54; 55; 56; 57; 65; 66; 67; 68; 69; 70] 0.
(** value of a hexadecimal digit of either case; anything else counts as 0 *)
Definition hex_value (c : Z) : Z :=
  if (48 <=? c) && (c <=? 57) then c - 48 else if (65 <=? c) && (c <=? 70) then c - 55 else if (97 <=? c) && (c <=? 102) then c - 87 else 0.

(** Roman numerals: thousands, then the usual forms of one digit *)
Definition roman_digit (one five ten : Z) (d : Z) : list Z :=
  nth (Z.to_nat d)
    [[]; [one]; [one; one]; [one; one; one]; [one; five]; [five]; [five; one]; [five; one; one]; [five; one; one; one]; [one; ten]] [].
Definition roman (n : Z) : list Z :=
  repeat 77 (Z.to_nat (n / 1000)) ++ roman_digit 67 68 77 (n / 100 mod 10) ++ roman_digit 88 76 67 (n / 10 mod 10) ++ roman_digit 73 86 88 (n mod 10).
(** reading a numeral: a symbol before a larger one is subtracted *)
Definition roman_symbol (c : Z) : Z :=
  if c =? 73 then 1 else if c =? 86 then 5 else if c =? 88 then 10 else if c =? 76 then 50
  else if c =? 67 then 100 else if c =? 68 then 500 else if c =? 77 then 1000 else 0.
Fixpoint roman_value (t : list Z) : Z :=
  match t with
  | [] => 0
  | c :: r => let v := roman_symbol c in
              (match r with d :: _ => if v <? roman_symbol d then - v else v | [] => v end) + roman_value r
  end.
