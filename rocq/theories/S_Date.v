(** S_Date.v -- the proleptic Gregorian calendar, by counting days. *)
From Verif Require Import Base.

Definition leap (y : Z) : bool := ((y mod 4 =? 0) && negb (y mod 100 =? 0)) || (y mod 400 =? 0).
Definition year_len (y : Z) : Z := if leap y then 366 else 365.
(** months are numbered 0..11 as in the API *)
Definition month_len (y m : Z) : Z :=
  if m =? 1 then if leap y then 29 else 28
  else if (m =? 3) || (m =? 5) || (m =? 8) || (m =? 10) then 30 else 31.

(** days from 1 January 1970 to 1 January of year y: add up the lengths of the years in between *)
Fixpoint days_after (n : nat) : Z := match n with O => 0 | S k => days_after k + year_len (1970 + Z.of_nat k) end.
Fixpoint days_before (n : nat) : Z := match n with O => 0 | S k => days_before k + year_len (1969 - Z.of_nat k) end.
Definition year_start (y : Z) : Z :=
  if 1970 <=? y then days_after (Z.to_nat (y - 1970)) else - days_before (Z.to_nat (1970 - y)).
Fixpoint months_before (y : Z) (m : nat) : Z :=
  match m with O => 0 | S k => months_before y k + month_len y (Z.of_nat k) end.

Definition civil_day (y m d : Z) : Z := year_start y + months_before y (Z.to_nat m) + (d - 1).
Definition civil_time (y m d h mi s ms : Z) : Z :=
  civil_day y m d * 86400000 + h * 3600000 + mi * 60000 + s * 1000 + ms.

Definition valid_date (y m d : Z) : Prop := 0 <= m <= 11 /\ 1 <= d <= month_len y m.
Definition valid_clock (h mi s ms : Z) : Prop :=
  0 <= h <= 23 /\ 0 <= mi <= 59 /\ 0 <= s <= 59 /\ 0 <= ms <= 999.

(** Sunday = 0 ... Saturday = 6; 1 January 1970 was a Thursday *)
Definition week_day (day : Z) : Z := (day + 4) mod 7.

(** ISO 8601 text: fixed width decimal fields *)
Fixpoint dec (k : nat) (n : Z) : list Z :=
  match k with O => [] | S k => dec k (n / 10) ++ [48 + n mod 10] end.
Definition iso_text (y m d h mi s ms : Z) : list Z :=
  dec 4 y ++ [45] ++ dec 2 (m + 1) ++ [45] ++ dec 2 d ++ [84]            (* yyyy-mm-ddT *)
  ++ dec 2 h ++ [58] ++ dec 2 mi ++ [58] ++ dec 2 s ++ [46] ++ dec 3 ms ++ [90].  (* hh:mm:ss.mmmZ *)

(** dictionary order of texts *)
Fixpoint lexcmp (a b : list Z) : comparison :=
  match a, b with
  | [], [] => Eq
  | [], _ => Lt
  | _, [] => Gt
  | x :: a, y :: b => match x ?= y with Eq => lexcmp a b | c => c end
  end.
