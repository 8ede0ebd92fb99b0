(** M_Char.v -- model of src/core/Character.cpp: the classes of characters (the case functions and the digits are in M_String). A Char is a number from 0 to 65535. *)
From Verif Require Import Base M_String.
(** Character.cpp 35-50: ' ', '\r', '\n', '\t', '\b', '\f' *)
Definition is_whitespace (c : Z) : bool := (c =? 32) || (c =? 13) || (c =? 10) || (c =? 9) || (c =? 8) || (c =? 12).
(** Character.cpp 59-65 *)
Definition is_upper_case (c : Z) : bool := (65 <=? c) && (c <=? 90) || (192 <=? c) && (c <=? 214) || (216 <=? c) && (c <=? 222).
(** Character.cpp 67-73 *)
Definition is_lower_case (c : Z) : bool := (97 <=? c) && (c <=? 122) || (223 <=? c) && (c <=? 246) || (248 <=? c) && (c <=? 255).
(** Character.cpp 75-81 *)
Definition is_letter (c : Z) : bool := if is_lower_case c then true else if is_upper_case c then true else false.
