(** S_Char.v -- what the case functions are expected to know. *)
From Verif Require Import Base.
(** a 16 bit character *)
Definition char16 (c : Z) : Prop := 0 <= c < 65536.
(** u is the capital of l: A-Z and a-z, the three umlauts *)
Definition german (u l : Z) : Prop := (exists n, 0 <= n < 26 /\ u = 65 + n /\ l = 97 + n) \/ (u = 196 /\ l = 228) \/ (u = 214 /\ l = 246) \/ (u = 220 /\ l = 252).
(** the same in the whole Latin-1 range (Unicode: U+00C0-U+00DE and U+00E0-U+00FE without the signs for times and divided by) *)
Definition latin1 (u l : Z) : Prop := (exists n, 0 <= n < 26 /\ u = 65 + n /\ l = 97 + n) \/ (192 <= u <= 222 /\ u <> 215 /\ l = u + 32).
