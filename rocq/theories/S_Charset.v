(** S_Charset.v -- vocabulary for the UTF-16 properties. *)
From Verif Require Import Base.

(** the two bytes of every unit, high byte first / low byte first *)
Definition be_bytes (s : list Z) : list Z := concat (map (fun c => [c / 256; c mod 256]) s).
Definition le_bytes (s : list Z) : list Z := concat (map (fun c => [c mod 256; c / 256]) s).
(** units before the first one whose low / high byte is 0 *)
Fixpoint upto (f : Z -> Z) (s : list Z) : list Z :=
  match s with [] => [] | c :: r => if f c =? 0 then [] else c :: upto f r end.
(** no byte order mark of any kind at the beginning of the bytes *)
Definition plain_start (bytes : list Z) : Prop :=
  match bytes with
  | a :: b :: r => ~ (a = 254 /\ b = 255) /\ ~ (a = 255 /\ b = 254) /\ ~ (a = 239 /\ b = 187 /\ hd 0 r = 191)
  | _ => True
  end.
