(** S_Base64.v -- RFC 4648 base64, written from the RFC with plain arithmetic. *)
From Verif Require Import Base.

(** the alphabet, section 4, table 1 *)
Definition rfc_digit (v : Z) : Z :=
  if v <? 26 then 65 + v                (* A..Z *)
  else if v <? 52 then 97 + (v - 26)    (* a..z *)
  else if v <? 62 then 48 + (v - 52)    (* 0..9 *)
  else if v =? 62 then 43               (* + *)
  else 47.                              (* / *)

(** 24 bit groups into four 6 bit digits; '=' (61) padding for a short last group *)
Fixpoint rfc_encode (l : list Z) : list Z :=
  match l with
  | [] => []
  | [a] =>
      let g := a * 16 in [rfc_digit (g / 64); rfc_digit (g mod 64); 61; 61]
  | [a; b] =>
      let g := (a * 256 + b) * 4 in
      [rfc_digit (g / 4096); rfc_digit (g / 64 mod 64); rfc_digit (g mod 64); 61]
  | a :: b :: c :: r =>
      let g := (a * 256 + b) * 256 + c in
      rfc_digit (g / 262144) :: rfc_digit (g / 4096 mod 64) :: rfc_digit (g / 64 mod 64)
        :: rfc_digit (g mod 64) :: rfc_encode r
  end.
