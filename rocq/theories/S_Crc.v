(** S_Crc.v -- CRC-16 with the reflected polynomial x^16+x^15+x^2+1 (0xA001), bit by bit. *)
From Verif Require Import Base.

(** shift out one bit; if it was set, subtract (xor) the polynomial *)
Definition crc_bit (r : Z) : Z := if Z.odd r then Z.lxor (r / 2) 40961 else r / 2.
Definition crc_byte (r b : Z) : Z :=
  crc_bit (crc_bit (crc_bit (crc_bit (crc_bit (crc_bit (crc_bit (crc_bit (Z.lxor r b)))))))).
Definition crc16 (r : Z) (data : list Z) : Z := fold_left crc_byte data r.
