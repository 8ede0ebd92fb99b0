(** S_Color.v -- values of floats as rational numbers; exact values of colour formulas. *)
From Coq Require Import QArith Qabs.
From Verif Require Import Base M_Float M_Color.
Local Open Scope Z_scope.

(** the value of a finite float *)
Definition fq (x : spec_float) : option Q :=
  match x with
  | S754_zero _ => Some 0%Q
  | S754_finite s m e => let n := if s then Zneg m else Zpos m in Some (if 0 <=? e then inject_Z (n * 2 ^ e) else (n # Z.to_pos (2 ^ (- e)))%Q)
  | _ => None
  end.
(** x is a number, and no further than eps from q *)
Definition near (x : spec_float) (q eps : Q) : Prop := exists v, fq x = Some v /\ (Qabs (v - q) <= eps)%Q.
Definition byte (z : Z) : Prop := 0 <= z <= 255.
Definition bytes (c : color) : Prop := byte (b0 c) /\ byte (b1 c) /\ byte (b2 c) /\ byte (b3 c) /\ byte (alpha c).
(** z is the integer part of n/d, or one less if d divides n *)
Definition rounded_down (z n d : Z) : Prop := z = n / d \/ (n mod d = 0 /\ z = n / d - 1).
Definition max3 (a b c : Z) : Z := Z.max (Z.max a b) c.
Definition min3 (a b c : Z) : Z := Z.min (Z.min a b) c.
(** the angle of a colour that is not grey: the sector of the greatest component (red first), 60 degrees each *)
Definition hue_exact (r g b : Z) : Q :=
  let d := max3 r g b - min3 r g b in
  if max3 r g b =? r then (if g <? b then ((60 * (g - b) + 360 * d) # Z.to_pos d) else (60 * (g - b) # Z.to_pos d))
  else if max3 r g b =? g then ((60 * (b - r) + 120 * d) # Z.to_pos d)
  else ((60 * (r - g) + 240 * d) # Z.to_pos d).
(** the components of a colour that are in use *)
Definition parts (c : color) : list Z := match mode c with Grey => [b0 c] | Rgb => [b0 c; b1 c; b2 c] | Cmyk => [b0 c; b1 c; b2 c; b3 c] end.
(** the hue circle, in units of 60 degrees: how much red, green and blue there is at x (0 none, 1 all) *)
Definition qclamp (x : Q) : Q := if Qle_bool x 0 then 0 else if Qle_bool 1 x then 1 else x.
Definition red_at (x : Q) : Q := qclamp (Qabs (x - 3) - 1).
Definition green_at (x : Q) : Q := qclamp (2 - Qabs (x - 2)).
Definition blue_at (x : Q) : Q := qclamp (2 - Qabs (x - 4)).
(** the component of the colour with saturation s and value v: all is v, none is v(1-s) *)
Definition hsv_exact (s v part : Q) : Q := (255 * (v * (1 - s * (1 - part))))%Q.
(** z is q rounded down; just below an integer, or at it, the result may be one less; just below, it may be that integer *)
Definition about (z : Z) (q : Q) : Prop := (inject_Z z <= q + (1 # 1000) /\ q - (1 # 1000) <= inject_Z (z + 1))%Q.
(** x is a float of single precision with a value from lo to hi *)
Definition in_float (x : spec_float) (q : Q) (lo hi : Q) : Prop := valid_binary 24 128 x = true /\ fq x = Some q /\ (lo <= q <= hi)%Q.
