(** S_Arg.v -- place markers "%n" / "%nn" and padding; URL coding. *)
From Verif Require Import Base M_String.

Definition digit_char (c : Z) : bool := (48 <=? c) && (c <=? 57).
(** the marker starting at position i: its number and its width. Two digits are read when they are there, but a number
    below ten only covers one digit *)
Definition marker_at (t : list Z) (i : Z) : option (Z * Z) :=
  match lget t i, lget t (i + 1) with
  | Some p, Some d =>
    if (p =? 37) && digit_char d then
      let n := match lget t (i + 2) with
               | Some e => if digit_char e then 10 * (d - 48) + (e - 48) else d - 48
               | None => d - 48
               end in
      Some (n, if n <? 10 then 2 else 3)
    else None
  | _, _ => None
  end.
(** i is the marker to be replaced: lowest number, leftmost among equal numbers *)
Definition best_marker (t : list Z) (i n w : Z) : Prop :=
  marker_at t i = Some (n, w) /\ forall j n' w', marker_at t j = Some (n', w') -> n < n' \/ (n = n' /\ i <= j).
(** the padded value: a positive width pads left, a negative one right *)
Definition padded (v : list Z) (width fillc : Z) : list Z :=
  repeat fillc (if width >? 0 then Z.to_nat (width - zlen v) else 0) ++ v ++ repeat fillc (if width <? 0 then Z.to_nat (- width - zlen v) else 0).

(** URL coding of one character *)
Definition url_char (c : Z) : list Z := if c =? 32 then [43] else if c =? 37 then [37; 50; 53] else if c =? 43 then [37; 50; 66] else [c].
