(** M_Math.v -- model of the integer functions of src/core/Math.cpp. The floating point
    functions of that file are not modelled. *)
From Verif Require Import Base.

(** Math.cpp 235-241: divFloor. x / y and x % y are undefined for y = 0 and for INT64_MIN / -1. *)
Definition divFloor (x y : Z) : out Z :=
  if y =? 0 then UB else
  let* q := chk64 (Z.quot x y) in                                       (* 237 *)
  let r := Z.rem x y in                                                 (* 238 *)
  if negb (r =? 0) && negb (Bool.eqb (r <? 0) (y <? 0)) then chk64 (q - 1) else Val q. (* 239 *)

(** Math.cpp 243-252: modFloor. INT64_MIN % -1 is undefined as well. *)
Definition modFloor (x y : Z) : out Z :=
  if y =? 0 then Val 0 else
  let* _ := chk64 (Z.quot x y) in
  let r := Z.rem x y in
  if negb (r =? 0) && negb (Bool.eqb (r <? 0) (y <? 0)) then chk64 (r + y) else Val r.

(** Math.cpp 199-202: powerOf2(int32). The second operand is evaluated only for x > 0. *)
Definition powerOf2 (x : Z) : bool := (x >? 0) && (Z.land x (x - 1) =? 0).

(** Math.cpp 204-215: ceilPowerOf2(uint32); -- and ++ wrap modulo 2^32 *)
Definition ceilPowerOf2 (x : Z) : Z :=
  let x := u32 (x - 1) in
  let x := Z.lor x (Z.shiftr x 1) in
  let x := Z.lor x (Z.shiftr x 2) in
  let x := Z.lor x (Z.shiftr x 4) in
  let x := Z.lor x (Z.shiftr x 8) in
  let x := Z.lor x (Z.shiftr x 16) in
  u32 (x + 1).

(** Math.cpp 125-151: swap for int32, uint32, uint16, uint8. Memory is a function from addresses
    to values, [a] and [b] are the addresses the two references are bound to (they may be equal).
    On two's complement integers ^ is Z.lxor for every width, so one definition covers all four. *)
Definition upd (m : Z -> Z) (a v : Z) : Z -> Z := fun x => if x =? a then v else m x.
Definition xorSwap (m : Z -> Z) (a b : Z) : Z -> Z :=
  let m := upd m a (Z.lxor (m a) (m b)) in
  let m := upd m b (Z.lxor (m b) (m a)) in
  upd m a (Z.lxor (m a) (m b)).

(** Math.cpp 169-174: random(lower, upper); [rnd] is the value returned by rand() *)
Definition randomInt (rnd lower upper : Z) : out Z :=
  let* u1 := chk32 (upper + 1) in
  let* d := chk32 (u1 - lower) in
  if d =? 0 then UB else chk32 (Z.rem rnd d + lower).
