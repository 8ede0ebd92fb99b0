(** S_Geometry.v -- points of a grid. *)
From Coq Require Import QArith.
From Verif Require Import Base M_Float M_MathF M_Rect M_Matrix M_Geometry S_Double S_Matrix.
Local Open Scope Z_scope.

(** v is the vertex (x * 2^k, y * 2^k); v is the vertex (x * 2^k, y * 2^k, z * 2^k) *)
Definition at2 (k x y : Z) (v : vertex2) : Prop := at_ k x (px v) /\ at_ k y (py v).
Definition at3 (k x y z : Z) (v : vertex3) : Prop := at_ k x (vx v) /\ at_ k y (vy v) /\ at_ k z (vz v).
(** the coordinates of the vertex *)
Definition point2 (v : vertex2) (x y : Q) : Prop := dbl (px v) x /\ dbl (py v) y.
Definition box2 (B x y : Z) : Prop := - B <= x <= B /\ - B <= y <= B.
Definition box3 (B x y z : Z) : Prop := - B <= x <= B /\ - B <= y <= B /\ - B <= z <= B.
(** concrete vertices for the examples *)
Definition I2 (x y : Z) : vertex2 := V2 (int64f x) (int64f y).
Definition I3 (x y z : Z) : vertex3 := V3 (int64f x) (int64f y) (int64f z).
Ltac concrete := unfold at2, at3, box2, box3, point2, point, at_, dbl; repeat match goal with |- _ /\ _ => split end; vm_compute; try reflexivity; try discriminate.
