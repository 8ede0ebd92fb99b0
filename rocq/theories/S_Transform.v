(** S_Transform.v -- object coordinates: directions, axes and nearness over the rationals. *)
From Coq Require Import QArith Qabs.
From Verif Require Import Base M_Float M_MathF M_Rect M_Matrix S_Double S_Matrix.
Local Open Scope Q_scope.
(** a and b differ by at most 2^k *)
Definition near (k : Z) (a b : Q) : Prop := Qabs (a - b) <= q2 k.
(** e is the vector (x, y, z), of length 1 up to rounding *)
Definition direction (e : vertex3) (x y z : Q) : Prop := point e x y z /\ near (-45) (x * x + y * y + z * z) 1.
(** row i of a matrix *)
Definition axis (g : Z -> Z -> spec_float) (i : Z) (a b c : Q) : Prop := dbl (g i 0%Z) a /\ dbl (g i 1%Z) b /\ dbl (g i 2%Z) c.
(** u, w, n are perpendicular to each other, of length 1, and n is u x w, up to 2^k *)
Definition frame (k : Z) (u1 u2 u3 w1 w2 w3 n1 n2 n3 : Q) : Prop :=
  (near k (u1 * u1 + u2 * u2 + u3 * u3) 1 /\ near k (w1 * w1 + w2 * w2 + w3 * w3) 1 /\ near k (n1 * n1 + n2 * n2 + n3 * n3) 1) /\
  (near k (u1 * w1 + u2 * w2 + u3 * w3) 0 /\ near k (u1 * n1 + u2 * n2 + u3 * n3) 0 /\ near k (w1 * n1 + w2 * n2 + w3 * n3) 0) /\
  (near k (u2 * w3 - u3 * w2) n1 /\ near k (u3 * w1 - u1 * w3) n2 /\ near k (u1 * w2 - u2 * w1) n3).
(** the coordinates of v are those given, up to 2^k *)
Definition point_near (k : Z) (v : vertex3) (x y z : Q) : Prop := exists a b c, point v a b c /\ near k a x /\ near k b y /\ near k c z.
