(** S_Nurbs.v -- rational B-spline curves over the rational numbers. *)
From Coq Require Import QArith Qabs.
From Verif Require Import Base M_Float M_MathF M_Rect M_Matrix M_Geometry M_Nurbs S_Double S_Matrix.
Local Open Scope Z_scope.

(** The B-spline basis functions of degree k on the knots u (de Boor, Cox, Mansfield); in Q a quotient by 0 is 0, as the definition asks. *)
Fixpoint bspline (u : Z -> Q) (k : nat) (i : Z) (t : Q) : Q :=
  match k with
  | O => if Qle_bool (u i) t && negb (Qle_bool (u (i + 1)%Z) t) then 1 else 0
  | S k' => (t - u i) / (u (i + Z.of_nat k)%Z - u i) * bspline u k' i t + (u (i + Z.of_nat k + 1)%Z - t) / (u (i + Z.of_nat k + 1)%Z - u (i + 1)%Z) * bspline u k' (i + 1)%Z t
  end%Q.
Definition qsum (n : Z) (f : Z -> Q) : Q := fold_right Qplus 0%Q (map f (zrange (Z.to_nat n))).
(** one coordinate of the rational curve with the control values p and the weights w *)
Definition curve (u w p : Z -> Q) (n : Z) (k : nat) (t : Q) : Q :=
  qsum n (fun i => w i * bspline u k i t * p i)%Q / qsum n (fun i => w i * bspline u k i t)%Q.

(** c is a curve of the given degree with n control points (x i, y i, z i), the weights w i and the knots u i *)
Definition spline (c : nurbs) (n : Z) (k : nat) (u w x y z : Z -> Q) : Prop :=
  degree c = Z.of_nat k /\ zlen (ctrl c) = n /\ (1 <= k <= 15)%nat /\ Z.of_nat k < n <= 2 ^ 20 /\
  n + Z.of_nat k + 1 <= zlen (knots c) <= 2 ^ 30 /\ n <= zlen (weights c) /\
  (forall i, 0 <= i < zlen (knots c) -> exists v, rd (knots c) i = Val v /\ dbl v (u i) /\ (Qabs (u i) <= q2 30)%Q) /\
  (forall i, 0 <= i -> i + 1 < zlen (knots c) -> (u i == u (i + 1)%Z \/ u i + q2 (-19) <= u (i + 1)%Z)%Q) /\
  (forall i, 0 <= i < n -> exists v, rd (weights c) i = Val v /\ dbl v (w i) /\ (q2 (-10) <= w i <= q2 10)%Q) /\
  (forall i, 0 <= i < n -> exists v, rd (ctrl c) i = Val v /\ dbl (vx v) (x i) /\ dbl (vy v) (y i) /\ dbl (vz v) (z i)).
(** t is a parameter of the curve, and not closer than 2^-30 to a knot that it does not hit *)
Definition inside (u : Z -> Q) (n : Z) (k : nat) (t : spec_float) (q : Q) : Prop :=
  dbl t q /\ (u (Z.of_nat k) <= q < u n)%Q /\ (forall i, 0 <= i <= n + Z.of_nat k -> (q == u i \/ q2 (-30) <= Qabs (q - u i))%Q).
Definition bounded (n : Z) (x : Z -> Q) (M : Q) : Prop := forall i, 0 <= i < n -> (Qabs (x i) <= M)%Q.
