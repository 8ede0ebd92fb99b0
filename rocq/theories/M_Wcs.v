(** M_Wcs.v -- model of Matrix::initWcs (Matrix.cpp 611-627), with wcsMatrix of M_Transform and init4, set, get of M_Matrix. *)
From Verif Require Import Base M_Float M_MathF M_Rect M_Matrix M_Geometry M_Transform.
(** "set(r, c, mx.get(r, c))" for the places of the list, in its order *)
Fixpoint put_all (A mx : mat) (l : list (Z * Z)) : out mat :=
  match l with [] => Val A | (r, c) :: l => let* v := get mx r c in let* A := set A r c v in put_all A mx l end.
(** Matrix.cpp 611-627; zeros() is called in any case (616), also after init(4, 4) *)
Definition initWcs (A : mat) (extrusion : vertex3) : out mat :=
  let* mx := wcsMatrix extrusion in
  let* A := init4 A in
  let* A := put_all A mx [(0, 0); (1, 0); (2, 0); (0, 1); (1, 1); (2, 1); (0, 2); (1, 2); (2, 2)] in
  set A 3 3 (int64f 1).
