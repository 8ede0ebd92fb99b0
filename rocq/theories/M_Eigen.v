(** M_Eigen.v -- model of Matrix::eigen (Matrix.cpp 528-602). Doubles as in M_Float.
    Simplifications: pow(x, 2.0), acos and cos of the C library are parameters (sq, acos, cos); the Vector is the list of its elements. *)
From Verif Require Import Base M_Float M_MathF M_Rect M_Matrix M_Geometry.
(** Types.h 55, 63: M_PI and M_2PI as doubles *)
Definition M_PI : spec_float := S754_finite false 7074237752028440 (-51).
Definition M_2PI : spec_float := mul64 (int64f 2) M_PI.
Section Eigen.
Variable sq acos cos : spec_float -> spec_float.
(** Matrix.cpp 540-553 *)
Definition eigen2 (A : mat) : out (list spec_float) :=
  let* trA := trace A in
  let* d := det A in
  match d with
  | None => UB                                                                                           (* detA is not initialised *)
  | Some detA =>
    let gapA := sqrt64 (sub64 (mul64 trA trA) (mul64 (int64f 4) detA)) in
    Val [div64 (sub64 trA gapA) (int64f 2); div64 (add64 trA gapA) (int64f 2)]
  end.
(** Matrix.cpp 554-599 *)
Definition eigen3 (A : mat) : out (list spec_float) :=
  let* a01 := get A 0 1 in let* a02 := get A 0 2 in let* a12 := get A 1 2 in
  let* a00 := get A 0 0 in let* a11 := get A 1 1 in let* a22 := get A 2 2 in
  let p1 := add64 (add64 (sq a01) (sq a02)) (sq a12) in
  if SFeqb p1 zero then Val [a00; a11; a22]
  else
    let* t := trace A in
    let q := div64 t (int64f 3) in
    let p2 := add64 (add64 (add64 (sq (sub64 a00 q)) (sq (sub64 a11 q))) (sq (sub64 a22 q))) (mul64 (int64f 2) p1) in
    let p := sqrt64 (div64 p2 (int64f 6)) in
    let* one := mat_new 3 3 in
    let* one := diag one (int64f 1) in
    let* qI := scale q one in
    let* D := minus A qI in
    let* B := scale (div64 (int64f 1) p) D in
    let* d := det B in
    match d with
    | None => UB
    | Some detB =>
      let r := div64 detB (int64f 2) in
      let phi := if SFleb r (int64f (-1)) then div64 M_PI (int64f 3) else if SFleb (int64f 1) r then zero else div64 (acos r) (int64f 3) in
      let eig1 := add64 q (mul64 (mul64 (int64f 2) p) (cos phi)) in
      let eig3 := add64 q (mul64 (mul64 (int64f 2) p) (cos (add64 phi (div64 M_2PI (int64f 3))))) in
      let eig2 := sub64 (sub64 (mul64 (int64f 3) q) eig1) eig3 in
      Val [eig1; eig2; eig3]
    end.
(** Matrix.cpp 528-602 *)
Definition eigen (A : mat) : out (list spec_float) :=
  if negb (mm A =? mn A) then Exn
  else if mm A =? 1 then let* a := get A 0 0 in Val [a]
  else if mm A =? 2 then eigen2 A
  else if mm A =? 3 then eigen3 A
  else Exn.
End Eigen.
