(** M_Arc.v -- model of extensionPointOnArc and its helpers CheckAngle and PQCheck (Geometry.cpp 485-627). Doubles as in M_Float.
    Simplifications: atan2 of the C library is a parameter; [fuel] bounds the turns of each while loop of the model (Fuel: it is still turning). *)
From Verif Require Import Base M_Float M_MathF M_Rect M_Matrix M_Geometry M_Eigen.
(** Geometry.cpp 502, 505: while(isGreaterEqual(x, DBL_PI))x -= DBL_PI; DBL_PI (499) is M_2PI *)
Fixpoint turn_down (fuel : nat) (x : spec_float) : out spec_float :=
  if isGreaterEqual x M_2PI then match fuel with O => Fuel | S f => turn_down f (sub64 x M_2PI) end else Val x.
(** Geometry.cpp 506: while(isLessEqual(end, start))end += DBL_PI *)
Fixpoint turn_end (fuel : nat) (start x : spec_float) : out spec_float :=
  if isLessEqual x start then match fuel with O => Fuel | S f => turn_end f start (add64 x M_2PI) end else Val x.
(** Geometry.cpp 509: while(isLess(angle, start))angle += DBL_PI *)
Fixpoint turn_angle (fuel : nat) (start x : spec_float) : out spec_float :=
  if isLess x start then match fuel with O => Fuel | S f => turn_angle f start (add64 x M_2PI) end else Val x.
Section Arc.
Variable atan2 : spec_float -> spec_float -> spec_float.
(** Geometry.cpp 489-514 *)
Definition check_angle (fuel : nat) (point center : vertex2) (start end_ : spec_float) : out bool :=
  let dir := vsub2 point center in
  let angle := atan2 (py dir) (px dir) in
  let* start := turn_down fuel start in
  let* end_ := turn_down fuel end_ in
  let* end_ := turn_end fuel start end_ in
  let* angle := turn_angle fuel start angle in
  Val (isLessEqual angle end_).
(** Geometry.cpp 526-584 *)
Definition pq_check (fuel : nat) (p q : spec_float) (rayorigin direction center : vertex2) (start end_ : spec_float) : out vertex2 :=
  let p2 := mul64 (lit 1 2) p in
  let rt := sub64 (mul64 p2 p2) q in
  if isLessEqual rt f0 && isLess rt f0 then Val nan2
  else
    let rt := if isLessEqual rt f0 then f0 else rt in
    let n1 := sub64 (fneg p2) (sqrt64 rt) in
    let n2 := add64 (fneg p2) (sqrt64 rt) in
    if isLessEqual n1 f0 && isLessEqual n2 f0 then Val nan2
    else
      let pt1 := vadd2 rayorigin (vmul2 n1 direction) in
      let pt2 := vadd2 rayorigin (vmul2 n2 direction) in
      let* pt1ok := check_angle fuel pt1 center start end_ in
      let* pt2ok := check_angle fuel pt2 center start end_ in
      if isGreater n1 f0 && isGreater n2 f0 then
        Val (if isLess n1 n2 then (if pt1ok then pt1 else if pt2ok then pt2 else nan2) else (if pt2ok then pt2 else if pt1ok then pt1 else nan2))
      else if isLessEqual n1 f0 && pt2ok then Val pt2
      else if isLessEqual n2 f0 && pt1ok then Val pt1
      else Val nan2.
(** Geometry.cpp 587-627 *)
Definition extensionPointOnArc (fuel : nat) (o d c : vertex2) (radius start end_ : spec_float) : out vertex2 :=
  let dx2 := mul64 (px d) (px d) in let dy2 := mul64 (py d) (py d) in let rd2 := mul64 radius radius in
  let rx2 := mul64 (px o) (px o) in let ry2 := mul64 (py o) (py o) in let cx2 := mul64 (px c) (px c) in let cy2 := mul64 (py c) (py c) in
  let a := add64 dx2 dy2 in
  let b := mul64 (int64f 2) (sub64 (add64 (sub64 (mul64 (px d) (px o)) (mul64 (px c) (px d))) (mul64 (py d) (py o))) (mul64 (py c) (py d))) in
  let cc := add64 (add64 (sub64 (sub64 (sub64 (sub64 rd2 rx2) ry2) cx2) cy2) (mul64 (mul64 (int64f 2) (px o)) (px c))) (mul64 (mul64 (int64f 2) (py o)) (py c)) in
  pq_check fuel (div64 b a) (div64 (fneg cc) a) o d c start end_.
End Arc.
