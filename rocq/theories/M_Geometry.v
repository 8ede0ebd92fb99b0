(** M_Geometry.v -- model of src/core/Vertex2.cpp, src/core/Vertex3.cpp and of src/core/Geometry.cpp. Doubles as in M_Float (no fused operations); std::sqrt is the square root of IEEE 754.
    Not modelled: angleTo, the rotations of Vertex3 (the matrices are in M_Matrix), streams, circleParameterBy2TangentsRadius, closestPointOnCircle and its distance. *)
From Verif Require Import Base M_Float M_MathF M_Rect M_Matrix.

(** Vertex2.h *)
Record vertex2 := V2 { px : spec_float; py : spec_float }.
Notation NAN := S754_nan.
Definition sqrt64 : spec_float -> spec_float := SFsqrt 53 1024.
(** the number 0 of a comparison *)
Definition f0 : spec_float := int64f 0.
Definition f1 : spec_float := int64f 1.

(** * Vertex2.cpp *)
(** Vertex2.cpp 50-53 *)
Definition abs2 (v : vertex2) : spec_float := sqrt64 (add64 (mul64 (px v) (px v)) (mul64 (py v) (py v))).
(** Vertex2.cpp 69-87 *)
Definition cross2 (v w : vertex2) : spec_float := sub64 (mul64 (px v) (py w)) (mul64 (py v) (px w)).
Definition dot2 (v w : vertex2) : spec_float := add64 (mul64 (px v) (px w)) (mul64 (py v) (py w)).
Definition isCollinear2 (v w : vertex2) : bool := isEqual (cross2 v w) f0.
Definition isOrthogonal2 (v w : vertex2) : bool := isEqual (dot2 v w) f0.
(** Vertex2.cpp 101-113 *)
Definition isRightTo (v w : vertex2) : bool := SFltb f0 (add64 (mul64 (px w) (fneg (py v))) (mul64 (py w) (px v))).
Definition isLeftTo (v w : vertex2) : bool := SFltb (add64 (mul64 (px w) (fneg (py v))) (mul64 (py w) (px v))) f0.
(** Vertex2.cpp 115-134; [c] and [s] are the answers of cos and sin *)
Definition rotated2 (c s : spec_float) (v : vertex2) : vertex2 := V2 (sub64 (mul64 (px v) c) (mul64 (py v) s)) (add64 (mul64 (px v) s) (mul64 (py v) c)).
(** Vertex2.cpp 136-139, 141-144 *)
Definition scale2 (v w : vertex2) : vertex2 := V2 (mul64 (px v) (px w)) (mul64 (py v) (py w)).
Definition isValid2 (v : vertex2) : bool := negb (isNaN (px v) || isNaN (py v)).
(** Vertex2.cpp 147-191 *)
Definition vadd2 (v w : vertex2) : vertex2 := V2 (add64 (px v) (px w)) (add64 (py v) (py w)).
Definition vsub2 (v w : vertex2) : vertex2 := V2 (sub64 (px v) (px w)) (sub64 (py v) (py w)).
Definition vmul2 (d : spec_float) (v : vertex2) : vertex2 := V2 (mul64 d (px v)) (mul64 d (py v)).
Definition vdiv2 (v : vertex2) (d : spec_float) : vertex2 := V2 (div64 (px v) d) (div64 (py v) d).
(** Vertex2.cpp 55-67 *)
Definition normalized2 (v : vertex2) : vertex2 := let a := abs2 v in if isEqual a f0 then v else vmul2 (div64 f1 a) v.
(** Vertex2.cpp 193-201 *)
Definition eq2 (v w : vertex2) : bool := isEqual (px v) (px w) && isEqual (py v) (py w).
Definition ne2 (v w : vertex2) : bool := isNotEqual (px v) (px w) || isNotEqual (py v) (py w).
(** Vertex2.cpp 209-242 *)
Definition solveLinearSystem (a b r : vertex2) : vertex2 :=
  let '(A1, A2, B1, B2, R1, R2) := if isEqual (px a) f0 then (py a, px a, py b, px b, py r, px r) else (px a, py a, px b, py b, px r, py r) in
  let F := div64 A2 A1 in
  let B2 := sub64 B2 (mul64 F B1) in
  let R2 := sub64 R2 (mul64 F R1) in
  let B := div64 R2 B2 in
  let A := div64 (sub64 R1 (mul64 B B1)) A1 in
  V2 A B.

(** * Vertex3.cpp *)
(** Vertex3.cpp 54-64, 82-95 *)
Definition cross3 (v w : vertex3) : vertex3 :=
  V3 (sub64 (mul64 (vy v) (vz w)) (mul64 (vz v) (vy w))) (sub64 (mul64 (vz v) (vx w)) (mul64 (vx v) (vz w))) (sub64 (mul64 (vx v) (vy w)) (mul64 (vy v) (vx w))).
Definition dot3 (v w : vertex3) : spec_float := add64 (add64 (mul64 (vx v) (vx w)) (mul64 (vy v) (vy w))) (mul64 (vz v) (vz w)).
Definition abs3 (v : vertex3) : spec_float := sqrt64 (add64 (add64 (mul64 (vx v) (vx v)) (mul64 (vy v) (vy v))) (mul64 (vz v) (vz v))).
Definition isNull (v : vertex3) : bool := isEqual (vx v) f0 && isEqual (vy v) f0 && isEqual (vz v) f0.
(** Vertex3.cpp 66-74 *)
Definition isCollinear3 (v w : vertex3) : bool := isEqual (abs3 (cross3 v w)) f0.
Definition isOrthogonal3 (v w : vertex3) : bool := isEqual (dot3 v w) f0.
(** Vertex3.cpp 161-169 *)
Definition scale3 (v w : vertex3) : vertex3 := V3 (mul64 (vx v) (vx w)) (mul64 (vy v) (vy w)) (mul64 (vz v) (vz w)).
Definition biggest (v : vertex3) : spec_float :=
  if SFltb (vy v) (vx v) && SFltb (vz v) (vx v) then vx v else if SFltb (vx v) (vy v) && SFltb (vz v) (vy v) then vy v else vz v.
(** Vertex3.cpp 191-209 *)
Definition vadd3 (v w : vertex3) : vertex3 := V3 (add64 (vx v) (vx w)) (add64 (vy v) (vy w)) (add64 (vz v) (vz w)).
Definition vsub3 (v w : vertex3) : vertex3 := V3 (sub64 (vx v) (vx w)) (sub64 (vy v) (vy w)) (sub64 (vz v) (vz w)).
Definition vmul3 (d : spec_float) (v : vertex3) : vertex3 := V3 (mul64 d (vx v)) (mul64 d (vy v)) (mul64 d (vz v)).
(** Vertex3.cpp 147-159 *)
Definition normalized3 (v : vertex3) : vertex3 := let a := abs3 v in if isEqual a f0 then v else vmul3 (div64 f1 a) v.
(** Vertex3.cpp 228-236 *)
Definition eq3 (v w : vertex3) : bool := isEqual (vx v) (vx w) && isEqual (vy v) (vy w) && isEqual (vz v) (vz w).
Definition ne3 (v w : vertex3) : bool := isNotEqual (vx v) (vx w) || isNotEqual (vy v) (vy w) || isNotEqual (vz v) (vz w).
(** Matrix.cpp 42-78: the matrix of three vertices *)
Definition mat3 (a b c : vertex3) (rowwise : bool) : mat :=
  Mat 3 3 (if rowwise then [vx a; vx b; vx c; vy a; vy b; vy c; vz a; vz b; vz c] else [vx a; vy a; vz a; vx b; vy b; vz b; vx c; vy c; vz c]).
(** Vertex3.cpp 266-272; det() leaves det at 0 when it fails *)
Definition isLinearIndependent (a b c : vertex3) : out bool :=
  let* d := det (mat3 a b c false) in Val (isNotEqual (match d with Some x => x | None => f0 end) f0).

(** * Geometry.cpp *)
Definition nan2 : vertex2 := V2 NAN NAN.
Definition nan3 : vertex3 := V3 NAN NAN NAN.
(** Geometry.cpp 37-76 *)
Definition lineAndPlane (position normal line direction : vertex3) (extend : bool) : vertex3 :=
  if isNull normal then nan3 else if isNull direction then nan3 else if isOrthogonal3 normal direction then nan3 else
  let lambda := div64 (add64 (add64 (mul64 (vx normal) (sub64 (vx position) (vx line))) (mul64 (vy normal) (sub64 (vy position) (vy line)))) (mul64 (vz normal) (sub64 (vz position) (vz line))))
                      (add64 (add64 (mul64 (vx direction) (vx normal)) (mul64 (vy direction) (vy normal))) (mul64 (vz direction) (vz normal))) in
  if negb extend && (isLess lambda f0 || isGreater lambda f1) then nan3 else vadd3 line (vmul3 lambda direction).
(** Geometry.cpp 78-113 *)
Definition circles (c1 : vertex2) (r1 : spec_float) (c2 : vertex2) (r2 : spec_float) : vertex2 * vertex2 :=
  let x1 := px c1 in let y1 := py c1 in let x2 := px c2 in let y2 := py c2 in
  let dx := sub64 x2 x1 in let dy := sub64 y2 y1 in
  let d := sqrt64 (add64 (mul64 dx dx) (mul64 dy dy)) in
  if SFltb (add64 r1 r2) d || SFltb d (SFabs (sub64 r1 r2)) || (SFeqb d f0 && SFeqb r1 r2) then (nan2, nan2) else
  let a := div64 (add64 (sub64 (mul64 r1 r1) (mul64 r2 r2)) (mul64 d d)) (mul64 (int64f 2) d) in
  let h := sqrt64 (sub64 (mul64 r1 r1) (mul64 a a)) in
  let qx := add64 x1 (div64 (mul64 a dx) d) in
  let qy := add64 y1 (div64 (mul64 a dy) d) in
  (V2 (add64 qx (div64 (mul64 h dy) d)) (sub64 qy (div64 (mul64 h dx) d)), V2 (sub64 qx (div64 (mul64 h dy) d)) (add64 qy (div64 (mul64 h dx) d))).
(** Geometry.cpp 115-126, 128-143, 145-156, 158-179, 182-197 *)
Definition closestOnPlane (point position normal : vertex3) : vertex3 := lineAndPlane position normal point normal true.
Definition closestOnLine2 (point position direction : vertex2) : vertex2 :=
  let v := vsub2 point position in let d := normalized2 direction in let t := dot2 v d in vadd2 position (vmul2 t d).
Definition closestOnLine (point position direction : vertex3) : vertex3 := lineAndPlane point direction position direction true.
Definition closestOfLines (position1 direction1 position2 direction2 : vertex3) : vertex3 :=
  let normal1 := cross3 direction1 direction2 in
  let normal2 := cross3 direction1 normal1 in
  lineAndPlane position1 normal2 position2 direction2 true.
Definition closestOnSegment (point start end_ : vertex3) (extend : bool) : vertex3 :=
  let direction := vsub3 end_ start in lineAndPlane point direction start direction extend.
(** Geometry.cpp 223-278 *)
Definition distanceToPlane (point position normal : vertex3) : spec_float := abs3 (vsub3 (closestOnPlane point position normal) point).
Definition distancePoints3 (p q : vertex3) : spec_float := abs3 (vsub3 q p).
Definition distancePoints2 (p q : vertex2) : spec_float := abs2 (vsub2 q p).
Definition distanceToLine (point position direction : vertex3) : spec_float := abs3 (vsub3 (closestOnLine point position direction) point).
Definition distanceToSegment (point start end_ : vertex3) (extend : bool) : spec_float := abs3 (vsub3 (closestOnSegment point start end_ extend) point).
(** Geometry.cpp 294-320 *)
Definition distanceLines (position1 direction1 position2 direction2 : vertex3) : spec_float :=
  if isCollinear3 direction1 direction2 then div64 (abs3 (cross3 direction1 (vsub3 position2 position1))) (abs3 direction1)
  else distancePoints3 (closestOfLines position2 direction2 position1 direction1) (closestOfLines position1 direction1 position2 direction2).
(** Geometry.cpp 323-347, 358-363 *)
Definition isPointOnPlane (point position normal : vertex3) (maxDistance : spec_float) : bool := isLess (distanceToPlane point position normal) maxDistance.
Definition isPointOnLine (point position direction : vertex3) : bool := isEqual (distanceToLine point position direction) f0.
Definition isPointOnSegment (point start end_ : vertex3) (extend : bool) : bool := isEqual (distanceToSegment point start end_ extend) f0.
Definition isSamePoint (p q : vertex3) : bool := isEqual (distancePoints3 p q) f0.
(** Geometry.cpp 365-376 *)
Definition intersection2 (position1 direction1 position2 direction2 : vertex2) : vertex2 :=
  if isCollinear2 direction1 direction2 then nan2
  else let x := solveLinearSystem direction1 (vmul2 (int64f (-1)) direction2) (vsub2 position2 position1) in vadd2 position2 (vmul2 (py x) direction2).
(** Geometry.cpp 378-412 *)
Definition intersection3 (position1 direction1 position2 direction2 : vertex3) : vertex3 :=
  if isLessEqual (distanceLines position1 direction1 position2 direction2) f0 then closestOfLines position1 direction1 position2 direction2 else nan3.
(** Geometry.cpp 414-434 *)
Definition crosses (start1 end1 start2 end2 : vertex2) : bool :=
  let dir1 := vsub2 end1 start1 in
  let dir2 := vsub2 end2 start2 in
  if isCollinear2 dir1 dir2 then false else
  let x := solveLinearSystem dir1 (vmul2 (int64f (-1)) dir2) (vsub2 start2 start1) in
  negb (isLess (px x) f0 || isGreater (px x) f1 || isLess (py x) f0 || isGreater (py x) f1).
(** Geometry.cpp 436-479 *)
Definition extensionOnLine (rayorigin direction start end_ : vertex2) : vertex2 :=
  let direction2 := vsub2 end_ start in
  if isCollinear2 direction direction2 then nan2 else
  let x := solveLinearSystem direction (vmul2 (int64f (-1)) direction2) (vsub2 start rayorigin) in
  let lambda := py x in
  let inter := vadd2 start (vmul2 lambda direction2) in
  if isNaN (px inter) || isNaN (py inter) then inter else
  if eq2 inter rayorigin then nan2 else
  if isLess lambda f0 || isGreater lambda f1 then nan2 else
  let n1 := normalized2 direction in
  let n2 := normalized2 (vsub2 inter rayorigin) in
  if isEqual (px n1) (px n2) && isEqual (py n1) (py n2) then inter else nan2.
(** while(cond(x)) x = step(x), at most [fuel] times in the model *)
Fixpoint whilef (fuel : nat) (cond : spec_float -> bool) (step : spec_float -> spec_float) (x : spec_float) : out spec_float :=
  if cond x then match fuel with O => Fuel | S n => whilef n cond step (step x) end else Val x.
(** M_PI and 2 * M_PI *)
Definition two_pi : spec_float := mul64 (int64f 2) (S754_finite false 7074237752028440 (-51)).
(** Geometry.cpp 485-514; [angle] is the answer of std::atan2 *)
Definition checkAngle (fuel : nat) (angle start end_ : spec_float) : out bool :=
  let* start := whilef fuel (fun s => isGreaterEqual s two_pi) (fun s => sub64 s two_pi) start in
  let* end_ := whilef fuel (fun e => isGreaterEqual e two_pi) (fun e => sub64 e two_pi) end_ in
  let* end_ := whilef fuel (fun e => isLessEqual e start) (fun e => add64 e two_pi) end_ in
  let* angle := whilef fuel (fun a => isLess a start) (fun a => add64 a two_pi) angle in
  Val (isLessEqual angle end_).
(** Geometry.cpp 519-585; [atan2] is std::atan2 *)
Definition pqCheck (fuel : nat) (atan2 : spec_float -> spec_float -> spec_float) (p q : spec_float) (rayorigin direction center : vertex2) (start end_ : spec_float) : out vertex2 :=
  let p2 := mul64 (lit 1 2) p in
  let rt := sub64 (mul64 p2 p2) q in
  if isLessEqual rt f0 && isLess rt f0 then Val nan2 else
  let rt := if isLessEqual rt f0 then f0 else rt in
  let n1 := sub64 (fneg p2) (sqrt64 rt) in
  let n2 := add64 (fneg p2) (sqrt64 rt) in
  if isLessEqual n1 f0 && isLessEqual n2 f0 then Val nan2 else
  let pt1 := vadd2 rayorigin (vmul2 n1 direction) in
  let pt2 := vadd2 rayorigin (vmul2 n2 direction) in
  let check pt := let dir := vsub2 pt center in checkAngle fuel (atan2 (py dir) (px dir)) start end_ in
  let* ok1 := check pt1 in
  let* ok2 := check pt2 in
  if isGreater n1 f0 && isGreater n2 f0 then
    Val (if isLess n1 n2 then (if ok1 then pt1 else if ok2 then pt2 else nan2) else (if ok2 then pt2 else if ok1 then pt1 else nan2))
  else Val (if isLessEqual n1 f0 && ok2 then pt2 else if isLessEqual n2 f0 && ok1 then pt1 else nan2).
(** Geometry.cpp 587-630 *)
Definition extensionOnArc (fuel : nat) (atan2 : spec_float -> spec_float -> spec_float) (o d c : vertex2) (radius start end_ : spec_float) : out vertex2 :=
  let sq x := mul64 x x in
  let a := add64 (sq (px d)) (sq (py d)) in
  let two := int64f 2 in
  let b := mul64 two (sub64 (add64 (sub64 (mul64 (px d) (px o)) (mul64 (px c) (px d))) (mul64 (py d) (py o))) (mul64 (py c) (py d))) in
  let cc := add64 (add64 (sub64 (sub64 (sub64 (sub64 (sq radius) (sq (px o))) (sq (py o))) (sq (px c))) (sq (py c))) (mul64 (mul64 two (px o)) (px c))) (mul64 (mul64 two (py o)) (py c)) in
  pqCheck fuel atan2 (div64 b a) (div64 (fneg cc) a) o d c start end_.
(** Geometry.cpp 632-683; [atan2], [cos], [sin] are those of the C library *)
Definition extensionOnEllipse (fuel : nat) (atan2 : spec_float -> spec_float -> spec_float) (cos sin : spec_float -> spec_float) (o_ d_ c_ mainAxis : vertex2) (ratio start end_ : spec_float) : out vertex2 :=
  let angle := atan2 (py c_) (px c_) in
  let rot v := rotated2 (cos (fneg angle)) (sin (fneg angle)) v in
  let c := rot c_ in let d := rot d_ in let o := rot o_ in
  let a := abs2 mainAxis in
  let b := mul64 a ratio in
  let a2 := mul64 a a in let b2 := mul64 b b in
  let qx := sub64 (px o) (px c) in let qy := sub64 (py o) (py c) in
  let dv := add64 (div64 (mul64 (px d) (px d)) a2) (div64 (mul64 (py d) (py d)) b2) in
  let p := div64 (mul64 (int64f 2) (add64 (div64 (mul64 (px d) qx) a2) (div64 (mul64 (py d) qy) b2))) dv in
  let q := div64 (sub64 (add64 (div64 (mul64 qx qx) a2) (div64 (mul64 qy qy) b)) f1) dv in
  let* r := pqCheck fuel atan2 p q o d c start end_ in
  Val (if isValid2 r then rotated2 (cos angle) (sin angle) r else r).
(** Geometry.cpp 685-693 *)
Definition angleBisector3 (a b : vertex3) : vertex3 := vadd3 (normalized3 a) (normalized3 b).
Definition angleBisector2 (a b : vertex2) : vertex2 := vadd2 (normalized2 a) (normalized2 b).
(** Geometry.cpp 695-740; None: the status of det() *)
Definition circleBy3 (p1 p2 p3 : vertex2) : out (option (vertex2 * spec_float)) :=
  let sq p := add64 (mul64 (px p) (px p)) (mul64 (py p) (py p)) in
  let m f := mat3 (f p1) (f p2) (f p3) true in
  let* m11 := det (m (fun p => V3 (px p) (py p) f1)) in
  match m11 with None => Val None | Some m11 =>
  let* m12 := det (m (fun p => V3 (sq p) (py p) f1)) in
  match m12 with None => Val None | Some m12 =>
  let* m13 := det (m (fun p => V3 (sq p) (px p) f1)) in
  match m13 with None => Val None | Some m13 =>
    let c := V2 (div64 (mul64 (lit 1 2) m12) m11) (div64 (mul64 (fneg (lit 1 2)) m13) m11) in
    Val (Some (c, abs2 (vsub2 p1 c)))
  end end end.
