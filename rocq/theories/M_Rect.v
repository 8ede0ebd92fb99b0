(** M_Rect.v -- model of src/core/Rect.cpp, include/core/Rect.h (contains, intersects) and src/core/Extents.cpp on doubles (M_Float). A Point and a Size are their two
    doubles (Point.cpp, Size.cpp); a Rect is its origin and its size. The copying constructors and setters and the corner functions that only combine left, right,
    top and bottom are not modelled. A rectangle given to its own functions (r.unionWith(r)) is not modelled: the argument is a value. *)
From Verif Require Import Base M_Float M_MathF.

Record rect := Rect { x : spec_float; y : spec_float; width : spec_float; height : spec_float }.
(** Rect.cpp 34-38 *)
Definition rect0 : rect := Rect (int64f 0) (int64f 0) (int64f 0) (int64f 0).
(** Rect.cpp 88-106 *)
Definition left (r : rect) : spec_float := x r.
Definition right (r : rect) : spec_float := add64 (x r) (width r).
Definition top (r : rect) : spec_float := y r.
Definition bottom (r : rect) : spec_float := add64 (y r) (height r).
(** Rect.cpp 108-112 *)
Definition center (r : rect) : spec_float * spec_float := (add64 (x r) (mul64 (lit 1 2) (width r)), add64 (y r) (mul64 (lit 1 2) (height r))).
(** Rect.cpp 214-227 *)
Definition move (r : rect) (d : spec_float * spec_float) : rect := Rect (add64 (x r) (fst d)) (add64 (y r) (snd d)) (width r) (height r).
(** Rect.cpp 229-237 *)
Definition alignTopLeft (r o : rect) : rect := Rect (x o) (y o) (width r) (height r).
Definition alignBottomLeft (r o : rect) : rect := Rect (left o) (sub64 (bottom o) (height r)) (width r) (height r).
(** Rect.cpp 243-263; 265-281 (moveLeft, moveRight, moveBottom) have the same bodies as shiftLeft, shiftRight, shiftBottom *)
Definition shiftTop (r : rect) (d : spec_float) : rect := Rect (x r) (add64 (y r) d) (width r) (sub64 (height r) d).
Definition shiftLeft (r : rect) (d : spec_float) : rect := Rect (add64 (x r) d) (y r) (sub64 (width r) d) (height r).
Definition shiftRight (r : rect) (d : spec_float) : rect := Rect (x r) (y r) (add64 (width r) d) (height r).
Definition shiftBottom (r : rect) (d : spec_float) : rect := Rect (x r) (y r) (width r) (add64 (height r) d).
(** Rect.cpp 289-307 *)
Definition setTop (r : rect) (v : spec_float) : rect := shiftTop r (sub64 v (top r)).
Definition setLeft (r : rect) (v : spec_float) : rect := shiftLeft r (sub64 v (left r)).
Definition setRight (r : rect) (v : spec_float) : rect := shiftRight r (sub64 v (right r)).
Definition setBottom (r : rect) (v : spec_float) : rect := shiftBottom r (sub64 v (bottom r)).
(** Rect.cpp 161-167 *)
Definition intersect (r o : rect) : rect :=
  let r := setLeft r (fmax (left r) (left o)) in
  let r := setTop r (fmax (top r) (top o)) in
  let r := Rect (x r) (y r) (sub64 (fmin (right r) (right o)) (x r)) (height r) in
  Rect (x r) (y r) (width r) (sub64 (fmin (bottom r) (bottom o)) (y r)).
(** Rect.cpp 309-321 *)
Definition normalize (r : rect) : rect :=
  let r := if SFltb (width r) (int64f 0) then Rect (add64 (x r) (width r)) (y r) (fneg (width r)) (height r) else r in
  if SFltb (height r) (int64f 0) then Rect (x r) (add64 (y r) (height r)) (width r) (fneg (height r)) else r.
(** Rect.cpp 327-333 *)
Definition unionWith (r o : rect) : rect :=
  let r := if SFltb (left o) (left r) then setLeft r (left o) else r in
  let r := if SFltb (top o) (top r) then setTop r (top o) else r in
  let r := if SFltb (right r) (right o) then setRight r (right o) else r in
  if SFltb (bottom r) (bottom o) then setBottom r (bottom o) else r.
(** Rect.cpp 335-338 *)
Definition isEmpty (r : rect) : bool := isEqual (width r) (int64f 0) || isEqual (height r) (int64f 0).
(** Rect.h 296-302 *)
Definition contains (r : rect) (px py : spec_float) : bool :=
  SFleb (x r) px && SFleb px (add64 (x r) (width r)) && SFleb (y r) py && SFleb py (add64 (y r) (height r)).
(** Rect.h 326-332 *)
Definition intersects (r o : rect) : bool :=
  SFleb (x r) (add64 (x o) (width o)) && SFleb (x o) (add64 (x r) (width r)) &&
  SFleb (y r) (add64 (y o) (height o)) && SFleb (y o) (add64 (y r) (height r)).
(** Rect.cpp 339-355 *)
Definition intersection (r o : rect) : rect :=
  if intersects r o then
    let dleft := fmax (left r) (left o) in
    let dtop := fmax (top r) (top o) in
    let dright := fmin (right r) (right o) in
    let dbottom := fmin (bottom r) (bottom o) in
    Rect dleft dtop (sub64 dright dleft) (sub64 dbottom dtop)
  else rect0.

(** * Extents *)
Record vertex3 := V3 { vx : spec_float; vy : spec_float; vz : spec_float }.
Record extents := Ext { mPtMin : vertex3; mPtMax : vertex3 }.
(** the constants 1E90 and 1E89 of Extents.cpp: the closest double of the decimal number *)
Definition e90 : spec_float := int64f (10 ^ 90).
Definition e89 : spec_float := int64f (10 ^ 89).
(** Extents.cpp 36-39 *)
Definition extents0 : extents := Ext (V3 e90 e90 e90) (V3 (fneg e90) (fneg e90) (fneg e90)).
(** Extents.cpp 41-48: a Vertex2 *)
Definition add2 (e : extents) (px py : spec_float) : extents :=
  Ext (V3 (fmin (vx (mPtMin e)) px) (fmin (vy (mPtMin e)) py) (vz (mPtMin e)))
      (V3 (fmax (vx (mPtMax e)) px) (fmax (vy (mPtMax e)) py) (vz (mPtMax e))).
(** Extents.cpp 50-59 *)
Definition add3 (e : extents) (p : vertex3) : extents :=
  Ext (V3 (fmin (vx (mPtMin e)) (vx p)) (fmin (vy (mPtMin e)) (vy p)) (fmin (vz (mPtMin e)) (vz p)))
      (V3 (fmax (vx (mPtMax e)) (vx p)) (fmax (vy (mPtMax e)) (vy p)) (fmax (vz (mPtMax e)) (vz p))).
(** Extents.cpp 79-82 *)
Definition isValid (e : extents) : bool := SFltb (vx (mPtMin e)) e89.
(** Extents.cpp 61-67 *)
Definition addExt (e o : extents) : extents := if isValid o then add3 (add3 e (mPtMin o)) (mPtMax o) else e.
(** Extents.cpp 84-87, Vertex3.cpp 196-199 *)
Definition delta (e : extents) : vertex3 :=
  V3 (sub64 (vx (mPtMax e)) (vx (mPtMin e))) (sub64 (vy (mPtMax e)) (vy (mPtMin e))) (sub64 (vz (mPtMax e)) (vz (mPtMin e))).
