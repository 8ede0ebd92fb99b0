(** M_Transform.v -- model of src/core/Transform.cpp: object and world coordinates (the arbitrary axis algorithm). Doubles as in M_Float. *)
From Verif Require Import Base M_Float M_MathF M_Rect M_Matrix M_Geometry.
Local Open Scope Z_scope.
(** Transform.cpp 24-25 *)
Definition wy : vertex3 := V3 f0 f1 f0.
Definition wz : vertex3 := V3 f0 f0 f1.
(** Transform.cpp 33: 1.0 / 64.0 *)
Definition b64th : spec_float := div64 f1 (int64f 64).
(** Transform.cpp 21-42; Vertex3.cpp 147-152 (normalize sets the vector to what normalized answers) *)
Definition ocsMatrix (extrusion : vertex3) : mat :=
  let ox := if SFltb (SFabs (vx extrusion)) b64th && SFltb (SFabs (vy extrusion)) b64th then cross3 wy extrusion else cross3 wz extrusion in
  let ox := normalized3 ox in
  let oy := normalized3 (cross3 extrusion ox) in
  mat3 ox oy extrusion true.
(** Transform.cpp 44-50: a failing inverse() leaves the matrix *)
Definition wcsMatrix (extrusion : vertex3) : out mat :=
  let w := ocsMatrix extrusion in let* r := inverse w in Val (match r with Some m => m | None => w end).
(** Transform.cpp 53-61 *)
Definition wcsToOcs (wcs extrusion : vertex3) : out vertex3 := mul3 (ocsMatrix extrusion) wcs.
(** Transform.cpp 63-70 *)
Definition ocsToWcs (ocs extrusion : vertex3) : out vertex3 := let* w := wcsMatrix extrusion in mul3 w ocs.
