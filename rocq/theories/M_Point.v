(** M_Point.v -- model of src/core/Point.cpp and src/core/Size.cpp. Doubles as in M_Float. A Size is a Point here (Size.cpp 46-50 converts one to the other): px is its
    width, py its height. The accessors are not modelled. *)
From Verif Require Import Base M_Float M_MathF.
Local Open Scope Z_scope.
Record point := Pt { px : spec_float; py : spec_float }.
(** Point.cpp 35-39, Size.cpp 34-38 *)
Definition origin : point := Pt (int64f 0) (int64f 0).
(** Point.cpp 77-85, Size.cpp 82-90: std::min, std::max *)
Definition cWiseMin (p q : point) : point := Pt (fmin (px p) (px q)) (fmin (py p) (py q)).
Definition cWiseMax (p q : point) : point := Pt (fmax (px p) (px q)) (fmax (py p) (py q)).
(** Point.cpp 87-92, 101-104; 94-99, 106-109, Size.cpp 92-95 *)
Definition plus (p q : point) : point := Pt (add64 (px p) (px q)) (add64 (py p) (py q)).
Definition minus (p q : point) : point := Pt (sub64 (px p) (px q)) (sub64 (py p) (py q)).
(** Point.cpp 111-125, Size.cpp 109-115: both orders compute d times the coordinate *)
Definition times (d : spec_float) (p : point) : point := Pt (mul64 d (px p)) (mul64 d (py p)).
(** Size.cpp 97-101, 103-107 *)
Definition size_eq (p q : point) : bool := isEqual (px p) (px q) && isEqual (py p) (py q).
Definition size_ne (p q : point) : bool := isNotEqual (px p) (px q) || isNotEqual (py p) (py q).
