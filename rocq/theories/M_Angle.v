(** M_Angle.v -- model of degToRad and radToDeg (Math.cpp 36-47). Doubles as in M_Float; M_PI (Types.h 55) in M_Eigen. *)
From Verif Require Import Base M_Float M_MathF M_Rect M_Matrix M_Geometry M_Eigen.
(** Math.cpp 36-37 *)
Definition T_PI : spec_float := div64 (int64f 1) M_PI.
Definition T_180 : spec_float := div64 (int64f 1) (int64f 180).
(** Math.cpp 39-42 *)
Definition degToRad (deg : spec_float) : spec_float := mul64 (mul64 deg M_PI) T_180.
(** Math.cpp 44-47 *)
Definition radToDeg (rad : spec_float) : spec_float := mul64 (mul64 rad (int64f 180)) T_PI.
