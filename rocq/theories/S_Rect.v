(** S_Rect.v -- rectangles of a grid. *)
From Coq Require Import QArith.
From Coq Require Import SpecFloat.
From Verif Require Import Base M_Rect S_Double.
Local Open Scope Z_scope.
(** the origin of r is (a, b), its size is (w, h), in steps of the grid with the width 2^k *)
Definition rect_at (k : Z) (r : rect) (a b w h : Z) : Prop := grid k (x r) a /\ grid k (y r) b /\ grid k (width r) w /\ grid k (height r) h.
Definition small (a b w h : Z) : Prop := Z.abs a <= 2 ^ 47 /\ Z.abs b <= 2 ^ 47 /\ Z.abs w <= 2 ^ 47 /\ Z.abs h <= 2 ^ 47.
(** the grid position z as a number *)
Definition pos (k z : Z) : Q := (inject_Z z * q2 k)%Q.
(** all points of a list added one by one *)
Definition collect (ps : list vertex3) : extents := fold_left add3 ps extents0.
Definition collect2 (ps : list (spec_float * spec_float)) : extents := fold_left (fun e p => add2 e (fst p) (snd p)) ps extents0.
(** m is the least value that component c has among the points ps; or the greatest *)
Definition least (c : vertex3 -> spec_float) (ps : list vertex3) (m : spec_float) : Prop :=
  (exists p, In p ps /\ c p = m) /\ forall p a b, In p ps -> dbl m a -> dbl (c p) b -> (a <= b)%Q.
Definition greatest (c : vertex3 -> spec_float) (ps : list vertex3) (m : spec_float) : Prop :=
  (exists p, In p ps /\ c p = m) /\ forall p a b, In p ps -> dbl m a -> dbl (c p) b -> (b <= a)%Q.
(** the coordinates are numbers between -1E88 and 1E88 *)
Definition coord (c : spec_float) : Prop := exists a, dbl c a /\ (- inject_Z (10 ^ 88) < a)%Q /\ (a < inject_Z (10 ^ 88))%Q.
Definition fine (p : vertex3) : Prop := coord (vx p) /\ coord (vy p) /\ coord (vz p).
(** the corners of e are the least and the greatest coordinates of ps *)
Definition bounds (ps : list vertex3) (e : extents) : Prop :=
  least vx ps (vx (mPtMin e)) /\ least vy ps (vy (mPtMin e)) /\ least vz ps (vz (mPtMin e)) /\
  greatest vx ps (vx (mPtMax e)) /\ greatest vy ps (vy (mPtMax e)) /\ greatest vz ps (vz (mPtMax e)).
