(** M_Nurbs.v -- model of src/core/NURBS.cpp. Doubles as in M_Float; Vertex3 as in M_Geometry. Indices are uint32 and are not checked: a read outside the array is UB. Allocation succeeds.
    Not modelled: the implicit copy constructor. *)
From Verif Require Import Base M_Float M_MathF M_Rect M_Matrix M_Geometry.

(** Nurbs.h 140-170; mControlCount, mKnotCount and mWeightCount are the lengths *)
Record nurbs := Nu { degree : Z; ctrl : list vertex3; knots : list spec_float; weights : list spec_float }.
(** NURBS.cpp 36-45 *)
Definition emptyNurbs : nurbs := Nu 1 [] [] [].
(** NURBS.cpp 47-69 *)
Definition newNurbs (degree : Z) (c : list vertex3) (k w : list spec_float) : out nurbs :=
  if degree <? 1 then Exn else Val (Nu degree c k w).
(** NURBS.cpp 78-105 *)
Fixpoint basisN (c : nurbs) (k : nat) (i : Z) (t : spec_float) : out spec_float :=
  match k with
  | O =>
      let* a := rd (knots c) i in
      if SFleb a t then let* b := rd (knots c) (u32 (i + 1)) in Val (if SFltb t b then f1 else f0) else Val f0
  | S k' =>
      let* ui := rd (knots c) i in
      let a := sub64 t ui in
      let* uk := rd (knots c) (u32 (i + Z.of_nat k)) in
      let b := sub64 uk ui in
      let* ul := rd (knots c) (u32 (i + Z.of_nat k + 1)) in
      let cc := sub64 ul t in
      let* uj := rd (knots c) (u32 (i + 1)) in
      let d := sub64 ul uj in
      let* n1 := (if isEqual b f0 then Val f0 else let* x := basisN c k' i t in Val (div64 (mul64 x a) b)) in
      let* n2 := (if isEqual d f0 then Val f0 else let* x := basisN c k' (u32 (i + 1)) t in Val (div64 (mul64 x cc) d)) in
      Val (add64 n1 n2)
  end.
(** NURBS.cpp 107-115 *)
Definition sumWN (c : nurbs) (k : nat) (t : spec_float) : out spec_float :=
  fold_left (fun acc j => let* b := acc in let* w := rd (weights c) j in let* x := basisN c k j t in Val (add64 b (mul64 w x))) (zrange (length (ctrl c))) (Val f0).
Definition ratio (c : nurbs) (i : Z) (k : nat) (t : spec_float) : out spec_float :=
  let* w := rd (weights c) i in let* x := basisN c k i t in
  let a := mul64 w x in
  let* b := sumWN c k t in Val (div64 a b).
(** NURBS.cpp 117-124 *)
Definition pointAt (c : nurbs) (t : spec_float) : out vertex3 :=
  fold_left (fun acc i => let* P := acc in let* p := rd (ctrl c) i in let* r := ratio c i (Z.to_nat (degree c)) t in Val (vadd3 P (vmul3 r p))) (zrange (length (ctrl c))) (Val (V3 f0 f0 f0)).
(** NURBS.cpp 126-129 *)
Definition startOf (c : nurbs) : spec_float := f0.
(** NURBS.cpp 131-137 *)
Definition endOf (c : nurbs) : out spec_float :=
  if zlen (knots c) <? 1 then Val f0 else
  let m := int64f (u32 (zlen (ctrl c) - degree c + 2)) in
  let* l := rd (knots c) (zlen (knots c) - 1) in
  if SFltb m l then let* l := rd (knots c) (zlen (knots c) - 1) in Val l else Val m.
(** NURBS.cpp 139-152 *)
Definition controlPointCount (c : nurbs) : Z := zlen (ctrl c).
Definition knotCount (c : nurbs) : Z := zlen (knots c).
Definition knotOf (c : nurbs) (i : Z) : out spec_float := rd (knots c) i.
