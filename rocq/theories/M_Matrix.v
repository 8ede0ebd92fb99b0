(** M_Matrix.v -- model of src/core/Matrix.cpp and src/core/Vector.cpp. Doubles as in M_Float; the array behind a matrix is a list, an access outside it is undefined. Assumed: memory is always available.
    Not modelled: print, operator<<, ref, eigen (in M_Eigen), initWcs (in M_Wcs), transAngle, the rotation from one vector to another, constructors from vertices, the memory that init() leaks when it replaces an
    array, matrices with a negative number of rows or columns. *)
From Verif Require Import Base M_Float M_MathF M_Rect.

(** for(i = from; n times; i++) *)
Fixpoint loop {S : Type} (n : nat) (i : Z) (f : Z -> S -> out S) (s : S) : out S :=
  match n with O => Val s | Datatypes.S n => let* s := f i s in loop n (i + 1) f s end.
(** for(i = 0; i < n; i++) *)
Definition loop0 {S : Type} (n : Z) (f : Z -> S -> out S) (s : S) : out S := loop (Z.to_nat n) 0 f s.

(** Matrix.h: m rows, n columns, data column by column *)
Record mat := Mat { mm : Z; mn : Z; md : list spec_float }.
Notation zero := (S754_zero false).
(** Matrix.cpp 38-42 (and 130-135, 153-160): the loop counter of zeros() is 32 bits wide and never reaches larger counts; new double[] rejects negative counts *)
Definition mat_new (rows cols : Z) : out mat :=
  let* c := chk64 (rows * cols) in
  if c <? 0 then Exn else if c >? 4294967295 then Fuel else Val (Mat rows cols (repeat zero (Z.to_nat c))).
(** Matrix.cpp 80-85 *)
Definition mat_of (value : spec_float) : mat := Mat 1 1 [value].
(** Matrix.cpp 87-104, 106-114: element by element, with a 32 bit counter *)
Definition copy_list (l : list spec_float) (c : Z) : out (list spec_float) :=
  if c >? 4294967295 then Fuel else loop0 c (fun i d => let* v := rd l i in wr d i v) (repeat zero (Z.to_nat c)).
Definition mat_copy (A : mat) : out mat :=
  let* c := chk64 (mm A * mn A) in
  if c >? 0 then let* d := copy_list (md A) c in Val (Mat (mm A) (mn A) d) else Val (Mat (mm A) (mn A) []).
Definition mat_copy_ptr (A : mat) : out mat :=
  let* c := chk64 (mm A * mn A) in
  if c <? 0 then Exn else let* d := copy_list (md A) c in Val (Mat (mm A) (mn A) d).
(** Matrix.cpp 832-850: operator=; the old array is given back *)
Definition mat_assign (A B : mat) : out mat := mat_copy B.
(** Matrix.cpp 137-151 *)
Definition index (A : mat) (row col : Z) : out Z := let* a := chk64 (col * mm A) in chk64 (row + a).
Definition set (A : mat) (row col : Z) (value : spec_float) : out mat :=
  let* i := index A row col in let* d := wr (md A) i value in Val (Mat (mm A) (mn A) d).
Definition add (A : mat) (row col : Z) (value : spec_float) : out mat :=
  let* i := index A row col in let* v := rd (md A) i in let* d := wr (md A) i (add64 v value) in Val (Mat (mm A) (mn A) d).
Definition get (A : mat) (row col : Z) : out spec_float := let* i := index A row col in rd (md A) i.
(** Matrix.cpp 153-160 *)
Definition zeros (A : mat) : out mat :=
  let* c := chk64 (mm A * mn A) in
  if c >? 4294967295 then Fuel else let* d := loop0 c (fun i d => wr d i zero) (md A) in Val (Mat (mm A) (mn A) d).

(** Matrix.cpp 162-243; None: eError *)
Definition det (A : mat) : out (option spec_float) :=
  if mm A =? mn A then
    let d := rd (md A) in
    if mm A =? 1 then let* a := d 0 in Val (Some a)
    else if mm A =? 2 then
      let* d0 := d 0 in let* d1 := d 1 in let* d2 := d 2 in let* d3 := d 3 in
      Val (Some (sub64 (mul64 d0 d3) (mul64 d1 d2)))
    else if mm A =? 3 then
      let* d0 := d 0 in let* d1 := d 1 in let* d2 := d 2 in let* d3 := d 3 in let* d4 := d 4 in let* d5 := d 5 in let* d6 := d 6 in let* d7 := d 7 in let* d8 := d 8 in
      let p1 := mul64 (mul64 d0 d4) d8 in
      let p2 := mul64 (mul64 d3 d7) d2 in
      let p3 := mul64 (mul64 d6 d1) d5 in
      let m1 := mul64 (mul64 d6 d4) d2 in
      let m2 := mul64 (mul64 d7 d5) d0 in
      let m3 := mul64 (mul64 d8 d3) d1 in
      Val (Some (sub64 (sub64 (sub64 (add64 (add64 p1 p2) p3) m1) m2) m3))
    else if mm A =? 4 then
      let* a11 := d 0 in let* a21 := d 1 in let* a31 := d 2 in let* a41 := d 3 in let* a12 := d 4 in let* a22 := d 5 in let* a32 := d 6 in let* a42 := d 7 in
      let* a13 := d 8 in let* a23 := d 9 in let* a33 := d 10 in let* a43 := d 11 in let* a14 := d 12 in let* a24 := d 13 in let* a34 := d 14 in let* a44 := d 15 in
      let p4 x1 x2 x3 x4 := mul64 (mul64 (mul64 x1 x2) x3) x4 in
      let s3 x1 x2 x3 := add64 (add64 x1 x2) x3 in
      let p1 := s3 (p4 a11 a22 a33 a44) (p4 a11 a23 a34 a42) (p4 a11 a24 a32 a43) in
      let p2 := s3 (p4 a12 a21 a34 a43) (p4 a12 a23 a31 a44) (p4 a12 a24 a33 a41) in
      let p3 := s3 (p4 a13 a21 a32 a44) (p4 a13 a22 a34 a41) (p4 a13 a24 a31 a42) in
      let p4' := s3 (p4 a14 a21 a33 a42) (p4 a14 a22 a31 a43) (p4 a14 a23 a32 a41) in
      let m1 := s3 (p4 a11 a22 a34 a43) (p4 a11 a23 a32 a44) (p4 a11 a24 a33 a42) in
      let m2 := s3 (p4 a12 a21 a33 a44) (p4 a12 a23 a34 a41) (p4 a12 a24 a31 a43) in
      let m3 := s3 (p4 a13 a21 a34 a42) (p4 a13 a22 a31 a44) (p4 a13 a24 a32 a41) in
      let m4 := s3 (p4 a14 a21 a32 a43) (p4 a14 a22 a33 a41) (p4 a14 a23 a31 a42) in
      Val (Some (sub64 (sub64 (sub64 (sub64 (add64 (add64 (add64 p1 p2) p3) p4') m1) m2) m3) m4))
    else Val None
  else Val None.

(** Matrix.cpp 247-386; None: eError. det() answers for every size that reaches 1.0 / determinant *)
Definition inverse (A : mat) : out (option mat) :=
  if mm A =? mn A then
    let d := rd (md A) in
    let one := int64f 1 in
    if mm A =? 1 then let* a := d 0 in let* l := wr (md A) 0 (div64 one a) in Val (Some (Mat (mm A) (mn A) l))
    else if (mm A =? 2) || (mm A =? 3) || (mm A =? 4) then
      let* o := det A in
      match o with
      | None => UB
      | Some dt =>
        let t := div64 one dt in
        if mm A =? 2 then
          let* a := d 0 in let* b := d 2 in let* c := d 1 in let* e := d 3 in
          let* l := wr (md A) 0 (mul64 e t) in let* l := wr l 2 (mul64 (fneg b) t) in let* l := wr l 1 (mul64 (fneg c) t) in let* l := wr l 3 (mul64 a t) in
          Val (Some (Mat (mm A) (mn A) l))
        else if mm A =? 3 then
          let* a := d 0 in let* b := d 3 in let* c := d 6 in let* d' := d 1 in let* e := d 4 in let* f := d 7 in let* g := d 2 in let* h := d 5 in let* i := d 8 in
          let m2 x1 x2 x3 x4 := mul64 (sub64 (mul64 x1 x2) (mul64 x3 x4)) t in
          let* l := wr (md A) 0 (m2 e i f h) in let* l := wr l 3 (m2 c h b i) in let* l := wr l 6 (m2 b f c e) in
          let* l := wr l 1 (m2 f g d' i) in let* l := wr l 4 (m2 a i c g) in let* l := wr l 7 (m2 c d' a f) in
          let* l := wr l 2 (m2 d' h e g) in let* l := wr l 5 (m2 b g a h) in let* l := wr l 8 (m2 a e b d') in
          Val (Some (Mat (mm A) (mn A) l))
        else
          let* a11 := d 0 in let* a21 := d 1 in let* a31 := d 2 in let* a41 := d 3 in let* a12 := d 4 in let* a22 := d 5 in let* a32 := d 6 in let* a42 := d 7 in
          let* a13 := d 8 in let* a23 := d 9 in let* a33 := d 10 in let* a43 := d 11 in let* a14 := d 12 in let* a24 := d 13 in let* a34 := d 14 in let* a44 := d 15 in
          let p x1 x2 x3 := mul64 (mul64 x1 x2) x3 in
          let m p1 p2 p3 m1 m2 m3 := mul64 (sub64 (sub64 (sub64 (add64 (add64 p1 p2) p3) m1) m2) m3) t in
          let* l := wr (md A) 0 (m (p a22 a33 a44) (p a23 a34 a42) (p a24 a32 a43) (p a22 a34 a43) (p a23 a32 a44) (p a24 a33 a42)) in
          let* l := wr l 1 (m (p a21 a34 a43) (p a23 a31 a44) (p a24 a33 a41) (p a21 a33 a44) (p a23 a34 a41) (p a24 a31 a43)) in
          let* l := wr l 2 (m (p a21 a32 a44) (p a22 a34 a41) (p a24 a31 a42) (p a21 a34 a42) (p a22 a31 a44) (p a24 a32 a41)) in
          let* l := wr l 3 (m (p a21 a33 a42) (p a22 a31 a43) (p a23 a32 a41) (p a21 a32 a43) (p a22 a33 a41) (p a23 a31 a42)) in
          let* l := wr l 4 (m (p a12 a34 a43) (p a13 a32 a44) (p a14 a33 a42) (p a12 a33 a44) (p a13 a34 a42) (p a14 a32 a43)) in
          let* l := wr l 5 (m (p a11 a33 a44) (p a13 a34 a41) (p a14 a31 a43) (p a11 a34 a43) (p a13 a31 a44) (p a14 a33 a41)) in
          let* l := wr l 6 (m (p a11 a34 a42) (p a12 a31 a44) (p a14 a32 a41) (p a11 a32 a44) (p a12 a34 a41) (p a14 a31 a42)) in
          let* l := wr l 7 (m (p a11 a32 a43) (p a12 a33 a41) (p a13 a31 a42) (p a11 a33 a42) (p a12 a31 a43) (p a13 a32 a41)) in
          let* l := wr l 8 (m (p a12 a23 a44) (p a13 a24 a42) (p a14 a22 a43) (p a12 a24 a43) (p a13 a22 a44) (p a14 a23 a42)) in
          let* l := wr l 9 (m (p a11 a24 a43) (p a13 a21 a44) (p a14 a23 a41) (p a11 a23 a44) (p a13 a24 a41) (p a14 a21 a43)) in
          let* l := wr l 10 (m (p a11 a22 a44) (p a12 a24 a41) (p a14 a21 a42) (p a11 a24 a42) (p a12 a21 a44) (p a14 a22 a41)) in
          let* l := wr l 11 (m (p a11 a23 a42) (p a12 a21 a43) (p a13 a22 a41) (p a11 a22 a43) (p a12 a23 a41) (p a13 a21 a42)) in
          let* l := wr l 12 (m (p a12 a24 a33) (p a13 a22 a34) (p a14 a23 a32) (p a12 a23 a34) (p a13 a24 a32) (p a14 a22 a33)) in
          let* l := wr l 13 (m (p a11 a23 a34) (p a13 a24 a31) (p a14 a21 a33) (p a11 a24 a33) (p a13 a21 a34) (p a14 a23 a31)) in
          let* l := wr l 14 (m (p a11 a24 a32) (p a12 a21 a34) (p a14 a22 a31) (p a11 a22 a34) (p a12 a24 a31) (p a14 a21 a32)) in
          let* l := wr l 15 (m (p a11 a22 a33) (p a12 a23 a31) (p a13 a21 a32) (p a11 a23 a32) (p a12 a21 a33) (p a13 a22 a31)) in
          Val (Some (Mat (mm A) (mn A) l))
      end
    else Val None
  else Val None.

(** Matrix.cpp 388-402 *)
Definition transpose (A : mat) : out mat :=
  let* tmp := mat_copy_ptr A in
  loop0 (mm tmp) (fun a M => loop0 (mn tmp) (fun b M => let* v := get tmp a b in set M b a v) M) (Mat (mn A) (mm A) (md A)).
(** Matrix.cpp 405-417, 420-432: [r0], [c0] are 0 in the first version *)
Definition insert (M A : mat) (r0 c0 : Z) : out mat :=
  let* a := chk64 (mm M - r0) in
  let* b := chk64 (mn M - c0) in
  let rows := Z.min a (mm A) in
  let cols := Z.min b (mn A) in
  loop0 rows (fun r M => loop0 cols (fun c M => let* v := get A r c in set M (r + r0) (c + c0) v) M) M.
(** Matrix.cpp 434-442 *)
Definition diag (A : mat) (value : spec_float) : out mat :=
  loop0 (Z.min (mm A) (mn A)) (fun i M => let* j := chk64 (i * (mm A + 1)) in let* d := wr (md M) j value in Val (Mat (mm A) (mn A) d)) A.
(** Matrix.cpp 449-489; kNorm1 and kNormInf (the other sums only change the loops; 32 bit counters never end for 2^32 and more) *)
Definition norm1 (A : mat) : out spec_float :=
  loop0 (mn A) (fun col norm => let* sum := loop0 (mm A) (fun row sum => let* v := get A row col in Val (add64 sum (SFabs v))) zero in Val (if SFltb norm sum then sum else norm)) zero.
Definition normInf (A : mat) : out spec_float :=
  loop0 (mm A) (fun row norm => let* sum := loop0 (mn A) (fun col sum => let* v := get A row col in Val (add64 sum (SFabs v))) zero in Val (if SFltb norm sum then sum else norm)) zero.
(** Matrix.cpp 505-518 *)
Definition nonZeroElementCount (A : mat) : out Z :=
  loop0 (mm A) (fun r n => loop0 (mn A) (fun c n => let* v := get A r c in Val (if SFeqb v zero then n else u32 (n + 1))) n) 0.
(** Matrix.cpp 520-533 *)
Definition trace (A : mat) : out spec_float :=
  loop0 (Z.min (mm A) (mn A)) (fun i sum => let* j := chk64 (i * (mm A + 1)) in let* v := rd (md A) j in Val (add64 sum v)) zero.

(** Matrix.cpp 873-907 *)
Definition mul (A B : mat) : out mat :=
  if mn A =? mm B then
    let* R := mat_new (mm A) (mn B) in
    loop0 (mm A) (fun i R => loop0 (mn B) (fun j R =>
      loop0 (mn A) (fun k R =>
        let* a := rd (md A) (i + k * mm A) in let* b := rd (md B) (k + j * mm B) in
        let* r := rd (md R) (i + j * mm A) in let* d := wr (md R) (i + j * mm A) (add64 r (mul64 a b)) in Val (Mat (mm R) (mn R) d)) R) R) R
  else Exn.
(** Matrix.cpp 909-933, 935-959: the condition is that of the product *)
Definition pointwise (op : spec_float -> spec_float -> spec_float) (A B : mat) : out mat :=
  if mn A =? mm B then
    let* R := mat_new (mm A) (mn B) in
    loop0 (mm A) (fun i R => loop0 (mn B) (fun j R =>
      let* a := rd (md A) (i + j * mm A) in let* b := rd (md B) (i + j * mm A) in let* d := wr (md R) (i + j * mm A) (op a b) in Val (Mat (mm R) (mn R) d)) R) R
  else Exn.
Definition plus : mat -> mat -> out mat := pointwise add64.
Definition minus : mat -> mat -> out mat := pointwise sub64.
(** Matrix.cpp 961-992 *)
Definition each (f : spec_float -> spec_float) (A : mat) : out mat :=
  let* R := mat_new (mm A) (mn A) in
  loop0 (mm A * mn A) (fun i R => let* a := rd (md A) i in let* d := wr (md R) i (f a) in Val (Mat (mm R) (mn R) d)) R.
Definition scale (d : spec_float) (A : mat) : out mat := each (mul64 d) A.
Definition divide (A : mat) (d : spec_float) : out mat := each (fun a => div64 a d) A.
(** Matrix.cpp 1144-1165 and Vector.cpp 43-48 *)
Definition mulv (A : mat) (b : list spec_float) : out (list spec_float) :=
  if mn A =? zlen b then
    loop0 (mm A) (fun r l =>
      let* l := wr l r zero in
      loop0 (mn A) (fun c l => let* x := rd b c in let* v := get A r c in let* o := rd l r in wr l r (add64 o (mul64 x v))) l) (repeat zero (Z.to_nat (mm A)))
  else Exn.
(** Matrix.cpp 856-871 *)
Definition mul3 (A : mat) (b : vertex3) : out vertex3 :=
  if (mm A =? 3) && (mn A =? 3) then
    let d := rd (md A) in
    let* d0 := d 0 in let* d1 := d 1 in let* d2 := d 2 in let* d3 := d 3 in let* d4 := d 4 in let* d5 := d 5 in let* d6 := d 6 in let* d7 := d 7 in let* d8 := d 8 in
    let row x1 x2 x3 := add64 (add64 (mul64 x1 (vx b)) (mul64 x2 (vy b))) (mul64 x3 (vz b)) in
    Val (V3 (row d0 d3 d6) (row d1 d4 d7) (row d2 d5 d8))
  else Exn.

(** * transformations: the matrix becomes 4x4 *)
(** Matrix.cpp 603-608 and the like: init(4, 4) if the size differs, then zeros() *)
Definition init4 (A : mat) : out mat := if (mm A =? 4) && (mn A =? 4) then zeros A else Val (Mat 4 4 (repeat zero 16)).
Fixpoint sets (A : mat) (l : list (Z * Z * spec_float)) : out mat := match l with [] => Val A | (r, c, v) :: l => let* A := set A r c v in sets A l end.
Definition initIdentity (A : mat) : out mat := let* A := init4 A in diag A (int64f 1).
(** Matrix.cpp 630-680 *)
Definition initMirroring (A : mat) (p n : vertex3) : out mat :=
  let a := vx n in let b := vy n in let c := vz n in
  let d := sub64 (sub64 (mul64 (fneg (vx p)) a) (mul64 (vy p) b)) (mul64 (vz p) c) in
  let two := int64f 2 in let one := int64f 1 in
  let m2 x y := mul64 (mul64 (fneg two) x) y in
  let* A := init4 A in
  sets A [(0, 0, sub64 one (mul64 (mul64 two a) a)); (1, 0, m2 a b); (2, 0, m2 a c);
          (0, 1, m2 b a); (1, 1, sub64 one (mul64 (mul64 two b) b)); (2, 1, m2 b c);
          (0, 2, m2 a c); (1, 2, m2 b c); (2, 2, sub64 one (mul64 (mul64 two c) c));
          (0, 3, m2 a d); (1, 3, m2 b d); (2, 3, m2 c d); (3, 3, one)].
(** Matrix.cpp 682-696 *)
Definition initMoving (A : mat) (v : vertex3) : out mat :=
  let* A := init4 A in let* A := diag A (int64f 1) in sets A [(0, 3, vx v); (1, 3, vy v); (2, 3, vz v)].
(** Matrix.cpp 698-707, 709-737 *)
Definition initScaling (A : mat) (f : vertex3) : out mat :=
  let* A := init4 A in sets A [(0, 0, vx f); (1, 1, vy f); (2, 2, vz f); (3, 3, int64f 1)].
Definition initScalingAt (A : mat) (p : vertex3) (f : spec_float) : out mat :=
  let* A := init4 A in
  let off x := sub64 x (mul64 f x) in
  sets A [(0, 0, f); (1, 1, f); (2, 2, f); (0, 3, off (vx p)); (1, 3, off (vy p)); (2, 3, off (vz p)); (3, 3, int64f 1)].
(** Matrix.cpp 739-755, 1059-1077; [c] and [s] are the answers of cos and sin *)
Definition initRotationZ (A : mat) (c s : spec_float) : out mat :=
  let* A := init4 A in
  sets A [(0, 0, c); (1, 0, s); (2, 0, zero); (0, 1, fneg s); (1, 1, c); (2, 1, zero); (0, 2, zero); (1, 2, zero); (2, 2, int64f 1); (3, 3, int64f 1)].
(** Matrix.cpp 757-798, 994-1028 *)
Definition initRotation (A : mat) (p ax : vertex3) (c s : spec_float) : out mat :=
  let x := vx ax in let y := vy ax in let z := vz ax in
  let k := sub64 (int64f 1) c in
  let q u v := mul64 (mul64 u v) k in
  let r0 := add64 c (q x x) in let r3 := sub64 (q x y) (mul64 z s) in let r6 := add64 (q x z) (mul64 y s) in
  let r1 := add64 (q y x) (mul64 z s) in let r4 := add64 c (q y y) in let r7 := sub64 (q y z) (mul64 x s) in
  let r2 := sub64 (q z x) (mul64 y s) in let r5 := add64 (q y z) (mul64 x s) in let r8 := add64 c (q z z) in
  let* A := init4 A in
  let off t a b e := sub64 (sub64 (sub64 t (mul64 (vx p) a)) (mul64 (vy p) b)) (mul64 (vz p) e) in
  sets A [(0, 0, r0); (1, 0, r1); (2, 0, r2); (0, 1, r3); (1, 1, r4); (2, 1, r5); (0, 2, r6); (1, 2, r7); (2, 2, r8);
          (0, 3, off (vx p) r0 r3 r6); (1, 3, off (vy p) r1 r4 r7); (2, 3, off (vz p) r2 r5 r8); (3, 3, int64f 1)].
(** Matrix.cpp 800-812 *)
Definition trans (A : mat) (v : vertex3) : out vertex3 :=
  let* mx := mat_copy_ptr A in
  let* o := mulv mx [vx v; vy v; vz v; int64f 1] in
  let* x := rd o 0 in let* y := rd o 1 in let* z := rd o 2 in Val (V3 x y z).

(** * Vector.cpp 66-104, 136-159; m is the length of the list *)
Definition dotProduct (a b : list spec_float) : out spec_float :=
  loop0 (zlen a) (fun i p => let* x := rd a i in let* y := rd b i in Val (add64 p (mul64 x y))) zero.
Definition vabs (a : list spec_float) : out spec_float :=
  let* r := loop0 (zlen a) (fun i p => let* x := rd a i in Val (add64 p (mul64 x x))) zero in Val (SFsqrt 53 1024 r).
Definition vmap (f : spec_float -> spec_float) (a : list spec_float) : out (list spec_float) :=
  loop0 (zlen a) (fun i l => let* x := rd l i in wr l i (f x)) a.
Definition normalize (a : list spec_float) : out (list spec_float) := let* v := vabs a in vmap (fun x => div64 x v) a.
Definition vop (op : spec_float -> spec_float -> spec_float) (a b : list spec_float) : out (list spec_float) :=
  if zlen a =? zlen b then loop0 (zlen a) (fun i l => let* x := rd a i in let* y := rd b i in wr l i (op x y)) (repeat zero (length a)) else Exn.
Definition vadd := vop add64.
Definition vsub := vop sub64.
Definition vscale (d : spec_float) (a : list spec_float) : out (list spec_float) := loop0 (zlen a) (fun i l => let* x := rd a i in wr l i (mul64 d x)) (repeat zero (length a)).
