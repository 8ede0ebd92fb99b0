(** M_Color.v -- model of src/core/Color.cpp. The union (Color.h 267-292) is its four bytes: grey, red and cyan are byte 0, green and magenta
    byte 1, blue and yellow byte 2, key byte 3. *)
From Verif Require Import Base M_Float.

(** Color.h 44-49 *)
Inductive cmode := Grey | Rgb | Cmyk.
(** Color.h 263-294 *)
Record color := C { mode : cmode; b0 : Z; b1 : Z; b2 : Z; b3 : Z; alpha : Z }.
(** Color.cpp 46-53; the last byte is not initialised: [j] *)
Definition color_new (j : Z) : color := C Rgb 0 0 0 j 255.
(** Color.cpp 355-391 *)
Definition from_grey (j grey alpha : Z) : color := C Grey grey 0 0 j alpha.
Definition from_rgb (j red green blue alpha : Z) : color := C Rgb red green blue j alpha.
Definition from_cmyk (cyan magenta yellow key alpha : Z) : color := C Cmyk cyan magenta yellow key alpha.
(** Color.cpp 84-117 *)
Definition to_rgb (c : color) : color :=
  match mode c with
  | Rgb => c
  | Grey => C Rgb (b0 c) (b0 c) (b0 c) (b3 c) (alpha c)
  | Cmyk => C Rgb (255 - Z.min 255 (b0 c + b3 c)) (255 - Z.min 255 (b1 c + b3 c)) (255 - Z.min 255 (b2 c + b3 c)) (b3 c) (alpha c)
  end.
(** the constants 0.2126f, 0.7152f and 0.0733f of Color.cpp 128-130 *)
Definition k_red : spec_float := S754_finite false 14267344 (-26).
Definition k_green : spec_float := S754_finite false 11999065 (-24).
Definition k_blue : spec_float := S754_finite false 9838159 (-27).
(** Color.cpp 124-134; static_cast<int8>(255) is -1; the int8 is converted to uint8 when stored *)
Definition rgb_to_grey (c : color) : out color :=
  let grey := add32 (add32 (mul32 k_red (int32f (b0 c))) (mul32 k_green (int32f (b1 c)))) (mul32 k_blue (int32f (b2 c))) in
  let* g := f2s8 grey in
  Val (C Grey (Z.min (-1) g mod 256) (b1 c) (b2 c) (b3 c) 255).
(** Color.cpp 119-148 *)
Definition to_greyscale (c : color) : out color :=
  match mode c with Rgb => rgb_to_grey c | Grey => Val c | Cmyk => rgb_to_grey (to_rgb c) end.
(** one component of Color.cpp 168-174: x is r, g or b, k the key *)
Definition cmyk_part (x k : spec_float) : spec_float := div32 (sub32 (sub32 (int32f 1) x) k) (sub32 (int32f 1) k).
(** Color.cpp 150-200 *)
Definition to_cmyk (c : color) : out color :=
  match mode c with
  | Rgb =>
    let r := div32 (int32f (b0 c)) (int32f 255) in
    let g := div32 (int32f (b1 c)) (int32f 255) in
    let b := div32 (int32f (b2 c)) (int32f 255) in
    let k := sub32 (int32f 1) (fmax r (fmax g b)) in
    let* c' := f2u8 (mul32 (int32f 255) (cmyk_part r k)) in
    let* m' := f2u8 (mul32 (int32f 255) (cmyk_part g k)) in
    let* y' := f2u8 (mul32 (int32f 255) (cmyk_part b k)) in
    let* k' := f2u8 (mul32 (int32f 255) k) in
    Val (C Cmyk c' m' y' k' 255)
  | Grey => Val (C Cmyk 0 0 0 (255 - b0 c) 255)
  | Cmyk => Val c
  end.
(** Color.cpp 253-268 *)
Definition is_white (c : color) : bool :=
  match mode c with
  | Rgb => (b0 c =? 255) && (b1 c =? 255) && (b2 c =? 255)
  | Grey => b0 c =? 255
  | Cmyk => (b0 c =? 0) && (b1 c =? 0) && (b2 c =? 0) && (b3 c =? 0)
  end.
(** Color.cpp 270-303: hue, saturation, value *)
Definition hsv (c : color) : spec_float * spec_float * spec_float :=
  let t := to_rgb c in
  let mx := Z.max (Z.max (b0 t) (b1 t)) (b2 t) in
  let mn := Z.min (Z.min (b0 t) (b1 t)) (b2 t) in
  let d := int32f (mx - mn) in
  let h := if mx =? mn then S754_zero false
           else if mx =? b0 t then div32 (mul32 (int32f 60) (int32f (b1 t - b2 t))) d
           else if mx =? b1 t then mul32 (int32f 60) (add32 (int32f 2) (div32 (int32f (b2 t - b0 t)) d))
           else mul32 (int32f 60) (add32 (int32f 4) (div32 (int32f (b0 t - b1 t)) d)) in
  let h := if SFltb h (S754_zero false) then add32 h (int32f 360) else h in
  let s := if mx =? mn then S754_zero false else div32 d (int32f mx) in
  (h, s, div32 (int32f mx) (int32f 255)).
(** Color.cpp 446-454 *)
Definition pd_alpha (back fore : Z) : Z := (fore + ((255 - fore) * back) / 255) mod 256.
(** Color.cpp 458-470 *)
Definition pd_colour (cb ab cf af : Z) : out Z :=
  let aA := div32 (int32f af) (int32f 255) in
  let aB := div32 (int32f ab) (int32f 255) in
  let cA := div32 (int32f cf) (int32f 255) in
  let cB := div32 (int32f cb) (int32f 255) in
  let aC := div32 (int32f (pd_alpha ab af)) (int32f 255) in
  let r := div32 (add32 (mul32 aA cA) (mul32 (mul32 (sub32 (int32f 1) aA) aB) cB)) aC in
  f2u8 (mul32 r (int32f 255)).
(** Color.cpp 472-496; [j] is the byte that is not initialised *)
Definition mix (a f b : Z) : Z := (a * f + (255 - a) * b) / 255 mod 256.
Definition blend (j : Z) (back fore : color) (a : Z) : out color :=
  if (alpha back =? 255) && (alpha fore =? 255) then
    Val (C Rgb (mix a (b0 fore) (b0 back)) (mix a (b1 fore) (b1 back)) (mix a (b2 fore) (b2 back)) j 255)
  else
    let* r := pd_colour (b0 back) (alpha back) (b0 fore) (alpha fore) in
    let* g := pd_colour (b1 back) (alpha back) (b1 fore) (alpha fore) in
    let* b := pd_colour (b2 back) (alpha back) (b2 fore) (alpha fore) in
    Val (C Rgb r g b j (pd_alpha (alpha back) (alpha fore))).
(** Color.cpp 498-509 *)
Definition lerp (x y : Z) (p : spec_float) : out Z := f2u8 (add32 (int32f x) (mul32 (int32f (y - x)) p)).
Definition interpolate (j : Z) (c1 c2 : color) (p : spec_float) : out color :=
  let* r := lerp (b0 c1) (b0 c2) p in
  let* g := lerp (b1 c1) (b1 c2) p in
  let* b := lerp (b2 c1) (b2 c2) p in
  let* a := lerp (alpha c1) (alpha c2) p in
  Val (C Rgb r g b j a).
(** Color.cpp 512-539 *)
Definition mode_eqb (a b : cmode) : bool := match a, b with Grey, Grey | Rgb, Rgb | Cmyk, Cmyk => true | _, _ => false end.
Definition color_eqb (c1 c2 : color) : bool :=
  if negb (mode_eqb (mode c1) (mode c2)) then false else
  match mode c1 with
  | Grey => b0 c1 =? b0 c2
  | Rgb => (b0 c1 =? b0 c2) && (b1 c1 =? b1 c2) && (b2 c1 =? b2 c2)
  | Cmyk => (b0 c1 =? b0 c2) && (b1 c1 =? b1 c2) && (b2 c1 =? b2 c2) && (b3 c1 =? b3 c2)
  end && (alpha c1 =? alpha c2).
(** Color.cpp 546-600: [o] is the operation on a byte, modulo 256 *)
Definition color_op (o : Z -> Z -> Z) (c1 c2 : color) : color :=
  let f x y := o x y mod 256 in
  match mode c1 with
  | Grey => C Grey (f (b0 c1) (b0 c2)) (b1 c1) (b2 c1) (b3 c1) (f (alpha c1) (alpha c2))
  | Rgb => C Rgb (f (b0 c1) (b0 c2)) (f (b1 c1) (b1 c2)) (f (b2 c1) (b2 c2)) (b3 c1) (f (alpha c1) (alpha c2))
  | Cmyk => C Cmyk (f (b0 c1) (b0 c2)) (f (b1 c1) (b1 c2)) (f (b2 c1) (b2 c2)) (f (b3 c1) (b3 c2)) (f (alpha c1) (alpha c2))
  end.
Definition color_add : color -> color -> color := color_op Z.add.
Definition color_sub : color -> color -> color := color_op Z.sub.
(** Color.cpp 393-442; [j] is the byte that is not initialised *)
Definition from_hsv (j : Z) (hue saturation value alpha : spec_float) : out color :=
  let h6 := div32 hue (int32f 60) in
  let* hi := ffloor_s32 h6 in
  let f := sub32 h6 (int32f hi) in
  let p := mul32 value (sub32 (int32f 1) saturation) in
  let q := mul32 value (sub32 (int32f 1) (mul32 saturation f)) in
  let t := mul32 value (sub32 (int32f 1) (mul32 saturation (sub32 (int32f 1) f))) in
  let mk r g b :=
    let* r' := f2u8 (mul32 r (int32f 255)) in
    let* g' := f2u8 (mul32 g (int32f 255)) in
    let* b' := f2u8 (mul32 b (int32f 255)) in
    Val (C Rgb r' g' b' j 255) in
  let* c := (if (hi =? 0) || (hi =? 6) then mk value t p
             else if hi =? 1 then mk q value p
             else if hi =? 2 then mk p value t
             else if hi =? 3 then mk p q value
             else if hi =? 4 then mk t p value
             else if hi =? 5 then mk value p q
             else Val (color_new j)) in
  let* a := f2u8 (mul32 alpha (int32f 255)) in
  Val (C Rgb (b0 c) (b1 c) (b2 c) (b3 c) a).
