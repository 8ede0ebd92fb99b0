(** M_Property.v -- model of src/core/Property.cpp and of the struct Variant of include/core/Property.h.
    A String is the list of its character codes (C10, C59); [same] of M_Xml is String::equals. The union of the number is its 64 bits as an unsigned number;
    reading a member other than the one written last reinterprets the bytes, as the compilers the library is built with define it; the machine is little endian.
    Reading a bool from a byte that is neither 0 nor 1 is undefined. All NaNs are one value with the bits 7FF8000000000000.
    The setters return eOK always; the log entry of operator== (line 272) is not modelled. *)
From Coq Require Import String.
From Verif Require Import Base M_Float M_MathF M_Xml.
Local Open Scope Z_scope.

(** the bits of a double (IEEE 754 binary64) and the double with given bits *)
Definition bits (x : spec_float) : Z :=
  match x with
  | S754_zero s => (if s then 2 ^ 63 else 0)
  | S754_infinity s => (if s then 2 ^ 63 else 0) + 2047 * 2 ^ 52
  | S754_nan => 2047 * 2 ^ 52 + 2 ^ 51
  | S754_finite s m e => (if s then 2 ^ 63 else 0) + (if Zpos m <? 2 ^ 52 then Zpos m else (e + 1075) * 2 ^ 52 + (Zpos m - 2 ^ 52))
  end.
Definition of_bits (w : Z) : spec_float :=
  let s := 2 ^ 63 <=? w in
  let e := w / 2 ^ 52 mod 2048 in
  let m := w mod 2 ^ 52 in
  if e =? 2047 then (if m =? 0 then S754_infinity s else S754_nan)
  else if e =? 0 then match m with Zpos p => S754_finite s p (-1074) | _ => S754_zero s end
  else match m + 2 ^ 52 with Zpos p => S754_finite s p (e - 1075) | _ => S754_nan end.
(** the bits of an int64 and the int64 with given bits *)
Definition word_of (n : Z) : Z := n mod 2 ^ 64.
Definition to_int64 (w : Z) : Z := if w <? 2 ^ 63 then w else w - 2 ^ 64.

(** Property.h 50-57 *)
Inductive change_mode := kItself | kOthers | kCount.
(** Property.h 59-69 *)
Inductive ptype := kString | kInteger | kDouble | kDwgColour | kDwgLayer | kDwgLineType | kBoolean | kValue.
(** Property.h 333-400: the members that describe the property, and its value *)
Record descr := Descr { id : list Z; group : list Z; name : list Z; hint : list Z; editor : list Z; icon : list Z; isReadOnly : bool; allowEmpty : bool; changeMode : change_mode }.
Record property := Property { about : descr; type : ptype; word : Z; stringValue : list Z }.

(** Property.cpp 36-75: the three constructors; Property.cpp 117-120 *)
Definition new : property := Property (Descr [] [] [] [] [] [] false true kItself) kString 0 [].
Definition new_id (i : list Z) : property := Property (Descr i [] [] [] [] [] false true kItself) kString 0 [].
Definition new_full (i g n h e : list Z) (ro : bool) (m : change_mode) (ae : bool) : property := Property (Descr i g n h e [] ro ae m) kString 0 [].
Definition setIcon (p : property) (i : list Z) : property :=
  let '(Descr a b c e f _ r y m) := about p in Property (Descr a b c e f i r y m) (type p) (word p) (stringValue p).
(** Property.cpp 77-80 *)
Definition is (p : property) (i : list Z) : bool := same (id (about p)) i.
(** Property.cpp 87-90 *)
Definition setType (p : property) (t : ptype) : property := Property (about p) t (word p) (stringValue p).
(** Property.cpp 142-147 *)
Definition setStringValue (p : property) (s : list Z) : property := Property (about p) kString (word p) s.
(** Property.cpp 149-155 *)
Definition setUnitValue (p : property) (x : spec_float) (u : list Z) : property := Property (about p) kValue (bits x) u.
(** Property.cpp 162-167 *)
Definition setIntegerValue (p : property) (n : Z) : property := Property (about p) kInteger (word_of n) (stringValue p).
(** Property.cpp 181-184 *)
Definition integerValue (p : property) : Z := to_int64 (word p).
(** Property.cpp 186-191 *)
Definition setDoubleValue (p : property) (x : spec_float) : property := Property (about p) kDouble (bits x) (stringValue p).
(** Property.cpp 193-196 *)
Definition doubleValue (p : property) : spec_float := of_bits (word p).
(** Property.cpp 198-203: one byte of the union is written *)
Definition setBoolValue (p : property) (b : bool) : property := Property (about p) kBoolean (word p - word p mod 256 + (if b then 1 else 0)) (stringValue p).
(** Property.cpp 205-208 *)
Definition boolValue (p : property) : out bool := let b := word p mod 256 in if b =? 0 then Val false else if b =? 1 then Val true else UB.
(** Property.cpp 210-215 *)
Definition setValue (p q : property) : property := Property (about p) (type q) (word q) (stringValue q).
(** Property.cpp 217-222 *)
Definition isValueEquals (p q : property) : bool :=
  if negb (same (stringValue p) (stringValue q)) then false else if negb (integerValue p =? integerValue q) then false else true.
(** Property.cpp 224-274 *)
Definition eqp (v1 v2 : property) : out bool :=
  if negb (same (id (about v1)) (id (about v2))) then Val false else
  if negb (same (editor (about v1)) (editor (about v2))) then Val false else
  if match type v1 with kValue => true | _ => false end then Val (same (stringValue v1) (stringValue v2) && isEqual (doubleValue v1) (doubleValue v2)) else
  let e := editor (about v1) in
  if same e (str "textfield") then Val (same (stringValue v1) (stringValue v2))
  else if same e (str "number") then Val (integerValue v1 =? integerValue v2)
  else if same e (str "checkbox") then let* a := boolValue v1 in let* b := boolValue v2 in Val (Bool.eqb a b)
  else if same e (str "file") then Val (same (stringValue v1) (stringValue v2))
  else if same e (str "combobox") then Val (integerValue v1 =? integerValue v2)
  else if same e (str "value") then Val (same (stringValue v1) (stringValue v2) && isEqual (doubleValue v1) (doubleValue v2))
  else if same e (str "dwgcolour") then Val (integerValue v1 =? integerValue v2)
  else if same e (str "dwglayer") then Val (same (stringValue v1) (stringValue v2))
  else Val false.

(** * Variant. The number of a Variant built from a string is not initialised: [None] *)
(** Property.h 141-160 *)
Record variant := Variant { vtype : ptype; vword : option Z; vtext : list Z }.
(** Property.h 73-77, 98-114 *)
Definition vnew : variant := Variant kInteger (Some 0) [].
Definition vint (n : Z) : variant := Variant kInteger (Some (word_of n)) [].
Definition vdouble (x : spec_float) : variant := Variant kDouble (Some (bits x)) [].
Definition vstring (s : list Z) : variant := Variant kString None s.
(** Property.h 79-84; the new object's text is empty before *)
Definition vcopy (o : variant) : variant := Variant (vtype o) (vword o) (match vtype o with kString => vtext o | _ => [] end).
(** Property.h 86-96, on two different objects; an assignment to itself does nothing *)
Definition vassign (v o : variant) : variant := Variant (vtype o) (vword o) (match vtype o with kString => vtext o | _ => vtext v end).
(** Property.h 116-134 *)
Definition toInt64 (v : variant) : out Z := match vword v with Some w => Val (to_int64 w) | None => UB end.
Definition toInt32 (v : variant) : out Z := match vword v with Some w => Val (let n := to_int64 w mod 2 ^ 32 in if n <? 2 ^ 31 then n else n - 2 ^ 32) | None => UB end.
Definition toDouble (v : variant) : out spec_float := match vword v with Some w => Val (of_bits w) | None => UB end.
Definition toString (v : variant) : list Z := vtext v.
