(** S_Property.v -- vocabulary for the properties of Property and Variant. *)
From Coq Require Import String.
From Verif Require Import Base M_Float M_Xml M_Property S_Double.
Local Open Scope Z_scope.
Definition int64 (n : Z) : Prop := - 2 ^ 63 <= n < 2 ^ 63.

(** the calls that change a property *)
Inductive op := OString (s : list Z) | OUnit (x : spec_float) (u : list Z) | OInteger (n : Z) | ODouble (x : spec_float) | OBool (b : bool) | OType (t : ptype) | OIcon (i : list Z) | OFrom (q : property).
Definition call (p : property) (o : op) : property :=
  match o with
  | OString s => setStringValue p s | OUnit x u => setUnitValue p x u | OInteger n => setIntegerValue p n | ODouble x => setDoubleValue p x | OBool b => setBoolValue p b
  | OType t => setType p t | OIcon i => setIcon p i | OFrom q => setValue p q
  end.
Definition calls (p : property) (l : list op) : property := fold_left call l p.
(** calls that do not set the number, calls that do not set the text *)
Definition keeps_number (o : op) : Prop := match o with OString _ | OType _ | OIcon _ => True | _ => False end.
Definition keeps_text (o : op) : Prop := match o with OInteger _ | ODouble _ | OBool _ | OType _ | OIcon _ => True | _ => False end.
(** properties a program can have *)
Inductive made : property -> Prop :=
  | made_new : made new
  | made_id i : made (new_id i)
  | made_full i g n h e ro m ae : made (new_full i g n h e ro m ae)
  | made_string p s : made p -> made (setStringValue p s)
  | made_unit p x u : made p -> double x -> made (setUnitValue p x u)
  | made_integer p n : made p -> int64 n -> made (setIntegerValue p n)
  | made_double p x : made p -> double x -> made (setDoubleValue p x)
  | made_bool p b : made p -> made (setBoolValue p b)
  | made_type p t : made p -> made (setType p t)
  | made_icon p i : made p -> made (setIcon p i)
  | made_from p q : made p -> made q -> made (setValue p q).

(** how operator== compares the value for an editor *)
Inductive way := ByText | ByNumber | ByBool | ByUnit.
Definition editors : list (list Z * way) :=
  [(str "textfield", ByText); (str "file", ByText); (str "dwglayer", ByText); (str "number", ByNumber); (str "combobox", ByNumber); (str "dwgcolour", ByNumber); (str "checkbox", ByBool); (str "value", ByUnit)].
Definition compares (p : property) (w : way) : Prop := (type p = kValue /\ w = ByUnit) \/ (type p <> kValue /\ In (editor (about p), w) editors).
Definition same_place (p q : property) : Prop := id (about p) = id (about q) /\ editor (about p) = editor (about q).
(** compared exactly, with a defined value *)
Definition plain (p : property) (w : way) : Prop := compares p w /\ w <> ByUnit /\ (w = ByBool -> exists b, boolValue p = Val b).
