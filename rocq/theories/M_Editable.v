(** M_Editable.v -- model of the setMember functions and flags of src/core/EditableObject.cpp (with an undo manager in full: M_Undo.v, for int64 members). Here: the status, the member
    afterwards and what the undo manager is told. A String is the list of its characters. *)
From Verif Require Import Base M_Float M_MathF M_Rect M_Matrix M_Geometry M_Xml M_Undo.
Local Open Scope Z_scope.

(** [told] is true when registerChange was called (before the write), [failed] when registerTransactionStatus(eInvalidInput) was called *)
Record effect (A : Type) := E { st : status; member : A; told : bool; failed : bool }.
Arguments E {A}. Arguments st {A}. Arguments member {A}. Arguments told {A}. Arguments failed {A}.
(** EditableObject.cpp 57-66, 100-142: [um] tells whether there is a document that has an undo manager *)
Definition set_plain {A} (same : A -> A -> bool) (um : bool) (m v : A) : effect A :=
  if same v m then E eNotChanged m false false else E eOK v um false.
Definition set_string : bool -> list Z -> list Z -> effect (list Z) := set_plain same.
Definition set_bool : bool -> bool -> bool -> effect bool := set_plain Bool.eqb.
Definition set_uint8 : bool -> Z -> Z -> effect Z := set_plain Z.eqb.
Definition set_int16 : bool -> Z -> Z -> effect Z := set_plain Z.eqb.
(** value == *pointer is the operator of Vertex3.cpp 233-236 *)
Definition set_vertex3 : bool -> vertex3 -> vertex3 -> effect vertex3 := set_plain eq3.
(** EditableObject.cpp 68-86 *)
Definition set_int64 (um : bool) (m v lo hi : Z) : effect Z :=
  if v =? m then E eNotChanged m false false else if negb ((v >=? lo) && (v <=? hi)) then E eInvalidInput m false um else E eOK v um false.
(** EditableObject.cpp 88-98 *)
Definition set_double (um : bool) (m v : spec_float) : effect spec_float :=
  if isNaN v then E eInvalidInput m false false else if SFeqb v m then E eNotChanged m false false else E eOK v um false.
