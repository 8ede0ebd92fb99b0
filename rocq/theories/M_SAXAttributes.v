(** M_SAXAttributes.v -- the rest of src/core/SAXAttributes.cpp (indexOf, value(name) and hasValue are attr_index, attr_value and attr_has of M_Xml.v).
    The object is the list of its pairs (mNames and mValues have the same length in every reachable state); fewer than 2^31 attributes, so that no index wraps. valueAsFloat/valueAsDouble are not modelled. *)
From Coq Require Import String.
From Verif Require Import Base M_String M_Xml.
Local Open Scope Z_scope.
Definition attrs := list (list Z * list Z).
(** SAXAttributes.cpp 36-40 *)
Definition sa_new : attrs := [].
(** SAXAttributes.cpp 75-80 *)
Definition sa_add (l : attrs) (uri localname qName value : list Z) : attrs := l ++ [(localname, value)].
(** SAXAttributes.cpp 48-58: the vectors of the new object were never allocated, the pointers are uninitialised *)
Definition sa_copy (other : attrs) : out attrs := UB.
(** SAXAttributes.cpp 60-73: clear, then push_back one after the other. at() throws outside *)
Definition at_ (l : attrs) (i : Z) : out (list Z * list Z) := match lget l i with Some p => Val p | None => Exn end.
Fixpoint sa_fill (other : attrs) (a : Z) (n : nat) (l : attrs) : out attrs :=
  match n with O => Val l | S n => let* p := at_ other a in sa_fill other (a + 1) n (l ++ [p]) end.
Definition sa_assign (l other : attrs) : out attrs := sa_fill other 0 (length other) [].
(** SAXAttributes.cpp 98-101 *)
Definition sa_count (l : attrs) : Z := u32 (zlen l).
(** SAXAttributes.cpp 103-106, 108-111, 133-136; std::vector::at throws *)
Definition sa_localName (l : attrs) (i : Z) : out (list Z) := let* p := at_ l i in Val (fst p).
Definition sa_qualifiedName (l : attrs) (i : Z) : out (list Z) := let* p := at_ l i in Val (fst p).
Definition sa_value (l : attrs) (i : Z) : out (list Z) := let* p := at_ l i in Val (snd p).
(** SAXAttributes.cpp 145-148 *)
Definition sa_valueAsInt (l : attrs) (q : list Z) : out Z := let* v := attr_value l q in to_int (str_of v).
(** SAXAttributes.cpp 160-163 *)
Definition sa_valueAsBool (l : attrs) (q : list Z) : out bool := let* v := attr_value l q in equals_ignore_case (str_of v) (str_of (str "true")).
