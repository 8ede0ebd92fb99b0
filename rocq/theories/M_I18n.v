(** M_I18n.v -- model of src/core/I18nBundle.cpp on the models of Preferences, UTF-8, String and Serializer. An I18nBundle is a
    Preferences object (I18nBundle.h 58) with a language name that only file searching uses. The stream is the list of its bytes: it
    could be opened and is read completely (58-71, else the call returns). Log output, initDefault, quitDefault and
    transFileByBundleId (which file to read) are not modelled. *)
From Verif Require Import Base M_Utf8 M_String M_Serializer M_Hashtable M_Preferences.

(** String.cpp 61-75: String(const char*, int64) of [n] bytes at buffer[o] copies them into a block of n+1 bytes *)
Definition str_of_bytes (b : list Z) (o n : Z) : out jstr :=
  let* c := memcpy (zeros (n + 1)) 0 b o n in
  let* c := wr c n 0 in
  let* xs := utf8_decode c in Val (str_of xs).
Record mo_rec := MO { oo : Z; ol : Z; to_ : Z; tl_ : Z }.
(** I18nBundle.cpp 103-115 *)
Fixpoint mo_records (b : list Z) (origOffset transOffset offset : Z) (k : nat) (acc : list mo_rec) : out (list mo_rec) :=
  match k with
  | O => Val acc
  | S k =>
    let* l1 := deserializeLEUInt32 b (u32 (origOffset + offset)) in
    let* o1 := deserializeLEUInt32 b (u32 (origOffset + offset + 4)) in
    let* l2 := deserializeLEUInt32 b (u32 (transOffset + offset)) in
    let* o2 := deserializeLEUInt32 b (u32 (transOffset + offset + 4)) in
    mo_records b origOffset transOffset (u32 (offset + 8)) k (acc ++ [MO o1 l1 o2 l2])
  end.
(** I18nBundle.cpp 118-124 *)
Fixpoint mo_store (p : prefs) (b : list Z) (rs : list mo_rec) (fuel : nat) : out prefs :=
  match rs with
  | [] => Val p
  | r :: rs =>
    let* orig := str_of_bytes b (oo r) (ol r) in
    let* trans := str_of_bytes b (to_ r) (tl_ r) in
    let* p := set_value p orig trans fuel in mo_store p b rs fuel
  end.
(** I18nBundle.cpp 43-125 *)
Definition append_mo (p : prefs) (b : list Z) (fuel : nat) : out prefs :=
  if zlen b <=? 0 then Val p else
  let* magic := deserializeLEUInt32 b 0 in
  let* version := deserializeLEUInt32 b 4 in
  let* stringCount := deserializeLEUInt32 b 8 in
  let* origOffset := deserializeLEUInt32 b 12 in
  let* transOffset := deserializeLEUInt32 b 16 in
  if negb (magic =? 2500072158) then Val p else
  if negb (version =? 0) then Val p else
  let* rs := mo_records b origOffset transOffset 0 (Z.to_nat stringCount) [] in
  mo_store p b rs fuel.
(** I18nBundle.cpp 127-130 *)
Definition translate (p : prefs) (key : jstr) (fuel : nat) : out jstr := value_or p key key fuel.
