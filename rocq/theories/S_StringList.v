(** S_StringList.v -- a list of texts as a client sees it. *)
From Verif Require Import Base M_String M_StringList S_String S_Sort.

Inductive lop (S : Type) := LAppend (s : S) | LRemove (s : S) | LSet (i : Z) (s : S) | LClear | LSort | LReserve (n : Z).
Arguments LAppend {S}. Arguments LRemove {S}. Arguments LSet {S}. Arguments LClear {S}. Arguments LSort {S}. Arguments LReserve {S}.
Definition teq (a b : list Z) : bool := if list_eq_dec Z.eq_dec a b then true else false.
(** one call: the list before, whether it returned (or threw), the list after *)
Inductive lstep : lop (list Z) -> list (list Z) -> bool -> list (list Z) -> Prop :=
| ls_append x t : lstep (LAppend x) t true (t ++ [x])
| ls_remove x t : lstep (LRemove x) t true (filter (fun y => negb (teq y x)) t)
| ls_set i x t : 0 <= i < zlen t -> lstep (LSet i x) t true (ztake i t ++ x :: zdrop (i + 1) t)
| ls_set_bad i x t : ~ 0 <= i < zlen t -> lstep (LSet i x) t false t
| ls_clear t : lstep LClear t true []
| ls_sort t t' : Permutation t' t -> sorted (fun a b => lex a b <> Gt) t' -> lstep LSort t true t'
| ls_reserve n t : lstep (LReserve n) t true t.
Inductive lsteps : list (lop (list Z)) -> list (list Z) -> list bool -> list (list Z) -> Prop :=
| lss_nil t : lsteps [] t [] t
| lss_cons o os t b t1 bs t2 : lstep o t b t1 -> lsteps os t1 bs t2 -> lsteps (o :: os) t (b :: bs) t2.

Definition lexec (o : lop jstr) (l : slist) : out slist :=
  match o with
  | LAppend s => sl_append l s | LRemove s => sl_remove l s | LSet i s => sl_set l i s
  | LClear => Val (sl_clear l) | LSort => sl_sort l | LReserve n => sl_reserve l n
  end.
Fixpoint lexec_all (os : list (lop jstr)) (l : slist) : out (list bool * slist) :=
  match os with
  | [] => Val ([], l)
  | o :: os => match lexec o l with
               | Val l' => let* (b, r) := lexec_all os l' in Val (true :: b, r)
               | Exn => let* (b, r) := lexec_all os l in Val (false :: b, r)
               | UB => UB | Fuel => Fuel
               end
  end.
Definition lop_text (o : lop jstr) : lop (list Z) :=
  match o with LAppend s => LAppend (text s) | LRemove s => LRemove (text s) | LSet i s => LSet i (text s) | LClear => LClear | LSort => LSort | LReserve n => LReserve n end.
(** arguments are proper strings of less than 2^32 characters; reserve gets a reasonable number *)
Definition lop_ok (o : lop jstr) : Prop :=
  match o with LAppend s | LRemove s | LSet _ s => sound s /\ zlen (text s) < 2 ^ 32 | LReserve n => Z.abs n <= 2 ^ 62 | _ => True end.
(** the texts held by a list *)
Definition texts (l : slist) : list (list Z) := ztake (ssize l) (map text (sdata l)).
Definition lsound (l : slist) : Prop := 0 <= ssize l <= zlen (sdata l) /\ Forall sound (sdata l) /\ Forall (fun t => zlen t < 2 ^ 32) (texts l) .
(** texts joined by one character *)
Fixpoint joined (c : Z) (ts : list (list Z)) : list Z :=
  match ts with [] => [] | [x] => x | x :: r => x ++ c :: joined c r end.
