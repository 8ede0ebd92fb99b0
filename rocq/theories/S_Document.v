(** S_Document.v -- what the client of a document may do. *)
From Verif Require Import Base M_Undo S_Undo M_Document.
(** the calls at the undo manager among those at the document *)
Fixpoint calls (h : list dop) : list op := match h with [] => [] | DCall x :: h => x :: calls h | _ :: h => calls h end.
(** the manager is never switched off; the document is not declared unchanged *)
Definition managed (h : list dop) : Prop := ~ In (DManager false) h.
Definition not_saved (h : list dop) : Prop := ~ In (DChanged false) h.
(** a client of the manager: it uses a manager only while it holds a reference or the document has it, releases only what it holds, and
    holds nothing any more when the document is deleted, which is the end. [own]: the references it holds *)
Fixpoint polite (l : list lop) (own : nat -> nat) (at_ : option nat) (next : nat) : Prop :=
  match l with
  | [] => True
  | LOn :: l => match at_ with Some _ => polite l own at_ next | None => polite l own (Some next) (S next) end
  | LOff :: l => polite l own None next
  | LRetain i :: l => (own i > 0 \/ at_ = Some i)%nat /\ polite l (fun j => if Nat.eqb j i then S (own j) else own j) at_ next
  | LRelease i :: l => (own i > 0)%nat /\ polite l (fun j => if Nat.eqb j i then pred (own j) else own j) at_ next
  | LEdit i :: l | LClose i :: l => (own i > 0 \/ at_ = Some i)%nat /\ polite l own at_ next
  | LDelete :: l => (forall i, own i = 0%nat) /\ l = []
  end.
(** edits of members without an undo manager: object, member, new value, least and greatest value allowed *)
Record member_edit := Edit { e_obj : Z; e_loc : Z; e_new : Z; e_min : Z; e_max : Z }.
Definition edit_call (e : member_edit) : dop := DCall (OSet (e_obj e) (e_loc e) (e_new e) (e_min e) (e_max e)).
(** the member takes the new value if that is allowed, and the client is told *)
Definition direct (cs : list Z) (e : member_edit) : list Z :=
  match lset cs (e_loc e) (e_new e) with Some cs' => if (e_min e <=? e_new e) && (e_new e <=? e_max e) then cs' else cs | None => cs end.
Fixpoint told (es : list member_edit) (cs : list Z) : list res :=
  match es with
  | [] => []
  | e :: es =>
    RStatus (match lget cs (e_loc e) with
             | Some y => if y =? e_new e then eNotChanged else if (e_min e <=? e_new e) && (e_new e <=? e_max e) then eOK else eInvalidInput
             | None => eInvalidInput end) :: told es (direct cs e)
  end.
