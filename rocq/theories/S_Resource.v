(** S_Resource.v -- who refers to a stream. *)
From Verif Require Import Base M_Resource.
(** a program: it names existing objects only, does not make one twice, and uses only resources that were found. [live]: the objects that exist, and whether there
    is a stream *)
Fixpoint well_formed (l : list op) (live : list (nat * bool)) : Prop :=
  match l with
  | [] => True
  | New r found :: l => ~ In r (map fst live) /\ well_formed l ((r, found) :: live)
  | Copy r q :: l => ~ In r (map fst live) /\ exists b, In (q, b) live /\ well_formed l ((r, b) :: live)
  | Assign r q :: l => In r (map fst live) /\ exists b, In (q, b) live /\ well_formed l ((r, b) :: filter (fun p => negb (Nat.eqb (fst p) r)) live)
  | Destroy r :: l => In r (map fst live) /\ well_formed l (filter (fun p => negb (Nat.eqb (fst p) r)) live)
  | Use r :: l => In (r, true) live /\ well_formed l live
  | Ask r :: l => In r (map fst live) /\ well_formed l live
  end.
(** the stream a Resource refers to *)
Definition refers (s : state) (r x : nat) : Prop := vars s r = Some (Some x).
Definition is_live (s : state) (x : nat) : Prop := exists n, nth_error (heap s) x = Some (Live n).
(** no assignment to another object *)
Definition no_assignment (l : list op) : Prop := forall r q, In (Assign r q) l -> r = q.
