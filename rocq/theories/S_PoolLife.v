(** S_PoolLife.v -- what a program has to respect: it creates objects between init and quit, retains only objects of which there is a reference, gives back only what it holds, and holds nothing when it quits. *)
From Verif Require Import Base M_PoolLife.
Definition inc (f : nat -> Z) (i : nat) (d : Z) : nat -> Z := fun j => if Nat.eqb j i then f j + d else f j.
(** [held i]: the references the program holds of object i; [made]: how many objects there are; [later]: the objects given to autorelease since the last drain *)
Record ledger := Ledger { held : nat -> Z; made : nat; later : list nat; phase : nat (* 0: before init, 1: running, 2: after quit *) }.
(** the references there are of object i: those the program holds and those the pool will give back *)
Definition references (g : ledger) (i : nat) : Z := held g i + Z.of_nat (count_occ Nat.eq_dec (later g) i).
Definition ledger_new : ledger := Ledger (fun _ => 0) 0 [] 0.
Definition lstep (x : op) (g : ledger) : ledger :=
  match x with
  | Init => Ledger (held g) (made g) (later g) 1
  | Quit => Ledger (held g) (made g) [] 2
  | New => Ledger (inc (held g) (made g) 1) (S (made g)) (later g) (phase g)
  | Retain i => Ledger (inc (held g) i 1) (made g) (later g) (phase g)
  | Release i => Ledger (inc (held g) i (-1)) (made g) (later g) (phase g)
  | Autorelease i => Ledger (inc (held g) i (-1)) (made g) (later g ++ [i]) (phase g)
  | Drain => Ledger (held g) (made g) [] (phase g)
  | Destroy i => g
  end.
Definition polite (x : op) (g : ledger) : Prop :=
  match x with
  | Init => phase g <> 2%nat
  | Quit => forall i, held g i = 0
  | New | Drain => phase g = 1%nat
  | Retain i => phase g = 1%nat /\ references g i > 0
  | Release i | Autorelease i => phase g = 1%nat /\ held g i > 0
  | Destroy i => False
  end.
Fixpoint lsteps (l : list op) (g : ledger) : ledger := match l with [] => g | x :: l => lsteps l (lstep x g) end.
Fixpoint all_polite (l : list op) (g : ledger) : Prop := match l with [] => True | x :: l => polite x g /\ all_polite l (lstep x g) end.
