(** S_Array.v -- arrays as values: every variable holds its own list. *)
From Verif Require Import Base M_Array S_Sort.
(** calls on variables 0, 1, 2, ...: ANew and ACopy declare the next variable *)
Inductive aop (A : Type) := ANew (n : Z) | ACopy (j : Z) | AAssign (i j : Z) | AGet (i k : Z) | ASet (i k : Z) (x : A) | ASort (i : Z) | ASize (i : Z) | ADestroy (i : Z).
Arguments ANew {A}. Arguments ACopy {A}. Arguments AAssign {A}. Arguments AGet {A}. Arguments ASet {A}. Arguments ASort {A}. Arguments ASize {A}. Arguments ADestroy {A}.
Inductive aans (A : Type) := AUnit | AVal (x : A) | ANum (n : Z) | AThrow.
Arguments AUnit {A}. Arguments AVal {A}. Arguments ANum {A}. Arguments AThrow {A}.
Definition vars (A : Type) := list (option (list A)).
Definition var {A} (vs : vars A) (i : Z) (l : list A) : Prop := lget vs i = Some (Some l).
(** vs' is vs with variable i set to c *)
Definition becomes {A} (vs : vars A) (i : Z) (c : option (list A)) (vs' : vars A) : Prop := zlen vs' = zlen vs /\ forall j, lget vs' j = if j =? i then Some c else lget vs j.
Definition replaced {A} (l : list A) (k : Z) (x : A) (l' : list A) : Prop := zlen l' = zlen l /\ forall j, lget l' j = if j =? k then Some x else lget l j.
(** sorted by "not gt", keeping the order of equivalent elements *)
Definition sorted_by {A} (gt : A -> A -> bool) (l l' : list A) : Prop :=
  Permutation l' l /\ sorted (fun x y => gt x y = false) l' /\ keeps_order (fun x y => negb (gt x y) && negb (gt y x)) l l'.
Inductive astep {A} (dflt : A) (gt : A -> A -> bool) : aop A -> vars A -> aans A -> vars A -> Prop :=
| a_new n vs : 0 <= n -> astep dflt gt (ANew n) vs AUnit (vs ++ [Some (repeat dflt (Z.to_nat n))])
| a_new_bad n vs : n < 0 -> astep dflt gt (ANew n) vs AThrow vs
| a_copy j vs l : var vs j l -> astep dflt gt (ACopy j) vs AUnit (vs ++ [Some l])
| a_assign i j vs vs' l l0 : var vs j l -> var vs i l0 -> becomes vs i (Some l) vs' -> astep dflt gt (AAssign i j) vs AUnit vs'
| a_get i k vs l x : var vs i l -> lget l k = Some x -> astep dflt gt (AGet i k) vs (AVal x) vs
| a_get_bad i k vs l : var vs i l -> ~ (0 <= k < zlen l) -> astep dflt gt (AGet i k) vs AThrow vs
| a_set i k x vs l l' vs' : var vs i l -> 0 <= k < zlen l -> replaced l k x l' -> becomes vs i (Some l') vs' -> astep dflt gt (ASet i k x) vs AUnit vs'
| a_set_bad i k x vs l : var vs i l -> ~ (0 <= k < zlen l) -> astep dflt gt (ASet i k x) vs AThrow vs
| a_sort i vs l l' vs' : var vs i l -> sorted_by gt l l' -> becomes vs i (Some l') vs' -> astep dflt gt (ASort i) vs AUnit vs'
| a_size i vs l : var vs i l -> astep dflt gt (ASize i) vs (ANum (zlen l)) vs
| a_destroy i vs vs' l : var vs i l -> becomes vs i None vs' -> astep dflt gt (ADestroy i) vs AUnit vs'.
Inductive asteps {A} (dflt : A) (gt : A -> A -> bool) : list (aop A) -> vars A -> list (aans A) -> vars A -> Prop :=
| as_nil vs : asteps dflt gt [] vs [] vs
| as_cons o os vs a v1 r v2 : astep dflt gt o vs a v1 -> asteps dflt gt os v1 r v2 -> asteps dflt gt (o :: os) vs (a :: r) v2.
(** only existing variables may be used *)
Definition adef {A} (o : aop A) (vs : vars A) : Prop :=
  match o with
  | ANew _ => True
  | ACopy j => exists l, var vs j l
  | AAssign i j => (exists l, var vs i l) /\ (exists l, var vs j l)
  | AGet i _ | ASet i _ _ | ASort i | ASize i | ADestroy i => exists l, var vs i l
  end.
Fixpoint adefs {A} (dflt : A) (gt : A -> A -> bool) (os : list (aop A)) (vs : vars A) : Prop :=
  match os with [] => True | o :: os => adef o vs /\ forall a vs', astep dflt gt o vs a vs' -> adefs dflt gt os vs' end.
(** running the code *)
Definition obj {A} (w : aworld A) (i : Z) : out arr := match lget (wobj w) i with Some (Some o) => Val o | _ => UB end.
Definition athrown {A B} (w : aworld A) (m : out B) (k : B -> out (aans A * aworld A)) : out (aans A * aworld A) :=
  match m with Val b => k b | Exn => Val (AThrow, w) | UB => UB | Fuel => Fuel end.
Definition aexec {A} (dflt : A) (gt : A -> A -> bool) (o : aop A) (w : aworld A) : out (aans A * aworld A) :=
  match o with
  | ANew n => athrown w (arr_new dflt (wmem w) n) (fun '(m, a) => Val (AUnit, AW m (wobj w ++ [Some a])))
  | ACopy j => let* o := obj w j in athrown w (arr_copy dflt (wmem w) o) (fun '(m, a) => Val (AUnit, AW m (wobj w ++ [Some a])))
  | AAssign i j =>
    let* oi := obj w i in let* oj := obj w j in
    if i =? j then Val (AUnit, w) else
    athrown w (arr_assign dflt (wmem w) oi oj) (fun '(m, a) => let* os := wr (wobj w) i (Some a) in Val (AUnit, AW m os))
  | AGet i k => let* o := obj w i in athrown w (arr_get (wmem w) o k) (fun x => Val (AVal x, w))
  | ASet i k x => let* o := obj w i in athrown w (arr_set (wmem w) o k x) (fun m => Val (AUnit, AW m (wobj w)))
  | ASort i => let* o := obj w i in let* m := arr_sort true gt (wmem w) o in Val (AUnit, AW m (wobj w))
  | ASize i => let* o := obj w i in Val (ANum (asize o), w)
  | ADestroy i => let* o := obj w i in let* m := arr_destroy (wmem w) o in let* os := wr (wobj w) i None in Val (AUnit, AW m os)
  end.
Fixpoint aexec_all {A} (dflt : A) (gt : A -> A -> bool) (os : list (aop A)) (w : aworld A) : out (list (aans A) * aworld A) :=
  match os with [] => Val ([], w) | o :: os => let* (a, w) := aexec dflt gt o w in let* (r, w) := aexec_all dflt gt os w in Val (a :: r, w) end.
