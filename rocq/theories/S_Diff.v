(** S_Diff.v -- edit scripts between two sequences. *)
From Verif Require Import Base M_Diff.
Section S.
Context (eq : Z -> Z -> bool).
(** the first sequence can be changed into the second with c changes: an element may stay for an equal one for nothing,
    replacing, inserting and deleting cost one each *)
Inductive edits : Z -> list Z -> list Z -> Prop :=
| e_nil : edits 0 [] []
| e_keep c x y a b : eq x y = true -> edits c a b -> edits c (x :: a) (y :: b)
| e_subst c x y a b : edits c a b -> edits (c + 1) (x :: a) (y :: b)
| e_ins c y a b : edits c a b -> edits (c + 1) a (y :: b)
| e_del c x a b : edits c a b -> edits (c + 1) (x :: a) b.
Definition least_cost (d : Z) (a b : list Z) : Prop := edits d a b /\ forall c, edits c a b -> d <= c.
(** these operations turn the first sequence into the second, element by element *)
Inductive script : list dop -> list Z -> list Z -> Prop :=
| s_nil : script [] [] []
| s_equal x y os a b : eq x y = true -> script os a b -> script (DEqual :: os) (x :: a) (y :: b)
| s_mod x y os a b : eq x y = false -> script os a b -> script (DModified :: os) (x :: a) (y :: b)
| s_add y os a b : script os a b -> script (DAdd :: os) a (y :: b)
| s_del x os a b : script os a b -> script (DDelete :: os) (x :: a) b.
End S.
Definition is_change (o : dop) : bool := match o with DAdd | DDelete | DModified => true | _ => false end.
Definition changes (os : list dop) : Z := zlen (filter is_change os).
(** elements of the first / second sequence consumed by the operations *)
Definition takes_u (o : dop) : bool := match o with DEqual | DModified | DDelete => true | _ => false end.
Definition takes_v (o : dop) : bool := match o with DEqual | DModified | DAdd => true | _ => false end.
Definition rows_of (os : list dop) : Z := zlen (filter takes_u os).
Definition cols_of (os : list dop) : Z := zlen (filter takes_v os).
(** what a step reports: n is its number in the trace, i and j are the elements of u and v consumed up to and including it *)
Definition reported (u v : list Z) (i j : Z) (s : dstep) : Prop :=
  match d_op s with
  | DStart | DEqual => d_obj1 s = None /\ d_obj2 s = None
  | DModified => if i <=? j then d_obj1 s = lget u (i - 1) /\ d_obj2 s = lget v (j - 1)
                 else d_obj1 s = lget v (j - 1) /\ d_obj2 s = lget u (i - 1)
  | DAdd | DDelete => d_obj1 s = (if i <=? j then lget v (j - 1) else lget u (i - 1)) /\ d_obj2 s = None
  end.
