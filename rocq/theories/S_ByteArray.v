(** S_ByteArray.v -- what a client can know about a ByteArray: a store of bytes, of which the first vn are the contents, and
    one more byte behind the store (None: never written). *)
From Verif Require Import Base S_Sort.
Record vec := VEC { vstore : list Z; vn : Z; vlast : option Z }.
Definition vok (v : vec) : Prop := 0 <= vn v <= zlen (vstore v).
(** the bytes 0 .. size()-1 *)
Definition contents (v : vec) : list Z := firstn (Z.to_nat (vn v)) (vstore v).
Definition hidden (v : vec) : list Z := skipn (Z.to_nat (vn v)) (vstore v).
(** an array made from bytes t *)
Definition vec_of (t : list Z) : vec := VEC t (zlen t) (Some 0).
Inductive bop := BSet (i v : Z) | BGet (i : Z) | BFill (v : Z) | BReplace (x y : Z) | BSort | BResize (n : Z) | BSize.
Inductive bans := BUnit | BNum (z : Z).
Definition upd (l : list Z) (i v : Z) : list Z := firstn (Z.to_nat i) l ++ v :: skipn (Z.to_nat (i + 1)) l.
(** the calls with a defined meaning: reading or writing inside the allocation; sizes that are not negative *)
Definition bdef (o : bop) (v : vec) : Prop :=
  match o with
  | BSet i _ => 0 <= i <= zlen (vstore v)
  | BGet i => 0 <= i < zlen (vstore v) \/ i = zlen (vstore v) /\ vlast v <> None
  | BResize n => 0 <= n < 2 ^ 63 - 1
  | _ => True
  end.
Inductive bstep : bop -> vec -> bans -> vec -> Prop :=
| s_set i x v : 0 <= i < zlen (vstore v) -> bstep (BSet i x) v BUnit (VEC (upd (vstore v) i x) (vn v) (vlast v))
| s_set_last x v : bstep (BSet (zlen (vstore v)) x) v BUnit (VEC (vstore v) (vn v) (Some x))
| s_get i x v : lget (vstore v) i = Some x -> bstep (BGet i) v (BNum x) v
| s_get_last x v : vlast v = Some x -> bstep (BGet (zlen (vstore v))) v (BNum x) v
| s_fill x v : bstep (BFill x) v BUnit (VEC (map (fun _ => x) (contents v) ++ hidden v) (vn v) (vlast v))
| s_repl x y v : bstep (BReplace x y) v BUnit (VEC (map (fun c => if c =? x then y else c) (contents v) ++ hidden v) (vn v) (vlast v))
| s_sort v t : Permutation t (contents v) -> sorted Z.le t -> bstep BSort v BUnit (VEC (t ++ hidden v) (vn v) (vlast v))
| s_shrink n v : 0 <= n < zlen (vstore v) -> bstep (BResize n) v BUnit (VEC (upd (vstore v) n 0) n (vlast v))
| s_exact v : bstep (BResize (zlen (vstore v))) v BUnit (VEC (vstore v) (zlen (vstore v)) (Some 0))
| s_grow n v : zlen (vstore v) < n -> bstep (BResize n) v BUnit (VEC (contents v ++ repeat 0 (Z.to_nat (n - vn v))) n None)
| s_size v : bstep BSize v (BNum (vn v)) v.
Inductive bsteps : list bop -> vec -> list bans -> vec -> Prop :=
| bs_nil v : bsteps [] v [] v
| bs_cons o os v a v1 r v2 : bstep o v a v1 -> bsteps os v1 r v2 -> bsteps (o :: os) v (a :: r) v2.
(** every call of the history is defined in the state it is made in *)
Fixpoint bdefs (os : list bop) (v : vec) : Prop := match os with [] => True | o :: os => bdef o v /\ forall a v', bstep o v a v' -> bdefs os v' end.
