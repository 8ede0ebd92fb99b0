(** S_Hashtable.v -- a finite map as an association list without repeated keys; histories of calls. *)
From Verif Require Import Base M_String S_String M_Hashtable.
Section Map.
Context {K : Type} (dec : forall a b : K, {a = b} + {a <> b}).
Definition fmap := list (K * Z).
Definition same (a b : K) : bool := if dec a b then true else false.
Fixpoint mget (m : fmap) (k : K) : option Z := match m with [] => None | (k', v) :: m => if same k' k then Some v else mget m k end.
Definition mremove (m : fmap) (k : K) : fmap := filter (fun e => negb (same (fst e) k)) m.
Definition mput (m : fmap) (k : K) (v : Z) : fmap := (k, v) :: mremove m k.
(** the answer for a missing key is nullptr *)
Definition mval (m : fmap) (k : K) : Z := match mget m k with Some v => v | None => 0 end.
End Map.
Arguments fmap K : clear implicits.

Inductive hop := HPut (key : jstr) (value : Z) | HGet (key : jstr) | HContains (key : jstr) | HRemove (key : jstr) | HClear | HSize.
Inductive hans := HPtr (value : Z) | HBool (b : bool) | HNum (n : Z) | HUnit.
(** what the calls mean on a finite map, if [key] is the identity of a key *)
Definition hspec {K} (dec : forall a b : K, {a = b} + {a <> b}) (key : jstr -> K) (o : hop) (m : fmap K) : hans * fmap K :=
  match o with
  | HPut s v => (HPtr (mval dec m (key s)), mput dec m (key s) v)
  | HGet s => (HPtr (mval dec m (key s)), m)
  | HContains s => (HBool (negb (mval dec m (key s) =? 0)), m)
  | HRemove s => (HPtr (mval dec m (key s)), mremove dec m (key s))
  | HClear => (HUnit, [])
  | HSize => (HNum (zlen m), m)
  end.
Fixpoint hspecs {K} (dec : forall a b : K, {a = b} + {a <> b}) (key : jstr -> K) (os : list hop) (m : fmap K) : list hans * fmap K :=
  match os with
  | [] => ([], m)
  | o :: os => let (a, m) := hspec dec key o m in let (r, m) := hspecs dec key os m in (a :: r, m)
  end.
(** the code *)
Definition hexec (o : hop) (fuel : nat) (h : hheap) (t : htab) : out (hans * hheap * htab) :=
  match o with
  | HPut s v => let* (x, h, t) := ht_put h t s v fuel in Val (HPtr x, h, t)
  | HGet s => let* x := ht_get h t s fuel in Val (HPtr x, h, t)
  | HContains s => let* x := ht_contains h t s fuel in Val (HBool x, h, t)
  | HRemove s => let* (x, h, t) := ht_remove h t s fuel in Val (HPtr x, h, t)
  | HClear => let* (h, t) := ht_clear h t fuel in Val (HUnit, h, t)
  | HSize => Val (HNum (hcount t), h, t)
  end.
Fixpoint hexec_all (os : list hop) (fuel : nat) (h : hheap) (t : htab) : out (list hans * hheap * htab) :=
  match os with
  | [] => Val ([], h, t)
  | o :: os => let* (a, h, t) := hexec o fuel h t in let* (r, h, t) := hexec_all os fuel h t in Val (a :: r, h, t)
  end.
(** proper strings, shorter than the int32 counter of the hash loop *)
Definition proper (s : jstr) : Prop := sound s /\ Forall unit16 (text s) /\ zlen (text s) < 2 ^ 31.
Definition opkey (o : hop) : option jstr := match o with HPut s _ | HGet s | HContains s | HRemove s => Some s | _ => None end.
Definition proper_op (o : hop) : Prop := match opkey o with Some s => proper s | None => True end.
(** the hash code a key object reports: the cached one if there is one *)
Definition reported (s : jstr) : Z := if hash s =? 0 then poly (text s) else hash s.
(** what the table takes as the identity of a key: the hash code it reports and its text *)
Definition key_of (s : jstr) : Z * list Z := (reported s, text s).
(** the key object reports the hash code of its text (always so if none is cached) *)
Definition clean (s : jstr) : Prop := reported s = poly (text s).
Definition clean_op (o : hop) : Prop := match opkey o with Some s => clean s | None => True end.
Definition text_dec : forall a b : list Z, {a = b} + {a <> b} := list_eq_dec Z.eq_dec.
Definition pair_dec : forall a b : Z * list Z, {a = b} + {a <> b}. decide equality; [apply text_dec|apply Z.eq_dec]. Defined.
(** allocated cells *)
Definition hlive (h : hheap) (p : Z) : Prop := exists n, hderef h p = Val n.
(** iteration: any sequence of hasNext (true) and next (false) calls *)
Inductive itans := IHas (b : bool) | INext (e : option (list Z * Z)).
Fixpoint itspec (cs : list bool) (es : list (list Z * Z)) : list itans :=
  match cs, es with
  | [], _ => []
  | true :: cs, _ => IHas (match es with [] => false | _ => true end) :: itspec cs es
  | false :: cs, [] => INext None :: itspec cs []
  | false :: cs, e :: es => INext (Some e) :: itspec cs es
  end.
Fixpoint itexec (cs : list bool) (h : hheap) (t : htab) (it : hiter) (fuel : nat) : out (list itans) :=
  match cs with
  | [] => Val []
  | true :: cs => let* (b, it) := it_has_next t it fuel in let* r := itexec cs h t it fuel in Val (IHas b :: r)
  | false :: cs => let* (e, it) := it_next h t it fuel in let* r := itexec cs h t it fuel in
                   Val (INext (match e with Some e => Some (text (nkey e), nval e) | None => None end) :: r)
  end.
