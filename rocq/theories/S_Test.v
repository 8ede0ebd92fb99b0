(** S_Test.v -- what a vector of tests reports. *)
From Coq Require Import QArith Qabs.
From Verif Require Import Base M_Float M_MathF M_String M_Test S_String S_Integer S_Double.
Local Open Scope Z_scope.
(** the arguments are values of their types; strings are sound and not longer than 2^32 *)
Definition int_in (lo hi x : Z) : Prop := lo <= x < hi.
Definition valid (k : check) : Prop :=
  match k with
  | KI64 a e => int_in (-2 ^ 63) (2 ^ 63) a /\ int_in (-2 ^ 63) (2 ^ 63) e
  | KI64I32 a e => int_in (-2 ^ 63) (2 ^ 63) a /\ int_in (-2 ^ 31) (2 ^ 31) e
  | KU64 a e | KPtr a e => int_in 0 (2 ^ 64) a /\ int_in 0 (2 ^ 64) e
  | KU64I32 a e => int_in 0 (2 ^ 64) a /\ int_in (-2 ^ 31) (2 ^ 31) e
  | KU64U32 a e => int_in 0 (2 ^ 64) a /\ int_in 0 (2 ^ 32) e
  | KI32 a e => int_in (-2 ^ 31) (2 ^ 31) a /\ int_in (-2 ^ 31) (2 ^ 31) e
  | KU32 a e => int_in 0 (2 ^ 32) a /\ int_in 0 (2 ^ 32) e
  | KU32I32 a e => int_in 0 (2 ^ 32) a /\ int_in (-2 ^ 31) (2 ^ 31) e
  | KI32U32 a e => int_in (-2 ^ 31) (2 ^ 31) a /\ int_in 0 (2 ^ 32) e
  | KDouble a e => double a /\ double e
  | KIgnoreCase a e | KString a e => sound a /\ sound e /\ zlen (text e) < 2 ^ 32
  | _ => True
  end.
(** when a check succeeds *)
Definition verdict (k : check) (b : bool) : Prop :=
  match k with
  | KFail => b = false
  | KDouble a e => (forall x y, dbl a x -> dbl e y -> (b = true -> Qabs (x - y) < (1 # 1000000) + q2 (-72))%Q /\ ((Qabs (x - y) <= (1 # 1000000) - q2 (-72))%Q -> b = true)) /\
                   ((forall x, ~ dbl a x) \/ (forall y, ~ dbl e y) -> b = false)
  | KI64 a e | KI64I32 a e | KU64 a e | KPtr a e | KU64U32 a e | KI32 a e | KU32 a e | KU32I32 a e | KI32U32 a e => b = true <-> a = e
  | KU64I32 a e => b = true <-> a = e \/ (e < 0 /\ a = e + 2 ^ 64)
  | KIgnoreCase a e => b = true <-> map lower (text a) = map lower (text e)
  | KString a e => b = true <-> text a = text e
  | KNull p => b = true <-> p = 0
  | KNotNull p => b = true <-> p <> 0
  | KTrue x => b = true <-> x = true
  | KFalse x => b = true <-> x = false
  end.
(** the report of one test: as many checks as it made, and one more error if it threw an Exception *)
Definition failures (bs : list bool) : Z := zlen (filter negb bs).
Definition report_of (t : test) (n e : Z) : Prop :=
  exists bs, Forall2 verdict (checks t) bs /\ let x := match ends t with Throws => 1 | _ => 0 end in n = zlen bs + x /\ e = failures bs + x.
(** a test that can be run: its checks get values of their types, it throws nothing but jm::Exception *)
Definition runnable (t : test) : Prop := Forall valid (checks t) /\ ends t <> ThrowsOther.
(** the argument: the number of a test, or nothing *)
Definition argument (t : list Z) : option Z :=
  if (zlen t >? 0) && forallb (fun c => ((48 <=? c) && (c <=? 57)) || (c =? 45)) t
  then Some (let v := pos_value 10 (map (fun c => c - 48) (filter (fun c => (48 <=? c) && (c <=? 57)) t)) in if existsb (Z.eqb 45) t then - v else v) else None.
(** the tests that are executed: all, or (for a number that is not negative) the one with that index *)
Definition chosen (t : list Z) (l : list (option test)) : list (option test) :=
  match argument t with
  | Some n => if n <? 0 then l else match lget l n with Some x => [x] | None => [] end
  | None => l
  end.
(** null pointers among the tests are skipped *)
Fixpoint real (l : list (option test)) : list test := match l with [] => [] | Some t :: l => t :: real l | None :: l => real l end.
Definition sum (l : list Z) : Z := fold_right Z.add 0 l.
