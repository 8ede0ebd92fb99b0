(** S_String.v -- what String calls mean, in terms of plain lists of 16 bit units. *)
From Verif Require Import Base M_String.

(** the characters of a string, and the storage invariant *)
Definition text (s : jstr) : list Z := ztake (len s) (buf s).
Definition sound (s : jstr) : Prop := 0 <= len s <= zlen (buf s).

(** [p] occurs in [t] at position [i] *)
Definition occurs (p t : list Z) (i : Z) : Prop := exists a r, t = a ++ p ++ r /\ zlen a = i.
(** [r] is the first / the last position in lo..hi-1 with property [P], or -1 if there is none *)
Definition first_at (P : Z -> Prop) (lo hi r : Z) : Prop :=
  (lo <= r < hi /\ P r /\ forall j, lo <= j < r -> ~ P j) \/ (r = -1 /\ forall j, lo <= j < hi -> ~ P j).
Definition last_at (P : Z -> Prop) (lo hi r : Z) : Prop :=
  (lo <= r < hi /\ P r /\ forall j, r < j < hi -> ~ P j) \/ (r = -1 /\ forall j, lo <= j < hi -> ~ P j).
(** the pattern [p] cannot run over the end of [t]: no non-empty end of [t] is a proper beginning of [p] *)
Definition no_overrun (p t : list Z) : Prop := forall u v w, p = u ++ v -> t = w ++ u -> u <> [] -> v = [].

(** lexicographic order *)
Fixpoint lex (a b : list Z) : comparison :=
  match a, b with
  | [], [] => Eq | [], _ :: _ => Lt | _ :: _, [] => Gt
  | x :: a, y :: b => match x ?= y with Eq => lex a b | c => c end
  end.
Definition sign (c : comparison) : Z := match c with Lt => -1 | Eq => 0 | Gt => 1 end.
(** the polynomial hash, mod 2^32: sum of 31^(n-1-i) * c_i *)
Fixpoint poly (t : list Z) : Z :=
  match t with [] => 0 | c :: r => (c * 31 ^ zlen r + poly r) mod 2 ^ 32 end.

(** a mutable string as a client sees it; [S] is the type of string arguments *)
Inductive sop (S : Type) :=
| SAppend (t : S) | SAppendChar (c : Z) | SInsertChar (i c : Z) | SInsert (i : Z) (t : S)
| SSetChar (i c : Z) | SDelete (i : Z) | SDeleteRange (i n : Z) | SClear | SZero.
Arguments SAppend {S}. Arguments SAppendChar {S}. Arguments SInsertChar {S}. Arguments SInsert {S}.
Arguments SSetChar {S}. Arguments SDelete {S}. Arguments SDeleteRange {S}. Arguments SClear {S}. Arguments SZero {S}.
(** the call on a list; None: an exception, the list stays *)
Definition edit_list (o : sop (list Z)) (t : list Z) : option (list Z) :=
  let inside i := (0 <=? i) && (i <? zlen t) in
  let upto i := (0 <=? i) && (i <=? zlen t) in
  match o with
  | SAppend u => Some (t ++ u)
  | SAppendChar c => Some (t ++ [c])
  | SInsertChar i c => if upto i then Some (ztake i t ++ c :: zdrop i t) else None
  | SInsert i u => if upto i then Some (ztake i t ++ u ++ zdrop i t) else None
  | SSetChar i c => if inside i then Some (ztake i t ++ c :: zdrop (i + 1) t) else None
  | SDelete i => if inside i then Some (ztake i t ++ zdrop (i + 1) t) else None
  | SDeleteRange i n => if upto i then Some (ztake i t ++ zdrop (i + n) t) else None
  | SClear | SZero => Some []
  end.
(** a history: for every call whether it returned (true) or threw (false), and the final list *)
Fixpoint edit_all (os : list (sop (list Z))) (t : list Z) : list bool * list Z :=
  match os with
  | [] => ([], t)
  | o :: os => match edit_list o t with
               | Some t' => let (l, r) := edit_all os t' in (true :: l, r)
               | None => let (l, r) := edit_all os t in (false :: l, r)
               end
  end.
(** the same history on the model; an exception is caught and the history goes on with the unchanged object *)
Definition exec (o : sop jstr) (s : jstr) : out jstr :=
  match o with
  | SAppend u => append s u | SAppendChar c => append_char s c
  | SInsertChar i c => insert_char s i c | SInsert i u => insert_str s i u
  | SSetChar i c => set_char_at s i c | SDelete i => delete_char_at s i | SDeleteRange i n => delete_range s i n
  | SClear => Val (clear s) | SZero => Val (zero s)
  end.
Fixpoint exec_all (os : list (sop jstr)) (s : jstr) : out (list bool * jstr) :=
  match os with
  | [] => Val ([], s)
  | o :: os => match exec o s with
               | Val s' => let* (l, r) := exec_all os s' in Val (true :: l, r)
               | Exn => let* (l, r) := exec_all os s in Val (false :: l, r)
               | UB => UB | Fuel => Fuel
               end
  end.
Definition arg_text (o : sop jstr) : sop (list Z) :=
  match o with
  | SAppend u => SAppend (text u) | SAppendChar c => SAppendChar c
  | SInsertChar i c => SInsertChar i c | SInsert i u => SInsert i (text u)
  | SSetChar i c => SSetChar i c | SDelete i => SDelete i | SDeleteRange i n => SDeleteRange i n
  | SClear => SClear | SZero => SZero
  end.
Definition arg_sound (o : sop jstr) : Prop := match o with SAppend u | SInsert _ u => sound u | _ => True end.
(** the only obligation of a caller: deleteCharRangeAt gets a length that fits; texts stay below 2^62 characters *)
Definition fits (o : sop (list Z)) (t : list Z) : Prop :=
  zlen t <= 2 ^ 62 /\
  match o with SDeleteRange i n => 0 <= n /\ i + n <= zlen t | _ => True end.
Fixpoint all_fit (os : list (sop (list Z))) (t : list Z) : Prop :=
  match os with
  | [] => True
  | o :: os => fits o t /\ all_fit os (match edit_list o t with Some t' => t' | None => t end)
  end.

(** left to right replacement of the non-overlapping occurrences of [o] by [n] *)
Inductive replaced (o n : list Z) : list Z -> list Z -> Prop :=
| rp_none t : (forall i, ~ occurs o t i) -> replaced o n t t
| rp_step a r r' : (forall i, i < zlen a -> ~ occurs o (a ++ o ++ r) i) -> replaced o n r r' ->
                   replaced o n (a ++ o ++ r) (a ++ n ++ r').

(** the key of the natural order: maximal digit runs count as one number (mod 2^32), other characters as themselves *)
Fixpoint nat_key (run : option Z) (t : list Z) : list Z :=
  match t with
  | [] => match run with Some v => [v] | None => [] end
  | c :: r =>
    if (48 <=? c) && (c <=? 57) then nat_key (Some (match run with Some v => (10 * v + (c - 48)) mod 2 ^ 32 | None => c - 48 end)) r
    else match run with Some v => [v] | None => [] end ++ c :: nat_key None r
  end.
