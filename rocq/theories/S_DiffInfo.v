(** S_DiffInfo.v -- what the report of a difference should look like. *)
From Verif Require Import Base M_String S_String S_Integer M_Diff.
Local Open Scope Z_scope.
(** t is the decimal text of n *)
Definition shown (n : Z) (t : list Z) : Prop := exists ds, t = (if n <? 0 then [45] else []) ++ map dec_char ds /\ canonical 10 (Z.abs n) ds.
(** plain text: printable characters of ASCII, so no line break *)
Definition plain (t : list Z) : Prop := Forall (fun c => 32 <= c < 127) t.
(** "  label: body", end of line *)
Definition field_line (label body : list Z) : list Z := [32; 32] ++ label ++ [58; 32] ++ body ++ [10].
(** "a -> b", "a -> b delta: d" *)
Definition arrow (a b : list Z) : list Z := a ++ [32; 45; 62; 32] ++ b.
Definition arrow_delta (a b d : list Z) : list Z := arrow a b ++ [32; 100; 101; 108; 116; 97; 58; 32] ++ d.
(** the field was added or removed: its value; changed: both values if they differ; otherwise nothing *)
Definition field_report (op : dop) (same : bool) (label a change : list Z) : list Z :=
  match op with
  | DAdd | DDelete => field_line label a
  | DModified => if same then [] else field_line label change
  | DEqual | DStart => []
  end.
(** the letters of an entry: A, D, M, R *)
Definition entry_start (e : list Z) : Prop := exists c r, e = c :: 32 :: r /\ In c [65; 68; 77; 82].
Definition no_break (e : list Z) : Prop := ~ In 10 e.
