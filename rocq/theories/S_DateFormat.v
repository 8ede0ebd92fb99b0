(** S_DateFormat.v -- date patterns and what they stand for. *)
From Coq Require Import Ascii String.
From Verif Require Import Base S_Integer S_Date M_Xml.
(** a pattern is a sequence of runs of one character and of quoted texts *)
Inductive seg := Run (c : Z) (n : nat) | Quoted (text : list Z).
Definition seg_source (s : seg) : list Z := match s with Run c n => repeat c n | Quoted q => [39] ++ q ++ [39] end.
Definition source (l : list seg) : list Z := flat_map seg_source l.
Definition follows (s s' : seg) : Prop := match s, s' with Run c _, Run c' _ => c <> c' | Run _ _, Quoted _ => False | Quoted _, _ => True end.
Definition seg_ok (s : seg) : Prop := match s with Run c n => c <> 39 /\ (1 <= n <= 255)%nat | Quoted q => ~ In 39 q end.
(** runs are maximal, and a quoted text does not directly follow a run *)
Fixpoint segs_ok (l : list seg) : Prop := match l with [] => True | s :: r => seg_ok s /\ match r with [] => True | s' :: _ => follows s s' end /\ segs_ok r end.
Definition decimal (n : Z) (t : list Z) : Prop := exists ds, t = (if n <? 0 then [45] else []) ++ map dec_char ds /\ canonical 10 (Z.abs n) ds.
Definition two (n : Z) : list Z := [48 + n / 10; 48 + n mod 10].
Definition three (n : Z) : list Z := [48 + n / 100; 48 + n / 10 mod 10; 48 + n mod 10].
Definition pick (l : list string) (i : Z) : list Z := str (nth (Z.to_nat i) l EmptyString).
(** the text of a segment for 1 <= month + 1 <= 12 etc.; [w]: days since Sunday *)
Definition field (n : nat) (v : Z) (t : list Z) : Prop := if Nat.eqb n 2 then t = two v else decimal v t.
Definition seg_text (tr : list Z -> list Z) (y m d h mi s ms w : Z) (sg : seg) (t : list Z) : Prop :=
  match sg with
  | Quoted q => t = q
  | Run c n =>
    if c =? 121 (* y *) then field n (if Nat.eqb n 2 then y mod 100 else y) t
    else if c =? 77 (* M *) then
      match n with
      | 1%nat => decimal (m + 1) t | 2%nat => t = two (m + 1)
      | 3%nat => t = pick ["Jan"; "Feb"; "Mrz"; "Apr"; "Mai"; "Jun"; "Jul"; "Aug"; "Sep"; "Okt"; "Nov"; "Dez"]%string m
      | _ => t = tr (pick ["January"; "February"; "March"; "April"; "May"; "June"; "July"; "August"; "Septemper"; "October"; "November"; "December"]%string m)
      end
    else if c =? 100 (* d *) then field n d t else if c =? 72 (* H *) then field n h t else if c =? 109 (* m *) then field n mi t else if c =? 115 (* s *) then field n s t
    else if c =? 83 (* S *) then if Nat.leb n 1 then decimal ms t else t = three ms
    else if c =? 69 (* E *) then
      match n with
      | 1%nat => t = pick ["S"; "M"; "D"; "M"; "D"; "F"; "S"]%string w | 2%nat => t = pick ["So"; "Mo"; "Di"; "Mi"; "Do"; "Fr"; "Sa"]%string w
      | _ => t = pick ["Sonntag"; "Montag"; "Dienstag"; "Mittwoch"; "Donnerstag"; "Freitag"; "Samstag"]%string w
      end
    else t = repeat c n
  end.
