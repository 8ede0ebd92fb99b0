(** M_DateFormat.v -- model of src/core/DateFormatter.cpp (class in include/core/Date.h 464-529).
    Strings are the lists of their character codes (append, clear, charAt and size are the list operations by C10); numbers are written by the model of String::valueOf.
    Month names are looked up in the translation table (Tr): the parameter [tr]. The linked list of patterns is a list; its first element, kEmpty, which renders to nothing
    (DateFormatter.cpp 38-40, 196-198), is left out. *)
From Coq Require Import Ascii String.
From Verif Require Import Base M_String M_Date M_Tokenizer M_Xml.
(** Date.h 505-524: type with its length field (uint8), or text *)
Inductive pat := PText (text : list Z) | PYear (n : Z) | PMonth (n : Z) | PDay (n : Z) | PWeekDay (n : Z) | PHour (n : Z) | PMinute (n : Z) | PSecond (n : Z) | PMilli (n : Z).
(** DateFormatter.cpp 137-186: Pattern::Pattern(value, false); called with non-empty values only *)
Definition new_pat (value : list Z) : pat :=
  let n := u8 (zlen value) in
  match value with
  | 121 :: _ => PYear n | 109 :: _ => PMinute n | 77 :: _ => PMonth n | 100 :: _ => PDay n | 72 :: _ => PHour n | 69 :: _ => PWeekDay n | 115 :: _ => PSecond n | 83 :: _ => PMilli n
  | _ => PText value
  end.
(** DateFormatter.cpp 45-86: the loop over the pattern and the rest of the token *)
Fixpoint parse_pattern (p : list Z) (token : list Z) (inText isText : bool) : list pat :=
  match p with
  | [] => match token with [] => [] | _ => [new_pat token] end
  | c :: p =>
    if c =? 39 then
      let inText := negb inText in
      if inText then parse_pattern p token inText true
      else if isText then PText token :: parse_pattern p [] inText false
      else parse_pattern p token inText isText
    else if inText then parse_pattern p (token ++ [c]) inText isText
    else
      let l := match token with [] => c | x :: _ => x end in
      if negb (c =? l) then new_pat token :: parse_pattern p [c] inText isText
      else parse_pattern p (token ++ [c]) inText isText
  end.
(** DateFormatter.cpp 36-87 *)
Definition new_formatter (pattern : list Z) : list pat := if zlen pattern <? 1 then [] else parse_pattern pattern [] false false.
Definition dec (n : Z) : out (list Z) := let* s := value_of_int n in Val (chars_of s).
Definition pad1 (n : Z) (t : list Z) : list Z := if n <? 10 then 48 :: t else t.
(** DateFormatter.cpp 261-360: names of week days, SUNDAY = 0 (Date.h 85-91); a value that is none of them appends nothing *)
Definition day1 (w : Z) : list Z := match w with 1 => str "M" | 2 => str "D" | 3 => str "M" | 4 => str "D" | 5 => str "F" | 6 => str "S" | 0 => str "S" | _ => [] end.
Definition day2 (w : Z) : list Z := match w with 1 => str "Mo" | 2 => str "Di" | 3 => str "Mi" | 4 => str "Do" | 5 => str "Fr" | 6 => str "Sa" | 0 => str "So" | _ => [] end.
Definition day3 (w : Z) : list Z := match w with 1 => str "Montag" | 2 => str "Dienstag" | 3 => str "Mittwoch" | 4 => str "Donnerstag" | 5 => str "Freitag" | 6 => str "Samstag" | 0 => str "Sonntag" | _ => [] end.
(** DateFormatter.cpp 373-479: names of months *)
Definition month3 (m : Z) : list Z :=
  match m with 0 => str "Jan" | 1 => str "Feb" | 2 => str "Mrz" | 3 => str "Apr" | 4 => str "Mai" | 5 => str "Jun" | 6 => str "Jul" | 7 => str "Aug" | 8 => str "Sep" | 9 => str "Okt" | 10 => str "Nov" | 11 => str "Dez" | _ => [] end.
Definition month4 (tr : list Z -> list Z) (m : Z) : list Z :=
  match m with 0 => tr (str "January") | 1 => tr (str "February") | 2 => tr (str "March") | 3 => tr (str "April") | 4 => tr (str "May") | 5 => tr (str "June") | 6 => tr (str "July") | 7 => tr (str "August")
             | 8 => tr (str "Septemper") | 9 => tr (str "October") | 10 => tr (str "November") | 11 => tr (str "December") | _ => [] end.
(** DateFormatter.cpp 189-511: appendPattern, the appended text.  [t] is the time stamp of the date *)
Definition render (tr : list Z -> list Z) (t : Z) (p : pat) : out (list Z) :=
  match p with
  | PText s => Val s
  | PYear n => let* y := date_year t in if n =? 2 then let y := Z.rem y 100 in let* d := dec y in Val (pad1 y d) else dec y
  | PHour n => let* h := date_hours t in if n =? 2 then let* d := dec h in Val (pad1 h d) else dec h
  | PMinute n => let* m := date_minutes t in if n =? 2 then let m := if m <? 0 then 0 else m in let* d := dec m in Val (pad1 m d) else dec m
  | PSecond n => let* s := date_seconds t in if n =? 2 then let* d := dec s in Val (pad1 s d) else dec s
  | PMilli n => let* s := date_milliseconds t in if 1 <? n then let* d := dec s in Val ((if s <? 10 then [48] else []) ++ (if s <? 100 then [48] else []) ++ d) else dec s
  | PDay n => let* d := date_date t in if n =? 2 then let d := if d <? 0 then 0 else d in let* x := dec d in Val (pad1 d x) else dec d
  | PWeekDay n => let* w := date_day t in Val (if n =? 1 then day1 w else if n =? 2 then day2 w else day3 w)
  | PMonth n => let* m := date_month t in
                if n =? 1 then dec (m + 1) else if n =? 2 then let* d := dec (m + 1) in Val (pad1 (m + 1) d) else if n =? 3 then Val (month3 m) else Val (month4 tr m)
  end.
(** DateFormatter.cpp 106-118: format *)
Fixpoint format_pats (tr : list Z -> list Z) (t : Z) (l : list pat) : out (list Z) :=
  match l with [] => Val [] | p :: l => let* a := render tr t p in let* b := format_pats tr t l in Val (a ++ b) end.
Definition format (tr : list Z -> list Z) (pattern : list Z) (t : Z) : out (list Z) := format_pats tr t (new_formatter pattern).
