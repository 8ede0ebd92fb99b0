(** S_Exception.v -- what an exception tells about where it was made, on plain lists of characters. *)
From Verif Require Import Base M_Charset M_DiffInfo.
Import Coq.Strings.String.StringSyntax.
Local Open Scope string_scope.
(** the header with the name of the thread and the message, if there is one *)
Definition header (tid m : list Z) : list Z := lit_ "Exception in thread " ++ [34] ++ tid ++ [34] ++ match m with [] => [] | _ => lit_ " : " ++ m end.
(** one line per call: the nine innermost calls outside the constructor, innermost first; each line is a tabulator, the letter a and the name *)
Definition calls (frames : list (list Z)) : list (list Z) := firstn 9 (tl frames).
Definition report (tid m eol : list Z) (frames : list (list Z)) : list Z := header tid m ++ eol ++ concat (map (fun f => [9; 97] ++ f ++ eol) (calls frames)).
(** the bytes of a console with Windows-1252; a character zero ends its text *)
Fixpoint before0 (b : list Z) : list Z := match b with [] => [] | x :: r => if x =? 0 then [] else x :: before0 r end.
Definition console (t : list Z) : list Z := before0 (w1252_encode t).
