(** S_Locale.v -- where a program looks for its translations, on plain lists of characters. *)
From Verif Require Import Base M_DiffInfo.
Import Coq.Strings.String.StringSyntax.
Local Open Scope string_scope.
(** what is in front of the first c *)
Fixpoint upto (c : Z) (t : list Z) : list Z := match t with [] => [] | x :: r => if x =? c then [] else x :: upto c r end.
(** the same, but a name that begins with c stays as it is *)
Definition head_of (c : Z) (t : list Z) : list Z := match upto c t with [] => t | h => h end.
(** de_DE.UTF-8 -> de_DE *)
Definition without_codeset (t : list Z) : list Z := head_of 46 t.
(** de-DE -> de_DE *)
Definition underscores (t : list Z) : list Z := map (fun c => if c =? 45 then 95 else c) t.
(** de_DE -> de *)
Definition base_language (t : list Z) : list Z := head_of 95 t.
(** the four files for a language, in the order of preference *)
Definition candidates (filename l : list Z) : list (list Z) :=
  [lit_ "translations/" ++ filename ++ lit_ "." ++ l ++ lit_ ".mo"; lit_ "translations/" ++ l ++ lit_ ".mo";
   lit_ "translations/" ++ filename ++ lit_ "." ++ base_language l ++ lit_ ".mo"; lit_ "translations/" ++ base_language l ++ lit_ ".mo"].
(** one after the other, until one is found *)
Fixpoint until {A} (found : A -> bool) (l : list A) : list A := match l with [] => [] | x :: r => if found x then [x] else x :: until found r end.
