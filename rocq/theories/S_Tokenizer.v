(** S_Tokenizer.v -- the tokens of a text, and what a client of the tokenizer sees. *)
From Verif Require Import Base M_String M_Tokenizer S_String.

(** tokens: maximal runs of non-delimiters; with [ret] every delimiter is a token of its own. [cur] is the run being read *)
Fixpoint tokens (ret : bool) (isd : Z -> bool) (cur t : list Z) : list (list Z) :=
  let flush := match cur with [] => [] | _ => [cur] end in
  match t with
  | [] => flush
  | c :: r => if isd c then flush ++ (if ret then [[c]] else []) ++ tokens ret isd [] r else tokens ret isd (cur ++ [c]) r
  end.
Definition is_in (d : list Z) (c : Z) : bool := existsb (Z.eqb c) d.
(** calls and their answers; next() answers None when it throws *)
Inductive tcall := HasNext | Next.
Inductive tans := Has (b : bool) | Token (o : option (list Z)).
(** any iterator over a list of tokens *)
Fixpoint iterate (cs : list tcall) (ts : list (list Z)) : list tans :=
  match cs with
  | [] => []
  | HasNext :: cs => Has (match ts with [] => false | _ => true end) :: iterate cs ts
  | Next :: cs => match ts with [] => Token None :: iterate cs [] | x :: ts => Token (Some x) :: iterate cs ts end
  end.
Fixpoint run_tok (cs : list tcall) (t : tok) : out (list tans) :=
  match cs with
  | [] => Val []
  | HasNext :: cs => let* (b, t) := has_next t in let* l := run_tok cs t in Val (Has b :: l)
  | Next :: cs => let* (o, t) := next t in let* l := run_tok cs t in Val (Token (option_map text o) :: l)
  end.
