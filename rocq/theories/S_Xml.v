(** S_Xml.v -- documents: what a history of writer calls means, how a document is written down, what a reader reports. *)
From Coq Require Import Ascii String.
From Verif Require Import Base M_Base64 S_Base64 M_String M_Tokenizer M_Xml.
Definition attribute : Type := list Z * list Z.
(** ** the markup *)
Inductive item := IOpen (name : list Z) (attrs : list attribute) | IEmpty (name : list Z) (attrs : list attribute) | IClose (name : list Z) | IText (t : list Z) | IRaw (t : list Z).
(** the five characters are written as entities *)
Definition escape (c : Z) : list Z :=
  if c =? 38 then str "&amp;" else if c =? 60 then str "&lt;" else if c =? 62 then str "&gt;" else if c =? 34 then str "&quot;" else if c =? 39 then str "&apos;" else [c].
Definition show_attr (a : attribute) : list Z := str " " ++ fst a ++ str "=""" ++ flat_map escape (snd a) ++ str """".
Definition show (i : item) : list Z :=
  match i with
  | IOpen n a => str "<" ++ n ++ flat_map show_attr a ++ str ">"
  | IEmpty n a => str "<" ++ n ++ flat_map show_attr a ++ str "/>"
  | IClose n => str "</" ++ n ++ str ">"
  | IText t => flat_map escape t
  | IRaw t => t
  end.
Definition prolog : list Z := str "<?xml version=""1.0"" encoding=""UTF-8""?>" ++ [10].
(** every opened element is closed, in the opposite order *)
Inductive forest : list item -> Prop :=
| f_nil : forest []
| f_text t r : forest r -> forest (IText t :: r)
| f_raw t r : forest r -> forest (IRaw t :: r)
| f_empty n a r : forest r -> forest (IEmpty n a :: r)
| f_elem n a body r : forest body -> forest r -> forest (IOpen n a :: body ++ IClose n :: r).
(** the elements in the order of their start tags *)
Definition opened (l : list item) : list (list Z * list attribute) := flat_map (fun i => match i with IOpen n a | IEmpty n a => [(n, a)] | _ => [] end) l.
(** ** histories *)
(** the attributes of an element are the ones written directly after startElement *)
Fixpoint attr_run (h : list call) : list attribute := match h with CAttr n v :: h => (n, v) :: attr_run h | _ => [] end.
Fixpoint started (h : list call) : list (list Z * list attribute) :=
  match h with [] => [] | CStart n :: h => (n, attr_run h) :: started h | _ :: h => started h end.
(** number of open elements after the calls; endElement without an open element does nothing *)
Fixpoint depth (d : nat) (h : list call) : nat :=
  match h with [] => d | CStart _ :: h => depth (S d) h | CEnd :: h => depth (pred d) h | _ :: h => depth d h end.
Definition closed (h : list call) : Prop := depth 0 h = O.
(** calls with the attributes attached to their element and all other attributes dropped *)
Inductive gcall := GStart (n : list Z) (a : list attribute) | GEnd | GText (t : list Z) | GRaw (t : list Z) | GBase64 (d : list Z) | GIndent | GUnindent.
Fixpoint group (h : list call) : list gcall :=
  match h with
  | [] => []
  | CAttr _ _ :: h => group h
  | CStart n :: h => GStart n (attr_run h) :: group h
  | CEnd :: h => GEnd :: group h
  | CData t true :: h => GText t :: group h
  | CData t false :: h => GRaw t :: group h
  | CBase64 d :: h => GBase64 d :: group h
  | CStartIndent :: h => GIndent :: group h
  | CEndIndent :: h => GUnindent :: group h
  end.
(** an open element: name, started on a line of its own, contains characters *)
Definition frame : Type := list Z * bool * bool.
Definition has_chars (st : list frame) : list frame := match st with (n, i, _) :: st => (n, i, true) :: st | [] => [] end.
Definition newline (ind : Z) : item := IRaw (10 :: repeat 32 (Z.to_nat ind)).
(** the document: [st] the open elements, [ind] the indentation, [last] whether startIndent was the last call, [fresh] whether the innermost element has no content yet *)
Fixpoint items (g : list gcall) (st : list frame) (ind : Z) (last fresh : bool) : list item :=
  match g with
  | [] => []
  | GStart n a :: g =>
    (if last then [newline ind] else []) ++
    match g with
    | GEnd :: g => IEmpty n a :: items g st ind false false
    | _ => IOpen n a :: items g ((n, last, false) :: st) ind false true
    end
  | GEnd :: g => match st with
                 | (n, i, c) :: st => (if i && negb c then [newline ind] else []) ++ IClose n :: items g st ind false false
                 | [] => items g [] ind false false
                 end
  | GText t :: g => IText t :: items g (has_chars st) ind false false
  | GRaw t :: g => IRaw t :: items g (has_chars st) ind false false
  | GBase64 d :: g => IRaw (rfc_encode d) :: items g (if fresh then has_chars st else st) ind false false
  | GIndent :: g => items g st (ind + 3) true false
  | GUnindent :: g => items g st (ind - 3) false false
  end.
Definition document (h : list call) : list item := items (group h) [] 0 false false.
(** ** the reader *)
(** apostrophes do not survive *)
Definition kept (t : list Z) : list Z := filter (fun c => negb (c =? 39)) t.
Definition kept_attr (a : attribute) : attribute := (fst a, kept (snd a)).
(** the part of a name after its last colon *)
Fixpoint local (q : list Z) : list Z := match q with [] => [] | _ :: r => if existsb (Z.eqb 58) q then local r else q end.
(** text between two tags is reported when the second one starts ([flush], see C44_text_split); text behind the last tag is not reported *)
Fixpoint report (buf : list Z) (l : list item) : list event :=
  match l with
  | [] => []
  | IText t :: l => report (buf ++ kept t) l
  | IRaw t :: l => report (buf ++ t) l
  | IOpen n a :: l => flush buf ++ EStart (local n) n (map kept_attr a) :: report [] l
  | IEmpty n a :: l => flush buf ++ EStart (local n) n (map kept_attr a) :: EEnd (local n) n :: report [] l
  | IClose n :: l => flush buf ++ EEnd (local n) n :: report [] l
  end.
(** names without white space, equals sign, slash, quotes and greater-than sign *)
Definition name_ok (n : list Z) : Prop := n <> [] /\ forall c, In c n -> ~ In c ([32; 13; 10; 9; 8; 12] ++ str "=/""'>").
Definition call_ok (c : call) : Prop :=
  match c with
  | CStart n => name_ok n
  | CAttr n _ => name_ok n
  | CData t false => ~ In 60 t /\ ~ In 38 t
  | CBase64 d => Forall byte d
  | _ => True
  end.
(** the character data in a list of events / in a document *)
Definition data (l : list event) : list Z := flat_map (fun e => match e with EChars t | EIgnorable t => t | _ => [] end) l.
Definition starts (l : list event) : list (list Z * list Z * list attribute) := flat_map (fun e => match e with EStart l q a => [(l, q, a)] | _ => [] end) l.
(** character data written by a call *)
Definition call_text (c : call) : list Z := match c with CData t true => kept t | CData t false => t | CBase64 d => rfc_encode d | _ => [] end.
(** checks that every end event names the innermost element still open; Some: the elements open at the end *)
Fixpoint nesting (open : list (list Z)) (l : list event) : option (list (list Z)) :=
  match l with
  | [] => Some open
  | EStart _ n _ :: l => nesting (n :: open) l
  | EEnd _ n :: l => match open with m :: open => if same n m then nesting open l else None | [] => None end
  | _ :: l => nesting open l
  end.
