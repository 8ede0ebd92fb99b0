(** M_Xml.v -- model of src/core/XMLWriter.cpp, SAXParser.cpp and SAXAttributes.cpp.
    A String is the list of its character codes; the String operations used (append, charAt, substring, equals, clear ...) are the list operations by the theorems
    about M_String.v (C10, C13, C59). Where the code goes through a class with behaviour of its own (StringTokenizer, lastIndexOf/substring) the models
    of those classes are called. The output stream is the list of characters written (Stream.cpp 41-46 encodes them as UTF-8, see C05); it is open and never fails. *)
From Coq Require Import Ascii String.
From Verif Require Import Base M_Base64 M_String M_Tokenizer.
(** a string literal *)
Definition str (s : string) : list Z := map (fun c => Z.of_N (N_of_ascii c)) (list_ascii_of_string s).
Fixpoint same (a b : list Z) : bool :=
  match a, b with [], [] => true | x :: a, y :: b => (x =? y) && same a b | _, _ => false end.
Definition chars_of (s : jstr) : list Z := ztake (len s) (buf s).

(** ** XMLWriter *)
(** XMLWriter.h ElementInfo *)
Record elem := EL { e_name : list Z; e_indent : bool; e_content : bool; e_chars : bool }.
(** mOutput (what has been written), mIndent (int32, assumed not to overflow), mLastIndent, mOpenElements (top first; fewer than 2^32 entries) *)
Record writer := W { w_out : list Z; w_indent : Z; w_last : bool; w_open : list elem }.
Definition write (w : writer) (s : list Z) : writer := W (w_out w ++ s) (w_indent w) (w_last w) (w_open w).
Definition set_last (w : writer) (b : bool) : writer := W (w_out w) (w_indent w) b (w_open w).
Definition set_open (w : writer) (l : list elem) : writer := W (w_out w) (w_indent w) (w_last w) l.
(** XMLWriter.cpp 48-56, on a new writer (36-41): mIndent and mLastIndent are set here only *)
Definition start_document : writer := W (str "<?xml version=""1.0"" encoding=""UTF-8""?>" ++ [10]) 0 false [].
(** the test at 66-70, 77-81, 89-93, 139-143 *)
Definition close_start (w : writer) : writer :=
  match w_open w with
  | e :: l => if e_content e then w else write (set_open w (EL (e_name e) (e_indent e) true (e_chars e) :: l)) (str ">")
  | [] => w
  end.
(** XMLWriter.cpp 64-73 *)
Definition start_indent (w : writer) : writer :=
  let w := close_start w in W (w_out w) (w_indent w + 3) true (w_open w).
(** XMLWriter.cpp 75-84 *)
Definition end_indent (w : writer) : writer :=
  let w := close_start w in W (w_out w) (w_indent w - 3) false (w_open w).
(** XMLWriter.cpp 245-252 *)
Definition write_indent (w : writer) : writer := write w (10 :: repeat 32 (Z.to_nat (w_indent w))).
(** XMLWriter.cpp 86-109 *)
Definition start_element (w : writer) (name : list Z) : writer :=
  let w := close_start w in
  let w := if w_last w then write_indent w else w in
  let w := write (write w (str "<")) name in
  set_last (set_open w (EL name (w_last w) false false :: w_open w)) false.
(** XMLWriter.cpp 111-135 *)
Definition end_element (w : writer) : writer :=
  match w_open w with
  | e :: l =>
    let w := if negb (e_content e) then write w (str "/>")
             else let w := if e_indent e && negb (e_chars e) then write_indent w else w in
                  write (write (write w (str "</")) (e_name e)) (str ">") in
    set_last (set_open w l) false
  | [] => set_last w false
  end.
(** XMLWriter.cpp 174-179 *)
Definition encode_token (t : list Z) : list Z :=
  if same t (str "&") then str "&amp;" else if same t (str "<") then str "&lt;" else if same t (str ">") then str "&gt;"
  else if same t (str """") then str "&quot;" else if same t (str "'") then str "&apos;" else t.
(** XMLWriter.cpp 170-180 *)
Fixpoint encode_loop (st : tok) (acc : list Z) (fuel : nat) : out (list Z) :=
  match fuel with
  | O => Fuel
  | S fuel => let* (b, st) := has_next st in
              if b then let* (o, st) := next st in
                        match o with Some t => encode_loop st (acc ++ encode_token (chars_of t)) fuel | None => Exn end
              else Val acc
  end.
(** XMLWriter.cpp 165-182; every token has at least one character *)
Definition encode (t : list Z) : out (list Z) :=
  let* st := tok_new (str_of t) (str_of (str "&<>""'")) true in encode_loop st [] (S (List.length t)).
(** XMLWriter.cpp 137-163 *)
Definition write_cdata (w : writer) (t : list Z) (enc : bool) : out writer :=
  let w := close_start w in
  let w := match w_open w with e :: l => set_open w (EL (e_name e) (e_indent e) (e_content e) true :: l) | [] => w end in
  let* s := (if enc then encode t else Val t) in
  Val (set_last (write w s) false).
(** XMLWriter.cpp 184-198: hasCharacters is set only together with hasContent *)
Definition write_base64 (w : writer) (data : list Z) : out writer :=
  let w := match w_open w with
           | e :: l => if e_content e then w else write (set_open w (EL (e_name e) (e_indent e) true true :: l)) (str ">")
           | [] => w
           end in
  let* s := b64_encode data in
  Val (set_last (write w s) false).
(** XMLWriter.cpp 201-214 *)
Definition write_attribute (w : writer) (name content : list Z) : out writer :=
  match w_open w with
  | e :: l => if e_content e then Val w else
              let* s := encode content in
              Val (set_last (write (write (write (write (write w (str " ")) name) (str "=""")) s) (str """")) false)
  | [] => Val w
  end.
(** the public calls after startDocument *)
Inductive call := CStartIndent | CEndIndent | CStart (name : list Z) | CEnd | CData (t : list Z) (enc : bool) | CBase64 (data : list Z) | CAttr (name value : list Z).
Definition exec_call (w : writer) (c : call) : out writer :=
  match c with
  | CStartIndent => Val (start_indent w)
  | CEndIndent => Val (end_indent w)
  | CStart n => Val (start_element w n)
  | CEnd => Val (end_element w)
  | CData t enc => write_cdata w t enc
  | CBase64 d => write_base64 w d
  | CAttr n v => write_attribute w n v
  end.
Fixpoint exec_calls (w : writer) (h : list call) : out writer :=
  match h with [] => Val w | c :: h => let* w := exec_call w c in exec_calls w h end.
Definition write_document (h : list call) : out writer := exec_calls start_document h.

(** ** SAXParser: the calls of the handler methods, in order *)
Inductive event := EStartDoc | EEndDoc | EStart (local qualified : list Z) (attrs : list (list Z * list Z)) | EEnd (local qualified : list Z) | EChars (t : list Z) | EIgnorable (t : list Z).
(** String::charAt *)
Definition char_of (t : list Z) (i : Z) : out Z := match lget t i with Some c => Val c | None => Exn end.
(** SAXParser.cpp 143-149 and 258-264 *)
Fixpoint escape_loop (x : list Z) (pos : Z) (esc : list Z) (fuel : nat) : out (Z * list Z) :=
  match fuel with
  | O => Fuel
  | S fuel => let pos := pos + 1 in
              let* c := char_of x pos in
              let esc := esc ++ [c] in
              if negb (c =? 59) && (pos <? zlen x - 1) then escape_loop x pos esc fuel else Val (pos, esc)
  end.
(** SAXParser.cpp 266-269 *)
Definition unescape_value (e : list Z) : list Z :=
  if same e (str "lt;") then str "<" else if same e (str "gt;") then str ">" else if same e (str "amp;") then str "&" else if same e (str "quot;") then str """" else [].
(** SAXParser.cpp 151-158 *)
Definition unescape_text (e : list Z) : list Z :=
  if same e (str "le;") then [8804] else if same e (str "ge;") then [8805] else if same e (str "leq;") then [8804] else if same e (str "geq;") then [8805] else unescape_value e.
(** Character.cpp 35-48 is is_ws of M_String.v. SAXParser.cpp 90-96: the loop over the index, written by recursion on the text *)
Fixpoint ws_prefix (t : list Z) : list Z := match t with c :: r => if is_ws c then c :: ws_prefix r else [] | [] => [] end.
Definition event_if (f : list Z -> event) (t : list Z) : list event := match t with [] => [] | _ => [f t] end.
(** SAXParser.cpp 85-136 *)
Definition flush (token : list Z) : list event :=
  match token with
  | [] => []
  | _ =>
    let b := ws_prefix token in
    let m := skipn (List.length b) token in
    let e := rev (ws_prefix (rev m)) in                                   (* 106-111 *)
    let m := firstn (List.length m - List.length e) m in
    let mb := match b with [] => (m, b) | _ => (last b 0 :: m, removelast b) end in   (* 120-124 *)
    let me := match e with [] => (fst mb, e) | x :: e' => (fst mb ++ [x], e') end in  (* 126-130 *)
    event_if EIgnorable (snd mb) ++ event_if EChars (fst me) ++ event_if EIgnorable (snd me)
  end.
(** SAXParser.cpp 204 *)
Fixpoint back_loop (line : list Z) (pos : Z) (fuel : nat) : out Z :=
  match fuel with O => Fuel | S fuel => let* c := char_of line pos in if is_ws c then back_loop line (pos - 1) fuel else Val pos end.
(** SAXParser.cpp 213 *)
Fixpoint skip_loop (line : list Z) (pos : Z) (fuel : nat) : out Z :=
  match fuel with O => Fuel | S fuel => let* c := char_of line pos in if is_ws c then skip_loop line (pos + 1) fuel else Val pos end.
(** the local variables of the loop of parseTagString *)
Record tagst := TS { t_inval : bool; t_opener : Z; t_step : Z; t_token : list Z; t_tname : list Z; t_aname : list Z; t_attrs : list (list Z * list Z) }.
(** the body of the loop at a character that does not start an escape *)
Definition tag_char (s : tagst) (c : Z) : tagst :=
  if (c =? 34) || (c =? 39) then                                           (* 234-254 *)
    if negb (t_inval s) then TS true c (t_step s) (t_token s) (t_tname s) (t_aname s) (t_attrs s)
    else if t_opener s =? c then
      if t_step s =? 2 then TS false (t_opener s) 1 [] (t_tname s) (t_aname s) (t_attrs s ++ [(t_aname s, t_token s)])
      else TS false (t_opener s) (t_step s) (t_token s) (t_tname s) (t_aname s) (t_attrs s)
    else TS (t_inval s) (t_opener s) (t_step s) (t_token s ++ [c]) (t_tname s) (t_aname s) (t_attrs s)
  else if (is_ws c || (c =? 61) || (c =? 47)) && negb (t_inval s) then     (* 271-288 *)
    match t_token s with
    | [] => s
    | _ => if t_step s =? 0 then TS (t_inval s) (t_opener s) 1 [] (t_token s) (t_aname s) (t_attrs s)
           else if t_step s =? 1 then TS (t_inval s) (t_opener s) 2 [] (t_tname s) (t_token s) (t_attrs s)
           else TS (t_inval s) (t_opener s) (t_step s) [] (t_tname s) (t_aname s) (t_attrs s)
    end
  else TS (t_inval s) (t_opener s) (t_step s) (t_token s ++ [c]) (t_tname s) (t_aname s) (t_attrs s).
(** SAXParser.cpp 230-292 *)
Fixpoint tag_loop (line : list Z) (pos : Z) (s : tagst) (fuel : nat) : out tagst :=
  match fuel with
  | O => Fuel
  | S fuel =>
    if pos <? zlen line then
      let* c := char_of line pos in
      if (c =? 38) && t_inval s then
        let* (pos, esc) := escape_loop line pos [] fuel in
        tag_loop line (pos + 1) (TS (t_inval s) (t_opener s) (t_step s) (t_token s ++ unescape_value esc) (t_tname s) (t_aname s) (t_attrs s)) fuel
      else tag_loop line (pos + 1) (tag_char s c) fuel
    else Val s
  end.
(** SAXParser.cpp 296 *)
Definition local_name (q : list Z) : out (list Z) :=
  let* i := last_index_of_char (str_of q) 58 in
  let* r := substring_from (str_of q) (i + 1) in Val (chars_of r).
(** SAXParser.cpp 188-314 *)
Definition parse_tag (xmlline : list Z) : out (list event) :=
  let line := xmlline ++ [32] in
  let fuel := S (S (List.length line)) in
  let* p := back_loop line (zlen line - 1) fuel in
  let* c := char_of line p in
  let ty := if c =? 47 then 2 else 0 in
  let* pos := skip_loop line 0 fuel in
  let* c := char_of line pos in
  let '(ty, pos) := if c =? 47 then (1, pos + 1) else (ty, pos) in
  let* s := tag_loop line pos (TS false 0 0 [] [] [] []) fuel in
  let* ln := local_name (t_tname s) in
  Val (if ty =? 0 then [EStart ln (t_tname s) (t_attrs s)] else if ty =? 1 then [EEnd ln (t_tname s)]
       else [EStart ln (t_tname s) (t_attrs s); EEnd ln (t_tname s)]).
(** SAXParser.cpp 77-183, the events of the rest of the text *)
Fixpoint parse_loop (xml : list Z) (pos : Z) (inTag inValue : bool) (opener : Z) (token : list Z) (fuel : nat) : out (list event) :=
  match fuel with
  | O => Fuel
  | S fuel =>
    if pos <? zlen xml then
      let* c := char_of xml pos in
      if (c =? 60) && negb inTag && negb inValue then
        let* r := parse_loop xml (pos + 1) true inValue opener [] fuel in Val (flush token ++ r)
      else if (c =? 38) && negb inTag then
        let* (pos, esc) := escape_loop xml pos [] fuel in
        parse_loop xml (pos + 1) inTag inValue opener (token ++ unescape_text esc) fuel
      else if (c =? 62) && inTag && negb inValue then
        let* e := parse_tag token in
        let* r := parse_loop xml (pos + 1) false inValue opener [] fuel in Val (e ++ r)
      else if ((c =? 34) || (c =? 39)) && inTag then
        let '(inValue, opener) := if negb inValue then (true, c) else if opener =? c then (false, opener) else (inValue, opener) in
        parse_loop xml (pos + 1) inTag inValue opener (token ++ [c]) fuel
      else parse_loop xml (pos + 1) inTag inValue opener (token ++ [c]) fuel
    else Val []
  end.
(** SAXParser.cpp 59-186 *)
Definition parse (xml : list Z) : out (list event) :=
  let* r := parse_loop xml 0 false false 34 [] (S (S (List.length xml))) in Val (EStartDoc :: r ++ [EEndDoc]).

(** ** SAXAttributes: mNames and mValues side by side. SAXAttributes.cpp 83-91 *)
Fixpoint attr_index (l : list (list Z * list Z)) (q : list Z) (a : Z) : Z :=
  match l with [] => -1 | (n, _) :: l => if same n q then a else attr_index l q (a + 1) end.
(** SAXAttributes.cpp 138-143 *)
Definition attr_value (l : list (list Z * list Z)) (q : list Z) : out (list Z) :=
  let i := attr_index l q 0 in
  if i >? -1 then match lget l i with Some (_, v) => Val v | None => Exn end else Val [].
(** SAXAttributes.cpp 166-171 *)
Definition attr_has (l : list (list Z * list Z)) (q : list Z) : bool := attr_index l q 0 >? -1.
