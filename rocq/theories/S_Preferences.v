(** S_Preferences.v -- settings as a finite map from texts to texts; the text of a settings file; histories of calls. *)
From Verif Require Import Base M_String M_Preferences S_String S_Utf8 S_Integer S_Tokenizer S_Hashtable.

(** settings: no key twice *)
Definition settings := list (list Z * list Z).
Fixpoint lookup (m : settings) (k : list Z) : option (list Z) := match m with [] => None | (k', v) :: m => if text_dec k' k then Some v else lookup m k end.
Definition update (m : settings) (k v : list Z) : settings := (k, v) :: filter (fun e => if text_dec (fst e) k then false else true) m.
(** what setValue makes of a text: every line break (CR LF, CR or LF) becomes the two characters backslash and n *)
Fixpoint one_line (t : list Z) : list Z :=
  match t with
  | [] => []
  | c :: r =>
    if c =? 13 then 92 :: 110 :: match r with d :: r' => if d =? 10 then one_line r' else one_line r | [] => [] end
    else if c =? 10 then 92 :: 110 :: one_line r else c :: one_line r
  end.
Definition store (m : settings) (k v : list Z) : settings := update m k (one_line v).
(** decimal notation *)
Fixpoint decimal_digits (k : nat) (n : Z) : list Z := match k with O => [] | S k => if n <? 10 then [48 + n] else decimal_digits k (n / 10) ++ [48 + n mod 10] end.
Definition decimal (n : Z) : list Z := if n <? 0 then 45 :: decimal_digits 20 (- n) else decimal_digits 20 n.
Definition t_true : list Z := [116; 114; 117; 101].
Definition t_false : list Z := [102; 97; 108; 115; 101].
(** numbers: digits and minus signs only *)
Definition numeral (t : list Z) : bool := forallb (fun c => (48 <=? c) && (c <=? 57) || (c =? 45)) t.
Definition magnitude (t : list Z) : Z := pos_value 10 (map (fun c => c - 48) (filter (fun c => (48 <=? c) && (c <=? 57)) t)).
Definition int_or (t : list Z) (d : Z) : Z :=
  match t with [] => d | _ => if numeral t then (if existsb (Z.eqb 45) t then - magnitude t else magnitude t) else d end.

(** * the file *)
(** a backslash is written twice, a tab as backslash and t *)
Definition esc (v : list Z) : list Z := flat_map (fun c => if c =? 92 then [92; 92] else if c =? 9 then [92; 116] else [c]) v.
Definition line_of (e : list Z * list Z) : list Z := fst e ++ [61] ++ esc (snd e) ++ [10].
Fixpoint insert_line (l : list Z) (ls : list (list Z)) : list (list Z) := match ls with [] => [l] | x :: r => match lex l x with Gt => x :: insert_line l r | _ => l :: ls end end.
Definition sort_lines (ls : list (list Z)) : list (list Z) := fold_right insert_line [] ls.
Definition file_lines (m : settings) : list (list Z) := sort_lines (map line_of m).
Definition bytes_of (t : list Z) : list Z := concat (map utf8 t).
Definition file_of (m : settings) : list Z := bytes_of (concat (file_lines m)).
(** reading: blank characters at both ends do not count *)
Fixpoint skip_blank (t : list Z) : list Z := match t with [] => [] | c :: r => if existsb (Z.eqb c) [32; 13; 10; 9; 8; 12] then skip_blank r else t end.
Definition strip (t : list Z) : list Z := rev (skip_blank (rev (skip_blank t))).
(** every backslash n becomes a line feed, unless the text begins with one *)
Fixpoint breaks (t : list Z) : list Z :=
  match t with
  | c :: r => match r with d :: r' => if (c =? 92) && (d =? 110) then 10 :: breaks r' else c :: breaks r | [] => [c] end
  | [] => []
  end.
Definition begins_bsn (t : list Z) : bool := match t with c :: d :: _ => (c =? 92) && (d =? 110) | _ => false end.
Definition unbreak (t : list Z) : list Z := if begins_bsn t then t else breaks t.
Fixpoint unesc (t : list Z) : list Z :=
  match t with
  | c :: r => match r with
              | d :: r' => if (c =? 92) && (d =? 116) then 9 :: unesc r' else if (c =? 92) && (d =? 92) then 92 :: unesc r' else c :: unesc r
              | [] => [c]
              end
  | [] => []
  end.
(** a line with something before its first equals sign is a setting *)
Fixpoint cut (t : list Z) : option (list Z * list Z) :=
  match t with [] => None | c :: r => if c =? 61 then Some ([], r) else match cut r with Some (a, b) => Some (c :: a, b) | None => None end end.
Definition setting_of (line : list Z) : option (list Z * list Z) :=
  match cut line with Some (k, v) => match k with [] => None | _ => Some (strip k, strip v) end | None => None end.
Definition read_line (m : settings) (line : list Z) : settings := match setting_of line with Some (k, v) => store m k (unesc (unbreak v)) | None => m end.
Definition lines_of (t : list Z) : list (list Z) := tokens false (is_in [13; 10]) [] t.
Definition read_text (m : settings) (t : list Z) : settings := fold_left read_line (lines_of t) m.
(** the value text of a line: reading searches it for backslash n, past its end if it ends in a backslash and fills its buffer *)
Definition safe_value (v : list Z) : Prop := last v 0 <> 92 \/ (forall i, ~ occurs [92; 110] v i) /\ zlen v mod 16 <> 0.
Definition safe_line (line : list Z) : Prop := match setting_of line with Some (_, v) => safe_value v | None => True end.

(** * histories *)
Inductive pop :=
| PSet (key v : jstr) | PSetInt (key : jstr) (n : Z) | PSetBool (key : jstr) (b : bool)
| PHas (key : jstr) | PValue (key : jstr) | PValueOr (key d : jstr) | PInt (key : jstr) (d : Z) | PBool (key : jstr) (d : bool)
| PSave | PLoad (bytes : list Z).
Inductive pans := PDone | PFlag (b : bool) | PText (t : list Z) | PNum (n : Z) | PBytes (b : list Z).
Definition text_or (o : option (list Z)) : list Z := match o with Some v => v | None => [] end.
(** the text of a file *)
Definition file_text (bytes : list Z) : list Z := match utf8_meaning bytes with Units t => t | _ => [] end.
Definition pspec (o : pop) (m : settings) : pans * settings :=
  match o with
  | PSet k v => (PDone, store m (text k) (text v))
  | PSetInt k n => (PDone, store m (text k) (decimal n))
  | PSetBool k b => (PDone, store m (text k) (if b then t_true else t_false))
  | PHas k => (PFlag (match lookup m (text k) with Some _ => true | None => false end), m)
  | PValue k => (PText (text_or (lookup m (text k))), m)
  | PValueOr k d => (PText (match text_or (lookup m (text k)) with [] => text d | v => v end), m)
  | PInt k d => (PNum (int_or (text_or (lookup m (text k))) d), m)
  | PBool k d => (PFlag (match text_or (lookup m (text k)) with [] => d | v => if text_dec v t_true then true else false end), m)
  | PSave => (PBytes (file_of m), m)
  | PLoad b => (PDone, read_text m (file_text b))
  end.
Fixpoint pspecs (os : list pop) (m : settings) : list pans * settings :=
  match os with [] => ([], m) | o :: os => let (a, m) := pspec o m in let (r, m) := pspecs os m in (a :: r, m) end.
(** obligations of the caller *)
Definition good_key (k : jstr) : Prop := proper k /\ clean k.
Definition good_value (v : jstr) : Prop := proper v /\ (last (text v) 0 <> 13 \/ len v < zlen (buf v)).
Definition pfits (o : pop) (m : settings) : Prop :=
  match o with
  | PSet k v => good_key k /\ good_value v
  | PSetInt k n => good_key k /\ - 2 ^ 63 < n < 2 ^ 63
  | PSetBool k _ | PHas k | PValue k | PBool k _ => good_key k
  | PValueOr k d => good_key k /\ sound d
  | PInt k _ => good_key k /\ magnitude (text_or (lookup m (text k))) < 2 ^ 63
  | PSave => Forall (fun l => zlen (bytes_of l) < 2 ^ 32) (map line_of m)
  | PLoad b => Forall (fun x => 0 < x < 256) b /\ zlen b < 2 ^ 31 /\ utf8_meaning b = Units (file_text b) /\ Forall safe_line (lines_of (file_text b))
  end.
Fixpoint all_pfit (os : list pop) (m : settings) : Prop := match os with [] => True | o :: os => pfits o m /\ all_pfit os (snd (pspec o m)) end.
(** the code *)
Definition pexec (o : pop) (fuel : nat) (p : prefs) : out (pans * prefs) :=
  match o with
  | PSet k v => let* p := set_value p k v fuel in Val (PDone, p)
  | PSetInt k n => let* p := set_int p k n fuel in Val (PDone, p)
  | PSetBool k b => let* p := set_bool p k b fuel in Val (PDone, p)
  | PHas k => let* b := has_value p k fuel in Val (PFlag b, p)
  | PValue k => let* s := value p k fuel in Val (PText (text s), p)
  | PValueOr k d => let* s := value_or p k d fuel in Val (PText (text s), p)
  | PInt k d => let* n := value_int p k d fuel in Val (PNum n, p)
  | PBool k d => let* b := value_bool p k d fuel in Val (PFlag b, p)
  | PSave => let* b := save p fuel in Val (PBytes b, p)
  | PLoad b => let* p := load p b fuel in Val (PDone, p)
  end.
Fixpoint pexec_all (os : list pop) (fuel : nat) (p : prefs) : out (list pans * prefs) :=
  match os with [] => Val ([], p) | o :: os => let* (a, p) := pexec o fuel p in let* (r, p) := pexec_all os fuel p in Val (a :: r, p) end.
(** how many settings the calls can add *)
Definition weight (o : pop) : Z := match o with PLoad b => zlen b | _ => 1 end.
Definition weights (os : list pop) : Z := fold_right (fun o n => weight o + n) 0 os.
(** an extra backslash before every backslash n *)
Fixpoint grow (t : list Z) : list Z :=
  match t with
  | c :: r => match r with d :: r' => if (c =? 92) && (d =? 110) then 92 :: 92 :: 110 :: grow r' else c :: grow r | [] => [c] end
  | [] => []
  end.
(** characters that are cut off at the ends of a key, and at the ends of a written value *)
Definition blank (c : Z) : Prop := c = 32 \/ c = 13 \/ c = 10 \/ c = 9 \/ c = 8 \/ c = 12.
Definition unpadded (t : list Z) : Prop := forall c, (exists r, t = c :: r \/ t = r ++ [c]) -> ~ blank c.
Definition framed (v : list Z) : Prop := forall c, (exists r, v = c :: r \/ v = r ++ [c]) -> c <> 32 /\ c <> 8 /\ c <> 12.
(** a setting that survives saving and loading: the key has a character, no equals sign, no line break, nothing to cut off and does
    not begin with a byte order mark; the value neither begins nor ends with a space, backspace or form feed and is one line; no NUL *)
Definition plain_row (r : list Z * list Z) : Prop :=
  fst r <> [] /\ ~ In 61 (fst r) /\ ~ In 13 (fst r) /\ ~ In 10 (fst r) /\ unpadded (fst r) /\ hd 0 (fst r) <> 65279 /\ framed (snd r) /\ ~ In 13 (snd r) /\ ~ In 10 (snd r) /\ Forall (fun c => 0 < c < 65536) (fst r ++ snd r).
(** how often backslash n occurs *)
Fixpoint breaks_in (t : list Z) : Z :=
  match t with
  | c :: r => match r with d :: r' => if (c =? 92) && (d =? 110) then 1 + breaks_in r' else breaks_in r | [] => 0 end
  | [] => 0
  end.
