(** S_File.v -- path names as sequences of components; reading in pieces; lists of tags. *)
From Verif Require Import Base M_String M_StringList M_File S_String S_Utf8 S_StringList S_Tokenizer.

(** the components of a path name: the maximal runs of characters other than / *)
Definition components (t : list Z) : list (list Z) := tokens false (is_in [47]) [] t.
Definition absolute (t : list Z) : bool := match t with c :: _ => c =? 47 | [] => false end.
(** the shortest path name with the same components: one / between them, and one in front if there was one *)
Definition canonical (t : list Z) : list Z := (if absolute t then [47] else []) ++ joined 47 (components t).
(** the text in front of the last component: components [ps], the name begins with / iff [a] *)
Definition directory (a : bool) (ps : list (list Z)) : list Z := match ps with [] => [] | _ => (if a then [47] else []) ++ joined 47 ps end.
(** the text behind the last c of t *)
Definition behind_last (c : Z) (t r : list Z) : Prop := (exists p, t = p ++ c :: r) /\ ~ In c r.

(** a schedule of reads delivers: at least one byte at a time until [n] bytes are there, and is long enough *)
Fixpoint delivers (reads : list Z) (n : Z) : Prop := if n <=? 0 then True else match reads with [] => False | r :: reads => 0 < r /\ delivers reads (n - r) end.

(** * tags *)
Inductive gop := GSet (tags : slist) | GAdd (t : jstr) | GRemove (t : jstr) | GGet.
Definition gspec (o : gop) (l : list (list Z)) : option (list (list Z)) * list (list Z) :=
  match o with
  | GSet ts => (None, texts ts)
  | GAdd t => (None, if existsb (fun y => teq y (text t)) l then l else l ++ [text t])
  | GRemove t => (None, filter (fun y => negb (teq y (text t))) l)
  | GGet => (Some l, l)
  end.
Fixpoint gspecs (os : list gop) (l : list (list Z)) : list (option (list (list Z))) * list (list Z) :=
  match os with [] => ([], l) | o :: os => let (a, l) := gspec o l in let (r, l) := gspecs os l in (a :: r, l) end.
(** a tag: not empty, no comma, no NUL, not beginning with a byte order mark *)
Definition good_tag (t : list Z) : Prop := t <> [] /\ ~ In 44 t /\ Forall (fun c => 0 < c < 65536) t /\ hd 0 t <> 65279.
(** the text of all tags fits into the buffer *)
Definition tags_fit (l : list (list Z)) : Prop := Forall good_tag l /\ zlen (concat (map utf8 (joined 44 l))) <= 4096.
Definition gfits (o : gop) (l : list (list Z)) : Prop :=
  match o with GSet ts => lsound ts | GAdd t | GRemove t => sound t /\ zlen (text t) < 2 ^ 32 | GGet => True end /\ tags_fit (snd (gspec o l)).
Fixpoint all_gfit (os : list gop) (l : list (list Z)) : Prop := match os with [] => True | o :: os => gfits o l /\ all_gfit os (snd (gspec o l)) end.
Definition gexec (o : gop) (x : xattr) : out (option (list (list Z)) * xattr) :=
  match o with
  | GSet ts => let* x := set_tags ts in Val (None, x)
  | GAdd t => let* x := add_tag x t in Val (None, x)
  | GRemove t => let* x := remove_tag x t in Val (None, x)
  | GGet => let* l := get_tags x in Val (Some (texts l), x)
  end.
Fixpoint gexec_all (os : list gop) (x : xattr) : out (list (option (list (list Z))) * xattr) :=
  match os with [] => Val ([], x) | o :: os => let* (a, x) := gexec o x in let* (r, x) := gexec_all os x in Val (a :: r, x) end.
