(** M_Locale.v -- model of the language of a program and of the file its translations are looked for in: System::language (System.cpp 41-74) and
    I18nBundle::initDefault, transFileByBundleId (I18nBundle.cpp 133-144, 158-204), on Linux.
    Simplifications: the names of locales are ASCII (so the String of a C string has its bytes); the line on the console is left out; the Resource objects
    are only their paths (their reference counters are in M_Resource). *)
From Verif Require Import Base M_String M_DiffInfo.
Import Coq.Strings.String.StringSyntax.
Local Open Scope string_scope.
(** the C library (glibc): the categories of a locale in their order, without LC_ALL *)
Definition CATEGORIES : list (list Z) := [lit_ "LC_CTYPE"; lit_ "LC_NUMERIC"; lit_ "LC_TIME"; lit_ "LC_COLLATE"; lit_ "LC_MONETARY"; lit_ "LC_MESSAGES"; lit_ "LC_PAPER"; lit_ "LC_NAME"; lit_ "LC_ADDRESS"; lit_ "LC_TELEPHONE"; lit_ "LC_MEASUREMENT"; lit_ "LC_IDENTIFICATION"].
(** the C library: the name of a category with setlocale(.., ""): LC_ALL, the variable of the category, LANG, the first that is set and not empty; else "C" *)
Definition category (env : list Z -> list Z) (c : list Z) : list Z :=
  match env (lit_ "LC_ALL") with
  | [] => match env c with [] => match env (lit_ "LANG") with [] => lit_ "C" | n => n end | n => n end
  | n => n
  end.
Fixpoint composite (cs ns : list (list Z)) : list Z :=
  match cs, ns with
  | [c], [n] => c ++ lit_ "=" ++ n
  | c :: cs, n :: ns => c ++ lit_ "=" ++ n ++ lit_ ";" ++ composite cs ns
  | _, _ => []
  end.
(** the C library: the answer of setlocale(LC_ALL, nullptr) when the categories have the names [ns] *)
Definition all_name (ns : list (list Z)) : list Z :=
  match ns with
  | [] => []
  | n :: r => if forallb (fun m => if list_eq_dec Z.eq_dec m n then true else false) r then n else composite CATEGORIES ns
  end.
(** System.cpp 61-67: setlocale(LC_ALL, "") fails if one of the locales is not installed; the locale is then what it was, "C" *)
Definition locale_name (env : list Z -> list Z) (installed : list Z -> bool) : list Z :=
  let ns := map (category env) CATEGORIES in if forallb installed ns then all_name ns else lit_ "C".
(** System.cpp 69-73 *)
Definition language_of (name : list Z) : out jstr :=
  let lang := str_of name in
  let* index := index_of_char lang 46 0 in
  if index >? 0 then let* t := substring lang 0 index in assign lang t else Val lang.
Definition language (env : list Z -> list Z) (installed : list Z -> bool) : out jstr := language_of (locale_name env installed).
(** String.cpp 1253-1258 *)
Definition plus (l r : jstr) : out jstr := let* x := copy_ctor l in append x r.
(** I18nBundle.cpp 171, 184: dir + filename + "." + language + ".mo" *)
Definition path_long (dir filename l : jstr) : out jstr :=
  let* x := plus dir filename in let* x := plus x (str_of (lit_ ".")) in let* x := plus x l in plus x (str_of (lit_ ".mo")).
(** I18nBundle.cpp 176, 199: dir + language + ".mo" *)
Definition path_short (dir l : jstr) : out jstr := let* x := plus dir l in plus x (str_of (lit_ ".mo")).
(** I18nBundle.cpp 183-186, 195-198 *)
Definition without_region (l : jstr) : out jstr :=
  let* i := index_of_char l 95 0 in
  if i >? 0 then let* i := index_of_char l 95 0 in let* t := substring l 0 i in assign l t else Val l.
(** I18nBundle.cpp 158-204: the paths of the Resources that are made, in their order; the last one is the result *)
Definition trans_file (found : list Z -> bool) (env : list Z -> list Z) (installed : list Z -> bool) (filename lang : jstr) : out (list jstr) :=
  let exists_ (s : jstr) := found (ztake (len s) (buf s)) in
  let* l := copy_ctor lang in
  let* l := (if len l =? 0 then let* x := language env installed in assign l x else Val l) in
  let* x := replace_char l 45 95 in
  let* l := assign l x in
  let* dir := append_char (str_of (lit_ "translations")) 47 in
  let* c1 := path_long dir filename l in
  if exists_ c1 then Val [c1] else
  let* c2 := path_short dir l in
  if exists_ c2 then Val [c1; c2] else
  let* l := without_region l in
  let* c3 := path_long dir filename l in
  if exists_ c3 then Val [c1; c2; c3] else
  let* l := without_region l in
  let* c4 := path_short dir l in
  Val [c1; c2; c3; c4].
(** I18nBundle.cpp 133-142: nothing is looked for without a bundle id; the file name given is kEmptyString *)
Definition init_default (found : list Z -> bool) (env : list Z -> list Z) (installed : list Z -> bool) (bundle : list Z) : out (list jstr) :=
  let* l := language env installed in
  match bundle with [] => Val [] | _ => trans_file found env installed (str_of []) l end.
