(** M_System.v -- model of the settings of a program across its sessions: System::init, quit, preferences, savePreferences (System.cpp 441-492), with the settings
    file of Preferences.cpp 54-158 on a disk. The disk maps the name of a settings file (the bundle id: the file is $HOME/.program/<bundle>.properties) to
    its bytes; the file operations succeed. The translations, the autorelease pool and the text on the console are left out. The dying of the
    process loses everything but the disk. *)
From Verif Require Import Base M_String M_Preferences S_Preferences.
Definition disk := list Z -> option (list Z).
Definition disk_set (d : disk) (n b : list Z) : disk := fun n' => if list_eq_dec Z.eq_dec n' n then Some b else d n'.
(** gPreferences and gPrefFile, both or neither; whether the character sets exist (gCharsetCount, Charset.cpp 34-42: they are made when the program is loaded) *)
Record sysst := Sys { g_prefs : option (prefs * list Z); g_charsets : bool }.
Definition sys_new : sysst := Sys None true.
(** everything that turns a String into bytes with a character set of the registry: String::toCString() (String.cpp 215-227), operator<< (1167-1175), the path of a
    File (File.cpp 98-109). Without character sets getDefault and the set the console remembers are dangling and forName answers nullptr (Charset.cpp 157-164, 265-268) *)
Definition convert (s : sysst) : out unit := if g_charsets s then Val tt else UB.
(** System.cpp 441-456: initDefault prints the language (I18nBundle.cpp 138-140, System.cpp 73) on every path; initCharsets makes nothing (Charset.cpp 270-274). Without a bundle id no preferences are made; existing preferences are forgotten, not saved and not deleted. Preferences.cpp 54-57 *)
Definition sys_init (bundle : list Z) (fuel : nat) (d : disk) (s : sysst) : out sysst :=
  let* _ := convert s in
  match bundle with
  | [] => Val s
  | _ => let* p := (match d bundle with Some bytes => load prefs_new bytes fuel | None => Val prefs_new end) in Val (Sys (Some (p, bundle)) (g_charsets s))
  end.
(** System.cpp 484-492: the file is opened for writing (truncated) and written *)
Definition save_preferences (fuel : nat) (d : disk) (s : sysst) : out disk :=
  match g_prefs s with
  | None => Val d
  | Some (p, n) => let* bytes := save p fuel in Val (disk_set d n bytes)
  end.
(** System.cpp 458-477: save, then delete, the character sets last (Charset.cpp 276-280) *)
Definition sys_quit (fuel : nat) (d : disk) (s : sysst) : out (disk * sysst) :=
  let* d := save_preferences fuel d s in
  match g_prefs s with
  | None => Val (d, Sys None false)
  | Some (p, _) => let* _ := destroy p fuel in Val (d, Sys None false)
  end.
(** System.cpp 479-482: a pointer; using it without preferences is undefined *)
Definition sys_pref (o : pop) (fuel : nat) (s : sysst) : out (pans * sysst) :=
  match g_prefs s with
  | None => UB
  | Some (p, n) => let* (a, p) := pexec o fuel p in Val (a, Sys (Some (p, n)) (g_charsets s))
  end.
(** the process dies inside savePreferences after k bytes have reached the file (it was truncated when it was opened, Preferences.cpp 96) *)
Definition crash_in_save (k : Z) (fuel : nat) (d : disk) (s : sysst) : out disk :=
  match g_prefs s with
  | None => Val d
  | Some (p, n) => let* bytes := save p fuel in Val (disk_set d n (ztake k bytes))
  end.
(** histories: the calls, a conversion of a text, and the end of the process, in whatever way; the next one starts *)
Inductive sop := SInit (bundle : list Z) | SPref (o : pop) | SSave | SQuit | SText | SEnd.
Definition sexec (o : sop) (fuel : nat) (d : disk) (s : sysst) : out (list pans * (disk * sysst)) :=
  match o with
  | SInit b => let* s := sys_init b fuel d s in Val ([], (d, s))
  | SPref o => let* (a, s) := sys_pref o fuel s in Val ([a], (d, s))
  | SSave => let* d := save_preferences fuel d s in Val ([], (d, s))
  | SQuit => let* r := sys_quit fuel d s in Val ([], r)
  | SText => let* _ := convert s in Val ([], (d, s))
  | SEnd => Val ([], (d, sys_new))
  end.
Fixpoint sexec_all (os : list sop) (fuel : nat) (d : disk) (s : sysst) : out (list pans * (disk * sysst)) :=
  match os with [] => Val ([], (d, s)) | o :: os => let* (a, r) := sexec o fuel d s in let* (b, r) := sexec_all os fuel (fst r) (snd r) in Val (a ++ b, r) end.
