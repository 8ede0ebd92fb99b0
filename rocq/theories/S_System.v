(** S_System.v -- settings across sessions: a map from names to texts for every bundle, kept when it is saved. *)
From Verif Require Import Base M_String S_String S_Preferences M_System.
(** what runs: the settings in memory and the bundle they belong to; what is kept; whether the process has called quit *)
Record world := World { running : option (settings * list Z); kept : list Z -> settings; over : bool }.
Definition world_new : world := World None (fun _ => []) false.
Definition keep (w : world) : world :=
  match running w with
  | None => w
  | Some (m, b) => World (running w) (fun b' => if list_eq_dec Z.eq_dec b' b then m else kept w b') (over w)
  end.
Definition sspec (o : sop) (w : world) : list pans * world :=
  match o with
  | SInit b => ([], match b with [] => w | _ => World (Some (kept w b, b)) (kept w) (over w) end)
  | SPref o => match running w with Some (m, b) => let (a, m') := pspec o m in ([a], World (Some (m', b)) (kept w) (over w)) | None => ([], w) end
  | SSave => ([], keep w)
  | SQuit => ([], World None (kept (keep w)) true)
  | SText => ([], w)
  | SEnd => ([], World None (kept w) false)
  end.
Fixpoint sspecs (os : list sop) (w : world) : list pans * world :=
  match os with [] => ([], w) | o :: os => let (a, w) := sspec o w in let (b, w) := sspecs os w in (a ++ b, w) end.
(** settings that can be written and read back (C71): see plain_row; no backslash before an n; the file is smaller than 2 GiB *)
Definition survives (m : settings) : Prop :=
  Forall plain_row m /\ Forall (fun r => forall i, ~ occurs [92; 110] (snd r) i) m /\ Forall (fun r => safe_value (esc (snd r))) m /\ zlen (file_of m) < 2 ^ 31.
Definition on_map (o : pop) : Prop := match o with PSave | PLoad _ => False | _ => True end.
(** preferences are used while they exist; what is saved can be read back; a process that has quit does not initialise again and converts no text *)
Definition sfits (o : sop) (w : world) : Prop :=
  match o with
  | SPref o => on_map o /\ match running w with Some (m, _) => pfits o m | None => False end
  | SSave | SQuit => match running w with Some (m, _) => survives m | None => True end
  | SInit _ | SText => over w = false
  | SEnd => True
  end.
Fixpoint all_sfit (os : list sop) (w : world) : Prop := match os with [] => True | o :: os => sfits o w /\ all_sfit os (snd (sspec o w)) end.
