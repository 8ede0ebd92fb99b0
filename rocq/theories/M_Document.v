(** M_Document.v -- model of src/core/Document.cpp on top of M_Undo: the undo manager a document owns, its changed and regeneration flags, its file.
    The flag [changed] of M_Undo's manager is the document's mChanged; here it is kept in the document and lent to the manager for each call. *)
From Verif Require Import Base M_Undo.
Record document := D { mgr : option um; dchanged : bool; dregen : bool; fopen : bool }.
(** Document.cpp 36-42 and 69-78: an active manager, no flag set, mFile not opened *)
Definition new_document : document := D (Some (set_active true new_um)) false false false.
Definition lend (b : bool) (m : um) : um := UM (active m) (open_ m) (current m) (undoS m) (redoS m) (undoN m) (redoN m) (level m) (trans m) (tstatus m) b.
(** the calls of M_Undo when the document has no undo manager: EditableObject.cpp 68-86 (OSet with um == nullptr), 141-159 (OBegin, OEnd), Document.cpp 59-62 (OClose);
    client code that edits a reference or a count without registering it; the other calls need a manager *)
Definition exec_unmanaged (x : op) (w : world) : out (res * world) :=
  match x with
  | OSet _ l v lo hi =>
    let* y := read_cell l w in
    if v =? y then Val (RStatus eNotChanged, w)
    else if negb ((lo <=? v) && (v <=? hi)) then Val (RStatus eInvalidInput, w)
    else let* w := write_cell l v w in Val (RStatus eOK, w)
  | OSetRef _ l p => let* w := write_cell l p w in Val (RUnit, w)
  | ORetain o | OKeep o => let* w := retain o w in Val (RUnit, w)
  | ORelease o | ODrop o => let* w := release o w in Val (RUnit, w)
  | OEnd => Val (RStatus eNotChanged, w)
  | _ => Val (RUnit, w)
  end.
(** UndoManager.cpp 57-61, the destructor: the stacks, then mCurrent. An open transaction (mTransaction) is not deleted: its changes stay allocated *)
Definition delete_um (m : um) (w : world) : out (bool * world) :=
  let* (m, w) := clear_stacks m w in
  let* w := delete_step (current m) w in
  Val (changed m, w).
Inductive dop :=
| DCall (x : op)         (* a call at the undo manager, or an edit of one of the document's objects *)
| DChanged (b : bool)    (* setDocumentChanged *)
| DManager (b : bool)    (* setUndoManager *)
| DRegenerate (b : bool) (* regenerate (true), regenerationDone (false) *)
| DOpenFile (b : bool).  (* fileRef()->open, fileRef()->close *)
Definition dexec (x : dop) (d : document) (w : world) : out (res * document * world) :=
  match x with
  | DCall x =>
    match mgr d with
    | Some m => let* (r, m, w) := exec x (lend (dchanged d) m) w in Val (r, D (Some m) (changed m) (dregen d) (fopen d), w)
    | None => let* (r, w) := exec_unmanaged x w in Val (r, d, w)
    end
  | DChanged b => Val (RUnit, D (mgr d) b (dregen d) (fopen d), w)
  | DManager true => match mgr d with Some _ => Val (RUnit, d, w) | None => Val (RUnit, D (Some (set_active true new_um)) (dchanged d) (dregen d) (fopen d), w) end
  | DManager false =>
    match mgr d with
    | Some m => let* (c, w) := delete_um (lend (dchanged d) m) w in Val (RUnit, D None c (dregen d) (fopen d), w)
    | None => Val (RUnit, d, w)
    end
  | DRegenerate b => Val (RUnit, D (mgr d) (dchanged d) b (fopen d), w)
  | DOpenFile b => Val (RUnit, D (mgr d) (dchanged d) (dregen d) b, w)
  end.
Fixpoint dexec_all (xs : list dop) (d : document) (w : world) : out (list res * document * world) :=
  match xs with
  | [] => Val ([], d, w)
  | x :: r => let* (a, d, w) := dexec x d w in let* (l, d, w) := dexec_all r d w in Val (a :: l, d, w)
  end.
(** Document.cpp 44-57: the destructor; returns whether the file is open afterwards, and the memory *)
Definition delete_document (d : document) (w : world) : out (bool * world) :=
  match mgr d with
  | Some m => let* (_, w) := delete_um (lend (dchanged d) m) w in Val (false, w)
  | None => Val (false, w)
  end.

(** ** The life of the manager: a client may keep a reference to it (undoManager()->retain()).
    A manager is its reference count (Object.cpp 51-81) and the number of changes in its open step; it points to its document (UndoManager.cpp 63-66) *)
Inductive manager := Man (refs cur : Z) | Gone.
(** [owner]: None: the document was deleted; Some i: its mUndoManager *)
Record life := Life { owner : option (option nat); mans : list manager }.
Inductive lop :=
| LOn | LOff             (* setUndoManager(true), (false) *)
| LRetain (i : nat) | LRelease (i : nat)
| LEdit (i : nat)        (* registerChange *)
| LClose (i : nat)       (* UndoManager::close *)
| LDelete.               (* delete document *)
Fixpoint mput (l : list manager) (i : nat) (v : manager) : list manager := match l, i with [], _ => [] | _ :: l, O => v :: l | x :: l, S i => x :: mput l i v end.
(** UndoManager.cpp 147-158: an empty step is not closed; else mDocument->setDocumentChanged, which needs the document *)
Definition lclose (dead : bool) (cur : Z) : out unit := if cur =? 0 then Val tt else if dead then UB else Val tt.
Definition is_dead (s : life) : bool := match owner s with None => true | _ => false end.
Definition lrelease (i : nat) (s : life) : out life :=
  match nth_error (mans s) i with
  | Some (Man r c) => if r - 1 =? 0 then let* _ := lclose (is_dead s) c in Val (Life (owner s) (mput (mans s) i Gone)) else Val (Life (owner s) (mput (mans s) i (Man (r - 1) c)))
  | _ => UB
  end.
Definition lexec (o : lop) (s : life) : out life :=
  match o with
  | LOn => match owner s with None => UB | Some (Some _) => Val s | Some None => Val (Life (Some (Some (length (mans s)))) (mans s ++ [Man 1 0])) end
  | LOff => match owner s with None => UB | Some None => Val s | Some (Some i) => let* s := lrelease i s in Val (Life (Some None) (mans s)) end
  | LRetain i => match nth_error (mans s) i with Some (Man r c) => Val (Life (owner s) (mput (mans s) i (Man (r + 1) c))) | _ => UB end
  | LRelease i => lrelease i s
  | LEdit i => match nth_error (mans s) i with Some (Man r c) => Val (Life (owner s) (mput (mans s) i (Man r (c + 1)))) | _ => UB end
  | LClose i => match nth_error (mans s) i with Some (Man r c) => let* _ := lclose (is_dead s) c in Val (Life (owner s) (mput (mans s) i (Man r 0))) | _ => UB end
  | LDelete =>
    match owner s with
    | None => UB
    | Some None => Val (Life None (mans s))
    | Some (Some i) => match nth_error (mans s) i with Some (Man _ c) => let* _ := lclose false c in Val (Life None (mput (mans s) i Gone)) | _ => UB end
    end
  end.
Fixpoint lexec_all (l : list lop) (s : life) : out life := match l with [] => Val s | o :: l => let* s := lexec o s in lexec_all l s end.
Definition newborn : life := Life (Some (Some 0%nat)) [Man 1 0].
