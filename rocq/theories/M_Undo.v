(** M_Undo.v -- model of UndoManager.cpp, UndoStep.cpp, UndoChange.cpp, the reference counting of Object.cpp and the
    setters of EditableObject.cpp that feed the undo manager.
    Simplifications:
    - an UndoStep's doubly linked list (mPrev/mNext, recent/eldest) is the list of its changes, eldest first;
      the stacks linked by UndoStep::prev are lists, top first;
    - every value type (bool ... Color, String, Object pointers) that UndoChangeXxx copies is one cell holding an integer;
      an Object pointer cell holds the object's id, 0 for nullptr;
    - an object is its reference count; count 0 means deleted. Destructors of client objects do nothing else.
      The 31 bit width of the count is not modelled;
    - all objects are EditableObjects (UndoChange::swap marks them for regeneration). *)
From Verif Require Import Base.

(** include/core/Types.h 161-: the values that matter here *)
Inductive status := eOK | eNotChanged | eInvalidInput | eOther (code : Z).
(** memory seen by the undo manager *)
Record world := World { cells : list Z; rc : Z -> Z; regen : Z -> bool }.

Definition fupd {A} (f : Z -> A) (k : Z) (v : A) : Z -> A := fun x => if x =? k then v else f x.

(** Object.cpp 71-78: retain; calling it on a deleted object is UB *)
Definition retain (o : Z) (w : world) : out world :=
  if rc w o <=? 0 then UB else Val (World (cells w) (fupd (rc w) o (rc w o + 1)) (regen w)).
(** Object.cpp 49-69: release *)
Definition release (o : Z) (w : world) : out world :=
  if rc w o <=? 0 then UB else Val (World (cells w) (fupd (rc w) o (rc w o - 1)) (regen w)).
(** "if(p != nullptr) p->retain()" and the same for release *)
Definition retain_opt (o : Z) (w : world) : out world := if o =? 0 then Val w else retain o w.
Definition release_opt (o : Z) (w : world) : out world := if o =? 0 then Val w else release o w.
Definition read_cell (l : Z) (w : world) : out Z := rd (cells w) l.
Definition write_cell (l v : Z) (w : world) : out world :=
  let* c := wr (cells w) l v in Val (World c (rc w) (regen w)).

(** UndoData.h: the change records. KVal: UndoChangeBool ... UndoChangeColour; KRef: UndoChangeObjectRef with
    mValue, mValue1, mValue2, mSwapped; KMark: UndoRegenerationMarker; KRel: UndoObjectRelease with mReleased *)
Inductive kind :=
| KVal (l v : Z) | KRef (l v v1 v2 : Z) (swapped : bool) | KMark | KRel (released : bool).
Record change := Change { c_obj : Z; c_kind : kind }.

(** UndoChange.cpp 36-43 and 65-365: UndoChangeXxx(object, ptr) *)
Definition new_val (o l : Z) (w : world) : out (change * world) :=
  let* w := retain o w in let* v := read_cell l w in Val (Change o (KVal l v), w).
(** UndoChange.cpp 371-381 *)
Definition new_ref (o l : Z) (w : world) : out (change * world) :=
  let* w := retain o w in
  let* v := read_cell l w in
  let* w := retain_opt v w in Val (Change o (KRef l v v 0 false), w).
(** UndoChange.cpp 448-450 *)
Definition new_mark (o : Z) (w : world) : out (change * world) :=
  let* w := retain o w in Val (Change o KMark, w).
(** UndoChange.cpp 458-464 *)
Definition new_rel (o : Z) (released : bool) (w : world) : out (change * world) :=
  let* w := retain o w in Val (Change o (KRel released), w).
(** UndoChange.cpp 45-53, 383-389: destructors (derived class first) *)
Definition delete_change (c : change) (w : world) : out world :=
  let* w := (match c_kind c with
             | KRef _ _ v1 v2 _ => let* w := release_opt v1 w in release_opt v2 w
             | _ => Val w
             end) in
  release (c_obj c) w.
(** UndoChange.cpp 55-59 with EditableObject.cpp 42-45; the object must still exist *)
Definition base_swap (o : Z) (w : world) : out world :=
  if rc w o <=? 0 then UB else Val (World (cells w) (rc w) (fupd (regen w) o true)).
(** UndoChange.cpp 71-365 (values), 392-407 (references), 452-456 (marker), 472-481 (release) : swap *)
Definition swap (c : change) (w : world) : out (change * world) :=
  let o := c_obj c in
  if rc w o <=? 0 then UB else
  let* (k, w) :=
    (match c_kind c with
     | KVal l v =>
       let* tmp := read_cell l w in
       let* w := write_cell l v w in
       Val (KVal l tmp, w)
     | KRef l v v1 v2 swapped =>
       let* tmp := read_cell l w in
       let* (v2, w) := (if swapped then Val (v2, w) else let* w := retain_opt tmp w in Val (tmp, w)) in
       let* w := write_cell l v w in
       Val (KRef l tmp v1 v2 true, w)
     | KMark => Val (KMark, w)
     | KRel released =>
       let* w := (if released then retain o w else release o w) in
       Val (KRel (negb released), w)
     end) in
  let* w := base_swap o w in
  Val (Change o k, w).

(** swapping a list of changes in the given order *)
Fixpoint swap_all (cs : list change) (w : world) : out (list change * world) :=
  match cs with
  | [] => Val ([], w)
  | c :: r =>
    let* (c', w) := swap c w in
    let* (r', w) := swap_all r w in
    Val (c' :: r', w)
  end.
(** UndoStep.cpp 45-60: destructor, recent first *)
Fixpoint delete_all (cs : list change) (w : world) : out world :=
  match cs with [] => Val w | c :: r => let* w := delete_change c w in delete_all r w end.
Definition delete_step (s : list change) (w : world) : out world := delete_all (rev s) w.
Fixpoint delete_steps (ss : list (list change)) (w : world) : out world :=
  match ss with [] => Val w | s :: r => let* w := delete_step s w in delete_steps r w end.

(** UndoManager.h: the manager. mUndoing is true only while swap runs, which never calls back into
    registerChange, so it is left out; mDocument is the flag [changed] of the attached document *)
Record um := UM {
  active : bool; open_ : bool; current : list change;
  undoS : list (list change); redoS : list (list change);
  undoN : Z; redoN : Z; level : Z; trans : list change; tstatus : status; changed : bool }.

(** UndoManager.cpp 37-55 *)
Definition new_um : um := UM false false [] [] [] 0 0 0 [] eOK false.

(** UndoManager.cpp 68-71 *)
Definition set_active (b : bool) (m : um) : um :=
  UM b (open_ m) (current m) (undoS m) (redoS m) (undoN m) (redoN m) (level m) (trans m) (tstatus m) (changed m).

(** UndoManager.cpp 83-113: undo; the changes are swapped recent first (95-100) *)
Definition undo (m : um) (w : world) : out (bool * um * world) :=
  if open_ m then Val (false, m, w) else
  match undoS m with
  | [] => Val (false, m, w)
  | s :: rest =>
    let* (s', w) := swap_all (rev s) w in
    Val (true, UM (active m) (open_ m) (current m) rest (rev s' :: redoS m)
                  (u32 (undoN m - 1)) (u32 (redoN m + 1)) (level m) (trans m) (tstatus m) true, w)
  end.
(** UndoManager.cpp 115-145: redo; eldest first *)
Definition redo (m : um) (w : world) : out (bool * um * world) :=
  if open_ m then Val (false, m, w) else
  match redoS m with
  | [] => Val (false, m, w)
  | s :: rest =>
    let* (s', w) := swap_all s w in
    Val (true, UM (active m) (open_ m) (current m) (s' :: undoS m) rest
                  (u32 (undoN m + 1)) (u32 (redoN m - 1)) (level m) (trans m) (tstatus m) true, w)
  end.
(** UndoManager.cpp 147-158: close *)
Definition close (m : um) : um :=
  if u32 (zlen (current m)) =? 0 then m
  else UM (active m) false [] (current m :: undoS m) (redoS m) (u32 (undoN m + 1)) (redoN m)
          (level m) (trans m) (tstatus m) true.
(** UndoManager.cpp 180-191 *)
Definition clear_redo (m : um) (w : world) : out (um * world) :=
  let* w := delete_steps (redoS m) w in
  Val (UM (active m) (open_ m) (current m) (undoS m) [] (undoN m) 0 (level m) (trans m) (tstatus m) (changed m), w).
(** UndoManager.cpp 167-178 *)
Definition clear_undo (m : um) (w : world) : out (um * world) :=
  let* w := delete_steps (undoS m) w in
  Val (UM (active m) (open_ m) (current m) [] (redoS m) 0 (redoN m) (level m) (trans m) (tstatus m) (changed m), w).
(** UndoManager.cpp 160-165 *)
Definition clear_stacks (m : um) (w : world) : out (um * world) :=
  let* (m, w) := clear_undo (close m) w in clear_redo m w.

(** UndoManager.cpp 314-333: registerChange(UndoChange* ) *)
Definition register (c : change) (m : um) (w : world) : out (um * world) :=
  if negb (active m) then let* w := delete_change c w in Val (m, w)
  else if level m >? 0 then
    Val (UM (active m) (open_ m) (current m) (undoS m) (redoS m) (undoN m) (redoN m) (level m)
            (trans m ++ [c]) (tstatus m) (changed m), w)
  else
    let m := UM (active m) (open_ m) (current m ++ [c]) (undoS m) (redoS m) (undoN m) (redoN m) (level m)
                (trans m) (tstatus m) (changed m) in
    let* (m, w) := clear_redo m w in
    Val (UM (active m) true (current m) (undoS m) (redoS m) (undoN m) (redoN m) (level m)
            (trans m) (tstatus m) (changed m), w).
(** commit's loop, UndoManager.cpp 371-379 *)
Fixpoint register_all (cs : list change) (m : um) (w : world) : out (um * world) :=
  match cs with [] => Val (m, w) | c :: r => let* (m, w) := register c m w in register_all r m w end.

(** UndoManager.cpp 339-348 *)
Definition open_transaction (m : um) : um :=
  if level m =? 0
  then UM (active m) (open_ m) (current m) (undoS m) (redoS m) (undoN m) (redoN m) (level m + 1) [] eOK (changed m)
  else UM (active m) (open_ m) (current m) (undoS m) (redoS m) (undoN m) (redoN m) (level m + 1) (trans m) (tstatus m) (changed m).
(** UndoManager.cpp 360-391 *)
Definition commit (m : um) (w : world) : out (um * world) :=
  if level m =? 0 then Val (m, w)
  else if level m - 1 =? 0 then
    let* (m', w) := register_all (trans m)
      (UM (active m) (open_ m) (current m) (undoS m) (redoS m) (undoN m) (redoN m) 0 [] (tstatus m) (changed m)) w in
    Val (UM (active m') (open_ m') (current m') (undoS m') (redoS m') (undoN m') (redoN m') 0 [] eOK (changed m'), w)
  else Val (UM (active m) (open_ m) (current m) (undoS m) (redoS m) (undoN m) (redoN m) (level m - 1)
               (trans m) (tstatus m) (changed m), w).
(** UndoManager.cpp 393-416 *)
Definition rollback (m : um) (w : world) : out (um * world) :=
  if level m =? 0 then Val (m, w)
  else if level m - 1 =? 0 then
    let* (s', w) := swap_all (rev (trans m)) w in
    let* w := delete_step (rev s') w in
    Val (UM (active m) (open_ m) (current m) (undoS m) (redoS m) (undoN m) (redoN m) 0 [] eOK (changed m), w)
  else Val (UM (active m) (open_ m) (current m) (undoS m) (redoS m) (undoN m) (redoN m) (level m - 1)
               (trans m) (tstatus m) (changed m), w).
(** UndoManager.cpp 423-427 *)
Definition register_status (s : status) (m : um) : um :=
  match s with
  | eOK | eNotChanged => m
  | _ => UM (active m) (open_ m) (current m) (undoS m) (redoS m) (undoN m) (redoN m) (level m) (trans m) s (changed m)
  end.
(** UndoManager.cpp 350-358 *)
Definition close_transaction (m : um) (w : world) : out (status * um * world) :=
  let s := tstatus m in
  let* (m, w) := (match s with eOK => commit m w | _ => rollback m w end) in Val (s, m, w).

(** EditableObject.cpp 68-86: setMember(int64*, value, min, max) on a document with an undo manager *)
Definition set_member (o l v lo hi : Z) (m : um) (w : world) : out (status * um * world) :=
  let* x := read_cell l w in
  if v =? x then Val (eNotChanged, m, w)
  else if negb ((lo <=? v) && (v <=? hi)) then Val (eInvalidInput, register_status eInvalidInput m, w)
  else
    let* (c, w) := new_val o l w in
    let* (m, w) := register c m w in
    let* w := write_cell l v w in
    Val (eOK, m, w).
(** "um->registerChange(o, ptr); *ptr = p" for an Object** member (UndoManager.cpp 288-291) *)
Definition set_ref (o l p : Z) (m : um) (w : world) : out (um * world) :=
  let* (c, w) := new_ref o l w in
  let* (m, w) := register c m w in
  let* w := write_cell l p w in
  Val (m, w).
(** "um->registerRetain(o); o->retain()" and "um->registerRelease(o); o->release()" (UndoManager.cpp 303-311) *)
Definition undoable_retain (o : Z) (m : um) (w : world) : out (um * world) :=
  let* (c, w) := new_rel o false w in
  let* (m, w) := register c m w in
  let* w := retain o w in Val (m, w).
Definition undoable_release (o : Z) (m : um) (w : world) : out (um * world) :=
  let* (c, w) := new_rel o true w in
  let* (m, w) := register c m w in
  let* w := release o w in Val (m, w).
(** UndoManager.cpp 298-301 *)
Definition mark (o : Z) (m : um) (w : world) : out (um * world) :=
  let* (c, w) := new_mark o w in register c m w.

(** the calls a client can make, and what they return *)
Inductive op :=
| OSet (o l v lo hi : Z) | OSetRef (o l p : Z) | ORetain (o : Z) | ORelease (o : Z) | OMark (o : Z)
| OKeep (o : Z) | ODrop (o : Z)
| OClose | OUndo | ORedo | OClear | OBegin | OEnd | OCommit | ORollback | OStatus (s : status).
Inductive res := RUnit | RBool (b : bool) | RStatus (s : status).

Definition exec (x : op) (m : um) (w : world) : out (res * um * world) :=
  match x with
  | OSet o l v lo hi => let* (s, m, w) := set_member o l v lo hi m w in Val (RStatus s, m, w)
  | OSetRef o l p => let* (m, w) := set_ref o l p m w in Val (RUnit, m, w)
  | ORetain o => let* (m, w) := undoable_retain o m w in Val (RUnit, m, w)
  | ORelease o => let* (m, w) := undoable_release o m w in Val (RUnit, m, w)
  | OMark o => let* (m, w) := mark o m w in Val (RUnit, m, w)
  | OKeep o => let* w := retain o w in Val (RUnit, m, w)
  | ODrop o => let* w := release o w in Val (RUnit, m, w)
  | OClose => Val (RUnit, close m, w)
  | OUndo => let* (b, m, w) := undo m w in Val (RBool b, m, w)
  | ORedo => let* (b, m, w) := redo m w in Val (RBool b, m, w)
  | OClear => let* (m, w) := clear_stacks m w in Val (RUnit, m, w)
  | OBegin => Val (RUnit, open_transaction m, w)
  | OEnd => let* (s, m, w) := close_transaction m w in Val (RStatus s, m, w)
  | OCommit => let* (m, w) := commit m w in Val (RUnit, m, w)
  | ORollback => let* (m, w) := rollback m w in Val (RUnit, m, w)
  | OStatus s => Val (RUnit, register_status s m, w)
  end.
Fixpoint exec_all (xs : list op) (m : um) (w : world) : out (list res * um * world) :=
  match xs with
  | [] => Val ([], m, w)
  | x :: r =>
    let* (a, m, w) := exec x m w in
    let* (l, m, w) := exec_all r m w in
    Val (a :: l, m, w)
  end.
