(** S_Undo.v -- what an undo manager is for: a document history made of snapshots.
    Nothing here refers to changes, swapping or stacks of changes. The calls [op] and results [res], and the two
    status values, are the client interface. *)
From Verif Require Import Base.
From Verif Require M_Undo.
Import M_Undo(op(..), res(..), status(..)).

(** a snapshot: the contents of all cells, and how many references the client's undoable calls own on each object *)
Record snap := Snap { vals : list Z; refs : Z -> Z }.
Definition set_val (s : snap) (l v : Z) : snap :=
  Snap (match lset (vals s) l v with Some c => c | None => vals s end) (refs s).
Definition add_ref (s : snap) (o k : Z) : snap :=
  Snap (vals s) (fun x => if x =? o then refs s o + k else refs s x).

(** the document: snapshots to go back to (nearest first), the present one, snapshots to go forward to,
    the snapshot at which the open step began (if a step is open), the open transaction (nesting level, snapshot at the
    outermost openTransaction, whether anything was registered since), the collected transaction status,
    and the references the client owns outside the history *)
Record doc := Doc {
  past : list snap; cur : snap; future : list snap; base : option snap;
  tx : option (Z * snap * bool); tstat : status; plain : Z -> Z }.

(** an edit that produced the new present [s] *)
Definition edit (s : snap) (d : doc) : doc :=
  match tx d with
  | Some (n, s0, _) => Doc (past d) s (future d) (base d) (Some (n, s0, true)) (tstat d) (plain d)
  | None => Doc (past d) s [] (Some (match base d with Some b => b | None => cur d end)) None (tstat d) (plain d)
  end.
Definition close_step (d : doc) : doc :=
  match base d with
  | Some b => Doc (b :: past d) (cur d) (future d) None (tx d) (tstat d) (plain d)
  | None => d
  end.
Definition bad (s : status) : bool := match s with eOK | eNotChanged => false | _ => true end.
Definition commit_tx (d : doc) : doc :=
  match tx d with
  | None => d
  | Some (n, s0, dirty) =>
    if n =? 1 then
      if dirty then Doc (past d) (cur d) [] (Some (match base d with Some b => b | None => s0 end)) None eOK (plain d)
      else Doc (past d) (cur d) (future d) (base d) None eOK (plain d)
    else Doc (past d) (cur d) (future d) (base d) (Some (n - 1, s0, dirty)) (tstat d) (plain d)
  end.
Definition rollback_tx (d : doc) : doc :=
  match tx d with
  | None => d
  | Some (n, s0, dirty) =>
    if n =? 1 then Doc (past d) s0 (future d) (base d) None eOK (plain d)
    else Doc (past d) (cur d) (future d) (base d) (Some (n - 1, s0, dirty)) (tstat d) (plain d)
  end.

Definition do_op (x : op) (d : doc) : res * doc :=
  match x with
  | OSet o l v lo hi =>
    if match lget (vals (cur d)) l with Some y => y =? v | None => false end then (RStatus eNotChanged, d)
    else if (lo <=? v) && (v <=? hi) then (RStatus eOK, edit (set_val (cur d) l v) d)
    else (RStatus eInvalidInput, Doc (past d) (cur d) (future d) (base d) (tx d) eInvalidInput (plain d))
  | OSetRef o l p => (RUnit, edit (set_val (cur d) l p) d)
  | ORetain o => (RUnit, edit (add_ref (cur d) o 1) d)
  | ORelease o => (RUnit, edit (add_ref (cur d) o (-1)) d)
  | OMark o => (RUnit, edit (cur d) d)
  | OKeep o => (RUnit, Doc (past d) (cur d) (future d) (base d) (tx d) (tstat d) (fun x => if x =? o then plain d o + 1 else plain d x))
  | ODrop o => (RUnit, Doc (past d) (cur d) (future d) (base d) (tx d) (tstat d) (fun x => if x =? o then plain d o - 1 else plain d x))
  | OClose => (RUnit, close_step d)
  | OUndo =>
    match base d, past d with
    | None, s :: r => (RBool true, Doc r s (cur d :: future d) None (tx d) (tstat d) (plain d))
    | _, _ => (RBool false, d)
    end
  | ORedo =>
    match base d, future d with
    | None, s :: r => (RBool true, Doc (cur d :: past d) s r None (tx d) (tstat d) (plain d))
    | _, _ => (RBool false, d)
    end
  | OClear => (RUnit, Doc [] (cur d) [] None (tx d) (tstat d) (plain d))
  | OBegin =>
    (RUnit, match tx d with
            | None => Doc (past d) (cur d) (future d) (base d) (Some (1, cur d, false)) eOK (plain d)
            | Some (n, s0, b) => Doc (past d) (cur d) (future d) (base d) (Some (n + 1, s0, b)) (tstat d) (plain d)
            end)
  | OEnd => (RStatus (tstat d), if bad (tstat d) then rollback_tx d else commit_tx d)
  | OCommit => (RUnit, commit_tx d)
  | ORollback => (RUnit, rollback_tx d)
  | OStatus s => (RUnit, if bad s then Doc (past d) (cur d) (future d) (base d) (tx d) s (plain d) else d)
  end.
Fixpoint do_all (xs : list op) (d : doc) : list res * doc :=
  match xs with
  | [] => ([], d)
  | x :: r => let (a, d) := do_op x d in let (l, d) := do_all r d in (a :: l, d)
  end.

(** the client's obligations. [rcells]: the cells that hold object references. *)
Definition owned (d : doc) (o : Z) : Prop := o <> 0 /\ 1 <= plain d o + refs (cur d) o.
Definition allowed (rcells : list Z) (x : op) (d : doc) : Prop :=
  match x with
  | OSet o l _ _ _ => owned d o /\ 0 <= l < zlen (vals (cur d)) /\ ~ In l rcells
  | OSetRef o l p => owned d o /\ 0 <= l < zlen (vals (cur d)) /\ In l rcells /\ (p = 0 \/ 1 <= refs (cur d) p)
  | ORetain o | OMark o | OKeep o => owned d o
  | ORelease o =>
      o <> 0 /\ 1 <= refs (cur d) o /\
      (2 <= refs (cur d) o \/ forall l, In l rcells -> lget (vals (cur d)) l <> Some o)
  | ODrop o => o <> 0 /\ 1 <= plain d o
  | OUndo | ORedo => tx d = None
  | _ => True
  end.
Fixpoint all_allowed (rcells : list Z) (xs : list op) (d : doc) : Prop :=
  match xs with [] => True | x :: r => allowed rcells x d /\ all_allowed rcells r (snd (do_op x d)) end.
(** every reference cell is empty or holds an object on which the snapshot owns a reference; counts are not negative *)
Definition wf_snap (rcells : list Z) (s : snap) : Prop :=
  (forall l v, In l rcells -> lget (vals s) l = Some v -> v = 0 \/ 1 <= refs s v) /\ (forall o, 0 <= refs s o).
Definition start (s : snap) (p : Z -> Z) : doc := Doc [] s [] None None eOK p.

(** the situation in which a history begins: a fresh active manager, memory [w] holding the snapshot [s], and every object
    counted once for each reference the client owns ([p] outside the history, [refs s] inside) *)
Definition begins (rcells : list Z) (s : snap) (p : Z -> Z) (w : M_Undo.world) : Prop :=
  M_Undo.cells w = vals s /\ (forall o, M_Undo.rc w o = p o + refs s o) /\ (forall o, 0 <= p o) /\ wf_snap rcells s.
(** calls that edit the document *)
Definition is_edit (x : op) : bool :=
  match x with OSet _ _ _ _ _ | OSetRef _ _ _ | ORetain _ | ORelease _ | OMark _ => true | _ => false end.
Definition is_walk (x : op) : bool := match x with OUndo | ORedo => true | _ => false end.
(** nesting depth of transactions after the calls, starting at depth n; None once the outermost one was ended *)
Fixpoint depth (n : Z) (xs : list op) : option Z :=
  match xs with
  | [] => Some n
  | OBegin :: r => depth (n + 1) r
  | (OEnd | OCommit | ORollback) :: r => if n =? 1 then None else depth (n - 1) r
  | _ :: r => depth n r
  end.
Definition is_close (x : op) : bool := match x with OClose | OClear => true | _ => false end.
(** the last bad status among those reported by the client or by a refused setMember *)
Fixpoint last_bad (acc : status) (xs : list op) (rs : list res) : status :=
  match xs, rs with
  | OStatus s :: xs, _ :: rs => last_bad (if bad s then s else acc) xs rs
  | OSet _ _ _ _ _ :: xs, RStatus s :: rs => last_bad (if bad s then s else acc) xs rs
  | _ :: xs, _ :: rs => last_bad acc xs rs
  | _, _ => acc
  end.
(** [o] is referenced by a change record, and by a record of the manager *)
Definition mentions (c : M_Undo.change) (o : Z) : Prop :=
  M_Undo.c_obj c = o \/
  match M_Undo.c_kind c with M_Undo.KRef _ _ v1 v2 _ => o <> 0 /\ (v1 = o \/ v2 = o) | _ => False end.
Definition in_history (m : M_Undo.um) (c : M_Undo.change) : Prop :=
  In c (M_Undo.current m) \/ In c (M_Undo.trans m) \/ (exists s, In s (M_Undo.undoS m) /\ In c s) \/ (exists s, In s (M_Undo.redoS m) /\ In c s).
