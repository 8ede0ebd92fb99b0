(** S_MemoryStream.v -- a memory stream as a client sees it: the bytes and a position; None: the call has no defined meaning. *)
From Verif Require Import Base M_String M_MemoryStream.
Inductive mop := MRead (n : Z) | MWrite (d : list Z) | MSeek (p : Z) | MMove (o : Z) | MPos | MSize | MOpen | MClose.
Inductive mans := MGot (n : Z) (d : list Z) | MNum (n : Z) | MUnit.
(** the n bytes from position p *)
Definition part (b : list Z) (p n : Z) : list Z := ztake n (zdrop p b).
(** [d] written over the bytes at p *)
Definition splice (b : list Z) (p : Z) (d : list Z) : list Z := ztake p b ++ d ++ zdrop (p + zlen d) b.
Definition mseek (b : list Z) (p q : Z) : Z := if q <? zlen b then q else p.
Definition mstep (o : mop) (b : list Z) (p : Z) : option (mans * list Z * Z) :=
  match o with
  | MRead n =>
    let k := Z.min n (zlen b - p) in
    if negb (in_s64 (p + n)) then None
    else if k <=? 0 then Some (MGot 0 [], b, p)
    else if p <? 0 then None
    else Some (MGot k (part b p k), b, p + k)
  | MWrite d => if (0 <=? p) && (p + zlen d <=? zlen b) then Some (MNum (zlen d), splice b p d, p + zlen d) else None
  | MSeek q => Some (MUnit, b, mseek b p q)
  | MMove o => if in_s64 (p + o) then Some (MUnit, b, mseek b p (p + o)) else None
  | MPos => Some (MNum p, b, p)
  | MSize => Some (MNum (zlen b), b, p)
  | MOpen | MClose => Some (MUnit, b, 0)
  end.
Fixpoint msteps (os : list mop) (b : list Z) (p : Z) : option (list mans * list Z * Z) :=
  match os with
  | [] => Some ([], b, p)
  | o :: os => match mstep o b p with
               | Some (a, b, p) => match msteps os b p with Some (r, b, p) => Some (a :: r, b, p) | None => None end
               | None => None
               end
  end.
(** the code; the caller of read passes a buffer of n bytes, the caller of write all bytes of its array *)
Definition mexec (o : mop) (s : mstream) : out (mans * mstream) :=
  match o with
  | MRead n => let* (k, d, s) := ms_read s (zeros n) n in Val (MGot k (ztake k d), s)
  | MWrite d => let* (k, s) := ms_write s d (zlen d) in Val (MNum k, s)
  | MSeek p => Val (MUnit, ms_seek s p)
  | MMove o => let* s := ms_move s o in Val (MUnit, s)
  | MPos => Val (MNum (mpos s), s)
  | MSize => Val (MNum (zlen (mbytes s)), s)
  | MOpen => Val (MUnit, ms_open s)
  | MClose => Val (MUnit, ms_close s)
  end.
Fixpoint mexec_all (os : list mop) (s : mstream) : out (list mans * mstream) :=
  match os with
  | [] => Val ([], s)
  | o :: os => let* (a, s) := mexec o s in let* (r, s) := mexec_all os s in Val (a :: r, s)
  end.
(** how far the bytes have been written since the stream was opened (the public member mWritelength) *)
Fixpoint written (os : list mop) (b : list Z) (p w : Z) : Z :=
  match os with
  | [] => w
  | o :: os => match mstep o b p with
               | Some (_, b', p') => written os b' p' (match o with MWrite d => Z.max w (p + zlen d) | MOpen => 0 | _ => w end)
               | None => w
               end
  end.
