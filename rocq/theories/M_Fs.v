(** M_Fs.v -- model of the functions of src/core/File.cpp (Linux) that ask the file system, and of a POSIX file system to ask.
    The file system: a table from absolute path names (lists of components, without "." and "..") to directories, regular files, symbolic links and pipes, and the contents of
    the regular files. Simplifications: nobody else changes it between the calls; no access rights, no full disk, no I/O errors (except that fclose may report one);
    no hard links; a symbolic link is followed at the end of a path, not in the middle of it (there it counts as "not a directory"); pipes are not opened;
    stdio buffers are not modelled: what is written is seen at once, so that two handles on one file at a time are outside the model. A File is its path and its handle. *)
From Verif Require Import Base.
Definition name := list Z.
Definition path := list name.
Inductive kind := KDir | KReg (i : nat) | KLink (t : path) | KPipe.
Record fs := FS { entries : list (path * kind); data : list (list Z) }.
Definition peq : forall p q : path, {p = q} + {p <> q} := list_eq_dec (list_eq_dec Z.eq_dec).
Fixpoint get (l : list (path * kind)) (p : path) : option kind := match l with [] => None | (q, k) :: l => if peq q p then Some k else get l p end.
Definition del (l : list (path * kind)) (p : path) : list (path * kind) := filter (fun e => if peq (fst e) p then false else true) l.
Inductive errno := ENOENT | ENOTDIR | EEXIST | EISDIR | ENOTEMPTY | EINVAL | ELOOP | EBUSY | EIO.
Inductive sys (A : Type) := Ok (a : A) | Err (e : errno).
Arguments Ok {A}. Arguments Err {A}.

(** ** system calls *)
(** all directories on the way to the last component exist *)
Fixpoint walk (l : list (path * kind)) (pre rest : path) : option errno :=
  match rest with
  | [] => None
  | x :: r => match get l pre with Some KDir => walk l (pre ++ [x]) r | Some _ => Some ENOTDIR | None => Some ENOENT end
  end.
Definition lstat (l : list (path * kind)) (p : path) : sys kind :=
  match walk l [] p with Some e => Err e | None => match get l p with Some k => Ok k | None => Err ENOENT end end.
(** follow the link at the end of a path, at most n times; the answer: the path that is no link, and what is there *)
Fixpoint follow (n : nat) (l : list (path * kind)) (p : path) : sys (path * option kind) :=
  match walk l [] p with
  | Some e => Err e
  | None => match get l p with
            | Some (KLink t) => match n with O => Err ELOOP | S n => follow n l t end
            | k => Ok (p, k)
            end
  end.
Definition max_links : nat := 40.
Definition stat (l : list (path * kind)) (p : path) : sys (path * kind) :=
  match follow max_links l p with Ok (q, Some k) => Ok (q, k) | Ok (_, None) => Err ENOENT | Err e => Err e end.
Definition sys_mkdir (s : fs) (p : path) : sys fs :=
  match walk (entries s) [] p with
  | Some e => Err e
  | None => match get (entries s) p with Some _ => Err EEXIST | None => Ok (FS ((p, KDir) :: entries s) (data s)) end
  end.
(** [q] is [p] or below it: the rest *)
Fixpoint below (p q : path) : option path :=
  match p, q with
  | [], q => Some q
  | x :: p, y :: q => if list_eq_dec Z.eq_dec x y then below p q else None
  | _, [] => None
  end.
(** the entries of a directory *)
Definition child_of (p q : path) : option name := match below p q with Some [x] => Some x | _ => None end.
Fixpoint children (l : list (path * kind)) (p : path) : list name :=
  match l with [] => [] | (q, _) :: l => match child_of p q with Some x => x :: children l p | None => children l p end end.
Definition sys_rmdir (s : fs) (p : path) : sys fs :=
  match lstat (entries s) p with
  | Err e => Err e
  | Ok KDir => match p with [] => Err EBUSY | _ => match children (entries s) p with [] => Ok (FS (del (entries s) p) (data s)) | _ => Err ENOTEMPTY end end
  | Ok _ => Err ENOTDIR
  end.
Definition sys_unlink (s : fs) (p : path) : sys fs :=
  match lstat (entries s) p with
  | Err e => Err e
  | Ok KDir => Err EISDIR
  | Ok _ => Ok (FS (del (entries s) p) (data s))
  end.
(** remove of the C library: unlink, for a directory rmdir *)
Definition c_remove (s : fs) (p : path) : sys fs := match sys_unlink s p with Err EISDIR => sys_rmdir s p | r => r end.
(** the entries at and below p get new names *)
Definition moved (p q : path) (l : list (path * kind)) : list (path * kind) := map (fun e => match below p (fst e) with Some r => (q ++ r, snd e) | None => e end) l.
Definition sys_rename (s : fs) (p q : path) : sys fs :=
  match lstat (entries s) p, walk (entries s) [] q with
  | Err e, _ => Err e
  | _, Some e => Err e
  | Ok k, None =>
    match p, q with
    | [], _ | _, [] => Err EBUSY
    | _, _ =>
      if peq p q then Ok s else
      match below p q with
      | Some _ => Err EINVAL
      | None =>
        match k, get (entries s) q with
        | KDir, Some KDir => match children (entries s) q with [] => Ok (FS (moved p q (del (entries s) q)) (data s)) | _ => Err ENOTEMPTY end
        | KDir, Some _ => Err ENOTDIR
        | _, Some KDir => match below q p with Some _ => Err ENOTEMPTY | None => Err EISDIR end
        | _, _ => Ok (FS (moved p q (del (entries s) q)) (data s))
        end
      end
    end
  end.
(** open streams; hino = None: a directory. hlast: what the C standard (7.21.5.3, 7) asks to remember of a stream opened with "+" *)
Inductive mode := MRead | MWrite | MReadWrite.
Inductive last := LNone | LRead (eof : bool) | LWrite.
Record handle := H { hino : option nat; hpos : Z; hmode : mode; hlast : last }.
Record world := W { disk : fs; hs : list (option handle) }.
Fixpoint put {A} (l : list A) (i : nat) (v : A) : list A := match l, i with [], _ => [] | _ :: l, O => v :: l | x :: l, S i => x :: put l i v end.
Definition add_handle (h : handle) (s : fs) (w : world) : sys (nat * world) := Ok (length (hs w), W s (hs w ++ [Some h])).
(** fopen with "rb", "wb", "rb+" (File.cpp 596-612) *)
Definition fopen (m : mode) (p : path) (w : world) : sys (nat * world) :=
  match follow max_links (entries (disk w)) p with
  | Err e => Err e
  | Ok (q, k) =>
    match k, m with
    | Some (KReg i), MWrite => add_handle (H (Some i) 0 MWrite LNone) (FS (entries (disk w)) (put (data (disk w)) i [])) w
    | Some (KReg i), _ => add_handle (H (Some i) 0 m LNone) (disk w) w
    | Some KDir, MRead => add_handle (H None 0 MRead LNone) (disk w) w
    | Some KDir, _ => Err EISDIR
    | Some _, _ => Err EIO
    | None, MWrite => add_handle (H (Some (length (data (disk w)))) 0 MWrite LNone) (FS ((q, KReg (length (data (disk w)))) :: entries (disk w)) (data (disk w) ++ [[]])) w
    | None, _ => Err ENOENT
    end
  end.

(** ** File *)
Record file := F { fpath : path; fh : option nat }.
Inductive status := eOK | eNotFound | eNoDirectory.
(** what a call returns; RThrow: it throws a jm::Exception *)
Inductive res := RUnit | RThrow | RBool (b : bool) | RNum (n : Z) | RBytes (l : list Z) | RStatus (s : status) | RFiles (l : list path) | RNull.
(** File.cpp 596-642. EACCES and ETIMEDOUT do not occur in this file system *)
Definition f_open (m : mode) (f : file) (w : world) : out (res * file * world) :=
  match fopen m (fpath f) w with
  | Ok (h, w) => Val (RStatus eOK, F (fpath f) (Some h), w)
  | Err ENOENT => Val (RStatus eNotFound, F (fpath f) None, w)
  | Err ENOTDIR => Val (RStatus eNoDirectory, F (fpath f) None, w)
  | Err _ => Val (RThrow, F (fpath f) None, w)
  end.
(** the stream behind the handle; calling stdio with a null pointer or with a stream that was closed is undefined *)
Definition with_handle {A} (f : file) (w : world) (k : nat -> handle -> out A) : out A :=
  match fh f with
  | None => UB
  | Some i => match nth_error (hs w) i with Some (Some h) => k i h | _ => UB end
  end.
(** File.cpp 649-655; [ok]: fclose does not report an error. The stream is closed in either case *)
Definition f_close (ok : bool) (f : file) (w : world) : out (res * file * world) :=
  match fh f with
  | None => Val (RUnit, f, w)
  | Some _ => with_handle f w (fun i h => let w := W (disk w) (put (hs w) i None) in if ok then Val (RUnit, F (fpath f) None, w) else Val (RThrow, f, w))
  end.
(** File.cpp 644-647 *)
Definition f_is_open (f : file) : bool := match fh f with Some _ => true | None => false end.
Definition set_pos (w : world) (i : nat) (h : handle) (p : Z) : world := W (disk w) (put (hs w) i (Some (H (hino h) p (hmode h) LNone))).
(** File.cpp 657-662, 664-669: fseek; a negative position is refused *)
Definition f_seek (p : Z) (f : file) (w : world) : out (res * world) :=
  with_handle f w (fun i h => if p <? 0 then Val (RThrow, w) else Val (RUnit, set_pos w i h p)).
Definition f_move (d : Z) (f : file) (w : world) : out (res * world) :=
  with_handle f w (fun i h => if hpos h + d <? 0 then Val (RThrow, w) else Val (RUnit, set_pos w i h (hpos h + d))).
(** File.cpp 671-674 *)
Definition f_position (f : file) (w : world) : out res := with_handle f w (fun _ h => Val (RNum (hpos h))).
Definition content (s : fs) (i : nat) : list Z := nth i (data s) [].
Definition slice {A} (l : list A) (p n : Z) : list A := firstn (Z.to_nat n) (skipn (Z.to_nat p) l).
(** writing [b] at [p]; a gap is filled with zeros *)
Definition overwrite (l : list Z) (p : Z) (b : list Z) : list Z :=
  firstn (Z.to_nat p) (l ++ repeat 0 (Z.to_nat p)) ++ b ++ skipn (Z.to_nat p + length b) l.
(** File.cpp 677-680: fread; the bytes that arrive in the buffer. A stream for writing only, and a directory, deliver nothing *)
Definition f_read (n : Z) (f : file) (w : world) : out (res * world) :=
  with_handle f w (fun i h =>
    if n <? 0 then UB else
    match hmode h, hino h, hlast h with
    | MWrite, _, _ | _, None, _ => Val (RBytes [], w)
    | MReadWrite, _, LWrite => UB
    | _, Some x, _ =>
      let b := slice (content (disk w) x) (hpos h) n in
      Val (RBytes b, W (disk w) (put (hs w) i (Some (H (hino h) (hpos h + zlen b) (hmode h) (if n =? 0 then hlast h else LRead (zlen b <? n))))))
    end).
(** File.cpp 698-701: fwrite; the number of bytes written. A stream for reading only takes nothing *)
Definition f_write (b : list Z) (f : file) (w : world) : out (res * world) :=
  with_handle f w (fun i h =>
    match hmode h, hino h, hlast h with
    | MRead, _, _ | _, None, _ => Val (RNum 0, w)
    | MReadWrite, _, LRead false => UB
    | _, Some x, _ =>
      match b with
      | [] => Val (RNum 0, w)
      | _ => Val (RNum (zlen b), W (FS (entries (disk w)) (put (data (disk w)) x (overwrite (content (disk w) x) (hpos h) b)))
                                   (put (hs w) i (Some (H (hino h) (hpos h + zlen b) (hmode h) LWrite))))
      end
    end).
(** File.cpp 159-164 *)
Definition f_make_directory (f : file) (w : world) : bool * world := match sys_mkdir (disk w) (fpath f) with Ok s => (true, W s (hs w)) | Err _ => (false, w) end.
(** File.cpp 172-178 *)
Definition f_exists (f : file) (w : world) : bool := match stat (entries (disk w)) (fpath f) with Ok _ => true | Err _ => false end.
(** File.cpp 247-255, 268-277, 308-317, 332-341: the answer of lstat is not looked at; if it fails, st is not initialised and reading it is undefined *)
Definition with_lstat {A} (f : file) (w : world) (k : kind -> A) : out A := match lstat (entries (disk w)) (fpath f) with Ok x => Val (k x) | Err _ => UB end.
Definition f_is_directory (f : file) (w : world) : out bool := with_lstat f w (fun k => match k with KDir => true | _ => false end).
Definition f_is_file (f : file) (w : world) : out bool := with_lstat f w (fun k => match k with KReg _ => true | _ => false end).
Definition f_is_link (f : file) (w : world) : out bool := with_lstat f w (fun k => match k with KLink _ => true | _ => false end).
Definition f_is_pipe (f : file) (w : world) : out bool := with_lstat f w (fun k => match k with KPipe => true | _ => false end).
(** File.cpp 395-401 *)
Definition f_remove (f : file) (w : world) : out (bool * world) :=
  let* d := f_is_directory f w in
  match (if d then sys_rmdir (disk w) (fpath f) else Err ENOTDIR) with
  | Ok s => Val (true, W s (hs w))
  | Err _ => match c_remove (disk w) (fpath f) with Ok s => Val (true, W s (hs w)) | Err _ => Val (false, w) end
  end.
(** File.cpp 420-447. The new path is taken as it is (see M_File: the constructors normalise it, this function does not) *)
Definition f_rename (q : path) (f : file) (w : world) : bool * file * world :=
  match sys_rename (disk w) (fpath f) q with Ok s => (true, F q (fh f), W s (hs w)) | Err _ => (false, f, w) end.
(** File.cpp 582-588: fopen "wb", then close; a handle the File had is lost *)
Definition f_create (ok : bool) (f : file) (w : world) : out (res * file * world) :=
  match fopen MWrite (fpath f) w with
  | Ok (h, w) => let* (r, f, w) := f_close ok (F (fpath f) (Some h)) w in Val (match r with RThrow => RThrow | _ => RBool true end, f, w)
  | Err _ => Val (RBool false, F (fpath f) None, w)
  end.
(** File.cpp 537-546; [dirsize]: what the file system reports for a directory or a pipe *)
Definition f_size (dirsize : Z) (f : file) (w : world) : Z :=
  match stat (entries (disk w)) (fpath f) with Ok (_, KReg i) => zlen (content (disk w) i) | Ok _ => dirsize | Err _ => 0 end.
Definition dot : name := [46]. Definition dotdot : name := [46; 46].
(** File.cpp 450-487. [first], [second]: what the two passes of readdir deliver. The array has as many elements as the first delivered; set throws beyond it; elements that are
    not set are null Files (here: the path [[]]) *)
Definition fill (p : path) (first second : list name) : res :=
  if (length first <? length second)%nat then RThrow else RFiles (map (fun x => p ++ [x]) second ++ repeat [[]] (length first - length second)).
Definition f_list (f : file) (w : world) : out res :=
  let* d := f_is_directory f w in
  if negb d then Val RNull else
  let names := dot :: dotdot :: children (entries (disk w)) (fpath f) in Val (fill (fpath f) names names).
(** File.cpp 369-379: the time of the last change is s seconds and ns nanoseconds after the epoch; the answer in milliseconds *)
Definition modified_ms (s ns : Z) : Z := s * 1000 + ns / 1000.
(** File.cpp 703-716; [cmp] compares the texts of the paths (String::compareTo) *)
Definition f_compare (cmp : path -> path -> Z) (f g : file) (w : world) : out Z :=
  let* d1 := f_is_directory f w in
  let* d2 := f_is_directory g w in
  if Bool.eqb d1 d2 then Val (cmp (fpath f) (fpath g)) else Val (if d1 then -1 else 1).
