(** S_Fs.v -- file systems that make sense, and what the calls are expected to do. *)
From Verif Require Import Base M_Fs.
(** the root is a directory, names are unique, everything else is in a directory, regular files have contents of their own *)
Record wf (s : fs) : Prop := WF {
  w_root : get (entries s) [] = Some KDir;
  w_names : NoDup (map fst (entries s));
  w_in : forall p x k, get (entries s) (p ++ [x]) = Some k -> get (entries s) p = Some KDir;
  w_data : forall p i, get (entries s) p = Some (KReg i) -> (i < length (data s))%nat;
  w_own : forall p q i, get (entries s) p = Some (KReg i) -> get (entries s) q = Some (KReg i) -> p = q }.
(** what is at a path *)
Definition at_ (s : fs) (p : path) : option kind := get (entries s) p.
Definition in_directory (s : fs) (p : path) : Prop := exists d x, p = d ++ [x] /\ at_ s d = Some KDir.
Definition empty_dir (s : fs) (p : path) : Prop := at_ s p = Some KDir /\ forall x, at_ s (p ++ [x]) = None.
Definition not_dir (k : option kind) : Prop := exists x, k = Some x /\ x <> KDir.
(** the same everywhere but at p *)
Definition only_at (p : path) (s s' : fs) : Prop := forall q, q <> p -> at_ s' q = at_ s q.
(** the content of the regular file at a path *)
Definition holds (s : fs) (p : path) (l : list Z) : Prop := exists i, at_ s p = Some (KReg i) /\ nth_error (data s) i = Some l.
(** calls that change the names *)
Inductive nop := NMkdir (p : path) | NCreate (p : path) | NRemove (p : path) | NRename (p q : path).
Definition nexec (o : nop) (w : world) : out world :=
  match o with
  | NMkdir p => Val (snd (f_make_directory (F p None) w))
  | NCreate p => let* (_, _, w) := f_create true (F p None) w in Val w
  | NRemove p => let* (_, w) := f_remove (F p None) w in Val w
  | NRename p q => let '(_, _, w) := f_rename q (F p None) w in Val w
  end.
Fixpoint nexec_all (l : list nop) (w : world) : out world := match l with [] => Val w | o :: l => let* w := nexec o w in nexec_all l w end.
(** ** streams *)
Inductive sop := OSeek (p : Z) | OMove (d : Z) | OPos | ORead (n : Z) | OWrite (b : list Z).
Definition sexec (o : sop) (f : file) (w : world) : out (res * world) :=
  match o with
  | OSeek p => f_seek p f w | OMove d => f_move d f w | OPos => let* r := f_position f w in Val (r, w) | ORead n => f_read n f w | OWrite b => f_write b f w
  end.
Fixpoint sexec_all (l : list sop) (f : file) (w : world) : out (list res * world) :=
  match l with [] => Val ([], w) | o :: l => let* (r, w) := sexec o f w in let* (rs, w) := sexec_all l f w in Val (r :: rs, w) end.
(** the File reads and writes the regular file at q, which holds l; the position is p *)
Definition streams (f : file) (w : world) (m : mode) (q : path) (l : list Z) (p : Z) : Prop :=
  0 <= p /\ exists h i la, fh f = Some h /\ nth_error (hs w) h = Some (Some (H (Some i) p m la)) /\ at_ (disk w) q = Some (KReg i) /\ nth_error (data (disk w)) i = Some l.
(** the last of a list of operations that is no seek or move (after a seek or move: nothing) *)
Definition byte (l : list Z) (i : Z) : Z := nth (Z.to_nat i) l 0.
(** what the operations do to an array of bytes and a position *)
Inductive astep (m : mode) : sop -> list Z * Z -> res -> list Z * Z -> Prop :=
| A_seek l p x : 0 <= x -> astep m (OSeek x) (l, p) RUnit (l, x)
| A_seek_neg l p x : x < 0 -> astep m (OSeek x) (l, p) RThrow (l, p)
| A_move l p d : 0 <= p + d -> astep m (OMove d) (l, p) RUnit (l, p + d)
| A_move_neg l p d : p + d < 0 -> astep m (OMove d) (l, p) RThrow (l, p)
| A_pos l p : astep m OPos (l, p) (RNum p) (l, p)
| A_read l p n b : m <> MWrite -> zlen b = Z.max 0 (Z.min n (zlen l - p)) -> (forall i, 0 <= i < zlen b -> byte b i = byte l (p + i)) -> astep m (ORead n) (l, p) (RBytes b) (l, p + zlen b)
| A_read_w l p n : m = MWrite -> astep m (ORead n) (l, p) (RBytes []) (l, p)
| A_write l p b l' : m <> MRead -> b <> [] -> zlen l' = Z.max (zlen l) (p + zlen b) ->
    (forall i, 0 <= i < zlen l' -> byte l' i = if (p <=? i) && (i <? p + zlen b) then byte b (i - p) else if i <? zlen l then byte l i else 0) ->
    astep m (OWrite b) (l, p) (RNum (zlen b)) (l', p + zlen b)
| A_write_nil l p : m <> MRead -> astep m (OWrite []) (l, p) (RNum 0) (l, p)
| A_write_r l p b : m = MRead -> astep m (OWrite b) (l, p) (RNum 0) (l, p).
Inductive asteps (m : mode) : list sop -> list Z * Z -> list res -> list Z * Z -> Prop :=
| A_nil s : asteps m [] s [] s
| A_cons o l s r s1 rs s2 : astep m o s r s1 -> asteps m l s1 rs s2 -> asteps m (o :: l) s (r :: rs) s2.
(** the other regular files hold what they held *)
Definition others_kept (q : path) (s s' : fs) : Prop := entries s' = entries s /\ forall z l, z <> q -> holds s z l -> holds s' z l.
