(** M_Resource.v -- model of src/core/Resource.cpp: Resource objects share streams that count their references (Object.cpp 51-84, in one thread; C51 is about many).
    A stream is only its counter here; what reading does is in M_Stream and M_File. *)
From Verif Require Import Base.
Inductive stream := Live (count : Z) | Freed.
(** [vars]: the Resource objects that exist, by name, with mStream (None: nullptr); [heap]: the streams made so far *)
Record state := St { vars : nat -> option (option nat); heap : list stream }.
Inductive op :=
| New (r : nat) (found : bool)   (* Resource r(path); found = false: only on Android, no such resource *)
| Copy (r s : nat)               (* Resource r(s) *)
| Assign (r s : nat)             (* r = s *)
| Destroy (r : nat)              (* the end of r *)
| Use (r : nat)                  (* open, isOpen, close, read, readFully, seek, move, position, write *)
| Ask (r : nat).                 (* size, exists *)
Definition set {A} (f : nat -> A) (i : nat) (v : A) : nat -> A := fun x => if Nat.eqb x i then v else f x.
Fixpoint put (l : list stream) (i : nat) (v : stream) : list stream := match l, i with [], _ => [] | _ :: l, O => v :: l | x :: l, S i => x :: put l i v end.
(** Object.cpp 74-81 *)
Definition retain (h : list stream) (x : nat) : out (list stream) := match nth_error h x with Some (Live n) => Val (put h x (Live (n + 1))) | _ => UB end.
(** Object.cpp 51-72: the destructor of the stream runs when the counter reaches 0 *)
Definition release (h : list stream) (x : nat) : out (list stream) := match nth_error h x with Some (Live n) => Val (put h x (if n - 1 =? 0 then Freed else Live (n - 1))) | _ => UB end.
Definition deref (h : list stream) (x : nat) : out unit := match nth_error h x with Some (Live _) => Val tt | _ => UB end.
(** Resource.cpp 37-52 (New; a new stream has the counter 1, Object.cpp 36-42), 54-58 (Copy), 60-69 (Assign), 71-78 (Destroy), 86-127 (Use), 80-84 and 129-140 (Ask).
    Naming an object that does not exist, or making one that exists, is not C++: UB *)
Definition exec (o : op) (s : state) : out state :=
  match o with
  | New r found =>
    match vars s r with
    | Some _ => UB
    | None => if found then Val (St (set (vars s) r (Some (Some (length (heap s))))) (heap s ++ [Live 1])) else Val (St (set (vars s) r (Some None)) (heap s))
    end
  | Copy r q =>
    match vars s r, vars s q with
    | None, Some m => let* h := match m with Some x => retain (heap s) x | None => Val (heap s) end in Val (St (set (vars s) r (Some m)) h)
    | _, _ => UB
    end
  | Assign r q =>
    match vars s r, vars s q with
    | Some _, Some m => if Nat.eqb r q then Val s else
                        let* h := match m with Some x => retain (heap s) x | None => Val (heap s) end in Val (St (set (vars s) r (Some m)) h)
    | _, _ => UB
    end
  | Destroy r =>
    match vars s r with
    | Some m => let* h := match m with Some x => release (heap s) x | None => Val (heap s) end in Val (St (set (vars s) r None) h)
    | None => UB
    end
  | Use r => match vars s r with Some (Some x) => let* _ := deref (heap s) x in Val s | _ => UB end
  | Ask r => match vars s r with Some (Some x) => let* _ := deref (heap s) x in Val s | Some None => Val s | None => UB end
  end.
Fixpoint exec_all (l : list op) (s : state) : out state := match l with [] => Val s | o :: l => let* s := exec o s in exec_all l s end.
Definition empty : state := St (fun _ => None) [].
(** I18nBundle.cpp 158-204 (transFileByBundleId), as far as Resources are concerned: [found] answers exists() of the four candidates, one after the other;
    [f] is the variable translationFile, [t] the temporary object on the right-hand sides of 174, 185, 196. The result object is [f] itself (or a copy
    that replaces it) *)
Fixpoint search (f t : nat) (found : list bool) : list op :=
  match found with
  | false :: ((_ :: _) as more) => [Ask f; New t true; Assign f t; Destroy t] ++ search f t more
  | _ => []
  end.
Definition trans_file (f t : nat) (found : list bool) : list op := New f true :: search f t found.
