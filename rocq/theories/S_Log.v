(** S_Log.v -- what the log of System is: a sequence of whole calls. *)
From Verif Require Import Base M_Log.
(** what the outside sees: the two settings, the last error message, the console *)
Record world := W { wdate : bool; wlabel : level; werror : list Z; wconsole : list Z }.
(** the text of one message: date, colour, label, message, end of the colour *)
Definition message (tr : list Z -> list Z) (w : world) (now m : list Z) (l : level) : list Z :=
  (if wdate w then [91] ++ now ++ [93; 32] else []) ++
  (match l with Error => [27; 91; 49; 109; 27; 91; 51; 49; 109] | Warning => [27; 91; 49; 109; 27; 91; 51; 51; 109] | _ => [] end) ++
  (if rank (wlabel w) <=? rank l then tr (key l) else []) ++
  m ++
  match l with Error | Warning => [27; 91; 48; 109] | _ => [] end.
(** what the console shows of it: one line, nothing of debug messages *)
Definition line (tr : list Z -> list Z) (w : world) (now : list Z) (k : call) : list Z :=
  match k with
  | Log m Debug => []
  | Log m l => message tr w now m l ++ [10]
  | _ => []
  end.
(** one call, executed alone *)
Definition effect (tr : list Z -> list Z) (w : world) (now : list Z) (k : call) : world :=
  match k with
  | Log m l => W (wdate w) (wlabel w) (match l with Error => m | _ => werror w end) (wconsole w ++ line tr w now k)
  | EnableDate b => W b (wlabel w) (werror w) (wconsole w)
  | EnableLabel l => W (wdate w) l (werror w) (wconsole w)
  | LastError => w
  end.
(** a history: who, at what time, which call; one after the other *)
Definition history := list (nat * list Z * call).
Definition effects (tr : list Z -> list Z) (w : world) (h : history) : world := fold_left (fun w '(_, now, k) => effect tr w now k) h w.
(** the calls of one thread in a history *)
Definition calls (t : nat) (h : history) : list call := map snd (filter (fun '(x, _, _) => Nat.eqb x t) h).
(** the calls a thread has still to do; a call is done when nothing is left of it *)
Definition pending (s : st) : list call := match s with Idle rest => rest | Run k [] _ rest => rest | Run k _ _ rest => k :: rest end.
(** all interleavings of the programs [prog], from the world [w] with the translations [b] *)
Definition start (b : option (list Z -> list Z)) (w : world) (prog : nat -> list call) : config :=
  Cfg (wdate w) (wlabel w) (werror w) b None (wconsole w) (fun t => Idle (prog t)).
Inductive reach (c0 : config) : config -> Prop :=
| reach_0 : reach c0 c0
| reach_S c t now c' : reach c0 c -> step c t now = Next c' -> reach c0 c'.
(** accesses to shared variables, true: a write. std::cout is not one of them: insertions into it do not race, but interleave *)
Inductive var := VDate | VLabel | VError.
Definition access (p : prim) : option (var * bool) :=
  match p with
  | PDate => Some (VDate, false) | PStoreDate _ => Some (VDate, true)
  | PLabel _ => Some (VLabel, false) | PStoreLabel _ => Some (VLabel, true)
  | PStoreError _ => Some (VError, true) | PLoadError => Some (VError, false)
  | _ => None
  end.
Definition next_access (c : config) (t : nat) : option (var * bool) := match thr c t with Run _ (p :: _) _ _ => access p | _ => None end.
(** two threads are about to access the same variable, one of them writes *)
Definition data_race (c : config) : Prop := exists t u v b, t <> u /\ next_access c t = Some (v, true) /\ next_access c u = Some (v, b).
