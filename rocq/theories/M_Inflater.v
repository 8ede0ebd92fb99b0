(** M_Inflater.v -- the rest of the interface of src/core/Inflater.cpp: Reset, the counters, and what becomes of the output buffer. *)
From Verif Require Import Base M_Inflate.
(** Inflater.cpp 133-147: everything but mWrap; the old output buffer is neither deleted nor reused *)
Definition reset (s : inf) : inf := INF [] 0 0 (Some (repeat None 1024)) 0 0 0 false false (wrap s).
(** Inflater.cpp 78-86 *)
Definition needs_input (s : inf) : bool := negb (eof s).
Definition finished (s : inf) : bool := eof s.
(** Inflater.cpp 149-162 *)
Definition get_remaining (s : inf) : Z := zlen (cb s) - ci s.
Definition get_total_in (s : inf) : Z := tin s.
Definition get_total_out (s : inf) : Z := tout s.
(** the caller deletes the array that Inflate gave him (include/core/Inflater.h: "the caller must clean up the array afterwards"): mUncompBytes still points to it.
    No access to it is defined any more, as with a nullptr *)
Definition free_buffer (s : inf) : inf := INF (cb s) (ci s) (bit s) None (ui s) (tin s) (tout s) (lastb s) (eof s) (wrap s).
