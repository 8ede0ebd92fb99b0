# Formal model of VertexFusion/libcore in Rocq (Coq 8.16.1)

## Approach

* `rocq/theories/Base.v` — machine integers (explicit wrap functions) and the outcome type
  `out A = Val a | Exn | UB | Fuel` (normal result, C++ exception, undefined behaviour,
  model fuel exhausted). Undefined behaviour (out-of-bounds access, signed overflow, null
  dereference, use after free, use of an indeterminate value) is a distinct outcome;
  non-termination of the real code shows up as "`Fuel` for every amount of fuel", and every theorem
  that promises `Val` therefore also promises termination.
* one `M_*.v` file per code unit: the executable model, every definition citing file and lines in
  /repo. No proofs in these files.
* `S_*.v`: small specifications that do not use the model's algorithms (RFC text, calendar, edit
  distance, lists, finite maps ...).
* `L_*.v`: lemmas (proof work).
* `P_*.v`: the property theorems `Cnn_...` with `Print Assumptions` under each, and `Example`s that show that a
  concrete non-trivial case meets the hypotheses. The suffix `_refuted` marks a proved
  counterexample: the theorem exhibits an input on which the real code (as modelled) does not do what the
  name of the API promises. `_partial` would mark an incomplete proof.

Integers are `Z` with the wrap written out where the code can wrap; buffers are `list Z`; objects
with capacity keep the whole allocated buffer, so stale data behind the logical end is modelled.
Mutating containers are proved by refinement: for *every history* of calls the model's answers
(including which calls throw or are undefined) are those of the specification. Concurrency
(C51, C52) is an interleaving machine, statement by statement, and the theorems are invariants of all reachable states.

## Trusted base

* Coq's kernel (8.16.1), including `vm_compute`.
* What `Print Assumptions` prints under each theorem in the `P_*.v` files: see the table at the end. No axioms of our own.
* The reading of the C++ sources: the model is hand written; nothing is extracted or executed
  against the real code. The simplifications are written in the comment at each definition.
* Assumed of the platform everywhere: two's complement 64 bit target (int64 = long), allocation succeeds unless said
  otherwise, no reuse of freed addresses (so that use after free is visible), IEEE binary64 where doubles occur
  (`Floats.SpecFloat`, no axioms).
* Theorems about error bounds of floating point arithmetic (Color and later units) use the real numbers of the standard library (through
  Flocq, which adds no axioms): `ClassicalDedekindReals.sig_forall_dec`, `ClassicalDedekindReals.sig_not_dec`,
  `FunctionalExtensionality.functional_extensionality_dep`, `Classical_Prop.classic`, all of the standard library. The table names them at each theorem.

