# Formal model of VertexFusion/libcore in Rocq (Coq 8.16.1)

## Approach

* `rocq/theories/Base.v` — machine integers (explicit wrap functions) and the outcome type
  `out A = Val a | Exn | UB | Fuel` (normal result, C++ exception, undefined behaviour,
  model fuel exhausted). Undefined behaviour (out-of-bounds access, signed overflow, null
  dereference, use after free, use of an indeterminate value) is a distinct outcome;
  non-termination of the real code shows up as "`Fuel` for every amount of fuel", and every theorem
  that promises `Val` therefore also promises termination.
* one `M_*.v` file per code unit: the executable model, every definition citing file and lines in
  /repo. No proofs in these files.
* `S_*.v`: small specifications that do not use the model's algorithms (RFC text, calendar, edit
  distance, lists, finite maps ...).
* `L_*.v`: lemmas (proof work).
* `P_*.v`: the property theorems `Cnn_...` with `Print Assumptions` under each, and `Example`s that show that a
  concrete non-trivial case meets the hypotheses. The suffix `_refuted` marks a proved
  counterexample: the theorem exhibits an input on which the real code (as modelled) does not do what the
  name of the API promises. `_partial` would mark an incomplete proof.

Integers are `Z` with the wrap written out where the code can wrap; buffers are `list Z`; objects
with capacity keep the whole allocated buffer, so stale data behind the logical end is modelled.
Mutating containers are proved by refinement: for *every history* of calls the model's answers
(including which calls throw or are undefined) are those of the specification. Concurrency
(C51, C52) is an interleaving machine, statement by statement, and the theorems are invariants of all reachable states.

## Trusted base

* Coq's kernel (8.16.1), including `vm_compute`.
* What `Print Assumptions` prints under each theorem in the `P_*.v` files: see the table at the end. No axioms of our own.
* The reading of the C++ sources: the model is hand written; nothing is extracted or executed
  against the real code. The simplifications are written in the comment at each definition.
* Assumed of the platform everywhere: two's complement 64 bit target (int64 = long), allocation succeeds unless said
  otherwise, no reuse of freed addresses (so that use after free is visible), IEEE binary64 where doubles occur
  (`Floats.SpecFloat`, no axioms).
* Theorems about error bounds of floating point arithmetic (Color and later units) use the real numbers of the standard library (through
  Flocq, which adds no axioms): `ClassicalDedekindReals.sig_forall_dec`, `ClassicalDedekindReals.sig_not_dec`,
  `FunctionalExtensionality.functional_extensionality_dep`, `Classical_Prop.classic`, all of the standard library. The table names them at each theorem.


## What is modelled, per unit

| Unit | Source | Modelled | Not modelled | Properties | Proof idea |
|------|--------|----------|--------------|-----------|------------|
| Base64 | Base64.cpp | both directions, allocated sizes, every index | – | C01, C02, C55 | list induction in steps of 3/4, finite sweeps |
| Crc | CRC.cpp | table, update | – | C03, C04 | table = 8 bit steps; injective step |
| Math | Math.cpp, Math.h | floorDiv/floorMod, reverse/bit counting, random over an arbitrary `rand` | trigonometry, double helpers | C39, C40, C56 | arithmetic, bit lemmas |
| Date | Date.cpp | fields, day numbers, constructor, ISO text, comparison, 64 bit overflow | operating system clock, time zones of the OS | C35–C38 | proleptic Gregorian calendar as spec |
| DateFormat | DateFormatter.cpp | pattern parser, all fields, names | translation table (a parameter) | C54 | induction over the pattern |
| Utf8, Charset | UTF8Decoder, UTF16Decoder, Windows1252Decoder, MacRomanDecoder, CharsetDecoder, Charset.cpp | encode, decode, guess; reads behind the C string terminator are UB | user-made sets (the third constructor reads mAltCount before it is set) | C05–C09, C57, C58 | induction over characters, finite sweeps |
| String, Integer, Arg | String.cpp, Integer.cpp, Character.cpp | storage with capacity and cached hash, all editing, searching, comparing, number formatting/parsing, `arg`, URL coding | `double` formatting/parsing, iostream operators | C10–C19, C22, C23, C53, C59, C60 | refinement to `list Z`; strong induction on numbers |
| Tokenizer, StringList, Sort | StringTokenizer.cpp, StringList.cpp | all | – | C20, C21, C27 | induction, bubble sort invariant |
| Stack, ByteArray, Array, Hashtable, LinkedList, MemoryStream | Stack.h, ByteArray.cpp, Array.h, Hashtable.cpp, LinkedList.cpp, MemoryStream.cpp | heap of nodes/blocks, allocation, deletion, dangling pointers, indeterminate bytes | out of memory | C24–C30, C47–C50 | heap shape invariants, refinement over all histories |
| Undo | UndoManager.cpp, UndoStep.cpp, UndoChange.cpp, EditableObject.cpp | journal, steps, transactions, reference counts of the journal | per-type copies of the same change class; UndoChangeBuffer | C31–C34 | invariant over histories |
| Diff | DiffDiag, DiffDistance, DiffBacktrace.cpp | lazily extended diagonals, backtrace | – | C41–C43 | Levenshtein recursion as spec |
| Xml | XMLWriter.cpp, SAXParser.cpp, SAXAttributes.cpp | writer automaton, parser | file access | C44–C46, C61 | document tree as spec, parser run over the written text |
| RefCount | Object.cpp, AutoreleasePool.cpp, Mutex.cpp | every statement of retain/release/autorelease/drain/setHighBit of any number of threads, any clients | weak memory | C51, C52 | invariant of all interleavings |
| Serializer | Serializer.cpp | every fixed-size serialize/deserialize function on a byte buffer with offset | hex/string helpers not listed in M_Serializer | C62 | little/big endian value as spec |
| Inflate | Inflater.cpp | bit reader, stored/fixed/dynamic blocks, code construction and tree, output buffer growth (as a parameter), zlib header | leaks, allocation failure | C63–C65 | RFC 1951 stream grammar as encoder spec (S_Inflate), simulation of the decoder over the encoded bits; bit position as measure for termination |
| Zip | ZipOutputFile.cpp, ZipFile.cpp | headers, data, directory, search of the end record, entries, streams (with the Inflater), CRC-32; files as bytes with a position | buffering, failing I/O, the name of the temporary file, reference counts | C66–C69 | records of the ZIP format as spec (S_Zip), file image as invariant of the writer, placement of records for the reader; CRC-32 by linearity over GF(2) |
| Preferences | Preferences.cpp | the table of value pointers on a heap, the file text in both directions, numbers and truth values, destructor | file system (the file is its bytes), double values | C70–C72 | refinement to a finite map over the Hashtable refinement (C24–C26); line grammar of the file as spec (S_Preferences) |
| I18nBundle | I18nBundle.cpp | appendMo, translate, String(const char*, int64) | which file is looked for (transFileByBundleId, initDefault) | C73, C74 | .mo format as placement of words and strings (S_I18n), over the Preferences refinement |
| File | File.cpp (Linux) | path names (normalize, resolve, constructors, name, parent, extension, isHidden), readFully, tags, String::split | everything that asks the file system (a File is its path, a content is its bytes, fread answers by an arbitrary schedule of short reads), C string of the path | C75–C79, C20 | sequences of components as spec (S_File); induction over the schedule; refinement of tag histories to a list of texts |
| Color | Color.cpp, Color.h | all functions; float arithmetic by SpecFloat (binary32, round to nearest even), conversions of floats to integers with their undefined cases | copying, setters; FLT_EVAL_METHOD 0 and no contraction to fused operations are assumed | C80–C85 | exact rational formulas as spec (S_Color); bridge from SpecFloat to Flocq's rounding of real numbers (L_Float, L_Float2), error analysis over the reals of the standard library, whose axioms appear in the table |
| Thread | Thread.cpp, Mutex.cpp (pthread branch) | start, StartThread, interrupt, isAlive, sleep, sleep(millis) with its time arithmetic, wakeUp, lock, unlock as an interleaving machine of arbitrarily many threads with arbitrary programs; one step per pthread operation or access to the flag; spurious wake-ups; data races, unlock by a stranger, double start and wrong joins are undefined | Windows branch, destructor, attributes, errors of pthread_create, memory order of `thread` (written by pthread_create); sequentially consistent interleaving, justified by C86 (no data race on the flag) | C86–C91 | inductive invariants over steps, traces of calls and returns as spec (S_Thread), measure that decreases with every step once the flag is down, closed sets of states for the refutations |
| MathF | Math.cpp (functions on doubles, swap, random) | comparisons, sign, round, roundFrac, interpolate, swap with aliasing, random and probability for an arbitrary answer of rand(), machine epsilon; doubles by SpecFloat (binary64) | degToRad, radToDeg (unit Angle), float versions of roundFrac and interpolate; std::pow(10,d) answers the double of 10^d (a hypothesis of the theorems) | C92–C95 | values of doubles as rational numbers (S_Double); bridge to Flocq's rounding of real numbers (L_Double) |
| Rect | Rect.cpp, Rect.h, Extents.cpp | edges, setters of edges, shift, move, align, center, normalize, unionWith, intersect, intersection, intersects, contains, isEmpty; Extents: add, isValid, delta | copying, corner functions; a rectangle passed to its own functions | C96–C98 | rectangles of a binary grid as integers (S_Rect) so that double arithmetic is exact; order of doubles for extents; witnesses for coordinates without a grid |
| Decimal | String.cpp (valueOf(double, precision, trunc), arg(double), arg(int64), arg(uint64)) | all of it; fmod(x,1), conversions to int64 with their undefined cases; doubles by SpecFloat | valueOf(double) and toDouble (iostreams); std::pow(10,p) answers the double of 10^p (a hypothesis of the theorems) | C99, C100 | digits of N as spec (S_Decimal, S_Integer); bridge to Flocq's rounding (L_Double, L_Decimal); C22 for the markers |
| Matrix | Matrix.cpp, Vector.cpp | constructors, copies, element access, det, inverse, transpose, insert, diag, norms, trace, count, all operators, initIdentity/Moving/Scaling/Mirroring/Rotation(Z), trans; Vector: dotProduct, abs, normalize, operators | print, ref, eigen (unit Eigen), initWcs (unit Wcs), transAngle, rotation from one vector to another, constructors from vertices, the array leaked by init(), negative sizes; cos and sin are parameters of the rotations | C101–C108 | integer matrices times 2^k (S_Matrix: zsum, zdet, zadj); reflection of polynomial expressions over doubles (L_Matrix2, L_Grid) so that arithmetic is exact; relative errors by Flocq |
| Geometry | Vertex2.cpp, Vertex3.cpp, Geometry.cpp | products, lengths, normalisation, comparisons, linear systems; line and plane, closest points, distances, decisions (on line, on segment, on plane, same point), crossing lines and segments, circles, circle through three points, arcs and ellipses | angleTo, rotations of Vertex3, streams, circleParameterBy2TangentsRadius, closestPointOnCircle; atan2, cos and sin are parameters; extensionPointOnLine/OnArc, closest points of two lines and circles are modelled without theorems | C109–C114 | points of a binary grid (S_Geometry); exact integer arithmetic where it fits into 53 bits, error bounds by Flocq elsewhere (L_Geometry…4) |
| Nurbs | NURBS.cpp | constructors, basis functions, weights, point, start, end, counts, knot; indices uint32, reads outside the arrays are UB | the implicit copy constructor (double delete) | C115, C116 | Cox–de Boor recursion over Q as spec (S_Nurbs); partition of unity and support over R (L_Nurbs); relative-error calculus for positive numbers (L_Nurbs2), induction over the degree (L_Nurbs3), sums over control points (L_Nurbs4); exact local control and start |
| Property | Property.cpp, struct Variant of Property.h | constructors, all getters and setters, setValue, isValueEquals, operator==; Variant: constructors, copy, assignment, conversions | the log entry of operator==; NaNs have one bit pattern; union members read through each other are reinterpreted bytes (little endian), a bool byte other than 0 and 1 is UB, the number of a Variant from a string is indeterminate (UB when read) | C117–C119 | histories of calls (S_Property: `calls`, `made`); bit layout of binary64 inverted on all doubles |
| Deflater | Deflater.cpp | all functions; zlib's compressor is a parameter (every function from byte strings to byte strings), with the documented behaviour of deflate(Z_FINISH) when the room ends | zlib itself, allocation failure | C120 | direct; the loss by the pigeonhole principle over all strings of a length |
| EditableObject | EditableObject.cpp (setMember; with the undo manager in full: M_Undo) | status, member and messages to the undo manager of all setMember overloads | open/closeTransaction are in M_Undo; document() and the regeneration flag | C121 | case analysis, induction over histories, tolerance of isEqual (C92) |
| SAXAttributes | SAXAttributes.cpp (look-up by name: M_Xml) | addAttribute, index access, assignment, copy constructor, valueAsInt, valueAsBool | valueAsFloat/valueAsDouble (iostreams), type, uri (constants) | C122 | induction over the history; C16, C46, C53 |
| Transform | Transform.cpp | all four functions, with the 3x3 inverse of Matrix.cpp and normalize of Vertex3.cpp | nothing | C123 | absolute error calculus over Flocq around an exact orthonormal frame; the axis directions by computation |
| Log | System.cpp 95-186, Exception.cpp 14-17 | log, logEnableDate, logEnableLabel, lastErrorMessage, each operation on the mutex, a variable or std::cout one step of an arbitrary schedule | encoding of the console, the stack trace, syslog (macOS), Windows | C124 | invariant: the rest of the critical section, run alone, gives the effect of the whole call |
| Test | Test.cpp, TestVector.cpp | all check methods, the four counters, testrun, execute with its argument; a test is the sequence of its checks and its end | the printed text beyond the numbers, the duration, overflow of the counters (2^63 checks), arguments of 19 and more characters | C125 | induction over the checks and the vector; C13, C16, C53, C92 |
| Resource | Resource.cpp, I18nBundle.cpp 158-204 | Resource.cpp: constructors, copy, assignment, destructor, the delegating calls as dereferences; transFileByBundleId as a program of these | what reading the stream does (M_Stream, M_File); AAsset | C126 | invariant: counter = number of referring objects + number of forgotten references |
| Document | Document.cpp | constructor, destructor, setUndoManager, closeUndoStep, the flags, on top of M_Undo; a second small model of the lifetimes of managers and document | setFile/file (the File itself is in M_File), virtual load/save | C127 | the simulation of C31 extended by an invariant on the flag; counting invariant |
| Fs | File.cpp 75-106, 159-178, 247-341, 369-447, 450-487, 537-546, 582-716 (Linux) | the calls of File that ask the operating system, on a model of a POSIX file system: table of names, contents, handles, fopen modes, fseek/fread/fwrite/fclose | other processes, access rights, full disks, I/O errors except in fclose, hard links, links in the middle of a path, stdio buffers, pipes as streams, errno changed by the logging in between; tags, trash, owner | C128, C129 | the table with an invariant (every entry is in a directory, inodes not shared); induction over operation sequences against a byte-array machine |
| Char | Character.cpp | the classes of characters (case functions and digits: M_String) | comparison operators | C130 | ranges and linear arithmetic |
| Point | Point.cpp, Size.cpp | cWiseMin/Max, sums, differences, multiples, comparison of sizes | accessors | C131 | grids (L_Double), the tolerance of C92 |
| DiffInfo | DiffInfo.cpp 46-230, 500-554, DiffBacktrace.cpp 57-68 | the bytes written to std::cout for integers, texts, doubles, vertices, objects and whole traces | the rendering of doubles and printDiffInfo of the objects are parameters; the commented-out code | C132 | decimal digits (S_Integer), splitting at blanks, induction over the trace of C42 |
| System | System.cpp 441-492, Preferences.cpp 54-158 | init, quit, preferences, savePreferences, the settings files of all bundles on a disk and the life of the character sets; ends of the process between calls and while a file is written | translations, the autorelease pool (PoolLife), failing file operations, the environment functions | C133 | refinement of a map per bundle, on top of C70 and C71 |
| PoolLife | Object.cpp 36-83, AutoreleasePool.cpp 36-85, System.cpp 419-477 | the main pool from init to quit, objects created before, between and after, by one thread | several threads and destructors that release members (RefCount), counters with the high bit | C134 | invariant against a ledger of references |
| Inflater | Inflater.cpp 60-86, 133-162 | Reset, SetInput, NeedsInput, Finished, GetRemaining, GetTotalIn, GetTotalOut, and one Inflater for several inputs, also after the caller deleted the result | leaks, allocation failure | C135 | every step of the decoder keeps the differences between counters and positions (`prog`); Reset by computation for every state |
| Locale | System.cpp 41-74, I18nBundle.cpp 133-144, 158-204 | the name of the locale (with the C library's rules for LC_ALL, LC_x, LANG and the composite name of setlocale as part of the model), System::language, the four file names and the order in which they are tried | names that are not ASCII, the console line, Android, macOS and Windows; the Resource objects (Resource) | C136 | `index_of_char`/`substring`/`append` lemmas of String; the code's search against "the first found of four names" on plain lists |
| CharsetReg | Charset.cpp 34-42, 84-164, 258-280, String.cpp 132-145, 220-225 | the seven sets, forName, hasName, getDefault, quitCharsets, toCString and String with a set, reading by guess and forName | sets with alternative names; the order of static initialisation | C137 | look-up in a list; the round trips of the decoders (C05, C08, C57) turned into round trips of texts |
| Exception | Exception.cpp 14-202 (Linux) | the constructor (ten innermost symbols, decoded as UTF-8, kept in a StringList), the copy constructor, errorMessage, GetStrackTrace, printStackTrace (bytes on std::cerr) | macOS and Windows branches, the log line of line 17 (M_Log), demangling (macOS only) | C138 | relation between an Exception and (message, texts), preserved by copies; induction over the lines |
| Eigen | Matrix.cpp 528-602 | Matrix::eigen for all sizes | pow(x, 2.0), acos and cos are parameters; accuracy of irrational eigenvalues and of the trigonometric 3x3 branch where the arc cosine is called | C139 | exact grid arithmetic (L_Matrix2), exact square root of a square (L_Matrix5); totality over all doubles by the shape lemmas (L_Matrix); the trigonometric branch by the error calculus of L_Transform, with pi enclosed by Machin's formula (L_Pi) and the cosine specified over the real numbers |
| Wcs | Matrix.cpp 611-627 | Matrix::initWcs, with wcsMatrix (unit Transform) and trans (unit Matrix) | nothing of the function | C140 | symbolic evaluation for all doubles, equality up to the sign of a zero; then the error bound of C123 |
| Angle | Math.cpp 36-47 | degToRad, radToDeg and their constants | nothing of the functions | C141 | two roundings against the real number pi, which Machin's formula encloses between two neighbouring doubles (L_Pi) |
| Arc | Geometry.cpp 485-627 | extensionPointOnArc, PQCheck, CheckAngle | extensionPointOnEllipse, extensionPointOnLine; atan2 is a parameter; other directions and coordinates that are not whole are modelled, but the theorems about meeting points are about axis-parallel rays and whole coordinates | C142 | exact integers in doubles, the tolerance of isLess (C92), pi enclosed (L_Pi) |

## Findings about the code (proved as `_refuted` theorems unless marked *noted*)

* RefCount: `setHighBit` is not synchronised – a lost update frees an object that is still referenced; autorelease or drain inside a
  destructor run by drain deadlocks. *Noted*: objects created before `System::init` have a null pool.
* Undo: undo inside an open transaction is not blocked; inner rollback only decrements the level. *Noted*: `UndoChangeBuffer`'s constructor always throws.
* String: `replace` with an empty pattern never ends; `toInt` accepts "1-2" as -12; `toHex` of negative numbers is empty; `valueOf(INT64_MIN)` is undefined;
  insert of a string into itself is wrong; hash codes of equal strings may differ after the top bit was set.
* Containers: `append(list[i])` while growing reads freed memory; `remove(list.get(0))` removes other strings; a copied Stack shares nodes; regrowing a
  ByteArray shows stale bytes; null pointers in Array<T*>::sort; keys hashed before `put` with the top bit set are lost; LinkedList::swapData without undo manager does nothing.
* MemoryStream: write may overrun the buffer; negative seek; seek to the end is ignored.
* Charset: MacRoman 92/93 swapped, W1252 five undefined bytes, UTF-16 overrun, guess never reports UTF-8 without BOM.
* Date: `year()` overflows at the ends of the int64 range (including `Date::EMPTY`); week day negative before 28 Dec 1969.
* DateFormatter: quoted text directly behind a field swallows the field; "Septemper".
* Diff: needs a symmetric `equals`; some reported objects come from the wrong sequence.
* XML: apostrophes are lost on the way back; `<?xml …?>` is reported as an element that never ends; text behind the last tag is never reported.
* Inflater: matches in fixed blocks wrap at 32768 (`& 0x7fff`), so larger outputs get wrong bytes; truncated data, early distances and distance codes 30/31 are undefined behaviour; NLEN, block type 3 and length codes 286/287 are not checked; a block without distance codes is undefined behaviour; `nextBit() + nextBit() * 2` depends on the order of evaluation; the default constructor leaves a null output buffer.
* Zip: the file is not truncated before writing; a ZipEntry object put twice loses the first data; `comment()` and `isDirectory()` are stubs; an empty archive with a comment is rejected (`while(seek > 0)` skips offset 0), files of 1–21 bytes are searched 2^32 times; record count, sizes, method and UTF-8 in the directory are not validated (undefined behaviour); the CRC is never checked.
* Preferences: line breaks are stored as backslash n and never turned back; each backslash n gains a backslash with every save and load (`C:\new`); a value that ends in CR and fills its buffer (setValue), or a line whose value ends in a backslash and fills its buffer (load), is read past its end.
* I18nBundle: translations with line breaks come back with backslash n instead; counts and offsets of a .mo file are not checked (reads past the buffer), nor is its size (files of 1–19 bytes).
* File: `extension()` of a name without a full stop answers part of a directory or the whole path; `parent()` of `/x` is empty instead of `/`; `File("", "x")` is `/x`; `File("a", "/")` keeps the separator at the end; tags beyond 4096 bytes are lost at the next addTag, a comma splits a tag; `isHidden()` of the root throws; `lastModified` divides nanoseconds by 1000.
* Color: `toGreyScale()` of a colour that is not grey is undefined or white (int8 instead of uint8); `toCmyk()` of black divides 0 by 0 and converts NaN to uint8; RGB to CMYK and back uses formulas of two different models ((10,200,50) becomes (0,201,10)); toCmyk makes every colour opaque; `blend()` of two transparent colours is undefined (0/0, or more than 255 for faint ones), ignores its parameter unless both are opaque, and takes grey and CMYK bytes for RGB; `interpolate()` outside 0..1 is undefined; `+` and `-` wrap around; `FromHsv()` with an angle outside 0..420 is black; hsvModel and FromHsv lose up to one per component.
* Thread: `interrupt()` before the new thread has set `alive` is lost: the thread sets the flag again and `interrupt()` blocks in join for ever; `while(isAlive()) sleep();` can miss the wake-up of `interrupt()` (question and sleep are separate critical sections) and both threads hang; `wakeUp()` before `sleep()` is forgotten, and the client cannot repair that because `sleep()` locks the mutex itself (lock, test, sleep is a self-deadlock); `isAlive()` stays true after `run()` has ended; a second `interrupt()` joins twice (undefined); `sleep(millis)` beyond 292 years returns at once.
* Math: `isLess(v,v)` and `isGreater(v,v)` are true and `isLessEqual(v,v)` is false from 2^35 on; `isEqual(inf,inf)` is false; `round(0.49999999999999994)` is 1, `round(4503599627370497.0)` is 4503599627370498; `roundFrac` is undefined when value·10^digits reaches 2^63; `interpolate` misses the end value by rounding, overflows for ends of opposite sign and is NaN for begin = end; `swap(x,x)` sets x to 0; `probability(0)` is true once in 10001; `random(lower, INT_MAX)` overflows.
* Rect: `intersection` of disjoint rectangles is (0,0,0,0), which contains (0,0); `intersect` of disjoint rectangles has negative size and is not `isEmpty()`; `unionWith` and `setRight` miss an edge by rounding (x+width is recomputed) for coordinates without a common grid.
* Extents: `isValid` looks at x only and is false for points beyond 1E89; adding extents of Vertex2 points makes the z range [-1E90, 1E90].
* Decimal text: `valueOf(2.0, 0)` is "2,0"; `valueOf(-5e-7, 7)` is "0,0000005"; `valueOf(-0.001, 2)` is "-0,00"; precision 18 and more overflows int64 for fractions near 1; `arg(uint64)` prints values from 2^63 on as negative.
* Matrix: no index check (row index = rows reaches the next column); `+` and `-` use the shape check of the product, so equal non-square shapes throw and r×n + n×c with c>n reads outside the array; constructors of 2^32 and more elements never return; `inverse` of a singular matrix answers infinities and NaN instead of eError; `trans` with fewer than three rows reads outside the vector. Vector: `dotProduct` with a shorter argument reads outside the array; `normalize` of the zero vector is NaN.
* Geometry: `isPointOnPlane` with its default tolerance is false for every point (it tests distance < 0); `Vertex3::biggest` returns z for x = y > z; `crosses` misses overlapping segments and segments below 1/1000, and accepts points a unit away from segments of millions of units; `circleParameterBy3Points` answers eOK with an infinite centre for collinear points; vectors below 1E-6 are not normalised; CheckAngle misses arcs with negative angles and never ends for huge ones; `extensionPointOnEllipse` divides by b instead of b² and rotates by the angle of the centre instead of the main axis.
* NURBS: `point(end())` is NaN for every curve (half-open last span and `end()` = max(controlCount − degree + 2, last knot)); too few knots or weights are accepted by the constructor and read outside the arrays; the implicit copy shares the arrays and deletes them twice (not modelled).
* Property: `operator==` depends on the type of its left operand only (not symmetric), is false for every property with an editor outside the eight known names (not reflexive) and for infinite values; `setBoolValue` leaves seven bytes of the number, so `isValueEquals` tells two set checkboxes apart; `boolValue` of an integer property is undefined unless the lowest byte is 0 or 1. Variant: the number of a string Variant is uninitialised; an assigned number leaves the old text.
* Deflater: the output buffer has the size of the input, so every input that zlib does not make shorter (there are some of every length) loses its end silently; lengths are cut to 32 bits; the output of a deflater without input is undefined.
* EditableObject: `setMember(Vertex3*)` drops moves up to 1E-6 and accepts NaN coordinates, `setMember(int64*)` does not report an out-of-range value that the member already has.
* SAXAttributes: the copy constructor dereferences uninitialised pointers.
* Transform: the extrusion direction is used as it is: a direction that is not of length 1 scales the heights, and the null direction turns every point into NaN without a report (inverse() reports success for a singular matrix, C105).
* System::log: lastErrorMessage() hands out a reference to a variable that log() writes under the mutex: a data race; and log() of an error, so the constructor of every Exception, dereferences the null bundle of translations before System::init and after System::quit.
* TestVector: testEquals(uint64, int32) converts a negative expectation to a large number and accepts it; two infinite doubles fail; an index beyond the vector runs nothing and reports success; an exception that is not a jm::Exception leaves the per-test counters set.
* C126: `Resource::operator=` (Resource.cpp 60-69) retains the new stream but never releases the old one: each assignment leaks a stream (and an open file handle, if it was open). `transFileByBundleId` leaks up to three that way.
* C127: `Document::isDocumentChanged` stays false while an undo step is open (the flag is set by UndoManager::close only). `~UndoManager` does not delete an open transaction, so its changes leak. `~Document` uses `delete mUndoManager` although the manager is reference counted (setUndoManager(false) uses release()); a detached manager keeps a dangling mDocument.
* C128: `File::createNewFile` truncates an existing file and returns true (the header says it does nothing); `isDirectory`/`isFile`/`isLink`/`isPipe` ignore the result of lstat, so on a missing path (and with them `remove`, `listFiles`, `compareTo`) they read an uninitialised struct; `lastModified` divides nanoseconds by 1000 instead of 1000000; `listFiles` includes "." and ".." and reads the directory twice; `open(kRead)` of a directory is eOK.
* C129: `File::close` keeps mHandle if fclose fails (the stream is gone all the same); the copy constructor copies mHandle, the destructor and a second open do not close: double close and leaks; every operation but close on a File that is not open passes a null pointer to stdio; reading after writing in kReadWrite without a seek is undefined.
* C130: `Char::isUpperCase` knows all capitals of Latin-1, `toLowerCase` only A-Z, Ä, Ö, Ü: "À".toLowerCase() stays "À", and equalsIgnoreCase tells "À" and "à" apart. isWhitespace takes the backspace, but not the vertical tab.
* C131: `Size::operator==` is not transitive, and an infinite size is not equal to itself (so `!=` is true of it); std::min/std::max with a NaN depend on the order.
* C132: DiffInfo reports a decreasing unsigned field with the delta 2^64 - n; the delta of int64 can overflow (undefined behaviour). Texts go to the console in Windows-1252 and other characters are cut to their low byte: a change from "Ł" to "A" is reported as "A -> A", U+0100 ends the text and U+010A breaks the line. "A" lines name the wrong object (see C43).
* C133: calling System::init a second time without quit leaks the preferences and forgets what was not saved. Preferences::save truncates the file before it writes: a process that dies then loses all settings of the bundle, also those of earlier sessions; at a later byte the last value may be cut without notice.
* C133: System::quit deletes the character sets and leaves gCharsets, and the set the console remembers, dangling: init after quit in the same process, and every toCString(), File path or console output of a String after quit, is undefined behaviour (Charset::forName answers nullptr, which toCString dereferences).
* C134: Object::retain and autorelease do not test mPool: with an object created before System::init they dereference a null pointer, while release silently does nothing (the object leaks); every object that outlives System::quit keeps a pointer to the deleted pool.
* C135: an Inflater used for a second input without Reset goes on at the old bit position, does not look at the header and takes the first block for the last one; it also writes into the result of the first one, which the caller must delete. Reset leaks the buffer. In a fixed block the mask `& 0x7fff` lets a match of distance 32768 copy bytes that were never written into the result (old contents of the heap).
* C136: `System::language` asks setlocale(LC_ALL, nullptr), whose answer is a list of all categories as soon as two of them differ: the language is then "LC_CTYPE=..." and no translation is found (the files tried last are translations/.LC.mo and translations/LC.mo). `initDefault` passes an empty file name, so the bundle's own file is never tried.
* C137: `Charset::forName` is case-sensitive and knows no aliases; its nullptr is dereferenced by toCString and String. RAW/ASCII bring back 128-255 as 65408 and above (signed char); text written with forName("UTF-16LE") is big-endian, with UTF-16BE reading it back overruns. `Charset::Charset(name, alternatives, altCount, decoder)` allocates and copies mAltCount names before mAltCount is set (uninitialised; not modelled).
* Exception: the constructor decodes the names of the calls (which contain the path of the program) as UTF-8. A path with the bytes FF FE makes every `throw Exception` read behind the name (C138_path_not_utf8_refuted). The "\ta" of lines 129 and 195 was meant to be "\tat ": each line of a trace begins with the letter a glued to the name.
* C139: Matrix::eigen orders the eigenvalues of 2x2 matrices upwards, those of a 3x3 matrix in general downwards, and not at all when nothing is above the diagonal. Complex eigenvalues of a 2x2 matrix are reported as NaN without an exception.
* C141: degToRad multiplies by pi before it divides by 180, so angles of 2^1023 degrees and more become infinite although their radians are doubles; about a third of the whole degrees do not come back exactly from radToDeg(degToRad(x)).
* C142: extensionPointOnArc brings the angles into one turn by subtracting or adding 2pi until they fit; for a start angle of 2^57 or more the subtraction changes nothing, and the call never ends (nor for an infinite one).

## Theorems per property and their assumptions

`Print Assumptions` prints "Closed under the global context" for every theorem, unless the table names axioms.

| Property | Theorems (all closed unless noted) |
|---|---|
| C01 Base64 round trip | `C01_roundtrip`, `C01_exact_roundtrip_refuted`, `C01_encode_injective` |
| C02 Base64 encoding conforms and stays in its buffer | `C02_encode_is_rfc4648`, `C02_encode_length` |
| C03 CRC is the reflected CRC-16 and can be computed in chunks | `C03_crc_is_bitwise_crc16`, `C03_crc_chunks` |
| C04 CRC detects every corrupted byte | `C04_single_byte_error_detected`, `C04_two_byte_burst_detected` |
| C05 UTF-8 encode/decode round trip | `C05_utf8_round_trip` |
| C06 UTF-8 decoding stays inside the C string | `C06_utf8_decode_total`, `C06_utf8_decode_safe`, `C06_utf8_decode_overrun` |
| C07 UTF-8 encoder output is the standard encoding, four byte sequences lose their high bits | `C07_utf8_encode_is_rfc3629`, `C07_utf8_decode_loses_high_bits` |
| C08 Single byte charsets round trip | `C08_w1252_round_trip`, `C08_w1252_decode_injective` |
| C09 UTF-16 round trip and truncation | `C09_utf16_encode_big_endian`, `C09_utf16_decode_be`, `C09_utf16_decode_le`, `C09_utf16_round_trip`, `C09_utf16_bom`, `C09_utf16_bom_ascii_lost`, `C09_utf16_own_output_overrun` |
| C10 String operations act on the sequence of characters | `C10_string_history`, `C10_char_at` |
| C11 String storage invariant | `C11_storage_invariant`, `C11_constructors_sound`, `C11_delete_range_past_end_refuted`, `C11_insert_self_refuted` |
| C12 String searching | `C12_indexOf_char`, `C12_lastIndexOf_char`, `C12_lastIndexOf_string`, `C12_indexOf_string`, `C12_indexOf_string_spare`, `C12_indexOf_string_refuted`, `C12_startsWith_endsWith_at`, `C12_at_negative_refuted`, `C12_count` |
| C13 String comparison is a total order | `C13_compareTo`, `C13_compareTo_order`, `C13_equals` |
| C14 Hash codes of equal strings | `C14_hash_is_polynomial`, `C14_equal_strings_equal_hash`, `C14_mutation_resets_hash`, `C14_hash_consistency_refuted` |
| C15 String replacement | `C15_replace`, `C15_replace_terminates`, `C15_replace_empty_pattern_refuted`, `C15_replace_char`, `C15_spec_deterministic` |
| C16 Integer formatting round trip | `C16_valueOf_canonical`, `C16_valueOf_unsigned_canonical`, `C16_roundtrip`, `C16_most_negative_refuted`, `C16_toInt`, `C16_digits`, `C16_canonical_unique` |
| C17 Hexadecimal round trip | `C17_toHex_canonical`, `C17_fromHex`, `C17_roundtrip`, `C17_negative_is_empty` |
| C18 Roman numerals | `C18_roman`, `C18_injective`, `C18_nonpositive_is_empty` |
| C19 Latin alphabet numbering | `C19_latin`, `C19_small`, `C19_letters_only_refuted` |
| C20 Tokenizer | `C20_split`, `C20_split_join`, `C20_iterates_tokens`, `C20_tokens_partition` |
| C21 StringList behaves as a list | `C21_histories`, `C21_get`, `C21_contains`, `C21_join`, `C21_copy`, `C21_new_is_sound`, `C21_append_own_element_refuted`, `C21_remove_own_element_refuted` |
| C22 arg() substitution | `C22_no_marker`, `C22_replaces_best_marker`, `C22_char_replaces_best_marker`, `C22_best_marker_exists`, `C22_percent_without_marker_refuted` |
| C23 URL coding round trip | `C23_encode`, `C23_roundtrip`, `C23_non_ascii_refuted` |
| C24 Hashtable behaves as a finite map | `C24_history`, `C24_any_keys`, `C24_clear_frees`, `C24_load` |
| C25 Hashtable iteration | `C25_iteration`, `C25_walk` |
| C26 Hashtable lookups after hashing a key | `C26_hashed_key_lost`, `C26_null_value` |
| C27 Sorting | `C27_array_sort`, `C27_array_sort_unordered`, `C27_array_sort_any_order`, `C27_pointer_sort`, `C27_pointer_null_refuted`, `C27_float_sort`, `C27_float_nan_refuted`, `C27_bytearray_sort`, `C27_stringlist_sort` |
| C28 Stack is last-in-first-out | `C28_history`, `C28_empty_pop_undefined`, `C28_defined_iff`, `C28_lifo`, `C28_copy_refuted` |
| C29 LinkedList behaves as a sequence | `C29_history`, `C29_iterator`, `C29_swap_refuted` |
| C30 Undo of LinkedList edits | `C30_history`, `C30_undo_redo`, `C30_no_leak_refuted` |
| C31 Undo and redo are inverse | `C31_history_refinement`, `C31_undo_restores_redo_reinstates`, `C31_memory_depends_on_position_only`, `C31_undo_redo_mark_for_regeneration` |
| C32 Undo bookkeeping | `C32_counts`, `C32_counts_are_available_steps`, `C32_registering_clears_redo` |
| C33 Transactions | `C33_rollback_restores`, `C33_commit_is_one_step`, `C33_close_transaction`, `C33_inner_levels_have_no_effect`, `C33_end_without_transaction`, `C33_undo_inside_transaction_refuted` |
| C34 Objects referenced by the undo history stay alive | `C34_history_keeps_objects_alive`, `C34_no_dangling_reference`, `C34_clear_gives_references_back` |
| C35 Calendar round trip | `C35_fields_of_constructed_date`, `C35_timestamp_from_fields`, `C35_constructor_total`, `C35_constructor3` |
| C36 Date fields are in range | `C36_fields_in_range`, `C36_leap_years`, `C36_every_timestamp_refuted` |
| C37 Day of week | `C37_week_day`, `C37_week_day_before_1970_refuted` |
| C38 Date text and ordering | `C38_toString_is_iso`, `C38_text_order_is_time_order`, `C38_comparisons_agree`, `C38_total_order` |
| C39 Floor division | `C39_floor_division`, `C39_excluded_cases` |
| C40 Bit tricks | `C40_powerOf2`, `C40_ceilPowerOf2`, `C40_ceilPowerOf2_zero`, `C40_swap_distinct`, `C40_swap_with_itself_refuted` |
| C41 Diff distance is the edit distance | `C41_distance`, `C41_symmetric`, `C41_zero`, `C41_triangle`, `C41_asymmetric_refuted` |
| C42 Diff script is correct and minimal | `C42_script` |
| C43 Objects reported by the diff | `C43_objects`, `C43_right_side`, `C43_add_refuted`, `C43_modified_refuted` |
| C44 XML text round trip | `C44_text_split`, `C44_text_round_trip`, `C44_all_text`, `C44_apostrophe_refuted` |
| C45 XML writer output is well nested | `C45_document`, `C45_text`, `C45_events_nested`, `C45_prolog_refuted` |
| C46 XML attribute round trip | `C46_parse_back`, `C46_attributes`, `C46_exact_without_apostrophes`, `C46_lookup`, `C46_hand_written` |
| C47 Memory stream reading | `C47_reads`, `C47_all_bytes_once` |
| C48 Memory stream writing and seeking | `C48_history`, `C48_written`, `C48_write_fits`, `C48_write_overrun_refuted`, `C48_negative_seek_refuted`, `C48_seek_to_end_ignored` |
| C49 ByteArray storage | `C49_from_list`, `C49_from_buffer`, `C49_from_cstring`, `C49_from_size`, `C49_copy`, `C49_copy_null_refuted`, `C49_history`, `C49_unchecked`, `C49_resize`, `C49_regrow_refuted`, `C49_resize_null`, `C49_replace_range`, `C49_replace_offset_refuted`, `C49_equal` |
| C50 Checked array access | `C50_history`, `C50_checked`, `C50_pointer_index`, `C50_float_unchecked` |
| C51 Reference counting under threads | `C51_no_error`, `C51_count`, `C51_referenced_is_alive`, `C51_deleted_once`, `C51_deleted_by_last_release`, `C51_unreferenced_is_being_deleted`, `C51_no_leak`, `C51_no_race`, `C51_progress`, `C51_setHighBit_refuted` |
| C52 Autorelease pool | `C52_order`, `C52_drain_is_complete`, `C52_pool_contents`, `C52_autorelease_in_destructor_refuted` |
| C53 Case conversion | `C53_case_conversion`, `C53_characters`, `C53_idempotent`, `C53_equalsIgnoreCase` |
| C54 Date patterns | `C54_format`, `C54_patterns`, `C54_total`, `C54_quote_after_field_refuted`, `C54_odd_patterns_refuted` |
| C55 Base64 decoding of arbitrary bytes stays in memory | `C55_decode_safe`, `C55_decode_any_length_refuted` |
| C56 Random integers stay in their interval | `C56_random_in_range`, `C56_random_whole_range_refuted` |
| C57 Mac Roman and RAW round trip | `C57_mac_round_trip`, `C57_raw_round_trip` |
| C58 Charset guessing | `C58_guess_boms`, `C58_guess_utf8_needs_bom`, `C58_guess_ascii_always` |
| C59 Pieces of a string | `C59_substring`, `C59_trim`, `C59_reverse` |
| C60 Natural order of strings | `C60_compareFancyTo`, `C60_total_preorder`, `C60_not_antisymmetric_refuted` |
| C61 The SAX parser never gets stuck | `C61_parser_total`, `C61_texts_refuted` |
| C62 Integers survive serialisation | `C62_written`, `C62_read`, `C62_round_trip`, `C62_no_room` |
| C63 The Inflater restores the data of a deflate stream | `C63_raw`, `C63_zlib`, `C63_any_distance`, `C63_far_match_refuted` |
| C64 Inflating always comes to an end | `C64_ends` |
| C65 Malformed compressed data: what is rejected and what is not | `C65_header`, `C65_dynamic_distance`, `C65_truncated_refuted`, `C65_stored_length_refuted`, `C65_block_type_refuted`, `C65_before_start_refuted`, `C65_distance_code_refuted`, `C65_no_distance_code_refuted`, `C65_crossing_run_refuted`, `C65_default_constructor_refuted`, `C65_evaluation_order_refuted` |
| C66 ZipOutputFile writes a standard archive of uncompressed files | `C66_archive`, `C66_over_existing`, `C66_existing_refuted`, `C66_same_object_refuted`, `C66_close_entry_first_refuted` |
| C67 ZipFile reads every archive of stored and deflated members | `C67_read`, `C67_lookup`, `C67_comment_refuted`, `C67_empty_with_comment_refuted`, `C67_is_directory_refuted`, `C67_malformed_refuted` |
| C68 What ZipOutputFile writes, ZipFile reads | `C68_round_trip` |
| C69 The archive checksum is CRC-32 and detects local changes | `C69_crc32`, `C69_burst_detected`, `C69_not_checked_refuted` |
| C70 Preferences behave as a finite map and release what they own | `C70_history`, `C70_destroy`, `C70_values_alive`, `C70_set_overrun_refuted` |
| C71 Saved preferences load back | `C71_round_trip`, `C71_identity`, `C71_grows_refuted`, `C71_load_overrun_refuted` |
| C72 A value that was set is read back | `C72_set_then_value`, `C72_int`, `C72_bool` |
| C73 Translations come from the message catalogues | `C73_translate`, `C73_messages`, `C73_line_break_refuted` |
| C74 Which catalogue files are read | `C74_written`, `C74_rejected`, `C74_short_refuted`, `C74_offsets_refuted` |
| C75 The path of a File is the canonical form of the name it was made from | `C75_canonical`, `C75_same_place`, `C75_shortest`, `C75_equal_paths` |
| C76 File(parent, child), name() and parent() | `C76_two_names`, `C76_below_file`, `C76_empty_child`, `C76_name_parent`, `C76_root`, `C76_reassemble`, `C76_relative_refuted`, `C76_separator_child_refuted` |
| C77 extension() and isHidden() | `C77_extension`, `C77_no_dot`, `C77_directory_dot_refuted`, `C77_hidden` |
| C78 readFully() under short reads | `C78_read_fully` |
| C79 Tags of a file behave as an ordered set | `C79_history`, `C79_stored`, `C79_comma_refuted`, `C79_long_refuted` |
| C80 Colour conversions | `C80_to_rgb`, `C80_is_white`, `C80_grey_cmyk_rgb`, `C80_rgb_to_cmyk` (axioms: ClassicalDedekindReals.sig_not_dec, ClassicalDedekindReals.sig_forall_dec, FunctionalExtensionality.functional_extensionality_dep, Classical_Prop.classic), `C80_black_refuted`, `C80_back_refuted`, `C80_greyscale_refuted` |
| C81 hsvModel computes hue, saturation and value | `C81_hsv` (axioms: ClassicalDedekindReals.sig_not_dec, ClassicalDedekindReals.sig_forall_dec, FunctionalExtensionality.functional_extensionality_dep, Classical_Prop.classic), `C81_grey` (axioms: ClassicalDedekindReals.sig_not_dec, ClassicalDedekindReals.sig_forall_dec, FunctionalExtensionality.functional_extensionality_dep, Classical_Prop.classic) |
| C82 blend mixes colours between foreground and background | `C82_opaque`, `C82_over_opaque` (axioms: ClassicalDedekindReals.sig_not_dec, ClassicalDedekindReals.sig_forall_dec, FunctionalExtensionality.functional_extensionality_dep, Classical_Prop.classic), `C82_hides` (axioms: ClassicalDedekindReals.sig_not_dec, ClassicalDedekindReals.sig_forall_dec, FunctionalExtensionality.functional_extensionality_dep, Classical_Prop.classic), `C82_alpha`, `C82_transparent_refuted`, `C82_modes_refuted` |
| C83 interpolate stays between its colours | `C83_interpolate` (axioms: ClassicalDedekindReals.sig_not_dec, ClassicalDedekindReals.sig_forall_dec, FunctionalExtensionality.functional_extensionality_dep, Classical_Prop.classic), `C83_ends` (axioms: ClassicalDedekindReals.sig_not_dec, ClassicalDedekindReals.sig_forall_dec, FunctionalExtensionality.functional_extensionality_dep, Classical_Prop.classic), `C83_beyond_refuted` |
| C84 Comparison and arithmetic of colours | `C84_equal`, `C84_equivalence`, `C84_add_sub`, `C84_add_comm`, `C84_sum_refuted` |
| C85 FromHsv is the inverse of hsvModel up to one per component | `C85_from_hsv` (axioms: ClassicalDedekindReals.sig_not_dec, ClassicalDedekindReals.sig_forall_dec, FunctionalExtensionality.functional_extensionality_dep, Classical_Prop.classic), `C85_round_trip` (axioms: ClassicalDedekindReals.sig_not_dec, ClassicalDedekindReals.sig_forall_dec, FunctionalExtensionality.functional_extensionality_dep, Classical_Prop.classic), `C85_exact_refuted`, `C85_angle_refuted` |
| C86 Thread: no data race, mutual exclusion, no undefined use of pthread by correct clients | `C86_defined`, `C86_polling`, `C86_exclusion`, `C86_relock` |
| C87 isAlive answers false after interrupt, true before | `C87_interrupted`, `C87_true`, `C87_ended_refuted` |
| C88 interrupt waits for the end of the thread | `C88_interrupt_waits` |
| C89 A polling worker ends after interrupt | `C89_ends`, `C89_early_refuted`, `C89_sleep_refuted` |
| C90 wakeUp wakes a sleeping thread | `C90_wakes`, `C90_early_refuted` |
| C91 sleep(millis) ends at now + millis | `C91_deadline`, `C91_long_refuted`, `C91_negative` |
| C92 Comparison with tolerance | `C92_equal` (axioms: ClassicalDedekindReals.sig_not_dec, ClassicalDedekindReals.sig_forall_dec, FunctionalExtensionality.functional_extensionality_dep, Classical_Prop.classic), `C92_symmetric`, `C92_consistent` (axioms: ClassicalDedekindReals.sig_not_dec, ClassicalDedekindReals.sig_forall_dec, FunctionalExtensionality.functional_extensionality_dep, Classical_Prop.classic), `C92_order` (axioms: ClassicalDedekindReals.sig_not_dec, ClassicalDedekindReals.sig_forall_dec, FunctionalExtensionality.functional_extensionality_dep, Classical_Prop.classic), `C92_large_refuted` (axioms: ClassicalDedekindReals.sig_not_dec, ClassicalDedekindReals.sig_forall_dec, FunctionalExtensionality.functional_extensionality_dep, Classical_Prop.classic), `C92_transitive_refuted`, `C92_infinite_refuted` |
| C93 round and roundFrac | `C93_round` (axioms: ClassicalDedekindReals.sig_not_dec, ClassicalDedekindReals.sig_forall_dec, FunctionalExtensionality.functional_extensionality_dep, Classical_Prop.classic), `C93_half_refuted`, `C93_integer_refuted` (axioms: ClassicalDedekindReals.sig_not_dec, ClassicalDedekindReals.sig_forall_dec, FunctionalExtensionality.functional_extensionality_dep, Classical_Prop.classic), `C93_large` (axioms: ClassicalDedekindReals.sig_not_dec, ClassicalDedekindReals.sig_forall_dec, FunctionalExtensionality.functional_extensionality_dep, Classical_Prop.classic), `C93_undefined`, `C93_fraction` (axioms: ClassicalDedekindReals.sig_not_dec, ClassicalDedekindReals.sig_forall_dec, FunctionalExtensionality.functional_extensionality_dep, Classical_Prop.classic), `C93_fraction_refuted` (axioms: ClassicalDedekindReals.sig_not_dec, ClassicalDedekindReals.sig_forall_dec, FunctionalExtensionality.functional_extensionality_dep, Classical_Prop.classic) |
| C94 Linear interpolation | `C94_begin` (axioms: ClassicalDedekindReals.sig_not_dec, ClassicalDedekindReals.sig_forall_dec, FunctionalExtensionality.functional_extensionality_dep, Classical_Prop.classic), `C94_monotone` (axioms: ClassicalDedekindReals.sig_not_dec, ClassicalDedekindReals.sig_forall_dec, FunctionalExtensionality.functional_extensionality_dep, Classical_Prop.classic), `C94_end` (axioms: ClassicalDedekindReals.sig_not_dec, ClassicalDedekindReals.sig_forall_dec, FunctionalExtensionality.functional_extensionality_dep, Classical_Prop.classic), `C94_grid` (axioms: ClassicalDedekindReals.sig_not_dec, ClassicalDedekindReals.sig_forall_dec, FunctionalExtensionality.functional_extensionality_dep, Classical_Prop.classic), `C94_end_refuted`, `C94_overflow_refuted`, `C94_position` (axioms: ClassicalDedekindReals.sig_not_dec, ClassicalDedekindReals.sig_forall_dec, FunctionalExtensionality.functional_extensionality_dep, Classical_Prop.classic), `C94_position_refuted` |
| C95 swap, random, probability and machine epsilon | `C95_swap`, `C95_self_refuted`, `C95_random`, `C95_range_refuted`, `C95_certain`, `C95_never_refuted`, `C95_epsilon` |
| C96 Edges of a rectangle | `C96_edges` (axioms: ClassicalDedekindReals.sig_not_dec, ClassicalDedekindReals.sig_forall_dec, FunctionalExtensionality.functional_extensionality_dep, Classical_Prop.classic), `C96_set` (axioms: ClassicalDedekindReals.sig_not_dec, ClassicalDedekindReals.sig_forall_dec, FunctionalExtensionality.functional_extensionality_dep, Classical_Prop.classic), `C96_shift` (axioms: ClassicalDedekindReals.sig_not_dec, ClassicalDedekindReals.sig_forall_dec, FunctionalExtensionality.functional_extensionality_dep, Classical_Prop.classic), `C96_move` (axioms: ClassicalDedekindReals.sig_not_dec, ClassicalDedekindReals.sig_forall_dec, FunctionalExtensionality.functional_extensionality_dep, Classical_Prop.classic), `C96_align` (axioms: ClassicalDedekindReals.sig_not_dec, ClassicalDedekindReals.sig_forall_dec, FunctionalExtensionality.functional_extensionality_dep, Classical_Prop.classic), `C96_normalize` (axioms: ClassicalDedekindReals.sig_not_dec, ClassicalDedekindReals.sig_forall_dec, FunctionalExtensionality.functional_extensionality_dep, Classical_Prop.classic), `C96_center` (axioms: ClassicalDedekindReals.sig_not_dec, ClassicalDedekindReals.sig_forall_dec, FunctionalExtensionality.functional_extensionality_dep, Classical_Prop.classic), `C96_contains` (axioms: ClassicalDedekindReals.sig_not_dec, ClassicalDedekindReals.sig_forall_dec, FunctionalExtensionality.functional_extensionality_dep, Classical_Prop.classic), `C96_set_refuted` |
| C97 Union and intersection of rectangles | `C97_union` (axioms: ClassicalDedekindReals.sig_not_dec, ClassicalDedekindReals.sig_forall_dec, FunctionalExtensionality.functional_extensionality_dep, Classical_Prop.classic), `C97_union_contains` (axioms: ClassicalDedekindReals.sig_not_dec, ClassicalDedekindReals.sig_forall_dec, FunctionalExtensionality.functional_extensionality_dep, Classical_Prop.classic), `C97_intersect` (axioms: ClassicalDedekindReals.sig_not_dec, ClassicalDedekindReals.sig_forall_dec, FunctionalExtensionality.functional_extensionality_dep, Classical_Prop.classic), `C97_intersection` (axioms: ClassicalDedekindReals.sig_not_dec, ClassicalDedekindReals.sig_forall_dec, FunctionalExtensionality.functional_extensionality_dep, Classical_Prop.classic), `C97_intersects`, `C97_common` (axioms: ClassicalDedekindReals.sig_not_dec, ClassicalDedekindReals.sig_forall_dec, FunctionalExtensionality.functional_extensionality_dep, Classical_Prop.classic), `C97_disjoint_refuted`, `C97_empty_refuted`, `C97_union_refuted` |
| C98 Extents of points | `C98_extents` (axioms: ClassicalDedekindReals.sig_not_dec, ClassicalDedekindReals.sig_forall_dec, FunctionalExtensionality.functional_extensionality_dep, Classical_Prop.classic), `C98_empty`, `C98_merge` (axioms: ClassicalDedekindReals.sig_not_dec, ClassicalDedekindReals.sig_forall_dec, FunctionalExtensionality.functional_extensionality_dep, Classical_Prop.classic), `C98_nan`, `C98_valid_refuted` (axioms: ClassicalDedekindReals.sig_not_dec, ClassicalDedekindReals.sig_forall_dec, FunctionalExtensionality.functional_extensionality_dep, Classical_Prop.classic), `C98_flat_refuted` (axioms: ClassicalDedekindReals.sig_not_dec, ClassicalDedekindReals.sig_forall_dec, FunctionalExtensionality.functional_extensionality_dep, Classical_Prop.classic) |
| C99 Decimal text of doubles | `C99_fixed` (axioms: ClassicalDedekindReals.sig_not_dec, ClassicalDedekindReals.sig_forall_dec, FunctionalExtensionality.functional_extensionality_dep, Classical_Prop.classic), `C99_cut` (axioms: ClassicalDedekindReals.sig_not_dec, ClassicalDedekindReals.sig_forall_dec, FunctionalExtensionality.functional_extensionality_dep, Classical_Prop.classic), `C99_exact` (axioms: ClassicalDedekindReals.sig_not_dec, ClassicalDedekindReals.sig_forall_dec, FunctionalExtensionality.functional_extensionality_dep, Classical_Prop.classic), `C99_integer` (axioms: ClassicalDedekindReals.sig_not_dec, ClassicalDedekindReals.sig_forall_dec, FunctionalExtensionality.functional_extensionality_dep, Classical_Prop.classic), `C99_arg`, `C99_arg_int`, `C99_arg_none` |
| C100 Decimal text: wrong and undefined cases | `C100_precision0_refuted` (axioms: ClassicalDedekindReals.sig_not_dec, ClassicalDedekindReals.sig_forall_dec, FunctionalExtensionality.functional_extensionality_dep, Classical_Prop.classic), `C100_sign_refuted` (axioms: ClassicalDedekindReals.sig_not_dec, ClassicalDedekindReals.sig_forall_dec, FunctionalExtensionality.functional_extensionality_dep, Classical_Prop.classic), `C100_minus_zero_refuted` (axioms: ClassicalDedekindReals.sig_not_dec, ClassicalDedekindReals.sig_forall_dec, FunctionalExtensionality.functional_extensionality_dep, Classical_Prop.classic), `C100_range_refuted` (axioms: ClassicalDedekindReals.sig_forall_dec, FunctionalExtensionality.functional_extensionality_dep), `C100_digits_refuted` (axioms: ClassicalDedekindReals.sig_not_dec, ClassicalDedekindReals.sig_forall_dec, FunctionalExtensionality.functional_extensionality_dep, Classical_Prop.classic), `C100_unsigned_refuted`, `C100_unsigned_ok` |
| C101 Matrix elements | `C101_new`, `C101_set`, `C101_add`, `C101_zeros`, `C101_copy`, `C101_transpose`, `C101_transpose_twice`, `C101_insert`, `C101_diag`, `C101_alias_refuted`, `C101_range_refuted`, `C101_large_refuted` |
| C102 Matrix product | `C102_product`, `C102_mismatch`, `C102_vector`, `C102_exact` (axioms: ClassicalDedekindReals.sig_not_dec, ClassicalDedekindReals.sig_forall_dec, FunctionalExtensionality.functional_extensionality_dep, Classical_Prop.classic), `C102_identity` (axioms: ClassicalDedekindReals.sig_not_dec, ClassicalDedekindReals.sig_forall_dec, FunctionalExtensionality.functional_extensionality_dep, Classical_Prop.classic), `C102_assoc` (axioms: ClassicalDedekindReals.sig_not_dec, ClassicalDedekindReals.sig_forall_dec, FunctionalExtensionality.functional_extensionality_dep, Classical_Prop.classic), `C102_assoc_refuted` |
| C103 Matrix sum and multiples | `C103_square`, `C103_multiples`, `C103_shape_refuted`, `C103_ub_refuted` |
| C104 Determinant | `C104_det` (axioms: ClassicalDedekindReals.sig_not_dec, ClassicalDedekindReals.sig_forall_dec, FunctionalExtensionality.functional_extensionality_dep, Classical_Prop.classic), `C104_none`, `C104_transpose` (axioms: ClassicalDedekindReals.sig_not_dec, ClassicalDedekindReals.sig_forall_dec, FunctionalExtensionality.functional_extensionality_dep, Classical_Prop.classic), `C104_product` (axioms: ClassicalDedekindReals.sig_not_dec, ClassicalDedekindReals.sig_forall_dec, FunctionalExtensionality.functional_extensionality_dep, Classical_Prop.classic) |
| C105 Inverse | `C105_exact` (axioms: ClassicalDedekindReals.sig_not_dec, ClassicalDedekindReals.sig_forall_dec, FunctionalExtensionality.functional_extensionality_dep, Classical_Prop.classic), `C105_near` (axioms: ClassicalDedekindReals.sig_not_dec, ClassicalDedekindReals.sig_forall_dec, FunctionalExtensionality.functional_extensionality_dep, Classical_Prop.classic), `C105_inverse`, `C105_singular_refuted` (axioms: ClassicalDedekindReals.sig_not_dec, ClassicalDedekindReals.sig_forall_dec, FunctionalExtensionality.functional_extensionality_dep, Classical_Prop.classic) |
| C106 Transformations of points | `C106_moving` (axioms: ClassicalDedekindReals.sig_not_dec, ClassicalDedekindReals.sig_forall_dec, FunctionalExtensionality.functional_extensionality_dep, Classical_Prop.classic), `C106_scaling` (axioms: ClassicalDedekindReals.sig_not_dec, ClassicalDedekindReals.sig_forall_dec, FunctionalExtensionality.functional_extensionality_dep, Classical_Prop.classic), `C106_scalingAt` (axioms: ClassicalDedekindReals.sig_not_dec, ClassicalDedekindReals.sig_forall_dec, FunctionalExtensionality.functional_extensionality_dep, Classical_Prop.classic), `C106_mirroring` (axioms: ClassicalDedekindReals.sig_not_dec, ClassicalDedekindReals.sig_forall_dec, FunctionalExtensionality.functional_extensionality_dep, Classical_Prop.classic), `C106_rotationZ` (axioms: ClassicalDedekindReals.sig_not_dec, ClassicalDedekindReals.sig_forall_dec, FunctionalExtensionality.functional_extensionality_dep, Classical_Prop.classic), `C106_rotation` (axioms: ClassicalDedekindReals.sig_not_dec, ClassicalDedekindReals.sig_forall_dec, FunctionalExtensionality.functional_extensionality_dep, Classical_Prop.classic), `C106_identity` (axioms: ClassicalDedekindReals.sig_not_dec, ClassicalDedekindReals.sig_forall_dec, FunctionalExtensionality.functional_extensionality_dep, Classical_Prop.classic), `C106_compose` (axioms: ClassicalDedekindReals.sig_not_dec, ClassicalDedekindReals.sig_forall_dec, FunctionalExtensionality.functional_extensionality_dep, Classical_Prop.classic), `C106_columns`, `C106_rows_refuted` |
| C107 Norms, trace and non-zero count | `C107_norm1` (axioms: ClassicalDedekindReals.sig_not_dec, ClassicalDedekindReals.sig_forall_dec, FunctionalExtensionality.functional_extensionality_dep, Classical_Prop.classic), `C107_normInf` (axioms: ClassicalDedekindReals.sig_not_dec, ClassicalDedekindReals.sig_forall_dec, FunctionalExtensionality.functional_extensionality_dep, Classical_Prop.classic), `C107_transpose` (axioms: ClassicalDedekindReals.sig_not_dec, ClassicalDedekindReals.sig_forall_dec, FunctionalExtensionality.functional_extensionality_dep, Classical_Prop.classic), `C107_trace`, `C107_trace_exact` (axioms: ClassicalDedekindReals.sig_not_dec, ClassicalDedekindReals.sig_forall_dec, FunctionalExtensionality.functional_extensionality_dep, Classical_Prop.classic), `C107_count` |
| C108 Vectors | `C108_dot`, `C108_dot_refuted`, `C108_dot_exact` (axioms: ClassicalDedekindReals.sig_not_dec, ClassicalDedekindReals.sig_forall_dec, FunctionalExtensionality.functional_extensionality_dep, Classical_Prop.classic), `C108_sum`, `C108_mismatch`, `C108_scale`, `C108_length_exact` (axioms: ClassicalDedekindReals.sig_not_dec, ClassicalDedekindReals.sig_forall_dec, FunctionalExtensionality.functional_extensionality_dep, Classical_Prop.classic), `C108_length` (axioms: ClassicalDedekindReals.sig_not_dec, ClassicalDedekindReals.sig_forall_dec, FunctionalExtensionality.functional_extensionality_dep, Classical_Prop.classic), `C108_normalize` (axioms: ClassicalDedekindReals.sig_not_dec, ClassicalDedekindReals.sig_forall_dec, FunctionalExtensionality.functional_extensionality_dep, Classical_Prop.classic), `C108_zero_refuted` |
| C109 Vectors: products, lengths, sides and directions | `C109_products2` (axioms: ClassicalDedekindReals.sig_not_dec, ClassicalDedekindReals.sig_forall_dec, FunctionalExtensionality.functional_extensionality_dep, Classical_Prop.classic), `C109_side` (axioms: ClassicalDedekindReals.sig_not_dec, ClassicalDedekindReals.sig_forall_dec, FunctionalExtensionality.functional_extensionality_dep, Classical_Prop.classic), `C109_collinear2` (axioms: ClassicalDedekindReals.sig_not_dec, ClassicalDedekindReals.sig_forall_dec, FunctionalExtensionality.functional_extensionality_dep, Classical_Prop.classic), `C109_collinear_refuted` (axioms: ClassicalDedekindReals.sig_not_dec, ClassicalDedekindReals.sig_forall_dec, FunctionalExtensionality.functional_extensionality_dep, Classical_Prop.classic), `C109_products3` (axioms: ClassicalDedekindReals.sig_not_dec, ClassicalDedekindReals.sig_forall_dec, FunctionalExtensionality.functional_extensionality_dep, Classical_Prop.classic), `C109_perpendicular` (axioms: ClassicalDedekindReals.sig_not_dec, ClassicalDedekindReals.sig_forall_dec, FunctionalExtensionality.functional_extensionality_dep, Classical_Prop.classic), `C109_collinear3` (axioms: ClassicalDedekindReals.sig_not_dec, ClassicalDedekindReals.sig_forall_dec, FunctionalExtensionality.functional_extensionality_dep, Classical_Prop.classic), `C109_length_exact` (axioms: ClassicalDedekindReals.sig_not_dec, ClassicalDedekindReals.sig_forall_dec, FunctionalExtensionality.functional_extensionality_dep, Classical_Prop.classic), `C109_length3_exact` (axioms: ClassicalDedekindReals.sig_not_dec, ClassicalDedekindReals.sig_forall_dec, FunctionalExtensionality.functional_extensionality_dep, Classical_Prop.classic), `C109_length` (axioms: ClassicalDedekindReals.sig_not_dec, ClassicalDedekindReals.sig_forall_dec, FunctionalExtensionality.functional_extensionality_dep, Classical_Prop.classic), `C109_length3` (axioms: ClassicalDedekindReals.sig_not_dec, ClassicalDedekindReals.sig_forall_dec, FunctionalExtensionality.functional_extensionality_dep, Classical_Prop.classic), `C109_normalized` (axioms: ClassicalDedekindReals.sig_not_dec, ClassicalDedekindReals.sig_forall_dec, FunctionalExtensionality.functional_extensionality_dep, Classical_Prop.classic), `C109_normalized3` (axioms: ClassicalDedekindReals.sig_not_dec, ClassicalDedekindReals.sig_forall_dec, FunctionalExtensionality.functional_extensionality_dep, Classical_Prop.classic), `C109_normalized_refuted` (axioms: ClassicalDedekindReals.sig_not_dec, ClassicalDedekindReals.sig_forall_dec, FunctionalExtensionality.functional_extensionality_dep, Classical_Prop.classic), `C109_equal`, `C109_equal3`, `C109_equal_near` (axioms: ClassicalDedekindReals.sig_not_dec, ClassicalDedekindReals.sig_forall_dec, FunctionalExtensionality.functional_extensionality_dep, Classical_Prop.classic), `C109_biggest` (axioms: ClassicalDedekindReals.sig_not_dec, ClassicalDedekindReals.sig_forall_dec, FunctionalExtensionality.functional_extensionality_dep, Classical_Prop.classic), `C109_biggest_refuted` (axioms: ClassicalDedekindReals.sig_not_dec, ClassicalDedekindReals.sig_forall_dec, FunctionalExtensionality.functional_extensionality_dep, Classical_Prop.classic), `C109_independent` (axioms: ClassicalDedekindReals.sig_not_dec, ClassicalDedekindReals.sig_forall_dec, FunctionalExtensionality.functional_extensionality_dep, Classical_Prop.classic) |
| C110 Linear systems and crossing lines in the plane | `C110_solve` (axioms: ClassicalDedekindReals.sig_not_dec, ClassicalDedekindReals.sig_forall_dec, FunctionalExtensionality.functional_extensionality_dep, Classical_Prop.classic), `C110_lines` (axioms: ClassicalDedekindReals.sig_not_dec, ClassicalDedekindReals.sig_forall_dec, FunctionalExtensionality.functional_extensionality_dep, Classical_Prop.classic) |
| C111 Crossing segments | `C111_crosses` (axioms: ClassicalDedekindReals.sig_not_dec, ClassicalDedekindReals.sig_forall_dec, FunctionalExtensionality.functional_extensionality_dep, Classical_Prop.classic), `C111_overlap_refuted` (axioms: ClassicalDedekindReals.sig_not_dec, ClassicalDedekindReals.sig_forall_dec, FunctionalExtensionality.functional_extensionality_dep, Classical_Prop.classic), `C111_small_refuted` (axioms: ClassicalDedekindReals.sig_not_dec, ClassicalDedekindReals.sig_forall_dec, FunctionalExtensionality.functional_extensionality_dep, Classical_Prop.classic), `C111_large_refuted` |
| C112 Lines, planes and points on them | `C112_plane` (axioms: ClassicalDedekindReals.sig_not_dec, ClassicalDedekindReals.sig_forall_dec, FunctionalExtensionality.functional_extensionality_dep, Classical_Prop.classic), `C112_closest` (axioms: ClassicalDedekindReals.sig_not_dec, ClassicalDedekindReals.sig_forall_dec, FunctionalExtensionality.functional_extensionality_dep, Classical_Prop.classic), `C112_on_line` (axioms: ClassicalDedekindReals.sig_not_dec, ClassicalDedekindReals.sig_forall_dec, FunctionalExtensionality.functional_extensionality_dep, Classical_Prop.classic), `C112_on_segment` (axioms: ClassicalDedekindReals.sig_not_dec, ClassicalDedekindReals.sig_forall_dec, FunctionalExtensionality.functional_extensionality_dep, Classical_Prop.classic), `C112_same` (axioms: ClassicalDedekindReals.sig_not_dec, ClassicalDedekindReals.sig_forall_dec, FunctionalExtensionality.functional_extensionality_dep, Classical_Prop.classic), `C112_on_plane_refuted` (axioms: ClassicalDedekindReals.sig_not_dec, ClassicalDedekindReals.sig_forall_dec, FunctionalExtensionality.functional_extensionality_dep, Classical_Prop.classic) |
| C113 The circle through three points | `C113_circle` (axioms: ClassicalDedekindReals.sig_not_dec, ClassicalDedekindReals.sig_forall_dec, FunctionalExtensionality.functional_extensionality_dep, Classical_Prop.classic), `C113_collinear_refuted` (axioms: ClassicalDedekindReals.sig_not_dec, ClassicalDedekindReals.sig_forall_dec, FunctionalExtensionality.functional_extensionality_dep, Classical_Prop.classic) |
| C114 Angles of arcs and extension to an ellipse | `C114_angle` (axioms: ClassicalDedekindReals.sig_not_dec, ClassicalDedekindReals.sig_forall_dec, FunctionalExtensionality.functional_extensionality_dep, Classical_Prop.classic), `C114_negative_refuted`, `C114_huge_refuted`, `C114_ellipse_refuted`, `C114_axis_refuted` |
| C115 A NURBS curve answers its point | `C115_curve` (axioms: ClassicalDedekindReals.sig_not_dec, ClassicalDedekindReals.sig_forall_dec, FunctionalExtensionality.functional_extensionality_dep, Classical_Prop.classic), `C115_hull` (axioms: ClassicalDedekindReals.sig_not_dec, ClassicalDedekindReals.sig_forall_dec, FunctionalExtensionality.functional_extensionality_dep, Classical_Prop.classic), `C115_local` (axioms: ClassicalDedekindReals.sig_not_dec, ClassicalDedekindReals.sig_forall_dec, FunctionalExtensionality.functional_extensionality_dep, Classical_Prop.classic), `C115_start` (axioms: ClassicalDedekindReals.sig_not_dec, ClassicalDedekindReals.sig_forall_dec, FunctionalExtensionality.functional_extensionality_dep, Classical_Prop.classic) |
| C116 NURBS: sizes of the arrays and ends of the curve | `C116_constructor`, `C116_safe`, `C116_sizes_refuted`, `C116_outside` (axioms: ClassicalDedekindReals.sig_not_dec, ClassicalDedekindReals.sig_forall_dec, FunctionalExtensionality.functional_extensionality_dep, Classical_Prop.classic), `C116_end_refuted` (axioms: ClassicalDedekindReals.sig_not_dec, ClassicalDedekindReals.sig_forall_dec, FunctionalExtensionality.functional_extensionality_dep, Classical_Prop.classic) |
| C117 A property keeps the value that was set | `C117_integer`, `C117_double`, `C117_unit`, `C117_bool`, `C117_text`, `C117_separate`, `C117_type`, `C117_about`, `C117_copy`, `C117_pun_refuted`, `C117_byte_refuted` |
| C118 Equal properties | `C118_value_equals`, `C118_value_equivalence`, `C118_bits_refuted`, `C118_place`, `C118_text`, `C118_number`, `C118_bool`, `C118_unit` (axioms: ClassicalDedekindReals.sig_not_dec, ClassicalDedekindReals.sig_forall_dec, FunctionalExtensionality.functional_extensionality_dep, Classical_Prop.classic), `C118_equivalence`, `C118_editor_refuted`, `C118_infinite_refuted`, `C118_symmetric_refuted`, `C118_transitive_refuted`, `C118_bool_refuted` |
| C119 A Variant gives back its value | `C119_number`, `C119_string`, `C119_copy`, `C119_int32`, `C119_stale_refuted`, `C119_string_refuted` |
| C120 What the Deflater delivers | `C120_complete`, `C120_truncated_refuted`, `C120_totals`, `C120_long_refuted`, `C120_input_refuted`, `C120_reset`, `C120_lossy_refuted` |
| C121 setMember sets the member and tells the undo manager | `C121_exact`, `C121_range`, `C121_range_refuted`, `C121_double` (axioms: ClassicalDedekindReals.sig_not_dec, ClassicalDedekindReals.sig_forall_dec, FunctionalExtensionality.functional_extensionality_dep, Classical_Prop.classic), `C121_nan`, `C121_never_nan`, `C121_vertex` (axioms: ClassicalDedekindReals.sig_not_dec, ClassicalDedekindReals.sig_forall_dec, FunctionalExtensionality.functional_extensionality_dep, Classical_Prop.classic), `C121_small_refuted` (axioms: ClassicalDedekindReals.sig_not_dec, ClassicalDedekindReals.sig_forall_dec, FunctionalExtensionality.functional_extensionality_dep, Classical_Prop.classic), `C121_vertex_nan_refuted` |
| C122 SAX attributes | `C122_index`, `C122_name`, `C122_assign`, `C122_int`, `C122_missing`, `C122_bool`, `C122_copy_refuted` |
| C123 Object and world coordinates (arbitrary axis algorithm) | `C123_frame` (axioms: ClassicalDedekindReals.sig_not_dec, ClassicalDedekindReals.sig_forall_dec, FunctionalExtensionality.functional_extensionality_dep, Classical_Prop.classic), `C123_coordinates` (axioms: ClassicalDedekindReals.sig_not_dec, ClassicalDedekindReals.sig_forall_dec, FunctionalExtensionality.functional_extensionality_dep, Classical_Prop.classic), `C123_roundtrip` (axioms: ClassicalDedekindReals.sig_not_dec, ClassicalDedekindReals.sig_forall_dec, FunctionalExtensionality.functional_extensionality_dep, Classical_Prop.classic), `C123_world` (axioms: ClassicalDedekindReals.sig_not_dec, ClassicalDedekindReals.sig_forall_dec, FunctionalExtensionality.functional_extensionality_dep, Classical_Prop.classic), `C123_below` (axioms: ClassicalDedekindReals.sig_not_dec, ClassicalDedekindReals.sig_forall_dec, FunctionalExtensionality.functional_extensionality_dep, Classical_Prop.classic), `C123_length_refuted` (axioms: ClassicalDedekindReals.sig_not_dec, ClassicalDedekindReals.sig_forall_dec, FunctionalExtensionality.functional_extensionality_dep, Classical_Prop.classic), `C123_null_refuted` |
| C124 The log of System under threads | `C124_whole_calls`, `C124_defined`, `C124_progress`, `C124_race_free`, `C124_last_error_race_refuted`, `C124_before_init_refuted`, `C124_exception_before_init_refuted` |
| C125 What a vector of unit tests reports | `C125_execute` (axioms: ClassicalDedekindReals.sig_not_dec, ClassicalDedekindReals.sig_forall_dec, FunctionalExtensionality.functional_extensionality_dep, Classical_Prop.classic), `C125_success` (axioms: ClassicalDedekindReals.sig_not_dec, ClassicalDedekindReals.sig_forall_dec, FunctionalExtensionality.functional_extensionality_dep, Classical_Prop.classic), `C125_no_such_test_refuted` (axioms: ClassicalDedekindReals.sig_not_dec, ClassicalDedekindReals.sig_forall_dec, FunctionalExtensionality.functional_extensionality_dep, Classical_Prop.classic), `C125_negative_refuted`, `C125_infinite_refuted`, `C125_foreign_exception_refuted` (axioms: ClassicalDedekindReals.sig_not_dec, ClassicalDedekindReals.sig_forall_dec, FunctionalExtensionality.functional_extensionality_dep, Classical_Prop.classic) |
| C126 Resources and the streams they share | `C126_alive`, `C126_safe`, `C126_deleted_with_last_reference`, `C126_assignment_leaks_refuted`, `C126_search_leaks_refuted`, `C126_not_found_refuted` |
| C127 Documents: the changed flag, the undo manager, and their lifetimes | `C127_same_history`, `C127_unchanged_is_saved`, `C127_open_step_refuted`, `C127_switch_off`, `C127_open_transaction_leaks_refuted`, `C127_manager_lifetime`, `C127_kept_manager_refuted`, `C127_detached_manager_refuted`, `C127_unmanaged_edits` |
| C128 Files and directories: making, creating, removing, renaming, listing, asking | `C128_make_directory`, `C128_remove`, `C128_rename`, `C128_create`, `C128_create_keeps_refuted`, `C128_kinds`, `C128_kinds_refuted`, `C128_exists`, `C128_exists_link_refuted`, `C128_list`, `C128_list_race_refuted`, `C128_modified_within_second`, `C128_modified_refuted`, `C128_compare`, `C128_wellformed`, `C128_open_directory_refuted` |
| C129 Reading and writing files at positions, and the life of the handle | `C129_open`, `C129_open_missing`, `C129_open_no_directory`, `C129_step`, `C129_history`, `C129_one_way_defined`, `C129_seek_first_defined`, `C129_switch_refuted`, `C129_close`, `C129_round_trip`, `C129_unopened_refuted`, `C129_copies_refuted`, `C129_close_error_refuted`, `C129_leak_refuted` |
| C130 Classes and cases of characters | `C130_classes`, `C130_digits`, `C130_case`, `C130_case_refuted`, `C130_unicode_refuted` |
| C131 Points and sizes | `C131_min_max` (axioms: ClassicalDedekindReals.sig_not_dec, ClassicalDedekindReals.sig_forall_dec, FunctionalExtensionality.functional_extensionality_dep, Classical_Prop.classic), `C131_nan_refuted`, `C131_grid` (axioms: ClassicalDedekindReals.sig_not_dec, ClassicalDedekindReals.sig_forall_dec, FunctionalExtensionality.functional_extensionality_dep, Classical_Prop.classic), `C131_times` (axioms: ClassicalDedekindReals.sig_not_dec, ClassicalDedekindReals.sig_forall_dec, FunctionalExtensionality.functional_extensionality_dep, Classical_Prop.classic), `C131_absorbed_refuted`, `C131_size_equal` (axioms: ClassicalDedekindReals.sig_not_dec, ClassicalDedekindReals.sig_forall_dec, FunctionalExtensionality.functional_extensionality_dep, Classical_Prop.classic), `C131_size_consistent` (axioms: ClassicalDedekindReals.sig_not_dec, ClassicalDedekindReals.sig_forall_dec, FunctionalExtensionality.functional_extensionality_dep, Classical_Prop.classic), `C131_size_equal_refuted` |
| C132 The printed report of a difference | `C132_signed`, `C132_int32`, `C132_overflow_refuted`, `C132_unsigned`, `C132_unsigned_delta_refuted`, `C132_readable`, `C132_text`, `C132_text_silent`, `C132_text_refuted`, `C132_double` (axioms: ClassicalDedekindReals.sig_not_dec, ClassicalDedekindReals.sig_forall_dec, FunctionalExtensionality.functional_extensionality_dep, Classical_Prop.classic), `C132_double_tolerance` (axioms: ClassicalDedekindReals.sig_not_dec, ClassicalDedekindReals.sig_forall_dec, FunctionalExtensionality.functional_extensionality_dep, Classical_Prop.classic), `C132_vertices` (axioms: ClassicalDedekindReals.sig_not_dec, ClassicalDedekindReals.sig_forall_dec, FunctionalExtensionality.functional_extensionality_dep, Classical_Prop.classic), `C132_report`, `C132_lines`, `C132_entry`, `C132_added_refuted` |
| C133 Settings across the sessions of a program | `C133_sessions`, `C133_next_session`, `C133_init_twice_refuted`, `C133_after_quit_refuted`, `C133_torn_save`, `C133_torn_save_refuted`, `C133_crash_after_open_refuted` |
| C134 Objects and the life of the autorelease pool | `C134_alive_while_referenced`, `C134_quit_frees_everything`, `C134_early_object_refuted`, `C134_late_release_refuted`, `C134_deleted_entry_refuted` |
| C135 An Inflater reports its progress and can be used again after Reset | `C135_progress`, `C135_totals`, `C135_reset`, `C135_chain`, `C135_reuse_refuted`, `C135_reuse_bit_refuted`, `C135_freed_buffer`, `C135_freed_buffer_reset`, `C135_freed_buffer_refuted`, `C135_last_byte_refuted`, `C135_uninitialised_refuted` |
| C136 The language of the program and the search for its translations | `C136_search`, `C136_language`, `C136_user_language`, `C136_minus`, `C136_no_bundle`, `C136_mixed_locales_refuted`, `C136_bundle_refuted`, `C136_modifier_refuted` |
| C137 Character sets by name | `C137_for_name`, `C137_guess_known`, `C137_round_trip`, `C137_guess_reads`, `C137_guess_utf16`, `C137_spelling_refuted`, `C137_after_quit_refuted`, `C137_raw_high_refuted`, `C137_utf16be_refuted`, `C137_utf16le_refuted`, `C137_guess_utf8_refuted` |
| C138 Stack trace of an exception | `C138_trace`, `C138_print`, `C138_depth`, `C138_ascii`, `C138_path_not_utf8_refuted` |
| C139 Eigenvalues of small matrices | `C139_two`, `C139_complex_refuted`, `C139_diagonal`, `C139_one`, `C139_throws`, `C139_total`, `C139_three` |
| C140 Transformation matrix of an extrusion direction | `C140_trans`, `C140_roundtrip`, `C140_places` |
| C141 Degrees and radians | `C141_degToRad`, `C141_radToDeg`, `C141_roundtrip`, `C141_order`, `C141_marks`, `C141_refuted` |
| C142 Where a ray meets an arc | `C142_check`, `C142_miss`, `C142_hit`, `C142_hang_refuted` |
