## What is modelled, per unit

| Unit | Source | Modelled | Not modelled | Properties | Proof idea |
|------|--------|----------|--------------|-----------|------------|
| Base64 | Base64.cpp | both directions, allocated sizes, every index | – | C01, C02, C55 | list induction in steps of 3/4, finite sweeps |
| Crc | CRC.cpp | table, update | – | C03, C04 | table = 8 bit steps; injective step |
| Math | Math.cpp, Math.h | floorDiv/floorMod, reverse/bit counting, random over an arbitrary `rand` | trigonometry, double helpers | C39, C40, C56 | arithmetic, bit lemmas |
| Date | Date.cpp | fields, day numbers, constructor, ISO text, comparison, 64 bit overflow | operating system clock, time zones of the OS | C35–C38 | proleptic Gregorian calendar as spec |
| DateFormat | DateFormatter.cpp | pattern parser, all fields, names | translation table (a parameter) | C54 | induction over the pattern |
| Utf8, Charset | UTF8Decoder, UTF16Decoder, Windows1252Decoder, MacRomanDecoder, CharsetDecoder, Charset.cpp | encode, decode, guess; reads behind the C string terminator are UB | user-made sets (the third constructor reads mAltCount before it is set) | C05–C09, C57, C58 | induction over characters, finite sweeps |
| String, Integer, Arg | String.cpp, Integer.cpp, Character.cpp | storage with capacity and cached hash, all editing, searching, comparing, number formatting/parsing, `arg`, URL coding | `double` formatting/parsing, iostream operators | C10–C19, C22, C23, C53, C59, C60 | refinement to `list Z`; strong induction on numbers |
| Tokenizer, StringList, Sort | StringTokenizer.cpp, StringList.cpp | all | – | C20, C21, C27 | induction, bubble sort invariant |
| Stack, ByteArray, Array, Hashtable, LinkedList, MemoryStream | Stack.h, ByteArray.cpp, Array.h, Hashtable.cpp, LinkedList.cpp, MemoryStream.cpp | heap of nodes/blocks, allocation, deletion, dangling pointers, indeterminate bytes | out of memory | C24–C30, C47–C50 | heap shape invariants, refinement over all histories |
| Undo | UndoManager.cpp, UndoStep.cpp, UndoChange.cpp, EditableObject.cpp | journal, steps, transactions, reference counts of the journal | per-type copies of the same change class; UndoChangeBuffer | C31–C34 | invariant over histories |
| Diff | DiffDiag, DiffDistance, DiffBacktrace.cpp | lazily extended diagonals, backtrace | – | C41–C43 | Levenshtein recursion as spec |
| Xml | XMLWriter.cpp, SAXParser.cpp, SAXAttributes.cpp | writer automaton, parser | file access | C44–C46, C61 | document tree as spec, parser run over the written text |
| RefCount | Object.cpp, AutoreleasePool.cpp, Mutex.cpp | every statement of retain/release/autorelease/drain/setHighBit of any number of threads, any clients | weak memory | C51, C52 | invariant of all interleavings |
| Serializer | Serializer.cpp | every fixed-size serialize/deserialize function on a byte buffer with offset | hex/string helpers not listed in M_Serializer | C62 | little/big endian value as spec |
| Inflate | Inflater.cpp | bit reader, stored/fixed/dynamic blocks, code construction and tree, output buffer growth (as a parameter), zlib header | leaks, allocation failure | C63–C65 | RFC 1951 stream grammar as encoder spec (S_Inflate), simulation of the decoder over the encoded bits; bit position as measure for termination |
| Zip | ZipOutputFile.cpp, ZipFile.cpp | headers, data, directory, search of the end record, entries, streams (with the Inflater), CRC-32; files as bytes with a position | buffering, failing I/O, the name of the temporary file, reference counts | C66–C69 | records of the ZIP format as spec (S_Zip), file image as invariant of the writer, placement of records for the reader; CRC-32 by linearity over GF(2) |
| Preferences | Preferences.cpp | the table of value pointers on a heap, the file text in both directions, numbers and truth values, destructor | file system (the file is its bytes), double values | C70–C72 | refinement to a finite map over the Hashtable refinement (C24–C26); line grammar of the file as spec (S_Preferences) |
| I18nBundle | I18nBundle.cpp | appendMo, translate, String(const char*, int64) | which file is looked for (transFileByBundleId, initDefault) | C73, C74 | .mo format as placement of words and strings (S_I18n), over the Preferences refinement |
| File | File.cpp (Linux) | path names (normalize, resolve, constructors, name, parent, extension, isHidden), readFully, tags, String::split | everything that asks the file system (a File is its path, a content is its bytes, fread answers by an arbitrary schedule of short reads), C string of the path | C75–C79, C20 | sequences of components as spec (S_File); induction over the schedule; refinement of tag histories to a list of texts |
| Color | Color.cpp, Color.h | all functions; float arithmetic by SpecFloat (binary32, round to nearest even), conversions of floats to integers with their undefined cases | copying, setters; FLT_EVAL_METHOD 0 and no contraction to fused operations are assumed | C80–C85 | exact rational formulas as spec (S_Color); bridge from SpecFloat to Flocq's rounding of real numbers (L_Float, L_Float2), error analysis over the reals of the standard library, whose axioms appear in the table |
| Thread | Thread.cpp, Mutex.cpp (pthread branch) | start, StartThread, interrupt, isAlive, sleep, sleep(millis) with its time arithmetic, wakeUp, lock, unlock as an interleaving machine of arbitrarily many threads with arbitrary programs; one step per pthread operation or access to the flag; spurious wake-ups; data races, unlock by a stranger, double start and wrong joins are undefined | Windows branch, destructor, attributes, errors of pthread_create, memory order of `thread` (written by pthread_create); sequentially consistent interleaving, justified by C86 (no data race on the flag) | C86–C91 | inductive invariants over steps, traces of calls and returns as spec (S_Thread), measure that decreases with every step once the flag is down, closed sets of states for the refutations |
| MathF | Math.cpp (functions on doubles, swap, random) | comparisons, sign, round, roundFrac, interpolate, swap with aliasing, random and probability for an arbitrary answer of rand(), machine epsilon; doubles by SpecFloat (binary64) | degToRad, radToDeg (unit Angle), float versions of roundFrac and interpolate; std::pow(10,d) answers the double of 10^d (a hypothesis of the theorems) | C92–C95 | values of doubles as rational numbers (S_Double); bridge to Flocq's rounding of real numbers (L_Double) |
| Rect | Rect.cpp, Rect.h, Extents.cpp | edges, setters of edges, shift, move, align, center, normalize, unionWith, intersect, intersection, intersects, contains, isEmpty; Extents: add, isValid, delta | copying, corner functions; a rectangle passed to its own functions | C96–C98 | rectangles of a binary grid as integers (S_Rect) so that double arithmetic is exact; order of doubles for extents; witnesses for coordinates without a grid |
| Decimal | String.cpp (valueOf(double, precision, trunc), arg(double), arg(int64), arg(uint64)) | all of it; fmod(x,1), conversions to int64 with their undefined cases; doubles by SpecFloat | valueOf(double) and toDouble (iostreams); std::pow(10,p) answers the double of 10^p (a hypothesis of the theorems) | C99, C100 | digits of N as spec (S_Decimal, S_Integer); bridge to Flocq's rounding (L_Double, L_Decimal); C22 for the markers |
| Matrix | Matrix.cpp, Vector.cpp | constructors, copies, element access, det, inverse, transpose, insert, diag, norms, trace, count, all operators, initIdentity/Moving/Scaling/Mirroring/Rotation(Z), trans; Vector: dotProduct, abs, normalize, operators | print, ref, eigen (unit Eigen), initWcs (unit Wcs), transAngle, rotation from one vector to another, constructors from vertices, the array leaked by init(), negative sizes; cos and sin are parameters of the rotations | C101–C108 | integer matrices times 2^k (S_Matrix: zsum, zdet, zadj); reflection of polynomial expressions over doubles (L_Matrix2, L_Grid) so that arithmetic is exact; relative errors by Flocq |
| Geometry | Vertex2.cpp, Vertex3.cpp, Geometry.cpp | products, lengths, normalisation, comparisons, linear systems; line and plane, closest points, distances, decisions (on line, on segment, on plane, same point), crossing lines and segments, circles, circle through three points, arcs and ellipses | angleTo, rotations of Vertex3, streams, circleParameterBy2TangentsRadius, closestPointOnCircle; atan2, cos and sin are parameters; extensionPointOnLine/OnArc, closest points of two lines and circles are modelled without theorems | C109–C114 | points of a binary grid (S_Geometry); exact integer arithmetic where it fits into 53 bits, error bounds by Flocq elsewhere (L_Geometry…4) |
| Nurbs | NURBS.cpp | constructors, basis functions, weights, point, start, end, counts, knot; indices uint32, reads outside the arrays are UB | the implicit copy constructor (double delete) | C115, C116 | Cox–de Boor recursion over Q as spec (S_Nurbs); partition of unity and support over R (L_Nurbs); relative-error calculus for positive numbers (L_Nurbs2), induction over the degree (L_Nurbs3), sums over control points (L_Nurbs4); exact local control and start |
| Property | Property.cpp, struct Variant of Property.h | constructors, all getters and setters, setValue, isValueEquals, operator==; Variant: constructors, copy, assignment, conversions | the log entry of operator==; NaNs have one bit pattern; union members read through each other are reinterpreted bytes (little endian), a bool byte other than 0 and 1 is UB, the number of a Variant from a string is indeterminate (UB when read) | C117–C119 | histories of calls (S_Property: `calls`, `made`); bit layout of binary64 inverted on all doubles |
| Deflater | Deflater.cpp | all functions; zlib's compressor is a parameter (every function from byte strings to byte strings), with the documented behaviour of deflate(Z_FINISH) when the room ends | zlib itself, allocation failure | C120 | direct; the loss by the pigeonhole principle over all strings of a length |
| EditableObject | EditableObject.cpp (setMember; with the undo manager in full: M_Undo) | status, member and messages to the undo manager of all setMember overloads | open/closeTransaction are in M_Undo; document() and the regeneration flag | C121 | case analysis, induction over histories, tolerance of isEqual (C92) |
| SAXAttributes | SAXAttributes.cpp (look-up by name: M_Xml) | addAttribute, index access, assignment, copy constructor, valueAsInt, valueAsBool | valueAsFloat/valueAsDouble (iostreams), type, uri (constants) | C122 | induction over the history; C16, C46, C53 |
| Transform | Transform.cpp | all four functions, with the 3x3 inverse of Matrix.cpp and normalize of Vertex3.cpp | nothing | C123 | absolute error calculus over Flocq around an exact orthonormal frame; the axis directions by computation |
| Log | System.cpp 95-186, Exception.cpp 14-17 | log, logEnableDate, logEnableLabel, lastErrorMessage, each operation on the mutex, a variable or std::cout one step of an arbitrary schedule | encoding of the console, the stack trace, syslog (macOS), Windows | C124 | invariant: the rest of the critical section, run alone, gives the effect of the whole call |
| Test | Test.cpp, TestVector.cpp | all check methods, the four counters, testrun, execute with its argument; a test is the sequence of its checks and its end | the printed text beyond the numbers, the duration, overflow of the counters (2^63 checks), arguments of 19 and more characters | C125 | induction over the checks and the vector; C13, C16, C53, C92 |
| Resource | Resource.cpp, I18nBundle.cpp 158-204 | Resource.cpp: constructors, copy, assignment, destructor, the delegating calls as dereferences; transFileByBundleId as a program of these | what reading the stream does (M_Stream, M_File); AAsset | C126 | invariant: counter = number of referring objects + number of forgotten references |
| Document | Document.cpp | constructor, destructor, setUndoManager, closeUndoStep, the flags, on top of M_Undo; a second small model of the lifetimes of managers and document | setFile/file (the File itself is in M_File), virtual load/save | C127 | the simulation of C31 extended by an invariant on the flag; counting invariant |
| Fs | File.cpp 75-106, 159-178, 247-341, 369-447, 450-487, 537-546, 582-716 (Linux) | the calls of File that ask the operating system, on a model of a POSIX file system: table of names, contents, handles, fopen modes, fseek/fread/fwrite/fclose | other processes, access rights, full disks, I/O errors except in fclose, hard links, links in the middle of a path, stdio buffers, pipes as streams, errno changed by the logging in between; tags, trash, owner | C128, C129 | the table with an invariant (every entry is in a directory, inodes not shared); induction over operation sequences against a byte-array machine |
| Char | Character.cpp | the classes of characters (case functions and digits: M_String) | comparison operators | C130 | ranges and linear arithmetic |
| Point | Point.cpp, Size.cpp | cWiseMin/Max, sums, differences, multiples, comparison of sizes | accessors | C131 | grids (L_Double), the tolerance of C92 |
| DiffInfo | DiffInfo.cpp 46-230, 500-554, DiffBacktrace.cpp 57-68 | the bytes written to std::cout for integers, texts, doubles, vertices, objects and whole traces | the rendering of doubles and printDiffInfo of the objects are parameters; the commented-out code | C132 | decimal digits (S_Integer), splitting at blanks, induction over the trace of C42 |
| System | System.cpp 441-492, Preferences.cpp 54-158 | init, quit, preferences, savePreferences, the settings files of all bundles on a disk and the life of the character sets; ends of the process between calls and while a file is written | translations, the autorelease pool (PoolLife), failing file operations, the environment functions | C133 | refinement of a map per bundle, on top of C70 and C71 |
| PoolLife | Object.cpp 36-83, AutoreleasePool.cpp 36-85, System.cpp 419-477 | the main pool from init to quit, objects created before, between and after, by one thread | several threads and destructors that release members (RefCount), counters with the high bit | C134 | invariant against a ledger of references |
| Inflater | Inflater.cpp 60-86, 133-162 | Reset, SetInput, NeedsInput, Finished, GetRemaining, GetTotalIn, GetTotalOut, and one Inflater for several inputs, also after the caller deleted the result | leaks, allocation failure | C135 | every step of the decoder keeps the differences between counters and positions (`prog`); Reset by computation for every state |
| Locale | System.cpp 41-74, I18nBundle.cpp 133-144, 158-204 | the name of the locale (with the C library's rules for LC_ALL, LC_x, LANG and the composite name of setlocale as part of the model), System::language, the four file names and the order in which they are tried | names that are not ASCII, the console line, Android, macOS and Windows; the Resource objects (Resource) | C136 | `index_of_char`/`substring`/`append` lemmas of String; the code's search against "the first found of four names" on plain lists |
| CharsetReg | Charset.cpp 34-42, 84-164, 258-280, String.cpp 132-145, 220-225 | the seven sets, forName, hasName, getDefault, quitCharsets, toCString and String with a set, reading by guess and forName | sets with alternative names; the order of static initialisation | C137 | look-up in a list; the round trips of the decoders (C05, C08, C57) turned into round trips of texts |
| Exception | Exception.cpp 14-202 (Linux) | the constructor (ten innermost symbols, decoded as UTF-8, kept in a StringList), the copy constructor, errorMessage, GetStrackTrace, printStackTrace (bytes on std::cerr) | macOS and Windows branches, the log line of line 17 (M_Log), demangling (macOS only) | C138 | relation between an Exception and (message, texts), preserved by copies; induction over the lines |
| Eigen | Matrix.cpp 528-602 | Matrix::eigen for all sizes | pow(x, 2.0), acos and cos are parameters; accuracy of irrational eigenvalues and of the trigonometric 3x3 branch where the arc cosine is called | C139 | exact grid arithmetic (L_Matrix2), exact square root of a square (L_Matrix5); totality over all doubles by the shape lemmas (L_Matrix); the trigonometric branch by the error calculus of L_Transform, with pi enclosed by Machin's formula (L_Pi) and the cosine specified over the real numbers |
| Wcs | Matrix.cpp 611-627 | Matrix::initWcs, with wcsMatrix (unit Transform) and trans (unit Matrix) | nothing of the function | C140 | symbolic evaluation for all doubles, equality up to the sign of a zero; then the error bound of C123 |
| Angle | Math.cpp 36-47 | degToRad, radToDeg and their constants | nothing of the functions | C141 | two roundings against the real number pi, which Machin's formula encloses between two neighbouring doubles (L_Pi) |
| Arc | Geometry.cpp 485-627 | extensionPointOnArc, PQCheck, CheckAngle | extensionPointOnEllipse, extensionPointOnLine; atan2 is a parameter; other directions and coordinates that are not whole are modelled, but the theorems about meeting points are about axis-parallel rays and whole coordinates | C142 | exact integers in doubles, the tolerance of isLess (C92), pi enclosed (L_Pi) |
