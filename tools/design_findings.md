## Findings about the code (proved as `_refuted` theorems unless marked *noted*)

* RefCount: `setHighBit` is not synchronised – a lost update frees an object that is still referenced; autorelease or drain inside a
  destructor run by drain deadlocks. *Noted*: objects created before `System::init` have a null pool.
* Undo: undo inside an open transaction is not blocked; inner rollback only decrements the level. *Noted*: `UndoChangeBuffer`'s constructor always throws.
* String: `replace` with an empty pattern never ends; `toInt` accepts "1-2" as -12; `toHex` of negative numbers is empty; `valueOf(INT64_MIN)` is undefined;
  insert of a string into itself is wrong; hash codes of equal strings may differ after the top bit was set.
* Containers: `append(list[i])` while growing reads freed memory; `remove(list.get(0))` removes other strings; a copied Stack shares nodes; regrowing a
  ByteArray shows stale bytes; null pointers in Array<T*>::sort; keys hashed before `put` with the top bit set are lost; LinkedList::swapData without undo manager does nothing.
* MemoryStream: write may overrun the buffer; negative seek; seek to the end is ignored.
* Charset: MacRoman 92/93 swapped, W1252 five undefined bytes, UTF-16 overrun, guess never reports UTF-8 without BOM.
* Date: `year()` overflows at the ends of the int64 range (including `Date::EMPTY`); week day negative before 28 Dec 1969.
* DateFormatter: quoted text directly behind a field swallows the field; "Septemper".
* Diff: needs a symmetric `equals`; some reported objects come from the wrong sequence.
* XML: apostrophes are lost on the way back; `<?xml …?>` is reported as an element that never ends; text behind the last tag is never reported.
* Inflater: matches in fixed blocks wrap at 32768 (`& 0x7fff`), so larger outputs get wrong bytes; truncated data, early distances and distance codes 30/31 are undefined behaviour; NLEN, block type 3 and length codes 286/287 are not checked; a block without distance codes is undefined behaviour; `nextBit() + nextBit() * 2` depends on the order of evaluation; the default constructor leaves a null output buffer.
* Zip: the file is not truncated before writing; a ZipEntry object put twice loses the first data; `comment()` and `isDirectory()` are stubs; an empty archive with a comment is rejected (`while(seek > 0)` skips offset 0), files of 1–21 bytes are searched 2^32 times; record count, sizes, method and UTF-8 in the directory are not validated (undefined behaviour); the CRC is never checked.
* Preferences: line breaks are stored as backslash n and never turned back; each backslash n gains a backslash with every save and load (`C:\new`); a value that ends in CR and fills its buffer (setValue), or a line whose value ends in a backslash and fills its buffer (load), is read past its end.
* I18nBundle: translations with line breaks come back with backslash n instead; counts and offsets of a .mo file are not checked (reads past the buffer), nor is its size (files of 1–19 bytes).
* File: `extension()` of a name without a full stop answers part of a directory or the whole path; `parent()` of `/x` is empty instead of `/`; `File("", "x")` is `/x`; `File("a", "/")` keeps the separator at the end; tags beyond 4096 bytes are lost at the next addTag, a comma splits a tag; `isHidden()` of the root throws; `lastModified` divides nanoseconds by 1000.
* Color: `toGreyScale()` of a colour that is not grey is undefined or white (int8 instead of uint8); `toCmyk()` of black divides 0 by 0 and converts NaN to uint8; RGB to CMYK and back uses formulas of two different models ((10,200,50) becomes (0,201,10)); toCmyk makes every colour opaque; `blend()` of two transparent colours is undefined (0/0, or more than 255 for faint ones), ignores its parameter unless both are opaque, and takes grey and CMYK bytes for RGB; `interpolate()` outside 0..1 is undefined; `+` and `-` wrap around; `FromHsv()` with an angle outside 0..420 is black; hsvModel and FromHsv lose up to one per component.
* Thread: `interrupt()` before the new thread has set `alive` is lost: the thread sets the flag again and `interrupt()` blocks in join for ever; `while(isAlive()) sleep();` can miss the wake-up of `interrupt()` (question and sleep are separate critical sections) and both threads hang; `wakeUp()` before `sleep()` is forgotten, and the client cannot repair that because `sleep()` locks the mutex itself (lock, test, sleep is a self-deadlock); `isAlive()` stays true after `run()` has ended; a second `interrupt()` joins twice (undefined); `sleep(millis)` beyond 292 years returns at once.
* Math: `isLess(v,v)` and `isGreater(v,v)` are true and `isLessEqual(v,v)` is false from 2^35 on; `isEqual(inf,inf)` is false; `round(0.49999999999999994)` is 1, `round(4503599627370497.0)` is 4503599627370498; `roundFrac` is undefined when value·10^digits reaches 2^63; `interpolate` misses the end value by rounding, overflows for ends of opposite sign and is NaN for begin = end; `swap(x,x)` sets x to 0; `probability(0)` is true once in 10001; `random(lower, INT_MAX)` overflows.
* Rect: `intersection` of disjoint rectangles is (0,0,0,0), which contains (0,0); `intersect` of disjoint rectangles has negative size and is not `isEmpty()`; `unionWith` and `setRight` miss an edge by rounding (x+width is recomputed) for coordinates without a common grid.
* Extents: `isValid` looks at x only and is false for points beyond 1E89; adding extents of Vertex2 points makes the z range [-1E90, 1E90].
* Decimal text: `valueOf(2.0, 0)` is "2,0"; `valueOf(-5e-7, 7)` is "0,0000005"; `valueOf(-0.001, 2)` is "-0,00"; precision 18 and more overflows int64 for fractions near 1; `arg(uint64)` prints values from 2^63 on as negative.
* Matrix: no index check (row index = rows reaches the next column); `+` and `-` use the shape check of the product, so equal non-square shapes throw and r×n + n×c with c>n reads outside the array; constructors of 2^32 and more elements never return; `inverse` of a singular matrix answers infinities and NaN instead of eError; `trans` with fewer than three rows reads outside the vector. Vector: `dotProduct` with a shorter argument reads outside the array; `normalize` of the zero vector is NaN.
* Geometry: `isPointOnPlane` with its default tolerance is false for every point (it tests distance < 0); `Vertex3::biggest` returns z for x = y > z; `crosses` misses overlapping segments and segments below 1/1000, and accepts points a unit away from segments of millions of units; `circleParameterBy3Points` answers eOK with an infinite centre for collinear points; vectors below 1E-6 are not normalised; CheckAngle misses arcs with negative angles and never ends for huge ones; `extensionPointOnEllipse` divides by b instead of b² and rotates by the angle of the centre instead of the main axis.
* NURBS: `point(end())` is NaN for every curve (half-open last span and `end()` = max(controlCount − degree + 2, last knot)); too few knots or weights are accepted by the constructor and read outside the arrays; the implicit copy shares the arrays and deletes them twice (not modelled).
* Property: `operator==` depends on the type of its left operand only (not symmetric), is false for every property with an editor outside the eight known names (not reflexive) and for infinite values; `setBoolValue` leaves seven bytes of the number, so `isValueEquals` tells two set checkboxes apart; `boolValue` of an integer property is undefined unless the lowest byte is 0 or 1. Variant: the number of a string Variant is uninitialised; an assigned number leaves the old text.
* Deflater: the output buffer has the size of the input, so every input that zlib does not make shorter (there are some of every length) loses its end silently; lengths are cut to 32 bits; the output of a deflater without input is undefined.
* EditableObject: `setMember(Vertex3*)` drops moves up to 1E-6 and accepts NaN coordinates, `setMember(int64*)` does not report an out-of-range value that the member already has.
* SAXAttributes: the copy constructor dereferences uninitialised pointers.
* Transform: the extrusion direction is used as it is: a direction that is not of length 1 scales the heights, and the null direction turns every point into NaN without a report (inverse() reports success for a singular matrix, C105).
* System::log: lastErrorMessage() hands out a reference to a variable that log() writes under the mutex: a data race; and log() of an error, so the constructor of every Exception, dereferences the null bundle of translations before System::init and after System::quit.
* TestVector: testEquals(uint64, int32) converts a negative expectation to a large number and accepts it; two infinite doubles fail; an index beyond the vector runs nothing and reports success; an exception that is not a jm::Exception leaves the per-test counters set.
* C126: `Resource::operator=` (Resource.cpp 60-69) retains the new stream but never releases the old one: each assignment leaks a stream (and an open file handle, if it was open). `transFileByBundleId` leaks up to three that way.
* C127: `Document::isDocumentChanged` stays false while an undo step is open (the flag is set by UndoManager::close only). `~UndoManager` does not delete an open transaction, so its changes leak. `~Document` uses `delete mUndoManager` although the manager is reference counted (setUndoManager(false) uses release()); a detached manager keeps a dangling mDocument.
* C128: `File::createNewFile` truncates an existing file and returns true (the header says it does nothing); `isDirectory`/`isFile`/`isLink`/`isPipe` ignore the result of lstat, so on a missing path (and with them `remove`, `listFiles`, `compareTo`) they read an uninitialised struct; `lastModified` divides nanoseconds by 1000 instead of 1000000; `listFiles` includes "." and ".." and reads the directory twice; `open(kRead)` of a directory is eOK.
* C129: `File::close` keeps mHandle if fclose fails (the stream is gone all the same); the copy constructor copies mHandle, the destructor and a second open do not close: double close and leaks; every operation but close on a File that is not open passes a null pointer to stdio; reading after writing in kReadWrite without a seek is undefined.
* C130: `Char::isUpperCase` knows all capitals of Latin-1, `toLowerCase` only A-Z, Ä, Ö, Ü: "À".toLowerCase() stays "À", and equalsIgnoreCase tells "À" and "à" apart. isWhitespace takes the backspace, but not the vertical tab.
* C131: `Size::operator==` is not transitive, and an infinite size is not equal to itself (so `!=` is true of it); std::min/std::max with a NaN depend on the order.
* C132: DiffInfo reports a decreasing unsigned field with the delta 2^64 - n; the delta of int64 can overflow (undefined behaviour). Texts go to the console in Windows-1252 and other characters are cut to their low byte: a change from "Ł" to "A" is reported as "A -> A", U+0100 ends the text and U+010A breaks the line. "A" lines name the wrong object (see C43).
* C133: calling System::init a second time without quit leaks the preferences and forgets what was not saved. Preferences::save truncates the file before it writes: a process that dies then loses all settings of the bundle, also those of earlier sessions; at a later byte the last value may be cut without notice.
* C133: System::quit deletes the character sets and leaves gCharsets, and the set the console remembers, dangling: init after quit in the same process, and every toCString(), File path or console output of a String after quit, is undefined behaviour (Charset::forName answers nullptr, which toCString dereferences).
* C134: Object::retain and autorelease do not test mPool: with an object created before System::init they dereference a null pointer, while release silently does nothing (the object leaks); every object that outlives System::quit keeps a pointer to the deleted pool.
* C135: an Inflater used for a second input without Reset goes on at the old bit position, does not look at the header and takes the first block for the last one; it also writes into the result of the first one, which the caller must delete. Reset leaks the buffer. In a fixed block the mask `& 0x7fff` lets a match of distance 32768 copy bytes that were never written into the result (old contents of the heap).
* C136: `System::language` asks setlocale(LC_ALL, nullptr), whose answer is a list of all categories as soon as two of them differ: the language is then "LC_CTYPE=..." and no translation is found (the files tried last are translations/.LC.mo and translations/LC.mo). `initDefault` passes an empty file name, so the bundle's own file is never tried.
* C137: `Charset::forName` is case-sensitive and knows no aliases; its nullptr is dereferenced by toCString and String. RAW/ASCII bring back 128-255 as 65408 and above (signed char); text written with forName("UTF-16LE") is big-endian, with UTF-16BE reading it back overruns. `Charset::Charset(name, alternatives, altCount, decoder)` allocates and copies mAltCount names before mAltCount is set (uninitialised; not modelled).
* Exception: the constructor decodes the names of the calls (which contain the path of the program) as UTF-8. A path with the bytes FF FE makes every `throw Exception` read behind the name (C138_path_not_utf8_refuted). The "\ta" of lines 129 and 195 was meant to be "\tat ": each line of a trace begins with the letter a glued to the name.
* C139: Matrix::eigen orders the eigenvalues of 2x2 matrices upwards, those of a 3x3 matrix in general downwards, and not at all when nothing is above the diagonal. Complex eigenvalues of a 2x2 matrix are reported as NaN without an exception.
* C141: degToRad multiplies by pi before it divides by 180, so angles of 2^1023 degrees and more become infinite although their radians are doubles; about a third of the whole degrees do not come back exactly from radToDeg(degToRad(x)).
* C142: extensionPointOnArc brings the angles into one turn by subtracting or adding 2pi until they fit; for a start angle of 2^57 or more the subtraction changes nothing, and the call never ends (nor for an infinite one).
