{"id": "C01", "title": "Base64 round trip", "statement": "Base64::decode applied to the output of Base64::encode gives the original bytes back: exactly the input when its length is a multiple of 3, and otherwise the input followed by exactly one extra zero byte (so the exact round trip a user expects is violated for two thirds of all lengths).", "quantifier": "every byte string of every length (below the 32 bit length limit of decode)", "why_tests_cant": "the input space is unbounded and the failure depends on length mod 3 only", "anchors": ["src/core/Base64.cpp: Base64::encode, Base64::decode"]}
{"id": "C02", "title": "Base64 encoding conforms and stays in its buffer", "statement": "Base64::encode produces exactly the RFC 4648 encoding: 4*ceil(n/3) characters, only alphabet characters followed by at most two '=', every 3-byte group mapped to its four 6-bit digits; no write ever leaves the allocated buffer and the overflow exception is never thrown.", "quantifier": "every byte string", "why_tests_cant": "every length and byte value, plus absence of out-of-bounds writes", "anchors": ["src/core/Base64.cpp: Base64::encode"]}
{"id": "C03", "title": "CRC is the reflected CRC-16 and can be computed in chunks", "statement": "CRC::crc8(init, buffer, n) equals the bit-by-bit reflected CRC-16 with polynomial 0xA001, and feeding a buffer in two pieces, passing the first result as initial value of the second call, gives the same value as one call.", "quantifier": "every initial value, every buffer, every split point", "why_tests_cant": "unbounded buffers and a 256 entry table that must agree with the polynomial everywhere", "anchors": ["src/core/CRC.cpp: CRC::crc8, crctable"]}
{"id": "C04", "title": "CRC detects every corrupted byte", "statement": "Two buffers of the same length that differ in exactly one byte always have different CRC::crc8 values for the same initial value; more generally a checksum error burst confined to two adjacent bytes is always detected.", "quantifier": "every initial value, prefix, suffix and pair of different bytes", "why_tests_cant": "detection must hold for every error position and value", "anchors": ["src/core/CRC.cpp: CRC::crc8"]}
{"id": "C05", "title": "UTF-8 encode/decode round trip", "statement": "Decoding the UTF-8 encoding of a string returns the same string, for every string of 16 bit units that has no NUL and does not begin with U+FEFF; a leading U+FEFF is dropped.", "quantifier": "every string of 16 bit units below 4/3 GiB units", "why_tests_cant": "2^16 symbols, unbounded length and interactions at boundaries between characters", "anchors": ["src/core/UTF8Decoder.cpp: UTF8Decoder::encode, UTF8Decoder::decode"]}
{"id": "C06", "title": "UTF-8 decoding stays inside the C string", "statement": "Decoding a NUL terminated byte string whose multi-byte sequences are complete reads no byte after the terminator and yields one unit per sequence; for a sequence cut off by the terminator, or an FF FE pair inside the text, the decoder does read past the terminator.", "quantifier": "every NUL terminated byte string", "why_tests_cant": "memory safety over all malformed inputs", "anchors": ["src/core/UTF8Decoder.cpp: UTF8Decoder::decode"]}
{"id": "C07", "title": "UTF-8 encoder output is the standard encoding, four byte sequences lose their high bits", "statement": "The encoder emits exactly the RFC 3629 byte sequence of every 16 bit unit and its size pre-computation equals the bytes written; decoding a valid four byte sequence yields the code point modulo 2^16.", "quantifier": "every 16 bit unit sequence; every code point from U+10000 to U+10FFFF", "why_tests_cant": "all code points", "anchors": ["src/core/UTF8Decoder.cpp: UTF8Decoder::encode, UTF8Decoder::decode"]}
{"id": "C08", "title": "Single byte charsets round trip", "statement": "For Windows-1252, encode(decode(bytes)) returns the same bytes for every byte string without NUL and without the five undefined bytes 81 8D 8F 90 9D, and decode is injective on those bytes; the undefined bytes are all mapped to U+0000 and back to 8D.", "quantifier": "every byte string", "why_tests_cant": "must hold for all byte sequences", "anchors": ["src/core/Windows1252Decoder.cpp: Windows1252Decoder::decode, Windows1252Decoder::encode"]}
{"id": "C09", "title": "UTF-16 round trip and truncation", "statement": "The UTF-16 encoder always emits big endian. Decoding a text terminated by two zero bytes returns the units before the first one with a zero low byte; after a byte order mark the big endian decoder stops at the first unit with a zero high byte instead, so a byte order mark followed by ASCII decodes to the empty string. Decoding the encoder's own output, which has a single terminating zero byte, as big endian reads past its end.", "quantifier": "every string of 16 bit units", "why_tests_cant": "all unit values including those with zero bytes, all lengths", "anchors": ["src/core/UTF16Decoder.cpp: UTF16Decoder::decode, UTF16Decoder::encode"]}
{"id": "C10", "title": "String operations act on the sequence of characters", "statement": "After any sequence of mutating String calls (append, insert, setCharAt, deleteCharAt, deleteCharRangeAt, clear, zero) the string's observable characters are those of the corresponding list edits, and an out of range index throws and leaves the string unchanged.", "quantifier": "every history of calls with every argument", "why_tests_cant": "every history, with arbitrary capacity state", "anchors": ["src/core/String.cpp: String::append, String::insert, String::setCharAt, String::deleteCharAt, String::deleteCharRangeAt, String::clear, String::zero, String::checkCapacity"]}
{"id": "C11", "title": "String storage invariant", "statement": "After any history the stored length never exceeds the allocated capacity and no String mutation writes outside the allocated buffer (deleteCharRangeAt with a length beyond the end is the exception: it makes the length negative).", "quantifier": "every history of calls", "why_tests_cant": "memory safety over all histories", "anchors": ["src/core/String.cpp: String::checkCapacity, String::copy, String::append, String::insert"]}
{"id": "C12", "title": "String searching", "statement": "indexOf(Char), lastIndexOf(Char) and lastIndexOf(String) return the first / last position of an occurrence inside the string or -1; indexOf(String) does so too whenever the pattern cannot run over the end, but it compares characters after the logical end, so it can read outside the buffer or report a match that is not in the string.", "quantifier": "every string, pattern, start index and buffer content", "why_tests_cant": "all contents including stale characters behind the end", "anchors": ["src/core/String.cpp: String::indexOf, String::lastIndexOf"]}
{"id": "C13", "title": "String comparison is a total order", "statement": "compareTo is the lexicographic order on 16 bit units: antisymmetric, transitive, total, and zero exactly for equal strings; equals is an equivalence deciding equality of contents.", "quantifier": "every pair and triple of strings", "why_tests_cant": "quantifies over all pairs and triples", "anchors": ["src/core/String.cpp: String::compareTo, String::equals"]}
{"id": "C14", "title": "Hash codes of equal strings", "statement": "Strings that were never hashed nor derived from a hashed string and that are equal have equal hash codes, given by the polynomial sum(31^k*c) mod 2^32; but two calls of hashCode on one string can disagree (the first is unsigned, the cached one sign extended) and assignment, toLowerCase, toUpperCase, replace(Char,Char) and reverse keep a stale cached hash.", "quantifier": "every string and every history of calls", "why_tests_cant": "depends on call history", "anchors": ["src/core/String.cpp: String::hashCode, String::constHashCode, String::operator=, String::reverse"]}
{"id": "C15", "title": "String replacement", "statement": "replace(old,new) with a non-empty pattern replaces the non-overlapping occurrences from left to right and terminates; with an empty pattern and a non-empty string it never terminates.", "quantifier": "every string, pattern and replacement", "why_tests_cant": "termination and result for all inputs", "anchors": ["src/core/String.cpp: String::replace"]}
{"id": "C16", "title": "Integer formatting round trip", "statement": "toInt(valueOf(n)) = n for every signed 64 bit n except the minimum (for which negation overflows), valueOf writes canonical decimal without leading zeros, also for unsigned numbers; Integer::digits counts its characters; toInt of any text of digits and minus signs is the number of its digits, negated if there is a minus sign anywhere, and any other character prevents a result.", "quantifier": "every 64 bit integer", "why_tests_cant": "2^64 values", "anchors": ["src/core/String.cpp: String::valueOf, String::toInt"]}
{"id": "C17", "title": "Hexadecimal round trip", "statement": "Integer::fromHex(Integer::toHexString(n)) = n for every n >= 0, the text is canonical upper case hexadecimal, and negative numbers yield the empty text.", "quantifier": "every 64 bit integer", "why_tests_cant": "2^64 values", "anchors": ["src/core/Integer.cpp: Integer::toHexString, Integer::fromHex"]}
{"id": "C18", "title": "Roman numerals", "statement": "Integer::toRomanString(n) for n > 0 is a numeral whose value, read by the standard subtractive rule, is n, and different numbers get different numerals.", "quantifier": "every positive integer", "why_tests_cant": "unbounded n", "anchors": ["src/core/Integer.cpp: Integer::toRomanString"]}
{"id": "C19", "title": "Latin alphabet numbering", "statement": "Integer::toLatinAlphabetString(n) writes n in base 26 with the digits '@' (zero), 'A' (1) to 'Y' (25): 1..25 are A..Y, 26 is \"A@\", the letter Z never appears; numbers from 26*2^31 on lose their upper part.", "quantifier": "every positive number below 2^31*26", "why_tests_cant": "all numbers", "anchors": ["src/core/Integer.cpp: Integer::toLatinAlphabetString"]}
{"id": "C20", "title": "Tokenizer", "statement": "Repeatedly calling next() while hasNext() yields exactly the maximal delimiter free substrings in order (delimiters not returned), and with delimiter return the concatenation of all tokens is the input and every token is a single delimiter or a maximal delimiter free piece; hasNext() may be called any number of times without effect; calling next() at the end throws. String::split(c) gives the same tokens as a list, and splitting what StringList::join(c) has joined gives the list back if no element is empty or contains c.", "quantifier": "every string, delimiter set and interleaving of hasNext/next calls", "why_tests_cant": "every input and call interleaving", "anchors": ["src/core/StringTokenizer.cpp: StringTokenizer::next, StringTokenizer::hasNext", "src/core/String.cpp: String::split"]}
{"id": "C21", "title": "StringList behaves as a list", "statement": "After any history of append, remove, set, clear, reserve, sort the list's contents equal those of a plain sequence, remove deletes every occurrence, join inserts the divider exactly between elements, and no element write leaves the array.", "quantifier": "every history of calls", "why_tests_cant": "every history with arbitrary capacities", "anchors": ["src/core/StringList.cpp: StringList::append, StringList::remove, StringList::checkSize, StringList::join, StringList::sort"]}
{"id": "C22", "title": "arg() substitution", "statement": "arg(value) replaces the lowest numbered place marker %n (the first one in the text for equal numbers) by the padded value and leaves everything else unchanged; a text without '%' is returned unchanged. (A text with a '%' but no marker gets the value in front, refuted; a marker %0d only covers its first digit.)", "quantifier": "every text, value, width", "why_tests_cant": "all texts", "anchors": ["src/core/String.cpp: String::arg, String::argIndicies"]}
{"id": "C23", "title": "URL coding round trip", "statement": "URLDecode(URLEncode(s)) = s for every ASCII string without NUL.", "quantifier": "every ASCII string", "why_tests_cant": "unbounded inputs", "anchors": ["src/core/String.cpp: URLDecode, URLEncode"]}
{"id": "C24", "title": "Hashtable behaves as a finite map", "statement": "For keys with consistent hash codes, after any history of put, get, remove, containsKey, clear (including all rehashes) every result equals that of a finite map, put returns the previous value, size is the number of keys.", "quantifier": "every history of operations and keys, every hash collision pattern", "why_tests_cant": "all histories, sizes and collision patterns", "anchors": ["src/core/Hashtable.cpp: Hashtable::put, Hashtable::get, Hashtable::remove, Hashtable::rehash, Hashtable::clear"]}
{"id": "C25", "title": "Hashtable iteration", "statement": "The iterators visit every entry exactly once, for every table state, and end after size() steps.", "quantifier": "every reachable table", "why_tests_cant": "all table states", "anchors": ["src/core/Hashtable.cpp: HashtableIterator::hasNext, HashtableIterator::next"]}
{"id": "C26", "title": "Hashtable lookups after hashing a key", "statement": "A value stored under a key can be lost: if the key object had its hash cached before put and its 32 bit hash has the top bit set, get with an equal fresh key returns nullptr; containsKey is false for stored null values.", "quantifier": "every key with top bit set in its hash", "why_tests_cant": "needs particular hash values and call history", "anchors": ["src/core/Hashtable.cpp: Hashtable::put, Hashtable::get", "src/core/String.cpp: String::hashCode"]}
{"id": "C27", "title": "Sorting", "statement": "Array::sort, ByteArray::sort, StringList::sort terminate and leave a sorted permutation of the elements, stable with respect to compareTo.", "quantifier": "every array and every total preorder compareTo", "why_tests_cant": "all inputs, termination", "anchors": ["include/core/Array.h: Array::sort", "src/core/ByteArray.cpp: ByteArray::sort", "src/core/StringList.cpp: StringList::sort"]}
{"id": "C28", "title": "Stack is last-in-first-out", "statement": "Any history of push, pop, top, top2, top3, reverse, clear gives the results of a list used as stack; size equals the number of elements; top2/top3 throw exactly when there are too few elements.", "quantifier": "every history", "why_tests_cant": "all histories", "anchors": ["include/core/Stack.h: Stack::push, Stack::pop, Stack::reverse, Stack::top2, Stack::top3"]}
{"id": "C29", "title": "LinkedList behaves as a sequence", "statement": "Any history of add, addBefore, remove, clear, rewind, hasNext/next, first, last, size and swapData without undo manager, on a fresh list, answers like a plain sequence with a reading position; next at the end is undefined. The forward chain, the backward chain and the count always show the same sequence, an iterator delivers it in order, and exactly one element object is alive per entry. swapData without an undo manager exchanges nothing (finding).", "quantifier": "every history of fewer than 2^32 calls on a fresh list", "why_tests_cant": "all histories and aliasings of the node graph", "anchors": ["src/core/LinkedList.cpp: LinkedList::add, LinkedList::addBefore, LinkedList::remove, LinkedList::clear, LinkedList::swapData, LinkedListIterator"]}
{"id": "C30", "title": "Undo of LinkedList edits", "statement": "Any history of list edits with an active undo manager mixed with closing steps, undo, redo and forgetting the history answers like a history of sequences and never touches a dead object: undo restores exactly the list before the last step (forward, backward, count), redo exactly the edited list, a new edit ends the redos. An element that was added and undone is never freed, not even when the history is forgotten (finding).", "quantifier": "every history of edits in any number of steps that registers fewer than 2^32 changes", "why_tests_cant": "all histories and undo depths", "anchors": ["src/core/LinkedList.cpp: LinkedList::add, LinkedList::addBefore, LinkedList::remove, LinkedList::swapData, LinkedList::clear", "src/core/UndoManager.cpp: UndoManager::undo, UndoManager::redo"]}
{"id": "C31", "title": "Undo and redo are inverse", "statement": "If every modification of a value is preceded by registerChange on it (and undo/redo are not called while a transaction is open), undo restores every registered value to its content before the step and redo the content after the step; any interleaving of undo/redo leaves the memory determined by the number of applied steps only; all results, contents and counters are those of a history of document snapshots; the objects of an undone or redone step are marked for regeneration.", "quantifier": "every history of changes, closes, undos and redos, including repeated changes of one value in one step", "why_tests_cant": "all histories", "anchors": ["src/core/UndoManager.cpp: UndoManager::undo, UndoManager::redo, UndoManager::registerChange", "src/core/UndoChange.cpp: swap"]}
{"id": "C32", "title": "Undo bookkeeping", "statement": "undoCount/redoCount always equal the number of steps that can be undone/redone; undo/redo return false and change nothing exactly when a step is open or the stack is empty; registering a change outside a transaction clears the redo stack; close() with no changes does nothing.", "quantifier": "every history of calls", "why_tests_cant": "all histories", "anchors": ["src/core/UndoManager.cpp: UndoManager::close, UndoManager::undoCount, UndoManager::redoCount"]}
{"id": "C33", "title": "Transactions", "statement": "A rolled back transaction restores all registered values to the content before the outermost openTransaction and adds nothing to the undo history; a committed one is undone as one step; only the outermost level takes effect; closeTransaction returns the last registered status that was neither eOK nor eNotChanged (eOK if there was none) and rolls back exactly in that case. (Calling undo while a transaction is open is not refused by the code and breaks this; shown by a counterexample.)", "quantifier": "every nesting depth and history inside the transaction", "why_tests_cant": "all histories and nesting depths", "anchors": ["src/core/UndoManager.cpp: UndoManager::openTransaction, UndoManager::closeTransaction, UndoManager::commit, UndoManager::rollback, UndoManager::registerTransactionStatus"]}
{"id": "C34", "title": "Objects referenced by the undo history stay alive", "statement": "In every history a client may issue, no deleted object is ever touched; every object referenced by an undo, redo or open step has a reference beyond those the client owns; no reference cell dangles; and clearStacks gives back exactly the references the history took.", "quantifier": "every history of reference changes", "why_tests_cant": "all histories", "anchors": ["src/core/UndoChange.cpp: UndoChangeObjectRef", "src/core/Object.cpp: Object::retain, Object::release"]}
{"id": "C35", "title": "Calendar round trip", "statement": "For every date (year, month, day) with every time of day the Date built from it reports exactly that year, month, day, hour, minute, second, millisecond; and every millisecond time stamp is rebuilt exactly from its reported fields.", "quantifier": "every civil date representable, every time stamp", "why_tests_cant": "unbounded range of time stamps incl. negative and leap years", "anchors": ["src/core/Date.cpp: Date::makeDay, Date::yearFromTime, Date::monthFromTime, Date::dateFromTime"]}
{"id": "C36", "title": "Date fields are in range", "statement": "Reported month is 0..11, day of month 1..length of that month in the Gregorian calendar, hours 0..23, minutes 0..59, seconds 0..59, milliseconds 0..999, day of year below the year's length for every time stamp from year -292275054 to 292278993; the leap year rule is the Gregorian one; for the few remaining int64 time stamps (among them Date::EMPTY) asking for the year overflows.", "quantifier": "every time stamp", "why_tests_cant": "unbounded range", "anchors": ["src/core/Date.cpp"]}
{"id": "C37", "title": "Day of week", "statement": "day() is the correct week day (0 = Sunday .. 6 = Saturday) for every time stamp at or after 28 December 1969; for earlier dates other than Sundays it is off by seven (negative).", "quantifier": "every time stamp", "why_tests_cant": "sign dependent, unbounded", "anchors": ["src/core/Date.cpp: Date::weekDay"]}
{"id": "C38", "title": "Date text and ordering", "statement": "toString yields the ISO 8601 text of the fields for years 0..9999, texts of such dates order lexicographically exactly as the dates, and the comparison operators agree with compareTo and form a total order.", "quantifier": "every pair of dates", "why_tests_cant": "all pairs", "anchors": ["src/core/Date.cpp: Date::toString, Date::compareTo"]}
{"id": "C39", "title": "Floor division", "statement": "divFloor and modFloor are floor division and remainder: x = y*divFloor(x,y)+modFloor(x,y) with the remainder having the sign of y and smaller magnitude, for all y != 0 except INT64_MIN / -1.", "quantifier": "every pair of 64 bit integers", "why_tests_cant": "2^128 pairs", "anchors": ["src/core/Math.cpp: divFloor, modFloor"]}
{"id": "C40", "title": "Bit tricks", "statement": "powerOf2(x) holds exactly for powers of two; ceilPowerOf2(x) is the least power of two >= x for 1 <= x <= 2^31 and 0 for 0 and above; the xor swap exchanges two distinct variables of every integer width and zeroes a variable swapped with itself.", "quantifier": "every 32 bit integer", "why_tests_cant": "2^32 values / pairs", "anchors": ["src/core/Math.cpp: powerOf2, ceilPowerOf2, swap"]}
{"id": "C41", "title": "Diff distance is the edit distance", "statement": "DiffDistance::solve terminates and the distance is exactly the least number of insertions, deletions and replacements turning the first sequence into the second, for every pair of sequences (shorter one below 2^31 elements) and every symmetric equals; it does not depend on the order of the sequences, is zero exactly for sequences equal element by element, and satisfies the triangle inequality when equals is transitive. With an asymmetric equals it can be wrong.", "quantifier": "every pair of sequences, every symmetric equality", "why_tests_cant": "unbounded sequences; lazy, mutually recursive evaluation order over diagonals", "anchors": ["src/core/DiffDistance.cpp: DiffDistance::solve", "src/core/DiffDiag.cpp: DiffDiag::entry"]}
{"id": "C42", "title": "Diff script is correct and minimal", "statement": "The returned back trace starts with kDiffStart, its operations consume exactly the first sequence and produce exactly the second one, and the number of non-equal operations is the distance.", "quantifier": "every pair of sequences", "why_tests_cant": "unbounded sequences", "anchors": ["src/core/DiffBacktrace.cpp: DiffBacktrace::backtrace"]}
{"id": "C43", "title": "Objects reported by the diff", "statement": "A user expects an added step to carry the added element, a deleted step the deleted one and a modified step the pair (old,new). Exactly this is true while at least as many elements of the second sequence have been passed as of the first for additions and modifications, and in the opposite situation for deletions; otherwise added/deleted steps carry an element of the other sequence and the modified pair is exchanged (the general expectation is refuted).", "quantifier": "every pair of sequences, every step of the trace", "why_tests_cant": "needs particular alignments of unbounded sequences", "anchors": ["src/core/DiffBacktrace.cpp: DiffBacktrace::backtrace"]}
{"id": "C44", "title": "XML text round trip", "statement": "For every text, what XMLWriter::writeCData writes with encoding is reported by SAXParser, between the start and the end of the element, as the same characters except that every apostrophe is lost (it is written as &apos;, which the parser ignores); white space at both ends may be reported as ignorable, in order, nothing lost. The same holds for all text of a whole document.", "quantifier": "every text", "why_tests_cant": "all texts", "anchors": ["src/core/XMLWriter.cpp: XMLWriter::Encode", "src/core/SAXParser.cpp: SAXParser::parse"]}
{"id": "C45", "title": "XML writer output is well nested", "statement": "For every history of writer calls that leaves no element open, what is written is a prolog and a well nested document whose elements are the started ones, in order, each with exactly the attributes written directly after its start (later attributes are ignored); without indentation its text is exactly the text written. SAXParser reports well nested start and end events for it, except that the prolog is reported as an element that never ends.", "quantifier": "every history of writer calls", "why_tests_cant": "all histories", "anchors": ["src/core/XMLWriter.cpp"]}
{"id": "C46", "title": "XML attribute round trip", "statement": "For every history of writer calls that leaves no element open, SAXParser reports the started elements in order with the same names and attributes; attribute values are the written ones without their apostrophes (exact if there are none). Looking an attribute up by name finds its first occurrence.", "quantifier": "every list of names and values", "why_tests_cant": "all values", "anchors": ["src/core/XMLWriter.cpp: XMLWriter::writeAttribute", "src/core/SAXParser.cpp: SAXParser::parseTagString"]}
{"id": "C47", "title": "Memory stream reading", "statement": "Reading a MemoryStream in chunks of any sizes returns the successive bytes of the buffer, each exactly once, never beyond its end, and 0 at the end.", "quantifier": "every buffer, chunk sequence", "why_tests_cant": "all chunkings", "anchors": ["src/core/MemoryStream.cpp: MemoryStream::read"]}
{"id": "C48", "title": "Memory stream writing and seeking", "statement": "A write that fits is stored at the position and advances it by the length; the recorded number of written bytes is always the furthest position a write has reached since the stream was opened for writing; a write that does not fit copies beyond the buffer end; seek and move accept negative positions, after which read leaves the buffer.", "quantifier": "every buffer, position, length and history of calls", "why_tests_cant": "memory safety over all histories", "anchors": ["src/core/MemoryStream.cpp: MemoryStream::write, MemoryStream::seek, MemoryStream::move"]}
{"id": "C49", "title": "ByteArray storage", "statement": "resize keeps the common prefix, growing beyond the allocation appends zero bytes, but growing inside the allocation after a shrink exposes old bytes; after a reallocating resize the terminator is not written; replace(tgtOffset,...) ignores the target offset.", "quantifier": "every content and history of sizes", "why_tests_cant": "all histories", "anchors": ["src/core/ByteArray.cpp: ByteArray::resize, ByteArray::replace"]}
{"id": "C50", "title": "Checked array access", "statement": "Array::get/set/operator[] access exactly the addressed element when 0 <= index < size and throw without any effect otherwise; copies are independent of the original.", "quantifier": "every array and index", "why_tests_cant": "all indices", "anchors": ["include/core/Array.h: Array::get, Array::set, Array::operator="]}
{"id": "C51", "title": "Reference counting under threads", "statement": "For every number of threads and every interleaving of the statements of retain, release, autorelease and drain in which each thread only calls them for references it holds (references may be passed between threads and stored in objects), referenceCount is the number of references held, an object somebody holds is alive, every object is deleted at most once, exactly when its last reference was given back, and never touched afterwards; when no thread is inside a call, every unreferenced object has been freed. A waiting thread waits for a thread that can go on, except when a destructor run by drain calls autorelease or drain. (False if setHighBit is called while another thread retains or releases.)", "quantifier": "every number of threads and every interleaving", "why_tests_cant": "schedules", "anchors": ["src/core/Object.cpp: Object::retain, Object::release"]}
{"id": "C52", "title": "Autorelease pool", "statement": "drain releases every object added by autorelease exactly once per add, in the order of the adds, and everything added before when it returns, leaving the pool empty, for every interleaving of the statements of autorelease and drain by any number of threads. (A destructor that calls autorelease while drain runs waits for itself for ever.)", "quantifier": "every history and interleaving", "why_tests_cant": "schedules and histories", "anchors": ["src/core/AutoreleasePool.cpp: AutoreleasePool::drain, AutoreleasePool::add"]}
{"id": "C53", "title": "Case conversion", "statement": "toLowerCase and toUpperCase keep the length, change only A-Z/a-z and the three German umlauts, are idempotent, and equalsIgnoreCase is an equivalence relation that holds exactly if the lower case forms are equal.", "quantifier": "every string", "why_tests_cant": "all strings", "anchors": ["src/core/Character.cpp: Char::toLowerCase, Char::toUpperCase", "src/core/String.cpp: String::equalsIgnoreCase"]}
{"id": "C54", "title": "Date patterns", "statement": "For every supported date and every pattern made of maximal runs of one character and quoted texts (a quoted text not directly behind a run), DateFormatter::format returns the concatenation, in order, of the texts of the segments: two-letter fields are two digits, other lengths decimal numbers or names, other characters and quoted text themselves; every pattern without quotes is such a sequence, and for every pattern whatsoever format returns. (A quoted text directly behind a field swallows the field: yyyy-MM-dd'T'HH prints ddT.)", "quantifier": "every pattern and date", "why_tests_cant": "all patterns", "anchors": ["src/core/DateFormatter.cpp: DateFormatter::DateFormatter, DateFormatter::format"]}
{"id": "C55", "title": "Base64 decoding of arbitrary bytes stays in memory", "statement": "Base64::decode on arbitrary bytes whose number is a multiple of four neither reads nor writes outside its buffers and returns at most 3/4 of the input length; on alphabet text of any other length it reads behind the end of the input.", "quantifier": "every byte string", "why_tests_cant": "memory safety over all inputs", "anchors": ["src/core/Base64.cpp: Base64::decode"]}
{"id": "C56", "title": "Random integers stay in their interval", "statement": "random(lower, upper) returns a value between lower and upper inclusive whatever the generator returns, provided upper-lower and upper+1 fit in 32 bits; with upper = INT32_MAX the call overflows.", "quantifier": "every generator value and every interval", "why_tests_cant": "generator output cannot be enumerated", "anchors": ["src/core/Math.cpp: random(int32,int32)"]}
{"id": "C57", "title": "Mac Roman and RAW round trip", "statement": "For Mac Roman, encode(decode(bytes)) returns the bytes except that 7F and B0 become 00 and 92/93 are exchanged; for RAW and ASCII the round trip is the identity, and decoding maps a byte b >= 80 to the unit FF00+b.", "quantifier": "every byte string without NUL", "why_tests_cant": "must hold for all byte sequences", "anchors": ["src/core/MacRomanDecoder.cpp: decode, encode", "src/core/CharsetDecoder.cpp: RawDecoder"]}
{"id": "C58", "title": "Charset guessing", "statement": "Charset::guess recognises the three byte order marks; without a byte order mark it never reports UTF-8, and a text without zero bytes is always reported as ASCII, also when it has bytes above 7F (Linux, signed char).", "quantifier": "every byte buffer and its length", "why_tests_cant": "ranges over all byte buffers", "anchors": ["src/core/Charset.cpp: Charset::guess"]}
{"id": "C59", "title": "Pieces of a string", "statement": "substring(b,e) returns the characters between the clamped positions, trim() removes exactly the maximal runs of white space at both ends, reverse() returns the characters in opposite order; none of them touches the original or leaves its buffer.", "quantifier": "all strings, all 64 bit positions", "why_tests_cant": "holds for every text, capacity and position pair", "anchors": ["src/core/String.cpp:String::substring", "src/core/String.cpp:String::trim", "src/core/String.cpp:String::reverse"]}
{"id": "C60", "title": "Natural order of strings", "statement": "compareFancyTo compares the sequences in which every maximal run of digits counts as one number (mod 2^32) and every other character as itself, looking at the first 256 characters only; it is a total preorder (so sorting with it is consistent), but different texts such as 01 and 1 compare equal.", "quantifier": "all pairs and triples of strings", "why_tests_cant": "transitivity over all triples", "anchors": ["src/core/String.cpp:String::compareFancyTo"]}
{"id": "C61", "title": "The SAX parser never gets stuck", "statement": "For every text whatsoever, parse either reports startDocument, finitely many events and endDocument, or throws; it never reads outside the text and never loops. (It throws on '<>' and on a trailing '&', and reads a comment that contains '>' as an element.)", "quantifier": "every text", "why_tests_cant": "all texts, including malformed ones", "anchors": ["src/core/SAXParser.cpp: SAXParser::parse, SAXParser::parseTagString"]}
{"id": "C62", "title": "Integers survive serialisation", "statement": "serializeLE/BE Int16/UInt16/Int24/Int32/Int64, Double and Float write exactly the bytes of the value in the promised byte order at the given offset and nothing else; the matching deserialize functions give every value of the type back, for every buffer and offset with enough room (offset + size at most 2^32).", "quantifier": "all values of each type, all buffers, all offsets", "why_tests_cant": "2^64 values times all offsets and buffer contents; sign extension and untouched neighbours must hold for each", "anchors": ["src/core/Serializer.cpp", "include/core/Serializer.h"]}
{"id": "C63", "title": "The Inflater restores the data of a deflate stream", "statement": "Given a raw deflate stream (RFC 1951) of any number of stored, fixed and dynamic blocks, followed by anything, a fresh Inflater(true) returns exactly the bytes the stream stands for, takes exactly the bits of the stream and reports the end; Inflater(false) does the same behind any valid zlib header. Condition: matches in fixed blocks copy from one of the first 32768 bytes of the output (in fixed blocks the library takes the position modulo 32768, so others give wrong bytes: refuted by an example, and the exact output is proved for every stream), each code length run stays within its alphabet, and each code is complete or has one symbol.", "quantifier": "all sequences of blocks, tokens, Huffman codes, code length runs, padding bits and trailing data", "why_tests_cant": "unboundedly many streams; every canonical code, overlap, and alignment must decode", "anchors": ["src/core/Inflater.cpp: Inflater::inflate, createTree, createHuffmanCodes, decodeSymbol, inflateFixedHuffmanBlock, inflateDynamicHuffmanBlock"]}
{"id": "C64", "title": "Inflating always comes to an end", "statement": "For any bytes whatsoever, inflating them with a fresh Inflater ends after finitely many steps (with a result, an exception, or a read outside of its buffers, see C65): no input makes it loop.", "quantifier": "all byte strings, with and without zlib header", "why_tests_cant": "all inputs, including hostile ones", "anchors": ["src/core/Inflater.cpp: Inflater::inflate"]}
{"id": "C65", "title": "Malformed compressed data: what is rejected and what is not", "statement": "With a zlib header expected, every header that is too short or wrong (method, window, dictionary flag, check bits) is an exception. Beyond the header there is no such guarantee; counterexamples are proved for: truncated data, distances before the start and distance codes 30/31 in fixed blocks (undefined behaviour), wrong NLEN and block type 3 (accepted), no distance code and runs crossing alphabets (valid streams that fail), the default constructor (cannot write) and right-to-left evaluation (block type bits swapped).", "quantifier": "all headers; concrete malformed streams", "why_tests_cant": "all 65536 headers with any continuation", "anchors": ["src/core/Inflater.cpp: Inflater::inflate, inflateUncompressedBlock"]}
{"id": "C66", "title": "ZipOutputFile writes a standard archive of uncompressed files", "statement": "For any sequence of files, each put with its own ZipEntry object and then written in any pieces and closed, or copied whole, the bytes of the new file are exactly the standard archive: for each file the local header with name, CRC-32 and sizes followed by the data, then the central directory in the same order with the right offsets, then the end record. If the file existed, its bytes behind the new archive stay (so a shorter archive over a longer one can list the old files); one ZipEntry object used twice loses the first file; closeEntry before putNextEntry is undefined behaviour.", "quantifier": "all numbers of files, names, contents and ways to cut them into writes, within the 16- and 32-bit limits of the format; all previous contents of the file", "why_tests_cant": "unbounded files, contents and partitions into writes", "anchors": ["src/core/ZipOutputFile.cpp: putNextEntry, write, closeEntry, writeAndClose, close", "src/core/File.cpp: write, seek"]}
{"id": "C67", "title": "ZipFile reads every archive of stored and deflated members", "statement": "For every file that is a ZIP archive (any member order, offsets, time stamps, local extra fields, text in directory extra fields and comments, archive comment without the end signature), open() lists exactly the members with names and sizes in directory order, entryCount() is their number, entry(name) is the first member with that name or nullptr, and stream(entry) yields exactly the member's data, at any time and in any order, on a File and on a MemoryStream. Not so: comment() is always empty; isDirectory() is always false; an archive of no files with a comment is rejected; malformed files can lead to undefined behaviour.", "quantifier": "all archives; all orders of stream() calls; both kinds of stream", "why_tests_cant": "infinitely many archives and deflate streams", "anchors": ["src/core/ZipFile.cpp: open, entry, entryCount, stream", "src/core/Inflater.cpp"]}
{"id": "C68", "title": "What ZipOutputFile writes, ZipFile reads", "statement": "An archive written with distinct ZipEntry objects can be opened, lists the same names and sizes in the same order, and the stream of each entry yields exactly the bytes that were written for it.", "quantifier": "all files and write sequences within the limits of the format", "why_tests_cant": "unbounded files and contents", "anchors": ["src/core/ZipOutputFile.cpp", "src/core/ZipFile.cpp"]}
{"id": "C69", "title": "The archive checksum is CRC-32 and detects local changes", "statement": "The checksum stored for a file is the standard CRC-32 of its data, for all data (bytes above 127 included); changing up to four adjacent bytes always changes it. ZipFile never compares it with the data (counterexample).", "quantifier": "all data; all bursts of up to four bytes at all positions", "why_tests_cant": "all byte strings", "anchors": ["src/core/ZipOutputFile.cpp: CRC32"]}
{"id": "C70", "title": "Preferences behave as a finite map and release what they own", "statement": "Any history of setValue (text, int, bool), hasValue, value, value with default, valueInt, valueBool, save and load calls on one Preferences object gives exactly the answers of a finite map from key texts to value texts in which every CR LF, CR and LF of a value becomes backslash n; at each moment as many value strings are allocated as there are keys, and destroying the object frees every value and table entry exactly once. A value that ends in CR and fills its buffer makes setValue read past the buffer (counterexample).", "quantifier": "all histories of calls, all keys and values of sound strings, all file contents in UTF-8", "why_tests_cant": "unboundedly many call histories, rehashes of the table, and heap states", "anchors": ["src/core/Preferences.cpp: setValue, setValue(int64), setValue(bool), hasValue, value, valueInt, valueBool, save, load, ~Preferences", "src/core/Hashtable.cpp"]}
{"id": "C71", "title": "Saved preferences load back", "statement": "Saving preferences after any history and loading the file into a new object yields the same keys and, if no value contains a backslash followed by n, the same values. In general each value comes back with one more backslash before each backslash n, so a value set with a line break (or C:\\new) grows with every save and load (counterexample); a value that ends in a backslash and whose text in the file fills its buffer makes load read past the buffer (counterexample).", "quantifier": "all histories, all keys without control characters, '=' and padding", "why_tests_cant": "all histories and texts; buffer positions depend on value lengths modulo 16", "anchors": ["src/core/Preferences.cpp: save, load"]}
{"id": "C72", "title": "A value that was set is read back", "statement": "After any history, value after setValue answers the text with each line break (CR LF, CR, LF) replaced by backslash n, hence the text itself exactly if it contains no CR and no LF; valueInt after setValue with a number answers the number for every number except the smallest 64 bit one, and valueBool after setValue with a truth value the truth value, whatever the defaults.", "quantifier": "all histories, keys, values, 64 bit numbers, defaults", "why_tests_cant": "all histories and all 64 bit numbers", "anchors": ["src/core/Preferences.cpp: setValue, value, valueInt, valueBool"]}
{"id": "C73", "title": "Translations come from the message catalogues", "statement": "After appending any number of well-formed GNU .mo files (any placement of tables and strings, little endian, revision 0, UTF-8), translate answers for every text the translation of the last message whose original (up to its first NUL) is that text, and the text itself if there is none or the translation is empty; with distinct originals every non-empty translation without line breaks comes back unchanged. A translation with a line break is never answered as it is: each break has become backslash n (counterexample).", "quantifier": "all lists of catalogue files in any layout, all keys", "why_tests_cant": "all files and layouts", "anchors": ["src/core/I18nBundle.cpp: appendMo, translate", "src/core/Preferences.cpp: setValue, value"]}
{"id": "C74", "title": "Which catalogue files are read", "statement": "Every catalogue written in the layout of msgfmt (up to 2 GiB) is read back; an empty file and a file of at least 20 bytes with another magic number or revision leave the bundle unchanged. A file of 1 to 19 bytes and a message that lies behind the end of the file make appendMo read past its buffer (counterexamples).", "quantifier": "all message lists; all files", "why_tests_cant": "all messages and file contents", "anchors": ["src/core/I18nBundle.cpp: appendMo"]}
{"id": "C75", "title": "The path of a File is the canonical form of the name it was made from", "statement": "File(path).absolutePath() is, for every text, the shortest name with the same sequence of components and the same leading separator: runs of separators become one, a separator at the end disappears, nothing else changes. Normalising twice changes nothing, and two names give equal paths exactly if they have the same components and both or neither begin with a separator.", "quantifier": "every text as path name", "why_tests_cant": "the loop deletes characters while it runs over the text; only a proof over all texts shows that no separator pattern escapes it", "anchors": ["src/core/File.cpp:File::File", "src/core/File.cpp:File::normalize", "src/core/File.cpp:File::absolutePath"]}
{"id": "C76", "title": "File(parent, child), name() and parent()", "statement": "File(parent, child) and File(File, child) denote parent/child in canonical form for every parent and every child with at least one component; an empty child throws. name() is the last component and parent() the text in front of it; putting them together again gives the same path for absolute names and relative names of two or more components. Refuted: the relative name x has the parent \"\" and File(\"\", x) is /x; a child of separators only gives a path ending in a separator whose name() is empty.", "quantifier": "every parent and child text", "why_tests_cant": "the case distinctions on leading separators and on the root interact for all combinations of parent and child", "anchors": ["src/core/File.cpp:File::resolve", "src/core/File.cpp:File::name", "src/core/File.cpp:File::parent"]}
{"id": "C77", "title": "extension() and isHidden()", "statement": "If the name of a file has a full stop, extension() is the text behind the last one; isHidden() says whether the name begins with a full stop and throws for the root and the empty name. Refuted: without a full stop in the name, extension() answers a part of the directory name or the whole path.", "quantifier": "every path", "why_tests_cant": "ranges over all paths; the failure needs a full stop in a directory", "anchors": ["src/core/File.cpp:File::extension", "src/core/File.cpp:File::isHidden"]}
{"id": "C78", "title": "readFully() under short reads", "statement": "Whatever sizes the single reads of the system deliver, readFully() writes into the buffer exactly the next bytes of the file, in order, without a gap, and nothing behind them; it returns their number and advances the position by it. If every read delivers at least one byte until the end, it delivers min(length, rest of the file) bytes.", "quantifier": "every file content, position, buffer, length and every schedule of short reads", "why_tests_cant": "the schedule of short reads is chosen by the operating system", "anchors": ["src/core/File.cpp:File::readFully"]}
{"id": "C79", "title": "Tags of a file behave as an ordered set", "statement": "For every history of setTags, addTag, removeTag and getTags on a file, getTags answers the list of tags in order of insertion, addTag does not add a tag twice, removeTag removes it, as long as the tags contain no comma, are not empty and fit into 4096 bytes; the attribute holds their text as UTF-8. Refuted: a tag with a comma becomes two tags; with more than 4096 bytes of tags getTags answers none and the next addTag discards all others.", "quantifier": "every history of tag operations and all tags", "why_tests_cant": "the limit and the separator show only for histories longer and tags stranger than a test uses", "anchors": ["src/core/File.cpp:File::getTags", "src/core/File.cpp:File::setTags", "src/core/File.cpp:File::addTag", "src/core/File.cpp:File::removeTag", "src/core/String.cpp:String::split"]}
{"id": "C80", "title": "Colour conversions", "statement": "toRgb is idempotent, keeps alpha and keeps components in 0..255; isWhite does not change under toRgb; grey to CMYK to RGB gives the grey back; toCmyk of an RGB colour other than black gives key = 255 - max and the missing share of each component, rounded down. Refuted: toCmyk of black (undefined), RGB to CMYK and back, toGreyScale (undefined or white).", "quantifier": "all colours in all modes with all component values", "why_tests_cant": "16.7 million RGB colours times rounding of floats; undefined conversions do not show up in a test run", "anchors": ["src/core/Color.cpp: toRgb, toGreyScale, toCmyk, isWhite"]}
{"id": "C81", "title": "hsvModel computes hue, saturation and value", "statement": "For every colour the hue is within 1/10000 of the exact angle and lies in [0,360), saturation and value are within 1/10000 of (max-min)/max and max/255; for greys hue and saturation are 0.", "quantifier": "all colours in all modes", "why_tests_cant": "needs an error bound of float arithmetic for all component values", "anchors": ["src/core/Color.cpp: hsvModel"]}
{"id": "C82", "title": "blend mixes colours between foreground and background", "statement": "For opaque colours every component is the weighted mean rounded down, hence between both, with the ends at alpha 0 and 255; over an opaque background a transparent foreground gives the mean weighted by its own alpha, rounded down; an opaque foreground hides a transparent background exactly; the result is at least as opaque as both. Refuted: two transparent colours (undefined), other modes than RGB.", "quantifier": "all pairs of colours, all alpha values", "why_tests_cant": "all combinations of colours and alpha values, with float rounding in between", "anchors": ["src/core/Color.cpp: blend, PorterDuffAlpha, PorterDuffColour"]}
{"id": "C83", "title": "interpolate stays between its colours", "statement": "For a share from 0 to 1 every component lies between those of the two colours and within 1 of the exact value (rounded down), and the ends are exact. Refuted: outside 0..1 the conversion is undefined.", "quantifier": "all pairs of colours, all floats from 0 to 1", "why_tests_cant": "all floats from 0 to 1 and all pairs of colours", "anchors": ["src/core/Color.cpp: interpolate"]}
{"id": "C84", "title": "Comparison and arithmetic of colours", "statement": "== holds exactly for the same mode, components and alpha and is an equivalence; (a+b)-b == a and (a-b)+b == a; + commutes in one mode. Refuted: the sum of bright colours wraps around; + of different modes does not commute.", "quantifier": "all colours", "why_tests_cant": "all pairs of colours in all modes", "anchors": ["src/core/Color.cpp: operator==, operator+, operator-"]}
{"id": "C85", "title": "FromHsv is the inverse of hsvModel up to one per component", "statement": "For hue 0..360 and saturation, value, alpha 0..1 FromHsv is defined and every component is the exact value of the HSV model rounded down (up to 1/1000); hsvModel followed by FromHsv never increases a component and decreases it by at most one. Refuted: exactly the same colour; angles beyond the circle.", "quantifier": "all colours; all floats in the ranges", "why_tests_cant": "float rounding at the borders of the sectors for all colours and all float inputs", "anchors": ["src/core/Color.cpp: FromHsv, hsvModel"]}
{"id": "C86", "title": "Thread: no data race, mutual exclusion, no undefined use of pthread by correct clients", "statement": "For any number of threads calling start, interrupt, isAlive, sleep, wakeUp, lock and unlock on one Thread object (lock, unlock, sleep, wakeUp on a Mutex), in any order and under any schedule, the flag is only accessed with the mutex held and nothing is undefined, unless a thread unlocks a mutex it does not hold, starts twice, or interrupts itself, an object never started or already interrupted. Between two returns of lock() the first thread has called unlock(). A thread that holds the lock and asks for it again (lock, sleep, isAlive, interrupt) never gets on.", "quantifier": "all programs of all threads, all interleavings, all spurious wake-ups", "why_tests_cant": "interleavings of arbitrarily many threads and calls cannot be enumerated by tests", "anchors": ["src/core/Thread.cpp: StartThread, start, interrupt, isAlive, sleep, wakeUp, lock, unlock", "src/core/Mutex.cpp: lock, unlock, sleep, wakeUp"]}
{"id": "C87", "title": "isAlive answers false after interrupt, true before", "statement": "After the worker has announced itself and an interrupt() that began later has returned, isAlive() answers false in every thread; after the announcement and until somebody calls interrupt() it answers true. Refuted: it does not tell whether the thread runs (it stays true after run() has ended).", "quantifier": "all programs, all interleavings", "why_tests_cant": "depends on the schedule", "anchors": ["src/core/Thread.cpp: StartThread, isAlive, interrupt"]}
{"id": "C88", "title": "interrupt waits for the end of the thread", "statement": "When interrupt() returns, run() has ended, and the worker does nothing afterwards.", "quantifier": "all programs, all interleavings", "why_tests_cant": "depends on the schedule", "anchors": ["src/core/Thread.cpp: interrupt"]}
{"id": "C89", "title": "A polling worker ends after interrupt", "statement": "A worker with run() = while(isAlive()) sleep(ms), one thread that starts and later interrupts it, and any number of other threads that call isAlive, wakeUp and sleep(ms): once interrupt() was called after the announcement of the worker, all threads can come to their end from every state, nothing gets stuck, and as soon as the flag is down every schedule ends after a bounded number of steps. Refuted: when interrupt() comes before the announcement it is lost and never returns; with sleep() instead of sleep(ms) the wake-up can be missed and both threads hang.", "quantifier": "all numbers of threads, all scripts, all schedules, all spurious wake-ups", "why_tests_cant": "liveness under every schedule; the lost wake-up needs a particular interleaving", "anchors": ["src/core/Thread.cpp: StartThread, start, interrupt, isAlive, sleep"]}
{"id": "C90", "title": "wakeUp wakes a sleeping thread", "statement": "Between the call and the return of wakeUp() (and of interrupt()) there is a moment at which nobody sleeps or at which one of the sleeping threads is woken. Refuted: a wakeUp() before the sleep() is not remembered.", "quantifier": "all programs, all interleavings, all choices of the woken thread", "why_tests_cant": "depends on the schedule and on the choice of the system", "anchors": ["src/core/Thread.cpp: wakeUp, sleep, interrupt", "src/core/Mutex.cpp: wakeUp, sleep"]}
{"id": "C91", "title": "sleep(millis) ends at now + millis", "statement": "The absolute time that sleep(millis) computes is exactly now + millis with nanoseconds in 0..999999999, for millis >= 0 as long as the nanoseconds fit in 63 bits (292 years). Refuted: for longer times it lies in the past; for negative times below a second it is before now and may have negative nanoseconds.", "quantifier": "all clock values, all millis", "why_tests_cant": "arithmetic with mixed signedness over 64-bit values", "anchors": ["src/core/Thread.cpp: sleep(int64)"]}
{"id": "C92", "title": "Comparison with tolerance", "statement": "isEqual(x,y) holds only if the numbers differ by less than 1E-6, and holds whenever they differ by at most 1E-6 - 2^-71; it is symmetric for all doubles. isNotEqual is its negation, isGreater(x,y) is isLess(y,x), isLessEqual is the negation of isGreater unless one is NaN. For |x|,|y| <= 2^24 isLess and isGreaterEqual compare with the tolerance 1E-6 up to 2^-28. Refuted: from 2^35 to 2^1000 every number is less than itself, greater than itself and not less or equal to itself; isEqual is not transitive; an infinity is not equal to itself.", "quantifier": "all doubles", "why_tests_cant": "2^128 pairs of doubles; rounding errors depend on the magnitudes", "anchors": ["src/core/Math.cpp: isEqual, isNotEqual, isLess, isLessEqual, isGreater, isGreaterEqual", "include/core/Math.h: RESABS"]}
{"id": "C93", "title": "round and roundFrac", "statement": "round(x) is a nearest integer, halves away from zero, for |x| < 2^52 except the two doubles next to 1/2 and -1/2, which become 1 and -1 (refuted there). Odd integers between 2^52 and 2^53 become the next integer (refuted); from 2^53 on an integer that fits into int64 is kept and any other is undefined behaviour; infinity and NaN are undefined behaviour. roundFrac(x,d) is within rounding error of the multiple of 10^-d nearest to x while x*10^d is small enough. Refuted: if x*10^d reaches 2^63 roundFrac is undefined.", "quantifier": "all doubles, 0 to 22 digits", "why_tests_cant": "the exceptions are single doubles among 2^64", "anchors": ["src/core/Math.cpp: round, roundFrac"]}
{"id": "C94", "title": "Linear interpolation", "statement": "interpolate(b,e,0) is b; between 0 and 1 the result rises with the position and never falls below b, if b <= e; interpolate(b,e,1) differs from e by at most 2^(k-52), if |b|,|e| <= 2^k, and is exactly e if both are multiples of the same power of two up to 2^50. interpolate(vb,ve,b,e,b) is vb. Refuted: interpolate(1,2^-60,1) is 0; half way between -2^1023 and 2^1023 is infinity; with b = e the result is NaN.", "quantifier": "all doubles up to 2^1000", "why_tests_cant": "a statement on all triples of doubles", "anchors": ["src/core/Math.cpp: interpolate"]}
{"id": "C95", "title": "swap, random, probability and machine epsilon", "statement": "swap of two different variables exchanges them and changes nothing else. random(lower,upper) lies between the bounds for every answer of rand() if the number of values fits into an int, and it is lower + r for small answers r, so each value of the range is possible. probability(1) is always true. The machine epsilon loops end, with 1+e = 1 and 1+2e != 1. Refuted: swap(x,x) sets x to 0; random with upper = INT_MAX, with a range of more than INT_MAX values or with upper = lower-1 is undefined; probability(0) is true for one answer of 10001.", "quantifier": "all integers, all answers of rand()", "why_tests_cant": "a statement on all answers of the random generator and all aliasings", "anchors": ["src/core/Math.cpp: swap, random, probability, doubleMaschineEpsilon, floatMaschineEpsilon"]}
{"id": "C96", "title": "Edges of a rectangle", "statement": "If the coordinates of a rectangle are multiples of one power of two (integers, say) up to 2^47: right and bottom are x+width and y+height; setLeft, setTop, setRight and setBottom put one edge where it is wanted and leave the other three; shift moves one edge, move the whole rectangle; alignTopLeft and alignBottomLeft put the corner on that of the other rectangle and keep the size; normalize describes the same points with a size that is not negative; center is the middle; contains holds exactly for the points between the edges, edges included. Refuted: for other coordinates setRight(v) may not give right() = v.", "quantifier": "all rectangles on a binary grid, all points", "why_tests_cant": "all combinations of doubles", "anchors": ["src/core/Rect.cpp: setLeft, setRight, setTop, setBottom, shiftLeft, shiftRight, shiftTop, shiftBottom, move, alignTopLeft, alignBottomLeft, normalize, center", "include/core/Rect.h: contains"]}
{"id": "C97", "title": "Union and intersection of rectangles", "statement": "On a binary grid: unionWith gives the smallest rectangle around both and contains every point of both; intersect leaves exactly the common points, and so does intersection if the rectangles intersect. For all doubles: intersects is symmetric and holds whenever there is a common point; on a grid with sizes >= 0 it holds only then. Refuted: intersection of disjoint rectangles is the point (0,0), which it contains; intersect of disjoint rectangles is not isEmpty(); for coordinates without a grid the union can lose a corner of its argument.", "quantifier": "all pairs of rectangles, all points", "why_tests_cant": "a statement on sets of points for all pairs of rectangles", "anchors": ["src/core/Rect.cpp: unionWith, intersect, intersection, isEmpty", "include/core/Rect.h: intersects, contains"]}
{"id": "C98", "title": "Extents of points", "statement": "After any non-empty sequence of points with coordinates between -1E88 and 1E88 was added, the corners of the extents are the least and greatest coordinates of the points and isValid() is true; without points it is false. Adding other extents has the corners of all points of both. NaN coordinates change nothing. Refuted: if all x are at least 1E89 the extents stay invalid; extents of points of the plane (Vertex2) added to other extents make the heights span -1E90 to 1E90.", "quantifier": "all sequences of points", "why_tests_cant": "all histories of additions", "anchors": ["src/core/Extents.cpp: add, isValid"]}
{"id": "C99", "title": "Decimal text of doubles", "statement": "String::valueOf(x, p, trunc) with 1 <= p <= 15 and |x| <= 2^62 is defined and prints sign, integer part without leading zeros, comma and exactly p digits of an integer N (in units of the last digit) with |N - |x|*10^p| <= 1/2 + 10^p*2^-52; with trunc the zeros at the end (and the comma, if nothing is left) are dropped and nothing else; a carry goes into the integer part. For numbers z/2^j with 2^j*5^(p+1) <= 2^53 N is exactly |x|*10^p rounded half up. Precision 0 with trunc prints the rounded integer. The minus sign is there if x <= -1E-6 and not if x >= 0. arg(double), arg(int64) and arg(uint64 below 2^63) put exactly this text, padded, in place of the lowest numbered marker; without '%' the text is returned unchanged.", "quantifier": "all doubles, precisions, texts and markers", "why_tests_cant": "2^64 doubles, rounding at every digit position, carries through arbitrarily many nines", "anchors": ["src/core/String.cpp: valueOf(double,int64,bool), arg(double), arg(int64), arg(uint64)"]}
{"id": "C100", "title": "Decimal text: wrong and undefined cases", "statement": "Refuted: precision 0 without trunc prints ',0' behind every number; every negative number above -1E-6 is printed like its absolute value, even with 7 or more digits; a negative number that rounds to 0 prints '-0,00'; |x| >= 2^63, or 18 and more digits of a number with a fraction >= 0.95, is an undefined conversion; arg(uint64) prints numbers above 2^63 as negative ones.", "quantifier": "all doubles and integers of the stated ranges", "why_tests_cant": "statements on whole ranges of inputs", "anchors": ["src/core/String.cpp: valueOf(double,int64,bool), arg(uint64)"]}
{"id": "C101", "title": "Matrix elements", "statement": "After set(i,j,v), get(i,j) answers v and every other get answers what it did; add adds to one element only; a new matrix and zeros() show 0 everywhere; copies and assignment show the same elements; transpose swaps the indices and twice is the identity; insert copies exactly the overlapping block; diag sets exactly the diagonal. Indices are not checked: row index = number of rows silently reaches the next column, column index = number of columns leaves the array; from 2^32 elements on the constructor never returns.", "quantifier": "all shapes with at most 2^32-1 elements, all contents (any doubles), all indices", "why_tests_cant": "sizes and contents are unbounded", "anchors": ["src/core/Matrix.cpp: set", "add", "get", "zeros", "transpose", "insert", "diag"]}
{"id": "C102", "title": "Matrix product", "statement": "The product of an r x n and an n x c matrix has as element (i,j) the left-to-right double sum of the products of row i and column j; other shapes throw. When all entries lie on a binary grid and the sums stay below 2^53 steps there is no rounding at all, the identity is neutral and the product is associative; in general it is not associative. The product with a vector follows the same rule.", "quantifier": "all shapes, all doubles; for exactness all integer matrices with n*F*G <= 2^53 and any power of two as step", "why_tests_cant": "unbounded sizes and values", "anchors": ["src/core/Matrix.cpp: operator*"]}
{"id": "C103", "title": "Matrix sum and multiples", "statement": "For square matrices of equal size + and - work element by element, multiples and quotients work element by element for every shape. The shape check of + and - is that of the product: two r x c matrices with r <> c are rejected, and an r x n plus an n x c matrix with c > n is accepted and reads outside the array.", "quantifier": "all shapes and all doubles", "why_tests_cant": "shapes are unbounded", "anchors": ["src/core/Matrix.cpp: operator+", "operator-", "operator* (double)", "operator/"]}
{"id": "C104", "title": "Determinant", "statement": "For 1x1 to 4x4 matrices on a binary grid (entries of at most 2^53, 2^26, 2^16, 2^12 steps) det() is exactly the determinant (expansion along the first column), equals that of the transposed matrix, and the determinant of a product is the product of the determinants; every other shape answers an error.", "quantifier": "all such matrices", "why_tests_cant": "2^200 and more matrices", "anchors": ["src/core/Matrix.cpp: det"]}
{"id": "C105", "title": "Inverse", "statement": "For 1x1 to 4x4 matrices on a binary grid, inverse() answers adjugate over determinant with a relative error of at most 2^-51 in every entry; if the determinant is a power of two (up to sign) A*inverse(A) and inverse(A)*A are exactly the identity. A singular matrix is not reported: the answer contains no number at all. Other shapes answer an error.", "quantifier": "all such matrices", "why_tests_cant": "2^200 and more matrices", "anchors": ["src/core/Matrix.cpp: inverse"]}
{"id": "C106", "title": "Transformations of points", "statement": "trans() with the matrix of initMoving adds, with initScaling multiplies each coordinate with one rounding (all finite doubles); initScalingAt, initMirroring, initRotationZ and initRotation give exactly the point of the textbook formulas (scaling about a point, reflection at a plane, rotation, Rodrigues) for points and parameters on a binary grid; identity keeps points; trans with a product is trans twice. A matrix without four columns throws, one with fewer than three rows reads outside the vector.", "quantifier": "all points and parameters (finite doubles, or grid values as stated), any previous matrix contents", "why_tests_cant": "the points are unbounded", "anchors": ["src/core/Matrix.cpp: initMoving", "initScaling", "initMirroring", "initRotation", "trans"]}
{"id": "C107", "title": "Norms, trace and non-zero count", "statement": "On a binary grid norm1 is the largest column sum of absolute values, normInf the largest row sum, each the other of the transposed matrix; trace is the sum of the diagonal; nonZeroElementCount counts exactly the elements that do not compare equal to 0.", "quantifier": "all shapes, all grid matrices (all doubles for trace and count)", "why_tests_cant": "unbounded sizes", "anchors": ["src/core/Matrix.cpp: norm", "trace", "nonZeroElementCount"]}
{"id": "C108", "title": "Vectors", "statement": "dotProduct is the left-to-right sum of products (exact on a grid); sum and difference work element by element and throw for different lengths; abs() is exact when the length is a whole number of steps and has a relative error of its square of at most 2^-51 otherwise; normalize keeps the direction of every component and its square up to 2^-49. A shorter second vector makes dotProduct read outside the array; normalizing the zero vector gives NaN.", "quantifier": "all vectors (grid as stated)", "why_tests_cant": "unbounded lengths", "anchors": ["src/core/Vector.cpp: dotProduct", "abs", "normalize", "operator+", "operator-"]}
{"id": "C109", "title": "Vectors: products, lengths, sides and directions", "statement": "For vertices on a common grid of doubles (integer multiples of one power of two) the cross and dot products of Vertex2 and Vertex3 are the exact products; isRightTo and isLeftTo are the sign of the cross product and mirror images; cross() is perpendicular to both factors; isCollinear, isOrthogonal and isLinearIndependent decide exactly as long as the grid is not finer than about 1/500; abs() is the correctly rounded length and exact for Pythagorean vectors; normalized() has length 1 and the direction of the vector up to a few units in the last place; == is symmetric, != its negation, and both mean a difference of 1E-6 per coordinate; biggest() is the largest coordinate. Refuted: vectors shorter than 1E-6 are not normalised, perpendicular vectors shorter than 1/1000 are reported as collinear, and biggest() returns the smallest coordinate if x = y > z.", "quantifier": "all vertices on a grid (all integer coordinates up to 2^26, 2^25, 2^16 or 2^12 by theorem, all grid widths), all doubles for comparisons", "why_tests_cant": "rounding and tolerance effects depend on the magnitude of the inputs; tests use a few vectors of size 1", "anchors": ["src/core/Vertex2.cpp: abs, crossProduct, dotProduct, isCollinear, isOrthogonal, isRightTo, isLeftTo, normalized, operator==", "src/core/Vertex3.cpp: crossProduct, dotProduct, abs, isCollinear, isOrthogonal, normalized, biggest, isLinearIndependent"]}
{"id": "C110", "title": "Linear systems and crossing lines in the plane", "statement": "For integer vectors up to 512 with a non-zero determinant solveLinearSystem returns the solution up to 2^-22 resp. 2^-31 (relative to the size of the second unknown), whichever row is used as pivot; intersectionPoint returns the common point of the two lines up to the same precision and NaN exactly for parallel directions.", "quantifier": "all integer coefficients in the box with a non-zero determinant, all lines with integer coordinates", "why_tests_cant": "the elimination loses digits depending on the pivot, the worst pivots are rare among test inputs", "anchors": ["src/core/Vertex2.cpp: solveLinearSystem", "src/core/Geometry.cpp: intersectionPoint"]}
{"id": "C111", "title": "Crossing segments", "statement": "For segments with integer end points up to 256, crosses() is true if and only if the directions are not parallel and there is a common point of both closed segments. Refuted: overlapping segments of one line are never reported, segments shorter than 1/1000 that cross are missed, and for segments of four million units a point a whole unit away from the segment counts as crossing.", "quantifier": "all quadruples of integer points in the box; all scales for the refutation", "why_tests_cant": "touching end points are decided by the tolerance of a rounded parameter; a test cannot show that no triple of points is decided wrongly", "anchors": ["src/core/Geometry.cpp: lines 414-434"]}
{"id": "C112", "title": "Lines, planes and points on them", "statement": "For integer coordinates up to 2^24 the common point of a line and a plane is NaN exactly if the direction is perpendicular to the normal, otherwise the true point up to 2^-51 of the size of its summands; without extension the parameter must be between 0 and 1. The closest points on a plane and on a line are the feet of the perpendicular with the same precision. isPointOnLine and isPointOnLine with two end points decide exactly for coordinates up to 256, isSamePoint for coordinates up to 2^24. Refuted: isPointOnPlane with its default tolerance 0 is false for every point, every plane and every normal.", "quantifier": "all integer coordinates in the boxes; all doubles for the refutation", "why_tests_cant": "foot points are rounded several times; whether the distance is recognised as zero must be shown for every direction", "anchors": ["src/core/Geometry.cpp: intersectionPointLineAndPlane, closestPointOnPlane, closestPointOnLine, isPointOnPlane, isPointOnLine, isPointOnLine with two end points, isSamePoint"]}
{"id": "C113", "title": "The circle through three points", "statement": "For three integer points up to 180 that are not on one line circleParameterBy3Points returns the centre of the circle up to 2^-52 of its coordinates and a radius whose square is the square of the distance up to 2^-48 of the size squared. Refuted: three points on one line also answer eOK, and no coordinate of the centre is a finite number.", "quantifier": "all triples of integer points in the box", "why_tests_cant": "the determinants cancel; nearly collinear triples are the hard cases", "anchors": ["src/core/Geometry.cpp: circleParameterBy3Points"]}
{"id": "C114", "title": "Angles of arcs and extension to an ellipse", "statement": "With start and end between 0 and 2 pi in this order and an angle as atan2 returns it, the angle is accepted if it lies between start and end after some whole turns and rejected if no number of turns brings it there, up to 2^-18. Refuted: an arc with negative angles misses its points, a start angle of 2^60 never ends the reduction, extensionPointOnEllipse divides by the minor axis instead of its square and takes the angle of the centre instead of the main axis, so rays that hit the ellipse find no point.", "quantifier": "all angles in the ranges, any number of turns; all fuels for the endless loop", "why_tests_cant": "the reduction is a loop over rounded angles; tests pick angles far from the limits", "anchors": ["src/core/Geometry.cpp: CheckAngle, PQCheck, extensionPointOnEllipse"]}
{"id": "C115", "title": "A NURBS curve answers its point", "statement": "For knots in nondecreasing order (equal or at least 2^-19 apart, up to 2^30), positive weights between 2^-10 and 2^10, degree 1 to 15 and a parameter t in the domain (a knot, or at least 2^-30 from the knots), point(t) is the exact point of the rational B-spline curve (basis functions of Cox and de Boor over the rational numbers) up to (7 n + 20 degree + 8) * 2^-53 times the largest coordinate, so it lies in every box around the control points up to this error. Control points and weights outside the degree + 1 neighbouring ones do not change a single bit of the value, and a curve whose first degree + 1 knots coincide starts exactly at its first control point.", "quantifier": "all curves up to 2^20 control points and degree 15, all parameters of the domain, all coordinates up to 2^900", "why_tests_cant": "the value is a recursive sum of rounded quotients whose error depends on all knots; tests compare a few points with rounding tolerance", "anchors": ["src/core/NURBS.cpp: Nurbs::point, Nurbs::N, Nurbs::R"]}
{"id": "C116", "title": "NURBS: sizes of the arrays and ends of the curve", "statement": "With at least as many weights as control points and at least controlCount + degree + 1 knots, point() is defined for every double, NaN included. Refuted: with one knot or weight less every call of point() reads outside the arrays, although the constructor accepts them (it only rejects degree 0); end() is never a parameter of the curve: for every curve point(end()) is NaN in every coordinate, as for every parameter before the first or from the last knot on.", "quantifier": "all arrays, all degrees, all doubles", "why_tests_cant": "reads outside arrays go unnoticed and the sizes range over all combinations", "anchors": ["src/core/NURBS.cpp: Nurbs::Nurbs, Nurbs::point, Nurbs::end"]}
{"id": "C117", "title": "A property keeps the value that was set", "statement": "The number (integer, double, bool, value with unit) and the text of a Property are read back exactly as they were last set, whatever other calls that do not set them come in between; setting the number leaves the text and setting the text leaves the number; type() is the type of the last setter; setValue copies text, number and type; no call changes id, group, name, hint, editor and the flags. Refuted: numbers are not converted between types - an integer n read as a double is n * 2^-1074; setBoolValue writes only the lowest byte of the number, and boolValue of an integer looks at that byte only and is undefined unless it is 0 or 1.", "quantifier": "all properties, all values of each type, all histories of calls", "why_tests_cant": "all histories of setters and all 2^64 numbers, and reads of stale union bytes go unnoticed", "anchors": ["src/core/Property.cpp: Property::setStringValue, setUnitValue, setIntegerValue, setDoubleValue, setBoolValue, setValue, integerValue, doubleValue, boolValue", "include/core/Property.h: Property"]}
{"id": "C118", "title": "Equal properties", "statement": "isValueEquals is an equivalence and holds exactly when text and number agree bit by bit, hence doubles and bools agree too. operator== is false for different ids or editors; with the same id and editor it compares the text (textfield, file, dwglayer), the integer (number, combobox, dwgcolour), the bool (checkbox) or unit and number up to a millionth (editor value or type kValue), and it is an equivalence on the first three. Refuted: isValueEquals tells 0.0 from -0.0 and two set checkboxes of which one held a number before; a property with any other editor is not equal to itself; neither is a value that is NaN or infinite; p == q and q == p can differ because only the type of the left operand counts; values with a unit are not transitive; comparing a checkbox set by setIntegerValue is undefined for numbers not 0 or 1 modulo 256.", "quantifier": "all pairs and triples of properties a program can build", "why_tests_cant": "reflexivity, symmetry and transitivity range over all pairs and triples of values and editors", "anchors": ["src/core/Property.cpp: operator==, Property::isValueEquals"]}
{"id": "C119", "title": "A Variant gives back its value", "statement": "A Variant built from an int64, a double or a string gives it back, and so do its copies and every object it is assigned to; toInt32 is the number modulo 2^32, and the number itself when it fits. Refuted: assigning a number over a string leaves the text, and a copy of that loses it; the number of a Variant built from a string is not initialised, so toInt64 and toDouble of it and of its copies read an undefined value.", "quantifier": "all values, all pairs of Variants", "why_tests_cant": "ranges over all numbers and all previous contents; uninitialised reads go unnoticed", "anchors": ["include/core/Property.h: Variant"]}
{"id": "C120", "title": "What the Deflater delivers", "statement": "For every compressor behind it: when the compressed stream is not longer than the input (below 4 GB), deflate delivers exactly that stream and its length; totalInSize and totalOutSize are the sums of the input and output lengths since construction or reset. Refuted: when the stream is longer than the input, deflate delivers its first bytes, as many as the input has, without any error; hence for every compressor whose streams start with two fixed bytes (as zlib's do), every receiver and every length there is an input that is not restored; of inputs of 4 GB and more only length mod 2^32 bytes are compressed; deflate before setInput is undefined.", "quantifier": "all inputs, all compressors and decoders, all histories of calls", "why_tests_cant": "the loss shows only on incompressible inputs, which exist for every length but depend on the compressor; the tests use one text", "anchors": ["src/core/Deflater.cpp: Deflater::setInput, Deflater::deflate, Deflater::reset, Deflater::totalInSize, Deflater::totalOutSize"]}
{"id": "C121", "title": "setMember sets the member and tells the undo manager", "statement": "After setMember on a string, bool or integer the member is the value, the status is eNotChanged exactly when it was before, and every change is told to the undo manager first. An integer outside the given range changes nothing, is answered with eInvalidInput and marks the transaction; a member inside its range never leaves it. A double becomes the new number (0.0 and -0.0 being the same) and never NaN, whatever is set in whatever order. A point is afterwards within a millionth of the set one in every coordinate. Refuted: setting a value outside the range that the member already has is not reported; moves of a point up to a millionth are dropped with eNotChanged; a point with NaN coordinates is accepted.", "quantifier": "all members, values and ranges, all histories of double values, with and without undo manager", "why_tests_cant": "ranges over all values, tolerances at their limits and all histories", "anchors": ["src/core/EditableObject.cpp: EditableObject::setMember"]}
{"id": "C122", "title": "SAX attributes", "statement": "After any calls of addAttribute, count, localName, qualifiedName and value by index give the local names and values in the order they were added, and throw outside; value, hasValue and indexOf by name find the first attribute with that local name, and an attribute that is missing is the empty string, 0 and false; valueAsInt gives back every integer that was written with String::valueOf; valueAsBool is true exactly for the text true in any case; an assigned object has the same attributes. Refuted: the copy constructor writes through pointers that were never initialised.", "quantifier": "all histories of addAttribute, all names and values, all indices, all numbers above -2^63", "why_tests_cant": "ranges over all histories with repeated names, and undefined behaviour can pass unnoticed", "anchors": ["src/core/SAXAttributes.cpp: SAXAttributes::addAttribute, indexOf, value, valueAsInt, valueAsBool, operator=, SAXAttributes(const SAXAttributes&)"]}
{"id": "C123", "title": "Object and world coordinates (arbitrary axis algorithm)", "statement": "For every extrusion direction of length 1 (up to 2^-45) ocsMatrix answers a right-handed orthonormal frame (up to 2^-40) whose third row is exactly the direction and whose first row lies in the plane y = 0 with the sign of Wy x N when |Nx| < 1/64 and |Ny| < 1/64, and in the plane z = 0 with the sign of Wz x N otherwise. wcsToOcs answers the coordinates of a point along these rows up to 2^(k-40) for points up to 2^k, -900 <= k <= 900; wcsToOcs followed by ocsToWcs, and the other way round, answers the point up to 2^(k-35). For the direction (0,0,1) both change nothing, for (0,0,-1) both answer exactly (-x, y, -z), for every point. Refuted: the direction is not normalised, so (0,0,2) doubles heights, and for the null direction ocsToWcs answers only NaN.", "quantifier": "all directions of doubles of length about 1, all points of doubles up to 2^900", "why_tests_cant": "Directions and points form a continuum; the choice of the x axis changes at 1/64 and the error bound must hold on both sides for every direction, including those close to the switch.", "anchors": ["src/core/Transform.cpp:ocsMatrix", "src/core/Transform.cpp:wcsMatrix", "src/core/Transform.cpp:wcsToOcs", "src/core/Transform.cpp:ocsToWcs", "src/core/Vertex3.cpp:normalize"]}
{"id": "C124", "title": "The log of System under threads", "statement": "After System::init, for any number of threads calling System::log, logEnableDate, logEnableLabel and lastErrorMessage in any interleaving of their single operations: at every moment the console, the last error message and the two settings are those left by a sequence of whole calls, one after the other and each thread's calls in its own order, plus at most a beginning of the one line that is being written. A line is the date (if enabled), the colour of errors and warnings, the translated label if the level is at least the label level, the message, and the end of the colour; debug messages show nothing; the last error message is that of the last error. No call is undefined, some thread can always go on, and no two accesses race as long as nobody calls lastErrorMessage. Refuted: lastErrorMessage reads without the mutex and races with an error that is logged; before System::init and after System::quit every message that gets a label, so every error message and every construction of an Exception, dereferences a null pointer.", "quantifier": "all programs of all threads, all schedules, all settings and messages", "why_tests_cant": "The property ranges over all interleavings of the operations of any number of threads.", "anchors": ["src/core/System.cpp:log", "src/core/System.cpp:logEnableDate", "src/core/System.cpp:logEnableLabel", "src/core/System.cpp:lastErrorMessage", "src/core/Mutex.cpp:lock", "src/core/Exception.cpp:Exception", "include/core/I18nBundle.h:Tr"]}
{"id": "C125", "title": "What a vector of unit tests reports", "statement": "TestVector::execute runs the tests of the vector in their order (null pointers are skipped): all of them if there is no argument, if the argument is not a number or if it is negative, otherwise only the one with this index. For each test it reports the number of its checks and of its failed checks, one of each more if it threw a jm::Exception, and it answers the sum of the errors, which is 0 exactly if all chosen tests return and all their checks succeed; the per-test counters are 0 afterwards, so this holds for every sequence of executions. A check of integers succeeds exactly if the numbers are equal, also for different types, of strings if their characters are equal (up to case), of doubles if they differ by less than 1E-6 (boundary up to 2^-72) and are finite. Refuted: an unsigned 64 bit value is compared with a negative int after conversion (2^64-1 'equals' -1); infinite values are never equal; the index of a test that does not exist runs nothing and is a success; an exception of another class leaves execute, and what it counted is added to the report of the next test.", "quantifier": "all vectors of tests, all checks and their arguments, all arguments of up to 18 characters, all executions one after the other", "why_tests_cant": "The library's own tests are run by this code: a vector that reports success wrongly hides every failure; it must be right for all vectors and all checks.", "anchors": ["src/core/TestVector.cpp:execute", "src/core/TestVector.cpp:testrun", "src/core/Test.cpp:testEquals", "src/core/Test.cpp:testFail", "src/core/Test.cpp:testUnexpectedException"]}
{"id": "C126", "title": "Resources and the streams they share", "statement": "Resource objects share one reference-counted stream with their copies. Whatever program copies, assigns and destroys Resource objects, a Resource that exists never refers to a deleted stream, and every program that only names existing objects and only uses resources that were found runs without undefined behaviour. Without assignments a stream is deleted exactly when the last Resource that refers to it is gone. Refuted parts: operator= forgets the stream of its left-hand side without releasing it, so that stream is never deleted, whatever happens afterwards; hence the search for a translation file by bundle id leaks one stream for each candidate that does not exist; and on Android a Resource that was not found has no stream, so open/read/seek/position/close/write on it dereference a null pointer (only size and exists are safe).", "quantifier": "all finite programs of constructions, copies, assignments, destructions and uses of any number of Resource objects", "why_tests_cant": "the programs are unbounded, a dangling stream or a leak shows only with a particular order of copies, assignments and destructions", "anchors": ["src/core/Resource.cpp:Resource::operator=", "src/core/Resource.cpp:Resource::~Resource", "src/core/I18nBundle.cpp:transFileByBundleId", "src/core/Object.cpp:retain/release"]}
{"id": "C127", "title": "Documents: the changed flag, the undo manager, and their lifetimes", "statement": "A document whose undo manager is never switched off goes through the same history of snapshots as C31 describes, whatever is done with its flags. If isDocumentChanged() is false and neither an undo step nor a transaction is open, the document's members are exactly what they were when setDocumentChanged(false) was called last (outside a transaction), whatever was edited, closed, undone, redone, committed and rolled back in between. setUndoManager(false), and the destructor, with no transaction open give back every reference the history held, keep the members, and set the changed flag if a step was open. A client that uses a manager only while it holds a reference or the document has it, and holds none any more when it deletes the document, never touches a deleted object, and no manager is left over. Refuted parts: an edit does not set the flag, so with the step still open isDocumentChanged() answers false after a save although the document was edited; with a transaction open the changes registered in it are leaked and keep their objects alive for ever; a retained manager is deleted by the document nevertheless (using or releasing it is undefined); a manager that was switched off and kept still writes to its document after the document was deleted. Without a manager the edits are made and answered as with one (unchanged value, value out of range), nothing is recorded, and switching a manager on afterwards cannot undo them.", "quantifier": "all histories of edits, closes, undo, redo, transactions, flag changes and saves (shorter than 2^32); all programs of retaining, releasing, switching and deleting", "why_tests_cant": "that an unset flag means an unedited document is a statement about every history; the lifetime errors depend on the order of releases", "anchors": ["src/core/Document.cpp:Document::~Document", "src/core/Document.cpp:Document::setUndoManager", "src/core/Document.cpp:Document::setDocumentChanged", "src/core/UndoManager.cpp:UndoManager::close", "src/core/UndoManager.cpp:UndoManager::~UndoManager", "src/core/EditableObject.cpp:EditableObject::setMember"]}
{"id": "C128", "title": "Files and directories: making, creating, removing, renaming, listing, asking", "statement": "makeDirectory succeeds exactly if the parent directory exists and nothing has that name, and adds an empty directory and nothing else. createNewFile succeeds exactly if the parent directory exists and nothing or a regular file is there; afterwards an empty regular file is there (the promise that an existing file is left alone is refuted: it is emptied and true is returned). remove deletes files, links and empty directories, and nothing else. renameTo moves everything below along, replaces what can be replaced, and leaves everything else; if it fails nothing changed. Of isDirectory, isFile, isLink and isPipe exactly one is true of what exists (asked where nothing is: undefined behaviour, also in remove, listFiles and compareTo: refuted). exists is true exactly if something is there (a link to nothing does not exist, but is a link). listFiles delivers every entry exactly once, and also '.' and '..'; a directory that changes meanwhile makes it throw or deliver null files (refuted). lastModified in milliseconds can be 999 seconds off and put the later of two times first (refuted). compareTo is an order, directories first. A directory can be opened for reading (refuted). Every sequence of these calls leaves a file system that makes sense.", "quantifier": "all well-formed file systems, paths, Files, sequences of calls, times", "why_tests_cant": "a test sees one directory tree; that renaming moves every entry below and touches nothing else, or that any sequence of calls keeps every entry in a directory, is about all trees", "anchors": ["src/core/File.cpp: makeDirectory, exists, isDirectory, isFile, isLink, isPipe, lastModified, remove, renameTo, listFiles, size, createNewFile, compareTo", "include/core/File.h: File"]}
{"id": "C129", "title": "Reading and writing files at positions, and the life of the handle", "statement": "An open File behaves like an array of bytes with a position: seek and move set it (throwing, and changing nothing, when it would be negative), read delivers the bytes from the position, as many as there are, write replaces the bytes from the position, fills a gap with zeros and extends the file; all other files keep their content. This holds for every sequence of operations that is defined; for a File opened one way every sequence is, opened both ways every sequence in which each read or write follows a seek (reading right after writing is undefined: refuted). What is written in any chunks, closed, opened again and read in any chunks is the same bytes. Opening for writing empties the file or creates it, a missing file or directory is reported. On a File that is not open every operation except close is undefined; copies share the handle, so closing both is undefined; a failing close keeps the dangling handle; opening an open File forgets the handle (all refuted).", "quantifier": "all file contents, positions, sequences of operations, chunk sizes, modes", "why_tests_cant": "a test checks a few reads and writes; that every interleaving of seeks, reads and writes agrees with the byte array is a statement about all sequences", "anchors": ["src/core/File.cpp: open, isOpen, close, seek, move, position, read, write, copy constructor, operator=, destructor"]}
{"id": "C130", "title": "Classes and cases of characters", "statement": "Every character is in at most one of the classes digit, upper case, lower case, white space; a letter is an upper or lower case character. digitValue is the value of a digit and -1 for everything else. toLowerCase changes A-Z and the three umlauts into their partners, toUpperCase back, and both leave everything else; both are idempotent, and the round trip lower-upper-lower is the same as lower. Refuted: the other capitals of Latin-1 count as upper case and their partners as lower case, but neither is changed by the case functions (so comparing without case tells them apart); beyond Latin-1 nothing is a letter or white space; the backspace is white space, the vertical tab is not.", "quantifier": "all 16 bit characters", "why_tests_cant": "a test tries some characters; the classes and the case functions must agree on all of them", "anchors": ["src/core/Character.cpp", "include/core/CharArray.h: Char"]}
{"id": "C131", "title": "Points and sizes", "statement": "cWiseMin and cWiseMax take the smaller and the greater of the coordinates (with a NaN the order of the arguments decides: refuted). On a grid sums, differences and integer multiples are exact, and sum and difference undo each other (off a grid a summand can vanish: refuted). Two sizes are == exactly if both sides differ by less than 1E-6 (up to the last bits of the bound); != is the negation, == is symmetric; it is not transitive and an infinite or undefined size differs from itself (refuted).", "quantifier": "all points and sizes with double coordinates, all grids", "why_tests_cant": "rounding, NaN and tolerance make the laws depend on the values; a test sees a few values", "anchors": ["src/core/Point.cpp", "src/core/Size.cpp"]}
{"id": "C132", "title": "The printed report of a difference", "statement": "For integers, texts, doubles and vertices DiffInfo::print writes, for an added or removed field, one line with its value, for a changed field one line with both values (and their difference for numbers) exactly if they differ (texts: different, or different up to case; doubles: not within 1E-6), and otherwise nothing; the integer values can be read back from the line. int64 differences outside the range are undefined, unsigned ones wrap, characters outside Windows-1252 are cut (refuted). The report of a comparison of two sequences consists of one entry (A, D, M or R) per change, the number of which is the least possible, is empty exactly for sequences equal element by element, and is one line per change for objects without details of their own. The object named by an entry can be the wrong one (refuted).", "quantifier": "all integers, texts, doubles and vertices; all pairs of sequences of objects with a symmetric equals, all types, names and details of the objects", "why_tests_cant": "the count of entries depends on the whole edit trace, the lines on all values; a test compares a few outputs", "anchors": ["src/core/DiffInfo.cpp", "src/core/DiffBacktrace.cpp"]}
{"id": "C133", "title": "Settings across the sessions of a program", "statement": "Whatever sequence of System::init, use of the preferences, System::savePreferences, System::quit and ends of the process (normal or not) a program and its successors run through, with any bundle ids, the preferences answer like one map per bundle: init shows what was saved for that bundle last, a setting is seen from then on in the session, savePreferences and quit keep the map, and the end of a process loses exactly what was not saved (settings that C71 allows to be read back; file operations that succeed; a process that has called quit does not initialise again). Refuted parts: after quit the character sets are deleted, so a second init in the same process, and every conversion of a String to bytes (toCString, the path of a File, console output), is undefined behaviour; a second init without quit forgets the settings that were not saved. If the process dies while the settings are written, between two lines, the settings of the lines written are there and no others; at another byte the last value is cut (counterexample), and a death right after the file is opened loses all settings of the bundle, also those of earlier sessions (refuted part: the file is truncated first, there is no copy).", "quantifier": "all sequences of sessions (shorter than 2^57 calls), all bundle ids, all settings that can be read back, all numbers of lines written before the process dies", "why_tests_cant": "what a program finds depends on the whole history of sessions and on where a crash hit", "anchors": ["src/core/System.cpp:System::init", "src/core/System.cpp:System::quit", "src/core/System.cpp:System::savePreferences", "src/core/Preferences.cpp:Preferences::load", "src/core/Preferences.cpp:Preferences::save", "src/core/Charset.cpp:quitCharsets", "src/core/Charset.cpp:Charset::forName", "src/core/String.cpp:String::toCString"]}
{"id": "C134", "title": "Objects and the life of the autorelease pool", "statement": "A program that creates its objects between System::init and System::quit, retains only objects that somebody holds, gives back (release or autorelease) only references it holds, and holds none when it quits, never touches a deleted object, whatever the order of its calls and drains: an object exists exactly while there are references of it, its counter is their number, and after quit every object is freed, also those given to autorelease and never drained. Refuted parts: an object created before init (a static object) or after quit has no pool: it is never freed however often it is released, and retain and autorelease dereference a null pointer; an object that is still alive after quit can neither be released nor retained nor given to autorelease (its pool is deleted); an object deleted otherwise while the pool has it (an autoreleased object on the stack, a plain delete) makes the next drain, or quit, undefined.", "quantifier": "all histories of creating, retaining, releasing, autoreleasing, draining, initialising and quitting (shorter than 2^31 - 1)", "why_tests_cant": "which object is alive depends on the whole history; the undefined cases need the order of static initialisation and shutdown", "anchors": ["src/core/Object.cpp:Object::Object", "src/core/Object.cpp:Object::release", "src/core/Object.cpp:Object::retain", "src/core/Object.cpp:Object::autorelease", "src/core/AutoreleasePool.cpp:AutoreleasePool::~AutoreleasePool", "src/core/System.cpp:System::init", "src/core/System.cpp:System::quit"]}
{"id": "C135", "title": "An Inflater reports its progress and can be used again after Reset", "statement": "Whenever Inflate comes back from data given to a new Inflater (with or without header), the Inflater is finished and needs no input, GetTotalIn and GetRemaining together are the length of the data, nothing behind the data was read, and GetTotalOut is the length of the result. After Reset, whatever the Inflater has been through (data half read, an exception, the result deleted by the caller), SetInput and Inflate do what a new Inflater does; so any chain of inputs with a Reset before each is decoded as by new Inflaters. Refuted parts: without a Reset, SetInput and Inflate begin at the old bit position and take every block for the last one, so that later data are decoded to other bytes or only in part, without an exception; the caller must delete the result, but the Inflater goes on writing into it, so the next Inflate without Reset touches freed memory (it can only come back with an empty result); the byte whose first bits end the stream counts as not read; a match in a fixed block that reaches back 32768 bytes gives bytes of the result that were never written (old contents of the memory).", "quantifier": "all data, with and without header, all growths of the output buffer, both orders of evaluation, all states an Inflater can be in before Reset, all chains of inputs", "why_tests_cant": "the counters must be right on every stream that is accepted, and Reset after every state that earlier data can leave", "anchors": ["src/core/Inflater.cpp:Inflater::Inflate", "src/core/Inflater.cpp:Inflater::Reset", "src/core/Inflater.cpp:Inflater::SetInput", "src/core/Inflater.cpp:Inflater::NeedsInput", "src/core/Inflater.cpp:Inflater::Finished", "src/core/Inflater.cpp:Inflater::GetRemaining", "src/core/Inflater.cpp:Inflater::GetTotalIn", "src/core/Inflater.cpp:Inflater::GetTotalOut"]}
{"id": "C136", "title": "The language of the program and the search for its translations", "statement": "With one locale for everything (LC_ALL, or LANG alone), System::language is the name of the locale in front of the character set, or C if the locale is not installed. For every file name, language and set of files, the translation file is the first that exists of <name>.<ll_RR>.mo, <ll_RR>.mo, <name>.<ll>.mo and <ll>.mo in translations (and the last one if there is none), with minus and underscore meaning the same; so a user of ll_RR.codeset gets the translations of his region, else those of his language; without a bundle id nothing is looked for. Refuted parts: as soon as two categories have different locales (LANG and LC_TIME, say), the language begins with LC_CTYPE= and the program looks for translations of a language LC, never for the user's; System::init looks for the file with an empty name, so the bundle id makes no difference and <bundle>.de_DE.mo is never found; a locale such as de@euro without region does not find the translations of de.", "quantifier": "all environments, installed locales, languages, regions, character sets, file names and sets of existing files", "why_tests_cant": "tests run in the locale of the build machine; what is found depends on the environment and on which files exist", "anchors": ["src/core/System.cpp:System::language", "src/core/I18nBundle.cpp:I18nBundle::initDefault", "src/core/I18nBundle.cpp:I18nBundle::transFileByBundleId"]}
{"id": "C137", "title": "Character sets by name", "statement": "Charset::forName answers exactly for the seven names UTF-8, Windows-1252, MacRoman, UTF-16LE, UTF-16BE, RAW and ASCII, letter by letter, with the set of that name; the default set is that of UTF-8, and every answer of Charset::guess is such a name. A text whose characters the named set has survives String::toCString(charset) and String(bytes, charset): for UTF-8 every text of 16 bit characters without 0 and without a leading mark, for RAW and ASCII the characters 1 to 127, for Windows-1252 and MacRoman the characters of their bytes (except the five undefined ones, and 127, 146, 147 and 176). Read by the set that guess names, an ASCII text of two and more characters, and a UTF-8 text behind a byte order mark, come back unchanged; for UTF-16 text behind a byte order mark of either order guess names the set that reads the characters in that order, up to the first character whose first byte is 0 (where the code stops). Refuted parts: other spellings (utf-8, UTF8, ISO-8859-1) are not known and using the answer is undefined, and so it is with every name after System::quit; RAW and ASCII give back the characters 128 to 255 as 65408 and above; no text survives in UTF-16BE (undefined behaviour) or UTF-16LE (bytes swapped); a UTF-8 text without mark is guessed to be ASCII and its umlauts are lost.", "quantifier": "all names, all texts (bytes below 2^32), before and after System::quit", "why_tests_cant": "the round trip must hold for every text of the set, and the table of names for every name", "anchors": ["src/core/Charset.cpp:Charset::forName", "src/core/Charset.cpp:Charset::hasName", "src/core/Charset.cpp:Charset::getDefault", "src/core/Charset.cpp:Charset::guess", "src/core/Charset.cpp:quitCharsets", "src/core/String.cpp:String::toCString", "src/core/String.cpp:String::String"]}
{"id": "C138", "title": "Stack trace of an exception", "statement": "On Linux, an Exception made with any message in any depth of calls, and any copy of a copy of it, answers errorMessage with the message and GetStrackTrace with one header line (the message after a colon unless it is empty) and one line for each of the at most nine innermost calls around the constructor, innermost first, each line a tabulator, the letter a and the name of the call, every line ending in CR LF; printStackTrace writes the same with the number of the thread, in Windows-1252, ending in LF. Calls further out never matter. If the path of the program is not UTF-8 (the bytes FF FE in it), making an exception reads behind a buffer.", "quantifier": "every message, every stack of calls with names in UTF-8, every number of copies, every thread number", "why_tests_cant": "the number and names of the calls, the message and the number of copies are unbounded; a test sees the stack of the test only", "anchors": ["src/core/Exception.cpp:Exception::Exception", "src/core/Exception.cpp:Exception::GetStrackTrace", "src/core/Exception.cpp:Exception::printStackTrace", "include/core/Exception.h:Exception"]}
{"id": "C139", "title": "Eigenvalues of small matrices", "statement": "Matrix::eigen answers a vector with as many elements as the matrix has rows for every square matrix up to 3x3 of any doubles, reading nothing outside the matrix or uninitialised, and throws for every other shape. A 1x1 matrix answers its element. A 2x2 matrix of numbers on a binary grid with eigenvalues on the grid answers exactly these, the smaller one first; with complex eigenvalues it reports no error and answers NaN twice. A 3x3 matrix whose elements above the diagonal are zero answers its diagonal in its order, whatever is below the diagonal. The trigonometric branch: for a 3x3 matrix with n*2^k on the diagonal and s*2^k (s = 1 or -1) everywhere else, |n| up to 2^24, the answers are within 2^(k-24) of the eigenvalues n+2s, n-s, n-s, the greatest first, provided the C library squares exactly what can be squared exactly and its cosine is right up to 2^-52 between 0 and 4.", "quantifier": "every matrix of any size and any doubles; every 2x2 matrix of grid numbers z*2^k with |z| <= 2^24 and -250 <= k <= 225; every implementation of pow, acos and cos", "why_tests_cant": "the matrices and grids are far too many to try, and exactness must hold for each of them", "anchors": ["src/core/Matrix.cpp:Matrix::eigen"]}
{"id": "C140", "title": "Transformation matrix of an extrusion direction", "statement": "Matrix::initWcs makes any matrix (of any former size) the 4x4 transformation of the direction given: for every direction and every vertex of doubles, infinities and NaN included, transforming the vertex answers exactly the doubles ocsToWcs answers, up to the sign of a zero, and nothing is undefined; the matrix has the places of wcsMatrix in its upper left 3x3 places, 1 in the corner and 0 elsewhere. For a direction of length 1 (up to 2^-45) and a point up to 2^k, -900 <= k <= 900, transforming the object coordinates of the point answers the point up to 2^(k-35).", "quantifier": "all matrices, all directions and vertices of doubles", "why_tests_cant": "directions and vertices form a continuum, and a transposed or forgotten place is invisible for symmetric frames", "anchors": ["src/core/Matrix.cpp:Matrix::initWcs", "src/core/Matrix.cpp:Matrix::trans", "src/core/Transform.cpp:wcsMatrix", "src/core/Transform.cpp:ocsToWcs"]}
{"id": "C141", "title": "Degrees and radians", "statement": "For every double x that is 0 or between 2^-900 and 2^900 in absolute value, degToRad(x) is x*pi/180 and radToDeg(x) is x*180/pi, for the real number pi, within a relative error of 2^-51; converting there and back answers x within a relative error of 2^-49 (for 2^-880 to 2^880). Both keep the order of all doubles up to 2^900. degToRad answers for 90, 180, 270 and 360 exactly the doubles of pi/2, pi, 3pi/2 and 2pi, and radToDeg answers 90, 180 and 360 for pi/2, pi and 2pi; zeros, infinities and NaN stay what they are. Refuted: 13 degrees do not come back exactly, and 2^1023 degrees become infinite although the number of radians is a double.", "quantifier": "all doubles of the ranges given", "why_tests_cant": "the error bound against the irrational number pi must hold for every double, and the order for every pair of them", "anchors": ["src/core/Math.cpp:degToRad", "src/core/Math.cpp:radToDeg"]}
{"id": "C142", "title": "Where a ray meets an arc", "statement": "An arc that starts at an angle s >= 0 and ends at e with s + 2^-18 <= e <= 2pi - 2^-18 contains a point of its circle exactly when some whole number of turns brings the angle of that point (as atan2 answers it, within -pi..pi) between s and e; only angles within 2^-18 of the ends are left open. For a ray along one of the axis directions, with whole coordinates up to 2^11, extensionPointOnArc answers the NaN vertex when the line misses the circle or when both meeting points lie behind the start; when the chord has a whole length 2h > 0 it answers exactly the nearest meeting point ahead of the start that lies on the arc, at its exact position, and the NaN vertex if neither of them is on the arc. Refuted: a start angle of 2^57 or of infinity makes the call never end.", "quantifier": "all atan2 functions, centres, radii, rays and arcs of the ranges given", "why_tests_cant": "the answer must be right for every ray, circle and arc, and the angle test depends on bounds against the irrational number pi", "anchors": ["src/core/Geometry.cpp:extensionPointOnArc", "src/core/Geometry.cpp:PQCheck", "src/core/Geometry.cpp:CheckAngle"]}
