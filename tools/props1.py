import json
P=[]
def p(i,title,statement,quant,why,anchors):
    P.append(dict(id=i,title=title,statement=statement,quantifier=quant,why_tests_cant=why,anchors=anchors))
p("C01","Base64 round trip","Base64::decode applied to the output of Base64::encode gives the original bytes back: exactly the input when its length is a multiple of 3, and otherwise the input followed by exactly one extra zero byte (so the exact round trip a user expects is violated for two thirds of all lengths).","every byte string of every length (below the 32 bit length limit of decode)","the input space is unbounded and the failure depends on length mod 3 only","src/core/Base64.cpp: Base64::encode, Base64::decode".split(";"))
p("C02","Base64 encoding conforms and stays in its buffer","Base64::encode produces exactly the RFC 4648 encoding: 4*ceil(n/3) characters, only alphabet characters followed by at most two '=', every 3-byte group mapped to its four 6-bit digits; no write ever leaves the allocated buffer and the overflow exception is never thrown.","every byte string","every length and byte value, plus absence of out-of-bounds writes",["src/core/Base64.cpp: Base64::encode"])
p("C03","CRC is the reflected CRC-16 and can be computed in chunks","CRC::crc8(init, buffer, n) equals the bit-by-bit reflected CRC-16 with polynomial 0xA001, and feeding a buffer in two pieces, passing the first result as initial value of the second call, gives the same value as one call.","every initial value, every buffer, every split point","unbounded buffers and a 256 entry table that must agree with the polynomial everywhere",["src/core/CRC.cpp: CRC::crc8, crctable"])
p("C04","CRC detects every corrupted byte","Two buffers of the same length that differ in exactly one byte always have different CRC::crc8 values for the same initial value; more generally a checksum error burst confined to two adjacent bytes is always detected.","every initial value, prefix, suffix and pair of different bytes","detection must hold for every error position and value",["src/core/CRC.cpp: CRC::crc8"])
p("C05","UTF-8 encode/decode round trip","Decoding the UTF-8 encoding of a string returns the same string, for every string of 16 bit units that has no NUL and does not begin with U+FEFF; a leading U+FEFF is dropped.","every string of 16 bit units","2^16 symbols, unbounded length and interactions at boundaries between characters",["src/core/UTF8Decoder.cpp: UTF8Decoder::encode, UTF8Decoder::decode"])
p("C06","UTF-8 decoding stays inside the C string","Decoding a NUL terminated byte string whose multi-byte sequences are complete reads no byte after the terminator and yields one unit per sequence; for a sequence cut off by the terminator, or an FF FE pair inside the text, the decoder does read past the terminator.","every NUL terminated byte string","memory safety over all malformed inputs",["src/core/UTF8Decoder.cpp: UTF8Decoder::decode"])
p("C07","UTF-8 encoder output is the standard encoding, four byte sequences lose their high bits","The encoder emits exactly the RFC 3629 byte sequence of every 16 bit unit and its size pre-computation equals the bytes written; decoding a valid four byte sequence yields the code point modulo 2^16.","every 16 bit unit sequence; every code point from U+10000 to U+10FFFF","all code points",["src/core/UTF8Decoder.cpp: UTF8Decoder::encode, UTF8Decoder::decode"])
p("C08","Single byte charsets round trip","For Windows-1252, encode(decode(bytes)) returns the same bytes for every byte string without NUL and without the five undefined bytes 81 8D 8F 90 9D, and decode is injective on those bytes; the undefined bytes are all mapped to U+0000 and back to 8D.","every byte string","must hold for all byte sequences",["src/core/Windows1252Decoder.cpp: Windows1252Decoder::decode, Windows1252Decoder::encode"])
p("C09","UTF-16 round trip","The UTF-16 encoder always emits big endian; big endian decoding returns the original string when no unit has a zero low byte and the text carries no byte order mark, otherwise the result is truncated; a byte order mark followed by ASCII text decodes to the empty string.","every string of 16 bit units","all unit values including those with zero bytes",["src/core/UTF16Decoder.cpp: UTF16Decoder::decode, UTF16Decoder::encode"])
p("C10","String operations act on the sequence of characters","After any sequence of mutating String calls (append, insert, setCharAt, deleteCharAt, deleteCharRangeAt, clear, zero) the string's observable characters are those of the corresponding list edits, and an out of range index throws and leaves the string unchanged.","every history of calls with every argument","every history, with arbitrary capacity state",["src/core/String.cpp: String::append, String::insert, String::setCharAt, String::deleteCharAt, String::deleteCharRangeAt, String::clear, String::zero, String::checkCapacity"])
p("C11","String storage invariant","After any history the stored length never exceeds the allocated capacity and no String mutation writes outside the allocated buffer (deleteCharRangeAt with a length beyond the end is the exception: it makes the length negative).","every history of calls","memory safety over all histories",["src/core/String.cpp: String::checkCapacity, String::copy, String::append, String::insert"])
p("C12","String searching","indexOf(Char), lastIndexOf(Char) and lastIndexOf(String) return the first / last position of an occurrence inside the string or -1; indexOf(String) does so too whenever the pattern cannot run over the end, but it compares characters after the logical end, so it can read outside the buffer or report a match that is not in the string.","every string, pattern, start index and buffer content","all contents including stale characters behind the end",["src/core/String.cpp: String::indexOf, String::lastIndexOf"])
p("C13","String comparison is a total order","compareTo is the lexicographic order on 16 bit units: antisymmetric, transitive, total, and zero exactly for equal strings; equals is an equivalence deciding equality of contents.","every pair and triple of strings","quantifies over all pairs and triples",["src/core/String.cpp: String::compareTo, String::equals"])
p("C14","Hash codes of equal strings","Strings that were never hashed nor derived from a hashed string and that are equal have equal hash codes, given by the polynomial sum(31^k*c) mod 2^32; but two calls of hashCode on one string can disagree (the first is unsigned, the cached one sign extended) and assignment, toLowerCase, toUpperCase, replace(Char,Char) and reverse keep a stale cached hash.","every string and every history of calls","depends on call history",["src/core/String.cpp: String::hashCode, String::constHashCode, String::operator=, String::reverse"])
p("C15","String replacement","replace(old,new) with a non-empty pattern replaces the non-overlapping occurrences from left to right and terminates; with an empty pattern and a non-empty string it never terminates.","every string, pattern and replacement","termination and result for all inputs",["src/core/String.cpp: String::replace"])
p("C16","Integer formatting round trip","toInt(valueOf(n)) = n for every signed 64 bit n except the minimum (for which negation overflows), valueOf writes canonical decimal without leading zeros, and valueOf of unsigned numbers writes their canonical decimal.","every 64 bit integer","2^64 values",["src/core/String.cpp: String::valueOf, String::toInt"])
p("C17","Hexadecimal round trip","Integer::fromHex(Integer::toHexString(n)) = n for every n >= 0, the text is canonical upper case hexadecimal, and negative numbers yield the empty text.","every 64 bit integer","2^64 values",["src/core/Integer.cpp: Integer::toHexString, Integer::fromHex"])
p("C18","Roman numerals","Integer::toRomanString(n) for n > 0 is a numeral whose value, read by the standard subtractive rule, is n, and different numbers get different numerals.","every positive integer","unbounded n",["src/core/Integer.cpp: Integer::toRomanString"])
p("C19","Latin alphabet numbering","Integer::toLatinAlphabetString numbers 1..25 as A..Y; whenever a remainder modulo 26 is zero (first at 26) the output contains the non-letter '@', otherwise the text read in base 26 gives back the number.","every positive number below 2^31*26","all numbers",["src/core/Integer.cpp: Integer::toLatinAlphabetString"])
p("C20","Tokenizer","Repeatedly calling next() while hasNext() yields exactly the maximal delimiter free substrings in order (delimiters not returned), and with delimiter return the concatenation of all tokens is the input and every token is a single delimiter or a maximal delimiter free piece; hasNext() may be called any number of times without effect; calling next() at the end throws.","every string, delimiter set and interleaving of hasNext/next calls","every input and call interleaving",["src/core/StringTokenizer.cpp: StringTokenizer::next, StringTokenizer::hasNext","src/core/String.cpp: String::split"])
p("C21","StringList behaves as a list","After any history of append, remove, set, clear, reserve, sort the list's contents equal those of a plain sequence, remove deletes every occurrence, join inserts the divider exactly between elements, and no element write leaves the array.","every history of calls","every history with arbitrary capacities",["src/core/StringList.cpp: StringList::append, StringList::remove, StringList::checkSize, StringList::join, StringList::sort"])
p("C22","arg() substitution","arg(value) replaces the lowest numbered place marker %n (first one in the text for equal numbers) by the padded value and leaves everything else unchanged; a text without '%' is returned unchanged.","every text, value, width","all texts",["src/core/String.cpp: String::arg, String::argIndicies"])
p("C23","URL coding round trip","URLDecode(URLEncode(s)) = s for every ASCII string without NUL.","every ASCII string","unbounded inputs",["src/core/String.cpp: URLDecode, URLEncode"])
p("C24","Hashtable behaves as a finite map","For keys with consistent hash codes, after any history of put, get, remove, containsKey, clear (including all rehashes) every result equals that of a finite map, put returns the previous value, size is the number of keys.","every history of operations and keys, every hash collision pattern","all histories, sizes and collision patterns",["src/core/Hashtable.cpp: Hashtable::put, Hashtable::get, Hashtable::remove, Hashtable::rehash, Hashtable::clear"])
p("C25","Hashtable iteration","The iterators visit every entry exactly once, for every table state, and end after size() steps.","every reachable table","all table states",["src/core/Hashtable.cpp: HashtableIterator::hasNext, HashtableIterator::next"])
p("C26","Hashtable lookups after hashing a key","A value stored under a key can be lost: if the key object had its hash cached before put and its 32 bit hash has the top bit set, get with an equal fresh key returns nullptr; containsKey is false for stored null values.","every key with top bit set in its hash","needs particular hash values and call history",["src/core/Hashtable.cpp: Hashtable::put, Hashtable::get","src/core/String.cpp: String::hashCode"])
p("C27","Sorting","Array::sort, ByteArray::sort, StringList::sort terminate and leave a sorted permutation of the elements, stable with respect to compareTo.","every array and every total preorder compareTo","all inputs, termination",["include/core/Array.h: Array::sort","src/core/ByteArray.cpp: ByteArray::sort","src/core/StringList.cpp: StringList::sort"])
p("C28","Stack is last-in-first-out","Any history of push, pop, top, top2, top3, reverse, clear gives the results of a list used as stack; size equals the number of elements; top2/top3 throw exactly when there are too few elements.","every history","all histories",["include/core/Stack.h: Stack::push, Stack::pop, Stack::reverse, Stack::top2, Stack::top3"])
p("C29","LinkedList behaves as a sequence","Any history of add, addBefore, remove, clear, rewind, hasNext/next, first, last, size has the results of a plain sequence, and the internal forward and backward chains always agree.","every history of calls","all histories and aliasings of the node graph",["src/core/LinkedList.cpp: LinkedList::add, LinkedList::addBefore, LinkedList::remove, LinkedList::clear"])
p("C30","Undo of LinkedList edits","If list edits are made with an active undo manager and the step is closed, undo restores exactly the previous list (forward, backward, count) and redo exactly the edited list.","every history of edits in any number of steps","all histories and undo depths",["src/core/LinkedList.cpp: LinkedList::add","src/core/UndoManager.cpp: UndoManager::undo, UndoManager::redo"])
p("C31","Undo and redo are inverse","If every modification of a value is preceded by registerChange on it, undo restores every registered value to its content before the step, redo restores the content after the step, and any interleaving of undo/redo leaves the memory determined by the number of applied steps.","every history of changes, closes, undos and redos, including repeated changes of one value in one step","all histories",["src/core/UndoManager.cpp: UndoManager::undo, UndoManager::redo, UndoManager::registerChange","src/core/UndoChange.cpp: swap"])
p("C32","Undo bookkeeping","undoCount/redoCount always equal the number of steps that can be undone/redone; undo/redo return false and change nothing exactly when a step is open or the stack is empty; registering a change outside a transaction clears the redo stack; close() with no changes does nothing.","every history of calls","all histories",["src/core/UndoManager.cpp: UndoManager::close, UndoManager::undoCount, UndoManager::redoCount"])
p("C33","Transactions","A rolled back transaction restores all registered values to the content before the outermost openTransaction and adds nothing to the undo history; a committed one is undone as one step; only the outermost level takes effect; closeTransaction rolls back exactly if some registered status was neither eOK nor eNotChanged.","every nesting depth and history inside the transaction","all histories and nesting depths",["src/core/UndoManager.cpp: UndoManager::openTransaction, UndoManager::closeTransaction, UndoManager::commit, UndoManager::rollback, UndoManager::registerTransactionStatus"])
p("C34","Objects referenced by the undo history stay alive","Every object whose reference is stored in an undo or redo step has a positive reference count until that step is deleted, and deleting the steps gives back exactly the references taken.","every history of reference changes","all histories",["src/core/UndoChange.cpp: UndoChangeObjectRef","src/core/Object.cpp: Object::retain, Object::release"])
p("C35","Calendar round trip","For every date (year, month, day) with every time of day the Date built from it reports exactly that year, month, day, hour, minute, second, millisecond; and every millisecond time stamp is rebuilt exactly from its reported fields.","every civil date representable, every time stamp","unbounded range of time stamps incl. negative and leap years",["src/core/Date.cpp: Date::makeDay, Date::yearFromTime, Date::monthFromTime, Date::dateFromTime"])
p("C36","Date fields are in range","Reported month is 0..11, day of month 1..length of that month in the Gregorian calendar, hours 0..23, minutes 0..59, seconds 0..59, milliseconds 0..999 for every time stamp; the leap year rule is the Gregorian one.","every time stamp","unbounded range",["src/core/Date.cpp"])
p("C37","Day of week","day() is the correct week day for every time stamp at or after 3 January 1970 minus 7 days; for earlier dates it is off by seven (negative), agreeing modulo 7 with the correct week day.","every time stamp","sign dependent, unbounded",["src/core/Date.cpp: Date::weekDay"])
p("C38","Date text and ordering","toString yields the ISO 8601 text of the fields for years 0..9999, texts of such dates order lexicographically exactly as the dates, and the comparison operators agree with compareTo and form a total order.","every pair of dates","all pairs",["src/core/Date.cpp: Date::toString, Date::compareTo"])
p("C39","Floor division","divFloor and modFloor are floor division and remainder: x = y*divFloor(x,y)+modFloor(x,y) with the remainder having the sign of y and smaller magnitude, for all y != 0 except INT64_MIN / -1.","every pair of 64 bit integers","2^128 pairs",["src/core/Math.cpp: divFloor, modFloor"])
p("C40","Bit tricks","powerOf2(x) holds exactly for powers of two; ceilPowerOf2(x) is the least power of two >= x for 1 <= x <= 2^31 and 0 for 0 and above; the xor swap exchanges two distinct variables of every integer width and zeroes a variable swapped with itself.","every 32 bit integer","2^32 values / pairs",["src/core/Math.cpp: powerOf2, ceilPowerOf2, swap"])
p("C41","Diff distance is the Levenshtein distance","DiffDistance::solve computes exactly the edit distance of the two sequences (insert, delete, substitute cost 1), for every pair of sequences and every symmetric equality.","every pair of sequences","unbounded sequences; lazy evaluation order",["src/core/DiffDistance.cpp: DiffDistance::solve","src/core/DiffDiag.cpp: DiffDiag::entry"])
p("C42","Diff script is correct and minimal","The returned back trace starts with kDiffStart, its operations consume exactly the first sequence and produce exactly the second one, and the number of non-equal operations is the distance.","every pair of sequences","unbounded sequences",["src/core/DiffBacktrace.cpp: DiffBacktrace::backtrace"])
p("C43","Objects reported by the diff","Modified entries carry the pair of elements; added/deleted entries on the branch that goes to the neighbouring longer diagonal carry the element of the wrong sequence.","every pair of sequences","needs particular alignments",["src/core/DiffBacktrace.cpp: DiffBacktrace::backtrace"])
p("C44","XML text round trip","Text written by XMLWriter::writeCData with encoding and read back by SAXParser arrives as the same characters except that every apostrophe is lost (written as &apos;, which the parser ignores).","every text","all texts",["src/core/XMLWriter.cpp: XMLWriter::Encode","src/core/SAXParser.cpp: SAXParser::parse"])
p("C45","XML writer output is well nested","For any history of writer calls ending with all elements closed, the written tags are balanced, every start tag is closed exactly once in matching order, and attribute writes after content are ignored.","every history of writer calls","all histories",["src/core/XMLWriter.cpp"])
p("C46","XML attribute round trip","Attributes written by writeAttribute are reported by SAXParser with the same names, in the same order, and the same values except for lost apostrophes.","every list of names and values","all values",["src/core/XMLWriter.cpp: XMLWriter::writeAttribute","src/core/SAXParser.cpp: SAXParser::parseTagString"])
p("C47","Memory stream reading","Reading a MemoryStream in chunks of any sizes returns the successive bytes of the buffer, each exactly once, never beyond its end, and 0 at the end.","every buffer, chunk sequence","all chunkings",["src/core/MemoryStream.cpp: MemoryStream::read"])
p("C48","Memory stream writing and seeking","A write that fits is stored at the position and advances it by the length; a write that does not fit copies beyond the buffer end; seek and move accept negative positions, after which read leaves the buffer.","every buffer, position and length","memory safety over all histories",["src/core/MemoryStream.cpp: MemoryStream::write, MemoryStream::seek, MemoryStream::move"])
p("C49","ByteArray storage","resize keeps the common prefix, growing beyond the allocation appends zero bytes, but growing inside the allocation after a shrink exposes old bytes; after a reallocating resize the terminator is not written; replace(tgtOffset,...) ignores the target offset.","every content and history of sizes","all histories",["src/core/ByteArray.cpp: ByteArray::resize, ByteArray::replace"])
p("C50","Checked array access","Array::get/set/operator[] access exactly the addressed element when 0 <= index < size and throw without any effect otherwise; copies are independent of the original.","every array and index","all indices",["include/core/Array.h: Array::get, Array::set, Array::operator="])
p("C51","Reference counting under threads","For every interleaving of retain and release calls by any number of threads in which each thread owns the references it gives back, the object is deleted exactly once, exactly by the release of the last reference, and never touched by a counted operation after deletion.","every number of threads and every interleaving","schedules",["src/core/Object.cpp: Object::retain, Object::release"])
p("C52","Autorelease pool","drain() releases every object added since the last drain exactly once per add, in order, and leaves the pool empty, for every interleaving of add and drain calls.","every history and interleaving","schedules and histories",["src/core/AutoreleasePool.cpp: AutoreleasePool::drain, AutoreleasePool::add"])
p("C53","Case conversion","toLowerCase and toUpperCase keep the length, change only A-Z/a-z and the three German umlauts, are idempotent, and equalsIgnoreCase is an equivalence relation that holds exactly if the lower case forms are equal.","every string","all strings",["src/core/Character.cpp: Char::toLowerCase, Char::toUpperCase","src/core/String.cpp: String::equalsIgnoreCase"])
p("C54","Date patterns","DateFormatter output is the concatenation of the renderings of the pattern's runs in order; two-letter numeric fields are always two digits for valid years; quoted text is copied verbatim when no unquoted run precedes it directly.","every pattern and date","all patterns",["src/core/DateFormatter.cpp: DateFormatter::DateFormatter, DateFormatter::format"])
open('/verif/properties.jsonl','w').write(''.join(json.dumps(x,ensure_ascii=False)+'\n' for x in P))
print(len(P))
