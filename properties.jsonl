{"id": "C01", "title": "Tcl escaping is lossless", "statement": "wvtcl_unescape(wvtcl_escape(s, nasties)) == s for every non-null string s and every set of nasty characters.", "quantifier": "every byte string without NUL, every nasties mask", "why_tests_cant": "The escaper chooses between verbatim, braces and backslashes from brace balance and trailing backslashes; the choice interacts with every possible string.", "anchors": ["utils/wvtclstring.cc: wvtcl_escape, wvtcl_unescape"]}
{"id": "C02", "title": "Tcl lists survive encode then decode", "statement": "wvtcl_decode(wvtcl_encode(l, nasties, sep), sep) gives back l: same elements, same order, for every list of non-null strings, when the separator characters are among the nasties. The only exception the code has is characterised exactly.", "quantifier": "every list of NUL-free strings, every nasties mask, every separator mask contained in it", "why_tests_cant": "Element boundaries depend on brace depth, escapes and continuation state carried across arbitrary content.", "anchors": ["utils/wvtclstring.cc: wvtcl_encode, wvtcl_decode, wvtcl_getword"]}
{"id": "C03", "title": "Reading a word from a buffer never loses or reorders data", "statement": "wvtcl_getword(buf) either returns a word and removes exactly a leading part of the buffer, leaving every later byte untouched, or returns null and leaves the buffer as it was; more input appended to a buffer never changes a word already delimited by a separator.", "quantifier": "every buffer content, every split mask, both values of do_unescape", "why_tests_cant": "Streaming input can be cut at any byte; tests only cut at a few.", "anchors": ["utils/wvtclstring.cc: do_wvtcl_getword, wvtcl_getword"]}
{"id": "C04", "title": "Tcl escaping and unescaping stay inside their buffers", "statement": "The number of bytes the sizing pass of wvtcl_escape/wvtcl_unescape announces is exactly the number the writing pass writes, and no byte outside the input string is read, for every input.", "quantifier": "every string including the empty one and one-character strings, every nasties mask", "why_tests_cant": "An out-of-bounds access on one unusual string shape is invisible to examples that do not contain it.", "anchors": ["utils/wvtclstring.cc: do_wvtcl_escape, do_wvtcl_unescape"]}
{"id": "C05", "title": "Hex coding round-trips under every chunking", "statement": "Decoding the hex encoding of any bytes gives the bytes back, no matter how input is split into calls; every encoded byte is two hex digits; hexify/unhexify agree with it.", "quantifier": "every byte sequence, every split of the input into encode calls", "why_tests_cant": "The decoder carries a half-byte between calls; the number of splits is exponential.", "anchors": ["utils/wvhex.cc: WvHexEncoder::_encode, WvHexDecoder::_encode, hexify, unhexify"]}
{"id": "C06", "title": "Base64 coding round-trips under every chunking", "statement": "The encoder output followed by finish() is the RFC 4648 base64 of the whole input, independent of how the input is split into calls, and the decoder fed that output in any pieces returns the input.", "quantifier": "every byte sequence, every split on both sides", "why_tests_cant": "Bits left over between calls and padding make all splits and lengths mod 3 interact.", "anchors": ["utils/wvbase64.cc: WvBase64Encoder, WvBase64Decoder"]}
{"id": "C07", "title": "C-string escaping is lossless", "statement": "cstr_unescape(cstr_escape(data)) gives back exactly the original bytes for any data, including NULs and high bytes, with or without extra escapes; the result size is as announced; output is a quoted printable literal.", "quantifier": "every byte sequence", "why_tests_cant": "All 256 byte values in all adjacent combinations (hex escapes followed by digits).", "anchors": ["utils/wvstrutils.cc: cstr_escape, cstr_unescape"]}
{"id": "C08", "title": "URL coding round-trips", "statement": "url_decode(url_encode(s)) == s for every NUL-free string under the default unsafe set, and the output of url_encode contains only unreserved characters and %XX escapes.", "quantifier": "every NUL-free string", "why_tests_cant": "Depends on every byte value, signedness of char and trimming of white space.", "anchors": ["utils/wvstrutils.cc: url_encode, url_decode"]}
{"id": "C09", "title": "Backslash encoder and decoder are inverse and survive short output", "statement": "Decoding the C-style backslash encoding of any bytes returns the bytes; if the output buffer has limited room, unconsumed input stays in the input buffer and nothing is lost or duplicated.", "quantifier": "every byte sequence, every chunking, every free space of the output buffer", "why_tests_cant": "The failure needs a full output buffer in the middle of an escape.", "anchors": ["utils/wvbackslash.cc: WvBackslashEncoder::_encode, WvBackslashDecoder::_encode, flushtmpbuf"]}
{"id": "C10", "title": "XOR and counter-mode streams decrypt to the plaintext", "statement": "Two XOR encoders with the same key are inverse whatever the chunking on either side; two counter-mode encoders started with the same counter are inverse when flushed at the same offsets; the counter never repeats before 256^n blocks.", "quantifier": "every key, message, chunking", "why_tests_cant": "Key position and counter carry over between calls.", "anchors": ["crypto/wvxor.cc: WvXOREncoder::_encode", "crypto/wvcountermode.cc: WvCounterModeEncoder::_encode, incrcounter"]}
{"id": "C11", "title": "A circular buffer is a bounded FIFO queue with undo", "statement": "For every sequence of put/alloc/get/unget/unalloc/peek/zap the bytes read from a WvCircularBuf are the bytes put, in order; unget restores exactly what get removed; used()+free()==size; wrap-around and compaction never change contents.", "quantifier": "every capacity, every operation sequence whose documented preconditions hold", "why_tests_cant": "Wrap and compaction paths depend on head, length, history and request size jointly.", "anchors": ["utils/wvbufferstore.cc: WvCircularBufStore::*", "include/wvbufstore.h"]}
{"id": "C12", "title": "A dynamic buffer is an unbounded FIFO queue with undo", "statement": "For every sequence of operations a WvDynBuf behaves like a byte queue: get returns what was put in order, unget undoes get, unalloc undoes alloc, peek shows the content, coalescing and growth never change contents.", "quantifier": "every operation sequence whose documented preconditions hold, every growth parameter", "why_tests_cant": "Chains of sub-buffers of different sizes with partial consumption have unboundedly many shapes.", "anchors": ["utils/wvbufferstore.cc: WvLinkedBufferStore::*, WvDynBufStore::*"]}
{"id": "C13", "title": "merge() moves a prefix and nothing else", "statement": "merge/basicmerge of count bytes removes exactly the first count bytes of the source and appends them to the destination in order, for every pair of buffers.", "quantifier": "every pair of buffer contents and counts", "why_tests_cant": "Chunk boundaries of source and destination combine arbitrarily.", "anchors": ["utils/wvbufferstore.cc: WvBufStore::basicmerge, merge, put, move, copy"]}
{"id": "C14", "title": "A shared-memory circle delivers bytes in order between two processes", "statement": "With one process calling put and another calling get on the same WvMagicCircle, under every interleaving of their memory accesses, the bytes received are a prefix of the bytes accepted by put, and at most size bytes are ever pending.", "quantifier": "every capacity, every pair of operation sequences, every interleaving of individual shared memory accesses (sequentially consistent)", "why_tests_cant": "Interleavings cannot be enumerated by running.", "anchors": ["utils/wvmagiccircle.cc: used, put, get, skip", "include/wvmagiccircle.h: left"]}
{"id": "C15", "title": "Linked list operations behave like a list", "statement": "append, prepend, unlink, unlink_first, reverse, count, find and zap on WvList have the effect of the corresponding list operations, and the tail pointer always denotes the last element.", "quantifier": "every operation sequence", "why_tests_cant": "Tail pointer maintenance matters only after particular histories.", "anchors": ["utils/wvlinklist.cc", "include/wvlinklist.h: WvListBase, WvLink"]}
{"id": "C16", "title": "Chained hash table is a multimap", "statement": "For any hash function under which equal keys hash alike, any size hint below 2^30 and any sequence of add/remove/set_autofree/zap on WvHashTable, a key is found iff it has been added more often than removed since the last zap, find returns the oldest object left under the key, iteration visits each element exactly once, and exactly the removed autofree objects are released. (A hint of 2^30 or more overflows the slot count; shown separately.)", "quantifier": "every hash function, table size hint below 2^30, operation sequence", "why_tests_cant": "Collisions can be arbitrary.", "anchors": ["utils/wvhashtable.cc", "include/wvhashtable.h"]}
{"id": "C17", "title": "Scatter hash table is a multimap", "statement": "For any 32-bit hash function under which equal keys hash alike, any size hint and any sequence of add/remove/set_autofree/zap, WvScatterHash finds a key iff it was added more often than removed since the last zap; deletion never hides other keys; rebuilding preserves contents; iteration yields each element once; exactly the removed autofree objects are released; and every operation terminates.", "quantifier": "every hash function, every operation sequence, every growth history", "why_tests_cant": "Tombstones, probing and rebuild thresholds interact over long histories.", "anchors": ["utils/wvscatterhash.cc", "include/wvscatterhash.h"]}
{"id": "C18", "title": "Integers print as their decimal value", "statement": "Constructing a WvString from an integer gives its decimal representation, for every value of the type, and the digits fit in the buffer.", "quantifier": "every value of each integer type", "why_tests_cant": "Boundary values of each width.", "anchors": ["utils/wvstring.cc: wv_uitoar, wv_itoar, WvFastString(int) constructors"]}
{"id": "C19", "title": "Copies of a string are independent", "statement": "After any sequence of copies, assignments and edits of WvStrings, editing one string never changes the text seen through another.", "quantifier": "every operation sequence over any number of strings", "why_tests_cant": "Aliasing depends on the whole history of shared buffers and reference counts.", "anchors": ["utils/wvstring.cc: link, unlink, unique, edit, append, operator="]}
{"id": "C20", "title": "Formatting never writes past its buffer", "statement": "WvString(format, args...) allocates at least as many bytes as it writes, for every format string and arguments, and the result has each %s expanded with the requested padding and truncation.", "quantifier": "every format string and argument list", "why_tests_cant": "Width and precision can be combined arbitrarily.", "anchors": ["utils/wvstring.cc: pparse, WvFastString::do_format"]}
{"id": "C21", "title": "Splitting and joining are inverse", "statement": "A strict split yields exactly the fields of the text (single delimiter characters between them, at most limit fields, the last one taking the rest when the limit is reached), and joining them with the separator restores the text, for every string, separator character and limit; a plain split yields exactly the fields separated by runs of delimiters, that is the strict fields less the empty ones other than the first and the last; joining a non-empty list yields its elements with the separator between neighbours and writes nothing outside its buffer.", "quantifier": "every string, delimiter set, limit and list", "why_tests_cant": "Leading, trailing, repeated separators in every combination.", "anchors": ["include/wvstrutils.h: strcoll_split, strcoll_splitstrict, strcoll_join", "utils/wvstringlist.cc"]}
{"id": "C22", "title": "UniConf keys parse and print canonically", "statement": "Building a UniConfKey from a path drops leading and doubled slashes, keeps segment order, and printing the key and parsing it again yields the same key.", "quantifier": "every path string", "why_tests_cant": "Every placement of slashes.", "anchors": ["uniconf/uniconfkey.cc: Store, printable, collapse", "include/uniconfkey.h"]}
{"id": "C23", "title": "UniConf key editing computes on paths and stays in bounds", "statement": "append, prepend, pop, first, last, range, removefirst, removelast on UniConfKey compute the expected segment lists, never modify another key, and never touch memory outside the segment vector.", "quantifier": "every key and every sequence of operations, including keys sharing storage", "why_tests_cant": "Needs particular sharing and popping histories.", "anchors": ["uniconf/uniconfkey.cc: append, prepend, pop, range, unique", "include/uniconfkey.h: SegmentVector"]}
{"id": "C24", "title": "UniConf key comparison is a total order consistent with equality and containment", "statement": "compareto is a total preorder whose equality is case-insensitive segment equality; a suborsame b holds iff b starts with a's segments, and subkey is the remainder.", "quantifier": "every pair/triple of keys", "why_tests_cant": "Order laws quantify over triples.", "anchors": ["uniconf/uniconfkey.cc: compareto, suborsame, subkey"]}
{"id": "C25", "title": "Wildcard matching means what the documentation says", "statement": "key.matches(pattern) holds iff the key's segments can be obtained from the pattern by replacing each * by one segment and each ... by any number of segments.", "quantifier": "every key and pattern", "why_tests_cant": "Backtracking over ... has unboundedly many cases.", "anchors": ["uniconf/uniconfkey.cc: matches"]}
{"id": "C26", "title": "A memory generator is a path-closed map", "statement": "After any sequence of set(key,value) calls UniTempGen::get returns, for every key, what the obvious map model returns: setting creates missing ancestors as empty strings, setting null removes the key and everything below it, nothing else changes.", "quantifier": "every sequence of sets, every key", "why_tests_cant": "Depends on whole histories of nested keys.", "anchors": ["uniconf/unitempgen.cc: get, set", "uniconf/unihashtree.cc: _find, _findchild"]}
{"id": "C27", "title": "Change notifications are complete and exact", "statement": "An observer that applies every notification of a UniTempGen to its own copy always ends up with the generator's contents; a set that changes nothing notifies nothing.", "quantifier": "every sequence of sets", "why_tests_cant": "A missed or wrong notification appears only for particular tree shapes.", "anchors": ["uniconf/unitempgen.cc: set, notify_deleted", "uniconf/uniconfgen.cc: delta"]}
{"id": "C28", "title": "Held notifications are delivered exactly once, in order", "statement": "Between hold_delta and the matching outermost unhold_delta nothing is dispatched; afterwards every notification has been dispatched exactly once in the order raised, including those raised by callbacks during the flush.", "quantifier": "every nesting of hold/unhold and deltas, every callback behaviour", "why_tests_cant": "Re-entrancy and nesting depth are unbounded.", "anchors": ["uniconf/uniconfgen.cc: hold_delta, unhold_delta, flush_delta, delta"]}
{"id": "C29", "title": "A transaction shows its own writes and hides them from others", "statement": "After any sequence of sets on a UniTransactionGen, mixed with sets made directly in the base, commits and refreshes, get returns what applying the same sets to the contents would return, a change of the base shows through where the transaction has no value of its own, the iterator lists exactly the keys just below, each once, and the base is unchanged until commit.", "quantifier": "every base content, every sequence of operations, every order of the hash tables, every key without an empty segment (a trailing slash is shown to behave differently)", "why_tests_cant": "Change tree modes (value, node, tree, blank) combine over histories.", "anchors": ["uniconf/unitransactiongen.cc: get, set, set_change, create_change, set_value, create_value, gencallback, UniTransactionGenIter"]}
{"id": "C30", "title": "Committing a transaction makes the base equal to the view; refresh discards it", "statement": "After commit the base returns for every key what the transaction returned before; after refresh the transaction returns what the base returns.", "quantifier": "every base content, every sequence of operations before, every key without an empty segment", "why_tests_cant": "Same as C29, over the replay of the change tree.", "anchors": ["uniconf/unitransactiongen.cc: commit, apply_changes, apply_values, refresh"]}
{"id": "C31", "title": "Transaction notifications reflect visible changes", "statement": "Every set on a UniTransactionGen that changes the visible value of the key notifies that key with the new value.", "quantifier": "every base content, every sequence of sets", "why_tests_cant": "A missed notification needs a specific node mode and value combination.", "anchors": ["uniconf/unitransactiongen.cc: set_change"]}
{"id": "C32", "title": "Mounted generators are routed consistently", "statement": "get/set on a UniMountGen reach the most recently mounted generator whose mount point is the key or an ancestor, with the key relative to the mount point, and no other generator; refresh refreshes every generator.", "quantifier": "every list of mounts, every key, every operation", "why_tests_cant": "Overlapping and nested mounts in every order.", "anchors": ["uniconf/unimountgen.cc: get, set, findmount, refresh, unmount"]}
{"id": "C33", "title": "Restricting generators cannot be bypassed", "statement": "No call sequence through a read-only generator changes its inner generator; through a subtree generator only keys below the subtree change; through a secure generator only keys the credentials may write change.", "quantifier": "every sequence of API calls including bulk sets", "why_tests_cant": "One unguarded entry point among many suffices.", "anchors": ["include/unireadonlygen.h", "uniconf/unifiltergen.cc: set, setv", "uniconf/unisubtreegen.cc", "uniconf/unisecuregen.cc"]}
{"id": "C34", "title": "Permission checks are inherited and need every parent", "statement": "A secure generator grants read/write only if every proper ancestor grants exec and the key's own or nearest inherited permission for the caller's level grants the right; with no permission set anywhere access is denied.", "quantifier": "every permission tree, credentials, key", "why_tests_cant": "Inheritance depth and missing entries are unbounded.", "anchors": ["uniconf/unipermgen.cc: getperm, getoneperm, getowner", "uniconf/unisecuregen.cc: findperm, drilldown"]}
{"id": "C35", "title": "Configuration files survive save and load", "statement": "Writing a tree with UniIniGen and loading the file again gives the same non-empty keys and values, and no new keys but the root, provided every key and every non-empty value is one the format can hold (good_key, good_value in IniSpec: everyday text, and any text that the writer quotes and whose braces match or whose ends need no protection). If some values are merely harmless (they stay in their line), nothing but those values can change, and each of them comes back if and only if it is good. Committing over an older such file with crashes anywhere leaves a file that loads as the old or the new tree. Outside this, a value can create or change other keys.", "quantifier": "every history of sets, every order in which the hash tables enumerate, every text of keys and values; for the crash part every outcome of each system call", "why_tests_cant": "Quoting decisions depend on arbitrary text in keys and values.", "anchors": ["uniconf/uniinigen.cc: save, printkey, printsection, absolutely_needs_escape, refresh"]}
{"id": "C36", "title": "Committing a configuration file is atomic with respect to crashes", "statement": "During a UniIniGen commit through the temporary file, whatever system call fails and wherever the process dies, the configuration file is either the old one or the complete new one, the new one if and only if the commit succeeded, provided no flush is given up because the clock ran out (then a cut-off file is renamed into place without an error). When the commit has to write in place and the device takes writes whole, the file is at every moment the old one, empty, marked unfinished by its sticky bit, or complete; the empty unmarked moment exists. None of this survives a power loss, since nothing is synced.", "quantifier": "every list of blocks printed, every crash point of the process, every outcome of each system call, every amount the device takes", "why_tests_cant": "Crash points and failing system calls cannot be enumerated by a unit test.", "anchors": ["uniconf/uniinigen.cc: commit, commit_atomic"]}
{"id": "C37", "title": "Atomic files are all-or-nothing", "statement": "With WvAtomicFile, whatever is done with the stream, whichever system call fails and wherever the process dies, the file is the old one or holds all that was ever handed to the device: the latter in the end unless the temporary file could not be made or renamed, and then everything written if there was no error and no flush was given up. After a failed write the old file is replaced by the cut-off one.", "quantifier": "every sequence of calls on the stream, every crash point, every failure of a system call", "why_tests_cant": "Needs write failures such as a full disk at arbitrary points.", "anchors": ["streams/wvatomicfile.cc: open, close", "streams/wvfdstream.cc"]}
{"id": "C38", "title": "Stream writes are delivered in order without loss", "statement": "If the device names an error whenever it fails, the bytes handed to the device are at every moment, in order and exactly once, the first part of the bytes WvStream::write accepted, and while the stream is ok the rest is in the output buffer. The buffer of an open stream never exceeds the configured limit unless the limit was set below what was already buffered (then it does: the limit wraps around). A flush that returns true on a stream that stays ok has handed everything over; flush(0) may return false although it did. A device that closes during a write without an error can make the stream skip bytes.", "quantifier": "every sequence of writes, flushes, closes, errors, option changes and callbacks, every amount the device accepts at each attempt, every failure, every outcome of select and of the clock", "why_tests_cant": "Partial device writes at every point.", "anchors": ["streams/wvstream.cc: write, flush, flush_outbuf, outbuf limits"]}
{"id": "C39", "title": "Stream reads and lines are delivered in order without loss", "statement": "The bytes returned by read and the lines returned by getline, with their separators, are at every moment the first part of what the device produced, and the rest is in the input buffer. A line contains no separator and ends at one, except that everything left is returned when nothing more can be read. A line already buffered is returned at once. After a getline that returned NULL and the end of input, read returns nothing although bytes are buffered.", "quantifier": "every sequence of reads, getlines and other calls, every amount the device delivers", "why_tests_cant": "Arbitrary fragmentation of input.", "anchors": ["streams/wvstream.cc: read, blocking_getline, unread, queuemin"]}
{"id": "C40", "title": "A close callback runs exactly once", "statement": "Whatever the order of closes, errors, device failures and registrations, also from inside callbacks: while the stream is open registering replaces the callback; the first close is followed at once by the call of the registered one; registering on a closed stream is followed at once by the call; nothing else is ever called, and no callback more often than it was registered.", "quantifier": "every sequence of close/seterr/setclosecallback and other calls, also made by callbacks", "why_tests_cant": "Re-entrancy and repeated closes.", "anchors": ["streams/wvstream.cc: close, seterr, setclosecallback"]}
{"id": "C41", "title": "The subprocess queue honours limits, order and sync points", "statement": "At every moment at most maxrunning processes run; a process with a cookie never runs together with another; jobs without a cookie start in queue order, each once; once the queue has emptied, each sync point was started after it was added, at a moment when every job added before it had ended; go() leaves the queue idle only for a reason; and if the limit is at least one and processes end, the queue empties. With a limit of zero it never does; and the promise that a sync point starts at most twice after it was last added is false.", "quantifier": "every sequence of add/go and every completion order", "why_tests_cant": "Depends on the schedule of process terminations.", "anchors": ["utils/wvsubprocqueue.cc: add, go, cookie_running"]}
{"id": "C42", "title": "A log buffer keeps the newest lines of each kind", "statement": "After any sequence of log calls, messages() of a WvLogBuffer gives, in original order, exactly the newest max_lines lines of each source and level, trimmed (a missing source counts as \"(nil)\"); a negative max_lines keeps all. Feeding these messages to another receiver does not keep the lines apart.", "quantifier": "every sequence of messages, every max_lines", "why_tests_cant": "Long interleaved histories.", "anchors": ["streams/wvlogbuffer.cc: handle_msg, MsgCounter::add"]}
{"id": "C43", "title": "Time arithmetic is exact", "statement": "msecadd, tvdiff and msecdiff agree with integer arithmetic on microseconds for normalised times, and normalize maps equal times to equal representations.", "quantifier": "every time value", "why_tests_cant": "Sign and carry combinations.", "anchors": ["utils/wvtimeutils.cc: msecadd, tvdiff, msecdiff", "include/wvtimeutils.h: normalize"]}
{"id": "C44", "title": "IP networks behave as bit-prefix sets", "statement": "WvIPNet(base,bits).bits()==bits, includes() is subset inclusion, include() yields a network containing both, printing and parsing an address are inverse.", "quantifier": "every address and mask length", "why_tests_cant": "2^64 pairs of networks.", "anchors": ["ipstreams/wvaddr.cc: WvIPNet::*, WvIPAddr::printable, string_init"]}
{"id": "C45", "title": "Null strings stay null through Tcl escaping", "statement": "wvtcl_escape and wvtcl_unescape of the null string return the null string.", "quantifier": "every nasties mask", "why_tests_cant": "Null and empty are printed alike, so output comparison does not see the difference.", "anchors": ["utils/wvtclstring.cc: wvtcl_escape, wvtcl_unescape"]}
{"id": "C46", "title": "Quoted words decode as documented", "statement": "wvtcl_decode and wvtcl_getword return the text between double quotes as one word, as the header documents.", "quantifier": "every list text with a quoted word", "why_tests_cant": "The documented example is one literal; whether any quoted word can be read is a statement about all texts.", "anchors": ["utils/wvtclstring.cc: wvtcl_getword", "include/wvtclstring.h"]}
{"id": "C47", "title": "Character masks answer membership", "statement": "A WvStringMask built from a string contains exactly the characters of the string, for every string.", "quantifier": "every byte string", "why_tests_cant": "All byte values including those above 0x7f.", "anchors": ["utils/wvstringmask.cc: set, operator[], first"]}
{"id": "C48", "title": "Backslash decoder follows its documented escape table", "statement": "The backslash decoder turns each escape form listed in its header (\\a \\b \\f \\n \\r \\t \\v, octal, hex, backslash before punctuation, line continuation) into exactly the documented byte, wherever the escape stands in the input.", "quantifier": "every escape form, every byte before and after it, every mode of the decoder", "why_tests_cant": "the octal and hex forms have variable length and depend on the following byte, so the table has to hold for every context", "anchors": ["utils/wvbackslash.cc: WvBackslashDecoder::_encode, flushtmpbuf", "include/wvbackslash.h: WvBackslashDecoder"]}
{"id": "C49", "title": "Hashes respect equality", "statement": "Two strings equal up to letter case have the same WvHash, and two UniConf keys that compare equal have the same hash, so a table keyed by them finds entries stored under an equal key.", "quantifier": "every pair of strings and of keys", "why_tests_cant": "Needs all pairs of case variants.", "anchors": ["utils/wvhash.cc: WvHash", "uniconf/uniconfkey.cc: WvHash"]}
{"id": "C50", "title": "Numbers and truth values in configuration values are read back", "statement": "An integer stored in a configuration key is read back as the same integer; a decimal number in a value is read as that number; the documented words for true and false, in any case, are read as 1 and 0; a missing or other value gives the caller's default.", "quantifier": "every int but the least, every text, every default", "why_tests_cant": "Texts and numbers are unbounded and the parsing has many cases (blanks, sign, base prefix, trailing garbage).", "anchors": ["uniconf/uniconfgen.cc: str2int", "uniconf/uniconf.cc: getmeint, setmeint"]}
{"id": "C51", "title": "Comparing network addresses is an equivalence that hashing respects", "statement": "Comparing two addresses (plain, with port, with netmask) is reflexive, symmetric and transitive, and equal addresses have equal hash values, so that address-keyed tables work.", "quantifier": "every pair and triple of addresses of the three kinds", "why_tests_cant": "The space of pairs of 32-bit addresses, ports and masks.", "anchors": ["ipstreams/wvaddr.cc: comparator, WvHash"]}
{"id": "C52", "title": "Log text becomes lines whatever its fragments", "statement": "However the text of a source and level is cut into log calls, a receiver sees exactly the non-empty lines of the joined text, with the right source and level, tabs as spaces and control characters in hex; a change of source or level, or an explicit end, ends the line; messages above the level allowed for the source are dropped and nothing else is; for every log level that exists and every named source no undefined behaviour occurs.", "quantifier": "every sequence of log calls, every fragmentation, every set of custom levels", "why_tests_cant": "Fragmentation, interleaving and byte values are unbounded.", "anchors": ["streams/wvlog.cc: WvLogRcv::log, begin_line, mid_line, end_line, WvLogConsole"]}
{"id": "C53", "title": "A remote configuration behaves like a local one", "statement": "A UniConf client connected to a daemon sees what it would see by making its calls directly on the daemon's configuration: there is one order of all its calls and of all changes made by others, respecting the order of its calls, in which every get, haschildren, listing, commit and refresh returns what it returned and every change is notified exactly as the daemon's own generator notified it. This order only grows. From any point, carrying the bytes and letting both ends handle them completes every call and delivers every notification, and the notifications add up to the daemon's contents. Excluded, and refuted: keys with white space at the end of a part, removing the key \".\", setv(), listing a key with a trailing slash, values ending in a newline with unmatched braces.", "quantifier": "all sequences of calls by the client, changes by others, and all ways the bytes in both directions are cut, delayed and interleaved with the processing at both ends", "why_tests_cant": "Unit tests exchange a few messages in one process with everything delivered at once; splits inside escapes, notices between the values of a listing, and the interaction of queued sets with replies depend on the schedule.", "anchors": ["uniconf/uniclientconn.cc: readmsg, readcmd, readarg, writecmd", "uniconf/uniclientgen.cc: get, set, setv, haschildren, do_iterator, commit, refresh, conncallback, do_select", "uniconf/daemon/uniconfdaemonconn.cc: execute, do_get, do_set, do_remove, do_subtree, do_haschildren, deltacallback"]}
{"id": "C54", "title": "Watches are told of exactly the changes they cover", "statement": "After any sequence of add_callback and del_callback calls, a change reported at a key calls, exactly once each, the callbacks of the recursive watches on the keys above it and of all watches on the key itself, shortest key first and for one key in order of registration, with the watched key and the rest of the path; the removal of a key also calls, once each, the callbacks of the watches on keys below it; nobody else is called. del_callback removes the oldest watch with that key, cookie and depth and nothing else; once all watches are removed nothing is left of them. Hence a watch whose callback was not called covers nothing that changed. Destroying the root fails an assertion exactly if a key other than the root key is still watched.", "quantifier": "all sequences of adding and removing watches (keys in any letter case, with or without trailing slash, same cookie several times), all enumeration orders of the hash tables, all changed keys, all histories of sets of a memory generator", "why_tests_cant": "which callbacks run depends on the whole history of registrations and removals and on the shape of the watch tree; tests register a handful of watches", "anchors": ["uniconf/uniconfroot.cc: add_callback, del_callback, check, deletioncheck, prune, gen_callback, watchout, ~UniConfRoot", "include/uniconfroot.h: UniWatchInfo, UniWatchInfoTree", "uniconf/unihashtree.cc: _find, _findchild"]}
{"id": "C55", "title": "Refreshing a configuration file loads it and tells what changed", "statement": "After any sets and refreshes, refreshing an .ini file generator whose file can be read and looks changed (time of change, device, inode, blocks or size) makes the generator hold exactly what is in the file and leaves nothing to be saved. Every notification it sends is true of the new contents and was not true of the old ones, every key that was added, changed or removed is notified, and a key that is present is notified at most once. Someone who applies all notifications since the generator was made knows its contents. A refresh that fails, or finds the file to look the same, changes and tells nothing.", "quantifier": "all contents of the file that can be parsed at all, all histories of sets and refreshes (failed ones included), all old and new trees, all enumeration orders of the hash tables", "why_tests_cant": "the comparison walks two trees in sorted order; which keys it misses or repeats depends on the shapes of both trees, and on which refreshes failed before", "anchors": ["uniconf/uniinigen.cc: refresh, refreshcomparator, set, UniIniGen", "uniconf/unihashtree.cc: _recursivecompare, _recursive_unsorted_visit", "include/wvsorter.h"]}
{"id": "C56", "title": "A stack of generators reads as the first that has a key", "statement": "A list of generators returns for each key the value of the first generator in the list that has it. A key exists in the list when it exists in one of them. Setting a value makes the key read as that value; removing a key removes it and everything below from what is visible. Other keys are unchanged, except that the keys above a set one then read as the first generator has them. Its iterator lists each key just below once, letter case aside, with the value that get returns. Someone who applies all notifications of the list, also those of changes made directly to one of the generators, always knows what get returns.", "quantifier": "all numbers of generators, all histories of sets through the list and on single generators, all keys and values", "why_tests_cant": "Which generator decides depends on the contents of all of them, and a notification is right only given all that happened before in every generator.", "anchors": ["uniconf/unilistgen.cc: UniListGen::get, set, setv, exists, haschildren, gencallback, iterator, IterIter", "include/unilistgen.h"]}
{"id": "C57", "title": "The recursive iterator visits every key below exactly once", "statement": "The recursive iterator over a key visits every key below it exactly once, letter case aside, with names relative to where it started and the value that get returns. A key comes after the key above it and is directly followed by everything below it. For a key that does not exist or has nothing below, it visits nothing. Once next returns false it keeps returning false. Walking never fails, whatever the generator lists.", "quantifier": "all histories of the generator, all starting keys, all depths and widths of the tree", "why_tests_cant": "The iterator walks with an explicit stack and reopens an iterator for every key; a wrong step shows only for certain shapes of the tree, and there are infinitely many shapes.", "anchors": ["uniconf/uniconfgen.cc: _UniConfGenRecursiveIter::rewind, next, key, value", "uniconf/unitempgen.cc: UniTempGen::iterator"]}
{"id": "C58", "title": "Replicated generators hold the same keys", "statement": "After construction, all generators of a replicating generator that are in order answer every key but the root alike, with the value of the first one that had the key; those out of order are untouched. After every get and set that still holds, get returns that value, and set has changed it in all generators in order and changed nothing else. A change made directly in one of them is made in all. When a generator comes back, the next get, set, append or prepend brings all of them together again. As long as one generator stays in order, an observer that applies all notifications knows what get returns. This requires that isok is not called, and no change is made directly in a generator, between a return and the next such call.", "quantifier": "all numbers of generators with any contents, all histories of sets, gets, direct changes, generators added at either end, and generators going out of order and coming back", "why_tests_cant": "Which value survives depends on the order of the generators and on when each was away; the keys are copied while the generators notify each other.", "anchors": ["uniconf/unireplicategen.cc: UniReplicateGen::replicate, deltacallback, replicate_if_any_have_become_ok, set, get, first_ok, append, prepend", "include/unireplicategen.h: struct Gen"]}
{"id": "C59", "title": "The cache answers like what it caches", "statement": "Once refresh was called on a caching generator, get returns for every key but the root what was set last, whether before the cache was made, through the cache or behind its back, except that a key whose value is the empty string may be missing. Before that, only keys that exist are found. An observer that applies all notifications of the cache knows what it returns. Only the first refresh loads anything or returns true.", "quantifier": "all histories of the inner generator before and after, all sequences of sets through the cache, behind it, and refreshes", "why_tests_cant": "The cache is filled by walking the inner generator once and is then kept up to date by notifications only; one missed notification leaves a wrong value for ever.", "anchors": ["uniconf/unicachegen.cc: UniCacheGen::refresh, loadtree, deltacallback, set, get"]}
{"id": "C60", "title": "Remembered answers never become wrong", "statement": "A generator that remembers what it was asked for returns for every key exactly what the inner generator would, after any history of sets through it or behind its back; exists and haschildren agree with the inner generator. A key that was asked for once is never asked for again, in whatever letter case. Keys below a key that does not exist are not asked for. Its notifications are those of the inner generator.", "quantifier": "all histories of sets and gets, all keys in all letter cases", "why_tests_cant": "The remembered tree has to follow every change the inner generator notifies, at every depth.", "anchors": ["uniconf/unifastregetgen.cc: UniFastRegetGen::get, exists, haschildren, gencallback"]}
{"id": "C61", "title": "Which default a key reads", "statement": "In a generator with defaults, a key other than the root reads as the existing key that has each segment equal to its own or a star, the one preferred whose first difference to the others is a segment instead of a star; if there is none it is missing. exists, haschildren and iterators agree on that key. The value is that key's, unless it is a star and a positive number n; then it is the segment of the asked key at the n-th wildcard from the end of the default, or null if there are fewer. A key that was set to anything but such a reference reads as that, whatever the defaults. Looking for a default never writes outside its buffer.", "quantifier": "all contents of the generator, all keys and values", "why_tests_cant": "There are 2 to the n candidates for a key of n segments, tried by a recursive search that writes into a buffer whose size is computed from the key.", "anchors": ["uniconf/unidefgen.cc: UniDefGen::finddefault, keymap, replacewildcard, get, set", "uniconf/unifiltergen.cc: exists, haschildren, iterator"]}
{"id": "C62", "title": "Serialized values come back", "statement": "Whatever is written into a buffer with wv_serialize - integers of every size, bools, strings, buffers, lists, and structures of these - is read back equal by wv_deserialize of the same type, leaving what follows it. The bytes are the same on machines of either byte order: integers with the most significant byte first, strings followed by one nul, buffers and lists preceded by their size as a size_t. Whatever bytes a linked buffer holds, reading anything but a buffer from it never fails; an incomplete integer reads as 0, an unterminated string as null, and neither takes any bytes.", "quantifier": "all types built from these, all values, all following bytes, both byte orders and sizes of size_t; for the last part all byte sequences", "why_tests_cant": "The types are unboundedly many and the values of a single one 2^64; byte order and sign extension go wrong only for particular values and machines.", "anchors": ["include/wvserialize.h: wv_serialize_scalar, wv_deserialize_scalar, htonll, ntohll, _wv_serialize, WvDeserialize", "utils/wvserialize.cc: _wv_deserialize<WvString>"]}
{"id": "C63", "title": "URLs are taken apart and printed", "statement": "A text without blanks inside is accepted by WvUrl exactly if it has the form protocol, colon, two characters if the protocol has them, optionally user and password and an at sign, host, optionally a colon and port, and path; then getproto, getuser, getpassword, gethost, getport and getfile return these parts, whatever white space surrounds it. The protocol is that of the longest known name it begins with; its port is the default. Converting the object back to a string gives a URL that is taken apart into the same parts, if it has a user, or neither a password nor an at sign in host and path. Only a port that does not fit an int is undefined behaviour, provided that two characters follow the colon.", "quantifier": "all texts without inner white space, with any white space around them", "why_tests_cant": "Which delimiter ends which part depends on all other delimiters in the text; the parts are found in a fixed order by searches over what is left.", "anchors": ["ipstreams/wvurl.cc: WvUrl::WvUrl(WvStringParm), operator WvString, get_default_port, protocol_uses_slashes", "include/wvurl.h: WvUrl"]}
{"id": "C64", "title": "What a glob pattern matches", "statement": "WvGlob converts every text to a regular expression or an error, and always ends. For a well-formed pattern (characters, backslashed characters, stars, question marks, bracketed sets and, nested to any depth, braces with alternatives) the expression compiles, and match() succeeds exactly for the strings that the pattern describes as a whole: a star stands for any characters but slashes, a question mark for one that is no slash, brackets for one character in (or with an exclamation mark, not in) the set, braces for any one alternative, anything else for itself. A text with a backslash before every character matches only itself. A trailing backslash, open braces or brackets and a slash in brackets are errors.", "quantifier": "all well-formed patterns of any length and nesting, and all strings matched against them", "why_tests_cant": "The pattern is rewritten character by character into another language with its own special characters and precedence; one missed escape changes the meaning of some pattern only.", "anchors": ["utils/wvglob.cc: WvGlob::set, WvGlob::glob_to_regex", "include/wvglob.h", "utils/wvregex.cc: WvRegex::set, match"]}
{"id": "C65", "title": "A stream list calls each ready stream once and never a destroyed one", "statement": "select() on a WvIStreamList finds the listed streams that are ready, each once and in their order, drops those that are not ok, waits no longer than the caller, a stream or the list's alarm asks, and not at all if a stream is not ok. callback() then calls the streams found in that order: each exactly once, except those that a callback took off the list with unlink() before their turn, provided no callback selects on the list again. Whatever callbacks do (add, remove, close, reference and release streams, select on the list again), no destroyed stream is touched, and a stream is destroyed exactly when nobody holds it, the list does not own it, and it is neither to be called nor being called.", "quantifier": "all histories of operations on a list and its streams, at top level and inside callbacks at any depth of nested select(), and all readiness results", "why_tests_cant": "Callbacks may change the list, and destroy streams, at any point of the loop that is calling them; the order of these changes is up to the user's code.", "anchors": ["streams/wvistreamlist.cc: pre_select, post_select, execute", "include/wvistreamlist.h: unlink, append, prepend", "include/wvlinklist.h: unlink, unlink_after, zap, xunlink"]}
{"id": "C66", "title": "Searching, replacing, cutting and joining strings", "statement": "strreplace() replaces every occurrence of a non-empty pattern, from the left and without overlaps, and nothing else; beforestr() and afterstr() give what is before and after the first occurrence; substr() gives the characters asked for as far as they exist, for a non-empty string and an end below 2^32; undupe() makes each run of the character one; strcount() counts a character other than the terminator; spacecat() joins with exactly one separator if the first string is empty or has another character; depunctuate() takes off one final mark; snip_string() takes off the given start; backslash_escape() can be undone. The exclusions are exact: for an empty pattern strreplace() does not end, and outside the other limits memory outside the string is accessed.", "quantifier": "all strings, patterns, characters, positions and lengths", "why_tests_cant": "Each claim is about every string; the failing inputs are corner cases (empty strings, wrapping lengths, strings of separators) that tests leave out.", "anchors": ["utils/wvstrutils.cc: strreplace, beforestr, afterstr, substr, undupe, strcount, spacecat, depunctuate, snip_string, backslash_escape"]}
{"id": "C67", "title": "File and directory names of a path", "statement": "With trailing slashes ignored, getfilename() gives what follows the last slash, and getdirname() what is before it, \"/\" if that is empty, or \".\" if there is no slash. For a path of slashes only both give the empty string.", "quantifier": "all paths", "why_tests_cant": "Slashes may be repeated anywhere; a test covers a few arrangements.", "anchors": ["utils/wvstrutils.cc: getfilename, getdirname"]}
{"id": "C68", "title": "Formatted sizes, times and numbers mean the number given", "statement": "sizetoa() and sizeitoa() of a number of bytes below 2^64/10, and sizektoa() and sizekitoa() of a number of kilobytes whose bytes fit 64 bits, show the number rounded by the chosen method to tenths of the first unit in which it is below 1000 (1024); small numbers are shown exactly. No number of blocks and no non-zero block size makes them read outside their tables, divide by zero or loop. secondstoa() names the days, hours and minutes of the time, or its seconds if it is below a minute. metriculate() of a number other than zero and the least one shows its decimal digits with a space after each third from the right.", "quantifier": "all 64-bit numbers, block sizes and rounding methods; all 32-bit times", "why_tests_cant": "The claims are about every number; rounding, carrying to the next unit and overflow fail at isolated values.", "anchors": ["utils/wvstrutils.cc: sizetoa, sizektoa, sizeitoa, sizekitoa, _sizetoa, _sizetoa_rounder, secondstoa, metriculate"]}
{"id": "C69", "title": "A chain of encoders is their composition", "statement": "For any list of encoders that take all their input (or keep part of a block in their input buffer until a flush) and never fail, a WvEncoderChain made of them gives, for any history of encode() calls with any flushes, exactly what the encoders give when the output of each call of one is the input of the next; after a flush nothing is left in the input, and finish() then adds what flushing and finishing each in turn gives. Without flushes the output depends only on the bytes, not on how they were cut. If a flush changes nothing for the encoders, all output up to finish() is the whole text sent through one encoder after the other, whatever the cuts and flushes. The hex, xor, base 64 and counter mode encoders are such encoders.", "quantifier": "all lists of encoders, all histories of calls, all bytes", "why_tests_cant": "The claim quantifies over all chains and all ways to cut and flush the input; tests try a few.", "anchors": ["utils/wvencoder.cc: WvEncoderChain::do_encode, _encode, _finish, WvEncoder::encode, finish", "include/wvencoder.h: WvEncoderChain"]}
{"id": "C70", "title": "An encoder stream reads and writes through its chains without loss", "statement": "For any operations (reads, writes, flushes, selects with any wishes) on a WvEncoderStream over a stream that takes all it is given: the bytes read and those still buffered are, in order, the decoding by the read chain of what was taken from the stream below; the stream below got the encoding of what was written up to what is still in the output buffer, of everything after flush(), and of everything with the encoders finished after close(). After close(), or after the stream below has ended in a read that gave nothing (with queuemin 0), all decoded bytes including those that finishing the decoders gives can still be read, and nothing else. If an encoder that keeps nothing back is appended to the read chain while decoded bytes wait, they pass through it once select() has asked for readability, and so does all that is read later.", "quantifier": "all encoders of C69 in both chains, all contents and cuts of the stream below, all sequences of operations, all buffering modes", "why_tests_cant": "Loss or reordering depends on the interleaving of reads, writes, flushes, selects and the end of the stream below.", "anchors": ["streams/wvencoderstream.cc", "streams/wvstreamclone.cc: close, close_callback, geterr", "streams/wvstream.cc: read, write, close, flush, flush_outbuf, maybe_autoclose, seterr", "utils/wvencoder.cc: WvEncoderChain::continue_encode, append"]}
{"id": "C71", "title": "A WvConf entry reads back as it was set, sections inherit, callbacks see each change", "statement": "For any WvConf: get(section, entry, default) gives the value in the section, else the one in the first section that has it along the chain of inherited sections (any chain, also one that goes round in circles, ends), else the one in the global section, else the default. After set(section, entry, value) with a value that is not empty and an entry name that does not end in white space, get() of that entry gives the value and every other entry of every section reads as before; setting nothing removes the entry (as seen by that section) if it was listed once and its name ends without white space. maybeset changes only what was not there; getint gives back what setint set, for any int above the least. fuzzy_get with one entry gives the first answer among the sections and what they inherit. The registered callbacks that are called by set() are exactly those for that section and entry or for all sections or entries, once each and in order, if and only if the value changes, with the old and the new value; others are not called. get_raw and setraw with \"[section]entry=value\" do what get and set do with these parts.", "quantifier": "all contents of the configuration, all sections, entries, values, all chains of inheritance, all lists of callbacks", "why_tests_cant": "The claim quantifies over all configurations, including cyclic inheritance, and over all pairs of entries for non-interference.", "anchors": ["configfile/wvconf.cc: get, set, getint, setint, maybeset, maybesetint, fuzzy_get, run_callbacks, get_raw, setraw, parse_wvconf_request", "configfile/cfgsection.cc", "configfile/cfgentry.cc"]}
{"id": "C72", "title": "A configuration file keeps its contents through saving and loading", "statement": "Loading any file into a WvConf, changing it by any sequence of set(), delete_section() and the like with names that a file can hold, saving it and loading it again gives the same sections with the same entries and values in the same order; loading and saving what was saved changes no byte. flush() writes when something changed since the last save and only then, and afterwards the file loads as what get() answers. If the system stops at any point while flush() writes, the file then is either the old one, the new one, or one that is marked as unfinished and is refused by every later load.", "quantifier": "all files, all sequences of changes, all crash points during flush()", "why_tests_cant": "Round trip must hold for all files and histories; a crash can come between any two system calls.", "anchors": ["configfile/wvconf.cc: load_file, save, flush, parse_section, parse_value", "configfile/cfgsection.cc: dump"]}
{"id": "C73", "title": "The word wrapper keeps words whole and lines within the width", "statement": "For any width of at least 1 and any calls with any flushes, WvWordWrapEncoder never leaves its line buffer, no line of its output is wider than the width (tabs going to multiples of 8), and all characters but blanks and ends of lines come out unchanged and in order. Without flushes before the end the output depends only on the text, not on how it was cut; its words are the words of the text, except that a word longer than a line is cut into pieces of exactly the width; no line ends with a blank; a word goes to the next line only if it does not fit with the blanks before it; a text that fits and has no blanks at the ends of lines is not changed, so wrapping twice is the same as wrapping once. The output is fully given by a small layout relation, also with flushes.", "quantifier": "all widths from 1, all texts, all ways to cut it into calls and to flush", "why_tests_cant": "Buffer indices depend on the whole text before; the claim ranges over all texts, widths and cuts.", "anchors": ["utils/wvwordwrap.cc", "include/wvwordwrap.h"]}
{"id": "C74", "title": "HTTP responses are given to their own requests, complete and in order", "statement": "One connection of WvHttpStream to a server that sends a well-formed response to each request (with a Content-Length, in chunks with extensions and trailers, up to the end of the connection, or without a body to HEAD), with and without pipelining: for any requests added at any time, and however the bytes of the responses are cut into reads, nothing fails; the requests are sent in the order they were added, each once; status, headers and content of each response are given to the request it answers, in order and without the framing; a request is done only after all its content; when the server closes the connection everything it answered has been given out, and when no bytes are left only the end of the last request can still be missing.", "quantifier": "all well-formed servers, all sequences of adding requests and executing, all cuts of the bytes, all limits of outstanding requests, both modes of pipelining", "why_tests_cant": "The state machine sees the responses cut anywhere; requests may be added at any time; a test reads a few fixed responses in a few fixed portions.", "anchors": ["urlget/wvhttpstream.cc", "include/wvurl.h", "urlget/wvurlstream.cc"]}
{"id": "C75", "title": "Lock files let at most one process hold the lock", "statement": "WvLockDev and WvLockFile: at any time at most one object, in all processes, holds the lock (a lock() that succeeded and was not yet undone), and while it does the lock file is there. lock() takes the lock, and the file then says the number of its process, if there is no lock file or the one there was left by a process that has ended; otherwise it fails and leaves the file as it is. unlock() removes the file, but WvLockFile not that of another living process; isok() says whether lock() or unlock() would succeed. A process that ends, wherever it does, does not stop others from getting the lock.", "quantifier": "all numbers of processes and objects, all interleavings of their system calls, all points where processes end, all system calls that fail, all lock files there at first", "why_tests_cant": "Exclusion depends on how the system calls of several processes interleave and on where one of them ends; a test runs one process, or a few interleavings of two.", "anchors": ["streams/wvlockdev.cc", "include/wvlockdev.h", "streams/wvlockfile.cc", "include/wvlockfile.h"]}
{"id": "C76", "title": "D-Bus connections give every message, and every reply to who waits for it", "statement": "WvDBusConn: the messages a connection gets are those the other side sent, in order, however their bytes arrive, and whenever it returns to the event loop it has dealt with all that are complete. A message that answers a request which waits goes to the callback of that request, once, and to nobody else; any other is offered to the callbacks for messages, those of lower priority first, until one says it has handled it. A request made with the number of one that waits takes its place, and that one is told. What the user sends is written in order, each message once, nothing before the authentication and what was held back right after it. A request that is not answered in time, or whose connection closes, is told so.", "quantifier": "all histories of sending, requests, callbacks added and deleted (also from within callbacks), closing, and data arriving in any pieces; all wire formats that say the length of a message after 16 bytes", "why_tests_cant": "Callbacks may call the connection again at any depth, and messages may be cut anywhere; tests send a few whole messages and their callbacks do little.", "anchors": ["dbus/wvdbusconn.cc", "include/wvdbusconn.h", "dbus/wvdbusmarshal.cc"]}
{"id": "C77", "title": "A D-Bus server passes each message to whom it is for, and answers what nobody can", "statement": "WvDBusServer: every connection has its own unique name; a message for a name goes to the connection that owns the name, and to no other, with the unique name of the sender; a message without destination goes to all connections that are there, also to the one it came from; a message to a name nobody owns is answered by an error; requests to the server itself (Hello, RequestName, ReleaseName, NameHasOwner, GetNameOwner, ...) are each answered once with what the history of names says. When a connection closes its names are free. The server never stops because of what clients send.", "quantifier": "all histories of connections, messages and disconnections, all contents of messages", "why_tests_cant": "Who gets a message depends on the whole history of names and connections of all clients; tests try a few clients and orders.", "anchors": ["dbus/wvdbusserver.cc", "include/wvdbusserver.h"]}
{"id": "C78", "title": "Continuations: a callback can be left with yield and goes on where it was, at any depth, and nothing is lost when its objects go", "statement": "WvCont: calling a continuation starts its callback, or returns from the yield it waits in with the argument of the call; the caller gets the value that is yielded or returned. This holds however deeply continuations call each other: a yield goes back to the one that called, not further. Copies are the same continuation. When the last object for a continuation that waits is destroyed its yield returns 0, isok() is false, and it runs until it returns before the destructor does. Nothing is used after it was deleted; when the main program returns, continuations without objects are deleted and their stacks free to be used again. The program only aborts if it calls a continuation that is running, or yields (or asks for the current one) when it should end, or outside of any.", "quantifier": "all programs (main program and table of callbacks, as trees of what they do next that may depend on all values they get), all numbers of steps", "why_tests_cant": "Jumps between stacks depend on the whole history of calls, yields, copies and destructions; tests try a few shapes of programs.", "anchors": ["utils/wvcont.cc", "include/wvcont.h", "utils/wvtask.cc", "include/wvtask.h"]}
{"id": "C79", "title": "Directory listings of FTP servers are read safely, and say what the server meant", "statement": "ftpparse(): whatever line a server sends, no byte outside the line is read, the parser ends, and the name and identifier it gives are part of the line. A line in one of the known formats is understood: in EPLF every fact in any number and order; in UNIX listings (with or without a group, links, NetWare's, Macintosh's folders) the kind, size, name and date; in VMS and MS-DOS listings the name, kind, size and date. Times are those of the Gregorian calendar. A date without a year is that of the only year which makes the file less than 350 days old and not younger than that, however long the program has been running.", "quantifier": "all lines, all times of the clock, all states of the parser's memory of the year (up to 98 years old); for the formats all names, sizes, dates, amounts of white space and words between", "why_tests_cant": "The lines come from servers nobody has tested with; tests try the lines of the comments in the source.", "anchors": ["urlget/ftpparse.cc", "urlget/ftpparse.h"]}
{"id": "C80", "title": "A generator that reconnects (retry:) passes everything on while it can, tries again when it is time, and uses each inner generator only while it lives", "statement": "UniRetryGen: an operation is passed on to the inner generator exactly if that says it is ok, and its answer is the answer; otherwise there is nothing there but the root key. A generator that says it is not ok is given up. When there is none and the clock has come to the time of the next attempt, every operation (but setv and flush_buffers) makes an attempt; this time is an interval after a loss, and one interval more for each attempt that gave a bad generator. The user's callback comes once after each new connection, before anything else. Nothing is asked of a generator after it was given up; none is given up twice, or while it works; and none is left in the end.", "quantifier": "all behaviours of the clock, of the generators made by the moniker, and of the user, including operations inside the reconnect callback and inside callbacks for changes to any depth; all histories", "why_tests_cant": "Failures come at any moment, also between two questions to the inner generator within one operation; and callbacks re-enter. Tests kill a daemon once or twice.", "anchors": ["uniconf/uniretrygen.cc", "include/uniretrygen.h", "uniconf/unifiltergen.cc"]}
{"id": "C81", "title": "The HTTP/FTP pool keeps one connection per server, gives every request to one that works, and ends every stream it gave out exactly once", "statement": "WvHttpPool: at any time no request refers to a connection that was deleted and no connection to a request that was deleted; there is one connection per server address and user name, and a request is in the hands of at most one. After execute() every unfinished request whose host is known is in the hands of a working connection to that host, also if the one before died. A request leaves the pool at post_select(), and only if it was finished or its URL cannot be fetched (or a dying connection finished it). The stream that addurl() returned gets its end exactly once: when the request is finished or fails, or when the pool is destroyed. Nothing crashes for any URL.", "quantifier": "all sequences of addurl, pre_select, post_select, execute; all answers of the resolver, changing at any time; all orders in which connections take up and finish requests and die; destruction at any point", "why_tests_cant": "Pointers cross between three lists, and connections die and names resolve at any point between two calls; a test with a server sees one order.", "anchors": ["urlget/wvhttppool.cc: WvHttpPool, WvUrlRequest, WvUrlStream", "include/wvhttppool.h", "ipstreams/wvurl.cc: WvUrl::resolve", "include/wvurl.h"]}
{"id": "C82", "title": "A daily event comes at its times of day, not before and not twice", "statement": "WvDailyEvent: an event set up for n times a day from hour h on is due at h o'clock local time and then every 24/n hours. next_event() is the first such moment after the last event (with skip_first also not before one interval, at most six hours, has passed); it is never more than once a minute. The stream is not ready before that moment, is ready when it has passed, and then waits for the following one. It asks the main loop to sleep no longer than until that moment.", "quantifier": "all hours, numbers of times a day, zones, times of setting up and times of the last event; all sequences of rounds of the main loop", "why_tests_cant": "Whether the timetable is kept depends on the hour at which the event was set up and on where the rounds of the main loop fall; the unit test waits for one event.", "anchors": ["streams/wvdailyevent.cc: WvDailyEvent", "include/wvdailyevent.h"]}
{"id": "C83", "title": "Changing the rate of a stream of samples repeats or drops whole samples, evenly, and never in another order", "statement": "WvRateAdjust: what comes out is made of whole samples of the input, in their order, each zero or more times; bytes already in the output buffer stay and no uninitialised bytes are left, however many times the output needs more room. The samples that have come out after j input samples are exactly the whole part of j times the quotient of the two rates (plus what was left over from before); how the input is cut into calls does not matter while the rates stay. The rates are measured over at most about ten seconds. On average exactly the right number comes out, for any clock.", "quantifier": "all inputs, sample sizes, rates, numbers of samples per call, times of the calls, earlier contents of the buffers, and rates taken from another stream", "why_tests_cant": "The remainder carried between calls and the point where the output needs another piece of memory depend on the whole history of sizes and times; a test with one rate sees one path.", "anchors": ["utils/wvrateadjust.cc: WvRateAdjust", "include/wvrateadjust.h"]}
{"id": "C84", "title": "Attributes of a stream are a map from names to values, in one exact block of memory", "statement": "WvAttrs: after any history of set(), get(name) is the value of the last set() of that name, or null if that value was null or empty or there was none; a null or empty name changes nothing. A copy has the same values and changes independently. No byte outside the block is read or written and no undefined byte is read; the block is exactly as long as the names and values that it holds.", "quantifier": "all histories of names and values (null, empty, any C strings), any number of times the same name, copies at any point, and all names asked for", "why_tests_cant": "Deleting from the middle of a packed block and adding at the end are right only if the lengths add up for every order and every length; a test has a few names.", "anchors": ["utils/wvattrs.cc: WvAttrs", "include/wvattrs.h"]}
{"id": "C85", "title": "An alarm rings once, after its time has passed, also if the clock is set back", "statement": "WvStream::alarm(ms): until ms milliseconds have passed alarm_remaining() says how many are left, to within a millisecond; time that the clock is set back does not count, so the alarm is neither lost nor put off. The first callback() after the time (and none more than a millisecond before it) finds alarm_was_ticking true, and no other does until the next alarm(). A cancelled alarm never rings. The main loop is told to wait at most ten milliseconds longer than the alarm has left, or than another stream asked for.", "quantifier": "all durations, all sequences of times at which the alarm is looked at, with the clock set forward and back at any of them, and all sequences of callbacks", "why_tests_cant": "Every look at the alarm changes its state, and the clock may move either way between any two; a test waits with a real clock that only goes forward.", "anchors": ["streams/wvstream.cc: WvStream::alarm, alarm_remaining, callback, pre_select, post_select", "include/wvstream.h"]}
{"id": "C86", "title": "A time stream ticks at the average rate it was set to, whatever the clock does", "statement": "WvTimeStream::set_timer(ms): however late the main loop comes round (up to a hundred ticks late) and however the clock is set back in between, there are never more ticks than ms-long periods have passed, and as soon as the stream has nothing more to catch up with there have been exactly as many; a late tick does not put off the later ones. More than a hundred ticks late it ticks once and starts again from there. The main loop is never made to wait past the next tick or past what another stream asked for; with a period of zero or less the stream never ticks. Being called for another reason does not cost a tick.", "quantifier": "all periods, start times and sequences of times at which the main loop comes round, with the clock set forward and back between any two", "why_tests_cant": "The average is a statement about unbounded histories of late calls and clock changes; a test counts a few ticks of a real clock.", "anchors": ["streams/wvtimestream.cc: WvTimeStream::set_timer, pre_select, post_select, execute", "include/wvtimestream.h"]}
{"id": "C87", "title": "A moniker runs the newest live factory of its name, and the registries live exactly as long as they are used", "statement": "wvcreate<T>(\"name:rest\") calls the factory of the newest live WvMoniker<T> registered under that name, with rest as its argument, and returns NULL if there is none; white space around the whole string does not matter. Destroying a WvMoniker takes away its own registration and no other, so an overridden one comes back into force. However registrations, destructions and calls (also from inside factories) are interleaved, no freed registry is touched, and a registry exists exactly while a registration or an unfinished call uses it.", "quantifier": "all histories of registrations, destructions and nested calls, all names and moniker strings", "why_tests_cant": "Registrations are made by static constructors and dlopen()ed modules in any order, and the registry counts references across all of them; tests register one or two names.", "anchors": ["utils/wvmoniker.cc: WvMonikerRegistry::add, del, create, find_reg, addRef, release; WvMonikerBase; wvcreate", "utils/wvstrutils.cc: trim_string"]}
{"id": "C88", "title": "A protocol stream splits a line into its words, and finds commands by name", "statement": "WvProtoStream: tokenize() returns the words of the line, that is the longest runs of characters other than space, tab, CR and LF, in order and unchanged; tokline() returns the first of them and token_remaining() the rest of the line without white space around it; tokanal() returns the index of the first entry of a table that equals the token, with or without regard to case, and -1 if there is none.", "quantifier": "all lines without NUL, all tokens and tables", "why_tests_cant": "The boundary cases (only separators, no separator at the end, several in a row) combine without end; there is no test of this class in the tree.", "anchors": ["streams/wvprotostream.cc: next_token, next_token_str, token_remaining, tokenize, tokline, tokanal", "utils/wvbuffer.cc: WvBufBase<unsigned char>::_match"]}
{"id": "C89", "title": "Matrix arithmetic is that of integer matrices, and assignment copies", "statement": "WvMatrix: a matrix made from an array has its numbers row by row; a+b and a*b have the entries mathematics says whenever the shapes agree and no int overflows, hence (ab)c = a(bc); shapes that do not agree give the right operand of + and the zero matrix for *. A copied or assigned matrix is equal to the original. No access is outside the arrays.", "quantifier": "all shapes, all entries", "why_tests_cant": "Index arithmetic over all shapes and the absence of stray accesses are universal; tests multiply a couple of small matrices.", "anchors": ["utils/wvmatrix.cc", "include/wvmatrix.h: WvMatrix::operator()"]}
{"id": "C90", "title": "UUIDs survive being written and read, and only UUIDs are read", "statement": "UuidFromString() reads every text of 8-4-4-4-12 hexadecimal digits, in either case, with or without braces, as the UUID it says; UuidToString() writes such a text, of 38 characters, for every UUID, so reading it gives the UUID back and different UUIDs have different texts. Every other string gives UUID_null.", "quantifier": "all 2^128 UUIDs, all strings", "why_tests_cant": "2^128 values and all malformed strings; tests try a few.", "anchors": ["xplc-cxx/strtouuid.cc: UuidFromString", "xplc-cxx/uuidtostr.cc: UuidToString", "include/xplc/uuid.h"]}
{"id": "C91", "title": "The service manager asks its handlers in the promised order", "statement": "After any calls of addHandler(), addFirstHandler(), addLastHandler() and removeHandler(), getObject() asks every handler that was added and not removed, once: first those added first, the latest first, then the others, the latest first, then those added last, the latest last; a handler that is there already stays where it is. The first object that is not null is the answer. A static handler keeps, for each UUID, the first object added since the last removal, and does not touch others. A category lists each component once, the latest first, with the text it was first registered with, and a category once taken does not change when components are registered later.", "quantifier": "all histories of calls, handlers, UUIDs and answers", "why_tests_cant": "The order must hold after every history of calls; tests try one or two.", "anchors": ["xplc/servmgr.cc: addHandler, addFirstHandler, addLastHandler, removeHandler, getObject", "xplc/statichandler.cc: getObject, addObject, removeObject", "xplc/catmgr.cc: registerComponent, getCategory", "xplc/catiter.cc"]}
{"id": "C92", "title": "Hexadecimal dumps stay in their buffer and are faithful", "statement": "For data of any length, hexdump_buffer() never writes outside of the string it allocated and never reads outside of the data. The text has a line for every sixteen bytes: the offset in at least three hexadecimal digits in brackets, the bytes in hexadecimal in groups of four, padded to the same width on every line, and, if asked for, the characters, with a dot for what cannot be printed. There is no NUL in it, and different data have different dumps.", "quantifier": "all data of any length, with and without characters", "why_tests_cant": "The size of the string is a guess of eighty bytes per line that must do for every length; tests try a few.", "anchors": ["utils/wvstrutils.cc: hexdump_buffer"]}
{"id": "C93", "title": "Log files: every line is in the file of its day, files stay below their limit, and only old logs are deleted", "statement": "However often and whenever lines are logged to a WvLogFile, with any clock, each line is appended to a file named after the log, the day of the line in local time and a number, where the file had at most 100 megabytes before; the number taken is the first whose file does not exist or, if appending is allowed, is not full. <name>.current is a link to that file unless something else had that name. Nothing that was in the directory is lost or changed except by appending, but logs not changed for more than keep_for days are deleted when a log is started, all of them.", "quantifier": "all directories, all sequences of lines at any times, all values of keep_for", "why_tests_cant": "Rotation depends on the day, the sizes and whatever is in the directory over weeks; tests cannot wait that long.", "anchors": ["streams/wvlogfile.cc: WvLogFile::start_log, WvLogFile::_make_prefix, trim_old_logs", "include/wvlogfile.h: WvLogFile"]}
{"id": "C94", "title": "Copying and moving configuration keys act like cp -r and mv", "statement": "After UniConf::copy() to a key that neither contains nor is contained in the source, every key below the source has a copy with the same value at the corresponding place below the destination; keys that exist at the destination already keep their values unless force is given; nothing else changes, except that the keys above the destination exist. After move() the destination is what the source was, the source is gone, and nothing else changes.", "quantifier": "all histories of a store, all sources and destinations apart from each other, all sets of existing keys", "why_tests_cant": "The store is changed while it is being walked, in an order that depends on the history; tests see a few shapes of trees.", "anchors": ["uniconf/uniconf.cc: UniConf::copy, UniConf::move", "include/uniconf.h: UniConf::copy, UniConf::move, UniConf::remove"]}
{"id": "C95", "title": "Error objects remember the original cause, with its text, and tell the callback once", "statement": "After any sequence of seterr()/set() calls of all kinds, copies and resets, geterr(), isok() and errstr() of a WvError show the first error reported since the last reset or assignment: its number, and the text given with it or else the system's text for the number. The onerror callback has been called exactly once for each such first error, when number and text were already set. A copy shows the same error. No sequence of proper calls fails an assertion.", "quantifier": "all sequences of calls of any length, with all numbers and texts", "why_tests_cant": "The state depends on the whole history of errors from many layers; tests report one or two errors.", "anchors": ["utils/wverror.cc: WvErrorBase::seterr, WvErrorBase::seterr_both, WvErrorBase::errstr", "include/wverror.h: WvErrorBase, WvError::set"]}
{"id": "C96", "title": "A configuration kept in a directory: no key reaches outside it, and files follow the keys", "statement": "For every key, also one with . and .. and empty parts, get(), set() and iterators of the fs: generator touch nothing outside its directory, but that missing directories above it are made. After set() of a value get() gives it, the keys above exist and nothing else changes; after a removal the key and all below it are gone and nothing else changes; an iterator gives exactly the names of the keys below.", "quantifier": "all file trees without links, all directories, all keys and values, all sequences of calls", "why_tests_cant": "Path handling has to be safe for every key an attacker may choose and every shape of the tree; tests try a few keys.", "anchors": ["uniconf/unifilesystemgen.cc: key_safe, UniFileSystemGen::get, UniFileSystemGen::set, UniFileSystemGen::iterator", "streams/wvfileutils.cc: mkdirp, rm_rf"]}
{"id": "C97", "title": "Walking through directories: every entry once, with its names, and a directory's contents right after it", "statement": "WvDirIter gives every entry of the directory exactly once, in the order they are read, and if it is recursive right after each directory it can open everything below that; with the full name, the name relative to the start, and the last name. Without other file systems, only what is on the same one as the start is entered. At the end it stays at the end, and rewind() starts the same walk again at any time. After up() comes what follows the directory that was left.", "quantifier": "all trees of any depth, in any order of reading; all points of a walk", "why_tests_cant": "Trees are of any depth and size, and up() and rewind() may be called at any point of the walk; tests use one small tree.", "anchors": ["utils/wvdiriter.cc: WvDirIter::next, WvDirIter::rewind", "include/wvdiriter.h: WvDirIter::up"]}
{"id": "C98", "title": "The cache of strings: same text, same memory, and nothing else changes", "statement": "WvStringCache::get() always gives a string with the text that was asked for. As long as some string that it gave for a text is in use and any cache object lives, get() of that text gives the same memory again, whatever was called in between. Editing one string, clean() and the end of caches change no other string's text. No text is kept twice. clean() removes exactly the texts that are no longer in use.", "quantifier": "all histories of making, copying, editing and dropping strings and of creating, using, cleaning and deleting caches", "why_tests_cant": "Reference counts, copy on write and the cache are shared by the whole program; whether sharing ever shows depends on every order of the calls.", "anchors": ["utils/wvstringcache.cc: WvStringCache::get, WvStringCache::clean, WvStringCache::WvStringCache, WvStringCache::~WvStringCache", "utils/wvstring.cc: WvString::unique, WvString::is_unique"]}
{"id": "C99", "title": "Version numbers survive being printed and read, inside their buffers", "statement": "For every 32-bit version number, ver_to_string() writes a text that fits its buffer and from which string_to_ver() reads the same number; so different versions have different texts. A text MAJOR.MINOR or MAJOR.MINOR.REVISION of hexadecimal digits means the number that the documentation says, the last part being a fraction, and versions are ordered accordingly.", "quantifier": "all 32-bit numbers; all texts of hexadecimal digits", "why_tests_cant": "There are 2^32 numbers and unboundedly many texts; trimmed zeroes and left-aligned fractions make boundary cases that samples miss.", "anchors": ["utils/verstring.cc: ver_to_string, string_to_ver, trim_verstr, is_new_ver, is_new_verstr"]}
{"id": "C100", "title": "A digest depends on the data alone, not on how it was handed over", "statement": "For every history of encode, finish and reset calls on an MD5, SHA-1, HMAC, CRC-32 or Adler-32 digest, what comes out is the digest of all data since the last reset, once, at the first finish after it, however the data was cut into calls and into pieces of the buffer. All input is taken until finish and none after. The CRC-32 and Adler-32 values are those of the standards; CRC-32 finds every change that is confined to four consecutive bytes.", "quantifier": "all histories of calls, all data and ways to cut it; all changes of up to four bytes anywhere in data of any length", "why_tests_cant": "There are infinitely many ways to cut data into calls; that no burst of errors escapes is a statement about all data of all lengths.", "anchors": ["crypto/wvdigest.cc: WvEVPMDDigest, WvHMACDigest, WvCrc32Digest, WvAdler32Digest", "utils/wvencoder.cc: WvEncoder::encode, finish, reset"]}
{"id": "C101", "title": "Iterating in order yields the list in order, even when comparing sorts other lists", "statement": "Whatever qsort() the C library has, a sorted iteration over a list yields each of its elements once, in the order of the compare function. This also holds if the compare function itself iterates over other lists in order, with other compare functions, to any depth, and an outer sort is not disturbed by an inner one. If the list changes between being counted and being copied, no memory outside the array is touched.", "quantifier": "all lists, all changes of the list between the two passes, all consistent compare functions and nestings of sorts, all correct qsort() functions", "why_tests_cant": "The static compare pointer makes sorts share state; the nestings and the qsort() algorithms are unbounded.", "anchors": ["include/wvsorter.h: WvSorterBase::rewind, WvSorterBase::next", "utils/wvsorter.cc: WvSorterBase::magic_compare"]}
{"id": "C102", "title": "Shared address aliases live exactly as long as someone wants them", "statement": "For every history of start_edit, add and done_edit calls on any number of WvIPAliasers, an address is an alias exactly from the first add that needs it until a done_edit at which no aliaser wants it; the results of add and done_edit say when that is. No alias is used after it is gone. An interface that is up with a wanted address, or with an address that is no alias, stays up; an address that is kept by an edit is not given up even for a moment, unless another aliaser finishes an edit meanwhile. Nothing else is up, and no address twice.", "quantifier": "all numbers of aliasers, all interleavings of their edits, all addresses, all prior states of the interfaces", "why_tests_cant": "The link counts are shared by all aliasers; a wrong one shows only after particular interleavings of edits, and tests would need root rights.", "anchors": ["linuxstreams/wvipaliaser.cc: WvIPAliaser::start_edit, add, done_edit, Alias::Alias, Alias::~Alias"]}
{"id": "C103", "title": "Firewall objects take away their own rules and no others", "statement": "For every history of add_*, del_* and zap calls on any number of firewall objects, starting from any rules: each rule is there as often as before plus once for each request that was not taken back. When all objects are gone no rule of theirs is left, and rules that belong to none of their requests stay, in their order. The rules of a request are those that its parameters describe.", "quantifier": "all numbers of objects, all histories of calls on them, all parameters, all prior rules", "why_tests_cant": "Rules of several objects can be equal, so that one object's deletion hits another's rule; this depends on the history of all objects.", "anchors": ["linuxstreams/wvipfirewall.cc: WvIPFirewall::add_port, del_port, add_forward, del_forward, add_redir, del_redir, add_redir_all, add_redir_port_range, add_proto, zap"]}
{"id": "C104", "title": "Setting the kernel's routes leaves exactly those of the list, without interruption", "statement": "For every list of routes and every routing table, set_kernel deletes and adds such that afterwards the kernel has the routes of the list and, of the others, only those with the metric 99 that is for manual override. A route that is to stay is there after each of the commands; a second set_kernel has nothing to do. get_kernel reads each line's route whatever the other lines say. find returns the first route that includes an address, if any does.", "quantifier": "all routing tables, all lists of routes, all texts that the route command prints", "why_tests_cant": "Tables and lists are unbounded, and that a kept route is never absent is a statement about every moment; tests would have to change the machine's routes.", "anchors": ["linuxstreams/wviproute.cc: WvIPRouteList::get_kernel, set_kernel, find, WvIPRoute::operator=="]}
{"id": "C105", "title": "Stopping a subprocess ends it, and signals nothing else", "statement": "For every course of events - when the process and its children end, what the pid file says, when the time is over - stop() returns only when the subprocess does not run, and if its children are to be killed only when each process that was looked after has been seen to have no group. Signals go only to those processes or to one that the pid file named, never to init, all processes or the own group; kill() reaches each of them. wait() without limit returns in the round in which the process ends; the exit status is what waitpid told. No assertion fails.", "quantifier": "all states of a subprocess, all sequences of answers of waitpid, pid file contents, group checks and clock readings, all delays", "why_tests_cant": "When processes end relative to the calls is up to the system's scheduler; tests see a few of these interleavings.", "anchors": ["utils/wvsubproc.cc: WvSubProc::wait, stop, kill, kill_primary, pidfile_pid"]}
