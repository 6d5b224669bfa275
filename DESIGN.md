# Formal model of wvstreams in Rocq (Coq 8.16.1)

The source in `/repo` is read as text; it is not built or run.  The model is a
set of total Gallina functions, one per C++ function, each with a comment
citing file and lines.  Properties are listed in `properties.jsonl`; the map
from property to theorem is in `MANIFEST.json`.

## Layout

For every modelled module `X` in `rocq/theories/`:

* `XModel.v`  – executable model only (no proofs);
* `XSpec.v`   – the small specification the statements are written in, which
  does not mention the model (omitted when the statement needs nothing but
  lists and numbers);
* `XProofs.v` – lemmas;
* `XProps.v`  – the theorems (`Proof. exact lemma. Qed.`), examples showing
  the hypotheses are met by non-trivial cases, and `Print Assumptions`.

`Base.v` has shared notations (bytes are `Ascii.ascii`, strings are `list ascii`).

## Conventions

* C strings are `list ascii`; the terminating NUL is implicit.  Where reading at
  or past the terminator matters the model has an explicit out-of-bounds outcome.
* Undefined behaviour (out-of-bounds access, assertion failure, division by
  zero, non-termination) is a distinct result of the model function, never a
  default value.  Theorems either exclude it by a stated precondition or prove
  it does not occur.
* Fixed-width arithmetic is written with an explicit modulus where wrap-around
  is reachable.
* Loops use either structural recursion or fuel; running out of fuel is an error
  outcome and the theorems show it does not happen.
* Where the code violates the property, there is a theorem `..._refuted` with a
  concrete witness and a positive theorem with the exact guard
  (`_partial` in its name if it falls short of the property).

## Plan per property

| Id | Model | Method |
|----|-------|--------|
| C01 | `TclModel`: escape and unescape as in wvtclstring.cc | induction over the string, invariant relating scanner state and remaining text |
| C02 | encode, decode, getword over a list buffer | getword on `escape x ++ sep ++ rest` returns x; induction on list |
| C03 | same | framing lemma: result splits the buffer |
| C04 | two-pass writer with a bounds-checked buffer | sizing pass = writing pass, by induction |
| C05 | `HexModel` encoder/decoder state machines | step function folded over bytes; chunk invariance = fold_left_app |
| C06 | `Base64Model` | invariant relating bit accumulator to the RFC definition |
| C07 | `CstrModel` | induction; per-byte escape lemma by computation over 256 bytes |
| C08 | `UrlModel` | same |
| C09 | `BackslashModel` with output room | induction / refuted for short output |
| C10 | `XorModel`, `CounterModel` | stream position invariant |
| C11 | `CircBufModel`: array + head/totalused/totalinit/xhead | refinement to queue with history |
| C12 | `DynBufModel`: list of sub-buffers | refinement to queue with history |
| C13 | merge over abstract stores with chunk sizes | induction on remaining count |
| C14 | `MagicModel`: two-process transition system, one shared access per step | invariant over reachable states |
| C15 | `ListModel`: pointer-level heap of links | refinement to list |
| C16/C17 | `HashModel`, `ScatterModel` | invariant on slots/probe sequences, refinement to multiset |
| C18 | `IntFmtModel` | division induction; value of digits |
| C19 | `StringCowModel`: buffers with reference counts | refinement to independent values |
| C20 | `FormatModel` two-pass formatter | sizing vs writing; refuted witness for width+precision |
| C21 | `SplitModel` | induction |
| C22–C25 | `KeyModel`: segment lists, sharing store and pop offsets; matches | induction; declarative spec for wildcards |
| C26/C27 | `TempGenModel`: tree | refinement to map; replay of notifications |
| C28 | `DeltaModel` | invariant over histories |
| C29–C31 | `TxnModel`: change tree, base map | semantic function of change trees; invariant |
| C32 | `MountModel` | induction on mount list |
| C33/C34 | `FilterModel`, `SecureModel` | frame theorems, refuted for setv |
| C35 | `IniModel` on top of Tcl model | round-trip; refuted by injection witness |
| C36/C37 | `CrashModel`: file system with volatile steps and failing calls | invariant at every prefix of every run |
| C38–C40 | `StreamModel` | history-variable invariants over all device behaviours |
| C41 | `SubprocModel` | invariant over all schedules |
| C42 | `LogBufModel` | induction over history |
| C43 | `TimeModel` | linear integer arithmetic |
| C44 | `IpModel` | bitwise reasoning on Z/N |
| C45, C46, C48 | `TclModel` | corollaries and witnesses about the documented behaviour |
| C47 | `TclModel` (string masks) | induction |
| C49 | `KeyModel` (hash functions) | induction |
| C50 | `StrIntModel` on top of `IntFmtModel` | induction over digits |
| C51 | `IpModel`: comparison and hashing of addresses | case analysis, arithmetic modulo 2^32 |
| C52 | `LogModel`: receivers of log text | invariant over all fragmentations |
| C53 | `RemoteModel`: client, daemon and the two byte streams | refinement to the local generator over all interleavings |
| C54 | `WatchModel`: tree of watches | invariant relating the tree to the history of registrations |
| C55 | `RefreshModel` on top of `IniModel` | sorted merge by induction; replay of notifications over histories |
| C56 | `LayerModel`: lists of memory generators | per-generator effect of each set, replay of notifications over histories |
| C57 | `RecModel`: the explicit stack of iterators | the stack's output is the preorder of the tree, by induction on the tree |
| C58 | `ReplModel`: the list of generators with what is known of each | every call ends with all known generators in order agreeing (invariant over histories); replication computes the stacked contents, by induction on the keys taken over |
| C59 | `CacheModel` over `TempModel`/`RecModel` | the cache agrees with the inner generator except for empty values, invariant over histories |
| C60 | `FastModel` | every remembered node holds the inner generator's value, invariant over histories |
| C61 | `DefModel` | induction on the segments: the search returns the least existing candidate in the order `before`; counting wildcards from the end |
| C62 | `SerModel` | round trip by induction on the type; the byte-order functions reverse the little-endian digits, for every integer |
| C63 | `HrefModel` | equivalence of the searches with a declarative grammar; printing is shown to produce a text of the grammar |
| C64 | `GlobModel` | patterns as a mutual inductive type; its text converts to the expression's text, that parses to an expression, that matches the pattern's language: three mutual inductions |
| C65 | `SlistModel` | a transition system whose stack holds the loops and callbacks in progress; invariant: references = holders + owning links + ready links + calls in progress |
| C66 | `StrModel` | each helper against a relation on strings (first occurrence, leftmost replacement, stretched runs), by induction on the string |
| C67 | `StrModel` | trailing slashes removed by induction on their number, then the last slash |
| C68 | `NumFmtModel` | the loops over the prefixes by induction, against rounding stated as inequalities; grouped digits by induction on the digits |
| C69 | `EStreamModel` | a simulation relation between the elements of the chain, with their buffers, and machines; induction on the chain and on the calls |
| C70 | `EStreamModel` | invariants of open and closed streams, kept by each operation; induction on the operations |
| C71 | `ConfModel` | the inheritance search is equal to a walk over the chain without repetition; lemmas on lists of entries; induction on the callbacks |
| C72 | `ConfModel` | an invariant of histories (every name and value can be held by a file), parse of dump by induction on sections and entries; all prefixes of the system calls of flush |
| C73 | `WrapModel` | simulation of each run of blanks and each word by the layout relation; width, words and blanks by induction on the relation |
| C74 | `HttpModel` | invariant of each call of execute: the unread bytes are the rest of one response, described by a relation for each state of the parser, followed by whole responses of the outstanding requests |
| C75 | `LockModel` | transition system of system calls, processes starting and ending at any point; invariants over all interleavings that tie the state of each call to the lock file and to who holds the lock; symbolic execution of calls that nothing interrupts |
| C76 | `DbusConnModel` | callbacks are frames that last until they return, so the user may do anything inside; invariant between the state and the view of a small automaton of allowed observations; framing by induction over the loops |
| C77 | `DbusServModel` | the past is a list of observations; names, owners and who is there are functions of the past alone; invariant between the state and the past |
| C78 | `ContModel` | simulation in both directions between the machine with stacks and ideal continuations; each return to a caller is a chain of jumps from the top level inwards, by induction over the depth |
| C79 | `FtpModel` | safety: every read is below the length, by induction over the scan of the line; round trips: lines are built from their meaning in `FtpSpec`, and parsing gives the meaning back; the calendar against sums of lengths of years and months |
| C80 | `RetryModel` | the history of every life follows the rules of `RetrySpec`, by induction over nested operations; what the rules imply about use, release and pace, by induction over histories |
| C81 | `PoolModel` | one invariant over the two lists (who holds whom, who was ended) kept by every elementary change; progress by a second invariant under a steady resolver |
| C82 | `DailyModel` | the timetable is one grid modulo the interval; next_event() is the first point of the grid after the last event; rounds of the main loop by induction |
| C83 | `RateModel` | invariant of the output buffer (written prefix, whole samples, room); carry law of integer division by induction on the samples |
| C84 | `AttrModel` | representation invariant: the block is the encoding of a list of pairs; every operation refines the map |
| C85 | `AlarmModel` | invariant: the microseconds left are the duration minus the sum of the forward steps; induction on the looks |
| C86 | `TickModel` | refinement to an ideal timer over the sum of the forward steps; the counting law by induction on the looks |
| C87 | `MonikModel` | forward simulation of an abstract list of live registrations and calls; the reference count is one plus their number |
| C88 | `ProtoModel` | induction on the length of the line; uniqueness of the decomposition into words |
| C89 | `MatrixModel` | loop invariants over the entries written so far; refinement to functions on indices |
| C90 | `UuidModel` | Horner's rule by induction on the digits; the parser is run on every text of the grammar; inversion of the parser for what else it accepts |
| C91 | `ServModel` | invariant: the intercepting nodes are a prefix, no handler twice; refinement to three lists; next pointers only go to older entries, so a list once taken is fixed |
| C92 | `HexdModel` | invariant: at most 68 characters per line written; each loop gives a closed form; a decoder for injectivity |
| C93 | `RotModel` | invariant over any sequence of lines: names of logs are files not older than their day, the open file is there, the link points to it; pigeonhole for the free number |
| C94 | `CopyModel` | invariant over the loop: the contents after any part of the walk; the walk is C57's, so parents come first and no key comes twice |
| C95 | `WverModel` | refinement to "first error since the last reset", by induction over the calls |
| C96 | `FsgModel` | the path text is resolved the way the system does and shown to be the directory followed by the key; then lookups before and after each call |
| C97 | `DiriModel` | invariant: what is still to come, computed from the stack of open directories, is the rest of the recursive listing; induction on its length |
| C98 | `ScacModel` | invariant over histories: table entries have different texts and valid buffers; a buffer in use and in the table stays there unchanged |
| C99 | `VerModel` | printing and reading are both related to lists of digits; induction on these, and arithmetic for the shifts |
| C100 | `DigModel` | invariant: the state is the digest state of the data so far; the shift register is injective in the register and, on 32 bits, in the input |
| C101 | `SortModel` | induction on the depth of nested sorts, inside on the run of qsort() and of the compare function |
| C102 | `AlsModel` | refinement: the link count of an alias is the number of aliasers that want its address; induction over histories |
| C103 | `FwModel` | counting each rule: invariant over histories that relates its number to the requests |
| C104 | `RouteModel` | membership in the kernel's table followed through the commands by induction; the loop over words is a fold over the pairs |
| C105 | `SubModel` | the processes looked after followed through the rounds by induction over the system's answers |

Not modelled: anything whose behaviour is delegated to the operating system or
an external library (sockets, DBus, OpenSSL, fork, COM-style RTTI), C++ memory
management except where a property names it, GUI/Qt glue.

## What is modelled, module by module

Each `XModel.v` cites the lines it models next to every definition; this is the
summary, with what is left out.

| Model | Code | Left out |
|-------|------|----------|
| `TclModel` | utils/wvtclstring.cc, utils/wvstringmask.cc | nothing of these files |
| `EncoderModel` | utils/wvencoder.cc: WvEncoder | WvEncoderChain |
| `HexModel`, `Base64Model` | utils/wvhex.cc, utils/wvbase64.cc | buffers are byte lists |
| `CstrModel`, `UrlModel` | utils/wvstrutils.cc: cstr_escape, cstr_unescape, url_encode, url_decode | |
| `BackslashModel` | utils/wvbackslash.cc | input is one in-place buffer |
| `CryptModel` | crypto/wvxor.cc, crypto/wvcountermode.cc | the block cipher is an arbitrary function |
| `BufModel` | utils/wvbufferstore.cc, include/wvbufstore.h | element sizes other than 1, cursors, autofree flags, sizes above 2^31 |
| `MagicModel` | utils/wvmagiccircle.cc | memory is sequentially consistent; creation of the mapping |
| `ListModel` | include/wvlinklist.h, utils/wvlinklist.cc | id strings |
| `HashModel` | include/wvhashtable.h, utils/wvhashtable.cc | slot lists are plain lists (shown correct in `ListModel`) |
| `ScatterModel` | include/wvscatterhash.h, utils/wvscatterhash.cc | allocation failure |
| `IntFmtModel` | utils/wvstring.cc: integer constructors, num() | double constructor and operator=(int), which call sprintf |
| `CowModel` | utils/wvstring.cc: buffers, link counts | counts do not wrap; `WvStringStaticBuf` details |
| `FormatModel` | utils/wvstring.cc: do_format | |
| `SplitModel` | include/wvstrutils.h: split, splitstrict, join | objects of the collection are byte lists |
| `KeyModel` | uniconf/uniconfkey.cc, utils/wvhash.cc on values | iteration macros |
| `KeyHeapModel` | uniconf/uniconfkey.cc, include/uniconfkey.h: shared segment vectors | ints are unbounded; the "*" and "..." static keys |
| `TempModel` | uniconf/unitempgen.cc, the parts of uniconf/unihashtree.cc it uses | parent pointers (full keys are paths); the hash table of children is a list that may be reordered at any time |
| `DeltaModel` | uniconf/uniconfgen.cc: hold, unhold, clear, flush, delta, with arbitrary re-entrant callbacks | callbacks that add or delete callbacks; overflow of the nesting counter |
| `TxnModel` | uniconf/unitransactiongen.cc over a UniTempGen as its base: get, set, iterator, commit, refresh, the callback on the base's notifications | other generators as base; the base's own commit and refresh; callbacks re-entering the transaction |
| `MountModel` | uniconf/unimountgen.cc over arbitrary generators (their methods are parameters): get, set, setv, exists, haschildren, refresh, commit, mountgen, makemount, unmount, zap, iterator over unmounted keys | notifications and holds; recursive iteration; a generator mounted at two keys is covered for get and set only |
| `StrIntModel` | uniconf/uniconfgen.cc: str2int; uniconf/uniconf.cc: getmeint, setmeint; strtol with base 0 as glibc specifies it | locales |
| `PermModel` | include/unireadonlygen.h, uniconf/unifiltergen.cc, unisubtreegen.cc, unipermgen.cc, unisecuregen.cc over arbitrary inner and permission generators | the return values of refresh and commit; the moniker constructors; recursive iterators |
| `TimeModel` | utils/wvtimeutils.cc, include/wvtimeutils.h, 64-bit signed arithmetic with overflow as a fault | the clock itself (readings are arguments); wvdelay |
| `IpModel` | ipstreams/wvaddr.cc: WvIPAddr, WvIPNet, WvIPPortAddr, their text forms, operators, comparator and hash | sockaddr conversions; other address kinds; the service table is a parameter |
| `QueueModel` | utils/wvsubprocqueue.cc: add, go, cookie_running, isempty | processes themselves: which have ended is an argument of each go(); the blocking loop of finish() |
| `LogModel` | streams/wvlog.cc: WvLogRcv (log, lines, thresholds), WvLogConsole; streams/wvlogbuffer.cc | WvLog dispatch to receivers; parsing of custom levels; the order in which the rule table is iterated is given; time stamps; failing writes of the console |
| `StreamModel` | streams/wvstream.cc: write, flush, flush_outbuf, close, seterr, setclosecallback, select's flushing, read, blocking_getline, noread, nowrite, maybe_autoclose, flush_then_close, outbuf_limit, delay_output, auto_flush; streams/wvfdstream.cc: uread, uwrite, post_select | continue_select, tasks, globalstream, alarms, read and write callbacks, unread; the device, select and the clock are an arbitrary list of answers; close callbacks make any calls except reads |
| `FileModel` | uniconf/uniinigen.cc: commit_atomic, commit; streams/wvatomicfile.cc: open, close; writes go through `StreamModel` | mode bits other than the sticky bit, realpath, the save callback, concurrent writers; a process crash leaves the file system as it is, power loss is only used for a refutation |
| `IniModel` | uniconf/uniinigen.cc: refresh (the reading of the file), save, save_sect, printsection, printkey, absolutely_needs_escape | the file is one that could be read without error (what refresh does around the reading: `RefreshModel`) |
| `RemoteModel` | uniconf/uniclientconn.cc: readmsg, readcmd, readarg, writecmd; uniconf/uniclientgen.cc: get, set, setv, haschildren, iterators, commit, refresh, conncallback; uniconf/daemon/uniconfdaemonconn.cc: execute and its commands, deltacallback | time-outs, closing, quit, help and noop, servers of another kind; the order in which the hash tables enumerate children is fixed; the daemon serves one memory generator |
| `WatchModel` | uniconf/uniconfroot.cc: add_callback, del_callback, prune, check, deletioncheck, gen_callback, watchout and the destructor; include/uniconfroot.h | callbacks that change the watches while they run; holding of notifications (C28) |
| `RefreshModel` | uniconf/uniinigen.cc: constructor, set, refresh around the reading of the file, refreshcomparator; uniconf/unihashtree.cc: _recursivecompare | log messages; the system calls are what they are seen to return |
| `LayerModel` | uniconf/unilistgen.cc: get, set, setv, exists, haschildren, gencallback, iterator and IterIter | refresh, commit, flush_buffers, isok; the moniker parser |
| `RecModel` | uniconf/uniconfgen.cc: _UniConfGenRecursiveIter | changes of the generator while it is walked |
| `CacheModel` | uniconf/unicachegen.cc | the inner generator is a memory generator; commit, flush_buffers |
| `FastModel` | uniconf/unifastregetgen.cc | the inner generator is a memory generator |
| `ReplModel` | uniconf/unireplicategen.cc, include/unireplicategen.h: constructor, append, prepend, isok, deltacallback, set, get, first_ok, replicate, replicate_if_any_have_become_ok | setv, refresh, commit, iterator; a generator that goes out of order during a call; the moniker parser |
| `DefModel` | uniconf/unidefgen.cc; uniconf/unifiltergen.cc: exists, haschildren, iterator | the inner generator is a memory generator; get of a value whose number does not fit an int faults |
| `SerModel` | include/wvserialize.h, utils/wvserialize.cc, utils/wvbuffer.cc: strchr | buffers are byte sequences; alignment of pointers into a buffer; failing allocations |
| `HrefModel` | ipstreams/wvurl.cc, include/wvurl.h | name resolution (a parameter), getaddr, the copy constructor |
| `GlobModel` | utils/wvglob.cc | the index in error texts; the registers; `regcomp`/`regexec` are specified in `GlobSpec` |
| `SlistModel` | streams/wvistreamlist.cc, include/wvistreamlist.h | crash information, link ids, the global list's fork handler, the debugger command; destructors that touch the list; destroying the list itself in a callback |
| `StrModel` | utils/wvstrutils.cc: strreplace, undupe, strcount, afterstr, beforestr, substr, depunctuate, spacecat, snip_string, backslash_escape, getfilename, getdirname | the bytes by which buffers are rounded up |
| `NumFmtModel` | utils/wvstrutils.cc: sizetoa and its helpers, secondstoa, metriculate | - |
| `EStreamModel` | utils/wvencoder.cc: WvEncoderChain; streams/wvencoderstream.cc; of streams/wvstreamclone.cc and streams/wvstream.cc what an encoder stream uses | callbacks, alarms, autoclose times, limited output buffers, setclone(), removing encoders |
| `ConfModel` | configfile/wvconf.cc, configfile/cfgsection.cc, configfile/cfgentry.cc | wvauthd and passwords, addfile/setbool/addname callbacks, null names, callbacks that change the list, the Windows variant |
| `WrapModel` | utils/wvwordwrap.cc | overflow of the column after 2^31 blanks in a row |
| `HttpModel` | urlget/wvhttpstream.cc: addurl, request_next, start_pipeline_test, pipelining_is_broken, execute, doneurl, close, with the line and block reads of WvStream they use | time-outs, text of the requests, putstream, write errors, SSL, closing of the output stream by the user |
| `LockModel` | streams/wvlockdev.cc, streams/wvlockfile.cc: lock, unlock, isok/islocked and readpid as sequences of system calls on one shared directory, interleaved with those of other processes, which start and end | partial writes, liblockdev, NFS, overflow of lock_count, sleep; the access() calls are one that may say no at any time; kill() of process groups answers by choice |
| `DbusConnModel` | dbus/wvdbusconn.cc: send, add_pending, cancel_pending, filter_func, add_callback, del_callback, post_select, expire_pending (which always faults); dbus/wvdbusmarshal.cc: message_length, demarshal | authentication, the wire format (a parameter: libdbus), requests for names, time limits that are negative, memory |
| `DbusServModel` | dbus/wvdbusserver.cc: register_name, unregister_name, unregister_conn, do_server_msg, do_bridge_msg, do_broadcast_msg, do_gaveup_msg, conn_closed, new_connection_cb | authentication (the uid is what the client claims), error texts, interfaces, signatures and flags, memory of connections |
| `ContModel` | utils/wvcont.cc: all of WvCont; utils/wvtask.cc: start, recycle, WvTaskMan::start, run, yield, do_task (stacks as contexts saved by setjmp) | stacks that overflow, how stacks are allocated (get_stack, stackmaster), the end of WvTaskMan, the debugger |
| `FtpModel`, `FtpSpec` | urlget/ftpparse.cc: all of it (totai, initbase, initnow, guesstai, check, getmonth, getlong, ftpparse) with reads outside the line and overflow of long as outcomes | `time()` is a parameter; long has 64 bits |
| `RetryModel`, `RetrySpec` | uniconf/uniretrygen.cc: all but the moniker's parameters; uniconf/unifiltergen.cc: setinner, the destructor, and the calls without a key map | time as microseconds without limits; log messages; isok() and destructors of inner generators do not call back |
| `PoolModel` | urlget/wvhttppool.cc: WvUrlRequest (constructor, done), WvUrlStream::addurl/delurl, WvHttpPool (all); ipstreams/wvurl.cc: resolve; include/wvurl.h: isok, getaddr | the connections are an environment that finishes requests it holds, dies, and finishes some when destroyed; URLs already split; the select machinery only as far as it calls the pool; the pipeline table |
| `DailyModel`, `DailySpec` | streams/wvdailyevent.cc: all of it | local time is UTC plus a constant (no summer time); WvStream::pre_select/post_select of the base class add nothing |
| `RateModel`, `RateSpec` | utils/wvrateadjust.cc: all of it | the output buffer is a list whose unwritten bytes are marked; the two readings of the clock in one call are the same |
| `AttrModel`, `AttrSpec` | utils/wvattrs.cc, include/wvattrs.h: all of it | sizes are natural numbers; the destructor; the assignment operator that the compiler makes |
| `AlarmModel`, `AlarmSpec` | streams/wvstream.cc: alarm, alarm_remaining, and what pre_select, post_select and callback do with them | wvstime() is a parameter of every call; the rest of select() |
| `TickModel`, `TickSpec` | streams/wvtimestream.cc: set_timer, pre_select, post_select, execute | wvstime() is a parameter and stands still within a round; the base class's own reasons to be selected are only the refuted case |
| `MonikModel`, `MonikSpec` | utils/wvmoniker.cc (all) | registries are in a heap with addresses, so that use after free shows; factories are opaque numbers; a call of wvcreate() is two steps so that anything may happen inside the factory; a failing assert is a Fault |
| `ProtoModel`, `ProtoSpec` | streams/wvprotostream.cc: the tokenizer; utils/wvbuffer.cc: _match | tokbuf is a list of bytes (the buffers themselves are C06 and others); logging and the line reader |
| `MatrixModel`, `MatrixSpec` | utils/wvmatrix.cc, include/wvmatrix.h | arrays are lists and stray accesses are Faults; overflow is a Fault; printable(); aliasing in operator= |
| `UuidModel`, `UuidSpec` | xplc-cxx/strtouuid.cc, xplc-cxx/uuidtostr.cc | strtoul(..., 16) is modelled from the C standard, with white space, sign and 0x; bytes of the result that were never written are None |
| `ServModel`, `ServSpec` | xplc/servmgr.cc:129-235, xplc/statichandler.cc:49-113, xplc/catmgr.cc:44-82, xplc/catiter.cc | handlers, objects and UUIDs are numbers; entry nodes have addresses and next pointers; reference counts are not modelled |
| `HexdModel`, `HexdSpec` | utils/wvstrutils.cc:245-301 | every write is checked against the allocated size, with sprintf's and strcat's NUL; isprint() of the C locale |
| `RotModel`, `RotSpec` | streams/wvlogfile.cc:101-198 | one directory, changed by this log only; the date text is any function of the day; time stands still during one call; the child process that deletes old logs runs to its end at once; links and directories with the name of a log file are excluded by hypothesis |
| `CopyModel`, `CopySpec` | uniconf/uniconf.cc:68-116 (getme, setme, move, copy), include/uniconf.h:232-233 | one memory generator at the root; the names to copy are taken before the loop (the source does not change in it if source and destination are apart); keys of plain segments |
| `WverModel`, `WverSpec` | utils/wverror.cc:90-188, include/wverror.h:30-151 | strerror() is any function; the callback only takes notes; subclasses that override seterr() and win32 are not modelled; a failed assertion is a fault |
| `FsgModel`, `FsgSpec` | uniconf/unifilesystemgen.cc:24-139, streams/wvfileutils.cc:30-67 (mkdirp, rm_rf) | no symbolic links, permissions or errors of the disk; the directory is an absolute path of names; rm_rf removes at once; files have no NUL |
| `DiriModel`, `DiriSpec` | utils/wvdiriter.cc:19-167, include/wvdiriter.h:34-92 | the tree does not change during a walk; lstat() works on all that readdir() gives; `.` and `..` are not in the tree |
| `ScacModel` | utils/wvstringcache.cc:11-89, utils/wvstring.cc:246-324 (links, unique, is_unique) | no null strings; buffer numbers are not used again; the table by its contents, not its slots |
| `VerModel`, `VerSpec` | utils/verstring.cc:16-174 | sprintf's %x of at most four digits; the static buffers only by their sizes |
| `DigModel`, `DigSpec` | crypto/wvdigest.cc:16-239, utils/wvencoder.cc:37-77 | the functions of OpenSSL as one function of all data; zlib's crc32() and adler32() as their definitions bit by bit, not its tables |
| `SortModel`, `SortSpec` | include/wvsorter.h:22-121, utils/wvsorter.cc:12-18 | qsort() is any algorithm that asks for comparisons and is right (C standard); lists by what their two passes yield; one thread |
| `AlsModel`, `AlsSpec` | linuxstreams/wvipaliaser.cc:20-177 | interfaces lo:wv0-255 as up with an address, or not; whether the kernel grants a change, and which addresses are real, are inputs; no other process changes lo:wv* meanwhile |
| `FwModel`, `FwSpec` | linuxstreams/wvipfirewall.cc:29-355 | `enable` is on throughout; iptables commands as what their text says, not as text (so no shell and no quoting); commands do not fail, except -D of a rule that is not there |
| `RouteModel`, `RouteSpec` | linuxstreams/wviproute.cc:38-44, 60-187, 200-262 | lines come as words; how a word is read as a number, address or network is a parameter; the kernel does what it is told; realtable() (which table a command names) is not modelled |
| `SubModel`, `SubSpec` | utils/wvsubproc.cc:232-400 | the system's answers come as a list of rounds, one per turn of the loop; signals are collected, their effect is in the rounds that follow; fork, exec and the environment are not modelled |

## Findings: where the code does not do what it should

Each is a theorem ending in `_refuted` with a concrete witness.

* Tcl lists: an unbalanced last element ending in a newline is dropped (C02);
  unescaping a lone double quote reads past the end (C04); null becomes the
  empty string (C45); quoted words are never returned (C46); masks index out of
  bounds for bytes above 127 (C47); backslash-newline is not a continuation (C48).
* Backslash encoder: short output buffers lose or split escapes (C09).
* XOR with an empty key and counter mode with an empty counter do not work (C10).
* Buffers: optgettable after a history peek, zero capacity (C11); peeks at
  offsets and into history of chained buffers (C12, C13).
* Lists: find_next and unlink of a rewound iterator (C15).
* Hash tables: a huge size hint overflows (C16, C17); open addressing may probe
  for ever in a nearly empty table (C17).
* Strings: most negative integers (C18); assigning a string a pointer near its
  own buffer (C19); formats with width above precision overrun the buffer, and
  argument 21 is out of range (C20); joining nothing with a separator of three
  or more bytes underflows (C21).
* Keys: trailing slashes are kept (C22); editing keys that were cut out of others
  writes out of bounds, self-assignment uses freed memory (C23); patterns with
  an ordinary segment before a wildcard match nothing (C25).
* Held notifications: a callback that calls hold_delta() and returns is not
  respected, the flush in progress goes on (C28).
* Transactions: a key that exists in the transaction only because a key below it
  was set changes from one non-empty value to another without a notification
  (C31); keys ending in a slash are treated unlike in the base (C29).
* Mounts: when one generator fails to refresh the later ones are not refreshed;
  unmounting a generator that is not mounted dereferences null; a mount point
  written with a trailing slash loses a segment of every key (C32).
* Restricting generators: setv (the bulk set) bypasses the read-only, subtree and
  secure generators (C33); iterating a secure generator over a key the inner one
  lacks dereferences null; the constructor of UniSecureGen that takes a moniker
  never stores its permissions; an entry of -1 reads as "inherit" (C34).
* str2int reads numbers beyond an int modulo 2^32 and leading zeros as octal (C50).
* Times: msecdiff can round up although documented to chop; normalize is a second
  off when the microseconds are a negative whole number of seconds (C43).
* IP networks: more than 32 mask bits shift by a negative amount; normalize loses
  addresses when the mask starts with bits 01, as include() can produce (C44);
  address equality is not transitive across kinds and not respected by hashes (C51).
* Subprocess queue: with a limit of zero nothing ever starts and finish() never
  returns; a sync point can start three times after it was last added, although the
  header promises at most two (C41).
* Log receivers: a nameless source together with custom levels passes null to strstr;
  a level of NUM_LOGLEVELS or more that passes the threshold reads beyond the name
  table (C52). WvLogBuffer::feed_receiver joins neighbouring messages of one source
  and level into one line (C42).
* Streams: when auto_flush is off and the device closes during a flush without an
  error, the bytes in hand are dropped and the following ones are still sent (C38).
  outbuf_limit below the bytes already buffered wraps around and removes the limit;
  flush(0) returns false even when it flushed everything (C38). After a getline that
  returned NULL and the end of the input, read returns nothing although bytes are
  buffered, because queue_min stays above what is there (C39).
* Files: a commit whose final flush runs out of its two seconds renames a cut-off
  file into place without any error (C36). Neither commit nor WvAtomicFile syncs, so a
  power loss after the rename can leave an empty file (C36). Written in place, the file
  is empty and not yet marked sticky for a moment, and the mark is removed while data
  is still buffered (C36). WvAtomicFile renames even after a failed write, replacing
  the old file by a cut-off one (C37).
- .ini files: `absolutely_needs_escape` stops looking once it meets an unmatched closing
  brace, so a value `}` + newline + `evil = 1` is written unquoted and creates the key
  `evil` on the next load. Values in braces or quotes lose them, a backslash inside an
  unquoted value is dropped, and a value or section that is a lone quote makes
  wvtcl_unescape read beyond the string. `IniSpec.good_value`, `good_name` and
  `good_section` say exactly what survives (C35).
- A remote client cannot do everything a local one can (C53). Removing the key `" "`
  through the daemon removes everything, because do_remove trims white space off the
  key before using it. Removing the key `.` does nothing when there are keys below it.
  The version 19 client sends `setv`, which the daemon does not know: the values are
  lost, and each FAIL may be taken for the answer to the next call. A value that ends
  in a newline and has unmatched braces is rejected as malformed. Listing `a/` gives
  nothing.
- C54: `UniConfRoot::~UniConfRoot` does not notice watches left on the root key
  (watchout looks at children only); a change reported at a key with a trailing slash
  calls recursive watches of that key twice.
- C55: `UniIniGen::refresh` compares times in whole seconds, so a second change within
  the second that keeps the size is never seen; it remembers the stat data before the
  file has been read, so after a read error the next refresh reports success without
  reading; if the file cannot be opened, uninitialised stat data are remembered; the
  removal of a key below n removed keys is notified n + 1 times.
- C56: setting a key through a list of generators sets it in all of them, and the keys
  above are created as empty ones in the first; a value that only a later generator had
  for them is hidden from then on.  While a key that several generators have is
  removed, the value of a later one is notified first.  Calling next() of the list's
  iterator once more after it returned false uses a list position past the end.
- **Replicating generator** (uniconf/unireplicategen.cc): every isok() of an inner
  generator updates was_ok, so isok() of the whole, or a notification from another
  generator, can hide from replicate_if_any_have_become_ok that one came back; it then
  stays different for ever (`C58_isok_refuted`, `C58_inner_refuted`).  The value of the
  root is never replicated.  A key removed while a generator is away comes back with it.
- **Cache** (uniconf/unicachegen.cc): loadtree skips keys with empty values and the value
  of the root, so they read as missing.  refresh() after the first returns false and does
  not refresh the inner generator.  Before refresh() a key above one that was set reads
  as "" whatever its value.  The constructor accepts a null generator, the destructor
  dereferences it.
- **Remembering generator** (uniconf/unifastregetgen.cc): a callback that asks for another
  key of the same change may get its old value.
- **Defaults** (uniconf/unidefgen.cc): the header says matches nearer the end of the key
  win; the code prefers literal segments at the start (`C61_precedence_refuted`).  The
  value of the root is hidden by `*`, and `a/` reads `a/*`.  A key whose own value is `*1`
  exists and reads as null.  `*-1` reads as the last segment.  Observers are not told
  that a key changed because its default did.
- **Serialization** (include/wvserialize.h): a 16-bit integer is put into an int32_t of
  which the first two bytes are written, which on a big-endian machine are its sign
  (`C62_short_refuted`).  A null string comes back as an empty one.  Sizes are written
  with as many bytes as a size_t has.  A string that is not terminated, in a buffer that
  is not linked, is read beyond the end: the test `used() < strchr(0)` is never true,
  and get(0) is not NULL there.  A size that exceeds the data of a WvBuf fails an
  assertion; the size of a list is believed, and the elements that are not there are 0.
- **WvUrl** (ipstreams/wvurl.cc): the first `@` anywhere ends the user, so the host of
  `http://good.com/x@evil.com/` is evil.com (`C63_host_refuted`).  The two characters
  after the colon are skipped unseen: `http:` is read beyond the end of its buffer, and
  `http: xevil.com/` has the host evil.com although the text was cut at the blank.
  `file:` has port 0 and so is never ok.  A password without user is not printed; an
  empty user before a host with `@` prints as another URL.  Any protocol that begins with
  a known name is accepted (`httpd:`).  A null text crashes.
- **WvGlob** (utils/wvglob.cc): `[!]a]` is converted to an expression that does not
  compile, `[^^a]` to one that matches every character but `a` (`C64_set_refuted`).
  `a[!b]c` matches `a/c` (`C64_negated_slash_refuted`).  `set()` with a bad pattern keeps
  the previous expression for match(), and a later good pattern does not clear the error,
  so set() then returns false though it worked (read, not modelled).
- strreplace() with an empty pattern never ends (`C66_replace_empty_refuted`); substr() on an empty string with a position, or with a length near the greatest unsigned int, accesses memory outside the string although its documentation says that error checking prevents this (`C66_substr_refuted`); spacecat() with `onesep` runs over the start of a first string that has only separators (`C66_spacecat_refuted`); depunctuate("") reads before the string; strcount(s, 0) runs past the end.
- getdirname("/") is the empty string, not "/" (`C67_root_refuted`).
- sizetoa(2500000000000000000) is "655.3 PB": the test `size * 10 < size` misses most overflows (`C68_big_refuted`). sizetoa(1999, 2, ROUND_DOWN) is "3.8 kB" for 3998 bytes (`C68_blocks_refuted`). metriculate(0) is the empty string and metriculate of the least number overflows (`C68_metriculate_refuted`).
- WvEncoderStream: bytes that the stream below does not take at once are dropped with the local buffer of push() (`C70_full_refuted`). If the stream below closes in the read that gives its last bytes, the decoders are finished before they see them (`C70_last_bytes_refuted`). With queuemin(), close() inside read() merges decoded bytes behind the allocated ones, `unalloc` cuts those off and undefined bytes remain (`C70_queuemin_refuted`). At the end of the stream below a read returns nothing and isok() is false while decoded bytes still wait (`C70_isok_refuted`), so the usual loop `while (s.isok())` loses them. Bytes that wait when an encoder is appended bypass it if read() comes before select() (`C70_bypass_refuted`), and are lost if it keeps them in its input, which is a local buffer of pull() (`C70_held_refuted`). Removing the encoder that ran last leaves `last_run` dangling (read, not modelled).
- WvConf: fuzzy_get with a list of entries shares one cache of visited sections, so later entries are not found in a section already searched (`C71_fuzzy_list_refuted`). An entry listed twice in a file shows its second value when it is set to nothing (`C71_remove_refuted`); an entry whose name ends in a blank can be set but not removed (`C71_remove_white_refuted`); any word that starts with "no" reads as 0 (`C71_words_refuted`).
- WvConf files: section "" is read back as the global one, blanks around names are lost, the entry "[e" with value "v]" is read back as a section (`C72_names_refuted`). flush() that cannot open its file marks it as saved (`C72_flush_refuted`). The file is truncated before it is marked as unfinished, so a crash between the two loses it all silently (`C72_crash_refuted`); after a later crash no WvConf will load or write the file again (`C72_stuck`).
- WvWordWrapEncoder: width 0 writes outside its buffer (`C73_zero_refuted`). finish() does not put out the text it holds, against the description in wvencoder.h (`C73_finish_refuted`). A flush inside a word that would fit on one line cuts it (`C73_flush_refuted`).
- WvHttpStream: a body cut off before its Content-Length counts as done without an error (`C74_cut_refuted`). `Content-Length:5` without a space, `Chunked` with a capital, and 204 or 304 responses are not understood, so the request is not done; a colon in the reason phrase turns the status line into a header (`C74_spelling_refuted`). A reset while a request waits and none is outstanding aborts by an assertion, and the part of a header line that a reset cuts off is given to the next request (`C74_reset_refuted`). A request answered like the test of pipelining makes the stream close as if pipelining was broken (`C74_same_refuted`). After a HEAD request answered by HTTP/1.0 it looks at 5 bytes although fewer may be there.
- WvLockDev: two processes that find the lock file of one that has ended both get the lock (`C75_dev_stale_refuted`), and so does one that looked at a lock file whose owner unlocked and ended meanwhile (`C75_dev_exit_refuted`). If the lock file cannot be created the second time, lock() succeeds without one (`C75_dev_open_refuted`). A process that ends between creating and writing the file locks everybody out (`C75_dev_blank_refuted`).
- WvLockFile: two calls of lock() at the same time both succeed, because readpid removes a file that is still blank (`C75_file_race_refuted`); unlock() looks at the file a second time and removes that of the next owner (`C75_file_unlock_refuted`); isok() that cannot open the file, for want of file descriptors say, removes it (`C75_file_open_refuted`).
- WvDBusConn: a request that is not answered in time makes expire_pending use the Pending it has just deleted (`C76_timeout_refuted`); so does a callback that repeats its request when it gets an error (`C76_resend_refuted`); a callback that deletes one still to be asked leaves the loop with a deleted object (`C76_delete_refuted`). Requests that wait when the connection closes are never told (`C76_close_refuted`), which leaves send_and_wait inside a callback waiting until its limit (`C76_wait_refuted`). A message libdbus cannot read stops the loop, and complete messages after it wait for more data (`C76_stuck_refuted`).
- WvDBusServer: ReleaseName of a name the client does not own hits an assert and stops the server (`C77_release_refuted`); RequestName accepts the unique name of another client (`C77_unique_refuted`); broadcasts are sent on with the sender the client wrote (`C77_sender_refuted`); messages to a connection that has closed but whose callback has not run are lost (`C77_lost_refuted`).
- WvCont: isok() is still true in a continuation whose last object was destroyed while it runs, until something returns (`C78_isok_refuted`); a continuation that calls itself, or yields again when it should end, aborts the program (`C78_abort_refuted`, `C78_dying_yield_refuted`; both are assertions in the code).
- ftpparse: a word of nineteen or more letters (a group, say) in the place of a size overflows a signed long (`C79_overflow_refuted`). An MS-DOS name with a semicolon is taken for VMS and left out (`C79_semicolon_refuted`). A VMS line that ends directly after the time is left out, and a VMS name that begins with one of b, c, d, l, p, s in lower case is read as UNIX (both are conditions of `C79_vms`). The remembered year is harmless for 98 years.
- UniRetryGen: a callback for changes that uses the generator may have the inner generator deleted while it is still in the call that notified (`C80_in_call_refuted`). next_reconnect_attempt is advanced from the old schedule, not from now, so after a time without use attempts follow at once (`C80_pause_refuted`, against the header's comment); a moniker that gives NULL does not postpone at all (`C80_null_refuted`). setv() neither looks for a connection nor drops one.
- WvHttpPool::execute: for a URL with a protocol of WvUrl's table other than http*/ftp (sip, sips, ldap, ldaps) no stream is made and conns.add(NULL) dereferences it (`C81_crash_refuted`). execute() resolves and looks for a connection also for requests that are being served; if the address changed, it opens a connection that gets no request (`C81_extra_refuted`).
- WvDailyEvent: post_select's `prev = next` converts a WvTime to microseconds, so the next comparison overflows (`C82_again_refuted`); need_reset is never cleared, so after a late round the stream is ready for ever (`C82_stuck_refuted`); msecdiff(now, next) takes two time_t as microseconds and has its arguments the wrong way round, so the loop is told to wait for ever, or spins (`C82_timeout_refuted`); 0 times a day, which the header says is once a day, is always ready (`C82_disabled_refuted`); a number that does not divide the day has one event too many (`C82_uneven_refuted`).
- WvRateAdjust: the bucket is in units of 1/(irate_d*orate_d), and irate_d changes from call to call, so the average is not exact (`C83_average_refuted`, against the header's comment); irate_n * (irate_d - 10) overflows after a pause of an hour at 8000 Hz (`C83_pause_refuted`); a clock set back makes the bucket negative, and samples are lost also when the clock is right again (`C83_back_refuted`).
- WvAttrs: get() of a null name crashes if there is any attribute (`C84_null_refuted`). There is a copy constructor but no assignment operator, so an assignment would share the block and free it twice (not modelled; seen in reading).
- WvStream::alarm() does not set last_alarm_check. If the clock is set back between alarm() and the first look, the alarm is late by that much (`C85_late_refuted`); if it was set back between the last look and alarm(), the new alarm is moved back and rings at once (`C85_early_refuted`), or, if it lands in the first second of 1970, is lost (`C85_lost_refuted`).
- WvTimeStream::execute() moves the next tick on by a period whenever it is called without an alarm, also if the timer was not due: a readable or forced stream loses ticks (`C86_other_refuted`), all of them if it is called often (`C86_starved_refuted`). The branch commented "compensate if we fall behind" tests how far the next tick is ahead.
- ~WvMonikerBase removes the newest registration of its name, not its own. If a WvMoniker is destroyed while another one overrides it, the other one's registration goes and its own stays: wvcreate() then runs the factory of a destroyed (perhaps unloaded) module (`C87_order_refuted`).
- WvMatrix::operator= allocates `new int[m * n]` before it takes over the other matrix's m and n, so that assigning a larger matrix overflows the heap block (`C89_assign_refuted`); assigning a matrix to itself copies from the array it has just deleted.
- UuidFromString(): the `break` in the loop over the last six octets leaves only that loop, so a text that stops there is accepted and up to five bytes of the UUID are uninitialised memory (`C90_truncated_refuted`). strtoul() also lets signs, white space and 0x pass as digits (`C90_lax_refuted`).
- trim_old_logs() deletes every old file whose name begins with the name of the log, so a log named `log` deletes `logbook.txt` (`C93_foreign_refuted`); a negative keep_for deletes the file just opened (`C93_negative_refuted`); keep_for*86400 overflows an int above 24855 days (`C93_long_refuted`).
- UniConf::copy() without force overrides the value of the destination itself (`C94_main_refuted`), and if the source does not exist it removes the destination with all below it (`C94_absent_refuted`); move() onto an existing key replaces it, where the header says the key becomes a subkey (`C94_subkey_refuted`).
- WvError::set(prefix, e) with a closed stream without error number reports nothing and leaves a text that the next, unrelated error shows (`C95_closed_refuted`); seterr(-2) is accepted and errstr() then fails its assertion (`C95_negative_refuted`); `err = err` forgets the error (`C95_self_refuted`).
- UniFileSystemGen cannot hold a value and keys below it: the later set() is lost in silence (`C96_both_refuted`); removing a key that does not exist makes the directories above it (`C96_ghost_refuted`); keys are case-sensitive, unlike everywhere else (`C96_case_refuted`).
- WvDirIter does not restore the relative path in up() and rewind(), so relative names are wrong afterwards (`C97_up_refuted`, `C97_rewind_refuted`); skip_mounts compares with the first entry found instead of the start directory (`C97_mounts_refuted`); up() at a directory that could not be opened abandons its parent instead (`C97_up_closed_refuted`); up() at the top level makes next() false once and then the walk goes on (`C97_resumes_refuted`).
- WvStringCache::clean() does nothing until the table has grown by more than a tenth since it last worked, so calling it after deleting a large structure, as its documentation asks, may free nothing (`C98_clean_refuted`).
- string_to_ver() lets a third digit of the minor number run over into the revision, so 1.123.4 reads as 1.12.34 (`C99_minor_refuted`); a two-part version from 100.0 up is printed as a three-part one (`C99_text_refuted`).
- encode() on an empty buffer, without flush but with finish, writes the right digest but returns false (`C100_status_refuted`).
- A sorted iteration ends at the first null pointer in the list, which the compare function may well have put first (`C101_null_refuted`).
- WvIPAliaser::add() returns true (an interface was created) even if the kernel refused (`C102_permission_refuted`); a done_edit() of one aliaser takes down the addresses of another that is between start_edit() and add() (`C102_between_refuted`).
- WvIPFirewall: del_port() and the other del_* functions leave the request in the list, so zap() or the destructor deletes the rule again, which may then be the equal rule of another object (`C103_del_refuted`); del_forward() lacks the `return` of the others and deletes once for each equal request (`C103_forward_refuted`).
- WvIPRouteList::get_kernel() does not reset the source address between lines, so routes without one get that of an earlier line (`C104_src_refuted`); a flag such as onlink shifts the pairs of words so that the route may be lost (`C104_flag_refuted`); set_kernel() does not see a change of the source address (`C104_change_src_refuted`).
- WvSubProc::wait() copies an uninitialised status into estatus when waitpid() fails because the process from the pid file is no child (`C105_status_refuted`); a pid file that says 1 makes kill() fail its assertion (`C105_pid1_refuted`); stop() after wait(x, false) leaves the children running (`C105_children_refuted`).

## Trusted base

Coq 8.16.1's kernel; the hand-written correspondence between each `Definition`
and the cited C++ lines, with the simplifications stated there and in the table
above.  No axioms of our own; no standard-library axiom is used by any theorem
(the library axioms that `vcheck` lists come from `Coq.ssr.ssrunder`, loaded
with `lia`/ssreflect support files but used by no theorem).

### Assumptions printed

`Print Assumptions` prints "Closed under the global context" for every theorem
in the manifest:

* C01 (proved): `C01_tcl_escape_lossless`
* C02 (partial): `C02_tcl_list_roundtrip_partial`, `C02_tcl_list_lost_last`, `C02_tcl_list_roundtrip_refuted`
* C03 (proved): `C03_tcl_getword_framing`, `C03_tcl_getword_stable`
* C04 (partial): `C04_tcl_escape_safe`, `C04_tcl_escape_two_pass`, `C04_tcl_decode_total`, `C04_tcl_unescape_safe_iff_partial`, `C04_tcl_unescape_safe_refuted`
* C05 (proved): `C05_hex_encoder_any_chunking`, `C05_hex_decoder_any_chunking`, `C05_hex_roundtrip`, `C05_hexify`, `C05_unhexify_safe`, `C05_unhexify`
* C06 (proved): `C06_base64_encoder`, `C06_base64_decoder`, `C06_base64_decoder_once`, `C06_base64_roundtrip`, `C06_base64_rejects`
* C07 (proved): `C07_escape`, `C07_printable`, `C07_unescape`, `C07_unescape_size`, `C07_roundtrip`, `C07_default_tables`, `C07_unescape_safe`
* C08 (proved): `C08_roundtrip`, `C08_output`, `C08_roundtrip_custom`, `C08_decode_safe`
* C09 (partial): `C09_encoder_any_chunking`, `C09_decoder_any_chunking`, `C09_encoder_room_partial`, `C09_decoder_room_partial`, `C09_encoder_short_refuted`, `C09_decoder_exact_fit_refuted`
* C10 (partial): `C10_xor_stream`, `C10_xor_inverse`, `C10_counter_period`, `C10_ctr_stream`, `C10_ctr_inverse`, `C10_empty_key_refuted`, `C10_empty_counter_refuted`
* C11 (partial): `C11_circular_queue`, `C11_inplace_queue`, `C11_optgettable_refuted`, `C11_zero_size_refuted`
* C12 (partial): `C12_dynbuf_queue_partial`, `C12_peek_start`, `C12_any_history`, `C12_peek_offset_refuted`, `C12_history_peek_refuted`
* C13 (partial): `C13_merge`, `C13_history_peek_refuted`
* C14 (proved): `C14_linear`, `C14_prefix`, `C14_one_writer_needed`
* C15 (partial): `C15_list`, `C15_find_next_refuted`, `C15_unlink_rewound_refuted`
* C16 (proved): `C16_multimap`, `C16_found_iff_added_more`, `C16_huge_hint_refuted`
* C17 (partial): `C17_multimap`, `C17_terminates`, `C17_terminates_adds`, `C17_add_loops_refuted`, `C17_huge_hint_refuted`
* C18 (partial): `C18_unsigned`, `C18_signed_partial`, `C18_unique`, `C18_round_trip`, `C18_short_min_refuted`, `C18_int_min_refuted`
* C19 (partial): `C19_independent_partial`, `C19_no_leak_partial`, `C19_offset_tail_refuted`, `C19_adjacent_refuted`
* C20 (partial): `C20_expansion_partial`, `C20_width_over_precision_refuted`, `C20_argument_21_refuted`
* C21 (proved): `C21_strict_join`, `C21_strict_fields`, `C21_split_fields`, `C21_split_drops_empty`, `C21_null`, `C21_join`, `C21_join_empty`, `C21_join_empty_refuted`
* C22 (proved): `C22_parse`, `C22_slashes`, `C22_round_trip`, `C22_print_stable`, `C22_trailing_slash_refuted`
* C23 (partial): `C23_values_partial`, `C23_canonical_partial`, `C23_no_leak_partial`, `C23_append_to_rest_refuted`, `C23_prepend_to_front_refuted`, `C23_prepend_after_pop_refuted`, `C23_append_self_refuted`, `C23_assign_self_refuted`, `C23_append_slash_refuted`
* C24 (proved): `C24_order`, `C24_total`, `C24_transitive`, `C24_suborsame`
* C25 (partial): `C25_sound`, `C25_exact_partial`, `C25_literal_prefix_refuted`, `C25_trailing_slash_refuted`
* C26 (proved): `C26_get`, `C26_closed`, `C26_haschildren`, `C26_iterator`
* C27 (proved): `C27_mirror`, `C27_exact`, `C27_quiet`, `C27_dirty`
* C28 (partial): `C28_in_order`, `C28_exactly_once`, `C28_held_partial`, `C28_released`, `C28_no_fault`, `C28_hold_in_callback_refuted`
* C29 (proved): `C29_get`, `C29_own_writes`, `C29_iterator`, `C29_slash_get_refuted`, `C29_slash_set_refuted`, `C29_slash_remove_refuted`
* C30 (proved): `C30_commit`, `C30_refresh`
* C31 (partial): `C31_exact_partial`, `C31_unheard`, `C31_mirror_partial`, `C31_commit_silent`, `C31_mirror_refuted`
* C32 (partial): `C32_get`, `C32_owner`, `C32_set`, `C32_setv`, `C32_exists`, `C32_commit`, `C32_refresh_partial`, `C32_mount`, `C32_unmount`, `C32_unmount_mounted`, `C32_zap`, `C32_children`, `C32_recursive`, `C32_reachable`, `C32_memory_generator`, `C32_refresh_refuted`, `C32_slash_refuted`, `C32_unmount_refuted`, `C32_children_refuted`
* C33 (partial): `C33_readonly_partial`, `C33_readonly_refuted`, `C33_subtree_get`, `C33_subtree_set`, `C33_subtree_partial`, `C33_subtree_refuted`, `C33_subtree_notify`, `C33_secure_set`, `C33_secure_partial`, `C33_secure_refuted`
* C34 (proved): `C34_findperm`, `C34_level`, `C34_inherited`, `C34_default`, `C34_reading`, `C34_notify`, `C34_iterator_partial`, `C34_chmod`, `C34_iterator_refuted`, `C34_minus_one_refuted`
* C35 (proved): `C35_roundtrip`, `C35_harmless`, `C35_loaded`, `C35_crash`, `C35_everyday_value`, `C35_everyday_key`, `C35_braced_value`, `C35_injection_refuted`, `C35_values_refuted`, `C35_quote_refuted`, `C35_keys_refuted`, `C35_empty_refuted`
* C36 (proved): `C36_atomic`, `C36_commit`, `C36_inplace`, `C36_slow_refuted`, `C36_power_refuted`, `C36_window_refuted`, `C36_unmarked_refuted`
* C37 (proved): `C37_all_or_nothing`, `C37_complete`, `C37_failed_refuted`
* C38 (proved): `C38_order`, `C38_limit`, `C38_flush`, `C38_gap_refuted`, `C38_limit_refuted`, `C38_flush0_refuted`
* C39 (proved): `C39_order`, `C39_line`, `C39_ready`, `C39_stuck_refuted`
* C40 (proved): `C40_obeys`, `C40_once`, `C40_called`, `C40_closes`
* C41 (proved): `C41_limit`, `C41_running`, `C41_order`, `C41_sync`, `C41_busy`, `C41_drains`, `C41_zero_refuted`, `C41_twice_refuted`
* C42 (proved): `C42_newest`, `C42_negative`, `C42_feed_refuted`
* C43 (partial): `C43_microseconds`, `C43_from_microseconds`, `C43_order`, `C43_unique`, `C43_msecadd`, `C43_tvdiff`, `C43_add_diff`, `C43_msecdiff_partial`, `C43_msecdiff_refuted`, `C43_normalize_partial`, `C43_normalize_refuted`, `C43_forward`, `C43_sync`
* C44 (proved): `C44_number`, `C44_operators`, `C44_add`, `C44_bits`, `C44_bits_refuted`, `C44_range`, `C44_includes`, `C44_include`, `C44_normalize_partial`, `C44_normalize_refuted`, `C44_print`, `C44_net_print`, `C44_port_print`, `C44_port_service`
* C45 (partial): `C45_tcl_escape_null_refuted`, `C45_tcl_unescape_null`
* C46 (partial): `C46_tcl_quoted_word_refuted`
* C47 (partial): `C47_mask_membership_partial`, `C47_mask_set_char_partial`, `C47_mask_high_byte_refuted`
* C48 (partial): `C48_documented_escapes_partial`, `C48_line_continuation_refuted`
* C49 (proved): `C49_strings`, `C49_keys`
* C50 (partial): `C50_round_trip`, `C50_decimal`, `C50_words`, `C50_missing`, `C50_numeric`, `C50_wrap_refuted`, `C50_octal_refuted`
* C51 (partial): `C51_reflexive`, `C51_symmetric`, `C51_same_kind_partial`, `C51_across`, `C51_transitive_refuted`, `C51_hash_refuted`
* C52 (proved): `C52_console`, `C52_decided`, `C52_nameless_refuted`, `C52_level_refuted`
* C53 (proved): `C53_remote`, `C53_settles`, `C53_returned`, `C53_remove_blank_refuted`, `C53_remove_dot_refuted`, `C53_setv_refuted`, `C53_newline_refuted`, `C53_slash_refuted`
* C54 (proved): `C54_change`, `C54_removal`, `C54_clean`, `C54_destroy`, `C54_destroy_refuted`, `C54_trailing_refuted`, `C54_complete`
* C55 (proved): `C55_refresh`, `C55_mirror`, `C55_failed`, `C55_same`, `C55_stale_refuted`, `C55_retry_refuted`, `C55_removed_refuted`
* C56 (proved): `C56_get`, `C56_set`, `C56_mirror`, `C56_iterator`, `C56_haschildren`, `C56_parent_refuted`, `C56_glitch_refuted`
* C57 (proved): `C57_recursive`, `C57_end`, `C57_safe`
* C58 (proved): `C58_make`, `C58_agree`, `C58_get`, `C58_set`, `C58_inner`, `C58_mirror`, `C58_root_refuted`, `C58_isok_refuted`, `C58_inner_refuted`, `C58_removed_refuted`
* C59 (proved): `C59_get`, `C59_before`, `C59_mirror`, `C59_refresh`, `C59_empty_refuted`, `C59_root_refuted`, `C59_before_refuted`
* C60 (proved): `C60_get`, `C60_once`, `C60_haschildren`, `C60_mirror`, `C60_stale_refuted`
* C61 (proved): `C61_default`, `C61_get`, `C61_set`, `C61_safe`, `C61_precedence_refuted`, `C61_root_refuted`, `C61_slash_refuted`, `C61_literal_refuted`, `C61_negative_refuted`, `C61_mirror_refuted`
* C62 (proved): `C62_roundtrip`, `C62_format`, `C62_any`, `C62_short`, `C62_null_refuted`, `C62_short_refuted`, `C62_word_refuted`, `C62_unterminated_refuted`, `C62_size_refuted`, `C62_flood_refuted`
* C63 (proved): `C63_parse`, `C63_safe`, `C63_print`, `C63_host_refuted`, `C63_password_refuted`, `C63_empty_user_refuted`, `C63_file_refuted`, `C63_short_refuted`, `C63_blank_refuted`, `C63_slashes_refuted`
* C64 (proved): `C64_total`, `C64_matches`, `C64_quoted`, `C64_errors`, `C64_negated_slash_refuted`, `C64_set_refuted`
* C65 (proved): `C65_safe`, `C65_lifetime`, `C65_select`, `C65_round`, `C65_timeout`
* C66 (proved): `C66_replace`, `C66_replace_empty_refuted`, `C66_before_after`, `C66_substr`, `C66_substr_refuted`, `C66_undupe`, `C66_count`, `C66_spacecat`, `C66_spacecat_refuted`, `C66_depunctuate`, `C66_snip`, `C66_backslash`
* C67 (proved): `C67_names`, `C67_forms`, `C67_root_refuted`
* C68 (proved): `C68_sizetoa`, `C68_sizeitoa`, `C68_sizektoa`, `C68_sizekitoa`, `C68_size_safe`, `C68_big_refuted`, `C68_blocks_refuted`, `C68_seconds`, `C68_metriculate`, `C68_metriculate_refuted`
* C69 (proved): `C69_chain`, `C69_finish`, `C69_through`, `C69_chunks`, `C69_machines`, `C69_hex_of_base64`
* C70 (proved): `C70_live`, `C70_flush`, `C70_close`, `C70_eof`, `C70_append`, `C70_full_refuted`, `C70_last_bytes_refuted`, `C70_queuemin_refuted`, `C70_isok_refuted`, `C70_bypass_refuted`, `C70_held_refuted`
* C71 (partial): `C71_get`, `C71_get_ends`, `C71_set`, `C71_remove_partial`, `C71_remove_refuted`, `C71_remove_white_refuted`, `C71_maybeset`, `C71_int`, `C71_words_refuted`, `C71_fuzzy`, `C71_fuzzy_list_refuted`, `C71_callbacks`, `C71_raw`, `C71_setraw`
* C72 (partial): `C72_saved`, `C72_stable`, `C72_names_refuted`, `C72_flush`, `C72_flush_refuted`, `C72_crash_partial`, `C72_stuck`, `C72_crash_refuted`
* C73 (proved): `C73_layout`, `C73_total`, `C73_zero_refuted`, `C73_cuts`, `C73_width`, `C73_words`, `C73_short_words`, `C73_no_trailing`, `C73_same`, `C73_again`, `C73_flush_refuted`, `C73_trailing_refuted`, `C73_finish_refuted`
* C74 (partial): `C74_responses`, `C74_content`, `C74_cut_refuted`, `C74_spelling_refuted`, `C74_reset_refuted`, `C74_same_refuted`
* C75 (partial): `C75_dev_serial`, `C75_dev_orderly`, `C75_file`, `C75_dev_calls`, `C75_file_calls`, `C75_dev_stale_refuted`, `C75_dev_exit_refuted`, `C75_dev_open_refuted`, `C75_dev_blank_refuted`, `C75_file_race_refuted`, `C75_file_unlock_refuted`, `C75_file_open_refuted`
* C76 (partial): `C76_callbacks`, `C76_once`, `C76_messages`, `C76_written`, `C76_timeout_refuted`, `C76_resend_refuted`, `C76_delete_refuted`, `C76_close_refuted`, `C76_wait_refuted`, `C76_cancel_refuted`, `C76_stuck_refuted`
* C77 (partial): `C77_served`, `C77_unique`, `C77_private`, `C77_reply`, `C77_release_refuted`, `C77_unique_refuted`, `C77_sender_refuted`, `C77_lost_refuted`
* C78 (proved): `C78_shows`, `C78_shows_only`, `C78_same_end`, `C78_no_leak`, `C78_isok_refuted`, `C78_abort_refuted`, `C78_dying_yield_refuted`
* C79 (partial): `C79_inside`, `C79_overflow_refuted`, `C79_calendar`, `C79_year`, `C79_eplf`, `C79_unix_year`, `C79_unix_clock`, `C79_meant_once`, `C79_vms`, `C79_msdos`, `C79_semicolon_refuted`
* C80 (partial): `C80_rules`, `C80_use`, `C80_released`, `C80_pace`, `C80_in_call_partial`, `C80_pause_refuted`, `C80_null_refuted`, `C80_in_call_refuted`
* C81 (partial): `C81_safe`, `C81_one_connection`, `C81_ended_once`, `C81_progress`, `C81_removed`, `C81_no_crash_partial`, `C81_crash_refuted`, `C81_extra_refuted`
* C82 (partial): `C82_next`, `C82_within`, `C82_minute`, `C82_first_partial`, `C82_again_refuted`, `C82_stuck_refuted`, `C82_uneven_refuted`, `C82_timeout_refuted`, `C82_disabled_refuted`
* C83 (partial): `C83_call`, `C83_window`, `C83_cut`, `C83_average_refuted`, `C83_pause_refuted`, `C83_back_refuted`
* C84 (proved): `C84_map`, `C84_copy`, `C84_size`, `C84_null_refuted`
* C85 (partial): `C85_remaining`, `C85_rings_once`, `C85_not_early`, `C85_cancel`, `C85_late_refuted`, `C85_early_refuted`, `C85_lost_refuted`, `C85_timeout`
* C86 (partial): `C86_average`, `C86_tick`, `C86_reset`, `C86_timeout`, `C86_disabled`, `C86_other_refuted`, `C86_starved_refuted`
* C87 (partial): `C87_create`, `C87_plain`, `C87_names`, `C87_order_refuted`
* C88 (proved): `C88_tokenize`, `C88_first`, `C88_tokanal`
* C89 (partial): `C89_create`, `C89_plus`, `C89_times`, `C89_assoc`, `C89_shapes`, `C89_copy`, `C89_assign_partial`, `C89_assign_refuted`
* C90 (partial): `C90_read`, `C90_roundtrip`, `C90_injective`, `C90_accepted_partial`, `C90_truncated_refuted`, `C90_lax_refuted`
* C91 (proved): `C91_order`, `C91_once`, `C91_get`, `C91_static`, `C91_category`
* C92 (proved): `C92_dump`, `C92_whole`, `C92_injective`
* C93 (partial): `C93_line`, `C93_number`, `C93_trimmed`, `C93_foreign_refuted`, `C93_negative_refuted`, `C93_long_refuted`
* C94 (partial): `C94_force_partial`, `C94_keep_partial`, `C94_nothing`, `C94_move`, `C94_main_refuted`, `C94_absent_refuted`, `C94_subkey_refuted`
* C95 (partial): `C95_first_partial`, `C95_stays`, `C95_copy`, `C95_closed_refuted`, `C95_negative_refuted`, `C95_self_refuted`
* C96 (partial): `C96_inside`, `C96_reads`, `C96_set_partial`, `C96_blocked`, `C96_remove_partial`, `C96_wf`, `C96_iterate`, `C96_both_refuted`, `C96_ghost_refuted`, `C96_case_refuted`
* C97 (partial): `C97_walk`, `C97_closed`, `C97_mounts_partial`, `C97_end`, `C97_up_partial`, `C97_up_refuted`, `C97_up_closed_refuted`, `C97_rewind_refuted`, `C97_mounts_refuted`, `C97_resumes_refuted`
* C98 (partial): `C98_get`, `C98_texts`, `C98_share`, `C98_once`, `C98_clean_partial`, `C98_keeps`, `C98_clean_refuted`
* C99 (partial): `C99_roundtrip`, `C99_old_roundtrip`, `C99_distinct`, `C99_reads`, `C99_reads_partial`, `C99_order`, `C99_minor_refuted`, `C99_text_refuted`
* C100 (proved): `C100_history`, `C100_pieces`, `C100_input`, `C100_burst`, `C100_status_refuted`
* C101 (partial): `C101_sorted`, `C101_ends`, `C101_all`, `C101_null_refuted`
* C102 (partial): `C102_history`, `C102_stays`, `C102_only`, `C102_up_partial`, `C102_session`, `C102_permission_refuted`, `C102_between_refuted`
* C103 (partial): `C103_noleak`, `C103_closed`, `C103_others`, `C103_exact_partial`, `C103_del_refuted`, `C103_forward_refuted`
* C104 (partial): `C104_sync`, `C104_uninterrupted`, `C104_again`, `C104_lines_partial`, `C104_src_partial`, `C104_find`, `C104_src_refuted`, `C104_flag_refuted`, `C104_change_src_refuted`
* C105 (partial): `C105_safe_partial`, `C105_stopped`, `C105_signals`, `C105_kill`, `C105_status_partial`, `C105_returns`, `C105_poll`, `C105_gentle`, `C105_escalates`, `C105_children`, `C105_pid1_refuted`, `C105_status_refuted`, `C105_children_refuted`
