{"id": "C01", "title": "A log call delivers to every handler exactly once, in order, iff the filter accepts", "statement": "For every root logger, filter, list of handlers and log call: if the filter returns false nothing is delivered and the lazy message is never produced; if it returns true the lazy message is produced exactly once and then every handler receives the same activated record exactly once, in the order in which handlers were added, even when any subset of the handlers throws; the call then returns normally.", "quantifier": "every filter, every number of handlers, every choice of which handlers throw what, every message and attribute pack", "why_tests_cant": "The set of throwing-handler subsets and filter functions is unbounded; a test samples a few mocks.", "anchors": ["src/root.cpp:root_logger_t::consume", "src/root.cpp:root_logger_t::log", "src/root.cpp:builder<root_logger_t>"]}
{"id": "C02", "title": "A throwing filter or message supplier reaches the caller and no handler sees the record", "statement": "If the filter or the lazy-message supplier throws, that exception (and no other) leaves the log call, no handler is invoked, and nothing is printed; an exception thrown by a handler never leaves the log call and exactly one diagnostic line per throwing handler is printed to stdout naming it (`what()` for std::exception, `unknown` otherwise).", "quantifier": "every filter/supplier/handler outcome combination", "why_tests_cant": "Needs all combinations of outcomes across an arbitrary number of handlers.", "anchors": ["src/root.cpp:root_logger_t::consume"]}
{"id": "C03", "title": "Attribute precedence: call-site, then wrappers outermost to innermost, then scopes newest to oldest", "statement": "For any nesting of wrappers around a root logger and any stack of scoped attributes, the attribute lists seen by a handler are exactly: the caller's lists in their order, then each wrapper's list from the outermost wrapper to the innermost, then the scoped lists from the most recent scope to the oldest; consequently a `{name}` lookup returns the most recently attached binding in that order and every attached attribute is present.", "quantifier": "every wrapper depth, every scope stack, every attribute list", "why_tests_cant": "Depth of wrapping and number of scopes are unbounded.", "anchors": ["src/wrapper.cpp:wrapper_t::log", "src/scope/watcher.cpp:watcher_t::collect", "src/root.cpp:consume", "src/formatter/string.cpp:visitor_t::find"]}
{"id": "C04", "title": "Scoped attributes follow stack discipline per thread for every history", "statement": "For every interleaving of scope openings, scope closings (each thread closing its scopes in LIFO order) and log calls on any number of threads: a log call by a thread carries exactly the attributes of the scopes that thread has open on that logger, newest first, and never those of another thread or of a closed scope; a non-LIFO close violates the documented precondition and is a distinct (undefined) outcome.", "quantifier": "every history over every number of threads", "why_tests_cant": "Histories and interleavings are unbounded; TLS and pointer-linked guards make individual tests blind to leaks between threads.", "anchors": ["src/scope/watcher.cpp", "src/scope/holder.cpp", "src/root.cpp:thread_manager_t"]}
{"id": "C05", "title": "Moving a logger keeps the moving thread's open scopes attached to the destination", "statement": "After move-constructing or move-assigning a logger, scopes opened by the moving thread on the source are attached to the destination: later log calls on the destination from that thread carry them, and destroying the guards afterwards pops them from the destination and leaves it as before they were opened.", "quantifier": "every stack depth, every later history of the moving thread", "why_tests_cant": "Rebinding walks a linked chain of unbounded length; correctness depends on the whole later history.", "anchors": ["src/root.cpp:root_logger_t(root_logger_t&&)", "src/root.cpp:operator=", "src/scope/watcher.cpp:rebind"]}
{"id": "C06", "title": "Replacing the filter concurrently with reassigning the logger loses neither update", "statement": "When one thread calls `filter(fn)` while another move-assigns a new logger into the same object, after both complete the logger has the new handlers (reassignment is documented as thread-safe).", "quantifier": "every interleaving of the two operations", "why_tests_cant": "A two-instruction window; not reproducible by a unit test.", "anchors": ["src/root.cpp:root_logger_t::filter", "src/root.cpp:operator="]}
{"id": "C07", "title": "A buffered record is a faithful snapshot of the original", "statement": "A record copied for later delivery observes the same message, formatted message, severity, timestamp, process/thread ids and the same attributes in the same order (lists concatenated, lazily formatted values rendered) as the original had at the moment of the copy, and no later change or release of the original's storage, nor any number of moves of the buffered record, changes what is observed.", "quantifier": "every record, every later mutation of the caller's memory, every sequence of moves", "why_tests_cant": "Lifetime/aliasing over arbitrary later histories cannot be enumerated.", "anchors": ["src/recordbuf.hpp"]}
{"id": "C08", "title": "Asynchronous sink: records are delivered at most once, in queue order, for every schedule", "statement": "For any number of producer threads and any schedule, the sequence of records passed to the wrapped sink is a prefix of the sequence in which records were accepted into the queue (so each producer's own records keep their order), no record is delivered twice, none is invented, and the number of records waiting never exceeds the capacity 2^factor.", "quantifier": "every number of producers, every interleaving, every capacity", "why_tests_cant": "Interleavings are unbounded.", "anchors": ["src/sink/asynchronous.p.cpp:asynchronous_t::emit", "src/sink/asynchronous.p.cpp:asynchronous_t::run"]}
{"id": "C09", "title": "Asynchronous sink: every record whose emit returned before destruction is delivered", "statement": "With the wait policy, every record whose `emit` returned before the destructor was called has been passed to the wrapped sink by the time the destructor returns.", "quantifier": "every interleaving of producers, worker and destructor", "why_tests_cant": "The loss window is between a failed dequeue and the read of the stop flag; it needs an adversarial schedule.", "anchors": ["src/sink/asynchronous.p.cpp:run", "src/sink/asynchronous.p.cpp:~asynchronous_t"]}
{"id": "C10", "title": "Asynchronous sink: the drop policy discards a record only when the queue is full and never blocks", "statement": "With the drop policy each emit finishes after at most one enqueue attempt, and the record is discarded only if the queue held exactly its capacity at that attempt; with the wait policy no record is ever discarded.", "quantifier": "every schedule, every capacity", "why_tests_cant": "Depends on the instantaneous queue occupancy in each interleaving.", "anchors": ["src/sink/asynchronous.p.cpp:emit", "src/sink/asynchronous.p.cpp:drop_overflow_policy_t", "src/sink/asynchronous.p.cpp:wait_overflow_policy_t"]}
{"id": "C11", "title": "Asynchronous sink: shutdown terminates", "statement": "Once destruction has begun and no emit is in progress, the worker thread reaches its exit after at most 3·(queued records)+4 of its own steps (the wrapped sink not throwing), whatever happened before; the destructor therefore returns.", "quantifier": "every reachable state", "why_tests_cant": "Liveness over all reachable states.", "anchors": ["src/sink/asynchronous.p.cpp:run"]}
{"id": "C12", "title": "Asynchronous sink builder honours the configured overflow policy and factor", "statement": "A sink built with `.drop()` uses the drop policy and one built with `.wait()` uses the wait policy; the configured factor is used; factors outside the documented [0; 20] are rejected and those inside are accepted; policy names other than drop/wait are rejected.", "quantifier": "every builder call sequence, every factor, every policy string", "why_tests_cant": "All call sequences and all integers.", "anchors": ["src/sink/asynchronous.cpp:builder", "src/sink/asynchronous.p.cpp:exp2", "src/sink/asynchronous.p.cpp:overflow_policy_factory_t"]}
{"id": "C13", "title": "File sink: flushing by record count leaves at most N-1 records unflushed", "statement": "With `flush_every(N)` events, at every moment the number of records written since the last flush is at most N-1, and a flush happens exactly at every N-th non-empty write; N = 0 means automatic (no forced flush until 2^64-1 writes).", "quantifier": "every sequence of record sizes, every N", "why_tests_cant": "Unbounded write sequences.", "anchors": ["src/sink/file/flusher/repeat.hpp", "src/sink/file.cpp:backend_t::write"]}
{"id": "C14", "title": "File sink: flushing by bytes leaves fewer than N bytes unflushed", "statement": "With a byte threshold N, after each write the number of bytes written since the last flush is less than N, provided that no single addition overflows 2^64; each flush happens no later than the write that makes the unflushed byte count reach N.", "quantifier": "every sequence of sizes, every threshold", "why_tests_cant": "Unbounded write sequences and wrap-around.", "anchors": ["src/sink/file/flusher/bytecount.hpp"]}
{"id": "C15", "title": "Size strings denote the documented number of bytes", "statement": "`parse_dunit` maps every decimal number followed by an optional known unit to number × unit multiplier, and rejects unknown units, empty numbers and numbers that do not fit.", "quantifier": "every string", "why_tests_cant": "Infinite input space; overflow boundary.", "anchors": ["src/sink/file.cpp:parse_dunit"]}
{"id": "C16", "title": "File sink: the file holds exactly the emitted records, one per line, in order", "statement": "For every sequence of emits to a path, with no external rename, the bytes handed to the file are the previous contents followed by each record's bytes and a newline, in emit order; with stat rotation and arbitrary external rename/delete/replace events, every record is appended wholly to exactly one inode, namely the one opened for the path at the moment the record was emitted, and never to a file that was observed renamed away.", "quantifier": "every sequence of emits and external filesystem events", "why_tests_cant": "Histories of filesystem events are unbounded.", "anchors": ["src/sink/file.cpp:file_t::emit", "src/sink/file.cpp:file_t::backend", "src/sink/file/rotate/stat.hpp", "src/sink/file.cpp:backend_t"]}
{"id": "C17", "title": "File sink: destroying the sink flushes everything written", "statement": "After the sink is destroyed, every inode's contents equal the initial contents plus every record emitted to it; before that, only the unflushed suffix (bounded by the flush policy) may be missing, so a crash loses only that suffix of each file.", "quantifier": "every crash point in every emit history", "why_tests_cant": "Crash points are every prefix of every history.", "anchors": ["src/sink/file.cpp:backend_t::write", "src/sink/file.cpp:backend_t::~backend_t"]}
{"id": "C18", "title": "TCP sink: at-most-once writes and reconnection after any failure", "statement": "For every sequence of emits and every outcome of resolve/connect/write: each emit performs at most one write of exactly the record's bytes on a connected socket; an emit returns normally iff that write succeeded; after a failed write the next emit reconnects before writing; endpoints are tried in order and the first that connects is used.", "quantifier": "every outcome script, every number of endpoints", "why_tests_cant": "Failure schedules are unbounded.", "anchors": ["src/sink/socket/tcp.cpp"]}
{"id": "C19", "title": "Configured socket ports are used unchanged or rejected", "statement": "A port given in the configuration is the port the sink connects to, or construction fails if it is not a valid 16-bit port.", "quantifier": "every configured integer", "why_tests_cant": "All 64-bit integers.", "anchors": ["src/sink/socket/tcp.cpp:factory", "src/sink/socket/udp.cpp:factory"]}
{"id": "C20", "title": "Console output is never interleaved inside a line and colours are always reset", "statement": "For every interleaving of emits from any number of threads, the stream contents are a concatenation of whole lines, one per accepted record, each being the formatted bytes (wrapped in one colour prefix and one reset suffix when the stream is a terminal and the mapping gives a colour) followed by a newline; when the stream is not a terminal the bytes are unchanged.", "quantifier": "every interleaving, every colour mapping, every message", "why_tests_cant": "Interleavings and contents unbounded.", "anchors": ["src/sink/console.cpp:console_t::emit", "src/termcolor.cpp"]}
{"id": "C21", "title": "Console colour mapping: the last colour given for a severity wins and others are unaffected", "statement": "After any sequence of `colorize(severity, colour)` and `colorize(function)` calls, the colour for a severity is the one from the last applicable call; severities never mentioned have the default.", "quantifier": "every call sequence", "why_tests_cant": "Unbounded call sequences.", "anchors": ["src/sink/console.cpp:builder<console_t>::colorize"]}
{"id": "C22", "title": "Syslog priority selection is total and in range", "statement": "For every severity and every configured priority list, the priority passed to syslog is the configured one for that severity if there is one and LOG_ERR otherwise (negative severities included).", "quantifier": "every severity, every list", "why_tests_cant": "All 32-bit severities and lists.", "anchors": ["src/sink/syslog.cpp:emit", "src/sink/syslog.cpp:syslog_t::priorities"]}
{"id": "C23", "title": "Severity threshold filter is monotone and total", "statement": "The filter denies exactly the records with severity below the threshold; hence if a record passes, any more severe record passes, and raising the threshold never admits more.", "quantifier": "every threshold and severity", "why_tests_cant": "All integer pairs.", "anchors": ["src/filter/severity.cpp"]}
{"id": "C24", "title": "Blocking handler formats once and feeds every sink the same bytes", "statement": "The handler calls its formatter exactly once per record and passes the same formatted text to each of its sinks in order; a formatter failure reaches no sink; a failing sink does not prevent the other sinks of the handler from receiving the record.", "quantifier": "every number of sinks, every subset failing", "why_tests_cant": "Unbounded sinks/failure subsets.", "anchors": ["src/handler/blocking.cpp:blocking_t::handle"]}
{"id": "C25", "title": "TSKV value escaping is lossless and line-safe", "statement": "For every byte string, the escaped value contains no raw tab, newline, carriage return, NUL, bell, backspace, vertical tab, form feed or escape byte, and unescaping it (backslash sequences) returns the original bytes; hence distinct values have distinct encodings.", "quantifier": "every byte string", "why_tests_cant": "Infinite inputs; adversarial backslash sequences.", "anchors": ["src/formatter/tskv.cpp:escape value"]}
{"id": "C26", "title": "TSKV key escaping is lossless and line-safe", "statement": "Distinct keys have distinct encodings, an encoded key contains no unescaped `=`, tab or newline.", "quantifier": "every byte string", "why_tests_cant": "Infinite inputs.", "anchors": ["src/formatter/tskv.cpp:escape key"]}
{"id": "C27", "title": "A TSKV line parses back to exactly the fields that were logged", "statement": "Splitting the produced line at tabs and each field at the first unescaped `=`, then unescaping, returns `tskv` followed by exactly the configured constants, timestamps, severity, pid, tid, message and attributes, in that order, minus removed ones, with renamed keys.", "quantifier": "every record and configuration", "why_tests_cant": "Structured infinite input; injection through any field.", "anchors": ["src/formatter/tskv.cpp:format"]}
{"id": "C28", "title": "TSKV remove and rename apply to every built-in and user field", "statement": "A removed name never appears as a key; a renamed name appears only under its new key.", "quantifier": "every removal/rename set, every record", "why_tests_cant": "All configurations.", "anchors": ["src/formatter/tskv.cpp:add"]}
{"id": "C29", "title": "JSON formatter places each field once, at its route, under its mapped name", "statement": "Every built-in field and every attribute of the record is present in the produced tree exactly once at the pointer its original name is routed to (the default pointer if unrouted) under its renamed key with its value; nothing else is present except the intermediate objects.", "quantifier": "every record, routing, renaming", "why_tests_cant": "Structured infinite input.", "anchors": ["src/formatter/json.cpp"]}
{"id": "C30", "title": "JSON `unique` yields no duplicate keys and keeps the highest-precedence value", "statement": "With `unique` every object of the tree has pairwise distinct keys, and for each attribute name the kept value is the first one in precedence order.", "quantifier": "every record and configuration", "why_tests_cant": "Collisions across renaming, reserved names and attributes.", "anchors": ["src/formatter/json.cpp:filter/unique"]}
{"id": "C31", "title": "Pattern literals: escaping braces is exact", "statement": "For every text, the pattern obtained by doubling its braces parses to literals whose concatenation is that text, with no placeholder and no error.", "quantifier": "every text", "why_tests_cant": "Infinite inputs.", "anchors": ["src/formatter/string/parser.cpp:parse_literal"]}
{"id": "C32", "title": "Pattern parser always terminates, consumes the pattern and stays broken after an error", "statement": "For every pattern, repeatedly asking for the next token ends after at most |pattern|+1 calls, either with end of input or with an error whose position lies inside the pattern; after an error every later call reports the broken state.", "quantifier": "every byte string", "why_tests_cant": "Infinite inputs; non-termination cannot be tested.", "anchors": ["src/formatter/string/parser.cpp"]}
{"id": "C33", "title": "Malformed patterns are rejected", "statement": "A pattern with an unclosed placeholder or an unmatched closing brace is rejected with an error.", "quantifier": "every byte string", "why_tests_cant": "Infinite inputs.", "anchors": ["src/formatter/string/parser.cpp"]}
{"id": "C34", "title": "String formatter output is the concatenation of its tokens' renderings", "statement": "A pattern of texts (braces doubled) and placeholders is accepted, and formatting a record that suits it yields the concatenation of the texts and the rendered placeholders in pattern order; a missing required attribute makes the whole record fail, naming it; an optional attribute that is missing renders as its default.", "quantifier": "every pattern, every record", "why_tests_cant": "Infinite inputs.", "anchors": ["src/formatter/string.cpp"]}
{"id": "C35", "title": "`{...}` prints every attribute exactly once with separators between", "statement": "The leftover placeholder renders each attribute of the pack exactly once in a fixed order determined by the pack, with exactly one separator between consecutive ones, none at the ends, and nothing at all when there are none.", "quantifier": "every pack", "why_tests_cant": "Unbounded packs.", "anchors": ["src/formatter/string.cpp:109-165", "src/formatter/string.cpp:261-283"]}
{"id": "C36", "title": "String attributes are printed in full", "statement": "A string attribute with any bytes, attached through a view of any length, is rendered with exactly those bytes.", "quantifier": "every byte string, including NUL and views that are not NUL-terminated", "why_tests_cant": "Needs adversarial memory around the view.", "anchors": ["src/formatter/string.cpp:view_visitor", "src/formatter/tskv.cpp:view_visitor", "src/formatter/json.cpp:view_visitor"]}
{"id": "C37", "title": "gmtime is the proleptic Gregorian calendar for every non-negative time", "statement": "For every time_t in [0, 2^55), the broken-down time equals the civil date and time of day of that instant (year, month, day, weekday, yearday, hours, minutes, seconds) by the Gregorian calendar.", "quantifier": "every second for about a billion years", "why_tests_cant": "About 3.6·10^16 inputs; leap-year corner cases across 400-year cycles.", "anchors": ["src/util/time.hpp:gmtime"]}
{"id": "C38", "title": "gmtime for times before the epoch", "statement": "The same for negative time_t.", "quantifier": "every negative second", "why_tests_cant": "2^63 inputs.", "anchors": ["src/util/time.hpp:gmtime"]}
{"id": "C39", "title": "localtime reports the offset it applied", "statement": "The broken-down local time plus the reported UTC offset identify the original instant (time of day minus gmtoff is UTC).", "quantifier": "every time and zone offset", "why_tests_cant": "Zones are environment; sign error is invisible in UTC test machines.", "anchors": ["src/util/time.hpp:localtime"]}
{"id": "C40", "title": "Timestamp pattern generation substitutes %f and %s and nothing else", "statement": "For every strftime pattern, the generator splits it into pieces whose concatenation is the pattern, rendering `%f` as six digits of microseconds and `%s` as epoch seconds, all other directives by strftime unchanged; an escaped percent followed by f or s (`%%f`) prints `%f`.", "quantifier": "every pattern", "why_tests_cant": "Infinite inputs.", "anchors": ["src/datetime/generator.linux.cpp"]}
{"id": "C41", "title": "Microsecond field is always six digits and re-reads to the same value", "statement": "For every microsecond count in [0, 999999], `%f` prints exactly six decimal digits that read back to the value.", "quantifier": "every value", "why_tests_cant": "10^6 values; boundary zero padding.", "anchors": ["src/datetime/generator.linux.cpp:usecond"]}
{"id": "C42", "title": "Configuration navigation reports the right value or the right path", "statement": "For every JSON document and every chain of subscripts, navigating yields the node at that path, nothing if it does not exist, and every type mismatch error carries exactly the path that was followed; conversions never silently coerce between types.", "quantifier": "every document and path", "why_tests_cant": "Infinite documents.", "anchors": ["src/config/json.hpp:61-209", "src/config/option.cpp:10-87"]}
{"id": "C43", "title": "Registry: the last registered factory for a type is used, unknown types are errors", "statement": "After any sequence of registrations, a component of a type is created by the last factory registered for that type; a type never registered is an error naming it; registering one type does not affect another nor another component kind.", "quantifier": "every registration sequence", "why_tests_cant": "Unbounded sequences.", "anchors": ["src/registry.cpp:24-50,83-161", "src/essentials.cpp:21-38"]}
{"id": "C44", "title": "A configured logger has exactly the configured handlers in order", "statement": "Building a logger by name creates one handler per entry of its list, in order, each of its type (`blocking` by default), or fails without creating the logger; a missing logger name is reported rather than yielding a logger that drops everything.", "quantifier": "every configuration", "why_tests_cant": "Infinite configurations.", "anchors": ["src/registry.cpp:63-81"]}
{"id": "C45", "title": "Attribute values keep value and sign through storage", "statement": "Storing any integer of any C++ integer type in an attribute and reading it back gives the same mathematical value; reading as another type is an error rather than a conversion; owning a view and viewing an owned value are inverse up to rendering of lazy values.", "quantifier": "every value of every type", "why_tests_cant": "2^64 values × types.", "anchors": ["src/attribute.cpp", "include/blackhole/attribute.hpp"]}
{"id": "C46", "title": "Attribute view equality is an equivalence that agrees with stored values", "statement": "Equality of views is reflexive, symmetric and transitive and distinguishes values of different types.", "quantifier": "every pair/triple of values", "why_tests_cant": "Infinite domain.", "anchors": ["src/attribute.cpp:252-254", "include/blackhole/attribute.hpp:199-201"]}
{"id": "C47", "title": "string_view operations agree with the underlying bytes", "statement": "substr, indexing, comparison and equality behave as on the viewed byte sequence: substr(pos,n) is the min(n,size-pos) bytes from pos or an out_of_range error if pos > size; `<` is a strict total order consistent with `==`.", "quantifier": "every byte sequence and position", "why_tests_cant": "Infinite domain, size_t wrap.", "anchors": ["include/blackhole/stdext/string_view.hpp"]}
{"id": "C48", "title": "Compile-time message formatting equals run-time formatting", "statement": "For every pattern accepted at compile time and every argument list of matching length, the precompiled formatter writes exactly what the run-time formatter writes for the same pattern.", "quantifier": "every pattern, every argument list", "why_tests_cant": "Infinite inputs.", "anchors": ["include/blackhole/extensions/metaformat.hpp", "src/format.cpp"]}
{"id": "C49", "title": "Severity names: mapped when configured, numeric otherwise", "statement": "The configured severity name is printed for each severity that has one; for any other severity (negative included) its integer value is printed.", "quantifier": "every severity and name list", "why_tests_cant": "All integers.", "anchors": ["src/formatter/string.cpp:sevmap", "src/formatter/json.cpp:severity"]}
{"id": "C50", "title": "Integer rendering is exact", "statement": "Rendering any integer of any of the four integer argument types with any well-formed specification of an integer type gives the canonical numeral in the asked radix behind sign and radix mark, padded to the width as asked, and reading the digits back gives the value; other type letters are refused.", "quantifier": "every integer of every argument type, every fill, alignment, sign, flag, width and type", "why_tests_cant": "2^64 values times all specifications.", "anchors": ["include/blackhole/extensions/format.hpp:753-811", "include/blackhole/extensions/format.hpp:2230-2373", "src/format.cpp:1061-1228"]}
{"id": "C51", "title": "A log call leaves the caller's attribute pack as it was", "statement": "Logging with an explicit attribute pack does not change that pack, so the same pack can be passed to the next log call without attaching anything twice.", "quantifier": "every wrapper tower, scope stack and pack", "why_tests_cant": "A test uses a fresh pack per call; the accumulation shows only on reuse.", "anchors": ["src/wrapper.cpp:wrapper_t::log", "src/root.cpp:root_logger_t::consume"]}
{"id": "C52", "title": "Asynchronous sink: an exception of the wrapped sink is hidden from the application", "statement": "An exception thrown by the wrapped sink while it handles a record neither reaches the application nor stops the delivery of the records that follow (documented: exceptions while writing to the sink will be hidden from the application).", "quantifier": "every schedule, every record at which the wrapped sink throws", "why_tests_cant": "A unit test cannot observe the termination of its own process.", "anchors": ["src/sink/asynchronous.p.cpp:asynchronous_t::run", "include/blackhole/sink/asynchronous.hpp"]}
{"id": "C53", "title": "File sink: emits succeed again once the device accepts data", "statement": "After a write or flush of the file sink failed (for example because the disk was full) and the cause is gone, a later emit writes its record and returns normally.", "quantifier": "every history of write outcomes and emits", "why_tests_cant": "Needs a device that fails and then recovers.", "anchors": ["src/sink/file.hpp:backend_t::write", "src/sink/file.cpp:ofstream_factory_t::create"]}
{"id": "C54", "title": "Syslog receives exactly the formatted bytes", "statement": "The text handed to the system log for a record is the formatted text, byte for byte (in particular it is not interpreted as a format string).", "quantifier": "every formatted text", "why_tests_cant": "Embedded NUL bytes and texts of 2 GiB are not in any test.", "anchors": ["src/sink/syslog.cpp:syslog_t::emit"]}
{"id": "C55", "title": "Messages written to the standard streams by the library do not intermix", "statement": "Lines written to the standard output by different components of the library (console sink, development handler) are never interleaved (comment in the sources: messages written with Blackhole will be synchronized).", "quantifier": "every interleaving", "why_tests_cant": "Interleavings.", "anchors": ["src/sink/console.cpp:mutex", "src/handler/dev.cpp:mutex"]}
{"id": "C56", "title": "The JSON text is one line and reads back as the document", "statement": "For every document the produced text contains no control byte, is followed by a newline exactly if that is configured, and a JSON reader gets back exactly the document (keys, strings and numbers by their text, nesting, order): no key or value can change the structure.", "quantifier": "every document, i.e. every message, attribute name and value", "why_tests_cant": "Injection through any string; infinite nested inputs.", "anchors": ["src/formatter/json.cpp:107-122", "src/formatter/json.cpp:269-273", "src/formatter/json.cpp:367-398"]}
{"id": "C57", "title": "Reserved placeholders mean what the documented table says", "statement": "In every pattern the type letter of a reserved placeholder (process, thread, severity, timestamp) chooses the documented rendering and the rest of the specification is kept; a time specification in inner braces is taken literally and the letter `s` or `l` chooses UTC or local time.", "quantifier": "every specification text", "why_tests_cant": "Unit tests try one specification per letter.", "anchors": ["src/formatter/string/parser.cpp:31-148", "README.md:125-138"]}
{"id": "C58", "title": "The extensions of `{...}` are read as the documented grammar says", "statement": "Every `{...:Ext s}` written from the documented grammar (pattern, separator, both in either order, then alignment, width and `s`; doubled braces for literal ones) is accepted and yields exactly the written parts.", "quantifier": "every list of sub-pieces, separator and specification", "why_tests_cant": "Infinite inputs; PEG ordering effects.", "anchors": ["src/formatter/string/grammar.cpp:119-153", "README.md:151-188"]}
{"id": "C59", "title": "A format string renders its text and its arguments in order", "statement": "A format string made of texts with doubled braces and placeholders yields the texts and the renderings of the arguments in order; surplus arguments are ignored, a missing one is refused.", "quantifier": "every list of pieces, every argument list", "why_tests_cant": "Infinite inputs.", "anchors": ["src/format.cpp:1230-1249", "src/format.cpp:812-887", "src/format.cpp:1061-1228"]}
{"id": "C60", "title": "String arguments are rendered as exactly their bytes", "statement": "A string argument is rendered as exactly the bytes of its view (or up to the NUL of a C string), cut by the precision and padded to the width, independently of the memory behind it.", "quantifier": "every byte string, every memory behind it, every specification", "why_tests_cant": "Needs adversarial memory around the view.", "anchors": ["src/format.cpp:788-810", "include/blackhole/extensions/format.hpp:2192-2228"]}
{"id": "C61", "title": "Widths that do not fit an int are refused", "statement": "A width (or precision or index) that is written in digits and exceeds INT_MAX makes the call fail with `number is too big in format`.", "quantifier": "every number", "why_tests_cant": "Infinite domain; wrap-around of unsigned arithmetic.", "anchors": ["src/format.cpp:268-286"]}
{"id": "C62", "title": "Formatting stays inside its arguments", "statement": "For every format string (or accepted pattern) and all arguments (records) with valid pointers, formatting never reads outside of the objects it is given nor prints bytes it has not written: it returns or throws.", "quantifier": "every byte string as format, every argument list and record with valid pointers", "why_tests_cant": "Undefined behaviour need not show in a test; infinite inputs.", "anchors": ["src/format.cpp", "include/blackhole/extensions/format.hpp", "src/formatter/string.cpp:167-308"]}
{"id": "C63", "title": "The README's table of placeholders", "statement": "Each placeholder of the README's table prints what the table says; `{...}` prints the attributes in reverse order.", "quantifier": "every record", "why_tests_cant": "Infinite inputs.", "anchors": ["README.md:125-138", "src/formatter/string.cpp:167-283"]}
{"id": "C64", "title": "Default time stamps are ISO dates that sort chronologically", "statement": "For every time since the epoch the default time stamp (`%Y-%m-%d %H:%M:%S.%f`) is the UTC date and time of day with fixed widths; two such texts compare bytewise as their times do, and are equal exactly for equal microseconds; `{timestamp}` prints it.", "quantifier": "every pair of times in [1970, 2262)", "why_tests_cant": "2^63 values, and pairs of them.", "anchors": ["src/formatter/string.cpp:216-236", "src/datetime/generator.linux.cpp", "src/util/time.hpp"]}
{"id": "C65", "title": "Time patterns never read what nobody wrote", "statement": "For every pattern and time, producing a time stamp has defined behaviour.", "quantifier": "every pattern, time and formatter", "why_tests_cant": "Unassigned memory often happens to hold plausible values in a test.", "anchors": ["src/formatter/string.cpp:216-236", "src/formatter/tskv.cpp:161-178", "src/formatter/json.cpp:469-485"]}
{"id": "C66", "title": "The formatters agree on UTC time stamps", "statement": "For the same pattern and record the string, TSKV and JSON formatters print the same UTC time stamp.", "quantifier": "every pattern and time", "why_tests_cant": "Infinite inputs.", "anchors": ["src/formatter/string.cpp:216-236", "src/formatter/tskv.cpp:161-178", "src/formatter/json.cpp:469-485"]}
{"id": "C67", "title": "string_view order is that of std::string", "statement": "For all texts, comparing two views with `<` gives what comparing the std::strings gives.", "quantifier": "every pair of byte strings", "why_tests_cant": "Infinite domain; test texts are ASCII.", "anchors": ["include/blackhole/stdext/string_view.hpp:165-171"]}
{"id": "C68", "title": "A view of a character array shows the text in it", "statement": "A view made of a character array shows its text without the terminating NUL.", "quantifier": "every array", "why_tests_cant": "Tests use literals.", "anchors": ["include/blackhole/stdext/string_view.hpp:57-61"]}
{"id": "C69", "title": "Text given as an attribute is kept as text", "statement": "An attribute made of a std::string, a literal, a C string or a character buffer holds the text.", "quantifier": "every text and way to pass it", "why_tests_cant": "Infinite inputs; overload resolution picks silently.", "anchors": ["include/blackhole/attribute.hpp:140-143,267-274", "src/attribute.cpp"]}
{"id": "C70", "title": "Every pattern of texts and bare placeholders compiles with one argument per placeholder", "statement": "A precompiled pattern made of texts (braces doubled) and `{}` is accepted with as many arguments as it has placeholders; nothing else is accepted.", "quantifier": "every pattern and every number of arguments", "why_tests_cant": "Each pattern is a separate program for the compiler.", "anchors": ["include/blackhole/extensions/metaformat.hpp:31-91", "include/blackhole/extensions/metaformat.hpp:172-229"]}
{"id": "C71", "title": "The facade formats exactly the pattern it is given", "statement": "The text logged through the facade is the formatting of the bytes of the given pattern view with the given arguments.", "quantifier": "every view, every argument list", "why_tests_cant": "Depends on the memory around the view.", "anchors": ["include/blackhole/extensions/facade.hpp:94-159", "include/blackhole/extensions/facade.inl.hpp:19-24"]}
{"id": "C72", "title": "The wrapped logger is told the pattern", "statement": "The message (unformatted) of a record logged through the facade is the pattern.", "quantifier": "every pattern", "why_tests_cant": "For every program.", "anchors": ["include/blackhole/extensions/facade.hpp:94-159"]}
{"id": "C73", "title": "Every configured sink is the sink that was configured", "statement": "For any configuration of a sink (null, console with or without severity filter, file with flush and rotate, TCP, UDP, syslog, asynchronous around any of them to any depth), whatever the order of its members and whatever else is in the object, the factory makes the sink of that kind with exactly those options.", "quantifier": "every configuration document and every depth of wrapping", "why_tests_cant": "The factory tests mock single nodes; documents, orders and nestings are unbounded.", "anchors": ["src/handler/blocking.cpp:86-94", "src/sink/asynchronous.cpp:62-81", "src/sink/console.cpp:174-183", "src/sink/file.cpp:215-247", "src/sink/socket/tcp.cpp:147-158", "src/sink/socket/udp.cpp:48-59", "src/sink/syslog.cpp:68-82", "src/filter/severity.cpp:37-45"]}
{"id": "C74", "title": "Every configured formatter is the formatter that was configured", "statement": "For any configuration of a formatter the factory makes the one the builder would make with the corresponding calls: TSKV create/rename/remove/mutate, JSON unique/newline/mapping/formatting/routing/mutate, string pattern and severity names; every documented option is obeyed.", "quantifier": "every configuration document", "why_tests_cant": "Sections of any size with any names and values.", "anchors": ["src/formatter/tskv.cpp:333-369", "src/formatter/json.cpp:508-573", "src/formatter/string.cpp:379-400", "README.md:270-297"]}
{"id": "C75", "title": "A whole document gives the whole logger", "statement": "The logger built for a name has exactly the handlers of its list, each with its formatter and all its sinks in order; a handler that cannot write anywhere is not made silently.", "quantifier": "every configuration document, logger name and number of handlers and sinks", "why_tests_cant": "Documents are unbounded.", "anchors": ["src/registry.cpp:63-81", "src/handler/blocking.cpp:78-97"]}
{"id": "C76", "title": "A missing required option is an error, never undefined behaviour", "statement": "If an option that a component needs is missing (path, host, port, priorities, the wrapped sink, factor, overflow, pattern, threshold, types), an exception reports it.", "quantifier": "every configuration document that lacks the option", "why_tests_cant": "Any other content of the document.", "anchors": ["src/sink/asynchronous.cpp:69-80", "src/formatter/string.cpp:379-383", "src/sink/syslog.cpp:68-82", "src/handler/blocking.cpp:78-94"]}
{"id": "C77", "title": "A wrong option is an error rather than silently something else", "statement": "If an option has a value of the wrong kind or out of range, or a component's type is unknown, an exception reports it.", "quantifier": "every configuration document and every wrong value", "why_tests_cant": "Infinitely many wrong values.", "anchors": ["src/sink/file.cpp:225-244", "src/sink/console.cpp:174-183", "src/sink/socket/tcp.cpp:147-158", "src/sink/syslog.cpp:68-82", "src/formatter/json.cpp:534-556", "src/formatter/tskv.cpp:355-367"]}
{"id": "C78", "title": "The development handler prints the whole record", "statement": "For every record the development handler prints the UTC time to the microsecond, the letter of the severity, thread and process, the message and a line for each attribute of every list, in order, and nothing else.", "quantifier": "every record, message, attribute list and time", "why_tests_cant": "The handler writes to std::cout and has no tests; records are unbounded.", "anchors": ["src/handler/dev.cpp:59-81", "src/handler/dev.cpp:91-182", "src/handler/dev.cpp:184-193"]}
{"id": "C79", "title": "Colours do not change the text nor outlive the record", "statement": "On a terminal the development handler shows the same characters as elsewhere, the message and values in the normal style, and leaves the terminal in its normal state.", "quantifier": "every record without control sequences", "why_tests_cant": "Needs a terminal emulator, for all records.", "anchors": ["src/handler/dev.cpp:94-165", "src/handler/dev.cpp:196-200", "src/termcolor.cpp:36-58", "src/termcolor.cpp:81-83"]}
{"id": "C80", "title": "What the development handler prints can be read back", "statement": "Two records printed the same have the same time (in microseconds), severity letter, thread, process, message and attributes.", "quantifier": "every pair of records", "why_tests_cant": "Quantifies over pairs of records.", "anchors": ["src/handler/dev.cpp:142-181"]}
{"id": "C81", "title": "The development handler ends its lines", "statement": "Whatever the values of a record do, the handler prints the whole record with its final newline or nothing, and calling it is defined.", "quantifier": "every record and every behaviour of its function values", "why_tests_cant": "User code runs in the middle of the line.", "anchors": ["src/handler/dev.cpp:76-80", "src/handler/dev.cpp:184-193"]}
{"id": "C82", "title": "The date generator of Apple systems prints the pattern in order", "statement": "For every pattern the generator prints one text for each part in the order of the pattern: characters and unknown directives as they are, a percent sign for `%%`, the field of the time for a directive.", "quantifier": "every pattern over the 27 directives, every time with fields in range, every C library", "why_tests_cant": "Patterns are unbounded and the code is compiled on one platform only.", "anchors": ["src/datetime/generator.other.cpp:45-236", "src/datetime/generator.other.cpp:240-407", "src/datetime/generator.other.cpp:479-588", "src/datetime/generator.other.cpp:597-614"]}
{"id": "C83", "title": "Both date generators print the same text", "statement": "A pattern and a time give the same text on Linux and on Apple systems.", "quantifier": "every pattern of shared directives, every time in range, every C library", "why_tests_cant": "No test runs on both platforms.", "anchors": ["src/datetime/generator.linux.cpp:17-82", "src/datetime/generator.other.cpp:82-236"]}
{"id": "C84", "title": "The default time pattern on Apple systems", "statement": "With the default pattern every time a record can have is printed as its UTC date, time and microseconds.", "quantifier": "every time in nanoseconds of 64 bits", "why_tests_cant": "Too many times to try.", "anchors": ["src/datetime/generator.other.cpp:45-62", "src/datetime/generator.other.cpp:82-100", "src/datetime/generator.other.cpp:133-181"]}
{"id": "C85", "title": "A writer's buffer holds what was put into it", "statement": "A memory buffer behaves as a list under append, push_back, resize, reserve, clear and c_str, whether it is inline or on the heap; no array is left, and if the allocator refuses the buffer is as before.", "quantifier": "every sequence of operations, every limit of the allocator below 2^63", "why_tests_cant": "Sequences and sizes are unbounded; sizes near the word size cannot be allocated in a test.", "anchors": ["include/blackhole/extensions/format.hpp:413", "include/blackhole/extensions/format.hpp:430-505", "include/blackhole/extensions/format.hpp:509-583", "include/blackhole/extensions/format.hpp:2053-2058"]}
{"id": "C86", "title": "A writer's own text can be written into it", "statement": "Appending a part of a buffer to the buffer gives the text twice.", "quantifier": "every reachable buffer and every part of it", "why_tests_cant": "Depends on whether the array has to grow.", "anchors": ["include/blackhole/extensions/format.hpp:483-487", "include/blackhole/extensions/format.hpp:499-505", "include/blackhole/extensions/format.hpp:566-583"]}
{"id": "C87", "title": "Moving a writer", "statement": "A buffer made or assigned by a move has the contents of its source and works on; the source can be used again.", "quantifier": "every two reachable buffers, all further operations", "why_tests_cant": "Needs all histories of two buffers.", "anchors": ["include/blackhole/extensions/format.hpp:532-559"]}
{"id": "C88", "title": "A writer over an array of the caller", "statement": "Operations that fit are performed as on a list; the first one that does not throws, and the array holds the contents before it.", "quantifier": "every size and sequence of operations", "why_tests_cant": "Sequences and sizes are unbounded.", "anchors": ["include/blackhole/extensions/format.hpp:585-593", "src/format.cpp:783-786", "include/blackhole/extensions/format.hpp:2613-2639"]}
{"id": "C89", "title": "Single integers are printed in decimal", "statement": "FormatInt and format_decimal give the decimal notation of every integer and stay within their 22 places.", "quantifier": "every value of the signed and unsigned types of 32 and 64 bits", "why_tests_cant": "2^64 values.", "anchors": ["include/blackhole/extensions/format.hpp:2836-2905", "include/blackhole/extensions/format.hpp:2912-2935"]}
{"id": "C90", "title": "The description of a system error is complete", "statement": "The text of a system error is the message, a colon and the whole text of the C library; if that cannot be had it is the message and the code. The loop that asks for it always ends.", "quantifier": "every message, error text of any length, version of strerror_r and limit of memory", "why_tests_cant": "Error texts longer than the buffer and failing allocations do not occur in tests.", "anchors": ["src/format.cpp:163-228", "src/format.cpp:249-257", "src/format.cpp:717-739", "src/format.cpp:1251-1254"]}
{"id": "C91", "title": "The text with the error code alone needs no memory", "statement": "format_error_code produces a text of at most 500 bytes, as its comment promises, so that it cannot throw.", "quantifier": "every code, message and buffer", "why_tests_cant": "The boundary lies at one length of the message and one range of codes.", "anchors": ["src/format.cpp:230-247"]}
{"id": "C92", "title": "A log call reaches every handler and its sinks", "statement": "With a logger made from a configuration, each log call whose message can be made goes to every handler; a handler gives its formatter's text to each sink in order, up to the first that throws; exceptions of formatters and sinks are printed and keep nothing from the other handlers. If no sink in front throws, a sink gets the texts of all calls in order.", "quantifier": "every configuration without asynchronous sinks, every sequence of calls, every outcome of formatters, files, connections and datagrams", "why_tests_cant": "The combinations of handlers, sinks and failures are unbounded, and the failures are those of the system.", "anchors": ["src/root.cpp:175-201", "src/handler/blocking.cpp:26-35", "src/registry.cpp:55-76", "src/record.cpp:80-87"]}
{"id": "C93", "title": "What leaves the process is what the sinks were given", "statement": "A file of one sink holds its old contents and a line per text; other files are untouched; standard output, datagrams, system log and connections have exactly the texts given to the sinks that write there, in order.", "quantifier": "every configuration without asynchronous sinks, every sequence of calls; files: calm circumstances", "why_tests_cant": "Needs all sinks together; a file is only complete after buffers are written, in any portions.", "anchors": ["src/sink/file.cpp:127-157", "src/sink/console.cpp:83-110", "src/sink/socket/udp.cpp:36-38", "src/sink/socket/tcp.cpp:121-134", "src/sink/syslog.cpp:44-60"]}
{"id": "C94", "title": "From the configuration document to the lines of the file", "statement": "For a document that configures a string formatter with a pattern and a file sink in front, every call adds one line to the file, which shows the items of the pattern for the call's record, in order.", "quantifier": "every such document, pattern of items, sequence of calls whose records suit the pattern", "why_tests_cant": "An end-to-end statement over documents, patterns, records and buffering.", "anchors": ["src/registry.cpp:55-76", "src/formatter/string.cpp:332-338", "src/root.cpp:175-201", "src/handler/blocking.cpp:26-35", "src/sink/file.cpp:152-157"]}
{"id": "C95", "title": "Threads that log do not disturb each other", "statement": "However the steps of several threads that use one configured logger are interleaved, what each thread does is call after call what a thread alone does (C92); nothing undefined happens; every thread ends its calls after a bounded number of its own steps.", "quantifier": "every configuration without asynchronous sinks, number of threads, programs of calls and schedule", "why_tests_cant": "The schedules are unbounded in number, and a test sees only some of them.", "anchors": ["src/root.cpp:175-201", "src/handler/blocking.cpp:26-35", "src/sink/file.cpp:152-157", "src/sink/socket/tcp.cpp:121-134", "src/sink/console.cpp:99-109"]}
{"id": "C96", "title": "What several threads log arrives whole", "statement": "The file of one sink holds one whole line per call of every thread, each thread's lines in its order; the same holds of datagrams, system log, connections and the lines of console sinks.", "quantifier": "every configuration without asynchronous sinks, number of threads, programs of calls and schedule; files: calm circumstances", "why_tests_cant": "Interleavings, buffer portions and failures multiply.", "anchors": ["src/sink/file.cpp:152-157", "src/sink/socket/tcp.cpp:121-134", "src/sink/socket/udp.cpp:36-38", "src/sink/console.cpp:99-109", "src/sink/syslog.cpp:44-60", "src/root.cpp:194-198"]}
{"id": "C97", "title": "The order of the lines of several threads", "statement": "The line of a call that returned before another call began comes first in every file; all sinks have the records in one order; lines are in the order of their time stamps.", "quantifier": "every configuration without asynchronous sinks, number of threads, programs of calls, schedule and cut of it", "why_tests_cant": "Order in real time cannot be controlled in tests.", "anchors": ["src/root.cpp:185-199", "src/record.cpp:80-87", "src/handler/blocking.cpp:31-34"]}
{"id": "C98", "title": "printf format strings are printed piece by piece", "statement": "In a printf format string the texts between the conversions are copied (a doubled percent sign gives one), every conversion prints what it prints alone with the arguments that are next in turn, the first failure is the result, and arguments that no conversion takes are ignored.", "quantifier": "every format string of literal texts and well-formed conversions (flags, widths, precisions, asterisks, length modifiers), every list of arguments", "why_tests_cant": "Format strings and argument lists are unbounded; a conversion could disturb what is around it.", "anchors": ["src/format.cpp:961-1058", "src/format.cpp:885-959", "include/blackhole/extensions/format.hpp:2783-2806"]}
{"id": "C99", "title": "Integer conversions of printf follow ISO C", "statement": "An integer conversion prints the number converted to the type of its length modifier, with the sign, mark, zeros of the precision and padding that ISO C 7.21.6.1 asks for.", "quantifier": "every flag set, width, precision (also from arguments), length modifier, letter of d i u o x X and integer argument", "why_tests_cant": "The combinations of flags, widths, precisions, modifiers and values are unbounded.", "anchors": ["src/format.cpp:313-412", "src/format.cpp:983-1050", "include/blackhole/extensions/format.hpp:2228-2373"]}
{"id": "C100", "title": "String and character conversions of printf follow ISO C", "statement": "`%s` prints the bytes of the string, no more than the precision, and `%c` one byte, padded with spaces on the side that is asked for.", "quantifier": "every flag set, width, precision, string and number", "why_tests_cant": "Unbounded strings, widths and precisions.", "anchors": ["src/format.cpp:397-412", "src/format.cpp:513-548", "src/format.cpp:788-810"]}
{"id": "C101", "title": "Argument positions in printf format strings", "statement": "With positions (`%2$d`) each conversion prints the argument at its position; positions and arguments in turn cannot be mixed.", "quantifier": "every format string of literal texts and conversions, every list of arguments", "why_tests_cant": "Unbounded numbers of conversions and arguments.", "anchors": ["src/format.cpp:917-943", "src/format.cpp:852-889"]}
{"id": "C102", "title": "printf is memory safe for every format string", "statement": "Whatever bytes the format string has, the call prints or throws and does not touch memory outside its objects, if the arguments are readable.", "quantifier": "every byte string as format, every list of readable arguments", "why_tests_cant": "All byte strings; the failure needs a certain filling of the buffer.", "anchors": ["src/format.cpp:885-1058", "include/blackhole/extensions/format.hpp:2228-2291"]}
{"id": "C103", "title": "printf refuses what it cannot print", "statement": "Missing arguments, conversions without a letter, letters that do not go with the argument, null strings and widths that are not integers or do not fit are each refused with their own error, and everything else is printed.", "quantifier": "every well-formed conversion and argument, every format string of pieces for missing arguments", "why_tests_cant": "Unbounded format strings and arguments.", "anchors": ["src/format.cpp:313-354", "src/format.cpp:788-810", "src/format.cpp:852-889", "src/format.cpp:1004-1055"]}
{"id": "C104", "title": "Floating-point numbers are appended as their specifications ask", "statement": "Between any other operations on a memory buffer, writing a double appends sign, digits and padding as alignment, fill and width ask; the loop ends, no array is left, an exception leaves the contents, and the memory needed is bounded by once and a half of the length.", "quantifier": "every sequence of buffer operations and numbers, every specification, bit pattern, allocator limit and C library that prints something without a space in front", "why_tests_cant": "Numbers, widths and buffer fillings are unbounded; the failures need a certain filling of the buffer.", "anchors": ["include/blackhole/extensions/format.hpp:2375-2524", "include/blackhole/extensions/format.hpp:1945-1949", "src/format.cpp:561-574"]}
{"id": "C105", "title": "NaN and infinity are placed as the specification asks", "statement": "NaN and infinity, with their sign and in capitals for capital types, stand in the field the specification describes for numbers.", "quantifier": "every sequence of operations before, every specification and bit pattern that is not finite", "why_tests_cant": "All specifications and bit patterns.", "anchors": ["include/blackhole/extensions/format.hpp:2412-2441", "include/blackhole/extensions/format.hpp:2192-2213"]}
{"id": "C106", "title": "Numbers that snprintf cannot print are refused", "statement": "If snprintf fails or the text would be longer than INT_MAX, writing the number throws and the contents of the buffer stay as they were.", "quantifier": "every sequence of operations before, specification, bit pattern and C library", "why_tests_cant": "The loop depends on the allocator's limit.", "anchors": ["include/blackhole/extensions/format.hpp:2478-2523"]}
{"id": "C107", "title": "Numbers in arrays of fixed size", "statement": "A writer over an array of the caller takes a number if its text fits, and throws before touching the contents otherwise.", "quantifier": "every size below 2^63, sequence of operations before, supported specification and bit pattern", "why_tests_cant": "All sizes and fillings.", "anchors": ["include/blackhole/extensions/format.hpp:2478-2523", "include/blackhole/extensions/format.hpp:585-593", "src/format.cpp:783-786"]}
{"id": "C108", "title": "The text of a number depends on specification and bits only", "statement": "There is at most one text that is right, and the text written is the same function of specification and bit pattern in every buffer; text and capacity agree with the writer model of the printf functions.", "quantifier": "every buffer, specification that is not centred, and bit pattern", "why_tests_cant": "All buffers, specifications and bit patterns.", "anchors": ["include/blackhole/extensions/format.hpp:2375-2524"]}
{"id": "C109", "title": "Asynchronous sinks do not change what a log call does", "statement": "With sinks behind queues too, and whatever the workers, the other threads and the destructor do meanwhile, every thread does call after call what a thread alone does (C92); the emit of an asynchronous sink never throws; nothing undefined happens.", "quantifier": "every configuration (asynchronous sinks nested to any depth, any capacities and overflow policies), number of threads, programs of calls and schedule of threads, workers and destructor", "why_tests_cant": "A test sees a few of the schedules of a worker per queue, several threads and a destructor.", "anchors": ["src/sink/asynchronous.p.cpp:85-147", "src/sink/asynchronous.cpp:62-81", "src/root.cpp:175-201", "src/handler/blocking.cpp:26-35"]}
{"id": "C110", "title": "Every text through queues is accounted for", "statement": "Of what the threads gave to a sink, each text exactly once reached the sink at the end of the queues, was dropped, or is still missing; at most as many are missing as the queues and workers hold; each thread's texts stay in its order; with queues that wait nothing is dropped, and after the destruction of the logger nothing is missing unless a flag was set at the wrong moment.", "quantifier": "every configuration, number of threads, programs of calls and schedule; the last part: every schedule that ends with the destruction and in which no flag is set between a failed attempt of a worker and its test of the flag while texts are in the queue", "why_tests_cant": "Loss and reordering depend on the schedule; the number of schedules grows without bound.", "anchors": ["src/sink/asynchronous.p.cpp:94-147", "src/sink/asynchronous.hpp:40-53"]}
{"id": "C111", "title": "What arrives through queues", "statement": "The file behind queues that wait has after the destruction one whole line per call, each thread's lines in its order; with any queues and at any time whole lines of calls that were made, each at most once and in its thread's order; datagrams, system log, connections and console lines are those of the texts that reached the sinks. No text of a call that returned is lost when the logger is destroyed.", "quantifier": "every configuration, number of threads, programs of calls and schedule; files: calm circumstances", "why_tests_cant": "Combinations of queues, schedules and write buffers multiply.", "anchors": ["src/sink/asynchronous.p.cpp:85-147", "src/sink/file.cpp:152-157", "src/sink/socket/tcp.cpp:121-134", "src/sink/socket/udp.cpp:36-38", "src/sink/console.cpp:99-109", "src/sink/syslog.cpp:44-60"]}
{"id": "C112", "title": "Loggers with queues come to their end", "statement": "From every state that can be reached the threads, workers and destructor can get on until all calls are made and the destructor has returned, or the process is terminated; only an exception of a sink behind a queue terminates it. A sink that fails does not cost other sinks their records.", "quantifier": "every configuration with queues of at least one cell, number of threads, programs of calls with defined texts, schedule so far", "why_tests_cant": "Deadlocks need particular schedules; absence of them is a statement about all.", "anchors": ["src/sink/asynchronous.p.cpp:42-53", "src/sink/asynchronous.p.cpp:85-88", "src/sink/asynchronous.p.cpp:94-147"]}
{"id": "C113", "title": "TSKV log files can be read again", "statement": "After the logger's destruction a TSKV log file consists of complete lines, and a reader that cuts it at newlines gets back what was in the file before and exactly one entry for each call of each thread: the fields of its record, in the order of the thread's calls. Messages and attribute values with tabs, newlines and equals signs forge neither lines nor fields.", "quantifier": "every configuration, nesting of queues that wait, number of threads, programs of calls, schedule with flags set in time, messages, attributes and time stamps", "why_tests_cant": "Log injection depends on the texts of all records and on how the writers are interleaved.", "anchors": ["src/formatter/tskv.cpp:60-170", "src/formatter/tskv.cpp:245-260", "src/sink/file.cpp:115-160", "src/sink/asynchronous.p.cpp:94-147"]}
{"id": "C114", "title": "JSON log files can be read again", "statement": "After the logger's destruction a JSON log file consists of complete lines, and a reader that cuts it at newlines and reads each line as a JSON document gets back what was in the file before and exactly one document for each call of each thread, holding the fields of its record at their routes, in the order of the thread's calls.", "quantifier": "every configuration, nesting of queues that wait, number of threads, programs of calls, schedule with flags set in time, messages and attributes that fit the routes", "why_tests_cant": "Log injection depends on the texts of all records and on how the writers are interleaved.", "anchors": ["src/formatter/json.cpp:200-390", "src/sink/file.cpp:115-160", "src/sink/asynchronous.p.cpp:94-147"]}
{"id": "C115", "title": "From the document to the file through queues and threads", "statement": "A logger made from a configuration document whose string formatter writes to a file behind queues that wait produces, for any number of threads, one line for each call with the items of the pattern for the call's record, in each thread's order; the queues of such a logger hold between 4 and 2^20 records, and it can always come to its end.", "quantifier": "every document of a logger, number of threads, programs of calls the pattern suits, schedule with flags set in time", "why_tests_cant": "The statement joins the configuration, the pattern parser, the formatter, the queues and the file for all documents and schedules.", "anchors": ["src/registry.cpp:52-120", "src/sink/asynchronous.p.cpp:12-18", "src/sink/asynchronous.cpp:62-81", "src/formatter/string.cpp:150-330", "src/sink/file.cpp:115-160"]}
{"id": "C116", "title": "Returned calls come first, through queues too", "statement": "If a call returned before another call began, on whatever threads, the line of the first is in front of the line of the second in the file, though both may have been in the queue at the same time. At every moment of a run the file's final lines fall into two parts: each thread that is between two calls has the lines of its earlier calls in the first part and of its later calls in the second.", "quantifier": "every configuration, nesting of queues that wait, number of threads, programs of calls, schedule with flags set in time, moment of the run", "why_tests_cant": "Ordering between threads shows only in particular schedules.", "anchors": ["src/sink/asynchronous.p.cpp:94-147", "src/sink/file.cpp:115-160", "src/root.cpp:150-230"]}
{"id": "C117", "title": "Builders and configuration documents can make the same loggers", "statement": "Whatever logger is built with the builders can also be asked for in a configuration document, and whatever logger a document makes can also be built with the builders: with the same formatters, sinks, order and settings.", "quantifier": "every program with the builders of consoles, files, asynchronous sinks to any depth, string, TSKV and JSON formatters, blocking handlers and loggers; every document; restricted as said to what both ways can express", "why_tests_cant": "The settings combine without bound, and a test has to know the document for the program.", "anchors": ["include/blackhole/sink/console.hpp:29", "src/sink/console.cpp:113-183", "src/sink/file.cpp:161-247", "src/sink/asynchronous.cpp:16-81", "src/formatter/string.cpp:346-400", "src/formatter/tskv.cpp:266-369", "src/formatter/json.cpp:404-573", "src/handler/blocking.cpp:41-97", "src/root.cpp:207-231"]}
{"id": "C118", "title": "Builder settings: the last one counts, and kinds are independent", "statement": "The last choice of a setting counts and settings of different kinds do not disturb each other; sinks and handlers are in the order in which they were added; a chain in the style of builder.hpp makes the logger that the separate builders make and fails as they do, and every chain that makes a logger is of this kind.", "quantifier": "every sequence of calls on each builder, every chain", "why_tests_cant": "Sequences of calls have no bound on their length.", "anchors": ["include/blackhole/builder.hpp:33-164", "src/sink/console.cpp:119-168", "src/sink/file.cpp:168-209", "src/formatter/string.cpp:346-373", "src/formatter/tskv.cpp:266-327", "src/formatter/json.cpp:404-502", "src/handler/blocking.cpp:41-72", "src/root.cpp:207-231"]}
{"id": "C119", "title": "What the builders made can be used", "statement": "Handlers made by the builders can be given any record without following a null pointer or calling an empty function.", "quantifier": "every program with builders that gives each blocking handler a formatter; every record, on terminals and elsewhere", "why_tests_cant": "That no sequence of calls leaves an empty pointer is a statement about all sequences.", "anchors": ["src/handler/blocking.cpp:26-72", "src/sink/console.cpp:83-168", "src/sink/file.cpp:107-209", "src/sink/asynchronous.cpp:54-56"]}
{"id": "C120", "title": "Units of bytes in the file sink's builder", "statement": "A file sink told to flush every n units (bytes, kB, MB, GB, KiB, MiB, GiB) flushes exactly when another n units are full, and it is the sink that a document with the same number and unit makes.", "quantifier": "every unit, number, other calls before and after, sequence of writes", "why_tests_cant": "Thresholds and sizes of writes range over 64 bits.", "anchors": ["include/blackhole/sink/file.hpp:27-82", "src/sink/file.cpp:51-80", "src/sink/file.cpp:175-192", "src/sink/file.cpp:225-234"]}
{"id": "C121", "title": "Argument lists of any length", "statement": "However many arguments a call of the formatting library has, and whichever of them are named, storing them writes nothing outside of the array, and every number reads the argument at that place or finds that there is none. A name finds the first argument of that name, and nothing if there is none. Less than 16, exactly 16 and more arguments are stored in three different ways; all behave alike.", "quantifier": "every list of arguments of every length, every number, every name", "why_tests_cant": "The packed types, the sentinel and the walk behind the sixteenth argument have off-by-one cases at lengths that calls rarely have.", "anchors": ["include/blackhole/extensions/format.hpp:1268-1329", "include/blackhole/extensions/format.hpp:1678-1740", "src/format.cpp:738-781", "include/blackhole/extensions/format.hpp:321-328"]}
{"id": "C122", "title": "Placeholders choose arguments by number, by name or in order", "statement": "Texts, placeholders, widths and precisions that name their argument by number or by name yield what they say. If all leave the choice to the order, the result is that of the numbers 0, 1, 2, ... given, a placeholder before its width and its width before its precision. Names are another way to write numbers: the values without names and the numbers of the first arguments of the names give the same text.", "quantifier": "every list of arguments, every well-formed format string with canonical numbers below 2^31, every specification that fits the chosen argument, every text of doubles", "why_tests_cant": "Choices nest in placeholders and combine with any specification.", "anchors": ["src/format.cpp:812-887", "src/format.cpp:1061-1249", "include/blackhole/extensions/format.hpp:2949-2964"]}
{"id": "C123", "title": "Numbered and automatic choices do not mix, and names do not disturb", "statement": "For every byte string as a format: without named arguments the result is that of the model without names, and names given to arguments change nothing unless the format asks for a name that the other model does not know. A choice left to the order behind an explicit one, or an explicit one behind the order, is refused with the right message, in a placeholder and in the width of one, whatever follows.", "quantifier": "every byte string, list of arguments, prefix of well-formed parts, rest of the format string", "why_tests_cant": "Malformed strings cannot be enumerated.", "anchors": ["src/format.cpp:812-887", "src/format.cpp:1061-1249"]}
{"id": "C124", "title": "The identity of syslog messages is never dangling", "statement": "However many threads make, use and destroy syslog sinks, in whatever order, and whatever the application does with syslog besides, syslog never reads an identity that no longer exists. Every message of a sink carries the name of the program, LOG_PID, the user facility, the priority for its severity and its text.", "quantifier": "every program name, number of threads, programs of makings (also failing ones), uses and destructions, calls of the application, schedule", "why_tests_cant": "A dangling pointer shows only if the memory is reused, and an empty identity only in a window of one thread's factory.", "anchors": ["src/sink/syslog.cpp:16-25", "src/sink/syslog.cpp:48-60", "src/sink/syslog.cpp:69-85", "src/sink/syslog.hpp:12-30", "src/procname.cpp:20-44"]}
{"id": "C125", "title": "Blackhole and the application share one syslog connection", "statement": "In one thread every message, of a sink or of the application, has identity, options and facility of the latest call that opened or closed the connection of the process, and making or destroying a sink counts as such a call. The wish that a logger leaves alone what the application arranged with syslog is refuted, and so is the wish that sinks keep their identity.", "quantifier": "every program name, every sequence of makings, failing makings, uses and destructions of sinks and of openlog, closelog and syslog by the application", "why_tests_cant": "The sequences are unbounded, and tests do not look at syslog's global state.", "anchors": ["src/sink/syslog.cpp:16-25", "src/sink/syslog.cpp:48-60", "src/sink/syslog.cpp:69-85"]}
{"id": "C126", "title": "Memory behind a text never shows in a log", "statement": "What a format string yields does not depend on the bytes behind its arguments, and what a log call does does not depend on the bytes behind its text in the uninitialised storage of the writer. Refuted for a text that is empty: the string formatter prints what the storage held before, or reads behind it.", "quantifier": "every format string (any bytes), list of arguments, pair of memories behind them; every logger, pattern, call and pair of storages", "why_tests_cant": "Tests run with fresh storage, which often begins with a NUL; the bytes behind a text are not an input a test can set.", "anchors": ["src/format.cpp:1061-1249", "src/format.cpp:788-811", "include/blackhole/extensions/facade.hpp:107-150", "include/blackhole/extensions/facade.inl.hpp:17-30", "src/formatter/string.cpp:183-186"]}
{"id": "C127", "title": "What a program says is in the file", "statement": "With a document that configures a string formatter and a file as the first sink of a handler, each call of the facade adds exactly one line to the file. It shows the items of the pattern, the message being the call's format string with each placeholder replaced by its argument in its field. A call with too few arguments adds no line. The lines are in the order of the calls, whatever other handlers and sinks do.", "quantifier": "every document, pattern, sequence of calls, format string with specifications that fit the arguments, attributes of calls, wrappers and scopes, failures of all other sinks", "why_tests_cant": "The whole way from a document and the calls of a program to the bytes of a file.", "anchors": ["include/blackhole/extensions/facade.hpp:46-150", "include/blackhole/extensions/facade.inl.hpp:17-92", "src/root.cpp:142-201", "src/handler/blocking.cpp:26-35", "src/sink/file.cpp:107-140"]}
{"id": "C128", "title": "A call with too few arguments writes nothing", "statement": "A call with some arguments but fewer than its format string has placeholders throws an exception and leaves every file, connection, log and formatter as it was. More generally, a call that throws has done nothing.", "quantifier": "every format string, argument list, logger, state of the world", "why_tests_cant": "Concerns every format string and every combination of sinks.", "anchors": ["src/format.cpp:852-872", "include/blackhole/extensions/facade.inl.hpp:17-30", "src/root.cpp:175-201"]}
{"id": "C129", "title": "A wrapper shows the attributes it was made with", "statement": "Whatever wrappers are made around loggers and other wrappers, copied, moved and destroyed, a log call through a wrapper shows the attributes the wrapper was made with, then those of the wrapper inside, and so on. Refuted for copies that outlive their original: the implicit copy constructor copies the views, and they show dead memory, or the attributes of whatever wrapper was made there next. Proved for wrappers that are not copied or moved, and for programs in which the owner of every text shown is still alive and in place.", "quantifier": "every sequence of constructions, copies, moves, destructions and log calls, every attribute list, reuse of addresses, sizes of small strings and small vectors", "why_tests_cant": "Tests use each wrapper where it was made. A dangling view of a destroyed wrapper mostly still shows the old text.", "anchors": ["include/blackhole/wrapper.hpp:10-30", "src/wrapper.cpp:8-35", "include/blackhole/attributes.hpp:43-76", "src/attribute.cpp:113-156"]}
{"id": "C130", "title": "Moving a wrapper keeps its attributes", "statement": "After a wrapper has been moved, log calls through the new wrapper show its attributes. Refuted where attributes_t is a small_vector: the elements move out of the old wrapper, but the views still point there. It fails for every wrapper with up to sixteen attributes one of which has a name of one to fifteen characters. Proved where attributes_t is a std::vector, and for attributes that stay where they are.", "quantifier": "every program without copies; every attribute list; sizes of small strings and small vectors", "why_tests_cant": "Returning a wrapper from a function mostly elides the move, so tests do not run the move constructor.", "anchors": ["include/blackhole/wrapper.hpp:10-30", "include/blackhole/attributes.hpp:45-49", "src/attribute.cpp:117-119", "src/recordbuf.hpp:87-101"]}
{"id": "C131", "title": "Wrappers own their attributes", "statement": "However wrappers are made, copied, moved and destroyed, no text or vector is freed twice, each living wrapper owns a list equal to the one it should have, and when all wrappers are gone nothing is left allocated.", "quantifier": "every sequence of operations, every attribute list, sizes of small strings and small vectors", "why_tests_cant": "Unbounded sequences of operations.", "anchors": ["include/blackhole/wrapper.hpp:10-30", "src/wrapper.cpp:8-16", "src/attribute.cpp:113-123"]}
{"id": "C132", "title": "Chains of << write what format strings write", "statement": "A chain of operator<< of any length, of values, numbers in other bases and padded numbers and texts, writes exactly what the format string with one placeholder per item writes. Padded numbers are the canonical numeral in their base with the fill on the left, for every integer type, width and fill character; texts are padded on the right.", "quantifier": "every chain, value, base, width and fill character", "why_tests_cant": "Unboundedly many combinations of types, bases, widths and fills.", "anchors": ["include/blackhole/extensions/format.hpp:1541-1656", "include/blackhole/extensions/format.hpp:2099-2187", "include/blackhole/extensions/format.hpp:2293-2373"]}
{"id": "C133", "title": "Numbers padded with zeros read as the numbers", "statement": "pad(value, width, '0') gives a text that reads as the value. Proved for numbers that are not negative, in every base; refuted for negative ones, whose zeros come before the sign.", "quantifier": "every integer that is not negative, every base and width", "why_tests_cant": "All integers and widths.", "anchors": ["include/blackhole/extensions/format.hpp:1562-1641", "include/blackhole/extensions/format.hpp:2230-2291"]}
{"id": "C134", "title": "Printing to files, also in colour", "statement": "print appends exactly the formatted text to the file, or as much as it takes, and nothing if the format string is wrong; print_colored encloses the text in the escape sequences of the colour and of its end. Refuted for format errors: the colour stays switched on.", "quantifier": "every format string, arguments, file and colour", "why_tests_cant": "Error paths of a terminal are not looked at by tests.", "anchors": ["src/format.cpp:1263-1285", "include/blackhole/extensions/format.hpp:2730-2738"]}
{"id": "C135", "title": "fprintf counts what it has printed", "statement": "fprintf prints the text of sprintf and returns its length, or -1 if the file did not take all of it. Refuted from 2^31 bytes on: the length becomes negative.", "quantifier": "every format string, arguments and file", "why_tests_cant": "Texts of two gigabytes.", "anchors": ["src/format.cpp:1287-1292"]}
{"id": "C136", "title": "The error text names the unknown type letter", "statement": "The exception for an unknown type letter names it: the letter itself if it can be printed, else its two hexadecimal digits. Proved below 128, refuted above: the byte is extended with its sign and eight digits are printed. The text is always well-formed.", "quantifier": "every byte and type name", "why_tests_cant": "All 256 bytes, and the text goes through the formatter itself.", "anchors": ["src/format.cpp:624-633"]}
{"id": "C137", "title": "Attribute values behave like variables", "statement": "In every program that makes, copies, moves, assigns and destroys attribute values, each holds what was last put into it, whatever happens to the values it was copied from or to. A copy for which there is no memory changes nothing. A value assigned or moved to itself keeps what it holds. Every use of a value that exists is defined.", "quantifier": "every program of constructions, copies, moves, assignments and destructions; every pattern of failing allocations; every size of small strings", "why_tests_cant": "Sharing between copies shows only in particular histories, and failing allocations are hardly ever tested.", "anchors": ["src/attribute.cpp:53-156", "include/blackhole/attribute.hpp:91-151", "src/attribute.hpp:9-16"]}
{"id": "C138", "title": "Attribute values own their memory", "statement": "At any time each block of memory belongs to exactly one living attribute value; after all values are destroyed, all memory is free, and nothing is freed twice.", "quantifier": "every program as in C137", "why_tests_cant": "Leaks and double frees depend on the history.", "anchors": ["src/attribute.cpp:113-139"]}
{"id": "C139", "title": "Errors in patterns point at the place", "statement": "If the pattern of the string formatter is not understood, the exception's position and its report, read back, give the reason, the pattern and the place, and the caret is below the character that is wrong. Refuted for patterns of several lines, for errors in the options of {...} (the report has only the options and points behind their end), and for errors in the pattern among these options (the text is NIY, with no place).", "quantifier": "every byte string", "why_tests_cant": "All patterns; tests compare single reports.", "anchors": ["src/formatter/string/error.cpp:8-39", "src/formatter/string/grammar.cpp:155-177", "src/formatter/string/parser.cpp:318-325"]}
{"id": "C140", "title": "A lock that cannot be made says why", "statement": "The constructor of the spin lock throws exactly if the lock cannot be made. Refuted: that the exception says why; its code is taken from errno, which pthread_spin_init does not set.", "quantifier": "every result and every errno", "why_tests_cant": "pthread_spin_init does not fail in tests.", "anchors": ["src/spinlock.linux.hpp:12-17"]}
{"id": "C141", "title": "Filters, messages and handlers run without locks", "statement": "Whatever filters, message suppliers and handlers do with loggers while a log call runs them - log, set filters, assign or replace loggers, throw or catch, to any depth - the thread never waits for a lock it holds itself and the program is not terminated; they are run with no lock held, and afterwards no lock is held. Refuted for the copying and destroying of filters and the destroying of handlers, which happen within locks, and for destructors whose log calls throw.", "quantifier": "every number of loggers, every code of the user, every sequence of commands, every depth of nesting, every exception", "why_tests_cant": "Reentrant use has to be provoked, and the cases multiply with depth.", "anchors": ["src/root.cpp:41-201"]}
{"id": "C142", "title": "A log call's handlers live until it ends", "statement": "Whatever code of the user does with loggers within a log call, and whatever it throws, no object is used after it was destroyed; the call asks the filter and runs all the handlers the logger had when the call began, in order and once each, even if they throw or have been replaced meanwhile; only the filter's copying, the filter and the message can end the call with an exception, before any handler; and when all calls have ended, exactly the objects that a logger has are left.", "quantifier": "every number of loggers, every code of the user including copies and destructors, every sequence of commands, every depth of nesting, every exception", "why_tests_cant": "Use after destruction shows only if a handler replaces its own logger, and then not always.", "anchors": ["src/root.cpp:41-69", "src/root.cpp:121-148", "src/root.cpp:175-201"]}
{"id": "C143", "title": "A record that cannot be copied loses only itself", "statement": "Whatever copies into the queue of the asynchronous sink throw, the wrapped sink is given an initial part of the accepted records, in order. Refuted: that only the record whose copy threw is lost. No record behind it is ever delivered, at most as many as the queue holds are accepted from its position on, and with the policy that waits emit never returns once these are.", "quantifier": "every capacity, policy and schedule of producers, worker and destructor, every set of copies that throw, both behaviours of dequeue at a reserved cell", "why_tests_cant": "The copy throws only if memory is exhausted; that nothing happens any more in any continuation is not testable.", "anchors": ["src/sink/asynchronous.p.cpp:94-121", "src/sink/asynchronous.p.cpp:123-147", "src/root.cpp:191-199"]}
{"id": "C144", "title": "The asynchronous sink can be destroyed", "statement": "Once the destructor has asked the worker to stop, the worker ends after at most 2n+3 steps of its own, with n records in the queue, and the destructor returns, if no copy threw and no emit is in progress, or if dequeue reports a reserved cell as nothing; all accepted records before the first whose copy threw are delivered by then, unless the worker had just found the queue empty (C09). Refuted if a copy threw and dequeue tries again at reserved cells: the destructor never returns.", "quantifier": "as in C143", "why_tests_cant": "As in C143.", "anchors": ["src/sink/asynchronous.p.cpp:85-88", "src/sink/asynchronous.p.cpp:123-147"]}
{"id": "C145", "title": "A sink behind a queue may log to that queue", "statement": "If the sink wrapped by an asynchronous sink logs to it while it is given records, the accepted records are still delivered in order. If what it logs about a record is of lower rank, and if either the policy drops or it logs at most one record about each and the worker is not within emit when the destructor begins, the worker delivers everything and ends. Refuted: that it can do so with the policy that waits while other threads log (the worker waits for itself, for ever), and that the destructor returns if the sink logs a record about each record.", "quantifier": "every capacity, policy, wrapped sink with what it logs, and schedule of other threads, worker and destructor", "why_tests_cant": "Needs a full queue at the moment the wrapped sink logs; that nothing happens any more in any continuation is not testable.", "anchors": ["src/sink/asynchronous.p.cpp:22-53", "src/sink/asynchronous.p.cpp:85-147"]}
{"id": "C146", "title": "Threads that log do not wait for each other for ever", "statement": "However many threads log and set filters, and whatever filters, messages and handlers do with loggers meanwhile, in no state do all unfinished threads wait; a thread that has a lock gives it back within three steps of its own, after which one that waits for it can go on; filters are read and replaced only with the lock of their object, and code of the user runs without locks. Refuted if the filter that is replaced uses loggers in its destructor: two threads, each of which alone comes to its end, wait for each other for ever.", "quantifier": "every number of threads and loggers, all programs and code of the user, every schedule", "why_tests_cant": "Deadlocks of several threads need a schedule that tests do not hit.", "anchors": ["src/root.cpp:53-69", "src/root.cpp:88-92", "src/root.cpp:139-148", "src/root.cpp:175-201", "src/spinlock.linux.hpp:25-31"]}
