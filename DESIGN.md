# Formal model of the blackhole logging library

Source: `/repo` (3Hren/blackhole), read as text only; the code was never built or run.
The model is plain Coq 8.16.1 (stdlib) in `rocq/theories`. One area = up to four files:

* `<Area>Model.v`  – Gallina functions that follow the C++ function by function. Each definition
  carries a comment citing file and lines, and every simplification is stated there. No proofs.
* `<Area>Spec.v`   – the independent specification, written without the model's helpers.
* `<Area>Proofs.v` – lemmas.
* `<Area>Properties.v` – only the property theorems (`exact lemma`), a concrete `Example` beside
  each one showing that its hypotheses can be met, and `Print Assumptions`.

Conventions

* Bytes are `ascii`, strings are `list ascii`. `std::uint64_t`/`size_t` are `N` or `Z` with the wrap
  (`mod 2^64`) written out wherever the code can wrap and the property is about it.
* C++ exceptions are values of a result type. Undefined behaviour and failed `BOOST_ASSERT`s are a
  distinct constructor, never a normal-looking value.
* Concurrency is interleaving of atomic steps (sequential consistency). A mutex-protected region is
  one or more steps guarded by an explicit lock. C++ weak memory effects are not modelled.
* Suffixes: `_partial` = the full statement is not proved (the full statement is given beside it and
  what is missing is named); `_refuted` = the full statement is false of the model of the existing
  code, with a concrete witness. Each refutation is a finding about the code and is listed in
  "Findings".

## Trusted base

* The Coq 8.16.1 kernel (and `coqchk`). No axioms are added. The axioms `Print Assumptions` reports per
  theorem are listed at the end ("Assumptions").
* The reading of the C++ sources by a human-style review: nothing ties the model to the binary.
* Standard-library/third-party behaviour that the model takes as given: `std::map`/`std::set`
  ordered iteration and first-insert-wins `insert`, `std::vector` order, `boost::lexical_cast<uint64_t>`
  on digit strings, `boost::variant` visitation, `std::mutex` mutual exclusion, `stat(2)`/append-mode
  `ofstream` on a local file system, libcds `VyukovMPSCCycleQueue` as a linearizable bounded FIFO,
  rapidjson `Pointer`/`AddMember` semantics, `strftime`, `syslog`, asio socket calls (as outcome oracles).
* `snprintf` with one floating-point conversion: flags, width and precision as ISO C says, the digits as a parameter that never begins
  with a space; overlapping `std::copy` is a parameter (works / undefined).
* `openlog`/`closelog`/`syslog` of glibc: the identity is kept as a pointer, `closelog` makes it null, a null identity means the program's name;
  each call is atomic. Strings of libstdc++ keep up to 15 characters inside of the object (C124, C125). A string that one thread moves while
  `syslog` of another reads it is read before or after the move, though it is a data race.
* `small_vector` of Boost keeps up to 16 elements inside of the object and moves them one by one when it is moved; a larger one, and `std::vector`,
  hands over its block (C129-C131). Blocks of the heap are not used again after they have been freed in that model; addresses of wrappers are.
* libcds is not in the repository and could not be read here. C143 and C144 take from what is generally known of it that `enqueue_with` reserves a
  cell, runs the function, then publishes the cell, without handling exceptions; for `dequeue_with` at a reserved cell both possible behaviours
  are covered. They should be checked against the version in use before the findings of C143 and C144 are acted upon.
* Not modelled: memory allocation failure (except in the buffers, C85-C88 and C104-C107, and in the queue, C143 and C144), C++ object layout, compiler bugs, the remaining `osx` variants (spin lock, process name), tests,
  examples, benchmarks, CMake files, performance.


## Properties

### C01 — A log call delivers to every handler exactly once, in order, iff the filter accepts

`Root*.v`: `consume` as a function to an event trace (filter call, supplier call, handler calls with their outcome, text printed to stdout) plus an exit status. Trace is compared with an independent specification (map over the handlers).

Status: **proved**. Theorems: `C01_rejected_has_no_effect`, `C01_accepted_delivers_to_all`, `C01_handlers_see_active_records`, `C01_builder_order`.

### C02 — A throwing filter or message supplier reaches the caller and no handler sees the record

Same model as C01; the exit status carries the escaping exception.

Status: **proved**. Theorems: `C02_filter_throws`, `C02_supplier_throws`, `C02_only_filter_and_supplier_escape`, `C02_diagnostic_follows_handler`, `C01_accepted_delivers_to_all`.

### C03 — Attribute precedence: call-site, then wrappers outermost to innermost, then scopes newest to oldest

`Root*.v`: wrappers as an inductive tower over the root logger; theorem about the resulting pack and about first-match lookup.

Status: **proved**. Theorems: `C03_attribute_order`, `C03_plain_log`, `C03_lookup_first`, `C03_lookup_complete`, `C04_scopes_follow_stacks`.

### C04 — Scoped attributes follow stack discipline per thread for every history

`Scope*.v`: heap of guards linked by `prev` pointers and a thread→pointer map as in the code; simulation against a per-thread list-of-lists specification.

Status: **proved**. Theorems: `C04_scopes_follow_stacks`, `C04_close_not_newest_undefined`, `C04_close_on_other_thread_undefined`.

### C05 — Moving a logger keeps the moving thread's open scopes attached to the destination

`Scope*.v`: move operations added to the history model, with two loggers; simulation extended.

Status: **partial**. Theorems: `C05_move_construct_keeps_scopes`, `C05_move_assign_keeps_scopes`, `C04_scopes_follow_stacks`, `C05_assign_over_open_scope_refuted`, `C05_moved_from_logger_dangles_refuted`, `C05_other_threads_scopes_stay_refuted`. Proved for the moving thread when it has no scope open on the destination; assignment over an open scope, use of the moved-from logger and other threads' scopes are refuted.

### C06 — Replacing the filter concurrently with reassigning the logger loses neither update

`FilterRace*.v`: load/store steps of both operations over a shared cell; expected to be refuted by a schedule in which the store of `filter` undoes the assignment.

Status: **partial**. Theorems: `C06_apart`, `C06_assignment_lost_refuted`, `C06_assignments_kept_partial`, `C06_filter_replacement_partial`, `C06_log_uses_consistent_pair`. Refuted: filter() can undo a concurrent assignment. Proved whenever no assignment is completed during a call of filter on the same logger.

### C07 — A buffered record is a faithful snapshot of the original

`RecordBuf*.v`: explicit heap of cells for strings and attribute lists; views are pointers; copy and move re-pointing modelled; dangling access is an error outcome.

Status: **partial**. Theorems: `C07_snapshot_observed`, `C07_moved_from_undefined`, `C07_lwp_refuted`. Proved for every field that is stored; refuted for the light-weight process id, which is asked from the OS by the reading thread.

### C08 — Asynchronous sink: records are delivered at most once, in queue order, for every schedule

`Async*.v`: small-step transition system with one program counter per producer, the worker's program counter, the stop flag and a bounded FIFO; invariants by induction over reachable states.

Status: **proved**. Theorems: `C08_delivery_order`, `C08_producer_order`, `C08_capacity`.

### C09 — Asynchronous sink: every record whose emit returned before destruction is delivered

`Async*.v`: expected refuted by an explicit schedule; the part that holds (everything enqueued before the worker's last dequeue attempt is delivered) is proved.

Status: **partial**. Theorems: `C09_lost_record_refuted`, `C09_delivered_before_last_attempt_partial`, `C11_shutdown_terminates`. Refuted: a record accepted between the worker's last failed dequeue and the start of the destructor is lost. What is delivered is characterised.

### C10 — Asynchronous sink: the drop policy discards a record only when the queue is full and never blocks

`Async*.v`: history variables for accepted/discarded records.

Status: **proved**. Theorems: `C10_emit_shape`, `C10_drop_never_blocks`, `C10_wait_progress`.

### C11 — Asynchronous sink: shutdown terminates

`Async*.v`: decreasing measure on worker steps.

Status: **proved**. Theorems: `C11_shutdown_terminates`. For a wrapped sink that does not throw (see C52).

### C12 — Asynchronous sink builder honours the configured overflow policy and factor

`AsyncBuilder` part: builder as a state machine over call lists; expected refuted (rvalue `drop()` calls `wait()`, `build()` ignores the policy, factors 0 and 1 rejected).

Status: **partial**. Theorems: `C12_builder_factor`, `C12_config_options`, `C12_builder_drop_refuted`, `C12_small_factor_refuted`, `C12_missing_option_refuted`. Refuted for the builder's drop policy, for the documented factors 0 and 1 and for absent options; the rest is proved.

### C13 — File sink: flushing by record count leaves at most N-1 records unflushed

`Flusher*.v`: counters as N with explicit wrap; invariant relating the counter to the true number of unflushed records.

Status: **proved**. Theorems: `C13_repeat_flush_exact`, `C13_repeat_unflushed_bound`.

### C14 — File sink: flushing by bytes leaves fewer than N bytes unflushed

`Flusher*.v`: invariant for counter vs. unflushed bytes (counter is an upper bound); overflow case refuted separately.

Status: **partial**. Theorems: `C14_bytes_flush_exact`, `C14_bytes_unflushed_bound`, `C14_bytes_unflushed_overflow_refuted`. Holds when no size+threshold exceeds 2^64; beyond that the sum wraps and the bound is refuted.

### C15 — Size strings denote the documented number of bytes

`Flusher*.v`: digit-span model with uint64 lexical_cast; correctness for all representable products; refuted for products ≥ 2^64 (silent wrap).

Status: **partial**. Theorems: `C15_parse_value`, `C15_parse_sound`, `C15_parse_reject`, `C15_numeral_unique`, `C15_parse_wraps_refuted`. Proved for products below 2^64; larger products wrap silently (refuted).

### C16 — File sink: the file holds exactly the emitted records, one per line, in order

`FileSink*.v`: small filesystem (path→inode, inode→bytes, open streams with their inode and pending buffer); step per emit and per external event.

Status: **partial**. Theorems: `C16_whole_lines`, `C16_lines_in_order`, `C16_rotation_race_refuted`, `C16_other_device_refuted`. Every record goes wholly and in order to exactly one file under any interference; the right file is proved when others act between emits on one file system. Refuted for a rename between open and stat, and for an equal inode number on another device.

### C17 — File sink: destroying the sink flushes everything written

`FileSink*.v`: durable vs. buffered bytes; crash = forget buffer; ostream may flush earlier on its own, modelled as a nondeterministic spill step.

Status: **proved**. Theorems: `C16_lines_in_order`, `C17_crash_records`, `C17_crash_bytes`. For histories without I/O failures; the byte policy needs record size + threshold <= 2^64 (see C14).

### C18 — TCP sink: at-most-once writes and reconnection after any failure

`Tcp*.v`: the sink as a state machine over an outcome oracle; invariant and trace specification.

Status: **proved**. Theorems: `C18_one_write`, `C18_delivered`, `C18_no_reuse_after_failure`, `C18_opened_before_use`, `C18_endpoint_order`, `C18_stream_of_records`. Exceptions other than network errors (memory exhaustion) are not modelled.

### C19 — Configured socket ports are used unchanged or rejected

`Tcp*.v`: static_cast<uint16_t> as mod 65536; refuted for 65536+80, proved for < 65536.

Status: **partial**. Theorems: `C19_port_kept`, `C19_port_truncated_refuted`. Proved below 65536; refuted above (truncated modulo 65536).

### C20 — Console output is never interleaved inside a line and colours are always reset

`Console*.v`: lock-step transition system with byte-granular writes under the mutex.

Status: **proved**. Theorems: `C20_denied`, `C20_plain_line`, `C20_coloured_line`, `C20_whole_lines`, `C20_thread_order`, `C20_no_deadlock`. Stream errors and colour functions that throw or log are not modelled.

### C21 — Console colour mapping: the last colour given for a severity wins and others are unaffected

`Console*.v`: closures composed by fold; compared to a last-match search.

Status: **proved**. Theorems: `C21_last_call_wins`.

### C22 — Syslog priority selection is total and in range

`Delivery*.v`: size_t conversion explicit.

Status: **partial**. Theorems: `C22_configured`, `C22_default`, `C22_config_kept`, `C22_config_truncated_refuted`. Proved for lists set through the API and for configured values in the range of int; refuted for larger configured values.

### C23 — Severity threshold filter is monotone and total

`Delivery*.v`.

Status: **proved**. Theorems: `C23_exact`, `C23_monotone`.

### C24 — Blocking handler formats once and feeds every sink the same bytes

`Delivery*.v`: last clause expected refuted (exception aborts the loop); prefix property proved.

Status: **partial**. Theorems: `C24_handle`, `C24_failing_sink_refuted`. All clauses but the last proved; refuted: a throwing sink keeps the following sinks from the record.

### C25 — TSKV value escaping is lossless and line-safe

`Tskv*.v`: per-character escape; independent decoder; round-trip.

Status: **proved**. Theorems: `C25_value_safe`, `C25_value_round_trip`, `C25_value_injective`.

### C26 — TSKV key escaping is lossless and line-safe

`Tskv*.v`: no-unescaped-`=` claim refuted for keys ending in a backslash, injectivity/tab refuted; proved for keys free of backslash and control bytes.

Status: **partial**. Theorems: `C26_key_injective`, `C26_key_read_back`, `C26_key_bytes`, `C26_key_ending_in_backslash_refuted`, `C26_field_ambiguous_refuted`, `C26_key_line_safe_refuted`. Injectivity proved; the separator is found for keys not ending in a backslash and refuted for all others; tab and newline pass through (refuted).

### C27 — A TSKV line parses back to exactly the fields that were logged

`Tskv*.v`: full line model; parse-back theorem under explicit hypotheses; refuted for constants with tabs.

Status: **partial**. Theorems: `C27_parse_back`, `C27_builder`, `C27_one_line`, `C27_constant_injection_refuted`. Proved when keys have no tab and do not end in a backslash and constants have no tab or backslash; refuted for other constants.

### C28 — TSKV remove and rename apply to every built-in and user field

`Tskv*.v`: refuted for `tid`; proved for all the other fields.

Status: **partial**. Theorems: `C28_removed_or_renamed_absent`, `C28_tid_always_refuted`, `C27_parse_back`. Proved for every field but the thread id, for which it is refuted.

### C29 — JSON formatter places each field once, at its route, under its mapped name

`JsonFmt*.v`: tree with ordered members; JSON-pointer resolution with creation of intermediate objects; multiset characterisation of leaves; conflicts (pointer through a scalar) are a separate outcome.

Status: **partial**. Theorems: `C29_fields_placed`, `C29_reported_exists`, `C29_one_route`, `C29_field_replaced_refuted`, `C29_route_to_field_refuted`, `C29_array_padding_refuted`. Proved for routes in which no field stands in the way and no token after the first is a number; refuted otherwise (field replaced, undefined behaviour, arrays padded with nulls).

### C30 — JSON `unique` yields no duplicate keys and keeps the highest-precedence value

`JsonFmt*.v`: first-occurrence dedup proved for attribute names; whole-tree uniqueness refuted (attribute called `message`; two names renamed to one).

Status: **partial**. Theorems: `C30_unique_keeps_first`, `C30_distinct_keys`, `C30_builtin_name_refuted`, `C30_renamed_refuted`. First value per attribute name proved; distinct keys proved when no two fields have the same place, refuted for attributes called like built-in fields or renamed to one key.

### C31 — Pattern literals: escaping braces is exact

`Parser*.v`: parser state machine on byte lists; round trip by induction.

Status: **proved**. Theorems: `C31_escaped_text`.

### C32 — Pattern parser always terminates, consumes the pattern and stays broken after an error

`Parser*.v`: fuel-free measure; out-of-fuel is an error outcome shown unreachable.

Status: **partial**. Theorems: `C32_ends`, `C32_error_position`, `C32_stays_broken`, `C32_stays_ended`, `C32_goes_on_refuted`, `C32_assertion_refuted`, `C32_undefined_refuted`. Termination, positions and the broken state proved; refuted for exceptions thrown for the specification of {...} (the parser goes on), for an assertion failure and for bytes of 128 and more in a name.

### C33 — Malformed patterns are rejected

`Parser*.v`: refuted by patterns ending in `{` (silently accepted after a literal) and by an unterminated spec; the accepted language is characterised.

Status: **partial**. Theorems: `C33_every_pattern`, `C33_meaning`, `C33_unclosed_accepted_refuted`. Exact result for every byte string proved; refuted: a pattern ending in an opening brace or inside a specification is accepted.

### C34 — String formatter output is the concatenation of its tokens' renderings

`Str*.v`: the token visitor over the record, on top of the modelled parser (`Parser*.v`) and formatting library (`Fmt*.v`), so the theorem goes from the bytes of the pattern to the bytes of the output; texts of doubles, `strftime` and the severity mapping are parameters. Refuted: a default that reads as an integer is refused with type `s` exactly when the attribute is missing; `{x:{text:default}}` is accepted but prints for no record.

Status: **partial**. Theorems: `C34_output`, `C34_missing`, `C34_default_kind_refuted`, `C34_default_alone_refuted`. Concatenation and missing attributes proved for every pattern and suiting record; refuted for defaults that read as integers with type `s` and for a default without a specification.

### C35 — `{...}` prints every attribute exactly once with separators between

`Str*.v`: default form and form with pattern, separator and specification, by induction over the pack.

Status: **proved**. Theorems: `C35_every_attribute`, `C35_custom`.

### C36 — String attributes are printed in full

`Str*.v`: a view is a pointer into an object (with what follows the viewed bytes) and a size; the visitor reads it as a C string. Proved for NUL-free NUL-terminated storage, refuted for embedded NULs (cut), views of a part of a text (prints what follows), unterminated storage (undefined) and null views (refused).

Status: **partial**. Theorems: `C36_string`, `C36_cut_refuted`, `C36_beyond_refuted`, `C36_overrun_refuted`, `C36_null_refuted`. Proved for NUL-free bytes followed by a NUL; refuted for all other views.

### C37 — gmtime is the proleptic Gregorian calendar for every non-negative time

`Time*.v`: exact integer model with division; specification by an independent day-counting definition (sum of year/month lengths), uniqueness of date proved.

Status: **proved**. Theorems: `C37_gmtime_civil`, `C37_gmtime_posix_round_trip`, `C37_gmtime_injective`, `C37_civil_day_valid`, `C37_gmtime_year_overflow_refuted`. Proved up to 67768036191676800 (the last year tm_year can hold), which covers [0, 2^55); beyond it tm_year overflows (refuted).

### C38 — gmtime for times before the epoch

`Time*.v`: unsigned conversion modelled as mod 2^64; refuted with t = -1.

Status: **partial**. Theorems: `C38_gmtime_negative_refuted`, `C38_gmtime_negative_always_wrong`. Refuted: every negative time_t is converted wrongly.

### C39 — localtime reports the offset it applied

`Time*.v`: refuted (sign of tm_gmtoff) for every non-zero offset.

Status: **partial**. Theorems: `C39_localtime_offset_only_utc`, `C39_localtime_wall_clock_only_standard`, `C39_localtime_offset_refuted`. Refuted: holds exactly when timezone = 0 (sign of tm_gmtoff) and no daylight saving is in force.

### C40 — Timestamp pattern generation substitutes %f and %s and nothing else

`Date*.v`: splitting loop and strftime on top of a C library given as a parameter. A pattern is a list of characters, directives, `%f` and `%s`; each prints its own text, in order. Refuted: `%%f` and `%%s` (the scan does not know the escape), pieces of 1024 bytes or more (the buffer's size; they vanish), `%s` in UTC time stamps outside Greenwich (mktime reads local time).

Status: **partial**. Theorems: `C40_pattern`, `C40_epoch_zone`, `C40_escaped_refuted`, `C40_long_refuted`, `C40_epoch_refuted`. Proved for patterns without %%f and %%s whose pieces fit into 1023 bytes; refuted otherwise; %s of UTC time stamps refuted outside Greenwich.

### C41 — Microsecond field is always six digits and re-reads to the same value

`Date*.v`, with `{:06d}` of the bundled formatter as modelled in `Fmt*.v`. Refuted for times before the epoch.

Status: **partial**. Theorems: `C41_six_digits`, `C41_range`, `C41_negative_refuted`. Proved for times since the epoch; refuted before it.

### C42 — Configuration navigation reports the right value or the right path

`Config*.v`: the document as a tree (the parser, RapidJSON, is not modelled); navigation against a separate relation `at_path`; every conversion and both loops, for every document and path. Refuted: names and texts with a NUL are cut; places are ambiguous in errors, as names are not escaped.

Status: **partial**. Theorems: `C42_found`, `C42_convert`, `C42_each`, `C42_each_map`, `C42_same_place_refuted`, `C42_root_place_refuted`, `C42_nul_value_refuted`, `C42_nul_key_refuted`, `C42_nul_other_refuted`. Proved for names and texts without NUL; refuted: texts and names with a NUL are cut silently, and errors of different places can name the same path.

### C43 — Registry: the last registered factory for a type is used, unknown types are errors

`Registry*.v`: after every sequence of registrations, against "the last one of that kind and type"; the message goes through the formatting library's model. Refuted: the configured registry lacks the `dev` handler although documented to have all components.

Status: **partial**. Theorems: `C43_lookup`, `C43_unknown`, `C43_configured`, `C43_all_components_refuted`. Proved; the documented completeness of registry::configured is refuted (no `dev` handler).

### C44 — A configured logger has exactly the configured handlers in order

`Registry*.v`: for every document, registry and behaviour of the factories, the handlers or the first error. Last clause refuted: a missing name gives a logger without handlers.

Status: **partial**. Theorems: `C44_handlers`, `C44_first_error`, `C44_not_a_list`, `C44_not_configured`, `C44_not_configured_refuted`. Handlers and errors proved; refuted for a logger name that is not configured.

### C45 — Attribute values keep value and sign through storage

`Attribute*.v`: the constructors with their casts, `get`, `into_view` and `into_owned`; ranges of the C++ types in the specification.

Status: **proved**. Theorems: `C45_integers`, `C45_get`, `C45_own_view`, `C45_view_own`.

### C46 — Attribute view equality is an equivalence that agrees with stored values

`Attribute*.v`: equality of the variant with IEEE equality of doubles on their bits. Refuted: reflexivity for NaN; equal views of 0 and -0.

Status: **partial**. Theorems: `C46_content`, `C46_equivalence`, `C46_nan_refuted`, `C46_zero_refuted`. Symmetric, transitive, one kind only; reflexivity refuted exactly for NaN.

### C47 — string_view operations agree with the underlying bytes

`StringView*.v`.

Status: **proved**. Theorems: `C47_index`, `C47_substr`, `C47_equal`, `C47_order`, `C47_string`.

### C48 — Compile-time message formatting equals run-time formatting

`MetaFormat*.v`: the parser at compile time, the nested literals and the stream operators, against the run-time formatter of `Fmt*.v`, for every accepted pattern without NUL and every argument of the remaining types. Refuted: `bool`, `signed char`, `unsigned char`, empty references, null pointers, patterns with a NUL.

Status: **partial**. Theorems: `C48_only_those`, `C48_same_partial`, `C48_promoted_refuted`, `C48_null_refuted`, `C48_nul_refuted`. Proved for every accepted pattern without NUL and every value of the types written alike; refuted for bool, signed/unsigned char, empty references, null pointers and patterns with NUL.

### C49 — Severity names: mapped when configured, numeric otherwise

`Str*.v`, `JsonFmtModel.v`: proved for severities with a name, above the names and for JSON; refuted for negative severities in the string formatter (size_t conversion prints a huge unsigned number) and for type `s` with an unnamed severity (record refused).

Status: **partial**. Theorems: `C49_named`, `C49_above`, `C49_number`, `C49_json`, `C49_negative_refuted`, `C49_unnamed_text_refuted`. Proved for JSON, for named severities and those above the names; refuted for negative severities in the string formatter.

### C50 — Integer rendering is exact

`Fmt*.v`: digit counting with the power table, two digits at a time from the right, shifts, the buffer as cells that must all be stored exactly once; the specification parser; canonical numerals are characterised by reading them back and shown unique.

Status: **proved**. Theorems: `C50_integers`, `C50_plain`, `C50_one_numeral`, `C50_other_types`.

### C51 — A log call leaves the caller's attribute pack as it was

`Root*.v`: the log call returns the pack as left by reference; exact contents proved, the property refuted.

Status: **partial**. Theorems: `C51_pack_after_call`, `C51_pack_unchanged_refuted`. Refuted: the pack accumulates the wrappers' and scopes' lists; exact final contents proved.

### C52 — Asynchronous sink: an exception of the wrapped sink is hidden from the application

`Async*.v`: the worker's step has an outcome for the wrapped sink; refuted.

Status: **partial**. Theorems: `C52_exception_hidden_refuted`. Refuted: the exception terminates the process.

### C53 — File sink: emits succeed again once the device accepts data

`FileSink*.v`: the stream's bad bit is part of the backend; refuted, and without rotation the sink is proved to stay dead for ever.

Status: **partial**. Theorems: `C53_recovers_after_failure_refuted`, `C53_failed_stays_failed`. Refuted: the stream's bad bit is never cleared.

### C54 — Syslog receives exactly the formatted bytes

`Delivery*.v`: printf's "%.*s" with an `int` precision; proved for texts without NUL shorter than 2^31, exact behaviour proved for the others, the property refuted.

Status: **partial**. Theorems: `C54_text_kept`, `C54_text_cut`, `C54_text_long_undefined`, `C54_text_refuted`. Refuted for texts with a NUL byte (cut) and of 2 GiB and more (undefined).

### C55 — Messages written to the standard streams by the library do not intermix

`Console*.v`: the transition system of C20 with a mutex per component; refuted, because the two components have different mutexes. With one mutex it is C20.

Status: **partial**. Theorems: `C55_two_mutexes_refuted`, `C20_whole_lines`. Refuted: each component has its own mutex.

### C56 — The JSON text is one line and reads back as the document

`JsonText*.v`: rapidjson::Writer as a function from trees to bytes (escape table, no UTF-8 validation); independent recursive-descent reader; round trip by induction over trees. Texts of doubles are any non-empty texts of number characters (quantified); NaN and infinities, which the writer refuses, are excluded.

Status: **proved**. Theorems: `C56_one_line`, `C56_reads_back`. For finite doubles; the writer is RapidJSON 1.1's, which is not in the repository.

### C57 — Reserved placeholders mean what the documented table says

`Parser*.v`: the factories' match functions on arbitrary specifications; proved for specifications without braces; refuted for a time specification that contains a closing brace.

Status: **partial**. Theorems: `C57_type_letter`, `C57_timestamp`, `C57_defaults`, `C57_brace_in_time_refuted`. Proved for specifications without braces; refuted for time specifications with a closing brace.

### C58 — The extensions of `{...}` are read as the documented grammar says

`Parser*.v` (`ParserSubProofs.v`): the Spirit grammars as PEG functions; round trip proved for pattern, separator, pattern+separator; refuted for separator+pattern, for unbalanced literal braces, for doubled braces in separators and for the README's own example.

Status: **partial**. Theorems: `C58_pattern`, `C58_pattern_separator`, `C58_separator`, `C58_separator_first_refuted`, `C58_unbalanced_brace_refuted`, `C58_separator_braces_refuted`, `C58_readme_example_refuted`. Pattern, separator and pattern+separator proved; refuted for separator+pattern, unbalanced or doubled braces and the README's example.

### C59 — A format string renders its text and its arguments in order

`Fmt*.v`: the scanner with automatic argument indexes, by induction over the pieces; refuted for an empty specification `{:}`, behind which the next character of the text is read as an alignment.

Status: **partial**. Theorems: `C59_in_order`, `C59_missing_argument`, `C59_empty_specification_refuted`. Proved for every non-empty specification; refuted for an empty specification `{:}`.

### C60 — String arguments are rendered as exactly their bytes

`Fmt*.v`: pointers see the bytes up to the end of their object; proved for non-empty views and for C strings, refuted for empty views.

Status: **partial**. Theorems: `C60_view`, `C60_c_string`, `C60_empty_view_refuted`. Proved for non-empty views and C strings; refuted for empty views.

### C61 — Widths that do not fit an int are refused

`Fmt*.v`: unsigned 32-bit accumulation; proved for widths below 2^32 and for wider ones whose first wrapping is noticed, refuted for 10000000000, which becomes a width of 1410065408.

Status: **partial**. Theorems: `C61_any_width`, `C61_too_big_partial`, `C61_wrapped_refuted`. Proved below 2^32 and for wider numbers whose first wrapping is noticed; what is not refused is taken modulo 2^32 (exact); refuted for 10000000000.

### C62 — Formatting stays inside its arguments

`Fmt*.v`, `Str*.v`: undefined behaviour is an outcome of its own in the model; proved unreachable by case analysis of the scanner, the specification parser and the writers. Valid: C strings and string attributes have a NUL, a non-empty view lies within its object, an empty one is in front of a NUL.

Status: **proved**. Theorems: `C62_library`, `C62_formatter`. For valid pointers as defined by valid_arg and valid_record.

### C63 — The README's table of placeholders

`Str*.v`: one theorem per row, from pattern bytes to output bytes. Refuted rows: `{severity}` goes through the severity mapping; `{thread::x}` is accepted, then refuses every record; an unnamed thread prints `<unnamed>`; `{...}` is in order of the pack, not reversed; an empty message view prints the text behind its pointer.

Status: **partial**. Theorems: `C63_process`, `C63_process_name`, `C63_thread`, `C63_thread_name`, `C63_severity_number`, `C63_severity_user`, `C63_microseconds`, `C63_time_pattern`, `C63_time_default`, `C63_message`, `C63_severity_refuted`, `C63_thread_hex_refuted`, `C63_unnamed_refuted`, `C63_reverse_refuted`, `C63_empty_message_refuted`. Ten rows proved; refuted: {severity}, {thread::x}, the name of unnamed threads, the order of {...}, empty messages.

### C64 — Default time stamps are ISO dates that sort chronologically

`Date*.v`: the specification counts days year by year (`TimeSpec.civil_day`) and prints fixed-width fields; order via the value of a concatenation of fixed-width decimals.

Status: **proved**. Theorems: `C64_text`, `C64_order`, `C64_formatter`.

### C65 — Time patterns never read what nobody wrote

`Date*.v`: fields of `tm` that nobody assigned are None and reading them is Undefined. Proved for local time, TSKV and JSON and for UTC patterns without z and Z; refuted for `%Z`, `%z` with UTC in the string formatter, whose gmtime leaves tm_zone and tm_gmtoff alone.

Status: **partial**. Theorems: `C65_defined`, `C65_others_defined`, `C65_zone_refuted`. Refuted for %z and %Z in UTC time stamps of the string formatter.

### C66 — The formatters agree on UTC time stamps

`Date*.v`: simulation of the generator on clocks that differ in the zone only. Refuted before the epoch.

Status: **partial**. Theorems: `C66_same`, `C66_negative_refuted`. Proved without z and Z in the pattern; refuted before the epoch.

### C67 — string_view order is that of std::string

`StringView*.v`: proved for ASCII; refuted otherwise, because lexicographical_compare compares (signed) char.

Status: **partial**. Theorems: `C67_ascii`, `C67_high_refuted`. Refuted for bytes of 128 and more.

### C68 — A view of a character array shows the text in it

`StringView*.v`: proved for literals; refuted for buffers holding a shorter C string.

Status: **partial**. Theorems: `C68_literal`, `C68_buffer_refuted`. Refuted for buffers.

### C69 — Text given as an attribute is kept as text

`Attribute*.v`: proved for strings and literals; refuted for `const char*`, which becomes the boolean true, and for buffers.

Status: **partial**. Theorems: `C69_text`, `C69_pointer_refuted`, `C69_buffer_refuted`. Refuted for pointers to characters and for buffers.

### C70 — Every pattern of texts and bare placeholders compiles with one argument per placeholder

`MetaFormat*.v`: exact characterisation of what compiles, counting template instantiations. Refuted: every brace in the text needs a further (ignored) argument, because both branches of a condition are instantiated.

Status: **partial**. Theorems: `C70_accepts`, `C70_matching_partial`, `C70_braces_refuted`, `C70_braces_never`. What compiles is characterised exactly; with one argument per placeholder a pattern compiles iff it has no braces in its text: refuted for all others.

### C71 — The facade formats exactly the pattern it is given

`MetaFormat*.v`: proved for patterns without NUL that have a NUL behind them (literals, std::string), and without arguments for every view. Refuted: views into something longer are formatted beyond their end; a NUL in the pattern ends it.

Status: **partial**. Theorems: `C71_size_ignored`, `C71_text_partial`, `C71_no_arguments`, `C71_view_refuted`. Proved for NUL-terminated patterns without NUL and for calls without arguments; refuted for views into longer text and patterns with NUL.

### C72 — The wrapped logger is told the pattern

`MetaFormat*.v`. Refuted for precompiled patterns: it is always empty.

Status: **partial**. Theorems: `C72_pattern_partial`, `C72_precompiled_refuted`, `C72_precompiled_empty`. Proved for patterns formatted at run time; refuted for precompiled ones.

### C73 — Every configured sink is the sink that was configured

`FactoriesModel.v` models each factory on the configuration tree of C42 and the registry of C43. `FactoriesSpec.v` says by paths in the document which sink is asked for (`sink_config`). `C73_sinks` is by induction on that relation, for texts and names without NUL.

Status: **proved**. Theorems: `C73_sinks`. All sinks, any nesting, any document without NUL in its texts.

### C74 — Every configured formatter is the formatter that was configured

`C74_formatters`: the sections of the document as lists of builder calls (one per member or element, in order), the result is the builder's. What the builder's result then does is C20-C30 and C34-C39. Refuted for the documented option `route`: the code reads `routing`.

Status: **partial**. Theorems: `C74_formatters`, `C74_route_refuted`. Proved for the options the code reads; the documented option `route` is refuted (the code reads `routing`).

### C75 — A whole document gives the whole logger

`C75_logger` composes C73, C74 and the builder. Refuted in its last clause: without `sinks` a handler with none is made.

Status: **partial**. Theorems: `C75_logger`, `C75_no_sinks_refuted`. The whole logger is proved; refuted for handlers without sinks, which are made silently.

### C76 — A missing required option is an error, never undefined behaviour

Proved by the `C76_*` theorems for all but four options. Refuted for `factor`, `overflow` and `pattern`: `.get()` of an empty boost::optional (undefined, or an assertion that ends the process), and for the priorities of syslog, which README calls required.

Status: **partial**. Theorems: `C76_required`, `C76_sink_type`, `C76_formatter_type`, `C76_threshold`, `C76_factor_refuted`, `C76_overflow_refuted`, `C76_pattern_refuted`, `C76_priorities_refuted`. Proved for most options; refuted for factor, overflow and pattern (undefined behaviour) and for the priorities of syslog.

### C77 — A wrong option is an error rather than silently something else

`FactoriesSpec.v` lists the options with the kinds of their values; `C77_sinks` and `C77_formatters` prove the error for any other value and whatever else is in the document. Refuted for eight options that are passed over or cut (flush, rotate, filter, filter of other sinks, port, priorities, routing, TSKV mutate).

Status: **partial**. Theorems: `C77_sinks`, `C77_formatters`, `C77_unknown`, `C77_flush_refuted`, `C77_rotate_refuted`, `C77_filter_refuted`, `C77_other_filter_refuted`, `C77_port_refuted`, `C77_priority_refuted`, `C77_routing_refuted`, `C77_mutate_refuted`. Proved for the options listed in FactoriesSpec; refuted for eight options that are passed over or cut.

### C78 — The development handler prints the whole record

`DevModel.v` models the list of tokens over the formatting library, the date generator and the colours of the other areas; what is written is distinguished from exceptions and undefined behaviour. `DevSpec.v` gives the contents of a record and the text. Proved for times from 1970 to 2262, given that gmtime_r keeps the calendar. Refuted for times before 1970 and when the program has changed the flags of std::cout.

Status: **partial**. Theorems: `C78_text`, `C78_flags_refuted`, `C78_negative_refuted`. Proved for times since 1970 on a stream in its initial state; refuted before 1970 and for changed stream flags.

### C79 — Colours do not change the text nor outlive the record

`DevSpec.display` is a terminal that understands select graphic rendition; the theorem gives the style of every character. Refuted: the severity letter is faint (SGR 2 is still in force) rather than in the plain colour; messages with ESC reach the terminal.

Status: **partial**. Theorems: `C79_terminal`, `C79_characters`, `C79_bright_refuted`, `C79_escape_refuted`. Style of every character proved for texts without ESC; refuted: letters are not in the plain colour, control sequences in messages pass.

### C80 — What the development handler prints can be read back

Proved for messages and values without line breaks and names of at most sixteen bytes that do not end in a space. Refuted otherwise: a message with a line break forges a record, and longer names are cut.

Status: **partial**. Theorems: `C80_read_back`, `C80_forged_refuted`, `C80_cut_refuted`. Proved for texts without line breaks and names up to sixteen bytes; refuted for others.

### C81 — The development handler ends its lines

How the call ends is characterised exactly by the first function value that does not return normally. Refuted: an exception leaves a line without its end, and a function value that logs to the same handler locks a std::mutex twice.

Status: **partial**. Theorems: `C81_normal`, `C81_throws`, `C81_unfinished_refuted`, `C81_reentrant_refuted`. The ending is characterised; refuted for function values that throw or log.

### C82 — The date generator of Apple systems prints the pattern in order

`AppleModel.v` models the parser, its handler with the buffer of characters, the tokens and the stores of `fill`. `AppleSpec.v` gives the text of each directive from the calendar (week numbers by counting weekdays). Proved when no `%%` and no unknown directive follows a character; in general what is printed is the pattern with those moved to the front, which is exactly the refutation: `100%%` prints `%100`.

Status: **partial**. Theorems: `C82_pattern`, `C82_moved`, `C82_percent_refuted`, `C82_unknown_refuted`. Proved for patterns without `%%` or unknown directives behind a character; the order is refuted for those.

### C83 — Both date generators print the same text

Both models are compared over one C library. Proved for characters, `%%` and the directives Y m d H M S s f b B a A z Z p under the conditions of C40 and C82. Refuted for `%c` in the C locale and for years before 1000.

Status: **partial**. Theorems: `C83_same`, `C83_standard_refuted`, `C83_year_refuted`. Proved for fifteen directives; refuted for %c and for years before 1000.

### C84 — The default time pattern on Apple systems

`C84_stamp` proves the text of C64 for all times from 1970 to 2262. Refuted before 1970 (the last digit of the microseconds may be a `/`) and, for the generator alone, for years of five digits (a store in front of the buffer).

Status: **partial**. Theorems: `C84_stamp`, `C84_before_refuted`, `C84_year_refuted`. Proved for times from 1970 on; refuted before.

### C85 — A writer's buffer holds what was put into it

`MembufModel.v` models the pointer, the two arrays with their real lengths and cells that may be unassigned, and accesses outside as a separate outcome. `MembufSpec.effects` describes the operations on lists. An invariant gives the contents; `C85_memory` bounds the memory (one and a half of the largest size).

Status: **proved**. Theorems: `C85_contents`, `C85_defined`, `C85_memory`, `C85_thrown`, `C85_c_str`. All sequences of operations whose sources are outside of the buffer.

### C86 — A writer's own text can be written into it

Proved while the buffer is inline or has the room. Refuted for a heap buffer that grows: the old array is freed before its part is copied.

Status: **partial**. Theorems: `C86_own_part`, `C86_own_part_refuted`. Proved for inline buffers and buffers with room; refuted for heap buffers that grow.

### C87 — Moving a writer

Proved for the target and for inline sources. Refuted for the source of a heap buffer: it keeps size and capacity of the heap array with the inline array of 500 bytes.

Status: **partial**. Theorems: `C87_construct`, `C87_assign`, `C87_left_refuted`. Proved for the target; refuted for the source of a heap buffer.

### C88 — A writer over an array of the caller

The same lemma as for C85 with the growing that throws; both directions are proved (`C88_fits`, `C88_contents`).

Status: **proved**. Theorems: `C88_fits`, `C88_contents`. All sizes below 2^63 and all sequences.

### C89 — Single integers are printed in decimal

Composed from the lemmas on `decimal_back` and `count_digits` of the formatting area; the notation is `StrSpec.decimal`.

Status: **proved**. Theorems: `C89_unsigned`, `C89_signed`, `C89_decimal`. All 32- and 64-bit values.

### C90 — The description of a system error is complete

`SysErrModel.v` runs on the buffer of C85 and an arbitrary strerror_r. `SysErrSpec.v` states what its GNU and XSI versions promise. Termination holds for any answers because the buffer doubles and the allocator has a limit.

Status: **proved**. Theorems: `C90_description`, `C90_reported`, `C90_any_answer`. All texts and answers of strerror_r; codes above -10^9 where the code is printed.

### C91 — The text with the error code alone needs no memory

Proved for codes above -10^9; refuted below, because the sign is not counted.

Status: **partial**. Theorems: `C91_inline`, `C91_inline_refuted`. Proved for codes above -10^9; refuted for the others.

### C92 — A log call reaches every handler and its sinks

`SystemModel.v` composes the models of the factories, the root logger, the three formatters and the sinks, with one thread logging. `SystemSpec.v` describes the events of a call inductively (`called`, `handled`, `given`) and their projection to a sink (`arrived`).

Status: **proved**. Theorems: `C92_routes`, `C92_complete`, `C92_defined`. All configurations without asynchronous sinks; one thread logs.

### C93 — What leaves the process is what the sinks were given

The run is turned into a sequence of steps on the world (`estep`), and each output is a sum over the events; files and connections are projected to runs of their sink's own model (C16, C18). Refuted when two sinks share a path.

Status: **partial**. Theorems: `C93_file`, `C93_untouched`, `C93_stdout`, `C93_datagrams`, `C93_syslog`, `C93_tcp`, `C93_shared_path_refuted`. Proved for paths and TCP addresses with one sink; refuted for a path shared by two sinks.

### C94 — From the configuration document to the lines of the file

Composition of C75 (the logger of the document), C92, C34 (items) and C93.

Status: **proved**. Theorems: `C94_document_to_file`. The file sink is the first of its handler; calm circumstances.

### C95 — Threads that log do not disturb each other

`ThreadsModel.v` cuts the log call of `SystemModel.v` into steps of a thread and runs any schedule; one emit of a sink is one step because the sinks lock. The proof goes backwards over the schedule: what a thread does from a point on ends the call it is in and makes the rest of its calls.

Status: **proved**. Theorems: `C95_routes`, `C95_defined`, `C95_ends`. All configurations without asynchronous sinks; emits of a sink are atomic because of its lock.

### C96 — What several threads log arrives whole

The trace of a run is a sequence of the steps of C93 but for the standard output, so that the lemmas of C93 apply to any schedule; lines are tagged with their threads. Complaints are printed in parts without a lock and are treated as such.

Status: **proved**. Theorems: `C96_file`, `C96_stdout`, `C96_datagrams`, `C96_syslog`, `C96_tcp`. Files and connections with one sink; calm circumstances for files.

### C97 — The order of the lines of several threads

The first part is proved for any cut of any schedule. The other two are refuted: each sink has a lock of its own, and the time is taken before any lock.

Status: **partial**. Theorems: `C97_returned_first`, `C97_one_order_refuted`, `C97_time_order_refuted`. The order of calls one after the other is proved; one order for all sinks and order by time stamps are refuted.

### C98 — printf format strings are printed piece by piece

`Printf*.v`: the parser over bytes, the argument indices, and the writer's buffer with its capacity. Format strings are built from pieces by an independent description; the parser is proved to read every piece back, and the run is the concatenation. Left out: left-justified conversions with a precision when the text is longer than 500 bytes (C102).

Status: **proved**. Theorems: `C98_in_turn`, `C98_more_arguments`. All pieces; left-justified conversions with a precision only in texts of at most 500 bytes (see C102).

### C99 — Integer conversions of printf follow ISO C

The C rules are written down independently (`integer_text`) and determine one text. Proved for `ordinary` conversions; for every condition in `ordinary` a theorem shows a conversion without it that is printed differently.

Status: **partial**. Theorems: `C99_integers`, `C99_one_text`, `C99_zero_minus_refuted`, `C99_zero_precision_refuted`, `C99_nothing_refuted`, `C99_dot_refuted`, `C99_unsigned_sign_refuted`, `C99_mark_refuted`, `C99_widened_refuted`, `C99_char_twice_refuted`. Proved for ordinary conversions; refuted where 0 meets - or a precision, for zero with precision zero, a dot alone, signs of unsigned conversions, # and numbers that become zero, negative int with 64-bit modifiers, and char with L.

### C100 — String and character conversions of printf follow ISO C

Strings are objects of memory with their bounds. Refuted: a dot alone, and arrays without a NUL that are as long as the precision.

Status: **partial**. Theorems: `C100_strings`, `C100_characters`, `C100_dot_refuted`, `C100_unterminated_refuted`. Proved for all but a dot alone and arrays without a NUL, for which it is refuted.

### C101 — Argument positions in printf format strings

The run with positions is proved equal, step by step, to the run of the format string without positions and the arguments in that order. Refuted: a position for a width.

Status: **partial**. Theorems: `C101_positions`, `C101_position_after`, `C101_none_after`, `C101_width_position_refuted`. Proved for conversions; refuted for positions of widths.

### C102 — printf is memory safe for every format string

Every function of the parser is shown to return a shorter or equal rest and never the undefined outcome. Proved for formats without a dot, or without minus signs and asterisks; refuted for the others: a pointer into the buffer is used after the buffer has moved.

Status: **partial**. Theorems: `C102_any_format`, `C102_moved_buffer_refuted`. Proved for formats without a dot or without minus sign and asterisk; refuted for left-justified conversions with a precision.

### C103 — printf refuses what it cannot print

Case analysis over the pieces of C98; `fits` is the table of letters and kinds of arguments.

Status: **proved**. Theorems: `C103_missing`, `C103_next_missing`, `C103_kinds`, `C103_width_argument`, `C103_incomplete`. All well-formed conversions.

### C104 — Floating-point numbers are appended as their specifications ask

`Double*.v`: `write_double` over the buffers of C85 with the format string it builds, an interpreter of that format for snprintf, the loop that reserves and retries, and the places it writes to afterwards. The digits of a finite number are a parameter. The proof follows the text from snprintf's array through sign, fill and growth; 200 rounds of the loop are shown to be more than a buffer below 2^63 bytes can take. Refuted: fill characters on the right, centred numbers that make the buffer grow, and the overlapping std::copy.

Status: **partial**. Theorems: `C104_contents_partial`, `C104_defined`, `C104_thrown`, `C104_memory`, `C104_center_partial`, `C104_format`, `C104_left_fill_refuted`, `C104_center_lost_refuted`, `C104_overlap_refuted`. Proved for numbers that are not centred and padded on the right with spaces only, and for centred ones that have a sign or the room; refuted for other fills on the right, centred numbers that make the buffer grow, and overlapping std::copy.

### C105 — NaN and infinity are placed as the specification asks

Proved for left, right and centred alignment; for the others the field is shown to be that of strings, and the property is refuted.

Status: **partial**. Theorems: `C105_special_partial`, `C105_default_refuted`. Proved for left, right and centred alignment; refuted for default and numeric alignment.

### C106 — Numbers that snprintf cannot print are refused

The capacity grows by a third at least in every round, so the loop ends; it ends only because the allocator refuses. That such a number is refused without taking memory is refuted.

Status: **partial**. Theorems: `C106_fails`, `C106_memory_refuted`. The exception and the contents are proved; that memory is not used up is refuted.

### C107 — Numbers in arrays of fixed size

The exact condition is proved: one place more than the text for finite numbers. The property as stated is refuted by a number that fits exactly.

Status: **partial**. Theorems: `C107_contents`, `C107_fits`, `C107_exact_refuted`. The exact condition is proved; refuted for numbers that fit exactly.

### C108 — The text of a number depends on specification and bits only

This discharges the parameter `dbl` of FmtModel and PrintfModel, which both take the text of a double as a function of specification and bits.

Status: **proved**. Theorems: `C108_one_text`, `C108_function`. All specifications that are not centred.

### C109 — Asynchronous sinks do not change what a log call does

`QueuedModel.v` puts the queues and workers of `AsyncModel.v` between the threads of `ThreadsModel.v` and the sinks of `SystemModel.v`. The proof keeps for each thread what it has done of the call it is in. Definedness: an invariant that texts anywhere in the queues are short and that the last worker is never stuck inside of a further queue.

Status: **proved**. Theorems: `C109_starts`, `C109_queues`, `C109_routes`, `C109_never_throws`, `C109_defined`. All configurations, any nesting of asynchronous sinks.

### C110 — Every text through queues is accounted for

A relation `flow` between what went into the queues of one sink, what is in flight and what came out is kept by every step (queue by queue, for any number of them); the order of a thread follows because it waits for its emit. The end: an invariant that a stopped worker leaves only with an empty queue, in the order in which the destructors run.

Status: **proved**. Theorems: `C110_account`, `C110_all_reach`. All configurations; after destruction for queues that wait and flags set in time (C111_lost_refuted shows the other moment).

### C111 — What arrives through queues

What happens at the ends of the queues is a sequence of the steps of C93, so that its lemmas apply; C110 says which texts these are. The last sentence is refuted: the worker's failed attempt, then the call, then the flag.

Status: **partial**. Theorems: `C111_file`, `C111_file_order`, `C111_stdout`, `C111_datagrams`, `C111_syslog`, `C111_tcp`, `C111_lost_refuted`. Proved for files and connections with one sink and flags set in time; refuted for a flag set between a failed attempt and its test.

### C112 — Loggers with queues come to their end

A measure of the work that is left; in every state that is not an end some thread, worker or the destructor can make it smaller: a thread that waits has a full queue before it, whose worker can move or waits for the next queue, and so on to the last one. The last sentence is refuted: exceptions of wrapped sinks are thrown out of the worker's thread function.

Status: **partial**. Theorems: `C112_can_end`, `C112_only_then`, `C112_terminated_refuted`. Absence of deadlock is proved; the independence of failing sinks is refuted: an exception behind a queue terminates the process.

### C113 — TSKV log files can be read again

C111's line account joined with C27: a line made by the TSKV formatter contains no newline and is read back to its fields, so cutting the whole file at newlines gives the lines. The reader is in the specification and knows nothing of the model.

Status: **proved**. Theorems: `C113_tskv_log`. All configurations whose names can be carried and whose thread id is left alone (C28 shows the other case), queues that wait, flags set in time.

### C114 — JSON log files can be read again

C111's line account joined with C29 and the round trip of the JSON writer: the writer escapes newlines, so a document is one line. With the option newline the property is refuted: the formatter ends the text with a newline and the file sink adds another, so that every other line of the file is empty.

Status: **partial**. Theorems: `C114_json_log`, `C114_newline_refuted`. Proved without the option newline, for records whose fields fit the routes; refuted with the option: every other line is empty.

### C115 — From the document to the file through queues and threads

Composition of C94's ingredients with C111 and C112. The bounds on the queues come from the factory: factors below 2 and above 20 throw.

Status: **proved**. Theorems: `C115_document_to_file`, `C115_can_end`. All documents; for the first sink of a handler, queues that wait, flags set in time.

### C116 — Returned calls come first, through queues too

A call returns after its push, and a queue of any depth is FIFO: what was given before the moment reaches the sink before what was given after it; the lines of the file are the texts in the order they reached the sink.

Status: **proved**. Theorems: `C116_returned_first`. All configurations; queues that wait, flags set in time.

### C117 — Builders and configuration documents can make the same loggers

`BuildersModel.v` models the builders call by call, including what a `build` leaves behind. From a program a document is constructed: its sections hold the calls by kind, which is enough because calls of different kinds commute (C118). From a document the calls of the factories' builders are collected along the factories. Refuted both ways: the error stream, colours and the development handler have no document; the policy to drop, sockets, null, syslog and the console's filter have no builder.

Status: **partial**. Theorems: `C117_by_document`, `C117_by_builders`, `C117_stderr_refuted`, `C117_colours_refuted`, `C117_dev_refuted`, `C117_drop_refuted`, `C117_socket_refuted`. Proved for what both ways can express; refuted for the rest.

### C118 — Builder settings: the last one counts, and kinds are independent

A fold over the calls, projected on one setting, is a fold over the calls of its kind. The last value given is specified by splitting the list of calls. The chains are a small automaton; an invariant says what has been written when it is in a state.

Status: **proved**. Theorems: `C118_console`, `C118_file`, `C118_string`, `C118_tskv`, `C118_json`, `C118_handler`, `C118_logger`, `C118_chain`, `C118_chain_only`. All sequences of calls.

### C119 — What the builders made can be used

Null pointers and empty functions are explicit in the model. Refuted without a formatter, and for builders that are used a second time; the theorem C119_rebuilt says exactly what a second `build` makes.

Status: **partial**. Theorems: `C119_works`, `C119_no_formatter`, `C119_no_formatter_refuted`, `C119_rebuilt`, `C119_rebuilt_refuted`. Proved with a formatter and for the first build; refuted otherwise.

### C120 — Units of bytes in the file sink's builder

Settings by C118, the flusher by C14's lemma, the text by the round trip of decimal numbers. Refuted where the number of bytes does not fit 64 bits: builder and document wrap alike.

Status: **partial**. Theorems: `C120_units`, `C120_same_as_text`, `C120_wrap_refuted`. Proved where the number of bytes fits 64 bits; refuted otherwise.

### C121 — Argument lists of any length

`NamedModel.v` models the 64-bit word of types bit by bit, arrays with unwritten cells and unions read as a type; an access outside, an unwritten cell, a wrong type and a shift by 64 are `Undefined`. Bits by `N.testbit`, the table of names by induction with the invariant that it holds the first argument of each name met so far. The order of names (compare of the common prefix, then length) is shown to make only equal names equivalent.

Status: **proved**. Theorems: `C121_by_number`, `C121_tags`, `C121_by_name`. All lists, numbers and names.

### C122 — Placeholders choose arguments by number, by name or in order

The parser is modelled once for any way to select arguments; its meaning is proved for selections that satisfy a contract, which `parse_arg` satisfies by C121.

Status: **proved**. Theorems: `C122_explicit`, `C122_in_order`, `C122_names_are_positions`. All well-formed format strings.

### C123 — Numbered and automatic choices do not mix, and names do not disturb

A simulation between the two parsers over all strings, with the states of the selection related; refusal from the state that the meaning of the prefix leaves.

Status: **proved**. Theorems: `C123_unnamed`, `C123_names_do_not_matter`, `C123_order_after_explicit`, `C123_explicit_after_order`, `C123_width_after_explicit`, `C123_explicit_width_in_order`. All byte strings for the comparison; all rests for the refusals.

### C124 — The identity of syslog messages is never dangling

`IdentModel.v` models the strings of libstdc++ (short ones inside of the object), moves, local objects, and the variables of glibc's syslog. Invariant: the pointer of syslog is null, the application's, or into the local object of a factory that has opened and not yet closed. Refuted: between the move and the end of the local object another thread's message has no identity.

Status: **partial**. Theorems: `C124_safe`, `C124_whose`, `C124_whose_refuted`. Safety proved; the identity is proved outside of one window of the factory on another thread and refuted inside of it.

### C125 — Blackhole and the application share one syslog connection

The expected messages are a function of the history alone; by induction along the commands, each of which is executed with all its steps.

Status: **partial**. Theorems: `C125_latest`, `C125_application_refuted`, `C125_sink_refuted`. Whose identity a message has is proved; that blackhole and the application do not disturb each other is refuted.

### C126 — Memory behind a text never shows in a log

Two runs of the parser on arguments of which the same is to be seen are related step by step. `SayModel.v` puts the facade and a configured logger together, with the message as a view into memory; a view that is not empty is rendered as its bytes, by the lemmas of the string formatter.

Status: **partial**. Theorems: `C126_write`, `C126_behind`, `C126_empty_refuted`. Proved for texts that are not empty; refuted for empty ones.

### C127 — What a program says is in the file

C94's theorem for calls whose texts are those of the facade: each call of the facade equals a call of the logger with the text that `says` describes, or with an exception.

Status: **proved**. Theorems: `C127_document_to_file`. All documents, programs and failures of other sinks.

### C128 — A call with too few arguments writes nothing

The exception leaves the function that makes the text, which runs before any handler.

Status: **proved**. Theorems: `C128_missing`, `C128_all_or_nothing`. All calls.

### C129 — A wrapper shows the attributes it was made with

`WrapperModel.v` has the memory: strings inside objects or on the heap, vectors with elements inside or on the heap, views as pointers with lengths, implicit copy and move constructors. Invariants: ownership (disjoint, complete), and for each wrapper the lender, whose elements its views point to.

Status: **partial**. Theorems: `C129_kept`, `C129_orderly`, `C129_copy_refuted`, `C129_stranger_refuted`. Refuted for copies that outlive their original; proved without copies and moves, and for programs in which the owner of each text shown stays.

### C130 — Moving a wrapper keeps its attributes

From the invariants of C129; the failure for all small attribute lists by computing what the stale views find.

Status: **partial**. Theorems: `C130_vector`, `C130_portable`, `C130_moved`, `C130_move_refuted`. Refuted with small_vector (for all wrappers with few attributes and a short name); proved with std::vector and for attributes that stay in place.

### C131 — Wrappers own their attributes

Invariant: the blocks of different wrappers are disjoint, those of one wrapper are distinct, and every allocated block belongs to a wrapper.

Status: **proved**. Theorems: `C131_stored`, `C131_no_leak`. All programs.

### C132 — Chains of << write what format strings write

Item by item: both go through write_int and write_str with specifications that lay out the same field; then C59 for the whole format string. The values that << and {} treat differently are those of C48.

Status: **proved**. Theorems: `C132_chain`, `C132_padded`, `C132_coded`, `C132_column`. All chains of items whose values << and {} do not treat differently (C48).

### C133 — Numbers padded with zeros read as the numbers

From the layout of C132: zeros in front do not change the number read.

Status: **partial**. Theorems: `C133_zeros`, `C133_negative_refuted`. Proved for numbers that are not negative; refuted for negative ones.

### C134 — Printing to files, also in colour

Computation of what reaches the file, with a file that may become full at any byte.

Status: **partial**. Theorems: `C134_print`, `C134_print_error`, `C134_colored`, `C134_error_refuted`. Proved for correct format strings; refuted for the colour after a format error.

### C135 — fprintf counts what it has printed

Computation; the witness of the refutation is a string argument of 2^31 bytes printed with %s (C100).

Status: **partial**. Theorems: `C135_count`, `C135_long_refuted`. Proved for texts below 2^31 bytes; refuted for longer ones.

### C136 — The error text names the unknown type letter

The text is made by the formatter (C59) with the field of C50.

Status: **partial**. Theorems: `C136_printable`, `C136_control`, `C136_high`, `C136_high_refuted`. Proved below 128; refuted above.

### C137 — Attribute values behave like variables

Simulation of the heap (AssignModel, with the std::string of libstdc++ and boost::variant) by a store of values. The invariant: each string inside a value is short or has a block of its own that is large enough.

Status: **proved**. Theorems: `C137_variables`, `C137_itself`. All programs.

### C138 — Attribute values own their memory

From the invariant of C137.

Status: **proved**. Theorems: `C138_owned`, `C138_freed`. All programs.

### C139 — Errors in patterns point at the place

On C32_error_position, with a reader of the report that is independent of the writer.

Status: **partial**. Theorems: `C139_accepted`, `C139_report`, `C139_reason`, `C139_below`, `C139_lines_refuted`, `C139_options_refuted`, `C139_inner_refuted`. Proved for what the parser itself finds, in patterns of one line; refuted for several lines and for the options of {...}.

### C140 — A lock that cannot be made says why

Case distinction.

Status: **partial**. Theorems: `C140_made`, `C140_reason_refuted`. Refuted: the code of the exception is not the error that occurred.

### C141 — Filters, messages and handlers run without locks

Induction over the depth of nesting and the commands (ReenterModel), with the locks held at each point. The refutations are programs that reach Deadlock or Terminated.

Status: **partial**. Theorems: `C141_deadlock`, `C141_unlocked`, `C141_copy_refuted`, `C141_old_refuted`, `C141_handlers_refuted`, `C141_throwing_refuted`. Proved for filters, messages and handlers; refuted for copying and destroying filters and destroying handlers.

### C142 — A log call's handlers live until it ends

The counts of pointers are those of loggers and calls in progress; an object with a pointer is alive and keeps its handlers (ReenterProofs). The order is by the trace at the level of the call.

Status: **proved**. Theorems: `C142_alive`, `C142_owners`, `C142_call`, `C142_thrown`. One thread, all nesting.

### C143 — A record that cannot be copied loses only itself

Invariant over the steps (JamProofs): the accepted records are those delivered, the one with the worker and those in cells. The refutations are for all continuations by invariants of their own.

Status: **partial**. Theorems: `C143_order`, `C143_jam`, `C143_lost_refuted`, `C143_wait_refuted`. Order proved; refuted: records behind one whose copy threw are lost as well, and emit may never return.

### C144 — The asynchronous sink can be destroyed

A measure of the work left (JamProofs); the refutation is for all continuations. Which of both dequeue does depends on the version of libcds, which is not part of the repository.

Status: **partial**. Theorems: `C144_ends`, `C144_drains`, `C144_spins_refuted`. Proved without throwing copies or if dequeue does not spin; refuted otherwise.

### C145 — A sink behind a queue may log to that queue

A measure from the ranks bounds the worker's steps (EchoProofs); the refutations are for all continuations by invariants.

Status: **partial**. Theorems: `C145_order`, `C145_ends`, `C145_wait_refuted`, `C145_again_refuted`. Order, and the end under conditions, proved; refuted without them.

### C146 — Threads that log do not wait for each other for ever

Every thread's remaining steps follow a grammar in which no lock is taken within another (CrossProofs); the refutation is a schedule.

Status: **partial**. Theorems: `C146_progress`, `C146_short`, `C146_turn`, `C146_exclusive`, `C146_cross_refuted`. Proved if copying and replacing filters does not use loggers; refuted otherwise.

## Findings

172 theorems refute a property as stated. Each has a witness in the model of the existing code; the sentence is the comment beside the theorem.

* `C05_assign_over_open_scope_refuted` — Assigning to a logger with an open scope loses that scope, and closing it is undefined.
* `C05_moved_from_logger_dangles_refuted` — The moved-from logger keeps a pointer to the scopes: once they are closed, logging through it reads a destroyed guard.
* `C05_other_threads_scopes_stay_refuted` — Scopes opened by another thread stay with the source: they are missing on the destination and destroying the source before closing them is undefined.
* `C06_assignment_lost_refuted` — Two calls on logger 0, one [filter] and one assignment; both return, yet the assignment is lost: the logger still has its old handlers.
* `C07_lwp_refuted` — As stated includes the thread ids. The light-weight process id of a buffered record is that of whoever asks: copied by thread [c], it shows [d] when thread [d] reads it.
* `C09_lost_record_refuted` — (the full statement: with the wait policy, every record whose emit returned before the destructor started is delivered before the destructor returns) is false: the worker finds the queue empty, the record is accepted and its emit returns, the destructor sets the flag, the worker reads it and exits.
* `C100_dot_refuted` — Finding: a dot alone is no precision: [%.s] prints the whole string and not nothing.
* `C100_unterminated_refuted` — Finding: the length of a C string is looked for without regard to the precision: an array of exactly the three characters that [%.3s] may print, without a NUL, is read beyond its end.
* `C101_width_position_refuted` — Finding: a width cannot have a position: [%1$*2$d], which POSIX requires with positions, is refused.
* `C102_moved_buffer_refuted` — Finding: with left-justification and a precision the digits are written through a pointer into the buffer that is taken before the buffer grows for the padding; the room asked for before leaves out what is already in it. Behind 490 characters [%-20.5d] writes to freed memory.
* `C104_center_lost_refuted` — Does not hold for a centred number without a sign that needs a bigger buffer: [{:^600}] of 1.5. The text is in the old array behind its size, which [grow] does not copy, so the new one has bytes that were never assigned where the number should be.
* `C104_left_fill_refuted` — Does not hold for a fill character on the right: [{:*<8}] of 1.5 gives spaces. snprintf pads with spaces, and only those in front of the number are replaced (format.hpp:2511-2513).
* `C104_overlap_refuted` — Does not hold if [std::copy] is undefined for a target within the source, as the standard says: [{:^8}] of 1.5 moves three characters by two places.
* `C105_default_refuted` — Does not hold without an alignment: [{:6}] of infinity is on the left, although numbers are on the right by default, and with the numeric one zeros are appended: [{:06}] gives [inf000].
* `C106_memory_refuted` — Does not hold in the sense that such a number is refused by itself: [{:.2147483647f}] takes as much memory as it can get.
* `C107_exact_refuted` — Does not hold for a number that fits exactly: the NUL of snprintf has no place, so [1.5] is refused by an array of three.
* `C111_lost_refuted` — False without the condition on the flag, end to end: a call of the logger returns without any failure, a file is behind a queue that waits, and the logger is destroyed after that, but the line is never written: the worker finds nothing in the queue; the call puts the text into it; the destructor sets the flag; the worker sees it and leaves.
* `C112_terminated_refuted` — False of what the sinks' independence would need: a server that cannot be reached, which costs a logger without queues no more than a complaint (C92), terminates the process if its sink is asynchronous, and the lines for a file that nothing is wrong with are lost.
* `C114_newline_refuted` — False with the option "newline": each text ends with a newline of its own, and the file sink adds another, so every other line is empty and is no document.
* `C117_colours_refuted` — Is false without that restriction: no document asks for colours.
* `C117_dev_refuted` — Is false without that restriction: the development handler is not registered (src/essentials.cpp).
* `C117_drop_refuted` — Is false the other way: a document can ask the asynchronous sink to drop records when its queue is full, and no program with builders makes such a sink, for [build] leaves out the policy that [drop()] has set (src/sink/asynchronous.cpp:54-56).
* `C117_socket_refuted` — Is false the other way: there are no builders of sockets (nor of the null and syslog sinks, nor of the console's filter).
* `C117_stderr_refuted` — Is false without the restriction to what documents can ask for: the builder of consoles chooses the error stream, the factory of consoles always writes to the standard output.
* `C119_no_formatter_refuted` — Is false without a formatter: [build] accepts a handler without one, and the first record follows a null pointer (src/handler/blocking.cpp:29).
* `C119_rebuilt_refuted` — Is false of builders used a second time, which the types allow: [build] moves the parts out. A console throws std::bad_function_call for each record on a terminal, files and asynchronous sinks and handlers follow null pointers, the string formatter forgets its severity mapping, the TSKV formatter forgets everything, also the timestamp that a new builder has, and the JSON formatter everything but the flags.
* `C12_builder_drop_refuted` — Fails for the builder: asking for the drop policy, either way, yields the wait policy.
* `C12_missing_option_refuted` — An absent [factor] or [overflow] in the configuration is not reported: an empty optional is dereferenced.
* `C12_small_factor_refuted` — Fails for the documented factors 0 and 1: they are rejected.
* `C120_wrap_refuted` — Is false of numbers of bytes that do not fit 64 bits, in the builder as in the configuration: the conversion multiplies modulo 2^64 (include/blackhole/sink/file.hpp:70), so that 2^54+1 KiB, 16 EiB and more, flush after 1 KiB.
* `C124_whose_refuted` — (The full statement: every message of a sink carries the name of the program) is false: while another thread makes a sink, the identity is that of a string from which the name was moved.
* `C125_application_refuted` — (The full statement: a logger leaves alone what the application has arranged with syslog) is false: after a logger with a syslog sink was made, or destroyed, the messages of the application have neither its identity nor its facility.
* `C125_sink_refuted` — Nor do the messages of a sink keep the identity of the program when the application opens the connection for itself.
* `C126_empty_refuted` — False of an empty text: the string formatter hands it to the formatting library as a pointer and the size 0, which that takes for a C string. The line then has what the storage of the writer held before - parts of earlier messages - up to the first NUL, and without a NUL the read goes on behind the storage.
* `C129_copy_refuted` — Refuted for copies that outlive their original. [wrapper_t] has the copy constructor the compiler makes (include/blackhole/wrapper.hpp:10-13 declares none): it copies the attributes and also the views, which still show the texts of the original. After the original has been destroyed (a std::vector of wrappers that grows does this to all of them), logging through the copy reads dead memory.
* `C129_stranger_refuted` — Refuted: when another wrapper is then made at the address of the original (the next request on the same stack), records logged through the copy carry the attributes of that stranger.
* `C130_move_refuted` — Refuted: [wrapper_t] has the move constructor the compiler makes, which moves the attributes into the new wrapper but keeps the views of the places where they were ([recordbuf_t] makes new views, src/recordbuf.hpp:87-90). A wrapper returned from a function without elision is broken this way.
* `C133_negative_refuted` — Finding: the zeros of a negative number come before its sign, unlike those of the zero flag in a format string.
* `C134_error_refuted` — Finding: an error of the format string leaves the terminal in the colour: the sequence was written, the one that ends it is not.
* `C135_long_refuted` — Finding: for 2^31 bytes, all of them written, the number returned is negative, which means failure.
* `C136_high_refuted` — Finding: a byte above 127 is not named by its two digits: [char] is signed and is extended to 32 bits.
* `C139_inner_refuted` — False of errors in the pattern among these options: the exception is no error of the parser, has no position, and its text is an abbreviation.
* `C139_lines_refuted` — False of patterns of several lines: the position counts from the start of the pattern, so the caret is not below the character that is wrong.
* `C139_options_refuted` — False of errors in the options of the placeholder of the remaining attributes: the report has the options instead of the pattern, and its caret is behind their end, wherever the wrong character is. Here that is the third one of the options; the position 8 says nothing about it.
* `C14_bytes_unflushed_overflow_refuted` — Without the no-overflow hypothesis the bound fails: the 64-bit sum wraps.
* `C140_reason_refuted` — False: the exception does not say why. The function returns the error, but the code of the exception is taken from [errno], which that function does not set: an old error, or none, for which the text is "Success".
* `C141_copy_refuted` — The filter's copy constructor runs within the lock of the logger's object: one that logs to the same logger never returns.
* `C141_handlers_refuted` — The old handlers are destroyed within the lock of the logger when another logger is assigned to it: a destructor that logs to the same logger never returns.
* `C141_old_refuted` — The old filter is destroyed within the lock of the logger's object when a new one is set: a destructor that logs to the same logger never returns.
* `C141_throwing_refuted` — Destructors that throw end the program: a log call that throws, made by the destructor of a handler, as well.
* `C143_lost_refuted` — Finding: a record whose copy into the queue throws (std::bad_alloc) leaves its cell reserved for ever; the queue does not get past it. Records that are emitted later - and whose emit returns - are never delivered, whatever happens from then on. The root logger catches the exception (src/root.cpp:191-199), so the application goes on with a sink that is dead.
* `C143_wait_refuted` — Finding: with the policy that waits for room, once the copy of a record threw and the queue has filled up behind it, emit never returns: the threads of the application hang in their log calls one by one.
* `C144_spins_refuted` — Finding: if the queue's dequeue tries again at a reserved cell (libcds 2), the destructor of a sink in which the copy of a record threw never returns: the worker does not leave dequeue, and the destructor waits for it.
* `C145_again_refuted` — Finding: a wrapped sink that logs a record about each record keeps the queue from ever being empty; the worker ends only if it finds it so, and the destructor never returns, with either policy.
* `C145_wait_refuted` — Finding: with the policy that waits for room, a wrapped sink that logs to its own asynchronous sink while the queue is full waits for itself: only the worker takes records out, and it is within emit. One record about one record is enough, if other threads fill the queue meanwhile. From then on nothing at all happens: no record is delivered or accepted, no emit of another thread returns, the destructor does not return.
* `C146_cross_refuted` — Finding: two threads that set filters of different loggers wait for each other for ever, if the filter that is replaced logs to the other logger when it is destroyed: each thread has the lock of one object, within which the old filter is destroyed (src/root.cpp:143-145), and waits for the other one. Each thread alone comes to its end, so that nothing shows as long as the two do not meet.
* `C15_parse_wraps_refuted` — As stated (accepted strings denote their product) is false: large products wrap silently.
* `C16_other_device_refuted` — Nor does the sink notice a file of the same inode number on another device (a new mount).
* `C16_rotation_race_refuted` — (the full statement: a record is never written to a file that was renamed away before the record was emitted) is false if the path changes between the open and the stat of a new backend: the sink remembers the inode number of the other file and keeps writing to the old one, for ever.
* `C19_port_truncated_refuted` — (the full statement: the configured port is used or rejected) is false beyond 65535.
* `C22_config_truncated_refuted` — (the full statement: the priority is the configured one) is false for values outside that range.
* `C24_failing_sink_refuted` — (the full statement: a failing sink does not keep the others from receiving the record) is false.
* `C26_field_ambiguous_refuted` — False: two different fields are written alike.
* `C26_key_ending_in_backslash_refuted` — False for every key that ends in a backslash: it is never read back.
* `C26_key_line_safe_refuted` — False then that an encoded key contains no tab or newline.
* `C27_constant_injection_refuted` — False for constants: a constant's value is not escaped, so it can end the field and add another.
* `C28_tid_always_refuted` — False for the thread id: it is always there under its own name, whatever is configured.
* `C29_array_padding_refuted` — False: a number in a route makes an array, with nulls up to that position.
* `C29_field_replaced_refuted` — False in general: a route through a field's place replaces the field. Here the message is lost.
* `C29_route_to_field_refuted` — False: a route that ends at a field is undefined behaviour.
* `C30_builtin_name_refuted` — False: an attribute called like a built-in field gives a duplicate key in spite of [Unique] ...
* `C30_renamed_refuted` — And so do two attributes renamed to the same key.
* `C32_assertion_refuted` — False without NDEBUG: a pattern that ends after the colon of a reserved placeholder fails an assertion.
* `C32_goes_on_refuted` — False of the exceptions thrown for the specification of `{...}`: the parser goes on with the rest.
* `C32_undefined_refuted` — False: a name with a byte of 128 or more is passed to [isalpha] as a negative number.
* `C33_unclosed_accepted_refuted` — False: these patterns with an unclosed placeholder are accepted.
* `C34_default_alone_refuted` — Refuted for a default without a specification: the pattern is accepted, and prints for no record.
* `C34_default_kind_refuted` — Refuted for defaults that look like numbers: the default is converted to a number first, so a string type makes the record fail exactly when the attribute is missing; with the attribute it prints.
* `C36_beyond_refuted` — Refuted: the view's pointer is printed as a C string. A NUL byte ends it; a view of a part of a text is printed to the end of that text; without a NUL behind it memory is read that does not belong to it; a null view is refused.
* `C36_cut_refuted` — Refuted: the view's pointer is printed as a C string. A NUL byte ends it; a view of a part of a text is printed to the end of that text; without a NUL behind it memory is read that does not belong to it; a null view is refused.
* `C36_null_refuted` — Refuted: the view's pointer is printed as a C string. A NUL byte ends it; a view of a part of a text is printed to the end of that text; without a NUL behind it memory is read that does not belong to it; a null view is refused.
* `C36_overrun_refuted` — Refuted: the view's pointer is printed as a C string. A NUL byte ends it; a view of a part of a text is printed to the end of that text; without a NUL behind it memory is read that does not belong to it; a null view is refused.
* `C37_gmtime_year_overflow_refuted` — Not for the whole range of [time_t]: past the limit [tm_year] overflows silently.
* `C38_gmtime_negative_refuted` — Before the epoch the result is wrong for every argument: already the seconds are 16 off.
* `C39_localtime_offset_refuted` — The wall clock is right only while no daylight saving correction is in force.
* `C40_epoch_refuted` — In a zone [o] seconds east of Greenwich the `%s` of a UTC time stamp is [o] seconds too small.
* `C40_escaped_refuted` — Refuted for an escaped percent sign in front of `f` or `s`: `%%f` should print "%f".
* `C40_long_refuted` — Refuted for long texts: 1024 bytes or more between two of `%f` and `%s` are dropped altogether.
* `C41_negative_refuted` — Refuted before the epoch: the microseconds become a number of 20 digits.
* `C42_nul_key_refuted` — Refuted: a member with a NUL in its name is not found.
* `C42_nul_other_refuted` — Refuted: and instead of a member that does not exist, one whose name is cut is found.
* `C42_nul_value_refuted` — Refuted: a text with a NUL in the configuration is read up to the NUL, without an error.
* `C42_root_place_refuted` — Refuted: the root and its member with the empty name are the same place in errors.
* `C42_same_place_refuted` — Refuted: errors of different places can be the same, as names are not escaped in the place.
* `C43_all_components_refuted` — Refuted: not all of them ("all available components in the library", registry.hpp:89-90).
* `C44_not_configured_refuted` — Refuted: asking for a logger that is not configured is no error: the logger has no handlers and loses everything.
* `C46_nan_refuted` — Refuted for NaN, which is not equal to itself; and equal views may show different values, 0 and -0.
* `C46_zero_refuted` — Refuted for NaN, which is not equal to itself; and equal views may show different values, 0 and -0.
* `C48_nul_refuted` — Is false of patterns with a NUL: the run-time formatter stops there.
* `C48_null_refuted` — Is false of null pointers: the run-time formatter refuses them.
* `C48_promoted_refuted` — Is false of booleans, explicitly signed or unsigned characters and empty references.
* `C49_negative_refuted` — Refuted for negative severities in the string formatter: they are printed as huge unsigned numbers.
* `C49_unnamed_text_refuted` — Refuted for a specification of the type [s], with which a severity without a name loses the record.
* `C51_pack_unchanged_refuted` — False: with a wrapper or a scope the caller's pack is longer afterwards.
* `C52_exception_hidden_refuted` — (documented: exceptions while writing to the wrapped sink are hidden from the application) is false: such an exception leaves the worker's thread function and terminates the process; records already accepted are never delivered.
* `C53_recovers_after_failure_refuted` — (the full statement: after a failed write, emits succeed again once the device accepts data) is false: one failed write, and every later emit throws although nothing fails any more.
* `C54_text_refuted` — (the full statement: syslog receives exactly the formatted bytes) is false.
* `C55_two_mutexes_refuted` — (the full statement: messages written to the standard streams by the library's components do not intermix) is false for the console sink together with the development handler, which has its own mutex.
* `C57_brace_in_time_refuted` — False: a time specification with a closing brace is cut there, the rest becoming the specification.
* `C58_readme_example_refuted` — False: the README's example of a tab separator is rejected.
* `C58_separator_braces_refuted` — And a doubled brace of the separator stays doubled.
* `C58_separator_first_refuted` — False: the separator before the pattern, which the grammar allows, is always rejected ...
* `C58_unbalanced_brace_refuted` — A literal brace without its counterpart makes the placeholder take in what follows it ...
* `C59_empty_specification_refuted` — Is false of an empty specification: the text behind [{:}] is read as the alignment.
* `C60_empty_view_refuted` — Is false of empty views: bytes behind the view are printed, or the call fails, or memory is read beyond its object.
* `C61_wrapped_refuted` — Is false of wider numbers: the check for wrapping misses some.
* `C63_empty_message_refuted` — Refuted for an empty message whose view points into a text: that text is printed.
* `C63_reverse_refuted` — Refuted rows: `{severity}` is not the number when there are names; `{thread::x}` is accepted, then every record is refused; a thread without a name is not called "unnamed"; attributes of `{...}` come in order, not in reverse.
* `C63_severity_refuted` — Refuted rows: `{severity}` is not the number when there are names; `{thread::x}` is accepted, then every record is refused; a thread without a name is not called "unnamed"; attributes of `{...}` come in order, not in reverse.
* `C63_thread_hex_refuted` — Refuted rows: `{severity}` is not the number when there are names; `{thread::x}` is accepted, then every record is refused; a thread without a name is not called "unnamed"; attributes of `{...}` come in order, not in reverse.
* `C63_unnamed_refuted` — Refuted rows: `{severity}` is not the number when there are names; `{thread::x}` is accepted, then every record is refused; a thread without a name is not called "unnamed"; attributes of `{...}` come in order, not in reverse.
* `C65_zone_refuted` — Refuted for `%Z` and `%z`: a UTC time stamp reads fields of the [tm] nobody has assigned, one of them a pointer.
* `C66_negative_refuted` — Refuted before the epoch, where the library's [gmtime] is wrong (C38).
* `C67_high_refuted` — Refuted for other bytes: they are before all ASCII characters, in std::string behind them.
* `C68_buffer_refuted` — Refuted for a buffer: all of it but its last byte is shown, not the C string it holds.
* `C69_buffer_refuted` — Refuted for a buffer holding a C string: the whole buffer but its last byte is stored.
* `C69_pointer_refuted` — Refuted for a pointer to characters: the attribute is the boolean true.
* `C70_braces_refuted` — Is false of patterns with a brace in the text.
* `C71_view_refuted` — Is false of views into something longer: the bytes behind the view are formatted as well, or memory is read beyond its object; and of patterns with a NUL: the rest is lost.
* `C72_precompiled_refuted` — Is false of precompiled patterns.
* `C74_route_refuted` — False of the documented option "route" (README.md:272): it is not read.
* `C75_no_sinks_refuted` — False of a handler without sinks: it is made all the same, and writes nowhere.
* `C76_factor_refuted` — False of an asynchronous sink without factor or overflow and of a string formatter without pattern: the value of an empty boost::optional is taken.
* `C76_overflow_refuted` — False of an asynchronous sink without factor or overflow and of a string formatter without pattern: the value of an empty boost::optional is taken.
* `C76_pattern_refuted` — False of an asynchronous sink without factor or overflow and of a string formatter without pattern: the value of an empty boost::optional is taken.
* `C76_priorities_refuted` — False of the priorities of syslog, required by README.md:407: none are taken.
* `C77_filter_refuted` — Of a filter without a type, and of a filter of a sink other than the console: all records pass ...
* `C77_flush_refuted` — False of a flush policy that is neither an unsigned integer nor a text: the default is taken ...
* `C77_mutate_refuted` — And of a mutation of the TSKV formatter without its pattern: nothing is done.
* `C77_other_filter_refuted` — Of a filter without a type, and of a filter of a sink other than the console: all records pass ...
* `C77_port_refuted` — Of numbers out of range: ports and priorities are cut ...
* `C77_priority_refuted` — Of numbers out of range: ports and priorities are cut ...
* `C77_rotate_refuted` — Of a rotation that is not an object with a type: there is none ...
* `C77_routing_refuted` — Of a route that is a text other than the star: it takes the rest all the same ...
* `C78_flags_refuted` — Refuted for a stream whose flags the program has changed: the numbers are printed in its base.
* `C78_negative_refuted` — Refuted for times before 1970: the microseconds become a number of twenty digits.
* `C79_bright_refuted` — Refuted: the letter of an error is not shown in plain red; it stays faint as the time in front of it.
* `C79_escape_refuted` — Refuted for messages with control sequences: they are passed on to the terminal.
* `C80_cut_refuted` — Refuted for long names: those that agree in sixteen bytes cannot be told apart.
* `C80_forged_refuted` — Refuted for messages with a line break: one record prints what two others print.
* `C81_reentrant_refuted` — Refuted: a function value that logs to the same handler locks the mutex its thread holds.
* `C81_unfinished_refuted` — Refuted: after an exception the line is not ended, and the next record continues it.
* `C82_percent_refuted` — Refuted for a `%%` behind a character: it is printed in front of the characters before it.
* `C82_unknown_refuted` — Refuted for an unknown directive behind a character.
* `C83_standard_refuted` — Refuted for `%c`: the C locale pads the day with a space, this generator with a zero.
* `C83_year_refuted` — Refuted for a year before 1000: the C library of Linux does not pad it.
* `C84_before_refuted` — Refuted before 1970: the microseconds are negative there, and their digits are other characters.
* `C84_year_refuted` — Refuted for a year of five digits: a digit is stored in front of the buffer.
* `C86_own_part_refuted` — Refuted: a part of the buffer can always be appended to it. A heap array is given back before its part is copied.
* `C87_left_refuted` — Refuted: the buffer that was moved from can be used again. It keeps the capacity of the heap array, and its size, with the inline array of 500 bytes: its contents cannot be read, and after [clear] 501 bytes are stored in the 500.
* `C91_inline_refuted` — Refuted: it fits for all codes. The digits of a negative code are counted without its sign: with a code of -1000000000 or less and a message of 482 bytes the text has 501, so that the buffer grows in a [noexcept] function and the assertion behind fails.
* `C93_shared_path_refuted` — False of two sinks with one path, even when nothing fails: each has a buffer of its own, and a line one of them has written in part is cut in two by a line of the other.
* `C97_one_order_refuted` — False of the sinks together: two files that get the texts of the same records, without any failure, have them in different orders.
* `C97_time_order_refuted` — False of the time stamps: though the clock never goes back, a line with a later time is in front of one with an earlier time.
* `C99_char_twice_refuted` — Finding: with the modifier [L] a [char] argument is not converted, and a numeric conversion prints it twice, as a number and as a character: [%Ld] prints 97a for the letter a.
* `C99_dot_refuted` — Finding: a dot alone is not precision zero: with it [0] still pads with zeros, [%05.d] prints 00042 for 42 and not spaces and 42.
* `C99_mark_refuted` — Finding: whether the number is zero is asked before its conversion: [%#hhx] prints 0x0 for 256, which becomes zero, and not 0.
* `C99_nothing_refuted` — Finding: zero with precision zero prints 0 and not nothing.
* `C99_unsigned_sign_refuted` — Finding: sign flags are not ignored by the unsigned conversions: [%+x] prints +ff for 255.
* `C99_widened_refuted` — Finding: a negative [int] given to a 64-bit conversion goes through the unsigned 32-bit type: [%ld] prints 4294967295 for -1. (In C the call would be undefined; here the type of the argument is known and [%d] prints -1.)
* `C99_zero_minus_refuted` — Finding: [0] is not ignored beside [-]: [%-05d] prints 00042 for 42 and not 42 with three spaces behind it.
* `C99_zero_precision_refuted` — Finding: [0] is not ignored beside a precision: [%06.3d] prints 00-042 for -42, with the sign inside the zeros, and not -042 with two spaces before it.

Seen while reading, without a theorem:

* `attribute::view_t::operator!=` is declared (include/blackhole/attribute.hpp:299) and defined nowhere: a program that uses it does not link.

## Assumptions

`Print Assumptions` was run on all 538 theorems of the manifest: 538 are closed under the global context.
No theorem uses an axiom.

