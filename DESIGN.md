# Formal model of PlutoUtils

A Rocq (Coq 8.16.1) model of the header-only C++ library in `/repo/include/pluto`, with
machine-checked theorems about it.  `properties.jsonl` lists the properties (C01, C02, ...),
`MANIFEST.json` maps each one to the theorems that prove (or refute) it, and `seeded/LOG.jsonl`
records the wrong programs the theorems were tested against.

## Layout

For each area `X` of the library, in `rocq/theories`:

* `XModel.v`    - the model, function by function; every definition cites the lines it models.
* `XSpec.v`     - a small independent specification (no use of the model's helpers).
* `XProofs.v`   - invariants and lemmas (large areas are split over several files, see below).
* `XExamples.v` - executions used as witnesses and as non-trivial cases (where they are long).
* `XProps.v`    - only the property theorems (closed by `exact lemma`), `Print Assumptions` under
  each one, and beside each a concrete example meeting its hypotheses.

`*Tests.v` are not proofs: they evaluate the assertions of the repository's own tests on the model, as a
check of the reading of the code.  `StringTests.v` has those of string_tests.cpp (944 assertions),
`ContainerTests.v` those on containers, iterators, ranges and comparisons, `LruTests.v` the scripts of
lru_cache_tests.cpp, `FloatTests.v` those on floating-point numbers, `ScopeTests.v` and `StopwatchTests.v`
those of the scope guards and of the stopwatch (for all times that sleeping may take).  The tests of threads, of the
log files on disk and of the character tables are not translated.

`Base.v` holds the outcome type: `Ret a`, `Ub` (undefined behaviour), `Throw` (C++ exception),
`OutOfFuel` (the model's loop bound was hit; every theorem about a loop excludes it).

Names of theorems: `..._refuted` means that the property, as a user would expect it, is false for the
code; the theorem gives a concrete witness.  `..._partial` is a true part of such a property (or of
one that is proved only in part); what is missing is said in `MANIFEST.json` and above the theorem.

## Trusted base

* Coq's kernel (8.16.1) and the parts of its standard library that are imported.  No other library
  is used, no OCaml plugins beyond those of the standard distribution, no kernel check is switched off.
* Axioms: none.  `Print Assumptions` is run under every theorem of every `*Props.v` file, and prints
  "Closed under the global context" for each of them.  (`coqchk -o` lists the axioms of every library
  that is loaded, used or not; those are the opaque module fields `Coq.ssr.ssrunder.Under_rel.*` of
  the standard library, which come with `lia`; no theorem depends on them.)
* The reading of the C++ code and of the C++ standard library that is written down in the
  `*Model.v` files.  The code was not run; the tie to it is the citations, and the assertions of the
  repository's tests, which the model meets (`*Tests.v`).

What is assumed of the standard library and of the environment, area by area:

| Area | Assumed |
|---|---|
| lru_cache | `std::list` nodes keep their identity until erased; `std::map` finds by equivalence; copies of a list have new nodes; copy assignment invalidates all iterators (the standard's reading); destructors, swaps and moves do not throw |
| safe_lru_cache | `std::shared_mutex` excludes readers from writers; sequential consistency between critical sections |
| unicode | `int` arithmetic (it stays below 2^21); the static_asserts on sizeof |
| string, container, iterator | the algorithms of the standard library as the standard defines them; a facet is an arbitrary pair of functions on characters; right shift of negative integers is arithmetic (C++20) |
| str_to | num_get of the classic locale as the standard defines it (C++11 and later: failed reads store 0 unless the sentry fails) |
| stopwatch | a call reads its clock at one instant; durations are unbounded integers |
| thread pool | one critical section of the mutex is one step (all shared data but `m_scheduler` are accessed under the mutex); condition variables wake spuriously at any time and never lose a notification made while the thread waits; fairness only where a theorem names it |
| data races | a writer or task does not touch members except through public functions; clients have ended before the destructor starts |
| logger | atomics are sequentially consistent; a buffer is a `std::list` (libstdc++'s for C106) |
| log files | POSIX paths as strings; one path per file; `rename`, `remove`, `exists`, opening and creating directories may fail at any point; writes to open files succeed except in C92, C107-C109 and C182 |
| log text | `std::put_time`, `setw`, `setfill`, `left`, `right` as the standard defines them with the classic locale; `localtime_r` and the thread id's text are inputs; `vsnprintf` is an arbitrary function |

## What is modelled, and how each property is proved

| Property | Modelled as | Proof | Files |
|---|---|---|---|
| C01-C05, C08 lru_cache | list with node identities, map key -> (value, node id); every use of an iterator checks that the node is in this object's list, otherwise `Ub`; several cache objects with move and copy | representation invariant and refinement to a list of pairs; history specifications (C03, C04) stated on the list of calls only | LruModel, LruApi, LruSpec, LruProofs, LruHistory, LruMain, LruProps |
| C06 copies | the same, with defaulted copy construction and assignment | refuted; the programs for which copies work are characterised exactly | LruCopy |
| C07 exceptions | the same, with a throw point at every allocation and copy | refuted for two throw points; proved for the others | LruFaults |
| C09-C10 safe_lru_cache | threads, reader/writer lock, non-atomic accesses (start and end of access) as interleaved steps | invariant over reachable states; linearization order built from the trace; measure for termination | SafeLru* |
| C11-C19 unicode | the six conversion loops on lists of numbers with bounds-checked reads | comparison with Unicode Table 3-7 written as byte ranges; induction | Unicode* |
| C20-C28, C33, C70, C72, C98 string | loops over positions on `std::basic_string` primitives; aliased arguments for C70 | specification by occurrences and runs; induction | String*, Digits* |
| C29-C32, C34-C37, C71 iterator, container, compare | the std algorithms as their standard definition, pluto's own loops literally; bounded integers with overflow as `Ub` | induction, case analysis, lia | Seq* |
| C38-C41, C69, C73 value, range, file_name | boolean functions over an ordered type; pointer loop over a NUL-terminated array | case analysis, induction | Small* |
| C42-C44 stopwatch | state machine over clock readings | induction over call histories | Stopwatch* |
| C45-C47 scope guards | stack of tasks, exceptions, the uncaught-exception counter, nested programs | induction over programs | Scope* |
| C48-C58, C74-C79, C99 thread_pool | one step per critical section; condition variables with sets of waiting threads, pending notifications, spurious wakeups; scheduler thread objects | invariants over all reachable states, a decreasing measure for termination | PoolModel, PoolSpec, PoolProofs, PoolLive, PoolStop, PoolWait (tasks that wait or throw), PoolDue (scheduled tasks), PoolExamples, PoolProps |
| C129, C130 thread_pool when threads or memory run out | the same transition system, with failing calls as further steps; the loop that adds workers with a failure possible at every operation | the invariants of C48-C58 and C75, kept by the failing steps | PoolFault* |
| C131-C134 use of the thread_pool | the same transition system; the time of run_after as 64-bit arithmetic | invariants over all reachable states and all continuations | PoolUse* |
| C59-C63, C80-C84, C97, C100 logger | producers, logging thread and destructor as interleaved steps with explicit mutex | invariants; an infinite execution for C83 | LoggerModel, LoggerSpec, LoggerProofs, LoggerAccount (counting), LoggerLive (wakeups), LoggerTimes (time stamps), LoggerExamples, LoggerProps |
| C64-C65, C85-C93 log files | disk as a map from paths to contents; every operation may fail; executions of the logger drive it | induction over rotations, batches and executions | LogFileModel, LogFilePaths (numbered paths), LogFileProofs, LogFileFailing (writes that fail), LogFileSystem (logger and disk together), LogFileProps |
| C66-C68, C94-C96 log text | functions on character lists; streamer as an object with a string stream; `vsnprintf` an arbitrary function | computation, induction | LogText* |
| C101-C104 str, str_to | extraction from a string stream, character by character | digits as positional notation; induction | Conv* |
| C151-C154 grouped digits | `num_put` and `num_get` with any `numpunct`; the log line with any way of writing integers | groups specified from the right by sizes; induction over the digits; lengths | Group* |
| C155-C157 text of floating-point numbers | `str` and `str_to` of IEEE 754 numbers of any format: %g with six digits, strtod, the characters `operator>>` collects | rational numbers (QArith); nearest integer on the grids 10^e and 2^k; six digits are recovered because half a unit in the last place is less than half a unit of the sixth digit | FloatText* |
| C105, C128 locales | locale objects as handles with lifetimes, made by name; a comparison object refers to a facet; missing locales and facets | simulation of an ideal program that knows only names of locales, by induction over programs that build and destroy locales | Locale* |
| C106 reading a buffer without the mutex | the linked list at the level of single memory accesses | invariant over all interleavings; no two accesses conflict | Buffer* |
| C107-C111 writers that throw, directories | `write_buffer_to_file` with writers that throw after writing a part of their text | induction over batches | Writer* |
| C112-C116 logging macros | the macros' expansion with operands that have effects or throw, and any sequence of answers of `should_log` | case analysis, induction over the operands of `<<` | Macro* |
| C117-C121 data races, deadlocks | every member access and mutex operation of both classes as a step, values left out (conditions go either way) | a static discipline (each location is guarded by a mutex, owned by a thread, or written only before a flag is set), shown sound for all interleavings, then checked for each function | Lock* |
| C122-C127 reverse, sort, filter, map, round, pow | the loops of std::reverse and std::remove_if; std::sort as its contract (a relation, `Ub` without a strict weak order); trees as ordered lists; doubles that are integers as integers | induction; uniqueness of the sorted list | Algo* |
| C158-C160 callbacks that throw | the same loops with a callback that has a state and may throw; std::remove_if of libstdc++, which decides with a copy of the predicate up to the first dropped element; moved-from elements hold any value | induction over the elements; relations that list the calls made | Callback* |
| C161 failing add() | programs of nested guards, acquisitions, additions and other work, each of which may throw; task r releases resource r | induction over programs; tasks match like brackets | ScopeFail* |
| C162, C163 configuration | macros as functions of `__cplusplus`, `_MSVC_LANG`, `_WIN32`, the available headers and definitions of the user; the list of included headers | case analysis over standards, tables of headers checked by computation | Version* |
| C164 captured values | the callables owned by the states of PoolModel: entries of both queues and the local variable of each worker | invariant: workers after a task hold finished tasks, each once | PoolHold* |
| C165-C166 time stamps | the C library's conversion to dates as a function on days and seconds; a zone is any function from times to offsets, up to a day | day numbers of valid dates are ordered and injective; decimal texts of equal length sort as numbers | Stamp* |
| C167-C168 use of the logger | the transition system of C59; the ends of the lives of strings are put between its steps | the trace invariants of C59 and C60 (one acceptance per call, written is a prefix of accepted); a run to the end of the destructor by the measure of C63 | LoggerUse* |
| C169-C170 default settings | the values of the macros; the logger and disk of C59 and C64 with them | each call is on the way to the buffer or accepted; C86 for the files, C64 for the rotation | LogDefaults* |
| C171 safe_lru_cache with exceptions | the lock and threads of C09, the calls with the throw points of C07 | the invariant of C09, with the effect of calls that throw; one of the lock alone, for all calls | SafeLruThrow* |
| C172 default pool, C173 run_sync's promise | the pool of C48 with `hardware_concurrency()` workers; the caller and the worker of one call | size bound of C131 with no workers; what has happened is determined by the two program points | PoolCall* |
| C174, C175 renamed and removed log files, C176 several processes | inodes, paths and streams of any number of processes; renaming and removing by others; no rotation | numbered bytes: files and buffers together are a permutation of what was written; streams opened since the last removal hold linked inodes; buffers are made of whole blocks | Outside* |
| C177 starvation | the pool of C48 | C49 at every start while the task waits; an execution for every number of later tasks by induction | PoolFair* |
| C178 separate reads of the sizes | the logger of C59 with `add_log_to_buffer` in two steps, the mutex held in between | simulation: changes of the maximum size made in between are postponed | LoggerSplit* |
| C179 rotation by several processes | each file system operation of rotate_file a step, on the inodes of C174 | simulation by OutsideModel for contents and order; invariant: while one process rotates, the target of its next renaming is free | Shared* |
| C180 several names of a file | the logger and the disk of C64 with names mapped to log files | the invariant of C64 for each log file instead of each name | LogAlias* |
| C181 reading back | write_line and default_log_writer of LogTextModel, one after the other | a line is peeled off cell by cell: cells of fixed width by length, numbers up to the bar, the message up to the line break | LogRead* |
| C182 full disk | write_buffer_to_file byte by byte; at any time the operating system may take only the first bytes of the buffer and report an error, and the buffer is offered again when the stream is closed; processes may be killed | a predicate on programs that holds whatever the operating system does; the stream has got a first part of the lines and holds the rest or is bad; every file is a sequence of what streams left | FullDisk* |
| C183 examples | the writers of lines and headers in examples/log_split_levels, log_with_setters and log_with_macros, on the streams of LogTextModel | text of a line by evaluation, lengths of the cells; the digits after the point read as a fraction | Sample* |
| C184 element operations that throw | list of elements, any type of element operations (construct, assign) that may throw and leave any value; string with an oracle for allocation | the pairs from the outside in as a relation; loop invariant: kept, left behind, not yet seen; leftmost cuts | Element* |
| C185 clocks that are set | the calls at their instants, seen through any function from instants to readings | linearity of the elapsed time in the readings; quotients of quotients | StopwatchClock* |
| C186 the pool's tests | programs of one thread over the transition system of PoolModel: calls, reads of getters, sleeps | invariants of the program's position on top of the pool's; explicit executions for any number of workers and tasks | PoolTest* |
| C187 the logger's tests | programs of one thread over the transition system of LoggerModel with the file as text; the helpers that read it | invariant: the file is header and lines of what was accepted since the last removal; explicit executions for any list of entries | LogTest* |
| C188 the stopwatch's tests | straight-line programs whose statements are at any instants that do not decrease; the clock reads instants divided by its period | inversion of the program; facts about division | WatchTest* |
| C189 bytes of log files | the logger with its disk (LogFileModel) and the default writers (LogTextModel) put together | invariant of the shape of every file; C86 for the entries, C187's text of a written file | LogEnd* |
| C190 floating-point text in locales | libstdc++'s `_M_insert_float` and `_M_extract_float` with any `numpunct`, on top of C155-C157 | the shape of printf's texts; the loop that collects characters, by digits, groups, fraction and exponent; equality with the parser of C156 in the classic locale for every text | FloatLocale* |
| C191 order and size of converted strings | the converters of C01-C10 and `to_type`; `char_traits` of char compares as unsigned char | the encoders are monotone for the lexicographic order; trichotomy for the converse; sizes by the derivation of `decodes` | Encoded* |
| C192 string functions on encoded text | the functions of StringModel and SeqModel on units and on code points | no sequence of units of a text starts inside a character (self-synchronization), so occurrences in the units are those in the code points | Encoded* |
| C193 change of case in encoded text | `upper`, `lower`, the i-functions with any case function of a locale | a unit that is a whole character occurs in the units of no other character; the i-functions are the plain ones on upper case | Encoded* |
| C194 cache whose key comparison throws | the calls of lru_cache with a throw in find, in the erase of evict_lru or in emplace | a cache above its capacity behaves as one whose capacity is its size; only insert looks at the capacity | LruCompare* |
| C195 values whatever throws | the calls of lru_cache with throwing allocations, copies or comparisons | every map entry points to a node with an equivalent key; no step changes the value of an entry except by storing | LruDefined, LruLatest* |
| C196 safe cache whose key comparison throws | as C171, with the calls of C194 | the linearization of C171 with the invariant of C194; the invariant of C195 for undefined calls | SafeLruCompare* |
| C197 outgrowing the capacity after throws | as C195 | the invariant of C195, with the list at most `t` nodes longer than the map and than the capacity after `t` throws in emplace; every entry has its own node; for throwing comparisons the same with the highest capacity so far | LruBound*, LruCompareBound* |
| C198 a safe cache outgrowing its capacity after throws | as C171 | the invariant of C197 for the cache and for what each running call has read, with throws so far plus calls in progress that may throw at most the calls made | SafeLruBound* |
| C135-C141 floating-point numbers | the IEEE 754 operations of Coq.Floats.SpecFloat (no primitive floats, no axioms), any precision and exponent range; the loops of the containers | numbers as integers in units of the least positive number; rounding proved to be to the nearest, ties to even; induction over containers | Float* |
| C142-C148 killed processes | `write_buffer_to_file`, `rotate_file` as programs of single file operations; a stream with a buffer that is passed on byte by byte at any time; kills between any two operations; several processes after each other | Hoare triples with an invariant for all the time; refinement of the model without a buffer (C147) | Crash* |
| C149-C150 static instances | construction on first use, registration, destruction in reverse order, of the pool, the logger and further static objects; threads of the pool and of the logger that run given code | invariant over all executions; rank of constructors (no deadlock); measure (the program ends) | Instance* |

## Where the code disagrees with the property

Each of these is a `..._refuted` theorem with a witness.

* C06: a copied `lru_cache` keeps iterators into the source's list; using a key present at the copying is undefined.
* C07: an exception in `map::emplace` leaves a key in the list that is not in the map; then the capacity can be exceeded.
* C31: `starts_with`/`ends_with` call the predicate with swapped arguments in C++20 for random access iterators.
* C38, C73: `abs` of the least value and `range::size` of a wide range overflow.
* C40: two reversed ranges can each be wholly before the other.
* C41: `is_less_no_overlap` is not a strict weak order when ranges overlap.
* C44: reading the parts of a running stopwatch one by one does not give parts of one instant.
* C46: guards constructed while an exception unwinds the stack treat a nested success as a failure or the reverse.
* C47: a task added while the guard runs its tasks is dropped or keeps the destructor running for ever.
* C53, C57: with a target of 0 workers, waiting and destroying wait for ever; `complete_tasks` drops tasks while the pool shrinks.
* C56, C78: `run_at` assigns the scheduler thread outside the mutex: two calls at once terminate the process, are
  undefined, or leave a thread that outlives the pool.
* C62: lowering the flush size between the logging thread's check and its wait loses the wakeup.
* C63: the destructor sets its flag without the mutex: the wakeup can be lost and the destructor never returns.
* C66: `writef` of a format that yields an empty text logs the format itself.
* C68, C94: negative times and messages with line breaks break the layout of a log line.
* C70: `replace(s, f, s)` replaces one occurrence.
* C71: `slice` of a container of `std::any` holds iterators.
* C72: `is_lower("1")` is true.
* C76: a task that throws ends the process.
* C77: `run_sync` in a task can block the pool.
* C79: `complete_tasks` drops the tasks scheduled for later.
* C81: the time stamp of an entry is taken before the mutex, so a file's times can be out of order.
* C83: with a file that cannot be written the logging thread never sleeps.
* C84: with a maximum size below the flush size a full buffer is not written.
* C88: a log file named `x_1.log` is taken by the rotation of `x.log`.
* C89: rotated files behind a gap in the numbering are never removed.
* C92: entries whose write failed on an open stream are lost, and with rotation off all after them; the position of a bad stream (-1) counts as large.
* C95: a streamer whose `end()` was rejected by the level logs when its destructor runs after the level is lowered.
* C97: entries of level off are accepted at level off.
* C102-C104: `str_to` wraps negative numbers in unsigned types, returns an uninitialised value for blank text, and reads only one word.
* C105: `is_iless` and the like, built from a temporary locale, keep a dangling reference.
* C107-C109: writers that throw lose an entry, end the process, or leave half a header.
* C111: a directory removed while the program runs is not made again.
* C114-C116: the stream macro logs half a message when an operand throws, and ends the process when the first add throws;
  the logger operand is evaluated twice.
* C117: two first calls of `run_at` race on `m_scheduler`, and one call races with the scheduler thread it starts.  A scheduler thread that outlives the destructor's body (C78) races with the destruction of every member it uses.
* C119, C120: copy constructors and destructors of values captured by tasks and writers run under a mutex of the pool
  or of the logger; if they use it the thread locks its own mutex again.
* C123: `sort` with `is_less_equal` and the like, or with `is_less_no_overlap` on overlapping ranges, is undefined.
* C125, C126: `map` into a map does not replace values; `map` of a container into itself never ends or is undefined.
* C127: `round` and `pow` of integers beyond 2^53 are inexact; `pow(-1, m)` is 1 for odd `m` beyond 2^53.
* C128: without the locale `en_US.UTF-8` every case-insensitive call without a locale throws; `lower(u16string)` and the like throw `bad_cast`.
* C129: `run_at` throws when the scheduler thread cannot be started, but its task stays scheduled; `target_workers_size` keeps an unreachable target; the pool's constructor calls `std::terminate` when the second or a later thread cannot be created.
* C130: after such a failure of `run_at`, the due task stays scheduled until another call of `run_at`.
* C131: with two workers a task of a lower priority can be completed first, against docs/thread_pool.md.
* C132: `wait_until_all_tasks_complete` called in a task never returns.
* C133: a task that calls `run_sync` while the pool is being destroyed blocks the destructor for ever; a call of `run_sync` whose task is dropped by the destructor never returns.
* C134: `run_after(duration::max())` overflows.
* C135: `min` and `max` return NaN if the first element, or the left of two arguments, is NaN.
* C136: NaN is never found; a container with a NaN does not equal itself.
* C137: `abs(-0.0)` is -0.0.
* C138: `sort` of numbers with a NaN is undefined.
* C139: `sum` rounds at each addition, depends on the order and may overflow although the sum is a number.
* C140: `sum` of floating-point numbers into an integer drops the fraction at each addition.
* C142: an entry written to the stream is lost when the process is killed before the stream is flushed.
* C143: a restarted process continues the line that the killed one left incomplete.
* C144: a file with a part of a header never gets a whole header. What every number of crashes
  keeps is that a file begins with a part of the header and has only (parts of) lines after it.
* C149: a task of the pool, and the destructor of a static object, can use the logger after it was destroyed if it was built later than they were; also if a log writer builds such an object.
* C150: static objects whose constructors use each other block two threads for ever.
* C151: under a global locale that groups digits `str(1000)` is `1,000`.
* C153: under such a locale `str_to` reads `1,5` as 15: separators are skipped anywhere and failbit is not looked at.
* C154: under such a locale the microseconds of most log lines are written like `123,456`, which moves the columns.
* C156: `str_to<double>` reads `inf` and `nan` as 0, and `1e400` as the largest number.
* C157: `str(1234567.0)` is `1.23457e+06`, which `str_to<double>` reads as 1234570.
* C159: when the predicate of `filter` throws, dropped elements are overwritten and others are there twice or moved-from.
* C160: with libstdc++ a predicate that carries its state starts again after the first dropped element.
* C161: a resource stays held if adding the task that releases it throws.
* C162: the macros are 1 for drafts of a standard too.  C163: under C++ 98 `standard.hpp` includes five headers of C++ 11.
* C164: `run_sync` can return before its task's callable is destroyed and while the task still counts as active.
* C166: stamps are local time without offset: the hour repeated at the end of summer time sorts wrongly and is ambiguous; stamps before 1970 have a negative fraction.
* C167: `is_logging()` is false once the destructor has begun, while the thread may still write.
* C168: entries keep pointers to the file and function names; strings that end with the call are read later.
* C170: the default rotation limit is 0, documented as 1: with only a rotation size set, a rotation deletes the log.
* C171: an exception in `move_to_front` or `emplace` in one thread breaks the cache for the others (as C07).
* C172: where `hardware_concurrency()` is 0 a pool made without arguments has no workers: nothing runs and `run_sync`
  never returns.
* C173: `run_sync` may destroy its promise while the worker is still inside `set_value`.
* C175: entries written to a file that another program removed while its stream was open are lost.
* C176: the lines of two processes that log to the same file can be mixed, and both may write a header.
* C177: tasks of higher priority that keep coming hold back a task for ever, there is no ageing of priorities.
* C179: two processes that find the shared log file full at the same time both rotate it; the second renames the new file of the
  first onto the old file, which is lost although the limit allows it (logger.hpp 777-807 take no lock on the files).
* C180: entries logged to one file under two names are not written in the order of the calls, as each name has its own buffer.
* C181: a message with a line break reads like several entries (as in C94); other files can be read back.
* C182: after a write that failed part-way the file ends in a piece of a line, bytes may be in it twice, and the next line follows without a line break; the entries have left the buffer all the same.
* C183: the writers of log_with_setters and log_with_macros put the milliseconds after the point without leading zeros: 9 ms is .9, and the line sorts after that of 10 ms (.10).
* C184: reverse that throws in the third step of a swap has one element twice and has lost the other one; replace that throws leaves the
  string with some occurrences replaced, and replacing once more may replace in what was put in (also if the replacement does not contain
  the text searched for: "abbab", "ab" -> "a").
* C185: with a clock that is set back while the stopwatch runs its time decreases and becomes negative; parts read while a larger unit ends are
  wrong by that unit.
* C186: most tests of the thread pool are races between the thread of the test and the workers, and fail in some executions
  (`test_run_async_refuted`, `test_run_sync_refuted`, `test_on_stop_join_all_refuted`, `test_run_sync_has_high_priority_refuted`,
  `test_wait_until_no_tasks_waiting_refuted`, `test_sanity_refuted`, `test_run_after_refuted`); the tests of run_at and run_after may
  terminate the process (`test_run_after_terminates_refuted`, the race of C117).
* C187: the tests of the logger sleep 50 ms and then read the file; nothing makes the logging thread write within any time,
  so all of them fail in some executions (for any time to sleep). test_writef_writes_all_logs also uses the format
  "%z of %z": a length modifier without a conversion specifier is undefined in C, so what vsnprintf does is not modelled there.
* C188: test_sanity of the stopwatch fails if a sleep of one second takes two, the tests of restart() if the calls after it are as slow as
  the sleep before it, and five tests if the clock's period is longer than a millisecond (the 15.6 ms of some system clocks).
* C190: under a German global locale `str_to<double>("3.14")` is 314 and `str(3.14)` is `3,14`; a separator in front or two in a row make it 0, and nothing reports either.
* C191: converting to UTF-16 does not keep the order of texts: U+FF61 is before U+10000 in UTF-8 and after it in UTF-16.
* C192: `split` with an empty separator cuts characters into their units, and `split_any_of`/`replace_any_of` with a set that has a character of several units take each of its units for a separator: in UTF-8 the set `à` cuts `é`.
* C193: in a locale with ISO 8859-1 `lower` and `upper` change bytes inside UTF-8 characters and make malformed strings.
* C194: a `capacity(n)` whose eviction throws leaves more than `n` pairs for good (insert evicts one and adds one); a throw inside `emplace` leaves a list node without a map entry, and the cache outgrows its capacity.
* C195: only a throw of `push_front` in `move_to_front` makes later calls undefined.
* C196: after a `capacity(n)` that threw in one thread the others find more than `n` pairs.
* C197: after a throw in `emplace` a later `evict_lru` erases the orphan node and no pair, so `size()` can exceed `capacity()`, by at most one pair per throw.
* C198: the same seen by another thread.

## What is not modelled

* Headers: the compiler-dependent part of `platform.hpp`; preprocessors without `__has_include`; macros that the user defines to other values than 0 and 1.
* Floating point: `std::pow` (C127 assumes only that it returns the power of two integers where this is a double); `str` and `str_to` of floating-point types with a standard library whose printf and strtod are not exact or whose `operator>>` collects other characters than libstdc++'s; rounding modes other than to nearest; evaluation in a wider type (`FLT_EVAL_METHOD` other than 0); formats that are not IEEE 754; the payload and sign of NaN.
* Exceptions thrown by copying or moving elements in `sort`, and `sort` whose predicate throws: the standard does not say what is left.
* Compile-time matters: overload resolution, `constexpr`, which container types a template accepts.
* Memory orderings weaker than sequential consistency.  Outside the race on `m_scheduler` (C117) the pool and the
  logger have no data race, so this restriction matters only for atomics and for C56, where the model calls the outcome
  terminated or undefined where the standard does.
* Failure to create a thread except in C129 and C130; failure to allocate memory except in C07, C66, C115, C129, C130 and C184.
* Thread pool: overflow of time points outside `run_after`; the inside of `std::promise` (C173 splits `set_value`
  in two, but says nothing about what an implementation does between).
* Thread pool: `wait_until` (369) holds a reference to the time in `begin->first`; with two scheduler threads, which
  exist only in executions that race on `m_scheduler` (C117), the other thread can erase that entry during the wait.  The
  model takes the time by value.
* Logger: outside C178 `add_log_to_buffer` reads the maximum size (738) and the flush size (744) in one step of the model;
  C178 proves that reading them in two makes no difference but that a change of the maximum size may take effect later.
* Logger: calls that run during or after the destructor (they are undefined in C++); `size_t` overflow of file numbers.
* Log files: failures of the operating system and of the power supply (C142-C148 treat killed processes), other programs that change the files (except C174-C176, without rotation, and processes that rotate the same file, C179),
  links that name the same file in two ways outside C180, paths of Windows.
* Log text: `boolalpha`, `uppercase` and the like in messages.  `localtime_r` is an input there; Stamp* models it without leap seconds and without failures, on a clock that counts nanoseconds (libstdc++).  Grouped digits and flags left on the stream by custom writers are only in C154.
* Static objects (C149, C150): threads that belong neither to the pool nor to the logger, `exit` called by another thread, constructors that throw, objects captured by tasks that are dropped; the locale of the case-insensitive functions.
* Macros: overloaded `operator,` or operands containing commas outside parentheses.
