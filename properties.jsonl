{"id": "C01", "title": "lru_cache never exceeds its capacity and size() is exact", "statement": "After any sequence of constructor, insert, insert_or_assign, get, remove, clear and capacity(n) calls, size() <= capacity(), and size() is exactly the number of pairwise distinct keys for which contains() is true; empty() is true exactly when size() is 0.", "quantifier": "every key and value type with a strict-weak-order comparison, every finite sequence of calls with arbitrary arguments, every initial capacity including 0", "why_tests_cant": "The bound must survive every history of calls; tests only run a few short call sequences.", "anchors": ["include/pluto/lru_cache.hpp: lru_cache::size, capacity, empty, contains, insert, capacity(n), evict_lru"]}
{"id": "C02", "title": "lru_cache behaves like the textbook recency list", "statement": "Every call returns the same result as a simple list of (key,value) pairs ordered from most to least recently used: get / insert_or_assign move the key to the front, insert leaves an existing key untouched, a new key on a full cache drops exactly the last pair, capacity(n) keeps the n first pairs, remove drops one pair, clear drops all.", "quantifier": "every sequence of calls, every capacity, every key/value", "why_tests_cant": "Equivalence with the abstract list has to hold for all histories, including long mixes of assign, get, shrink and re-insert.", "anchors": ["include/pluto/lru_cache.hpp: insert, get, remove, clear, capacity, move_to_front, evict_lru"]}
{"id": "C03", "title": "get returns the latest value written for the key", "statement": "If get(k, v) returns true, then v is the value of the most recent call for k that stored a value (an insert that returned true or any insert_or_assign), and no remove(k) that succeeded, clear() or capacity(0) happened after that call; if get returns false the output variable is untouched.", "quantifier": "every sequence of calls, every key and value", "why_tests_cant": "A stale value can only show up after particular interleavings of eviction, re-insertion and assignment.", "anchors": ["include/pluto/lru_cache.hpp: insert, insert_or_assign, get"]}
{"id": "C04", "title": "a recently used key survives while fewer than capacity other keys are used", "statement": "Once a key has been used (stored, assigned or successfully read), it stays retrievable as long as it is not removed, the cache is not cleared or resized, and all other keys used since then come from a set of fewer than capacity() keys; conversely, after insert_or_assign of capacity() different other keys it is gone.", "quantifier": "every capacity >= 1, every reachable cache, every continuation of calls", "why_tests_cant": "It quantifies over all continuations; a test fixes one access pattern.", "anchors": ["include/pluto/lru_cache.hpp: insert, get, move_to_front, evict_lru"]}
{"id": "C05", "title": "lru_cache internals never use an invalid list iterator", "statement": "No sequence of calls on caches that are default/capacity constructed, move constructed or move assigned ever dereferences or erases a list iterator that is not an element of that cache's own list, erases from an empty list, or loops forever in capacity(n).", "quantifier": "every history over any number of cache objects, with moves but without copies", "why_tests_cant": "Undefined behaviour is not observable by a test that happens to pass.", "anchors": ["include/pluto/lru_cache.hpp: m_map iterators, move_to_front, remove, evict_lru, capacity(n)", "implicit move constructor/assignment"]}
{"id": "C06", "title": "copying an lru_cache gives an independent, usable cache", "statement": "After copy-constructing or copy-assigning an lru_cache, all operations on both objects are defined and each behaves as an independent cache. (Expected to be refuted: the implicit copy duplicates list iterators that point into the source object's list.)", "quantifier": "every cache state and every subsequent operation on the copy", "why_tests_cant": "The failure is undefined behaviour, which tests may or may not notice.", "anchors": ["include/pluto/lru_cache.hpp: class lru_cache (implicit copy constructor), move_to_front, remove"]}
{"id": "C07", "title": "lru_cache stays consistent when an allocation or copy throws", "statement": "If copying a key/value or allocating a node throws inside insert, insert_or_assign or get, the cache remains usable: size() <= capacity() still holds afterwards for every continuation and no later call is undefined. (Expected to be refuted for throws at some program points, proved for the others.)", "quantifier": "every throw point in every call of every history", "why_tests_cant": "Unit tests do not inject a failure at each allocation of each call.", "anchors": ["include/pluto/lru_cache.hpp: insert (push_front then emplace), move_to_front (erase then push_front)"]}
{"id": "C08", "title": "capacity 0 caches accept and store nothing", "statement": "While capacity() is 0, insert and insert_or_assign of any key return true, contains is always false, get always fails and size() stays 0; raising the capacity later starts from an empty cache.", "quantifier": "every history of calls during which the capacity is 0", "why_tests_cant": "Needs every history, not one call.", "anchors": ["include/pluto/lru_cache.hpp: insert, capacity(n)"]}
{"id": "C09", "title": "safe_lru_cache is linearizable", "statement": "Every concurrent history of safe_lru_cache calls is equivalent to running the same calls one at a time on a plain lru_cache, in an order that respects real time (a call that returned before another was made comes first), with the same results.", "quantifier": "every number of threads, every program per thread, every schedule", "why_tests_cant": "Schedules cannot be enumerated by tests.", "anchors": ["include/pluto/safe_lru_cache.hpp: all member functions, m_mutex, m_lruCache"]}
{"id": "C10", "title": "safe_lru_cache has no data race and no deadlock", "statement": "No two threads ever access the underlying cache at the same time unless both only read it, and as long as some call has not returned, some thread can make a step.", "quantifier": "every number of threads, every program per thread, every schedule", "why_tests_cant": "A racy schedule may never be hit by a test.", "anchors": ["include/pluto/safe_lru_cache.hpp: shared_lock/unique_lock choice of each member function"]}
{"id": "C11", "title": "UTF-8 decoding follows the Unicode well-formedness table", "statement": "utf8_to_utf32 reads the input from left to right; where a byte sequence that is well-formed according to Table 3-7 of the Unicode standard starts, it outputs the scalar value it encodes and skips it; everywhere else it outputs exactly one U+FFFD and skips exactly one byte.", "quantifier": "every byte string (valid or not) of every length", "why_tests_cant": "There are infinitely many malformed inputs; the tests check each valid code point once.", "anchors": ["include/pluto/unicode.hpp: utf8_to_utf32"]}
{"id": "C12", "title": "UTF-8 <-> UTF-32 round trips", "statement": "utf32_to_utf8 followed by utf8_to_utf32 is the identity on every sequence of Unicode scalar values, and utf8_to_utf32 followed by utf32_to_utf8 is the identity on every well-formed UTF-8 string.", "quantifier": "every sequence of scalar values / every well-formed byte string", "why_tests_cant": "Sequences are unbounded; adjacent characters could interact.", "anchors": ["include/pluto/unicode.hpp: utf8_to_utf32, utf32_to_utf8"]}
{"id": "C13", "title": "UTF-16 <-> UTF-32 and UTF-8 <-> UTF-16 round trips", "statement": "Converting any well-formed string of one encoding to another encoding and back returns the original string, for UTF-16/UTF-32 and UTF-8/UTF-16 in both directions.", "quantifier": "every well-formed string of every length", "why_tests_cant": "Sequences are unbounded.", "anchors": ["include/pluto/unicode.hpp: utf8_to_utf16, utf16_to_utf8, utf16_to_utf32, utf32_to_utf16"]}
{"id": "C14", "title": "direct conversions agree with the two-step conversions, even on malformed input", "statement": "utf8_to_utf16 gives the same result as utf8_to_utf32 followed by utf32_to_utf16, and utf16_to_utf8 the same as utf16_to_utf32 followed by utf32_to_utf8, for every input including malformed ones.", "quantifier": "every byte string / every sequence of 16-bit units", "why_tests_cant": "Malformed inputs are unbounded and the functions are separate copies of the decoder.", "anchors": ["include/pluto/unicode.hpp: utf8_to_utf16, utf16_to_utf8"]}
{"id": "C15", "title": "conversion output is always well-formed", "statement": "Whatever the input, utf8_to_utf16 / utf32_to_utf16 produce well-formed UTF-16, utf16_to_utf8 / utf32_to_utf8 well-formed UTF-8, and utf8_to_utf32 / utf16_to_utf32 only scalar values (no surrogate, nothing above 0x10FFFF).", "quantifier": "every input sequence, malformed or not", "why_tests_cant": "Unbounded set of malformed inputs.", "anchors": ["include/pluto/unicode.hpp: all six converters"]}
{"id": "C16", "title": "conversions resynchronise after malformed input and only append", "statement": "For every garbage prefix p and every well-formed suffix t, converting p followed by t gives the conversion of p followed by the conversion of t; and converting into a non-empty output string keeps its old contents and appends.", "quantifier": "every malformed prefix, every well-formed suffix, every initial output string", "why_tests_cant": "Quantifies over all prefixes and suffixes.", "anchors": ["include/pluto/unicode.hpp: all six converters"]}
{"id": "C17", "title": "converters never read outside the input array", "statement": "No conversion reads pElem[i] with i >= size, whatever the input, so truncated multi-unit sequences at the end of the buffer are safe, and every conversion terminates.", "quantifier": "every input of every size", "why_tests_cant": "An out-of-bounds read is undefined behaviour that tests on NUL-terminated strings do not reveal.", "anchors": ["include/pluto/unicode.hpp: all six converters: the (i + n) < size guards"]}
{"id": "C18", "title": "UTF-16 decoding follows the surrogate rules", "statement": "utf16_to_utf32 outputs one scalar value per well-formed unit or surrogate pair and exactly one U+FFFD for each unpaired surrogate, without consuming the unit that follows it.", "quantifier": "every sequence of 16-bit units", "why_tests_cant": "Unbounded inputs.", "anchors": ["include/pluto/unicode.hpp: utf16_to_utf32"]}
{"id": "C19", "title": "str/wstr/u8str/u16str/u32str are mutually inverse on well-formed text", "statement": "For both 16-bit and 32-bit wchar_t, converting a well-formed string to any other string type with these functions and back yields the original.", "quantifier": "every well-formed string, both settings of PLUTO_UTILS_HAS_32_BIT_WCHAR", "why_tests_cant": "Unbounded inputs, and only one wchar_t width is compiled at a time.", "anchors": ["include/pluto/unicode.hpp: str, wstr, u8str, u16str, u32str"]}
{"id": "C20", "title": "join undoes split", "statement": "join(split(s, sep), sep) == s for every string and every separator, including the empty separator and the empty string.", "quantifier": "every string, every separator", "why_tests_cant": "Unbounded strings, overlapping separators.", "anchors": ["include/pluto/string.hpp: split(string, separator), join"]}
{"id": "C21", "title": "split by separator cuts at the leftmost non-overlapping occurrences", "statement": "For a non-empty separator, split terminates without throwing; it returns one piece more than the number of leftmost non-overlapping occurrences of the separator, no piece contains the separator, and splitting the join of pieces in which the separator can first occur only at the joints returns those pieces; for the empty separator it returns the one-character strings of s.", "quantifier": "every string and separator", "why_tests_cant": "Unbounded strings and self-overlapping separators.", "anchors": ["include/pluto/string.hpp: split(string, separator)"]}
{"id": "C22", "title": "whitespace split returns exactly the maximal space-free words", "statement": "split(s) returns, in order, the maximal non-empty runs of non-space characters of s; it never returns an empty piece, and the pieces concatenated are s without its space characters.", "quantifier": "every string, every classification of characters as space", "why_tests_cant": "Unbounded strings.", "anchors": ["include/pluto/string.hpp: split(string, locale)"]}
{"id": "C23", "title": "split_any_of returns exactly the maximal separator-free runs", "statement": "split_any_of(s, seps) returns, in order, the maximal non-empty runs of characters of s that are not in seps, and never throws.", "quantifier": "every string and separator set, including empty ones", "why_tests_cant": "Unbounded strings; relies on npos arithmetic.", "anchors": ["include/pluto/string.hpp: split_any_of"]}
{"id": "C24", "title": "replace substitutes every leftmost non-overlapping occurrence and terminates", "statement": "replace(s, f, r) terminates for all arguments, including r containing f; for non-empty f the result is the pieces of s between the leftmost non-overlapping occurrences of f joined with r; for empty f, r is inserted at the start, between all characters and at the end.", "quantifier": "every string, find string and replacement", "why_tests_cant": "Termination and correctness over unbounded inputs, including replacements that contain the searched text.", "anchors": ["include/pluto/string.hpp: replace"]}
{"id": "C25", "title": "replace_any_of substitutes every listed character once", "statement": "replace_any_of(s, f, r) terminates and yields s with each character that occurs in f replaced by r, and text inserted by r is never rescanned.", "quantifier": "every string, character set and replacement", "why_tests_cant": "Unbounded inputs; r may contain characters of f.", "anchors": ["include/pluto/string.hpp: replace_any_of"]}
{"id": "C26", "title": "strip removes exactly the surrounding spaces", "statement": "lstrip / rstrip / strip return the unique substring obtained by deleting the longest run of spaces at the start / end / both ends: the result starts (ends) with a non-space or is empty, what was removed is all spaces, and strip is idempotent and equal to stripping the sides in either order.", "quantifier": "every string, every classification of characters as space", "why_tests_cant": "Unbounded strings.", "anchors": ["include/pluto/string.hpp: lstrip, rstrip, strip"]}
{"id": "C27", "title": "bin, oct and hex print the exact two's-complement value", "statement": "bin/oct/hex of a value of an n-byte integer type is the prefix 0b/0o/0x followed by the digits, without leading zeros, of the value modulo 2^(8n); reading the digits back gives that number; 0 prints as a single digit 0.", "quantifier": "every integer width in bytes, every signed or unsigned value of that width", "why_tests_cant": "2^64 values per type; octal's uneven top digit.", "anchors": ["include/pluto/string.hpp: bin, oct, hex"]}
{"id": "C28", "title": "join and map_join interleave the separator between the elements", "statement": "join(parts, sep) is the elements in order with sep between consecutive ones and nowhere else; map_join(parts, sep, f) equals joining f applied to each element, calling f once per element in order.", "quantifier": "every list of strings, separator and function", "why_tests_cant": "Unbounded lists.", "anchors": ["include/pluto/string.hpp: join, map_join"]}
{"id": "C29", "title": "find/rfind return the first/last occurrence and contains agrees with them", "statement": "find(l, r) returns the smallest position at which r occurs in l, rfind(l, r) the largest, both return end if there is none (rfind also for an empty r); contains is true exactly when r is empty or occurs in l; the element versions return the first/last equal element.", "quantifier": "every pair of sequences, every predicate", "why_tests_cant": "Unbounded sequences and self-overlapping needles.", "anchors": ["include/pluto/iterator.hpp: find, rfind, contains, find_if, rfind_if, find_if_not, rfind_if_not", "include/pluto/container.hpp: find_sequence, rfind_sequence, contains_sequence"]}
{"id": "C30", "title": "starts_with and ends_with mean prefix and suffix", "statement": "With the default equality predicate, starts_with(l, r) is true exactly when l = r ++ rest, and ends_with(l, r) exactly when l = rest ++ r, in both the C++20 random-access code path and the generic path.", "quantifier": "every pair of sequences, both code paths", "why_tests_cant": "Unbounded sequences; the two code paths are never compared by tests.", "anchors": ["include/pluto/iterator.hpp: starts_with, ends_with, equals_same_size"]}
{"id": "C31", "title": "starts_with and ends_with give the same answer on every standard and container", "statement": "For every predicate, the C++20 random-access path and the generic path return the same answer, applying predicate(left element, right element). (Expected to be refuted for asymmetric predicates: the C++20 path swaps the arguments; proved for symmetric ones.)", "quantifier": "every predicate, every pair of sequences", "why_tests_cant": "A given build contains only one of the paths for a given container.", "anchors": ["include/pluto/iterator.hpp: starts_with, ends_with"]}
{"id": "C32", "title": "case-insensitive comparison is a consistent order", "statement": "is_iequal is an equivalence relation, is_iless a strict weak order whose incomparability is is_iequal, and is_not_iequal, is_igreater, is_iless_equal, is_igreater_equal are the corresponding complements and converses, for whatever toupper the locale provides.", "quantifier": "every locale (any toupper function), all triples of elements", "why_tests_cant": "Needs all triples for all locales.", "anchors": ["include/pluto/compare.hpp: is_iequal, is_not_iequal, is_iless, is_igreater, is_iless_equal, is_igreater_equal"]}
{"id": "C33", "title": "case-insensitive string functions equal the plain ones on upper-cased strings", "statement": "iequals, istarts_with, iends_with, ifind, irfind and icontains give the same answer as equals, starts_with, ends_with, find, rfind and contains applied to both arguments converted with upper().", "quantifier": "every locale, every pair of strings", "why_tests_cant": "Unbounded strings, any locale.", "anchors": ["include/pluto/string.hpp: iequals, istarts_with, iends_with, ifind, irfind, icontains, upper"]}
{"id": "C34", "title": "slice is Python slicing", "statement": "slice(c, start, stop) returns exactly the elements of Python's c[start:stop] for all long long arguments, without overflow, without advancing an iterator outside the container.", "quantifier": "every container whose element type cannot be constructed from its iterators (see C71), every start and stop in the range of long long", "why_tests_cant": "2^128 argument pairs; out-of-range advance is undefined behaviour.", "anchors": ["include/pluto/container.hpp: slice"]}
{"id": "C35", "title": "filter, count, any, all and map agree with their definitions", "statement": "filter keeps exactly the elements satisfying the predicate in their original order whatever std::remove_if leaves in the tail; count_if is the length of the filtered container; any/all are the existential/universal quantifiers and dual to each other; map applies the function to each element in order and appends to the destination.", "quantifier": "every container, predicate and function", "why_tests_cant": "Unbounded containers.", "anchors": ["include/pluto/container.hpp: filter, count, count_if, any, all, map", "include/pluto/iterator.hpp: filter, map"]}
{"id": "C36", "title": "min and max return the first extreme element", "statement": "On a non-empty container min/max return an element such that no other is smaller/larger, and the first such; the two-value forms return the left argument on ties; on an empty container the result is undefined (null dereference).", "quantifier": "every container, every strict weak order", "why_tests_cant": "Unbounded containers and orders.", "anchors": ["include/pluto/container.hpp: min, max", "include/pluto/value.hpp: min, max"]}
{"id": "C37", "title": "sum is exact unless an intermediate addition overflows", "statement": "sum(c, v) returns v plus the elements; for a signed type at least as wide as int it is defined exactly when every partial sum fits in the type; for unsigned types and types narrower than int it is always defined and exact modulo 2^bits.", "quantifier": "every container of integers and start value", "why_tests_cant": "Unbounded containers; overflow depends on prefixes.", "anchors": ["include/pluto/container.hpp: sum"]}
{"id": "C38", "title": "abs returns the positive equivalent", "statement": "abs(v) is non-negative and equals v or -v for every representable v. (Expected to be refuted for the most negative value of every signed type; proved otherwise.)", "quantifier": "every signed width, every value", "why_tests_cant": "The failing value is undefined behaviour for int and a silent wrap for narrower types.", "anchors": ["include/pluto/value.hpp: abs"]}
{"id": "C39", "title": "range comparison operators form one total order", "statement": "operator< is a strict total order (lexicographic on begin, end) and ==, !=, >, <=, >= are consistent with it: exactly one of <, ==, > holds.", "quantifier": "all triples of ranges over any totally ordered type", "why_tests_cant": "All triples.", "anchors": ["include/pluto/range.hpp: is_equal, is_less, operators"]}
{"id": "C40", "title": "overlap, before and after partition well-formed ranges", "statement": "For ranges with begin <= end, exactly one of a.is_less_no_overlap(b), b.is_less_no_overlap(a), a.is_overlapping(b) holds; is_overlapping is reflexive and symmetric and, for non-empty ranges, means they share a point. (For reversed ranges both 'less' can hold: refuted.)", "quantifier": "all pairs of ranges", "why_tests_cant": "All pairs including empty and reversed ranges.", "anchors": ["include/pluto/range.hpp: is_overlapping, is_less_no_overlap"]}
{"id": "C41", "title": "is_less_no_overlap is usable as a sorting order", "statement": "is_less_no_overlap is a strict weak order on well-formed ranges. (Expected to be refuted: overlap is not transitive; proved: it is a strict partial order, and a strict total order on any set of pairwise non-overlapping ranges.)", "quantifier": "all sets of ranges", "why_tests_cant": "All triples.", "anchors": ["include/pluto/range.hpp: is_less_no_overlap"]}
{"id": "C42", "title": "stopwatch time is the total of the running intervals", "statement": "time() equals the sum of the lengths of all running intervals since the last reset/restart (or construction), including the current one; start while running and stop while stopped have no effect.", "quantifier": "every sequence of start/stop/reset/restart/time calls at arbitrary clock readings", "why_tests_cant": "All histories of calls and clock readings.", "anchors": ["include/pluto/stopwatch.hpp: start, stop, reset, restart, time, stop_and_time"]}
{"id": "C43", "title": "stopwatch time never decreases on a steady clock", "statement": "If clock readings never decrease, time() is never negative, never decreases between two reads without reset/restart in between, and is constant while stopped.", "quantifier": "every sequence of calls with non-decreasing clock readings", "why_tests_cant": "All histories.", "anchors": ["include/pluto/stopwatch.hpp: time"]}
{"id": "C44", "title": "stopwatch parts recombine to the whole", "statement": "For a stopped stopwatch, hours, minutes, seconds, milli-, micro- and nanosecond parts recombine exactly to in_nanoseconds(), each part being within its documented range for non-negative times. (For a running stopwatch the parts are read at different instants and need not be consistent: refuted.)", "quantifier": "every duration / every sequence of clock readings during the calls", "why_tests_cant": "All durations.", "anchors": ["include/pluto/stopwatch.hpp: *_part, in_*, count"]}
{"id": "C45", "title": "scope guards run every task exactly once in reverse order, whatever they throw", "statement": "When an on_scope_exit is destroyed, each non-empty added task is called exactly once, last added first, and an exception thrown by a task neither escapes nor prevents the others.", "quantifier": "every list of tasks, every subset of them throwing or empty", "why_tests_cant": "All lists and throw patterns.", "anchors": ["include/pluto/scope.hpp: on_scope_exit::~on_scope_exit, add"]}
{"id": "C46", "title": "on_scope_success / on_scope_fail run their tasks iff the scope succeeded / failed", "statement": "on_scope_success runs its tasks iff control leaves its scope normally, on_scope_fail iff an exception leaves the scope. (Expected to be refuted when the guard lives in code run by a destructor during unwinding; proved when no exception is in flight at construction.)", "quantifier": "every nesting of scopes, throws, catches and destructors", "why_tests_cant": "All nestings.", "anchors": ["include/pluto/scope.hpp: on_scope_success::~on_scope_success, on_scope_fail::~on_scope_fail"]}
{"id": "C47", "title": "tasks added while the guard is running its tasks are run too", "statement": "A task that adds another task to the same guard during destruction results in both being run once. (Expected to be refuted: pop() removes the new task instead of the running one.)", "quantifier": "every task behaviour", "why_tests_cant": "Self-referential histories are unbounded (the loop need not terminate).", "anchors": ["include/pluto/scope.hpp: on_scope_exit::~on_scope_exit, add"]}
{"id": "C48", "title": "every submitted task is run at most once and is never lost or duplicated", "statement": "At every moment each submitted task is in exactly one place: scheduled, waiting, being run by exactly one worker, or finished; a task starts at most once and finishes at most once.", "quantifier": "every schedule of workers, scheduler and clients, any number of tasks", "why_tests_cant": "All interleavings.", "anchors": ["include/pluto/thread_pool.hpp: run_async, run_at, start_working, start_scheduling"]}
{"id": "C49", "title": "thread pool picks the highest priority task, first-come first-served within a priority", "statement": "Whenever a worker starts a task, no waiting task has a higher priority, and none of the same priority has been waiting longer.", "quantifier": "every schedule, every mix of priorities", "why_tests_cant": "All interleavings.", "anchors": ["include/pluto/thread_pool.hpp: m_waitingTasks, run_async, start_working"]}
{"id": "C50", "title": "the pool's size getters are exact", "statement": "In every reachable state active_workers_size() is the number of workers executing a task, it never exceeds workers_size() (so waiting_workers_size() never wraps), and tasks_size() is the number of waiting plus running tasks.", "quantifier": "every schedule including resizing and stopping", "why_tests_cant": "All interleavings.", "anchors": ["include/pluto/thread_pool.hpp: active_workers_size, waiting_workers_size, tasks_size, target_workers_size, start_working"]}
{"id": "C51", "title": "no wakeup is lost: submitted tasks get executed", "statement": "In every reachable state of a running pool with at least one target worker, if no internal step is possible then no task is waiting and no task is running; and without further client calls every execution reaches such a state after finitely many steps (tasks terminate, no spurious wakeups).", "quantifier": "every reachable state, every schedule, any mix of resizing and submission", "why_tests_cant": "Lost wakeups show up in rare schedules only.", "anchors": ["include/pluto/thread_pool.hpp: run_async, target_workers_size, start_working, m_workersCondition"]}
{"id": "C52", "title": "worker count converges to the target", "statement": "While the pool is running, workers_size() never drops below the target, jumps to the target immediately when it is raised, and equals it in every state in which no internal step is possible.", "quantifier": "every schedule and sequence of target changes", "why_tests_cant": "All interleavings.", "anchors": ["include/pluto/thread_pool.hpp: target_workers_size, start_working"]}
{"id": "C53", "title": "wait_until_all_tasks_complete returns exactly when the pool is idle", "statement": "The call returns only at a moment when no task is waiting or running, and a caller is never left blocked once all tasks are complete and the pool can make no further step. (Expected to be refuted for a target of 0 workers, proved for a target >= 1.)", "quantifier": "every schedule", "why_tests_cant": "A missed notification needs a particular interleaving.", "anchors": ["include/pluto/thread_pool.hpp: wait_until_all_tasks_complete, wait_until_no_tasks_waiting, start_working"]}
{"id": "C54", "title": "run_sync returns only after its task has finished", "statement": "When run_sync returns, its task has been executed to completion by a worker.", "quantifier": "every schedule", "why_tests_cant": "All interleavings.", "anchors": ["include/pluto/thread_pool.hpp: run_sync"]}
{"id": "C55", "title": "scheduled tasks never start early and the earliest is queued first", "statement": "A task given to run_at(t) is moved to the task queue only when the pool's clock has reached t.", "quantifier": "every schedule, every clock behaviour, any mix of run_at calls", "why_tests_cant": "All interleavings of timeouts and notifications.", "anchors": ["include/pluto/thread_pool.hpp: run_at, run_after, start_scheduling"]}
{"id": "C56", "title": "run_at and run_after never terminate the process", "statement": "No use of run_at/run_after from any threads leads to std::terminate. (Expected to be refuted: the scheduler thread object is assigned outside the lock; proved when, while the hand-off is under way, no other run_at is called and the scheduler does not move the last scheduled task.)", "quantifier": "every schedule of concurrent run_at calls", "why_tests_cant": "Needs a particular interleaving.", "anchors": ["include/pluto/thread_pool.hpp: run_at, start_scheduling, m_scheduler"]}
{"id": "C57", "title": "destroying a pool with complete_tasks completes all submitted tasks", "statement": "With on_stop(complete_tasks), when the destructor returns every task submitted by run_async before it was called has finished. (Expected to be refuted when the pool is being shrunk or has 0 workers; proved otherwise.)", "quantifier": "every schedule and history", "why_tests_cant": "All interleavings of destruction with resizing.", "anchors": ["include/pluto/thread_pool.hpp: ~thread_pool, start_working, on_stop"]}
{"id": "C58", "title": "destroying a pool with join_all starts no further task and always terminates", "statement": "After the destructor has marked the pool as stopping with join_all, no further task is started, every worker exits after its current task, and the destructor returns.", "quantifier": "every schedule", "why_tests_cant": "All interleavings.", "anchors": ["include/pluto/thread_pool.hpp: ~thread_pool, start_working"]}
{"id": "C59", "title": "log entries reach each file in order, without loss or duplication", "statement": "For every log file the entries written so far are, in order, a prefix of the entries accepted for that file, at every instant of every schedule and even if opening or rotating the file fails at arbitrary moments; after the logger is destroyed with a working file system they are all of them.", "quantifier": "every schedule of producers and the logging thread, every failure pattern, every crash point", "why_tests_cant": "All interleavings and failures.", "anchors": ["include/pluto/logger.hpp: add_log_to_buffer, start_logging, write_buffer_to_file, ~logger"]}
{"id": "C60", "title": "every log call is either accepted or counted as discarded", "statement": "Each call that passes the level check either adds exactly one entry or increments num_discarded_logs by one, and while buffer_max_size is a fixed non-zero n no buffer holds more than n entries.", "quantifier": "every schedule and configuration", "why_tests_cant": "All histories.", "anchors": ["include/pluto/logger.hpp: add_log_to_buffer, buffer_max_size, num_discarded_logs"]}
{"id": "C61", "title": "messages below the level never reach the log", "statement": "An entry is accepted only if its level is at least the logger's level at the time of the call; level off accepts none of verbose..fatal.", "quantifier": "every history of level changes and calls", "why_tests_cant": "All histories.", "anchors": ["include/pluto/logger.hpp: should_log, write, level"]}
{"id": "C62", "title": "a full buffer is always flushed", "statement": "With a fixed flush size, the logging thread is never asleep without a pending wakeup while some buffer holds at least flush-size entries. (Refuted if buffer_flush_size is changed concurrently: the setter notifies without the lock.)", "quantifier": "every schedule", "why_tests_cant": "Lost wakeups need particular schedules.", "anchors": ["include/pluto/logger.hpp: add_log_to_buffer, start_logging, buffer_flush_size"]}
{"id": "C63", "title": "destroying the logger always terminates", "statement": "The destructor returns in every schedule. (Expected to be refuted: the stop flag is set and notified without the lock, so the wakeup can be lost.)", "quantifier": "every schedule", "why_tests_cant": "The lost wakeup window is a few instructions wide.", "anchors": ["include/pluto/logger.hpp: ~logger, start_logging"]}
{"id": "C64", "title": "rotation keeps the newest files in order and loses only what the limit says", "statement": "Rotating log, log_1, ..., log_m with limit n moves log to log_1, log_1 to log_2 and so on, keeping the min(m+1, n) newest contents in order, deletes only the older ones, leaves no current file, touches no other file, and never overwrites a file that was to be kept.", "quantifier": "every file system state, every limit, every number of rotated files", "why_tests_cant": "Unbounded file system states.", "anchors": ["include/pluto/logger.hpp: rotate_file"]}
{"id": "C65", "title": "log files respect the rotation size and start with a header", "statement": "Writing a batch of entries appends each entry once, in order, to the current file, starts every new file with the header when headers are enabled, and only ever appends an entry to a file smaller than the rotation size; the rotated files concatenated from oldest to newest contain all entries in order, up to those dropped by the limit.", "quantifier": "every batch, configuration and initial file contents", "why_tests_cant": "Unbounded batches and sizes.", "anchors": ["include/pluto/logger.hpp: write_buffer_to_file, rotate_file"]}
{"id": "C66", "title": "writef logs the formatted message", "statement": "writef adds an entry whose message is the vsnprintf result. (Expected to be refuted when the formatted text is empty: the scheme itself is logged; proved for non-empty results.)", "quantifier": "every scheme and arguments (any vsnprintf behaviour)", "why_tests_cant": "All formats.", "anchors": ["include/pluto/logger.hpp: writef"]}
{"id": "C67", "title": "a streamer logs at most once", "statement": "A logger stream adds at most one entry however end() and the destructor are called and the level changes, with the text streamed before it was added.", "quantifier": "every sequence of <<, end() and destruction with level changes in between", "why_tests_cant": "All histories.", "anchors": ["include/pluto/logger.hpp: streamer::end, ~streamer, operator<<"]}
{"id": "C68", "title": "default log lines and header line up in columns", "statement": "Every line written by default_log_writer has its column separators at the same offsets as the header written by default_header_writer, provided thread id has at most 7 and line at most 5 characters; file and function names of any length are cut to 20 characters.", "quantifier": "every log entry", "why_tests_cant": "Unbounded names, ids and messages.", "anchors": ["include/pluto/logger.hpp: default_log_writer, default_header_writer, log_level_to_title"]}
{"id": "C69", "title": "file_name returns the part after the last slash or backslash", "statement": "file_name(p) is the longest suffix of p without '/' or '\\\\'.", "quantifier": "every NUL-terminated path", "why_tests_cant": "Unbounded strings.", "anchors": ["include/pluto/platform.hpp: file_name"]}
{"id": "C70", "title": "replace with the string itself as the replacement", "statement": "replace(s, f, s), the replacement being the same object as the string, gives the same result as with a copy of s. (Refuted: `replace.size()` is read after the string grew, so only the first occurrence is replaced; proved: exactly the first occurrence is replaced.)", "quantifier": "every string and find string", "why_tests_cant": "All strings; aliasing is rarely exercised by tests.", "anchors": ["include/pluto/string.hpp: replace"]}
{"id": "C71", "title": "slice of a container of any-like elements", "statement": "slice is Python slicing also when the element type can be constructed from an iterator, e.g. vector<any>. (Refuted: `return { startIt, stopIt };` then selects the initializer_list constructor and returns the two iterators as elements.)", "quantifier": "every container", "why_tests_cant": "Depends on overload resolution for element types nobody tested.", "anchors": ["include/pluto/container.hpp: slice"]}
{"id": "C72", "title": "is_lower / is_upper mean all characters are lower / upper case", "statement": "is_lower(s) is true exactly when all elements of s are lowercase (docs/string.md), is_upper likewise. (Refuted for caseless characters such as digits; proved: true exactly when no element is of the opposite case.)", "quantifier": "every string and character classification", "why_tests_cant": "All strings and locales.", "anchors": ["include/pluto/string.hpp: is_lower, is_upper"]}
{"id": "C73", "title": "range size is the distance from begin to end", "statement": "size() of a well-formed range is the non-negative number end - begin. (Refuted for signed types when the distance does not fit: undefined behaviour; proved otherwise, and for unsigned types always.)", "quantifier": "every integer type and every begin <= end", "why_tests_cant": "All values; overflow only at extremes.", "anchors": ["include/pluto/range.hpp: size"]}
{"id": "C74", "title": "wait_until_no_tasks_waiting returns exactly when the queue is empty", "statement": "The call returns only at a moment when no task is waiting, it is blocked only while a task is waiting, and with a target of at least one worker it has returned once the pool can make no further step.", "quantifier": "every schedule", "why_tests_cant": "A missed notification needs a particular interleaving.", "anchors": ["include/pluto/thread_pool.hpp: wait_until_no_tasks_waiting, start_working"]}
{"id": "C75", "title": "tasks given to run_at are queued once they are due", "statement": "When the pool can make no further step, and neither is being destroyed nor has ended the process (C56, C76), every task still scheduled is for a later time than the clock shows.", "quantifier": "every schedule, any mix of run_at calls and clock changes", "why_tests_cant": "A lost notification of the scheduler needs a particular interleaving.", "anchors": ["include/pluto/thread_pool.hpp: run_at, start_scheduling"]}
{"id": "C76", "title": "a task that throws does not end the process", "statement": "The pool survives a task that exits by an exception. (Refuted: nothing catches it in the worker thread; a throwing task always ends the process, and without one no worker ends it.)", "quantifier": "every pool with a throwing task", "why_tests_cant": "The tests use tasks that do not throw.", "anchors": ["include/pluto/thread_pool.hpp: start_working"]}
{"id": "C77", "title": "run_sync called by a task returns", "statement": "A task of a pool with at least one worker that calls run_sync is not blocked for ever. (Refuted for a pool of one worker; a pool that can make no step has all its workers in such calls.)", "quantifier": "every pool with at least one worker", "why_tests_cant": "The tests do not call run_sync from a task.", "anchors": ["include/pluto/thread_pool.hpp: run_sync, start_working"]}
{"id": "C78", "title": "nothing runs after the destructor of the pool", "statement": "After the destructor has returned no task is running, none starts, finishes or is submitted, and all threads of the pool have ended. (The scheduler threads: refuted; they have ended if, during run_at's hand-over to a new scheduler thread, no other run_at is called and the last scheduled task is not moved.)", "quantifier": "every schedule and history", "why_tests_cant": "All interleavings.", "anchors": ["include/pluto/thread_pool.hpp: ~thread_pool, start_working, start_scheduling"]}
{"id": "C79", "title": "destroying a pool with complete_tasks completes the scheduled tasks too", "statement": "With on_stop(complete_tasks) every task given to run_at before the destructor was called has finished when it returns. (Refuted: scheduled tasks are dropped, those that were due have finished.)", "quantifier": "every schedule and history", "why_tests_cant": "The documentation does not say; the tests do not cover it.", "anchors": ["include/pluto/thread_pool.hpp: ~thread_pool, start_scheduling"]}
{"id": "C80", "title": "entries of one thread keep their order", "statement": "Entries logged by one thread appear in the order of its calls, over all files together, and if the clock never goes back their time stamps are ordered too.", "quantifier": "every schedule, any number of threads and files", "why_tests_cant": "All interleavings.", "anchors": ["include/pluto/logger.hpp: add_log_to_buffer"]}
{"id": "C81", "title": "time stamps in a log file are ordered", "statement": "The entries of one log file are in the order of their time stamps if the clock never goes back. (Refuted: the time is taken before the mutex is locked.)", "quantifier": "every schedule", "why_tests_cant": "Needs a particular schedule of two threads.", "anchors": ["include/pluto/logger.hpp: add_log_to_buffer"]}
{"id": "C82", "title": "the logger comes to rest", "statement": "From every reachable state, with a working file system and no new calls, only finitely many steps of the logging thread, of the calls in progress and of the destructor are possible.", "quantifier": "every reachable state, every schedule", "why_tests_cant": "Unbounded executions.", "anchors": ["include/pluto/logger.hpp: start_logging, ~logger"]}
{"id": "C83", "title": "a file that cannot be written does not keep the logging thread running", "statement": "When nothing is logged the logging thread goes to sleep, whatever the file system does. (Refuted: a file that cannot be opened is retried in a busy loop.)", "quantifier": "every failure pattern", "why_tests_cant": "Needs an infinite execution.", "anchors": ["include/pluto/logger.hpp: start_logging, write_buffer_to_file"]}
{"id": "C84", "title": "a full buffer is eventually written", "statement": "A buffer that has reached its maximum size is written without waiting for the destructor. (Refuted: with 0 < buffer_max_size < buffer_flush_size nothing is ever written before the destructor, and entries are discarded.)", "quantifier": "every configuration and schedule", "why_tests_cant": "All histories.", "anchors": ["include/pluto/logger.hpp: add_log_to_buffer, start_logging"]}
{"id": "C85", "title": "a rotation that fails part-way loses nothing it should keep", "statement": "Whatever file operation of a rotation fails, the contents of the files with a number below the limit survive, in order, at the end of the remaining files; of the older ones some are removed; other files are not touched.", "quantifier": "every disk, limit and pattern of failing operations", "why_tests_cant": "Every operation may fail in every state.", "anchors": ["include/pluto/logger.hpp: rotate_file"]}
{"id": "C86", "title": "after the destructor the files contain every accepted entry", "statement": "When the destructor has returned, the files of a log file, from oldest to newest, contain the lines they contained initially followed by all entries accepted for it, in order, up to the oldest ones dropped by the rotation limit; without rotation, exactly these.", "quantifier": "every execution, configuration and initial disk without failures after the destructor's start", "why_tests_cant": "Unbounded executions, schedules and disks.", "anchors": ["include/pluto/logger.hpp: ~logger, write_buffer_to_file, rotate_file, add_log_to_buffer"]}
{"id": "C87", "title": "the numbered paths of a log file are distinct", "statement": "The i-th path of a log file is in the same directory, number 0 is the log file itself, number i > 0 has the same extension and the stem followed by an underscore and i in decimal, different numbers give different paths, and the paths of different log files differ unless a stem ends in an underscore and a number.", "quantifier": "every path and number", "why_tests_cant": "Unbounded strings and numbers.", "anchors": ["include/pluto/logger.hpp: rotate_file"]}
{"id": "C88", "title": "log files do not take each other's files", "statement": "Rotating one log file never touches the current file of another. (Refuted: rotating log.txt moves the current file of a log named log_1.txt; proved for names that do not end in an underscore and a number.)", "quantifier": "every pair of log files", "why_tests_cant": "All names.", "anchors": ["include/pluto/logger.hpp: rotate_file"]}
{"id": "C89", "title": "rotation leaves no more rotated files than the limit", "statement": "After a rotation no file with a number above the limit exists. (Refuted when the numbering has a gap; proved otherwise.)", "quantifier": "every disk and limit", "why_tests_cant": "Unbounded disks.", "anchors": ["include/pluto/logger.hpp: rotate_file"]}
{"id": "C90", "title": "every log file begins with the header", "statement": "With headers enabled and no other files at the beginning, every file of a logger is at any time empty or begins with the header.", "quantifier": "every execution and disk", "why_tests_cant": "Unbounded executions.", "anchors": ["include/pluto/logger.hpp: write_buffer_to_file, rotate_file"]}
{"id": "C91", "title": "rotation and writing end", "statement": "On a disk with finitely many files a rotation ends, and throws only if an operation fails; a batch is then written completely.", "quantifier": "every disk, limit and batch", "why_tests_cant": "Unbounded disks.", "anchors": ["include/pluto/logger.hpp: rotate_file, write_buffer_to_file"]}
{"id": "C92", "title": "an entry that cannot be written is kept", "statement": "An entry is removed from the buffer only if its line is in the file. (Refuted: writes to the stream are not checked; when one fails, entries are lost silently. Proved when writes to an open file do not fail. Proved for every pattern of failing writes: with rotation off exactly the entries from the first failure on are lost; with rotation on exactly the entries whose own line or header could not be written, and the entry after each rotates the file whatever its size.)", "quantifier": "every pattern of failing writes", "why_tests_cant": "Every write may fail.", "anchors": ["include/pluto/logger.hpp: write_buffer_to_file"]}
{"id": "C93", "title": "the logger touches only its own files", "statement": "No file other than the numbered files of its log files is ever changed, created or removed.", "quantifier": "every execution", "why_tests_cant": "Unbounded executions.", "anchors": ["include/pluto/logger.hpp: write_buffer_to_file, rotate_file"]}
{"id": "C94", "title": "an entry is one line", "statement": "If file name, function name and message contain no line break, default_log_writer and the logger write exactly one line for an entry. (Refuted for messages with line breaks: they are written as they are, so a message can forge further entries.)", "quantifier": "every entry", "why_tests_cant": "Unbounded names and messages.", "anchors": ["include/pluto/logger.hpp: default_log_writer, write_buffer_to_file"]}
{"id": "C95", "title": "after end() nothing more is logged", "statement": "A streamer's entry is fixed by end(): nothing streamed later is logged. (Refuted: when end() is called while the level rejects the entry, the destructor logs everything later if the level was lowered; proved when end() has logged.)", "quantifier": "every sequence of output, end() and destruction", "why_tests_cant": "Needs level changes between end() and the destructor.", "anchors": ["include/pluto/logger.hpp: streamer::end, ~streamer"]}
{"id": "C96", "title": "level names", "statement": "The names of the levels are distinct in all four forms, agree with each other, are 'unknown' for all other values, and fit into the level column.", "quantifier": "every value of log_level", "why_tests_cant": "All 256 values of the type, including those without a name.", "anchors": ["include/pluto/logger.hpp: log_level_to_c_str, log_level_to_title, log_level_to_shortened, log_level_to_char"]}
{"id": "C97", "title": "level off disables logging", "statement": "While the level is off no entry is accepted. (Refuted: an entry of level off itself is accepted.)", "quantifier": "every execution", "why_tests_cant": "Needs an entry with an unusual level.", "anchors": ["include/pluto/logger.hpp: should_log, log_level"]}
{"id": "C98", "title": "lower and upper convert every character", "statement": "lower and upper replace every character by the locale's conversion of it and change nothing else; if the locale's tolower never yields an upper-case character, is_lower holds after lower, and likewise for upper.", "quantifier": "every string and locale", "why_tests_cant": "All strings and locales.", "anchors": ["include/pluto/string.hpp: lower, upper, is_lower, is_upper"]}
{"id": "C99", "title": "the pool's settings are the ones set last", "statement": "on_stop() is the action given to the last call of on_stop(action), join_all if there was none; target_workers_size() is the value given to the last call of target_workers_size(n) before the destructor was called, the constructor's argument if there was none; calls made while the pool is stopping do not change it.", "quantifier": "every schedule of callers, workers and schedulers", "why_tests_cant": "All interleavings of the setters with everything else.", "anchors": ["include/pluto/thread_pool.hpp: on_stop, target_workers_size, thread_pool"]}
{"id": "C100", "title": "the logger's settings are the ones set last", "statement": "In every reachable state the level, buffer_max_size and buffer_flush_size that the logger uses are the values set by the last call of the corresponding setter (or the initial values if there was none); nothing else the logger or its threads do changes them.", "quantifier": "every execution: every number of producing threads, every interleaving, every sequence of setter calls", "why_tests_cant": "The setters race with every other step of the logger.", "anchors": ["include/pluto/logger.hpp: level, buffer_max_size, buffer_flush_size"]}
{"id": "C101", "title": "str_to inverts str for integers and bool", "statement": "str(v) is the decimal numeral of v (a '-' for negative values, no leading zeros) and str_to<T>(str(v)) == v for every value of every integer type T; likewise for bool.", "quantifier": "every integer type (width, signedness) and every value of it", "why_tests_cant": "All values of all integer types.", "anchors": ["include/pluto/string.hpp: str, str_to"]}
{"id": "C102", "title": "str_to returns the number that the text starts with", "statement": "If the text begins (after white space) with a decimal number, str_to<T> returns that number, or the value of T nearest to it when it is out of range. (Refuted for unsigned types: a negative number wraps around, \"-1\" gives 4294967295. Text that holds no number gives 0.)", "quantifier": "every text and every integer type", "why_tests_cant": "All texts.", "anchors": ["include/pluto/string.hpp: str_to"]}
{"id": "C103", "title": "str_to is defined for every text", "statement": "str_to<T>(s) never returns an uninitialised value. (Refuted: for T an integer, bool or character type it does exactly when s is empty or consists of white space.)", "quantifier": "every text", "why_tests_cant": "An uninitialised value often happens to be 0.", "anchors": ["include/pluto/string.hpp: str_to"]}
{"id": "C104", "title": "str_to inverts str for strings and characters", "statement": "str_to<std::string>(str(s)) == s and str_to<char>(str(c)) == c. (Refuted when there is white space: str_to<std::string> returns the first word; it is proved that the round trip works exactly when there is no white space.)", "quantifier": "every string and character", "why_tests_cant": "All strings.", "anchors": ["include/pluto/string.hpp: str, str_to"]}
{"id": "C105", "title": "case-insensitive comparisons never use a destroyed facet", "statement": "The comparison objects is_iequal, is_iless, ... keep a reference to a facet; whenever one is used, some locale object that holds the facet exists. (Refuted: an object built from a temporary locale, which with PLUTO_LOCALE_NO_STATIC = 1 includes every default-constructed object, refers to a destroyed facet. Proved for the functions iequals etc. in both configurations, for objects of the default locales with static locales, and for objects whose locale is kept.)", "quantifier": "every program that creates, copies, assigns and destroys locales and comparison objects, in both configurations", "why_tests_cant": "A dangling reference often still works.", "anchors": ["include/pluto/compare.hpp: is_iequal", "include/pluto/locale.hpp: default_locale, use_facet"]}
{"id": "C106", "title": "reading a buffer without the mutex is safe", "statement": "While the logging thread reads the entries of a buffer from back to front without holding the mutex and other threads add entries at the front (under the mutex), no memory location is accessed by both sides with one of them writing; the logging thread reads exactly the entries that were in the buffer when the mutex was unlocked, oldest first; erasing them afterwards leaves the buffer with the entries added meanwhile and those not read.", "quantifier": "every non-empty buffer, every number of added entries, every interleaving of single memory accesses", "why_tests_cant": "Data races show only under rare interleavings; all of them are covered.", "anchors": ["include/pluto/logger.hpp: add_log_to_buffer, write_buffer_to_file, start_logging"]}
{"id": "C107", "title": "an entry leaves the buffer only when its line is in the file", "statement": "Every entry that write_buffer_to_file counts as written (and that is then erased from the buffer) has its complete line in the file. (Refuted: itWritten is decremented before the log writer runs, so an entry whose log writer throws a filesystem_error is lost. Proved: it is the only one lost, and none is lost if the log writers do not throw.)", "quantifier": "every batch, every behaviour of the writers of lines and headers, every initial disk, every rotation size and limit", "why_tests_cant": "All points at which writers can throw.", "anchors": ["include/pluto/logger.hpp: write_buffer_to_file, start_logging"]}
{"id": "C108", "title": "exceptions of the writers do not terminate the program", "statement": "If a log writer or header writer throws, the program goes on. (Refuted: an exception other than filesystem_error leaves the logging thread's function, or the destructor, and std::terminate is called. Proved for filesystem_error.)", "quantifier": "every batch and every behaviour of the writers, with and without rotation", "why_tests_cant": "All points at which writers can throw.", "anchors": ["include/pluto/logger.hpp: write_buffer_to_file, start_logging, ~logger"]}
{"id": "C109", "title": "a header that could not be written is written later", "statement": "If the header writer throws a filesystem_error, the header is written by the next batch. (Refuted when it had written some text before: the file is no longer empty and never gets a header. Proved when it had written nothing.)", "quantifier": "every batch, every header writer, every rotation size and limit", "why_tests_cant": "All points at which the header writer can throw.", "anchors": ["include/pluto/logger.hpp: write_buffer_to_file"]}
{"id": "C110", "title": "a log file stays where it was first written", "statement": "The directory of a log file is the one that its name denotes in the working directory at the time of the first write of a batch; later changes of the working directory do not move the file.", "quantifier": "every sequence of batches, changes of the working directory, of create_dirs and of the directories", "why_tests_cant": "All sequences.", "anchors": ["include/pluto/logger.hpp: write_buffer_to_file"]}
{"id": "C111", "title": "create_dirs lets every batch find its directory", "statement": "With create_dirs, every batch can open its file. (Refuted: the directories are created only once; if the directory is removed later no batch can be written any more. Proved for files whose directory is not removed after the first batch.)", "quantifier": "every sequence of batches, changes of the working directory, of create_dirs and of the directories", "why_tests_cant": "All sequences.", "anchors": ["include/pluto/logger.hpp: write_buffer_to_file"]}
{"id": "C112", "title": "logging macros evaluate their operands only when the level passes", "statement": "A PLUTO_LOG_* macro evaluates file and message operands if and only if its should_log check passes; each operand is then evaluated exactly once (up to the first that throws), those of the stream macro from left to right.", "quantifier": "every sequence of answers of should_log, operands and order of evaluation", "why_tests_cant": "Tests run one compiler's order and a constant level.", "anchors": ["include/pluto/logger.hpp: PLUTO_LOG_WRITE_WITH, PLUTO_LOG_WRITEF_WITH, PLUTO_LOG_FORMAT_WITH, PLUTO_LOG_STREAM_WITH"]}
{"id": "C113", "title": "a logging macro logs the whole message at most once", "statement": "A PLUTO_LOG_* macro adds at most one entry. If nothing throws it adds the complete message exactly when the check in the macro and the one in write, writef or format pass; for the stream macro when the first check and at least one of those in end() and the destructor pass.", "quantifier": "every sequence of answers of should_log, operands, formatting", "why_tests_cant": "The level would have to change between the checks.", "anchors": ["include/pluto/logger.hpp: PLUTO_LOG_*_WITH, write, writef, format, streamer"]}
{"id": "C114", "title": "a logging macro whose operand throws logs nothing", "statement": "If evaluating an operand throws, the exception leaves the macro and no entry is added. (Refuted for the stream macro: the destructor of the streamer logs the part of the message written so far.)", "quantifier": "every position of the throwing operand and answers of should_log", "why_tests_cant": "Throwing operands at every position and level changes are not tested.", "anchors": ["include/pluto/logger.hpp: PLUTO_LOG_*_WITH, streamer::~streamer"]}
{"id": "C115", "title": "a failing allocation while logging does not end the process", "statement": "If adding an entry to the buffer throws, the macro throws and nothing has been added. (Refuted for the stream macro: the destructor of the streamer tries again, and if that throws too std::terminate is called.)", "quantifier": "every pattern of failing calls and answers of should_log", "why_tests_cant": "Allocation failures are not injected.", "anchors": ["include/pluto/logger.hpp: streamer::end, streamer::~streamer, add_log_to_buffer"]}
{"id": "C116", "title": "a logging macro evaluates its logger operand once", "statement": "The logger operand of a *_WITH macro is evaluated exactly once. (Refuted: twice when the level passes.)", "quantifier": "every macro and answers of should_log", "why_tests_cant": "Side effects in the logger expression are not tested.", "anchors": ["include/pluto/logger.hpp: PLUTO_LOG_*_WITH"]}
{"id": "C117", "title": "the thread pool has no data race on its members", "statement": "In no execution, from the constructor to the end of the destructor, are two threads about to access the same member of the pool with one of them writing. (Refuted: two threads that call run_at for the first time both assign m_scheduler without the mutex. Proved for every other member, its destruction included if all scheduler threads have ended by then, and for every member when run_at and run_after are not used.)", "quantifier": "every number of workers and calling threads, every sequence of calls by clients and tasks, every interleaving of single accesses", "why_tests_cant": "A data race shows only under rare interleavings, and only a race detector sees it.", "anchors": ["include/pluto/thread_pool.hpp: thread_pool, ~thread_pool, run_at, start_scheduling, start_working"]}
{"id": "C118", "title": "the logger has no data race on its members", "statement": "In no execution, from the constructor to the destruction of the members, are two threads about to access the same member of the logger, the same name or file path in m_logFiles, or the same buffer header with one of them writing, although the logging thread writes files without holding m_loggingMutex.", "quantifier": "every number of threads and log files, every sequence of calls by clients and writers, every interleaving of single accesses", "why_tests_cant": "A data race shows only under rare interleavings, and only a race detector sees it.", "anchors": ["include/pluto/logger.hpp: add_log_to_buffer, write_buffer_to_file, start_logging, ~logger"]}
{"id": "C119", "title": "a task may call every member function of the pool", "statement": "No thread locks m_mutex while it owns it, and none unlocks or waits on it without owning it, when tasks call any member functions. (Refuted for the copy constructors and destructors of values captured by a task: they run while the pool holds m_mutex, so a call of a member function there locks it twice. Proved when these do not use the pool.)", "quantifier": "every sequence of calls by clients and tasks, every interleaving", "why_tests_cant": "Tests do not call the pool from every place where user code runs.", "anchors": ["include/pluto/thread_pool.hpp: run_async, run_at, start_scheduling, start_working"]}
{"id": "C120", "title": "a writer may call every member function of the logger", "statement": "No thread locks a mutex of the logger while it owns it, and none unlocks or waits on one without owning it, when log and header writers call any member functions, also when the destructor of the logger calls the writers. (Refuted for the copy constructors and destructors of values captured by a writer: they run while m_configMutex is held. Proved when these do not use the logger.)", "quantifier": "every sequence of calls by clients and writers, every interleaving", "why_tests_cant": "Tests do not log or configure the logger from within writers.", "anchors": ["include/pluto/logger.hpp: log_writer, header_writer, write_buffer_to_file"]}
{"id": "C121", "title": "the mutexes of the pool and of the logger cause no deadlock", "statement": "The owner of a mutex can always go on, and as long as a thread has not ended some thread can go on (a thread that waits on a condition variable can be woken).", "quantifier": "every reachable state of the pool and of the logger", "why_tests_cant": "A deadlock appears only under particular interleavings.", "anchors": ["include/pluto/thread_pool.hpp: thread_pool", "include/pluto/logger.hpp: logger"]}
{"id": "C122", "title": "reverse reverses", "statement": "After reverse(c) the elements of c are in the opposite order; no element outside c is accessed.", "quantifier": "every container and length, bidirectional and random access iterators", "why_tests_cant": "Tests use a few lengths.", "anchors": ["include/pluto/iterator.hpp: reverse", "include/pluto/container.hpp: reverse"]}
{"id": "C123", "title": "sort sorts with each comparison of the library", "statement": "sort(c, p) leaves a permutation of c without inversions for each comparison of compare.hpp and range.hpp that orders elements. (Refuted for comparisons that hold for equal elements, is_less_equal for example, and for is_less_no_overlap on overlapping ranges: std::sort is undefined for them. Proved for is_less, is_greater, is_iless, any strict weak order, and is_less_no_overlap on ranges that do not overlap.)", "quantifier": "every list and comparison", "why_tests_cant": "Undefined behaviour of std::sort with a wrong order rarely shows on short inputs.", "anchors": ["include/pluto/container.hpp: sort", "include/pluto/compare.hpp", "include/pluto/range.hpp: is_less_no_overlap"]}
{"id": "C124", "title": "filter calls its predicate once for each element, in order", "statement": "With a predicate that has side effects filter keeps exactly the elements for which the predicate returned true, calling it once for each element from first to last.", "quantifier": "every list, predicate and state of the predicate", "why_tests_cant": "Tests use predicates without side effects.", "anchors": ["include/pluto/iterator.hpp: filter", "include/pluto/container.hpp: filter"]}
{"id": "C125", "title": "map into a set or map inserts the results", "statement": "map into a std::set or std::map leaves a strictly increasing container in which each key is bound to the first of: the element already there, then the results in order. (That results replace elements already there is refuted.)", "quantifier": "every strict weak order, source, destination and function", "why_tests_cant": "Tests map into sequences or empty sets.", "anchors": ["include/pluto/container.hpp: map"]}
{"id": "C126", "title": "map of a container into itself ends", "statement": "map(c, c, f) appends the results to c. (Refuted: for a non-empty std::list it never ends, for a non-empty std::vector it is undefined.)", "quantifier": "every container and function", "why_tests_cant": "Aliased arguments are not tested; the failure is non-termination.", "anchors": ["include/pluto/container.hpp: map"]}
{"id": "C127", "title": "round and pow of integers are exact", "statement": "round(n) is n and pow(n, 1) is n. (Refuted for integers that need more than 53 bits, as both go through double; proved up to 2^53, with the exact set of integers for which it holds and a bound on the error; for pow(n, m) the exact set of n and m for which it is the power, for any std::pow that is right where the power is a double.)", "quantifier": "every integer of every integer type", "why_tests_cant": "Only large values that are not representable as doubles show it.", "anchors": ["include/pluto/value.hpp: pow, round"]}
{"id": "C128", "title": "functions that take a locale follow the rules of that locale", "statement": "A comparison object or a call of iequals, upper and the like uses the letters of the locale it was given, of c_locale(), system_locale() or default_locale() when none is given, in both configurations of PLUTO_LOCALE_NO_STATIC; it throws exactly when that locale is not installed or has no facet for the character type, and then strings are unchanged. (That they never throw is refuted: without en_US.UTF-8 every call without a locale throws; char8_t, char16_t and char32_t have no facet in the standard locales.)", "quantifier": "every program that builds, copies and destroys locales and comparison objects and calls the functions, every set of installed locales, both configurations", "why_tests_cant": "Tests run where the locale is installed and use one locale at a time.", "anchors": ["include/pluto/locale.hpp: default_locale, use_facet", "include/pluto/compare.hpp: is_iequal", "include/pluto/string.hpp: upper"]}
{"id": "C129", "title": "a call of the thread pool that fails has no effect", "statement": "When a thread cannot be created or memory cannot be allocated, the constructor, run_async, run_sync, run_at and target_workers_size throw and leave the pool as it was. (Proved for run_async, run_sync and for run_at before its task is stored; no failed call moves a task. Refuted otherwise: run_at throws when the scheduler thread cannot be started, yet its task stays scheduled and runs when another call starts the scheduler; target_workers_size keeps the new target and the workers created so far; the constructor ends the process unless the very first thread fails; running out of memory while a worker or a due task is stored ends the process.)", "quantifier": "every state of the pool, every pattern of failing operations", "why_tests_cant": "Tests do not make thread creation and allocation fail at chosen points.", "anchors": ["include/pluto/thread_pool.hpp: thread_pool", "include/pluto/thread_pool.hpp: target_workers_size", "include/pluto/thread_pool.hpp: run_at", "include/pluto/thread_pool.hpp: start_scheduling"]}
{"id": "C130", "title": "after failures the thread pool keeps its other promises", "statement": "In executions in which calls fail, tasks are still in exactly one place and run at most once, in order of priority, never early; the getters are exact; run_sync and the wait functions return at the right time and, as long as there is a worker, do return; the destructor returns. The size is at least the target if no target_workers_size failed, and due tasks are queued if no scheduler thread failed to start (refuted otherwise).", "quantifier": "every execution of any length with any callers, schedule and failures", "why_tests_cant": "Combinations of failures and interleavings are unbounded.", "anchors": ["include/pluto/thread_pool.hpp: thread_pool"]}
{"id": "C131", "title": "higher priority tasks are completed first", "statement": "docs/thread_pool.md says that higher priority tasks are always completed first. (Refuted with two workers; proved for a pool that never has more than one worker. Also proved: the pool never has more workers nor runs more tasks at a time than the largest size it was given.)", "quantifier": "every execution of any length", "why_tests_cant": "The order of completion depends on the schedule.", "anchors": ["include/pluto/thread_pool.hpp: priority", "include/pluto/thread_pool.hpp: start_working"]}
{"id": "C132", "title": "the wait functions return when called by a task", "statement": "wait_until_all_tasks_complete and wait_until_no_tasks_waiting return when called in a task of the pool. (Refuted: the first never returns in any continuation of any execution; the second never does if a task waits and there is no second worker.)", "quantifier": "every execution and every continuation of it", "why_tests_cant": "Non-termination cannot be tested.", "anchors": ["include/pluto/thread_pool.hpp: wait_until_all_tasks_complete", "include/pluto/thread_pool.hpp: wait_until_no_tasks_waiting"]}
{"id": "C133", "title": "run_sync and the destructor do not block each other", "statement": "run_sync returns and the destructor returns when both are called. (Refuted: the destructor waits for ever for a task that calls run_sync, with either action and even with idle workers, as they have returned already; a call of run_sync from another thread never returns if its task had not finished when the pool was destroyed. C58 proves that the destructor returns when tasks do not wait for other tasks.)", "quantifier": "every execution; both actions", "why_tests_cant": "The deadlock needs the destructor to run between two steps of a task.", "anchors": ["include/pluto/thread_pool.hpp: run_sync", "include/pluto/thread_pool.hpp: ~thread_pool"]}
{"id": "C134", "title": "run_after(d) runs the task after d", "statement": "run_after(d) schedules the task for the time of the call plus d, and it is not queued before the clock has shown that time. (That it is defined for every duration is refuted: the addition overflows for duration::max().)", "quantifier": "every duration, every execution", "why_tests_cant": "Tests use a few short durations.", "anchors": ["include/pluto/thread_pool.hpp: run_after"]}
{"id": "C135", "title": "min and max of floating-point containers and pairs", "statement": "min(container) of floating-point numbers returns a reference to the first least element and max(container) to the first greatest one, ignoring NaN; min(a, b) and max(a, b) give the same value as min(b, a) and max(b, a). (Refuted: if the first element is NaN the result is that NaN, and if one of two arguments is NaN the left one is returned, so the result depends on the order. Proved when the first element is not NaN: later NaNs are ignored.)", "quantifier": "every container of numbers of every binary floating-point format, with infinities, zeros of both signs and NaN", "why_tests_cant": "Only a NaN in a certain position shows it; the order has infinitely many cases.", "anchors": ["include/pluto/container.hpp: min, max", "include/pluto/value.hpp: min, max"]}
{"id": "C136", "title": "Searching and comparing floating-point containers", "statement": "equals(c, c) holds, and contains, find, rfind and count find an element that is in the container. (Refuted for NaN: it is never found, and a container with a NaN does not equal itself. Proved: everything else is compared by value, so the two zeros are equal, and is_false holds for the zeros only, is_true and the tests of any and all for everything else, NaN included.)", "quantifier": "all containers and elements of every binary floating-point format", "why_tests_cant": "NaN and the sign of zero are corner cases that tests of integers do not have.", "anchors": ["include/pluto/container.hpp: equals, contains, find, rfind, count", "include/pluto/compare.hpp: is_equal, is_true, is_false"]}
{"id": "C137", "title": "abs of a floating-point number", "statement": "abs(x) is the absolute value of x, with the sign bit clear. (Proved: the value is the absolute value, infinities become +infinity, NaN stays NaN; refuted for the sign bit: abs(-0.0) is -0.0, unlike std::abs.)", "quantifier": "every number of every binary floating-point format", "why_tests_cant": "-0.0 compares equal to 0.0, so tests that compare values do not show it.", "anchors": ["include/pluto/value.hpp: abs"]}
{"id": "C138", "title": "sort of floating-point numbers", "statement": "sort(container) sorts any container of floating-point numbers in ascending order. (Refuted: undefined exactly if the container has a NaN and two different numbers. Proved otherwise.)", "quantifier": "every container of numbers of every binary floating-point format", "why_tests_cant": "A test with NaN may happen to work, although the call is undefined.", "anchors": ["include/pluto/container.hpp: sort", "include/pluto/iterator.hpp: sort", "include/pluto/compare.hpp: is_less"]}
{"id": "C139", "title": "sum of floating-point numbers", "statement": "sum(container) is the exact sum of the elements and does not depend on their order. (Refuted: ten times 0.1 is less than 1, 2^53 + 1 + 1 is 2^53 or 2^53 + 2 depending on the order, and the result may be infinite or NaN although the sum is a number. Proved: each addition gives the number nearest to the exact result, ties to even; the sum is exact if every partial sum is a number; it is exact in every order for multiples of a power of two whose absolute values do not add up to more than 2^prec times that power; in general the error is at most ((1 + 2^-prec)^n - 1) times the sum of the absolute values; NaN elements give NaN.)", "quantifier": "every container, every initial value, every binary floating-point format", "why_tests_cant": "Rounding errors depend on the values; a bound has to hold for every container.", "anchors": ["include/pluto/container.hpp: sum"]}
{"id": "C140", "title": "sum of floating-point numbers into an integer", "statement": "sum(container, n) with an integer n and floating-point elements is the sum of the elements and n without its fraction. (Refuted: the fraction is dropped at every addition, so any number of elements 0.5 adds nothing, and the call is undefined if an element is NaN or infinite or an intermediate result does not fit. Proved: exact for elements that are integers while the partial sums fit and are at most 2^prec; in general the result is determined by rounding and truncating at every step.)", "quantifier": "every container of every binary floating-point format, every integer type", "why_tests_cant": "The result looks right for elements that are integers.", "anchors": ["include/pluto/container.hpp: sum"]}
{"id": "C141", "title": "round of floating-point numbers", "statement": "round(x) is the integer nearest to x, halves are rounded away from zero, and the sign of x is kept; infinities and NaN are returned unchanged; the result for an integer is the double nearest to it.", "quantifier": "every number of every binary floating-point format; every integer below 2^1023", "why_tests_cant": "All exponents and all ties.", "anchors": ["include/pluto/value.hpp: round"]}
{"id": "C142", "title": "A killed process loses only what is in memory", "statement": "When the process is killed, every entry the logger has erased from its buffer is completely in the log files, followed by a part of the text of the entries that are still in the buffer, in order and cut at most once; with a fixed rotation limit the oldest of this may be missing, and no file has a number above the limit. (Refuted: an entry that has been written to the stream is in the file.)", "quantifier": "every execution of the logger, every point at which the process is killed, every time at which the stream passes bytes to the operating system, every failing file operation", "why_tests_cant": "A test can kill the process at a few points only, and the stream's buffer hides the others.", "anchors": ["include/pluto/logger.hpp: write_buffer_to_file", "include/pluto/logger.hpp: open_file_stream", "include/pluto/logger.hpp: rotate_file"]}
{"id": "C143", "title": "Lines after a crash and a restart", "statement": "Over any number of processes that are killed one after the other, with any rotation settings: every file consists of the content of an earlier file (or nothing) and, for each process, of entries that it wrote one after the other; of these each but the first and the last is a whole line of the file. Without rotation these are all the entries that got to the disk. (Refuted: the first entry of a restarted process is a line of its own; it continues the line the killed process left incomplete.)", "quantifier": "every number of processes, every execution of each, every point of being killed", "why_tests_cant": "It needs a kill in the middle of a line and a restart.", "anchors": ["include/pluto/logger.hpp: write_buffer_to_file", "include/pluto/logger.hpp: open_file_stream"]}
{"id": "C144", "title": "Headers after a crash", "statement": "With headers on and a constant header, after a crash every file begins with the header or contains a part of it only, if all files were empty or began with the header before. (Refuted after a restart: a file that contains a part of the header never gets a whole one.) After any number of crashes and restarts every file is still empty or begins with a non-empty first part of the header, and the rest consists of first parts of lines: no file gets a second header or a line before the header.", "quantifier": "every execution of the logger, every point at which the process is killed, every time at which the stream passes bytes to the operating system, every failing file operation", "why_tests_cant": "It needs a kill in the middle of a header.", "anchors": ["include/pluto/logger.hpp: write_buffer_to_file", "include/pluto/logger.hpp: open_file_stream", "include/pluto/logger.hpp: rotate_file"]}
{"id": "C145", "title": "File sizes across crashes", "statement": "With rotation sizes between 1 and r, headers of at most a bytes and lines of at most b bytes, every file stays below r + a + b + 2 bytes, over any number of processes that are killed.", "quantifier": "every number of processes, every execution of each, every point of being killed", "why_tests_cant": "Crashes in the middle of a rotation.", "anchors": ["include/pluto/logger.hpp: write_buffer_to_file", "include/pluto/logger.hpp: open_file_stream", "include/pluto/logger.hpp: rotate_file"]}
{"id": "C146", "title": "Several killed processes", "statement": "After any number of killed processes the files contain what was there before and then, process by process, the entries each had written before it last closed its stream and a part of those written since; without rotation exactly this, with a fixed rotation limit a suffix of it, with any settings a subsequence.", "quantifier": "every number of processes, every execution of each, every point of being killed", "why_tests_cant": "The states a crash leaves (gaps in the numbering, missing current file) accumulate.", "anchors": ["include/pluto/logger.hpp: write_buffer_to_file", "include/pluto/logger.hpp: open_file_stream", "include/pluto/logger.hpp: rotate_file"]}
{"id": "C147", "title": "The stream's buffer changes nothing without a crash", "statement": "Whatever the stream keeps in its buffer, whenever it passes bytes on: the files will contain, once the stream is closed, what the model without a buffer says, so that the position used for rotation and headers is right.", "quantifier": "every execution of the logger, every point at which the process is killed, every time at which the stream passes bytes to the operating system, every failing file operation", "why_tests_cant": "Buffer sizes and flushing times are the library's choice.", "anchors": ["include/pluto/logger.hpp: write_buffer_to_file", "include/pluto/logger.hpp: open_file_stream", "include/pluto/logger.hpp: rotate_file"]}
{"id": "C148", "title": "Rotation discards only what exceeds the limit", "statement": "With rotation limits of at least n and rotation sizes of at least r (or none), across crashes: either rotation has discarded nothing, or the files together contain at least n * r bytes.", "quantifier": "every number of processes, every execution of each, every point of being killed", "why_tests_cant": "A crash between removing and renaming leaves gaps; only some sequences of crashes would discard too much.", "anchors": ["include/pluto/logger.hpp: write_buffer_to_file", "include/pluto/logger.hpp: open_file_stream", "include/pluto/logger.hpp: rotate_file"]}
{"id": "C149", "title": "Static instances are used only while they exist", "statement": "If the object p (the pool, the logger or another static object) is built before every object whose destructor or work can use it, then every use of p, by main, tasks, log writers and destructors, finds p built and not destroyed; so it is for the logger in a program that begins by calling logger::instance(), and for any object that neither destructors nor tasks use. Otherwise tasks and destructors can use the logger after its destruction.", "quantifier": "every program of uses of static objects, every interleaving of its threads, up to the end of the destruction of static objects", "why_tests_cant": "Uses after destruction happen after main has returned, where tests no longer look, and only in some interleavings.", "anchors": ["include/pluto/thread_pool.hpp: instance", "include/pluto/logger.hpp: instance", "include/pluto/thread_pool.hpp: ~thread_pool", "include/pluto/logger.hpp: ~logger"]}
{"id": "C150", "title": "Programs with static instances end", "statement": "If the constructors of static objects do not use each other in a circle, no thread waits for ever for a static object to be built or destroyed: every execution ends, with every static object that was built destroyed and no thread of the pool or the logger left. Otherwise main and a task can block each other for ever.", "quantifier": "every program of uses of finitely many static objects, every interleaving of its threads", "why_tests_cant": "Deadlocks during construction and destruction of static objects need particular interleavings.", "anchors": ["include/pluto/thread_pool.hpp: instance", "include/pluto/logger.hpp: instance", "include/pluto/thread_pool.hpp: ~thread_pool", "include/pluto/logger.hpp: ~logger"]}
{"id": "C151", "title": "str writes the decimal numeral in every locale", "statement": "str(v) of an integer is its decimal numeral whatever the global locale is. (Refuted for locales that group digits: str(1000) is '1,000' under en_US, because the string stream takes the global locale. Proved: the digits are those of the numeral, the separators are exactly where numpunct::grouping puts them, and without grouping the text is the numeral.)", "quantifier": "every numpunct (grouping string, separator) and every integer", "why_tests_cant": "All grouping strings and all integers; tests run under the classic locale.", "anchors": ["include/pluto/string.hpp: str"]}
{"id": "C152", "title": "str_to inverts str in every locale", "statement": "str_to<T>(str(v)) == v under every global locale whose separator is neither a digit nor a sign, for every value of every integer type.", "quantifier": "every numpunct, every integer type and value", "why_tests_cant": "All grouping strings and all integers.", "anchors": ["include/pluto/string.hpp: str, str_to"]}
{"id": "C153", "title": "str_to stops after the number in every locale", "statement": "str_to<T> of a text that begins with a number returns that number whatever the global locale is. (Refuted for locales that group digits: separators are skipped wherever they are and the stream's failbit is not looked at, so '1,5' gives 15 and '10,20,30' gives 102030. Proved: texts without the separator are read as in the classic locale; every other text is read as the classic locale reads it without its separators, so that a number is read across them and one that does not fit becomes the nearest value of the type; if a separator comes first and white space next, the result is 0. These are all cases.)", "quantifier": "every numpunct and every text", "why_tests_cant": "All texts and locales.", "anchors": ["include/pluto/string.hpp: str_to"]}
{"id": "C154", "title": "log lines keep their columns in every locale", "statement": "A log line has the columns of the header whatever locale the file's stream has. (Refuted: with a global locale that groups digits the microseconds of most lines are '123,456' and all columns after them move, or '12,345' for 012345. Proved: the columns are right exactly if the microseconds, the thread id and the line number have at most 6, 7 and 5 characters, however the stream writes numbers; with groups of three that is exactly if the microseconds are below 100000, the thread id below 1000000 and the line below 10000.)", "quantifier": "every entry and every way of writing integers (any locale, base or flags)", "why_tests_cant": "All entries, locales and stream flags; tests run under the classic locale.", "anchors": ["include/pluto/logger.hpp: default_log_writer"]}
{"id": "C155", "title": "str shows six significant digits of floating-point numbers", "statement": "str(x) of a finite floating-point number is the decimal number of six significant digits nearest to x (ties to even), with a sign exactly for negative numbers and -0, an exponent exactly if the decimal exponent is below -4 or above 5, and no zeros at the end of the fraction; the relative error is at most 5/10^6. Integers of up to six digits are written like integers. Zeros, infinities and NaN are '0', '-0', 'inf', '-inf', 'nan'.", "quantifier": "every IEEE 754 binary format and every number of it", "why_tests_cant": "2^64 doubles; rounding at ties and carries to the next power of ten.", "anchors": ["include/pluto/string.hpp: str"]}
{"id": "C156", "title": "str_to of floating-point types gives the nearest number", "statement": "str_to<T>(s) of a text that begins with a decimal number is the number of T nearest to it, ties to even. (Refuted for infinities: 'inf' and 'nan', which str writes, are read as 0, and numbers beyond the largest one give the largest one. Proved: otherwise the nearest number; a text without a number or with an exponent without digits gives 0; undefined exactly for blank texts.)", "quantifier": "every IEEE 754 binary format and every text", "why_tests_cant": "All texts; ties between neighbouring numbers, subnormals and overflow.", "anchors": ["include/pluto/string.hpp: str_to"]}
{"id": "C157", "title": "str_to inverts str for floating-point types", "statement": "str_to<T>(str(x)) == x for every floating-point number x. (Refuted: 1234567.0 comes back as 1234570, an infinity as 0. Proved, for formats of at least 22 bits: a normal number comes back if it is the nearest number of a decimal number of up to six digits, and any finite number only then; so do integers of up to six digits and subnormal numbers below 10^5 units; the others come back with a relative error of at most 10^-5; a text of up to six digits is read and written back as the same decimal number.)", "quantifier": "every IEEE 754 binary format and every number of it", "why_tests_cant": "2^64 doubles.", "anchors": ["include/pluto/string.hpp: str, str_to"]}
{"id": "C158", "title": "a callback that throws ends the function at once", "statement": "any, all, find_if and count_if call their predicate for the elements in order, for no element after the one that decides, and an exception leaves them at once. for_each leaves the elements after the one whose call throws as they were, map leaves the results made so far in the destination, and the map that returns a container returns all results or none.", "quantifier": "every container, every callback with side effects, every point at which it throws", "why_tests_cant": "Every element at which the callback may throw, and every state of the callback.", "anchors": ["include/pluto/container.hpp: any", "include/pluto/container.hpp: all", "include/pluto/container.hpp: count_if", "include/pluto/iterator.hpp: find_if", "include/pluto/iterator.hpp: for_each", "include/pluto/container.hpp: map"]}
{"id": "C159", "title": "filter keeps the elements when its predicate throws", "statement": "If the predicate given to filter throws, the container has the elements it had before. (Refuted: dropped elements are overwritten, others are duplicated or moved-from, and nothing is erased. Proved: exactly what is left; the size, the kept elements and all elements from the one that throws on stay; nothing changes if no element was to be dropped before.)", "quantifier": "every container, every predicate with side effects, every point at which it throws", "why_tests_cant": "Every element at which the predicate may throw, and every state of the predicate.", "anchors": ["include/pluto/container.hpp: filter", "include/pluto/iterator.hpp: filter"]}
{"id": "C160", "title": "filter with a predicate that carries its state", "statement": "A predicate that carries a state (for example a std::function made from a mutable lambda) decides about the elements in order, in the states it passes through. (Refuted for std::remove_if of libstdc++: a copy of the predicate decides until the first element is dropped, then the predicate starts in its first state again. Proved if its answers do not depend on the state.)", "quantifier": "every container and every predicate", "why_tests_cant": "Depends on copies made inside std::remove_if.", "anchors": ["include/pluto/container.hpp: filter", "include/pluto/iterator.hpp: filter"]}
{"id": "C161", "title": "scope guards whose add() fails", "statement": "Every task whose addition to a scope guard succeeded runs exactly once, the last one added first, whatever else fails, and every resource whose releasing task is added directly after it is acquired is released at the end, so that memory is guaranteed to be freed. (The part about resources is refuted if add() or the constructor throws: the resource is kept exactly if it was acquired and the addition failed. Proved if no addition fails, and, whatever fails, if the task is added before the resource is acquired.)", "quantifier": "every nested program of guards, acquisitions, additions and other work and every choice of failing operations", "why_tests_cant": "The failing operations and the nesting of guards are unbounded, and failures of add() are rare allocation failures.", "anchors": ["include/pluto/scope.hpp: on_scope_exit", "docs/scope.md"]}
{"id": "C162", "title": "version macros", "statement": "PLUTO_UTILS_HAS_CXX_n is 1 exactly if the C++ version is at least C++ n, so that it is 1 for all smaller n too; PLUTO_UTILS_HAS_FORMAT, PLUTO_UTILS_HAS_SOURCE_LOCATION, PLUTO_UTILS_NODISCARD_CONSTEXPR and pluto::filesystem follow from the version and the headers that are available. (Proved for the values of the published standards, in __cplusplus or _MSVC_LANG; refuted for values of drafts, which lie between two standards, and for macros defined by the user.)", "quantifier": "every value of __cplusplus and _MSVC_LANG, every set of available headers", "why_tests_cant": "A test build has one compiler with one language version.", "anchors": ["include/pluto/version.hpp", "include/pluto/filesystem.hpp", "docs/version.md"]}
{"id": "C163", "title": "standard.hpp includes the standard", "statement": "standard.hpp includes exactly the headers of the C++ standard in use that are available, and builds if the library has all headers up to C++ 14. (Proved from C++ 11 on for the headers of the two tables of the standard, without its Annex D; refuted for C++ 98, where five headers of C++ 11 are included.)", "quantifier": "every compiler, standard and set of available headers", "why_tests_cant": "A test build has one compiler with one language version and one set of headers.", "anchors": ["include/pluto/standard.hpp", "docs/standard.md"]}
{"id": "C164", "title": "what tasks capture is released", "statement": "The pool owns one callable for each task it was given, with the values it captures, and releases it once the task has finished: when wait_until_all_tasks_complete or run_sync returns, when the pool is at rest and when it is destroyed, no callable of a finished task is left. (Refuted for run_sync, which can return before the worker has destroyed the callable and while the task is still counted as active; proved for the others.)", "quantifier": "every execution with any number of threads, tasks and calls, every schedule", "why_tests_cant": "Whether run_sync returns first depends on the schedule.", "anchors": ["include/pluto/thread_pool.hpp: start_working", "include/pluto/thread_pool.hpp: run_sync", "include/pluto/thread_pool.hpp: wait_until_all_tasks_complete"]}
{"id": "C165", "title": "gm_time and local_time follow the calendar", "statement": "gm_time gives the date and time of the Gregorian calendar: second 0 is 1970-01-01 00:00:00, each second is followed by the next one with months and leap years as in the calendar, also before 1970, and no two seconds have the same fields. local_time is gm_time shifted by the zone.", "quantifier": "every number of seconds, every zone", "why_tests_cant": "Tests check a few dates.", "anchors": ["include/pluto/platform.hpp: gm_time", "include/pluto/platform.hpp: local_time"]}
{"id": "C166", "title": "log lines sort by time", "statement": "Sorted as text, lines of the default writer are in the order of their times, and the stamp tells the time to the microsecond. (Refuted: local time is written without its offset from UTC, so when clocks are set back an hour is repeated; times before 1970 get a negative fraction. Proved for times from 1970 in zones whose clocks are never set back; in general the order of the stamps is that of local time. Exactly in the zones whose clocks are never set back do the lines of all times sort, and exactly in those that never show a time twice does the stamp tell the time.)", "quantifier": "every two times of a 64-bit nanosecond clock from 1970 on, every zone, every two entries", "why_tests_cant": "Needs a run across the end of summer time; tests check the form of one stamp.", "anchors": ["include/pluto/logger.hpp: default_log_writer", "include/pluto/platform.hpp: local_time"]}
{"id": "C167", "title": "is_logging tells whether the logging thread runs", "statement": "is_logging() is true exactly while the logging thread runs. (Refuted: it is false as soon as the destructor begins, while the thread may still be writing. Proved: it is true exactly until then, and while it is true the thread runs.)", "quantifier": "every execution with any number of threads and any schedule", "why_tests_cant": "The state between the start of the destructor and the join is only seen by a log writer that runs then.", "anchors": ["include/pluto/logger.hpp: is_logging", "docs/logger.md: is_logging()"]}
{"id": "C168", "title": "strings of a source_info outlive their use", "statement": "No string that a source_info points to is read after the end of its life, if it lives as long as the call of log. (Refuted: entries keep the pointers and are written later by the logging thread or the destructor. Proved: it is enough that the strings live until the entry is rejected, discarded or written or the logger is destroyed; and for an accepted entry that is not written this is needed.)", "quantifier": "every execution with any number of threads and any schedule, every placing of the ends of lives in it", "why_tests_cant": "Tests pass literals, which live for ever; a dangling pointer need not fail.", "anchors": ["include/pluto/logger.hpp: source_info", "include/pluto/logger.hpp: log_entry", "include/pluto/logger.hpp: default_log_writer"]}
{"id": "C169", "title": "a logger with the default settings loses nothing", "statement": "While the level and the maximum size of the buffer are not changed, a logger with the default settings accepts every entry of every level except the reserved header level and discards none; and when its destructor has returned, with no file operation failing in it, every entry logged before is a line of its log file.", "quantifier": "every execution with any number of threads, files and schedules, every clock and initial disk without numbered files", "why_tests_cant": "Tests check the contents after one schedule.", "anchors": ["include/pluto/logger.hpp: PLUTO_LOGGER_INITIAL_LEVEL", "include/pluto/logger.hpp: PLUTO_LOGGER_INITIAL_BUFFER_MAX_SIZE", "include/pluto/logger.hpp: PLUTO_LOGGER_INITIAL_FILE_ROTATION_SIZE"]}
{"id": "C170", "title": "the default settings are the documented ones", "statement": "Every setting of a new logger has the documented default. (Refuted: the rotation limit is documented as 1 and is 0, so in a program that sets only a rotation size every rotation deletes the current file and the numbered ones that follow on it, where the documented limit keeps the current one as file 1. The other settings agree.)", "quantifier": "every setting; every disk and pattern of failing operations for the rotation", "why_tests_cant": "Tests set every setting they use.", "anchors": ["include/pluto/logger.hpp: PLUTO_LOGGER_INITIAL_FILE_ROTATION_LIMIT", "docs/logger.md: PLUTO_LOGGER_INITIAL_FILE_ROTATION_LIMIT"]}
{"id": "C171", "title": "safe_lru_cache keeps its promises when operations throw", "statement": "When copies and allocations throw in calls of safe_lru_cache, the lock is released, histories are linearizable with each failed call having no effect or only its eviction, no call is undefined, there is no data race and no deadlock, and all calls end. (Refuted for the two points of C07 that leave the cache inconsistent: an exception in one thread's get makes a later call in another thread undefined. Proved while no call has been made that throws there; no data race, release of the lock and the end of all calls proved wherever calls throw.)", "quantifier": "every program of any number of threads, every placing of exceptions in their calls, every schedule", "why_tests_cant": "All interleavings with all failures.", "anchors": ["include/pluto/safe_lru_cache.hpp", "include/pluto/lru_cache.hpp: insert_impl, get, move_to_front"]}
{"id": "C172", "title": "a pool made without arguments runs its tasks", "statement": "In a thread pool made without arguments every task that enters the queue is run, and every call of run_sync returns.", "quantifier": "every value of hardware_concurrency(), every execution", "why_tests_cant": "A test runs on a machine that knows its number of processors; hardware_concurrency() may return 0 where it is not known.", "anchors": ["include/pluto/thread_pool.hpp: thread_pool::thread_pool, start_working"]}
{"id": "C173", "title": "run_sync's promise outlives its use", "statement": "The promise that run_sync keeps on its stack is used by the worker only while it exists: set_value has returned before the promise is destroyed.", "quantifier": "every interleaving of the caller and the worker", "why_tests_cant": "The interval between the future's becoming ready and the return of set_value is a few instructions long.", "anchors": ["include/pluto/thread_pool.hpp: thread_pool::run_sync"]}
{"id": "C174", "title": "log files may be renamed by other programs", "statement": "When other programs rename log files while loggers write them (without rotation by the logger), no entry is lost or written twice, and the entries of a process stay in order in each file.", "quantifier": "every interleaving of any number of logging processes and any renamings", "why_tests_cant": "A renaming can fall between any two operations of the logging thread.", "anchors": ["include/pluto/logger.hpp: open_file_stream, write_buffer_to_file"]}
{"id": "C175", "title": "log files may be removed by other programs", "statement": "When another program removes a log file, what is logged afterwards is in a file again.", "quantifier": "every interleaving of any number of logging processes, removals and renamings", "why_tests_cant": "The removal has to fall between the opening of the stream and the writing of an entry.", "anchors": ["include/pluto/logger.hpp: open_file_stream, write_buffer_to_file"]}
{"id": "C176", "title": "several processes may log to the same file", "statement": "A file that several processes log to consists of whole lines and begins with one header.", "quantifier": "every interleaving of any number of logging processes and every splitting of the output into writes", "why_tests_cant": "It takes several processes, and batches larger than the buffer of the stream.", "anchors": ["include/pluto/logger.hpp: open_file_stream, write_buffer_to_file"]}
{"id": "C177", "title": "a waiting task is not starved", "statement": "While a task waits in the queue of a thread_pool, the number of other tasks that start is bounded by the tasks that take precedence over it: those of higher priority and those of the same priority queued before it; and tasks given later cannot keep it waiting for ever.", "quantifier": "every execution of every pool, every waiting task, every part of the execution during which it waits", "why_tests_cant": "Starvation is a matter of executions of unbounded length.", "anchors": ["include/pluto/thread_pool.hpp: run_async, do_work"]}
{"id": "C178", "title": "the sizes of the buffer may change while an entry is added", "statement": "add_log_to_buffer reads the maximum size and the flush size at different times. Whatever the setters do in between, the outcome is one that reading both at once could have had, with buffer_max_size(n) taking effect a little later, and no entry is lost, no call goes uncounted and no full buffer is left unwritten because of it.", "quantifier": "every execution, with the two reads as separate steps and every interleaving of the setters", "why_tests_cant": "A setter has to run between two adjacent loads of another thread.", "anchors": ["include/pluto/logger.hpp: add_log_to_buffer, buffer_max_size, buffer_flush_size"]}
{"id": "C179", "title": "processes that share a log file may rotate it", "statement": "When several processes log to the same file and rotate it, what each of them has written is in the files, once, in whole lines and in each file in order, except for files that were removed because they lay beyond the rotation limit.", "quantifier": "every number of processes, every interleaving of their file system operations, every rotation size and limit, every failure of an operation of the rotation", "why_tests_cant": "The loss needs two processes to interleave between two adjacent calls of the file system.", "anchors": ["include/pluto/logger.hpp: rotate_file, write_buffer_to_file, open_file_stream"]}
{"id": "C180", "title": "a log file may have several names", "statement": "When a program logs to one file under several names, such as log.txt and ./log.txt, the files contain what was logged under all the names, each entry once and in the order of the calls, apart from what the rotation limit removes.", "quantifier": "every execution of the logger, every number of names, every setting, every failure of the file system", "why_tests_cant": "The order depends on how calls, the logging thread and rotation interleave.", "anchors": ["include/pluto/logger.hpp: write_buffers_to_file, write_buffer_to_file, add_log_to_buffer"]}
{"id": "C181", "title": "a log file can be read back", "statement": "The lines of the default writer tell apart any two sequences of entries that differ in what a line has room for: local time, microseconds, thread, name of the level, line, message, and the first 20 characters of the names of the file and the function; entries that agree in these give the same file. (Refuted for messages with line breaks, which look like several entries. Proved for all entries of the years 1970 to 9999 whose message has no line break, whatever the names contain and however long the numbers are; the message follows a bar.)", "quantifier": "every two sequences of entries", "why_tests_cant": "The tests search for the last bar in a line of a message without bars; two sequences of entries that give the same file are not looked for.", "anchors": ["include/pluto/logger.hpp: default_log_writer", "include/pluto/logger.hpp: write_buffer_to_file"]}
{"id": "C182", "title": "what a full disk leaves", "statement": "After any number of calls of write_buffer_to_file, with writes that fail at any byte and processes killed at any time, every log file is made of whole lines in the order of the entries. (Refuted: a write that fails part-way leaves a piece of a line, the stream offers bytes that the operating system already took once more when it is closed, and the next line follows without a line break, while the entries have left the buffer. Proved for all executions: every file is an old file, or nothing, followed by what streams left, each a first part of the lines of consecutive entries, cut anywhere, and possibly some of these bytes and what follows them once more; streams later in a file have later entries, and files with smaller numbers have later entries than files with greater ones. Without rotation a call changes one file, by appending; a call that returns without failing writes appends exactly its lines, also after calls that failed.)", "quantifier": "every sequence of calls, every way in which writes and operations on the file system fail, every moment at which a process is killed", "why_tests_cant": "Tests do not fill the disk, and a write may fail at every byte.", "anchors": ["include/pluto/logger.hpp: write_buffer_to_file", "include/pluto/logger.hpp: rotate_file", "include/pluto/logger.hpp: open_file_stream"]}
{"id": "C183", "title": "the writers of the example programs", "statement": "The lines of the example programs show their entries: in log_split_levels lines and header line up in columns and each level has its own file; in log_with_setters and log_with_macros a line shows the time to the millisecond, process, thread, source, level and message, and lines sort by time. (Refuted for the time in log_with_setters and log_with_macros: the milliseconds are written after the decimal point without leading zeros, so 9 ms reads as 900 ms and the line of 10 ms sorts before it. Proved: the fraction is right exactly if the milliseconds are 0 or at least 100; everything else in the line is right; the columns of log_split_levels line up under the conditions of C68.)", "quantifier": "every entry and state of the stream", "why_tests_cant": "The examples have no tests; nine of ten times have three digits.", "anchors": ["examples/log_split_levels/log_split_levels.cpp: custom_log_writer", "examples/log_with_setters/log_with_setters.cpp: custom_log_writer", "examples/log_with_macros/log_with_macros.cpp: custom_log_writer"]}
{"id": "C184", "title": "element operations and allocations that throw", "statement": "When constructing or assigning an element, or allocating memory, throws in reverse, filter, replace or replace_any_of, the argument is as it was before, or at least has all its elements. (Refuted: reverse may lose one element and have another one twice, also if the operations that throw have no effect and moving is copying; replace and replace_any_of leave the string with some occurrences replaced, and calling them again may then replace in what was put in. Proved for all element types and all ways to throw: reverse has swapped the outer pairs, the inner elements are as they were, and at most one element of the pair in between is lost; filter still has every element to keep, in order; of a string the first occurrences are replaced and the rest is as it was; a replacement that is no longer than the text it replaces needs no memory; calling replace_any_of again completes the work if the replacement has none of the characters searched for.)", "quantifier": "every list or string, every element type and every operation or allocation that throws", "why_tests_cant": "The tests use elements that do not throw and memory that does not run out.", "anchors": ["include/pluto/iterator.hpp: reverse", "include/pluto/iterator.hpp: filter", "include/pluto/container.hpp: reverse", "include/pluto/container.hpp: filter", "include/pluto/string.hpp: replace", "include/pluto/string.hpp: replace_any_of"]}
{"id": "C185", "title": "stopwatches whose clock is set", "statement": "With any clock of std::chrono as PLUTO_STOPWATCH_CLOCK_TYPE the time of a stopwatch never decreases, and the parts of a running stopwatch that are read one after another combine to its time. (Refuted: on a clock that is set back while the stopwatch runs the time decreases and becomes negative, and so do its parts; parts read while a larger unit ends are wrong by that unit. Proved for every clock and all calls: the time shown is the time elapsed plus what the clock was set forward while the stopwatch ran, so that a clock set while it is stopped does no harm, and a clock that gains or loses at most one tick in k gives a time that is wrong by at most one part in k; the parts combine to the time when the smallest was read plus, for each larger unit, the difference between its counts at the two readings; hours, minutes and seconds read within the same minute are right.)", "quantifier": "every clock, every sequence of calls at any instants, every order and instants of the readings", "why_tests_cant": "Tests use the steady clock and do not read parts while a unit ends.", "anchors": ["include/pluto/stopwatch.hpp: PLUTO_STOPWATCH_CLOCK_TYPE", "include/pluto/stopwatch.hpp: time", "include/pluto/stopwatch.hpp: count", "include/pluto/stopwatch.hpp: hours_part"]}
{"id": "C186", "title": "the assertions of the thread pool's tests", "statement": "Every assertion of tests/thread_pool_tests.cpp holds in every execution, with any number of workers and of tasks. (Refuted for most tests: test_run_async, test_on_stop_join_all and test_run_sync_has_high_priority fail if the workers are quicker than the thread of the test, test_run_sync if two workers are still between the end of a task and the end of their turn, test_wait_until_no_tasks_waiting if the counter is read before the number of active workers, test_sanity and the tests of run_at and run_after if the workers do nothing during the sleep; the tests of run_at and run_after may even end the process. Proved: test_wait_until_all_tasks_complete and test_on_stop_complete_tasks never fail; test_wait_until_no_tasks_waiting does not if the workers are counted first; test_run_sync never fails exactly if there is one worker or at most one task, and all it reads besides the active workers is right; the tests that sleep pass if the pool is at rest when the sleep ends; no test is stuck in a call once the pool is at rest, and a test that schedules nothing does not end the process.)", "quantifier": "every number of workers and tasks, every interleaving, every clock", "why_tests_cant": "A run of a test is one interleaving; a test that is not synchronised passes or fails with the load of the machine.", "anchors": ["tests/thread_pool_tests.cpp: test_run_async", "tests/thread_pool_tests.cpp: test_run_sync", "tests/thread_pool_tests.cpp: test_wait_until_all_tasks_complete", "include/pluto/thread_pool.hpp: wait_until_all_tasks_complete", "include/pluto/thread_pool.hpp: run_after"]}
{"id": "C187", "title": "the assertions of the logger's tests", "statement": "Every assertion of tests/logger_tests.cpp holds in every execution: each message is read back from the file, and all entries are counted. (Refuted: nothing in the tests waits for the logging thread, and whatever time they sleep the file may not exist when it is read, for any number of entries. Proved: any number of tests in any order, run with one logger, pass if the logger is at rest whenever a sleep ends, although the file is removed between the tests; last_log_message returns the last message exactly if it has neither a bar nor an end of line; count_logs returns the number of entries and two lines of header exactly if no message has text after an end of line.)", "quantifier": "every list of tests, entries, levels and messages, every interleaving, every clock and time zone", "why_tests_cant": "They are the tests: a run is one interleaving, and the helpers that read the file are not tested.", "anchors": ["tests/logger_tests.cpp: count_logs", "tests/logger_tests.cpp: last_log_message", "tests/logger_tests.cpp: test_write_writes_all_logs", "include/pluto/logger.hpp: logging"]}
{"id": "C188", "title": "the assertions of the stopwatch's tests", "statement": "Every assertion of tests/stopwatch_tests.cpp holds however long the statements of the test take and whatever the period of the clock is. (Refuted: test_sanity fails if the sleep of one second takes two, and the three tests of restart() fail if the calls after it take as long as the sleep before; five tests that compare times around a sleep of a millisecond never fail exactly if the clock's period is at most a millisecond. Proved: the other six never fail, and the four pass exactly if the clock counts from one to less than two seconds, or less after restart() than before.)", "quantifier": "every period of the clock, every instant of every statement", "why_tests_cant": "They are the tests; how long a sleep or a call takes depends on the load of the machine.", "anchors": ["tests/stopwatch_tests.cpp: test_sanity", "tests/stopwatch_tests.cpp: test_restart_does_restart", "include/pluto/stopwatch.hpp: time", "include/pluto/stopwatch.hpp: restart"]}
{"id": "C189", "title": "the bytes of the log files", "statement": "With the default writers and the header on, each file of a logger that began with an empty disk is at any time empty or exactly the header followed by one line for each of its entries, whatever was rotated and whatever failed. After the destructor the files of a log, oldest first, have the newest of the accepted entries in order, and with the default rotation size there is one file: the header and the lines of all accepted entries.", "quantifier": "every interleaving of any number of threads, every list of entries and files, all settings of levels, buffers and rotation, every failure of the file system outside the destructor", "why_tests_cant": "The tests count lines or read the last message of a file that is not rotated and never fails to be written.", "anchors": ["include/pluto/logger.hpp: write_buffer_to_file", "include/pluto/logger.hpp: default_log_writer", "include/pluto/logger.hpp: default_header_writer", "include/pluto/logger.hpp: ~logger"]}
{"id": "C190", "title": "text of floating-point numbers in other locales", "statement": "Under a global locale with any decimal point and grouping, str of a floating-point number is the text of the classic locale with its digits before the point in groups and that point, and str_to reads a number in this form as the nearest number, so that str_to of str gives what it gives in the classic locale. (Refuted without a condition: with one character for both, 1.5 comes back as 15; under a German locale str_to reads 3.14 as 314, and the texts that str writes there mean other numbers elsewhere. Proved: it holds if the point and the separator differ and are no digits, signs or letters e; groups may have any sizes; a separator in front or two in a row give zero; texts without points and separators are read alike everywhere; with a point and no groups all is as in the classic locale.)", "quantifier": "every binary format, every number, every text, every decimal point, separator and grouping", "why_tests_cant": "The tests never set a locale, and a locale on the test machine is one of few.", "anchors": ["include/pluto/string.hpp: str", "include/pluto/string.hpp: str_to"]}
{"id": "C191", "title": "order and size of converted strings", "statement": "The conversions between string types keep the code points. Strings of UTF-8 and UTF-32 compare as their code points do, so that conversions between them keep the order of texts. UTF-16 strings compare in an order of their own, in which the code points beyond U+FFFF come before U+E000; a conversion to UTF-16 can swap two texts (a witness is proved). For every string, malformed or not, the result of a conversion has at most as many units per unit of the source, and at least as many, as the two encodings allow (UTF-16 to UTF-8: up to 3, UTF-32 to UTF-8: up to 4, UTF-8 to UTF-32: at least a quarter, and so on), and texts of every length reach these bounds.", "quantifier": "every platform, every pair of string types, all texts; for the sizes all strings", "why_tests_cant": "The tests convert a few literals; an order is about all pairs of texts, and the worst size of a malformed string is about all strings.", "anchors": ["include/pluto/unicode.hpp: str", "include/pluto/unicode.hpp: wstr", "include/pluto/unicode.hpp: u8str", "include/pluto/unicode.hpp: u16str", "include/pluto/unicode.hpp: u32str"]}
{"id": "C192", "title": "string functions on encoded text", "statement": "split, replace, join, find, rfind, contains, starts_with and ends_with see units only, and yet on texts in UTF-8, UTF-16 or UTF-32 they do what they would do on the code points: they never cut a character, never find one across two others, and commute with the conversions between string types. So do split_any_of, replace_any_of, split on spaces and the strip functions for sets and spaces that are characters of one unit, such as ASCII. With an empty separator, or with a set of characters of several units, they cut characters and make malformed strings (witnesses are proved).", "quantifier": "every platform and string type, all texts, separators and replacements", "why_tests_cant": "The tests use ASCII literals; that no text of any encoding has a false match is a fact about the encodings.", "anchors": ["include/pluto/string.hpp: split", "include/pluto/string.hpp: split_any_of", "include/pluto/string.hpp: replace", "include/pluto/string.hpp: replace_any_of", "include/pluto/string.hpp: join", "include/pluto/string.hpp: strip", "include/pluto/iterator.hpp: find", "include/pluto/iterator.hpp: contains", "include/pluto/iterator.hpp: starts_with"]}
{"id": "C193", "title": "change of case in encoded text", "statement": "upper and lower change a text in UTF-8, UTF-16 or UTF-32 into the text whose code points are changed, commute with the conversions between string types, and iequals, ifind, irfind, icontains, istarts_with, iends_with, is_lower and is_upper give on the units what they give on the code points. (Refuted for any locale: in one with ISO 8859-1 lower makes a malformed string of the UTF-8 text é, and upper of a hiragana letter. Proved for every locale whose case functions change only characters of one unit into such characters; the classic locale is one for every string type.)", "quantifier": "every platform and string type, all texts, every case function of this kind", "why_tests_cant": "The tests change the case of ASCII literals in one locale.", "anchors": ["include/pluto/string.hpp: upper", "include/pluto/string.hpp: lower", "include/pluto/string.hpp: is_lower", "include/pluto/string.hpp: iequals", "include/pluto/string.hpp: ifind", "include/pluto/compare.hpp: is_iequal"]}
{"id": "C194", "title": "lru_cache when comparing keys throws", "statement": "When operator< of the key type throws in a call, the cache is left as it was before the call, within its capacity, and every later call works. (Refuted: a capacity(n) whose eviction throws has taken the new capacity and leaves more than n pairs, after which every insert evicts one pair and adds one, so the size stays above the capacity until remove, clear or another capacity(n); and after a throw inside emplace the cache grows beyond its capacity. Proved for every history in which looking up and evicting may throw but emplace does not: no call is undefined, a call that throws changes nothing unless it is capacity(n), which drops only least recently used pairs, and every result is the specified one.)", "quantifier": "all key and value types with a strict weak order, all histories, every choice of throwing comparisons", "why_tests_cant": "The tests use keys whose comparison never throws, and a test tries one throwing comparison in one history.", "anchors": ["include/pluto/lru_cache.hpp: capacity", "include/pluto/lru_cache.hpp: evict_lru", "include/pluto/lru_cache.hpp: insert", "include/pluto/lru_cache.hpp: get", "include/pluto/lru_cache.hpp: remove", "include/pluto/lru_cache.hpp: contains"]}
{"id": "C195", "title": "lru_cache returns right values whatever throws", "statement": "Whatever allocation, copy or comparison throws in earlier calls, no call on an lru_cache is undefined, and a get that finds its key returns the value that the latest call which stored this key (and did not throw) stored. (Refuted when push_front throws in move_to_front: the map keeps an iterator to an erased node. Proved for every other throwing allocation or copy, also in emplace, where the list keeps a node without a map entry, and for every throwing comparison.)", "quantifier": "all key and value types with a strict weak order, all histories, every choice of throwing operations", "why_tests_cant": "The tests contain no operation that throws; the throws possible in a history are too many to try.", "anchors": ["include/pluto/lru_cache.hpp: insert", "include/pluto/lru_cache.hpp: get", "include/pluto/lru_cache.hpp: remove", "include/pluto/lru_cache.hpp: capacity", "include/pluto/lru_cache.hpp: move_to_front", "include/pluto/lru_cache.hpp: evict_lru"]}
{"id": "C196", "title": "safe_lru_cache when comparing keys throws", "statement": "When operator< of the key type throws in calls of several threads, the safe cache stays linearizable, no call is undefined, the mutex is released, and no thread sees more pairs than the capacity. (Refuted for the capacity: after a capacity(n) that threw in one thread another thread finds more than n pairs. Proved: no undefined call, no data race, no deadlock and every lock released wherever comparisons throw; linearizable, with the effects of throwing calls of C194, while emplace does not throw.)", "quantifier": "all key and value types with a strict weak order, any number of threads, all programs, all interleavings, every choice of throwing comparisons", "why_tests_cant": "The tests use one thread at a time and keys whose comparison never throws.", "anchors": ["include/pluto/safe_lru_cache.hpp: safe_lru_cache", "include/pluto/safe_lru_cache.hpp: capacity", "include/pluto/safe_lru_cache.hpp: insert", "include/pluto/safe_lru_cache.hpp: contains", "include/pluto/lru_cache.hpp: evict_lru"]}
{"id": "C197", "title": "an lru_cache stays within its capacity whatever throws", "statement": "Whatever allocation or copy throws in earlier calls, size() is at most capacity(). (Refuted: emplace throwing leaves a list node without a map entry; when that node is evicted no pair is erased, so a cache of capacity 2 comes to hold 3 pairs. Proved: size() exceeds capacity() by at most the number of calls in which emplace threw, over all histories in which push_front does not throw in move_to_front, and the bound is reached; throws before the latest clear() or capacity(0) do not count; wherever comparisons of keys throw instead, size() exceeds the highest capacity so far by at most the number of throws in emplace.)", "quantifier": "all key and value types with a strict weak order, all capacities, all histories, every choice of throwing operations except push_front in move_to_front", "why_tests_cant": "The tests contain no operation that throws, and the excess shows only several insertions after the throw.", "anchors": ["include/pluto/lru_cache.hpp: insert", "include/pluto/lru_cache.hpp: evict_lru", "include/pluto/lru_cache.hpp: capacity", "include/pluto/lru_cache.hpp: size"]}
{"id": "C198", "title": "a safe_lru_cache stays within its capacity whatever throws", "statement": "Whatever allocation or copy throws in the calls of several threads, no thread finds more pairs in a safe_lru_cache than its capacity. (Refuted: after a throw in emplace in one thread another thread's size() returns 3 on a cache of capacity 2. Proved: in every state of every execution size() exceeds capacity() by at most the number of calls made so far in which emplace throws, while push_front does not throw in move_to_front.)", "quantifier": "all key and value types with a strict weak order, any number of threads, all programs, all interleavings, every choice of throwing operations except push_front in move_to_front", "why_tests_cant": "The tests contain no operation that throws and use one thread at a time.", "anchors": ["include/pluto/safe_lru_cache.hpp: safe_lru_cache", "include/pluto/safe_lru_cache.hpp: size", "include/pluto/safe_lru_cache.hpp: insert", "include/pluto/lru_cache.hpp: evict_lru"]}
