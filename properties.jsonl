{"id": "C01", "title": "unescape inverts escape", "statement": "For every byte string s, unescape(escape(s)) returns exactly s.", "quantifier": "all byte strings of any length, including NUL, backslashes, quotes and bytes >= 0x80", "why_tests_cant": "There are infinitely many strings, and the interesting ones are interactions (a literal backslash followed by x41, a hex escape followed by hex digits) that a test list samples only sparsely.", "anchors": ["src/escape.cc: escape, unescape", "include/gul14/escape.h"]}
{"id": "C02", "title": "escape produces printable ASCII only", "statement": "Every byte of escape(s) lies in 0x20..0x7f (so no control byte below 0x20 and no byte >= 0x80 survives), every double quote in the output is preceded by a backslash that starts an escape sequence, and escape is injective: different inputs give different outputs.", "quantifier": "all byte strings", "why_tests_cant": "A quantification over all strings and over all pairs of strings.", "anchors": ["src/escape.cc: escape"]}
{"id": "C03", "title": "unescape leaves everything that is not a known escape sequence untouched", "statement": "unescape(s) is the result of reading s from left to right, replacing each of \\\" \\\\ \\n \\r \\t \\xHH (exactly two hex digits of either case) by the byte it denotes and copying every other byte verbatim; in particular a string without backslash is returned unchanged.", "quantifier": "all byte strings", "why_tests_cant": "The behaviour on malformed and overlapping escapes is an infinite family; tests contain a handful.", "anchors": ["src/escape.cc: unescape"]}
{"id": "C04", "title": "join inverts split", "statement": "join(split(text, delimiter), delimiter) == text for every text and every delimiter, including the empty text and the empty delimiter, and split always returns at least one element.", "quantifier": "all texts and all delimiters (string or single character)", "why_tests_cant": "The documentation states this as a guarantee for all inputs; self-overlapping delimiters such as \"aa\" and the empty delimiter make the index arithmetic delicate.", "anchors": ["include/gul14/join_split.h: split, join"]}
{"id": "C05", "title": "split cuts at exactly the leftmost non-overlapping delimiters", "statement": "For a non-empty delimiter, no element returned by split(text, delimiter) contains the delimiter, the elements appear in text order, and the cut points are the leftmost non-overlapping occurrences of the delimiter: each cut is at the first occurrence at or after the end of the previous delimiter.", "quantifier": "all texts and all non-empty delimiters", "why_tests_cant": "Requires a statement about every occurrence in every text.", "anchors": ["include/gul14/join_split.h: split"]}
{"id": "C06", "title": "split inverts join for delimiter-free parts", "statement": "For every non-empty list of parts and every single-character delimiter which occurs in none of the parts, split(join(parts, delimiter), delimiter) == parts.", "quantifier": "all non-empty lists of strings and all delimiter characters satisfying the condition", "why_tests_cant": "Universal over lists of strings of any length.", "anchors": ["include/gul14/join_split.h: split, join"]}
{"id": "C07", "title": "tokenize returns the maximal delimiter-free runs", "statement": "tokenize(str, delimiters) returns exactly the maximal non-empty runs of characters that are not in the delimiter set, in order; no token is empty, no token contains a delimiter character, and the result does not depend on repeated, leading or trailing delimiters.", "quantifier": "all strings and all delimiter sets, including the empty set", "why_tests_cant": "Universal over strings and delimiter sets.", "anchors": ["include/gul14/tokenize.h: tokenize, tokenize_sv, detail::tokenize"]}
{"id": "C08", "title": "trim removes exactly the surrounding whitespace", "statement": "str == l + trim(str, ws) + r where l and r consist only of ws characters and trim(str, ws) is empty or starts and ends with a non-ws character; trim_left and trim_right do the same on one side only; trim(str) == trim_left(trim_right(str)); all are idempotent.", "quantifier": "all strings and all whitespace sets", "why_tests_cant": "Universal over strings; the all-whitespace and the empty-set cases go through separate code paths.", "anchors": ["src/trim.cc: trim_sv, trim_left_sv, trim_right_sv"]}
{"id": "C09", "title": "replace is join of split", "statement": "replace(h, n, r) == join(split(h, n), r) for every non-empty needle n, and replace(h, \"\", r) == h; consequently replace(h, n, n) == h, and the replacement text is never searched again.", "quantifier": "all haystacks, needles and replacement strings", "why_tests_cant": "Universal over three strings, including replacement strings that contain the needle.", "anchors": ["src/replace.cc: replace"]}
{"id": "C10", "title": "replace_inplace agrees with replace", "statement": "After replace_inplace(h, n, r) the string h equals the value replace(h, n, r) returned for the old h, for every h, n and r, and the call terminates even when r contains n.", "quantifier": "all haystacks, needles and replacement strings", "why_tests_cant": "Two different algorithms must agree on every input; termination is a property of every run.", "anchors": ["src/replace.cc: replace, replace_inplace"]}
{"id": "C11", "title": "substring predicates are exact", "statement": "contains(h, n) is true iff h == a + n + b for some a, b; starts_with(h, n) iff h == n + b for some b; ends_with(h, n) iff h == a + n for some a. In particular every string contains, starts with and ends with the empty string.", "quantifier": "all pairs of strings (and the single-character overloads)", "why_tests_cant": "An equivalence whose negative direction speaks about all decompositions.", "anchors": ["include/gul14/substring_checks.h: contains, starts_with, ends_with"]}
{"id": "C12", "title": "nocase predicates equal plain predicates on lowercased strings", "statement": "equals_nocase(a, b) == (lowercase_ascii(a) == lowercase_ascii(b)), and likewise for contains_nocase, starts_with_nocase and ends_with_nocase; no other character is folded.", "quantifier": "all pairs of byte strings (and the single-character overloads)", "why_tests_cant": "Hand-written index loops (counting down with wrap-around) must agree with the specification on every pair.", "anchors": ["include/gul14/substring_checks.h: equals_nocase, contains_nocase, starts_with_nocase, ends_with_nocase"]}
{"id": "C13", "title": "ASCII case conversion", "statement": "lowercase_ascii and uppercase_ascii keep the length, change only A-Z respectively a-z, are idempotent, lowercase(uppercase(s)) == lowercase(s), and the in-place variants produce the same string.", "quantifier": "all byte strings", "why_tests_cant": "Universal over strings and over all 256 byte values.", "anchors": ["include/gul14/case_ascii.h", "src/case_ascii.cc"]}
{"id": "C14", "title": "hex_string of an integer is its fixed-width hexadecimal notation", "statement": "hex_string(x) has exactly 2*sizeof(x) lowercase hex digits, reading it as a base-16 number gives x (two's complement value modulo 2^bits), and it is injective.", "quantifier": "all integer widths and all values", "why_tests_cant": "2^64 values per type.", "anchors": ["include/gul14/string_util.h: hex_string(IntegerType)"]}
{"id": "C15", "title": "hex_string of a range concatenates fixed-width blocks", "statement": "hex_string(begin, end, sep) equals the per-element hex strings joined with sep; with an empty separator it is injective on sequences of integers.", "quantifier": "all element sequences and separators", "why_tests_cant": "Universal over sequences.", "anchors": ["include/gul14/string_util.h: hex_string(range)"]}
{"id": "C16", "title": "repeat and cat are concatenation", "statement": "repeat(s, n) is n copies of s (length n*|s|, character i is s[i mod |s|]) and cat(a, b, ...) is the concatenation of its arguments in order for every number of arguments.", "quantifier": "all strings, counts and argument lists", "why_tests_cant": "Universal over counts and argument lists.", "anchors": ["src/string_util.cc: repeat", "src/cat.cc: cat", "include/gul14/cat.h"]}
{"id": "C17", "title": "safe_string stops at the terminator and never reads past it", "statement": "safe_string(ptr, len) returns the longest NUL-free prefix of the at most len accessible bytes, returns the empty string for a null pointer, and reads no byte beyond min(len, position of the first NUL).", "quantifier": "all buffers, lengths and NUL positions, including buffers without any NUL", "why_tests_cant": "Memory safety must hold for every buffer content; a test cannot observe an over-read.", "anchors": ["src/string_util.cc: safe_string"]}
{"id": "C18", "title": "string_view searches return the exact extremal position and stay in bounds", "statement": "find/rfind/find_first_of/find_last_of/find_first_not_of/find_last_not_of return the smallest (respectively largest) admissible position with the searched property and npos iff none exists, for every start position including npos, and read no byte outside the two views.", "quantifier": "all views, all search arguments, all start positions in the full size_t range", "why_tests_cant": "Positions range over 2^64 values and the reverse searches use wrap-around arithmetic.", "anchors": ["include/gul14/string_view.h: basic_string_view::find, rfind, find_first_of, find_last_of, find_first_not_of, find_last_not_of"]}
{"id": "C19", "title": "string_view::substr clamps to the view", "statement": "substr(pos, n) throws out_of_range iff pos > size(), and otherwise returns the min(n, size()-pos) characters from pos, never leaving the original view.", "quantifier": "all views, all pos and all n in the full size_t range", "why_tests_cant": "The clamping test uses pos + n, which can wrap around; only a quantification over all size_t values covers it.", "anchors": ["include/gul14/string_view.h: basic_string_view::substr"]}
{"id": "C20", "title": "string_view comparison is a total lexicographic order", "statement": "compare() and the relational operators order views lexicographically by unsigned byte value, with a proper prefix smaller; == holds iff the contents are equal; the order is total, transitive and antisymmetric.", "quantifier": "all pairs and triples of views", "why_tests_cant": "Order laws quantify over all triples.", "anchors": ["include/gul14/string_view.h: char_traits::compare, basic_string_view::compare, operator==, operator<"]}
{"id": "C21", "title": "hexdump shows every byte at its offset", "statement": "For every byte sequence of at most 16000 elements hexdump emits one line per started group of 16 elements (one line for the empty sequence), each line carrying the hexadecimal offset and two hex digits per element and a 16-character text column; the data can be reconstructed from the output. Longer inputs are cut after 16000 elements and marked as truncated.", "quantifier": "all data sequences and prompts", "why_tests_cant": "Universal over sequences; line and padding arithmetic depends on the length modulo 16.", "anchors": ["include/gul14/hexdump.h: detail::hexdump_stream, hexdump"]}
{"id": "C22", "title": "to_number<unsigned> accepts exactly the in-range digit strings", "statement": "to_number<U>(s) has a value iff s is non-empty, consists of digits 0-9 only and denotes a number <= max(U); the value is that number. Leading zeros are accepted, no overflow ever wraps.", "quantifier": "all strings and all unsigned widths", "why_tests_cant": "Universal over strings of any length; overflow can occur in the multiplication or in the addition.", "anchors": ["include/gul14/to_number.h: detail::to_unsigned_integer, to_number (unsigned)"]}
{"id": "C23", "title": "to_number<signed> accepts exactly the in-range numbers", "statement": "to_number<S>(s) has a value iff s is an optional '-' followed by at least one digit, all digits, denoting a number in [min(S), max(S)]; the value is that number; no signed overflow happens while converting.", "quantifier": "all strings and all signed widths", "why_tests_cant": "The boundary around min(S) has a special branch; universal over strings and widths.", "anchors": ["include/gul14/to_number.h: to_number (signed)"]}
{"id": "C24", "title": "to_number inverts decimal printing", "statement": "For every value v of an integer type, to_number<T>(decimal representation of v) == v.", "quantifier": "all integer types and all values", "why_tests_cant": "2^64 values.", "anchors": ["include/gul14/to_number.h: to_number"]}
{"id": "C25", "title": "to_number<bool> accepts exactly 0, 1, true, false", "statement": "to_number<bool>(s) is true iff s is \"1\" or equals \"true\" ignoring case, false iff s is \"0\" or equals \"false\" ignoring case, and has no value for any other string.", "quantifier": "all strings", "why_tests_cant": "The negative part quantifies over all other strings.", "anchors": ["include/gul14/to_number.h: to_number<bool>"]}
{"id": "C26", "title": "to_number<floating point> accepts only well-formed numbers", "statement": "to_number<F>(s) has a value only if s matches the documented grammar (optional minus, digits with optional point and optional exponent, or inf/infinity/nan/nan(chars) ignoring case), and out-of-range input gives no value.", "quantifier": "all strings", "why_tests_cant": "The accepted language is infinite; the implementation truncates long digit strings, which short test inputs never reach.", "anchors": ["include/gul14/to_number.h: detail::to_unsigned_float, to_normalized_float, parse_exponent, parse_inf_nan, to_number (floating point)"]}
{"id": "C27", "title": "to_number<floating point> is accurate", "statement": "For every well-formed decimal number, with or without minus sign and with any number of digits, whose value lies in the normal range of the type, to_number<F> has a finite value whose relative error is at most 2^-51 for double, 2^-24 + 2^-51 for float and 2^-57 for long double; a number with only zero digits gives zero; integers that F represents exactly are converted exactly.", "quantifier": "all well-formed numbers in range", "why_tests_cant": "Error bounds quantify over all significands and exponents.", "anchors": ["include/gul14/to_number.h: detail::to_normalized_float, to_unsigned_float", "src/to_number.cc: pow10"]}
{"id": "C28", "title": "clamp and abs", "statement": "clamp(v, lo, hi) lies in [lo, hi] whenever lo <= hi, equals v if v is already inside, and is the nearest bound otherwise; abs(x) is the mathematical absolute value for every x except the most negative signed value, where it overflows.", "quantifier": "all integer widths and values, all strict weak orders for the comparator overload", "why_tests_cant": "Universal over values and orders.", "anchors": ["include/gul14/num_util.h: abs, clamp"]}
{"id": "C29", "title": "within_abs / within_orders / within_ulp", "statement": "within_abs(a, b, tol) decides |a-b| <= tol for all operands, is symmetric in a and b and does not wrap for unsigned operands; within_ulp is symmetric and reflexive for finite values; within_orders is symmetric in its first two arguments.", "quantifier": "all operands of all arithmetic types", "why_tests_cant": "Universal over values; wrap-around for unsigned and overflow for signed operands occur only at extreme values.", "anchors": ["include/gul14/num_util.h: within_abs, within_orders, within_ulp"]}
{"id": "C30", "title": "gcd is the greatest common divisor", "statement": "gcd(a, b) is non-negative, divides both arguments, every common divisor divides it, and gcd(0, 0) == 0; for every pair of representable values whose absolute values are representable, without overflow.", "quantifier": "all integer widths and values", "why_tests_cant": "Universal over pairs of values; termination of the loop for all inputs.", "anchors": ["include/gul14/gcd_lcm.h: gcd"]}
{"id": "C31", "title": "lcm is the least common multiple", "statement": "lcm(a, b) is zero iff one argument is zero, and otherwise the least positive common multiple, whenever that multiple is representable.", "quantifier": "all integer widths and values", "why_tests_cant": "Universal over pairs of values.", "anchors": ["include/gul14/gcd_lcm.h: lcm"]}
{"id": "C32", "title": "bit manipulation touches exactly one bit", "statement": "bit_set, bit_reset and bit_flip change exactly the addressed bit of the value to 1, 0 or its complement and leave every other bit alone; bit_test reads exactly that bit; bit_set<T>(n) is 2^n.", "quantifier": "all integral types, values and bit numbers below the width", "why_tests_cant": "Universal over values, types and positions, including the sign bit and bits above 31.", "anchors": ["include/gul14/bit_manip.h: bit_set, bit_reset, bit_flip, bit_test, BitFunctionReturnType"]}
{"id": "C33", "title": "maximum, minimum and min_max ignore NaN and return an extremal element", "statement": "For every container with at least one non-NaN element maximum() (minimum()) returns an element of the container that is >= (<=) every non-NaN element; min_max returns both; the position of NaN elements is irrelevant. An empty floating-point container or one with only NaN elements gives NaN.", "quantifier": "all containers of every element type with or without NaN, all NaN positions", "why_tests_cant": "NaN breaks ordinary comparisons, so the fold must be checked for every arrangement.", "anchors": ["include/gul14/statistics.h: maximum, minimum, min_max, MinMax"]}
{"id": "C34", "title": "median is the middle order statistic", "statement": "For a container of odd size median() returns the element with as many elements <= as >= it; for even size the correctly rounded mean of the two middle elements of the sorted sequence, lying between them (elements finite and either 0 or at least twice the smallest normal number in magnitude; integers below 2^52 give the exact mean); the result does not depend on the order of the input; an empty container gives NaN.", "quantifier": "all containers without NaN, all permutations", "why_tests_cant": "Universal over permutations of all containers.", "anchors": ["include/gul14/statistics.h: median"]}
{"id": "C35", "title": "remove_outliers removes the elements farthest from the mean", "statement": "remove_outliers(c, n) removes min(n, size) elements, one at a time, each being an element with maximal distance from the mean of the elements remaining at that point; the relative order of the remaining elements is preserved.", "quantifier": "all containers and all counts", "why_tests_cant": "Universal over containers; repeated means change after each removal.", "anchors": ["include/gul14/statistics.h: remove_outliers"]}
{"id": "C36", "title": "mean, rms and standard deviation", "statement": "Over exact arithmetic mean() is the sum divided by the count, rms() the square root of the mean square and standard_deviation() the square root of sum((x-mean)^2)/(n-1), with NaN for too few elements; adding a constant to all elements shifts the mean and keeps the deviation, scaling by k scales the mean by k and the deviation by |k|.", "quantifier": "all containers", "why_tests_cant": "Universal algebraic laws.", "anchors": ["include/gul14/statistics.h: mean, rms, standard_deviation, accumulate"]}
{"id": "C37", "title": "SlidingBuffer behaves like a bounded deque", "statement": "After any sequence of push_back, push_front, pop_back, pop_front, clear (and construction) on a SlidingBuffer of capacity N >= 1, size(), empty(), filled(), front(), back(), at(i) and operator[](i) for i < size() report the contents of a deque that drops its oldest opposite-end element whenever a push would exceed N.", "quantifier": "all capacities N >= 1, all operation sequences, all element values", "why_tests_cant": "The reachable ring-buffer states (begin/end wrap positions, full flag) and histories are unbounded.", "anchors": ["include/gul14/SlidingBuffer.h: SlidingBuffer"]}
{"id": "C38", "title": "SlidingBuffer resize keeps the elements that fit", "statement": "resize(n, behavior) and reserve(n) on a run-time sized SlidingBuffer keep all elements in order when n >= size(); when n < size() they keep the first n elements (keep_front_elements) or the last n (keep_back_elements). Afterwards capacity() == n, and the buffer continues to behave like a bounded deque of capacity n.", "quantifier": "all histories of pushes, pops, clears and resizes before and after the resize, all new capacities (including 0), both shrink behaviors", "why_tests_cant": "Resize interacts with every wrap position of the ring buffer.", "anchors": ["include/gul14/SlidingBuffer.h: SlidingBuffer::resize, reserve, change_capacity"]}
{"id": "C39", "title": "SlidingBuffer element access bounds", "statement": "at(i) throws out_of_range iff i >= size(); the documentation promises that operator[] with capacity() > i >= size() yields a default-constructed element.", "quantifier": "all reachable buffers and indices", "why_tests_cant": "Stale elements show up only after particular histories.", "anchors": ["include/gul14/SlidingBuffer.h: SlidingBuffer::operator[], at, pop_back, pop_front"]}
{"id": "C40", "title": "SlidingBuffer iterators visit the deque in order", "statement": "Iterating from begin() to end() visits exactly at(0), at(1), ..., at(size()-1); reverse iterators the reverse; end()-begin() == size(); begin()+i dereferences to element i.", "quantifier": "all reachable buffers and iterator positions", "why_tests_cant": "Universal over reachable states.", "anchors": ["include/gul14/SlidingBuffer.h: SlidingBufferIterator, begin, end"]}
{"id": "C41", "title": "SlidingBufferExposed reports the filled part in storage order", "statement": "SlidingBufferExposed keeps the deque behavior of SlidingBuffer (including resize). Its begin()/end() range always covers all stored elements; as documented it contains nothing else if only push_back() or only push_front() were used to add elements.", "quantifier": "all histories, element types with any moved-from value", "why_tests_cant": "Which part of the storage is exposed depends on the whole history.", "anchors": ["include/gul14/SlidingBuffer.h: SlidingBufferExposed"]}
{"id": "C42", "title": "SmallVector behaves like a sequence", "statement": "After any sequence of push_back, emplace_back, insert, emplace, erase, pop_back, resize, assign, clear, reserve, shrink_to_fit, copy and move on SmallVectors with any inner capacity, the contents, size(), empty(), at(), front(), back() and operator== are those of the mathematical sequence obtained by the same operations (arguments not aliasing the vector's own elements).", "quantifier": "all inner capacities, all operation sequences, all indices and values", "why_tests_cant": "Inline/heap transitions and element shifting depend on the whole history.", "anchors": ["include/gul14/SmallVector.h: SmallVector"]}
{"id": "C43", "title": "SmallVector manages element lifetimes exactly", "statement": "Every element slot is constructed before it is read, assigned only while alive, destroyed exactly once, and no operation touches memory outside the current buffer or a released buffer; when the vector is destroyed, no element and no heap block is left.", "quantifier": "all operation sequences without self-aliasing arguments", "why_tests_cant": "Undefined behaviour and leaks are not observable by ordinary tests.", "anchors": ["include/gul14/SmallVector.h: SmallVector, grow, make_space_at_idx_for_n_elements, uninitialized_move, destroy_range"]}
{"id": "C44", "title": "SmallVector capacity discipline", "statement": "capacity() >= size() and capacity() >= inner_capacity() always; the heap is used iff capacity() > inner_capacity(); operations that fit into the current capacity do not move elements to another buffer; reserve(n) guarantees capacity() >= n; growth adds at least half of the capacity (amortized constant push_back) and never exceeds max_size(), throwing length_error instead.", "quantifier": "all operation sequences", "why_tests_cant": "Universal over histories; the 2^32-1 limit cannot be reached in a test.", "anchors": ["include/gul14/SmallVector.h: reserve, shrink_to_fit, grow, is_storage_internal"]}
{"id": "C45", "title": "SmallVector swap and move exchange contents", "statement": "swap(a, b) exchanges the contents of two vectors in all four combinations of inline and heap storage, and moving transfers the contents leaving the source empty (or valid), without leaking or double-destroying any element; self-move and self-swap keep the contents.", "quantifier": "all pairs of reachable vectors", "why_tests_cant": "Four storage combinations times all sizes.", "anchors": ["include/gul14/SmallVector.h: swap, swap_heap_with_internal, swap_internal_with_internal, SmallVector(SmallVector&&), operator="]}
{"id": "C46", "title": "Trigger: a waiter returns only when triggered and is not missed", "statement": "wait() returns only after a moment during the call at which the trigger is set; operator bool, wait_for and wait_until return the state of the trigger at a moment during the call, and the latter return false only after the time-out has passed. If the trigger is set and no call of trigger() is in progress, no thread is blocked; from every state in which the trigger is set and no reset is in progress, every waiting thread can return without new calls, spurious wake-ups or time-outs, and as long as the trigger stays set each of its steps brings it nearer to its return. The object is not accessed after its destruction if no other call is in progress when the destructor is called. In every infinite execution in which no thread is neglected for ever and the object is not accessed after its destruction: calls that do not wait return; a call of wait(), wait_for() or wait_until() returns if the trigger is set and stays set; and wait_for() and wait_until() return when the time has passed, whatever happens to the trigger.", "quantifier": "all numbers of threads and all interleavings, including spurious wakeups and time-outs", "why_tests_cant": "Schedules are unbounded and not controllable in tests.", "anchors": ["include/gul14/Trigger.h: Trigger", "src/Trigger.cc"]}
{"id": "C47", "title": "sleep with trigger reports interruption", "statement": "sleep(duration, trigger) returns false iff the trigger is set at a certain moment during the call; it returns true only after the duration has passed; if the trigger is never set during the call it returns true, and if it is set throughout the call it returns false. In every infinite execution in which no thread is neglected for ever and the steady clock advances without end, it returns.", "quantifier": "all interleavings of triggering, resetting and time passing", "why_tests_cant": "Depends on schedules.", "anchors": ["include/gul14/time_util.h: sleep", "src/Trigger.cc"]}
{"id": "C48", "title": "ThreadPool runs every task at most once, only after it was added, and never before its start time", "statement": "In every execution each task added to the pool is started at most once, by one worker, only after it has been added, and not before its start time. A task that was canceled successfully, or that was discarded by cancel_pending_tasks(), is never started, and neither is a task that is still pending when shutdown is requested.", "quantifier": "all numbers of workers, all interleavings of all API calls, spurious wakeups, all settings of the clock", "why_tests_cant": "Schedules are unbounded.", "anchors": ["src/ThreadPool.cc: perform_work", "include/gul14/ThreadPool.h: add_task"]}
{"id": "C49", "title": "ThreadPool queue bounds and identifiers", "statement": "At all times count_pending() <= capacity(), at most thread-count tasks are running, task ids are unique and increasing in the order of add_task calls, and add_task throws iff the queue is full (or the pool arguments invalid in the constructor).", "quantifier": "all reachable states", "why_tests_cant": "Invariant over all interleavings.", "anchors": ["include/gul14/ThreadPool.h", "src/ThreadPool.cc"]}
{"id": "C50", "title": "ThreadPool cancellation is exact", "statement": "cancel_pending_task(id) returns true iff it removed a task that was pending and then that task never runs; it returns false without effect otherwise; cancel_pending_tasks() removes all pending tasks and returns their number. TaskHandle::cancel on a running or finished task has no effect (documented).", "quantifier": "all interleavings", "why_tests_cant": "Cancel races with workers picking up tasks.", "anchors": ["src/ThreadPool.cc: cancel_pending_task, cancel_pending_tasks", "include/gul14/ThreadPool.h: TaskHandle::cancel"]}
{"id": "C51", "title": "ThreadPool starts ready tasks in the order they were added", "statement": "Whenever a worker starts a task, no other pending task that was added earlier is ready (start time reached) at the worker's clock reading; with one worker and no delays tasks are executed in exactly the order they were added.", "quantifier": "all interleavings and delay patterns", "why_tests_cant": "Schedules and histories are unbounded.", "anchors": ["src/ThreadPool.cc: perform_work"]}
{"id": "C52", "title": "ThreadPool does not lose wakeups", "statement": "As long as shutdown has not been requested and a task is pending, some worker is awake, or a notification is still to be delivered, or a worker waits with a time limit not later than the first start time. A worker blocks without time limit only when nothing is pending, and otherwise until the first start time. From every state in which the pool is alive, whatever happened before, the calls and workers in progress can go on, without any new call from outside, until a worker takes a task or nothing is pending: no reachable state is stuck with a pending task. In every infinite execution in which no thread is neglected for ever, the pool is kept alive and the tasks return, every task whose start time has come is cancelled or taken, started and finished by one of the workers, however many other tasks are added and however unfavourable the order.", "quantifier": "all interleavings (for eventual execution: all infinite fair ones), numbers of workers, capacities, clock settings", "why_tests_cant": "Lost-wakeup bugs appear only in particular schedules.", "anchors": ["src/ThreadPool.cc: perform_work", "include/gul14/ThreadPool.h: add_task"]}
{"id": "C53", "title": "ThreadPool shutdown terminates", "statement": "After the destructor requested shutdown, no worker takes another task. Every statement that a worker executes from then on brings its return nearer and nothing that other threads do delays it, so that a destructor that is run by a thread outside of the pool can always go on to return, provided that the running tasks return. When it returns no task is running. And it does return: in every infinite execution in which no thread is neglected for ever and the running tasks return, a destructor that is run by a thread outside of the pool returns.", "quantifier": "all interleavings (for the return of the destructor: all infinite fair ones)", "why_tests_cant": "Depends on schedules.", "anchors": ["src/ThreadPool.cc: ~ThreadPool, perform_work"]}
{"id": "C54", "title": "ThreadPool task states are consistent with the task history", "statement": "get_state() reports pending exactly while the task is queued, running exactly while a worker executes it, complete after it has finished and canceled if it was removed before it ran; states only progress pending -> running -> complete or pending -> canceled.", "quantifier": "all interleavings of queries, cancellations, result retrieval and workers", "why_tests_cant": "The state is assembled from the queue, the running list and the future at different moments.", "anchors": ["include/gul14/ThreadPool.h: TaskHandle::get_state, is_complete, get_result, cancel", "src/ThreadPool.cc: get_task_state"]}
{"id": "C55", "title": "FinalAction runs its action exactly once", "statement": "Under any sequence of construction, move construction, move assignment and destruction of FinalActions, every action is executed at most once, and exactly once at the end if its owner was never overwritten by a move assignment.", "quantifier": "all sequences of operations on any number of FinalAction objects", "why_tests_cant": "Universal over histories.", "anchors": ["include/gul14/finalizer.h: FinalAction, finally"]}
{"id": "C56", "title": "optional has value semantics and exact lifetimes", "statement": "After any sequence of construction, copy, move, assignment, emplace, reset and swap, an optional holds the value the same operations on the mathematical option type give; the contained object is constructed and destroyed exactly once; value() throws bad_optional_access iff empty; the relational operators order nullopt below every value. Optionals that compare equal have equal std::hash values (0 without a value).", "quantifier": "all operation sequences on any number of optionals", "why_tests_cant": "Universal over histories.", "anchors": ["include/gul14/optional.h: optional"]}
{"id": "C57", "title": "Calendar conversion is a bijection", "statement": "Converting a valid year/month/day to a serial day number and back yields the same date, converting any day number in range to a date gives a valid date that converts back to the same number, consecutive day numbers are consecutive calendar days, and the weekday advances cyclically with the day number.", "quantifier": "all dates of all representable years and all day numbers in range", "why_tests_cant": "The range covers millions of days and the formulas rely on era arithmetic.", "anchors": ["include/gul14/date.h: year_month_day::to_days, year_month_day::from_days, weekday::weekday_from_days, year::is_leap"]}
{"id": "C58", "title": "span subviews stay inside", "statement": "first(n), last(n) and subspan(o, n) with arguments within size() denote exactly the corresponding subsequence of the viewed elements, stay inside the original span, and compose like list slicing; the relational operators are lexicographic.", "quantifier": "all spans and all admissible arguments", "why_tests_cant": "Universal over sizes and offsets.", "anchors": ["include/gul14/span.h: span"]}
{"id": "C59", "title": "Stream insertion of a view pads to the stream width", "statement": "os << view writes the characters of the view exactly once, preceded (or, with left adjustment, followed) by exactly max(0, width - size) fill characters, and resets the width to 0; string += view, string + view and view + string are concatenation.", "quantifier": "all views, widths, fill characters and adjustments; all strings", "why_tests_cant": "The padding is written in chunks with unsigned arithmetic; the claim is about every width and every size.", "anchors": ["include/gul14/string_view.h: operator<<, detail::sv_insert_aligned, detail::sv_insert_fill_chars, operator+=, operator+"]}
{"id": "C60", "title": "string_view element access and shrinking never leave the view", "statement": "remove_prefix(n) and remove_suffix(n) drop exactly min(n, size()) characters; copy(dest, n, pos) writes the min(n, size()-pos) characters from pos or throws out_of_range iff pos > size(); at(pos) returns character pos or throws out_of_range iff pos >= size(); a view made from a C string has exactly the characters before the first NUL and reads nothing behind it.", "quantifier": "all views, all size_t arguments, all C strings", "why_tests_cant": "Arguments range over the whole size_t domain, and over-reads are not observable in a test.", "anchors": ["include/gul14/string_view.h: remove_prefix, remove_suffix, copy, at, front, back, basic_string_view(const charT*)"]}
{"id": "C61", "title": "SmallVector exception guarantees", "statement": "If an element constructor/assignment or the memory allocation throws at any point, push_back, reserve, resize(n) and shrink_to_fit leave the vector unchanged (strong guarantee), assignment from a range or another vector leaves it empty, and pop_back, clear, erase, swap and move never throw for elements with a noexcept move; after any history of such calls with caught exceptions no element or heap block is leaked and the vector remains usable. Other calls keep at least the basic guarantee.", "quantifier": "all histories of calls, all points at which an element operation or an allocation throws", "why_tests_cant": "The throwing point is an additional universally quantified dimension: every element operation of every history could throw, and a leaked or doubly destroyed element has no visible effect in a unit test.", "anchors": ["include/gul14/SmallVector.h:push_back", "include/gul14/SmallVector.h:reserve", "include/gul14/SmallVector.h:resize", "include/gul14/SmallVector.h:shrink_to_fit", "include/gul14/SmallVector.h:assign", "include/gul14/SmallVector.h:swap"]}
{"id": "C62", "title": "ThreadPool: no data race, no access after destruction", "statement": "Queue, running list, shutdown flag and id counter are changed, and every operation takes effect, only while the acting thread owns the mutex, which at most one thread does; the destructor runs only when no shared_ptr to the pool is left, in one thread, and after it has ended all workers have returned and neither a call in progress nor a worker touches the pool again.", "quantifier": "all numbers of workers and clients, all interleavings, all ways in which the last shared_ptr can go away, including inside tasks", "why_tests_cant": "Races and lifetime errors appear only in particular schedules.", "anchors": ["include/gul14/ThreadPool.h: ThreadPool, TaskHandle", "src/ThreadPool.cc: ~ThreadPool, perform_work, lock_pool_or_throw"]}
{"id": "C63", "title": "hexdump stream forwarders dump what they were given", "statement": "A forwarder returned by hexdump_stream(container) can be copied, moved and assigned any number of times; writing it to a stream always writes the dump of the data and prompt it was created with, never data of another forwarder or of a container that was moved away or destroyed.", "quantifier": "all sequences of creation, copy, move, assignment and destruction of forwarders", "why_tests_cant": "Universal over histories; dangling iterators usually still print plausible output.", "anchors": ["include/gul14/hexdump.h: HexdumpParameterForward", "include/gul14/hexdump.h: hexdump_stream"]}
{"id": "C64", "title": "Arithmetic with weekdays, months and years", "statement": "Adding n days to a weekday, or n months to a month, wraps cyclically and agrees with moving the underlying day; the difference of two weekdays or months is the smallest non-negative step from one to the other. Adding n months to a year/month moves it by exactly n months, differences are exact, n years are 12n months, and comparison follows that count. Adding months to a date keeps the day of the month, so the result is a valid date exactly if the target month is long enough.", "quantifier": "all weekdays, months, representable years and int amounts whose result is representable", "why_tests_cant": "Carries across year boundaries and negative amounts are where such formulas break; the space of amounts is all of int.", "anchors": ["include/gul14/date.h: operator+(weekday, days), operator-(weekday, weekday), operator+(month, months), operator-(month, month), operator+(year_month, months), operator-(year_month, year_month), operator+(year_month_day, months)"]}
{"id": "C65", "title": "n-th and last weekday of a month", "statement": "Converting a day to a weekday-of-month date gives the right year, month, weekday and index, and converting back gives the same day. Such a date is reported ok exactly if the month has an i-th weekday of that kind, and then converts to that day. The last weekday of a month converts to the last day of that month that has this weekday.", "quantifier": "all days in range; all years, months, weekdays and indices", "why_tests_cant": "Depends on the weekday on which each month starts and on its length, for each of 65535 years.", "anchors": ["include/gul14/date.h: year_month_weekday::from_days, year_month_weekday::to_days, year_month_weekday::ok, year_month_weekday_last::to_days"]}
{"id": "C66", "title": "Rounding durations and splitting the time of day", "statement": "floor, ceil, trunc and round of a duration give the largest not greater, smallest not less, nearest towards zero and nearest (ties to even) multiple of the coarser unit, also for negative values. hh_mm_ss splits a duration into hours, minutes < 60, seconds < 60 and subseconds that add up to its absolute value and converts back to it. make12 and make24 are inverse to each other.", "quantifier": "all tick counts of the representation type, all ratios of the units", "why_tests_cant": "Negative durations and values next to multiples of the unit are easily missed; no test enumerates 64-bit tick counts.", "anchors": ["include/gul14/date.h: trunc, floor, ceil, round, abs, hh_mm_ss, make12, make24, is_am, is_pm"]}
{"id": "C67", "title": "expected: contents", "statement": "After any program of constructions (default, value, unexpected, copy, move, conversion), assignments (copy, move, value, unexpected), emplace, writes through operator* and error(), swap and destruction, each expected<T, E> holds exactly the value or the error that the sum type T + E predicts; has_value(), value() (throwing bad_expected_access with the error), operator*, error() and value_or() report it.", "quantifier": "all programs over any number of variables, all element types (any noexcept/trivial combination), all values and errors", "why_tests_cant": "The overload taken depends on four type traits and on both flags of both operands; a test fixes one combination.", "anchors": ["include/gul14/expected.h: expected, expected_storage_base, expected_operations_base, unexpected, bad_expected_access"]}
{"id": "C68", "title": "expected: lifetimes and exceptions", "statement": "Every T and E object created inside an expected is destroyed exactly once, no access outside a lifetime happens, and a call that throws because an operation of T or E throws leaves every expected variable with its old content (or, for swap of two values or errors, with some value or error) and in order.", "quantifier": "all programs, all points at which an element operation throws, all element types", "why_tests_cant": "Needs a fault at every construction inside every overload combined with every state.", "anchors": ["include/gul14/expected.h: expected::operator=, expected::emplace, expected::swap, expected_operations_base::assign, construct_with"]}
{"id": "C69", "title": "expected: monadic operations", "statement": "and_then, map/transform, map_error/transform_error and or_else call the callable exactly once with the value (or error) when it applies and not at all otherwise, return its result, and pass the other alternative on unchanged; chains obey the monad laws (associativity, map composition, identity), including side effects.", "quantifier": "all contents, all callables with side effects on any state", "why_tests_cant": "Tests use particular callables; the laws quantify over all functions.", "anchors": ["include/gul14/expected.h: and_then, map, transform, map_error, transform_error, or_else, detail::and_then_impl, expected_map_impl, map_error_impl, or_else_impl"]}
{"id": "C70", "title": "expected: comparison", "statement": "operator== holds exactly if both operands hold equal values or both hold equal errors; operator!= is its negation; comparison with a value or an unexpected agrees with comparison with an expected holding it; the same for expected<void, E>.", "quantifier": "all contents, all equality relations of T and E", "why_tests_cant": "Every combination of the alternatives and of the types' own operators.", "anchors": ["include/gul14/expected.h: operator==, operator!="]}
{"id": "C71", "title": "variant: contents", "statement": "A variant holds one value of exactly one alternative or is valueless. Every program of constructions, copies, moves, assignments from variants or values, emplace, writes through get, swaps and destructions leaves each variable with the contents that these calls prescribe; index() is the exact number of the held alternative for any number of alternatives and variant_npos only for a valueless variant.", "quantifier": "all programs of calls on any number of variables, all lists of alternative types with any mixture of trivial and non-trivial operations", "why_tests_cant": "Tests use a few alternative lists and short call sequences; the implementation has separate code paths for trivial, available and unavailable operations and for each combination of held alternatives.", "anchors": ["include/gul14/variant.h: variant, variant::operator=, variant::emplace, variant::swap, variant::index, variant::valueless_by_exception"]}
{"id": "C72", "title": "variant: lifetimes and exceptions", "statement": "In every reachable state, also after exceptions were caught, a call whose preconditions hold either has its effect or throws; there is no undefined behavior and no std::terminate, each value is destroyed exactly once, and after an exception the contents are one of the documented ones: unchanged, or valueless when a value of another alternative whose move may throw was to replace the old one or an emplace failed. With noexcept operations nothing is thrown, and if moves do not throw only emplace can make a variant valueless.", "quantifier": "all programs, all points at which an operation of an alternative may throw, all lists of alternative types", "why_tests_cant": "The point of failure ranges over every operation of every alternative in every state.", "anchors": ["include/gul14/variant.h: detail::destructor, constructor, move_constructor, copy_constructor, assignment, impl::swap"]}
{"id": "C73", "title": "variant: access and visitation", "statement": "get<I>, get_if<I> and holds_alternative agree with the contents: the value if alternative I is held, otherwise bad_variant_access, a null pointer or false. visit() calls the visitor exactly once with the values of all variants in the order of the arguments and returns its result, or throws bad_variant_access if any variant is valueless. A type selects an alternative exactly if it occurs once.", "quantifier": "all contents, all numbers of variants and alternatives, all visitors with side effects", "why_tests_cant": "The dispatch goes through a switch of 32 cases that recurses for more alternatives and once per variant.", "anchors": ["include/gul14/variant.h: get, get_if, holds_alternative, visit, visitation::base::dispatcher, find_index"]}
{"id": "C74", "title": "variant: comparison and hash", "statement": "A valueless variant is less than every other, then variants are ordered by alternative and then by value; all six operators agree with this order, which is a strict (total) order if the orders of the alternatives are. Equal variants have equal hashes, and values with the same hash in different alternatives give different hashes.", "quantifier": "all contents, all comparison operators and hash functions of the alternatives", "why_tests_cant": "Universal over contents and orders.", "anchors": ["include/gul14/variant.h: operator==, operator!=, operator<, operator>, operator<=, operator>=, std::hash<variant>, hash_combine", "include/gul14/utility.h: monostate"]}
{"id": "C75", "title": "Formatting a date writes the documented text", "statement": "For a valid year_month_day and a format made of ordinary characters and date directives, date::format returns the concatenation of what each item stands for: the year with sign and at least four digits, two-digit month and day, the names, the day of the year in three digits, the number of Sundays (%U) or Mondays (%W) seen so far in the year, the ISO year and week number (the year the week's Thursday belongs to and the rank of that Thursday), and so on. A directive that needs a field the value does not have makes the call throw. The modifiers E and O change nothing where they are allowed; where they are not, and for unknown directives and a percent sign at the end, the format is copied unchanged.", "quantifier": "All valid dates with years -32767 to 32767 and all formats of any length made of ordinary characters and date directives; %F for years from 0 or up to -1000, %D and %x for years from 0, %V %G %g for years -32765 to 32766.", "why_tests_cant": "There are 24 million dates times unboundedly many formats; the week rules differ at every combination of weekday and leap year at the year boundary.", "anchors": ["include/gul14/date.h:to_stream", "include/gul14/date.h:format", "include/gul14/date.h:extract_weekday"]}
{"id": "C76", "title": "Formatting a time point splits it at midnight", "statement": "Formatting a sys_time or local_time writes the date of the day the time point lies in (rounding towards the past, also before 1970) and the time since that midnight: hour, minute, second and exactly the decimals of the duration's period. For durations the hours are not limited to 24. A negative duration has one minus sign, before the first of %H %M %S or before %T.", "quantifier": "All time points whose day is in the calendar, all decimal periods down to picoseconds, all formats made of ordinary characters and date and time directives.", "why_tests_cant": "The set of time points and formats is infinite; truncation towards zero goes wrong only before the epoch.", "anchors": ["include/gul14/date.h:to_stream", "include/gul14/date.h:hh_mm_ss", "include/gul14/date.h:decimal_format_seconds"]}
{"id": "C77", "title": "Parsing a formatted date gives the date back", "statement": "If a format determines the date, then parsing the text that format produced with the same format gives the same date: the format has the year and either month and day, the day of the year, or a week number and a weekday, or it has the ISO year, ISO week and weekday; redundant directives are allowed in any order and number.", "quantifier": "All dates with years 0 to 9999 and all formats of any length made of ordinary characters and supported directives that determine the date.", "why_tests_cant": "The set of formats is infinite, and every combination of redundant fields is cross-checked by the parser; tests try a handful.", "anchors": ["include/gul14/date.h:from_stream", "include/gul14/date.h:parse", "include/gul14/date.h:scan_keyword", "include/gul14/date.h:read_signed"]}
{"id": "C78", "title": "Parsing a formatted time point gives the time point back", "statement": "Formatting a time point or a time of day with a format that determines date and time and parsing the result gives the same value, down to the last decimal of the seconds, although the parser reads seconds as a long double.", "quantifier": "All time points with years 0 to 9999, all decimal periods up to nanoseconds, all formats that determine date and time.", "why_tests_cant": "A rounding error would show for some of 6*10^10 fractional seconds only.", "anchors": ["include/gul14/date.h:from_stream", "include/gul14/date.h:read_long_double", "include/gul14/date.h:round_i"]}
{"id": "C79", "title": "Parsing accepts exactly the documented texts", "statement": "Parsing a date with %F succeeds if and only if the input starts with an optional sign, one to four digits, '-', one or two digits, '-', one or two digits that name an existing date, and then yields that date. If the format carries redundant information, contradicting input is rejected.", "quantifier": "All input texts.", "why_tests_cant": "The set of inputs is infinite; wrong acceptance shows only on inputs nobody thought of.", "anchors": ["include/gul14/date.h:from_stream", "include/gul14/date.h:read_unsigned", "include/gul14/date.h:checked_set"]}
{"id": "C80", "title": "Parsing arbitrary input is safe", "statement": "Whatever the input text, parsing with a format without field widths and without %z never has undefined behavior: it either succeeds with a valid value or sets failbit. (A digit that directly follows %t counts as a field width: at the end of the input it is read as one.)", "quantifier": "All input texts, all formats without widths and without %z, calendar types, and time points and durations of second to microsecond precision.", "why_tests_cant": "Overflow occurs only for particular digit sequences in particular combinations of directives.", "anchors": ["include/gul14/date.h:from_stream", "include/gul14/date.h:read", "include/gul14/date.h:read_long_double"]}
{"id": "C81", "title": "Streamed calendar values can be told apart", "statement": "The text written by operator<< determines the value: different valid dates, years, months, days, weekdays, time points or times of day give different texts, and the text of an invalid value never equals that of a valid one. The text is the documented one (two digits, names, year with at least four digits), followed by ' is not a valid ...' exactly if the value is not valid.", "quantifier": "All pairs of values of each calendar type.", "why_tests_cant": "A statement about all pairs of values.", "anchors": ["include/gul14/date.h:operator<<", "include/gul14/date.h:low_level_fmt"]}
{"id": "C82", "title": "cat concatenates texts, characters and numbers", "statement": "cat(a, b, ...) returns the concatenation of the texts of its arguments: strings and string views unchanged, C strings up to the terminating zero, characters as themselves, integers in decimal without superfluous zeros, floating-point numbers with six correctly rounded decimals, and existing ConvertingStringView objects with the text they were made from. Such a call never has undefined behavior as long as every ConvertingStringView that is passed, and the one it was copied from, still exists. Integers separated by a character can be split and read back.", "quantifier": "All argument lists of any length and any mixture of types, all integers and binary64 values, all programs that create, copy and destroy ConvertingStringView objects between calls.", "why_tests_cant": "Whether a view dangles depends on the order in which objects are created, copied and destroyed, and reading freed memory often looks right in a test; the numbers are infinitely many for practical purposes.", "anchors": ["include/gul14/cat.h:ConvertingStringView", "include/gul14/cat.h:cat", "src/cat.cc:cat"]}
{"id": "C83", "title": "type_name returns the name of the type", "statement": "type_name<T>() returns exactly the part of the compiler's description of the function that names T: for GCC and Clang the text between the first ' = ' and the next semicolon or the closing bracket, for MSVC the template argument. Types with different names get different results, and the result is always a part of the compiler's text.", "quantifier": "All type names without a semicolon, all compiler texts of the documented form; safety for all compiler texts.", "why_tests_cant": "Type names are unbounded, with nested templates, brackets and equals signs; tests can only sample some types on one compiler.", "anchors": ["include/gul14/type_name.h:type_name"]}
{"id": "C84", "title": "tic and toc measure elapsed time", "statement": "toc<Unit>(t0) returns the number of whole units that have passed since t0 = tic() for integer units of one or more nanoseconds (for units of which a whole number make up a nanosecond the exact number of units if it fits, undefined behaviour or, in unsigned 64-bit types, a wrapped result if it exceeds 64 bits), and the elapsed seconds as a double with a relative error of at most 3*2^-53 (correctly rounded during the first 104 days) without a unit; it is never negative and never decreases with time.", "quantifier": "All pairs of clock readings up to 292 years apart, all units that are a whole multiple or a whole fraction of a nanosecond, all integer representations the result fits into.", "why_tests_cant": "Depends on readings of a clock over years; rounding and overflow occur only for particular intervals.", "anchors": ["include/gul14/time_util.h:tic", "include/gul14/time_util.h:toc"]}
{"id": "C85", "title": "Creating a thread pool", "statement": "make_thread_pool(n, capacity) and ThreadPool::make_shared throw std::invalid_argument exactly for n = 0, n > 10000, capacity = 0 or capacity > 10000000, before any thread is started; otherwise they return a pool with n threads and an empty queue if the system starts all threads, and throw std::system_error if it refuses to start one of them.", "quantifier": "all numbers of threads and capacities, all patterns of threads that the system starts or refuses to start", "why_tests_cant": "Unit tests cannot make the operating system refuse a thread at a chosen point, and there is one such point for each thread of each pool size.", "anchors": ["src/ThreadPool.cc:ThreadPool::ThreadPool", "src/ThreadPool.cc:ThreadPool::make_shared"]}
{"id": "C86", "title": "A SlidingBuffer survives exceptions of its elements", "statement": "If an element's assignment, move or default construction or an allocation throws in push_back, push_front, clear or resize, the exception leaves the buffer usable: capacity, size, front, back, operator[] and at() agree with each other and no later call is undefined. push_back, push_front and resize that throw leave the contents as they were; clear leaves an empty buffer; pop_back and pop_front never throw.", "quantifier": "all element types (moves and assignments that may throw or not, with or without the strong guarantee), all capacities, all histories of calls with any of them throwing, at every point where an exception can occur, for SlidingBuffer and SlidingBufferExposed", "why_tests_cant": "a test can make one element throw at one point of one history", "anchors": ["include/gul14/SlidingBuffer.h:SlidingBuffer::push_back", "include/gul14/SlidingBuffer.h:SlidingBuffer::push_front", "include/gul14/SlidingBuffer.h:SlidingBuffer::clear", "include/gul14/SlidingBuffer.h:SlidingBuffer::change_capacity", "include/gul14/SlidingBuffer.h:SlidingBufferExposed::resize"]}
{"id": "C87", "title": "Value categories of expected", "statement": "and_then, map/transform, map_error/transform_error, or_else, value, operator*, error and value_or treat the object according to how it is named. A const object is never changed. A non-const lvalue is never moved from: only the callable can change it, through the reference it is given. From an rvalue everything is moved and nothing copied, so that move-only types work. The callable is invoked exactly once, with a reference of the object's category to its value (or error), or not at all; its exceptions reach the caller unchanged. A value remains a value and an error an error. or_else with a callable that returns nothing returns the error.", "quantifier": "all element types with any copy and move constructors (including throwing ones), all callables, all four value categories, all contents", "why_tests_cant": "Whether a reference is copied or moved shows only with element types and callables that observe it; there is one overload per category and operation.", "anchors": ["include/gul14/expected.h: expected::and_then, map, transform, map_error, transform_error, or_else, value, operator*, error, value_or", "include/gul14/expected.h: and_then_impl, expected_map_impl, map_error_impl, or_else_impl, bad_expected_access"]}
{"id": "C88", "title": "ThreadPool survives memory exhaustion in calls", "statement": "If memory runs out in add_task, get_pending_task_names or get_running_task_names, the call throws std::bad_alloc, leaves queue, running tasks, task ids, futures and shutdown state as they were, and has unlocked the mutex; no task id is used up, and everything the other ThreadPool properties promise continues to hold for the calls before, during and after it.", "quantifier": "all interleavings of workers, clients and destruction, and memory running out in any call", "why_tests_cant": "The moment at which memory runs out and the interleaving with other threads cannot be enumerated.", "anchors": ["include/gul14/ThreadPool.h: add_task", "src/ThreadPool.cc: get_pending_task_names, get_running_task_names, perform_work"]}
{"id": "C89", "title": "Parsing a time point accepts only text that is true of the result", "statement": "If parsing a time point (local or system time, up to 10^-7 seconds) with a format made of literal characters, the date directives of C79 and %H %I %p %M %S %R %T %X %r %c %z succeeds, then the result is a moment of an existing date, and the beginning of the text splits into one piece per part of the format, each of which says the truth about that date and time of day: the hour on the 24 and on the 12 hour clock, AM or PM, the minute, and the seconds, rounded to a nearest tick. What the format does not mention is zero. The difference to UTC read by %z is subtracted for a system time and ignored for a local time. Contradicting text is rejected. A duration that is parsed with %H %M %S %R %T %X is the sum of the hours, minutes and seconds that the text names. AM or PM is always compared with the hour, and consistent text is accepted.", "quantifier": "all formats of these directives, all texts, all precisions from seconds to 10^-7 seconds", "why_tests_cant": "There are infinitely many formats and texts; a test cannot show that no contradicting text is accepted, and the seconds go through long double arithmetic whose rounding must be right for every digit string.", "anchors": ["include/gul14/date.h: from_stream, parse, read_long_double, round_i, fields, hh_mm_ss"]}
{"id": "C90", "title": "Dates written with slashes", "statement": "An expression a/b/c of years, months, days (numbers, last, a weekday with an index, or the last one of a weekday) and plain ints compiles to a complete date exactly if its operands name one in the order year/month/day, month/day/year or day/month/year, where the order is fixed by the operands that are not ints and one of the first two is not an int; the date then consists of exactly these parts, the same for all orders and for y/(m/d), and converting it to a day count gives the day they name.", "quantifier": "every combination of operand types and every value of the operands", "why_tests_cant": "the operators are forty overloads for sixteen types; tests cover some literal dates in some orders", "anchors": ["include/gul14/date.h: operator/(const year&, const month&)", "include/gul14/date.h: operator/(const month&, const day&)", "include/gul14/date.h: operator/(const year_month&, const day&)", "include/gul14/date.h: operator/(const month_day&, const year&)", "include/gul14/date.h: weekday::operator[]"]}
{"id": "C91", "title": "Incomplete dates: validity, order and arithmetic", "statement": "ok() of a year, month, day, year_month, month_day, month_day_last, month_weekday, month_weekday_last, weekday_indexed or weekday_last, and of the complete date types, is true exactly if some date between the years -32767 and 32767 fits the value. The comparison operators of these types order them as the dates that fit are ordered. Adding or subtracting months or years moves the month by exactly that number and keeps the day, the last day, or the weekday and its index.", "quantifier": "every value of every one of the calendar types, every number of months or years that stays in range", "why_tests_cant": "whether a fifth weekday of a month or the 29th of February exists in some year cannot be read off single examples; the order must hold for all pairs", "anchors": ["include/gul14/date.h: month_day::ok", "include/gul14/date.h: weekday_indexed::ok", "include/gul14/date.h: month_weekday::ok", "include/gul14/date.h: operator<(const month_day&, const month_day&)", "include/gul14/date.h: operator+(const year_month_day_last&, const months&)", "include/gul14/date.h: operator+(const year_month_weekday&, const months&)"]}
{"id": "C92", "title": "optional and variant hand out lvalues as lvalues and rvalues as rvalues", "statement": "Whoever is given *o or o.value() of an optional, get<I>(v) of a variant, or is called by visit(), gets the stored value exactly once, through a reference that is const if the object is and an rvalue if the object is a (non-const) rvalue, so const objects never change and an lvalue changes only through that use. value_or copies the value of an lvalue or const object, which keeps it, and moves it out of an rvalue without ever calling the copy constructor; its argument is touched only when there is no value, and is copied or moved as its own category says. A get of the wrong alternative, a value() of an empty optional and a visit of a valueless variant throw and leave all objects alone, also rvalues.", "quantifier": "all four value categories of the object (and of value_or's argument), all element types with arbitrary, possibly throwing, copy and move constructors, all callables and visitors with arbitrary effects, any number of variants visited, all contents", "why_tests_cant": "A unit test tries one element type and one category at a time; that no combination of category, throwing constructor and callable moves from an object that should keep its value is a statement about all of them.", "anchors": ["include/gul14/optional.h: operator*, value, value_or, detail_::convert", "include/gul14/variant.h: get, generic_get, get_alt, visit"]}
{"id": "C93", "title": "A variant built from or assigned an arithmetic value never narrows it", "statement": "If a gul14::variant is constructed from, or assigned, a value of an arithmetic type, the value stored in the selected arithmetic alternative equals the given value. The selected alternative is the one closest to the argument's type (same type, promotion, other arithmetic type, class type) among those that can hold every value of that type; bool is only selected by bool. A value whose own type is one of the alternatives is stored there. If no alternative can hold all values, or none is closest, the program does not compile.", "quantifier": "for every argument type among the arithmetic types, every list of alternatives of any length and order, and every value of the argument type", "why_tests_cant": "The number of lists of alternatives is unbounded, and each test is one list with one value; that a narrowing conversion is never selected is a statement about all values of all types.", "anchors": ["include/gul14/variant.h:best_match", "include/gul14/variant.h:variant::variant(Arg&&)", "include/gul14/variant.h:variant::operator=(Arg&&)"]}
{"id": "C94", "title": "Statistics of an iterator range", "statement": "accumulate, mean, rms, standard_deviation, median, maximum, minimum and min_max called with two iterators give exactly what the container overload gives for a container that holds only the elements from the first iterator up to, not including, the second; elements in front of the range and behind it play no role. An empty range behaves like an empty container. If the second iterator lies before the first, or behind the end of the container, each of them runs out of the container (undefined behaviour).", "quantifier": "all containers, all positions of the two iterators, all accessors, all arithmetics and operators", "why_tests_cant": "the ranges, contents and accessors are unbounded; the tests use a few fixed ranges", "anchors": ["include/gul14/statistics.h:ContainerView", "include/gul14/statistics.h:make_view", "include/gul14/statistics.h:mean", "include/gul14/statistics.h:median", "include/gul14/statistics.h:standard_deviation"]}
{"id": "C95", "title": "Literals and named constants of dates", "statement": "The literal n_d is the day n for n up to 255 (ok exactly from 1 to 31) and n_y is the year n for n up to 32767 (always ok). For larger numbers only the last 8 (16) bits count, so that for example 257_d is the valid day 1. The names jan to dec and January to December are the months 1 to 12, and the names of the weekdays agree with each other (Sunday is 0 in both forms).", "quantifier": "all values of unsigned long long, all names", "why_tests_cant": "the tests use a few literals; truncation shows only for numbers nobody writes in a test", "anchors": ["include/gul14/date.h:operator \"\" _d", "include/gul14/date.h:operator \"\" _y", "include/gul14/date.h:January", "include/gul14/date.h:Sunday"]}
{"id": "C96", "title": "How long sleep(seconds, trigger) lasts", "statement": "sleep(s, trigger) that is not interrupted ends at the first nanosecond that is not before the (correctly rounded) number of nanoseconds s*10^9 after the call, for up to 2^53 nanoseconds; not positive numbers of seconds end at once; a longer sleep does not end earlier. For infinity, NaN and 9223372037 seconds or more (292 years) the conversion is undefined behaviour.", "quantifier": "all double values, all readings of the clock within 146 years of its epoch", "why_tests_cant": "rounding and overflow show only for particular durations, and the tests cannot wait that long", "anchors": ["include/gul14/time_util.h:sleep", "include/gul14/Trigger.h:Trigger::wait_for"]}
