{
 "C02": {
  "note": "C02_delete_finding: the documentation promises that all non-printable characters are escaped; DEL (0x7f) is left as it is."
 },
 "C19": {
  "note": "Full statement (clamping for all n) is false of the code: C19_substr_refuted / C19_substr_wrap show that pos + n wraps around for huge n != npos and an invalid view results. C19_substr_partial proves clamping for every n that does not wrap (and npos)."
 },
 "C21": {
  "note": "Finding: the stream is left in hex mode with fill character 0 (C21_stream_state_finding). Locale and stream flags other than base, fill and width are assumed to have their defaults."
 },
 "C23": {
  "note": "The branch for compilers without overflow builtins is modelled as well; there the conversion of numbers just above the maximum is undefined behavior for int and wider types (C23_portable_overflow_finding)."
 },
 "C26": {
  "note": "Proved: every number, infinity and NaN in the documented format is accepted; whatever is accepted has the documented format up to the 19th significant character, and exactly the documented format if the string has at most 19 characters. Refuted: the format is not enforced behind 19 significant digits (1234567890123456789abc has a value); 1e400 gives infinity although the documentation promises an empty result; .01e-2147483647 overflows an int."
 },
 "C27": {
  "note": "Proved: relative error bounds for float, double and long double (x87) over all numbers in the normal range, zero exact. Refuted: exactness for representable integers (to_number<double>(109) is not 109)."
 },
 "C29": {
  "note": "Proved: exact decision for unsigned and narrow integers and for int/long when the difference is representable; symmetry; for floating point no false negatives and false positives only within one ulp (the exact claim fails because the difference is rounded), NaN and infinities, within_ulp completeness and soundness, within_orders symmetry for signed types. Refuted: within_abs of int operands whose difference overflows is undefined (C29_within_abs_refuted); within_orders is not symmetric for unsigned operands; minus infinity is within a finite tolerance of -DBL_MAX."
 },
 "C31": {
  "note": "C31_zero_finding: the documentation says that the result is positive unless both arguments are zero; lcm(0, n) is 0."
 },
 "C33": {
  "note": "All IEEE formats (prec, emax arbitrary) and all integer types; accessor arbitrary."
 },
 "C34": {
  "note": "std::nth_element is modelled by its contract (a relation), so the theorems hold for every conforming implementation. Finding: two equal subnormal numbers give 0 (C34_subnormal_finding). Integer result types (which truncate the halves) are not claimed."
 },
 "C35": {
  "note": "Exact arithmetic over the reals, and IEEE arithmetic with the computed mean. Finding: with a NaN element the first element is removed (C35_nan_finding)."
 },
 "C36": {
  "note": "Exact arithmetic as the property states; NaN for too few elements in IEEE arithmetic; the double mean of integers is correctly rounded while sums stay below 2^53. std::pow(x,2) is taken as x*x."
 },
 "C37": {
  "note": "Also: pushing onto a buffer of capacity 0 is undefined behavior (finding)."
 },
 "C38": {
  "note": "Also: a moved-from run-time sized buffer may report size() > capacity() (finding)."
 },
 "C39": {
  "note": "at() is proved for all histories. The documented default value of unused slots is proved for histories without pops (resizes and clears included) and refuted after pop_back."
 },
 "C41": {
  "note": "Deque behavior and covering are proved for all histories. Exactness is proved for push_back-only histories (with clear and any resize) and for push_front-only histories that never enlarge a filled buffer; it is refuted for push_front after enlarging a filled buffer and after pops."
 },
 "C42": {
  "note": "Model of every SmallVector member function on an explicit memory of cells; all sequences of calls on any number of vectors refine VecSpec.meaning. Finding (not part of the claim): arguments that alias the vector's own elements are read after being moved or destroyed."
 },
 "C43": {
  "note": "UB outcomes of the model cover uninitialized reads, double construction/destruction, out-of-bounds and use after free; the counts of live elements and heap blocks are exact."
 },
 "C44": {
  "note": "Finding: insert(pos, n, value) and insert(range) compute size + n modulo 2^32 without a check."
 },
 "C45": {
  "note": "All four combinations of inner and heap storage, including the hand-over of heap buffers."
 },
 "C46": {
  "note": "Findings: a trigger() followed by reset() can be missed by a waiting thread (C46_pulse_finding); the destructor wakes waiting threads, as documented, but they then lock the destroyed mutex (C46_destroy_finding). The theorems C46_calls_return and C46_time_out assume fair scheduling (also of the mutex), which the C++ standard does not promise, and the latter that condition_variable::wait_until reports a time-out once the time is over."
 },
 "C47": {
  "note": "Finding: a trigger() followed by reset() can be missed by a sleeping thread (C47_pulse_finding). C47_ends assumes fair scheduling (see C46). The overloads of sleep without a Trigger (std::this_thread::sleep_for) are not modelled."
 },
 "C48": {
  "note": "Histories of a transition system with arbitrary interleaving; task ids are assumed not to have wrapped around modulo 2^64. The start time is compared with a clock reading made while the task was already in the queue (the system clock may be set back afterwards)."
 },
 "C50": {
  "note": "Finding: C50_cancel_running_refuted. The documentation says that TaskHandle::cancel() has no effect if the task is already running; in fact it drops the future of the handle first, so that is_complete() stays false and get_result() throws although the task runs to its end. What holds for tasks that are still pending is proved in full."
 },
 "C52": {
  "note": "Eventual execution is proved in two forms: from every reachable state of a living pool, without new calls, a worker can take a task; and in every infinite execution that is fair to each thread (strong fairness, also for the mutex: PoolFairSpec.v) and in which tasks return, a due task is executed or cancelled (C52_executed). Fairness of the scheduler and of std::mutex is a hypothesis: the C++ standard does not promise it. Finding C52_idle_worker_finding: with two workers, a task whose start time has come may have to wait for the end of another task although a worker is idle (the worker with the timed wait was given the other task)."
 },
 "C53": {
  "note": "The return of the destructor is proved in two forms: it can always go on to return, and in every fair infinite execution in which tasks return it does return (C53_destructor_ends). Findings: if the last shared_ptr is dropped inside a task the worker joins itself (std::terminate, C53_self_join_finding); if it is dropped while a task is inside add_task(), or by destroying a function object under the lock, the destructor waits for the mutex that its own thread holds (C53_self_deadlock_finding, C53_captured_owner_finding, C53_deadlock_permanent)."
 },
 "C54": {
  "note": "Findings: after get_result() the state is canceled (C54_complete_refuted); a task discarded by cancel_pending_tasks() is reported as complete (C54_canceled_refuted). The other parts of the property are proved."
 },
 "C55": {
  "note": "Findings: move assignment drops the target's pending action (C55_overwritten_finding); finally(f) moves from an lvalue f (C55_finally_lvalue_finding)."
 },
 "C56": {
  "note": "optional as a state machine over any number of variables with raw or live storage; refinement to the option type for every program, lifetimes and counts under throwing element operations, observers, relational operators. Findings: o.emplace(*o) reads a destroyed element; emplace that throws leaves the optional empty. Not covered: constexpr/trivial-destructor variant, hash."
 },
 "C57": {
  "note": "to_days/from_days/ok/is_leap/weekday with explicit int overflow and short/unsigned char truncation, related to a calendar specified by leap years, month lengths and the next-day relation. Finding: day numbers past the year 32767 wrap silently, those near INT_MAX overflow."
 },
 "C58": {
  "note": "Findings: fixed-extent constructors ignore the count (C58_fixed_extent_finding); arguments are unchecked (C58_unchecked_finding)."
 },
 "C61": {
  "note": "Proved for push_back, emplace_back, reserve, resize(n), shrink_to_fit, element assignment, assign(range), assign(init list), copy assignment, pop_back, clear, erase, swap, move assignment and move construction (also with throwing moves), and, if moves are noexcept, insert of one element and emplace. Every call is free of undefined behaviour at every throwing point and returns only with its specified effect (C61_every_call). The last sentence of the property is refuted for insert(pos, n, value), insert(pos, range), resize(n, value), assign(n, value) and, with throwing moves, insert of one element and emplace, which leak elements, and for constructors, which leak the heap block; hence partial. Finding: copy construction and assignment are declared noexcept for elements with noexcept copies although the allocation can throw.",
  "status": "partial"
 },
 "C62": {
  "note": "Accesses are the steps of the model; each step is one access to shared data under the mutex as in the code."
 },
 "C64": {
  "note": "weekday/month/year/year_month arithmetic with explicit int overflow; subtraction of INT_MIN excluded (negation overflows). The example shows January 31 + 1 month giving a date that is not ok."
 },
 "C65": {
  "note": "year_month_weekday (4-bit index, 4-bit weekday fields) and year_month_weekday_last."
 },
 "C66": {
  "note": "signed integral representations of any width with an integral ratio k of the units; hh_mm_ss in 64 bit ticks. round needs one unit of headroom at both ends of the representation."
 },
 "C67": {
  "note": "expected as a state machine over any number of variables with flag, union contents (raw, value, error), construction/destruction counters and an exception budget; all overloads selected by noexcept traits are modelled. Refinement to T + E for every program, and every observer."
 },
 "C68": {
  "note": "Proved: counts and lifetimes for all programs without exceptions; the exact outcome of every call with an exception anywhere; nothing happens if the types do not throw. Refuted (findings): the converting constructor leaks a default constructed T; assignment of a value/emplace over an error whose constructor throws assigns to a destroyed error; emplace over a value that throws leaves has_value() true with a destroyed value; swap of value and error with a throwing move is undefined; a throwing copy/move constructor ends in std::terminate (construct is noexcept).",
  "status": "partial"
 },
 "C69": {
  "note": "All callables are modelled with a user state they may change, so evaluation order and number of calls are visible. Not covered: ref-qualified/const overload selection, the C++14 decltype variants (same body)."
 },
 "C70": {
  "note": "Refuted: operator!= of expected<void, E> compares the errors with ==, so two equal errors are reported as different. Everything else is proved.",
  "status": "partial"
 },
 "C75": {
  "note": "C75_format: the text is the concatenation of what the items stand for in FmtSpec (date_text), and is the only such text. C75_missing_time, C75_invalid_date, C75_invalid_fields, C75_missing_parts: directives for fields that are not there make the call throw. C75_parts: years, months, days, weekdays, year_months and month_days are written as in any date they are part of. C75_F_negative_finding: %F writes negative years above -100 with the zeros before the sign (00-5-01-02). Modelled: the ONLY_C_LOCALE code; directives with E and O modifiers are in the model but not in the theorems. C75_D_negative_finding: %D writes year -5 as -5.",
  "status": "proved"
 },
 "C76": {
  "note": "C76_local, C76_sys, C76_duration, C76_negative. The day is the floor of the division by the length of a day. C76_R_sign_finding: %R drops the sign of a negative duration. %q (the unit) is in the model but not in the theorem. C76_twelve_hours_finding: %I of durations of more than a day writes hours above 12 (13 PM).",
  "status": "proved"
 },
 "C77": {
  "note": "C77_date for all formats of any length; C77_injective follows. The findings show that the hypotheses are needed: years above 9999, %e, ambiguous names, two-digit years, %y together with %g."
 },
 "C78": {
  "note": "C78_sys, C78_local and C78_duration, including the long double arithmetic (Flocq). Findings: negative durations and durations of 100 hours or more cannot be parsed, %j with %T counts days twice, %H with %I but without %p rejects every afternoon."
 },
 "C79": {
  "note": "C79_iso/C79_iso_rejects: %F accepts exactly the documented texts. C79_hours_minutes: the same for %R and durations of any resolution; minutes above 59 are accepted (C79_minutes_finding). C79_date_minutes: the same for \"%F %R\" and time points of 10^-w seconds, w <= 7; the white space may be missing (C79_no_space_finding); C79_date_minutes_sys for sys_time. C79_clock: %T as a duration accepts exactly two numbers with colons followed by a digit or a decimal point; its value is in C89_duration. C79_date_clock, _accepts, _rejects: \"%F %T\" accepts exactly date_clock (date, optional white space, time of day with the longest run of seconds that fits). C79_sound/C79_contradiction: for formats over %YymdeFDxbBhaAuwjUWCGgV in which everything is compared (compared) every piece read is true of the resulting date, so contradicting text is rejected. The clause is false in general: %C without a two-digit year is not compared (C79_contradiction_refuted), the ISO year and week are not compared if the date follows from %U or %W (C79_week_unchecked_finding), weeks beyond the ISO year are accepted if year, week and weekday give the date (C79_iso_week_finding); the day of the year and zero months have further gaps (findings). C79_wide_month_finding: %3m reads 257 as January.",
  "status": "partial"
 },
 "C80": {
  "note": "Proved for year, month, day, weekday, month_day, year_month_day, sys_time, local_time and durations of 10^-w seconds, w <= 7. Missing: year_month, whose year is not checked (C80_year_month_refuted: '%m' on '5' succeeds with the invalid year -32768); for it the month is valid (C80_year_month_partial). Findings about the excluded formats: widths overflow (%10Y), %z on '-ab' negates minutes::min(), '%t99999999999' overflows the width, nanoseconds overflow in %S. sys_time of nanoseconds overflows for years beyond 2262 (C80_far_years_finding). C80_sys_local: without an offset in the format sys_time and local_time give the same result.",
  "status": "partial"
 },
 "C81": {
  "note": "One theorem for each type, over all values of the type, valid or not. C81_earliest_finding: operator<< for the earliest nanosecond time points overflows (undefined behavior) because it computes the midnight before them.",
  "status": "proved"
 },
 "C82": {
  "note": "std::to_string is modelled by its contract (printf %d, %f in the C locale). Moving a ConvertingStringView is not modelled. Finding: a copy of a ConvertingStringView made from a number or character must not be used after the original is destroyed (C82_copy_finding)."
 },
 "C83": {
  "note": "The compiler's text is a parameter. Finding: a type name that contains a semicolon is cut off there (C83_semicolon_finding)."
 },
 "C84": {
  "note": "The steady clock is a parameter; std::chrono::duration_cast is modelled by its contract. Finding: a unit with a narrow representation wraps around (C84_narrow_finding)."
 },
 "C85": {
  "note": "Proved for legal and illegal arguments, for success and if the first thread is refused. Refuted if a later thread is refused: the vector of running threads is destroyed while the exception leaves the constructor, so that std::terminate is called (C85_later_refuted).",
  "status": "partial"
 },
 "C86": {
  "note": "Proved for SlidingBuffer: consistent after every history, exact effect of every call that throws, push_back strong. Refuted, for elements that behave well: a push_front that throws leaves a stale element at the front (and drops the last one of a filled buffer), because the indices are changed before the assignment; a resize that cannot allocate leaves the elements rotated, because they are rotated first; SlidingBufferExposed::resize leaves an inconsistent buffer if a move throws while shrinking (proved consistent for moves that do not throw).",
  "status": "partial"
 },
 "C87": {
  "note": "Refuted part: std::move(x).or_else(f) with a void f that takes the error by value returns the moved-from error (C87_or_else_void_refuted); it is returned intact for lvalues, const objects and callables that leave it alone (C87_or_else_void_partial). Finding: or_else calls std::terminate when copying or moving the content throws, although it is not noexcept (C87_or_else_terminates_finding).",
  "status": "partial"
 },
 "C88": {
  "note": "The histories of C48-C54, C62 contain failed calls. Finding: a worker that runs out of memory while it registers its task (ThreadPool.cc:239-240) ends the process by std::terminate (C88_worker_aborts_finding); C88_abort says when this can happen."
 },
 "C89": {
  "note": "Proved for formats in which AM/PM stands with %I and in which the parts are compared (the conditions of C79). Refuted parts: %p without %I is ignored, so 13 AM is accepted (C89_ampm_refuted); the hour 0 of %r counts as not given and its PM is ignored (C89_hour_zero_refuted); %H with %I but without %p rejects every afternoon hour except 12, as the test reads I == H + 12 instead of H == I + 12 (C89_afternoon_refuted). Findings: a point without digits counts as zero seconds, and the minutes of %z may exceed 59. The theorem on rejection (C89_contradiction) leaves out %z, whose arithmetic can overflow on a failed parse (C80). Not covered: %Z, %n, %t, field widths, E and O modifiers, and precisions beyond 10^-7 seconds.",
  "status": "partial"
 },
 "C90": {
  "note": "Full statement proved, for a/b/c and a/(b/c). Finding C90_division_finding: two leading ints are divided as integers, so 28/2/day(3) compiles and is the third of month 14, and a zero divisor is undefined behaviour."
 },
 "C91": {
  "note": "Full statement proved for values the classes can hold. Finding C91_wrap_finding: an index above 15 wraps, so Monday[17] is valid and means the first Monday; an invalid weekday above 15 can become valid in the same way."
 },
 "C92": {
  "note": "RefModel.v transcribes the overloads for the four value categories; C92_access, C92_value_or, C92_get and C92_visit give the meaning, C92_kept, C92_copied and C92_moved say which constructors can be called, for arbitrary constructors."
 },
 "C93": {
  "note": "Findings: an int does not convert to double although every int fits (C93_integer_to_float_finding); an int is ambiguous between long and long long (C93_ambiguous_finding)."
 },
 "C94": {
  "note": "The size functions need a range of fewer than 2^64 elements (2^63 for the undefined case). Iterators are random-access positions. The iterator overload of remove_outliers is not modelled: its call with an rvalue view of const type resolves to the in-place overload, which uses begin() and erase() of the view, so by reading it does not compile when instantiated (the tests do not instantiate it)."
 },
 "C96": {
  "note": "The rounding up to nanoseconds is that of condition_variable::wait_for of libstdc++; other libraries may differ. The waiting itself is the subject of C46 and C47."
 }
}