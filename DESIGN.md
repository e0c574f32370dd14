# Formal model of gul14 in Rocq (Coq 8.16.1)

Nothing in /repo was built or run; the model is a hand transcription of the sources at the
pinned commit, function by function, with file and line references in comments.

## Layout and conventions

* `properties.jsonl`: the properties; `MANIFEST.json`: the theorems that prove each of them
  (written by `tools/manifest.py` from the names `Cnn_...`); `ASSUMPTIONS.md`: the result of
  `Print Assumptions` for every theorem (written by `tools/assumptions.py`).
* `rocq/theories/Base.v`: outcomes of C++ calls (`Ok`, `Throw`, `UB`, `Diverge`), byte strings
  as `list ascii`.
* `XModel.v`: model, computable Gallina definitions (or a transition relation for the
  concurrent classes), no proofs.  Each definition cites the lines it models.
* `XSpec.v`: the vocabulary of the theorems, independent of the model's helpers.
* `XProofs*.v`: lemmas.  `XProps*.v`: the theorems, an `Example` for each property that shows
  a concrete case meeting the hypotheses, and some `Print Assumptions`.
* Undefined behavior is the distinct outcome `UB` (`Undef`); `std::terminate` is another.
  Arithmetic modulo 2^32 or 2^64 and integer conversions are explicit where they can matter.
  Loops with a non-structural measure carry fuel; running out of it is the outcome `Diverge`,
  which the theorems exclude.
* Suffixes: `_partial` proves a part of the property, `_refuted` shows that the full statement
  is false of the code (the property then has status partial, the note says what is missing),
  `_finding` records a surprising behavior outside of the property.
* `seeded/`: wrong programs. `mutants/*.jsonl` are edits of the model, `mutate.py` applies each
  to a scratch copy and rebuilds, `LOG.jsonl` has the outcome of each attempt.

## Plan per property

| id | what is modelled | how it is proved |
|---|---|---|
| C01-C03 | escape.cc: both functions byte by byte; the regex of unescape as leftmost non-overlapping matching of the six escape forms | induction on the string, 256-case analysis per byte; spec = inductive relation |
| C04-C06 | join_split.h split/join loops with size_t positions | loop invariant relative to the unread suffix; spec = decomposition lemma |
| C07 | tokenize.h loop | loop invariant; spec = run decomposition relation |
| C08 | trim.cc through find_first_not_of/find_last_not_of/substr | list decomposition |
| C09, C10 | replace.cc both loops | common recursive characterisation, invariants |
| C11, C12 | substring_checks.h loops incl. down-counting indices | induction, existential decomposition spec |
| C13 | case_ascii | 256-case analysis + induction |
| C14, C15 | string_util.h hex_string on machine integers | base-16 positional lemma |
| C16, C17 | repeat, cat, safe_string (memory reads may be UB) | induction |
| C18-C20 | string_view.h with views as (buffer, offset, length), reads outside = UB | index invariants |
| C21 | hexdump.h stream formatter | induction on lines; decoder as spec |
| C22-C25 | to_number.h integer/bool conversions on w-bit integers | loop invariant value = digits read |
| C26 | float grammar part of to_number.h | recogniser vs. grammar relation; refutations where the code deviates |
| C27 | pow10 / scaling in rounded arithmetic | relative error analysis over Flocq |
| C28-C32 | num_util.h, gcd_lcm.h, bit_manip.h on w-bit integers with overflow = UB | Z arithmetic |
| C33-C36 | statistics.h folds over an abstract ordered type with NaN / a field | induction, permutation arguments |
| C37-C41 | SlidingBuffer.h (indices, full flag, storage) | refinement to a bounded deque by invariant over operation sequences |
| C42-C45 | SmallVector.h on a memory of cells with lifetimes, two buffers | refinement to lists, lifetime invariant |
| C46, C47 | Trigger.cc as labelled transition system with cv/mutex | inductive invariants over all schedules; for the return of calls: infinite executions with strong fairness per thread (TrigFairSpec.v), ranking arguments. Hypothesis of the time-out theorems: condition_variable::wait_until reports timeout once the time is over |
| C48-C54 | ThreadPool.{h,cc} as labelled transition system (workers, clients, clock, cv) | inductive invariants over all schedules; for eventual execution and the return of the destructor (C52, C53): infinite executions with strong fairness per thread (PoolFairSpec.v: a thread that is able to go on again and again, mutex included, does go on; the functions of the tasks return), ranking arguments |
| C55 | finalizer.h objects | invariant over operation sequences |
| C56 | optional.h (init flag + storage with lifetime) | refinement to `option` |
| C57 | date.h civil calendar arithmetic | Z arithmetic with era decomposition |
| C58 | span.h | list slicing |
| C59, C60 | string_view.h stream insertion, concatenation, element access, prefix/suffix removal, copy, constructors | index invariants; the output of a padded insertion as fill/content/fill |
| C61 | SmallVector.h with element operations that throw at an arbitrary point (a budget counts down to the exception) | symbolic execution and loop invariants; leaks are exhibited as refutations |
| C62 | the locking protocol of ThreadPool (who holds the mutex at each access of shared data; when the pool is destroyed) | inductive invariants over all schedules |
| C63 | hexdump.h HexdumpParameterForward and its operator<< | from C21 |
| C64-C66 | date.h weekday/month/year arithmetic, indexed and last weekdays, duration rounding, time of day | Z arithmetic with C++ conversions explicit |
| C67-C70 | expected.h: objects with flag and union, throwing element operations, monadic operations with side effects, comparison | refinement to a sum type by symbolic execution of every call in every reachable state |
| C71-C74 | variant.h: stored index, recursive union, trait classes (trivial/available/unavailable), throwing operations, 32-case switch dispatch, comparison, hash | refinement to `option (nat * A)` by symbolic execution of every call in every reachable state; induction for the dispatch |
| C75-C76 | date.h to_stream/format for ONLY_C_LOCALE=1: one function per directive, the loop over the format, splitting of time points | directive-by-directive refinement to an inductive text relation (digit strings, counting of weekdays, Thursday rule), induction over the format; a format is cut at its first NUL (`C75_nul`, `C76_nul`) |
| C77-C78 | date.h from_stream/parse for ONLY_C_LOCALE=1: input stream with eofbit and failbit, number readers, keyword scanner, resolution of the fields; seconds in 80-bit long double | induction over the format with the invariant "every field read so far has its true value", then a lemma on the resolution; error bound in Flocq for the seconds |
| C79-C80 | same; a text is compared piece by piece with what each directive says about the date | inversion of the readers and of the keyword search; an invariant bounding every field by its number of digits; the resolved date agrees with every field; `%R`, `%T`, `%F %R` and `%F %T` as if-and-only-if on the texts (ParClockSpec); sys_time and local_time agree without an offset (`C80_sys_local`); a format is cut at its first NUL (`C80_nul`) |
| C81 | operators << of the calendar types (FmtModel.v, SlashFmtModel.v); SlashFmtSpec.v: spelled | injectivity of the digit strings and names; the remark on invalid values from C91 |
| C82 | cat.h with ConvertingStringView objects: each has its own buffer and a view that points outside or into the buffer of some object; std::to_string by contract | simulation between the objects with pointers and a description without memory |
| C83 | type_name.h, both branches, on the string_view model; the compiler's text is a parameter | search lemmas of string_view |
| C84 | tic, toc; duration_cast by contract, binary64 arithmetic | integer division, rounding lemmas |
| C85 | the constructor of ThreadPool with a system that may refuse to start any of the threads (PoolCtorModel.v, on top of PoolModel.v) | induction over the threads that remain to be started |
| C86 | the calls of SlidingBuffer and SlidingBufferExposed::resize as relations: returned, raised an exception (leaving any storage C++ allows), or undefined (SbExcModel.v) | simulation: a storage of unchanged size always represents some deque; induction over the calls |
| C87 | the overloads of expected's accessors and monadic operations for the four value categories; copy and move constructors and callables are arbitrary functions of the world that may throw (ExpCatModel.v; ExpCatVoidModel.v for T = void) | case analysis over calls, categories and contents; independence of the copy (move) constructors as equality for any two of them |
| C88 | PoolModel.v: calls of add_task and of the functions that return names may end with std::bad_alloc at each allocation; PoolMemModel.v: a worker that runs out of memory | invariants of C48-C54; the thread that returns does not own the mutex |
| C89 | ParModel.v: the directives for times, resolve_hour and resolve_tod, round_sec in long double; ParSpec.v: time_given, moment, seconds_text | inversion of the loop over the format for every directive; error bounds of the long double operations show that the rounding is to a nearest tick |
| C90 | SlashModel.v: slash, one function over a sum of all operand types, with no result where there is no overload; SlashSpec.v: written, picked | case analysis over all operand types; the day named follows from C57 and C65 |
| C91 | SlashModel.v: val_ok, val_lt, val_eq, val_add_months and so on; SlashSpec.v: fits | a fitting date is constructed for every valid value; a year with a fifth weekday is found in the 28-year cycle 2000 to 2027; C64 for the arithmetic |
| C92 | operator*, value and value_or of optional, get and visit of variant for the four value categories; constructors, callables and visitors are arbitrary functions of the world that may throw (RefModel.v) | case analysis over categories and contents; visit by C73_visit; independence of the copy (move) constructors as equality for any two of them |
| C93 | the overload set of best_match for arguments of the 18 arithmetic types: narrowing check of each alternative, ranks of the conversions, best viable function, conversion of the value (VtSelModel.v) | viable alternatives are those that hold all values, by case analysis over types and extreme values; selected = closest, by induction over the list; conversion is exact on common values |
| C94 | the iterator-pair overloads of statistics.h: a container and two positions, loops that run until the positions meet | induction over the range; equality with the container functions |
| C95 | the literals _d and _y as chains of integer conversions, the named constants (DateLitModel.v) | arithmetic modulo 2^8 and 2^16 |
| C96 | the end of sleep(seconds, trigger) as a reading of the clock: conversion of a double to nanoseconds, rounded up, as in libstdc++ (SleepModel.v) | rounding lemmas of Flocq |


## What is modelled

| file in /repo | model | not modelled |
|---|---|---|
| escape, join_split, tokenize, trim, replace, substring_checks, case_ascii, cat, string_util | StrModel.v, StrSearch.v, CatModel.v | long double and moved ConvertingStringView objects in cat, the deprecated wrappers, output containers other than sequences |
| string_view.h | SvModel.v | character types other than char |
| to_number.h/.cc | ToNumModel.v, FloatModel.v | the fall-back for missing from_chars features of other platforms beyond the portable overflow branch |
| num_util.h, gcd_lcm.h, bit_manip.h | NumModel.v, IntModel.v, FloatModel.v | |
| statistics.h | StatModel.v, StatItModel.v (iterator pairs) | the iterator-pair overload of remove_outliers (see the note of C94); `std::nth_element` is its contract |
| SlidingBuffer.h | SbModel.v; with exceptions of elements and of the allocator: SbExcModel.v | exceptions of constructors, of comparisons and of operator<< |
| SmallVector.h | VecModel.v | over-aligned element types |
| Trigger.h/.cc, time_util.h | TrigModel.v, TocModel.v, SleepModel.v | sleep without trigger (it only calls std::this_thread::sleep_for) |
| ThreadPool.h/.cc | PoolModel.v, PoolCtorModel.v, PoolMemModel.v | relaxed memory (all accesses are shown to be under the mutex, C62) |
| finalizer.h | FinModel.v | |
| optional.h | OptModel.v, OptHashModel.v, RefModel.v | overload selection |
| expected.h | ExpModel.v, ExpCatModel.v, ExpCatVoidModel.v | overload selection (enable_if conditions) |
| variant.h | VtModel.v, RefModel.v, VtSelModel.v | overload selection by best_match for arguments of class, pointer and enumeration type, the result type of visit |
| span.h | SpanModel.v | |
| hexdump.h | HexModel.v | locale |
| date.h | DateModel.v, DateLitModel.v, FmtModel.v, ParModel.v, SlashModel.v | the locale-dependent configuration (ONLY_C_LOCALE=0) of %a %A %b %B %h %c %x %X %p %r and of E/O modifiers, periods that are not powers of ten, floating-point durations, stream width on operator<< |
| utility.h | VtModel.v (monostate) | in_place tags |
| type_name.h | TypeNameModel.v | FailToInstantiate (compile time only) |
| traits.h, internal.h, catch.h, version.h, gul.h | see below | compile-time only |

## Trusted base

* The kernel of Coq 8.16.1.
* Axioms of the standard library, used only by the theorems about real or floating-point
  numbers (`ClassicalDedekindReals.sig_not_dec`, `ClassicalDedekindReals.sig_forall_dec`,
  `FunctionalExtensionality.functional_extensionality_dep`, `Classical_Prop.classic`).  All
  other theorems are closed under the global context.  `ASSUMPTIONS.md` has the list for every
  theorem.  Nothing else is assumed: no axioms, no admitted lemmas, no kernel flags.
* Libraries: the standard library; Flocq (definitions and lemmas on IEEE 754 numbers, no axioms
  of its own) for C27, C29, C33-C36, C82, C84, C96 (and, through the model of statistics.h, C94).
* The transcription from C++ to Gallina as documented in the comments of the model files, and
  the contracts of the C++ standard library functions named there (for instance
  `std::nth_element`, `std::sqrt` correctly rounded, `std::hash<size_t>` the identity).
* Element types in the container models: one Gallina type with a function that says what a
  move leaves behind; operations of elements either succeed or throw without effect.
* Concurrency: sequentially consistent interleaving; C62 shows that all shared data is accessed
  under the mutex, so that this is the behavior the C++ memory model guarantees.
