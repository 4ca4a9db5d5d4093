# Formal model of Spine: design

The source is read as text from `/repo` (C++17); nothing is built or run. Everything below is Rocq (Coq 8.16.1).

## Layout

For each component `X` there are up to four files in `rocq/theories`:

* `XModel.v`  - the code, function by function, as total computable Gallina functions. Every definition
  cites the file and lines it models and says where it simplifies.
* `XSpec.v`   - what the property talks about (lists, sets of lines, calendar days, ...), written without using the model.
* `XProofs.v` - lemmas.
* `XProps.v`  - only the property theorems (`Proof. exact lemma. Qed.`), `Print Assumptions` for each, and next to
  each an `Example` showing a concrete non-trivial case that meets its hypotheses.

A property which is false of the code gets a theorem `..._refuted : exists ..., ...` (a concrete history and the wrong
observable outcome) next to the strongest true theorem, which carries the suffix `_partial` when it is weaker than the English
statement.

## Conventions of the model

* Outcomes: `Ok v` | `Halt` (a failed `spn_assert` in a build with `DEBUG_SPINE`: the exception handler is
  called and the platform is halted) | `UB` (an access outside the storage, a null dereference, a dereferenced end iterator, an
  integer division by zero, ...) | `Throw` (an escaping C++ exception) | `Fuel` (a loop which did not finish within the
  number of iterations given; only used to state termination and non-termination).
  Functions which contain `spn_assert` take the build mode `dbg : bool`. With `dbg = false` the macro is a no-op
  (`core/debugging.hpp`). On the mock platform `HAL::halt` returns, so a debug build of the mock platform without a
  throwing handler continues like `dbg = false` does.
* `size_t` is unbounded (`nat`) except where the code relies on wrap-around (overrun counter, `rend()` index,
  `size()-needle.size()`, the 16-bit lookup index of the pool); there the modulus is explicit.
* Elements of containers are abstract (`A : Type`). `std::move` out of a slot leaves `moved a` in it; zeroed memory is `zero`.
* Kernel time is a 64-bit count; every binary operator of `Unit` sends its right operand through single precision
  (`Unit::from_other`). This is modelled bit-exactly, see below.
* IEEE single precision in the filters and controllers is Flocq's `binary_float 24 128` with round-to-nearest-even
  (`BinarySingleNaN`: NaN payloads are not modelled).
* The clock: a function of the call (all reads of `HAL::millis()` inside one API call see the same value). On the
  mock platform this is exact. On hardware it may tick in between: C113 models that for
  `Timer::time_since_last`, `SRLatch::new_reading` and `Pipeline::push`.

## Plan per property

| Id | Modelled | Proof |
|----|----------|-------|
| C01 | `RingBuffer` with storage, head, tail, full flag, overrun counter | refinement to a list queue, induction over operation lists |
| C02 | rollover `push` | induction over the pushed list |
| C03 | all of `RingBuffer` | invariant by induction over operations incl. `drop_*(0)` |
| C04 | overrun counter with explicit `size_t` modulus | ghost counter refinement for capacity >= 2 without drops (`_partial`), witnesses for the rest |
| C05 | `drop_last`, `drop_first` | refuted by witness; exact behaviour for n = 0 proved |
| C06 | `LineBuffer` on the ring | refinement to splitting a list, induction over interleavings |
| C07 | `get_next_line` with the caller's buffer as memory | case analysis and induction |
| C08 | `get_next_line_view` as (offset, length) into the storage | exact condition (the line does not wrap); refuted otherwise |
| C09-C11 | `BufferedStream` over an abstract stream and over `MockStream` | induction over loop iterations; refutations |
| C12, C13 | `Transaction` over `BufferedStream` | refinement to (input lines, output bytes); refutations |
| C14-C20 | `Vector`, `Array`, iterators over a storage list with head and tail | refinement to lists, invariants; refutations |
| C21 | heap of blocks, Array objects with pointer, size, ownership flag | invariant over operation lists; refutations |
| C22-C24 | `Pool` with per-slot reference counts and the 16-bit index | invariants, scan lemmas, non-termination by induction on fuel |
| C25-C29 | `Pipeline`, `EventSystem` on top of Vector, Pool, AlarmTimer and kernel time | sortedness and permutation invariants over histories |
| C30, C31 | `Unit::from_other` for integral units in single precision over Z | bit-exact integer model linked to Flocq, exactness and error bounds, witnesses |
| C32, C33 | timers on kernel time | induction over clock readings; exact within 2^24 ms, deviation bounds beyond |
| C34, C35 | `Schedule` | list induction, arithmetic |
| C36 | `isleapYear`, `calcYearDay` | arithmetic, spec counts days one by one |
| C37, C38 | `SRLatch` | invariant over reading sequences |
| C39, C40 | `PIDController` in binary32 | invariant over histories; witnesses |
| C41, C42 | `PIDAutotuner` in binary32 | refinement to a relay; gains summed over the cycles; witnesses |
| C43-C47 | filters in binary32 | Flocq rounding lemmas (monotonicity), induction over samples |
| C48, C49 | `Result`, type lists | case analysis, induction |
| C50 | `CompoundUnit` with real parts and with kernel-time parts, in binary32 | rounding error bounds; witnesses |
| C51-C53 | string and time utilities | list induction; refinement of `parse_time` to a grammar |
| C54 | `logging.cpp:print` as buffer positions | arithmetic; witness |
| C55 | `fade_to` in binary32 | loop invariant; witnesses |
| C56 | mock clock | arithmetic; witness |
| C57 | `MockStream` with its two queues | induction over operations |
| C58 | the four increments and decrements of iterators | case analysis; witness |
| C59 | copies of an Array on the heap of C21 | witness; copies that only read |
| C60 | `Timer` | induction over readings |
| C61 | `Schedule` constructor, in both builds | list induction |
| C62 | timestamps of `DateTime` on 64 bits with the unsigned difference | arithmetic; witness |
| C63, C64 | sampling and tunings of `PIDController` and `PID` | induction over readings; witness |
| C65, C66 | `PID` construction and copies, variables in a heap | universal refutations |
| C67, C68 | the loop of `PID::autotune`; one relay cycle | refinement; witnesses |
| C69 | `BandPass::update_limits`, `std::pow` a parameter (any function right within a quarter at one point) | arithmetic; witness |
| C70-C72 | `Result` with overload resolution by convertibility of the type parameters | case analysis over types; witnesses |
| C73-C75, C77 | `Unit` with real values in binary32 | Flocq error bounds; witnesses |
| C74 | operators of `Unit` within one unit | equality with the plain operation |
| C76 | comparison of `CompoundUnit` | error bounds; witnesses |
| C78 | Celsius and Kelvin in binary32 | exactness and error bound |
| C79-C82 | string functions, `concat`, `StaticString` | list induction, storage invariant |
| C83 | `repr` | case analysis on the rounding; witness |
| C84, C85 | `printf` buffer, log level as global state | list lemmas, induction over operations |
| C86 | exception handler as global state | induction over operations |
| C87 | `from_other` on kernel times | monotonicity; equality of the integer model with Flocq's binary32 |
| C88 | `Zephyr::delay_us` | arithmetic; witness |
| C89-C91 | digital outputs and interrupts over pins | induction over operations; witnesses |
| C92-C95 | analogue outputs and inputs in binary32 | loop invariants, rounding lemmas; witnesses |
| C96 | timers on a clock of 32 bits | universal: what is due behind the roll never comes |
| C97 | `to_kernel_time`, `to_real_time` with ceil, floor and round on binary32 | floor and ceiling of the real value |
| C98 | `Event::Data` | case analysis |
| C99 | `Pipeline::to_string`, both passes with their own clock readings | list induction; exact condition for debug builds |
| C100 | points of whole numbers | ring laws, integer square root; witnesses |
| C101 | `ArduinoUART` over a queue of received bytes | induction over reads; witness |
| C102, C103 | the start phase of `PID::autotune` over two clocks | induction over rounds; universal refutation |
| C104 | the waiting of `PID::autotune` on a clock that advances with sleep | refinement to the loop of C67; witness |
| C105 | `reset_to` of the five filters and of `Stack` | induction over histories of samples and resets; refinement of the stack to its filters; witnesses for the band |
| C106 | the binary operators of `Unit` with a real value type and two units | relative error calculus over the float model (`near k`: k roundings) |
| C107 | `event()` and the two `schedule`/`trigger` of a kept pointer, in the event system of C25-C29 | the same refinement, extended by the pointers in the user's hands |
| C108 | `DateTime(const char*, const char*)` with the parts of sscanf ("%4s %2d %4d", "%i:%i:%i") and strstr it uses | computation of the scanner on the texts of all dates and times; day of the year from the calendar of C36 |
| C109 | `push_back`, `push_front`, `insert` of `Vector` given a reference into the vector | cell number of the reference followed through memmove and memset; vectors reachable as in C15-C19 |
| C110 | copy construction, copy and move assignment, destruction of `Pool` over storages shared between vectors | explicit heap of storages; the calls on one pool are those of C22-C24 |
| C111 | move assignment of `Transaction` inside `std::optional` variables, over the model of C12/C13 | invariant over all programs with counters of transactions made and overwritten; induction over the passes of a loop |
| C112 | the five filters and the stack with throw_exception leaving by a caught C++ exception | induction over the samples and over the stack; agreement with the machine of C43-C47 where nothing is raised |
| C113 | `Timer::time_since_last`, `SRLatch::new_reading` and `Pipeline::push` with every read of the clock a value of its own | induction over the calls with a nondecreasing clock; the pipe as a list |
| C114 | the event system of C25-C29 with handlers that throw, and try blocks in handlers and around the program's calls | simulation by an event system over lists with an exception flag; invariants over all runs; equality with the former model where nothing is thrown |
| C115 | latch, PID controller and event system read through a clock modulo 2^32 | arithmetic of true times and turns with the rounding of kernel time; invariant over all event programs on the rolling clock, equality with the former model until it rolls |
| C116 | Result variables, moves, assignments, unwrap and chain with a function that changes its argument (MoveModel) | owner counts under programs of moves by induction; states kept by every program; unwrap changes nothing, refuted by witness |
| C117 | mag and normalize of points over float, with double arithmetic in between (FpointModel) | Flocq: squares exact in double, relative errors of the sums, the root and the conversion composed; witnesses for zero, very short and very long points |
| C118 | DateTime from fields, Unix time and text with its getters; mktime and gmtime_r in UTC written out as POSIX describes them (CalModel) | day numbers against the calendar counted day by day: one cycle of 400 years checked by computation, all others by periodicity; order of day numbers by induction over years; witnesses for dates that do not exist and weekdays |
| C119 | throw_error and set_machine_exception_handler with handlers given as programs that raise, install, remove, keep, restore and read themselves (RaiseModel) | a static discipline with ranks; ownership invariant over the local variables of all nested calls, induction on rank and program; endless recursion by induction on fuel |
| C120 | the whole of `Array` except copies: constructors, moves, assignment of lists, swap, destruction, elements, fill, front, back, empty | refinement of the heap of C20/C21 to a list of lists, by an invariant that no two arrays own the same storage |
| C121 | RingBuffer, LineBuffer and Vector as members beside a storage that copies share (ShareModel), on top of the models of C01, C08 and C15 | simulation of the shared heap by objects with contents of their own, for programs without shared writes; for all programs an invariant of sizes and unique owners; the exact effect of writes through a copy |
| C122 | Vector and RingBuffer with elements std::shared_ptr, the counters of the control blocks kept beside the storage: assignments count, memmove, memset and free do not (LifeModel) | simulation of the program with plain pointers; the difference between counter and references never shrinks (induction over programs), and is zero while the cells outside the elements are null |
| C123 | kernel time with `time_t` as a signed 64-bit integer: conversions and arithmetic outside of it undefined; timers.cpp over it (SpanModel) | error bound of the conversion (C27) gives the range; equality with the unbounded models of C26-C33 by induction over polls; monotonicity of rounding gives the exact limit |
| C124 | `DateTime::strf_DateTime` over the DateTimes of C118; strftime assumed as a function of the fields, a size and a format (StampModel) | decimal digits by induction; fixed-width parts make the text injective and lexicographic order the order of moments; the reading side is C108 |
| C125 | the controller of C39/C40 and the class PID; the law, the textbook sum and the comparisons are stated over what the caller sees (LawSpec) | the memory of the controller followed through all calls; each step as a composition of roundings on reals (Flocq), then monotonicity, oddness and exactness of rounding, by induction over the samples |
| C126 | the filters of C43, C45 and C46; the averages, the line and the reflection are stated on real numbers (AvgSpec) | error of each step from the roundings (Flocq); the weights contract old errors, so the bound is an invariant over any number of samples |
| C127 | `to_float` (string.cpp:59-68) over a character-by-character strtof in the "C" locale, correctly rounded (NumeralModel); the grammar of numbers and the reals they denote are stated as in C17 (NumeralSpec) | soundness and completeness of each part of the parser against the grammar by induction; the value by Flocq's correctness of division; false for views without a terminator |
| C128 | `operator*=`, `operator/=` (and `*`, `/`) of kernel times with scalars of signed, unsigned and floating-point types (SpanModel, ScaleModel), the latter for any IEEE-754 binary format | conversion, operation and truncation as roundings on reals (Flocq) with relative error; quotients of whole numbers stay below the next one since the gap 1/n exceeds half an ulp |
| C129 | a server over BufferedStream (client code, ServeModel) and a serial line as its device; the answers are stated over the lines of the bytes received (LineSpec) | one invariant over both buffers and the device, kept by every event in any order, on the refinement of the ring (C01) and of pulling and pushing (C09, C11); progress by induction over the rounds |
| C130 | all changes of the output over a history of readings (WearSpec) of the latch of LatchModel | the gap between two changes (C37), alternation of changes, induction over the list of changes |
| C131 | a program of self-rescheduling handlers over EvModel, its rounds of waiting and loop() (PeriodSpec) | refinement to the event system over lists (EvProofs), invariant: the pending events are those of the tasks in due order; induction over the events due in a loop and over the rounds |
| C132 | EventHandler (HandlerModel): constructor, attach_event_system, evsys | case analysis over the pointers given, induction over their list for release builds |
| C133 | EventSystem::detach (HandlerModel) | refuted by a run of the model |
| C134 | the latch of LatchModel in a closed loop with any plant of bounded rates (PlantSpec); readings as reals | the latch refines a two-state automaton (C38), invariant on the last reading and the time since the last switching |
| C135 | two hosts with the buffered streams of StreamModel and a line between them (LinkModel); client code over has_line, get_next_line, output_buffer_space_left and buffered_write | invariant: the bytes in the buffers and under way are the pending requests, and the pending answers, with their ends; liveness by a count of pending lines |
| C136 | the model of C121 (heap of storages, objects that own or borrow them) | which storages are freed and owned follows each step (a step's effect on storages is computed once for all classes); invariant over all programs relating each storage to how it came to be: handed in, allocated, or overwritten by an assignment |
| C137 | the controller of C39/C40; the law on whole numbers and the comparisons are stated over what the caller sees (WindSpec, LawSpec) | the runs of C125 on reals; on whole numbers they are a law on Z whose sum stays within the limits, then induction over the samples; for floats, monotonicity of rounding against the run that starts at the limit |
| C138 | the schedule of C34/C35; the client is a sequence of wakings (FollowSpec) | until the next start the blocks that cover the time can only get fewer; wakings grow, and within a day are distinct starts (pigeonhole) |
| C139 | the EWMA filter of C43 | one step lies between the old output and the sample (monotone rounding), then induction over the samples; a fixed point of the rounded step refutes arrival |
| C140 | relay tuner over single precision and millisecond times, set_tunings of the controller | signs carried through single precision operations; an invariant of the tuner (extremes about the target while off, times in order) shows that each measured cycle has a positive span and length; refuted by computation past 2^24 ms and for one cycle |
| C141 | Schedule (C34, C35), DateTime (C118) and kernel times; the client is written out in DaySpec | the fields of a DateTime make exactly its seconds since midnight (conversions of hours and minutes are nearest, hence exact); blocks on the axis of Unix time reduce to blocks of the day |
| C142 | the PID class of C39 and the analogue output of C55/C94 | an invariant bounding every member of the controller by a power of two through initialize, set_tunings and new_reading; NaN in the integral term is an invariant of all calls, which refutes recovery |
| C143 | the filters and the stack of C43 to C47 and the PID class of C39 | invariant of the band-pass: the value held is a number among the samples; composed with the stack (C47), the average (C43) and the controller (C142); NaN as an invariant of the moving average |
| C144 | the moving average of C43, C126 and C139 and the latch of C37 | each output of the average lies between the one before and the sample, so an output beyond a level at a sample within it had a predecessor beyond it, at which the latch had switched already; reaction from the settling bound of C126 |

Every property is expressible; those that are false of the code have `_refuted` theorems and the strongest true part beside them (status `partial` in MANIFEST.json, with a note saying what is missing).

## What is modelled and what is not

Modelled, function by function (line references in the `*Model.v` files):

* `structure/`: ringbuffer, linebuffer, array, vector and iterators, pool, result, static_string, point; `time/` timers, schedule,
  datetime (leap years, day of the year, BCD, timestamps); `units/` Unit, CompoundUnit, magnitudes, temperature, time conversions.
* `eventsystem/`: all of pipeline and eventsystem, with event data.
* `io/stream/`: buffered_stream, transaction, the mock stream.
* `controller/`: pid, pid_controller, pid_tuner, sr_latch.
* `filter/`: EWMA, BandPass, Invert, MappedRange, PassThrough, Stack.
* `core/`: string utilities, concatenate, time_repr, logging, exception handler, unique_type_variant.
* `platform/`: gpio with fading, mock clock, printf, waits of Zephyr, pins, interrupts, analogue values and UART of Arduino.

Simplifications, also stated at the definitions:

* 64-bit overflow of kernel times (2.9e8 years in ms) and overflow of `int` cycle counters are not modelled; the counts are integers.
* `float` is used for real values, that is the build without `SPN_PLATFORM_CAP_DOUBLE` (raw_types.hpp:10-16).
* `std::pow` in BandPass is a parameter: any function of floats; C69 states what it uses of it. `std::strtof` is modelled on decimal digits. `mktime` and `gmtime_r` are
  written out in CalModel as POSIX describes them for the zone UTC; `strftime` is left out. The formatting of `vsnprintf` is a parameter; what is modelled is where its result goes and how it is cut.
* `std::string::reserve` in C99 and overload resolution in C70-C72 and C116 follow libstdc++ and C++17.
* Exception handlers which install handlers or raise further errors of the library are modelled in RaiseModel (C119) only.
* Programs may keep events they got with `event()` but do not copy the pointers (except in C107_copy_refuted); null handlers are not modelled.
* `FilterStack::detach_filter` and `structure/stack.hpp` cannot be compiled when they are used (a unique_ptr is copied; the base class has no
  default constructor), so they have no behaviour to model. `structure/tuple.hpp` is an aggregate without functions.
* `XYPoint` is `XYZPoint` without its third component; the latter is modelled over whole numbers without overflow, and `mag` and `normalize` of both over float.
* Platform registers, interrupts at arbitrary moments, threads, and memory exhaustion (`malloc` returning null) are not modelled.

## Trusted base

The Coq kernel (8.16.1), the reading of the C++ source that produced the `*Model.v` files, and the axioms which `Print Assumptions`
lists for each theorem: none, or axioms of the standard library that come with its real numbers, which Flocq uses. No axiom is declared in
this development; nothing is admitted; `native_compute` is not used.

### What `Print Assumptions` lists for each theorem

Nothing ("Closed under the global context") - 432 theorems:

C01_ring_is_bounded_fifo, C02_rollover_keeps_newest, C03_ring_accounting, C04_overrun_counts_partial, 
C04_overrun_capacity1_refuted, C04_overrun_drop_last_refuted, C05_zero_drop_exact, C05_drop_all_default_refuted, 
C06_line_framing, C07_get_next_line_exact, C07_get_next_line_bounded, C07_drop_next_line_exact, C08_view_partial, 
C08_view_refuted, C09_pull_appends_all, C09_no_line_lost, C10_overflow_spares_lines_partial, C10_second_pull_refuted, 
C11_push_out_exact, C11_output_in_order_once_partial, C11_refused_byte_lost_refuted, C12_abort_restores_output_partial, 
C12_commit_keeps_output, C12_abort_empty_on_full_refuted, C12_abort_foreign_bytes_refuted, C13_one_line_consumed, 
C13_shows_its_line_partial, C13_two_transactions_refuted, C13_stale_view_refuted, C14_history_partial, C14_step_partial, 
C14_reachable_holds, C14_program_partial, C14_program_refuted, C15_pop_back_partial, C15_pop_back_shifted_exact, 
C15_pop_back_refuted, C16_remove_partial, C16_remove_at_end_exact, C16_remove_shifted_refuted, C16_remove_full_refuted, 
C16_remove_past_end_refuted, C17_accessors_partial, C17_at_exact, C17_front_refuted, C18_violation_halts, 
C18_debug_safe_partial, C18_emplace_front_refuted, C19_vector_iteration, C19_array_iteration_partial, C19_const_reverse_exact, 
C19_const_reverse_refuted, C20_no_stale_partial, C20_start, C20_clear_refuted, C21_free_once_partial, 
C21_external_kept_partial, C21_no_leak_partial, C21_swap_external_refuted, C21_swap_copy_refuted, C21_move_assign_leak_refuted, 
C21_copy_assign_leak_refuted, C22_exclusive, C22_reachable_shows, C23_complete_partial, C23_order_partial, 
C23_large_pool_refuted, C23_large_pool, C24_destroy_partial, C24_event_system_partial, C24_destroy_refuted, 
C24_event_system_refuted, C25_ordered_partial, C25_pending_unique, C25_schedule, C25_schedule_partial, C25_expire, 
C25_order_refuted, C26_clock, C26_none_lost, C26_exactly_once_partial, C26_none_left_partial, C26_loop_partial, 
C26_early_refuted, C27_trigger, C27_trigger_any, C27_attach, C27_attach_full_refuted, C28_capacity_partial, C28_full_refuted, 
C29_sleep_partial, C29_not_past_partial, C29_maximum_refuted, C30_exact_partial, C30_operand_partial, C30_self_partial, 
C30_order_partial, C30_unary, C30_equality_refuted, C30_difference_refuted, C31_nearest_partial, C31_error_partial, 
C31_hours_refuted, C31_day_refuted, C31_documented_refuted, C32_due_partial, C32_latched, C32_deviation_partial, 
C32_remaining_partial, C32_remaining_any_partial, C32_absolute_partial, C32_early_refuted, C32_late_refuted, 
C33_catch_up_partial, C33_catch_up_any_partial, C33_plain_partial, C33_deviation_partial, C33_next_partial, C33_reset, 
C33_long_uptime_refuted, C34_value_at, C35_next_start_partial, C35_first_in_list, C35_order_refuted, C36_day_of_year, 
C36_unique, C36_leap, C37_minimal_times_partial, C37_deviation_partial, C37_hold, C37_plain_partial, C37_plain_later_partial, 
C37_plain_refuted, C37_exact_partial, C37_long_uptime_refuted, C38_maximal_times_partial, C38_deviation_partial, 
C38_rearmed_refuted, C37_exact_partial, C47_composition_partial, C47_null_skipped, C48_states_partial, C48_closed, 
C48_map_identity, C48_map_composition, C48_map_error_composition, C48_maps_commute, C48_and_then_associative, 
C48_and_then_units, C48_map_is_and_then, C48_or_else_associative, C48_match_fusion, C48_match_empty_refuted, C49_unique, 
C51_starts_with, C51_ends_with_partial, C51_ends_with_refuted, C52_lstrip_partial, C52_lstrip_refuted, C52_rstrip_refuted, 
C52_static_partial, C52_static_refuted, C53_accepts, C53_rejects_partial, C53_round_trip_partial, C53_refuted, 
C54_text_partial, C54_overflow, C54_overflow_refuted, C56_own_clock_partial, C56_mixed, C56_agree_refuted, 
C56_micros_lost_refuted, C57_mock_loopback, C58_increment_partial, C58_post_increment_refuted, C59_copy_aliases_partial, 
C59_copy_independent_refuted, C60_elapsed_partial, C60_deviation_partial, C60_no_reset, C60_long_uptime_refuted, 
C61_construction, C62_epochs_partial, C62_debug_refuted, C62_debug, C70_chain_partial, C70_numeric_error, 
C70_numeric_error_refuted, C71_made_and_copied_partial, C71_variable_refuted, C72_debug, C72_release_partial, C72_wrong_state, 
C72_same_types_refuted, C72_empty_refuted, C79_find_first_of, C81_concat, C82_storage, C82_written, C82_set_size, 
C83_units_partial, C83_numbers, C83_hours_refuted, C84_printf, C85_levels, C85_start, C85_release, C85_zephyr_partial, 
C85_zephyr_off_refuted, C86_throw, C86_install, C88_delay_partial, C88_delay_refuted, C89_level_partial, C89_undefined_refuted, 
C90_attach, C90_no_interrupt, C91_detach_partial, C91_detach_refuted, C96_before_partial, C96_interval_before_partial, 
C96_turn_partial, C96_elapsed, C96_alarm_lost, C96_alarm_never, C96_alarm_refuted, C96_interval_silent, C96_interval_never, 
C96_interval_refuted, C96_interval_dead_refuted, C96_elapsed_refuted, C98_own, C98_only_own, C98_other, C99_text_partial, 
C99_separator_refuted, C99_debug, C99_debug_refuted, C100_laws, C100_equal, C100_division, C100_dot_refuted, C100_axis_partial, 
C100_normalized, C100_normalize_refuted, C101_read_partial, C101_block, C101_history, C101_empty_refuted, C102_start_partial, 
C102_ends_partial, C103_fall_back_partial, C104_uptime_refuted, C105_stack, C107_reads, C107_event, C107_schedule_partial, 
C107_trigger, C107_drop, C107_null, C107_null_refuted, C107_copy_refuted, C108_partial, C108_bounds, C108_lost, 
C108_lost_refuted, C108_seconds, C108_seconds_refuted, C108_dst_refuted, C108_text_refuted, C109_back_partial, 
C109_front_partial, C109_insert_partial, C109_back, C109_back_refuted, C109_front, C109_front_refuted, C109_insert, 
C109_insert_moved, C109_insert_refuted, C110_copy_partial, C110_exclusive_partial, C110_depopulate, C110_depopulate_refuted, 
C110_populate, C110_populate_refuted, C110_destroy, C110_destroy_refuted, C110_dangling, C110_dangling_refuted, 
C110_move_assign, C110_move_assign_refuted, C110_copy_assign, C110_copy_assign_refuted, C111_account_partial, 
C111_serve_partial, C111_stuck, C111_stuck_refuted, C111_kept, C111_kept_refuted, C112_stack, C113_still, C113_timer, 
C113_timer_refuted, C113_timer_lost_refuted, C113_latch_partial, C113_latch_any_partial, C113_order_partial, 
C113_first_partial, C113_kept, C113_order_refuted, C113_drift_refuted, C114_calm, C114_none_lost, C114_slots, 
C114_order_partial, C114_none_left_partial, C114_trigger, C114_others_refuted, C115_latch_partial, C115_latch_stuck, 
C115_latch_refuted, C115_events_partial, C115_event_never, C115_event_refuted, C116_move_partial, C116_move_assign_partial, 
C116_owners_partial, C116_states, C116_unwrap, C116_unwrap_kept, C116_unwrap_refuted, C116_source_refuted, C117_equal, 
C118_fields, C118_unix_partial, C118_back, C118_once, C118_order, C118_text_partial, C118_text_refuted, C118_carried, 
C118_nodate_refuted, C118_weekday_refuted, C118_far, C118_far_refuted, C119_ends_partial, C119_chain_partial, C119_endless, 
C119_endless_refuted, C119_dropped, C119_dropped_refuted, C119_stops, C120_lists_partial, C120_ends_partial, C120_empty, 
C120_others, C120_swap_refuted, C120_moved_refuted, C121_own_partial, C121_lawful_partial, C121_copies, C121_destroys, 
C121_others, C121_ring_room, C121_ring_roll, C121_vec_pops, C121_ring_outlives, C121_vec_outlives, C121_ring_refuted, 
C121_line_refuted, C121_vec_refuted, C122_alive_partial, C122_exact_partial, C122_leaks, C122_ring_alive, 
C122_ring_full_partial, C122_ring_leaks, C122_remove_refuted, C122_leak_refuted, C122_ring_refuted, C123_defined_partial, 
C123_products, C123_alarms_partial, C123_intervals_partial, C123_timers_partial, C123_limit, C123_never_refuted, 
C123_days_refuted, C124_default, C124_whole_partial, C124_distinct, C124_sorted, C124_back_partial, C124_back_refuted, 
C124_far_refuted, C128_whole, C128_unsigned_partial, C128_unsigned_refuted, C129_answers, C129_all_answered, 
C129_transactions_partial, C129_transactions_all_partial, C129_transactions_refuted, C130_starts_partial, 
C130_starts_later_partial, C130_starts_refuted, C131_tasks_partial, C131_tasks_later_partial, C131_spare_refuted, 
C131_returns_refuted, C131_early_refuted, C132_one_partial, C132_release, C132_release_refuted, C133_detached_refuted, 
C135_answers, C135_all_answered, C135_calls, C136_freed_partial, C136_once, C136_vec_refuted, C136_ring_refuted, 
C138_follow_partial, C138_ends, C138_wakes, C138_gap_refuted, C138_order_refuted, C141_value, C141_daily, C141_nap.

`ClassicalDedekindReals.sig_forall_dec`, `ClassicalDedekindReals.sig_not_dec`, `Classical_Prop.classic`, `FunctionalExtensionality.functional_extensionality_dep` - 196 theorems:

C39_update_within, C39_response_within, C39_equal_limits_refuted, C40_rescale_partial, C40_shorter, C40_refuted, C41_relay, 
C41_configured, C41_min_or_max, C41_cycles_never_decrease, C41_finished_stays, C41_finishing_call, C42_mean_refuted, 
C42_reported_partial, C42_one_cycle, C42_two_cycles, C43_between_partial, C43_constant_partial, C43_overflow_refuted, 
C43_one_refuted, C44_in_band_partial, C44_behaviour, C44_first_sample_refuted, C44_after_limit_refuted, C44_marker_refuted, 
C45_monotone_partial, C45_range_partial, C45_inside_partial, C45_percentage, C45_above_refuted, C45_wide_refuted, 
C46_grid_partial, C46_inside_partial, C46_error, C46_twice_refuted, C46_outside_refuted, C47_current_partial, C47_five_lawful, 
C47_empty_refuted, C50_sum_partial, C50_sum_units_partial, C50_sum_whole, C50_scale, C50_zero, C50_simplify_partial, 
C50_simplify_whole, C50_simplify_refuted, C55_range, C55_ends_partial, C55_last_partial, C55_exact_partial, 
C55_setpoint_refuted, C55_tiny_refuted, C55_negative_refuted, C55_zero_refuted, C56_monotone, C63_sampling_partial, 
C63_deviation_partial, C63_no_change, C63_long_uptime_refuted, C64_reported_partial, C64_kp_partial, C64_scaled_refuted, 
C65_ignored, C65_on_error_refuted, C66_copy_inert, C66_copy_refuted, C67_final_command_refuted, C67_commands_partial, 
C68_peak_refuted, C68_cycle_partial, C69_width_refuted, C69_mantissa_one_partial, C73_conversion, C73_magnitudes, 
C74_same_unit, C75_order, C75_comparison_partial, C75_comparison_refuted, C76_order_partial, C76_units_refuted, 
C77_equality_partial, C77_units_partial, C77_equality_refuted, C77_symmetry_refuted, C78_kelvin, C78_order, C80_number_partial, 
C80_number_refuted, C87_order, C87_compare, C87_binary32, C92_smooth_partial, C92_jump_refuted, C92_second_fade_refuted, 
C93_value_partial, C93_set_value_refuted, C93_fade_refuted, C94_duty_partial, C94_value, C94_monotone, C94_full_scale_refuted, 
C95_read, C97_round_trip_partial, C97_real_error, C97_round_trip_refuted, C97_longest_refuted, C102_clock_refuted, 
C103_flag_refuted, C104_pace_partial, C104_deviation_partial, C105_value, C105_stack_value, C105_average, C105_no_effect, 
C105_band_partial, C105_band_refuted, C105_marker_refuted, C105_band_exact, C105_null_refuted, C106_sum, C106_product, 
C106_quotient, C112_same, C112_band_partial, C112_value_partial, C112_first_refuted, C112_stack_refuted, C115_pid_stuck, 
C117_mag_partial, C117_normalize_partial, C117_zero, C117_plane, C117_zero_nan, C117_zero_refuted, C117_short_refuted, 
C117_long_refuted, C117_arithmetic, C125_law, C125_exact, C125_hold, C125_forward, C125_reverse, C125_mirror, C125_turned, 
C125_pid, C125_error, C126_average, C126_settles, C126_mapped, C126_inverted, C127_number_partial, C127_other_partial, 
C127_once, C127_order_partial, C127_behind_refuted, C127_zero_refuted, C128_near_partial, C128_beyond, C128_exact_partial, 
C128_exact_refuted, C128_order, C128_special, C137_limited, C137_reaches_partial, C137_returns, C137_sinks_partial, C137_rises, 
C137_pushes, C137_unwound, C137_reaches_refuted, C139_toward_partial, C139_approach_partial, C139_reaches_refuted, 
C140_tunings_partial, C140_early_partial, C140_uptime_refuted, C140_one_refuted, C142_number_partial, C142_drives_partial, 
C142_lost, C142_lost_infinite, C142_recovers_refuted, C143_band_partial, C143_average_partial, C143_controller_partial, 
C143_lost, C143_first_refuted, C143_mark_refuted, C143_pass_refuted, C144_causes_partial, C144_quiet_partial, 
C144_reacts_partial, C144_reacts_low_partial, C144_minimal_refuted, C144_margin_refuted.

`ClassicalDedekindReals.sig_forall_dec`, `FunctionalExtensionality.functional_extensionality_dep` - 9 theorems:

C50_kernel_partial, C50_kernel_refuted, C76_kernel_refuted, C97_never_shorter, C97_floor, C97_round, C134_ceiling_partial, 
C134_floor_partial, C134_forced_refuted.
