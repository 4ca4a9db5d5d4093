{"id": "C01", "title": "Ring buffer is a bounded FIFO", "statement": "Whatever is pushed into a RingBuffer comes out in the order it went in: a pop returns the oldest element still stored, a push to a full buffer without rollover is refused and changes nothing, a bulk push stores the longest prefix that fits, a bulk pop is all-or-nothing, peek_at(i) is the i-th oldest element, drop_first/drop_last (of at least one element) remove exactly the oldest/newest min(n,used) elements and report that number, clear empties it.", "quantifier": "every element type, every capacity >= 1, every finite sequence of push, bulk push, pop, bulk pop, peek_at, drop_first, drop_last, clear calls, at every position of the wrap-around indices", "why_tests_cant": "The result depends on the position of the wrap-around indices and on the whole history; tests sample a handful of capacities and orders", "anchors": ["src/spine/structure/ringbuffer.hpp:RingBuffer::push", "src/spine/structure/ringbuffer.hpp:RingBuffer::pop", "src/spine/structure/ringbuffer.hpp:RingBuffer::peek_at", "src/spine/structure/ringbuffer.hpp:RingBuffer::drop_last", "src/spine/structure/ringbuffer.hpp:RingBuffer::drop_first", "src/spine/structure/ringbuffer.hpp:RingBuffer::clear"]}
{"id": "C02", "title": "Rollover keeps the newest elements", "statement": "After pushing any sequence of elements with rollover enabled, the buffer holds exactly the last `capacity` elements of (previous contents followed by the pushed elements), every push reports success.", "quantifier": "every capacity >= 1, every previous contents and index position, every pushed sequence of any length", "why_tests_cant": "The number of wraps is unbounded", "anchors": ["src/spine/structure/ringbuffer.hpp:RingBuffer::push"]}
{"id": "C03", "title": "Ring buffer accounting is consistent", "statement": "In every state reachable through the public API: used_space() + free_space() = capacity(), empty() iff used_space() = 0, full() iff used_space() = capacity(), used_space() equals the number of elements that can be popped, and no operation ever indexes outside the storage.", "quantifier": "every capacity >= 1 and every finite history of API calls, including drop_first(0)/drop_last(0) and rollover pushes", "why_tests_cant": "Empty and full share the same index configuration and are told apart by one flag, any history can desynchronise it", "anchors": ["src/spine/structure/ringbuffer.hpp:RingBuffer::used_space", "src/spine/structure/ringbuffer.hpp:RingBuffer::free_space", "src/spine/structure/ringbuffer.hpp:RingBuffer::empty", "src/spine/structure/ringbuffer.hpp:RingBuffer::full"]}
{"id": "C04", "title": "Overrun counter counts overwritten elements", "statement": "overrun_space() is the number of elements overwritten without being read since the last successful pop.", "quantifier": "every capacity >= 1, every history of pushes, rollover pushes, pops and drops", "why_tests_cant": "Counts over unbounded histories; interaction of four operations on one counter", "anchors": ["src/spine/structure/ringbuffer.hpp:RingBuffer::overrun_space", "src/spine/structure/ringbuffer.hpp:RingBuffer::push", "src/spine/structure/ringbuffer.hpp:RingBuffer::drop_last", "src/spine/structure/ringbuffer.hpp:RingBuffer::drop_first"]}
{"id": "C05", "title": "drop_last()/drop_first() without argument drop everything", "statement": "As documented, drop_last(0) and drop_first(0) drop all elements and return the number dropped.", "quantifier": "every reachable buffer state", "why_tests_cant": "Only a full buffer behaves specially, and the tests never call the functions with 0", "anchors": ["src/spine/structure/ringbuffer.hpp:RingBuffer::drop_last", "src/spine/structure/ringbuffer.hpp:RingBuffer::drop_first"]}
{"id": "C06", "title": "Line framing round-trip", "statement": "Feeding a byte stream to a LineBuffer and repeatedly reading lines yields exactly the delimiter-terminated lines of the stream in order, without the delimiters, and leaves exactly the unterminated remainder buffered, however the stream is cut into pushes and however pushes and reads are interleaved (as long as no push is refused for lack of space and the read buffer is large enough).", "quantifier": "every delimiter set, every byte stream, every partition of it into pushes, every interleaving with reads, every capacity", "why_tests_cant": "Chunk boundaries and ring wrap positions are unbounded", "anchors": ["src/spine/structure/linebuffer.cpp:LineBuffer::get_next_line", "src/spine/structure/linebuffer.cpp:LineBuffer::length_of_next_line", "src/spine/structure/linebuffer.cpp:LineBuffer::push"]}
{"id": "C07", "title": "get_next_line never writes past max_length and NUL-terminates", "statement": "get_next_line(buffer,max_length) writes only buffer[0..max_length-1]; when it consumes a line it writes the line followed by a NUL and returns the line length; when there is no line, or the line with its terminator does not fit, it returns 0 and changes neither the buffer nor the ring.", "quantifier": "every ring state, every contents, every max_length, every prior contents of the output buffer", "why_tests_cant": "Memory safety for all lengths and wrap positions", "anchors": ["src/spine/structure/linebuffer.cpp:LineBuffer::get_next_line"]}
{"id": "C08", "title": "get_next_line_view shows the next line", "statement": "get_next_line_view() returns a view holding exactly the bytes of the next line (or nullopt when there is none), inside the buffer's storage.", "quantifier": "every ring state and contents", "why_tests_cant": "Depends on where the line sits relative to the end of the ring storage", "anchors": ["src/spine/structure/linebuffer.cpp:LineBuffer::get_next_line_view", "src/spine/structure/ringbuffer.hpp:RingBuffer::peek_at"]}
{"id": "C09", "title": "Buffered input loses nothing while there is room", "statement": "pull_in_data() moves bytes from the underlying stream into the input buffer in arrival order; as long as the incoming bytes fit in the free space nothing is lost, duplicated or reordered, and the stream is drained.", "quantifier": "every stream contents, every buffer state, any number of calls", "why_tests_cant": "All interleavings of arrivals, pulls and reads", "anchors": ["src/spine/io/stream/buffered_stream.cpp:BufferedStream::pull_in_data"]}
{"id": "C10", "title": "Input overflow never destroys a complete line", "statement": "When the input buffer is full and already holds a complete line, pull_in_data() stops reading so that the line is not overwritten ('lose no input if possible'); bytes are only overwritten while the buffer holds no complete line.", "quantifier": "every stream contents, every history of pull_in_data calls and line reads", "why_tests_cant": "Depends on the state left behind by earlier overflows", "anchors": ["src/spine/io/stream/buffered_stream.cpp:BufferedStream::pull_in_data"]}
{"id": "C11", "title": "Buffered output is delivered in order exactly once", "statement": "The bytes accepted by buffered_write are handed to the underlying stream by push_out_data in the order they were written, each exactly once; what the stream did not accept yet stays buffered.", "quantifier": "every sequence of buffered writes and push_out_data calls, every stream back-pressure behaviour", "why_tests_cant": "Back-pressure can occur at any byte", "anchors": ["src/spine/io/stream/buffered_stream.cpp:BufferedStream::push_out_data", "src/spine/io/stream/buffered_stream.cpp:BufferedStream::buffered_write"]}
{"id": "C12", "title": "Aborting a transaction undoes exactly its own output", "statement": "abort() removes from the output buffer exactly the bytes queued through this transaction and nothing else, so the output buffer is what it was when the transaction started; commit() or destruction keeps all of them.", "quantifier": "every prior output buffer contents, every sequence of outgoing() calls of any length, every buffer fill level including full", "why_tests_cant": "Depends on the fill level of the ring at the time of the abort", "anchors": ["src/spine/io/stream/transaction.cpp:Transaction::abort", "src/spine/io/stream/transaction.cpp:Transaction::undo", "src/spine/io/stream/transaction.cpp:Transaction::commit", "src/spine/io/stream/transaction.cpp:Transaction::finalize"]}
{"id": "C13", "title": "A transaction consumes exactly its own line", "statement": "A transaction created by new_transaction() shows the next complete input line until it is finalized; finalizing (commit, abort or destruction, in any combination and also after a move) removes exactly that line with its delimiter from the input, once.", "quantifier": "every input buffer contents, every finalization path, any number of repeated finalizations, several transactions alive at once", "why_tests_cant": "Needs all combinations of move, repeated finalize, and interleaved input", "anchors": ["src/spine/io/stream/transaction.cpp:Transaction::finalize", "src/spine/io/stream/transaction.cpp:Transaction::Transaction", "src/spine/io/stream/buffered_stream.cpp:BufferedStream::new_transaction"]}
{"id": "C14", "title": "Vector behaves as a bounded double-ended sequence", "statement": "The elements seen by iteration, size(), operator[] after any sequence of push_back, push_front, emplace_*, insert, pop_front, pop_back, remove, clear, fill calls (respecting capacity and index bounds) are those of the mathematical list the calls describe, and each pop returns the element removed.", "quantifier": "every element type, every capacity, every history of calls", "why_tests_cant": "The window of live elements moves through the storage and is rearranged on demand; behaviour depends on where it is", "anchors": ["src/spine/structure/vector.hpp:Vector::push_back", "src/spine/structure/vector.hpp:Vector::push_front", "src/spine/structure/vector.hpp:Vector::insert", "src/spine/structure/vector.hpp:Vector::pop_front", "src/spine/structure/vector.hpp:Vector::rearrange"]}
{"id": "C15", "title": "pop_back returns the last element", "statement": "pop_back() on a non-empty vector removes and returns the most recently appended (last) element.", "quantifier": "every reachable vector state", "why_tests_cant": "Wrong only when the last remaining element does not sit at the start of the storage", "anchors": ["src/spine/structure/vector.hpp:Vector::pop_back"]}
{"id": "C16", "title": "remove(i) removes the i-th element", "statement": "remove(i) for i < size() removes exactly the i-th element of the vector, returns it, keeps the others in order and touches only the vector's own storage.", "quantifier": "every reachable vector state, every index", "why_tests_cant": "Depends on the offset of the live window and on the vector being full", "anchors": ["src/spine/structure/vector.hpp:Vector::remove"]}
{"id": "C17", "title": "Element accessors agree", "statement": "front(), at(i), operator[](i), back(), peek_front(), peek_back() and iteration agree on what the i-th/first/last element of a non-empty vector is.", "quantifier": "every reachable non-empty vector state, every valid index", "why_tests_cant": "Only states with a shifted window distinguish physical from logical positions", "anchors": ["src/spine/structure/vector.hpp:Vector::operator[]", "src/spine/structure/array.hpp:Array::front", "src/spine/structure/array.hpp:Array::at", "src/spine/structure/vector.hpp:Vector::back", "src/spine/structure/vector.hpp:Vector::peek_back"]}
{"id": "C18", "title": "Capacity violations are caught in debug builds", "statement": "In a build with assertions enabled, no Vector operation reads or writes outside its storage: each call either has its specified effect or stops at an assertion.", "quantifier": "every reachable vector state, every operation and argument", "why_tests_cant": "Requires checking each operation at each boundary", "anchors": ["src/spine/structure/vector.hpp:Vector::emplace_front", "src/spine/structure/vector.hpp:Vector::push_front", "src/spine/structure/vector.hpp:Vector::insert", "src/spine/structure/vector.hpp:Vector::remove"]}
{"id": "C19", "title": "Iteration visits every element once", "statement": "Forward iteration over an Array or Vector visits all elements in order exactly once, reverse iteration in the opposite order, for both mutable and const containers, and terminates.", "quantifier": "every container size, every window position", "why_tests_cant": "Reverse iteration relies on index wrap-around below zero", "anchors": ["src/spine/structure/array.hpp:Array::rbegin", "src/spine/structure/array.hpp:Array::rend", "src/spine/structure/vector.hpp:Vector::rbegin", "src/spine/structure/vector.hpp:Vector::rend", "src/spine/structure/array.hpp:ArrayIterator"]}
{"id": "C20", "title": "Vector does not keep removed elements alive", "statement": "After an element has been popped or cleared, the vector's storage holds no reference to it any more (so a shared_ptr's use count drops).", "quantifier": "every history of vector operations on owning element types", "why_tests_cant": "Stale slots are invisible through the API until the object's use count is inspected", "anchors": ["src/spine/structure/vector.hpp:Vector::pop_back", "src/spine/structure/vector.hpp:Vector::pop_front", "src/spine/structure/vector.hpp:Vector::clear", "src/spine/structure/vector.hpp:Vector::rearrange"]}
{"id": "C21", "title": "Array storage is freed exactly once", "statement": "Over any program that constructs, copies, moves, assigns and destroys Arrays, no storage is freed twice, no external storage is freed, and after destroying all Arrays every allocated block has been freed.", "quantifier": "every finite sequence of construct, copy, move, copy-assign, move-assign, list-assign, swap, destroy on any number of arrays", "why_tests_cant": "All aliasing histories between any number of objects", "anchors": ["src/spine/structure/array.hpp:Array::Array", "src/spine/structure/array.hpp:Array::operator=", "src/spine/structure/array.hpp:Array::~Array", "src/spine/structure/array.hpp:Array::swap"]}
{"id": "C22", "title": "Pool hands out an object to one client at a time", "statement": "An object returned by Pool::acquire is not returned again before every reference handed out for it has been released.", "quantifier": "every pool size, every history of acquire, copy-reference, release, populate, depopulate", "why_tests_cant": "Histories of reference counts and of the rotating lookup index are unbounded", "anchors": ["src/spine/structure/pool.hpp:Pool::acquire"]}
{"id": "C23", "title": "Pool acquire succeeds iff something is free", "statement": "Pool::acquire returns null only if every pooled object is in use, and always returns (terminates).", "quantifier": "every pool size, every position of the lookup index, every in-use pattern", "why_tests_cant": "Depends on the 16-bit lookup index and its restart", "anchors": ["src/spine/structure/pool.hpp:Pool::acquire"]}
{"id": "C24", "title": "Destroying a pool releases all its objects", "statement": "When a Pool (or an EventSystem owning one) is destroyed, every object it holds is released.", "quantifier": "every pool size", "why_tests_cant": "The loop bound shrinks while the loop runs; which sizes are affected needs an argument for all sizes", "anchors": ["src/spine/structure/pool.hpp:Pool::~Pool", "src/spine/eventsystem/eventsystem.cpp:EventSystem::~EventSystem"]}
{"id": "C25", "title": "Scheduled events are kept in due order", "statement": "After any sequence of schedule and expire calls the pending events are ordered by due time, events due at the same time stay in the order they were scheduled, and expire() removes the earliest due one.", "quantifier": "every sequence of schedules with any delays at any clock values, every capacity", "why_tests_cant": "Sorted insertion over unbounded histories and clock values", "anchors": ["src/spine/eventsystem/pipeline.cpp:Pipeline::push", "src/spine/eventsystem/pipeline.cpp:Pipeline::expire"]}
{"id": "C26", "title": "Events fire neither early nor twice nor get lost", "statement": "EventSystem::loop() runs the handlers of exactly those events whose due time has been reached, each scheduled event exactly once, in due order; events not yet due stay pending.", "quantifier": "every history of schedule/loop calls, every clock progression", "why_tests_cant": "Exactly-once over all histories", "anchors": ["src/spine/eventsystem/eventsystem.cpp:EventSystem::loop", "src/spine/eventsystem/pipeline.cpp:Pipeline::contains_expired_futures"]}
{"id": "C27", "title": "Triggering an event calls every attached handler in attach order", "statement": "trigger(event) invokes exactly the handlers attached to that event's id, each once per attachment, in the order they were attached, and no handler of another id.", "quantifier": "every set of attachments, every event", "why_tests_cant": "All attachment histories", "anchors": ["src/spine/eventsystem/eventsystem.cpp:EventSystem::trigger", "src/spine/eventsystem/eventsystem.cpp:EventSystem::attach"]}
{"id": "C28", "title": "Event capacity is respected and recovered", "statement": "At most events_cap events are pending at any time, an event slot becomes available again once its event has fired, and scheduling when no slot is free is refused without corrupting the pending events.", "quantifier": "every history of schedules and loops", "why_tests_cant": "Requires exhausting the pool after arbitrary histories", "anchors": ["src/spine/eventsystem/eventsystem.cpp:EventSystem::event", "src/spine/eventsystem/eventsystem.hpp:EventSystem::schedule"]}
{"id": "C29", "title": "The event loop never sleeps longer than configured", "statement": "With delays between ticks enabled, loop() never sleeps longer than max_delay_between_ticks and never past the next due event.", "quantifier": "every configuration and pending event set", "why_tests_cant": "Mixes two time units; depends on magnitudes", "anchors": ["src/spine/eventsystem/eventsystem.cpp:EventSystem::loop"]}
{"id": "C30", "title": "Kernel time arithmetic is exact", "statement": "For kernel times of the same unit, t == t, t - t = 0, comparisons order times as their counts and additions are exact, for any uptime.", "quantifier": "every pair of 64-bit tick counts", "why_tests_cant": "The operand goes through single precision, exact only up to 2^24 ticks (4.66 hours of milliseconds)", "anchors": ["src/spine/structure/units/primitives/unit.hpp:Unit::from_other", "src/spine/structure/units/time.hpp"]}
{"id": "C31", "title": "Converting kernel time between units is the nearest count", "statement": "Converting a kernel time to another unit yields the exact ratio rounded to the nearest count.", "quantifier": "every tick count and every pair of time units", "why_tests_cant": "Ratios are computed in single precision; errors appear only for large counts", "anchors": ["src/spine/structure/units/primitives/unit.hpp:Unit::from_other", "src/spine/structure/units/primitives/magnitude.hpp"]}
{"id": "C32", "title": "An alarm expires at its due time and stays expired", "statement": "AlarmTimer::expired() is false while the clock is before the due time, true from the due time on, and once it returned true it stays true.", "quantifier": "every due time and every monotone sequence of clock readings", "why_tests_cant": "All clock sequences, including large uptimes", "anchors": ["src/spine/structure/time/timers.cpp:AlarmTimer::expired"]}
{"id": "C33", "title": "Interval timer does not drift and fires once per interval", "statement": "With catch-up enabled, over any polling schedule the k-th expiry is never reported before k intervals have elapsed and no interval is lost; without it the distance between consecutive expiries is at least one interval.", "quantifier": "every interval, every polling schedule", "why_tests_cant": "All polling schedules", "anchors": ["src/spine/structure/time/timers.cpp:IntervalTimer::expired"]}
{"id": "C34", "title": "A schedule returns the value of the block covering the time of day", "statement": "value_at(t) is the value of the first block that covers t, where a block running past midnight also covers the start of the day, and 0 when no block covers t.", "quantifier": "every list of blocks, every time of day", "why_tests_cant": "Every second of the day and every block layout", "anchors": ["src/spine/structure/time/schedule.cpp:Schedule::value_at"]}
{"id": "C35", "title": "start_of_next_block is the nearest later start", "statement": "start_of_next_block(t) is the smallest block start later than t, or 24 hours when there is none.", "quantifier": "every list of blocks (in any order), every time", "why_tests_cant": "Order of the block list matters", "anchors": ["src/spine/structure/time/schedule.cpp:Schedule::start_of_next_block"]}
{"id": "C36", "title": "Day of year is a calendar count", "statement": "The day-of-year computed for a date is the number of days from January 1st of that year, using the Gregorian leap year rule, for every valid date.", "quantifier": "every year and every valid month and day", "why_tests_cant": "All years", "anchors": ["src/spine/structure/time/datetime.cpp:calcYearDay", "src/spine/structure/time/datetime.cpp:isleapYear"]}
{"id": "C37", "title": "SR latch respects its minimal on/off times", "statement": "Once the latch switches, it does not switch back before the configured minimal on (off) time has elapsed, whatever readings arrive; between the thresholds the output holds.", "quantifier": "every configuration, every sequence of readings at every clock progression", "why_tests_cant": "All reading sequences", "anchors": ["src/spine/controller/sr_latch.cpp:SRLatch::new_reading"]}
{"id": "C38", "title": "SR latch enforces its maximal on/off times", "statement": "When a maximal on (off) time is configured, the latch is switched off (on) by the first reading after it has been on (off) for longer than that time, independently of the value.", "quantifier": "every configuration, every sequence of readings", "why_tests_cant": "Readings beyond the threshold keep re-arming the timer", "anchors": ["src/spine/controller/sr_latch.cpp:SRLatch::new_reading", "src/spine/controller/sr_latch.cpp:SRLatch::set"]}
{"id": "C39", "title": "PID output stays within its limits", "statement": "With output limits lower < upper, after every update the controller output (when it is a number) lies within [lower, upper], for any inputs, setpoints, tunings, changes of the limits and sampling times; a pair of limits that is not in increasing order is ignored.", "quantifier": "every sequence of readings, setpoint, tuning and limit changes, including NaN and infinities (limits: all numbers), in IEEE single precision", "why_tests_cant": "Float edge cases and unbounded histories", "anchors": ["src/spine/controller/implementations/pid/pid_controller.cpp:PIDController::update"]}
{"id": "C40", "title": "Changing the PID sampling time keeps the gains per second", "statement": "set_sampling_time(t) rescales the integral and derivative gains by the ratio of new to old sampling time, so the gains per second stay the same.", "quantifier": "every old and new sampling time", "why_tests_cant": "The ratio is computed in integer arithmetic", "anchors": ["src/spine/controller/implementations/pid/pid_controller.cpp:PIDController::set_sampling_time"]}
{"id": "C41", "title": "The autotuner only drives the output between min and max and terminates", "statement": "Every output commanded by the relay autotuner is either the configured minimum or maximum, the cycle count never decreases, and once the requested cycles are done it stays finished and commands the minimum.", "quantifier": "every sequence of measurements and times", "why_tests_cant": "All measurement sequences", "anchors": ["src/spine/controller/implementations/pid/pid_tuner.cpp:PIDAutotuner::do_autotune"]}
{"id": "C42", "title": "The autotuned gains are the mean over the measured cycles", "statement": "On completion the reported gains are the arithmetic mean of the gains measured in the accumulated cycles.", "quantifier": "every number of cycles, every measurement sequence", "why_tests_cant": "Divisor and number of samples must be compared for all cycle counts", "anchors": ["src/spine/controller/implementations/pid/pid_tuner.cpp:PIDAutotuner::do_autotune"]}
{"id": "C43", "title": "Moving average stays within the range of the samples", "statement": "The EWMA output always lies between the smallest and the largest sample seen so far (single precision included) and equals the sample for constant input.", "quantifier": "every sample sequence, every K >= 2", "why_tests_cant": "Rounding on unbounded sequences", "anchors": ["src/spine/filter/implementations/ewma.hpp:EWMA::value"]}
{"id": "C44", "title": "Band-pass filter only passes in-band samples", "statement": "The band-pass output is always a sample that was inside the band at the time, unless the configured number of consecutive rejections was exceeded.", "quantifier": "every configuration, every sample sequence", "why_tests_cant": "All sample sequences; first sample and post-limit states differ", "anchors": ["src/spine/filter/implementations/bandpass.hpp:BandPass::value"]}
{"id": "C45", "title": "Mapped range output stays in range and is monotone", "statement": "MappedRange maps samples monotonically into the output range, out-of-range samples are clamped to the nearest end.", "quantifier": "every configuration, every sample, in single precision", "why_tests_cant": "Rounding at every float", "anchors": ["src/spine/filter/implementations/mapped_range.hpp:MappedRange::value"]}
{"id": "C46", "title": "Inverting twice gives the sample back", "statement": "Applying the invert filter twice returns the original sample, and samples inside [lower, upper] stay inside.", "quantifier": "every range, every sample", "why_tests_cant": "All floats", "anchors": ["src/spine/filter/implementations/invert.hpp:Invert::value"]}
{"id": "C47", "title": "A filter stack is the composition of its filters", "statement": "A stack's output for a sample is the result of passing the sample through all attached filters in attachment order, once each.", "quantifier": "every list of filters, every sample", "why_tests_cant": "Arbitrary filter lists", "anchors": ["src/spine/filter/filter.hpp:Stack::value"]}
{"id": "C48", "title": "Result combinators obey the usual laws", "statement": "map/and_then/or_else/map_error/match/value_or on a Result act only on the matching state and pass the others through unchanged; map preserves identity and composition, and_then is associative.", "quantifier": "every Result state and payload, every function", "why_tests_cant": "All functions and payloads", "anchors": ["src/spine/structure/result.hpp:Result::map", "src/spine/structure/result.hpp:Result::and_then", "src/spine/structure/result.hpp:Result::or_else"]}
{"id": "C49", "title": "Unique type lists", "statement": "UniqueTypeVariant's alternative list contains each listed type exactly once and no other type.", "quantifier": "every list of types", "why_tests_cant": "All type lists", "anchors": ["src/spine/core/meta/unique_type_variant.hpp"]}
{"id": "C50", "title": "Compound units are ratios", "statement": "Adding, subtracting, negating, scaling and simplifying a compound unit corresponds to the same operation on the quotient of its two parts.", "quantifier": "every numerator and non-zero denominator", "why_tests_cant": "All values", "anchors": ["src/spine/structure/units/primitives/compound_unit.hpp:CompoundUnit"]}
{"id": "C51", "title": "Prefix and suffix tests", "statement": "starts_with(s,n) iff n is a prefix of s and ends_with(s,n) iff n is a suffix of s, for all strings, without errors.", "quantifier": "every pair of strings", "why_tests_cant": "All lengths, including needles longer than the string", "anchors": ["src/spine/core/utils/string.cpp:starts_with", "src/spine/core/utils/string.cpp:ends_with", "src/spine/structure/static_string.cpp:StaticString::ends_with"]}
{"id": "C52", "title": "Stripping removes exactly the delimiters at one end", "statement": "lstrip/rstrip return the string without its longest prefix/suffix of delimiter characters, reading only inside the string.", "quantifier": "every string and delimiter set", "why_tests_cant": "All strings, including strings made only of delimiters", "anchors": ["src/spine/core/utils/string.cpp:lstrip", "src/spine/core/utils/string.cpp:rstrip", "src/spine/structure/static_string.cpp:StaticString::lstrip", "src/spine/structure/static_string.cpp:StaticString::rstrip"]}
{"id": "C53", "title": "parse_time reads what repr writes and rejects the rest", "statement": "parse_time(repr(t)) is a time equal to t up to the resolution of the printed unit, and parse_time returns nullopt (never throws) for any other text.", "quantifier": "every time value, every string", "why_tests_cant": "All strings and values", "anchors": ["src/spine/core/utils/time_repr.cpp:parse_time", "src/spine/core/utils/time_repr.cpp:repr"]}
{"id": "C54", "title": "Logging never writes outside its message buffer", "statement": "Printing a log message of any length writes only inside the message buffer and prints a message truncated to its size.", "quantifier": "every message length, every level", "why_tests_cant": "All lengths", "anchors": ["src/spine/core/logging.cpp:print"]}
{"id": "C55", "title": "Fading ends at the setpoint and stays within range", "statement": "While fading, an analogue output is only driven with values in [0,1]; fading terminates and the last value driven is the setpoint.", "quantifier": "every start value, setpoint and increment", "why_tests_cant": "All float combinations", "anchors": ["src/spine/platform/gpio.cpp:AnalogueOutput::fade_to"]}
{"id": "C56", "title": "Mock clock is consistent", "statement": "On the mock platform, after any sequence of delays, millis() and micros() show the same elapsed time at their own resolution and never decrease.", "quantifier": "every sequence of delay_ms/delay_us calls", "why_tests_cant": "All sequences", "anchors": ["src/spine/platform/implementations/mock.hpp"]}
{"id": "C57", "title": "The mock stream is a faithful loopback", "statement": "Bytes injected into a MockStream are, up to its capacity, the bytes read from it, in order; bytes written to it successfully are the bytes extracted from it, in order, each once; the two directions do not influence each other.", "quantifier": "every state of the two buffers, every injected and written byte sequence", "why_tests_cant": "All buffer positions and fill levels", "anchors": ["src/spine/io/stream/implementations/mock.cpp:MockStream::inject_bytestream", "src/spine/io/stream/implementations/mock.cpp:MockStream::extract_bytestream", "src/spine/io/stream/implementations/mock.hpp:MockStream"]}
{"id": "C58", "title": "Iterator increment and decrement", "statement": "++it moves an iterator to the next element and yields the new position; it++ moves it likewise and yields the position before the move.", "quantifier": "every iterator position", "why_tests_cant": "All positions; generic algorithms rely on *it++", "anchors": ["src/spine/structure/array.hpp:ArrayIterator::operator++"]}
{"id": "C59", "title": "A copy of an Array is independent of the original", "statement": "After copying an Array, element reads through the copy give the original's elements at the time of the copy, whatever happens to the original (or the copy) afterwards.", "quantifier": "every program that copies, writes and destroys arrays", "why_tests_cant": "All interleavings of writes and destructions", "anchors": ["src/spine/structure/array.hpp:Array::Array", "src/spine/structure/array.hpp:Array::operator="]}
{"id": "C60", "title": "A timer measures the time since its last reset", "statement": "Timer::time_since_last() returns the time passed since the last reset (construction), so that with resetting polls the results add up to the time passed; a poll without reset does not change the reference point.", "quantifier": "every polling schedule and uptime", "why_tests_cant": "All polling times and uptimes, including those beyond single precision", "anchors": ["src/spine/structure/time/timers.cpp:Timer::time_since_last"]}
{"id": "C61", "title": "A schedule is checked when it is made", "statement": "In a debug build Schedule accepts exactly the lists of blocks whose durations are all positive and add up to at most 24 hours; a release build accepts every list unchanged.", "quantifier": "every list of blocks with any starts and durations", "why_tests_cant": "All lists and durations, including those that single precision cannot represent", "anchors": ["src/spine/structure/time/schedule.cpp:Schedule::Schedule"]}
{"id": "C62", "title": "DateTime keeps Unix time and time since 2000", "statement": "A DateTime made from a Unix timestamp reports that timestamp and the number of seconds since 2000-01-01, in every build, for every timestamp.", "quantifier": "every timestamp and build mode", "why_tests_cant": "All timestamps; signed and unsigned arithmetic mix", "anchors": ["src/spine/structure/time/datetime.cpp:DateTime::DateTime", "src/spine/structure/time/datetime.cpp:DateTime::set_timestamps"]}
{"id": "C63", "title": "PID updates keep to the sampling time", "statement": "After a reading that was processed, the next reading is processed if and only if at least the sampling time has passed since; a reading that is not processed leaves the output and the controller's state unchanged.", "quantifier": "every history of calls, every clock progression", "why_tests_cant": "All histories and intervals", "anchors": ["src/spine/controller/implementations/pid/pid_controller.cpp:PIDController::update"]}
{"id": "C64", "title": "The PID reports the tunings it was given", "statement": "tunings() returns the tunings last set with set_tunings() (or configured).", "quantifier": "every tunings and sampling time", "why_tests_cant": "All float values and sampling times", "anchors": ["src/spine/controller/pid.hpp:PID::tunings", "src/spine/controller/implementations/pid/pid_controller.cpp:PIDController::set_tunings"]}
{"id": "C65", "title": "The configured proportionality is used", "statement": "A PID configured with proportionality ON_ERROR responds to the error proportionally, one configured with ON_MEASUREMENT to changes of the measurement.", "quantifier": "every configuration and history", "why_tests_cant": "All configurations and histories", "anchors": ["src/spine/controller/pid.cpp:PID::PID"]}
{"id": "C66", "title": "A copy of a PID is independent of the original", "statement": "Readings given to a copy of a PID change the copy's response as they would have changed the original's, and never the original's.", "quantifier": "every controller state, every reading", "why_tests_cant": "All states; the copy shares pointers", "anchors": ["src/spine/controller/pid.hpp:PID", "src/spine/controller/implementations/pid/pid_controller.hpp:PIDController"]}
{"id": "C67", "title": "Autotuning never commands the process outside the output limits", "statement": "While autotuning, every value given to the process setter lies within the configured output limits.", "quantifier": "every configuration, every sequence of measurements and times", "why_tests_cant": "The last command depends on the limits; tests use a lower limit of 0", "anchors": ["src/spine/controller/pid.cpp:PID::autotune"]}
{"id": "C68", "title": "The gains of a relay cycle follow from its period and amplitude", "statement": "The gains the autotuner shows after a cycle are the Ziegler-Nichols gains for the time between two switchings on and the range of all measurements taken in that cycle.", "quantifier": "every configuration, every cycle, every sequence of measurements", "why_tests_cant": "Which measurements enter the extremes depends on their position relative to the switching points", "anchors": ["src/spine/controller/implementations/pid/pid_tuner.cpp:PIDAutotuner::do_autotune"]}
{"id": "C69", "title": "The band of a band-pass filter is as wide as documented", "statement": "A sample is in the band exactly when it is at most mantissa * 10^(decades + 1) away from the midpoint.", "quantifier": "every mantissa and number of decades", "why_tests_cant": "The documented and the implemented formula agree for mantissa 1, which the predefined filter uses", "anchors": ["src/spine/filter/implementations/bandpass.hpp:BandPass::update_limits"]}
{"id": "C70", "title": "chain passes finished results on and continues the others", "statement": "chain on a Result that holds a success or an error returns that same Result without calling the function; on one that holds an intermediary value it returns what the function returns for that value.", "quantifier": "every Result, every payload types, every function", "why_tests_cant": "All types and payloads; the copy made by chain goes through overload resolution that depends on the error type", "anchors": ["src/spine/structure/result.hpp:Result::chain", "src/spine/structure/result.hpp:Result::Result(U&&)"]}
{"id": "C71", "title": "A Result made from a value is a success and a copy equals the original", "statement": "Constructing a Result<T, E, I> from a T gives a success holding that value, and copying a Result gives an equal Result, whether the source is a constant, a temporary or a variable.", "quantifier": "every T, E, I, every value, every Result", "why_tests_cant": "Depends on which conversions exist between the types", "anchors": ["src/spine/structure/result.hpp:Result::Result(const T&)", "src/spine/structure/result.hpp:Result::Result(U&&)"]}
{"id": "C72", "title": "Result accessors give only their own state's payload", "statement": "value(), error_value() and intermediary_value() return a payload only if the Result is in the success, failed or intermediary state respectively, and then the payload it was made with; in any other state the access is reported (assertion or exception).", "quantifier": "every Result, debug and release builds", "why_tests_cant": "All types including equal ones; release builds have no assertions", "anchors": ["src/spine/structure/result.hpp:Result::value", "src/spine/structure/result.hpp:Result::error_value", "src/spine/structure/result.hpp:Result::unwrap"]}
{"id": "C73", "title": "Converting a real quantity keeps its amount", "statement": "Constructing or assigning a real (floating-point) quantity from one in another unit of the same dimension gives the same amount up to the rounding of single precision: a relative error of at most 5 * 2^-24.", "quantifier": "every pair of units, every count that neither overflows nor underflows in the conversion", "why_tests_cant": "23 units and all floats; a wrong factor or an accumulated rounding shows only for some of them", "anchors": ["src/spine/structure/units/primitives/unit.hpp:Unit::from_other", "src/spine/structure/units/primitives/magnitudes.hpp"]}
{"id": "C74", "title": "Operations within one unit are the plain ones", "statement": "Adding, subtracting, multiplying, dividing and ordering two real quantities in the same unit gives exactly what the same operation on their counts gives; dividing by a zero quantity is reported.", "quantifier": "every unit, every pair of counts, infinities and NaN included", "why_tests_cant": "All floats; the operators convert the right operand first, which could round it", "anchors": ["src/spine/structure/units/primitives/unit.hpp:Unit::operator+", "src/spine/structure/units/primitives/unit.hpp:Unit::from_other"]}
{"id": "C75", "title": "Order is independent of the units", "statement": "Conversion never reverses the order of two real quantities, and comparing two quantities in different units gives the order of their amounts.", "quantifier": "every pair of units, every pair of counts", "why_tests_cant": "Rounding of ratios; tests use small whole numbers", "anchors": ["src/spine/structure/units/primitives/unit.hpp:Unit::operator<", "src/spine/structure/units/primitives/unit.hpp:Unit::from_other"]}
{"id": "C76", "title": "Compound quantities compare by amount", "statement": "Comparing two compound quantities (such as flows) gives the order of the amounts they stand for, in whatever units they are written.", "quantifier": "every pair of compound quantities of the same dimension", "why_tests_cant": "All units and values; tests compare flows of the same unit", "anchors": ["src/spine/structure/units/primitives/compound_unit.hpp:CompoundUnit::operator<", "src/spine/structure/units/primitives/compound_unit.hpp:CompoundUnit::raw"]}
{"id": "C77", "title": "Equality of real quantities is tolerant and symmetric", "statement": "Two real quantities are equal exactly when they differ by at most 2^-23 of the larger; in particular a quantity equals its own conversion to another unit, and equality does not depend on the side.", "quantifier": "every pair of units, every pair of counts", "why_tests_cant": "The tolerance is one rounding step while a conversion makes several roundings", "anchors": ["src/spine/structure/units/primitives/unit.hpp:Unit::operator==", "src/spine/structure/units/primitives/unit.hpp:Unit::approximately_equal"]}
{"id": "C78", "title": "Celsius and Kelvin", "statement": "Converting a temperature between Celsius and Kelvin shifts it by 273.15 up to 1/10000 degree, back and forth changes it by at most 1/4096 degree, and both conversions keep the order.", "quantifier": "every temperature of at most 1000 degrees in absolute value (accuracy), every temperature up to 2^100 (order)", "why_tests_cant": "All floats", "anchors": ["src/spine/structure/units/temperature.hpp:to_celsius", "src/spine/structure/units/temperature.hpp:to_kelvin"]}
{"id": "C79", "title": "First delimiter of a string", "statement": "find_first_of(s, delimiters) gives the position of the first character of s that is a delimiter, and npos exactly when there is none.", "quantifier": "every string, every set of delimiters", "why_tests_cant": "All strings", "anchors": ["src/spine/core/utils/string.cpp:find_first_of"]}
{"id": "C80", "title": "to_float reads the number its argument holds", "statement": "to_float of a string view that holds a decimal number gives that number, whatever follows the viewed characters in memory, and reads nothing beyond them.", "quantifier": "every view into every block of memory", "why_tests_cant": "The result depends on memory that is not part of the argument; a test with a literal always has a terminator there", "anchors": ["src/spine/core/utils/string.cpp:to_float"]}
{"id": "C81", "title": "Compile-time concatenation", "statement": "concat of any number of terminated character arrays is the concatenation of their texts followed by exactly one terminator.", "quantifier": "every number of operands, every length", "why_tests_cant": "All lengths and numbers of operands; the sizes are computed by template recursion", "anchors": ["src/spine/core/utils/concatenate.hpp:concat", "src/spine/core/utils/concatenate.hpp:concat_impl"]}
{"id": "C82", "title": "StaticString keeps its storage", "statement": "Whatever a caller does with a StaticString (announcing and writing text, resizing, stripping), its storage is never reallocated or exceeded, it stays terminated, it shows the text last written, and resizing keeps the common prefix and fills with zeros.", "quantifier": "every capacity, every sequence of operations", "why_tests_cant": "All sequences of operations", "anchors": ["src/spine/structure/static_string.cpp:StaticString::set_size", "src/spine/structure/static_string.cpp:StaticString::data", "src/spine/structure/static_string.cpp:StaticString::lstrip"]}
{"id": "C83", "title": "repr writes times in the documented units", "statement": "repr writes a time below a millisecond in microseconds, below a second in milliseconds, below 900 s in seconds, longer ones in minutes, hours and, from 24 hours on, days, as a decimal number and the unit's suffix.", "quantifier": "every time that is not negative, in every unit", "why_tests_cant": "The thresholds are compared after conversions in single precision; which unit is used between them depends on rounding", "anchors": ["src/spine/core/utils/time_repr.hpp:repr"]}
{"id": "C84", "title": "HAL printf shows its text cut at 255 characters", "statement": "HAL::printf shows the text given, cut to 255 characters, and writes nothing outside its buffer.", "quantifier": "every text of every length", "why_tests_cant": "All lengths", "anchors": ["src/spine/platform/platform.hpp:Platform::printf"]}
{"id": "C85", "title": "The log level filters messages", "statement": "A log message is shown exactly when its level is enabled by the level set last, whatever was logged or set before; the levels are ordered OFF, ERR, WARN, INFO, DBG and release builds never show debug messages.", "quantifier": "every sequence of level changes and messages", "why_tests_cant": "All sequences", "anchors": ["src/spine/core/logging.cpp:print", "src/spine/core/logging.cpp:set_log_level", "src/spine/platform/implementations/zephyr.cpp"]}
{"id": "C86", "title": "An exception reaches the handler installed last", "statement": "Throwing an error calls the handler installed last once with that error and then halts, unless the handler leaves by a C++ exception; installing a handler returns the previous one.", "quantifier": "every sequence of installations and errors", "why_tests_cant": "All sequences", "anchors": ["src/spine/core/exception.cpp:Exception::throw_error", "src/spine/core/exception.cpp:set_machine_exception_handler"]}
{"id": "C87", "title": "Converting kernel times keeps their order", "statement": "Converting times between units never swaps their order: if one time is not longer than another, the converted times compare the same way, whatever the rounding.", "quantifier": "every pair of times and every pair of units", "why_tests_cant": "All pairs; the conversion is done in single precision and depends on its rounding", "anchors": ["src/spine/structure/units/primitives/unit.hpp:Unit::from_other", "src/spine/structure/units/time.hpp"]}
{"id": "C88", "title": "A wait in microseconds on Zephyr lasts as long as asked", "statement": "HAL::delay_us on Zephyr waits for the number of microseconds asked for.", "quantifier": "every number of microseconds", "why_tests_cant": "All durations; time spent cannot be measured to a microsecond", "anchors": ["src/spine/platform/implementations/zephyr.hpp:Zephyr::delay_us"]}
{"id": "C89", "title": "A digital output is driven with the state it reports", "statement": "After any sequence of calls, a digital output's pin has the level of the state set last, inverted when it is active on low, and state() reports that state.", "quantifier": "every sequence of initialize, set_state and flip, both polarities", "why_tests_cant": "All sequences", "anchors": ["src/spine/platform/gpio.hpp:DigitalOutput", "src/spine/platform/implementations/arduino.hpp:ArduinoDigitalOutput"]}
{"id": "C90", "title": "An interrupt has the callback and trigger given last", "statement": "After any sequence of attachments an interrupt has the callback and trigger given last, those of its configuration if none were given; no other interrupt changes, and a pin without interrupt is reported in debug builds.", "quantifier": "every sequence of attachments, every mapping of pins to interrupts", "why_tests_cant": "All sequences and mappings", "anchors": ["src/spine/platform/implementations/arduino.hpp:ArduinoInterrupt::attach_interrupt"]}
{"id": "C91", "title": "Detaching an interrupt undoes attaching it", "statement": "After detach_interrupt the pin's interrupt has no callback and every other interrupt is as it was.", "quantifier": "every sequence of attachments, every mapping of pins to interrupts", "why_tests_cant": "Mappings of other boards", "anchors": ["src/spine/platform/implementations/arduino.hpp:ArduinoInterrupt::detach_interrupt"]}
{"id": "C92", "title": "Fading is smooth", "statement": "While fading, an analogue output never changes by more than the increment at a time.", "quantifier": "every start value, setpoint and increment, after any history", "why_tests_cant": "All float combinations", "anchors": ["src/spine/platform/gpio.cpp:fade_to", "src/spine/platform/gpio.hpp:AnalogueOutput::fade_to"]}
{"id": "C93", "title": "value() is the value driven last", "statement": "After any sequence of set_value and fade_to, value() of an analogue output is the value it was driven with last.", "quantifier": "every sequence of calls", "why_tests_cant": "All sequences and floats", "anchors": ["src/spine/platform/gpio.hpp:AnalogueOutput", "src/spine/platform/implementations/arduino.hpp:ArduinoAnalogueOutput::set_value"]}
{"id": "C94", "title": "The duty cycle fits the resolution", "statement": "For every value in [0,1] an analogue output writes a duty cycle from 0 to 2^resolution - 1 that grows with the value, or shrinks with it when the output is active on low.", "quantifier": "every value, resolution and polarity", "why_tests_cant": "All floats", "anchors": ["src/spine/platform/implementations/arduino.hpp:ArduinoAnalogueOutput::set_value"]}
{"id": "C95", "title": "An analogue reading is the raw reading by 1024", "statement": "Reading an analogue input of 10 bits gives exactly the raw number divided by 1024, a value in [0,1).", "quantifier": "every raw reading", "why_tests_cant": "Rounding of the division and the conversion to float", "anchors": ["src/spine/platform/implementations/arduino.hpp:ArduinoAnalogueInput::read"]}
{"id": "C96", "title": "Timers keep working when the clock rolls around", "statement": "On a platform whose millisecond counter has 32 bits and rolls around to 0 (Arduino), an alarm set before the roll and due after it expires when it is due, and an interval timer goes on reporting its intervals after the roll.", "quantifier": "every time of setting, duration and sequence of polls, before and after the roll", "why_tests_cant": "The roll happens after 49.7 days of running", "anchors": ["src/spine/platform/implementations/arduino.hpp:Arduino::millis", "src/spine/structure/time/timers.hpp:AlarmTimer", "src/spine/structure/time/timers.hpp:IntervalTimer"]}
{"id": "C97", "title": "Real times and kernel times convert into each other", "statement": "to_kernel_time gives, with the default rounding, the least whole count that is not shorter than the real time, with floor the largest not longer, with round the nearest; to_real_time followed by to_kernel_time gives every kernel time back.", "quantifier": "every finite real time in the range of a kernel time and every kernel time", "why_tests_cant": "All floats and all 64-bit counts", "anchors": ["src/spine/structure/units/time.hpp:to_kernel_time", "src/spine/structure/units/time.hpp:to_real_time"]}
{"id": "C98", "title": "Event data is read only as what it was written", "statement": "The getter of the type stored in an event's data gives the stored value; any other getter never gives a value (it stops in a debug build and throws in a release build); an empty object gives zero in a release build and stops in a debug build.", "quantifier": "every stored value, every getter and both builds", "why_tests_cant": "All combinations of values, getters and builds", "anchors": ["src/spine/eventsystem/eventsystem.hpp:Event::Data", "src/spine/eventsystem/eventsystem.cpp:Event::Data::value"]}
{"id": "C99", "title": "The pipeline prints the times of its events", "statement": "The text of a pipeline is \"Pipeline: [\", the times until its events in their order separated by \", \", and \"]\", in every build and whatever the clock does while it is put together.", "quantifier": "every pipeline and every pair of clock readings per event", "why_tests_cant": "Number of events and the clock moving between the two passes", "anchors": ["src/spine/eventsystem/pipeline.cpp:Pipeline::to_string"]}
{"id": "C100", "title": "Points compute as vectors", "statement": "Adding, subtracting, scaling, dividing and comparing points of whole numbers obey the laws of vectors, dot is zero for points at right angles, and normalize gives a point of length one in the same direction.", "quantifier": "all points whose results are in range", "why_tests_cant": "All triples of numbers", "anchors": ["src/spine/structure/point.hpp:XYZPoint", "src/spine/structure/point.hpp:XYPoint"]}
{"id": "C101", "title": "Reading a byte tells whether there was one", "statement": "read(value) of a serial port answers true exactly when a byte had been received, and then gives the bytes in the order of arrival; reading a block gives the first bytes received and leaves the others; what is written is sent in that order.", "quantifier": "every sequence of received bytes, of reads and of writes", "why_tests_cant": "All contents of the port", "anchors": ["src/spine/platform/implementations/arduino.hpp:ArduinoUART::read"]}
{"id": "C102", "title": "Autotuning reaches its start point or gives up after half an hour", "statement": "Before tuning from a start point the process is driven with the upper output limit until it has reached the start point or half an hour has passed on the clock that autotune was given, and is then set to the lower limit.", "quantifier": "every sequence of measurements and clock readings", "why_tests_cant": "Half an hour of measurements, two clocks", "anchors": ["src/spine/controller/pid.cpp:PID::autotune"]}
{"id": "C103", "title": "Autotuning follows satured_at_start", "statement": "When satured_at_start is off, autotuning waits after heating until the process has fallen back to the start point before it tunes.", "quantifier": "every sequence of measurements", "why_tests_cant": "The wait depends on measurements over time", "anchors": ["src/spine/controller/pid.cpp:PID::autotune", "src/spine/controller/pid.hpp:PID::TuneConfig"]}
{"id": "C104", "title": "Autotuning measures at the sampling interval", "statement": "On a clock that advances with sleep the measurements of autotuning are exactly one sampling interval apart, and the gains are those of measurements at these times.", "quantifier": "every configuration, sequence of measurements and start time", "why_tests_cant": "All intervals and uptimes", "anchors": ["src/spine/controller/pid.cpp:PID::autotune"]}
{"id": "C105", "title": "Resetting filters", "statement": "After reset_to(v) a filter reports v and what it was given before no longer matters: an average starts anew, a band starts at v with no rejections counted, a mapping is not affected; resetting a stack resets each of its filters in this way.", "quantifier": "every filter, every history of samples and resets", "why_tests_cant": "All histories before and after the reset", "anchors": ["src/spine/filter/filter.hpp:Filter::reset_to", "src/spine/filter/filterstack.hpp:Stack::reset_to", "src/spine/filter/implementations/ewma.hpp:EWMA::reset_to", "src/spine/filter/implementations/bandpass.hpp:BandPass::reset_to"]}
{"id": "C106", "title": "Arithmetic across units uses amounts", "statement": "Adding, subtracting, multiplying or dividing a real (floating-point) quantity with one written in another unit of the same dimension gives, in the unit of the left operand, what the operation on the amounts gives up to single precision: at most 6 * 2^-24 of the summed sizes for + and -, of the result for * and /. Dividing by a zero quantity is reported whatever its unit.", "quantifier": "every pair of units, every pair of counts of moderate size (2^-59 to 2^59, or zero)", "why_tests_cant": "All floats and 529 pairs of units; an operand used without conversion shows only where the units differ", "anchors": ["src/spine/structure/units/primitives/unit.hpp:Unit::operator+", "src/spine/structure/units/primitives/unit.hpp:Unit::operator-", "src/spine/structure/units/primitives/unit.hpp:Unit::operator/", "src/spine/structure/units/primitives/unit.hpp:Unit::from_other"]}
{"id": "C107", "title": "Events got with event() stay as they were made", "statement": "An event got with event(id, delay, data) reads as it was made for as long as the program keeps it, whatever is scheduled, triggered and fired meanwhile, also by handlers. Scheduling it later always finds room and makes it fire its delay after that moment; triggering it calls the handlers of its id with its data; dropping it makes its room available again. Scheduling it twice makes it fire twice, each its delay after it was scheduled.", "quantifier": "every program of calls, every behaviour of the handlers, every uptime", "why_tests_cant": "All interleavings of kept, pending and fired events over the same pool of objects", "anchors": ["src/spine/eventsystem/eventsystem.hpp:EventSystem::event", "src/spine/eventsystem/eventsystem.hpp:EventSystem::schedule", "src/spine/eventsystem/eventsystem.cpp:EventSystem::trigger", "src/spine/structure/pool.hpp:Pool::acquire"]}
{"id": "C108", "title": "A date and a time written by the compiler are read as written", "statement": "DateTime(__DATE__, __TIME__) denotes the calendar date and the time of day those two texts spell: for every date from year 0 to 9999 in the form \"Mmm dd yyyy\" and every time in the form \"hh:mm:ss\", year, month, day, hour, minute and second are the written ones and the day of the year is the number of days since January 1st.", "quantifier": "all valid dates of years 0 to 9999, all times of day, any earlier contents of the object's memory", "why_tests_cant": "Whether a test catches a wrong reading depends on the time of day at which the test program was compiled; the combinations of hour, minute and second with leading zeros are many.", "anchors": ["src/spine/structure/time/datetime.cpp:DateTime::DateTime(const char*, const char*)"]}
{"id": "C109", "title": "An element of a vector can be added to that vector", "statement": "v.push_back(v[i]), v.push_front(v[i]) and v.insert(k, v[i]) add the value that v[i] had at the time of the call, for every i and k, wherever in its storage the vector's elements lie and however full it is.", "quantifier": "all element types, reachable vectors, indices, debug and release", "why_tests_cant": "Whether the reference is overwritten by the move of the elements depends on where the elements lie after the history of pushes and pops, which tests sample only.", "anchors": ["src/spine/structure/vector.hpp:Vector::push_back", "src/spine/structure/vector.hpp:Vector::push_front", "src/spine/structure/vector.hpp:Vector::insert", "src/spine/structure/vector.hpp:Vector::rearrange"]}
{"id": "C110", "title": "A copied or assigned pool is a pool of its own", "statement": "After `Pool q(p)`, `q = p` or `q = std::move(p)` the pool q holds the objects p held; from then on calls on one pool do not change what the other holds, both can be destroyed in either order, an assigned-to pool releases what it held before, and acquire on either never returns an object a client holds.", "quantifier": "all pools, contents, sequences of populate, depopulate, acquire, copies, assignments and destructions, debug and release", "why_tests_cant": "Aliased storage shows up only after particular interleavings of calls on both pools and destructions, and use after free may go unnoticed.", "anchors": ["src/spine/structure/pool.hpp:Pool::Pool(const Pool&)", "src/spine/structure/pool.hpp:Pool::operator=", "src/spine/structure/pool.hpp:Pool::~Pool", "src/spine/structure/array.hpp:Array::Array(const Array&)", "src/spine/structure/array.hpp:Array::operator="]}
{"id": "C111", "title": "Transactions kept in variables each consume one line", "statement": "A program may keep transactions in std::optional variables, assign new_transaction() or another transaction to them, reset them and let them go out of scope. Assigning to a variable ends the open transaction it held, so every transaction made consumes exactly one line, `while (tx = stream.new_transaction())` sees each line once, and abort() leaves no output behind that was queued before it in that variable.", "quantifier": "all programs over any number of variables, all inputs, buffer sizes and states, debug and release", "why_tests_cant": "The order of takes, moves, resets, commits and aborts over several variables is unbounded; tests use one transaction in one scope.", "anchors": ["src/spine/io/stream/transaction.hpp:Transaction::operator=", "src/spine/io/stream/transaction.hpp:Transaction::~Transaction", "src/spine/io/stream/buffered_stream.cpp:BufferedStream::new_transaction"]}
{"id": "C112", "title": "A sample whose exception was caught leaves no trace", "statement": "When the machine's exception handler throws and the program catches what value(sample) raised, the filter goes on as if that sample had never been given: value() is unchanged, no filter of a stack has taken the sample, and later samples give what they would have given. A band filter so used reports samples in band only, and raises exactly for samples out of band that follow a full limit of others in a row.", "quantifier": "all configurations, filter states, stacks and sequences of samples, debug and release", "why_tests_cant": "Where in a sequence and in a stack an exception is raised, and which objects have changed by then, depends on the whole history of samples.", "anchors": ["src/spine/filter/implementations/bandpass.hpp:BandPass::value", "src/spine/filter/implementations/mapped_range.hpp:MappedRange::value", "src/spine/filter/implementations/invert.hpp:Invert::value", "src/spine/filter/filterstack.hpp:Stack::value", "src/spine/core/exception.cpp:throw_exception"]}
{"id": "C113", "title": "Ticks of the clock within a call do no harm", "statement": "On hardware HAL::millis() may advance between two readings within one call. Even so the times reported by successive time_since_last() calls add up to the time that passed, an SRLatch is on (off) for its minimal time from the end of the call that switched it to the start of the call that switches it back, and events pending in the event system are in due order, so that no event waits behind one that is due later.", "quantifier": "all clocks that do not go back, all sequences of calls, readings, delays and both orders in which operands may be evaluated", "why_tests_cant": "The mock clock does not advance within a call, and on hardware the tick has to fall between two particular instructions.", "anchors": ["src/spine/structure/time/timers.cpp:Timer::time_since_last", "src/spine/controller/sr_latch.cpp:SRLatch::new_reading", "src/spine/eventsystem/pipeline.cpp:Pipeline::push"]}
{"id": "C114", "title": "A handler that throws harms only its own event", "statement": "When an event handler throws and the program catches the exception around loop() or trigger() (or another handler does, around a nested call), every event that has not fired is still pending and fires in due order in later loop() calls, none fires twice or is lost, events the program keeps are untouched, the slot of the event being handled is free again, and the other handlers attached to that event have been told of it.", "quantifier": "all programs of the event system's calls, all handler behaviours including nested calls, try blocks and throws, all configurations, debug and release", "why_tests_cant": "Which handler throws, how deep in nested loop() and trigger() calls, and what is pending and kept at that moment depend on the whole history.", "anchors": ["src/spine/eventsystem/eventsystem.cpp:EventSystem::loop", "src/spine/eventsystem/eventsystem.cpp:EventSystem::trigger", "src/spine/eventsystem/pipeline.cpp:Pipeline::expire"]}
{"id": "C115", "title": "Latches, controllers and events keep working when the clock rolls around", "statement": "HAL::millis() is documented to roll around (on Arduino after 2^32 ms, 49.7 days). Across a roll-over a latch still follows its readings and keeps its minimal and maximal times, a PID controller goes on computing, and a scheduled event still fires when due.", "quantifier": "every true time, however many roll-overs, every delay and configuration, every sequence of readings, controller calls and event programs", "why_tests_cant": "A roll-over happens once in 49.7 days of uptime, and a test with a mock clock never takes it through 2^32; that a component never recovers is a statement about all later times", "anchors": ["src/spine/platform/platform.hpp:89-93", "src/spine/platform/implementations/arduino.hpp:333", "src/spine/structure/time/timers.cpp", "src/spine/controller/sr_latch.cpp", "src/spine/controller/implementations/pid/pid_controller.cpp:33-68", "src/spine/eventsystem/pipeline.cpp:49-67"]}
{"id": "C116", "title": "A value unwrapped or moved out of a Result is handed over", "statement": "unwrap(), unwrap_error_value() and unwrap_intermediary_value() hand their payload over: afterwards the caller owns it and the Result does not. Moving a Result into another gives the target the state and payload of the source, leaves every third Result alone, never gives a resource two owners, and the source does not report a success any more.", "quantifier": "all payload types, all numbers of Result variables, all programs that make, copy, move, assign, read, unwrap and chain them, debug and release builds", "why_tests_cant": "who owns a payload depends on which constructor overload resolution selects and on every move before; tests with numbers and strings see equal values whether copied or moved", "anchors": ["src/spine/structure/result.hpp:23-27", "src/spine/structure/result.hpp:68-99", "src/spine/core/meta/unique_type_variant.hpp:78-87"]}
{"id": "C117", "title": "Length and direction of points over float", "statement": "For points over float, mag() is the Euclidean length up to the rounding of float and is zero for the point zero only; normalize() gives a point of length one in the same direction, for every point that is not zero, and leaves the point zero finite; != is the opposite of ==; +, -, * and / work component by component, each component being the exact result rounded once. Points of the plane behave like those with z zero.", "quantifier": "all finite components, points in space and in the plane", "why_tests_cant": "rounding errors, underflow and overflow depend on 2^96 inputs; tests look at whole numbers", "anchors": ["src/spine/structure/point.hpp:39-45", "src/spine/structure/point.hpp:80-85"]}
{"id": "C118", "title": "A date is the same as fields, as a Unix time and as text", "statement": "In UTC, a DateTime made of a date and a time of day shows exactly these through its getters, with the weekday and the day of the year of the calendar whatever was given for them; getUnixTime is the number of seconds from 1970-01-01 00:00:00 to that moment, counting the days of the calendar one by one, and getY2kTime is 946684800 less. A DateTime made of that Unix time, or of the same date and time as text, shows the same. Unix times compare as the dates do. A date that does not exist is reported, and the weekday shown is the one given if that was right.", "quantifier": "all years whose distance from 1900 is an int, all valid dates and times of day, all Unix times within them, before and after 1970", "why_tests_cant": "leap years, centuries and weekdays over billions of years; tests try a few dates", "anchors": ["src/spine/structure/time/datetime.cpp:87-142", "src/spine/structure/time/datetime.cpp:148-156", "src/spine/structure/time/datetime.hpp:21-46"]}
{"id": "C119", "title": "Exception handlers may raise errors and replace handlers", "statement": "While an exception handler handles an error it may itself raise another error, install or remove handlers through set_machine_exception_handler and put the old one back: every error still ends with the platform halted or a C++ exception leaving, no handler is called within itself, no handler that was destroyed is used, and the handler installed afterwards exists.", "quantifier": "all handlers, all nestings of errors, platforms on which halting stops the program and the mock on which it returns", "why_tests_cant": "needs all programs of handlers; endless recursion and use after destruction are not reported by a test that happens to survive them", "anchors": ["src/spine/core/exception.cpp:12-34", "src/spine/core/exception.hpp:8-17"]}
{"id": "C120", "title": "An array holds what was put in it, and no other array changes it", "statement": "An array has the size it was made with and holds the elements it was given, filled with or assigned; an element written is read back until it is overwritten; front, back and empty describe the same elements; moving an array or assigning a list to it carries over all elements and the size; swapping two arrays exchanges them; writing to one array never changes another; no element in range is ever outside the storage.", "quantifier": "all element types, all programs of arrays that make, move, assign, swap, destroy, read and write them, of all sizes", "why_tests_cant": "needs all programs and all sizes; that storage of another array is untouched, and that no read leaves the storage, is not visible to a test of a few arrays", "anchors": ["src/spine/structure/array.hpp:112-222", "src/spine/structure/array.hpp:304-330"]}
{"id": "C121", "title": "Copies of ring buffers, line buffers and vectors are objects of their own", "statement": "A RingBuffer, LineBuffer or Vector that is copied, moved, assigned or destroyed behaves as an object that holds its own elements: a copy answers every call as the original would have, calls on one object never change what another answers, an object remains usable when the one it was copied from is destroyed, moving hands over all elements, and destroying an object is always defined.", "quantifier": "all element types, all programs that construct, copy, move, assign, destroy and call any number of ring buffers, line buffers or vectors, debug and release builds", "why_tests_cant": "needs all programs with any number of objects; use of freed storage and elements changed through a copy are only seen by a test that happens to look at the other object", "anchors": ["src/spine/structure/array.hpp:118-197", "src/spine/structure/ringbuffer.hpp:13-76", "src/spine/structure/linebuffer.hpp:10-40", "src/spine/structure/vector.hpp:100-119"]}
{"id": "C122", "title": "Objects in containers live exactly as long as something refers to them", "statement": "Objects put into a Vector or RingBuffer as shared pointers are destroyed when the last variable or element that refers to them is gone, and not before: a container of shared pointers does what a container of plain pointers does, use_count() is the number of variables and elements that refer to the object, taking an element out, overwriting it, clearing or destroying the container gives up its references, and no reference is given up twice.", "quantifier": "all programs that make objects, copy and reset pointers and push, insert, fill, assign, pop, remove, read, clear and destroy a vector or ring buffer of any capacity, debug and release builds", "why_tests_cant": "needs all programs: a reference that is given up twice or never shows only when later calls happen to write the stale cell, as freed or leaked memory rather than as a wrong result", "anchors": ["src/spine/structure/vector.hpp:76-270", "src/spine/structure/array.hpp:128-197", "src/spine/structure/ringbuffer.hpp:78-169"]}
{"id": "C123", "title": "Times, timers and alarms stay within the 64 bits of kernel time", "statement": "Kernel times are counts in a signed 64-bit integer, converted through float whenever two of them meet. For every two times that span at most 73 066 years (2^61 us) in any units, converting, adding, subtracting, dividing, negating and comparing them is defined behaviour and gives the result that it has on unbounded integers; every alarm, interval timer and timer whose durations and clock readings lie within the first 17 839 years (2^49 ms) is defined on every sequence of polls and answers as with unbounded integers. Any representable time can be compared with itself.", "quantifier": "all pairs of units, all times and all sequences of clock readings in the range; all representable times for the limit", "why_tests_cant": "Undefined behaviour at the edge of the range gives any result, and a test that happens to pass there shows nothing; the range is 2^64 counts.", "anchors": ["src/spine/structure/units/primitives/unit.hpp:36-143", "src/spine/structure/time/timers.cpp:7-62", "src/spine/structure/units/time.hpp"]}
{"id": "C124", "title": "The text of a DateTime is complete or absent, and tells the moment", "statement": "Formatting a DateTime into a buffer of a given size writes, in the default format, weekday, month, two-digit day, hh:mm:ss and year, with the terminating zero, and returns the length exactly when the text and the zero fit; otherwise it returns 0; no cell beyond the given size is touched in either case. Two DateTimes of different moments never have the same text. Texts in the format \"%Y-%m-%d %H:%M:%S\" of moments in the years 1000 to 9999 compare by strcmp as the moments do. A DateTime made of the date and time within the text is the same moment again. Every DateTime has a text.", "quantifier": "all moments, buffers, sizes and buffer contents; all pairs of moments for distinctness and order; all formats of the modelled conversions for all-or-nothing", "why_tests_cant": "The moments are 2^63 seconds and pairs of them are compared; a test samples a few dates and sizes.", "anchors": ["src/spine/structure/time/datetime.cpp:169-172", "src/spine/structure/time/datetime.hpp:37", "src/spine/structure/time/datetime.cpp:126-142"]}
{"id": "C125", "title": "The PID controller follows its control law", "statement": "Every response of the PID controller is that of the control law on the setpoints, readings, takeovers and limits since its tunings were set: proportional, summed and differential terms in the gains per sample, the sum and the response cut to the limits. On integers at one sample a second this is the textbook sum, exactly. Taking over with the reading on the setpoint leaves the output where it was. With non-negative gains a forward controller answers a higher setpoint or a lower reading with no lower output, a reverse controller with no higher output, and a reverse controller does to readings and setpoints what a forward one does to them negated. error() is the distance of the last reading from the last setpoint.", "quantifier": "all gains, sampling times, directions, both proportional modes, all sequences of setpoints, readings, limits and takeovers (the law: any floats, NaN and infinities among them; comparisons of histories: values up to 2^40)", "why_tests_cant": "The output depends on the whole history through the sum and the last reading; a sign, a forgotten last reading or an unclamped sum shows only on some histories, and comparing two histories ranges over pairs of them.", "anchors": ["src/spine/controller/implementations/pid/pid_controller.cpp:8-119", "src/spine/controller/pid.cpp:5-23", "src/spine/controller/pid.hpp:55-98"]}
{"id": "C126", "title": "Filters compute what they are named for", "statement": "Every output of the moving average is the mean of the samples so far until the frame is full, then the exponentially weighted average with weight 1/K for each further sample, up to 2^-22 times frame size times the greatest sample, however many samples there were; after m samples of one value it is within (1-1/K)^m of the old distance from it. A mapped range gives the point of the straight line through its corners, whichever way the output range runs, samples outside cut to the input range. An inverted sample is as far from the upper limit as the sample is from the lower. Errors of the last two are below 2^-20 of the greatest limit.", "quantifier": "all frame sizes from 2 to 2^24 (fractions among them), all sequences of samples up to 2^126 of any length; all limits up to 2^125, all samples", "why_tests_cant": "A wrong weight, a frame that fills one sample late or an error that builds up show only after many samples, as small deviations that a test with a tolerance accepts; rounding errors depend on every value.", "anchors": ["src/spine/filter/implementations/ewma.hpp:16-50", "src/spine/filter/implementations/mapped_range.hpp:30-61", "src/spine/filter/implementations/invert.hpp:20-50"]}
{"id": "C127", "title": "to_float reads every number, and nothing else", "statement": "to_float of a text is the float nearest to the number the text denotes, for every decimal or hexadecimal number with or without blanks in front, sign, point and exponent, of any number of digits; infinity when that is beyond all floats, infinities and NaN by their names; and 0 for any text that is no number. Texts of larger numbers never give smaller floats.", "quantifier": "all views, all texts of any length", "why_tests_cant": "The texts are unbounded in number and length and the nearest float depends on every digit of them; wrong rounding differs in the last bit for a few texts only, and tests compare with literals converted by the same library.", "anchors": ["src/spine/core/utils/string.cpp:59-68", "src/spine/core/utils/string.hpp:24"]}
{"id": "C128", "title": "Kernel times scale by numbers of every type", "statement": "Multiplying or dividing a kernel time by a number gives the product or the quotient, whatever arithmetic type the number has: for whole numbers exactly (a quotient loses only its fraction, and dividing undoes multiplying), for real ones to within one count and the precision of their type. Scaling by a positive number keeps the order of times, a factor of at most 1 makes no time longer, and dividing by zero is reported.", "quantifier": "all times of 64 bits, all scalars of signed and unsigned integer types, float and double, products in range", "why_tests_cant": "The mixed arithmetic converts one operand to the type of the other by silent language rules, so results go wrong only for some pairs of values: long times, negative times, factors a rounding away from a whole result. No table of examples covers the pairs.", "anchors": ["src/spine/structure/units/primitives/unit.hpp:81-100", "src/spine/structure/units/primitives/raw_types.hpp", "src/spine/structure/units/time.hpp"]}
{"id": "C129", "title": "A server answers every line once, in order", "statement": "A program that reads lines from a BufferedStream and writes an answer for each sends exactly the answers to the lines it received, in their order, each once, however bytes arrive in pieces, whenever the device has room, and in whatever order and how often it pulls in data, serves and pushes out data; when it goes on, it has answered everything after as many rounds as lines. The program may copy lines (get_next_line) or use transactions, and waits for room for its answer.", "quantifier": "all byte sequences whose lines fit the input buffer, all schedules of arrivals, room, pulls, serves and pushes, all delimiters, buffer sizes and answers", "why_tests_cant": "The guarantee spans two ring buffers, framing, transactions and a device; losses and duplicates need particular positions of the ring indices combined with particular timing, of which there are unboundedly many.", "anchors": ["src/spine/io/stream/buffered_stream.cpp:8-63", "src/spine/io/stream/transaction.cpp:6-60", "src/spine/structure/linebuffer.cpp:8-57"]}
{"id": "C130", "title": "A latch spares its load", "statement": "However the readings swing, the load of an SR latch is started no more often than its minimal times allow: from one start to the n-th start after it at least n times the sum of the minimal on and off times passes.", "quantifier": "all configurations, all sequences of readings at times that do not go back, any two starts", "why_tests_cant": "A bound on the rate of switching is a statement over unbounded histories of readings; a test sees a few patterns of readings at one uptime.", "anchors": ["src/spine/controller/sr_latch.cpp:5-30", "src/spine/controller/sr_latch.hpp:18-46"]}
{"id": "C131", "title": "Periodic tasks keep their periods", "statement": "A program that runs tasks on an EventSystem, each handler scheduling its own event again with a fixed delay, runs each task at the first call of loop() at which its period has passed since its last run and at no other time, with its own data, whatever periods the other tasks have; loop() returns each time.", "quantifier": "any number of tasks, all periods, all moments at which loop() is called, all configurations with room for the tasks, with and without delays between ticks", "why_tests_cant": "The interplay of any number of tasks over unbounded time; tests run one or two events for a few ticks soon after the start.", "anchors": ["src/spine/eventsystem/eventsystem.cpp:63-88", "src/spine/eventsystem/eventsystem.hpp:111-155", "src/spine/eventsystem/pipeline.cpp:9-84"]}
{"id": "C132", "title": "A handler belongs to one event system", "statement": "An EventHandler works on the event system it was given, by its constructor or by attach_event_system, and on no other: it is given one once, it is never left without one, and asking for it before it was given is refused.", "quantifier": "every sequence of event systems and null pointers given to a handler, debug and release builds", "why_tests_cant": "All orders of giving and asking, including null pointers; the accessor is protected and its failure is a halt.", "anchors": ["src/spine/eventsystem/eventsystem.hpp:68-89"]}
{"id": "C133", "title": "A detached handler is called no more", "statement": "After EventSystem::detach(handler) no event calls the handler any more.", "quantifier": "every handler, event and state of the event system", "why_tests_cant": "The call is an assertion in one build and nothing in the other; a test in either sees only one of them.", "anchors": ["src/spine/eventsystem/eventsystem.hpp:120"]}
{"id": "C134", "title": "A latch keeps what it controls within bounds", "statement": "A quantity that an SR latch keeps down while on and that rises at a bounded rate while off never exceeds its high level by more than it can gain between two readings, nor its low level by more than it can gain in the minimal off time and between two readings; likewise downwards with the minimal on time.", "quantifier": "all configurations, all rates, all histories of readings and times a plant with these rates can produce", "why_tests_cant": "The bound is over all trajectories of a closed loop; a test follows one.", "anchors": ["src/spine/controller/sr_latch.cpp:5-30", "src/spine/controller/sr_latch.hpp:18-46"]}
{"id": "C135", "title": "A client and a server over a serial line", "statement": "Two hosts with a BufferedStream each, joined by a serial line that delays bytes but loses none, exchange requests and answers that fit into their input buffers: in every interleaving the answers the client has read are exactly those to its first requests, in order and each once; if both go on, every request sent is answered; requests sent one after the other are never refused and each is answered before the next.", "quantifier": "for all buffer capacities, delimiters, answers, requests, delays of the line, and all interleavings of sending, pushing, pulling, serving and reading", "why_tests_cant": "it is a statement about all interleavings and splits of the bytes at two hosts, four ring buffers and a line; a test runs one", "anchors": ["src/spine/io/stream/buffered_stream.cpp:5-57", "src/spine/io/stream/buffered_stream.hpp:28-63", "src/spine/structure/linebuffer.hpp"]}
{"id": "C136", "title": "Ring buffers, line buffers and vectors free the storage they allocated, once, and no other", "statement": "Over any program that constructs, copies, moves, assigns, destroys and calls RingBuffers, LineBuffers or Vectors, every storage they allocated is freed exactly once by the time all of them are destroyed, a storage that the caller handed to a Vector is never freed, and a Vector to which a list of values is assigned frees the storage it had, if it had allocated it.", "quantifier": "all element types, capacities, programs and their calls, debug and release builds", "why_tests_cant": "Leaks and double frees depend on the whole history of copies, moves and assignments among any number of objects; tests construct and destroy single objects and observe no allocator.", "anchors": ["src/spine/structure/array.hpp:118-197", "src/spine/structure/vector.hpp:100-119", "src/spine/structure/ringbuffer.hpp", "src/spine/structure/linebuffer.hpp"]}
{"id": "C137", "title": "A lasting deviation takes the PID output to its limit, and the output comes back at once", "statement": "While the reading stays off the setpoint the output moves toward a limit at every sample, by Ki times the deviation, never moves back, and with Ki > 0 gets to the limit. There is no windup: however long the output was at the limit, the first reading past the setpoint takes it off the limit by at least Ki times the deviation, and the outputs that follow are no higher than those of a controller that has only just taken over at the limit.", "quantifier": "all gains, limits, directions, both proportional modes, all histories of setpoints and readings, of any length (the amounts: whole numbers that fit a float; never moving back and no windup: all floats up to 2^40)", "why_tests_cant": "Windup shows only after a long time at a limit, and how long depends on gains and deviations; a test runs one history of one length.", "anchors": ["src/spine/controller/implementations/pid/pid_controller.cpp:8-119"]}
{"id": "C138", "title": "A client that wakes at the starts of the blocks follows the schedule", "statement": "A client that looks up Schedule::value_at for the time of day, sleeps until start_of_next_block, and goes on so day after day, always has the value that is due: nothing changes while it sleeps. It wakes again and again, and at most once a day for each block besides midnight.", "quantifier": "all schedules accepted by the constructor, all times to begin at, all times later, over any number of days, debug and release builds", "why_tests_cant": "The claim quantifies over every second between two wakings on every day and over all lists of blocks; gaps, blocks past midnight and the order of the list matter only at some of them.", "anchors": ["src/spine/structure/time/schedule.cpp:5-30", "src/spine/structure/time/schedule.hpp:17-40"]}
{"id": "C139", "title": "The moving average follows its samples without overshooting", "statement": "Every sample moves the output of the EWMA filter toward the sample and not beyond it. While the samples stay at a value, whatever came before, the output goes there without turning back or passing it, and gets there.", "quantifier": "all frame lengths of at least two, all sequences of samples, all constants and all lengths", "why_tests_cant": "Overshoot and turning back are about all pairs of later outputs in rounded arithmetic; whether the value is ever reached is about infinitely many samples.", "anchors": ["src/spine/filter/implementations/ewma.hpp:14-47"]}
{"id": "C140", "title": "Gains that autotuning returns can be set as tunings", "statement": "With output limits in order, a hysteresis that is not negative, at least one cycle and measurements taken one after the other, the proportional, integral and derivative gains that autotuning ends with are numbers that are not below zero, so that setting them as tunings of a controller is accepted also in builds with assertions.", "quantifier": "for all tuner configurations with such limits, all sequences of finite measurements at strictly increasing times, all uptimes, all controllers with a positive sampling time, builds with and without assertions", "why_tests_cant": "a test tunes one process just after boot; signs lost through rounding of late times or through a division by zero cycles depend on uptime, configuration and the whole sequence of measurements", "anchors": ["src/spine/controller/implementations/pid/pid_tuner.cpp:5-126", "src/spine/controller/pid.cpp:25-133", "src/spine/controller/implementations/pid/pid_controller.cpp:84-100"]}
{"id": "C141", "title": "A schedule asked by date follows the days", "statement": "A client that makes a DateTime of the Unix time, adds up its hours, minutes and seconds as kernel times and asks a Schedule with the sum gets, at every moment, the value of the first block that is running then, counting each block as beginning every day at its start and lasting its duration, also past midnight; the same every day. With blocks in order, sleeping for start_of_next_block minus that sum leads to the first start of a block after the moment, or to the midnight before it.", "quantifier": "for all schedules the constructor accepts with starts within the day, all Unix times from 2000 on (in builds without assertions also before), up to 2^55 seconds, builds with and without assertions", "why_tests_cant": "tests ask a schedule at a few times of one day; that the fields of every date add up to the right second without rounding, across leap years, month ends and blocks past midnight, is a statement about all dates and schedules", "anchors": ["src/spine/structure/time/schedule.cpp:16-30", "src/spine/structure/time/datetime.cpp:87-91", "src/spine/structure/time/datetime.hpp:28-36", "src/spine/structure/units/primitives/unit.hpp:138-143"]}
{"id": "C142", "title": "The response of a controller is always a number", "statement": "Whatever is read, the response of a PID with limits in order is a number within them, so that it can be given to an analogue output; in particular the controller recovers once good readings follow a bad one.", "quantifier": "for all configurations with tunings, limits and sampling time of sensible size, all sequences of initialize, set_setpoint, set_tunings and new_reading, all times, builds with and without assertions", "why_tests_cant": "tests feed a few ordinary readings; that no product, sum or difference within any sequence of calls overflows or becomes NaN, and whether one bad reading is ever forgotten, concerns all sequences", "anchors": ["src/spine/controller/pid.cpp:5-23", "src/spine/controller/pid.hpp:55-86", "src/spine/controller/implementations/pid/pid_controller.cpp:8-119", "src/spine/platform/gpio.hpp:49-52"]}
{"id": "C143", "title": "A band-pass in front keeps samples that are not numbers out", "statement": "Put a band-pass filter first in a filter stack, a moving average behind it and a PID controller behind both. Whatever a faulty sensor delivers now and then instead of a number (NaN), the output of the band-pass is always one of the samples that were numbers, the average lies between two such samples, and the response of the controller is a number within its limits; a moving average without the band-pass never recovers from one such sample.", "quantifier": "for every configuration of the band-pass, every constant of the average of 2 or more, every list of samples that are moderate numbers or NaN, every configuration of the controller and every time of the readings", "why_tests_cant": "whether a NaN slips through depends on the history of accepted and rejected samples and on how each comparison treats an unordered operand; a test feeds a few lists", "anchors": ["src/spine/filter/implementations/bandpass.hpp:51-98", "src/spine/filter/implementations/ewma.hpp:28-47", "src/spine/filter/filterstack.hpp:19-41", "src/spine/controller/pid.cpp:5-23"]}
{"id": "C144", "title": "A latch behind a moving average switches later, but not more often", "statement": "Put a moving average in front of a set-reset latch, to keep noise from the relay. The latch then switches on only at a sample that is itself above the upper level, and off only at a sample that is itself below the lower level; while no sample was above the upper level it has never been on; and a value that lasts above the upper (below the lower) level has it on (off) in the end.", "quantifier": "for every constant of the average of 2 or more, every pair of levels, every list of samples and every times of the readings", "why_tests_cant": "what the latch is given depends on all samples so far, rounded at each; a test sees a few lists, and not whether an average still moving can cross a level at a sample that does not", "anchors": ["src/spine/filter/implementations/ewma.hpp:28-47", "src/spine/controller/sr_latch.cpp:5-30", "src/spine/controller/sr_latch.hpp:29-46"]}
