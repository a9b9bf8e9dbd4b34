{"id": "C01", "title": "Circular sequence numbers: strict order is a tournament", "statement": "For a CircularSequenceNumber of any width bits>1, exactly one of x<y, y<x, x==y holds for any two values, and x<=y holds exactly when x<y or x==y; > and >= are the mirror images.", "quantifier": "every width bits>1, every pair of values in 0..2^bits-1", "why_tests_cant": "The value space is 2^(2*bits) pairs for every template width; tests sample a few near the wrap point.", "anchors": ["utility/circular-sequence-number.h: CircularSequenceNumber::operator<, operator<=, less_than, less_equal"]}
{"id": "C02", "title": "Circular sequence numbers: incrementing moves strictly forward inside half the space", "statement": "Incrementing a circular sequence number k times, 1<=k<=MAX/2, yields a number that compares strictly greater than the original, and incrementing 2^bits times returns to the original; the order of two numbers is decided by their forward distance modulo 2^bits only, except at the distance of exactly half the space where the numerically larger one counts as less.", "quantifier": "every width bits>1, every start value, every number of increments", "why_tests_cant": "Requires all starts and all increment counts including every wrap-around position.", "anchors": ["utility/circular-sequence-number.h: operator++, operator<"]}
{"id": "C03", "title": "Circular sequence numbers: ordering is transitive inside a window of half the space, and only there", "statement": "If a<b and b<c and the forward distances a->b and b->c add up to at most MAX/2 then a<c. Without the window the order is not transitive (there are a<b<c with c<a).", "quantifier": "every width bits>1, every triple of values", "why_tests_cant": "Triples over every width; the counterexample needs wrap-around.", "anchors": ["utility/circular-sequence-number.h: operator<"]}
{"id": "C04", "title": "Lollipop sequence numbers: straight part precedes circular part and increments never re-enter it", "statement": "For a LollipopSequenceNumber with any width and START, any value in the straight part is less than every value of the circular part, values of the straight part are ordered numerically, incrementing from MAX yields START, and once a number has reached the circular part no sequence of increments brings it back to the straight part.", "quantifier": "every width, every START with a circular space, every value, every number of increments", "why_tests_cant": "Universally quantified over increments and START parameters.", "anchors": ["utility/lollipop-sequence-number.h: LollipopSequenceNumber, operator++, operator<"]}
{"id": "C05", "title": "Lollipop sequence numbers: strict order is irreflexive and asymmetric", "statement": "For every LollipopSequenceNumber x<x is false, and x<y excludes y<x. (Holds when the circular space has 3 or more values; fails for the two-value circular space.)", "quantifier": "every width, every START, every pair of values", "why_tests_cant": "All widths and STARTs; the failing case is a template parameter combination the tests do not instantiate.", "anchors": ["utility/lollipop-sequence-number.h: less_than"]}
{"id": "C06", "title": "Sequence numbers survive serialisation", "statement": "Writing a sequence number through a buffer iterator and reading it back yields an equal sequence number, consumes exactly ceil(bits/8) bytes and leaves both cursors at the same distance. A sequence number read from arbitrary bytes is not range-checked: for widths that are not a multiple of 8 it can exceed MAX.", "quantifier": "every width, every value, every buffer position, every byte content", "why_tests_cant": "All values and byte strings.", "anchors": ["utility/circular-sequence-number.h: Write, Read", "utility/lollipop-sequence-number.h: Write, Read"]}
{"id": "C07", "title": "Event: cookies identify live connections uniquely", "statement": "Under any history of Connect and Disconnect, every cookie returned by Connect is nonzero and differs from the cookie of every connection that is live at that time.", "quantifier": "every history of Connect/Disconnect calls, every capacity", "why_tests_cant": "Slot reuse depends on the full history.", "anchors": ["event/event.h: Event::Connect, Disconnect, Insert", "event/portainer.h: Portainer::Add, Remove"]}
{"id": "C08", "title": "Event: the set of sinks is exactly the connected minus the disconnected", "statement": "After any history the sinks reachable through GetSink/Visit are exactly the connections made and not disconnected, each under its own cookie; GetNumSinks equals their number; Disconnect removes only the named connection, and disconnecting an unknown or already disconnected cookie changes nothing.", "quantifier": "every history of Connect/Disconnect calls, every cookie value including 0 and out-of-range values", "why_tests_cant": "Unbounded histories with interleaved reuse of slots.", "anchors": ["event/event.h: Event::Connect, Disconnect, GetNumSinks, GetSink, Visit"]}
{"id": "C09", "title": "Event: capacity limits are enforced and failed calls have no effect", "statement": "An event created with a capacity never holds more than that many sinks; Connect at the limit fails with ConnectionLimit, Connect of a null sink fails with InvalidPointer, and both leave the event unchanged; below the limit Connect always succeeds.", "quantifier": "every history, every capacity", "why_tests_cant": "The limit interacts with slot reuse over unbounded histories.", "anchors": ["event/event.h: Event::Connect"]}
{"id": "C10", "title": "Event: Fire delivers exactly once to every connected sink in cookie order", "statement": "If sinks do not modify the event while it fires, Fire calls every connected sink exactly once, in ascending cookie order, with no null or out-of-range access.", "quantifier": "every history leading to the fire, every set of connected sinks", "why_tests_cant": "Depends on the bookkeeping of the last used slot across unbounded histories.", "anchors": ["event/event.h: Event::Fire"]}
{"id": "C11", "title": "Event: firing is safe when sinks disconnect or connect during delivery", "statement": "If a sink disconnects any sinks (itself or others) or connects new ones during Fire, no null sink is called, no slot outside the sink list is accessed, and a sink disconnected before its turn is not called. (Holds for events without arguments; fails for events with arguments.)", "quantifier": "every history, every behaviour of the callbacks", "why_tests_cant": "Quantifies over arbitrary re-entrant callback behaviour.", "anchors": ["event/event.h: Event::Fire"]}
{"id": "C12", "title": "Portainer: stable cookies over any history", "statement": "Portainer behaves as a finite map from nonzero cookies to components: Add stores under a fresh cookie (0 when full or when the component is null as documented), Remove deletes only that cookie, GetSize/Get/Visit agree with the map in ascending cookie order.", "quantifier": "every history of Add/Remove/Get/Visit, every capacity", "why_tests_cant": "Unbounded histories.", "anchors": ["event/portainer.h: Portainer"]}
{"id": "C13", "title": "Address: stored value is always reduced modulo 2^bits", "statement": "Whatever sequence of constructors, assignments, arithmetic and bitwise operators is applied, an Address<bits> holds a number below 2^bits and equality of addresses is equality of numbers.", "quantifier": "every width bits, every operation sequence", "why_tests_cant": "All widths including those whose top limb is partial.", "anchors": ["network/address/address-little-endian.h: Address"]}
{"id": "C14", "title": "Address: increment, decrement and offset arithmetic is exact modulo 2^bits", "statement": "++, --, +=n, -=n and binary +,- with a signed 64-bit offset compute the mathematical result modulo 2^bits for every width, carrying and borrowing across all limbs.", "quantifier": "every width, every value, every offset", "why_tests_cant": "Carry chains of any length.", "anchors": ["network/address/address-little-endian.h: Increment, Decrement, Plus, Minus"]}
{"id": "C15", "title": "Address: comparisons are the numeric total order", "statement": "<, <=, >, >=, ==, != between addresses of the same width agree with comparison of the represented numbers.", "quantifier": "every width, every pair of values", "why_tests_cant": "All limb patterns.", "anchors": ["network/address/address-little-endian.h: Equal, LessThan, LessEqual"]}
{"id": "C16", "title": "Address: bitwise operators and shifts act on the represented number", "statement": "&, |, ^ and ~ act bitwise on the bits-wide number, << n multiplies by 2^n modulo 2^bits and >> n divides by 2^n, n>=bits giving zero. (Shifts hold except where a multi-limb shift amount is a multiple of the limb size, where the code shifts a 32-bit limb by 32.)", "quantifier": "every width, every value, every shift amount", "why_tests_cant": "All shift amounts crossing limb boundaries.", "anchors": ["network/address/address-little-endian.h: BitwiseAnd, BitwiseOr, BitwiseXor, BitwiseNot, LeftShift, RightShift"]}
{"id": "C17", "title": "Address: byte-array assignment and serialisation round trip", "statement": "Assigning from a byte array interprets it in the requested byte order with only the low-order bits kept; writing an address to a buffer and reading it back yields the same address and consumes ceil(bits/8) bytes.", "quantifier": "every width, every byte array length, every value", "why_tests_cant": "All array lengths shorter, equal and longer than the address.", "anchors": ["network/address/address-little-endian.h: AssignBytes, Write, Read"]}
{"id": "C18", "title": "Address: difference of two addresses is the signed distance, saturated to int64", "statement": "lhs-rhs yields the mathematical difference when it fits a 64-bit signed integer and saturates otherwise. (Refuted: for widths up to 64 it wraps, and for wider ones the third limb is ignored.)", "quantifier": "every width, every pair of values", "why_tests_cant": "Saturation boundaries depend on all limbs.", "anchors": ["network/address/address-little-endian.h: Difference, ToInt64"]}
{"id": "C19", "title": "Address: multiplication and conversion operators", "statement": "Address multiplication is exact modulo 2^bits, stays within the limb array, and explicit conversion to bool is true exactly for nonzero addresses. (Single-limb multiplication is exact; multi-limb multiplication accesses a limb beyond the array and the bool conversion is inverted.)", "quantifier": "every width, every value, every multiplier", "why_tests_cant": "Out-of-bounds access is silent in most runs.", "anchors": ["network/address/address-little-endian.h: Multiply, MultiplyAssign, MultiplyPlus, operator bool"]}
{"id": "C20", "title": "splitmix64 is a bijective output stream with full period", "statement": "The state of splitmix64 visits every 64-bit value exactly once before repeating, and distinct states give distinct outputs, so the first 2^64 outputs are pairwise distinct.", "quantifier": "every seed, every pair of positions in the stream", "why_tests_cant": "The period is 2^64.", "anchors": ["random/engine/splitmix-engine.h: splitmix_engine"]}
{"id": "C21", "title": "xoroshiro/xoshiro state transitions are invertible", "statement": "For the two-register xoroshiro and the four- and eight-register xoshiro engines, the state transition is injective, so no two distinct states merge and a nonzero state never becomes the all-zero state.", "quantifier": "every state, every number of steps", "why_tests_cant": "State spaces of 64 to 512 bits.", "anchors": ["random/engine/xoroshiro-engine.h: transform", "random/engine/xoshiro-engine.h: transform"]}
{"id": "C22", "title": "64-bit engines are never seeded into the all-zero state", "statement": "For any seed value, the state filled from splitmix64 is not all zero, and stays so after any number of draws, so the generator never degenerates.", "quantifier": "every seed, every number of draws", "why_tests_cant": "Requires reasoning over all 2^64 seeds.", "anchors": ["random/engine/xoroshiro-engine.h: seed", "random/engine/xoshiro-engine.h: seed"]}
{"id": "C23", "title": "discard(n) equals n draws", "statement": "After discard(n) the engine is in the same state and produces the same subsequent outputs as after n calls of operator().", "quantifier": "every engine, every state, every n", "why_tests_cant": "Every n.", "anchors": ["random/engine/xoroshiro-engine.h: discard", "random/engine/xoshiro-engine.h: discard", "random/engine/splitmix-engine.h: discard"]}
{"id": "C24", "title": "Unit-interval engines stay in [0,1)", "statement": "The real-valued engines return a value in [0,1) that is a multiple of 2^-24 (32-bit) or 2^-53 (64-bit), exactly determined by the high bits of the underlying output.", "quantifier": "every engine output", "why_tests_cant": "Boundary values such as 1.0 would appear once in 2^53 draws.", "anchors": ["random/engine/xoroshiro-engine.h: xoroshiro_01_engine", "random/engine/xoshiro-engine.h: xoshiro_01_engine"]}
{"id": "C25", "title": "xoroshiro1024 uses its whole state", "statement": "Every word of the 1024-bit state influences the outputs. (Refuted: the rotating index is never advanced, so only two words are ever read or written.)", "quantifier": "every state, every number of draws", "why_tests_cant": "The outputs still look random; only reasoning over all draws shows that 14 of 16 words are dead.", "anchors": ["random/engine/xoroshiro-engine.h: xoroshiro_engine transform for n>2"]}
{"id": "C26", "title": "Duration: conversion between resolutions is exact or truncates toward zero", "statement": "Converting a duration to a finer resolution and back yields the original; converting to a coarser resolution truncates toward zero, with an error smaller than one tick; conversions never change the sign.", "quantifier": "every pair of resolutions where one divides the other, every count that does not overflow", "why_tests_cant": "Every count and resolution ratio.", "anchors": ["chrono/duration.h: Duration converting constructor, ConvertCount"]}
{"id": "C27", "title": "Duration: equality across resolutions is equality of the represented time", "statement": "== and != between durations of different resolutions agree with exact rational comparison for all counts, including those whose conversion would overflow.", "quantifier": "every pair of resolutions where one divides the other, every pair of 64-bit counts", "why_tests_cant": "Overflow corner cases at every ratio.", "anchors": ["chrono/duration.h: operator==, Equal"]}
{"id": "C28", "title": "Duration: ordering across resolutions is the order of the represented time", "statement": "<, <=, >, >= between durations of different resolutions agree with exact rational comparison. (Holds when the coarser count converts without overflow; refuted for counts that overflow.)", "quantifier": "every pair of resolutions, every pair of 64-bit counts", "why_tests_cant": "The wrong branch is only taken near the limits of int64.", "anchors": ["chrono/duration.h: operator<, operator<=, Less, LessEqual"]}
{"id": "C29", "title": "Duration: arithmetic is exact when it does not overflow", "statement": "Sum, difference, negation, scaling and remainder of durations represent the exact rational result whenever the intermediate counts fit 64 bits, and (a/b)*b + a%b == a.", "quantifier": "every pair of resolutions, every pair of counts", "why_tests_cant": "All counts.", "anchors": ["chrono/duration.h: operator+, operator-, operator*, operator/, operator%"]}
{"id": "C30", "title": "Duration: splitting into units reconstructs the duration", "statement": "Splitting a duration into sign, days, hours, minutes, seconds and sub-second units gives components within their ranges whose weighted sum is the original duration.", "quantifier": "every resolution, every count other than the most negative one", "why_tests_cant": "Every count and resolution.", "anchors": ["chrono/duration.h: Split"]}
{"id": "C31", "title": "Virtual time points form a torsor over durations", "statement": "(t+d)-t == d, t+(u-t) == u, adding durations is associative, and comparison of time points is invariant under adding the same duration, as long as nothing overflows.", "quantifier": "every time point and duration", "why_tests_cant": "Algebraic law over all values.", "anchors": ["chrono/virtual-time-point.h: VirtualTimePoint"]}
{"id": "C32", "title": "Schedulers return events ordered by time, first scheduled first", "statement": "For any sequence of ScheduleAt calls and removals, repeatedly firing the next event yields events in nondecreasing time, and among equal times in the order they were scheduled, for the list, set and heap schedulers alike.", "quantifier": "every history of schedule and remove operations", "why_tests_cant": "Unbounded histories; heap shape depends on all of it.", "anchors": ["simulation/list-scheduler.h", "simulation/set-scheduler.h", "simulation/heap-scheduler.h"]}
{"id": "C33", "title": "The three schedulers are observationally equivalent", "statement": "Driven by the simulator, the list, set and heap schedulers produce the same sequence of fired events, the same clock readings and the same event identifiers for every event program whose sinks do not let exceptions escape.", "quantifier": "every program of sinks that schedule, cancel and pause, every number of steps", "why_tests_cant": "Quantifies over all event programs.", "anchors": ["simulation/list-scheduler.h", "simulation/set-scheduler.h", "simulation/heap-scheduler.h", "simulation/simulator.h"]}
{"id": "C34", "title": "No event is lost or duplicated", "statement": "Every event accepted by ScheduleAt is fired at most once; after a run that drains the queue every scheduled event has been taken exactly once and its sink invoked exactly once unless it was cancelled before.", "quantifier": "every program of sinks, every run length", "why_tests_cant": "Unbounded dynamic event creation.", "anchors": ["simulation/list-scheduler.h", "simulation/set-scheduler.h", "simulation/heap-scheduler.h", "simulation/event-handle.h"]}
{"id": "C35", "title": "Cancelled events never fire", "statement": "Once Cancel is called on an event handle, or its event has fired, its sink is never invoked again, and the handle reports neither pending nor valid.", "quantifier": "every history, including cancellation by other events at the same time", "why_tests_cant": "Timing of the cancel relative to the fire ranges over all histories.", "anchors": ["simulation/event-handle.h: EventHandle::Cancel, Fire, IsPending, IsValid"]}
{"id": "C36", "title": "The simulation clock never goes backwards during a run", "statement": "During Run, RunFor (nonnegative) and RunUntil (a time not before now), the clock observed by successive events is nondecreasing and every event observes exactly its scheduled time.", "quantifier": "every event program, every run length", "why_tests_cant": "All schedules generated dynamically.", "anchors": ["simulation/simulator.h: Run, RunUntil, RunFor, Now"]}
{"id": "C37", "title": "RunUntil processes exactly the events up to its bound", "statement": "If not paused, RunUntil(t) fires precisely the events with time <= t, including those scheduled while running, leaves later ones pending, and leaves the clock at t.", "quantifier": "every event program, every bound t >= now", "why_tests_cant": "Dynamically created events at the bound.", "anchors": ["simulation/simulator.h: RunUntil"]}
{"id": "C38", "title": "Pause takes effect after the current event", "statement": "If an event calls Pause, no further event fires in that run and the remaining events stay scheduled so that a later Run continues exactly where it stopped; splitting a run by pauses does not change the sequence of fired events.", "quantifier": "every event program, every pause point", "why_tests_cant": "Every pause point in every program.", "anchors": ["simulation/simulator.h: Pause, Run"]}
{"id": "C39", "title": "Scheduling in the past is rejected without effect", "statement": "ScheduleAt with a time earlier than now, or with a null sink, throws and leaves the scheduler unchanged; accepted events get strictly increasing identifiers.", "quantifier": "every scheduler state, every time", "why_tests_cant": "All states.", "anchors": ["simulation/list-scheduler.h: ScheduleAt", "simulation/set-scheduler.h: ScheduleAt", "simulation/heap-scheduler.h: ScheduleAt"]}
{"id": "C40", "title": "Simulation life-cycle events", "statement": "The begin event fires exactly once, before any scheduled event; every run fires the run event then, after its last scheduled event, the pause event; the end event fires after the pause event exactly when no events remain.", "quantifier": "every sequence of Run/RunUntil/RunFor calls, every event program", "why_tests_cant": "All sequences of runs.", "anchors": ["simulation/simulator.h: CheckBeginOfSimulation, CheckEndOfSimulation, Run, RunUntil"]}
{"id": "C41", "title": "Buffers: refinement to byte strings", "statement": "GetSize, CopyTo, AddAtStart, AddAtEnd, RemoveAtStart, RemoveAtEnd, MakeFragment, copies, moves and swaps behave as the corresponding operations on byte strings for the buffers they are about: existing bytes are preserved in order, added bytes appear at the named end, removal drops exactly the named bytes (all of them when asked for more). (Excluded: a buffer added at its own start, for which it is refuted.)", "quantifier": "every history of operations, every size", "why_tests_cant": "All layouts of capacity, start and end positions.", "anchors": ["network/buffer/buffer.h: Buffer"]}
{"id": "C42", "title": "Buffers: operations on one buffer never change the bytes of another sharing its storage", "statement": "With copies sharing storage, resizing or extending one buffer never changes the content of any other buffer. (Holds for histories of construction, copy, move, add and remove; refuted once MakeFragment or the deep-copy constructor is involved because they reset the dirty area.)", "quantifier": "every history over any number of buffers sharing storages", "why_tests_cant": "Interleavings over any number of aliases.", "anchors": ["network/buffer/buffer.h: Buffer", "network/buffer/storage/basic-buffer-storage.h"]}
{"id": "C43", "title": "Zero-compressed buffers: refinement to byte strings", "statement": "A ZcBuffer behaves as the byte string with its zero area expanded: sizes, copies, additions, removals, fragments and realization agree with the byte string for every position relative to the zero area.", "quantifier": "every history of operations, every size and zero area", "why_tests_cant": "All relative positions of cuts and zero area.", "anchors": ["network/buffer/zc-buffer.h: ZcBuffer"]}
{"id": "C44", "title": "Zero-compressed buffers: isolation of sharers", "statement": "With copies and fragments sharing storage, operations on one ZcBuffer never change the content of another. (Deep-copy constructor excluded, for which it is refuted.)", "quantifier": "every history over any number of buffers sharing storages", "why_tests_cant": "Interleavings over any number of aliases.", "anchors": ["network/buffer/zc-buffer.h: ZcBuffer"]}
{"id": "C45", "title": "Storage reference counting is exact", "statement": "Under any history, each storage's reference count equals the number of buffers referring to it, it is freed exactly when the last of them lets go, and never accessed afterwards.", "quantifier": "every history over any number of buffers", "why_tests_cant": "Leaks and double frees depend on whole histories.", "anchors": ["network/buffer/storage/basic-buffer-storage.h: AddRef, Release", "network/buffer/buffer.h", "network/buffer/zc-buffer.h"]}
{"id": "C46", "title": "Buffer iterators: what is written is what is read", "statement": "Writing any integer (8 to 64 bits) in native, little or big endian order at a cursor and reading it back at the same cursor in the same order yields the value, advances the cursor by its size, and changes no other byte; little and big endian layouts are the documented byte orders.", "quantifier": "every value, cursor position and buffer content", "why_tests_cant": "All values, positions and orders.", "anchors": ["network/buffer/iterator/buffer-iterator.h: Write, Read, WriteL, ReadL, WriteB, ReadB"]}
{"id": "C47", "title": "Buffer iterators: accepted accesses are in bounds", "statement": "Every access that passes the iterator's own bounds checks touches only bytes of the buffer, and cursor moves stay within begin and end. (Holds when cursor+numBytes does not exceed 2^64; the check itself wraps for huge counts.)", "quantifier": "every cursor, every requested count", "why_tests_cant": "Wrap-around needs counts near 2^64.", "anchors": ["network/buffer/iterator/buffer-iterator.h: CanMoveForward, CanMoveBackward, ReadableCheck, WritableCheck"]}
{"id": "C48", "title": "Zero-compressed buffer iterators read the expanded content", "statement": "Reading any integer or byte block through a ZcBuffer iterator at any position, including positions straddling either edge of the zero area or the whole of it, yields what the expanded byte string holds there.", "quantifier": "every cursor position relative to the zero area, every value width and byte order", "why_tests_cant": "All straddling positions.", "anchors": ["network/buffer/iterator/zc-buffer-iterator.h: Read"]}
{"id": "C49", "title": "Tag lists: a tag is reported exactly for packets that contain a tagged byte", "statement": "After inserting tags on byte ranges and adding or removing bytes at either end of the buffer, a tag exists for the list exactly when its tagged range still intersects the buffer range in absolute position.", "quantifier": "every history of insertions and buffer growth/shrink", "why_tests_cant": "Unbounded histories.", "anchors": ["network/packet/tag/basic-tag-list.h: TagList::Insert, Exists, Get, AddAtStart, AddAtEnd, RemoveAtStart, RemoveAtEnd"]}
{"id": "C50", "title": "Tag lists: copies are independent", "statement": "Copies of a tag list share their array, but inserting into one never changes the tags reported by another.", "quantifier": "every history over any number of lists sharing arrays", "why_tests_cant": "Interleaving of insertions in sharers.", "anchors": ["network/packet/tag/basic-tag-list.h: PrepareToInsert, Reallocate, Compact"]}
{"id": "C51", "title": "Tag lists: inserting grows capacity without losing tags", "statement": "Insert never drops a tag that still covers a byte of the buffer, and compaction only removes tags that cover none.", "quantifier": "every history", "why_tests_cant": "Compaction and reallocation thresholds.", "anchors": ["network/packet/tag/basic-tag-list.h: PrepareToInsert, Compact"]}
{"id": "C52", "title": "Packets: copies are independent values", "statement": "A packet copy shares its body, and adding or removing headers, trailers or tags on one copy never changes the bytes or tags observed through another. (CopyTagsFrom is refuted; so is the header/trailer path through Buffer::MakeFragment.)", "quantifier": "every history over any number of packet copies", "why_tests_cant": "Interleavings over aliases.", "anchors": ["network/packet/packet.h: Packet::MakePrivate, AddHeader, AddTrailer, RemoveHeader, RemoveTrailer, CopyTagsFrom"]}
{"id": "C53", "title": "Packets: header and trailer operations act as prepend, append and drop", "statement": "The byte content of a packet after any sequence of AddHeader, AddTrailer, RemoveHeader, RemoveTrailer and MakeFragment is that of the corresponding byte-string operations, and the packet size equals the buffer size and the tag list's range length throughout.", "quantifier": "every history", "why_tests_cant": "Unbounded histories.", "anchors": ["network/packet/packet.h: Packet"]}
{"id": "C54", "title": "Packet fragmentation and reassembly restores the content", "statement": "Splitting a packet at any point and appending the second fragment to the first as a trailer yields the original bytes, with every byte tagged by the same byte tags as before.", "quantifier": "every packet, every split point", "why_tests_cant": "All split points and tag layouts.", "anchors": ["network/packet/packet.h: MakeFragment, AddTrailer"]}
{"id": "C55", "title": "Byte tags follow their bytes", "statement": "A byte tag attached to a range of packet bytes is reported for a fragment or derived packet exactly if one of the tagged bytes remains in it. (Refuted when tagged bytes are removed and other bytes are then added in their place.)", "quantifier": "every history of header/trailer operations", "why_tests_cant": "Position reuse requires specific histories.", "anchors": ["network/packet/packet.h: AddByteTag, HasByteTag", "network/packet/tag/basic-tag-list.h"]}
{"id": "C56", "title": "Smart pointers: objects live exactly as long as referenced", "statement": "Under any history of constructing, copying, moving, assigning, swapping, resetting, detaching and destroying Ptr handles (variables or members of objects), an object's reference count equals the number of references to it and its parts, it is deleted exactly once, when the last one lets go, and is never used afterwards; each expression changes exactly the handles it names. (Assignments whose source is reached through the destination are refuted: p = p, p = p->next.)", "quantifier": "every history over any number of handles and objects", "why_tests_cant": "Use-after-free needs specific alias histories.", "anchors": ["component/ptr.h: Ptr", "component/object.h: Object"]}
{"id": "C57", "title": "Aggregated objects share one lifetime and identity", "statement": "AddRef and Release through any aggregated object act on the controller's count, querying an interface from any of them reaches the same set of interfaces and keeps the identity of the object, all are destroyed together, and handles compare equal exactly when they refer to the same object. (The last is refuted for handles of the same type.)", "quantifier": "every history of references through any aggregate", "why_tests_cant": "Interleaved reference paths.", "anchors": ["component/object.h: AggObject, MemberAggObject, MutualObject", "component/ptr.h: operator=="]}
{"id": "C58", "title": "Class registry is a finite map that never overwrites", "statement": "Register succeeds exactly for unregistered identifiers with a non-null factory, a failed Register changes nothing, lookup returns the factory of the last successful registration, Unregister removes exactly one identifier.", "quantifier": "every history of registrations and lookups", "why_tests_cant": "Unbounded histories.", "anchors": ["component/class-registry.h: ClassRegistry"]}
{"id": "C59", "title": "Lexical comparison is a total order on tuples", "statement": "LexicalCompare of member tuples returns the sign of the first differing pair, is antisymmetric and transitive, and 0 exactly when all members are equal.", "quantifier": "every pair of tuples of any arity", "why_tests_cant": "All tuples.", "anchors": ["utility/lexical-compare.h: LexicalCompare"]}
{"id": "C60", "title": "Vectors and arrays with a fixed index base behave as bounded sequences", "statement": "BiVector and BiArray with any index base behave as (bounded) sequences under any history of construction, copy, move, swap, assignment, push_back, pop_back, assign, clear, fill, element access and iteration; index i addresses element i-base; copies are independent, every element is constructed before it is used and destroyed once, and all memory is freed. (Refuted: assign with fewer elements than the current size does not reduce the size; the constructor with size > capacity and assign from an element of the vector itself are undefined.)", "quantifier": "every history of operations, every base", "why_tests_cant": "Unbounded histories.", "anchors": ["utility/bi-vector.h: BiVector", "utility/bi-array.h: BiArray", "utility/array-tool.h"]}
{"id": "C61", "title": "Matrices: every cell is a distinct element and iteration covers all", "statement": "In both layouts, distinct in-range (row, column) pairs address distinct elements inside the allocation; setting a cell, filling a row or a column changes exactly that cell, row or column; begin()..end() visits every cell once, and row and column iterators visit the cells of their row or column in order. (Refuted: fill2 checks the column against the number of rows; the size is computed modulo 2^64; the free function bi_matrix_end is at rows+columns.)", "quantifier": "every size, layout and index base", "why_tests_cant": "All dimensions.", "anchors": ["utility/bi-matrix.h: bi_matrix_at, bi_matrix_fill1, bi_matrix_fill2, bi_matrix_end"]}
{"id": "C62", "title": "Summary statistics are the exact statistics of the samples", "statement": "In exact arithmetic, after any sequence of probe values since the last reset, Count, Sum, Mean, Min, Max and Stddev (squared) equal the mathematical statistics of the sequence, independent of order for all but rounding.", "quantifier": "every sequence of samples", "why_tests_cant": "Every sample sequence.", "anchors": ["statistics/summary/summary.h: Summary"]}
{"id": "C63", "title": "Probe and statistics containers never overwrite names", "statement": "Add fails for a registered name and leaves the container unchanged; merging with a prefix adds exactly the prefixed names not yet present and keeps existing entries, also when a container is merged into itself; a name stands for the same probe for ever unless erased; names of the same probe are interchangeable; an enumerator returns each name of the container at the time it was made exactly once.", "quantifier": "every history, every iteration order of the maps", "why_tests_cant": "Unbounded histories and all iteration orders.", "anchors": ["statistics/probe/probe-container.h: ProbeContainer", "statistics/probe/probe-enumerator.h: ProbeEnumerator", "statistics/statistics-container.h: StatisticsContainer", "statistics/statistic.h: Statistic"]}
{"id": "C64", "title": "Log records: existing values win over pending values, every listener gets the record", "statement": "Firing a record at a logger never removes or replaces a value the record has; pending values are added under absent names only, each functor of the pool being called once; an accepted record is given to every connected sink once (through a network of loggers: once per path, and exactly to the sinks the connections and registrations lead to), a filtered record reaches no sink of that logger; a stream sink writes each accepted record once to each of its streams. (Refuted: isolation between sinks, delivery after an exception, stream sinks with more files than fit the first array.)", "quantifier": "every network, record, pool, filter, functor and iteration order", "why_tests_cant": "All records and pools.", "anchors": ["log/logger.h: Logger::Fire", "log/detail/log-pending-value-pool.h", "log/log-record.h"]}
{"id": "C65", "title": "Logger connects to its sources exactly while it has sinks", "statement": "Under any history of Connect, Disconnect, RegisterSource and UnregisterSource on events and loggers (which may be sources of other loggers, without cycles) in which no call throws, each source has exactly one connection per registration from every logger that somebody listens to, directly or through other loggers, none from loggers nobody listens to, besides the connections users made themselves; IsEnabled tells which loggers are listened to. (Refuted once a call has thrown, and for cycles of loggers.)", "quantifier": "every acyclic network of any size, every history", "why_tests_cant": "Unbounded histories.", "anchors": ["log/logger.h: Connect, Disconnect", "log/detail/log-source-pool.h"]}
{"id": "C66", "title": "Byte order conversions are involutions", "statement": "Reordering the bytes of a value twice gives the value, native<->little<->big conversions invert each other, and the byte sequence of a converted value is the reverse of the original when orders differ.", "quantifier": "every value of every width", "why_tests_cant": "All values.", "anchors": ["utility/endian.h: ReorderBytes, NativeToLittleEndian, NativeToBigEndian"]}
{"id": "C67", "title": "Star and starstar outputs are permutations of one register", "statement": "For every engine with a * or ** scrambler two states give the same output exactly when one fixed register agrees, and every word is the output of some state; so no output value is excluded or favoured by the scrambler.", "quantifier": "every star/starstar engine, every pair of states, every output value", "why_tests_cant": "The word space has 2^32 or 2^64 values.", "anchors": ["random/engine/xoroshiro-engine.h: xoroshiro_star_scrambler, xoroshiro_starstar_scrambler", "random/engine/xoshiro-engine.h: xoshiro_starstar_scrambler"]}
{"id": "C68", "title": "A sink that throws does not make its event fire again", "statement": "If the sink of an event throws, the exception leaves Run, the event counts as fired, and a later Run goes on with the next event, for all three schedulers.", "quantifier": "every event program with throwing sinks, every scheduler", "why_tests_cant": "Requires all programs and all positions of the exception.", "anchors": ["simulation/list-scheduler.h: FireAndRemoveNextEvent", "simulation/set-scheduler.h: FireAndRemoveNextEvent", "simulation/heap-scheduler.h: FireAndRemoveNextEvent"]}
{"id": "C69", "title": "GetNumEvents counts the events that are still to fire", "statement": "GetNumEvents returns the number of accepted events that have not been fired yet, the running event not counted.", "quantifier": "every history, every scheduler, every point where it can be called", "why_tests_cant": "Must hold at every point of every history, including inside sinks.", "anchors": ["simulation/i-scheduler.h: GetNumEvents", "simulation/list-scheduler.h", "simulation/set-scheduler.h", "simulation/heap-scheduler.h"]}
{"id": "C70", "title": "Address: the textual form identifies the address", "statement": "ToString yields two hexadecimal digits per byte of the address, most significant first, that write its number; two addresses of one width with the same text are equal.", "quantifier": "every width, every address a program can make", "why_tests_cant": "Widths are a template parameter and values are unbounded; injectivity is about all pairs of addresses.", "anchors": ["network/address/address-little-endian.h: Address::ToString"]}
{"id": "C71", "title": "Address: conversion from integers and sequences of integers", "statement": "Assigning a signed or unsigned integer, or a sequence of integers in little- or big-endian order, yields the number written, modulo 2^bits, negative integers being sign extended; Zero() and Mask() are the least and the greatest address.", "quantifier": "every width, every integer size, every value, every sequence length", "why_tests_cant": "Combinations of address width, integer size, sign and sequence length are unbounded; sign extension and truncation interact at non-byte widths.", "anchors": ["network/address/address-little-endian.h: Address::AssignValue, AssignValues, Zero, Mask"]}
{"id": "C72", "title": "Engines follow the published algorithms", "statement": "Every draw of the xoroshiro64/128 and xoshiro128/256/512 engines, and the registers after it, are those of the published recurrence of that engine, and seeding with an integer fills the registers with consecutive splitmix64 outputs.", "quantifier": "every engine of that family, every register content, every seed, any number of draws", "why_tests_cant": "The state space is 2^64 to 2^512; a wrong shift or order of updates is visible only for some states.", "anchors": ["random/engine/xoroshiro-engine.h", "random/engine/xoshiro-engine.h", "random/engine/splitmix-engine.h"]}
{"id": "C73", "title": "Sequence numbers are in range from construction on", "statement": "Constructing a circular or lollipop sequence number from any value clamps it to the greatest number of its width, and it stays below 2^bits however often it is incremented.", "quantifier": "every width, every initial value, any number of increments", "why_tests_cant": "Unbounded histories and every bit width.", "anchors": ["utility/circular-sequence-number.h", "utility/lollipop-sequence-number.h"]}
{"id": "C74", "title": "Minutes, hours and days are 60, 3600 and 86400 seconds", "statement": "The makers Minutes, Hours and Days of a count yield the duration of that many seconds whenever it is representable.", "quantifier": "every 64-bit count", "why_tests_cant": "All 2^64 counts, including those near the overflow bound.", "anchors": ["chrono/duration.h"]}
{"id": "C75", "title": "A clock or a scheduler is connected exactly once", "statement": "Null pointers passed to Use are refused with InvalidPointer and change nothing, the first non-null one is accepted, and every later call is refused with IllegalMethodCall and changes nothing.", "quantifier": "every sequence of Use calls", "why_tests_cant": "Unbounded sequences of calls in every state.", "anchors": ["simulation/list-scheduler.h: Use", "simulation/set-scheduler.h: Use", "simulation/heap-scheduler.h: Use", "simulation/simulator.h: Use"]}
{"id": "C76", "title": "Packet tags keep the tagged packet as it was", "statement": "The packet stored in a packet tag never changes after it was added, whatever is done to the packet it was made from, its copies, or the packet that carries the tag, and GetPacketTag returns it unchanged for every byte the tag is reported on.", "quantifier": "every history before and after the tag is added", "why_tests_cant": "The stored packet shares its body and buffer storage with other packets; any interleaving of later operations on them could reach it.", "anchors": ["network/packet/packet.h: AddPacketTag, GetPacketTag, MakePrivate"]}
{"id": "C77", "title": "Packets: memory safety and exact lifetimes", "statement": "No sequence of packet operations uses a deleted body, storage or tag list, reads or writes out of bounds or underflows a count; the reference count of a body equals the number of packets and packet tags that refer to it, and a body exists exactly as long as one of them does.", "quantifier": "every sequence of packet and buffer operations over any number of packets", "why_tests_cant": "Unbounded histories over three layers of shared, reference-counted state.", "anchors": ["network/packet/packet.h: AddRef, Release, MakePrivate, operator=", "network/buffer/buffer.h: Buffer", "network/packet/tag/basic-tag-list.h: BasicTagList"]}
{"id": "C78", "title": "CreateObject returns a live object or nothing", "statement": "CreateObject<I>(cid[, controller]) returns a smart pointer to a new object that lives and that the pointer may use, counted once; if the class does not implement I nothing is left behind. (Refuted when a controller is given and I is not IObject.)", "quantifier": "every class, interface and state of the program", "why_tests_cant": "Tests create objects without controllers; the deleted object is only visible as a use after free.", "anchors": ["component/class-registry.h: CreateObject", "component/class-factory.h: ClassFactory::CreateObject, CreateAggregable", "component/object.h: AggObject"]}
{"id": "C79", "title": "Log records: handles share, Copy isolates, Get is type-checked", "statement": "Copies of a log record share one map of named values: Add never replaces, Update always does, Get returns the value (or what its functor returns, called once per Get) if and only if the name exists and the type is the requested one, and throws LogValueNotFound or LogValueTypeMismatch otherwise without changing anything; the map lives until the last handle is gone; Copy makes a record that no call on other handles can change.", "quantifier": "every number of records, handles and values, every sequence of calls, every behaviour of functors", "why_tests_cant": "Sharing and lifetime depend on the whole history of copies, assignments and destructions; a test covers one.", "anchors": ["log/log-record.h: LogRecord", "log/log-value.h: LogValue::Get", "log/make-log-value.h: ValueBasedLogValue, FunctorBasedLogValue"]}
{"id": "C80", "title": "Event sinks live as long as they are referred to, also while they run", "statement": "A sink made by CreateEventSink is destroyed exactly when the last smart pointer of user code, event or event handle that refers to it is gone; only sinks that exist are called; a sink that runs may disconnect, cancel or fire anything, itself included, and go on using what it captured. (The last part fails if only the event or handle that calls the sink refers to it; it holds for sinks that first take a smart pointer to themselves, and if user code keeps a smart pointer to each sink.)", "quantifier": "every program of creating, copying, dropping, connecting, disconnecting, cancelling, destroying, firing and throwing, every behaviour of sinks (a function of all that was observed), every depth of nested firing", "why_tests_cant": "Use after destruction depends on which sink gives up which reference at which point of which nested delivery; a test fixes one, and undefined behaviour often goes unnoticed.", "anchors": ["component/object.h: Object::AddRef, Object::Release", "event/event-sink.h: CreateEventSink", "event/event.h: Event::Connect, Event::Disconnect, Event::Fire", "simulation/event-handle.h: EventHandle::Fire, EventHandle::Cancel"]}
{"id": "C81", "title": "Messages are read as they were written", "statement": "A sequence of numbers, arrays of numbers, durations, points in time and addresses that is written to a buffer, each in a byte order of its own, is stored as the documented bytes of its values one after the other, changes nothing else in the buffer, and is read back as the same values by reading to variables of the same types; writing and reading succeed exactly if there are enough bytes (for zero-compressed buffers: outside of the zero area for writing), and fail an assertion otherwise; messages with explicit byte orders can be read on hosts of the other byte order.", "quantifier": "all sequences of values of all supported types and widths, all byte orders, both host byte orders, all buffers and iterator positions, plain and zero-compressed", "why_tests_cant": "tests write a few values in one order; the claim is about every sequence of types, orders, values and positions, including across zero areas", "anchors": ["network/buffer/io/arithmetic-io.h: Write, WriteL, WriteB, Read, ReadL, ReadB", "network/buffer/io/duration-io.h", "network/buffer/io/time-point-io.h", "network/buffer/io/address-io.h", "network/buffer/iterator/basic-buffer-iterator.h"]}
{"id": "C82", "title": "Fixed buffers share, copy and free as documented", "statement": "Programs that create, copy (shallow), convert (deep), move, swap, assign and destroy fixed buffers and constant fixed buffers, and read and write through their iterators, observe what programs over shared byte arrays observe: a write is seen by exactly the buffers that share the storage, no other operation changes the bytes or the size of a buffer it does not assign to, a storage exists exactly as long as a buffer refers to it, and behaviour is undefined exactly if a destroyed variable or an iterator to a deleted storage is used.", "quantifier": "all programs of any length over any number of buffers and iterators, all sizes below 2^63, all values, byte orders and contents of uninitialized memory", "why_tests_cant": "sharing and lifetimes depend on the whole history of copies, moves, swaps and assignments, including self-assignment and moved-from buffers", "anchors": ["network/buffer/fixed-buffer.h: FixedBuffer", "network/buffer/const-fixed-buffer.h: ConstFixedBuffer", "network/buffer/storage/basic-buffer-storage.h: BasicBufferStorage<false>"]}
{"id": "C83", "title": "Engines go through all their states: documented periods and equidistribution", "statement": "From every state that is not all zeroes, an engine is back in that state after exactly the multiples of 2^bits - 1 draws (the documented period); within a period it meets every other state that is not all zeroes; every word is drawn equally often, zero one time less; the sequence of numbers, the sequence of each single bit of them and the sequence over the unit interval have the same least period; each bit is set in half of the draws; each number of the unit interval is drawn equally often, zero one time less. For engines of 64-bit words this holds from every seed.", "quantifier": "the eight xoroshiro64/128 and xoshiro128/256 engines, all states, all seeds, all distances", "why_tests_cant": "A period of 2^128 - 1 or 2^256 - 1 draws cannot be run, and a wrong shift or rotation constant yields sequences that look as random.", "anchors": ["random/pseudo-random-generator.h: Xoshiro256Plus01Engine, Xoshiro256StarstarEngine, Xoshiro128Plus01Engine, Xoshiro128StarstarEngine", "random/engine/xoshiro-engine.h: xoshiro_engine::operator(), transform", "random/engine/xoroshiro-engine.h: xoroshiro_engine::operator(), transform"]}
{"id": "C84", "title": "Engines and their distributions are reproducible and independent of one another", "statement": "In a program that uses any engines and distributions in any order, each engine and the distributions made of it see one stream of words, each word used once and in order; what they return depends only on the seed of the engine and on what was asked of them, not on other engines, other distributions or the interleaving. Generating a number directly returns what a new distribution of the same parameters returns first. Discarding n equals generating n times. Seeding puts an engine where construction with that seed puts a new one; different seeds lead to different streams. Distributions are created exactly for the documented parameters. The documented minimum and maximum are those of the generated values.", "quantifier": "all programs of engines, distributions, seeds and calls; all distributions whatever they compute from the words; all parameters", "why_tests_cant": "A test compares a few runs of a few distributions; sharing of state between distributions, a word used twice, or a seed that is cut off shows up only in particular interleavings and for particular seeds.", "anchors": ["random/pseudo-random-generator.h: PseudoRandomEngine (Seed, Discard, Generate, GetMinValue, GetMaxValue, CreateXxxDistribution, GenerateXxx)", "random/i-random.h: IRandom", "random/distribution/std-normal-distribution.h: StdNormalDistribution"]}
{"id": "C85", "title": "The test framework runs every registered case once, in order, and reports exactly the checks that failed", "statement": "Whatever suites and cases are registered: each suite keeps its cases in the order of registration, a name once; running the tests runs all of them, suite by suite, once each. Checks are evaluated in the order they are reached. After a required check (ASSERT) fails, no operand of a check is evaluated any more and no further case runs; before it nothing is skipped. Each failed check is recorded once for its case, and every stream shows the same report, in that order, with the total number of failed checks. Comparisons hold exactly for the operands they name; closeness holds exactly if the difference is within the tolerance. Tests can be run again.", "quantifier": "all trees of suites and cases, all code of cases, all states, all sequences of registering, checking and running; all operands", "why_tests_cant": "The framework is what tests are judged by: a check it loses, or evaluates to the wrong side, makes other tests pass; its own tests see a few trees and a few operands only.", "anchors": ["test/runner.h: Runner (Run, CommitResult, ShowProgress, ShowResult, ShowSummary, RunSuite, RunCase)", "test/suite.h: Suite (AddSuite, AddCase, GetNumberOfCases, GetNumberOfFailures, VisitCases, VisitSuites)", "test/case.h: Case", "test/tool.h: NSFX_TEST_EXPECT, NSFX_TEST_ASSERT, NSFX_TEST_EXPECT_AC, NSFX_TEST_EXPECT_RC", "test/tool-iterate.h", "test/logger.h: Logger"]}
{"id": "C86", "title": "Hexadecimal output shows exactly the value and nothing else changes", "statement": "Writing as_hex(x) appends '0x' and two lower-case digits per byte of x (with a backtick in the middle of eight bytes). Reading that text gives the bits of x, so different values of a type have different texts. Numbers written afterwards look as they would have without it.", "quantifier": "all values of types of 1, 2, 4 and 8 bytes, all states of the stream (flags, fill, text)", "why_tests_cant": "Values of 64 bits and combinations of stream flags cannot be enumerated; tests use fresh streams.", "anchors": ["utility/hex-output.h: as_hex, hex_output, operator<<", "utility/tags.h: compare_tag"]}
{"id": "C87", "title": "The text of a duration determines the time exactly", "statement": "ToString of any duration gives a text in the documented format from which the exact time can be read; durations of any resolutions with the same text represent the same time; durations of less than a day at one resolution have texts of one length. The same holds for points of virtual time.", "quantifier": "all resolutions from one second to one attosecond, all counts of 64 bits", "why_tests_cant": "All counts and resolutions are meant, and which units overflow or underflow depends on the resolution.", "anchors": ["chrono/duration.h: Duration::ToString, Duration::Split", "chrono/virtual-time-point.h: VirtualTimePoint::ToString"]}
{"id": "C88", "title": "A distribution given by a table is the one the table describes", "statement": "A table is accepted exactly if no weight is negative, its bounds increase and its size fits in 32 bits. The discrete distribution made of it has one value per weight, with the share of that weight in the total as its probability; probabilities add up to 1. The piecewise constant distribution has the given bounds, and the density on each interval times its width is the share of the weight; the piecewise linear one has densities proportional to the weights at the bounds. Both densities integrate to 1.", "quantifier": "all tables: all lists of weights, of intervals, and of bounds with weights", "why_tests_cant": "Tables of every length with every weight are meant; degenerate ones (empty, all zero, a single bound) are easily left out of tests.", "anchors": ["random/distribution/i-discrete-distribution.h: DiscreteDistributionParam", "random/distribution/i-piecewise-constant-distribution.h: PiecewiseConstantDistributionParam", "random/distribution/i-piecewise-linear-distribution.h: PiecewiseLinearDistributionParam", "random/distribution/std-discrete-distribution.h: StdDiscreteDistribution", "random/distribution/std-piecewise-constant-distribution.h: StdPiecewiseConstantDistribution", "random/distribution/std-piecewise-linear-distribution.h: StdPiecewiseLinearDistribution"]}
{"id": "C89", "title": "A log statement evaluates its operands exactly if the logger is enabled, and then commits one record", "statement": "A log statement whose logger is disabled has no effect: no operand is evaluated and nothing is fired. If the logger is enabled, the operands are evaluated once each, from left to right, with the meaning they have where the statement is written; then one record is fired, which has the concatenated texts as its message, the severity of the statement if it has one, the place of the statement as configured, and nothing else. If an operand throws, the exception leaves the statement and nothing is fired. The labels of the six severity levels differ, and other values are rejected.", "quantifier": "all programs (states, expressions and sinks), all lists of operands, severities, places and configurations", "why_tests_cant": "The statement is a macro that is expanded into arbitrary programs, with operands that have arbitrary effects, throw, or reuse names.", "anchors": ["log/log-tool.h: NSFX_LOG, NSFX_LOG_LEVEL, MakeLogRecord, MakeLogRecordWithSeverity, CommitLogRecord", "log/i-log.h: IsLogSinkEnabled, MakeLogSinkTag", "log/log-severity.h: LogSeverity, operator<<", "log/make-log-value.h: CstrLogValue", "log/std-log-value-traits.h: LogMessageTraits, LogSeverityTraits, LogLineNumberTraits"]}
{"id": "C90", "title": "Packets over zero-compressed buffers are independent byte strings", "statement": "With zero-compressed buffers, too, packets behave as independent byte strings: copying, moving, assigning, swapping, adding and removing headers and trailers, adding packets and making fragments change only the packet they are called on, in the way they change strings, wherever the zero area is and whoever shares the body; buffers of the user and buffers that packets returned keep what they show. Statements fail exactly if more is removed than there is or a fragment is not inside the packet, by an assertion. A body lives exactly as long as a packet refers to it. A packet that is cut into fragments of any sizes and put together again is the same packet.", "quantifier": "all programs over any number of packets and buffers, all contents of fresh memory, all sizes", "why_tests_cant": "What a statement does depends on who shares the body and the storage, where the zero area is and what part of the storage is in use, which is the result of the whole history.", "anchors": ["network/packet/packet.h: Packet", "network/packet/packet-buffer.h: PacketBuffer", "network/buffer/zc-buffer.h: ZcBuffer"]}
{"id": "C91", "title": "Messages in headers and trailers reach the receiver", "statement": "Values written with the iterator of a buffer are shown by that buffer at the offset where the iterator was and are read back from there; a message that does not fit fails an assertion and nothing outside the buffer is touched. In particular a message written into the buffer that AddHeader(size) or AddTrailer(size) of a packet returns is in the header or trailer of that packet, leaves all other packets as they were, and is read, with the same values, from GetBuffer() of every packet that afterwards carries these bytes, however it was copied, moved, fragmented, reassembled, extended and stripped meanwhile, also by a host of the other byte order if the orders were asked for.", "quantifier": "every history of packets and buffers, every message and every list of variables it can be read to, every offset, every sequence of later packet operations that keeps the bytes, both byte orders of sender and receiver", "why_tests_cant": "tests write and read fixed values through one iterator right away; the promise composes shared storages, reference counts, offsets and fragments in arbitrary order", "anchors": ["network/buffer/buffer.h Buffer::begin, Buffer::cbegin", "network/buffer/io/arithmetic-io.h", "network/buffer/io/time-point-io.h", "network/packet/packet.h Packet::AddHeader, AddTrailer, GetBuffer, MakeFragment"]}
{"id": "C92", "title": "Callbacks may run the simulator", "statement": "Event sinks, and sinks of the simulator's begin, run, pause and end events, may call Run, RunUntil and RunFor of the simulator that is calling them, to any depth. With every scheduler each event is still taken at most once, earliest first, while the clock reads its time, its sink is invoked unless it was cancelled, no event is lost and nothing undefined happens. The clock does not go back, events are fired in the order of time, and nothing is fired between a Pause, or the end of a run, and the start of the next run. The enclosing RunUntil still ends at its time point unless Pause is called.", "quantifier": "all event programs with runs within runs, all depths of nesting, all sequences of calls by the owner of the simulator, all three schedulers", "why_tests_cant": "the behaviour depends on which callback, at which depth, makes which run at which moment of the simulation; a test exercises a few nestings", "anchors": ["simulation/simulator.h: Simulator::Run, RunUntil, RunFor, CheckBeginOfSimulation, CheckEndOfSimulation", "simulation/event-handle.h: EventHandle::Fire", "simulation/list-scheduler.h: FireAndRemoveNextEvent", "simulation/set-scheduler.h: FireAndRemoveNextEvent", "simulation/heap-scheduler.h: FireAndRemoveNextEvent", "simulation/i-simulator.h: ISimulator"]}
{"id": "C93", "title": "Headers and trailers of zero-compressed packets are filled through the returned buffer", "statement": "For packets over zero-compressed buffers, whatever is written through iterators of the buffer that AddHeader(n) or AddTrailer(n) returns becomes the header or trailer of that packet, byte for byte, wherever the packet's zero area is and whoever shared its storage before; no other packet (copies included) and no buffer the program already had changes; writing beyond the n bytes fails by an assertion. Any stack of layers, each with any number of fields written one after the other, produces exactly the concatenation of the fields around the payload, and taking the layers off again in reverse order gives back the payload and leaves no trace. A buffer that is written into after the packet was copied changes the copy as well.", "quantifier": "all histories of sensible statements and fillings, all packets, sizes, offsets and bytes written, all stacks of headers and trailers, all contents of fresh memory", "why_tests_cant": "Whether the written bytes reach only this packet depends on the entire history of sharing of the storage, on the dirty area and on the position of the zero area relative to the new bytes; tests try a few layouts only.", "anchors": ["network/packet/packet.h: Packet::AddHeader, AddTrailer, RemoveHeader, RemoveTrailer", "network/buffer/zc-buffer.h: ZcBuffer::AddAtStart, AddAtEnd, MakeFragment", "network/buffer/iterator/zc-buffer-iterator.h: Write"]}
{"id": "C94", "title": "64-bit simulation time: exact until it overflows, and no overflow within a horizon", "statement": "A simulation with 64-bit time points behaves exactly as one with unbounded time unless a ScheduleIn or RunFor adds a duration that takes the clock beyond the last time point, which is undefined behaviour. If runs have limits that add up to at most H, and no duration given to ScheduleIn is negative or longer than what is left after H, no overflow happens, with any scheduler, whatever the sinks do and however long they do it. A sink that keeps scheduling itself under Run without a limit reaches the overflow, whatever its period. ScheduleIn and RunFor with the longest Duration are undefined once the clock has moved.", "quantifier": "all three schedulers, all event programs including runs within runs, all sequences of calls by the owner, all durations and time points, all horizons, any number of steps", "why_tests_cant": "The overflow is reached after 29 simulated years or by one extreme duration; a test can neither run 2^63 ticks nor show that no program within the horizon ever gets there.", "anchors": ["simulation/simulator.h: Simulator::RunFor, Run, RunUntil", "simulation/list-scheduler.h: ScheduleIn", "simulation/set-scheduler.h: ScheduleIn", "simulation/heap-scheduler.h: ScheduleIn", "chrono/virtual-time-point.h: operator+", "chrono/duration.h: operator+"]}
{"id": "C95", "title": "The heap scheduler's vector is a heap and yields events in order", "statement": "With push_heap and pop_heap as sifting up and sifting down, and the comparator of the heap scheduler, adding an event to the scheduler's vector keeps all events and the heap property; removing the front keeps all the others and the heap property, and the front is an event than which no other is earlier. Any events added in any order come out each once, in the order of time and, for equal times, of scheduling. A simulation with this scheduler is indistinguishable from one with the list scheduler, and stays in order when sinks run the simulator themselves.", "quantifier": "all vectors, all events, all orders of insertion, all event programs and sequences of calls", "why_tests_cant": "The positions in the heap depend on the order of insertion; there are n! orders, and off-by-one errors in the index arithmetic show for some lengths only.", "anchors": ["simulation/heap-scheduler.h: HeapScheduler::ScheduleAt, GetNextEvent, FireAndRemoveNextEvent, HeapLessThan", "simulation/event-handle.h: EventHandle::operator<"]}
{"id": "C96", "title": "Typed headers and trailers of zero-compressed packets reach the receiver", "statement": "What a sender writes field by field (numbers, arrays, durations, points in time, addresses) through the iterator of the buffer that AddHeader(n) or AddTrailer(n) of a packet over zero-compressed buffers returns becomes that part of the packet and changes no other packet and no other buffer; a message that does not fit fails an assertion. Whoever gets the buffer of a packet that has these bytes, at any place, across stored bytes and zeros, reads the values that were written, also on a host of the other byte order if an order was asked for. So every stack of layers that each put a message before or behind a payload is taken off again by layers that read the same types in the opposite order, and the payload is left.", "quantifier": "all reachable states with any sharing of storage and any place of zeros, all messages, offsets, sizes, byte orders of both hosts, and stacks of any number of layers", "why_tests_cant": "Whether a multi-byte write crosses the border of header and zero area, and whether a fragment shares storage with other packets, depends on the whole history; tests use a few layouts and one host.", "anchors": ["network/buffer/zc-buffer.h: begin, cbegin, MakeFragment, AddAtStart, AddAtEnd", "network/buffer/iterator/zc-buffer-iterator.h: Write, Read, CursorToOffset, CrossZeroArea", "network/buffer/io/arithmetic-io.h, duration-io.h, time-point-io.h, address-io.h", "network/packet/packet.h: AddHeader, AddTrailer, GetBuffer, RemoveHeader, RemoveTrailer"]}
{"id": "C97", "title": "Logs sorted by the text of the time of day are sorted by time", "statement": "Of two durations that are not negative and fall into the same day, or into days from the first full one on whose numbers have as many decimal digits, at any two resolutions, the text that ToString gives for the shorter one sorts before the text of the longer one, character by character. Within a day and at one resolution the texts are sorted exactly as the durations are. The same holds for points of virtual time in the first day of a simulation. Across other days, and for negative durations, it does not hold.", "quantifier": "all resolutions from one second to one attosecond for either duration, all counts of 64 bits that are not negative and fall into such days", "why_tests_cant": "Pairs of counts at pairs of resolutions are meant, whose texts have different lengths; a part that is padded one digit short shows for few pairs only.", "anchors": ["chrono/duration.h: Duration::ToString, Duration::Split", "chrono/virtual-time-point.h: VirtualTimePoint::ToString"]}
{"id": "C98", "title": "Hexadecimal texts of unsigned values sort as the values", "statement": "Of two unsigned values of one type of 1, 2, 4 or 8 bytes, written in hexadecimal with as_hex to streams of the same settings, the text of the smaller one sorts before the text of the greater one, character by character, and only then; whatever follows them does not change this. For signed values it does not hold.", "quantifier": "all pairs of values of each size, all streams that are not left adjusted, show no base and have no width set, all texts before and behind", "why_tests_cant": "All pairs of values of up to 64 bits are meant, written in two halves with a separator; values that differ in one half only are easily missed.", "anchors": ["utility/hex-output.h: as_hex, hex_output, operator<<"]}
