# A Rocq model of nsfx and proofs about it

## What this is

`rocq/theories` contains an executable model (plain Gallina) of the logic of
nsfx, module by module, and theorems about it.  The C++ code is never run or
built here, so the only link between code and model is reading: every
definition of the model carries a comment naming the file and the lines in
`/repo` it stands for, and says what was simplified.

Every module `X` uses the same layout:

| file | content |
|------|---------|
| `X.v` | the model: state, functions, one definition per C++ function; no proofs |
| `XSpec.v` (when needed) | the abstract specification, independent of the model |
| `XProofs.v` | lemmas |
| `XProps.v` | the property theorems, each closed by `exact lemma`, an `Example` showing that the hypotheses can be met, and `Print Assumptions` |

## Conventions of the model

* Unsigned machine words are `N` (or `Z` where subtraction matters); every
  operation which can wrap in C++ and for which the property is about wrapping
  carries an explicit `mod 2^w`.
* Undefined behaviour, failed assertions (`BOOST_ASSERT`) and exceptions are
  distinct outcomes of the model functions, never silently totalised.
* Pointers become identifiers into an explicit heap (a list or a finite map).
* User callbacks (event sinks) are arbitrary Gallina functions, quantified over
  in the theorems.
* A loop whose termination depends on user code takes fuel and reports the lack
  of fuel as its own outcome; theorems speak about runs which do finish, or
  hold for every amount of fuel.

## Findings

When the documented contract is false for the code as written, the model keeps
the behaviour of the code, a theorem `..._refuted` gives a concrete history
violating the contract, and the strongest true version is proved separately.

| theorem | what the code does |
|---------|--------------------|
| `C01_one_bit_refuted` | one-bit circular numbers: both `0 < 1` and `1 < 0` (documented exception) |
| `C05_lollipop_irreflexive_refuted` | a lollipop space with exactly two circular values: `x < x` is true |
| `C06_read_out_of_range_refuted` | reading a number from bytes does not mask: values above MAX come out |
| `C08_stale_cookie_refuted` | cookies are reused: a stale cookie disconnects another sink |
| `C11_fire_args_disconnect_next_refuted` | an event with arguments calls a null sink when a sink disconnects a later one |
| `C25_whole_state_refuted` | the xoroshiro1024 engines use only registers 0 and 15 of their 16 registers: the other 14 never change and influence no output |
| `C28_order_overflow_refuted` | comparing durations of different resolution gives the wrong answer when the conversion overflows |
| `C30_split_min_refuted` | splitting the smallest duration is undefined behaviour |
| `C32_list_order_refuted` | a list scheduler used directly: a sink scheduling before the running event makes the scheduler drop the new event and fire the old one twice |
| `C36_past_bound_refuted` | `RunUntil` with a time in the past moves the clock backwards |
| `C38_pause_at_begin_refuted` | `Pause` called by a sink of the begin event has no effect |
| `C39_uninitialized` | `ScheduleNow`/`ScheduleIn` before a clock is set dereference a null pointer, where `ScheduleAt` throws |
| `C47_moves_unbounded_refuted` | the bounds check of the iterator wraps for huge counts |
| `C59_unordered_member_refuted` | lexical comparison with members that are not totally ordered |
| `C68_throwing_sink_refuted` | a sink that throws: list and set schedulers fire the event again, the heap scheduler forgets it |
| `C68_list_set_fire_again` | (for every program) after a throwing sink the same event is still the next one of the list and set schedulers, so every later run begins with it |
| `C68_handle_stays_running` | (all schedulers) after the exception has left `Run`, the handle of the event says for ever that the event is being fired |
| `C69_num_events_in_sink_refuted` | `GetNumEvents` inside a sink: list and set count the running event, the heap does not |
| `C41_self_start_refuted` | `b.AddAtStart(b)` is documented as allowed but prepends indeterminate bytes (`b.AddAtEnd(b)` is right) |
| `C42_fragment_refuted` | `MakeFragment` shrinks the dirty area of the shared storage, so that extending the fragment overwrites the original buffer |
| `C42_deep_copy_refuted` | the constructor from a buffer of another class leaves the dirty area empty, so that extending an emptied copy overwrites the original |
| `C42_header_trailer_refuted` | so does the one use packets make of `MakeFragment`, returning the header that was just added: a copy that then loses its trailer and gets another one overwrites the original |
| `C14_least_offset_refuted` | subtracting `INT64_MIN` from an address negates it first, which overflows |
| `C16_shift_by_words_refuted` | addresses wider than 64 bits: a shift by a multiple of 32 shifts 32-bit values by 32 |
| `C18_narrow_refuted` | addresses of at most 32 bits: a negative difference comes out 2^32 too large |
| `C18_saturation_refuted` | differences that do not fit are documented as limited to the `int64_t` range: with 64 bits they wrap, with more the third value is ignored |
| `C19_multiply_wide_refuted` | addresses wider than 64 bits: multiplication accesses a value beyond the array |
| `C19_bool_refuted` | conversion to `bool` is true exactly for the zero address |
| `C49_hidden_refuted` | a tag list whose tag lost all its bytes brings the tag back when it is added to another list: bytes that never had the tag report it |
| `C49_regrow_refuted` | a tag that was cut off grows over bytes added in place of the removed ones |
| `C49_empty_refuted` | a buffer without bytes inside a former tag still counts the tag |
| `C49_value_refuted` | adding a tag list drops a tag if one with the same id and range but another value exists |
| `C52_header_trailer_refuted` | after `p.AddHeader(size)`, adding a trailer to a copy cut down to the header overwrites the bytes of `p` |
| `C52_copy_tags_refuted` | `CopyTagsFrom` changes the tags of every copy of the packet |
| `C54_value_refuted` | splitting and reassembling may change which of several byte tags with one id `GetByteTag` returns |
| `C55_regrow_refuted` | a byte tag comes to lie on bytes added where tagged bytes were removed |
| `C55_hidden_refuted` | byte tags of a packet that lost all their bytes reappear when the packet is added to another one |
| `C56_self_assign_refuted` | `p = p` on a smart pointer that is the only reference to its object deletes the object and then uses it |
| `C56_list_head_refuted` | `p = p->next` and `p = std::move(p->next)` use the node after deleting it when `p` is its only reference |
| `C56_no_interface_leaks_refuted` | `Ptr<T>(new Object<C>)` with an interface that `C` does not have leaks the object (documented for `Ptr`) |
| `C57_equality_refuted` | `==` on smart pointers is not transitive: pointers of the same type are compared by address, others by object |
| `C78_create_aggregated_refuted` | `CreateObject<I>(cid, controller)` with `I` other than `IObject` returns a smart pointer to an object that has already been deleted |
| `C60_assign_refuted` | `BiVector::assign` with fewer elements than the vector holds keeps the old size and the old elements after the assigned ones |
| `C60_constructor_refuted` | `BiVector(capacity, size, v)` does not check `size <= capacity` and writes outside the allocation |
| `C60_assign_own_refuted` | `v.assign(n, v[k])` reads the element after destroying it (element types that are not plain data) |
| `C61_fill2_refuted` | `BiMatrix::fill2` checks the column against the number of rows: valid columns of wide matrices are refused, and in tall ones it writes outside the allocation |
| `C61_size_refuted` | the number of elements of a `BiMatrix` is computed modulo 2^64, so that accepted dimensions may have no storage and `operator()(i, j)` reads through a null pointer |
| `C61_detail_end_refuted` | the free function `detail::bi_matrix_end` is at `rows + columns` from the beginning (the class's `end()` is right) |
| `C43_remove_at_start_refuted` | `ZcBuffer::RemoveAtStart` with a huge size overflows: the buffer grows and begins before its first byte instead of becoming empty |
| `C43_bare_copy_refuted` | `CopyTo` of a `ZcBuffer` that is a zero area without a storage copies nothing |
| `C43_bare_remove_refuted` | `RemoveAtEnd` (and `RemoveAtStart`) of more than the size leave such a buffer as it was |
| `C43_bare_add_refuted` | adding such a buffer to another adds bytes of uninitialized memory, not zeros |
| `C43_bare_move_refuted` | moving a buffer onto such a one leaves the zeros in the moved-from buffer |
| `C43_self_start_refuted` | `ZcBuffer::AddAtStart(src)` with the buffer itself as `src`, which the documentation allows, does not prepend the content |
| `C44_deep_copy_refuted` | a `ZcBuffer` made from a buffer of another class has an empty dirty area; extending a copy of it overwrites the original |
| `C48_empty_zero_area_refuted` | a `ZcBuffer` iterator refuses writes across the place of an empty zero area, though all the bytes are stored |
| `C48_write_nothing_refuted` | writing no bytes fails an assertion inside a zero area |
| `C62_ieee_stddev_refuted` | `Summary::Stddev` of three samples 0.1 is NaN: the rounded radicand is negative |
| `C62_ieee_mean_refuted` | `Summary::Mean` of three samples 0.1 is larger than `Max` |
| `C62_ieee_count_refuted` | `Summary::Count` stays at 2^53 |
| `C62_ieee_nan_first` | a NaN as the first sample makes `Min` and `Max` NaN for ever, a later one is ignored |
| `C65_null_sink_refuted` | `Logger::Connect` with a null sink throws after it connected the logger to its sources; from then on every `Connect` throws `IllegalMethodCall` |
| `C65_limit_refuted` | the same happens when one of the sources refuses another sink, even after it has room again |
| `C65_register_limit_refuted` | `RegisterSource` that throws `ConnectionLimitExceeded` leaves the source registered, without a cookie to unregister it |
| `C65_cycle_refuted` | two loggers that are each other's source keep each other enabled after the last user's sink is gone, and `UnregisterSource` recurses until the stack overflows |
| `C79_move_shares_refuted` | moving a `LogRecord` copies the handle (`const LogRecord&&`), so the moved-from record still aliases the new one |
| `C64_files_refuted` | `LogStreamSink::AddFile` keeps pointers into a `vector<ofstream>`; once the vector has been reallocated the next `Fire` writes through a dangling pointer |
| `C64_isolation_refuted` | the record is shared by all sinks, so the pending values of one sink show up in what the next sink and the caller see, even if the filter of that sink rejects the record |
| `C64_exception_refuted` | a sink that throws keeps the record from all sinks after it |
| `C80_self_disconnect_refuted` | a sink that only the event refers to and that disconnects itself is destroyed while it runs; what it captured is used after that |
| `C80_self_cancel_refuted` | the same for a sink that cancels the `EventHandle` that calls it |
| `C80_destroy_refuted` | a sink that destroys the event that calls it leaves the delivery loop with a destroyed event |
| `C81_native_other_host_refuted` | a message written without an explicit byte order is read as other values on a host of the other byte order (as documented) |
| `C81_zc_border_refuted` | with an empty zero area, the same bytes can be written as two values but not as one value, a consequence of `C48_empty_zero_area_refuted` |
| `C82_iterator_keeps_refuted` | buffer iterators hold no reference to the storage, though it is documented that each iterator does: an iterator that outlives its buffers is undefined behaviour |
| `C82_block_refuted` | the size of the block that `BufferStorage::Allocate` asks for wraps for capacities close to 2^64: the block is smaller than the capacity |
| `C84_laplace_refuted` | `CreateLaplaceDistribution` asserts that the mean is positive, besides the scale: a Laplace distribution of mean 0 cannot be created, though `GenerateLaplace` accepts it |
| `C84_seed32_refuted` | seeds are documented as 64-bit integers, but engines of 32-bit words keep only the lower half: different seeds give the same stream |
| `C84_seed64_refuted` | `Seed(uint32_t)` cannot lead an engine back to a construction seed of 2^32 or more |
| `C84_max_refuted` | `GetMaxValue` of the engines over the unit interval is 1, which is never generated |
| `C85_close_unsigned_refuted` | the closeness checks subtract both ways; of unsigned operands one difference wraps around, so values that are close but not equal fail |
| `C85_close_nan_refuted` | the closeness checks are negated comparisons: what is not a number passes them all |
| `C85_rerun_refuted` | the stop flag is never cleared: after a failed `ASSERT` a later run of the tests runs nothing |
| `C85_assert_continues_refuted` | a failed `ASSERT` does not leave its case: the code after it goes on, only without checks |
| `C85_case_line_refuted` | the name of a case is written before every failure, not once (`runner.h` 338-346) |
| `C85_outside_refuted` | a check that fails before any case has run follows a null pointer; one that fails after a run is put down to the last case |
| `C86_hex_keeps_format_refuted` | `as_hex` leaves base 16, lower case and fill '0' on the stream: a 16 written afterwards is "10" (`hex-output.h` 55-62, 73-75) |
| `C86_hex_left_refuted` | on a left-adjusted stream the zeros come behind the digits: the bytes 1 and 16 have the same text |
| `C86_hex_showbase_refuted` | on a stream that shows the base the prefix is written twice |
| `C87_text_min_refuted` | `ToString` of the smallest duration overflows (`Split` negates the count) |
| `C87_text_documented_refuted` | the parts below a second are joined by '-', not by spaces as documented (`duration.h` 812, 1018-1049) |
| `C88_discrete_empty_refuted` | a discrete distribution made of no weights has one value, not none |
| `C88_discrete_zero_refuted` | weights that are all 0 are accepted; every probability is 0/0 |
| `C88_constant_no_bound_refuted` | a piecewise constant parameter without lower bound makes the constructor of the distribution read `GetBound(0)` of an empty vector (`std-piecewise-constant-distribution.h` 181-183) |
| `C88_single_bound_refuted` | a table with a single bound is ignored: the distribution is over [0, 1) whatever the bound is |
| `C89_names_refuted` | defining `NSFX_LOG_ENABLE_FUNCTION_NAME` or `NSFX_LOG_ENABLE_FILE_NAME`, as `log/config.h` 220-222 tells users to, does not compile: `aux::MakeConstantLogValueC` (`log/log-tool.h` 49, 54) is declared nowhere |
| `C89_other_type_refuted` | only `Ptr<ILogEventSinkEx>` and `ILogEventSinkEx*` are asked whether they are enabled (`log/i-log.h` 161-177); a `const Ptr<ILogEventSinkEx>` or a pointer to a logger class is not, so a disabled logger's operands are evaluated and a record is fired |
| `C89_capture_refuted` | the macros declare `go` and `oss` (`log/log-tool.h` 114-115): an operand that names the caller's variable `go` or `oss` means the macro's |
| `C89_same_sink_refuted` | the logger expression is evaluated twice, before and after the operands: if they change it, a disabled sink gets the record |
| `C89_message_nul_refuted` | a message is offered as `const char*` (`log/make-log-value.h` 94-97): what follows a NUL is lost to readers |
| `C90_bare_reassembly_refuted` | a packet of zeros alone (`PacketBuffer(0, n)`, zero-compressed) has no storage, and `CopyTo` gives nothing for it (`network/buffer/zc-buffer.h` 592-662): fragments that are added together again are not the packet |
| `C90_bare_add_refuted` | for the same reason adding such a packet or buffer to a packet adds indeterminate bytes in place of the zeros |
| `C91_late_write_refuted` | The buffer returned by `AddHeader(size)` is shared with later copies of the packet: a message written into it after the packet was copied appears in the copy as well. |
| `C92_until_refuted` | `Run`, `RunUntil` or `RunFor` called by an event sink sets `paused_` when it ends (`simulation/simulator.h` 112-180), and thereby ends the run that it is part of: that run returns without reaching its time point, with due events left, although nobody called `Pause` |
| `C92_begin_refuted` | a run made by a sink of the begin event may move the clock beyond the time point of the `RunUntil` that fired the event; the clock is then set back and later events are fired at earlier times |
| `C92_endless_refuted` | the list and the set scheduler fire an event that is still in their container (`simulation/list-scheduler.h` 160-168, `set-scheduler.h` 140-149), and its handle keeps its sink meanwhile: a sink that calls `Run` is fired within itself without end |
| `C92_lost_refuted` | for the same reason, a sink that makes one run within a list scheduler is fired twice, and `pop_front` then removes an event that has not been fired |
| `C92_undefined_refuted` | or `pop_front` is called for an empty list; the set scheduler erases an iterator whose element is gone |
| `C93_late_refuted` | The buffer that `AddHeader(size)`/`AddTrailer(size)` of a zero-compressed packet returns keeps sharing storage with the packet: if the packet is copied before the header is written, the copy changes with it. |
| `C94_forever_refuted` | scheduling or running "for ever" (`Duration` at its maximum) overflows as soon as the clock has moved: nothing checks `now + dt` |
| `C97_days_refuted` | texts of durations are not sorted as the durations are: the number of days is not padded, so 10 days sort before 9 days |
| `C97_first_day_refuted` | the number of days is left out for the first day, so 1 day sorts before 12 hours |
| `C97_negative_refuted` | of two negative durations, the text of the greater sorts first |
| `C98_signed_refuted` | hexadecimal texts of signed values are not sorted as the values are: -1 sorts behind 1 |

## Plan per property

Sequence numbers (`SeqNum*.v`): values are `N`, width and START are parameters.

* C01-C03: `circ_lt`, `circ_le`, `circ_inc` modelled line by line; proved by
  arithmetic (`lia`) against a specification by forward distance modulo 2^bits.
* C04-C05: `lolli_lt`, `lolli_le`, `lolli_inc` for the three circular-space
  classes; induction over the number of increments; the two-value space gives a
  `_refuted` theorem.
* C06: byte lists through the iterator model; round trip by the lemma
  `bytes -> number -> bytes`; reading unmasked bytes gives a `_refuted` theorem.

Events (`Event*.v`): state = slot list, sink count, last index; operations
Connect/Disconnect/Fire/Visit; sinks are arbitrary callbacks.

* C07-C09: invariant (count = number of occupied slots, last = index after the
  last occupied slot) by induction over histories; refinement to a finite map.
* C10-C11: the fire loops as fuelled recursion with outcomes for null call and
  out-of-range access; re-entrant callbacks return lists of operations.
* C12: the same for `Portainer`.

Addresses (`Address*.v`): limb lists with explicit limb width and top mask.

* C13-C17: refinement `value : limbs -> N` modulo 2^bits by induction over limbs.
* C18-C19: `_refuted` theorems plus the true parts.

Random engines (`Random*.v`): words as `N` below 2^w.

* C20-C23, C25: injectivity by explicit inverses; xor/shift/rotate lemmas by
  bit extensionality; period by arithmetic modulo 2^64.
* C24: the unit-interval engines as dyadic rationals (numerator, exponent).

Durations (`Duration*.v`): counts as `Z` within int64, resolutions as ratios.

* C26-C31: exact rational semantics (cross multiplication); division lemmas;
  the comparison bug gives a `_refuted` theorem.

Simulation (`Sched*.v`, `Sim*.v`): an event handle heap, three scheduler
representations (sorted list, ordered set, binary heap), the simulator loop,
sinks as arbitrary callbacks that schedule, cancel and pause.

* C32-C40: abstract scheduler = multiset taken in (time, id) order; each of the
  representations refines it; heap order by proving the sift operations.

Buffers (`Buffer*.v`, `ZcBuffer*.v`): a heap of storages (capacity, count,
dirty range, bytes) and a table of buffer variables.

* C41, C43: per operation the bytes seen are those of the byte-string operation.
* C42, C44: invariant over all buffers (data range inside the dirty range) and
  an isolation theorem over arbitrary histories; MakeFragment and the deep copy
  give `_refuted` theorems.
* C45: the count equals the number of variables holding the storage.
* C46-C48: iterators as cursors over byte strings (with a virtual zero area).

Tags and packets (`TagList*.v`, `Packet*.v`).

* C49-C51: shared tag arrays with a dirty counter; the visible tags of a list
  are the prefix of its array; isolation by invariant over all lists.
* C52-C55: packets as shared bodies with copy-on-write over the buffer and tag
  list models; refinement to byte strings with tags.

Components (`Ptr*.v`, `Registry*.v`, `Lexical*.v`).

* C56-C57: heap of objects and table of handles, exact counting invariant.
* C58: registry as association list, refinement to finite map.
* C59: recursion over the tuple.

Containers, statistics, log, byte order (`BiVector*.v`, `BiMatrix*.v`,
`Summary*.v`, `Probe*.v`, `Log*.v`, `Endian*.v`).

* C60-C61: sequences; index arithmetic is a bijection.
* C62: over real numbers (exact), and over IEEE binary64 numbers (Flocq) for
  what rounding does to the formulas.
* C63-C65: association lists and cookies; invariants over histories.
* C66: byte lists.

Not expressible here: thread interleavings (the library is single threaded), the std random distributions
(they delegate to the C++ standard library), text formatting of log streams.

## Trusted base

* The kernel of Coq 8.16.1; no axioms of our own; `Print Assumptions` is issued
  under each property theorem.
* Axioms of the standard library: the theorems `C62_*` (real numbers and, through
  Flocq, IEEE 754 numbers) depend on `ClassicalDedekindReals.sig_not_dec`,
  `ClassicalDedekindReals.sig_forall_dec`,
  `FunctionalExtensionality.functional_extensionality_dep`, and those called
  `C62_ieee_*` also on `Classical_Prop.classic`.  No other theorem depends on any
  axiom.  (A checker may also list `Coq.Reals.Rdefinitions.RbaseSymbolsImpl.*`,
  `Coq.Reals.Rdefinitions.RinvImpl.*` and `Coq.ssr.ssrunder.Under_rel.*`: these are
  definitions that the standard library seals behind a module type, not axioms; the
  first two are how Stdlib defines the operations of R, the last no theorem uses.)
* The reading of `/repo`, as cited in comments.
* See the per-module notes below for what is and is not modelled.

## What is modelled, module by module

Every theorem listed in `MANIFEST.json` is followed by `Print Assumptions`; all
of them print "Closed under the global context" unless a line below says
otherwise.

* **BufferIter** (`network/buffer/iterator/*`): basic iterators over a byte
  sequence; integers as numbers below `2^(8n)`, host byte order a parameter.
  Pointers into the storage are modelled as offsets.
* **SeqNum** (`utility/circular-sequence-number.h`,
  `lollipop-sequence-number.h`): all comparison and increment operators, Read
  and Write.  Streams output not modelled.
* **Event** (`event/*.h`): the slot array, cookies, the two firing loops,
  visiting.  A sink is an opaque identifier here; see SinkLife for lifetimes.
* **Endian, Lexical**: byte-order conversion of integers and byte arrays; the
  comparison of tuples of members.
* **Random** (`random/engine/*`): the splitmix, xoroshiro and xoshiro engines,
  seeding, jumping; unit-interval outputs as exact dyadic
  fractions, rounding of `double` is not modelled; for distributions see
  Generator.
* **Duration** (`chrono/*`): counts as 64-bit integers, resolutions as ratios;
  overflow of signed arithmetic is `UB`.  Text output not modelled.
* **Sim** (`simulation/*`): list, set and heap schedulers, event handles,
  simulator.  Times are unbounded integers and identifiers unbounded naturals
  (for overflow see `Clock64`).  `std::push_heap`/`std::pop_heap` are
  represented by their contract (`heap_lib`), with one instance given to show
  that the contract is satisfiable, and another, `gcc_lib` of `HeapAlgo`, that
  is the algorithm in use.  Sinks are arbitrary functions of the whole
  record of calls; they schedule, cancel, pause, and may throw; they do not call
  `Run` or `FireAndRemoveNextEvent` re-entrantly.
* **Buffer** (`network/buffer/buffer.h`, `storage/basic-buffer-storage.h`): storages on a
  heap with reference count, dirty area and bytes; all constructors, assignments,
  additions, removals, `MakeFragment`, writes through an iterator.  Contents of fresh
  memory come from an arbitrary oracle.  Sizes are naturals: sums of sizes that
  overflow `size_t` are not modelled.  `ConstBuffer` is a variable that is only read.
  `FixedBuffer` is in `FixedBuffer.v`.
- **Address** (`network/address/address-little-endian.h`): `Address<bits>` for every
  `bits > 0` as its list of 32- or 64-bit values: all constructors and assignments from
  bytes, integers and sequences, comparisons, arithmetic, bitwise operators, shifts,
  difference, multiplication, conversion to `bool`, `Zero`, `Mask`, `ToString`, `Read*`,
  `Write*`.  `operator~` and unary `-` change their operand in place, and are modelled so.
  The host is little-endian; initializer-list and variadic constructors, which only
  forward, are not modelled; neither are `GetBytes` and the other-endian stub.
- `TagList.v`: `network/packet/tag/` (`basic-tag.h`, `basic-tag-index.h`, `basic-tag-index-array.h`, `basic-tag-list.h`), every member function except iteration for output; tag values are opaque, coordinates do not wrap around.
- `Packet.v`: `network/packet/packet.h`, every member function, on top of `Buffer.v` and `TagList.v` (one world of shared buffer storages, one of tag lists per kind); byte tag values are opaque; the reference a packet tag holds is never given back, and reference counts do not wrap around; `Packet::Clone`, which is declared and not defined, is not modelled; over zero-compressed buffers the class is in `ZcPacket.v`.
- `ZcPacket.v`: the same class with `NSFX_PACKET_USES_ZERO_COMPRESSED_BUFFER` (`network/packet/packet-buffer.h`), every member function except those on tags, on top of `ZcBuffer.v`; of the tag lists only the assertion that no more is removed than there is.
- `Component.v`: `component/ptr.h` (`PtrBase`, `Ptr`: constructors, assignment, `Reset`, `Detach`, `operator->`, `operator==`, `swap`) and `component/object.h` (`Object`, `StaticObject`, `AggObject`, `MemberAggObject`, `MutualObject`, interface maps, `AddRef`, `Release`, `QueryInterface`). The heap is a list of cells that are marked when deleted; an access to such a cell is undefined behaviour. The construction of an object with its parts is one step. Not modelled: code in constructors and destructors of user classes, overflow of reference counts, pointers without a reference, `operator<`.
- `Registry.v`: `component/class-registry.h` (`ClassRegistry`, `RegisterDefaultClassFactory`, `RegisterClassFactory`, `CreateObject`), `class-factory.h` (`ClassFactory`) and `uid.h` (`Uid`). `std::unordered_map` is a list of nodes that are found by hash value and `operator==`; `boost::hash_range` is an arbitrary function. `CreateObject` is given in terms of `Component.v`. Not modelled: the registration macros, running out of memory, custom factories' `CreateObject`.
- `BiContainer.v`: `utility/array-tool.h`, `bi-vector.h`, `bi-array.h`, `bi-matrix.h` (both layouts): construction, copy, move, swap, assignment, destruction, element access, `fill`, `fill1`, `fill2`, `assign`, `push_back`, `pop_back`, `clear`, and the iterators over all elements, a row and a column. Blocks of memory have slots that are raw or live; using a raw slot of an element type that is not plain data, or leaving a block, is undefined. Arguments passed by reference may refer to elements of containers. Not modelled: exceptions of element constructors, running out of memory, comparison and output operators, reverse iterators; the free functions `begin1(mx)`/`begin2(mx)` and the `detail` row and column iterators, which do not compile when instantiated.
- `ZcIter.v`: `network/buffer/iterator/zc-buffer-iterator.h` (`ZcBufferIterator`): moving, writing and reading of integers (floating point numbers as their bits), byte arrays and `Fill`, with the case distinctions on the zero area and `size_t` arithmetic. `ConstZcBufferIterator` forwards to it.
- `ZcBuffer.v`: `network/buffer/zc-buffer.h` (`ZcBuffer`) over the storages of `Buffer.v`: constructors, copies, moves, swap, `AddAtStart`, `AddAtEnd` (size, bytes, buffer), `RemoveAtStart`, `RemoveAtEnd`, `MakeFragment`, `MakeRealBuffer`, `Realize`, `CopyTo`, `begin`, `end`. Offsets are natural numbers; `RemoveAtStart`, whose sum can overflow whatever the size of the buffer, is also given in `size_t` arithmetic. Not modelled: running out of memory, the conversion to `ConstBuffer`.
- `Summary.v`: `statistics/summary/summary.h` (`Summary`), once over real numbers with NaN and once over IEEE 754 binary64 as defined by Flocq (rounding to nearest even, one operation at a time; the sign and payload of NaNs are not distinguished). Theorems here depend on the axioms of the real numbers.
- `Stat.v`: `statistics/probe/probe-container.h`, `probe-enumerator.h`, `probe.h`, `statistics/statistics-container.h`, `statistics-enumerator.h`, `statistic.h`: `Add`, `Has`, `GetProbe`/`Get`, `Connect`, `Disconnect`, `MergeFrom`, `erase`, `Fire` and the enumerators, over the connection tables of `Event.v`. The iteration order of `std::unordered_map` is arbitrary in every call. Not modelled: memory exhaustion, null or foreign containers given to `MergeFrom`, iterators kept across changes, sinks that call back.
- `LogNet.v`: `log/logger.h` (`Connect`, `Disconnect`, `RegisterSource`, `UnregisterSource`, `IsEnabled`) and `log/detail/log-source-pool.h` over the connection tables of `Event.v`, for networks of events, loggers and other sinks; an exception keeps the changes made before it. Not modelled: reference counts, sinks and sources of user classes that call back, memory exhaustion, the 32-bit limit on the number of sources.
- `LogRecord.v`: `log/log-value.h`, `log/make-log-value.h`, `log/log-record.h`: typed constants and functors, second-order values, records as reference counted handles with `Copy`, `Add`, `Update`, `Exists`, `Get`, `GetTypeId`. Not modelled: C strings behind values, functors that change records, user-defined `ITypedLogValue`s, memory exhaustion.
- `Log.v`: `log/logger.h` (`Fire`), `log/detail/log-pending-value-pool.h`, `log/log-stream-sink.h` (`Fire`, `AddStream`, `AddFile`), `event/event.h` (`Fire`), over the networks of `LogNet.v` and the values of `LogRecord.v`. The iteration order of `std::unordered_map`, the filters, the functors and the growth of `std::vector` are arbitrary. Not modelled: what formatters write, stream states, sinks, filters and functors that call back into the log.
- `SinkLife.v`: lifetimes of event sinks: `component/object.h` (`AddRef`, `Release`), `event/event-sink.h` (`CreateEventSink`), `event/event.h` (`Connect`, `Disconnect`, `GetSink`, `Fire`, all specializations of capacity), `simulation/event-handle.h` (constructor, `Cancel`, `Fire`), with smart pointers of user code, nested firing and exceptions. What a sink does may depend on everything observed before. Not modelled: destructors that call back, threads.
- `Message.v`: `network/buffer/io/arithmetic-io.h`, `duration-io.h`, `time-point-io.h`, `address-io.h`: sequences of numbers, arrays of numbers, durations, points in time and addresses, through the iterators of plain and of zero-compressed buffers. Floating point numbers are bit patterns. Not modelled: addresses on big-endian hosts.
- `FixedBuffer.v`: `network/buffer/fixed-buffer.h`, `const-fixed-buffer.h`, `storage/basic-buffer-storage.h` (without dirty area): constructors, copies, moves, `swap`, destructors, `GetSize`, `CopyTo`, iterators that outlive buffers. Not modelled: `GetStorage`, sizes of 2^63 and more, memory exhaustion.
- `Period*.v` add no model: they state and prove the periods of the engines of `Random.v`. `PeriodData.v` holds numbers found outside Coq (characteristic polynomials, prime factors with certificates, combinations of orbits); they are checked by computation in `PeriodCert.v`, and what the checks imply is proved in `PeriodPrime.v` (Pocklington certificates), `PeriodLinear.v` (linear maps over bits) and `PeriodProofs.v`. The period of xoshiro512 is not proved; xoroshiro1024 does not use its whole state (C25).
- `Generator.v`: `random/pseudo-random-generator.h` and the front end of `random/distribution/std-*-distribution.h`: engines and distributions as components that share engines, the assertions on parameters, one-shot generation. Boost.Random behind the distributions is a parameter (`library`): its objects are made of parameters, draw words and change state; the theorems hold for every such library. Floating point parameters are rationals. Lifetimes are those of Component.v.
- `Testing.v`: `test/suite.h`, `case.h`, `runner.h`, `logger.h`, `tool.h`, `tool-iterate.h`, `tool-level.h`, `tool-type.h`: registration, running, results, what is written, comparisons and closeness. Not modelled: texts (names, messages and lines of source are numbers; how values are formatted), suites and cases added while tests run, results and progress after an exception is caught around a run, rounding of the progress and of floating point operands, infinities, operands of mixed types, streams that fail.
- `Text.v`: `utility/hex-output.h` and `ToString` of `chrono/duration.h` and `chrono/virtual-time-point.h`, on a model of `std::ostream` (digits, padding, base, case, fill, width as the C++ standard describes them; classic locale, no failing streams). Pointers, enumerators and `nullptr` given to `as_hex` are their bits; `bool` and pointers of 4 bytes do not compile.
- `Table.v`: the parameter objects of the discrete, piecewise constant and piecewise linear distributions and what the distributions made of them report (`random/distribution/i-*` and `std-*` of these three). Numbers of type `double` are rationals (no rounding, no infinities), NaN is `None`. How Boost.Random turns bounds and weights into probabilities and densities is modelled after its documentation. Null parameters are not modelled.
- `LogSite.v`: the macros `NSFX_LOG` and `NSFX_LOG_LEVEL`, `MakeLogRecord*` and `CommitLogRecord` of `log/log-tool.h`, `IsLogSinkEnabled` of `log/i-log.h`, the labels of `log/log-severity.h`. The program around a statement (its states, expressions and sinks) is a parameter. Not modelled: what `operator<<` of `std::ostringstream` makes of values other than text (see `Text.v` for integers); evaluating `IsEnabled()`, the logger and the severity is taken to have no effect and not to throw; operands and the expressions given to a macro that contain statements of control flow.
- `Wire` (C91): messages written through the iterators of buffer variables, in particular into headers and trailers of packets, and read from the packets that carry them: network/buffer/buffer.h (`begin`, `cbegin`), network/buffer/io/*.h, network/packet/packet.h. Not modelled: several iterators at work at the same time, zero-compressed packets.
- `Nested` (C92): runs within runs: event sinks and sinks of the simulator's own events that call `Run`, `RunUntil` or `RunFor` (simulation/simulator.h, event-handle.h and the three schedulers). Callbacks throw no exceptions of their own; the depth of the stack is not bounded; sinks do not call `FireAndRemoveNextEvent`. `C92_flat` relates this machine to the one of `Sim.v`.
- `ZcFill` (C93) adds no model: it states and proves, on `ZcPacket.v`, what becomes of bytes that are written into the buffers which `AddHeader(size)` and `AddTrailer(size)` return, and of stacks of layers.
- `Clock64` (C94): the machine of `Nested` with 64-bit time points: `Now() + dt` in `ScheduleIn` and `now_ + dt` in `RunFor` overflow as `VirtualTimePoint` and `Duration` do (undefined behaviour).
- `HeapAlgo` (C95): `std::push_heap` and `std::pop_heap` as simulation/heap-scheduler.h uses them, written out after the algorithms of GCC's standard library (which is not part of /repo): an instance `gcc_lib` of the contract `heap_lib` of `Sim.v`, so that the theorems about the heap scheduler hold of a concrete algorithm. Not modelled: growth of the vector.
- `ZcWire` (C96): messages of `Message.v` written and read through the iterators of the zero-compressed buffers of a program (`ZcBuffer.v`), and of the buffers that packets over them return (`ZcPacket.v`); the counterpart of `Wire` (C91).
- `TextOrder` (C97, C98) adds no model: it is about `to_string` and `put_hex` of `Text.v` (C86, C87), compared character by character with the lexicographic order of `TextOrderSpec.v`.
