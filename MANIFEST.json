{
 "claims": [
  {
   "property": "C01",
   "status": "proved",
   "theorems": [
    "C01_circular_tournament",
    "C01_one_bit_refuted"
   ],
   "note": "For every width above one bit. C01_one_bit_refuted shows the documented exception for one-bit numbers."
  },
  {
   "property": "C02",
   "status": "proved",
   "theorems": [
    "C02_circular_increments",
    "C02_circular_order_is_serial",
    "C02_circular_shift_invariant"
   ],
   "note": "For every width above one bit."
  },
  {
   "property": "C03",
   "status": "proved",
   "theorems": [
    "C03_circular_window_transitive",
    "C03_circular_not_transitive"
   ],
   "note": "Window transitivity, and for every width a triple that is not transitive."
  },
  {
   "property": "C04",
   "status": "proved",
   "theorems": [
    "C04_lollipop_straight_part",
    "C04_lollipop_increments",
    "C04_lollipop_increments_forward"
   ],
   "note": "The forward-increment theorem is for a circular part of three or more values."
  },
  {
   "property": "C05",
   "status": "partial",
   "theorems": [
    "C05_lollipop_tournament_partial",
    "C05_lollipop_le",
    "C05_lollipop_irreflexive_refuted"
   ],
   "note": "Irreflexivity and trichotomy hold with one or at least three values in the circular part; with exactly two values x<x is true for a number of the circular part (C05_lollipop_irreflexive_refuted)."
  },
  {
   "property": "C06",
   "status": "proved",
   "theorems": [
    "C06_sequence_number_roundtrip",
    "C06_sequence_number_size",
    "C06_read_out_of_range_refuted"
   ],
   "note": "Round trip and size for every width from 1 to 64. C06_read_out_of_range_refuted: bytes that were not written by the class can give a number above MAX."
  },
  {
   "property": "C07",
   "status": "proved",
   "theorems": [
    "C07_cookies_fresh",
    "C07_next_cookie_fresh"
   ],
   "note": "Refinement of the slot array to a finite map over every history of Connect and Disconnect."
  },
  {
   "property": "C08",
   "status": "proved",
   "theorems": [
    "C08_sinks_are_the_live_connections",
    "C08_stale_cookie_refuted"
   ],
   "note": "A live cookie removes exactly its own sink. C08_stale_cookie_refuted: cookies are reused, so a stale cookie can remove another sink."
  },
  {
   "property": "C09",
   "status": "proved",
   "theorems": [
    "C09_single_connection_event_equivalent",
    "C09_capacity_enforced"
   ],
   "note": ""
  },
  {
   "property": "C10",
   "status": "proved",
   "theorems": [
    "C10_fire_delivers_once_in_order",
    "C10_fire_reaches_undisturbed_sinks"
   ],
   "note": "Sinks are arbitrary behaviours that connect, disconnect and fire re-entrantly."
  },
  {
   "property": "C11",
   "status": "partial",
   "theorems": [
    "C11_fire_void_reentrancy_safe",
    "C11_fire_void_terminates",
    "C11_fire_args_disconnect_next_refuted",
    "C11_fire_args_partial"
   ],
   "note": "C11_fire_args_partial: holds for the overloads with arguments when no sink disconnects another one during the round; C11_fire_args_disconnect_next_refuted: a sink that disconnects the next one leads to a call through a null pointer."
  },
  {
   "property": "C12",
   "status": "proved",
   "theorems": [
    "C12_portainer_is_a_map",
    "C12_single_item_portainer_equivalent"
   ],
   "note": ""
  },
  {
   "property": "C13",
   "status": "proved",
   "theorems": [
    "C13_reduced",
    "C13_meaning"
   ],
   "note": "For every width and every program of modelled operations. C13_meaning states the value of each operation in one place."
  },
  {
   "property": "C14",
   "status": "partial",
   "theorems": [
    "C14_offset",
    "C14_inverse",
    "C14_least_offset_refuted"
   ],
   "note": "Exact for every width, value and offset except subtracting INT64_MIN, which the code negates first (C14_least_offset_refuted)."
  },
  {
   "property": "C15",
   "status": "proved",
   "theorems": [
    "C15_order"
   ],
   "note": ""
  },
  {
   "property": "C16",
   "status": "partial",
   "theorems": [
    "C16_bitwise",
    "C16_shift",
    "C16_shift_by_words_refuted"
   ],
   "note": "Bitwise operators hold in full. Shifts hold for all amounts except multiples of 32 on addresses wider than 64 bits, where the code shifts a 32-bit value by 32 (C16_shift_by_words_refuted: for all such widths and amounts)."
  },
  {
   "property": "C17",
   "status": "proved",
   "theorems": [
    "C17_bytes",
    "C17_write_read",
    "C17_read"
   ],
   "note": ""
  },
  {
   "property": "C18",
   "status": "partial",
   "theorems": [
    "C18_difference",
    "C18_narrow_refuted",
    "C18_saturation_refuted"
   ],
   "note": "Exact whenever the difference fits int64 and is non-negative or the width is above 32. Refuted: narrow negative differences, saturation."
  },
  {
   "property": "C19",
   "status": "partial",
   "theorems": [
    "C19_multiply_narrow",
    "C19_multiply_wide_refuted",
    "C19_bool_refuted"
   ],
   "note": "Exact up to 64 bits. Refuted: every wider multiplication leaves the array; conversion to bool is inverted."
  },
  {
   "property": "C20",
   "status": "proved",
   "theorems": [
    "C20_splitmix_full_period",
    "C20_splitmix_visits_all",
    "C20_splitmix_outputs_distinct",
    "C20_splitmix_outputs_all"
   ],
   "note": ""
  },
  {
   "property": "C21",
   "status": "proved",
   "theorems": [
    "C21_transition_injective",
    "C21_never_reaches_zero",
    "C21_purely_periodic"
   ],
   "note": "All thirteen engines of the library, including the sixteen-register one; also pure periodicity."
  },
  {
   "property": "C22",
   "status": "proved",
   "theorems": [
    "C22_seeded_nonzero",
    "C22_seeded_live_registers_nonzero"
   ],
   "note": "64-bit engines, as scoped. For 32-bit engines the splitmix outputs are truncated and the claim is not made."
  },
  {
   "property": "C23",
   "status": "proved",
   "theorems": [
    "C23_discard"
   ],
   "note": ""
  },
  {
   "property": "C24",
   "status": "proved",
   "theorems": [
    "C24_unit_interval"
   ],
   "note": "Values are exact dyadic rationals; that the float/double operations are exact is taken from the size of the operand (see the model comment)."
  },
  {
   "property": "C25",
   "status": "partial",
   "theorems": [
    "C25_whole_state_refuted"
   ],
   "note": "The statement is false of the code: C25_whole_state_refuted shows, for every pair of states, that registers 1 to 14 neither change nor influence any output."
  },
  {
   "property": "C26",
   "status": "proved",
   "theorems": [
    "C26_finer_is_exact",
    "C26_coarser_truncates",
    "C26_round_trip"
   ],
   "note": ""
  },
  {
   "property": "C27",
   "status": "proved",
   "theorems": [
    "C27_equality"
   ],
   "note": ""
  },
  {
   "property": "C28",
   "status": "partial",
   "theorems": [
    "C28_order_partial",
    "C28_order_overflow_refuted"
   ],
   "note": "C28_order_partial covers operands whose coarser count converts to the finer resolution; C28_order_overflow_refuted shows that otherwise the comparison always gives the wrong answer."
  },
  {
   "property": "C29",
   "status": "proved",
   "theorems": [
    "C29_add_sub_exact",
    "C29_add_sub_defined",
    "C29_quotient_remainder",
    "C29_scale_negate",
    "C29_compound_assignment",
    "C29_compound_defined"
   ],
   "note": "Includes that the operations are defined whenever operands and result fit."
  },
  {
   "property": "C30",
   "status": "proved",
   "theorems": [
    "C30_split_reconstructs",
    "C30_split_min_refuted"
   ],
   "note": "Every count except INT64_MIN, for which C30_split_min_refuted shows undefined behaviour."
  },
  {
   "property": "C31",
   "status": "proved",
   "theorems": [
    "C31_add_then_difference",
    "C31_difference_then_add",
    "C31_associative",
    "C31_translation_invariant",
    "C31_order_is_order_of_counts"
   ],
   "note": ""
  },
  {
   "property": "C32",
   "status": "partial",
   "theorems": [
    "C32_set_heap_order",
    "C32_list_order",
    "C32_list_order_refuted",
    "C32_fifo"
   ],
   "note": "Set and heap: every direct history (C32_set_heap_order). List: histories that never fire an event while the clock is behind it, as the simulator guarantees (C32_list_order); without that the statement is false (C32_list_order_refuted). Sinks do not throw (see C68)."
  },
  {
   "property": "C33",
   "status": "proved",
   "theorems": [
    "C33_schedulers_equivalent"
   ],
   "note": "Every sequence of calls and every program whose sinks do not throw; std heap functions by their contract."
  },
  {
   "property": "C34",
   "status": "proved",
   "theorems": [
    "C34_at_most_once",
    "C34_exactly_once",
    "C34_sink"
   ],
   "note": "For every state reachable through the simulator with any of the three schedulers."
  },
  {
   "property": "C35",
   "status": "proved",
   "theorems": [
    "C35_no_invocation",
    "C35_handle"
   ],
   "note": ""
  },
  {
   "property": "C36",
   "status": "proved",
   "theorems": [
    "C36_on_time",
    "C36_monotone",
    "C36_past_bound_refuted"
   ],
   "note": "As scoped. C36_past_bound_refuted: a bound in the past moves the clock backwards."
  },
  {
   "property": "C37",
   "status": "proved",
   "theorems": [
    "C37_run_until",
    "C37_run"
   ],
   "note": ""
  },
  {
   "property": "C38",
   "status": "proved",
   "theorems": [
    "C38_pause_stops",
    "C38_resume",
    "C38_pause_at_begin_refuted"
   ],
   "note": "C38_resume is for programs whose sinks do not observe pauses. C38_pause_at_begin_refuted: a Pause by a sink of the begin event is ignored."
  },
  {
   "property": "C39",
   "status": "proved",
   "theorems": [
    "C39_reject",
    "C39_uninitialized",
    "C39_accept"
   ],
   "note": "C39_uninitialized: without a clock ScheduleAt throws but ScheduleIn and ScheduleNow dereference null."
  },
  {
   "property": "C40",
   "status": "proved",
   "theorems": [
    "C40_run_events",
    "C40_begin_once",
    "C40_reject"
   ],
   "note": ""
  },
  {
   "property": "C41",
   "status": "proved",
   "theorems": [
    "C41_byte_strings",
    "C41_size",
    "C41_outcome",
    "C41_self_start_refuted"
   ],
   "note": "Every history; own content of the variables a statement is about, also when storage is shared. b.AddAtStart(b) is the one exception (C41_self_start_refuted)."
  },
  {
   "property": "C42",
   "status": "proved",
   "theorems": [
    "C42_independent",
    "C42_fill_added_start",
    "C42_fill_added_end",
    "C42_fragment_refuted",
    "C42_deep_copy_refuted",
    "C42_headers_independent",
    "C42_header_filled",
    "C42_header_trailer_refuted"
   ],
   "note": "As scoped in the statement; the excluded cases are refuted (C42_fragment_refuted, C42_deep_copy_refuted, C42_header_trailer_refuted). Resizing without added data is unconditional, and C42_headers_independent / C42_header_filled cover the use packets make of MakeFragment."
  },
  {
   "property": "C43",
   "status": "partial",
   "theorems": [
    "C43_byte_strings",
    "C43_size",
    "C43_outcome",
    "C43_copy_to",
    "C43_realized",
    "C43_iterators",
    "C43_write_is_iterator",
    "C43_remove_at_start_arith",
    "C43_remove_at_start_refuted",
    "C43_bare_copy_refuted",
    "C43_bare_remove_refuted",
    "C43_bare_add_refuted",
    "C43_bare_move_refuted",
    "C43_self_start_refuted"
   ],
   "note": "Proved for every history and every sensible statement (C43_byte_strings); what is not sensible is refuted: zero areas without a storage (C43_bare_*_refuted), adding a buffer to itself at the start, removing so much that size_t overflows. C43_iterators connects to C48."
  },
  {
   "property": "C44",
   "status": "proved",
   "theorems": [
    "C44_independent",
    "C44_fill_added_start",
    "C44_fill_added_end",
    "C44_deep_copy_refuted"
   ],
   "note": "As scoped in the statement; the excluded case is C44_deep_copy_refuted. Writes through iterators must not go to shared bytes, except bytes just added (C44_fill_added_*)."
  },
  {
   "property": "C45",
   "status": "proved",
   "theorems": [
    "C45_count_exact",
    "C45_no_dangling_access",
    "C45_zc_count_exact",
    "C45_zc_no_dangling_access"
   ],
   "note": "For Buffer and (C45_zc_*) ZcBuffer; every history including MakeFragment, deep copies and realization."
  },
  {
   "property": "C46",
   "status": "proved",
   "theorems": [
    "C46_write_read_roundtrip",
    "C46_write_layout",
    "C46_read_layout",
    "C46_write_read_bytes",
    "C46_write_read_int_array",
    "C46_fill"
   ],
   "note": "Integers of 1, 2, 4 and 8 bytes, every host byte order and every requested order; arrays too."
  },
  {
   "property": "C47",
   "status": "proved",
   "theorems": [
    "C47_int_access_in_bounds",
    "C47_bytes_access_in_bounds",
    "C47_moves_stay_inside",
    "C47_moves_unbounded_refuted",
    "C47_difference"
   ],
   "note": "As scoped in the statement: counts for which cursor+numBytes does not wrap. C47_moves_unbounded_refuted gives the wrapping count."
  },
  {
   "property": "C48",
   "status": "proved",
   "theorems": [
    "C48_read_bytes",
    "C48_read_int",
    "C48_read_int_outcome",
    "C48_write_bytes",
    "C48_write_int",
    "C48_fill",
    "C48_write_read_int",
    "C48_write_read_bytes",
    "C48_moves",
    "C48_difference",
    "C48_empty_zero_area_refuted",
    "C48_write_nothing_refuted"
   ],
   "note": "Reading is unconditional. Writing has the exact success condition; its surprising refusals are the two refuted theorems."
  },
  {
   "property": "C49",
   "status": "partial",
   "theorems": [
    "C49_contents",
    "C49_contents_exact",
    "C49_exists",
    "C49_get",
    "C49_count",
    "C49_defined",
    "C49_tags_have_bytes",
    "C49_touches",
    "C49_hidden_refuted",
    "C49_regrow_refuted",
    "C49_empty_refuted",
    "C49_value_refuted"
   ],
   "note": "Proved: contents after every statement of every history (C49_contents), what Exists, Get, GetSize report of them, and that a listed tag has a byte of a non-empty buffer. The claim as first stated is refuted in four ways: hidden tags of an added list come back (C49_hidden_refuted), cut tags regrow (C49_regrow_refuted), an empty buffer may report a tag (C49_empty_refuted), adding a list drops a tag that differs in its value only (C49_value_refuted). C49_contents needs that a list added to another holds no tag without bytes."
  },
  {
   "property": "C50",
   "status": "proved",
   "theorems": [
    "C50_independent",
    "C50_count_exact"
   ],
   "note": "Unconditional, also for AddAtStart(rhs) and AddAtEnd(rhs); reference counts exact."
  },
  {
   "property": "C51",
   "status": "proved",
   "theorems": [
    "C51_insert",
    "C51_outcome",
    "C51_no_dangling_access"
   ],
   "note": "Insert succeeds exactly in range and appends one tag; statements fail only for bad arguments or at the ends of the coordinate space; no access outside arrays."
  },
  {
   "property": "C52",
   "status": "partial",
   "theorems": [
    "C52_independent",
    "C52_buffers",
    "C52_any_history",
    "C52_header_trailer_refuted",
    "C52_copy_tags_refuted"
   ],
   "note": "Proved for every history that does not mix header and trailer buffers made with AddHeader(size)/AddTrailer(size) with later additions at the other end, and unconditionally for every other statement (C52_any_history); the unrestricted claim is false: C52_header_trailer_refuted, C52_copy_tags_refuted."
  },
  {
   "property": "C53",
   "status": "proved",
   "theorems": [
    "C53_contents",
    "C53_size",
    "C53_queries",
    "C53_header_filled",
    "C53_trailer_filled"
   ],
   "note": "Every statement, bytes and tags and returned buffers, for arbitrary histories of the stated kind; also that bytes written through the buffer returned by AddHeader/AddTrailer(size) are the header/trailer and nothing else changes."
  },
  {
   "property": "C54",
   "status": "proved",
   "theorems": [
    "C54_pieces",
    "C54_restored",
    "C54_split",
    "C54_value_refuted"
   ],
   "note": "For every tracking of pieces through fragments, removals, joins, copies, moves and added bytes, and for the plain split. Which of several tags with the same id GetByteTag returns may change (C54_value_refuted); it does not if their values agree."
  },
  {
   "property": "C55",
   "status": "partial",
   "theorems": [
    "C55_fragment",
    "C55_regrow_refuted",
    "C55_hidden_refuted"
   ],
   "note": "Fragments: exact, tags, values and listing, in every history; derived packets: C54_pieces. False where bytes are added in place of removed tagged bytes, or tags that lost their bytes are joined (C55_regrow_refuted, C55_hidden_refuted)."
  },
  {
   "property": "C56",
   "status": "partial",
   "theorems": [
    "C56_no_use_after_delete",
    "C56_counts",
    "C56_lifetime",
    "C56_held_objects_live",
    "C56_deleted_once",
    "C56_effects",
    "C56_answers",
    "C56_self_assign",
    "C56_self_assign_refuted",
    "C56_list_head_refuted",
    "C56_self_move",
    "C56_no_interface_leaks_refuted"
   ],
   "note": "All histories of Ptr expressions (declare, new, copy, move, assign, reset, detach, raw AddRef/Release, Reset(p, addRef), swap, pointers to parts, comparison), over variables and members of objects, including cyclic structures: no use after delete (C56_no_use_after_delete), counts equal references (C56_counts), an object lives exactly while referenced (C56_lifetime), nothing deleted comes back (C56_deleted_once), exact effect of every expression on every smart pointer (C56_effects), and no assertion fails for pointers that exist (C56_answers). Needs that the source of an assignment is not reached through its destination; without that it is refuted (C56_self_assign_refuted, C56_list_head_refuted), and C56_self_assign says exactly when self assignment is undefined. Objects whose interface is missing at construction leak (C56_no_interface_leaks_refuted), so C56_lifetime asks that every New succeeded."
  },
  {
   "property": "C57",
   "status": "partial",
   "theorems": [
    "C57_one_lifetime",
    "C57_shared_count",
    "C57_same_interfaces",
    "C57_query_keeps_identity",
    "C57_equal",
    "C57_equality_refuted"
   ],
   "note": "One lifetime (C57_one_lifetime), one count for all parts (C57_shared_count), same interfaces from every pointer to the object (C57_same_interfaces), identity and type of what a query returns (C57_query_keeps_identity), comparison by object (C57_equal). Refuted for pointers of the same type: C57_equality_refuted."
  },
  {
   "property": "C58",
   "status": "proved",
   "theorems": [
    "C58_table",
    "C58_register",
    "C58_unregister",
    "C58_names",
    "C58_factory_lifetime"
   ],
   "note": "C58_table: the results of every history are those of a table from names to factories, for every hash function; C58_register, C58_unregister state the contract of each call by what GetClassFactory answers for every identifier before and after; C58_names: identifiers are compared by characters; C58_factory_lifetime: a factory lives exactly while it is registered or held by the user."
  },
  {
   "property": "C59",
   "status": "proved",
   "theorems": [
    "C59_first_difference_decides",
    "C59_antisymmetric",
    "C59_transitive",
    "C59_unordered_member_refuted"
   ],
   "note": ""
  },
  {
   "property": "C60",
   "status": "partial",
   "theorems": [
    "C60_refines",
    "C60_asserts",
    "C60_memory",
    "C60_no_leak",
    "C60_independent",
    "C60_assign_refuted",
    "C60_assign",
    "C60_constructor_refuted",
    "C60_assign_own_refuted"
   ],
   "note": "C60_refines: every program of the specification runs to its end with the results given there, for plain and other element types; C60_asserts, C60_memory, C60_no_leak, C60_independent, C60_assign. Refuted: assign with fewer elements keeps the size (C60_assign_refuted), constructor with size > capacity (C60_constructor_refuted), assign from an own element (C60_assign_own_refuted)."
  },
  {
   "property": "C61",
   "status": "partial",
   "theorems": [
    "C61_cells",
    "C61_set_get",
    "C61_fill1",
    "C61_fill2_partial",
    "C61_fill2_refuted",
    "C61_fill2_refuses",
    "C61_fill",
    "C61_iterate",
    "C61_row",
    "C61_column",
    "C61_size_refuted",
    "C61_detail_end_refuted"
   ],
   "note": "C61_cells, C61_set_get, C61_fill1, C61_fill, C61_iterate, C61_row, C61_column hold for all sizes, layouts and bases; fill2 only for columns below the number of rows (C61_fill2_partial, C61_fill2_refuses, C61_fill2_refuted); sizes that overflow are refuted (C61_size_refuted), as is the free function bi_matrix_end (C61_detail_end_refuted)."
  },
  {
   "property": "C62",
   "status": "proved",
   "theorems": [
    "C62_exact",
    "C62_order_free",
    "C62_ieee_count",
    "C62_ieee_count_refuted",
    "C62_ieee_min_max",
    "C62_ieee_nan_first",
    "C62_ieee_integers",
    "C62_ieee_stddev_refuted",
    "C62_ieee_mean_refuted"
   ],
   "note": "As stated, in exact arithmetic (real numbers), including Stddev itself. In addition the same code over IEEE 754 doubles: Count, Min and Max are exact, sums of integers too; Mean and Stddev are refuted in general (C62_ieee_*_refuted)."
  },
  {
   "property": "C63",
   "status": "proved",
   "theorems": [
    "C63_refines",
    "C63_never_replaced",
    "C63_merge",
    "C63_add",
    "C63_shared",
    "C63_enumerator"
   ],
   "note": "Both containers are one model with a flavour parameter. C63_refines: every history of calls on any number of containers, probes and enumerators is answered as a small book of names, connections and remaining enumerations allows, without undefined behaviour. C63_add, C63_merge, C63_never_replaced state the property on the API; C63_shared shows that names standing for the same probe are interchangeable for Connect, Fire and Disconnect; C63_enumerator shows that enumerators are exact snapshots."
  },
  {
   "property": "C64",
   "status": "proved",
   "theorems": [
    "C64_values_are_kept",
    "C64_at_most_once_per_path",
    "C64_once_per_path",
    "C64_reaches_exactly_the_listeners",
    "C64_logger_exact",
    "C64_stream_sink_exact",
    "C64_few_files",
    "C64_files_refuted",
    "C64_isolation_refuted",
    "C64_exception_refuted"
   ],
   "note": "In any network, with any filters and at any exception, a record never loses a value and every observer sees all of them (C64_values_are_kept); a sink is given it at most once per path (C64_at_most_once_per_path), without filters exactly once per path (C64_once_per_path), and exactly if the users' connections and registrations lead to it (C64_reaches_exactly_the_listeners). One logger (C64_logger_exact) and one stream sink (C64_stream_sink_exact, C64_few_files) are described completely. Not true, and refuted: sinks do not see each other's pending values (C64_isolation_refuted), other sinks are served after an exception (C64_exception_refuted), and stream sinks with many files (C64_files_refuted: undefined behaviour)."
  },
  {
   "property": "C65",
   "status": "proved",
   "theorems": [
    "C65_exact_connections",
    "C65_connection_count",
    "C65_is_enabled",
    "C65_only_limit",
    "C65_null_sink_refuted",
    "C65_limit_refuted",
    "C65_register_limit_refuted",
    "C65_cycle_refuted"
   ],
   "note": "For acyclic networks of events and loggers (a rank orders sources below loggers) and histories in which no call threw, the sinks of every object are exactly the users' connections plus one connection per registration at a wanted logger (C65_exact_connections, counted in C65_connection_count); IsEnabled answers wanted (C65_is_enabled); proper calls can only fail with ConnectionLimitExceeded, never with a stale cookie or endless recursion (C65_only_limit). The scope is sharp: C65_null_sink_refuted, C65_limit_refuted and C65_register_limit_refuted show that a throwing call leaves the logger half connected and unusable, C65_cycle_refuted that loggers that are each other's source stay connected for ever and recurse without end when unregistered."
  },
  {
   "property": "C66",
   "status": "proved",
   "theorems": [
    "C66_reorder_reverses_bytes",
    "C66_conversions_invert",
    "C66_converted_memory_image"
   ],
   "note": "Every width and both host orders."
  },
  {
   "property": "C67",
   "status": "proved",
   "theorems": [
    "C67_star_output_is_permutation"
   ],
   "note": ""
  },
  {
   "property": "C68",
   "status": "partial",
   "theorems": [
    "C68_throwing_sink_refuted",
    "C68_heap_throwing",
    "C68_heap_next",
    "C68_list_set_fire_again",
    "C68_handle_stays_running"
   ],
   "note": "Proved for the heap scheduler and every event program, throwing or not (C68_heap_throwing, C68_heap_next): each event is taken at most once, in order, on time, and the next run goes on with the earliest event not taken. False for list and set, for every program: the event that threw is still next (C68_list_set_fire_again). The handle of the event that threw stays 'running' (C68_handle_stays_running)."
  },
  {
   "property": "C69",
   "status": "partial",
   "theorems": [
    "C69_num_events",
    "C69_num_events_in_sink_refuted"
   ],
   "note": "Proved between events; refuted inside a sink for list and set."
  },
  {
   "property": "C70",
   "status": "proved",
   "theorems": [
    "C70_text"
   ],
   "note": ""
  },
  {
   "property": "C71",
   "status": "proved",
   "theorems": [
    "C71_integers",
    "C71_extremes"
   ],
   "note": ""
  },
  {
   "property": "C72",
   "status": "proved",
   "theorems": [
    "C72_published",
    "C72_rotation",
    "C72_seed"
   ],
   "note": "For the ten engines with two, four or eight registers; xoroshiro1024 differs from the published one, see C25. The 32-bit four-register ** engine scrambles register 0, as version 1.0 of the published algorithm did."
  },
  {
   "property": "C73",
   "status": "proved",
   "theorems": [
    "C73_constructed_in_range"
   ],
   "note": ""
  },
  {
   "property": "C74",
   "status": "proved",
   "theorems": [
    "C74_makers"
   ],
   "note": ""
  },
  {
   "property": "C75",
   "status": "proved",
   "theorems": [
    "C75_use_once"
   ],
   "note": ""
  },
  {
   "property": "C76",
   "status": "proved",
   "theorems": [
    "C76_packet_tags"
   ],
   "note": "For every later program that meets the conditions of C52."
  },
  {
   "property": "C77",
   "status": "proved",
   "theorems": [
    "C77_no_ub",
    "C77_counts"
   ],
   "note": "For every history without restriction."
  },
  {
   "property": "C78",
   "status": "partial",
   "theorems": [
    "C78_create",
    "C78_create_aggregated_dangles",
    "C78_create_aggregated_refuted",
    "C78_create_aggregated_fails",
    "C78_create_navigator"
   ],
   "note": "C78_create: without a controller the result holds the only reference to a new live object, and after NoInterface the object is deleted again. With a controller the claim is false for interfaces other than IObject (C78_create_aggregated_dangles for all such calls, C78_create_aggregated_refuted with a witness); C78_create_navigator is the case of IObject."
  },
  {
   "property": "C79",
   "status": "proved",
   "theorems": [
    "C79_records_refine_maps",
    "C79_no_leak",
    "C79_copy_is_isolated",
    "C79_move_shares_refuted"
   ],
   "note": "Every sequence of calls through live handles gives the answers of mathematical maps and never undefined behaviour (C79_records_refine_maps); a map lives exactly as long as a handle refers to it (C79_no_leak); what a Copy shows is never changed by calls on other handles (C79_copy_is_isolated). Moving does not detach the source: C79_move_shares_refuted."
  },
  {
   "property": "C80",
   "status": "partial",
   "theorems": [
    "C80_lifetime",
    "C80_referenced_exists",
    "C80_events_in_order",
    "C80_no_leak",
    "C80_undefined_only",
    "C80_self_pointer_safe",
    "C80_self_pointer_defined",
    "C80_kept_defined",
    "C80_self_disconnect_refuted",
    "C80_self_cancel_refuted",
    "C80_destroy_refuted"
   ],
   "note": "Proved for all programs: a sink is destroyed exactly when nobody refers to it, only live connected sinks are called, and nothing leaks. That a running sink stays alive is false of the code (C80_self_disconnect_refuted, C80_self_cancel_refuted), as is destroying an event from its own sink (C80_destroy_refuted); C80_self_pointer_safe, C80_self_pointer_defined and C80_kept_defined give the disciplines under which it holds."
  },
  {
   "property": "C81",
   "status": "proved",
   "theorems": [
    "C81_write_read",
    "C81_write_outcome",
    "C81_read",
    "C81_read_outcome",
    "C81_other_host",
    "C81_native_other_host_refuted",
    "C81_zc_write_read",
    "C81_zc_write_outcome",
    "C81_zc_read",
    "C81_zc_border_refuted",
    "C81_read_valid"
   ],
   "note": "Sequences of values of any length and types, each in any byte order, through plain and zero-compressed iterators. Addresses on little-endian hosts only. The two refutations delimit the claim: native order does not travel, and an empty zero area has a border."
  },
  {
   "property": "C82",
   "status": "proved",
   "theorems": [
    "C82_refines",
    "C82_shared",
    "C82_unaffected",
    "C82_lifetime",
    "C82_iterator_keeps_refuted",
    "C82_block_refuted"
   ],
   "note": "Refinement to shared byte arrays for all programs. Two refutations record where the documentation is wrong: iterators do not keep storages, and huge capacities wrap."
  },
  {
   "property": "C83",
   "status": "proved",
   "theorems": [
    "C83_period",
    "C83_visits_all",
    "C83_equidistributed",
    "C83_output_period",
    "C83_bit_period",
    "C83_bit_balanced",
    "C83_unit_interval",
    "C83_unit_interval_period",
    "C83_seeded"
   ],
   "note": "For xoroshiro64*, 64**, 128+, 128**, xoshiro128+, 128**, 256+ and 256**, integers and unit interval. The prime factors of 2^256-1 are certified and the characteristic polynomials checked by computation inside Coq. xoshiro512 is not covered (its period claim is not documented in the code); for xoroshiro1024 see C25."
  },
  {
   "property": "C84",
   "status": "partial",
   "theorems": [
    "C84_streams",
    "C84_reproducible",
    "C84_one_shot",
    "C84_discard",
    "C84_reseed",
    "C84_create",
    "C84_conditions",
    "C84_laplace_refuted",
    "C84_seed32_refuted",
    "C84_seed64_refuted",
    "C84_seeds_distinct",
    "C84_bounds",
    "C84_max_refuted"
   ],
   "note": "Proved: C84_streams, C84_reproducible, C84_one_shot, C84_discard, C84_reseed, C84_create, C84_conditions, C84_seeds_distinct, C84_bounds, for every library of distributions (Boost.Random is a parameter). False of the code: the assertion of the Laplace distribution (C84_laplace_refuted), 64-bit seeds (C84_seed32_refuted, C84_seed64_refuted), the maximum over the unit interval (C84_max_refuted)."
  },
  {
   "property": "C85",
   "status": "partial",
   "theorems": [
    "C85_registration",
    "C85_run",
    "C85_stop",
    "C85_assert_continues_refuted",
    "C85_rerun_refuted",
    "C85_case_line_refuted",
    "C85_outside_refuted",
    "C85_compare",
    "C85_close_abs",
    "C85_close_rel",
    "C85_close_unsigned_refuted",
    "C85_close_nan_refuted"
   ],
   "note": "registration, order, stopping, report and comparisons are proved for all programs of suites, cases, checks and runs; closeness is proved for signed integers and numbers, and refuted for unsigned operands and for what is not a number; running again after a failed ASSERT, leaving the case at a failed ASSERT, the case line shown once and checks outside of cases are refuted"
  },
  {
   "property": "C86",
   "status": "partial",
   "theorems": [
    "C86_hex_reads_back",
    "C86_hex_injective",
    "C86_hex_stream",
    "C86_hex_later_numbers",
    "C86_hex_keeps_format_refuted",
    "C86_hex_left_refuted",
    "C86_hex_showbase_refuted"
   ],
   "note": "True on streams that are neither left-adjusted nor show the base: the text reads back as the bits of the value, and different values have different texts; what is left on the stream is stated exactly. False otherwise: left-adjusted streams write the same text for different values, showing the base doubles the prefix, and later numbers are written in base 16 (see the refuted theorems)."
  },
  {
   "property": "C87",
   "status": "partial",
   "theorems": [
    "C87_text_exact",
    "C87_text_injective",
    "C87_text_width",
    "C87_text_min_refuted",
    "C87_text_documented_refuted",
    "C87_time_point_text"
   ],
   "note": "Proved for every resolution and every count but the smallest: the text reads as exactly the time, so texts determine times across resolutions, and texts of less than a day line up. Refuted: the smallest count overflows, and the separators differ from the documented ones."
  },
  {
   "property": "C88",
   "status": "partial",
   "theorems": [
    "C88_discrete_accepts",
    "C88_constant_accepts",
    "C88_linear_accepts",
    "C88_discrete",
    "C88_constant",
    "C88_linear",
    "C88_discrete_empty_refuted",
    "C88_discrete_zero_refuted",
    "C88_constant_no_bound_refuted",
    "C88_single_bound_refuted"
   ],
   "note": "Proved for every table with a positive total weight (and two bounds, where there are bounds). Refuted for tables that are accepted although they do not describe a distribution: no weights, weights of 0 only, no or a single bound."
  },
  {
   "property": "C89",
   "status": "partial",
   "theorems": [
    "C89_disabled",
    "C89_enabled",
    "C89_operand_throws",
    "C89_cases",
    "C89_names_refuted",
    "C89_other_type_refuted",
    "C89_capture_refuted",
    "C89_same_sink_refuted",
    "C89_message",
    "C89_message_nul_refuted",
    "C89_labels"
   ],
   "note": "Proved for every program, for loggers of the two types that are asked whether they are enabled (other types: as always enabled), for operands that do not name the macro's variables, and for configurations that compile. Refuted: recording function or file names does not compile; other types of a disabled logger; operands named go or oss; operands that change the logger; messages with a NUL."
  },
  {
   "property": "C90",
   "status": "partial",
   "theorems": [
    "C90_values",
    "C90_outcome",
    "C90_buffers_kept",
    "C90_buffers",
    "C90_counts",
    "C90_no_bare",
    "C90_plain",
    "C90_reassembly",
    "C90_bare_reassembly_refuted",
    "C90_bare_add_refuted"
   ],
   "note": "Proved for every history of statements that add no buffer or packet made of zeros alone; that holds for all programs whose zero areas come with room for something else (C90_no_bare, C90_plain). Refuted for packets that are zeros alone: adding them to another packet, and so reassembling their fragments. Buffers made from a buffer of the other class are excluded, since their dirty area is empty (C44). Tags are left out."
  },
  {
   "property": "C91",
   "status": "proved",
   "theorems": [
    "C91_write",
    "C91_read",
    "C91_read_outcome",
    "C91_sent",
    "C91_header",
    "C91_trailer",
    "C91_late_write_refuted"
   ],
   "note": "C91_write, C91_read and C91_read_outcome for buffers in every history; C91_sent, C91_header and C91_trailer for packets, under the same conditions on histories as C53 and C54 (headers only, or trailers only, since the buffers returned spoil the bookkeeping of the other end). Sizes below 2^63. C91_late_write_refuted shows that the message must be written before the packet is copied."
  },
  {
   "property": "C92",
   "status": "partial",
   "theorems": [
    "C92_heap",
    "C92_heap_defined",
    "C92_quiet",
    "C92_time",
    "C92_flat",
    "C92_until_refuted",
    "C92_begin_refuted",
    "C92_endless_refuted",
    "C92_lost_refuted",
    "C92_undefined_refuted"
   ],
   "note": "The heap scheduler: C92_heap, C92_heap_defined and C92_time for every program with runs within runs. Any scheduler: C92_quiet, and C92_flat for programs without runs within runs. The documented result of RunUntil is false of runs that contain runs (C92_until_refuted), the clock goes back if sinks of the begin event make runs (C92_begin_refuted), and the list and set schedulers do not support runs within runs (C92_endless_refuted, C92_lost_refuted, C92_undefined_refuted)."
  },
  {
   "property": "C93",
   "status": "proved",
   "theorems": [
    "C93_programs",
    "C93_header",
    "C93_trailer",
    "C93_outside",
    "C93_values",
    "C93_layers",
    "C93_unwrapped",
    "C93_late_refuted"
   ],
   "note": "Holds for programs that fill the returned buffer before doing anything else with packets or buffers (zp_reached); C93_late_refuted shows that this cannot be dropped: the returned buffer keeps sharing storage with the packet and with copies made later. Conditions of C90 (no buffers of another class, nothing made of zeros without storage is added) apply to the other statements of the history."
  },
  {
   "property": "C94",
   "status": "proved",
   "theorems": [
    "C94_exact",
    "C94_legal",
    "C94_overflow",
    "C94_horizon",
    "C94_defined",
    "C94_ticker",
    "C94_forever_refuted"
   ],
   "note": "ScheduleIn and RunFor add int64 counts without a check; the theorems say when that is harmless (C94_horizon), that it is the only difference (C94_exact, C94_overflow), and that a timer under a Run without limit always ends in an overflow (C94_ticker). C94_forever_refuted: the longest Duration cannot be used as 'for ever'. Callbacks of the horizon theorems make no runs of their own and throw no exceptions; 2^64 event ids are not exhausted."
  },
  {
   "property": "C95",
   "status": "proved",
   "theorems": [
    "C95_push",
    "C95_pop",
    "C95_order",
    "C95_equivalent",
    "C95_nested"
   ],
   "note": "The algorithms are those of GCC's standard library as generally known; the library's source is not in /repo. With C95 the contract heap_lib, over which the other theorems about the heap scheduler quantify, is met by a concrete implementation."
  },
  {
   "property": "C96",
   "status": "proved",
   "theorems": [
    "C96_header",
    "C96_trailer",
    "C96_received",
    "C96_stack_sent",
    "C96_stack_received"
   ],
   "note": "In states that programs reach which write into returned headers and trailers before doing anything else (see C93, C93_late_refuted), with buffers that end below 2^63 bytes. Native order is understood by hosts of the same kind only. Reading addresses is modelled for little endian hosts."
  },
  {
   "property": "C97",
   "status": "proved",
   "theorems": [
    "C97_sorted",
    "C97_sorted_iff",
    "C97_sorted_days",
    "C97_days_refuted",
    "C97_first_day_refuted",
    "C97_negative_refuted",
    "C97_time_points"
   ],
   "note": "Within one day, or days from the first full one on whose numbers have as many digits, for durations that are not negative, at any resolutions. Refuted beyond that: the days are not padded (C97_days_refuted), left out on the first day (C97_first_day_refuted), and negative durations sort the other way (C97_negative_refuted)."
  },
  {
   "property": "C98",
   "status": "proved",
   "theorems": [
    "C98_hex_sorted",
    "C98_hex_lines_sorted",
    "C98_signed_refuted"
   ],
   "note": "For streams that are not left adjusted, show no base and have no width set, as in C86. Refuted for signed values (C98_signed_refuted)."
  }
 ]
}