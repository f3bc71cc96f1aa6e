{
 "claims": [
  {
   "property": "C01",
   "status": "proved",
   "theorems": [
    "C01_darray_behaves_as_list"
   ],
   "note": "Refinement to lists over all histories; storage below 4 GiB."
  },
  {
   "property": "C02",
   "status": "partial",
   "theorems": [
    "C02_out_of_range_set_grows_refuted",
    "C02_gap_uninitialised_refuted"
   ],
   "note": "REFUTED: the documented property is false of the code; every out-of-range set grows the array (proved for all arrays) and may leave uninitialised slots."
  },
  {
   "property": "C03",
   "status": "proved",
   "theorems": [
    "C03_sort_correct"
   ],
   "note": ""
  },
  {
   "property": "C04",
   "status": "proved",
   "theorems": [
    "C04_find_first"
   ],
   "note": ""
  },
  {
   "property": "C05",
   "status": "proved",
   "theorems": [
    "C05_dict_is_finite_map",
    "C05_int_keys",
    "C05_int16_keys",
    "C05_string_keys"
   ],
   "note": ""
  },
  {
   "property": "C06",
   "status": "proved",
   "theorems": [
    "C06_dict_entries_destroyed_once"
   ],
   "note": ""
  },
  {
   "property": "C07",
   "status": "proved",
   "theorems": [
    "C07_set_is_mathematical_set",
    "C07_destructor_called_on_live_element_refuted"
   ],
   "note": "The set behaves as a mathematical set for every history; the additional refutation shows that a custom destructor also receives a live element on two-child removal."
  },
  {
   "property": "C08",
   "status": "proved",
   "theorems": [
    "C08_string_ids_stable_and_unique",
    "C08_live_ids_distinct",
    "C08_ids_collide_at_limit_refuted"
   ],
   "note": "Refinement for every history below 65534 live strings; at that limit the code really collides (refutation theorem)."
  },
  {
   "property": "C09",
   "status": "proved",
   "theorems": [
    "C09_string_gc_exact"
   ],
   "note": ""
  },
  {
   "property": "C10",
   "status": "partial",
   "theorems": [
    "C10_register_terminates_refuted",
    "C10_register_terminates_partial"
   ],
   "note": "REFUTED: with 65536 live strings registration never returns; it returns whenever fewer than 65534 strings are live."
  },
  {
   "property": "C11",
   "status": "proved",
   "theorems": [
    "C11_u8_roundtrip",
    "C11_u16_roundtrip",
    "C11_u32_roundtrip",
    "C11_network_order",
    "C11_big_endian_host_refuted"
   ],
   "note": "On little-endian hosts; the refutation theorem shows that it fails on big-endian ones."
  },
  {
   "property": "C12",
   "status": "proved",
   "theorems": [
    "C12_float_roundtrip",
    "C12_nonfinite_undefined"
   ],
   "note": "Exact binary32 arithmetic from the standard library's SpecFloat."
  },
  {
   "property": "C13",
   "status": "partial",
   "theorems": [
    "C13_string_roundtrip_partial",
    "C13_long_string_refuted"
   ],
   "note": "REFUTED for strings of 65536 bytes (length field wraps); proved for all shorter ones."
  },
  {
   "property": "C14",
   "status": "partial",
   "theorems": [
    "C14_decoders_in_bounds_partial",
    "C14_float_min_mantissa_refuted"
   ],
   "note": "REFUTED for the float decoder on mantissa word 0x80000000 (abs of INT32_MIN); proved otherwise, for messages shorter than 2^32 - 65536 bytes."
  },
  {
   "property": "C15",
   "status": "partial",
   "theorems": [
    "C15_object_roundtrip_partial",
    "C15_table_of_256_refuted",
    "C15_keys_of_two_types_refuted"
   ],
   "note": "REFUTED for tables of 256 entries and for tables holding both 1 and \"1\"; the round trip is proved for all other serialisable objects, any nesting, any receiver."
  },
  {
   "property": "C16",
   "status": "partial",
   "theorems": [
    "C16_decode_bounds_partial",
    "C16_decode_total_refuted"
   ],
   "note": "REFUTED: some messages abort the process or are undefined behaviour; termination and in-range positions are proved for all messages."
  },
  {
   "property": "C17",
   "status": "proved",
   "theorems": [
    "C17_comparison_agrees_with_order",
    "C17_total_order_in_class",
    "C17_nan_equals_every_number"
   ],
   "note": "For every strcmp with the sign C asks for."
  },
  {
   "property": "C18",
   "status": "partial",
   "theorems": [
    "C18_equal_keys_hash_equal_partial",
    "C18_reads_see_writes_partial",
    "C18_equal_keys_refuted"
   ],
   "note": "REFUTED across types (1 and \"1\", large ints and floats, non-transitive equality); proved inside the classes of ObjSpec.v for all histories of writes and removals."
  },
  {
   "property": "C19",
   "status": "proved",
   "theorems": [
    "C19_gc_keeps_exactly_reachable"
   ],
   "note": "For every allocator that returns unused addresses and every history of allocations, string registrations, table writes, clones and collections. Marker wrap-around covered. Roots are the object-holding parts of the VM, flattened."
  },
  {
   "property": "C20",
   "status": "partial",
   "theorems": [
    "C20_clone_equal_and_independent_partial",
    "C20_closure_state_shared_refuted",
    "C20_mixed_keys_refuted"
   ],
   "note": "REFUTED in general: cloned closures share their captured objects with the original, and a table holding keys of several types may lose entries when cloned. Proved for acyclic objects whose tables have pairwise different keys in their hash buckets; independence through tables."
  },
  {
   "property": "C21",
   "status": "proved",
   "theorems": [
    "C21_inmsg_exactly_once"
   ],
   "note": "For every history of deliveries and reads, each message delivered is handed to the script exactly once or still pending."
  },
  {
   "property": "C22",
   "status": "partial",
   "theorems": [
    "C22_inmsg_fifo_refuted",
    "C22_inmsg_lifo_per_robot"
   ],
   "note": "REFUTED: the code hands the messages of a robot over in LIFO order. Proved: a history in which arrival order is violated, and that per robot the order is last-in first-out for every history."
  },
  {
   "property": "C23",
   "status": "proved",
   "theorems": [
    "C23_outmsg_priority_fifo"
   ],
   "note": "For all histories of broadcasts, swarm announcements, stigmergy messages and sends; keys of stigmergy messages inside a comparison class (C17, C18); at most 65535 distinct swarm ids."
  },
  {
   "property": "C24",
   "status": "proved",
   "theorems": [
    "C24_announcements_not_redundant"
   ],
   "note": ""
  },
  {
   "property": "C25",
   "status": "partial",
   "theorems": [
    "C25_announcements_reconstruct_partial",
    "C25_empty_list_refuted"
   ],
   "note": "REFUTED when a robot that left all its swarms sends its periodic list: receivers ignore an empty list. Proved for all histories in which no empty list is sent."
  },
  {
   "property": "C26",
   "status": "proved",
   "theorems": [
    "C26_one_pending_newest"
   ],
   "note": "Keys inside a comparison class (C17, C18)."
  },
  {
   "property": "C27",
   "status": "proved",
   "theorems": [
    "C27_put_then_get",
    "C27_size"
   ],
   "note": ""
  },
  {
   "property": "C28",
   "status": "proved",
   "theorems": [
    "C28_received_updates_monotone"
   ],
   "note": ""
  },
  {
   "property": "C29",
   "status": "partial",
   "theorems": [
    "C29_replicas_converge_partial",
    "C29_reused_timestamp_refuted",
    "C29_nil_query_refuted"
   ],
   "note": "REFUTED in general: deleting and rewriting a key reuses timestamps, after which the order of messages matters. Proved when entries with equal timestamp and author are equal."
  },
  {
   "property": "C30",
   "status": "proved",
   "theorems": [
    "C30_conflict_symmetric"
   ],
   "note": ""
  },
  {
   "property": "C31",
   "status": "partial",
   "theorems": [
    "C31_received_deletion_sticks_partial",
    "C31_deletion_sticks_refuted"
   ],
   "note": "REFUTED: at the robot that deletes the key, a delayed message brings it back. Proved for robots that received the deletion."
  },
  {
   "property": "C32",
   "status": "partial",
   "theorems": [
    "C32_own_membership_partial",
    "C32_select_refuted"
   ],
   "note": "REFUTED: select(256) leaves the swarm (condition truncated to 8 bits). Proved for all histories with other conditions."
  },
  {
   "property": "C33",
   "status": "proved",
   "theorems": [
    "C33_swarm_algebra"
   ],
   "note": ""
  },
  {
   "property": "C34",
   "status": "partial",
   "theorems": [
    "C34_members_follow_messages_partial",
    "C34_silent_robot_forgotten",
    "C34_empty_list_ignored_refuted"
   ],
   "note": "REFUTED for empty lists, which are ignored. Proved for all sequences of messages and updates, with that exception built into the specification."
  },
  {
   "property": "C35",
   "status": "proved",
   "theorems": [
    "C35_kin_nonkin_partition"
   ],
   "note": ""
  },
  {
   "property": "C36",
   "status": "partial",
   "theorems": [
    "C36_fetch_inside_bytecode_partial",
    "C36_truncated_instruction",
    "C36_closure_call_refuted"
   ],
   "note": "REFUTED for a closure called from C with a wrong address (the first fetch is not checked). Proved for every execution whose first fetch is inside."
  },
  {
   "property": "C37",
   "status": "proved",
   "theorems": [
    "C37_stopped_stays_stopped",
    "C37_script_runs_to_first_stop",
    "C37_no_calls_after_error"
   ],
   "note": ""
  },
  {
   "property": "C38",
   "status": "partial",
   "theorems": [
    "C38_integer_results_partial",
    "C38_undefined_cases",
    "C38_negative_divisor_refuted",
    "C38_unary"
   ],
   "note": "REFUTED: % with a negative divisor and a negative dividend is neither the C nor the mathematical remainder. Proved for all other operators and operands, with the undefined cases characterised."
  },
  {
   "property": "C39",
   "status": "partial",
   "theorems": [
    "C39_failed_check_is_error_partial",
    "C39_unknown_instruction",
    "C39_undefined_checks_refuted"
   ],
   "note": "REFUTED for reading a table with a wrong kind of key, calls with a negative number of arguments or function id, and locals/returns outside of functions: undefined behaviour. Proved for all other checks of all instructions."
  },
  {
   "property": "C40",
   "status": "proved",
   "theorems": [
    "C40_call_return_balanced",
    "C40_c_call_balanced"
   ],
   "note": ""
  },
  {
   "property": "C41",
   "status": "partial",
   "theorems": [
    "C41_read_sees_write_partial"
   ],
   "note": "For the keys of C18 (others refuted there); any number of steps in between, any alias."
  },
  {
   "property": "C42",
   "status": "partial",
   "theorems": [
    "C42_global_holds_last_store",
    "C42_global_never_stored_is_nil",
    "C42_local_holds_last_store_partial",
    "C42_skipped_local_refuted"
   ],
   "note": "REFUTED for a local never stored: reading a skipped slot is undefined. Globals proved fully, locals for stored ones."
  },
  {
   "property": "C43",
   "status": "proved",
   "theorems": [
    "C43_jumps_follow_truth",
    "C43_jump_outside",
    "C43_logic_follows_truth"
   ],
   "note": ""
  },
  {
   "property": "C44",
   "status": "proved",
   "theorems": [
    "C44_assembled_code",
    "C44_vm_fetches_the_instruction",
    "C44_disassembly_lists_the_program",
    "C44_single_instruction_listing"
   ],
   "note": "At the level of text and bytes, for programs of any length. strtof and %f are parameters."
  },
  {
   "property": "C45",
   "status": "partial",
   "theorems": [
    "C45_labels_resolve",
    "C45_missing_label_reported",
    "C45_duplicate_label_refuted"
   ],
   "note": "REFUTED for duplicate labels: accepted silently, the last definition wins. The rest is proved."
  },
  {
   "property": "C46",
   "status": "partial",
   "theorems": [
    "C46_loading",
    "C46_pushs",
    "C46_repeated_string_refuted",
    "C46_truncated_bytecode_refuted"
   ],
   "note": "REFUTED for a string table with a repeated string (ids shift) and for truncated bytecode (read past the end). Proved for every assembler output: distinct strings get their table position as id, and pushs N then pushes the N-th string."
  },
  {
   "property": "C47",
   "status": "partial",
   "theorems": [
    "C47_sub_partial",
    "C47_negative_start_refuted"
   ],
   "note": "REFUTED for a negative start: memory before the string is read. Proved for every other range."
  },
  {
   "property": "C48",
   "status": "proved",
   "theorems": [
    "C48_debug_map"
   ],
   "note": ""
  },
  {
   "property": "C49",
   "status": "partial",
   "theorems": [
    "C49_breakpoints_are_a_set",
    "C49_continue_partial",
    "C49_no_progress_refuted"
   ],
   "note": "REFUTED: continue on a breakpoint executes nothing, so a script stopped at a breakpoint can never go on while the breakpoint is there; proved: breakpoints form a set, continue runs to the first breakpoint or the end"
  },
  {
   "property": "C50",
   "status": "partial",
   "theorems": [
    "C50_entries",
    "C50_foreach",
    "C50_map",
    "C50_filter",
    "C50_reduce",
    "C50_foreach_remove_refuted",
    "C50_foreach_update_refuted",
    "C50_c_callback_refuted"
   ],
   "note": "Proved for callbacks written in Buzz that leave the iterated table (and, for map/filter, the new table) alone: each entry visited exactly once, results as specified, frames balanced. REFUTED for the rest of the English claim: a callback that removes the visited entry makes the loop read a freed bucket, one that rewrites it makes the loop visit one entry twice and skip another, and a C function as callback makes the VM execute instructions of the calling script in between. Not covered: that the call terminates."
  },
  {
   "property": "C51",
   "status": "partial",
   "theorems": [
    "C51_generator",
    "C51_seed",
    "C51_setseed_call",
    "C51_uniform_int",
    "C51_minus_one_refuted",
    "C51_wide_range_refuted"
   ],
   "note": "REFUTED in two corners: uniform(a,b) with b-a outside int32 is undefined; uniform(-1) (and uniform(a,a-1)) gives 1 (a+1) when the drawn word is 1, shown with the seed 17095947 at the ninth number. Proved for all other integer bounds, all generator states; the same seed gives the same state whatever happened before. Float bounds: the model computes them but no range is proved."
  },
  {
   "property": "C52",
   "status": "proved",
   "theorems": [
    "C52_expression_value"
   ],
   "note": "the whole way: tokens -> assembly text -> bytes -> loaded VM -> value. Any expression (calls, tables, lambdas too) after any statements; the meaning is the evaluator of Source.v. Boundaries: calls of C functions, wrong numbers of arguments and undefined behaviour have no meaning in Source.v; garbage collection: C96 and C97; texts shorter than 2 GiB, no symbol file."
  },
  {
   "property": "C53",
   "status": "proved",
   "theorems": [
    "C53_compiled_script",
    "C53_never_stops"
   ],
   "note": "all statements of the language: if/else, while, for, var, blocks, functions, return, calls, assignments. Ends with the globals and tables of the meaning and an empty stack, stops with the error of the meaning, or runs forever when the meaning does. Boundaries as for C52."
  },
  {
   "property": "C54",
   "status": "partial",
   "theorems": [
    "C54_tokens_partial",
    "C54_terminates",
    "C54_include_prefix_refuted",
    "C54_multiline_refuted"
   ],
   "note": "REFUTED in two cases: an identifier that starts with 'include' ends the script, and newlines inside strings are not counted. Proved: termination for every finite set of files (cyclic inclusions too), and kinds, values, order, line and column of all tokens of every script laid out with tokens, blanks, comments and inclusions, strings without backslashes and newlines."
  },
  {
   "property": "C55",
   "status": "partial",
   "theorems": [
    "C55_last_listener",
    "C55_listen_call",
    "C55_ignore_call",
    "C55_broadcast_call",
    "C55_listeners_only_by_c_functions",
    "C55_delivery_partial",
    "C55_no_listener",
    "C55_each_message_once"
   ],
   "note": "For every listener history, object and message sequence; listeners that are C functions are excluded (closure_call executes one more instruction after them, C64_c_closure_refuted). Objects of the class wok (C15)."
  },
  {
   "property": "C56",
   "status": "proved",
   "theorems": [
    "C56_announcements",
    "C56_every_tenth_step",
    "C56_ten_steps_apart"
   ],
   "note": "For all step sequences with arbitrary memberships and queue contents."
  },
  {
   "property": "C57",
   "status": "partial",
   "theorems": [
    "C57_announced_membership_partial",
    "C57_silent_leave_refuted"
   ],
   "note": "REFUTED: union, intersection, difference and others can end a membership without telling anyone. Proved for histories where this does not happen and no empty list is sent."
  },
  {
   "property": "C58",
   "status": "partial",
   "theorems": [
    "C58_swarm_id_current",
    "C58_parent_swarm_id_refuted",
    "C58_position_zero_refuted"
   ],
   "note": "REFUTED: the argument of swarm.id is ignored, or read out of bounds. Proved: without argument it is the innermost swarm."
  },
  {
   "property": "C59",
   "status": "proved",
   "theorems": [
    "C59_conflict_loser_is_told"
   ],
   "note": ""
  },
  {
   "property": "C60",
   "status": "partial",
   "theorems": [
    "C60_single_writer_propagates_partial",
    "C60_conflict_not_propagated_refuted",
    "C60_write_after_delete_refuted"
   ],
   "note": "REFUTED with two writers of a key, and with deletions. Proved for a single writer without deletions, for any topology and schedule."
  },
  {
   "property": "C61",
   "status": "partial",
   "theorems": [
    "C61_error_location_partial",
    "C61_error_location_refuted"
   ],
   "note": "REFUTED for pop, tput and tget: the previous instruction is reported. Proved for the others (returns excepted)."
  },
  {
   "property": "C62",
   "status": "partial",
   "theorems": [
    "C62_equal_to_nil_refuted",
    "C62_nil_equals_nil_partial"
   ],
   "note": "REFUTED: every comparison with nil is true."
  },
  {
   "property": "C63",
   "status": "partial",
   "theorems": [
    "C63_function_call_no_arguments_partial",
    "C63_function_call_with_arguments_refuted"
   ],
   "note": "REFUTED with one or more arguments: always undefined behaviour. Proved without arguments."
  },
  {
   "property": "C64",
   "status": "partial",
   "theorems": [
    "C64_closure_call_balanced_partial",
    "C64_c_closure_refuted"
   ],
   "note": "REFUTED for closures of C functions: one more instruction of the script is executed. Proved for Buzz closures."
  },
  {
   "property": "C65",
   "status": "partial",
   "theorems": [
    "C65_mixed_mod_refuted"
   ],
   "note": "REFUTED: the code adds the wrong union member."
  },
  {
   "property": "C66",
   "status": "partial",
   "theorems": [
    "C66_listing_reassembles_refuted"
   ],
   "note": "REFUTED: the offsets in front of the instructions are not accepted."
  },
  {
   "property": "C67",
   "status": "partial",
   "theorems": [
    "C67_any_code_disassembles_partial",
    "C67_unterminated_string_refuted"
   ],
   "note": "REFUTED for a string table without terminator; proved when the strings are terminated, for arbitrary code bytes."
  },
  {
   "property": "C68",
   "status": "partial",
   "theorems": [
    "C68_any_text_partial",
    "C68_lone_quote_refuted"
   ],
   "note": "REFUTED for a line with a quote only and no newline; proved for every other text."
  },
  {
   "property": "C69",
   "status": "proved",
   "theorems": [
    "C69_concat",
    "C69_length"
   ],
   "note": "Total length below 2^32 (concat) and 2^31 (length): beyond that the code wraps."
  },
  {
   "property": "C70",
   "status": "proved",
   "theorems": [
    "C70_tostring",
    "C70_toint",
    "C70_round_trip",
    "C70_not_a_number"
   ],
   "note": ""
  },
  {
   "property": "C71",
   "status": "partial",
   "theorems": [
    "C71_not_a_number_refuted",
    "C71_float",
    "C70_tostring"
   ],
   "note": "REFUTED: a string is always returned; the function does not stop after pushing nil. Proved for numbers."
  },
  {
   "property": "C72",
   "status": "partial",
   "theorems": [
    "C72_out_of_range_refuted",
    "C70_toint"
   ],
   "note": "REFUTED: another integer is returned silently. For numbers that fit see C70."
  },
  {
   "property": "C73",
   "status": "proved",
   "theorems": [
    "C73_wrong_number_of_arguments",
    "C73_wrong_type_of_argument",
    "C73_frames"
   ],
   "note": "C73_frames discharges for this library the hypothesis C40 makes on C functions."
  },
  {
   "property": "C74",
   "status": "partial",
   "theorems": [
    "C74_save_load_partial",
    "C74_longer_name",
    "C74_long_name_refuted",
    "C74_load_erases_refuted",
    "C74_save_result_refuted"
   ],
   "note": "REFUTED: a file name of 512 characters makes loading write outside its buffer; loading keeps the previous entries; saving returns 0 on success. Round trip proved for names up to 511 characters; one entry with a name of 513 to 65534 characters also loads"
  },
  {
   "property": "C75",
   "status": "partial",
   "theorems": [
    "C75_error_reported_refuted",
    "C75_error_reported_partial"
   ],
   "note": "REFUTED: a breakpoint on the instruction after the failing one turns the error state into stopped, and the VM can then be resumed"
  },
  {
   "property": "C76",
   "status": "proved",
   "theorems": [
    "C76_closure_call_without_breakpoints",
    "C76_continue_without_breakpoints"
   ],
   "note": ""
  },
  {
   "property": "C77",
   "status": "proved",
   "theorems": [
    "C77_message_roundtrip"
   ],
   "note": "For objects of the class wok (C15), receiver interested (listener/stigmergy present)."
  },
  {
   "property": "C78",
   "status": "partial",
   "theorems": [
    "C78_no_listener",
    "C78_malformed_partial",
    "C78_cut_off_stigmergy",
    "C78_malformed_refuted"
   ],
   "note": "REFUTED: empty messages, short lists of swarms and cut-off broadcasts read uninitialised memory. Proved: broadcasts without listener, join/leave/unknown types with any bytes, puts for unknown stigmergies, stigmergy messages cut off before the key."
  },
  {
   "property": "C79",
   "status": "partial",
   "theorems": [
    "C79_error_replaced_refuted",
    "C50_foreach",
    "C50_map",
    "C50_filter",
    "C50_reduce"
   ],
   "note": "REFUTED: map/reduce/filter execute buzzvm_ret1 although the callback failed; when the failing frame has an empty stack the error becomes a stack error (e.g. function(k,x,y) { return y } with map). That a failure is never lost (the VM does not end READY) is the contrapositive of the C50 theorems."
  },
  {
   "property": "C80",
   "status": "partial",
   "theorems": [
    "C80_type",
    "C80_predicates",
    "C80_size",
    "C80_int",
    "C80_float",
    "C80_float_nearest",
    "C80_float_monotone",
    "C80_wrong_arguments",
    "C80_frames",
    "C80_int_out_of_range_refuted"
   ],
   "note": "REFUTED: int() of a float whose integer part does not fit in 32 bits is undefined. Proved for all other arguments; float(i) is i itself for |i| < 2^24, the nearest float beyond (the one with an even significand when two are equally near), and never exchanges the order of two integers."
  },
  {
   "property": "C81",
   "status": "partial",
   "theorems": [
    "C81_gaussian_of_stddev_refuted",
    "C81_gaussian_mean_refuted",
    "C81_exponential_refuted",
    "C81_sequence_refuted",
    "C82_frames"
   ],
   "note": "REFUTED: gaussian(x) always ends in an error; gaussian(x,y) ignores y (argument 1 is loaded twice); exponential(x) reads an empty stack (its argument is never loaded), undefined behaviour; the seeding uses a signed shift, so that the sequence of seed 5489 is not that of MT19937."
  },
  {
   "property": "C82",
   "status": "partial",
   "theorems": [
    "C82_abs",
    "C82_abs_refuted",
    "C82_rounding",
    "C82_rounding_refuted",
    "C82_min_max",
    "C82_min_mixed_refuted",
    "C82_real_functions",
    "C82_checks",
    "C82_names_refuted",
    "C82_frames"
   ],
   "note": "REFUTED in corners: abs of the smallest int and floor/ceil/round of floats outside int32 are undefined; min/max compare an int with a float after rounding it, so that min(16777217, 16777216.0) is 16777217; math.atan2 and math.PI of the documentation are registered as atan and pi. Proved for the rest (NaN excluded for min/max)."
  },
  {
   "property": "C83",
   "status": "proved",
   "theorems": [
    "C83_exec_member",
    "C83_exec_other",
    "C83_exec_checks"
   ],
   "note": "For functions written in Buzz. The registered C functions are required to end their frame (C40) and to leave the swarm stack as they found it; the instruction CALLS is assumed not to occur in f (the compiler never emits it). For closures of C functions see C64."
  },
  {
   "property": "C84",
   "status": "partial",
   "theorems": [
    "C84_plain_string",
    "C84_escape_refuted",
    "C84_overread_refuted",
    "C84_escaped_quote_refuted"
   ],
   "note": "REFUTED: for each escape sequence one character after the literal (the quote first) becomes part of the string; with enough of them the buffer is read beyond its end; three backslashes and a quote end the string. Proved for literals without backslashes."
  },
  {
   "property": "C85",
   "status": "partial",
   "theorems": [
    "C85_inclusion",
    "C54_terminates",
    "C85_included_twice_refuted"
   ],
   "note": "REFUTED: only the files being read are remembered, so a file included a second time after its end is read again. Proved: files are read in place and inclusion cycles are cut."
  },
  {
   "property": "C86",
   "status": "partial",
   "theorems": [
    "C86_terminates_partial",
    "C86_fuel",
    "C86_error_at_end_refuted",
    "C86_variable_named_as_function_refuted"
   ],
   "note": "REFUTED: an error found at the end of the text is reported with the name of a closed file (out-of-bounds read), and a variable with the name of a function frees the symbol the function's code uses. Proved: the compiler ends on every script, and these two and the escapes of C84 are the only undefined behaviours. Allocation failures and buffers are not modelled."
  },
  {
   "property": "C87",
   "status": "partial",
   "theorems": [
    "C87_stray_brace_refuted",
    "C87_bad_character_refuted"
   ],
   "note": "REFUTED: a closing brace too many, or a character that is not part of the language after a complete statement, ends the script silently (the lexer prints a message for the latter, and the compiler still succeeds)."
  },
  {
   "property": "C88",
   "status": "partial",
   "theorems": [
    "C88_return_refuted"
   ],
   "note": "REFUTED: the parser skips ends of lines when it fetches a token, so that the next statement becomes the returned value."
  },
  {
   "property": "C89",
   "status": "partial",
   "theorems": [
    "C89_lambda_in_block_refuted",
    "C89_var_in_block_refuted"
   ],
   "note": "REFUTED: closures made there get their arguments one position off, and a local variable there makes the virtual machine use a null pointer."
  },
  {
   "property": "C90",
   "status": "partial",
   "theorems": [
    "C90_empty_script_refuted"
   ],
   "note": "REFUTED: no done instruction is written; execution runs beyond the code and stops with a program counter error."
  },
  {
   "property": "C91",
   "status": "partial",
   "theorems": [
    "C91_parameter_refuted"
   ],
   "note": "REFUTED for closures inside functions: a parameter named as a local variable of the enclosing function denotes that variable. Global variables are hidden as expected (C53)."
  },
  {
   "property": "C92",
   "status": "partial",
   "theorems": [
    "C92_sign_refuted"
   ],
   "note": "REFUTED: a sign before a constant belongs to the constant, before a variable it applies after the operators ^ << >> & |."
  },
  {
   "property": "C93",
   "status": "proved",
   "theorems": [
    "C93_closure_keeps_locals"
   ],
   "note": ""
  },
  {
   "property": "C94",
   "status": "proved",
   "theorems": [
    "C94_script_file"
   ],
   "note": "boundaries: no symbol file; paths without comma, bar, newline and trailing blank; assembly text < 2 GiB; calls of C functions, wrong numbers of arguments and undefined behaviour have no meaning in Source.v (Unspec); garbage collection during the execution is in C97"
  },
  {
   "property": "C95",
   "status": "proved",
   "theorems": [
    "C95_one_meaning",
    "C95_more_allowed"
   ],
   "note": "about the specification used by C52, C53, C94: it makes their statements independent of the bound"
  },
  {
   "property": "C96",
   "status": "proved",
   "theorems": [
    "C96_collections_do_not_matter",
    "C96_collector_keeps",
    "C96_collector_deletes",
    "C96_execution"
   ],
   "note": "C functions must only look at reachable objects (hypothesis respects); functions that register new strings are outside: the ids they get depend on earlier collections. Case: C96_case (collector before every step, a table is really deleted)."
  },
  {
   "property": "C97",
   "status": "proved",
   "theorems": [
    "C97_script_with_collector"
   ],
   "note": "Same scripts as C94, with at most 65534 different texts. Collections during loading (before the script starts) are not in the statement. Calls of C functions have no specified meaning (C53). Strings and tables that cannot be reached any more may be deleted."
  },
  {
   "property": "C98",
   "status": "proved",
   "theorems": [
    "C98_get",
    "C98_count",
    "C98_none",
    "C98_foreach",
    "C98_reduce",
    "C98_map",
    "C98_filter",
    "C98_none_new",
    "C98_wrong_arguments"
   ],
   "note": "map, filter, foreach and reduce are for calls that end without an error; the function must not change the entries it is called on (C50_foreach_remove_refuted shows what happens otherwise). The strings of the method names must fit in the string manager (fewer than 65534 strings)."
  },
  {
   "property": "C99",
   "status": "proved",
   "theorems": [
    "C99_new",
    "C99_reset",
    "C99_add",
    "C99_add_first",
    "C99_step"
   ],
   "note": "Robot ids are 32-bit signed integers here (the argument of buzzneighbors_add is a uint16_t). The strings must fit in the string manager."
  },
  {
   "property": "C100",
   "status": "partial",
   "theorems": [
    "C100_ids_stay",
    "C100_id_calls",
    "C100_id_calls_refuted",
    "C100_duplicates_refuted",
    "C100_growth_refuted"
   ],
   "note": "REFUTED: line 1081 passes the function pointer where the comparison expects a pointer to it, so the first bytes of the code are compared with the registered addresses. The duplicate is never found: each registration, and so each call of neighbors.map, filter, kin or nonkin (8 registrations), makes the list longer. Proved: ids stay valid, and the id returned calls the function unless the first bytes of its code happen to be the address of a registered function."
  },
  {
   "property": "C101",
   "status": "proved",
   "theorems": [
    "C101_script_with_c_functions",
    "string_functions_ok"
   ],
   "note": "C functions that call back into the script (foreach, map, ...) have no meaning here; C50, C63 and C64 are about them. The C string functions with wrong argument types, other than string.length, are left without meaning."
  },
  {
   "property": "C102",
   "status": "proved",
   "theorems": [
    "C102_host_calls"
   ],
   "note": "The values returned stay on the stack, as in the code: buzzvm_function_call never removes them."
  },
  {
   "property": "C103",
   "status": "proved",
   "theorems": [
    "C103_standard_library"
   ],
   "note": "The seeding of the random number generator when math is registered is not part of the state here."
  },
  {
   "property": "C104",
   "status": "partial",
   "theorems": [
    "C104_library_replaces_functions",
    "C104_script_functions_refuted"
   ],
   "note": "REFUTED: buzzvm_set_bcode runs the function definitions of the script first and registers the library afterwards, so a function named size, map, filter, reduce, foreach, type, int, float, clone or is... is silently replaced by the one of the library (proved for every such script). For all other names it holds (C103)."
  },
  {
   "property": "C105",
   "status": "proved",
   "theorems": [
    "C105_library_functions",
    "std_ok"
   ],
   "note": "Left without meaning: results outside the range of int (undefined behaviour in C), min and max of objects that cannot be compared, tostring of other things than numbers (see C71), strtof with an error, and wrong arguments of string.sub and string.concat. Functions that call back into the script: C50, C64."
  },
  {
   "property": "C106",
   "status": "partial",
   "theorems": [
    "C106_string_bzz",
    "C106_charat",
    "C106_indexoffirst_partial",
    "C106_indexoffirst_refuted"
   ],
   "note": "REFUTED for a strcmp that gives 2 (C111): indexoffirst(\"c\",\"a\") is then 0. Proved for every strcmp that never gives 2; charat and the loading always. The lengths are below 2^31 - 1 (the integers of the script); the table of strings has room for the substrings that are compared (65534 strings at most, C04)."
  },
  {
   "property": "C107",
   "status": "partial",
   "theorems": [
    "C107_indexoflast_partial",
    "C107_indexoflast_refuted"
   ],
   "note": "REFUTED: for every s and every m of one character (or none) the result is length(s)-length(m)+1, where m does not occur, whether m is in s or not. For m of two characters or more it holds (C107_indexoflast_partial). Both positions found and missed are as said only for a strcmp that never gives 2 (C111)."
  },
  {
   "property": "C108",
   "status": "partial",
   "theorems": [
    "C108_split_partial"
   ],
   "note": "For every strcmp that never gives 2; with one that gives the difference of bytes characters 2 apart are taken for equal (C111_comparison_refuted), so the property does not hold there. Room: the characters of s and d and the pieces are registered strings or there are numbers left for them."
  },
  {
   "property": "C109",
   "status": "proved",
   "theorems": [
    "C109_table_bzz",
    "C109_swap"
   ],
   "note": "The numbers that name the functions are any (g). Hypotheses: the C function size has a number of its own; lists hold no nil (removes an entry) and no functions (become methods of the table)."
  },
  {
   "property": "C110",
   "status": "proved",
   "theorems": [
    "C110_sort",
    "C110_sort_numbers"
   ],
   "note": "The table t is not the table named table. cmp may return anything; what counts is whether it is true."
  },
  {
   "property": "C111",
   "status": "partial",
   "theorems": [
    "C111_dictionaries",
    "C111_comparison_partial",
    "C111_comparison_refuted",
    "C111_min_max_partial",
    "C111_min_refuted"
   ],
   "note": "REFUTED: buzzobj_cmp returns what strcmp returns, and 2 also means 'one operand is nil'. With a strcmp that returns the difference of the bytes (glibc, musl) every comparison of \"c\" and \"a\" is true, == included, and math.min gives the larger of two strings whose bytes differ by more than 1. Proved: right for every strcmp that does not give 2 (comparisons) or more than 1 (min); max and dictionaries always right."
  },
  {
   "property": "C112",
   "status": "partial",
   "theorems": [
    "C112_documented_refuted",
    "C112_next_refuted"
   ],
   "note": "REFUTED: the documented usage calls f once and neither g nor h. (1) next has a parameter f inside a function with a parameter f: the compiler resolves f to the outer one (C91), so every arrow holds the first function. (2) next returns the new, last arrow, so arrows.run starts at the end of the sequence. With the parameter renamed and run from the first arrow the three functions run in order (C112_case)."
  },
  {
   "property": "C113",
   "status": "proved",
   "theorems": [
    "C113_vec2_bzz"
   ],
   "note": "C113_C114_case: a script that includes the file, read, compiled, loaded and run."
  },
  {
   "property": "C114",
   "status": "proved",
   "theorems": [
    "C114_new",
    "C114_newp",
    "C114_length",
    "C114_angle",
    "C114_norm",
    "C114_add",
    "C114_sub",
    "C114_scale",
    "C114_dot",
    "C114_rotate",
    "C114_integers"
   ],
   "note": "The values are those of the language's operators (bin_val of Source.v, shown to be what the VM computes by the compiler theorem); sqrt, sin, cos and atan2 are arbitrary functions, as in C80."
  },
  {
   "property": "C115",
   "status": "proved",
   "theorems": [
    "C115_swarm_functions"
   ],
   "note": "exec and id, which use the swarm stack, are not among the meanings: see C58 and C83. The meaning of a set operation on an argument that is no table is left open: see C118."
  },
  {
   "property": "C116",
   "status": "proved",
   "theorems": [
    "C116_swarm_calls"
   ],
   "note": ""
  },
  {
   "property": "C117",
   "status": "proved",
   "theorems": [
    "C117_scripts_are_swarm_operations"
   ],
   "note": ""
  },
  {
   "property": "C118",
   "status": "partial",
   "theorems": [
    "C118_failed_union_joins_refuted"
   ],
   "note": "REFUTED: buzzvm_type_assert inside buzzswarm_check returns the state of the machine (3, an error), which is taken as 'the robot is in the swarm'. swarm.union(5, 3, s) stops the script with a type error, but the robot has joined swarm 5 and announces it."
  },
  {
   "property": "C119",
   "status": "proved",
   "theorems": [
    "C119_stigmergy_functions"
   ],
   "note": "foreach, onconflict and onconflictlost take closures of the script and are not among the meanings (their effect on the data is in C28 to C30 and C59)."
  },
  {
   "property": "C120",
   "status": "proved",
   "theorems": [
    "C120_stigmergy_calls"
   ],
   "note": "size is the number of entries when it is below 2^31."
  },
  {
   "property": "C121",
   "status": "proved",
   "theorems": [
    "C121_scripts_are_calls"
   ],
   "note": ""
  },
  {
   "property": "C122",
   "status": "proved",
   "theorems": [
    "C122_mixed_histories"
   ],
   "note": ""
  },
  {
   "property": "C123",
   "status": "proved",
   "theorems": [
    "C123_stigmergy_calls",
    "C123_swarm_calls",
    "C123_scripts"
   ],
   "note": ""
  },
  {
   "property": "C124",
   "status": "proved",
   "theorems": [
    "C124_robot_functions"
   ],
   "note": "The meaning of a broadcast of a table, a closure or user data is left undefined here (C55 and C77 are about broadcasts of any value); buzzheap_clone is a parameter that copies scalars (its own model is in C20)."
  },
  {
   "property": "C125",
   "status": "proved",
   "theorems": [
    "C125_broadcast_call",
    "C125_other_calls",
    "C125_scripts"
   ],
   "note": ""
  },
  {
   "property": "C126",
   "status": "proved",
   "theorems": [
    "C126_listen_functions"
   ],
   "note": "The registered functions run when messages are processed (C55), not in this theorem. The queue holds the contents of values (as in C55); a broadcast of a table that contains itself has no meaning."
  },
  {
   "property": "C127",
   "status": "proved",
   "theorems": [
    "C127_listen_call",
    "C127_ignore_call",
    "C127_broadcast_call",
    "C127_scripts"
   ],
   "note": "Identifiers of strings have 16 bits, as in the string manager."
  },
  {
   "property": "C128",
   "status": "proved",
   "theorems": [
    "C128_listener_calls",
    "C128_broadcast_runs_listener"
   ],
   "note": "The reading of the bytes is a premise here; C55 and C77 show it of every message sent by a robot. C functions as listeners are excluded (C64)."
  }
 ]
}