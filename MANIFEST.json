{
 "claims": [
  {
   "property": "C01",
   "status": "proved",
   "theorems": [
    "C01_queue_refines_list",
    "C01_fifo_order"
   ],
   "note": "Ring buffer refines a list over arbitrary call sequences (all of Push, PushRef, PushEmpty, Pop, PopOnly, Front, Back, Item, Size, Empty, Full, Capacity, Remove, RemoveItem, Expand, Reset, iteration), both for Queue and RecordsQueue, expanding and fixed."
  },
  {
   "property": "C02",
   "status": "partial",
   "theorems": [
    "C02_remove_partial",
    "C02_remove_item",
    "C02_remove_result_refuted"
   ],
   "note": "Content after Remove/RemoveItem proved in full. The return value of Remove is proved except for a full queue made of the removed value only, where it is false in the code (C02_remove_result_refuted)."
  },
  {
   "property": "C03",
   "status": "partial",
   "theorems": [
    "C03_iterate_partial",
    "C03_iterate_empty_refuted"
   ],
   "note": "Proved for non-empty queues; for an empty queue the code visits stale or unwritten cells (C03_iterate_empty_refuted)."
  },
  {
   "property": "C04",
   "status": "partial",
   "theorems": [
    "C04_reset_partial",
    "C04_reset_default_refuted"
   ],
   "note": "Proved for Queue and for RecordsQueue with construction capacity > 0 (or never expanded); false for a default-constructed RecordsQueue (C04_reset_default_refuted)."
  },
  {
   "property": "C05",
   "status": "proved",
   "theorems": [
    "C05_buffers_queue_refines_list"
   ],
   "note": "Ring refines a bounded list over arbitrary call sequences; Cleanup(Mutex*) is covered when no null buffer is stored (it stops at the first null one, excluded by the specification)."
  },
  {
   "property": "C06",
   "status": "proved",
   "theorems": [
    "C06_blocking_in_order"
   ],
   "note": "Invariant over all interleavings at mutex granularity, all signalling kinds, both blocking flags set."
  },
  {
   "property": "C07",
   "status": "proved",
   "theorems": [
    "C07_nonblocking_keeps_newest",
    "C07_accounting"
   ],
   "note": "Refinement to the keep-newest specification plus accounting of every sent buffer."
  },
  {
   "property": "C08",
   "status": "proved",
   "theorems": [
    "C08_no_lost_input",
    "C08_no_lost_output",
    "C08_never_stuck",
    "C08_progress"
   ],
   "note": "All schedules of two running modules, all signalling kinds but none, any loop limit: invariant, dead-lock freedom and a quantitative progress bound."
  },
  {
   "property": "C09",
   "status": "partial",
   "theorems": [
    "C09_exactly_once_in_order",
    "C09_wait_finds_event",
    "C09_any_priority_refuted"
   ],
   "note": "Proved for every schedule with priorities below 3. For larger priorities (possible through command priority, no check in _PushEvent) the write is out of bounds: C09_any_priority_refuted."
  },
  {
   "property": "C10",
   "status": "proved",
   "theorems": [
    "C10_no_starvation"
   ],
   "note": "Any reachable state, any later events; bound 8^q * (k+1+(k+7)/7) returned events for the event at position k of queue q."
  },
  {
   "property": "C11",
   "status": "proved",
   "theorems": [
    "C11_event_roundtrip",
    "C11_event_all_values"
   ],
   "note": "All 16/16/32-bit triples, and every 64-bit value is the id of its parts."
  },
  {
   "property": "C12",
   "status": "partial",
   "theorems": [
    "C12_timeouts_exact_partial",
    "C12_due_exactly_once_partial",
    "C12_sleep_bounded_partial",
    "C12_nested_loop_refuted"
   ],
   "note": "Proved for reactions that do not run a nested event loop inside ProcessTimeout, integer times. With a nested loop a deadline set for an already visited slot is lost: C12_nested_loop_refuted."
  },
  {
   "property": "C13",
   "status": "partial",
   "theorems": [
    "C13_accounting_partial",
    "C13_calls_partial",
    "C13_make_empty_refuted",
    "C13_self_append_refuted"
   ],
   "note": "Proved for all reachable histories of covered calls: accounting of blocks, no use after free, effect of every call. Missing: insertion into buffers without a pool, moving a container into itself, parts of buffers without a pool; the first two are refuted (MakeEmpty+Append hands a block out twice; self append loses a block)."
  },
  {
   "property": "C14",
   "status": "partial",
   "theorems": [
    "C14_take_size_partial",
    "C14_take_buffer_refuted"
   ],
   "note": "Proved for the pool function behind TakeBuffer (exact size, FIFO, fresh memory, fails only if memory is missing). TakeBuffer itself does not return nothing but ends the process (refuted)."
  },
  {
   "property": "C15",
   "status": "partial",
   "theorems": [
    "C15_content_partial",
    "C15_append_fits_partial",
    "C15_foreign_append_refuted",
    "C15_foreign_part_refuted",
    "C15_foreign_shorten_refuted",
    "C15_append_full_refuted"
   ],
   "note": "Proved for all covered calls on pool buffers and on copies from outside memory. Refuted for buffers outside of a pool (dangling memory, wrong cast) and for Append into a full container (process ends)."
  },
  {
   "property": "C16",
   "status": "partial",
   "theorems": [
    "C16_parts_tile_partial",
    "C16_parts_cover_partial",
    "C16_contiguous_part_partial",
    "C16_empty_segment_refuted",
    "C16_length_zero_refuted"
   ],
   "note": "Tiling proved for every segmentation without empty segments and every list of positive lengths, for segmented and contiguous parts. Refuted: empty segment in the middle, length 0 (documented as rest of segment)."
  },
  {
   "property": "C17",
   "status": "partial",
   "theorems": [
    "C17_pointer_copy_partial",
    "C17_pointer_read_partial",
    "C17_border_refuted",
    "C17_limit_refuted",
    "C17_empty_segment_refuted"
   ],
   "note": "Exact transfer proved for all positions reached by shifts that do not end on the end of a later segment. Refuted: shift ending on such a border reads nothing, setfullsize limit lost at a border, empty first segment."
  },
  {
   "property": "C18",
   "status": "partial",
   "theorems": [
    "C18_field_roundtrip_partial",
    "C18_buffer_end_refuted",
    "C18_buffer_middle_refuted"
   ],
   "note": "every kind but buffer, content below 4 GB; for buffer fields the property is false of the code (C18_buffer_end_refuted, C18_buffer_middle_refuted)"
  },
  {
   "property": "C19",
   "status": "proved",
   "theorems": [
    "C19_predicted_size"
   ],
   "note": "fields, field maps and records with names below 4 GB; SaveToBuffer for records below 4 GB"
  },
  {
   "property": "C20",
   "status": "partial",
   "theorems": [
    "C20_record_roundtrip_partial",
    "C20_record_update_partial",
    "C20_buffer_refuted",
    "C20_buffer_then_field_refuted"
   ],
   "note": "records without buffer fields, below 4 GB and 2^24 fields, read into a new or an existing record; false for buffer fields (two refutations)"
  },
  {
   "property": "C21",
   "status": "partial",
   "theorems": [
    "C21_bounded_partial",
    "C21_overread_refuted",
    "C21_truncated_refuted",
    "C21_exception_refuted",
    "C21_uninitialised_refuted"
   ],
   "note": "the reader ends and stays inside the stream except for a zero byte behind it; the full property is false: names are scanned without bound (C21_overread_refuted, C21_truncated_refuted), exceptions escape, memory stays uninitialised while success is reported"
  },
  {
   "property": "C22",
   "status": "partial",
   "theorems": [
    "C22_diff_partial",
    "C22_flags_refuted",
    "C22_reserved_name_refuted"
   ],
   "note": "holds when the modification flags of the old map are right and no field is called dabc:del; false without either (refutations)"
  },
  {
   "property": "C23",
   "status": "partial",
   "theorems": [
    "C23_sync_partial",
    "C23_first_partial",
    "C23_recreated_refuted",
    "C23_moved_refuted",
    "C23_empty_field_refuted",
    "C23_names_removed_refuted",
    "C23_names_history_refuted",
    "C23_names_inner_mark_refuted",
    "C23_relay_refuted"
   ],
   "note": "Proved for both kinds of transfer (everything, names only), every history of edits and marks, every earlier state and every requested version up to the one held plus one, provided no item known to the copy is removed and created again (and, for names, no underscore field is removed, marks are from the top, no history is inherited or switched off). First transfer (version 0) from any copy proved without the re-creation condition. Each excluded case is refuted by a witness: re-created item keeps old fields, moved item makes an untouched sibling lose its fields, empty field, removed underscore field, inherited _history, inner mark, relay through a copy."
  },
  {
   "property": "C24",
   "status": "partial",
   "theorems": [
    "C24_versions_grow",
    "C24_marked_partial",
    "C24_recreated_refuted"
   ],
   "note": "Versions never decrease: proved. After MarkChangedItems at any item every changed item at or below it and all items above report a newer version: proved when no item is removed and created again; that case is refuted."
  },
  {
   "property": "C25",
   "status": "partial",
   "theorems": [
    "C25_history_partial",
    "C25_short_refuted",
    "C25_sub_item_refuted",
    "C25_copy_refuted"
   ],
   "note": "Items without sub-items, any edits before and after enabling: the newest n+1 states are read back, newest first, once more than n states exist (up to the sign of a double zero). Refuted for all shorter histories (null dereference in ExtractHistoryStep), for versions due to a sub-item only, and for items of a copy updated by UpdateFromBuffer."
  },
  {
   "property": "C26",
   "status": "partial",
   "theorems": [
    "C26_counted_until_deleted_partial",
    "C26_deleted_once_partial",
    "C26_unused_deleted_partial",
    "C26_progress_partial",
    "C26_parent_reference_race_refuted",
    "C26_late_child_leak_refuted",
    "C26_reference_not_refused_refuted",
    "C26_refused_only_without_references_partial"
   ],
   "note": "Proved for every interleaving of any number of threads copying, passing, releasing and destroying references, adding and removing childs, with or without own thread and manager cleanup: no undefined behaviour, counter equals what holds the object, deleted once and last, only without references/childs, deleted when unused (no child added after destruction began), no thread gets stuck. Assumes that no two threads release the parent reference of one child at the same time; without that refuted by witness. Also refuted: late childs (leak); refusing of references while destruction runs. Objects deleting themselves and objects without mutex not modelled."
  },
  {
   "property": "C27",
   "status": "partial",
   "theorems": [
    "C27_reference_counts_partial",
    "C27_self_assignment_refuted",
    "C27_self_assignment_clears_refuted",
    "C27_own_pointer_refuted"
   ],
   "note": "Counts, live references and deletion proved for every sequence without self assignment; self assignment (v = v, v << v, v = pointer on own object) refuted by witness and in general. Objects without childs, thread and cleanup flag."
  },
  {
   "property": "C28",
   "status": "proved",
   "theorems": [
    "C28_vectors_are_lists"
   ],
   "note": "All vector operations act like list operations for every sequence; each entry counts one use."
  },
  {
   "property": "C29",
   "status": "partial",
   "theorems": [
    "C29_queue_refinement_partial",
    "C29_taken_once",
    "C29_fifo",
    "C29_id_reused_refuted"
   ],
   "note": "Refinement to a queue of tickets for all operation sequences with fewer than 2^32-1 pushes; each ticket taken exactly once; FIFO per kind. With more pushes the id counter wraps and an id still in use is given out again (C29_id_reused_refuted); the property's bound counts outstanding ids only."
  },
  {
   "property": "C30",
   "status": "partial",
   "theorems": [
    "C30_each_caller_once_partial",
    "C30_newest_first",
    "C30_reply_order",
    "C30_all_refuse",
    "C30_caller_gone_refuted"
   ],
   "note": "Proved for runs in which a synchronous call does not give up between being taken by Reply and being informed: no undefined behaviour, each registration in exactly one state (registered, taken, waiting, informed, refused/removed), list newest first, refusing callers passed over in reverse order of registration. Without that restriction a synchronous caller which times out in that window has its dead local variable written (C30_caller_gone_refuted)."
  },
  {
   "property": "C31",
   "status": "partial",
   "theorems": [
    "C31_result_partial",
    "C31_result_kept",
    "C31_negative_refuted",
    "C31_canceled_refuted"
   ],
   "note": "True for result codes >= 0, and later steps keep the result; false for the documented negative codes (time-out, cancel): the previous result stays (C31_negative_refuted, C31_canceled_refuted)."
  },
  {
   "property": "C32",
   "status": "partial",
   "theorems": [
    "C32_terminates",
    "C32_parse_partial",
    "C32_wrong_refused",
    "C32_name_cut_refuted",
    "C32_argument_lost_refuted"
   ],
   "note": "Command::ReadFromCmdString modelled completely. For every well-formed line (any spacing, quoted or not) the resulting command is characterised; missing: argument names lose their last character (substr(0, separ-1)), so the claim as stated is refuted with witnesses (C32_name_cut_refuted, C32_argument_lost_refuted). Quoted positional arguments keep their quotes."
  },
  {
   "property": "C33",
   "status": "partial",
   "theorems": [
    "C33_roundtrip_partial",
    "C33_eof_refuted",
    "C33_empty_segment_refuted"
   ],
   "note": "All buffers come back in order with size and type through BinaryFileInput and BinaryFile::ReadBuffer (C33_roundtrip_partial). False of the code: the end of a complete file is reported as di_Error, never as di_EndOfStream (C33_eof_refuted). Buffers with an empty segment damage the file (C33_empty_segment_refuted)."
  },
  {
   "property": "C34",
   "status": "proved",
   "theorems": [
    "C34_truncated",
    "C34_disk_full",
    "C34_any_content"
   ],
   "note": "Cut at any byte; disk full while writing; and any content of a file at all."
  },
  {
   "property": "C35",
   "status": "partial",
   "theorems": [
    "C35_compose_partial",
    "C35_port",
    "C35_question_refuted",
    "C35_node_address",
    "C35_node_number",
    "C35_malformed_refuted",
    "C35_overflow_refuted"
   ],
   "note": "Round trip proved for every node number and every item name without '?' (and without zero bytes, as the name is printed as a C string); false with '?' (C35_question_refuted). A node is found only after dabc://node and a decimal number is never read as another one; but text behind the number is ignored (C35_malformed_refuted) and a number that does not fit is undefined behaviour in sscanf (C35_overflow_refuted)."
  },
  {
   "property": "C36",
   "status": "partial",
   "theorems": [
    "C36_option_partial",
    "C36_part",
    "C36_from_url",
    "C36_escape_refuted",
    "C36_encoded_quote_refuted",
    "C36_terminates"
   ],
   "note": "Proved for every option list whose unquoted values contain no & and quotes and whose quoted values do not contain their own quote. Missing: escaped quotes do not work (C36_escape_refuted) and encoded quotes are decoded before splitting (C36_encoded_quote_refuted)."
  },
  {
   "property": "C37",
   "status": "partial",
   "theorems": [
    "C37_read",
    "C37_write",
    "C37_error_bit",
    "C37_trigger_type_partial",
    "C37_trigger_type_refuted"
   ],
   "note": "Reading and setting any header word in either byte order (C37_read, C37_write), the data-error bit, and the trigger type when the low four bits of the decoding are not all zero. SetTrigTypeTrb3(0) on a swapped header whose low decoding byte becomes 0 makes the header unswapped (C37_trigger_type_refuted)."
  },
  {
   "property": "C38",
   "status": "partial",
   "theorems": [
    "C38_read_units",
    "C38_read_subevents",
    "C38_roundtrip_partial",
    "C38_exact_fill_refuted",
    "C38_full_buffer_refuted",
    "C38_no_event_refuted"
   ],
   "note": "Any list of events is written and read back when the buffer is larger than the data (C38_roundtrip_partial); any encoded units, events and subevents in any byte order are read (C38_read_units, C38_read_subevents). False of the code for a buffer filled exactly (the subevents are lost; another event overwrites the first one) and for a buffer closed without events."
  },
  {
   "property": "C39",
   "status": "partial",
   "theorems": [
    "C39_inside_partial",
    "C39_terminates_partial",
    "C39_zero_unit_refuted",
    "C39_huge_subevent_refuted",
    "C39_subevent_size_refuted"
   ],
   "note": "Memory safety and bounds for any byte content and any sequence of calls (C39_inside_partial); termination unless a unit or subevent of padded size 0 is met (C39_terminates_partial). Refuted otherwise: endless iteration on size 0 and on subevent sizes above 2^32-8, subevents whose size exceeds the buffer are returned."
  },
  {
   "property": "C40",
   "status": "partial",
   "theorems": [
    "C40_one_by_one",
    "C40_blocks_partial",
    "C40_blocks_refuted"
   ],
   "note": "Events come back one by one (C40_one_by_one); in blocks either exactly or undefined behaviour, the latter excluded when sizes are multiples of 16 (C40_blocks_partial). C40_blocks_refuted: an aligned block size that cuts the header of the end marker."
  },
  {
   "property": "C41",
   "status": "partial",
   "theorems": [
    "C41_groups",
    "C41_bytes_partial",
    "C41_complete_partial",
    "C41_all_built_partial",
    "C41_exact_fill_refuted",
    "C41_oversize_stall_refuted",
    "C41_no_inputs_refuted",
    "C41_far_refuted"
   ],
   "note": "C41_groups: any inputs, data and schedule: nothing undefined, one member of every input with the number of the event, nothing used twice, order kept. C41_bytes_partial: bytes, destinations and numbers of the sent buffers (not for events which reach exactly to the end of a buffer). C41_complete_partial / C41_all_built_partial: exactly the triggers present on all inputs, for steps below a quarter of the number range, buffers with room, no drop after the timeout. Refuted: exact fill loses the subevents, second oversize event stops the builder, no inputs is undefined, steps over half the range lose triggers. fResort not modelled."
  },
  {
   "property": "C42",
   "status": "partial",
   "theorems": [
    "C42_error_bit_refuted",
    "C42_never_set",
    "C42_counters_partial"
   ],
   "note": "Refuted: SetId overwrites the error bit (C42_error_bit_refuted); it is never set (C42_never_set). The damage is counted (C42_counters_partial; with the tag check, rejected events are not characterised)."
  },
  {
   "property": "C43",
   "status": "partial",
   "theorems": [
    "C43_distance_partial",
    "C43_range_2_31_refuted"
   ],
   "note": "For ranges below 2^31 (no evenness needed); C43_range_2_31_refuted for 2^31 itself."
  },
  {
   "property": "C44",
   "status": "partial",
   "theorems": [
    "C44_received_partial",
    "C44_all_partial",
    "C44_spare_partial",
    "C44_flush_partial",
    "C44_counters_partial",
    "C44_units_partial",
    "C44_short_packet_refuted",
    "C44_wrapped_refuted",
    "C44_long_packet_refuted",
    "C44_no_buffer_refuted"
   ],
   "note": "Proved for every sequence of datagrams of any content, read events, pool buffers, flush timer, start, stop: no access outside the buffers, every produced buffer is the concatenation of the unit parts of the consistent datagrams received into pool buffers, in order; counters; flush; decoded units. Excluded: datagrams of 8..31 bytes announcing almost 2^32 bytes, refuted (memcmp 4 GB behind the buffer). Also refuted: a datagram longer than the MTU is judged by its cut part, 32 bytes announcing 2^32-1 count as received, a consistent datagram is thrown away when no buffer is available."
  },
  {
   "property": "C45",
   "status": "proved",
   "theorems": [
    "C45_written_is_read",
    "C45_read"
   ],
   "note": "Any events, data pieces and buffer size the events fit into (exact fill included), buffers below 4 GB. Losing data on implicit finish is C63."
  },
  {
   "property": "C46",
   "status": "partial",
   "theorems": [
    "C46_walk_partial",
    "C46_walk_misses_last",
    "C46_empty_last_refuted"
   ],
   "note": "Holds unless the last of several subevents is empty; then exactly that one is missed (C46_walk_misses_last, C46_empty_last_refuted)."
  },
  {
   "property": "C47",
   "status": "partial",
   "theorems": [
    "C47_blocks_partial",
    "C47_input_partial",
    "C47_unaligned_refuted"
   ],
   "note": "Event and block sizes multiples of 4; otherwise a header is read that is only partly in the buffer (C47_unaligned_refuted)."
  },
  {
   "property": "C48",
   "status": "proved",
   "theorems": [
    "C48_roundtrip",
    "C48_id_time",
    "C48_values"
   ],
   "note": "Values are 8-byte patterns; sscanf/printf of decimal numbers modelled in DecStr.v; total size below 4 GB."
  },
  {
   "property": "C49",
   "status": "partial",
   "theorems": [
    "C49_js_date",
    "C49_js_same",
    "C49_text_partial",
    "C49_text_exact",
    "C49_js_text",
    "C49_text_seconds",
    "C49_text_many",
    "C49_rounding_refuted"
   ],
   "note": "Millisecond conversions proved for every time. The text is proved to be a valid calendar text within 5/9 of the last digit, exact whenever the time has no more decimals than printed; correct rounding is false as digits are rounded one after the other (C49_rounding_refuted), and without decimals the time is cut."
  },
  {
   "property": "C50",
   "status": "partial",
   "theorems": [
    "C50_match_partial",
    "C50_list_partial",
    "C50_empty_refuted",
    "C50_semicolon_refuted",
    "C50_terminates"
   ],
   "note": "Proved for non-empty names and masks without semicolon and bracket; an empty name is not matched by '*' (C50_empty_refuted) and a semicolon makes the call hang (C50_semicolon_refuted). Character sets are left to fnmatch and not modelled."
  },
  {
   "property": "C51",
   "status": "partial",
   "theorems": [
    "C51_json_partial",
    "C51_utf8_refuted",
    "C51_buffer_refuted"
   ],
   "note": "Proved for none, bool, int, uint, string and their arrays with ASCII strings. Bytes from 128 on are printed with eight hex digits (C51_utf8_refuted), buffers as hexadecimal numbers, which JSON does not have (C51_buffer_refuted). Doubles, dates and references not modelled."
  },
  {
   "property": "C52",
   "status": "partial",
   "theorems": [
    "C52_records",
    "C52_credits",
    "C52_order",
    "C52_no_stall",
    "C52_sender_refuted",
    "C52_ping_pong_refuted",
    "C52_in_flight_refuted",
    "C52_one_buffer_refuted",
    "C52_queue_refuted"
   ],
   "note": "Two transports and an ordered network, every list of events. C52_credits: a transport which waits for acknowledges never sent more data packets than it got credits, nor more credits than receives posted (the statement of C52). C52_records: no event runs out of records. C52_order: delivered is a prefix of pushed. C52_no_stall: a state which no event changes has everything delivered. Refuted parts: a pure sender ignores acknowledges (C52_sender_refuted); acknowledges use up posted receives and are acknowledged themselves: endless exchange without data with queues of two (C52_ping_pong_refuted) and any number of packets in flight with two receives posted (C52_in_flight_refuted); queues of one buffer never send (C52_one_buffer_refuted); queue larger than the port capacity overruns the records (C52_queue_refuted)."
  },
  {
   "property": "C53",
   "status": "partial",
   "theorems": [
    "C53_forward_partial",
    "C53_order_partial",
    "C53_all_partial",
    "C53_example",
    "C53_start_order_refuted",
    "C53_double_event_refuted",
    "C53_restart_stall_refuted"
   ],
   "note": "Any number of inputs and outputs, any capacities, every interleaving of senders, receivers and the module thread: each buffer of each input is forwarded once to every output, inputs are served in the order of their events, nothing is left behind (C53_forward, C53_all); arrival order over all inputs when events are fired in arrival order (C53_order). Restricted to connected blocking ports, outputs with signalling, and no stop. Refuted around start and stop: input 0 is served first (C53_start_order), an event counted twice lets a buffer overtake (C53_double_event), and an output event dropped while stopped stalls the module for ever (C53_restart_stall)."
  },
  {
   "property": "C54",
   "status": "partial",
   "theorems": [
    "C54_order_partial",
    "C54_sent_partial",
    "C54_complete_partial",
    "C54_flush_partial",
    "C54_example",
    "C54_sent_order_refuted",
    "C54_eof_order_refuted",
    "C54_sort_refuted",
    "C54_race_refuted",
    "C54_eof_stuck_refuted",
    "C54_large_stuck_refuted",
    "C54_repeated_refuted",
    "C54_late_refuted",
    "C54_timer_refuted"
   ],
   "note": "Proved for every arrival order: the order of hand over never goes backwards over half of the range, each subevent is handed over at most once, and what is sent consists of those (C54_order_partial). With a steady output port all that is handed over is sent or kept, and in order if no buffer is passed on while the output buffer has data (C54_sent_partial). For subevents at most one buffer late: no undefined behaviour, strictly increasing and complete (C54_complete_partial), and with an end of file everything is handed over after finitely many calls (C54_flush_partial). Missing: the full claim is false. Refuted: order of what is sent (buffers and end of file overtake the output buffer), repeated numbers, cyclic comparison for std::sort, a race on CanSend which drops a buffer, two states in which the call repeats forever, and a timer which never sends data behind a gap."
  },
  {
   "property": "C55",
   "status": "partial",
   "theorems": [
    "C55_numbers",
    "C55_hist",
    "C55_hist_partial",
    "C55_one_bin",
    "C55_lower_end_refuted",
    "C55_border_refuted",
    "C55_mean",
    "C55_outside",
    "C55_deviation_refuted",
    "C55_upper_end_refuted",
    "C55_wide_refuted"
   ],
   "note": "dabc::Average written once for any arithmetic, with instances for exact rationals and IEEE binary64 (SpecFloat). C55_numbers: number, minimum, maximum with doubles (no NaN) after any operations. C55_outside: doubles, counts below/above the range exact, no value counted twice. C55_hist: exact arithmetic, complete contents of all bins; C55_hist_partial: right for values not on every second bin border; C55_one_bin: the specification assigns exactly one bin. C55_mean: mean and deviation in exact arithmetic. False in general: lower end of the range never counted (C55_lower_end_refuted), borders in the bin below (C55_border_refuted), largest double below the upper end lost (C55_upper_end_refuted), root of a negative number for equal values (C55_deviation_refuted), lrint of NaN for wide ranges (C55_wide_refuted)."
  },
  {
   "property": "C56",
   "status": "partial",
   "theorems": [
    "C56_numbers_partial",
    "C56_delete",
    "C56_one_wrong",
    "C56_renumber",
    "C56_wrong_number_refuted",
    "C56_null_refuted",
    "C56_pending_refuted",
    "C56_destroy_refuted",
    "C56_pool_refuted",
    "C56_pool_null_refuted"
   ],
   "note": "Module item lists, numbers and delivery of events (Module.cxx, ModuleItem.cxx, ModuleAsync.cxx). C56_numbers_partial: refinement to a specification in which the number of an item is its position, for any sequence of creations, deletions from the end of a list without waiting events, events and their handling. C56_delete, C56_one_wrong, C56_renumber: for any sequence of creations and deletions, exactly the deleted item leaves the lists and at most one item per list keeps a wrong (too large) number. The full claim is false: deleting from the middle leaves the next item with a wrong number (C56_wrong_number_refuted, C56_null_refuted), events of a deleted item dereference null (C56_pending_refuted), destroying by reference leaves a dangling pointer (C56_destroy_refuted), ActivatePool events go to outputs (C56_pool_refuted, C56_pool_null_refuted)."
  },
  {
   "property": "C57",
   "status": "partial",
   "theorems": [
    "C57_send_after_can_send_partial",
    "C57_connect_between_refuted"
   ],
   "note": "Proved when the port blocks in both states or in none; refuted for the default configuration (C57_connect_between_refuted)."
  },
  {
   "property": "C58",
   "status": "partial",
   "theorems": [
    "C58_restart_input_partial",
    "C58_restart_output_partial",
    "C58_restart_confirm_refuted"
   ],
   "note": "Proved for the operation and every modes; refuted for the default confirm mode: a stop/start can leave both modules asleep with buffers queued (C58_restart_confirm_refuted)."
  },
  {
   "property": "C59",
   "status": "partial",
   "theorems": [
    "C59_split",
    "C59_file_size_refuted"
   ],
   "note": "Proved for the data size as the code counts it; the headers are not counted, so the size of the file on disk can exceed the limit (C59_file_size_refuted)."
  },
  {
   "property": "C60",
   "status": "partial",
   "theorems": [
    "C60_inside",
    "C60_ends_partial",
    "C60_endless_refuted"
   ],
   "note": "Inside: proved for all contents and calls. Ends unless an event of size 0 (iWords = 2^31-4) is reached, which is never left (C60_endless_refuted)."
  },
  {
   "property": "C61",
   "status": "partial",
   "theorems": [
    "C61_files_refuted",
    "C61_next_file_is_error"
   ],
   "note": "Refuted: at the end of a file with another one after it an error is reported (C61_next_file_is_error for every such case)."
  },
  {
   "property": "C62",
   "status": "partial",
   "theorems": [
    "C62_arbitrary_refuted",
    "C62_strings_refuted"
   ],
   "note": "Refuted with witnesses: value counts and string ends are not checked."
  },
  {
   "property": "C63",
   "status": "partial",
   "theorems": [
    "C63_close_refuted",
    "C63_close_event_refuted",
    "C63_add_raw_refuted",
    "C63_close_empty_refuted"
   ],
   "note": "Refuted with witnesses (Close at exact fill, AddRawData truncating, Close without events). What holds is C45_written_is_read."
  },
  {
   "property": "C64",
   "status": "partial",
   "theorems": [
    "C64_transfer_partial",
    "C64_transfer_refuted"
   ],
   "note": "Holds while no event is open; refuted with an open one."
  },
  {
   "property": "C65",
   "status": "partial",
   "theorems": [
    "C65_new_sub2_refuted"
   ],
   "note": "Refuted for NewSubevent2; for the calls of C45 no outside write (part of C45_written_is_read)."
  },
  {
   "property": "C66",
   "status": "partial",
   "theorems": [
    "C66_always_answered_partial",
    "C66_event_has_command",
    "C66_dropped_refuted"
   ],
   "note": "For workers in normal state: every delivery step reduces the work left, a state without possible delivery has no unanswered caller, and such a state is reachable within that many steps; every event finds its command. False when the worker leaves the normal state while the command is under way: the command is dropped without reply (C66_dropped_refuted). Time-outs, priorities and arguments are not modelled; user code is assumed to reply the commands it holds in the end."
  },
  {
   "property": "C67",
   "status": "partial",
   "theorems": [
    "C67_parts_partial",
    "C67_no_protocol",
    "C67_terminates",
    "C67_colon_refuted",
    "C67_bad_port"
   ],
   "note": "Proved for every URL with a protocol, and without protocol when no colon is in file and options; there a :// in the options is taken for the protocol (C67_colon_refuted). Host must be non-empty."
  },
  {
   "property": "C68",
   "status": "partial",
   "theorems": [
    "C68_read_back_partial",
    "C68_time_first",
    "C68_time_first_refuted",
    "C68_first_day_refuted",
    "C68_after_2100_refuted",
    "C68_wrong_day_refuted"
   ],
   "note": "Proved for every time from 1970-01-02 to 2100-12-31; on 1970-01-01 and after 2100 it is false, and so it is when the time is read first into a fresh DateTime (refuted theorems). gmtime, timegm, strftime, sscanf modelled after their documentation."
  },
  {
   "property": "C69",
   "status": "partial",
   "theorems": [
    "C69_ints",
    "C69_uints",
    "C69_strings_partial",
    "C69_escape_refuted",
    "C69_quote_refuted",
    "C69_empty_refuted",
    "C69_terminates"
   ],
   "note": "Proved for integer arrays of any length (AsStr and JSON texts), for string arrays of simple characters; refuted for strings which are escaped (C69_escape_refuted, C69_quote_refuted) and the empty string array (C69_empty_refuted)."
  },
  {
   "property": "C70",
   "status": "partial",
   "theorems": [
    "C70_delivery_partial",
    "C70_posts_partial",
    "C70_all_partial",
    "C70_example",
    "C70_short_buffer_refuted",
    "C70_short_buffer_next_refuted",
    "C70_empty_buffer_refuted",
    "C70_empty_segment_refuted"
   ],
   "note": "proved for buffers longer than the inline size (32 bytes) without empty segments and for acknowledges, for every split of the byte stream; refuted for buffers of 1-32 bytes, null and empty buffers, and a last empty segment"
  },
  {
   "property": "C71",
   "status": "partial",
   "theorems": [
    "C71_order_partial",
    "C71_rules_partial",
    "C71_calls_partial",
    "C71_progress_partial",
    "C71_stop_partial",
    "C71_wake_partial",
    "C71_retry_loses_refuted",
    "C71_restart_stuck_refuted",
    "C71_retry_spins_refuted",
    "C71_closed_state_refuted"
   ],
   "note": "Proved for every object, event sequence and loop length: no null object or empty port is used, order and completeness of what is taken and written, calling rules, progress with an agreeing object, no stop in the middle of a write and no running on after a stop (C71_stop_partial), armed timeout whenever the transport waits for one (C71_wake_partial). Refuted: the buffer of a failed write is lost with the retry option; a stop request during a write that fails leaves the transport idle for ever after the restart; while waiting for a retry the input event is fired again and again; after closing on an error the state is outRetry with the timeout armed. Not covered: ProvideInfo, RestartTransport, destruction."
  },
  {
   "property": "C72",
   "status": "partial",
   "theorems": [
    "C72_order_partial",
    "C72_exit_partial",
    "C72_eof_partial",
    "C72_rules_partial",
    "C72_progress_partial",
    "C72_stop_partial",
    "C72_wake_partial",
    "C72_calls_partial",
    "C72_end_partial",
    "C72_waits_partial",
    "C72_idle_partial",
    "C72_retry_partial",
    "C72_room_partial",
    "C72_places_partial",
    "C72_exit_refuted",
    "C72_callback_exit_refuted",
    "C72_repeat_stuck_refuted",
    "C72_reconnect_refuted",
    "C72_wait_spins_refuted",
    "C72_restart_reconnect_refuted",
    "C72_callback_lost_refuted"
   ],
   "note": "Proved for arbitrary objects, pools, receivers and event sequences: no call of a missing object, sent = finished in order (C72_order_partial), rules for Read_Start and Read_Complete (C72_rules_partial), order of the calls and no call after the end (C72_calls_partial), end of stream and errors answered by end-of-file buffer and closing (C72_end_partial), nothing after end of file without reconnection (C72_eof_partial), no call-back outstanding is overlooked but one case (C72_waits_partial), stopped transports leave the object alone (C72_stop_partial, C72_idle_partial), armed timeouts (C72_wake_partial, C72_retry_partial), never a buffer too many for the queue (C72_room_partial), a place for every extra buffer and no exit by an announced call-back for objects without repetitions (C72_places_partial), progress of an input with data (C72_progress_partial). The process is ended only by an unexpected call-back if the receiver cannot block the port meanwhile (C72_exit_partial); refuted otherwise (C72_exit_refuted, C72_callback_exit_refuted). Further faults: C72_repeat_stuck_refuted, C72_reconnect_refuted, C72_wait_spins_refuted, C72_restart_reconnect_refuted, C72_callback_lost_refuted. Not covered: ProvideInfo, destruction, several pools."
  },
  {
   "property": "C73",
   "status": "partial",
   "theorems": [
    "C73_order_partial",
    "C73_all_received_partial",
    "C73_steps_partial",
    "C73_kept_partial",
    "C73_declined_refuted",
    "C73_short_loop_refuted",
    "C73_no_events_refuted"
   ],
   "note": "Refuted in general: buffers sent before the close are thrown away when ProcessRecv has returned false (C73_declined_refuted), when the loop length is below the queue size (C73_short_loop_refuted) and when the port asks for no events (C73_no_events_refuted). Proved for every interleaving: in order, nothing but the end of the queue is lost and only after the sender has gone (C73_order_partial); a receiver that takes what it finds, with a signalling kind and no short loop length, receives everything whatever the configuration of its port (C73_all_received_partial); the threads come to rest after a bounded number of steps (C73_steps_partial); a port with reconnection, request object, onerror option or without automatic stop throws nothing away (C73_kept_partial). Not modelled: reconnection itself, other events of the receiving module, Recv outside ProcessRecv."
  },
  {
   "property": "C74",
   "status": "partial",
   "theorems": [
    "C74_groups_partial",
    "C74_complete_partial",
    "C74_join_partial",
    "C74_kept_partial",
    "C74_sent_partial",
    "C74_fits_partial",
    "C74_progress_partial",
    "C74_too_big_refuted",
    "C74_overflow_split_refuted",
    "C74_overflow_lost_refuted"
   ],
   "note": "Refuted in general: two events in a row too big for a buffer stop the builder for good (C74_too_big_refuted); around an overflow of the numbers three inputs get one number built twice, each time incomplete (C74_overflow_split_refuted), or a complete event is lost when one of the inputs is optional (C74_overflow_lost_refuted). Proved for all runs: no invalid access, every event written is made from a legal group, every input event is used at most once and in order (C74_groups_partial); with complete events only, an event complete at all inputs is built, also across the overflow (C74_complete_partial); with incomplete events allowed, everything that leaves its input was written with all the events of that number as long as no queue is full (C74_join_partial); inputs without numbers and special events lose nothing (C74_kept_partial); what is written is sent by a later timer event (C74_sent_partial), in buffers neither empty nor too big (C74_fits_partial); with an event at every input a call makes progress (C74_progress_partial). C74_complete and C74_join are for plain inputs (number in the header, not optional), no tolerance, numbers growing by at most a sixth of the number range, big enough buffers; C74_join with more than two inputs is for numbers without overflow. Not modelled: commands which change the configuration of inputs, the contents of the information texts and rates."
  },
  {
   "property": "C75",
   "status": "partial",
   "theorems": [
    "C75_values_partial",
    "C75_plain_partial",
    "C75_unclosed_partial",
    "C75_ends_partial",
    "C75_entries_partial",
    "C75_circle_refuted",
    "C75_environment_refuted",
    "C75_no_entry_refuted",
    "C75_empty_list_refuted",
    "C75_joined_refuted"
   ],
   "note": "Refuted in general: a definition which uses itself never returns (C75_circle_refuted), nor does an environment variable with its own name in it (C75_environment_refuted); the # of an entry of an undefined variable stays in the text (C75_no_entry_refuted); an empty list counts as one entry (C75_empty_list_refuted); a value ending with $ makes a variable of the text behind it (C75_joined_refuted). Proved: for definitions without circles and texts which can be read in one way only the result is what the text stands for (C75_values_partial, C75_entries_partial); text without ${ is unchanged (C75_plain_partial); with a missing bracket nothing is replaced (C75_unclosed_partial); every text at all is resolved when the values contain no $ (C75_ends_partial). Not modelled: error output, zero bytes in names."
  },
  {
   "property": "C76",
   "status": "partial",
   "theorems": [
    "C76_walk_partial",
    "C76_once_partial",
    "C76_pruned_partial",
    "C76_ends_partial",
    "C76_removed_refuted",
    "C76_inserted_refuted",
    "C76_running_partial",
    "C76_running_yes_partial",
    "C76_running_refuted",
    "C76_print_refuted"
   ],
   "note": "Refuted in general: a child removed during the walk makes it skip another object (C76_removed_refuted), one put in front makes it report an object twice (C76_inserted_refuted); IsAnyModuleRunning misses a running module in a folder behind a module which does not run (C76_running_refuted); the command Print never lists anything (C76_print_refuted). Proved: with objects only added behind their siblings every call goes to the first open place behind the last one, with right level and parents, no null pointer is used and the walk starts again after its end (C76_walk_partial); each object there at the beginning is reported once (C76_once_partial); the limit and the refusals of the caller leave out exactly what lies below them (C76_pruned_partial); the walk ends (C76_ends_partial); IsAnyModuleRunning is right when modules are children of the manager (C76_running_partial), its yes always (C76_running_yes_partial). Not modelled: changes within one call of next(), reference counts, the item name kept by the iterator."
  },
  {
   "property": "C77",
   "status": "partial",
   "theorems": [
    "C77_find",
    "C77_force",
    "C77_item_partial",
    "C77_create_partial",
    "C77_twice_refuted",
    "C77_slash_refuted",
    "C77_full_name_refuted"
   ],
   "note": "Refuted in general: two children may have the same name and the second is not found by its item name (C77_twice_refuted); a name ending with a slash gives an object no path leads to (C77_slash_refuted); in a tree without manager the item name starts with the name of the top object and does not lead to the object (C77_full_name_refuted). Proved without restriction: what a path leads to (C77_find), creation of missing objects (C77_force). Proved with restriction: item names lead back when the names on the way contain no slash, are not . or .. and are the first of their folder (C77_item_partial); created objects are found (C77_create_partial). Not modelled: zero bytes in names, removal of objects during the search, reference counts."
  },
  {
   "property": "C78",
   "status": "partial",
   "theorems": [
    "C78_value",
    "C78_record",
    "C78_selected",
    "C78_comments_partial",
    "C78_comment_refuted",
    "C78_exact_refuted"
   ],
   "note": "Proved without restriction: the value (C78_value), the record (C78_record), the selected context decides when all names agree exactly there (C78_selected). Refuted: a comment is a node named by its text, so <!--Num--> in front of <Num value=\"4\"/> hides the value (C78_comment_refuted); an exact name does not win over a wildcard when another node on the way agrees only with wildcards (C78_exact_refuted). C78_comments_partial: comments do not matter when none has just a name which is looked for as its text. Not modelled: parsing of the file, name space attributes."
  },
  {
   "property": "C79",
   "status": "partial",
   "theorems": [
    "C79_content_partial",
    "C79_silent_partial",
    "C79_current_partial",
    "C79_version_partial",
    "C79_sync_partial",
    "C79_zero_refuted",
    "C79_repeat_refuted",
    "C79_source_refuted",
    "C79_lagging_refuted",
    "C79_names_removed_refuted",
    "C79_pending_refuted"
   ],
   "note": "Proved for values which a Set method stores as they are: the content after any update (C79_content_partial, C79_current_partial), no change reported only when there is none (C79_silent_partial), versions (C79_version_partial, the last part for values which are compared), and the reader one update behind, for full transfer and for names (C79_sync_partial). Refuted: a negative zero does not replace a zero (C79_zero_refuted); the same array of strings, or the same not-a-number, counts as a change each time (C79_repeat_refuted); new items are taken out of the source, which root/src/Monitor.cxx:286-294 then sends as list of names (C79_source_refuted); a reader two updates behind loses fields of an item it had to drop (C79_lagging_refuted); with transfer of names a removed field with an underscore stays (C79_names_removed_refuted); an item created in the target itself before the update is never sent (C79_pending_refuted). Not modelled: protected hash fields, permanent items."
  },
  {
   "property": "C80",
   "status": "partial",
   "theorems": [
    "C80_reads_partial",
    "C80_buffers_partial",
    "C80_unique_partial",
    "C80_total_partial",
    "C80_root_partial",
    "C80_closing_refuted",
    "C80_text_refuted",
    "C80_header_refuted",
    "C80_content_refuted",
    "C80_buffer_refuted"
   ],
   "note": "Proved: all documents with attributes below 24998 characters are read as written (C80_reads_partial), for any length of the file, and for any size of the buffer with attributes below about a quarter of it (C80_buffers_partial); a text describes one document (C80_unique_partial); parsing ends for every text, and keeps to defined behaviour for files below the size of the buffer (C80_total_partial); the root element behind an xml header (C80_root_partial). Refuted: a closing tag which is only the begin of the name is accepted (C80_closing_refuted); characters outside ASCII at the begin of a text are dropped as white space (C80_text_refuted); without a header the root element is not found (C80_header_refuted); the content of an element with an empty comment as first child is read beyond the memory of the comment (C80_content_refuted); a long attribute value in a file above 100000 bytes makes the parser use freed memory (C80_buffer_refuted). Name spaces are modelled, but documents of the specification define none. Not modelled: zero bytes in the file, failing malloc, line numbers of messages."
  },
  {
   "property": "C81",
   "status": "partial",
   "theorems": [
    "C81_order_partial",
    "C81_complete_partial",
    "C81_delivered_partial",
    "C81_requests_partial",
    "C81_odd_refuted"
   ],
   "note": "Proved for all interleavings: order, contents and absence of errors (C81_order_partial), completeness at rest (C81_complete_partial), rest is reached from everywhere within a limited number of events (C81_delivered_partial), one packet per request (C81_requests_partial). Refuted: without iterator a buffer of odd size loses its last byte and the next packet, unnoticed (C81_odd_refuted). Not modelled: CLOSE, socket errors, EOF and EOL buffers, swapping, spanning, several streams, stopping of the transports."
  },
  {
   "property": "C82",
   "status": "partial",
   "theorems": [
    "C82_names_partial",
    "C82_fresh_partial",
    "C82_sessions_partial",
    "C82_init_partial",
    "C82_order_partial",
    "C82_short_refuted",
    "C82_digits_refuted",
    "C82_date_refuted",
    "C82_hidden_refuted",
    "C82_order_refuted"
   ],
   "note": "Proved: names (C82_names_partial), freshness of all numbers from the chosen one on (C82_fresh_partial), no file twice over all sequences of starts (C82_sessions_partial), success and choice of the number (C82_init_partial), order when reading (C82_order_partial). Refuted: a name one character shorter than the extension throws (C82_short_refuted), a file name of digits only makes the search run below the begin of the name (C82_digits_refuted), a file with date and time at the end overflows the number (C82_date_refuted), hidden files are overwritten (C82_hidden_refuted), from number 10000 on the order when reading is another one (C82_order_refuted). Not modelled: bracket expressions in names, unreadable files and directories, several writers at once, locales other than C."
  },
  {
   "property": "C83",
   "status": "partial",
   "theorems": [
    "C83_answers_partial",
    "C83_executed_partial",
    "C83_complete_partial",
    "C83_delivered_partial",
    "C83_reconnect_refuted",
    "C83_stale_refuted",
    "C83_close_refuted",
    "C83_cancel_refuted",
    "C83_deadline_partial",
    "C83_deadline_refuted"
   ],
   "note": "Proved for all interleavings without cancellation: answers (C83_answers_partial) and executions (C83_executed_partial), for the connecting node also with breaks of the connection; all answered at rest (C83_complete_partial), rest is reached (C83_delivered_partial); deadline told to the other node (C83_deadline_partial). Refuted: a command submitted during reconnection is never sent nor answered (C83_reconnect_refuted), a command of the old connection answers another one of the new connection (C83_stale_refuted), waiting commands of the accepting node vanish with the connection (C83_close_refuted), a cancelled command lets a command of the other node time out (C83_cancel_refuted), deadlines below one second are lost (C83_deadline_refuted). Not modelled: raw data, commands of the channel itself, damaged packets, ends which notice a break at different times."
  },
  {
   "property": "C84",
   "status": "partial",
   "theorems": [
    "C84_roundtrip_partial",
    "C84_safe_partial",
    "C84_foreign",
    "C84_redirect",
    "C84_buffer_partial",
    "C84_buffer_refuted",
    "C84_bounds_refuted",
    "C84_stale_refuted",
    "C84_size_refuted",
    "C84_segments_refuted"
   ],
   "note": "Proved: round trip of all messages with raw data in one segment and less than 2 GB (C84_roundtrip_partial); safety and origin of the bytes for all streams whose headers have sizes which fit together (C84_safe_partial); foreign headers (C84_foreign), connection requests (C84_redirect), buffer sizes (C84_buffer_partial). Refuted: sizes in the header are not compared, 24 bytes are enough to read without a buffer (C84_bounds_refuted); bytes of a former connection and unwritten cells are given on (C84_stale_refuted); sizes from 2 GB stop the receiver for ever (C84_buffer_refuted, C84_size_refuted); raw data in several segments is read behind the first (C84_segments_refuted). Not modelled: failing allocation, failures of the socket while a packet is processed."
  },
  {
   "property": "C85",
   "status": "partial",
   "theorems": [
    "C85_answers",
    "C85_transport",
    "C85_safe_partial",
    "C85_request_partial",
    "C85_request_long",
    "C85_expired_refuted",
    "C85_twice_refuted",
    "C85_request_refuted"
   ],
   "note": "Proved for all runs which do not use a deleted record: answers (C85_answers) and transports (C85_transport). No deleted record is used when each id is used by one protocol and orders with a protocol do not expire (C85_safe_partial); ids below 95 characters without zero are read as written (C85_request_partial), longer ones are read beyond what was written (C85_request_long). Refuted: an order which expires while its protocol is active (C85_expired_refuted), two requests with the same id (C85_twice_refuted), a request without terminating zero (C85_request_refuted). Not modelled: addresses used again, the mutex, delayed deletion of workers, the transport."
  },
  {
   "property": "C86",
   "status": "partial",
   "theorems": [
    "C86_replace",
    "C86_empty",
    "C86_names_partial",
    "C86_template_partial",
    "C86_distinct_partial",
    "C86_nested_refuted",
    "C86_overlap_refuted"
   ],
   "note": "Proved for all texts: replacement ends with exactly the specified and only possible result (C86_replace), an empty match changes nothing (C86_empty). Names proved for templates with any marks in any order, when texts and name have no percent sign and no text between marks is the bare word of the name mark (C86_template_partial; C86_names_partial without the last condition for one name and one number mark), different numbers give different ends for templates with a number mark (C86_distinct_partial). Refuted: marks inside of a name are replaced too (C86_nested_refuted), the end of one mark and the begin of the next can be taken for a name mark (C86_overlap_refuted)."
  }
 ]
}