{
 "claims": [
  {
   "property": "C01",
   "status": "proved",
   "theorems": [
    "C01_tcl_escape_lossless"
   ],
   "note": ""
  },
  {
   "property": "C02",
   "status": "partial",
   "theorems": [
    "C02_tcl_list_roundtrip_partial",
    "C02_tcl_list_lost_last",
    "C02_tcl_list_roundtrip_refuted"
   ],
   "note": "Round trip proved for every list except one exactly characterised shape (unbalanced last element ending in a newline), where the code drops that element; refuted witness given."
  },
  {
   "property": "C03",
   "status": "proved",
   "theorems": [
    "C03_tcl_getword_framing",
    "C03_tcl_getword_stable"
   ],
   "note": ""
  },
  {
   "property": "C04",
   "status": "partial",
   "theorems": [
    "C04_tcl_escape_safe",
    "C04_tcl_escape_two_pass",
    "C04_tcl_decode_total",
    "C04_tcl_unescape_safe_iff_partial",
    "C04_tcl_unescape_safe_refuted"
   ],
   "note": "Escape, decode, getword safe for every input; direct unescape safe iff the string is not a lone double quote (refuted there: runs past the end)."
  },
  {
   "property": "C05",
   "status": "proved",
   "theorems": [
    "C05_hex_encoder_any_chunking",
    "C05_hex_decoder_any_chunking",
    "C05_hex_roundtrip",
    "C05_hexify",
    "C05_unhexify_safe",
    "C05_unhexify"
   ],
   "note": ""
  },
  {
   "property": "C06",
   "status": "proved",
   "theorems": [
    "C06_base64_encoder",
    "C06_base64_decoder",
    "C06_base64_decoder_once",
    "C06_base64_roundtrip",
    "C06_base64_rejects"
   ],
   "note": ""
  },
  {
   "property": "C07",
   "status": "proved",
   "theorems": [
    "C07_escape",
    "C07_printable",
    "C07_unescape",
    "C07_unescape_size",
    "C07_roundtrip",
    "C07_default_tables",
    "C07_unescape_safe"
   ],
   "note": ""
  },
  {
   "property": "C08",
   "status": "proved",
   "theorems": [
    "C08_roundtrip",
    "C08_output",
    "C08_roundtrip_custom",
    "C08_decode_safe"
   ],
   "note": ""
  },
  {
   "property": "C09",
   "status": "partial",
   "theorems": [
    "C09_encoder_any_chunking",
    "C09_decoder_any_chunking",
    "C09_encoder_room_partial",
    "C09_decoder_room_partial",
    "C09_encoder_short_refuted",
    "C09_decoder_exact_fit_refuted"
   ],
   "note": ""
  },
  {
   "property": "C10",
   "status": "partial",
   "theorems": [
    "C10_xor_stream",
    "C10_xor_inverse",
    "C10_counter_period",
    "C10_ctr_stream",
    "C10_ctr_inverse",
    "C10_empty_key_refuted",
    "C10_empty_counter_refuted"
   ],
   "note": ""
  },
  {
   "property": "C11",
   "status": "partial",
   "theorems": [
    "C11_circular_queue",
    "C11_inplace_queue",
    "C11_optgettable_refuted",
    "C11_zero_size_refuted"
   ],
   "note": "Proved for every capacity > 0 and every operation sequence for WvCircularBuf and WvInPlaceBuf. Refuted: \"optgettable() != 0 if used() != 0\" after a peek into a history that fills the buffer; capacity 0 divides by zero."
  },
  {
   "property": "C12",
   "status": "partial",
   "theorems": [
    "C12_dynbuf_queue_partial",
    "C12_peek_start",
    "C12_any_history",
    "C12_peek_offset_refuted",
    "C12_history_peek_refuted"
   ],
   "note": "Proved for every growth parameter and every sequence without negative-offset peeks/copies, and peek(0,n) for every n. The missing cases are false of the code: C12_peek_offset_refuted, C12_history_peek_refuted."
  },
  {
   "property": "C13",
   "status": "partial",
   "theorems": [
    "C13_merge",
    "C13_history_peek_refuted"
   ],
   "note": "Proved for all pairs of buffer kinds after any forward operations and merges. Refuted for a source whose history was peeked at (assertion)."
  },
  {
   "property": "C14",
   "status": "proved",
   "theorems": [
    "C14_linear",
    "C14_prefix",
    "C14_one_writer_needed"
   ],
   "note": "Two-process transition system, one shared access per step; linearizable to a bounded queue for every schedule. C14_one_writer_needed shows the single-writer hypothesis is needed."
  },
  {
   "property": "C15",
   "status": "partial",
   "theorems": [
    "C15_list",
    "C15_find_next_refuted",
    "C15_unlink_rewound_refuted"
   ],
   "note": "Pointer-level heap refined to lists for every operation sequence. find_next and unlink on a rewound iterator do not do what the header says (refuted)."
  },
  {
   "property": "C16",
   "status": "proved",
   "theorems": [
    "C16_multimap",
    "C16_found_iff_added_more",
    "C16_huge_hint_refuted"
   ],
   "note": "Slots hold plain lists (C15 shows WvList implements them). C16_huge_hint_refuted records the overflow outside the quantified range."
  },
  {
   "property": "C17",
   "status": "partial",
   "theorems": [
    "C17_multimap",
    "C17_terminates",
    "C17_terminates_adds",
    "C17_add_loops_refuted",
    "C17_huge_hint_refuted"
   ],
   "note": "Partial correctness for every table size; termination for hints below 2^15 and at most 26207 live objects at each add. Termination is false in general: C17_add_loops_refuted exhibits a nearly empty table whose probe sequence wraps at 2^32 and never reaches a free slot."
  },
  {
   "property": "C18",
   "status": "partial",
   "theorems": [
    "C18_unsigned",
    "C18_signed_partial",
    "C18_unique",
    "C18_round_trip",
    "C18_short_min_refuted",
    "C18_int_min_refuted"
   ],
   "note": "Proved for every unsigned value and every signed value except the most negative one of each type, together with uniqueness of the notation and the atoi round trip. The most negative value is a finding: \"-\" for short, signed overflow for int. The double constructor and operator=(int), which use sprintf, are not modelled."
  },
  {
   "property": "C19",
   "status": "partial",
   "theorems": [
    "C19_independent_partial",
    "C19_no_leak_partial",
    "C19_offset_tail_refuted",
    "C19_adjacent_refuted"
   ],
   "note": "Full refinement to independent values and no leak, except (a) a foreign C string that starts within buf->size bytes after the text (memmove without size check, refuted) and (b) programs that both use offset() and assign a string a pointer into itself (refuted). Link counts are unbounded in the model."
  },
  {
   "property": "C20",
   "status": "partial",
   "theorems": [
    "C20_expansion_partial",
    "C20_width_over_precision_refuted",
    "C20_argument_21_refuted"
   ],
   "note": "Exact expansion and memory safety for all formats whose precision, when given, is at least the width; width larger than precision overruns the buffer (refuted on the documented example), as does argument 21."
  },
  {
   "property": "C21",
   "status": "proved",
   "theorems": [
    "C21_strict_join",
    "C21_strict_fields",
    "C21_split_fields",
    "C21_split_drops_empty",
    "C21_null",
    "C21_join",
    "C21_join_empty",
    "C21_join_empty_refuted"
   ],
   "note": "Both splitters are shown to produce the unique list described by a declarative specification, including the temporary NUL they store into their private copy. Sizes below 2^60 bytes are assumed for joins. Joining an empty list is outside the claim: C21_join_empty shows it works exactly for separators of at most two bytes, C21_join_empty_refuted records the buffer underflow for longer ones. The regular-expression splitter is not modelled."
  },
  {
   "property": "C22",
   "status": "proved",
   "theorems": [
    "C22_parse",
    "C22_slashes",
    "C22_round_trip",
    "C22_print_stable",
    "C22_trailing_slash_refuted"
   ],
   "note": "Full for every path. C22_trailing_slash_refuted records that a trailing slash is kept as an empty last segment although the documentation says it is discarded."
  },
  {
   "property": "C23",
   "status": "partial",
   "theorems": [
    "C23_values_partial",
    "C23_canonical_partial",
    "C23_no_leak_partial",
    "C23_append_to_rest_refuted",
    "C23_prepend_to_front_refuted",
    "C23_prepend_after_pop_refuted",
    "C23_append_self_refuted",
    "C23_assign_self_refuted",
    "C23_append_slash_refuted"
   ],
   "note": "Refinement to independent segment lists, memory safety and no leak for every program of constructions, parses, copies, assignments, concatenations, ranges, pops, appends and prepends, except: appending to a key that is the middle or end of another or was popped from, prepending to any part of a key, giving a key to itself, appending to a key with a trailing slash. Each of these goes wrong in the code (refuted witnesses)."
  },
  {
   "property": "C24",
   "status": "proved",
   "theorems": [
    "C24_order",
    "C24_total",
    "C24_transitive",
    "C24_suborsame"
   ],
   "note": "Keys are well-formed (canonical), which C22 shows for every parsed key and C23 for edited ones."
  },
  {
   "property": "C25",
   "status": "partial",
   "theorems": [
    "C25_sound",
    "C25_exact_partial",
    "C25_literal_prefix_refuted",
    "C25_trailing_slash_refuted"
   ],
   "note": "Soundness and termination are shown for every pattern; exactness for patterns whose wildcards come first. The full property is false of the code: an ordinary segment before a wildcard never matches (C25_literal_prefix_refuted) and trailing slashes are treated unevenly (C25_trailing_slash_refuted)."
  },
  {
   "property": "C26",
   "status": "proved",
   "theorems": [
    "C26_get",
    "C26_closed",
    "C26_haschildren",
    "C26_iterator"
   ],
   "note": "get, haschildren and iterator after any history of sets with well-formed keys, with hash tables enumerating in any order. Keys with a trailing slash: get gives null, setting a value is ignored, setting null removes the key without the slash (part of the specification set_key)."
  },
  {
   "property": "C27",
   "status": "proved",
   "theorems": [
    "C27_mirror",
    "C27_exact",
    "C27_quiet",
    "C27_dirty"
   ],
   "note": "replaying the notifications of any history gives the contents; each notification is a real change to the reported value, each changed key is reported exactly once, nothing otherwise; dirty is raised exactly then. Delivery of held notifications is C28."
  },
  {
   "property": "C28",
   "status": "partial",
   "theorems": [
    "C28_in_order",
    "C28_exactly_once",
    "C28_held_partial",
    "C28_released",
    "C28_no_fault",
    "C28_hold_in_callback_refuted"
   ],
   "note": "order and exactly-once for all behaviours of program and callbacks; nothing dispatched while held is proved for callbacks that undo their holds before returning, and refuted otherwise (C28_hold_in_callback_refuted)."
  },
  {
   "property": "C29",
   "status": "proved",
   "theorems": [
    "C29_get",
    "C29_own_writes",
    "C29_iterator",
    "C29_slash_get_refuted",
    "C29_slash_set_refuted",
    "C29_slash_remove_refuted"
   ],
   "note": "Keys with a trailing slash are excluded by the property; three theorems show how they differ. The base is a UniTempGen."
  },
  {
   "property": "C30",
   "status": "proved",
   "theorems": [
    "C30_commit",
    "C30_refresh"
   ],
   "note": "The base is a UniTempGen."
  },
  {
   "property": "C31",
   "status": "partial",
   "theorems": [
    "C31_exact_partial",
    "C31_unheard",
    "C31_mirror_partial",
    "C31_commit_silent",
    "C31_mirror_refuted"
   ],
   "note": "The notifications of a set, a base set and a refresh are exact except for sets of a key that exists only because of a key below and goes from one non-empty value to another: those change the value silently (C31_unheard), so the property fails there (C31_mirror_refuted)."
  },
  {
   "property": "C32",
   "status": "partial",
   "theorems": [
    "C32_get",
    "C32_owner",
    "C32_set",
    "C32_setv",
    "C32_exists",
    "C32_commit",
    "C32_refresh_partial",
    "C32_mount",
    "C32_unmount",
    "C32_unmount_mounted",
    "C32_zap",
    "C32_children",
    "C32_recursive",
    "C32_reachable",
    "C32_memory_generator",
    "C32_refresh_refuted",
    "C32_slash_refuted",
    "C32_unmount_refuted",
    "C32_children_refuted"
   ],
   "note": "routing of get, set, setv, exists, haschildren, commit, mount, unmount and zap over arbitrary generators, in every reachable state. Missing: refresh stops at the first failing generator (C32_refresh_refuted); mount points with a trailing slash (C32_slash_refuted); unmounting what is not mounted faults (C32_unmount_refuted)."
  },
  {
   "property": "C33",
   "status": "partial",
   "theorems": [
    "C33_readonly_partial",
    "C33_readonly_refuted",
    "C33_subtree_get",
    "C33_subtree_set",
    "C33_subtree_partial",
    "C33_subtree_refuted",
    "C33_subtree_notify",
    "C33_secure_set",
    "C33_secure_partial",
    "C33_secure_refuted"
   ],
   "note": "every sequence of calls but bulk sets (and, for subtree and secure, but refresh and commit, which are the inner generator's own). Bulk sets go through unchecked: C33_readonly_refuted, C33_subtree_refuted, C33_secure_refuted."
  },
  {
   "property": "C34",
   "status": "proved",
   "theorems": [
    "C34_findperm",
    "C34_level",
    "C34_inherited",
    "C34_default",
    "C34_reading",
    "C34_notify",
    "C34_iterator_partial",
    "C34_chmod",
    "C34_iterator_refuted",
    "C34_minus_one_refuted"
   ],
   "note": "the full statement is C34_findperm, for every permission generator, credentials and key, with C34_level, C34_inherited, C34_default, C34_reading, C34_notify and C34_chmod beside it. The refuted theorems are about neighbours of the claim: iterating over a missing key (C34_iterator_refuted), an entry of -1 (C34_minus_one_refuted)."
  },
  {
   "property": "C35",
   "status": "proved",
   "theorems": [
    "C35_roundtrip",
    "C35_harmless",
    "C35_loaded",
    "C35_crash",
    "C35_everyday_value",
    "C35_everyday_key",
    "C35_braced_value",
    "C35_injection_refuted",
    "C35_values_refuted",
    "C35_quote_refuted",
    "C35_keys_refuted",
    "C35_empty_refuted"
   ],
   "note": "The statement is restricted to keys and values the format can hold; the restriction is exact for harmless values, and the _refuted theorems show what happens outside it (injection of keys, lost braces and backslashes, reading beyond the string)."
  },
  {
   "property": "C36",
   "status": "proved",
   "theorems": [
    "C36_atomic",
    "C36_commit",
    "C36_inplace",
    "C36_slow_refuted",
    "C36_power_refuted",
    "C36_window_refuted",
    "C36_unmarked_refuted"
   ],
   "note": "The exclusions are shown to be needed by C36_slow_refuted, C36_power_refuted, C36_window_refuted and C36_unmarked_refuted."
  },
  {
   "property": "C37",
   "status": "proved",
   "theorems": [
    "C37_all_or_nothing",
    "C37_complete",
    "C37_failed_refuted"
   ],
   "note": "The original wish that a failed write keeps the old file is refuted by C37_failed_refuted."
  },
  {
   "property": "C38",
   "status": "proved",
   "theorems": [
    "C38_order",
    "C38_limit",
    "C38_flush",
    "C38_gap_refuted",
    "C38_limit_refuted",
    "C38_flush0_refuted"
   ],
   "note": "Histories of a WvFdStream-like stream over an arbitrary device. The excluded cases are shown to fail by C38_gap_refuted, C38_limit_refuted and C38_flush0_refuted."
  },
  {
   "property": "C39",
   "status": "proved",
   "theorems": [
    "C39_order",
    "C39_line",
    "C39_ready",
    "C39_stuck_refuted"
   ],
   "note": "unread and reads from inside callbacks are not modelled."
  },
  {
   "property": "C40",
   "status": "proved",
   "theorems": [
    "C40_obeys",
    "C40_once",
    "C40_called",
    "C40_closes"
   ],
   "note": "obeys in StreamSpec.v is the rule; C40_once and C40_called spell out what it means for one callback."
  },
  {
   "property": "C41",
   "status": "proved",
   "theorems": [
    "C41_limit",
    "C41_running",
    "C41_order",
    "C41_sync",
    "C41_busy",
    "C41_drains",
    "C41_zero_refuted",
    "C41_twice_refuted"
   ],
   "note": "Every history of add and go, every completion order (each go() is told which processes ended). Processes are named by distinct numbers. The two _refuted theorems are the negative halves of the statement: a limit of zero, and three starts after the last add."
  },
  {
   "property": "C42",
   "status": "proved",
   "theorems": [
    "C42_newest",
    "C42_negative",
    "C42_feed_refuted"
   ],
   "note": "Statement covers all limits; the _refuted theorem is the negative half of the statement (feed_receiver). Addresses of messages are modelled by serial numbers."
  },
  {
   "property": "C43",
   "status": "partial",
   "theorems": [
    "C43_microseconds",
    "C43_from_microseconds",
    "C43_order",
    "C43_unique",
    "C43_msecadd",
    "C43_tvdiff",
    "C43_add_diff",
    "C43_msecdiff_partial",
    "C43_msecdiff_refuted",
    "C43_normalize_partial",
    "C43_normalize_refuted",
    "C43_forward",
    "C43_sync"
   ],
   "note": "msecadd, tvdiff, order and the stepped clock are exact. Missing: msecdiff rounds up when the microseconds differ in the other direction than the seconds (C43_msecdiff_refuted, exact bound in C43_msecdiff_partial); normalize is a second off for negative whole seconds of microseconds (C43_normalize_refuted, exact in C43_normalize_partial)."
  },
  {
   "property": "C44",
   "status": "proved",
   "theorems": [
    "C44_number",
    "C44_operators",
    "C44_add",
    "C44_bits",
    "C44_bits_refuted",
    "C44_range",
    "C44_includes",
    "C44_include",
    "C44_normalize_partial",
    "C44_normalize_refuted",
    "C44_print",
    "C44_net_print",
    "C44_port_print",
    "C44_port_service"
   ],
   "note": "all parts of the claim hold for every address and every length 0..32. The refuted theorems are neighbours: a length above 32 shifts by a negative amount (C44_bits_refuted); normalize loses addresses for masks that begin with 01 (C44_normalize_refuted)."
  },
  {
   "property": "C45",
   "status": "partial",
   "theorems": [
    "C45_tcl_escape_null_refuted",
    "C45_tcl_unescape_null"
   ],
   "note": "Code returns the empty string for null (refuted); unescape keeps null."
  },
  {
   "property": "C46",
   "status": "partial",
   "theorems": [
    "C46_tcl_quoted_word_refuted"
   ],
   "note": "Refuted: no quoted word is ever returned; witness is the header's own example."
  },
  {
   "property": "C47",
   "status": "partial",
   "theorems": [
    "C47_mask_membership_partial",
    "C47_mask_set_char_partial",
    "C47_mask_high_byte_refuted"
   ],
   "note": "Proved for ASCII strings; any byte >= 0x80 is an out-of-bounds store (refuted)."
  },
  {
   "property": "C48",
   "status": "partial",
   "theorems": [
    "C48_documented_escapes_partial",
    "C48_line_continuation_refuted"
   ],
   "note": ""
  },
  {
   "property": "C49",
   "status": "proved",
   "theorems": [
    "C49_strings",
    "C49_keys"
   ],
   "note": "Full."
  },
  {
   "property": "C50",
   "status": "partial",
   "theorems": [
    "C50_round_trip",
    "C50_decimal",
    "C50_words",
    "C50_missing",
    "C50_numeric",
    "C50_wrap_refuted",
    "C50_octal_refuted"
   ],
   "note": "Missing: a number that does not fit an int wraps (C50_wrap_refuted), a leading zero means octal (C50_octal_refuted)."
  },
  {
   "property": "C51",
   "status": "partial",
   "theorems": [
    "C51_reflexive",
    "C51_symmetric",
    "C51_same_kind_partial",
    "C51_across",
    "C51_transitive_refuted",
    "C51_hash_refuted"
   ],
   "note": "reflexive and symmetric for all; identity within one kind; exactly characterised across kinds (C51_across). Transitivity and hashing fail across kinds: C51_transitive_refuted, C51_hash_refuted."
  },
  {
   "property": "C52",
   "status": "proved",
   "theorems": [
    "C52_console",
    "C52_decided",
    "C52_nameless_refuted",
    "C52_level_refuted"
   ],
   "note": "The two _refuted theorems show the excluded inputs (a null source with custom levels; a level that does not exist) fault."
  },
  {
   "property": "C53",
   "status": "proved",
   "theorems": [
    "C53_remote",
    "C53_settles",
    "C53_returned",
    "C53_remove_blank_refuted",
    "C53_remove_dot_refuted",
    "C53_setv_refuted",
    "C53_newline_refuted",
    "C53_slash_refuted"
   ],
   "note": "Proved for the calls the statement covers; the exclusions are each refuted by a run in which every byte arrives (theorems named _refuted)."
  },
  {
   "property": "C54",
   "status": "proved",
   "theorems": [
    "C54_change",
    "C54_removal",
    "C54_clean",
    "C54_destroy",
    "C54_destroy_refuted",
    "C54_trailing_refuted",
    "C54_complete"
   ],
   "note": "Proved for changes reported at keys without a trailing slash; a change reported at a key with one calls a callback twice (C54_trailing_refuted). Leftover watches of the root key are not noticed by the destructor (C54_destroy, C54_destroy_refuted). Callbacks that add or remove watches while they run are not modelled."
  },
  {
   "property": "C55",
   "status": "proved",
   "theorems": [
    "C55_refresh",
    "C55_mirror",
    "C55_failed",
    "C55_same",
    "C55_stale_refuted",
    "C55_retry_refuted",
    "C55_removed_refuted"
   ],
   "note": "Proved as stated. Refuted beyond it: a change within one second that keeps the size is not seen (C55_stale_refuted), a refresh after one that failed in the middle of the file claims success without reading it (C55_retry_refuted), and the removal of a key is told several times (C55_removed_refuted)."
  },
  {
   "property": "C56",
   "status": "proved",
   "theorems": [
    "C56_get",
    "C56_set",
    "C56_mirror",
    "C56_iterator",
    "C56_haschildren",
    "C56_parent_refuted",
    "C56_glitch_refuted"
   ],
   "note": "Proved for lists of memory generators (C26, C27). Refuted and excluded by the statement: that the keys above a set one keep their values (C56_parent_refuted); that only true values are notified in between (C56_glitch_refuted). refresh, commit and isok are not modelled."
  },
  {
   "property": "C57",
   "status": "proved",
   "theorems": [
    "C57_recursive",
    "C57_end",
    "C57_safe"
   ],
   "note": "Proved for memory generators; C57_end and C57_safe hold for any generator. The generator does not change during the walk."
  },
  {
   "property": "C58",
   "status": "proved",
   "theorems": [
    "C58_make",
    "C58_agree",
    "C58_get",
    "C58_set",
    "C58_inner",
    "C58_mirror",
    "C58_root_refuted",
    "C58_isok_refuted",
    "C58_inner_refuted",
    "C58_removed_refuted"
   ],
   "note": "Proved for generators that keep their keys in memory; hold_delta makes all notifications come when the call is done. Refuted, and therefore excluded in the statement: the value of the root is not replicated (C58_root_refuted); after a generator came back, isok() or a direct change marks it as known without replicating, and nothing makes up for it later (C58_isok_refuted, C58_inner_refuted). Not claimed: a key that is removed while a generator is away comes back with it (C58_removed_refuted)."
  },
  {
   "property": "C59",
   "status": "proved",
   "theorems": [
    "C59_get",
    "C59_before",
    "C59_mirror",
    "C59_refresh",
    "C59_empty_refuted",
    "C59_root_refuted",
    "C59_before_refuted"
   ],
   "note": "Refuted, and therefore excluded in the statement: keys with an empty value and the value of the root are not loaded (C59_empty_refuted, C59_root_refuted); before refresh a key may read as the empty string although it has another value (C59_before_refuted)."
  },
  {
   "property": "C60",
   "status": "proved",
   "theorems": [
    "C60_get",
    "C60_once",
    "C60_haschildren",
    "C60_mirror",
    "C60_stale_refuted"
   ],
   "note": "Proved for the states between calls. While the notifications of one change are being handed out, a remembered key can read as before (C60_stale_refuted)."
  },
  {
   "property": "C61",
   "status": "proved",
   "theorems": [
    "C61_default",
    "C61_get",
    "C61_set",
    "C61_safe",
    "C61_precedence_refuted",
    "C61_root_refuted",
    "C61_slash_refuted",
    "C61_literal_refuted",
    "C61_negative_refuted",
    "C61_mirror_refuted"
   ],
   "note": "Proved for a memory generator below, keys of fewer than 2^31 segments. The header states the opposite preference (C61_precedence_refuted). Excluded in the statement and refuted: the root and keys with a trailing slash read defaults for one more segment (C61_root_refuted, C61_slash_refuted), a key set to a reference reads as null (C61_literal_refuted), negative numbers give the last segment (C61_negative_refuted). Not claimed: notifications for keys that read as a changed default (C61_mirror_refuted)."
  },
  {
   "property": "C62",
   "status": "proved",
   "theorems": [
    "C62_roundtrip",
    "C62_format",
    "C62_any",
    "C62_short",
    "C62_null_refuted",
    "C62_short_refuted",
    "C62_word_refuted",
    "C62_unterminated_refuted",
    "C62_size_refuted",
    "C62_flood_refuted"
   ],
   "note": "The buffer is the sequence of its bytes (C01 and C02 are about the buffers themselves). Excluded in the statement and refuted: null strings come back empty (C62_null_refuted); integers of two bytes are lost on machines with the most significant byte first (C62_short_refuted), so `good` excludes them there. Not claimed: reading on a machine with another size_t (C62_word_refuted); bytes not written by wv_serialize in other buffers, or as a buffer (C62_unterminated_refuted, C62_size_refuted); the time to read a list, whose size is believed (C62_flood_refuted)."
  },
  {
   "property": "C63",
   "status": "proved",
   "theorems": [
    "C63_parse",
    "C63_safe",
    "C63_print",
    "C63_host_refuted",
    "C63_password_refuted",
    "C63_empty_user_refuted",
    "C63_file_refuted",
    "C63_short_refuted",
    "C63_blank_refuted",
    "C63_slashes_refuted"
   ],
   "note": "The resolver's answer is a parameter and only matters for isok. Excluded in the statement and refuted: users without a name lose their password or another part when printed (C63_password_refuted, C63_empty_user_refuted); too short texts are read beyond their end, and texts with a blank after the colon go on behind it (C63_short_refuted, C63_blank_refuted). What the form means differs from the standard: C63_host_refuted (an at sign in the path), C63_slashes_refuted, C63_file_refuted (file URLs are never ok)."
  },
  {
   "property": "C64",
   "status": "proved",
   "theorems": [
    "C64_total",
    "C64_matches",
    "C64_quoted",
    "C64_errors",
    "C64_negated_slash_refuted",
    "C64_set_refuted"
   ],
   "note": "regcomp and regexec are specified in GlobSpec (POSIX extended expressions: parser and match relation), not modelled from code. Well-formed excludes forms the code gets wrong, which are refuted: C64_set_refuted (a closing bracket first in a negated set, two circumflexes first). C64_negated_slash_refuted: a negated set matches a slash; the specification says so."
  },
  {
   "property": "C65",
   "status": "proved",
   "theorems": [
    "C65_safe",
    "C65_lifetime",
    "C65_select",
    "C65_round",
    "C65_timeout"
   ],
   "note": "Rules for the user are stated in SlistSpec.allowed. Streams' own behaviour is arbitrary; destructors are assumed not to touch the list. When a callback selects again, what was still to be called is dropped and asked again (ex_nested)."
  },
  {
   "property": "C66",
   "status": "proved",
   "theorems": [
    "C66_replace",
    "C66_replace_empty_refuted",
    "C66_before_after",
    "C66_substr",
    "C66_substr_refuted",
    "C66_undupe",
    "C66_count",
    "C66_spacecat",
    "C66_spacecat_refuted",
    "C66_depunctuate",
    "C66_snip",
    "C66_backslash"
   ],
   "note": "The refuted theorems show that the exclusions in the statement are real: those inputs loop for ever or touch memory outside the string."
  },
  {
   "property": "C67",
   "status": "proved",
   "theorems": [
    "C67_names",
    "C67_forms",
    "C67_root_refuted"
   ],
   "note": "C67_forms shows that C67_names and C67_root_refuted cover every path but the empty one. That the root's directory is empty, not \"/\", is listed as a finding."
  },
  {
   "property": "C68",
   "status": "proved",
   "theorems": [
    "C68_sizetoa",
    "C68_sizeitoa",
    "C68_sizektoa",
    "C68_sizekitoa",
    "C68_size_safe",
    "C68_big_refuted",
    "C68_blocks_refuted",
    "C68_seconds",
    "C68_metriculate",
    "C68_metriculate_refuted"
   ],
   "note": "The refuted theorems show that the limits in the statement are needed: larger sizes are shown wrongly because an overflow test misses them, block sizes that are no powers are rounded early, metriculate(0) is empty."
  },
  {
   "property": "C69",
   "status": "proved",
   "theorems": [
    "C69_chain",
    "C69_finish",
    "C69_through",
    "C69_chunks",
    "C69_machines",
    "C69_hex_of_base64"
   ],
   "note": "Encoders are given as machines in EStreamSpec (works_like); C69_machines shows that the four modelled encoders qualify. Failing and self-finishing encoders are modelled but outside the theorems."
  },
  {
   "property": "C70",
   "status": "proved",
   "theorems": [
    "C70_live",
    "C70_flush",
    "C70_close",
    "C70_eof",
    "C70_append",
    "C70_full_refuted",
    "C70_last_bytes_refuted",
    "C70_queuemin_refuted",
    "C70_isok_refuted",
    "C70_bypass_refuted",
    "C70_held_refuted"
   ],
   "note": "The refuted theorems show that each condition in the statement is needed: a full stream below, last bytes given in the read that closes, queuemin() at the end, an appended encoder without select() or one that keeps bytes."
  },
  {
   "property": "C71",
   "status": "partial",
   "theorems": [
    "C71_get",
    "C71_get_ends",
    "C71_set",
    "C71_remove_partial",
    "C71_remove_refuted",
    "C71_remove_white_refuted",
    "C71_maybeset",
    "C71_int",
    "C71_words_refuted",
    "C71_fuzzy",
    "C71_fuzzy_list_refuted",
    "C71_callbacks",
    "C71_raw",
    "C71_setraw"
   ],
   "note": "Partial where the code breaks the claim: entries listed twice or with trailing blanks in their name are not removed; fuzzy_get with a list of entries misses some. Each has a refuted theorem with a witness."
  },
  {
   "property": "C72",
   "status": "partial",
   "theorems": [
    "C72_saved",
    "C72_stable",
    "C72_names_refuted",
    "C72_flush",
    "C72_flush_refuted",
    "C72_crash_partial",
    "C72_stuck",
    "C72_crash_refuted"
   ],
   "note": "Partial: stopping between open with O_TRUNC and the sticky bit leaves an empty file that is not marked (C72_crash_refuted); flush() into a missing directory counts as saved (C72_flush_refuted); names that the file syntax cannot hold are read back as something else (C72_names_refuted)."
  },
  {
   "property": "C73",
   "status": "proved",
   "theorems": [
    "C73_layout",
    "C73_total",
    "C73_zero_refuted",
    "C73_cuts",
    "C73_width",
    "C73_words",
    "C73_short_words",
    "C73_no_trailing",
    "C73_same",
    "C73_again",
    "C73_flush_refuted",
    "C73_trailing_refuted",
    "C73_finish_refuted"
   ],
   "note": "C73_layout is an equivalence with the relation laid of WrapSpec, which is a function. The refuted theorems show what the conditions exclude: width 0 writes outside the buffer, a flush inside a word cuts it, finish() without flush drops the held text."
  },
  {
   "property": "C74",
   "status": "partial",
   "theorems": [
    "C74_responses",
    "C74_content",
    "C74_cut_refuted",
    "C74_spelling_refuted",
    "C74_reset_refuted",
    "C74_same_refuted"
   ],
   "note": "Proved for servers described by good_server in HttpSpec and connections without errors. The refuted theorems show behaviour outside: a cut body counts as done without an error, other spellings of the framing headers are not understood, a reset can abort the program and give half a header line to the next request, a request answered like the test of pipelining closes the connection. Time-outs, the text of requests, putstream uploads and closing of the output stream by the user are not modelled."
  },
  {
   "property": "C75",
   "status": "partial",
   "theorems": [
    "C75_dev_serial",
    "C75_dev_orderly",
    "C75_file",
    "C75_dev_calls",
    "C75_file_calls",
    "C75_dev_stale_refuted",
    "C75_dev_exit_refuted",
    "C75_dev_open_refuted",
    "C75_dev_blank_refuted",
    "C75_file_race_refuted",
    "C75_file_unlock_refuted",
    "C75_file_open_refuted"
   ],
   "note": "Exclusion is proved under stated conditions: for WvLockDev if calls of lock() do not overlap and creating a file fails only because it exists (processes end anywhere), or if calls overlap freely but processes end only when they do not hold the lock and nobody is in a call; for WvLockFile if lock() and unlock() overlap no other call and the lock file can be read and written. The refuted theorems show each of the other cases with a schedule in which two hold the lock, or nobody can get it. Partial writes, liblockdev, NFS and overflow of lock_count are not modelled."
  },
  {
   "property": "C76",
   "status": "partial",
   "theorems": [
    "C76_callbacks",
    "C76_once",
    "C76_messages",
    "C76_written",
    "C76_timeout_refuted",
    "C76_resend_refuted",
    "C76_delete_refuted",
    "C76_close_refuted",
    "C76_wait_refuted",
    "C76_cancel_refuted",
    "C76_stuck_refuted"
   ],
   "note": "Framing (C76_messages) and writing (C76_written) hold for all runs. The rules for callbacks hold under `careful`: no request waits longer than its limit, a callback that is given a reply or a cancellation does not make the same request again, no callback deletes one that is still to be asked, and the event loop does not run inside a cancellation. The refuted theorems show that the code uses deleted objects, or loses replies, without these, and that requests pending at a close are never told. Authentication, marshalling (libdbus) and overflow of the number of messages are not modelled."
  },
  {
   "property": "C77",
   "status": "partial",
   "theorems": [
    "C77_served",
    "C77_unique",
    "C77_private",
    "C77_reply",
    "C77_release_refuted",
    "C77_unique_refuted",
    "C77_sender_refuted",
    "C77_lost_refuted"
   ],
   "note": "Proved for all histories in which names are only released by their owners and fewer than 2^31 connections are made. The refuted theorems show that any client can stop the server by releasing a name it does not own, that a client can take the unique name of another and gets its replies, that broadcasts keep the sender the client claims, and that a message to a connection just closed is lost without an error. Authentication, error texts, interfaces, signatures and flags of messages, and the memory of connections are not modelled."
  },
  {
   "property": "C78",
   "status": "proved",
   "theorems": [
    "C78_shows",
    "C78_shows_only",
    "C78_same_end",
    "C78_no_leak",
    "C78_isok_refuted",
    "C78_abort_refuted",
    "C78_dying_yield_refuted"
   ],
   "note": "Both directions of a refinement: the machine with stacks, setjmp contexts, reference counts and recycled tasks shows exactly what the ideal continuations of ContSpec show. The refuted theorems record what users may not expect: isok() stays true for a continuation that destroys its own last object until something returns, and recursion or a second yield after the end aborts. Overflow of a stack and the deletion of WvTaskMan are not modelled."
  },
  {
   "property": "C79",
   "status": "partial",
   "theorems": [
    "C79_inside",
    "C79_overflow_refuted",
    "C79_calendar",
    "C79_year",
    "C79_eplf",
    "C79_unix_year",
    "C79_unix_clock",
    "C79_meant_once",
    "C79_vms",
    "C79_msdos",
    "C79_semicolon_refuted"
   ],
   "note": "Proved for all lines of the formats, with the limits shown: numbers below 10^18 (or 10^10 for years), words between owner and size of at most 17 bytes because longer ones overflow (C79_overflow_refuted), VMS names that do not begin with a letter UNIX lines begin with, MS-DOS names without a semicolon (C79_semicolon_refuted), days other than February 29 when there is no year. Missing: safety for long words, which is false of the code."
  },
  {
   "property": "C80",
   "status": "partial",
   "theorems": [
    "C80_rules",
    "C80_use",
    "C80_released",
    "C80_pace",
    "C80_in_call_partial",
    "C80_pause_refuted",
    "C80_null_refuted",
    "C80_in_call_refuted"
   ],
   "note": "Refinement of the code to the rules of RetrySpec for all environments. Partial because three things in the claim or the header are false of the code, with witnesses: a callback for changes that asks something may delete the generator that calls it (C80_in_call_refuted; proved if such callbacks do not re-enter); the interval is kept on average since the last loss, not between attempts (C80_pause_refuted; C80_pace is what holds); a moniker that gives no generator is tried with every operation (C80_null_refuted)."
  },
  {
   "property": "C81",
   "status": "partial",
   "theorems": [
    "C81_safe",
    "C81_one_connection",
    "C81_ended_once",
    "C81_progress",
    "C81_removed",
    "C81_no_crash_partial",
    "C81_crash_refuted",
    "C81_extra_refuted"
   ],
   "note": "Invariant over all runs, proved for every resolver and every behaviour of the connections; progress for a resolver that does not change its mind. Partial because execute() crashes for the protocols that WvUrl knows and the pool does not (sip, ldap; C81_crash_refuted; nothing else crashes: C81_no_crash_partial), and because a changed answer of the resolver opens a connection that nobody asked for (C81_extra_refuted)."
  },
  {
   "property": "C82",
   "status": "partial",
   "theorems": [
    "C82_next",
    "C82_within",
    "C82_minute",
    "C82_first_partial",
    "C82_again_refuted",
    "C82_stuck_refuted",
    "C82_uneven_refuted",
    "C82_timeout_refuted",
    "C82_disabled_refuted"
   ],
   "note": "next_event() is characterised for every n that divides the day (C82_next) and bounded for every other (C82_within). Partial because the code does not do the rest: after the first event the stored time is in microseconds and overflows (C82_again_refuted), or, if the loop was late, the stream is ready for ever (C82_stuck_refuted); n that does not divide the day gives extra events (C82_uneven_refuted); the time to sleep is wrong (C82_timeout_refuted); n = 0 is always ready (C82_disabled_refuted). Local time is UTC plus a constant."
  },
  {
   "property": "C83",
   "status": "partial",
   "theorems": [
    "C83_call",
    "C83_window",
    "C83_cut",
    "C83_average_refuted",
    "C83_pause_refuted",
    "C83_back_refuted"
   ],
   "note": "Proved for every call in ordinary conditions (rates to 100 kHz, at most 11 s of measurement, clock not set back; the conditions on the time carry over from call to call, C83_window). Partial because the remainder is not rescaled when the measured rate changes (C83_average_refuted), a long pause overflows (C83_pause_refuted) and a clock set back loses samples (C83_back_refuted)."
  },
  {
   "property": "C84",
   "status": "proved",
   "theorems": [
    "C84_map",
    "C84_copy",
    "C84_size",
    "C84_null_refuted"
   ],
   "note": "Proved with the block as bounds-checked memory in which bytes may be undefined. get() of a null name is outside the statement: it crashes if there is any attribute (C84_null_refuted). Assignment of one WvAttrs to another (the compiler's, which shares the block) is not modelled."
  },
  {
   "property": "C85",
   "status": "partial",
   "theorems": [
    "C85_remaining",
    "C85_rings_once",
    "C85_not_early",
    "C85_cancel",
    "C85_late_refuted",
    "C85_early_refuted",
    "C85_lost_refuted",
    "C85_timeout"
   ],
   "note": "Proved for all looks from the first one on, if the clock is not set back between alarm() and the first look, nor between the last look before and alarm(). Partial because in these two cases the code is wrong: the alarm is late (C85_late_refuted), rings at once (C85_early_refuted) or is lost (C85_lost_refuted)."
  },
  {
   "property": "C86",
   "status": "partial",
   "theorems": [
    "C86_average",
    "C86_tick",
    "C86_reset",
    "C86_timeout",
    "C86_disabled",
    "C86_other_refuted",
    "C86_starved_refuted"
   ],
   "note": "Proved for all histories in which the stream is executed because the timer is due. Partial because execute() for another reason also puts the next tick off by a period (C86_other_refuted), without end if it happens often enough (C86_starved_refuted)."
  },
  {
   "property": "C87",
   "status": "partial",
   "theorems": [
    "C87_create",
    "C87_plain",
    "C87_names",
    "C87_order_refuted"
   ],
   "note": "Proved for all histories in which an overriding registration is destroyed before the one it overrides, which is every history without override (C87_plain). Partial because otherwise the destructor removes the newer registration instead of its own (C87_order_refuted)."
  },
  {
   "property": "C88",
   "status": "proved",
   "theorems": [
    "C88_tokenize",
    "C88_first",
    "C88_tokanal"
   ],
   "note": "Proved for all lines without NUL (getline() returns C strings). The list of words is shown to be unique."
  },
  {
   "property": "C89",
   "status": "partial",
   "theorems": [
    "C89_create",
    "C89_plus",
    "C89_times",
    "C89_assoc",
    "C89_shapes",
    "C89_copy",
    "C89_assign_partial",
    "C89_assign_refuted"
   ],
   "note": "Proved for all shapes and entries that do not overflow an int. Partial because operator= allocates the array for the old shape: assigning a larger matrix always writes past it (C89_assign_refuted); assignment is proved where the old matrix is at least as large (C89_assign_partial). Assigning a matrix to itself is not modelled; the code reads freed memory there."
  },
  {
   "property": "C90",
   "status": "partial",
   "theorems": [
    "C90_read",
    "C90_roundtrip",
    "C90_injective",
    "C90_accepted_partial",
    "C90_truncated_refuted",
    "C90_lax_refuted"
   ],
   "note": "Reading, writing and the round trip are proved for all UUIDs. Partial because other strings are accepted too: one that stops early leaves bytes of the result uninitialised (C90_truncated_refuted), and signs, white space and 0x count as digits (C90_lax_refuted). C90_accepted_partial says exactly which shapes are let through and how many bytes are then uninitialised."
  },
  {
   "property": "C91",
   "status": "proved",
   "theorems": [
    "C91_order",
    "C91_once",
    "C91_get",
    "C91_static",
    "C91_category"
   ],
   "note": "Proved for all histories. Reference counts are not modelled."
  },
  {
   "property": "C92",
   "status": "proved",
   "theorems": [
    "C92_dump",
    "C92_whole",
    "C92_injective"
   ],
   "note": "Proved for all data. The size computation is assumed not to wrap, which it does not for data that fits in memory; isprint() is that of the C locale."
  },
  {
   "property": "C93",
   "status": "partial",
   "theorems": [
    "C93_line",
    "C93_number",
    "C93_trimmed",
    "C93_foreign_refuted",
    "C93_negative_refuted",
    "C93_long_refuted"
   ],
   "note": "C93_line, C93_number and C93_trimmed are proved for all histories and 0 <= keep_for <= 24855. Partial because what is deleted is everything whose name begins like the log, not only logs (C93_foreign_refuted); a negative keep_for deletes the log just opened (C93_negative_refuted) and a large one overflows (C93_long_refuted)."
  },
  {
   "property": "C94",
   "status": "partial",
   "theorems": [
    "C94_force_partial",
    "C94_keep_partial",
    "C94_nothing",
    "C94_move",
    "C94_main_refuted",
    "C94_absent_refuted",
    "C94_subkey_refuted"
   ],
   "note": "C94_move is proved in full against mv onto a place that is replaced. copy: C94_force_partial and C94_keep_partial are exact for a source that exists; without force the destination's own value is overridden (C94_main_refuted); copying a source that does not exist removes the destination (C94_nothing, C94_absent_refuted). move onto an existing key does not make a subkey as the header says but replaces it (C94_subkey_refuted)."
  },
  {
   "property": "C95",
   "status": "partial",
   "theorems": [
    "C95_first_partial",
    "C95_stays",
    "C95_copy",
    "C95_closed_refuted",
    "C95_negative_refuted",
    "C95_self_refuted"
   ],
   "note": "C95_first_partial (exact for proper calls), C95_stays and C95_copy are proved. Partial because set(prefix, e) with an e that is not isok() but has no error number loses the error and leaves a text behind that a later error gets (C95_closed_refuted), negative numbers without text are taken and errstr() then asserts (C95_negative_refuted), and self-assignment forgets the error (C95_self_refuted)."
  },
  {
   "property": "C96",
   "status": "partial",
   "theorems": [
    "C96_inside",
    "C96_reads",
    "C96_set_partial",
    "C96_blocked",
    "C96_remove_partial",
    "C96_wf",
    "C96_iterate",
    "C96_both_refuted",
    "C96_ghost_refuted",
    "C96_case_refuted"
   ],
   "note": "C96_inside, C96_reads, C96_wf and C96_iterate are proved in full. C96_set_partial excludes the case that a file or directory is in the way, in which nothing is stored (C96_blocked, C96_both_refuted). C96_remove_partial leaves out that removing a missing key makes the keys above it (C96_ghost_refuted). Keys that differ in case are different files (C96_case_refuted)."
  },
  {
   "property": "C97",
   "status": "partial",
   "theorems": [
    "C97_walk",
    "C97_closed",
    "C97_mounts_partial",
    "C97_end",
    "C97_up_partial",
    "C97_up_refuted",
    "C97_up_closed_refuted",
    "C97_rewind_refuted",
    "C97_mounts_refuted",
    "C97_resumes_refuted"
   ],
   "note": "C97_walk, C97_closed and C97_end are proved in full. C97_mounts_partial says what is entered without other file systems: what is on the file system of the first entry, not of the start (C97_mounts_refuted). C97_up_partial covers full names and last names after up() at a directory that was opened; relative names are wrong (C97_up_refuted), also after rewind() in the middle (C97_rewind_refuted), up() at a directory that could not be opened leaves out the rest of its parent (C97_up_closed_refuted), and up() at the start's own level ends the walk once, after which it goes on (C97_resumes_refuted)."
  },
  {
   "property": "C98",
   "status": "partial",
   "theorems": [
    "C98_get",
    "C98_texts",
    "C98_share",
    "C98_once",
    "C98_clean_partial",
    "C98_keeps",
    "C98_clean_refuted"
   ],
   "note": "C98_get, C98_texts, C98_share, C98_once and C98_keeps are proved in full. C98_clean_partial: clean() is put off until the table has grown by a tenth and one since it last worked, and then leaves exactly what is in use; otherwise it does nothing, so a string out of use may stay for ever (C98_clean_refuted)."
  },
  {
   "property": "C99",
   "status": "partial",
   "theorems": [
    "C99_roundtrip",
    "C99_old_roundtrip",
    "C99_distinct",
    "C99_reads",
    "C99_reads_partial",
    "C99_order",
    "C99_minor_refuted",
    "C99_text_refuted"
   ],
   "note": "C99_roundtrip, C99_old_roundtrip, C99_distinct, C99_reads and C99_order are proved in full. C99_reads_partial: three numbers, if the minor one has at most two digits and the major one, too; a third digit runs over into the revision (C99_minor_refuted). A text of two numbers whose first is 100 (hexadecimal) or more comes back as a text of three (C99_text_refuted)."
  },
  {
   "property": "C100",
   "status": "proved",
   "theorems": [
    "C100_history",
    "C100_pieces",
    "C100_input",
    "C100_burst",
    "C100_status_refuted"
   ],
   "note": "C100_history, C100_pieces, C100_input and C100_burst are proved in full; the hash functions themselves (MD5, SHA-1, HMAC) are an arbitrary function of the data, since OpenSSL computes them. The return value is not as documented in one case: encode() of nothing with finish writes the digest and returns false (C100_status_refuted)."
  },
  {
   "property": "C101",
   "status": "partial",
   "theorems": [
    "C101_sorted",
    "C101_ends",
    "C101_all",
    "C101_null_refuted"
   ],
   "note": "C101_sorted, C101_ends and C101_all are proved for lists without null pointers; a null pointer in the list ends the iteration early (C101_null_refuted)."
  },
  {
   "property": "C102",
   "status": "partial",
   "theorems": [
    "C102_history",
    "C102_stays",
    "C102_only",
    "C102_up_partial",
    "C102_session",
    "C102_permission_refuted",
    "C102_between_refuted"
   ],
   "note": "C102_history, C102_stays, C102_only and C102_session are proved in full. C102_up_partial: a new alias is up if the kernel grants it and one of the 256 names is free; otherwise add() still says that an interface was made (C102_permission_refuted). If another aliaser calls done_edit between start_edit and add, a kept address goes down for a while (C102_between_refuted)."
  },
  {
   "property": "C103",
   "status": "partial",
   "theorems": [
    "C103_noleak",
    "C103_closed",
    "C103_others",
    "C103_exact_partial",
    "C103_del_refuted",
    "C103_forward_refuted"
   ],
   "note": "C103_noleak, C103_closed and C103_others are proved in full. C103_exact_partial: exactly the right rules, if del_* is not used and no object has the same forward twice. Otherwise a rule that another object still wants is deleted: del_* leaves the request in the list, so that zap deletes again (C103_del_refuted), and del_forward deletes once for each equal request (C103_forward_refuted)."
  },
  {
   "property": "C104",
   "status": "partial",
   "theorems": [
    "C104_sync",
    "C104_uninterrupted",
    "C104_again",
    "C104_lines_partial",
    "C104_src_partial",
    "C104_find",
    "C104_src_refuted",
    "C104_flag_refuted",
    "C104_change_src_refuted"
   ],
   "note": "C104_sync, C104_uninterrupted, C104_again and C104_find are proved in full, for routes up to their source address. C104_lines_partial: lines are read independently but for the source address, and C104_src_partial: with it if each line has one. Otherwise a line gets the source address of an earlier one (C104_src_refuted). A word without a value, such as onlink, spoils the rest of its line (C104_flag_refuted). A change of only the source address is not made (C104_change_src_refuted)."
  },
  {
   "property": "C105",
   "status": "partial",
   "theorems": [
    "C105_safe_partial",
    "C105_stopped",
    "C105_signals",
    "C105_kill",
    "C105_status_partial",
    "C105_returns",
    "C105_poll",
    "C105_gentle",
    "C105_escalates",
    "C105_children",
    "C105_pid1_refuted",
    "C105_status_refuted",
    "C105_children_refuted"
   ],
   "note": "C105_stopped, C105_signals, C105_gentle, C105_escalates, C105_kill, C105_returns, C105_poll and C105_children are proved in full. C105_safe_partial: no assertion fails unless the pid file says 1 (C105_pid1_refuted). C105_status_partial: the status is the process's without a pid file; with one it is overwritten by a variable that was never written (C105_status_refuted). After wait(x, false), stop() does not stop the children (C105_children_refuted)."
  }
 ]
}