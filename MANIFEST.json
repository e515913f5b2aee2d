{
 "claims": [
  {
   "property": "C01",
   "status": "proved",
   "theorems": [
    "C01_first_match",
    "C01_first_match_as_generated",
    "C01_all_chains",
    "C01_all_chains_as_generated"
   ],
   "note": "The documented reading needs quirk_free (known deviations F2, F3, F8); the as_generated versions have no such hypothesis. deployed bounds a rule to 100 matchers (F7) and set keys to 64 bytes (F29)."
  },
  {
   "property": "C02",
   "status": "proved",
   "theorems": [
    "C02_continue"
   ],
   "note": ""
  },
  {
   "property": "C03",
   "status": "proved",
   "theorems": [
    "C03_counters_of_a_packet",
    "C03_counters_of_a_history"
   ],
   "note": ""
  },
  {
   "property": "C04",
   "status": "proved",
   "theorems": [
    "C04_fail_open"
   ],
   "note": ""
  },
  {
   "property": "C05",
   "status": "proved",
   "theorems": [
    "C05_absent_protocol"
   ],
   "note": "Packets; for socket operations see C57 (exception: meta.dport, F45)."
  },
  {
   "property": "C06",
   "status": "proved",
   "theorems": [
    "C06_exact_value"
   ],
   "note": ""
  },
  {
   "property": "C07",
   "status": "proved",
   "theorems": [
    "C07_network_prefix"
   ],
   "note": ""
  },
  {
   "property": "C08",
   "status": "proved",
   "theorems": [
    "C08_port_range"
   ],
   "note": ""
  },
  {
   "property": "C09",
   "status": "proved",
   "theorems": [
    "C09_tcp_flags"
   ],
   "note": ""
  },
  {
   "property": "C10",
   "status": "proved",
   "theorems": [
    "C10_dscp"
   ],
   "note": ""
  },
  {
   "property": "C11",
   "status": "proved",
   "theorems": [
    "C11_set_membership",
    "C11_membership_is_exact"
   ],
   "note": ""
  },
  {
   "property": "C12",
   "status": "proved",
   "theorems": [
    "C12_network_set"
   ],
   "note": ""
  },
  {
   "property": "C13",
   "status": "proved",
   "theorems": [
    "C13_bits_are_membership",
    "C13_one_bit_per_set",
    "C13_loader_builds_the_maps"
   ],
   "note": ""
  },
  {
   "property": "C14",
   "status": "proved",
   "theorems": [
    "C14_hashset_is_a_set",
    "C14_add_refused_only_without_memory",
    "C14_reserve_is_enough"
   ],
   "note": "hashset.c to the level of pointers, slots, tombstones and size_t arithmetic; every history, every hash compatible with the equality, every allocator behaviour."
  },
  {
   "property": "C15",
   "status": "proved",
   "theorems": [
    "C15_list_is_a_sequence",
    "C15_list_clean_frees_all",
    "C15_vector_is_a_sequence",
    "C15_vector_add_refusals"
   ],
   "note": "list.c with explicit nodes and allocator; vector.c on bytes with size_t arithmetic."
  },
  {
   "property": "C16",
   "status": "proved",
   "theorems": [
    "verdict_codes_correct",
    "verdict_codes_total"
   ],
   "note": ""
  },
  {
   "property": "C17",
   "status": "proved",
   "theorems": [
    "C17_rate_limit",
    "C17_spacing"
   ],
   "note": ""
  },
  {
   "property": "C18",
   "status": "proved",
   "theorems": [
    "C18_mark",
    "C18_mark_untouched",
    "C18_mark_refused_elsewhere"
   ],
   "note": ""
  },
  {
   "property": "C19",
   "status": "partial",
   "theorems": [
    "C19_transport_found_partial",
    "C19_ports_partial",
    "C19_first_header_refuted",
    "C19_seven_headers_refuted",
    "C19_reserved_octet_refuted"
   ],
   "note": "Findings F1, F6: the property is false for a first extension header of type 43, 44 or 51, beyond 6 headers, and for a non-zero reserved octet of a fragment header; proved otherwise."
  },
  {
   "property": "C20",
   "status": "partial",
   "theorems": [
    "C20_disabled_never_match_partial",
    "C20_same_result_partial",
    "C20_negated_empty_set_refuted"
   ],
   "note": "Finding F30: false for a negated reference to an empty set; proved otherwise."
  },
  {
   "property": "C21",
   "status": "proved",
   "theorems": [
    "C21_accepted_iff",
    "C21_hooks",
    "C21_result",
    "C21_add_rule"
   ],
   "note": ""
  },
  {
   "property": "C22",
   "status": "proved",
   "theorems": [
    "C22_copy_is_the_same_chain",
    "C22_copy_succeeds",
    "C22_matcher",
    "C22_rule",
    "C22_set",
    "C22_counter"
   ],
   "note": "Object trees; the MessagePack bytes of a node are not modelled here."
  },
  {
   "property": "C23",
   "status": "partial",
   "theorems": [
    "C23_matcher",
    "C23_rule",
    "C23_set_reads_only_sets",
    "C23_set_reads_all_sets",
    "C23_chain_reads_only_chains",
    "C23_chain_reads_all_chains",
    "C23_missing_key",
    "C23_every_tree",
    "C23_every_set_tree",
    "C23_wrong_element_size",
    "C23_empty_payload_refuted",
    "C23_payload_size_refuted"
   ],
   "note": "Exact acceptance of all trees. False for an empty matcher payload (assertion, F37) and payload sizes are not checked (F26)."
  },
  {
   "property": "C24",
   "status": "partial",
   "theorems": [
    "C24_validated",
    "C24_refused",
    "C24_parsed",
    "C24_order_independent",
    "C24_priorities",
    "C24_round_trip",
    "C24_parsed_round_trip",
    "C24_duplicate_family_refuted",
    "C24_not_a_number_refuted",
    "C24_unpacked_priorities_refuted"
   ],
   "note": "Everything holds except for the deprecated family= option, which is never recorded (F21); a non-numeric ifindex reads as 0; unserialised options are not checked."
  },
  {
   "property": "C25",
   "status": "proved",
   "theorems": [
    "C25_write_excludes",
    "C25_pindir_excludes",
    "C25_touch_needs_lock",
    "C25_write_needs_write_lock",
    "C25_no_race",
    "C25_section_exclusive",
    "C25_operation_atomic",
    "C25_holder_stable"
   ],
   "note": "All interleavings of any number of processes running any API calls, with environment failures and deaths; flock semantics of the kernel are modelled."
  },
  {
   "property": "C26",
   "status": "proved",
   "theorems": [
    "C26_appears_locked",
    "C26_one_winner",
    "C26_create_outcome",
    "C26_removal_is_free"
   ],
   "note": "All interleavings, deaths and failures included."
  },
  {
   "property": "C27",
   "status": "proved",
   "theorems": [
    "C27_lock_is_live",
    "C27_init_is_live"
   ],
   "note": "All interleavings."
  },
  {
   "property": "C28",
   "status": "partial",
   "theorems": [
    "C28_every_directory_consistent_partial",
    "C28_restored_is_complete_partial",
    "C28_update_refuted"
   ],
   "note": "For every history of calls of the whole control API (setup, load, set, attach, flush, get, prog_fd, logs_fd, ruleset_get/set/flush), each stopped at any system call, with any failures, and of updates that run to their end, every directory holds a complete chain or no description, and bf_chain_get only reports complete chains. False for a bf_chain_update that dies: between its two writes of the description the old chain is stored with the new handle (F14)."
  },
  {
   "property": "C29",
   "status": "partial",
   "theorems": [
    "C29_hook_served_partial",
    "C29_hook_served_set_partial",
    "C29_outcome_partial",
    "C29_pin_refuted"
   ],
   "note": "Assumes that the failures which the function does not undo (memory, pinning, storing the description: UpdSpec.vital) do not occur, and that the directory holds nothing but the old chain. False otherwise (F15): the old pins are removed before the new ones are made, and a failing pin leaves the hook empty."
  },
  {
   "property": "C30",
   "status": "partial",
   "theorems": [
    "C30_set_updated_partial",
    "C30_failed_partial",
    "C30_empty_set_refuted"
   ],
   "note": "Assumes that the failures which the function does not undo (memory, pinning, storing the description: UpdSpec.vital) do not occur, and that the directory holds nothing but the old chain. False when an empty set becomes non-empty (F16): the rule stays disabled."
  },
  {
   "property": "C31",
   "status": "partial",
   "theorems": [
    "C31_set_update_keeps_partial",
    "C31_update_zeroes_partial"
   ],
   "note": "Assumes that the failures which the function does not undo (memory, pinning, storing the description: UpdSpec.vital) do not occur, and that the directory holds nothing but the old chain. Packets counted between the transfer of the counters and the switch of the link are not modelled."
  },
  {
   "property": "C32",
   "status": "proved",
   "theorems": [
    "C32_counters_read",
    "C32_lookup"
   ],
   "note": ""
  },
  {
   "property": "C33",
   "status": "partial",
   "theorems": [
    "C33_failed_set_partial",
    "C33_set_refuted",
    "C33_ruleset_refuted"
   ],
   "note": "A failed bf_chain_set changed nothing, or there was a chain and now there is none (never a part of one). The full property is false (F17) for bf_chain_set and for bf_ruleset_set: the old chains are removed before the new ones are built. What a failed bf_ruleset_set leaves is C44_set_failure_partial."
  },
  {
   "property": "C34",
   "status": "proved",
   "theorems": [
    "C34_failed_load",
    "C34_failed_attach",
    "C34_failed_attach_exact",
    "C34_name_usable"
   ],
   "note": ""
  },
  {
   "property": "C35",
   "status": "proved",
   "theorems": [
    "C35_strncpy",
    "C35_rtrim",
    "C35_trim"
   ],
   "note": "helper.c on byte buffers; loads and stores outside the buffer are errors."
  },
  {
   "property": "C36",
   "status": "partial",
   "theorems": [
    "C36_switch_partial",
    "C36_switch_without_default_refuted"
   ],
   "note": "Switches with a default body. Without one, an unmatched value runs the first body; every switch of the generator has a default."
  },
  {
   "property": "C37",
   "status": "partial",
   "theorems": [
    "C37_terminates",
    "C37_jumps_inside_partial",
    "C37_jumps_of_long_rules_refuted"
   ],
   "note": "Finding F7: jump offsets are truncated to 16 bits in very long rules."
  },
  {
   "property": "C38",
   "status": "proved",
   "theorems": [
    "C38_copy"
   ],
   "note": ""
  },
  {
   "property": "C39",
   "status": "proved",
   "theorems": [
    "C39_threshold",
    "C39_stable_per_flow"
   ],
   "note": ""
  },
  {
   "property": "C40",
   "status": "partial",
   "theorems": [
    "C40_probability_partial",
    "C40_probability_refuted",
    "C40_threshold_of_percentages"
   ],
   "note": "Finding F2: the property is false above 50%."
  },
  {
   "property": "C41",
   "status": "partial",
   "theorems": [
    "C41_iface_partial",
    "C41_iface_refuted"
   ],
   "note": "Finding F3: only the low 16 bits of the interface index are compared."
  },
  {
   "property": "C42",
   "status": "partial",
   "theorems": [
    "C42_ports_partial",
    "C42_port_zero_refuted"
   ],
   "note": "Finding F8: port 0 never matches. For socket operations see C57."
  },
  {
   "property": "C43",
   "status": "proved",
   "theorems": [
    "C43_hooks",
    "C43_verdicts",
    "C43_redirect_directions",
    "C43_matcher_types",
    "C43_matcher_operators",
    "C43_names",
    "C43_dscp_names",
    "C43_documented_names"
   ],
   "note": ""
  },
  {
   "property": "C44",
   "status": "partial",
   "theorems": [
    "C44_flush_partial",
    "C44_flush_refuted",
    "C44_set_places",
    "C44_set_exact_partial",
    "C44_set_failure_partial",
    "C44_set_succeeds"
   ],
   "note": "Proved when no system call fails and the descriptions fit in memory (C44_set_places: with any failures). False otherwise (F42): bf_ruleset_flush skips the chains it can not restore and reports success."
  },
  {
   "property": "C45",
   "status": "partial",
   "theorems": [
    "C45_port_partial",
    "C45_port_range_partial",
    "C45_port_accepts_exactly",
    "C45_ipv4_address",
    "C45_ipv4_network_partial",
    "C45_tcp_flags",
    "C45_parsed_matchers_are_well_formed",
    "C45_port_empty_refuted",
    "C45_port_negative_refuted",
    "C45_range_truncated_refuted",
    "C45_prefix_overflow_refuted",
    "C45_number",
    "C45_name",
    "C45_number_in_range",
    "C45_flow_hash_range_partial",
    "C45_mark_partial",
    "C45_iface",
    "C45_ipv6_network_partial"
   ],
   "note": "Findings F34, F36: empty, signed and wrapped texts are accepted, long ranges are truncated, prefix lengths wrap at 2^32; proved for decimal texts below these limits."
  },
  {
   "property": "C46",
   "status": "partial",
   "theorems": [
    "C46_never_listed",
    "C46_creation_crash",
    "C46_swept",
    "C46_live_creator_safe",
    "C46_user_chain_swept_refuted"
   ],
   "note": "Proved for staging directories; refuted part: a user chain whose name starts with the staging prefix is treated as an orphan."
  },
  {
   "property": "C47",
   "status": "proved",
   "theorems": [
    "C47_set_new_accepts",
    "C47_set_new_errors",
    "C47_set_new_result",
    "C47_contents_always_consistent",
    "C47_add_elem",
    "C47_add_many",
    "C47_remove_many",
    "C47_short_element_refuted"
   ],
   "note": "set.c on top of the pointer-level hash set; every history and allocator behaviour. The refuted theorem shows that bf_set_add_elem trusts the caller for the element length."
  },
  {
   "property": "C48",
   "status": "partial",
   "theorems": [
    "C48_concatenation_partial",
    "C48_no_memory_refuted"
   ],
   "note": "Holds while realloc succeeds; after a failed realloc the flush callback writes past the buffer (F38)."
  },
  {
   "property": "C49",
   "status": "proved",
   "theorems": [
    "C49_accepted_chains_compile",
    "C49_accepted_chains_deploy"
   ],
   "note": ""
  },
  {
   "property": "C50",
   "status": "partial",
   "theorems": [
    "C50_set_attaches_partial",
    "C50_attach_attaches",
    "C50_load_loads",
    "C50_cgroup_refuted"
   ],
   "note": "bf_chain_set: all hooks but the cgroup ones; for those false (F39): bf_link_new returns the positive errno of a failed open, which is taken for success. For bf_ruleset_set see C44_set_places."
  },
  {
   "property": "C51",
   "status": "partial",
   "theorems": [
    "C51_name_usable_partial",
    "C51_crash_refuted"
   ],
   "note": "Holds when the directory of the name is absent, empty or holds nothing but one chain; false otherwise (F18): a process that dies between pinning and storing the description wedges the name for every call."
  },
  {
   "property": "C52",
   "status": "proved",
   "theorems": [
    "C52_load_succeeds"
   ],
   "note": ""
  },
  {
   "property": "C53",
   "status": "proved",
   "theorems": [
    "C53_others_untouched",
    "C53_others_still_held"
   ],
   "note": "Every call with a chain name (updates included), stopped anywhere, after every history of per-chain calls without updates."
  },
  {
   "property": "C54",
   "status": "proved",
   "theorems": [
    "C54_flush_removes"
   ],
   "note": ""
  },
  {
   "property": "C55",
   "status": "partial",
   "theorems": [
    "C55_same_hook_partial",
    "C55_hook_refuted"
   ],
   "note": "Assumes that the failures which the function does not undo (memory, pinning, storing the description: UpdSpec.vital) do not occur, and that the directory holds nothing but the old chain. Proved when the two definitions name the same hook; false otherwise (F41): the hooks are not compared."
  },
  {
   "property": "C56",
   "status": "proved",
   "theorems": [
    "C56_update_succeeds"
   ],
   "note": ""
  },
  {
   "property": "C57",
   "status": "partial",
   "theorems": [
    "C57_every_operation",
    "C57_exact_value",
    "C57_port_range",
    "C57_network_prefix",
    "C57_protocol",
    "C57_set",
    "C57_network_set",
    "C57_meta_port_partial",
    "C57_meta_port_refuted",
    "C57_mapped_address_refuted",
    "C57_multipath_refuted"
   ],
   "note": "Proved for protocols below 256. False in three places: meta.dport is compared whatever the protocol (F45); at sendmsg4, IPv4-mapped destinations of AF_INET6 sockets carry family AF_INET6, so no ip4.* matcher matches (F44); the protocol of Multipath TCP sockets is 262, which ip4.proto and a set of ip4.proto treat differently (F43)."
  },
  {
   "property": "C58",
   "status": "proved",
   "theorems": [
    "C58_reads_the_format",
    "C58_any_bytes",
    "C58_one_reading",
    "C58_cut_short",
    "C58_written",
    "C58_chain"
   ],
   "note": "Simplified: the pages of the map and array builder are one buffer, allocations of the parser succeed, strings and lists hold fewer than 2^32 elements."
  },
  {
   "property": "C59",
   "status": "partial",
   "theorems": [
    "C59_set_text",
    "C59_accepts_partial",
    "C59_outcomes_partial",
    "C59_blank_start_refuted",
    "C59_value_as_in_matcher",
    "C59_address",
    "C59_port",
    "C59_network"
   ],
   "note": "Finding F5: a payload that starts with a blank line makes bf_set_new_from_raw loop for ever, so \"the call always returns\" and \"every text is accepted\" are proved for the other payloads. Simplified: strdup succeeds."
  },
  {
   "property": "C60",
   "status": "partial",
   "theorems": [
    "C60_reads",
    "C60_one_reading",
    "C60_accepts_partial",
    "C60_mark",
    "C60_rate_partial",
    "C60_rate_rounded_refuted",
    "C60_rate_undefined_refuted",
    "C60_redirect",
    "C60_ruleset_undefined_refuted",
    "C60_ruleset_hangs_refuted"
   ],
   "note": "From tokens on (C62 starts from the characters): the LALR automaton is a recursive descent over the same grammar. Acceptance leaves out sets that start with a blank piece (F5). Rates are exact below 2^52 ns; above, \"+ 0.5\" may round up to the next nanosecond (F47), and 18446744073709551615ns makes an undefined conversion (F46). Simplified: strdup, calloc and list nodes succeed."
  },
  {
   "property": "C61",
   "status": "partial",
   "theorems": [
    "C61_value_partial",
    "C61_texts",
    "C61_set_partial",
    "C61_empty_set_refuted",
    "C61_interface_number_refuted",
    "C61_rate_partial",
    "C61_mark",
    "C61_headers",
    "C61_redirect",
    "C61_percent_partial",
    "C61_percent_refuted",
    "C61_options",
    "C61_family"
   ],
   "note": "False of the code in three places: the empty set is shown as a text bfcli never finishes to read (F48), an interface without a name is shown as its number even if another interface has that number for a name (F49), probabilities are shown with six digits, so 99.99999% is shown as 100% (F50). Left out: IPv6 networks in sets (padding bytes), rates from 2^52 ns, percentages with more than two decimals. The lines of a dumped chain (counters, \"not\") are not read back as a ruleset."
  },
  {
   "property": "C62",
   "status": "partial",
   "theorems": [
    "C62_scanned",
    "C62_longest",
    "C62_words",
    "C62_accepts_partial",
    "C62_reads",
    "C62_dropped_refuted",
    "C62_interface_refuted",
    "C62_names_refuted"
   ],
   "note": "lexer.l rule by rule, with its start conditions; flex itself is the relation scans (longest match, first rule). False of the code: a character that is not ASCII, or a NUL, between rules ends the ruleset without an error, and the rest is dropped (F51); interfaces with a dot or an underscore in their names cannot be matched by name (F52); keywords cannot be names. Accepted texts are those with the words of chain_spelled and at least one separator between words that are not punctuation; sets whose first element is blank are left out as in C60."
  },
  {
   "property": "C63",
   "status": "partial",
   "theorems": [
    "C63_linked",
    "C63_program",
    "C63_once",
    "C63_links",
    "C63_memory",
    "C63_far_refuted",
    "C63_jump_refuted"
   ],
   "note": "Fixups, ELF stub placement and the printer (program.c, printer.c) over arbitrary emissions; stubs are what elfstub.c extracts, taken as given (string loads do not overlap). C63_program connects the generated programs of C01 to C13 to the image the kernel gets. Assertions are a parameter of the environment. False of the code: a rule whose code is longer than 32767 instructions aborts the daemon (with assertions) or makes a program whose jump to the next rule goes backwards (without), instead of being refused (F53)."
  },
  {
   "property": "C64",
   "status": "partial",
   "theorems": [
    "C64_options",
    "C64_fields",
    "C64_meant",
    "C64_refused",
    "C64_source",
    "C64_ruleset",
    "C64_named",
    "C64_update_set",
    "C64_set_from_text_partial"
   ],
   "note": "The command line is the list of options argp delivers, in order; splitting argv, --help, --usage and --version, bf_ctx_setup and what is printed are not modelled, so ruleset get, chain get and chain logs are only their library calls (ruleset get and flush, which take no name, are run_cmd cases without a theorem of their own beyond C64_refused). C64_set_from_text_partial joins C62, C64 and C50: histories without updates, chains of hooks other than the cgroup ones (C50), chains that can be stored."
  }
 ]
}