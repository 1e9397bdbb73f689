{
 "claims": [
  {
   "property": "C01",
   "status": "proved",
   "theorems": [
    "C01_to_uint128_is_the_value",
    "C01_from_then_to",
    "C01_to_then_from"
   ],
   "note": "addr_wf is the invariant C18 proves of every reachable object."
  },
  {
   "property": "C02",
   "status": "proved",
   "theorems": [
    "C02_comparisons_are_the_numeric_order",
    "C02_equality_is_byte_equality",
    "C02_other_fields_ignored"
   ],
   "note": ""
  },
  {
   "property": "C03",
   "status": "proved",
   "theorems": [
    "C03_offsets_saturate",
    "C03_int_min_is_undefined"
   ],
   "note": ""
  },
  {
   "property": "C04",
   "status": "proved",
   "theorems": [
    "C04_difference",
    "C04_add_back"
   ],
   "note": ""
  },
  {
   "property": "C05",
   "status": "proved",
   "theorems": [
    "C05_adjacency",
    "C05_ends"
   ],
   "note": ""
  },
  {
   "property": "C06",
   "status": "proved",
   "theorems": [
    "C06_set_get_ipv4",
    "C06_get_ipv4_domain",
    "C06_injective",
    "C06_other_family_rejected"
   ],
   "note": ""
  },
  {
   "property": "C07",
   "status": "proved",
   "theorems": [
    "C07_set_get_ipv6"
   ],
   "note": ""
  },
  {
   "property": "C08",
   "status": "proved",
   "theorems": [
    "C08_mask_count_round_trip"
   ],
   "note": ""
  },
  {
   "property": "C09",
   "status": "proved",
   "theorems": [
    "C09_mask_size_characterisation"
   ],
   "note": ""
  },
  {
   "property": "C10",
   "status": "proved",
   "theorems": [
    "C10_apply_mask_bits",
    "C10_apply_mask_idempotent",
    "C10_apply_mask_block"
   ],
   "note": ""
  },
  {
   "property": "C11",
   "status": "proved",
   "theorems": [
    "C11_match_bits",
    "C11_match_block",
    "C11_match_any"
   ],
   "note": ""
  },
  {
   "property": "C12",
   "status": "proved",
   "theorems": [
    "C12_network_type_table",
    "C12_applies_after_setters",
    "C12_query_twice"
   ],
   "note": "The memoised type is covered by C13."
  },
  {
   "property": "C13",
   "status": "partial",
   "theorems": [
    "C13_type_is_current_refuted",
    "C13_type_is_current_partial",
    "C13_remembered_type",
    "C13_histories"
   ],
   "note": "Full statement refuted (in-place arithmetic keeps the remembered type); proved for every history without apply_mask, ip_from_uint128, ++, --, += and -=. C13_histories: after any history, with the arithmetic ones too, the type is the one of the address at the last question or change."
  },
  {
   "property": "C14",
   "status": "proved",
   "theorems": [
    "C14_port_round_trip",
    "C14_port_text"
   ],
   "note": ""
  },
  {
   "property": "C15",
   "status": "partial",
   "theorems": [
    "C15_numeric_port_string_refuted",
    "C15_numeric_port_string_partial",
    "C15_service_names",
    "C15_any_number"
   ],
   "note": "Full statement refuted (narrowing from int64 to int); proved for decimal strings up to INT_MAX; service names covered too. convert_string is an external function with the stated premise. C15_any_number: a number n of any size becomes the port n modulo 2^32 (as an int) when that is a port, and throws otherwise."
  },
  {
   "property": "C16",
   "status": "proved",
   "theorems": [
    "C16_protocol_invariant",
    "C16_set_protocol"
   ],
   "note": ""
  },
  {
   "property": "C17",
   "status": "partial",
   "theorems": [
    "C17_set_protocol_defines_refuted",
    "C17_set_protocol_defines_partial"
   ],
   "note": "Full statement refuted (set_protocol(TCP) on a fresh object); exact characterisation proved."
  },
  {
   "property": "C18",
   "status": "proved",
   "theorems": [
    "C18_object_invariant",
    "C18_undefined_behaviour"
   ],
   "note": ""
  },
  {
   "property": "C19",
   "status": "proved",
   "theorems": [
    "C19_lan_wan_disjoint",
    "C19_predicates"
   ],
   "note": "Exact predicates proved for every history without in-place arithmetic (see C13); disjointness for all."
  },
  {
   "property": "C20",
   "status": "proved",
   "theorems": [
    "C20_dotted_round_trip",
    "C20_distinct_texts",
    "C20_only_dotted_accepted"
   ],
   "note": ""
  },
  {
   "property": "C21",
   "status": "proved",
   "theorems": [
    "C21_round_trip",
    "C21_distinct_texts",
    "C21_any_v4_prints_as_any_v6"
   ],
   "note": ""
  },
  {
   "property": "C22",
   "status": "proved",
   "theorems": [
    "C22_printed_is_read_back",
    "C22_every_mask_is_read_back"
   ],
   "note": "The contiguous masks as stated, and every printable mask given what getaddrinfo() with AI_NUMERICHOST answers for numbers (resolves_numbers)."
  },
  {
   "property": "C23",
   "status": "proved",
   "theorems": [
    "C23_printing_distinguishes",
    "C23_asterisk_is_ambiguous"
   ],
   "note": ""
  },
  {
   "property": "C24",
   "status": "proved",
   "theorems": [
    "C24_empty_iff_inverted",
    "C24_is_in",
    "C24_is_in_throws_iff_an_end_is_missing",
    "C24_match"
   ],
   "note": ""
  },
  {
   "property": "C25",
   "status": "partial",
   "theorems": [
    "C25_empty_matches_nothing_partial",
    "C25_undefined_matches_the_null_address_refuted",
    "C25_exactly"
   ],
   "note": "Proved for empty ranges. Refuted for the undefined range: it matches exactly the address ::. C25_exactly says which addresses match() accepts after any calls on a range: those between both ends, those in the block of the only end, or :: alone when no end is set."
  },
  {
   "property": "C26",
   "status": "partial",
   "theorems": [
    "C26_any_size",
    "C26_size_partial",
    "C26_wrong_sizes_refuted",
    "C26_made_by_calls"
   ],
   "note": "Proved for undefined ranges, single addresses and all non-empty ranges but two. Refuted: inverted ranges report SIZE_MAX (or 0), the whole space reports 0, 2^127 addresses is signed overflow. C26_any_size gives the size of every range, inverted ones included. C26_made_by_calls: size() of every range object calls can make."
  },
  {
   "property": "C27",
   "status": "partial",
   "theorems": [
    "C27_any_range",
    "C27_any_vector",
    "C27_to_addresses_partial",
    "C27_single_and_undefined",
    "C27_never_terminates_refuted",
    "C27_inverted_neighbours_refuted",
    "C27_vector_partial",
    "C27_vector_total_wraps_refuted"
   ],
   "note": "Proved for every non-empty range not ending with the last address. Refuted: a range ending with ffff:...:ffff never terminates; an inverted range with neighbouring ends returns one address; the vector total wraps modulo 2^64. C27_any_range and C27_any_vector say what any range and any vector give: the list, an exception or an endless loop."
  },
  {
   "property": "C28",
   "status": "proved",
   "theorems": [
    "C28_intersection"
   ],
   "note": ""
  },
  {
   "property": "C29",
   "status": "proved",
   "theorems": [
    "C29_union_elements",
    "C29_union_defined_iff_interval",
    "C29_full_masks_never_throw"
   ],
   "note": "Membership holds for all ranges; defined iff the union is an interval; throws iff a mask cannot be set, which is characterised exactly."
  },
  {
   "property": "C30",
   "status": "proved",
   "theorems": [
    "C30_compare_means_what_it_says",
    "C30_families",
    "C30_mirror"
   ],
   "note": ""
  },
  {
   "property": "C31",
   "status": "proved",
   "theorems": [
    "C31_strict_weak_order",
    "C31_order"
   ],
   "note": ""
  },
  {
   "property": "C32",
   "status": "proved",
   "theorems": [
    "C32_from_cidr"
   ],
   "note": ""
  },
  {
   "property": "C33",
   "status": "proved",
   "theorems": [
    "C33_to_cidr",
    "C33_to_cidr_never_throws",
    "C33_round_trip"
   ],
   "note": ""
  },
  {
   "property": "C34",
   "status": "proved",
   "theorems": [
    "C34_address_match_ranges",
    "C34_made_by_calls"
   ],
   "note": ""
  },
  {
   "property": "C35",
   "status": "proved",
   "theorems": [
    "C35_set_preserved",
    "C35_no_exception",
    "C35_may_throw"
   ],
   "note": "Also after an exception the vector stands for the same set; sufficient condition for no exception and a throwing example."
  },
  {
   "property": "C36",
   "status": "partial",
   "theorems": [
    "C36_no_later_superset_partial",
    "C36_included_network_left_refuted"
   ],
   "note": "Refuted as stated; proved that no element is included in a later one and that a call which returns false certifies the full claim. C139 proves the full claim for two calls."
  },
  {
   "property": "C37",
   "status": "proved",
   "theorems": [
    "C37_last_value",
    "C37_setting_unique",
    "C37_commas_exclusive",
    "C37_invalid_flags"
   ],
   "note": ""
  },
  {
   "property": "C38",
   "status": "proved",
   "theorems": [
    "C38_families_exclusive",
    "C38_accepted_or_rejected"
   ],
   "note": ""
  },
  {
   "property": "C39",
   "status": "partial",
   "theorems": [
    "C39_any_number",
    "C39_default_port_in_range",
    "C39_numbers",
    "C39_numeric_strings_partial",
    "C39_numeric_strings_refuted"
   ],
   "note": "Range of the default port proved for every history; full statement about numeric strings refuted (narrowing from int64 to int), proved up to INT_MAX. C39_any_number: the same for numbers of any size; 2^32 - 1 clears the default port."
  },
  {
   "property": "C40",
   "status": "proved",
   "theorems": [
    "C40_pieces_exist",
    "C40_pieces",
    "C40_separator_cuts",
    "C40_only_separators"
   ],
   "note": ""
  },
  {
   "property": "C41",
   "status": "partial",
   "theorems": [
    "C41_entries_partial",
    "C41_single_entry_partial",
    "C41_lines_partial",
    "C41_single_entry_refuted",
    "C41_entries_refuted"
   ],
   "note": "Full statement refuted: a single entry of blanks and a comment reads the comment as an address, and with comments plus both newlines and commas only the first entry of a line is kept. Proved for the single-entry, separator and line modes under the guards stated."
  },
  {
   "property": "C42",
   "status": "proved",
   "theorems": [
    "C42_has_errors",
    "C42_log_grows",
    "C42_single_entry",
    "C42_every_entry",
    "C42_no_range_with_an_error"
   ],
   "note": "SORT_NO_EMPTY drops empty ranges silently, hence the guard. C42_log_grows: the log only grows."
  },
  {
   "property": "C43",
   "status": "proved",
   "theorems": [
    "C43_defined_ranges"
   ],
   "note": ""
  },
  {
   "property": "C44",
   "status": "proved",
   "theorems": [
    "C44_ports_forbidden",
    "C44_ports_required",
    "C44_forbidden_port_rejected",
    "C44_missing_port_rejected"
   ],
   "note": "Output side for every input; input side for the entry shapes with and without a port."
  },
  {
   "property": "C45",
   "status": "proved",
   "theorems": [
    "C45_same_outcome",
    "C45_full_sort",
    "C45_families",
    "C45_full_sort_by_family"
   ],
   "note": ""
  },
  {
   "property": "C46",
   "status": "proved",
   "theorems": [
    "C46_merge",
    "C46_merge_succeeds",
    "C46_masked_merge_may_throw"
   ],
   "note": "Covered set and separation proved for any masks when parse() returns; without masks merging never throws. With a mask which is not a prefix it may throw (C46_masked_merge_may_throw)."
  },
  {
   "property": "C47",
   "status": "partial",
   "theorems": [
    "C47_numeric_mask",
    "C47_open_range_refuted"
   ],
   "note": "Proved for entries with a first address, whatever the default masks; the premise is that the text without mask is accepted. Refuted for '-A/n', where the mask is not limited to 32 and not used."
  },
  {
   "property": "C48",
   "status": "partial",
   "theorems": [
    "C48_default_mask4_partial",
    "C48_default_mask6_partial",
    "C48_numeric_refuted",
    "C48_without_colon"
   ],
   "note": "Proved for IPv4, and for IPv6 default masks which are addresses. Refuted for numbers: an IPv6 default mask of 64 is accepted and never applied. C48_without_colon: a default IPv6 mask without colon has no effect on any text, it can as well be removed."
  },
  {
   "property": "C49",
   "status": "partial",
   "theorems": [
    "C49_result_partial",
    "C49_or_throws",
    "C49_error_ignored_refuted"
   ],
   "note": "Proved: the result is the one address meant, and everything else throws. Refuted: errors next to a valid address are ignored."
  },
  {
   "property": "C50",
   "status": "proved",
   "theorems": [
    "C50_numeric_mode_ignores_the_resolver"
   ],
   "note": ""
  },
  {
   "property": "C51",
   "status": "proved",
   "theorems": [
    "C51_configuration_unchanged",
    "C51_same_again"
   ],
   "note": ""
  },
  {
   "property": "C52",
   "status": "proved",
   "theorems": [
    "C52_one_kind"
   ],
   "note": ""
  },
  {
   "property": "C53",
   "status": "proved",
   "theorems": [
    "C53_canonical_unique",
    "C53_set_file",
    "C53_set_abstract",
    "C53_refused",
    "C53_constructor"
   ],
   "note": "The decoder of libutf8 is an argument; the premise is that ASCII bytes decode to themselves, met by the UTF-8 decoder of SpecUnix.v."
  },
  {
   "property": "C54",
   "status": "proved",
   "theorems": [
    "C54_round_trip",
    "C54_any_structure"
   ],
   "note": ""
  },
  {
   "property": "C55",
   "status": "partial",
   "theorems": [
    "C55_exactly",
    "C55_uri_partial",
    "C55_uri_refuted"
   ],
   "note": "Refuted for paths with a question mark and for schemes accepted by set_scheme() which are not URI schemes; proved otherwise. C55_exactly: the path survives exactly for a URI scheme and a path without '?'."
  },
  {
   "property": "C56",
   "status": "proved",
   "theorems": [
    "C56_all_or_nothing"
   ],
   "note": ""
  },
  {
   "property": "C57",
   "status": "partial",
   "theorems": [
    "C57_only_answers_of_the_kernel_partial",
    "C57_only_answers_of_the_kernel_refuted",
    "C57_any_clock",
    "C57_null"
   ],
   "note": "Any number of threads, one memory access per step. Proved when the clock never goes back; refuted when it does (a thread then gets the empty placeholder). C57_any_clock needs no assumption on the clock: the list is one the kernel gave, or the empty one. C57_null: a null pointer comes only from a call in which getifaddrs() failed."
  },
  {
   "property": "C58",
   "status": "partial",
   "theorems": [
    "C58_fresh",
    "C58_reset_partial",
    "C58_reset_refuted"
   ],
   "note": "Freshness proved in full. After a reset: proved when no call is in progress, refuted otherwise (a call in progress publishes what it read before the reset)."
  },
  {
   "property": "C59",
   "status": "partial",
   "theorems": [
    "C59_find_partial",
    "C59_find_refuted"
   ],
   "note": "Proved for any list of interfaces and any outcome of reading the routes. Refuted when getifaddrs() fails: null list dereferenced."
  },
  {
   "property": "C60",
   "status": "proved",
   "theorems": [
    "C60_routes"
   ],
   "note": "Interface, destination, mask, gateway and all counters; columns in any order, other columns allowed, an incomplete last line ignored. The content of the file is an argument."
  },
  {
   "property": "C61",
   "status": "partial",
   "theorems": [
    "C61_flags_partial",
    "C61_any_flags",
    "C61_flags_refuted"
   ],
   "note": "Refuted: the hexadecimal word is read as decimal. Proved: get_flags() is the word of the kernel exactly when that is below 10. C61_any_flags: what is read for any flags: the digits up to the first letter, as decimal ones."
  },
  {
   "property": "C62",
   "status": "proved",
   "theorems": [
    "C62_find_default",
    "C62_from_the_table"
   ],
   "note": "Any vector of well formed addresses, and the routes of any table."
  },
  {
   "property": "C63",
   "status": "proved",
   "theorems": [
    "C63_verdict"
   ],
   "note": "The split of the option values (advgetopt) and the resolver are arguments; they may change between the calls."
  },
  {
   "property": "C64",
   "status": "partial",
   "theorems": [
    "C64_settings_partial",
    "C64_released_once_partial",
    "C64_released_once_refuted"
   ],
   "note": "Proved for every program which does not run out of memory; streams follow libstdc++ (copyfmt, destructor, move, swap). Refuted without that: when new fails within the copyfmt callback two streams share, then delete, one object."
  },
  {
   "property": "C65",
   "status": "proved",
   "theorems": [
    "C65_when_printing_fails"
   ],
   "note": ""
  },
  {
   "property": "C66",
   "status": "proved",
   "theorems": [
    "C66_printed_addresses_are_ips",
    "C66_names_are_not_ips"
   ],
   "note": ""
  },
  {
   "property": "C67",
   "status": "proved",
   "theorems": [
    "C67_one_socket",
    "C67_family"
   ],
   "note": ""
  },
  {
   "property": "C68",
   "status": "proved",
   "theorems": [
    "C68_connect",
    "C68_sendto",
    "C68_bind"
   ],
   "note": ""
  },
  {
   "property": "C69",
   "status": "proved",
   "theorems": [
    "C69_describes_the_socket",
    "C69_failures",
    "C69_bind_learns_the_port"
   ],
   "note": ""
  },
  {
   "property": "C70",
   "status": "proved",
   "theorems": [
    "C70_default_port"
   ],
   "note": ""
  },
  {
   "property": "C71",
   "status": "proved",
   "theorems": [
    "C71_protocol"
   ],
   "note": ""
  },
  {
   "property": "C72",
   "status": "proved",
   "theorems": [
    "C72_parse_is_defined"
   ],
   "note": ""
  },
  {
   "property": "C73",
   "status": "proved",
   "theorems": [
    "C73_no_exception"
   ],
   "note": ""
  },
  {
   "property": "C74",
   "status": "proved",
   "theorems": [
    "C74_swap",
    "C74_swap_fixes_empty"
   ],
   "note": ""
  },
  {
   "property": "C75",
   "status": "partial",
   "theorems": [
    "C75_mapped_socket",
    "C75_sender_partial",
    "C75_no_sender",
    "C75_mapped_socket_refuted"
   ],
   "note": "Refuted for an IPv6 socket bound to an IPv4-mapped address, where exactly what happens is proved (C75_mapped_socket); proved otherwise."
  },
  {
   "property": "C76",
   "status": "partial",
   "theorems": [
    "C76_one_address",
    "C76_rejected",
    "C76_nul_refuted"
   ],
   "note": "Refuted for texts with an embedded NUL (the text is cut there); otherwise proved."
  },
  {
   "property": "C77",
   "status": "proved",
   "theorems": [
    "C77_both_ends",
    "C77_open_range"
   ],
   "note": ""
  },
  {
   "property": "C78",
   "status": "proved",
   "theorems": [
    "C78_address_mask"
   ],
   "note": ""
  },
  {
   "property": "C79",
   "status": "partial",
   "theorems": [
    "C79_ipv4_range_partial",
    "C79_ipv4_every_mask_partial",
    "C79_other_ranges_rejected",
    "C79_mixed_range_rejected",
    "C79_ipv6_range_refuted"
   ],
   "note": "Proved for IPv4 ranges and every mask which can be printed. Refuted for every other range: the text [A]-... or A-[B]:port/mask is always rejected (proved), because the parser reads [A-B]."
  },
  {
   "property": "C80",
   "status": "proved",
   "theorems": [
    "C80_comparisons",
    "C80_order"
   ],
   "note": ""
  },
  {
   "property": "C81",
   "status": "proved",
   "theorems": [
    "C81_the_name_of_the_socket"
   ],
   "note": ""
  },
  {
   "property": "C82",
   "status": "proved",
   "theorems": [
    "C82_unlink"
   ],
   "note": ""
  },
  {
   "property": "C83",
   "status": "proved",
   "theorems": [
    "C83_uri"
   ],
   "note": ""
  },
  {
   "property": "C84",
   "status": "partial",
   "theorems": [
    "C84_any_content_partial",
    "C84_no_table",
    "C84_any_content_refuted",
    "C84_exactly"
   ],
   "note": "Refuted: a missing optional column, or a last header not followed by a blank, reads entries[-1]. Proved for any content below a line with all the columns, and without table. C84_exactly: the outcome for any bytes, by what the first line has; without one of the other columns there is no table as soon as there is a row."
  },
  {
   "property": "C85",
   "status": "proved",
   "theorems": [
    "C85_flag_letters"
   ],
   "note": ""
  },
  {
   "property": "C86",
   "status": "partial",
   "theorems": [
    "C86_no_race_partial",
    "C86_no_race_refuted"
   ],
   "note": "Refuted: set_local_addresses_cache_ttl() writes without the mutex. Proved: no race without that function, and no race on anything but the TTL with it."
  },
  {
   "property": "C87",
   "status": "proved",
   "theorems": [
    "C87_what_the_kernel_says"
   ],
   "note": "Kernel answers modelled as data; premise: mask and other address are of the family of the address."
  },
  {
   "property": "C88",
   "status": "partial",
   "theorems": [
    "C88_any_entry",
    "C88_has_address_partial",
    "C88_has_address_refuted"
   ],
   "note": "Refuted for entries without broadcast address on a device with the BROADCAST flag (every IPv6 address of an ethernet device). C88_any_entry: the broadcast and destination address of any entry."
  },
  {
   "property": "C89",
   "status": "partial",
   "theorems": [
    "C89_any_numbers",
    "C89_names_partial",
    "C89_names_refuted"
   ],
   "note": "Refuted when the indexes have a hole; proved without. C89_any_numbers: the list for any numbering of the interfaces."
  },
  {
   "property": "C90",
   "status": "partial",
   "theorems": [
    "C90_first_network",
    "C90_broadcast_partial",
    "C90_broadcast_refuted"
   ],
   "note": "Refuted for a network within another; proved when the networks with a agree on the broadcast address. C90_first_network: the answer for any interfaces comes from the first network with the address."
  },
  {
   "property": "C91",
   "status": "proved",
   "theorems": [
    "C91_no_deadlock",
    "C91_bounded"
   ],
   "note": "The kernel is assumed to answer."
  },
  {
   "property": "C92",
   "status": "partial",
   "theorems": [
    "C92_names_partial",
    "C92_names_refuted"
   ],
   "note": "Proved for all reachable addresses when the system has the protocols ip, tcp and udp. Refuted otherwise: getprotobynumber_r() returning 0 without entry leads to std::string(nullptr)."
  },
  {
   "property": "C93",
   "status": "proved",
   "theorems": [
    "C93_one_index",
    "C93_no_deadlock"
   ],
   "note": ""
  },
  {
   "property": "C94",
   "status": "proved",
   "theorems": [
    "C94_options"
   ],
   "note": ""
  },
  {
   "property": "C95",
   "status": "partial",
   "theorems": [
    "C95_numeric_accepted",
    "C95_not_numeric_refused",
    "C95_port_refused",
    "C95_port_missing",
    "C95_address_no_refuted",
    "C95_required_default_refuted"
   ],
   "note": "Accepted, refused and both port rules proved. Refuted: address=no still accepts addresses; address=required refuses an empty address although there is a default address."
  },
  {
   "property": "C96",
   "status": "proved",
   "theorems": [
    "C96_construct",
    "C96_validate"
   ],
   "note": "The resolver premises are resolver_ok and known_protocols; converts_decimals is the premise on advgetopt's integer conversion."
  },
  {
   "property": "C97",
   "status": "partial",
   "theorems": [
    "C97_default_masks",
    "C97_default_partial",
    "C97_no_default",
    "C97_ipv4_mask_refuted"
   ],
   "note": "Default address, default port and no default proved; the mask part is refuted: the mask of an IPv4 default becomes the default IPv6 mask. C97_default_masks says where the mask of any default goes."
  },
  {
   "property": "C98",
   "status": "proved",
   "theorems": [
    "C98_log"
   ],
   "note": ""
  },
  {
   "property": "C99",
   "status": "proved",
   "theorems": [
    "C99_list"
   ],
   "note": "Same resolver premises as C96."
  },
  {
   "property": "C100",
   "status": "proved",
   "theorems": [
    "C100_names"
   ],
   "note": "The resolver (getnameinfo) is an argument."
  },
  {
   "property": "C101",
   "status": "partial",
   "theorems": [
    "C101_any_values",
    "C101_one_line_each",
    "C101_words_partial",
    "C101_words_refuted"
   ],
   "note": "Lines, order, values and options proved for all tables; that blanks separate the fields is refuted for interface names of 8 characters or more. C101_any_values: the lines of any routes byte by byte (each value filled up to the width of its column), and the values are the words of the line exactly when all but the last are shorter than their column. One line for each route, with the letters of the flags as read."
  },
  {
   "property": "C102",
   "status": "proved",
   "theorems": [
    "C102_no_routes",
    "C102_options"
   ],
   "note": ""
  },
  {
   "property": "C103",
   "status": "partial",
   "theorems": [
    "C103_any_values",
    "C103_one_line_each",
    "C103_words_partial",
    "C103_words_refuted"
   ],
   "note": "Lines, order, values and filters proved for all lists; that blanks separate the fields is refuted for flags of six digits (IFF_DORMANT and others). C103_any_values: the lines of any interfaces byte by byte, and the values are the words of the line exactly when all but the last are shorter than their column."
  },
  {
   "property": "C104",
   "status": "proved",
   "theorems": [
    "C104_names"
   ],
   "note": ""
  },
  {
   "property": "C105",
   "status": "partial",
   "theorems": [
    "C105_any_names",
    "C105_default_refuted",
    "C105_default_partial",
    "C105_no_default_refuted"
   ],
   "note": "Refuted: the reverse DNS name of the address is compared with the name of the interface. Proved where both are the same. C105_any_names: what is printed for any answers of the resolver."
  },
  {
   "property": "C106",
   "status": "partial",
   "theorems": [
    "C106_options",
    "C106_nothing_found",
    "C106_kernel_failure_refuted"
   ],
   "note": "Options, no interface and no route proved; a failing getifaddrs() dereferences a null pointer."
  },
  {
   "property": "C107",
   "status": "partial",
   "theorems": [
    "C107_status_partial",
    "C107_no_arguments",
    "C107_ends",
    "C107_bad_options",
    "C107_parser",
    "C107_status_refuted",
    "C107_port_refuted",
    "C107_defaults",
    "C107_status_exactly"
   ],
   "note": "Proved unless --mask and --canonicalize meet an IPv4 address with an IPv6 mask (C108_abort says what happens then). Refuted there, and for a port above 2^32. C107_status_exactly: the status of any run."
  },
  {
   "property": "C108",
   "status": "partial",
   "theorems": [
    "C108_stdout_partial",
    "C108_abort",
    "C108_any_arguments"
   ],
   "note": "Same condition as C107; C108_any_arguments says exactly what any run prints, C108_abort what happens at an address which cannot be printed."
  },
  {
   "property": "C109",
   "status": "partial",
   "theorems": [
    "C109_stderr_partial"
   ],
   "note": "Same condition as C107; C108_any_arguments has the messages of any run."
  },
  {
   "property": "C110",
   "status": "partial",
   "theorems": [
    "C110_mask_refuses",
    "C110_mask_allowed_refuted"
   ],
   "note": "Refuted: with --mask every argument without '/' is rejected, because the default masks are written as addresses and ALLOW_ADDRESS_MASK is not set."
  },
  {
   "property": "C111",
   "status": "proved",
   "theorems": [
    "C111_single_addresses"
   ],
   "note": ""
  },
  {
   "property": "C112",
   "status": "proved",
   "theorems": [
    "C112_full_masks"
   ],
   "note": ""
  },
  {
   "property": "C113",
   "status": "proved",
   "theorems": [
    "C113_latest",
    "C113_one_value"
   ],
   "note": ""
  },
  {
   "property": "C114",
   "status": "proved",
   "theorems": [
    "C114_accepted_or_refused"
   ],
   "note": ""
  },
  {
   "property": "C115",
   "status": "proved",
   "theorems": [
    "C115_log"
   ],
   "note": ""
  },
  {
   "property": "C116",
   "status": "proved",
   "theorems": [
    "C116_answers",
    "C116_other_answers",
    "C116_remarks",
    "C116_not_found"
   ],
   "note": "One entry per call, no sorting, no default mask; the resolver is a parameter."
  },
  {
   "property": "C117",
   "status": "proved",
   "theorems": [
    "C117_default_address"
   ],
   "note": "As an equality of parse() on the two texts."
  },
  {
   "property": "C118",
   "status": "partial",
   "theorems": [
    "C118_exactly",
    "C118_forbidden_port_with_lookup_refuted",
    "C118_forbidden_port_with_lookup_partial"
   ],
   "note": "Refuted: without a dot before the colon (\"localhost:80\") the port is accepted. Partial: refused when the host has a dot or is in brackets; C44 covers parsers without lookup. C118_exactly: for any text with one colon, without brackets in front and without masks: it does what it does when ports are allowed, or is an error, depending on dots, ']' and the defaults only."
  },
  {
   "property": "C119",
   "status": "proved",
   "theorems": [
    "C119_ipv4_parts",
    "C119_ipv6_parts",
    "C119_either_parts"
   ],
   "note": "About every text which is printed; C65 says when one is."
  },
  {
   "property": "C120",
   "status": "proved",
   "theorems": [
    "C120_type_names",
    "C120_names_differ"
   ],
   "note": "Same premise as C12: the memo is empty, as after every setter."
  },
  {
   "property": "C121",
   "status": "proved",
   "theorems": [
    "C121_range_text",
    "C121_list_text"
   ],
   "note": ""
  },
  {
   "property": "C122",
   "status": "proved",
   "theorems": [
    "C122_only_these",
    "C122_one_meaning",
    "C122_all_these",
    "C122_no_others",
    "C122_blanks"
   ],
   "note": "separators, comments and sorting are off (C40, C41, C45 and C46 treat them); texts contain no NUL; with lookup, the resolver answers with TCP, UDP or no protocol"
  },
  {
   "property": "C123",
   "status": "proved",
   "theorems": [
    "C123_entries_exist",
    "C123_lists",
    "C123_no_error"
   ],
   "note": "sorting is off (C45 and C46 treat it); texts contain no NUL"
  },
  {
   "property": "C124",
   "status": "proved",
   "theorems": [
    "C124_accepted",
    "C124_only",
    "C124_otherwise"
   ],
   "note": "texts contain no NUL; that nothing else is accepted is for masks allowed (without masks C49_error_ignored_refuted shows an erroneous text which is accepted)"
  },
  {
   "property": "C125",
   "status": "proved",
   "theorems": [
    "C125_validator"
   ],
   "note": "values contain no NUL; the language is that of the parser the validator holds, C94 and C97 say which one the options give"
  },
  {
   "property": "C126",
   "status": "proved",
   "theorems": [
    "C126_exit_status"
   ],
   "note": "arguments contain no NUL; C108 treats what cannot be printed"
  },
  {
   "property": "C127",
   "status": "proved",
   "theorems": [
    "C127_messages",
    "C127_one_message",
    "C127_these_messages",
    "C127_one_reason",
    "C127_log"
   ],
   "note": "sorting is off (C45 and C46 treat it); texts contain no NUL; with lookup, the answers of the resolver have the family AF_INET or AF_INET6, the size of that family and a known protocol; sizes are socklen_t"
  },
  {
   "property": "C128",
   "status": "proved",
   "theorems": [
    "C128_error_of_a_refusal"
   ],
   "note": "same assumptions about the resolver as C127"
  },
  {
   "property": "C129",
   "status": "proved",
   "theorems": [
    "C129_stderr"
   ],
   "note": "all that is found can be printed (C108), same assumptions about the resolver as C127"
  },
  {
   "property": "C130",
   "status": "proved",
   "theorems": [
    "C130_settings",
    "C130_flags_without_effect",
    "C130_flags_with_effect",
    "C130_others_with_effect"
   ],
   "note": ""
  },
  {
   "property": "C131",
   "status": "partial",
   "theorems": [
    "C131_one_thread",
    "C131_right_or_unknown",
    "C131_wrong_only_at_first",
    "C131_alone_partial",
    "C131_asked_before",
    "C131_threads_refuted",
    "C131_interfaces"
   ],
   "note": "Refuted: the function writes UNKNOWN before the type, another thread can be told that 10.0.0.1 is public; it is a data race, and the addresses of the cached interface list are shared like that. Proved: a wrong answer is UNKNOWN and comes from a call which is still going on and started before any other ended; calls which do not overlap are right; asked once before it is shared, an object always answers right and without race."
  },
  {
   "property": "C132",
   "status": "partial",
   "theorems": [
    "C132_left_alone",
    "C132_as_values",
    "C132_from_the_kernel",
    "C132_isolation_refuted"
   ],
   "note": "Refuted: the list is the one in the cache, a caller who clears it makes others get an empty list. Proved: the library changes no list it returned; if callers only read, all they see is what the model with values (C57, C58, C91) allows, and each list holds what the kernel said once."
  },
  {
   "property": "C133",
   "status": "proved",
   "theorems": [
    "C133_recommended_text",
    "C133_well_formed"
   ],
   "note": "inet_ntop(AF_INET6) is glibc's, transcribed (Inet.v); C119 to C121 and ifaces (C103) use the same specification for the addresses and masks they show."
  },
  {
   "property": "C134",
   "status": "proved",
   "theorems": [
    "C134_hostname",
    "C134_brackets",
    "C134_one_meaning"
   ],
   "note": "inet_pton() is glibc's, transcribed (Inet.v). All the properties of the parser are stated with this grammar (SpecIpv6.v)."
  },
  {
   "property": "C135",
   "status": "proved",
   "theorems": [
    "C135_attributes",
    "C135_every_object"
   ],
   "note": "set_protocol() defines the protocol only when it changes (C17); a number given as text is taken modulo 2^32 (C15): the history says so. The type of network is told from the history by C13_remembered_type."
  },
  {
   "property": "C136",
   "status": "proved",
   "theorems": [
    "C136_attributes",
    "C136_constructors"
   ],
   "note": "Paths and URIs are those of C53 and C83. The constructors are the default one and a call (C136_constructors)."
  },
  {
   "property": "C137",
   "status": "proved",
   "theorems": [
    "C137_sockaddr_in6",
    "C137_port_then_address",
    "C137_in6_addr",
    "C137_sockaddr_un"
   ],
   "note": "All 18 operators; the layout of sockaddr_in6 (28 bytes without padding) and little endian words are trusted."
  },
  {
   "property": "C138",
   "status": "partial",
   "theorems": [
    "C138_exact",
    "C138_undisturbed_partial",
    "C138_refuted"
   ],
   "note": "The full claim is refuted by two executions. Proved: what decides every verdict and message, for all interleavings; undisturbed calls are right. Missing: interleavings inside of the functions of the parser, which are data races."
  },
  {
   "property": "C139",
   "status": "proved",
   "theorems": [
    "C139_one_call",
    "C139_two_calls"
   ],
   "note": "Two calls are enough for what C36 asks of one."
  },
  {
   "property": "C140",
   "status": "partial",
   "theorems": [
    "C140_sorted",
    "C140_no_masks_partial",
    "C140_separate",
    "C140_masks_refuted"
   ],
   "note": "Refuted with masks and merging: 10.0.0.1/24,10.0.0.2/24 becomes the range of two addresses. Proved for all orders but merging, for merging without masks, and for merging of ranges which do not touch."
  },
  {
   "property": "C141",
   "status": "proved",
   "theorems": [
    "C141_list",
    "C141_merged"
   ],
   "note": "End to end: from the text to the verdict. Networks with SORT_MERGE are left out because C140 refutes them."
  },
  {
   "property": "C142",
   "status": "partial",
   "theorems": [
    "C142_other_sockets",
    "C142_one_message",
    "C142_object",
    "C142_reply_partial",
    "C142_dual_stack",
    "C142_same_structure_refuted"
   ],
   "note": "C142_other_sockets, C142_one_message and C142_object hold in general. C142_reply_partial excludes IPv4-mapped addresses on IPv6 sockets: there the reply uses a structure of the other family (C142_same_structure_refuted), for the same address and port (C142_dual_stack). The count is an int: counts of 2^31 bytes and more are out of scope."
  },
  {
   "property": "C143",
   "status": "partial",
   "theorems": [
    "C143_nothing_invented",
    "C143_sorting_loses_nothing",
    "C143_one_port_partial",
    "C143_ports_refuted"
   ],
   "note": "C143_nothing_invented holds for every order, C143_sorting_loses_nothing without SORT_MERGE. With SORT_MERGE addresses stay covered (C46) but ports get lost: C143_ports_refuted; C143_one_port_partial is for texts with one port."
  },
  {
   "property": "C144",
   "status": "partial",
   "theorems": [
    "C144_entries",
    "C144_printed_list_partial",
    "C144_every_mask_partial",
    "C144_every_list_refuted"
   ],
   "note": "Refuted in general: an IPv6 range in the list is not read back (C79), and with newlines and comments allowed only the first entry of a line is. Proved for single addresses and IPv4 ranges."
  },
  {
   "property": "C145",
   "status": "partial",
   "theorems": [
    "C145_cause_partial",
    "C145_one_family_partial",
    "C145_good_text_refuted"
   ],
   "note": "Refuted: \"::1:0:0:0/64,255.255.255.255\" throws std::out_of_range when merged. Proved: only merging throws, only this exception, and only when a mask is not a prefix or one has less than 96 ones and there is an IPv4 address."
  },
  {
   "property": "C146",
   "status": "partial",
   "theorems": [
    "C146_never_more_partial",
    "C146_named_match",
    "C146_never_more_refuted"
   ],
   "note": "C146_named_match holds in general. More addresses than without merging can match: \"-10.0.0.1/104,10.0.0.1\" matches all of 10.0.0.0/8 (C146_never_more_refuted); never when each entry has a first address (C146_never_more_partial)."
  },
  {
   "property": "C147",
   "status": "proved",
   "theorems": [
    "C147_connect",
    "C147_sendto",
    "C147_bind"
   ],
   "note": "Names resolved by getaddrinfo() may have a scope; they are not covered by this claim."
  },
  {
   "property": "C148",
   "status": "partial",
   "theorems": [
    "C148_same_name_partial",
    "C148_exact",
    "C148_scope_refuted"
   ],
   "note": "True for IPv4 and for IPv6 without scope and flow; refuted for a link-local peer: the scope (the interface) is neither printed nor parsed, so fe80::1 on interface 2 comes back as fe80::1 on no interface, although the library says the two addresses are equal. C148_exact: no numeric text whatever stands for an IPv6 socket address with a scope."
  },
  {
   "property": "C149",
   "status": "proved",
   "theorems": [
    "C149_first_of_each",
    "C149_different_addresses",
    "C149_find",
    "C149_erase",
    "C149_ports_are_not_kept",
    "C149_ranges"
   ],
   "note": "std::set itself is modelled by its contract (the standard library is not part of the repository). Two addresses which differ in port alone are one key: C149_ports_are_not_kept."
  },
  {
   "property": "C150",
   "status": "proved",
   "theorems": [
    "C150_index_of_name",
    "C150_list",
    "C150_nul_is_the_end"
   ],
   "note": "The kernel's table is assumed not to change between the calls."
  },
  {
   "property": "C151",
   "status": "partial",
   "theorems": [
    "C151_exactly",
    "C151_documented_partial",
    "C151_neighbours_refuted",
    "C151_exception_refuted"
   ],
   "note": "C151_exactly says what the test gives for any two networks. Refuted: networks next to each other (10.0.0.0/25 and 10.0.0.128/25) count as included; ::/80, and in general two networks of which the larger has less than 96 ones and the lowest or the highest address is an IPv4 one, give std::out_of_range. C151_documented_partial: true otherwise for masks of 96 ones or more."
  },
  {
   "property": "C152",
   "status": "partial",
   "theorems": [
    "C152_exactly",
    "C152_single_address",
    "C152_end_only",
    "C152_right_partial",
    "C152_shared_refuted",
    "C152_added_refuted"
   ],
   "note": "C28 is the case of both ends. Refuted otherwise: a missing end counts as ::, so a single address has an empty intersection with every range (C152_single_address), also with itself; a range which only has an end cuts the other at its end (C152_end_only), and two of them share all the addresses from :: on. C152_right_partial: right when the address is not in the range."
  },
  {
   "property": "C153",
   "status": "partial",
   "theorems": [
    "C153_no_port_without_brackets",
    "C153_error_refuted",
    "C153_misread_refuted",
    "C153_several_ports_refuted"
   ],
   "note": "C153_error_refuted, C153_misread_refuted and C153_several_ports_refuted show which sentences of README.md do not hold; C153_no_port_without_brackets is the one which does. That advgetopt refuses a number with a comma or an inner dash is a hypothesis (refuses_several)."
  },
  {
   "property": "C154",
   "status": "partial",
   "theorems": [
    "C154_create_socket",
    "C154_bind",
    "C154_connect_partial",
    "C154_connect_refuted",
    "C154_sendto",
    "C154_recvfrom",
    "C154_unix",
    "C154_unlink",
    "C154_routes_partial",
    "C154_routes_refuted"
   ],
   "note": "false for connect() of a UDP address and for a route table without a complete first line: a failure is reported and errno is whatever it was before (C154_connect_refuted, C154_routes_refuted)"
  },
  {
   "property": "C155",
   "status": "partial",
   "theorems": [
    "C155_questions",
    "C155_nothing",
    "C155_only_these_answers",
    "C155_one_question",
    "C155_comments_partial",
    "C155_comments_refuted",
    "C155_in_turn"
   ],
   "note": "The statement about comments is refuted: \" #secret\" with ALLOW_COMMENT_HASH and lookups sends the comment to the resolver (C155_comments_refuted); C155_comments_partial has the guard under which it holds, all else is proved as stated. The list of questions is a model of its own beside Parser.v, tied to it by C155_only_these_answers."
  },
  {
   "property": "C156",
   "status": "partial",
   "theorems": [
    "C156_validate",
    "C156_lookups",
    "C156_constructor",
    "C156_no_default",
    "C156_no_lookup_refuted",
    "C156_string_to_addr",
    "C156_only_these_answers"
   ],
   "note": "The last sentence is refuted with two witnesses (C156_no_lookup_refuted): address=yes with default=example:80 asks about \"example\" while the validator is made, and a validator without options looks values up. Everything else is proved as stated."
  },
  {
   "property": "C157",
   "status": "partial",
   "theorems": [
    "C157_same_partial",
    "C157_each_kind",
    "C157_same_addresses",
    "C157_string_to_addr",
    "C157_unchanged_refuted"
   ],
   "note": "Proved for TCP and UDP (C157_same_partial) and for string_to_addr(). Refuted without a protocol or with IP: each address comes back three times, for TCP, UDP and IP (C157_unchanged_refuted); C157_each_kind says exactly what comes back and C157_same_addresses that the same addresses match (without sorting). Premises: posix (SpecNumeric.v), no '+', 'x', 'X' or NUL in the text."
  },
  {
   "property": "C158",
   "status": "partial",
   "theorems": [
    "C158_entry_partial",
    "C158_address_mask",
    "C158_entries_partial",
    "C158_cut_partial",
    "C158_unchanged_refuted",
    "C158_lost_refuted"
   ],
   "note": "Proved without conditions for ALLOW_ADDRESS_MASK; for ranges, ports and masks without lookups (C158_entry, C158_entries; no default masks); for separators and comments when the text does not have the character (C158_cut). Refuted for each of the other flags in general (C158_unchanged_refuted): comments with newlines and commas lose entries, a first separator loses the default address of an empty text, names with a dash become ranges, a default mask is applied, localhost:80/24 gets another mask. Missing: exact conditions with lookups."
  },
  {
   "property": "C159",
   "status": "partial",
   "theorems": [
    "C159_order_partial",
    "C159_full_sort",
    "C159_merge",
    "C159_no_masks",
    "C159_more_partial",
    "C159_merge_partial",
    "C159_merge_refuted"
   ],
   "note": "Merging with masks depends on the order when there are empty ranges: with \"10.0.0.1/24,10.0.9.9-10.0.9.1,10.0.0.2-10.0.0.1\" 10.0.0.7 matches, with the last two entries exchanged it does not (C159_merge_refuted). Without empty ranges both texts are merged or neither and the same addresses match (C159_merge_partial); without masks (C159_no_masks) and without merging (C159_order_partial) always. C159_full_sort, C159_merge and C159_more_partial are the other parts."
  },
  {
   "property": "C160",
   "status": "proved",
   "theorems": [
    "C160_rows",
    "C160_any_text"
   ],
   "note": "Exact reading of any rows; C84_exactly covers the tables where a column is missing."
  },
  {
   "property": "C161",
   "status": "partial",
   "theorems": [
    "C161_network_partial",
    "C161_ipv4",
    "C161_last_refuted",
    "C161_mask_refuted"
   ],
   "note": "True for every IPv4 network (C161_ipv4) and for masks of at least two bits when the network does not contain ffff:...:ffff (C161_network_partial). With that address it never ends, like ::/0, and with a mask of one bit size() has undefined behaviour (C161_last_refuted). A range with the network as its only end, which is what parse() returns for \"10.0.0.0/24\", gives one address only (C161_mask_refuted)."
  },
  {
   "property": "C162",
   "status": "partial",
   "theorems": [
    "C162_column",
    "C162_row",
    "C162_no_width",
    "C162_not_good",
    "C162_addresses",
    "C162_addresses_refuted"
   ],
   "note": "A vector or set of addresses is written address by address: only the first one takes the column (C162_addresses), so such lists do not line up (C162_addresses_refuted), and an empty one leaves the width to what is written next. The insertion of a std::string is that of the standard library and part of the trusted base."
  },
  {
   "property": "C163",
   "status": "partial",
   "theorems": [
    "C163_again_partial",
    "C163_protocol_ip",
    "C163_without_mask",
    "C163_protocol_ip_refuted",
    "C163_without_mask_refuted"
   ],
   "note": "Holds with tcp and udp (C163_again_partial). With the protocol ip every line comes back three times (C163_protocol_ip, C163_protocol_ip_refuted). Without --mask the lines still have a mask and none of them is accepted (C163_without_mask, C163_without_mask_refuted) unless the system knows names with a slash."
  },
  {
   "property": "C164",
   "status": "proved",
   "theorems": [
    "C164_same_as_written",
    "C164_told"
   ],
   "note": "C164_same_as_written relates the two lists in both directions, for every sort order; with merging, entries which only have an end (\"-10.0.0.9\") are left out. C164_told says what is_port_defined() answers for one entry."
  },
  {
   "property": "C165",
   "status": "proved",
   "theorems": [
    "C165_replace",
    "C165_defaults_written_out"
   ],
   "note": "C165_replace has no condition on the parser or the texts. C165_defaults_written_out composes it with C48 and C117, in any number of steps per entry."
  },
  {
   "property": "C166",
   "status": "partial",
   "theorems": [
    "C166_unchanged_partial",
    "C166_history_partial",
    "C166_from_socket",
    "C166_recvfrom",
    "C166_from_cidr",
    "C166_unchanged_refuted"
   ],
   "note": "Refuted for set_from_socket() and recvfrom(). C166_unchanged_partial: all other calls. C166_from_socket and C166_recvfrom: what the object is after the exception, for all inputs. The vector functions and parser setters are C35, C56 and C114."
  },
  {
   "property": "C167",
   "status": "partial",
   "theorems": [
    "C167_listed_partial",
    "C167_any_order_partial",
    "C167_too_many",
    "C167_empty_refuted"
   ],
   "note": "Refuted for empty ranges (C167_empty_refuted), otherwise C167_listed_partial and C167_any_order_partial. With masks to_addresses() lists one address for a network as parse() returns it (C161)."
  },
  {
   "property": "C168",
   "status": "proved",
   "theorems": [
    "C168_numeric",
    "C168_lookup",
    "C168_written"
   ],
   "note": "C168_numeric, C168_lookup and C168_written."
  },
  {
   "property": "C169",
   "status": "proved",
   "theorems": [
    "C169_exactly",
    "C169_halves",
    "C169_exception"
   ],
   "note": "C169_exactly covers all pairs of networks, C169_halves is the case which is common, C169_exception a case of the exception."
  },
  {
   "property": "C170",
   "status": "partial",
   "theorems": [
    "C170_addr",
    "C170_text",
    "C170_parse",
    "C170_string_to_addr",
    "C170_unix",
    "C170_family",
    "C170_documented_refuted"
   ],
   "note": "C170_addr is an equivalence for every operation. The documented exception of addr_unix::set_un() is refuted (C170_documented_refuted); C170_unix and C170_family say which one it is."
  },
  {
   "property": "C171",
   "status": "proved",
   "theorems": [
    "C171_addr",
    "C171_text",
    "C171_unix"
   ],
   "note": "The outcome UB of the model stands for the negation of INT_MIN (addr.cpp:2819-2978), a std::string from a null pointer (addr.cpp:2469) and accesses outside of sun_path; other sources of undefined behaviour, such as data races (C86, C131, C138) and the functions of ranges (C26, C27, C161), routes (C84) and interfaces (C59), have their own properties."
  },
  {
   "property": "C172",
   "status": "proved",
   "theorems": [
    "C172_peer",
    "C172_sender",
    "C172_either_socket"
   ],
   "note": ""
  },
  {
   "property": "C173",
   "status": "proved",
   "theorems": [
    "C173_same",
    "C173_reads",
    "C173_set"
   ],
   "note": ""
  },
  {
   "property": "C174",
   "status": "proved",
   "theorems": [
    "C174_calls",
    "C174_from_cidr",
    "C174_swap"
   ],
   "note": ""
  },
  {
   "property": "C175",
   "status": "proved",
   "theorems": [
    "C175_defaults",
    "C175_set",
    "C175_string_to_addr"
   ],
   "note": "For C175_defaults the entries are those of SpecLanguage.entries_of; complete says what an entry has to have."
  },
  {
   "property": "C176",
   "status": "proved",
   "theorems": [
    "C176_cut",
    "C176_lists",
    "C176_uncut"
   ],
   "note": "whole_lines leaves out parsers for which newlines and comments are allowed together with other separators: these use only the first entry of each line (C41); C176_cut covers them too."
  }
 ]
}