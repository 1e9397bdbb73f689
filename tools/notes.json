{
 "C01": "addr_wf is the invariant C18 proves of every reachable object.",
 "C12": "The memoised type is covered by C13.",
 "C13": "Full statement refuted (in-place arithmetic keeps the remembered type); proved for every history without apply_mask, ip_from_uint128, ++, --, += and -=. C13_histories: after any history, with the arithmetic ones too, the type is the one of the address at the last question or change.",
 "C15": "Full statement refuted (narrowing from int64 to int); proved for decimal strings up to INT_MAX; service names covered too. convert_string is an external function with the stated premise. C15_any_number: a number n of any size becomes the port n modulo 2^32 (as an int) when that is a port, and throws otherwise.",
 "C17": "Full statement refuted (set_protocol(TCP) on a fresh object); exact characterisation proved.",
 "C19": "Exact predicates proved for every history without in-place arithmetic (see C13); disjointness for all.",
 "C25": "Proved for empty ranges. Refuted for the undefined range: it matches exactly the address ::. C25_exactly says which addresses match() accepts after any calls on a range: those between both ends, those in the block of the only end, or :: alone when no end is set.",
 "C26": "Proved for undefined ranges, single addresses and all non-empty ranges but two. Refuted: inverted ranges report SIZE_MAX (or 0), the whole space reports 0, 2^127 addresses is signed overflow. C26_any_size gives the size of every range, inverted ones included. C26_made_by_calls: size() of every range object calls can make.",
 "C27": "Proved for every non-empty range not ending with the last address. Refuted: a range ending with ffff:...:ffff never terminates; an inverted range with neighbouring ends returns one address; the vector total wraps modulo 2^64. C27_any_range and C27_any_vector say what any range and any vector give: the list, an exception or an endless loop.",
 "C29": "Membership holds for all ranges; defined iff the union is an interval; throws iff a mask cannot be set, which is characterised exactly.",
 "C35": "Also after an exception the vector stands for the same set; sufficient condition for no exception and a throwing example.",
 "C36": "Refuted as stated; proved that no element is included in a later one and that a call which returns false certifies the full claim. C139 proves the full claim for two calls.",
 "C39": "Range of the default port proved for every history; full statement about numeric strings refuted (narrowing from int64 to int), proved up to INT_MAX. C39_any_number: the same for numbers of any size; 2^32 - 1 clears the default port.",
 "C41": "Full statement refuted: a single entry of blanks and a comment reads the comment as an address, and with comments plus both newlines and commas only the first entry of a line is kept. Proved for the single-entry, separator and line modes under the guards stated.",
 "C42": "SORT_NO_EMPTY drops empty ranges silently, hence the guard. C42_log_grows: the log only grows.",
 "C44": "Output side for every input; input side for the entry shapes with and without a port.",
 "C46": "Covered set and separation proved for any masks when parse() returns; without masks merging never throws. With a mask which is not a prefix it may throw (C46_masked_merge_may_throw).",
 "C75": "Refuted for an IPv6 socket bound to an IPv4-mapped address, where exactly what happens is proved (C75_mapped_socket); proved otherwise.",
 "C22": "The contiguous masks as stated, and every printable mask given what getaddrinfo() with AI_NUMERICHOST answers for numbers (resolves_numbers).",
 "C76": "Refuted for texts with an embedded NUL (the text is cut there); otherwise proved.",
 "C79": "Proved for IPv4 ranges and every mask which can be printed. Refuted for every other range: the text [A]-... or A-[B]:port/mask is always rejected (proved), because the parser reads [A-B].",
 "C55": "Refuted for paths with a question mark and for schemes accepted by set_scheme() which are not URI schemes; proved otherwise. C55_exactly: the path survives exactly for a URI scheme and a path without '?'.",
 "C53": "The decoder of libutf8 is an argument; the premise is that ASCII bytes decode to themselves, met by the UTF-8 decoder of SpecUnix.v.",
 "C60": "Interface, destination, mask, gateway and all counters; columns in any order, other columns allowed, an incomplete last line ignored. The content of the file is an argument.",
 "C61": "Refuted: the hexadecimal word is read as decimal. Proved: get_flags() is the word of the kernel exactly when that is below 10. C61_any_flags: what is read for any flags: the digits up to the first letter, as decimal ones.",
 "C62": "Any vector of well formed addresses, and the routes of any table.",
 "C84": "Refuted: a missing optional column, or a last header not followed by a blank, reads entries[-1]. Proved for any content below a line with all the columns, and without table. C84_exactly: the outcome for any bytes, by what the first line has; without one of the other columns there is no table as soon as there is a row.",
 "C57": "Any number of threads, one memory access per step. Proved when the clock never goes back; refuted when it does (a thread then gets the empty placeholder). C57_any_clock needs no assumption on the clock: the list is one the kernel gave, or the empty one. C57_null: a null pointer comes only from a call in which getifaddrs() failed.",
 "C58": "Freshness proved in full. After a reset: proved when no call is in progress, refuted otherwise (a call in progress publishes what it read before the reset).",
 "C59": "Proved for any list of interfaces and any outcome of reading the routes. Refuted when getifaddrs() fails: null list dereferenced.",
 "C86": "Refuted: set_local_addresses_cache_ttl() writes without the mutex. Proved: no race without that function, and no race on anything but the TTL with it.",
 "C87": "Kernel answers modelled as data; premise: mask and other address are of the family of the address.",
 "C88": "Refuted for entries without broadcast address on a device with the BROADCAST flag (every IPv6 address of an ethernet device). C88_any_entry: the broadcast and destination address of any entry.",
 "C89": "Refuted when the indexes have a hole; proved without. C89_any_numbers: the list for any numbering of the interfaces.",
 "C90": "Refuted for a network within another; proved when the networks with a agree on the broadcast address. C90_first_network: the answer for any interfaces comes from the first network with the address.",
 "C91": "The kernel is assumed to answer.",
 "C64": "Proved for every program which does not run out of memory; streams follow libstdc++ (copyfmt, destructor, move, swap). Refuted without that: when new fails within the copyfmt callback two streams share, then delete, one object.",
 "C92": "Proved for all reachable addresses when the system has the protocols ip, tcp and udp. Refuted otherwise: getprotobynumber_r() returning 0 without entry leads to std::string(nullptr).",
 "C63": "The split of the option values (advgetopt) and the resolver are arguments; they may change between the calls.",
 "C95": "Accepted, refused and both port rules proved. Refuted: address=no still accepts addresses; address=required refuses an empty address although there is a default address.",
 "C97": "Default address, default port and no default proved; the mask part is refuted: the mask of an IPv4 default becomes the default IPv6 mask. C97_default_masks says where the mask of any default goes.",
 "C96": "The resolver premises are resolver_ok and known_protocols; converts_decimals is the premise on advgetopt's integer conversion.",
 "C99": "Same resolver premises as C96.",
 "C100": "The resolver (getnameinfo) is an argument.",
 "C101": "Lines, order, values and options proved for all tables; that blanks separate the fields is refuted for interface names of 8 characters or more. C101_any_values: the lines of any routes byte by byte (each value filled up to the width of its column), and the values are the words of the line exactly when all but the last are shorter than their column. One line for each route, with the letters of the flags as read.",
 "C102": "",
 "C103": "Lines, order, values and filters proved for all lists; that blanks separate the fields is refuted for flags of six digits (IFF_DORMANT and others). C103_any_values: the lines of any interfaces byte by byte, and the values are the words of the line exactly when all but the last are shorter than their column.",
 "C104": "",
 "C105": "Refuted: the reverse DNS name of the address is compared with the name of the interface. Proved where both are the same. C105_any_names: what is printed for any answers of the resolver.",
 "C106": "Options, no interface and no route proved; a failing getifaddrs() dereferences a null pointer.",
 "C107": "Proved unless --mask and --canonicalize meet an IPv4 address with an IPv6 mask (C108_abort says what happens then). Refuted there, and for a port above 2^32. C107_status_exactly: the status of any run.",
 "C108": "Same condition as C107; C108_any_arguments says exactly what any run prints, C108_abort what happens at an address which cannot be printed.",
 "C109": "Same condition as C107; C108_any_arguments has the messages of any run.",
 "C110": "Refuted: with --mask every argument without '/' is rejected, because the default masks are written as addresses and ALLOW_ADDRESS_MASK is not set.",
 "C111": "",
 "C112": "",
 "C113": "",
 "C114": "",
 "C115": "",
 "C47": "Proved for entries with a first address, whatever the default masks; the premise is that the text without mask is accepted. Refuted for '-A/n', where the mask is not limited to 32 and not used.",
 "C48": "Proved for IPv4, and for IPv6 default masks which are addresses. Refuted for numbers: an IPv6 default mask of 64 is accepted and never applied. C48_without_colon: a default IPv6 mask without colon has no effect on any text, it can as well be removed.",
 "C49": "Proved: the result is the one address meant, and everything else throws. Refuted: errors next to a valid address are ignored.",
 "C116": "One entry per call, no sorting, no default mask; the resolver is a parameter.",
 "C117": "As an equality of parse() on the two texts.",
 "C118": "Refuted: without a dot before the colon (\"localhost:80\") the port is accepted. Partial: refused when the host has a dot or is in brackets; C44 covers parsers without lookup. C118_exactly: for any text with one colon, without brackets in front and without masks: it does what it does when ports are allowed, or is an error, depending on dots, ']' and the defaults only.",
 "C119": "About every text which is printed; C65 says when one is.",
 "C120": "Same premise as C12: the memo is empty, as after every setter.",
 "C121": "",
 "C122": "separators, comments and sorting are off (C40, C41, C45 and C46 treat them); texts contain no NUL; with lookup, the resolver answers with TCP, UDP or no protocol",
 "C123": "sorting is off (C45 and C46 treat it); texts contain no NUL",
 "C124": "texts contain no NUL; that nothing else is accepted is for masks allowed (without masks C49_error_ignored_refuted shows an erroneous text which is accepted)",
 "C125": "values contain no NUL; the language is that of the parser the validator holds, C94 and C97 say which one the options give",
 "C126": "arguments contain no NUL; C108 treats what cannot be printed",
 "C127": "sorting is off (C45 and C46 treat it); texts contain no NUL; with lookup, the answers of the resolver have the family AF_INET or AF_INET6, the size of that family and a known protocol; sizes are socklen_t",
 "C128": "same assumptions about the resolver as C127",
 "C129": "all that is found can be printed (C108), same assumptions about the resolver as C127",
 "C130": "",
 "C131": "Refuted: the function writes UNKNOWN before the type, another thread can be told that 10.0.0.1 is public; it is a data race, and the addresses of the cached interface list are shared like that. Proved: a wrong answer is UNKNOWN and comes from a call which is still going on and started before any other ended; calls which do not overlap are right; asked once before it is shared, an object always answers right and without race.",
 "C132": "Refuted: the list is the one in the cache, a caller who clears it makes others get an empty list. Proved: the library changes no list it returned; if callers only read, all they see is what the model with values (C57, C58, C91) allows, and each list holds what the kernel said once.",
 "C133": "inet_ntop(AF_INET6) is glibc's, transcribed (Inet.v); C119 to C121 and ifaces (C103) use the same specification for the addresses and masks they show.",
 "C134": "inet_pton() is glibc's, transcribed (Inet.v). All the properties of the parser are stated with this grammar (SpecIpv6.v).",
 "C135": "set_protocol() defines the protocol only when it changes (C17); a number given as text is taken modulo 2^32 (C15): the history says so. The type of network is told from the history by C13_remembered_type.",
 "C136": "Paths and URIs are those of C53 and C83. The constructors are the default one and a call (C136_constructors).",
 "C137": "All 18 operators; the layout of sockaddr_in6 (28 bytes without padding) and little endian words are trusted.",
 "C138": "The full claim is refuted by two executions. Proved: what decides every verdict and message, for all interleavings; undisturbed calls are right. Missing: interleavings inside of the functions of the parser, which are data races.",
 "C139": "Two calls are enough for what C36 asks of one.",
 "C140": "Refuted with masks and merging: 10.0.0.1/24,10.0.0.2/24 becomes the range of two addresses. Proved for all orders but merging, for merging without masks, and for merging of ranges which do not touch.",
 "C141": "End to end: from the text to the verdict. Networks with SORT_MERGE are left out because C140 refutes them.",
 "C142": "C142_other_sockets, C142_one_message and C142_object hold in general. C142_reply_partial excludes IPv4-mapped addresses on IPv6 sockets: there the reply uses a structure of the other family (C142_same_structure_refuted), for the same address and port (C142_dual_stack). The count is an int: counts of 2^31 bytes and more are out of scope.",
 "C143": "C143_nothing_invented holds for every order, C143_sorting_loses_nothing without SORT_MERGE. With SORT_MERGE addresses stay covered (C46) but ports get lost: C143_ports_refuted; C143_one_port_partial is for texts with one port.",
 "C144": "Refuted in general: an IPv6 range in the list is not read back (C79), and with newlines and comments allowed only the first entry of a line is. Proved for single addresses and IPv4 ranges.",
 "C145": "Refuted: \"::1:0:0:0/64,255.255.255.255\" throws std::out_of_range when merged. Proved: only merging throws, only this exception, and only when a mask is not a prefix or one has less than 96 ones and there is an IPv4 address.",
 "C146": "C146_named_match holds in general. More addresses than without merging can match: \"-10.0.0.1/104,10.0.0.1\" matches all of 10.0.0.0/8 (C146_never_more_refuted); never when each entry has a first address (C146_never_more_partial).",
 "C147": "Names resolved by getaddrinfo() may have a scope; they are not covered by this claim.",
 "C148": "True for IPv4 and for IPv6 without scope and flow; refuted for a link-local peer: the scope (the interface) is neither printed nor parsed, so fe80::1 on interface 2 comes back as fe80::1 on no interface, although the library says the two addresses are equal. C148_exact: no numeric text whatever stands for an IPv6 socket address with a scope.",
 "C149": "std::set itself is modelled by its contract (the standard library is not part of the repository). Two addresses which differ in port alone are one key: C149_ports_are_not_kept.",
 "C150": "The kernel's table is assumed not to change between the calls.",
 "C151": "C151_exactly says what the test gives for any two networks. Refuted: networks next to each other (10.0.0.0/25 and 10.0.0.128/25) count as included; ::/80, and in general two networks of which the larger has less than 96 ones and the lowest or the highest address is an IPv4 one, give std::out_of_range. C151_documented_partial: true otherwise for masks of 96 ones or more.",
 "C152": "C28 is the case of both ends. Refuted otherwise: a missing end counts as ::, so a single address has an empty intersection with every range (C152_single_address), also with itself; a range which only has an end cuts the other at its end (C152_end_only), and two of them share all the addresses from :: on. C152_right_partial: right when the address is not in the range.",
 "C153": "C153_error_refuted, C153_misread_refuted and C153_several_ports_refuted show which sentences of README.md do not hold; C153_no_port_without_brackets is the one which does. That advgetopt refuses a number with a comma or an inner dash is a hypothesis (refuses_several).",
 "C154": "false for connect() of a UDP address and for a route table without a complete first line: a failure is reported and errno is whatever it was before (C154_connect_refuted, C154_routes_refuted)",
 "C155": "The statement about comments is refuted: \" #secret\" with ALLOW_COMMENT_HASH and lookups sends the comment to the resolver (C155_comments_refuted); C155_comments_partial has the guard under which it holds, all else is proved as stated. The list of questions is a model of its own beside Parser.v, tied to it by C155_only_these_answers.",
 "C156": "The last sentence is refuted with two witnesses (C156_no_lookup_refuted): address=yes with default=example:80 asks about \"example\" while the validator is made, and a validator without options looks values up. Everything else is proved as stated.",
 "C157": "Proved for TCP and UDP (C157_same_partial) and for string_to_addr(). Refuted without a protocol or with IP: each address comes back three times, for TCP, UDP and IP (C157_unchanged_refuted); C157_each_kind says exactly what comes back and C157_same_addresses that the same addresses match (without sorting). Premises: posix (SpecNumeric.v), no '+', 'x', 'X' or NUL in the text.",
 "C158": "Proved without conditions for ALLOW_ADDRESS_MASK; for ranges, ports and masks without lookups (C158_entry, C158_entries; no default masks); for separators and comments when the text does not have the character (C158_cut). Refuted for each of the other flags in general (C158_unchanged_refuted): comments with newlines and commas lose entries, a first separator loses the default address of an empty text, names with a dash become ranges, a default mask is applied, localhost:80/24 gets another mask. Missing: exact conditions with lookups.",
 "C159": "Merging with masks depends on the order when there are empty ranges: with \"10.0.0.1/24,10.0.9.9-10.0.9.1,10.0.0.2-10.0.0.1\" 10.0.0.7 matches, with the last two entries exchanged it does not (C159_merge_refuted). Without empty ranges both texts are merged or neither and the same addresses match (C159_merge_partial); without masks (C159_no_masks) and without merging (C159_order_partial) always. C159_full_sort, C159_merge and C159_more_partial are the other parts.",
 "C160": "Exact reading of any rows; C84_exactly covers the tables where a column is missing.",
 "C161": "True for every IPv4 network (C161_ipv4) and for masks of at least two bits when the network does not contain ffff:...:ffff (C161_network_partial). With that address it never ends, like ::/0, and with a mask of one bit size() has undefined behaviour (C161_last_refuted). A range with the network as its only end, which is what parse() returns for \"10.0.0.0/24\", gives one address only (C161_mask_refuted).",
 "C162": "A vector or set of addresses is written address by address: only the first one takes the column (C162_addresses), so such lists do not line up (C162_addresses_refuted), and an empty one leaves the width to what is written next. The insertion of a std::string is that of the standard library and part of the trusted base.",
 "C163": "Holds with tcp and udp (C163_again_partial). With the protocol ip every line comes back three times (C163_protocol_ip, C163_protocol_ip_refuted). Without --mask the lines still have a mask and none of them is accepted (C163_without_mask, C163_without_mask_refuted) unless the system knows names with a slash.",
 "C164": "C164_same_as_written relates the two lists in both directions, for every sort order; with merging, entries which only have an end (\"-10.0.0.9\") are left out. C164_told says what is_port_defined() answers for one entry.",
 "C165": "C165_replace has no condition on the parser or the texts. C165_defaults_written_out composes it with C48 and C117, in any number of steps per entry.",
 "C166": "Refuted for set_from_socket() and recvfrom(). C166_unchanged_partial: all other calls. C166_from_socket and C166_recvfrom: what the object is after the exception, for all inputs. The vector functions and parser setters are C35, C56 and C114.",
 "C167": "Refuted for empty ranges (C167_empty_refuted), otherwise C167_listed_partial and C167_any_order_partial. With masks to_addresses() lists one address for a network as parse() returns it (C161).",
 "C168": "C168_numeric, C168_lookup and C168_written.",
 "C169": "C169_exactly covers all pairs of networks, C169_halves is the case which is common, C169_exception a case of the exception.",
 "C170": "C170_addr is an equivalence for every operation. The documented exception of addr_unix::set_un() is refuted (C170_documented_refuted); C170_unix and C170_family say which one it is.",
 "C171": "The outcome UB of the model stands for the negation of INT_MIN (addr.cpp:2819-2978), a std::string from a null pointer (addr.cpp:2469) and accesses outside of sun_path; other sources of undefined behaviour, such as data races (C86, C131, C138) and the functions of ranges (C26, C27, C161), routes (C84) and interfaces (C59), have their own properties.",
 "C172": "",
 "C173": "",
 "C174": "",
 "C175": "For C175_defaults the entries are those of SpecLanguage.entries_of; complete says what an entry has to have.",
 "C176": "whole_lines leaves out parsers for which newlines and comments are allowed together with other separators: these use only the first entry of each line (C41); C176_cut covers them too."
}