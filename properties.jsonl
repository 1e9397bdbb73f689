{"id": "C01", "title": "128-bit codec is a bijection", "statement": "ip_to_uint128() returns the big-endian value of the 16 address bytes, ip_from_uint128() stores exactly those bytes, and the two are inverse of each other in both directions; no other field (port, mask, protocol, ...) is changed.", "quantifier": "every address (16 arbitrary bytes) and every unsigned 128-bit number", "why_tests_cant": "2^128 inputs; tests sample a few random addresses", "anchors": ["libaddr/addr.cpp: addr::ip_to_uint128", "libaddr/addr.cpp: addr::ip_from_uint128"]}
{"id": "C02", "title": "Comparison operators are the numeric total order", "statement": "a==b, a!=b, a<b, a<=b, a>b, a>=b hold exactly when the same relation holds between the 128-bit values of the addresses; hence they form one consistent total order and they ignore port, mask, protocol, interface and hostname.", "quantifier": "every pair of addresses with any combination of the other fields", "why_tests_cant": "pairs of 2^128 values; memcmp order equals numeric order only because of byte order, which sampling does not establish", "anchors": ["libaddr/addr.cpp: addr::operator ==", "libaddr/addr.cpp: addr::operator <", "libaddr/addr.h: operator < (in6_addr)"]}
{"id": "C03", "title": "Increment, decrement and offset arithmetic saturates", "statement": "++, --, + n, - n, += n, -= n move the address by exactly n, clamped to [::, ffff:...:ffff], and change no other field; the only int offset for which this fails is INT_MIN, whose negation is undefined behaviour.", "quantifier": "every address and every int offset", "why_tests_cant": "the saturation borders and the INT_MIN border are single points in a 2^160 space", "anchors": ["libaddr/addr.cpp: addr::operator ++", "libaddr/addr.cpp: addr::operator --", "libaddr/addr.cpp: addr::operator +", "libaddr/addr.cpp: addr::operator -", "libaddr/addr.cpp: addr::operator +=", "libaddr/addr.cpp: addr::operator -="]}
{"id": "C04", "title": "Address difference", "statement": "a - b is the exact signed difference of the values whenever it fits a signed 128-bit integer, is congruent to it modulo 2^128 otherwise; b + (a - b) = a whenever the difference fits an int.", "quantifier": "every pair of addresses", "why_tests_cant": "wrap-around only happens for differences of at least 2^127", "anchors": ["libaddr/addr.cpp: addr::operator - (addr const &)"]}
{"id": "C05", "title": "Adjacency tests never wrap", "statement": "a.is_next(b) iff value(b) = value(a)+1 and a.is_previous(b) iff value(b) = value(a)-1; the first address has no previous one and the last no next one; is_next and is_previous are converse relations.", "quantifier": "every pair of addresses", "why_tests_cant": "only two of the 2^256 pairs exercise the wrap", "anchors": ["libaddr/addr.cpp: addr::is_next", "libaddr/addr.cpp: addr::is_previous"]}
{"id": "C06", "title": "IPv4 addresses are embedded faithfully", "statement": "After set_ipv4(in) the address is IPv4, get_family() is AF_INET and get_ipv4() returns the same address and port; two different IPv4 addresses stay different; get_ipv4() throws for exactly the addresses outside ::ffff:0:0/96; an input with another family is rejected and leaves the object unchanged.", "quantifier": "every sockaddr_in and every previous state of the object", "why_tests_cant": "2^48 address/port pairs times all prior states", "anchors": ["libaddr/addr.cpp: addr::set_ipv4", "libaddr/addr.cpp: addr::get_ipv4", "libaddr/addr.cpp: addr::is_ipv4", "libaddr/addr.cpp: addr::get_family"]}
{"id": "C07", "title": "IPv6 socket addresses round-trip", "statement": "set_ipv6() followed by get_ipv6() returns the same structure bit for bit (port, flow info, scope included); inputs with another family are rejected and leave the object unchanged.", "quantifier": "every sockaddr_in6 and every prior state", "why_tests_cant": "2^208 structures", "anchors": ["libaddr/addr.cpp: addr::set_ipv6", "libaddr/addr.cpp: addr::get_ipv6"]}
{"id": "C08", "title": "CIDR mask size round-trip", "statement": "set_mask_count(n) accepts exactly 0..128 (96..128 when the address is IPv4), afterwards get_mask_size() is n and the mask is n one bits followed by 128-n zero bits; rejected sizes throw and leave the object unchanged.", "quantifier": "every int n and every address state", "why_tests_cant": "all ints; object states are unbounded", "anchors": ["libaddr/addr.cpp: addr::set_mask_count", "libaddr/addr.cpp: addr::get_mask_size"]}
{"id": "C09", "title": "get_mask_size recognises exactly the contiguous masks", "statement": "get_mask_size() returns n>=0 iff the mask is n ones followed by zeroes and -1 for every other of the 2^128 masks.", "quantifier": "every 16 byte mask", "why_tests_cant": "only 129 of 2^128 masks are contiguous; the negative part cannot be enumerated", "anchors": ["libaddr/addr.cpp: addr::get_mask_size", "libaddr/addr.cpp: addr::set_mask"]}
{"id": "C10", "title": "apply_mask computes the network and broadcast addresses", "statement": "apply_mask() clears and apply_mask(true) sets exactly the host bits; both are idempotent; with a mask of n bits they give the lowest and highest address of the block of 2^(128-n) addresses containing the original one.", "quantifier": "every address and mask", "why_tests_cant": "2^256 pairs", "anchors": ["libaddr/addr.cpp: addr::apply_mask"]}
{"id": "C11", "title": "match is CIDR membership", "statement": "net.match(ip) holds iff ip and net agree on every bit selected by net's mask; for a mask of n bits that is iff ip lies in the 2^(128-n) block of net; with any=true the default addresses :: and 0.0.0.0 match everything.", "quantifier": "every pair of addresses and every mask", "why_tests_cant": "2^384 triples", "anchors": ["libaddr/addr.cpp: addr::match"]}
{"id": "C12", "title": "Network type classification follows the registry table", "statement": "For an address whose type was not computed yet, get_network_type() returns the entry of the reserved-block table (10/8, 172.16/12, 192.168/16, 100.64/10, 169.254/16, 224/4, 127/8, 0.0.0.0, fd00::/8, fe80::/10, ffx1::/16, ffx2::/16, ff00::/8, ::, ::1, 2001:db8::/32, 3fff::/20) containing the address and PUBLIC when no block contains it; it never returns UNDEFINED.", "quantifier": "every address", "why_tests_cant": "every bit pattern; block boundaries on all sides", "anchors": ["libaddr/addr.cpp: addr::get_network_type"]}
{"id": "C13", "title": "Network type always reflects the current address", "statement": "At any point of any sequence of calls, get_network_type() (and is_lan, is_wan, is_valid) describes the address currently held.", "quantifier": "every history of calls on one object", "why_tests_cant": "a stale cache only shows after particular interleavings of queries and mutations", "anchors": ["libaddr/addr.cpp: addr::get_network_type", "libaddr/addr.cpp: addr::address_changed", "libaddr/addr.cpp: addr::operator ++", "libaddr/addr.cpp: addr::apply_mask", "libaddr/addr.cpp: addr::ip_from_uint128"]}
{"id": "C14", "title": "Port round-trip and range check", "statement": "set_port(int) accepts exactly 0..65535, then get_port() returns it and is_port_defined() is true and nothing else changes; other values throw and change nothing. get_str_port() is the decimal notation of get_port() without leading zeroes, and set_port() of this text gives any other address the same port.", "quantifier": "every int and every state", "why_tests_cant": "2^32 ints and byte swapping", "anchors": ["libaddr/addr.cpp: addr::set_port(int)", "libaddr/addr.cpp: addr::get_port", "libaddr/addr.cpp: addr::get_str_port"]}
{"id": "C15", "title": "Numeric port strings outside 0..65535 are rejected", "statement": "set_port(\"digits\") only succeeds when the decimal value is within 0..65535 and then stores that value.", "quantifier": "every numeric string", "why_tests_cant": "strings are unbounded; the failing inputs start beyond 2^32", "anchors": ["libaddr/addr.cpp: addr::set_port(char const *)"]}
{"id": "C16", "title": "Only IP, TCP and UDP are ever stored as protocol", "statement": "After any history of calls get_protocol() is IPPROTO_IP, IPPROTO_TCP or IPPROTO_UDP; set_protocol(x) throws and changes nothing for every other x and otherwise get_protocol() is x.", "quantifier": "every history of calls, every int, every system protocol database", "why_tests_cant": "histories are unbounded and the system database is external", "anchors": ["libaddr/addr.cpp: addr::set_protocol", "libaddr/addr.cpp: addr::set_from_socket"]}
{"id": "C17", "title": "set_protocol marks the protocol as defined", "statement": "After a successful set_protocol(), is_protocol_defined() returns true.", "quantifier": "every prior state and protocol", "why_tests_cant": "depends on the prior value of the field", "anchors": ["libaddr/addr.cpp: addr::set_protocol", "libaddr/addr.cpp: addr::is_protocol_defined"]}
{"id": "C18", "title": "Object invariant", "statement": "Whatever sequence of operations is applied to an addr, it keeps an AF_INET6 structure with 16 in-range address bytes, 16 in-range mask bytes and a 16 bit port; no operation other than the documented out-of-contract ones reaches undefined behaviour.", "quantifier": "every finite history of public operations, including failing ones", "why_tests_cant": "unbounded histories", "anchors": ["libaddr/addr.cpp: addr::*"]}
{"id": "C19", "title": "LAN, WAN and validity predicates partition the types", "statement": "is_lan(x) and is_wan(y) never hold together; is_default() iff the type is ANY for a freshly computed type; is_valid() is false exactly for documentation addresses.", "quantifier": "every address and both flags", "why_tests_cant": "all addresses", "anchors": ["libaddr/addr.cpp: addr::is_lan", "libaddr/addr.cpp: addr::is_wan", "libaddr/addr.cpp: addr::is_valid", "libaddr/addr.cpp: addr::is_default"]}
{"id": "C20", "title": "IPv4 text round-trip", "statement": "The dotted form printed for an IPv4 address is accepted by the IPv4 text parser used by the library and gives back the same four bytes; hence distinct addresses print differently.", "quantifier": "all 2^32 IPv4 addresses", "why_tests_cant": "2^32 values times digit-length combinations", "anchors": ["libaddr/addr.cpp: addr::to_ipv4_string", "libaddr/addr_parser.cpp: addr_parser::parse_address_port"]}
{"id": "C21", "title": "IPv6 text round-trip", "statement": "The text printed for an IPv6 address (with :: compression and embedded IPv4 forms) is accepted by the IPv6 text parser and gives back the same 16 bytes.", "quantifier": "all 2^128 addresses", "why_tests_cant": "compression of every zero-run pattern", "anchors": ["libaddr/addr.cpp: addr::to_ipv6_string", "libaddr/addr_parser.cpp: addr_parser::parse_address_port"]}
{"id": "C22", "title": "Printed addresses parse back", "statement": "to_ipv4or6_string(STRING_IP_ALL) of an address with a contiguous mask (IPv4 compatible when the address is IPv4), given to a parser that does not use host lookup and allows masks, yields exactly one range with has_from whose address, port and mask are those of the original, and no error.", "quantifier": "every address, every port, every contiguous mask", "why_tests_cant": "product of all addresses, ports and masks", "anchors": ["libaddr/addr.cpp: addr::to_ipv4or6_string", "libaddr/addr_parser.cpp: addr_parser::parse", "libaddr/addr_parser.cpp: addr_parser::parse_cidr", "libaddr/addr_parser.cpp: addr_parser::parse_mask"]}
{"id": "C23", "title": "Printing distinguishes addresses", "statement": "With the same mode including the address and without a default-as flag, two addresses whose to_ipv4or6_string() are equal have the same IP address.", "quantifier": "every pair of addresses", "why_tests_cant": "injectivity is a statement about pairs", "anchors": ["libaddr/addr.cpp: addr::to_ipv4or6_string"]}
{"id": "C24", "title": "Interval semantics of ranges", "statement": "is_empty() iff from > to on a full range; is_in(x) iff from <= x <= to; is_in throws iff an end is missing; match(x) on a full range is is_in(x) and on a single address is its CIDR match.", "quantifier": "every range and address", "why_tests_cant": "all triples of addresses", "anchors": ["libaddr/addr_range.cpp: addr_range::is_empty", "libaddr/addr_range.cpp: addr_range::is_in", "libaddr/addr_range.cpp: addr_range::match"]}
{"id": "C25", "title": "An undefined or empty range matches nothing", "statement": "match(x) is false for every x when the range has neither end or is empty.", "quantifier": "every range without elements and every address", "why_tests_cant": "one particular address out of 2^128 is the exception", "anchors": ["libaddr/addr_range.cpp: addr_range::match", "libaddr/addr_range.cpp: addr_range::is_empty"]}
{"id": "C26", "title": "size() is the number of addresses", "statement": "size() is the number of addresses of the range, clamped to SIZE_MAX; an empty range has size 0.", "quantifier": "every range", "why_tests_cant": "overflow borders (empty ranges, the full range, 2^127 addresses) are isolated points", "anchors": ["libaddr/addr_range.cpp: addr_range::size"]}
{"id": "C27", "title": "to_addresses enumerates the range", "statement": "When the size is within the limit, to_addresses() terminates and returns every address of the range exactly once, in increasing order; otherwise it throws out_of_range.", "quantifier": "every range and limit", "why_tests_cant": "termination at the very last address and for inverted ranges", "anchors": ["libaddr/addr_range.cpp: addr_range::to_addresses"]}
{"id": "C28", "title": "intersection is set intersection", "statement": "For two full ranges, an address is in the intersection iff it is in both; the result is empty iff they are disjoint.", "quantifier": "every pair of ranges and every address", "why_tests_cant": "quantifies over all addresses of both ranges", "anchors": ["libaddr/addr_range.cpp: addr_range::intersection"]}
{"id": "C29", "title": "union_if_possible is set union exactly when one interval results", "statement": "For two ranges with ends and contiguous masks the result is defined iff the ranges overlap or touch, and then an address is in the result iff it is in one of them; otherwise the result is undefined and nothing is merged.", "quantifier": "every pair of ranges and every address, inverted ranges included", "why_tests_cant": "all relative positions including the two ends of the address space", "anchors": ["libaddr/addr_range.cpp: addr_range::union_if_possible"]}
{"id": "C30", "title": "compare classifies interval positions correctly", "statement": "compare() returns the documented relation (equal, smaller, larger, precedes, follows, overlaps, included, includes, first, last, unordered, IPv4 versus IPv6) and compare(b,a) is always the mirror of compare(a,b).", "quantifier": "every pair of ranges, both values of mixed", "why_tests_cant": "all relative positions of four 128 bit numbers", "anchors": ["libaddr/addr_range.cpp: addr_range::compare"]}
{"id": "C31", "title": "operator < on ranges is a strict weak order on defined ranges", "statement": "Over defined ranges (empty ones included) operator < is irreflexive, transitive and its incomparability is transitive, so std::sort/stable_sort on parser results is well defined.", "quantifier": "all triples of ranges", "why_tests_cant": "transitivity quantifies over triples", "anchors": ["libaddr/addr_range.cpp: addr_range::operator <", "libaddr/addr_parser.cpp: addr_parser::parse"]}
{"id": "C32", "title": "CIDR to range conversion", "statement": "from_cidr(a) gives the range whose elements are exactly the addresses matched by a, and throws exactly for non-contiguous masks.", "quantifier": "every address and mask and every candidate element", "why_tests_cant": "membership for all addresses", "anchors": ["libaddr/addr_range.cpp: addr_range::from_cidr"]}
{"id": "C33", "title": "Range to CIDR conversion", "statement": "to_cidr(a) returns true iff both ends are given and the range is exactly a CIDR block; then a has the network address and the right mask and from_cidr(a) gives the range back; when it returns false a is unchanged; it never throws.", "quantifier": "every range and output object", "why_tests_cant": "the bit scanning must be right for all 2^256 pairs of ends", "anchors": ["libaddr/addr_range.cpp: addr_range::to_cidr"]}
{"id": "C34", "title": "address_match_ranges is existential", "statement": "address_match_ranges(v, x) iff some range of v matches x.", "quantifier": "every vector and address", "why_tests_cant": "unbounded vectors", "anchors": ["libaddr/addr_range.cpp: address_match_ranges"]}
{"id": "C35", "title": "optimize_vector preserves the matched set", "statement": "When optimize_vector(v) returns, an address is matched by some element of the new v iff it was matched by some element of the old v; it returns true iff the vector got shorter and never grows it.", "quantifier": "every vector with contiguous masks and every address", "why_tests_cant": "unbounded vectors and all merge orders", "anchors": ["libaddr/addr_range.cpp: optimize_vector"]}
{"id": "C36", "title": "optimize_vector removes every included network", "statement": "After optimize_vector(v) no element is included in another one.", "quantifier": "every vector", "why_tests_cant": "depends on the order of elements", "anchors": ["libaddr/addr_range.cpp: optimize_vector"]}
{"id": "C37", "title": "Allow flags stay mutually consistent", "statement": "After any sequence of set_allow() calls, MULTI_ADDRESSES_COMMAS and MULTI_PORTS_COMMAS are never both on; get_allow(f) is the last value set for f unless the excluded companion of f was turned on later; invalid flags throw and change nothing.", "quantifier": "every sequence of set_allow calls with any flag values", "why_tests_cant": "unbounded histories over 20 flags", "anchors": ["libaddr/addr_parser.cpp: addr_parser::set_allow", "libaddr/addr_parser.cpp: addr_parser::get_allow"]}
{"id": "C38", "title": "Sort order flags stay consistent", "statement": "set_sort_order never stores both IPv4-first and IPv6-first; a rejected order throws and leaves the previous one; an accepted order is returned by get_sort_order.", "quantifier": "every flag combination", "why_tests_cant": "all 2^n combinations of flags including undefined bits", "anchors": ["libaddr/addr_parser.cpp: addr_parser::set_sort_order"]}
{"id": "C39", "title": "Default port stays in range", "statement": "After any history of set_default_port calls the default port is -1 or 0..65535; a numeric string outside that range is rejected.", "quantifier": "every history, every string", "why_tests_cant": "unbounded strings; the failing ones are above 2^32", "anchors": ["libaddr/addr_parser.cpp: addr_parser::set_default_port"]}
{"id": "C40", "title": "Separators split the input into independent entries", "statement": "With separators allowed and comments not allowed, parse() of a string gives the concatenation, in order, of the results of its maximal separator-free pieces; leading, trailing and repeated separators add nothing.", "quantifier": "every input string and parser configuration", "why_tests_cant": "unbounded strings", "anchors": ["libaddr/addr_parser.cpp: addr_parser::parse"]}
{"id": "C41", "title": "Comments never contribute addresses", "statement": "With a comment mode allowed, text from a comment character to the end of its line or entry has no influence on the result and all other entries are parsed.", "quantifier": "every input string", "why_tests_cant": "unbounded strings", "anchors": ["libaddr/addr_parser.cpp: addr_parser::parse"]}
{"id": "C42", "title": "Errors are never silent", "statement": "For each entry parse() either reports an error or returns at least one range for it; has_errors() is true iff the error count is positive; the error count only grows until clear_errors(); an entry with an error and with masks allowed contributes no range.", "quantifier": "every input string, configuration and prior error state", "why_tests_cant": "unbounded strings and configurations", "anchors": ["libaddr/addr_parser.cpp: addr_parser::parse", "libaddr/addr_parser.cpp: addr_parser::parse_cidr", "libaddr/addr_parser.cpp: addr_parser::emit_error"]}
{"id": "C43", "title": "parse returns only defined ranges", "statement": "Every range returned by parse() has at least one end, and its ports are in 0..65535.", "quantifier": "every input, configuration and resolver behaviour", "why_tests_cant": "unbounded inputs and arbitrary resolver answers", "anchors": ["libaddr/addr_parser.cpp: addr_parser::parse", "libaddr/addr_parser.cpp: addr_parser::parse_address_range_port"]}
{"id": "C44", "title": "Required and forbidden ports are honoured", "statement": "Without lookup, if a port is not allowed no returned address comes from text with a port; if a port is required and no default exists every entry without a port is an error.", "quantifier": "every input and configuration", "why_tests_cant": "unbounded inputs", "anchors": ["libaddr/addr_parser.cpp: addr_parser::parse_address4", "libaddr/addr_parser.cpp: addr_parser::parse_address6", "libaddr/addr_parser.cpp: addr_parser::parse_address_port"]}
{"id": "C45", "title": "Sorting keeps exactly the parsed ranges", "statement": "With any sort flag but merge the result is a permutation of the unsorted result; with IPV4_FIRST/IPV6_FIRST the requested family precedes the other and the relative order within a family is unchanged; with a full sort the result is ordered.", "quantifier": "every list of ranges", "why_tests_cant": "unbounded lists", "anchors": ["libaddr/addr_parser.cpp: addr_parser::parse"]}
{"id": "C46", "title": "Merging keeps the matched set and separates ranges", "statement": "With SORT_MERGE and no masks, the merged ranges contain exactly the addresses of the unmerged ones, and any two non-empty merged ranges neither overlap nor touch.", "quantifier": "every list of ranges and every address", "why_tests_cant": "unbounded lists", "anchors": ["libaddr/addr_parser.cpp: addr_parser::parse"]}
{"id": "C47", "title": "Numeric masks are translated exactly", "statement": "A decimal mask n after an IPv4 (0..32) or IPv6 (0..128) address yields a mask of 96+n or n one bits; any other number is an error.", "quantifier": "every decimal string", "why_tests_cant": "all numbers, loops over bits", "anchors": ["libaddr/addr_parser.cpp: addr_parser::parse_mask"]}
{"id": "C48", "title": "Default masks apply to entries without a mask", "statement": "If a default mask for the family of the entry was set and masks are allowed, an entry without explicit mask gets that mask.", "quantifier": "every default mask and entry", "why_tests_cant": "the numeric IPv6 case is one branch among many", "anchors": ["libaddr/addr_parser.cpp: addr_parser::parse_cidr", "libaddr/addr_parser.cpp: addr_parser::set_default_mask"]}
{"id": "C49", "title": "string_to_addr yields one address or throws", "statement": "string_to_addr() returns an address iff the string denotes exactly one address without error, and throws otherwise.", "quantifier": "every string, resolver and parameters", "why_tests_cant": "unbounded strings", "anchors": ["libaddr/addr_parser.cpp: string_to_addr"]}
{"id": "C50", "title": "Numeric-only mode never uses the resolver", "statement": "With address lookup disallowed and address masks disallowed, parse() gives the same result whatever the resolver would answer.", "quantifier": "every input and every pair of resolvers", "why_tests_cant": "non-interference is a statement about pairs of executions", "anchors": ["libaddr/addr_parser.cpp: addr_parser::parse_address_port", "libaddr/addr_parser.cpp: addr_parser::parse_mask"]}
{"id": "C51", "title": "parse leaves the configuration unchanged", "statement": "parse() changes nothing in the parser but the error log; parsing the same string again yields the same ranges.", "quantifier": "every input and configuration", "why_tests_cant": "unbounded inputs", "anchors": ["libaddr/addr_parser.cpp: addr_parser::parse"]}
{"id": "C52", "title": "Unix address kinds are exclusive and exhaustive", "statement": "After any history of operations exactly one of is_file(), is_abstract(), is_unnamed() holds, the family is AF_UNIX and the 108 byte path is NUL terminated where required.", "quantifier": "every history of operations with any arguments", "why_tests_cant": "unbounded histories", "anchors": ["libaddr/addr_unix.cpp: addr_unix::is_file", "libaddr/addr_unix.cpp: addr_unix::is_abstract", "libaddr/addr_unix.cpp: addr_unix::is_unnamed", "libaddr/addr_unix.cpp: addr_unix::set_un"]}
{"id": "C53", "title": "Unix paths are canonical", "statement": "After set_file(p) or set_abstract(p) succeeds, to_string() has no empty segment, does not end with a slash, has no control character, fits sun_path with its NUL, names the same segments as p, and setting it again changes nothing.", "quantifier": "every byte string", "why_tests_cant": "unbounded strings", "anchors": ["libaddr/addr_unix.cpp: addr_unix::set_file", "libaddr/addr_unix.cpp: addr_unix::set_abstract", "libaddr/addr_unix.cpp: addr_unix::verify_path"]}
{"id": "C54", "title": "Unix socket structure round-trip", "statement": "set_un(u) followed by get_un() preserves kind and path for canonical input, and set_un(get_un(x)) gives an address equal to x for every x reachable through the API.", "quantifier": "every reachable address", "why_tests_cant": "all reachable states", "anchors": ["libaddr/addr_unix.cpp: addr_unix::set_un", "libaddr/addr_unix.cpp: addr_unix::get_un"]}
{"id": "C55", "title": "Unix URI round-trip", "statement": "set_uri(to_uri(x)) gives back kind, path and scheme of x.", "quantifier": "every reachable address and scheme", "why_tests_cant": "paths are arbitrary byte strings; reserved characters matter", "anchors": ["libaddr/addr_unix.cpp: addr_unix::to_uri", "libaddr/addr_unix.cpp: addr_unix::set_uri"]}
{"id": "C56", "title": "Failed Unix setters change nothing", "statement": "When set_un, set_file, set_abstract or set_uri throws, the address, scheme, mode and group are those from before.", "quantifier": "every argument and state", "why_tests_cant": "all failing inputs", "anchors": ["libaddr/addr_unix.cpp: addr_unix::set_uri", "libaddr/addr_unix.cpp: addr_unix::set_file", "libaddr/addr_unix.cpp: addr_unix::set_abstract", "libaddr/addr_unix.cpp: addr_unix::set_un"]}
{"id": "C57", "title": "Interface cache never exposes the placeholder", "statement": "With a non-decreasing clock, every get_local_addresses() call in any thread interleaving returns a list really obtained from the system (or null when the system call of that very call failed), never the internal empty placeholder.", "quantifier": "every interleaving of any number of threads, resets, ttl changes and clock values", "why_tests_cant": "schedules are unbounded", "anchors": ["libaddr/iface.cpp: iface::get_local_addresses", "libaddr/iface.cpp: iface::reset_local_addresses_cache"]}
{"id": "C58", "title": "Interface cache freshness", "statement": "A list returned by get_local_addresses() at time t was published at some time p <= t with t <= p + ttl in force at p, and after a reset no older list is returned by calls that start later.", "quantifier": "every interleaving", "why_tests_cant": "schedules are unbounded", "anchors": ["libaddr/iface.cpp: iface::get_local_addresses", "libaddr/iface.cpp: iface::set_local_addresses_cache_ttl"]}
{"id": "C59", "title": "find_addr_interface returns a matching interface", "statement": "find_addr_interface(x) returns an interface whose address matches x (network and mask) when one exists, otherwise the default one when allowed, otherwise null.", "quantifier": "every interface list and address", "why_tests_cant": "unbounded lists", "anchors": ["libaddr/iface.cpp: find_addr_interface"]}
{"id": "C60", "title": "Route table parsing", "statement": "get_ipv4_routes() returns one route per complete line of a well formed /proc/net/route, in order, with destination, gateway and mask equal to the kernel values.", "quantifier": "every well formed table", "why_tests_cant": "unbounded tables", "anchors": ["libaddr/route.cpp: route::get_ipv4_routes", "libaddr/route.cpp: hex_to_addr", "libaddr/route.cpp: readwords"]}
{"id": "C61", "title": "Route flags are the kernel flags", "statement": "get_flags() equals the flags word printed by the kernel (hexadecimal).", "quantifier": "every flags word", "why_tests_cant": "only words with a hexadecimal letter or above 9 show a difference", "anchors": ["libaddr/route.cpp: route::get_ipv4_routes", "libaddr/route.cpp: route::flags_to_string"]}
{"id": "C62", "title": "find_default_route returns the first default route", "statement": "find_default_route() returns the first route whose destination is 0.0.0.0 or :: and null when none is.", "quantifier": "every route vector", "why_tests_cant": "unbounded vectors", "anchors": ["libaddr/route.cpp: find_default_route"]}
{"id": "C63", "title": "Validator verdict depends only on the value", "statement": "validate(v) is true iff parsing v with the configured parser reports no error, whatever was validated before.", "quantifier": "every history of validate calls", "why_tests_cant": "unbounded histories", "anchors": ["libaddr/validator_address.cpp: validator_address::validate"]}
{"id": "C64", "title": "Stream formatting state is per stream and owned once", "statement": "setaddrmode/setaddrsep affect only the stream they are sent to, copyfmt duplicates the settings, and destroying streams in any order releases every settings object exactly once.", "quantifier": "every history of manipulators, copyfmt and destructions over any number of streams", "why_tests_cant": "unbounded histories, aliasing", "anchors": ["libaddr/addr.h: addr_ostream_event_callback, operator << (setaddrmode)", "libaddr/addr.cpp: get_ostream_index"]}
{"id": "C65", "title": "Printing an IPv4 address fails exactly on IPv6 data", "statement": "Port names aside, to_ipv6_string() never fails; to_ipv4_string() throws addr_invalid_state exactly when the address is asked for and is not IPv4, throws addr_unexpected_mask exactly when the mask is printed and does not start with 96 ones, and otherwise returns a text.", "quantifier": "every address, every mask, every combination of mode flags", "why_tests_cant": "all masks and all 2^32 modes", "anchors": ["libaddr/addr.cpp: addr::to_ipv4_string", "libaddr/addr.cpp: addr::to_ipv6_string", "libaddr/addr.cpp: addr::is_mask_ipv4_compatible"]}
{"id": "C66", "title": "is_hostname_an_ip separates names from numeric addresses", "statement": "is_hostname_an_ip() is true when the host name is empty or is the text printed for any address, and false when the host name (without NUL) has a character which is not a hexadecimal digit, a period or a colon.", "quantifier": "every address and every host name", "why_tests_cant": "2^128 addresses and unbounded names", "anchors": ["libaddr/addr.cpp: addr::is_hostname_an_ip"]}
{"id": "C67", "title": "create_socket opens the socket the address calls for", "statement": "create_socket() asks the system for exactly one socket, of the IPv4 family iff the address is IPv4, of stream/TCP type for the protocols IP and TCP and of datagram/UDP type for UDP, with the close-on-exec and non-blocking flags exactly when requested; it returns the answer of the system and sets SO_REUSEADDR iff it was requested, the socket is a TCP one and was opened.", "quantifier": "every reachable address, every flag combination, every answer of the system", "why_tests_cant": "all addresses, flags and system answers; unit tests only open a few local sockets", "anchors": ["libaddr/addr.cpp: addr::create_socket"]}
{"id": "C68", "title": "connect, bind and sendto hand this very address to the system", "statement": "The socket address given to the system by connect(), bind() and sendto() is of the family create_socket() uses for the same object and has exactly the IP address and port of the object; connect() on a UDP address and sendto() on another one return -1 without any system call.", "quantifier": "every reachable address and every socket", "why_tests_cant": "2^128 addresses times 2^16 ports", "anchors": ["libaddr/addr.cpp: addr::connect", "libaddr/addr.cpp: addr::bind", "libaddr/addr.cpp: addr::sendto"]}
{"id": "C69", "title": "set_from_socket describes the socket", "statement": "On success set_from_socket() leaves the object with the IP address and port of the socket name and with protocol TCP for a stream and UDP for a datagram socket, every other field but the remembered network type unchanged; it throws exactly when the descriptor is negative, a system call fails, or the family or type is another one; bind() with port 0 learns the port the system chose.", "quantifier": "every address object, every descriptor and every system answer", "why_tests_cant": "all system answers including failures which cannot be provoked in a unit test", "anchors": ["libaddr/addr.cpp: addr::set_from_socket", "libaddr/addr.cpp: addr::bind"]}
{"id": "C70", "title": "The default port is used exactly where no port is given", "statement": "Without address lookup, each address returned by parse() whose port was not given has the default port of the parser, or 0 when there is none.", "quantifier": "every input, every parser configuration and history", "why_tests_cant": "unbounded inputs and configurations", "anchors": ["libaddr/addr_parser.cpp: addr_parser::parse_addr", "libaddr/addr_parser.cpp: addr_parser::set_default_port"]}
{"id": "C71", "title": "The parser's protocol reaches every numeric address", "statement": "Without address lookup, each address returned by parse() has the protocol of the parser, or TCP when none was set.", "quantifier": "every input and every parser configuration", "why_tests_cant": "unbounded inputs and configurations", "anchors": ["libaddr/addr_parser.cpp: addr_parser::parse_addr", "libaddr/addr_parser.cpp: addr_parser::set_protocol"]}
{"id": "C72", "title": "parse always ends, with ranges or an exception", "statement": "parse() terminates on every string without undefined behavior, with a vector of ranges or an exception.", "quantifier": "every string, every parser state, every well-formed resolver answer", "why_tests_cant": "unbounded input; absence of undefined behavior cannot be observed by tests", "anchors": ["libaddr/addr_parser.cpp: addr_parser::parse"]}
{"id": "C73", "title": "parse only throws for configuration faults", "statement": "With a protocol which addr supports (or none), and without lookup or with lookups which only give protocols addr supports, parse() never throws unless merging of masked ranges was requested: all malformed input ends in the error log.", "quantifier": "every string and every such parser configuration", "why_tests_cant": "unbounded inputs", "anchors": ["libaddr/addr_parser.cpp: addr_parser::parse"]}
{"id": "C74", "title": "swap_from_to exchanges the ends", "statement": "swap_from_to() exchanges the two ends including whether each is present, and twice is the identity.", "quantifier": "every range", "why_tests_cant": "all ranges", "anchors": ["libaddr/addr_range.cpp: addr_range::swap_from_to"]}
{"id": "C75", "title": "recvfrom leaves the sender in the object", "statement": "recvfrom() on a UDP socket leaves the address and port of the sender in the object; on another socket, or when nothing was received, the object describes the socket and not some other peer.", "quantifier": "every object, every socket and every system answer", "why_tests_cant": "all system answers", "anchors": ["libaddr/addr.cpp: addr::recvfrom"]}
{"id": "C76", "title": "Numeric entries are read exactly", "statement": "With host lookup switched off, an entry which is an IPv4 address in dotted notation or an IPv6 address (bare or in brackets), followed by a port if any, gives exactly one range, with only a 'from', which has that address, that port (or the default port, or 0), the parser's protocol and a full mask; any other text in the place of the address is rejected with an error and no range.", "quantifier": "every address, every text, every port, every parser configuration without lookup", "why_tests_cant": "all texts and all addresses", "anchors": ["libaddr/addr_parser.cpp: addr_parser::parse_address", "libaddr/addr_parser.cpp: addr_parser::parse_address4", "libaddr/addr_parser.cpp: addr_parser::parse_address6", "libaddr/addr_parser.cpp: addr_parser::parse_address_port"]}
{"id": "C77", "title": "Numeric ranges are read exactly", "statement": "With ranges allowed and host lookup switched off, 'A-B' gives exactly one range from A to B, 'A-' one with only a 'from' and '-B' one with only a 'to', both ends having the port which follows; when B is before A the range is kept, or dropped without an error if SORT_NO_EMPTY is set.", "quantifier": "every pair of addresses, every port, every parser configuration without lookup", "why_tests_cant": "all pairs of addresses", "anchors": ["libaddr/addr_parser.cpp: addr_parser::parse_address_range_port"]}
{"id": "C78", "title": "A mask written as an address is used as such", "statement": "When address-like masks are allowed, '/M' after an accepted entry, M being an address of the same family, changes nothing but the mask of each range, which becomes that address (with all the upper 96 bits set for IPv4); an M of the other family, or address-like masks not being allowed, is an error and no range is returned.", "quantifier": "every entry, every mask", "why_tests_cant": "all entries and masks", "anchors": ["libaddr/addr_parser.cpp: addr_parser::parse_mask", "libaddr/addr_parser.cpp: addr_parser::parse_cidr"]}
{"id": "C79", "title": "Printed ranges parse back", "statement": "to_string() of a range with both ends and at least one address, given to a parser without host lookup which allows ranges, masks and ports, yields exactly one range holding the same addresses, and no error.", "quantifier": "every range with both ends", "why_tests_cant": "all pairs of addresses", "anchors": ["libaddr/addr_range.cpp: addr_range::to_string", "libaddr/addr_parser.cpp: addr_parser::parse_address6", "libaddr/addr_parser.cpp: addr_parser::parse_address_range_port"]}
{"id": "C80", "title": "Unix addresses compare by name", "statement": "== of two Unix addresses holds exactly when they have the same kind and the same path; !=, <, <=, >, >= follow one strict total order: the unnamed address, then abstract names, then files, each as their bytes. Mode, group and scheme do not matter.", "quantifier": "every two reachable addresses", "why_tests_cant": "all pairs of states; stale bytes after a shorter name would break it", "anchors": ["libaddr/addr_unix.cpp: addr_unix::operator ==", "libaddr/addr_unix.cpp: addr_unix::operator <", "libaddr/addr_unix.h: operator <"]}
{"id": "C81", "title": "set_from_socket() takes the name of the socket", "statement": "set_from_socket() returns false and changes nothing when getsockname() fails or the socket is not a Unix socket; otherwise the address has the kind and path the kernel gave, whether or not the kernel included the terminating zero, and scheme, mode and group stay.", "quantifier": "every answer of the kernel, every reachable address", "why_tests_cant": "the kernel's answers vary in length; all of them", "anchors": ["libaddr/addr_unix.cpp: addr_unix::set_from_socket"]}
{"id": "C82", "title": "unlink() removes only the file of a file address", "statement": "unlink() asks the system to remove exactly the path to_string() shows when the address is a file, and does nothing for an abstract or unnamed address.", "quantifier": "every reachable address", "why_tests_cant": "all states; removing another file is not undone by a test", "anchors": ["libaddr/addr_unix.cpp: addr_unix::unlink"]}
{"id": "C83", "title": "Which Unix URIs are accepted, and what they mean", "statement": "set_uri(t) succeeds exactly when t is scheme ':' path with an optional '?', '?unnamed', '?file' or '?abstract', the scheme is a letter then letters, digits, '+', '-', '.', and the path is empty (unnamed) or a name of that kind; the address then has that name and scheme. Otherwise it throws and nothing changes.", "quantifier": "every string, every reachable address", "why_tests_cant": "all strings", "anchors": ["libaddr/addr_unix.cpp: addr_unix::set_uri"]}
{"id": "C84", "title": "Reading the route table is safe for any content", "statement": "Whatever /proc/net/route contains (missing file, no line, missing columns, short rows, garbage), get_ipv4_routes() returns routes or throws; it never has undefined behaviour and always ends.", "quantifier": "every file content", "why_tests_cant": "all byte strings; tests only see the table of the machine", "anchors": ["libaddr/route.cpp: route::get_ipv4_routes", "libaddr/route.cpp: get_value", "libaddr/route.cpp: readwords"]}
{"id": "C85", "title": "flags_to_string shows exactly the flags which are set", "statement": "flags_to_string() is the letters of the bits set in get_flags(), each once, in the order of the table, and nothing for the other bits.", "quantifier": "every value of the flags (int)", "why_tests_cant": "2^32 values", "anchors": ["libaddr/route.cpp: route::flags_to_string"]}
{"id": "C86", "title": "The interface cache functions are thread safe", "statement": "get_local_addresses(), reset_local_addresses_cache() and set_local_addresses_cache_ttl() can be called by any threads at any time without a data race (the documentation says all three are thread safe).", "quantifier": "every number of threads, every interleaving", "why_tests_cant": "interleavings are unbounded and races need not show", "anchors": ["libaddr/iface.cpp: iface::get_local_addresses", "libaddr/iface.cpp: iface::set_local_addresses_cache_ttl", "libaddr/iface.cpp: iface::reset_local_addresses_cache"]}
{"id": "C87", "title": "The interfaces are what the kernel says", "statement": "The list read from the kernel has one interface for each entry with an IPv4 or IPv6 address, in order, with its name, flags, address, mask (all ones and undefined when there is none), and its broadcast or destination address when the flags say there is one.", "quantifier": "every list of entries of the kernel", "why_tests_cant": "all lists; tests see the interfaces of one machine", "anchors": ["libaddr/iface.cpp: iface::get_local_addresses"]}
{"id": "C88", "title": "has_broadcast_address() and has_destination_address() tell the truth", "statement": "has_broadcast_address() is true exactly when the interface has a broadcast address, which get_broadcast_address() then returns; the same for the destination.", "quantifier": "every entry of the kernel", "why_tests_cant": "machine dependent", "anchors": ["libaddr/iface.cpp: iface::has_broadcast_address", "libaddr/iface.cpp: iface::has_destination_address"]}
{"id": "C89", "title": "get_interface_name_index() lists all the interfaces", "statement": "get_interface_name_index() returns the index and name of each interface of the machine.", "quantifier": "every set of interfaces", "why_tests_cant": "needs interfaces to come and go", "anchors": ["libaddr/iface.cpp: get_interface_name_index"]}
{"id": "C90", "title": "is_broadcast_address() finds the broadcast addresses", "statement": "is_broadcast_address(a) is true exactly when a is an IPv4 address and the broadcast address of an interface whose network has a.", "quantifier": "every list of interfaces, every address", "why_tests_cant": "all configurations", "anchors": ["libaddr/iface.cpp: is_broadcast_address"]}
{"id": "C91", "title": "The interface cache never blocks for ever", "statement": "A thread in get_local_addresses() or reset_local_addresses_cache() can always go on, or waits for a thread which can; a call ends after a bounded number of its own steps.", "quantifier": "every number of threads, every interleaving", "why_tests_cant": "unbounded interleavings", "anchors": ["libaddr/iface.cpp: iface::get_local_addresses"]}
{"id": "C92", "title": "Protocol and port names", "statement": "get_protocol_name() and get_port_name() give the names which the system has for the protocol and the port of the address, an empty string if there is none.", "quantifier": "every address, every content of /etc/protocols and /etc/services", "why_tests_cant": "depends on the system files, unbounded histories", "anchors": ["libaddr/addr.cpp: addr::get_protocol_name, addr::get_port_name"]}
{"id": "C93", "title": "All threads use one stream index", "statement": "get_ostream_index() gives the same index to all callers, an index which xalloc() gave to nobody else, without data race and without blocking for ever.", "quantifier": "every number of threads, every interleaving, also with other users of xalloc()", "why_tests_cant": "unbounded interleavings", "anchors": ["libaddr/addr.cpp: get_ostream_index"]}
{"id": "C94", "title": "The last option of each kind configures the validator", "statement": "A validator_address behaves as a parser which allows exactly what its last address=, port=, mask= and comment= options ask for (lookup, ports and addresses when there is no option), unsorted and without a protocol; earlier options of the same kind have no influence.", "quantifier": "every list of options, every way to split their values, every history of validate calls", "why_tests_cant": "unbounded lists of options", "anchors": ["libaddr/validator_address.cpp: validator_address::validator_address"]}
{"id": "C95", "title": "Verdict of single values", "statement": "Without lookup, lists, comments, masks and defaults validate() accepts every numeric IPv4 or IPv6 address (with a port where allowed) and refuses every other host; port=no refuses any port, port=required refuses a value without a port; address=no accepts no address; an empty address is accepted with address=required when there is a default address.", "quantifier": "every value, every such validator, every history of validate calls", "why_tests_cant": "unbounded strings", "anchors": ["libaddr/validator_address.cpp: validator_address::validate", "libaddr/validator_address.cpp: validator_address::validator_address"]}
{"id": "C96", "title": "Validators never throw", "statement": "Constructing a validator_address from any options and validating any value raises no exception when the resolver gives addresses of supported families and protocols.", "quantifier": "every list of options, every value", "why_tests_cant": "unbounded strings", "anchors": ["libaddr/validator_address.cpp: validator_address"]}
{"id": "C97", "title": "Defaults given to the validator", "statement": "The last default= option with one address gives the default IPv4 or IPv6 address (unless it is the any address), the default port (unless zero) and the default mask of its family; default by itself, or no default option, leaves no defaults.", "quantifier": "every list of options, every default", "why_tests_cant": "unbounded lists of options", "anchors": ["libaddr/validator_address.cpp: validator_address::validator_address"]}
{"id": "C98", "title": "Every misunderstood option is reported", "statement": "Creating a validator logs no error iff every option and every one of its values is understood.", "quantifier": "every list of options", "why_tests_cant": "unbounded lists of options", "anchors": ["libaddr/validator_address.cpp: validator_address::validator_address"]}
{"id": "C99", "title": "A list is valid iff all its entries are", "statement": "With separators allowed and no comments, validate() accepts a value iff it accepts each of its maximal separator-free pieces by itself.", "quantifier": "every value, every such validator, every history of validate calls", "why_tests_cant": "unbounded strings", "anchors": ["libaddr/validator_address.cpp: validator_address::validate", "libaddr/addr_parser.cpp: addr_parser::parse"]}
{"id": "C100", "title": "Names come from the resolver", "statement": "get_name() returns the name the resolver gives for exactly the IP address, port and protocol of the object, asking for real names only, and the empty string when there is none; get_service() does so for the port, and returns the empty string for port 0.", "quantifier": "every address object, every resolver", "why_tests_cant": "all addresses and all resolver contents", "anchors": ["libaddr/addr.cpp: addr::get_name, addr::get_service"]}
{"id": "C101", "title": "ipv4-routes shows every route", "statement": "ipv4-routes prints one line per route of the kernel, in the kernel's order, with all its values in the columns of the header; with --default only the default routes, with --hide-headers no header; it exits with 0. The fields are separated by blanks.", "quantifier": "every routing table, every list of these options, any number of routes", "why_tests_cant": "unbounded tables", "anchors": ["tools/ipv4_routes.cpp: main"]}
{"id": "C102", "title": "ipv4-routes reports what it cannot do", "statement": "Without any route ipv4-routes says so on the error output and exits with 1; the first --help or unknown option on the command line decides: usage or an error naming the option, exit status 1, no table.", "quantifier": "every command line, every table", "why_tests_cant": "unbounded command lines", "anchors": ["tools/ipv4_routes.cpp: main"]}
{"id": "C103", "title": "ifaces shows the addresses of the wanted kind", "statement": "ifaces prints one line per IP address of the machine, in the order of the kernel, with name, flags, address, broadcast and destination address; with --public, --private or --loopback (the last one given counts) exactly those of that network type; --asterisk replaces missing addresses by *. The fields are separated by blanks.", "quantifier": "every list of interfaces, every list of these options", "why_tests_cant": "unbounded lists", "anchors": ["tools/ifaces.cpp: main"]}
{"id": "C104", "title": "ifaces --name-only prints each name once", "statement": "With --name-only, ifaces prints the names of the interfaces with a wanted address, each exactly once, in the order of first appearance and without headers.", "quantifier": "every list of interfaces, every list of options", "why_tests_cant": "unbounded lists", "anchors": ["tools/ifaces.cpp: main"]}
{"id": "C105", "title": "ifaces --default shows the default interface", "statement": "With --default, ifaces shows the interface of the default route, and nothing else.", "quantifier": "every routing table, list of interfaces and resolver", "why_tests_cant": "the test machine has one setup", "anchors": ["tools/ifaces.cpp: main"]}
{"id": "C106", "title": "ifaces reports what it cannot do", "statement": "The first --help, --version or unknown option decides: usage and status 1, version and status 0, error and status 1. Without interfaces, without a route for --default and when the kernel fails to list the interfaces, ifaces says so and exits with 1.", "quantifier": "every command line, every kernel answer", "why_tests_cant": "unbounded command lines, kernel failures", "anchors": ["tools/ifaces.cpp: main"]}
{"id": "C107", "title": "validate-ip's exit status", "statement": "validate-ip exits with 0 when the parser its options stand for reads all arguments without an error, and with 1 otherwise; it always exits with 0 or 1. A protocol, a port or a default address which the options do not allow is reported on stderr with status 1.", "quantifier": "every command line, resolver and protocol database", "why_tests_cant": "unbounded command lines and resolver answers", "anchors": ["tools/validate_ip.cpp: validate_ip::run, main"]}
{"id": "C108", "title": "validate-ip --canonicalize prints each address once", "statement": "With --canonicalize stdout has one line per address found in the accepted arguments, in order, and nothing for the rejected ones; reading a line gives the same address, port and mask. Without it stdout stays empty.", "quantifier": "every command line, resolver and protocol database", "why_tests_cant": "the text must be right for every address, port and mask", "anchors": ["tools/validate_ip.cpp: validate_ip::run"]}
{"id": "C109", "title": "validate-ip explains each rejected argument", "statement": "stderr has one message per rejected argument, in order, with the argument, the number of errors and the messages of the parser; nothing with --quiet.", "quantifier": "every command line, resolver and protocol database", "why_tests_cant": "unbounded command lines", "anchors": ["tools/validate_ip.cpp: validate_ip::run"]}
{"id": "C110", "title": "validate-ip --mask allows a mask", "statement": "With --mask an argument may have a mask; an argument without a mask is accepted as without --mask.", "quantifier": "every argument, resolver and set of options", "why_tests_cant": "all arguments", "anchors": ["tools/validate_ip.cpp: validate_ip::run"]}
{"id": "C111", "title": "no ranges unless allowed", "statement": "Unless address ranges or merging are allowed, each result of the parser is a single address: it has a start and no end.", "quantifier": "every parser, text and resolver", "why_tests_cant": "all texts and configurations", "anchors": ["libaddr/addr_parser.cpp: addr_parser::parse, parse_address_range, parse_address_range_port"]}
{"id": "C112", "title": "no masks unless allowed", "statement": "Unless masks are allowed, the mask of everything the parser returns is all ones, also after merging.", "quantifier": "every parser, text and resolver", "why_tests_cant": "all texts and configurations", "anchors": ["libaddr/addr_parser.cpp: addr_parser::parse, parse_cidr"]}
{"id": "C113", "title": "parser getters return the last accepted value", "statement": "The sort order, protocol, default port, default addresses and default masks returned by the getters of a parser are the ones of the latest call which gave an acceptable value (the initial one if there is none): refused values, other setters, parsing and the error log never change them. A default address or mask goes to IPv6 when it is in brackets, has a colon or (masks) is a number above 32, to IPv4 otherwise; the empty string removes both.", "quantifier": "every sequence of calls on a parser, every resolver and protocol database", "why_tests_cant": "all call sequences and all strings", "anchors": ["libaddr/addr_parser.cpp: set_default_address, set_default_port, set_default_mask, set_protocol, clear_protocol, set_sort_order and their getters"]}
{"id": "C114", "title": "refused settings change nothing", "statement": "A setter of the parser accepts a value or throws invalid_argument and leaves the parser exactly as it was; which of the two depends on the value only: flags in range, not both families first, IP/TCP/UDP or a known protocol name, a port from -1 to 65535, balanced brackets, a mask number from 0 to 128.", "quantifier": "every parser state and every value", "why_tests_cant": "all strings, all integers and all states", "anchors": ["libaddr/addr_parser.cpp: set_allow, set_default_address, set_default_port, set_default_mask, set_protocol, set_sort_order"]}
{"id": "C115", "title": "the error log is the list of messages", "statement": "The error messages of a parser are the messages emitted by the caller and by parsing since the last clear_errors(), in order, one per line; error_count() is their number and has_errors() tells whether there is one. What one parse() adds does not depend on what the log held before.", "quantifier": "every sequence of calls on a parser", "why_tests_cant": "all call sequences and all texts", "anchors": ["libaddr/addr_parser.cpp: emit_error, error_messages, error_count, has_errors, clear_errors, parse"]}
{"id": "C116", "title": "what lookups become", "statement": "With lookup, one host entry (with or without brackets and port) asks the resolver for exactly that host and port, with the socket type of the parser's protocol. Every answer which is an IPv4 or IPv6 address of the right size becomes one range, in order, with its address, port, protocol, the host name and whether a port was written; any other answer is an error; a name which is not found gives nothing and one error with the reason.", "quantifier": "every parser with lookup, every host, port and resolver", "why_tests_cant": "the answers depend on the network; all answers and hosts are quantified", "anchors": ["libaddr/addr_parser.cpp: addr_parser::parse_address_port", "libaddr/addr_parser.cpp: addr_parser::parse_address4", "libaddr/addr_parser.cpp: addr_parser::parse_address6"]}
{"id": "C117", "title": "an entry without an address stands for the default address", "statement": "Where an address is not required, an empty entry, a port alone or a mask alone gives exactly the same result, errors included, as the same text with the default address written in front. IPv6 is meant when the mask starts with a bracket or is a number from 33 to 1000 or, without a mask, when only an IPv6 default exists; the default is 0.0.0.0 or :: when none was set.", "quantifier": "every port, mask, default address, resolver and parser state", "why_tests_cant": "all ports, masks and default addresses", "anchors": ["libaddr/addr_parser.cpp: addr_parser::parse_address", "libaddr/addr_parser.cpp: addr_parser::parse_address_port"]}
{"id": "C118", "title": "ports which are not allowed are refused with lookup as well", "statement": "With lookup on, text with a port is an error when ports are neither allowed nor required.", "quantifier": "every input and configuration", "why_tests_cant": "unbounded inputs and resolvers", "anchors": ["libaddr/addr_parser.cpp: addr_parser::parse_address", "libaddr/addr_parser.cpp: addr_parser::parse_address6"]}
{"id": "C119", "title": "every print mode shows exactly the parts asked for", "statement": "The text of an address is its address, port and mask parts in this order, each present exactly when the mode asks for it, with a colon before a port and a slash before a mask only when something stands in front. The address is its dotted or IPv6 notation, or the asterisk or 0.0.0.0 asked for when it is the default address; IPv6 is in brackets when asked for or when a port is shown. The port is the service name when asked for and known, its number otherwise. The mask is the prefix length when it has one, unless asked for as an address.", "quantifier": "every address, mask, port, mode (any bits) and service database", "why_tests_cant": "1024 modes times all addresses, masks, ports and databases", "anchors": ["libaddr/addr.cpp: addr::to_ipv4_string", "libaddr/addr.cpp: addr::to_ipv6_string", "libaddr/addr.cpp: addr::to_ipv4or6_string"]}
{"id": "C120", "title": "network types have one name each", "statement": "The name of the network type of an address is the name of the type its number belongs to; different types have different names; asking leaves the address as it was and asking again gives the same name.", "quantifier": "every address whose type was not asked for before its last change", "why_tests_cant": "2^128 addresses", "anchors": ["libaddr/addr.cpp: addr::get_network_type_string"]}
{"id": "C121", "title": "the text of ranges and of lists of ranges", "statement": "A range with both ends prints its first address alone, a dash and its last address in the mode given; one end prints as that address, with a dash in front when it is the last one; a range without elements prints as such. A list prints the texts of its ranges with the separator between each two, and fails exactly when one of them does.", "quantifier": "every range, list, mode and separator", "why_tests_cant": "unbounded lists, all modes and addresses", "anchors": ["libaddr/addr_range.cpp: addr_range::to_string"]}
{"id": "C122", "title": "a parser accepts exactly the texts of one grammar", "statement": "With one entry per text, a text is parsed without an error exactly when it is an entry of the grammar: an optional mask after the first slash when masks are allowed, the IPv6 or IPv4 way of writing, an optional port when ports are allowed, one address or name, a range or the default address, and a mask which is a number within the limit or an address of the same kind. The result is what the entry means (addresses, port, protocol, ends, mask): without lookup the numbers written, with lookup all that the resolver answers, where the ends of a range must resolve to one address. Every other text gives at least one error, and no range when lookup is off or masks are allowed. Blanks around the entry do not matter.", "quantifier": "every text without NUL, every parser without separators, comments and sorting, every number conversion and resolver", "why_tests_cant": "the set of texts is infinite; that nothing outside of the grammar is accepted needs all of them", "anchors": ["libaddr/addr_parser.cpp: addr_parser::parse", "libaddr/addr_parser.cpp: addr_parser::parse_cidr", "libaddr/addr_parser.cpp: addr_parser::parse_address", "libaddr/addr_parser.cpp: addr_parser::parse_address4", "libaddr/addr_parser.cpp: addr_parser::parse_address6", "libaddr/addr_parser.cpp: addr_parser::parse_address_range_port", "libaddr/addr_parser.cpp: addr_parser::parse_address_port", "libaddr/addr_parser.cpp: addr_parser::parse_mask"]}
{"id": "C123", "title": "a text with several entries is parsed entry by entry, and is without error exactly when each entry is in the grammar", "statement": "A text is cut into entries: without separators it is one entry up to a comment (a comment after nothing but blanks is kept as the entry), with separators each piece up to a comment, and with newlines and comments only the first piece of each line. The result of parse() is the meanings of the entries in their order. An entry which is not in the grammar of C122 adds at least one error (and no range when lookup is off or masks are allowed) and does not affect the others. The error count is unchanged exactly when every entry, without the blanks around it, is in the grammar.", "quantifier": "every text without NUL, every parser which does not sort, every number conversion and resolver", "why_tests_cant": "the number and the content of the entries are unbounded, and independence of the entries is about all combinations", "anchors": ["libaddr/addr_parser.cpp: addr_parser::parse", "libaddr/addr_parser.cpp: addr_parser::parse_cidr"]}
{"id": "C124", "title": "string_to_addr() accepts exactly the texts of the grammar which mean one address", "statement": "string_to_addr() reads its text by the grammar of C122, for the parser made of the given defaults, protocol and mask flag. A text of the grammar which means one address (the only one, or the only TCP one when no protocol was given) gives that address with its port, protocol and mask, whatever blanks surround the text. When masks are allowed nothing else is accepted: a returned address is the one a text of the grammar means, and every other text makes the function throw.", "quantifier": "every text, every default address without NUL, every default port and protocol, every number conversion and resolver", "why_tests_cant": "the texts, the defaults and the answers of the resolver are unbounded, and that nothing else is accepted is a claim about all of them", "anchors": ["libaddr/addr_parser.cpp: string_to_addr", "libaddr/addr_parser.h: string_to_addr"]}
{"id": "C125", "title": "validator_address accepts exactly the values of the grammar", "statement": "For every list of options a validator_address was constructed with, and whatever it validated before, validate() returns true exactly when each entry of the value (C123) is, without the blanks around it, a text of the grammar of C122 for the parser the options stand for; otherwise it returns false. It never throws.", "quantifier": "every list of options, every sequence of earlier validations, every value without NUL, every number conversion and resolver", "why_tests_cant": "options, histories and values are unbounded, and acceptance is claimed for exactly one infinite language", "anchors": ["libaddr/validator_address.cpp: validator_address::validator_address", "libaddr/validator_address.cpp: validator_address::validate"]}
{"id": "C126", "title": "validate-ip succeeds exactly on arguments of the grammar", "statement": "When what validate-ip finds can be printed (which only matters for --mask with --canonicalize), its exit status is 0 exactly when each entry of each argument is, without the blanks around it, a text of the grammar of C122 for the parser the options stand for, and 1 otherwise.", "quantifier": "all command lines, all arguments without NUL, every number conversion and resolver", "why_tests_cant": "the arguments and options are unbounded, and the claim is about exactly one infinite language", "anchors": ["tools/validate_ip.cpp: validate_ip::run", "tools/validate_ip.cpp: main"]}
{"id": "C127", "title": "A refused text gets the messages which say what is wrong with it", "statement": "A text which is not of the grammar of C122 gives no range, adds lines to error_messages() and as many to error_count(), and changes nothing else of the parser. The lines are those a short list of reasons gives for that text (brackets, unknown data, port not allowed, port or address missing, bad port, unknown address, failed lookup with the answer of the resolver, range without ends, range whose end has several addresses, the reasons about a mask); no text has two such lists. Without lookup, or without masks, it is exactly one line; a name with several addresses and a bad mask has one line for each address. For a text with several entries the lines are those of its refused entries, in order.", "quantifier": "every text without NUL, every parser configuration without sorting, every number conversion and resolver whose answers are IPv4 and IPv6 addresses", "why_tests_cant": "each message quotes parts of an unbounded text, and that exactly one reason applies is a claim about all texts and all combinations of flags", "anchors": ["libaddr/addr_parser.cpp: addr_parser::parse", "libaddr/addr_parser.cpp: addr_parser::parse_cidr", "libaddr/addr_parser.cpp: addr_parser::parse_address_port", "libaddr/addr_parser.cpp: addr_parser::parse_mask", "libaddr/addr_parser.cpp: addr_parser::error_messages"]}
{"id": "C128", "title": "The error of a refused option value says what is wrong with it", "statement": "validator_address::validate() returns false exactly when one of the reasons of C127 applies to an entry of the value; its error is then the messages about the refused entries, one per line in the order of the entries. When it returns true the error of the last refusal stays.", "quantifier": "every option list the constructor takes, every history of validate() calls, every value without NUL, every resolver whose answers are IPv4 and IPv6 addresses", "why_tests_cant": "unbounded values, configurations and histories", "anchors": ["libaddr/validator_address.cpp: validator_address::validate", "libaddr/addr_parser.cpp: parse"]}
{"id": "C129", "title": "validate-ip says what is wrong with each argument", "statement": "Without --quiet, stderr of validate-ip has, for each argument with a refused entry and in the order of the arguments, a header with the argument and the number of errors, then the messages of C127 about its refused entries one per line, then an empty line; nothing for the other arguments, and nothing at all with --quiet.", "quantifier": "all options the tool takes, any number of arguments without NUL, every resolver whose answers are IPv4 and IPv6 addresses", "why_tests_cant": "unbounded arguments and their combinations", "anchors": ["tools/validate_ip.cpp: validate", "libaddr/addr_parser.cpp: parse"]}
{"id": "C130", "title": "Settings which have an effect on parse(), and those which have none", "statement": "What parse() returns and logs for a text is determined by the flags for required address, lookup, commas, spaces, newlines, address ranges, port, required port, mask, address mask and the two comment flags, the sort order, the default addresses, the protocol, the default port unless a port is required, and, when masks are allowed, the default IPv4 mask and the default IPv6 mask if it has a colon. The flags for address, multiple ports and port ranges have no effect on any text; each other flag and setting has one.", "quantifier": "any two parsers, any text, any resolver and any earlier errors", "why_tests_cant": "that a setting has no effect is a statement about pairs of parsers and all texts; a test compares two parsers on a few texts", "anchors": ["libaddr/addr_parser.cpp: addr_parser::parse(), addr_parser::parse_cidr(), addr_parser::parse_address_port(), addr_parser::set_allow(), addr_parser::set_default_mask()", "libaddr/addr_parser.h: allow_t"]}
{"id": "C131", "title": "Threads which share an address get its network type", "statement": "When several threads call get_network_type() (or is_lan, is_wan, is_valid, all const) on one address which nobody changes, each is told the type of the address.", "quantifier": "any address, any number of threads and calls, every interleaving", "why_tests_cant": "interleavings are unbounded and the window is a few instructions", "anchors": ["libaddr/addr.cpp: addr::get_network_type", "libaddr/addr.h: addr::f_private_network", "libaddr/iface.cpp: iface::get_local_addresses"]}
{"id": "C132", "title": "A list of interfaces is the caller's", "statement": "The list get_local_addresses() returned stays what it was when it was returned, whatever other threads do and whether or not the cache is renewed or reset; and what a caller does with its list has no effect on what other callers get.", "quantifier": "any number of threads and calls, any answers of the kernel, any clock, every interleaving, any changes callers make to their lists", "why_tests_cant": "aliasing and interleavings: the lists are shared through pointers and tests see a few schedules only", "anchors": ["libaddr/iface.cpp: iface::get_local_addresses", "libaddr/iface.cpp: iface::reset_local_addresses_cache", "libaddr/iface.h: iface::pointer_vector_t"]}
{"id": "C133", "title": "IPv6 addresses are printed the way RFC 5952 recommends", "statement": "The text printed for an IPv6 address is the one text which RFC 5952 recommends: small letters, no needless zeros, \"::\" in the place of the longest run of at least two zero words (the first such run), dotted notation at the end of ::a.b.c.d and ::ffff:a.b.c.d. So texts of addresses can be compared as texts.", "quantifier": "all addresses but 0.0.0.0 as an IPv4 address (it prints as \"::\", see C21), every text", "why_tests_cant": "2^128 addresses, 256 patterns of zero words; that no other text is printed", "anchors": ["libaddr/addr.cpp: addr::to_ipv6_string"]}
{"id": "C134", "title": "Which texts are IP addresses", "statement": "A text is taken for an IP address exactly if it is in dotted notation (four numbers up to 255 without needless zeros) or is a text which RFC 4291 defines: eight groups of up to four hexadecimal digits, or less and one \"::\", the last two groups possibly in dotted notation; and it is taken for the address written there. This goes for texts in brackets given to the parser and for is_hostname_an_ip(), which looks at the host name up to its first NUL.", "quantifier": "every text without NUL, bracket, slash or (if ranges are allowed) dash; every host name; every parser without lookup", "why_tests_cant": "unbounded set of texts; equivalence of a hand-written scanner and a grammar", "anchors": ["libaddr/addr.cpp: addr::is_hostname_an_ip", "libaddr/addr_parser.cpp: addr_parser::parse_address", "libaddr/addr_parser.cpp: addr_parser::parse_address_port"]}
{"id": "C135", "title": "The getters of an address answer what was set last", "statement": "Whatever calls were made on an addr object, each of its attributes (IP address, port, protocol, mask, interface, host name, flow information, scope and the three \"defined\" flags) is what the last call which concerns it gave: no call changes an attribute it is not about, and a refused call changes none. A socket structure brings address, port, flow information and scope but neither the flags, nor the mask, nor the names; the loopback setters keep the port.", "quantifier": "every sequence of calls of the setters and operators, with any arguments, including those which throw; any answers of the name services and of the socket functions", "why_tests_cant": "unbounded call sequences; each pair of setter and attribute is a way to interfere", "anchors": ["libaddr/addr.cpp: addr::set_ipv4", "libaddr/addr.cpp: addr::set_ipv6", "libaddr/addr.cpp: addr::set_port", "libaddr/addr.cpp: addr::set_protocol", "libaddr/addr.cpp: addr::set_mask", "libaddr/addr.cpp: addr::set_from_socket", "libaddr/addr.cpp: addr::get_interface", "libaddr/addr.cpp: addr::get_hostname"]}
{"id": "C136", "title": "The getters of a Unix address answer what was set last", "statement": "Whatever calls were made on an addr_unix object, its name, scheme, mode and group are each what the last call which gives one gave: a path, an abstract path, a structure, a socket or a URI for the name; set_scheme() or a URI for the scheme; set_mode() and set_group() alone for the other two. A path, structure or URI which is refused gives nothing, not even its scheme.", "quantifier": "every sequence of calls with any arguments, including those which throw; any decoder of texts which keeps the ASCII characters", "why_tests_cant": "unbounded call sequences and texts", "anchors": ["libaddr/addr_unix.cpp: addr_unix::set_scheme", "libaddr/addr_unix.cpp: addr_unix::set_un", "libaddr/addr_unix.cpp: addr_unix::set_file", "libaddr/addr_unix.cpp: addr_unix::set_abstract", "libaddr/addr_unix.cpp: addr_unix::set_uri", "libaddr/addr_unix.cpp: addr_unix::set_from_socket", "libaddr/addr_unix.cpp: addr_unix::set_mode", "libaddr/addr_unix.cpp: addr_unix::set_group"]}
{"id": "C137", "title": "Socket structures have one total order", "statement": "The six comparison operators which the headers add to sockaddr_in6, in6_addr and sockaddr_un each belong to one strict total order: == holds exactly for identical structures, !=, >, <= and >= follow from == and <, and < is irreflexive, transitive and total, so that the structures can be keys of maps. IPv6 addresses are ordered as 128 bit numbers. Structures of type sockaddr_in6 are ordered by family, port, flow information, address and scope, in this order, each in network byte order, so that the port counts before the address. Structures of type sockaddr_un are ordered by family, then by the 108 bytes of their path.", "quantifier": "For all structures of each type, all pairs and triples of them.", "why_tests_cant": "Tests compare some pairs; being a total order is a claim about all triples, and a wrong field order or sign shows only for pairs which differ in the right members.", "anchors": ["libaddr/addr.h: operator == != < <= > >= (sockaddr_in6, in6_addr)", "libaddr/addr_unix.h: operator == != < <= > >= (sockaddr_un)"]}
{"id": "C138", "title": "Threads which share a validator get the verdicts on their own texts", "statement": "validate() of an address validator is const, so threads may expect to share one. A call which nobody disturbs returns false exactly when its own text has errors, and reports exactly these errors. With other threads in validate() this fails, even if each call of a function of the parser were atomic: a valid text may be refused because of the errors of another thread, and an invalid text may be accepted because another thread just cleared the errors. In general the verdict of a call is decided by whether any thread parsed a text with errors since any thread last cleared them, and the reported message is made of all these errors.", "quantifier": "For all validators which can be constructed, all numbers of threads, all texts and all interleavings of any length.", "why_tests_cant": "Verdicts depend on the interleaving of threads; tests run one thread and see the right ones.", "anchors": ["libaddr/validator_address.cpp: validator_address::validate", "libaddr/validator_address.h: f_parser (mutable)"]}
{"id": "C139", "title": "Calling optimize_vector() again leaves exactly the largest networks", "statement": "Every network given to optimize_vector() is included in one it leaves, and every network it leaves matches the same addresses as one which was given. After a second call no network which is left is included in another one, and further calls change nothing. So two calls leave exactly the networks which are not included in a larger one, each of them once.", "quantifier": "for all vectors of addresses with any masks, of both families, whenever the calls return", "why_tests_cant": "The number of calls needed could grow with the vector: a network which grows at index i after it was compared with others may need another pass, and only an argument over all vectors shows that two passes are always enough.", "anchors": ["libaddr/addr_range.cpp: optimize_vector()", "libaddr/addr_range.cpp: addr_range::union_if_possible()", "libaddr/addr_range.cpp: addr_range::from_cidr()"]}
{"id": "C140", "title": "The sort order never changes which addresses match", "statement": "address_match_ranges() answers the same for the ranges parse() returns with any sort order, merging included, as for the ranges it returns without sorting. Merging ranges which neither overlap nor touch only sorts them and never throws.", "quantifier": "for all input texts, parser configurations, resolvers and addresses to match", "why_tests_cant": "Tests compare the bounds of a few merged lists; that no address is gained or lost is a statement about 2^128 addresses and all texts.", "anchors": ["libaddr/addr_parser.cpp: addr_parser::parse()", "libaddr/addr_range.cpp: address_match_ranges()", "libaddr/addr_range.cpp: addr_range::union_if_possible()", "libaddr/addr_range.cpp: addr_range::match()"]}
{"id": "C141", "title": "A list of numeric addresses, networks and ranges matches exactly what it names", "statement": "A parser without lookup and required port (a default port only where ports are allowed, no IPv6 default mask which is an address) reads a text whose entries, blanks aside, are addresses and ranges (first-last), each as such, in brackets, with a port or both, and each with or without a mask which is a number (up to 32 for what is written the IPv4 way, else 128): it adds no error, and address_match_ranges() of the result is true for exactly those addresses which are the address of an entry without mask, share the first bits with the address of an entry with a mask (the default mask when none is written the IPv4 way) or lie between the two ends of a range, for which the mask does not count. This holds for any sort order without SORT_MERGE, and when masks are not allowed for SORT_MERGE as well.", "quantifier": "for all parsers so configured, all texts, all such lists of entries and all addresses asked about", "why_tests_cant": "The statement ties the text of a list of any length to the verdict for each of the 2^128 addresses, across the parser, the sort and the match; tests sample a few lists and addresses.", "anchors": ["libaddr/addr_parser.cpp:addr_parser::parse", "libaddr/addr_parser.cpp:addr_parser::parse_cidr", "libaddr/addr_parser.cpp:addr_parser::parse_mask", "libaddr/addr_range.cpp:address_match_ranges", "libaddr/addr_range.cpp:addr_range::match", "libaddr/addr.cpp:addr::match"]}
{"id": "C142", "title": "recvfrom() takes one message, and the reply goes to its sender", "statement": "addr::recvfrom() receives exactly one message from a UDP socket, into the whole buffer it was given, and returns the number of bytes the system reports; from any other socket it receives nothing and returns -1 or throws. After a message was received, sendto() on the same object and socket gives the system the very socket address the message came from.", "quantifier": "every address object, socket, buffer size, answer of the system and sender", "why_tests_cant": "all senders (2^128 addresses, ports, scopes) and all answers of the system, including failures", "anchors": ["libaddr/addr.cpp: addr::recvfrom", "libaddr/addr.cpp: addr::sendto", "libaddr/addr.cpp: addr::set_from_socket"]}
{"id": "C143", "title": "Sorting and merging make no addresses up and lose no port", "statement": "Whatever the sort order, each end of each range parse() returns is one of the addresses the text stands for, with the port, protocol, host name, interface and scope given with it (only its mask may differ), and no address of the text or its port is lost.", "quantifier": "every text, parser and sort order; any answers of the resolver", "why_tests_cant": "unbounded lists of addresses with any mix of ports and overlaps", "anchors": ["libaddr/addr_parser.cpp: addr_parser::parse", "libaddr/addr_range.cpp: addr_range::union_if_possible"]}
{"id": "C144", "title": "A printed list is read back", "statement": "A list of addresses and of non-empty IPv4 ranges written by addr_range::to_string() with STRING_IP_ALL and a separator made of characters which a parser takes for separators is parsed by that parser without an error to as many ranges in the same order, each with the same addresses, port and mask. More generally, entries which are parsed without an error one by one are parsed to the same result when they are put into one list.", "quantifier": "for all lists of ranges with printable masks, all separators, all parsers without lookup and default masks which allow lists, ranges, masks and ports", "why_tests_cant": "the round trip goes through the printer, the cutting into entries and the parser for every address, port, mask and length of list; tests print or parse single texts", "anchors": ["libaddr/addr_range.cpp: addr_range::to_string()", "libaddr/addr_parser.cpp: addr_parser::parse(), parse_cidr()"]}
{"id": "C145", "title": "A good text is never answered with an exception", "statement": "A text whose entries are all parsed without an exception is also parsed without one when the result has to be sorted or merged.", "quantifier": "for all texts, resolvers and settings of the parser", "why_tests_cant": "merging throws only for special neighbours in the sorted list, such as an IPv4 address next to an IPv6 network; tests merge a few lists", "anchors": ["libaddr/addr_parser.cpp: addr_parser::parse()", "libaddr/addr_range.cpp: addr_range::union_if_possible()", "libaddr/addr.cpp: addr::set_mask_count()"]}
{"id": "C146", "title": "Merging never lets more addresses match", "statement": "The ranges parse() returns with any sort order, SORT_MERGE included, match each address written in the text and match no address which the ranges of the same text without sorting do not match.", "quantifier": "for all texts, resolvers, settings of the parser and addresses to match", "why_tests_cant": "the masks of merged ranges are combined pair by pair along a sorted list of any length; tests look at a few merged lists and not at the addresses which they let in", "anchors": ["libaddr/addr_parser.cpp: addr_parser::parse()", "libaddr/addr_range.cpp: addr_range::union_if_possible(), addr_range::match()"]}
{"id": "C147", "title": "The address written is the address connected to", "statement": "A numeric address text, with a port, in brackets or bare, parsed without name lookup, is handed to the kernel as written: create_socket() opens a socket of the family of the address and of the protocol of the parser, and connect(), sendto() and bind() make one system call each with a socket address which carries exactly the address and the port of the text (port zero or the default port when none is written), with neither a scope nor a flow.", "quantifier": "every numeric address text, every way to write it with a port, every parser set up for numeric addresses, every socket, message and answer of the kernel", "why_tests_cant": "The claim crosses the parser, the address class and the socket functions, with two byte orders in between; tests check a few texts and cannot see what the kernel is given.", "anchors": ["libaddr/addr_parser.cpp: addr_parser::parse, parse_address_port", "libaddr/addr.cpp: addr::create_socket, addr::connect, addr::bind", "libaddr/addr.cpp: addr::sendto"]}
{"id": "C148", "title": "A peer printed and parsed is the same peer for the kernel", "statement": "When the address of a peer (as reported by accept(), recvfrom() or getpeername()) is printed in full with its port and parsed again, bind(), create_socket(), connect() and sendto() on the result make exactly the system calls they make on the original.", "quantifier": "every valid address without a mask, every parser set up for numeric addresses with ports and masks, every socket and answer of the kernel", "why_tests_cant": "The loss concerns a field which no accessor prints and no comparison looks at; tests which compare addresses find them equal.", "anchors": ["libaddr/addr.cpp: addr::to_ipv4or6_string", "libaddr/addr_parser.cpp: parse_address_port", "libaddr/addr.cpp: addr::connect, addr::bind, addr::sendto"]}
{"id": "C149", "title": "A set of addresses keeps one address per IP address", "statement": "A set_t holds its addresses in ascending order of the IP addresses. It has exactly one address for each IP address ever added, and that one is the first added with its port, mask, protocol and name; later ones with the same IP address are dropped whatever their port. With different IP addresses nothing is lost and the order of insertion does not matter. find() and erase() regard the IP address alone. The addresses of ranges put in a set are each address of each range, once.", "quantifier": "every list of valid addresses added in turn, every key, every vector of ordered ranges which to_addresses() accepts", "why_tests_cant": "Depends on operator < being a strict weak order for all pairs of addresses and on every order of insertion.", "anchors": ["libaddr/addr.h: addr::set_t", "libaddr/addr.cpp: addr::operator <", "libaddr/addr_range.cpp: addr_range::to_addresses"]}
{"id": "C150", "title": "Names and indexes of interfaces convert into each other", "statement": "get_interface_index_by_name() returns the index of the interface with the name, and 0 when there is none. get_interface_name_index() ends on every machine; it lists exactly the interfaces whose index and all smaller ones are in use, and the index of each name it lists is the one listed. A name is read up to its first NUL.", "quantifier": "every set of interfaces with any indexes and names, every name", "why_tests_cant": "Tests see the interfaces of the machine they run on, usually numbered without a hole.", "anchors": ["libaddr/iface.cpp: get_interface_index_by_name", "libaddr/iface.cpp: get_interface_name_index"]}
{"id": "C151", "title": "The documented test of two networks", "statement": "Given two addresses with a prefix mask, from_cidr() of both followed by union_if_possible() gives a defined range exactly when one network is equal to or included in the other, as the documentation of union_if_possible() says.", "quantifier": "every two valid addresses with masks of any number of leading ones", "why_tests_cant": "Depends on the position of two blocks among 2^128 addresses for all pairs of mask sizes.", "anchors": ["libaddr/addr_range.cpp: addr_range::union_if_possible", "libaddr/addr_range.cpp: addr_range::from_cidr"]}
{"id": "C152", "title": "The intersection with a single address", "statement": "An address is in the intersection of two ranges exactly when it is in both, also when one of the ranges is a single address, as parse() returns for an entry which is not a range.", "quantifier": "every two ranges with one or two ends", "why_tests_cant": "Quantifies over all pairs of ranges; tests use ranges with both ends.", "anchors": ["libaddr/addr_range.cpp: addr_range::intersection", "libaddr/addr_range.cpp: addr_range::is_empty"]}
{"id": "C153", "title": "Ports after addresses with colons, and several ports", "statement": "As README.md says, an IPv6 address needs square brackets in front of a port, an IPv6 address without brackets is an error where ports are allowed, and several ports can be written as a list (80,443) or a range (1-1023). True of the code: from an entry with two or more colons and no bracket at its start no port is ever read. Not true: the bare IPv6 address is accepted, with port 0; a port put behind it without brackets becomes a part of the address without an error; and lists and ranges of ports are always errors without lookup.", "quantifier": "every text, address, port and mask, every parser of one entry per text, every number conversion and resolver", "why_tests_cant": "that no text at all gets a port without brackets, and that no list of ports is accepted in any configuration, is about infinitely many texts", "anchors": ["README.md: IPv6 support, Port support", "libaddr/addr_parser.cpp: addr_parser::parse_address", "libaddr/addr_parser.cpp: addr_parser::parse_address6", "libaddr/addr_parser.cpp: addr_parser::parse_address_port"]}
{"id": "C154", "title": "A failure comes with its reason in errno", "statement": "When create_socket(), connect(), bind(), sendto(), recvfrom(), or set_from_socket() and unlink() of a Unix address report a failure with their result, errno holds the reason: the one of the system call which failed, EINVAL when sendto() or recvfrom() is used without UDP, and EADDRNOTAVAIL when the socket is not a Unix socket. When get_ipv4_routes() finds no usable table, errno holds the reason of the system or ENODATA.", "quantifier": "for every valid address, every socket, every flag combination, every answer of the system and every value of errno before the call", "why_tests_cant": "The failures of the system calls cannot be provoked at will in a test, and a stale errno usually happens to look like a reason.", "anchors": ["libaddr/addr.cpp: addr::create_socket, addr::connect, addr::bind, addr::sendto, addr::recvfrom", "libaddr/addr_unix.cpp: addr_unix::set_from_socket, addr_unix::unlink", "libaddr/route.cpp: route::get_ipv4_routes"]}
{"id": "C155", "title": "What the resolver is asked", "statement": "Every question which addr_parser::parse() puts to the system's resolver is about a text which the caller wrote in the string (inside one entry, without separators, before the mask) or about one of the parser's default addresses, masks or port; the hints are those of the parser's protocol, and a mask is asked as a number so it is never looked up by name. With lookups off and address-like masks off nothing is asked at all. One host is asked about exactly once, entries are asked about in their order, and the result depends on nothing but the answers to these questions. The text of a comment is not sent to the resolver (refuted: after blanks, in a parser without separators, it is).", "quantifier": "all strings, parser settings, resolvers and answers", "why_tests_cant": "A test sees the result of a lookup and not which names left the program; that no other text is ever sent, for all strings and flags, and that nothing is sent when lookups are off, cannot be shown by examples.", "anchors": ["libaddr/addr_parser.cpp: addr_parser::parse, addr_parser::parse_cidr, addr_parser::parse_address_port, addr_parser::parse_mask"]}
{"id": "C156", "title": "Lookups by the validator and string_to_addr()", "statement": "A validator whose options turn on neither lookups nor masks written as addresses puts no question to the system's resolver when it validates a value, whatever was validated before, so its verdict is the same with any resolver; with lookups on there are values which are looked up. Making a validator asks only about the values of default=..., string_to_addr() asks exactly one question about the host, the port (written, default or 0) and the protocol it was given, and nothing but the answers matters. A validator without the word \"lookup\" asks nothing at all (refuted: its default address is looked up by name, and without an address=... option lookups are on).", "quantifier": "all option lists, values, histories of validations, resolvers, and all arguments of string_to_addr()", "why_tests_cant": "Tests see verdicts and not the queries behind them; that no value of any string makes a validator query the network is a statement about all strings and all histories.", "anchors": ["libaddr/validator_address.cpp: validator_address::validator_address, validator_address::validate", "libaddr/addr_parser.cpp: string_to_addr"]}
{"id": "C157", "title": "Allowing lookups changes nothing for a numeric text", "statement": "A text of numeric addresses, networks, ranges and ports which a parser without ALLOW_ADDRESS_LOOKUP reads without an error is read as the very same ranges once ALLOW_ADDRESS_LOOKUP is set, and string_to_addr() gives the address which the parser without lookups gives.", "quantifier": "all parser configurations, all texts (any number of entries, masks, ranges, default values), all system resolvers which treat numeric hosts and ports as getaddrinfo() is documented to", "why_tests_cant": "Relates two runs of the parser with different settings for every text, with getaddrinfo() as any function which meets its documentation.", "anchors": ["libaddr/addr_parser.cpp: addr_parser::parse_address_port, addr_parser::parse_address_port_ignore_duplicates, addr_parser::parse_address_range_port, addr_parser::parse_mask, addr_parser::parse, string_to_addr"]}
{"id": "C158", "title": "Allowing more keeps the meaning of an accepted text", "statement": "A text which a parser reads without an error is read as the very same ranges after one more feature is allowed with set_allow(): ranges, ports, masks, masks written as addresses, commas, spaces or newlines between entries, or comments.", "quantifier": "all parser configurations, all texts, all sort orders, all resolvers, each flag and any number of entry flags in any order", "why_tests_cant": "Relates two runs of the parser with different settings for every text and every configuration.", "anchors": ["libaddr/addr_parser.cpp: addr_parser::set_allow, addr_parser::parse, addr_parser::parse_cidr, addr_parser::parse_address, addr_parser::parse_address4, addr_parser::parse_address6, addr_parser::parse_address_range_port, addr_parser::parse_address_port, addr_parser::parse_mask"]}
{"id": "C159", "title": "The order of the entries of a text", "statement": "Two texts with the same entries in another order mean the same to parse(): the same ranges and messages are found, the order aside; a full sort gives ranges with the same bounds in the same order; merging gives the same blocks; and the same addresses match the result. Further entries, or the same ones again, never make an address stop matching.", "quantifier": "For every parser configuration, system, well-behaved resolver (one which answers the same question the same way), every text which is parsed without an exception and every text with the same entries in any order.", "why_tests_cant": "The texts, their permutations, the settings and the answers of the resolver are unbounded. Merging handles the ranges one after the other and keeps what it happens to see first, so whether the outcome depends on the order is a question about every list with ties.", "anchors": ["libaddr/addr_parser.cpp: addr_parser::parse", "libaddr/addr_range.cpp: addr_range::union_if_possible, addr_range::operator <, address_match_ranges"]}
{"id": "C160", "title": "What each row of the route table is read as", "statement": "When the first line of the route table names all the columns, route::get_ipv4_routes() returns exactly one route per complete line, in order. Each value comes from the first column of that name (an empty text when the line is too short): the addresses are eight hexadecimal digits, the numbers are white space, a sign, decimal digits and anything after them, of 64 bits, of which the low 32 bits are kept, and an empty mask leaves the destination without a mask. A table is returned if and only if every line can be read that way; otherwise the first line which cannot is refused, with addr_invalid_argument for an address and an exception of the standard library for a number.", "quantifier": "for every first line with all the columns, in any order, repeated or mixed with others, and every following text", "why_tests_cant": "The file can contain any bytes; tests only see the table of the machine they run on.", "anchors": ["libaddr/route.cpp: readwords, get_position, get_value, hex_to_addr, route::get_ipv4_routes"]}
{"id": "C161", "title": "All the addresses of a network", "statement": "addr_range::from_cidr() of a network followed by to_addresses() gives exactly the addresses which the network matches, each once and in increasing order, with the port, protocol and mask of the network; it throws out_of_range exactly when there are more than the limit.", "quantifier": "For every address object with a mask which is a CIDR mask and every limit below the largest size.", "why_tests_cant": "Networks and limits are unbounded; the cases which go wrong are networks at the very end of the address space and masks of no or one bit, which no test enumerates.", "anchors": ["libaddr/addr_range.cpp: addr_range::from_cidr, addr_range::size, addr_range::to_addresses", "libaddr/addr.cpp: addr::match"]}
{"id": "C162", "title": "Addresses and ranges in columns", "statement": "Written with std::setw(), an address, a range or a list of ranges takes exactly the column it was given (or its own length when it is longer), padded with the fill character on the side of the adjustment, and the width is used up; rows of such items line up. Without a width everything is written as it is. A stream which is not good gets nothing.", "quantifier": "For every address, range, list, print mode and separator of the stream, width, fill character, adjustment and number of columns.", "why_tests_cant": "Items, modes, widths and rows are unbounded; whether the width applies to the whole item or to a part of it depends on how many pieces are written.", "anchors": ["libaddr/addr.h: operator << (addr const &), operator << (container)", "libaddr/addr_range.h: operator << (addr_range const &), operator << (addr_range::vector_t const &)"]}
{"id": "C163", "title": "What validate-ip --canonicalize prints can be given back to it", "statement": "The lines validate-ip --canonicalize --mask prints, for whatever it was given, are accepted when given back to it with the same options, and print exactly the same lines again, with no message and status 0.", "quantifier": "For every options, arguments (good or bad, any number), answers of the system which read numbers as numbers, and protocol.", "why_tests_cant": "Arguments, defaults and answers of the system are unbounded; the statement relates two runs of the tool and needs printing and parsing to be inverses on every line which can be printed.", "anchors": ["tools/validate_ip.cpp: validate_ip::run(), validate_ip::canonicalize", "libaddr/addr.cpp: to_ipv4or6_string()", "libaddr/addr_parser.cpp: parse()"]}
{"id": "C164", "title": "The default port is the same as writing it", "statement": "When a parser has a default port and ports are allowed but not required, a list of entries and the same list with the default port written after some of the entries that have none (with brackets around an address with colons, before the mask if there is one) are both accepted without errors or both give errors, and when accepted they give the same addresses, ranges, ports, masks, protocols and names in the same order; only is_port_defined() differs: false on what had no port in the text, true on what had it.", "quantifier": "For every parser, sort order (with merging: texts in which each entry has a first address), default port, list of entries (addresses, names, ranges, any mask), choice of which entries get the port, answers of the system.", "why_tests_cant": "The parser's settings, the entries and their number are unbounded and the statement relates two runs; the port is cut off before the address is looked at, at a colon whose meaning depends on the rest of the text.", "anchors": ["libaddr/addr_parser.cpp: parse_address(), parse_address_port(), set_default_port()", "libaddr/addr.cpp: is_port_defined(), set_port_defined()"]}
{"id": "C165", "title": "An entry of a text can be replaced by one with the same meaning", "statement": "Two texts with the same number of entries, where each entry of the one and its counterpart in the other have the same result and the same errors when parsed by themselves (separators, comments and sorting switched off), give the same result, the same messages in the same order and the same exception if any. In particular writing out the default address in front of entries without one, and the default mask after entries without one, in any of the entries of a list, changes nothing, whatever the sort order.", "quantifier": "every parser, sort order, separators and comments, every number of entries, every text, every answer of the system", "why_tests_cant": "the settings, the entries and their number are unbounded and the statement relates whole runs, including what is logged and thrown", "anchors": ["libaddr/addr_parser.cpp: addr_parser::parse, addr_parser::parse_cidr", "libaddr/addr_parser.cpp: addr_parser::set_default_address, addr_parser::set_default_mask"]}
{"id": "C166", "title": "A call which throws leaves the address as it was", "statement": "When a function which changes an address throws, the address is the one it was before the call, so that calls which threw can be left out of any history of calls. This is false for set_from_socket() and recvfrom(): a socket with an IP address whose type is neither a stream nor a datagram socket (or cannot be asked for) gives an exception after the address and port were replaced by those of the socket. The same holds for recvfrom() when the kernel gives the sender in another family. A range keeps its bounds when from_cidr() throws.", "quantifier": "every address, every call with any arguments, every answer of the system, histories of any length", "why_tests_cant": "the states, arguments and answers of the system are unbounded; the failing branches depend on answers of the kernel which a test cannot force", "anchors": ["libaddr/addr.cpp: addr::set_ipv4, addr::set_ipv6, addr::set_port, addr::set_protocol, addr::set_mask_count", "libaddr/addr.cpp: addr::set_from_socket, addr::recvfrom", "libaddr/addr_range.cpp: addr_range::from_cidr"]}
{"id": "C167", "title": "The addresses listed from a text are the ones which match", "statement": "Without masks, the addresses to_addresses() lists for the ranges parse() returned are exactly the ones address_match_ranges() accepts, whatever the sort order, and each of them is listed once with SORT_MERGE. Two sort orders list the same addresses. With more addresses than the limit the exception is thrown. This needs that no range is empty (the first address of an empty range whose ends are neighbours is listed although nothing matches) and none ends with the very last address.", "quantifier": "every text, every parser without masks, every sort order, every limit, every resolver", "why_tests_cant": "texts, ranges and limits are unbounded and the statement compares two functions over all addresses", "anchors": ["libaddr/addr_range.cpp: addr_range::to_addresses", "libaddr/addr_range.cpp: address_match_ranges", "libaddr/addr_parser.cpp: addr_parser::parse"]}
{"id": "C168", "title": "The host name of a parsed address stands for this address", "statement": "Each end of each range parse() returns has a host name, which is a part of the text or, where the text has no address and none is required, one of the default addresses. When lookups are not allowed this host name (up to its first NUL) is a text of this very address, and is_hostname_an_ip() is true. When lookups are allowed the resolver, asked for this host name with the socket type of the protocol of the parser, has an answer with this address and this port. Sorting and merging never give an address the host name of another one.", "quantifier": "every text, every parser (all flags, defaults and sort orders), every resolver which returns well formed answers", "why_tests_cant": "texts, settings and resolvers are unbounded, and ranges, masks, sorting and merging all copy addresses around", "anchors": ["libaddr/addr_parser.cpp: addr_parser::parse", "libaddr/addr.cpp: addr::get_hostname", "libaddr/addr.cpp: addr::is_hostname_an_ip"]}
{"id": "C169", "title": "Two networks put together", "statement": "The ranges of two networks (from_cidr()), put together with union_if_possible() and converted back with to_cidr(), give one network which has exactly the addresses of both when one of the networks includes the other or when they are the two halves of one network (whose mask then has one bit less); to_cidr() returns false and changes nothing for all other networks, in particular for neighbours of different sizes or which are not halves of the same network. This holds except where the first or last address is an IPv4 address and a mask has fewer than 96 bits (the halves of ::/80): there union_if_possible() throws out_of_range.", "quantifier": "every two networks with CIDR masks, IPv4 and IPv6, every address object which receives the result", "why_tests_cant": "2^128 addresses times 129 masks for each of the two networks", "anchors": ["libaddr/addr_range.cpp: addr_range::from_cidr", "libaddr/addr_range.cpp: addr_range::union_if_possible", "libaddr/addr_range.cpp: addr_range::to_cidr"]}
{"id": "C170", "title": "Which exceptions are thrown, and when", "statement": "Each public function which changes an addr throws exactly when its argument or the socket cannot be used, and the class of the exception says why: addr_invalid_argument for another family, a port outside 0 to 65535, an unknown or unsupported protocol, a negative descriptor or a sender of another family; out_of_range for a prefix which does not fit the family; addr_io_error when the socket cannot be asked; addr_invalid_state when the socket is not an IP socket for TCP or UDP. to_ipv6_string() throws nothing, to_ipv4or6_string() only addr_unexpected_mask for an IPv4 address with a mask of fewer than 96 bits, to_ipv4_string() also addr_invalid_state. parse() throws only out_of_range, when it merges ranges which may have masks, or addr_invalid_argument, when a protocol is none of IP, TCP, UDP. string_to_addr() throws only addr_invalid_argument. The functions of addr_unix throw addr_invalid_argument, the exception of the UTF-8 decoder, or, only set_un() with a structure of another family, addr_invalid_structure (and not addr_invalid_argument as documented).", "quantifier": "every object, every call with every argument, every answer of the system, the resolver and the decoder", "why_tests_cant": "a test shows that one call throws one class; that no other class ever leaves a function, which a caller with one catch clause relies on, is about all calls", "anchors": ["libaddr/addr.cpp: addr::set_ipv4, set_ipv6, set_port, set_protocol, set_mask_count, set_from_socket, recvfrom", "libaddr/addr.cpp: addr::to_ipv4_string, to_ipv6_string, to_ipv4or6_string", "libaddr/addr_parser.cpp: addr_parser::parse, string_to_addr", "libaddr/addr_unix.cpp: addr_unix::set_un, set_file, set_abstract, set_uri, set_from_socket, verify_path", "libaddr/exception.h"]}
{"id": "C171", "title": "Which calls have undefined behaviour", "statement": "A call of a function which changes an addr has undefined behaviour exactly when it adds or subtracts the smallest int, or gives a port which is not a number to an address whose protocol the system does not have; in all other cases it returns or throws. Printing an address, get_port_name() and get_protocol_name() are undefined exactly when the name of such a protocol is needed (and to_ipv4_string() did not throw before). No call on a Unix address a program can have is undefined, and to_string(), to_uri() and unlink() of it always return.", "quantifier": "every object, every call with every argument, every mode, every answer of the system and the decoder", "why_tests_cant": "undefined behaviour need not show in a test, and its absence is a statement about all calls", "anchors": ["libaddr/addr.cpp: addr::operator +=, addr::operator -=, addr::set_port, addr::get_protocol_name, addr::get_port_name", "libaddr/addr.cpp: addr::to_ipv4_string, to_ipv6_string, to_ipv4or6_string", "libaddr/addr_unix.cpp: addr_unix"]}
{"id": "C172", "title": "Peers checked against a list", "statement": "A program reads a list of addresses, networks and ranges (as in C141) and asks address_match_ranges() about the peer of a socket. After set_from_socket() with the name of the other side the answer is yes exactly when the list has the address in this name. After recvfrom() returned a message the answer is yes exactly when the list has the address of its sender, whatever the families of the socket and of the sender; an IPv4 sender gets the same answer on an IPv4 socket and as IPv4-mapped sender on an IPv6 socket. When recvfrom() returns -1 the answer is the one for the address of the socket itself.", "quantifier": "every list, parser as in C141, socket, name, message, sender and object used before", "why_tests_cant": "lists, structures of the system and earlier contents of the object are unbounded, and the answer has to be right for each of the 2^128 addresses", "anchors": ["libaddr/addr.cpp: addr::recvfrom, addr::set_from_socket, addr::set_ipv4, addr::set_ipv6", "libaddr/addr_parser.cpp: addr_parser::parse", "libaddr/addr_range.cpp: address_match_ranges"]}
{"id": "C173", "title": "What is allowed counts only for texts which use it", "statement": "Two parsers have the same settings, except that one allows ranges, ports or masks written as addresses and the other does not. A text without a dash (ranges), without a colon (ports, unless there is a default port, no required port and no lookups) and without a slash (masks, unless there is a default mask) gives the same ranges or exception and the same error messages with both. When they also disagree on masks, a text without a slash gives the same error messages with both, and is read without an error as the same ranges by both or by neither. So setting or clearing one of these flags with set_allow() does not matter for such texts.", "quantifier": "all pairs of parsers with such settings, all texts (any list of entries, with comments, names and errors), all sort orders, all resolvers", "why_tests_cant": "relates two runs of the parser with different settings for every text, every configuration and every answer of the resolver, including the texts with errors", "anchors": ["libaddr/addr_parser.cpp: addr_parser::set_allow, addr_parser::parse, addr_parser::parse_cidr, addr_parser::parse_address, addr_parser::parse_address4, addr_parser::parse_address6, addr_parser::parse_address_range_port, addr_parser::parse_address_port, addr_parser::parse_mask"]}
{"id": "C174", "title": "A range object is what the calls made of it", "statement": "After any sequence of calls of set_from(), set_to(), swap_from_to() and from_cidr() on a new addr_range the two ends are what these calls made of them one after the other: setting one end leaves the other, swapping exchanges them (also when one is missing), from_cidr() sets the first and the last address of the network and keeps its port, protocol and mask, or throws and leaves both. has_from(), has_to(), get_from(), get_to(), is_defined(), is_range(), is_empty(), is_in() and is_ipv4() answer accordingly; an end which is missing is a new address object.", "quantifier": "all sequences of calls with all addresses and masks", "why_tests_cant": "sequences of calls are unbounded, and each answer has to be right for all pairs of 128 bit numbers", "anchors": ["libaddr/addr_range.cpp: addr_range::set_from, addr_range::set_to, addr_range::swap_from_to, addr_range::from_cidr, addr_range::get_from, addr_range::get_to, addr_range::has_from, addr_range::has_to, addr_range::is_defined, addr_range::is_range, addr_range::is_empty, addr_range::is_in, addr_range::is_ipv4"]}
{"id": "C175", "title": "A default counts only for entries which miss what it stands for", "statement": "When every entry of a text names its address, parse() answers the same whatever the default addresses are and whether an address is required. When every entry has its port, it answers the same whatever the default port is. When every entry has its mask, or masks are not allowed, it answers the same whatever the default masks are. The same means the same ranges, the same exception, the same error messages and the same number of errors; the three can be combined, and the defaults may be changed by any sequence of calls. string_to_addr() answers the same for any two default addresses and default ports it accepts when the text has what they stand for.", "quantifier": "all texts with any separators, comments and number of entries, all parsers and settings which differ in these defaults only, all answers of the system", "why_tests_cant": "compares parsers over all values of the defaults and all texts; a test has a few of both", "anchors": ["libaddr/addr_parser.cpp: addr_parser::parse, addr_parser::parse_cidr, addr_parser::parse_address, addr_parser::parse_address4, addr_parser::parse_address6, addr_parser::parse_address_port, addr_parser::set_default_address, addr_parser::set_default_port, addr_parser::set_default_mask", "libaddr/addr_parser.cpp: string_to_addr"]}
{"id": "C176", "title": "What separates the entries of a text does not matter", "statement": "Two parsers which differ only in the separators and comments they allow give the same answer for two texts which they cut into the same entries, blanks around the entries aside: the same ranges, the same exception, the same error messages and the same number of errors. In particular a list separated by commas for one parser and by newlines or spaces for another, one or several of them, and a text without separators and comments whether or not lists and comments are allowed.", "quantifier": "all texts and lists of entries, good or bad, all separators, all pairs of parsers which differ in these five flags, all answers of the system", "why_tests_cant": "relates two configurations over all lists of all entries, including those which are refused", "anchors": ["libaddr/addr_parser.cpp: addr_parser::parse, addr_parser::parse_cidr, addr_parser::set_allow"]}
