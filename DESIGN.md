# libaddr formal model: design

Target: m2osw/libaddr (source in /repo, read as text).  Prover: Coq 8.16.1.

## Approach

* Model files (`rocq/theories/*.v` without suffix) transcribe the C++ function
  by function.  Every definition cites the file and lines it models.
* `Spec*.v` files hold small independent specifications (numeric value of an
  address, prefix membership, interval membership, ...).
* `*Proofs*.v` files hold the lemmas.  `Prop*.v` files hold the
  theorems of properties.jsonl, a satisfiability `Example` beside each and
  `Print Assumptions`.
* Undefined behaviour, exceptions and non-termination are distinct outcomes
  (`UB`, `Throw e`, `OutOfFuel`) of the model, never silently defined values.
* External behaviour (resolver, protocol and service databases, integer
  conversion of advgetopt, clock, interface enumeration) is an explicit
  argument of the modelled function and theorems quantify over it.
* A property which is false of the code is kept in the list: the negation is
  proved as `..._refuted` with a concrete witness and the largest true part is
  proved with suffix `_partial`.

## Plan per property

| Id | What is modelled | How it is proved |
|----|------------------|------------------|
| C01 | addr bytes as 16-element list; codec loops transcribed | list induction; mod/div arithmetic |
| C02 | memcmp on the 16 bytes | lexicographic order = big-endian value order, induction |
| C03 | int (32 bit) negation with UB, snapdev saturated ops as clamp | case analysis on C01 |
| C04 | unsigned 128 subtraction then cast to signed | modular arithmetic |
| C05 | is_next/is_previous with unsigned wrap | C01 + arithmetic |
| C06 | sockaddr_in/in6 as records, s6_addr16/32 as little-endian views | byte lemmas |
| C07 | same | record equality |
| C08 | three write loops of set_mask_count | sweep over 0..128 lifted by forallb |
| C09 | switch of get_mask_size | induction on the byte list against 'n ones then zeroes' |
| C10 | byte-wise and/or | bit-level lemma land/lor on big-endian values |
| C11 | byte-wise comparison | same bit-level lemma |
| C12 | get_network_type transcribed with masks on host order words | equivalence with a prefix table spec stated with division |
| C13 | the cache is a field of the model, each public operation is an event | invariant over histories for setters; `_refuted` witness for ++ etc. |
| C14 | htons/ntohs as byte swap | arithmetic |
| C15 | string conversion oracle returning int64, narrowed to int | `_refuted` witness + partial theorem for values in int range |
| C16 | protocol database oracle | invariant over histories |
| C17 | set_protocol transcribed | `_refuted` witness + exact characterisation |
| C18 | all public operations as an inductive op type | invariant over histories |
| C19 | predicates on the cached type | case analysis |
| C20 | glibc inet_ntop4/inet_pton4 transcribed from the C library | induction on decimal digits |
| C21 | glibc inet_ntop6/inet_pton6 transcribed | zero-run analysis + token induction |
| C22 | to_ipv4or6_string and parse_* transcribed | composition of C20, C21, C08 and string search lemmas |
| C23 | as C22 | corollary of the round-trips |
| C24 | addr_range record | arithmetic on C02 |
| C25 | match transcribed | `_refuted` witness (undefined range and ::) + partial theorem for empty ranges; `C25_exactly`: which addresses match after any calls |
| C26 | __int128 arithmetic with UB | `_refuted` witnesses + exact theorem for non-empty ranges below 2^127 addresses; `C26_made_by_calls`: after any calls |
| C27 | do/while loop with fuel and explicit divergence | induction on the distance; `_refuted` for ranges ending at the last address |
| C28 | intersection transcribed | arithmetic; `_refuted` for half-defined ranges |
| C29 | union_if_possible transcribed with throws of set_mask_count | arithmetic, all positions; `_refuted` for one undefined side |
| C30 | compare transcribed | relation to an independent classification of intervals |
| C31 | operator < | lexicographic key; `_refuted` when undefined ranges are included |
| C32 | from_cidr | C10, C11 |
| C33 | to_cidr bit loop | induction on the bit count |
| C34 | find_if | list induction; `C34_made_by_calls`: for ranges made by any calls |
| C35 | optimize_vector double loop on lists | invariant of inner and outer loops |
| C36 | same | `_refuted` witness + what a pass guarantees |
| C37 | flag array as function of flag number | invariant over histories |
| C38 | bit test | case analysis |
| C39 | int64 to int narrowing | invariant over histories; `_refuted` for strings beyond 2^32 |
| C40 | parse loop over positions | induction on the remaining input, spec by splitting |
| C41 | same with comments | theorem for newline-only separators; `_refuted` witnesses for the two bad configurations |
| C42 | error log as message list | induction through the call tree |
| C43 | same | same |
| C44 | same | case analysis |
| C45 | std::stable_sort as stable merge/insertion sort | permutation + order theorems, uniqueness of stable sorting |
| C46 | merge loop | invariant: sorted prefix is separated |
| C47 | digit loop and bit loop of parse_mask | sweep 0..128 + digit induction |
| C48 | parse_cidr | theorem for IPv4 and for ':' masks; `_refuted` for numeric IPv6 masks |
| C49 | string_to_addr | case analysis over parse results |
| C50 | resolver is an explicit argument of the model | equational reasoning (result independent of the argument) |
| C51 | parser state record | induction through the call tree |
| C52 | sun_path as 108 bytes, memcpy/strncpy/memset transcribed | invariant over histories |
| C53 | tokenize/join modelled on byte lists, UTF-8 decoder modelled | list induction |
| C54 | set_un/get_un | idempotence of path canonicalisation |
| C55 | to_uri/set_uri | string search lemmas; `_refuted` for paths with '?' |
| C56 | setters return the state even when they throw | case analysis |
| C57 | labelled transition system, threads = list of program counters | inductive invariant over all schedules; `_refuted` if the clock may go back |
| C58 | same with ghost publication times | inductive invariant |
| C59 | list search | list induction |
| C60 | character loop of readwords | induction on lines |
| C61 | std::stol decimal model | `_refuted` witness + partial theorem for words without A-F and at most one digit |
| C62 | find_if | list induction |
| C63 | validate = clear, parse, has_errors | C51 |
| C64 | heap of info objects, streams with pword/callback | inductive invariant over histories |
| C65 | to_ipv4_string with its throw | case analysis on the bytes |
| C66 | is_hostname_an_ip with the inet_pton transcription | equivalence with the grammar of C20 and C21 |
| C67 | create_socket, flags and the answer of socket(2) as argument | case analysis |
| C68 | connect, bind, sendto: the calls are a trace | equality of the trace with what the address says |
| C69 | set_from_socket, answers of getsockname/getpeername/getsockopt as arguments | case analysis over the answers |
| C70 | default port in parse_address_port | weakest precondition through the parser |
| C71 | protocol in parse_address_port | same |
| C72 | all parser loops | outcome is never UB or OutOfFuel |
| C73 | same | outcome is never Throw, under the configuration premises |
| C74 | swap_from_to | membership of the swapped range |
| C75 | recvfrom, kernel answers as arguments | case analysis; `_refuted` for IPv4-mapped sockets |
| C76 | numeric entries through the whole parser | grammar of C20 and C21 against the result |
| C77 | numeric ranges | same |
| C78 | masks written as addresses | same, resolver premise for numbers |
| C79 | addr_range::to_string then parse | composition; `_refuted` for IPv6 |
| C80 | comparison operators of addr_unix | lexicographic order on names |
| C81 | addr_unix::set_from_socket | case analysis over the answers |
| C82 | unlink as a trace | case analysis |
| C83 | set_uri | grammar of the accepted URIs |
| C84 | route reader with `entries[-1]` as UB | `_refuted` and the largest safe class of tables |
| C85 | flags_to_string | sweep over the flag table |
| C86 | the interface cache as a transition system; a data race is defined from the steps themselves: a step writes what it can change and reads what its outcome depends on | invariant over all schedules; `_refuted` for the TTL setter |
| C87 | getifaddrs list to iface objects | list induction |
| C88 | has_broadcast_address, has_destination_address | `_refuted`, and the true part |
| C89 | if_indextoname loop | induction on the index; `_refuted` with holes |
| C90 | is_broadcast_address | list search |
| C91 | same system as C57 | progress from every reachable state |
| C92 | get_protocol_name, get_port_name | case analysis over the database answers |
| C93 | call_once/mutex of get_ostream_index as transition system | invariant over all schedules |
| C94 | option loop of validator_address | last occurrence wins, induction on the list of options |
| C95 | validate() on single values | C63, C94 with C76 and C44; two `_refuted` |
| C96 | constructor and validate() | C73 |
| C97 | default= option | printing then setting the default; `_refuted` for IPv4 masks |
| C98 | messages sent to the log | induction on the options |
| C99 | validate() on lists | C40 and the error count |
| C100 | get_name(), get_service() with any resolver | case split |
| C101 | main() of ipv4-routes: arguments, table, output | C60 and a specification of lines and columns; `_refuted` for long names |
| C102 | same | induction on the arguments |
| C103 | main() of ifaces | C12, C59 and the text of addresses (C22); `_refuted` for large flags |
| C104 | same | induction on the interfaces, invariant on the set of printed names |
| C105 | same | `_refuted`; `_partial` if the resolver returns interface names |
| C106 | same | induction on the arguments; `_refuted` for getifaddrs failure |
| C107 | main() and run() of validate-ip | the options determine the parser; C42, C73, induction on the arguments; `_refuted` for masks which cannot be printed and for large ports |
| C108 | same | C22, C65; C108_abort where printing throws |
| C109 | same | induction on the arguments |
| C110 | same | `_refuted`; every argument without a mask is rejected |
| C111 | parse() | weakest preconditions, C45 |
| C112 | parse() | same, invariant of merging |
| C113 | setters and getters of the parser | SpecParser3.v says which call gives which value; induction on the history |
| C114 | setters of the parser | case analysis per setter, for any state |
| C115 | error log | induction on the history, C51 for parse() |
| C116 | lookups of one entry | unfold to the call of the resolver, induction on the answers |
| C117 | entries without address | equality of parse() on two texts |
| C118 | forbidden ports with lookup | `_refuted` for names without a dot, `_partial` for the others; `_exactly`: two runs, with and without the flag, and which entries it makes no difference for |
| C119 | the text functions with any mode | grammar of the parts in terms of the bits of the mode (SpecModes.v) |
| C120 | get_network_type_string() | table of names, with C12 |
| C121 | addr_range::to_string(), both | grammar over C119; induction on the list |
| C122 | parse(), from the text to the ranges, with and without lookup | grammar SpecLanguage.v; each parser function decides its part of the grammar (success with that meaning, or an error and no such entry), meanings unique up to what masks depend on |
| C123 | parse() with separators and comments | entries_of (SpecLanguage.v) cuts the text, each text has entries; C122 per entry, induction over the entries |
| C124 | string_to_addr() | composition of C49 (the range meant) and C122 (the grammar); the parser set up by string_to_addr() satisfies the conditions of C122 whatever the defaults |
| C125 | validator_address | the parser of every constructed validator meets the conditions of C123 (invariant over the options); C63 and C123 |
| C126 | validate-ip | the parser the options stand for meets the conditions of C123; C107 and C123, induction over the arguments |
| C127 | messages of refused texts | `complaint` of SpecComplaint lists the reasons with the texts of their messages (typos of the code included, e.g. `expected16`); the wp calculus follows each stage of parse_cidr and shows that the messages are exactly those, or none; C123's splitting for several entries; answers of a lookup are assumed to be IPv4 or IPv6 addresses of the right size |
| C128 | error of validator_address | C63 (the validator answers what its parser answers) with C127 |
| C129 | stderr of validate-ip | C109 (the message about an argument) with C127; `block` gives the text |
| C130 | the settings parse() reads | relation of two parsers (SpecSettings.v), kept by every function of the parser with the same answer and messages; witnesses that the others count |
| C131 | get_network_type() on a shared object, one access per step (NetShared.v) | invariants over all interleavings; `_refuted` by a schedule of two threads |
| C132 | the steps of IfaceCache.v with the vectors as objects, callers may change those they were given (IfaceHeap.v) | invariant: a vector being filled is known to its thread only; simulation by IfaceCache.v when callers only read; `_refuted` by a caller who clears its list |
| C133 | glibc inet_ntop6 transcribed; RFC 5952 as a grammar (SpecIpv6.v) | the 256 patterns of zero words by evaluation, the texts by cases on the run; uniqueness of the recommended text by induction on the digits |
| C134 | glibc inet_pton4/6 transcribed; RFC 4291 as a grammar (SpecIpv6.v) | the scanner reads each text of the grammar (induction on the grammar) and reads nothing else (invariant of the scanner); SpecParser2.v is stated with the grammar |
| C135 | the 24 operations of addr_step; each attribute as a function of the history of calls and outcomes (SpecHistory.v) | invariant over all histories, one lemma for each shape of operation |
| C136 | the 9 operations of unix_step; the attributes as relations on the history (SpecUnixHistory.v) | invariant over all histories; each relation is decided for each call |
| C137 | operators as memcmp() of the bytes of the structures (SockCompare.v) | the sign of memcmp() of concatenated fields is the lexicographic order of their numbers; SpecSockCompare.v has the order and the record of laws |
| C138 | transition system whose steps are the calls of clear_errors(), parse(), has_errors() and error_messages() on the shared parser (ValidatorShared.v) | invariant: the settings never change and the log is that of the parses since the last clear; two executions as counterexamples |
| C139 | Range.v | inductions over both loops: the first pass leaves no network included in a later one, so that in the second pass v[i] never grows |
| C140 | Parser.v, Range.v | the permutation of C45, the covered set of C46, and that without masks match() is membership; a witness with masks |
| C141 | parser, ranges, masks and match as modelled for C122, C123 and C140; SpecAllowList.v says what an entry names | each entry is in the language of C122 with one meaning; C123 gives the list, C140 the sort order, C24 and C11 the match |
| C142 | `Receive.v`: recvfrom() with its system calls and its result; the system is an argument | composition with set_from_socket (C69), set_ipv4/set_ipv6 (C06, C07) and sendto (C68) |
| C143 | existing model (`Parser.v`, `Range.v`) | induction over the merge loop; the ends of a union are ends of its operands; refutation by a list with two ports |
| C144 | ranges_to_string() and parse() as modelled; alone p is the parser with list and comment flags off | an entry of the language of C122 does not depend on the list flags; the printed characters are no separators; C22 and C79 for each entry, C123 for the list |
| C145 | existing model (`Parser.v`, `Range.v`) | induction over the merge loop: masks and limits of each union come from the list; refutation by a numeric list |
| C146 | existing model (`Parser.v`, `Range.v`) | induction over the merge loop: a merged range is covered by the list or is a network of the list; refutation by a range without first address |
| C147 | parse() and the socket functions, composed | C76 for the text, an invariant that numeric addresses have no scope and no flow, C67 and C68 for the calls |
| C148 | printing, parsing and the socket functions, composed | C22 for the text, equality of the socket addresses from equal value and port; witness with a link-local address |
| C149 | AddrSet.v: insert, find and erase of a std::set on the sequence of its elements, driven by the model of operator < | induction on the added addresses; C27 for the ranges |
| C150 | IfaceIndex.v, Iface.v; if_indextoname() and if_nametoindex() are arguments which tell about one table of interfaces | C89 for the loop, a pigeonhole argument for its end |
| C151 | from_cidr() and union_if_possible(), composed as in the documentation | C29 and C32, blocks are nested or apart |
| C152 | intersection() as for C28, on ranges whose missing end is as the constructor made it | case analysis on the ends |
| C153 | Parser.v | from the grammar of C122: the layout of an entry with two colons has no port; C76 for the bare address; the conversion of the port must succeed |
| C154 | errno is passed through the models of the functions, what the system makes of it is an argument (Errno.v) | case analysis on top of C67, C68, C81 and C142; the claim is false for connect() with UDP, which fails without touching errno, and for a route table without a complete first line, see `C154_connect_refuted` and `C154_routes_refuted` |
| C155 | Lookups.v: the list of the calls of getaddrinfo() which each function of Parser.v makes | by following the parser: each text is a part of the string; the run is the same for resolvers which agree on the list; the exact list for one host and for two entries in turn |
| C156 | LookupsUse.v: the calls of getaddrinfo() of the constructor, of validate() and of string_to_addr(), on top of Lookups.v | from C155 and the flags of C94; a value which is asked about is built for every validator with lookups |
| C157 | Parser.v (no new model); premises about getaddrinfo() in SpecNumeric.v | simulation of the two runs: every part of the parser which adds no error gives related results with lookups |
| C158 | Parser.v (no new model) | simulation of the two runs: every part of the parser which adds no error gives the same result with the flag; what a numeric entry can consist of; cutting depends only on the characters which are present |
| C159 | the parser and its merge loop; entries_of of SpecLanguage.v gives the entries of a text | each entry does the same whatever was logged before, so a run is a list of independent runs; sorted lists with the same ranges differ by exchanges of neighbours with equal bounds, and each exchange keeps what merging and matching look at |
| C160 | rows, columns and cells of any text, numbers as std::stol() reads them | each reading function is shown exact, then induction on the lines |
| C161 | from_cidr(), size() and to_addresses() of Range.v, match() of Addr.v | composition of the block of from_cidr() with the exact result of to_addresses() (C27_any_range) |
| C162 | the operators << with the width, fill, adjustment and state of the stream (OstreamWidth.v) | each piece written is one string insertion; induction on lists and rows |
| C163 | the tool as for C107, the resolver of C157 (numbers are read as numbers) | every line printed is the text of a well formed address with a contiguous mask; the grammar of C122/C123 accepts it with one answer per kind; induction on the lines |
| C164 | the parser as for C122 and C123 | writing the port maps derivations of the grammar of C122 to derivations, in both directions, entry by entry; the grammar gives one meaning to each text; induction on the entries |
| C165 | the parser as for C123 and C130 | one entry does the same for parsers which differ in separators and comments only (the simulation of C130), so entries which agree alone agree inside a text; induction on the entries; the results before sorting are equal, hence after it; defaults from C48 and C117 |
| C166 | addr_step, set_from_socket, recvfrom, from_cidr | case analysis over the calls; induction over the history; for the two socket functions exactly what is left behind |
| C167 | parse(), to_addresses() of a vector, address_match_ranges() | results of parse() without masks have full masks (C140), matching is then membership between the ends; the lists of C27 contain exactly those; merged ranges are apart (C46) so nothing is listed twice |
| C168 | parse() with lookups and without, is_hostname_an_ip() | an invariant of all addresses through the call tree below parse() and through the sort orders, closed under changes of the mask; the rest is C134 |
| C169 | from_cidr(), union_if_possible(), to_cidr(), match() | C151 gives the union, to_cidr() accepts aligned blocks of a power of two, and two such blocks next to each other make one only if they have the same size and agree in the bits above |
| C170 | all operations of addr, the printing functions, parse(), string_to_addr(), all operations of addr_unix | an inductive list of the calls which cannot be done, equivalent to throwing (case analysis per operation, C69); an invariant over the call tree of parse() for the class of its exceptions |
| C171 | all operations of addr and addr_unix, the printing functions, with UB as an outcome | case analysis per operation; invariant of the Unix addresses (C52) |
| C172 | parser and match as for C141, sockets as for C69 and C142 | C141 gives the answer for any object, C69 and C142 the address in it; by cases on the families |
| C173 | parser as for C130 | two runs side by side: they log the same and return the same, for every function called by parse(), with the characters of each piece of text among those of the whole |
| C174 | range object as for C24 | induction on the calls, with the invariant that a missing end is a new address object |
| C175 | parser as for C27 | two parsers side by side through every function of the parser, then through the list of entries |
| C176 | parser as for C27 | entries of C123 parsed by both parsers side by side (C130), then sorted alike |

Where a property is false as stated (the `_refuted` theorems), PropExact.v,
PropExact2.v and PropExact3.v say what the code does in all the cases, next to
the `_partial` theorem for the cases in which the property holds.

## Trusted base

* The kernel of Coq 8.16.1.
* `Print Assumptions` follows every theorem.  It answers "Closed under the
  global context" for all of them: no theorem depends on any axiom.  (Loading
  `ZifyBool` brings the `Coq.ssr.ssrunder` module type parameters into the
  environment of coqchk; no proof uses them.)
* The transcription from C++ to Gallina, checked by reading.  Every definition
  cites the lines it models and says what was simplified.
* `Inet.v`: inet_ntop and inet_pton are part of glibc, not of /repo.  They are
  transcribed from its sources and were compared with the C library (through
  Python's socket module) on about 1100 random texts and addresses.
* The machine is x86-64 Linux: little endian, 32 bit int, two's complement,
  arithmetic shift of signed integers.
* The locale is the classic "C" one: numbers written to string streams have no
  digit grouping (addr.cpp:1298-1360, 1443-1504), isspace() and toupper() only
  know ASCII.  isspace() of a negative char (addr_parser.cpp:1066, 1078) is
  undefined in the C standard; the model takes glibc's answer, false.

Arguments of the model and the premises theorems put on them:

* `sys`: advgetopt's integer conversion (`converts_decimals`: decimal strings
  give their value; `refuses_periods`: no text with a period is an integer), protocol and service databases (`protocols_known` where names are printed).
* `resolver` (getaddrinfo): `resolver_ok` (the list is not empty, the entries
  are IPv4 or IPv6 with the length of their structure), `known_protocols` (IP,
  TCP, UDP only), `resolves_numbers` (AI_NUMERICHOST gives the number),
  `answers_usable` and `sizes_ok` (for the messages: a list which is an answer
  has a usable entry, the lengths are those of the structures), `posix` (C157: a
  numeric host and port give that address and port once for each kind of
  sockets the hints allow).  Its error text is part of the answer.
* Answers of socket, getsockname, getpeername, getsockopt, recv, getifaddrs,
  if_indextoname, getnameinfo, unlink, the content of /proc/net/route, the
  clock, the command line of the tools (for validate-ip after advgetopt), the
  text of exceptions.
* libutf8's decoder (`keeps_ascii`), advgetopt::split_string (`split`, any
  function).
* snapdev::trim_string, tokenize_string, join_strings and saturated arithmetic
  are modelled after their documentation.
* std::stable_sort is an insertion sort: any stable sort gives the same list
  (proved for strict weak orders, see C45).
* libstdc++'s ios_base: pword, register_callback, copyfmt, move, swap and the
  destructor (Ostream.v).  Heap addresses are never used again.
* libstdc++'s insertion of a std::string in a stream: padding and width(0)
  (OstreamWidth.v).
* Threads: interleaving of single memory accesses (sequential consistency);
  that accesses to shared data hold the mutex is what C86 and C93 prove.

## What is modelled

| File of /repo/libaddr | Model | Left out |
|---|---|---|
| addr.h, addr.cpp | Addr.v, NetShared.v, AddrText.v, Inet.v, Socket.v, Ostream.v, OstreamWidth.v, OstreamIndex.v, AddrSet.v, Errno.v | exception texts, errno after an exception |
| addr_range.h, addr_range.cpp | Range.v, AddrText.v | exception texts |
| addr_parser.h, addr_parser.cpp | Parser.v, Lookups.v, LookupsUse.v | nothing; the error count is unbounded |
| addr_unix.h, addr_unix.cpp | Unix.v | create of sockets does not exist there |
| route.h, route.cpp | Route.v | opening the file (its content is an argument) |
| iface.h, iface.cpp | Iface.v, IfaceIndex.v, IfaceCache.v, IfaceHeap.v | nothing |
| validator_address.h, .cpp | Validator.v, LookupsUse.v | the factory registration; convert_string() which is declared but never defined |
| ../tools/ipv4_routes.cpp, ifaces.cpp | NameInfo.v, TableTools.v | uncaught exceptions stay a status of the model |
| ../tools/validate_ip.cpp | ValidateTool.v | the error count is unbounded; part of a line printed before an exception |
| version.cpp, exception.h | | constants and class declarations |

Not modelled at all: std::bad_alloc except in C64, signals, output streams
whose buffer refuses characters, the tests.

## Findings

Properties which are false of the code, each with a proved witness:

* C13 in-place arithmetic and ip_from_uint128 keep the remembered network type;
  a set_protocol() which changes the protocol forgets it.
* C15, C39 a numeric port of 2^32 + n is read as n; "4294967295" clears the
  default port.
* C17 set_protocol(TCP) on a fresh object does not make it defined.
* C25 the undefined range matches ::.
* C26, C27 size and enumeration of inverted ranges and of ranges up to the last
  address (endless loop, signed overflow, wrapped totals).
* C36 optimize_vector may keep included networks.
* C41 text of comments read as addresses; entries after the first one of a line
  are lost when comments, newlines and commas are allowed together.
* C46 merging ranges with a mask which is not a prefix throws from parse().
* C47 the mask of the end of an open range is not set.
* C48 a numeric default IPv6 mask is ignored.
* C130 the flags for an address, multiple ports and port ranges are never looked at.
* C49 string_to_addr ignores errors next to a good address.
* C55 paths with '?' do not survive the URI.
* C57, C58, C86 the interface cache: placeholder visible when the clock goes
  back; stale data after a reset; unprotected TTL.
* C59 getifaddrs failure dereferences a null pointer.
* C61 hexadecimal route flags are read as decimal.
* C64 failing allocation during copyfmt leads to a double delete.
* C75 recvfrom on an IPv6 socket bound to an IPv4-mapped address.
* C76 an embedded NUL cuts the text of an address.
* C79 printed ranges which start with an IPv6 address are never accepted by the parser.
* C118 with lookup on and ports not allowed, "localhost:80" is accepted with its port: without a dot before the colon the text is taken for IPv6, where a single colon separates a port without a check of the flag (addr_parser.cpp:1420-1427, 1552-1564).
  The same happens to ":80" when there is a default IPv6 address and no
  default IPv4 one.
* C84 missing route columns read entries[-1].
* C88, C89, C90 broadcast flags, holes in the interface indexes, nested
  networks.
* C92 an unknown protocol builds a string from a null pointer.
* C95 address=no accepts addresses; address=required ignores the default.
* C97 the mask of an IPv4 default address becomes the IPv6 default mask.
* C101, C103 columns without separator for long interface names and large flags.
* C105 ifaces --default compares the reverse DNS name of the address with the
  interface's name; without a default route it prints addresses without names.
* C106 ifaces dereferences a null pointer when getifaddrs fails.
* C107 validate-ip --mask --canonicalize stops at an accepted IPv4-mapped address
  with an IPv6 mask; --default-port 2^32 + n is taken as n.
* C127, C128 a bad mask after a name is reported once for each address of the
  name; a validator keeps the error of its last refusal after a success
  (validator_address.cpp:531-542).
* C110 validate-ip --mask rejects all arguments without a mask.
* C131 get_network_type() const writes UNKNOWN, then the type, to a mutable field
  without a lock: a second thread can be told that a private address is public.
* C132 the list get_local_addresses() returns is the one in the cache: a caller who
  changes it changes what all the others get until the TTL is over.
* C138 validate() const of a shared validator uses one parser without a lock: a
  thread can be told the verdict on the text of another one.
* C140 SORT_MERGE with masks: "10.0.0.1/24,10.0.0.2/24" becomes the range of these two
  addresses, 10.0.0.7 does not match any more.
* C142 the reply to an IPv4 sender on an IPv6 socket which is open to both uses a
  structure of the IPv4 family.
* C143 SORT_MERGE loses ports: "10.0.0.1:80,10.0.0.1:90" becomes 10.0.0.1:90.
* C144 A list printed by `addr_range::to_string()` is not always read back: an IPv6 range in it is an error, and a parser which allows newlines and comments reads only the first range of a list written on one line, without an error.
* C145 SORT_MERGE throws std::out_of_range on the good text
  "::1:0:0:0/64,255.255.255.255": the mask of the IPv6 network is set on the IPv4 address.
* C146 SORT_MERGE lets more addresses match: "-10.0.0.1/104,10.0.0.1" matches all of
  10.0.0.0/8, the mask which a range without a first address does not use is used when merging.
- C148: the scope of a link-local IPv6 address is neither printed nor parsed: a peer fe80::1 on interface 2, printed as `[fe80::1]:80/128` and parsed, compares equal to the original, but connect() is given scope 0.
- C149: a `set_t` cannot hold two servers on one host: 10.0.0.1:443 is dropped when 10.0.0.1:80 is there, and find() of one gives the other. operator < regards the IP address alone.
- C151: the code which the documentation of union_if_possible() gives to test whether a network includes another answers yes for 10.0.0.0/25 and 10.0.0.128/25, and throws std::out_of_range for ::/80 and ::1.
- C152: intersection() looks at ends which are not set: the address 10.0.0.5 and the range 10.0.0.0-10.0.0.9 have an empty intersection.
- C153: README.md says that `::1` without brackets is an error where ports are allowed, and that `1.2.3.4:80,443` names two ports. The parser takes `::1` (and reads `::1:80` as one address, without a port and without an error), and refuses every list or range of ports.
- C154: connect() of a UDP address returns -1 without touching errno (addr.cpp:1858), and get_ipv4_routes() of a table without a complete first line returns no route without touching errno, although its documentation says that errno is set.
- C155: when only blanks precede a comment and the parser has no separators, the comment is kept as the entry, so with lookups allowed its text is sent to the system's resolver (addr_parser.cpp:1064-1091, 1790).
- C156: the value of default=... of a validator is looked up by name even when the validator's address=... option does not allow lookups (validator_address.cpp:366-369), and a validator without an address=... option allows them.
- C157: with lookups allowed and no protocol set (or IP), the parser gives each numeric address three times, for TCP, UDP and IP (addr_parser.cpp:1757-1776, 1817-1884); a parser told to use IP gives TCP and UDP addresses.
- C158: allowing a feature can change a text which was accepted: with ALLOW_COMMENT_HASH (or _SEMICOLON) in addition to newlines and commas, `10.0.0.1,10.0.0.2` silently loses its second address although it has no comment (addr_parser.cpp:1102-1116); with a first separator an empty text gives nothing instead of the default address (addr_parser.cpp:1064-1127); with ALLOW_PORT, `localhost:80/24` changes from a /24 of an IPv6 to a /24 of an IPv4 (addr_parser.cpp:1407-1432).
- C159: with SORT_MERGE, masks and empty ranges, the order of the entries of a text decides which addresses match: the first of the empty ranges, all of which sort last, is merged into its neighbour, which then loses its mask (`10.0.0.1/24,10.0.9.9-10.0.9.1,10.0.0.2-10.0.0.1` matches 10.0.0.7, with the last two exchanged it does not).
- C161: `to_addresses()` of a network which contains the very last address, or of `::/0`, never ends; a mask of one bit is undefined behaviour; a range with a network as its only end, as parse() returns it, gives one address.
- C162: `std::setw()` pads only the first address of a vector or set of addresses; an empty one leaves the width to the next output.
- C163: `validate-ip --canonicalize` prints a mask on every line whether or not `--mask` was given, so without `--mask` none of its own lines can be given back to it; with `--protocol ip` each line given back comes out three times.
- C166: `set_from_socket()` on a socket which is neither a stream nor a datagram socket throws after it replaced the address and port (addr.cpp:2173-2232); `recvfrom()` does the same, also when the sender's family is not the socket's.
- C167: `10.0.0.2-10.0.0.1` matches no address, but `to_addresses()` lists 10.0.0.2 for it.
- C169: putting the halves of ::/80 together (::/81 and ::8000:0:0/81) throws std::out_of_range, because the last address of ::/80 is an IPv4 address.
- C170: addr_unix::set_un() documents addr_invalid_argument for a structure which is not of the family AF_UNIX (addr_unix.cpp:168-169) and throws addr_invalid_structure (177); to_ipv4or6_string() documents an exception for a port without brackets (addr.cpp:1517-1519), which does not exist, and not addr_unexpected_mask, which it throws (1323); out_of_range is not an addr_error (exception.h:43-45), so a handler of addr_error misses it.

## Tests of the theorems

`seeded/LOG.jsonl` lists the bugs put in a scratch copy of the model, the
theorems which then failed and those which were tightened afterwards.
`tools/mutate.py` runs them, `tools/manifest.py` rebuilds MANIFEST.json.
