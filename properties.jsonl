{"id": "C01", "title": "First matching terminal rule decides the verdict", "statement": "For every chain accepted by bf_chain_new and every packet whose headers can be read, the program loaded for the chain returns the hook return code of the verdict of the first enabled rule (in rule order) all of whose matchers match the packet and whose verdict is terminal (ACCEPT, DROP, NEXT, REDIRECT); if there is none, it returns the code of the chain policy.", "quantifier": "all chains (any number of rules, matchers, sets), all packets, all hooks of the modelled flavors", "why_tests_cant": "packets x rulesets is unbounded; the emitted bytecode (offsets, register liveness, fixups) differs for every ruleset", "anchors": ["src/libbpfilter/cgen/program.c:_bf_program_generate_rule", "src/libbpfilter/cgen/program.c:bf_program_generate", "src/libbpfilter/cgen/packet.c", "src/libbpfilter/cgen/fixup.c"]}
{"id": "C02", "title": "CONTINUE rules apply their side effects and do not stop evaluation", "statement": "A rule with verdict CONTINUE whose matchers match updates its counter, log and mark as requested and evaluation goes on with the next rule exactly as if the rule had not matched.", "quantifier": "all chains, packets, positions of CONTINUE rules", "why_tests_cant": "needs every interleaving of CONTINUE rules with other rules", "anchors": ["src/libbpfilter/cgen/program.c:_bf_program_generate_rule"]}
{"id": "C03", "title": "Counters are exact", "statement": "Processing one packet adds exactly (1, packet size) to the counter of each evaluated rule that matches and has counters, to the policy counter iff no terminal rule matched, to the error counter iff header access failed; every other counter is unchanged. Over any history of packets each counter is the sum of these contributions.", "quantifier": "all chains, all packet sequences", "why_tests_cant": "histories are unbounded; an index off by one is only visible for particular rule layouts", "anchors": ["src/libbpfilter/cgen/program.c:_bf_program_generate_update_counters", "src/libbpfilter/bpf/update_counters.bpf.c", "src/libbpfilter/cgen/cgen.c:bf_cgen_get_counter"]}
{"id": "C04", "title": "Header access failure is fail-open and accounted", "statement": "If the packet can not be sliced (too short, dynptr creation failure), the program bumps only the error counter and returns the ACCEPT code of the hook; no rule is evaluated.", "quantifier": "all chains, all truncated packets, every failure point", "why_tests_cant": "every truncation length and every parse stage", "anchors": ["src/libbpfilter/cgen/stub.c"]}
{"id": "C05", "title": "Protocol guard", "statement": "A rule with at least one matcher on a layer 3 or 4 header only matches packets of that protocol; on packets of any other protocol the rule has no effect, even when the matcher is negated.", "quantifier": "all rules, all packets", "why_tests_cant": "all combinations of protocols and negated matchers, including garbage headers", "anchors": ["src/libbpfilter/cgen/program.c:_bf_program_check_proto", "src/libbpfilter/cgen/stub.c:bf_stub_rule_check_protocol"]}
{"id": "C06", "title": "Exact-value matchers compare the field bytes exactly", "statement": "ip4.saddr/daddr/proto, ip6.saddr/daddr, icmp(v6).type/code, tcp/udp.sport/dport, tcp.flags with operator eq match iff the field bytes of the packet equal the payload; with not they match iff they differ.", "quantifier": "all payload values (2^8..2^128), all packets", "why_tests_cant": "2^128 values; sign-extension and zero-extension corner cases", "anchors": ["src/libbpfilter/cgen/matcher/cmp.c:bf_cmp_value", "src/libbpfilter/cgen/packet.c:_bf_matcher_pkt_load_and_cmp"]}
{"id": "C07", "title": "Network matchers compare exactly the prefix bits", "statement": "ip4.snet/dnet and ip6.snet/dnet with prefix length p match iff the first p bits of the packet address equal the first p bits of the payload address, for every p including 0 and the full width; negation is the complement.", "quantifier": "all prefix lengths, all addresses", "why_tests_cant": "2^128 addresses x 129 prefix lengths x negate", "anchors": ["src/libbpfilter/cgen/matcher/cmp.c:bf_cmp_masked_value", "src/libbpfilter/cgen/matcher/cmp.c:_bf_prefix_to_mask"]}
{"id": "C08", "title": "Port ranges are inclusive and in host order", "statement": "tcp/udp sport/dport range min-max matches iff min <= port <= max where port is the big-endian value of the packet field; negation is the complement.", "quantifier": "all ranges and ports", "why_tests_cant": "2^48 combinations", "anchors": ["src/libbpfilter/cgen/matcher/cmp.c:bf_cmp_range", "src/libbpfilter/cgen/packet.c:_bf_matcher_pkt_generate_port"]}
{"id": "C09", "title": "TCP flag operators", "statement": "tcp.flags any F matches iff at least one flag of F is set, all F iff every flag of F is set, eq F iff the flags byte is F; negation is the complement.", "quantifier": "all flag bytes and masks", "why_tests_cant": "needs every pair of bytes for every operator and negate", "anchors": ["src/libbpfilter/cgen/matcher/cmp.c:bf_cmp_bitfield"]}
{"id": "C10", "title": "DSCP matchers", "statement": "ip4.dscp / ip6.dscp match iff the 6 bit DSCP field of the header equals the payload, independent of ECN, version and flow label bits.", "quantifier": "all headers, all DSCP values", "why_tests_cant": "all surrounding bits", "anchors": ["src/libbpfilter/cgen/packet.c:_bf_matcher_pkt_generate_ip4_dscp", "src/libbpfilter/cgen/packet.c:_bf_matcher_pkt_generate_ip6_dscp"]}
{"id": "C11", "title": "Set matchers test exact membership", "statement": "A (c1,...,cn) in {..} matcher matches iff the tuple of the packet fields is an element of the set; not in is the complement. This holds for any number of sets sharing a map and for any element.", "quantifier": "all sets, keys, packets, group sizes", "why_tests_cant": "bit positions beyond 8, overlapping sets, unbounded elements", "anchors": ["src/libbpfilter/cgen/matcher/set.c", "src/libbpfilter/cgen/program.c:_bf_program_load_sets_maps", "src/libbpfilter/cgen/program.c:_bf_program_build_set_groups"]}
{"id": "C12", "title": "Network sets are longest-prefix tries with union semantics", "statement": "A set of networks matches iff at least one network of the set contains the address.", "quantifier": "all sets of prefixes, all addresses", "why_tests_cant": "all nestings of prefixes", "anchors": ["src/libbpfilter/cgen/matcher/set.c:bf_set_generate_trie_lookup", "src/libbpfilter/set.c"]}
{"id": "C13", "title": "Sets sharing one map do not interfere", "statement": "Bit i of the map value of a key is set iff the key is an element of the i-th set of the group, for any number of sets in the group and any insertion order.", "quantifier": "all lists of sets", "why_tests_cant": "unbounded groups; read-modify-write of bitmasks", "anchors": ["src/libbpfilter/cgen/program.c:_bf_program_load_sets_maps"]}
{"id": "C14", "title": "Hash set behaves as an insertion-ordered mathematical set", "statement": "For any history of add/take/delete/contains/reserve/clean, bf_hashset answers like a mathematical set, never stores duplicates, iterates in insertion order, whatever the hash function.", "quantifier": "all operation histories, all hash functions", "why_tests_cant": "tombstones, wrap-around and growth only interact in long histories", "anchors": ["src/libbpfilter/core/hashset.c"]}
{"id": "C15", "title": "List and vector keep every element", "statement": "bf_list and bf_vector operations behave like mathematical sequences: push keeps order, get_at/remove index correctly, growth never loses or duplicates elements, overflow is refused without modification.", "quantifier": "all operation histories", "why_tests_cant": "growth thresholds, overflow near SIZE_MAX", "anchors": ["src/libbpfilter/core/list.c", "src/libbpfilter/core/vector.c"]}
{"id": "C16", "title": "Verdicts map to the return code of the hook", "statement": "For every flavor, ACCEPT/DROP/NEXT map to the documented kernel return codes, ACCEPT and DROP never share a code, and a generation error is reported for unsupported verdicts.", "quantifier": "all flavors x verdicts", "why_tests_cant": "cross product plus error values flowing into R0", "anchors": ["src/libbpfilter/cgen/xdp.c", "src/libbpfilter/cgen/tc.c", "src/libbpfilter/cgen/nf.c", "src/libbpfilter/cgen/cgroup_skb.c", "src/libbpfilter/cgen/cgroup_sock_addr.c"]}
{"id": "C17", "title": "Log rate limiting", "statement": "A rule with log every R emits a log record for a matching packet iff no record of that rule was emitted during the last R nanoseconds; other rules are not affected.", "quantifier": "all packet histories and clock values", "why_tests_cant": "needs all timing histories", "anchors": ["src/libbpfilter/cgen/program.c:_bf_program_generate_rule"]}
{"id": "C18", "title": "Mark is applied exactly by matching rules", "statement": "A matching rule with a mark sets the packet mark to the configured 32 bit value; rules that do not match leave it unchanged; chains on hooks which can not set marks are refused.", "quantifier": "all rules, packets", "why_tests_cant": "the claim ranges over an unbounded set of inputs, so any test suite only samples it", "anchors": ["src/libbpfilter/cgen/tc.c", "src/libbpfilter/cgen/cgroup_skb.c", "src/libbpfilter/chain.c:_bf_chain_check_rule", "src/libbpfilter/rule.h"]}
{"id": "C19", "title": "IPv6 extension headers do not hide the transport header", "statement": "For every IPv6 packet whose extension headers are all known, the transport protocol and offset used by the matchers are those of the real transport header.", "quantifier": "all chains of extension headers", "why_tests_cant": "unbounded header chains", "anchors": ["src/libbpfilter/cgen/stub.c:bf_stub_parse_l4_hdr", "src/libbpfilter/bpf/parse_ipv6_nh.bpf.c", "src/libbpfilter/bpf/parse_ipv6_eh.bpf.c"]}
{"id": "C20", "title": "Disabling a rule never changes the filtering result", "statement": "bf_chain_new disables exactly rules that reference an empty set or mix protocols on one layer; a rule disabled because of mixed protocols (or a non-negated empty set) could not match any packet, so evaluating it would give the same verdict and side effects.", "quantifier": "all chains, packets", "why_tests_cant": "requires comparing two programs on every packet", "anchors": ["src/libbpfilter/chain.c:_bf_rule_has_incompatible_matchers", "src/libbpfilter/chain.c:_bf_rule_references_empty_set"]}
{"id": "C21", "title": "Chain validation", "statement": "bf_chain_new accepts a chain iff hook and policy are valid, every set reference exists, no matcher or set component is used on a hook that does not support it, marks and per-field logs are only used where supported; an accepted chain numbers its rules 0..n-1 in order.", "quantifier": "all chains", "why_tests_cant": "all combinations of rules and hooks", "anchors": ["src/libbpfilter/chain.c"]}
{"id": "C22", "title": "Chains survive serialisation unchanged", "statement": "bf_chain_new_from_copy / pack + new_from_pack returns a chain equal to the original (name, hook, policy, sets with element order, rules with every option).", "quantifier": "all chains", "why_tests_cant": "unbounded structures; optional keys", "anchors": ["src/libbpfilter/chain.c", "src/libbpfilter/rule.c", "src/libbpfilter/set.c", "src/libbpfilter/matcher.c", "src/libbpfilter/pack.c"]}
{"id": "C23", "title": "Corrupt serialised data is refused, never misread", "statement": "Unpacking an object tree with a missing key, a wrong type, an out-of-range enum or an element of the wrong size returns an error and creates nothing.", "quantifier": "all object trees", "why_tests_cant": "unbounded malformed inputs", "anchors": ["src/libbpfilter/pack.c", "src/libbpfilter/rule.c:bf_rule_new_from_pack", "src/libbpfilter/set.c:bf_set_new_from_pack"]}
{"id": "C24", "title": "Hook options", "statement": "Validated hook options contain every option the flavor requires and none it does not support; parsing is independent of order and refuses duplicates; packing round-trips; Netfilter priorities are distinct and positive.", "quantifier": "all option lists, all hooks", "why_tests_cant": "the claim ranges over an unbounded set of inputs, so any test suite only samples it", "anchors": ["src/libbpfilter/hook.c"]}
{"id": "C25", "title": "Lock compatibility", "statement": "In every interleaving of any number of processes, a WRITE holder of a directory excludes every other READ or WRITE holder of the same directory; two operations mutating the same chain, or a mutator and a reader of the same chain, never overlap.", "quantifier": "all interleavings of any number of processes, crashes included", "why_tests_cant": "schedules are unbounded", "anchors": ["src/libbpfilter/core/lock.c", "src/libbpfilter/cli.c"]}
{"id": "C26", "title": "Chain creation is atomic and exclusive", "statement": "Among any number of concurrent creators of a name at most one succeeds; the directory becomes visible under its name only when already locked by its creator; a losing creator never removes the winner directory.", "quantifier": "all interleavings", "why_tests_cant": "races between mkdir/flock/rename", "anchors": ["src/libbpfilter/core/lock.c:_bf_lock_stage_and_publish"]}
{"id": "C27", "title": "An acquired chain lock is on the live directory", "statement": "When bf_lock_acquire_chain succeeds without create, the locked directory is the one currently bound to the name, and it stays bound until released if the caller excludes removers.", "quantifier": "all interleavings", "why_tests_cant": "unlink+recreate race between openat and flock", "anchors": ["src/libbpfilter/core/lock.c:_bf_lock_open_existing"]}
{"id": "C28", "title": "Crash consistency of the pin directory", "statement": "At every crash point of bf_chain_load / bf_chain_set / bf_chain_attach / bf_chain_update / bf_chain_flush, what a later process restores for the chain name is a complete chain description whose program, maps and link are all pinned, or no chain.", "quantifier": "all crash points of all operations", "why_tests_cant": "crash points x operations x failing system calls", "anchors": ["src/libbpfilter/cgen/cgen.c", "src/libbpfilter/cgen/handle.c", "src/libbpfilter/cli.c"]}
{"id": "C29", "title": "Updating a chain never leaves the hook unfiltered", "statement": "At every instant (crash points excluded) during a successful or failed bf_chain_update the hook executes either the old or the new program, never none.", "quantifier": "all failure points of update, all flavors", "why_tests_cant": "every intermediate state must be examined", "anchors": ["src/libbpfilter/cgen/cgen.c:bf_cgen_update", "src/libbpfilter/cgen/prog/link.c:bf_link_update"]}
{"id": "C30", "title": "bf_chain_update_set applies (S + A) - R", "statement": "After a successful bf_chain_update_set the set content is (old + added) - removed, other sets, rules and policy are unchanged, and the running program filters according to the new content.", "quantifier": "all set contents", "why_tests_cant": "the claim ranges over an unbounded set of inputs, so any test suite only samples it", "anchors": ["src/libbpfilter/cli.c:bf_chain_update_set", "src/libbpfilter/set.c:bf_set_add_many", "src/libbpfilter/set.c:bf_set_remove_many"]}
{"id": "C31", "title": "Counters survive a set update", "statement": "bf_chain_update_set preserves the value of every rule, policy and error counter; a plain bf_chain_update restarts them from zero.", "quantifier": "all counter values, all rule counts", "why_tests_cant": "the claim ranges over an unbounded set of inputs, so any test suite only samples it", "anchors": ["src/libbpfilter/cgen/cgen.c:bf_cgen_update", "src/libbpfilter/cgen/cgen.c:_bf_cgen_transfer_counters"]}
{"id": "C32", "title": "Counter lookup addresses the right counter", "statement": "bf_cgen_get_counter/bf_cgen_load_counters return for rule i, POLICY and ERRORS the sum over CPUs of the slot the program updates, and refuse other indices.", "quantifier": "all chains, indices, per-cpu values", "why_tests_cant": "the claim ranges over an unbounded set of inputs, so any test suite only samples it", "anchors": ["src/libbpfilter/cgen/cgen.c:bf_cgen_get_counter", "src/libbpfilter/cgen/handle.c:bf_handle_get_counter"]}
{"id": "C33", "title": "Replacing a chain is all-or-nothing", "statement": "If bf_chain_set or bf_ruleset_set fails, the previous chain(s) are still loaded and attached.", "quantifier": "all failure points", "why_tests_cant": "the claim ranges over an unbounded set of inputs, so any test suite only samples it", "anchors": ["src/libbpfilter/cli.c:bf_chain_set", "src/libbpfilter/cli.c:bf_ruleset_set"]}
{"id": "C34", "title": "Load or attach failure leaves nothing behind", "statement": "If bf_chain_load / bf_chain_attach fails, pins and links created by the call are removed and the name can be used again.", "quantifier": "all failure points", "why_tests_cant": "the claim ranges over an unbounded set of inputs, so any test suite only samples it", "anchors": ["src/libbpfilter/cgen/cgen.c", "src/libbpfilter/cgen/handle.c:bf_handle_pin"]}
{"id": "C35", "title": "String helpers are bounded", "statement": "bf_strncpy always NUL-terminates within the destination, copies the longest prefix that fits and reports truncation; trim functions remove exactly the surrounding blanks.", "quantifier": "all strings, all sizes", "why_tests_cant": "off-by-one at each size", "anchors": ["src/libbpfilter/helper.c"]}
{"id": "C36", "title": "Protocol dispatch switch", "statement": "The code emitted by bf_swich runs exactly the body of the first option equal to the register, or the default body, or nothing.", "quantifier": "all option lists, all values", "why_tests_cant": "unbounded options, jump offsets", "anchors": ["src/libbpfilter/cgen/swich.c"]}
{"id": "C37", "title": "Generated programs terminate and jump in bounds", "statement": "Every jump of a generated program goes forward to an instruction of the program or to its end; every execution ends within as many steps as there are instructions.", "quantifier": "all chains (below the 16 bit offset limit), all packets", "why_tests_cant": "unbounded programs", "anchors": ["src/libbpfilter/cgen/program.c", "src/libbpfilter/cgen/jmp.c", "src/libbpfilter/cgen/fixup.c"]}
{"id": "C38", "title": "Packet fields are copied byte-exactly into set keys", "statement": "The load stub copies size bytes at the field offset to the scratch key unchanged and touches no other byte, for every size and alignment.", "quantifier": "all sizes, offsets", "why_tests_cant": "the claim ranges over an unbounded set of inputs, so any test suite only samples it", "anchors": ["src/libbpfilter/cgen/stub.c:bf_stub_load", "src/libbpfilter/cgen/stub.c:bf_stub_stx_payload"]}
{"id": "C39", "title": "Flow hash is a function of the flow and flow probability is stable", "statement": "meta.flow_probability gives the same decision for every packet of the same flow and approximates threshold semantics: match iff hash <= threshold.", "quantifier": "all flows, all thresholds", "why_tests_cant": "the claim ranges over an unbounded set of inputs, so any test suite only samples it", "anchors": ["src/libbpfilter/bpf/flow_hash.bpf.c", "src/libbpfilter/cgen/matcher/meta.c"]}
{"id": "C40", "title": "Probability matcher", "statement": "meta.probability p matches iff the drawn 32 bit random number is at most the threshold for p, for every p in 0..100.", "quantifier": "all thresholds, all random draws", "why_tests_cant": "the claim ranges over an unbounded set of inputs, so any test suite only samples it", "anchors": ["src/libbpfilter/cgen/matcher/meta.c:_bf_matcher_meta_generate_probability"]}
{"id": "C41", "title": "Interface matcher", "statement": "meta.iface i matches iff the packet interface index is i.", "quantifier": "all interface indices", "why_tests_cant": "indices above 65535", "anchors": ["src/libbpfilter/cgen/matcher/meta.c"]}
{"id": "C42", "title": "Protocol-independent ports", "statement": "meta.sport/dport compare the TCP or UDP port of the packet (eq and range) and do not match other protocols.", "quantifier": "all packets and ports", "why_tests_cant": "the claim ranges over an unbounded set of inputs, so any test suite only samples it", "anchors": ["src/libbpfilter/cgen/matcher/meta.c"]}
{"id": "C43", "title": "Enum and string conversions are inverse", "statement": "to_str / from_str for hooks, verdicts, redirect directions, matcher types and operators are inverse on valid values and from_str refuses every other string.", "quantifier": "all strings", "why_tests_cant": "infinitely many strings", "anchors": ["src/libbpfilter/hook.c", "src/libbpfilter/verdict.c", "src/libbpfilter/matcher.c"]}
{"id": "C44", "title": "Ruleset flush and replacement are exact", "statement": "When bf_ruleset_flush reports success, no chain remains pinned. When bf_ruleset_set reports success, the chains pinned are exactly the given ones, with the given options; when it fails, none of them is left.", "quantifier": "all rulesets", "why_tests_cant": "the claim ranges over an unbounded set of inputs, so any test suite only samples it", "anchors": ["src/libbpfilter/cli.c"]}
{"id": "C45", "title": "Prefix and port parsing", "statement": "Parsing of ports, port ranges and prefix lengths accepts exactly in-range values, refuses overflow and inverted ranges, and stores the parsed value in the byte order the generated code expects.", "quantifier": "all strings", "why_tests_cant": "the claim ranges over an unbounded set of inputs, so any test suite only samples it", "anchors": ["src/libbpfilter/matcher.c"]}
{"id": "C46", "title": "Staging directories are recovered", "statement": "An orphan staging directory left by a crash is never visible as a chain and is removed by the next context setup unless its creator is alive.", "quantifier": "all crash points", "why_tests_cant": "the claim ranges over an unbounded set of inputs, so any test suite only samples it", "anchors": ["src/libbpfilter/ctx.c:_bf_ctx_sweep_staging", "src/libbpfilter/core/lock.c"]}
{"id": "C47", "title": "Set construction", "statement": "bf_set_new / add_elem / add_many / remove_many keep element sizes consistent, refuse mismatching keys and too many components, and never combine networks with other components.", "quantifier": "all keys and elements", "why_tests_cant": "the claim ranges over an unbounded set of inputs, so any test suite only samples it", "anchors": ["src/libbpfilter/set.c"]}
{"id": "C48", "title": "Serialisation buffer", "statement": "The write buffer of bf_wpack contains exactly the concatenation of the flushed chunks for any sequence of flushes.", "quantifier": "all chunk sequences", "why_tests_cant": "capacity doubling boundaries", "anchors": ["src/libbpfilter/pack.c:_bf_wpack_writer_flush_cb"]}
{"id": "C49", "title": "Accepted chains can be loaded", "statement": "Every chain that bf_chain_new accepts, for any hook, compiles to a program (redirections that the hook can not perform excepted), and that program meets the conditions under which the packet properties hold.", "quantifier": "all sets, rules and hooks", "why_tests_cant": "the generator must not fail on any combination of matchers, operators, sets and hooks", "anchors": ["src/libbpfilter/chain.c:bf_chain_new", "src/libbpfilter/cgen/program.c:bf_program_generate"]}
{"id": "C50", "title": "Success means loaded and attached", "statement": "If bf_chain_load, bf_chain_attach or bf_chain_set returns success, the chain is stored under its name with its program, maps and counters, and if hook options were given it is attached at the place that they name, with a live link of that program.", "quantifier": "all chains, options, previous states, failing system calls", "why_tests_cant": "a success return on a path where one of dozens of system calls failed leaves a host unfiltered", "anchors": ["src/libbpfilter/cli.c:bf_chain_set", "src/libbpfilter/cli.c:bf_chain_attach", "src/libbpfilter/cgen/prog/link.c:bf_link_new"]}
{"id": "C51", "title": "A name can be used again after a crash", "statement": "After any history of calls, of processes that may have died anywhere, bf_chain_set of a valid chain succeeds when the system calls do.", "quantifier": "all histories and crash points", "why_tests_cant": "crash points x histories", "anchors": ["src/libbpfilter/cli.c:bf_chain_set", "src/libbpfilter/core/lock.c", "src/libbpfilter/cgen/cgen.c"]}
{"id": "C52", "title": "Loading a valid chain succeeds", "statement": "On a machine where nobody is at work and the name is free, bf_chain_load of a chain accepted by bf_chain_new whose program can be generated succeeds if the system calls and allocations do.", "quantifier": "all chains, all histories before", "why_tests_cant": "all histories", "anchors": ["src/libbpfilter/cli.c:bf_chain_load", "src/libbpfilter/cgen/cgen.c:bf_cgen_load"]}
{"id": "C53", "title": "Chains are independent", "statement": "A call about one chain, wherever it is stopped and whatever fails, does not change another chain: not its name, directory, pins, program, maps, counters or links.", "quantifier": "all calls, all other chains, all crash and failure points", "why_tests_cant": "all histories and crash points", "anchors": ["src/libbpfilter/cli.c", "src/libbpfilter/core/lock.c", "src/libbpfilter/cgen/cgen.c"]}
{"id": "C54", "title": "bf_chain_flush removes the chain", "statement": "If bf_chain_flush succeeds, the links of the chain are detached, its pins are removed, its directory is removed unless it holds something else, and no descriptor stays open.", "quantifier": "all chains, histories and failing system calls", "why_tests_cant": "failure points of the unload path", "anchors": ["src/libbpfilter/cli.c:bf_chain_flush", "src/libbpfilter/cgen/cgen.c:bf_cgen_unload", "src/libbpfilter/cgen/handle.c:bf_handle_unload"]}
{"id": "C55", "title": "An updated chain stays at the hook it names", "statement": "After a successful bf_chain_update of an attached chain, the link of the chain is at the hook that the stored definition names.", "quantifier": "all chains and hooks, all histories before", "why_tests_cant": "pairs of hooks of the same program type behave differently from pairs of different types", "anchors": ["src/libbpfilter/cli.c:bf_chain_update", "src/libbpfilter/cgen/cgen.c:bf_cgen_update"]}
{"id": "C56", "title": "Updating a loaded chain succeeds", "statement": "On a machine where nobody is at work, bf_chain_update of a loaded or attached chain with another valid chain for the same hook succeeds if the system calls and allocations do.", "quantifier": "all chains, all histories before", "why_tests_cant": "all histories", "anchors": ["src/libbpfilter/cli.c:bf_chain_update", "src/libbpfilter/cgen/cgen.c:bf_cgen_update"]}
{"id": "C57", "title": "Socket hooks filter the operation", "statement": "At the connect4, connect6, sendmsg4 and sendmsg6 cgroup hooks, every connect() or sendmsg() gets a verdict; the matchers available there compare the destination and source addresses, the destination port and the protocol of the call, and nothing else; log entries describe the call, packet counters count it, byte counters do not move.", "quantifier": "all chains at these hooks, all operations, all histories", "why_tests_cant": "the context has no packet: narrow loads, missing sources and the address family of the socket make corner cases", "anchors": ["src/libbpfilter/cgen/cgroup_sock_addr.c", "src/libbpfilter/matcher.c", "src/libbpfilter/bpf/sock_addr_log.bpf.c"]}
{"id": "C58", "title": "Serialised bytes", "statement": "The bytes that a chain is stored as are a MessagePack object and read back as the same chain. Reading accepts exactly the MessagePack objects without extension types; any other bytes, in particular data that was cut short, are refused with EINVAL and no byte outside of the data is read; no bytes have two readings.", "quantifier": "all byte strings, all objects, all chains", "why_tests_cant": "all byte strings, nested to any depth", "anchors": ["src/external/mpack.c:mpack_tree_parse", "src/libbpfilter/pack.c:bf_rpack_new", "src/libbpfilter/pack.c:bf_wpack_get_data", "src/libbpfilter/chain.c:bf_chain_pack", "src/libbpfilter/chain.c:bf_chain_new_from_pack"]}
{"id": "C59", "title": "Sets written as text", "statement": "A set made from the text of a key and the text of its elements has the key that is named and holds the elements that are written, each once, in order, and no other; blanks around names, elements and values do not matter. Texts that describe no set are refused with EINVAL, E2BIG or ENOTSUP. A value means the same in a set and in a matcher. The call always returns.", "quantifier": "all texts, all allocation failures", "why_tests_cant": "all texts: separators, blanks and numbers combine without bound", "anchors": ["src/libbpfilter/set.c:bf_set_new_from_raw", "src/libbpfilter/set.c:bf_set_add_elem_raw"]}
{"id": "C60", "title": "Rulesets written as text", "statement": "The chains that bfcli makes from the tokens of a ruleset are the chains that are written: the hook, policy and options that are named, the sets that are declared followed by one set per literal, the rules in order, each with its matchers (negated when \"not\" is written, equality when no operator is, membership in the first set of that name or in the literal), at most one log, counter and mark, and the verdict or redirection. No text has two readings. Texts whose chains the hook can run are accepted. \"mark N\" marks with N and \"every N unit\" means N units.", "quantifier": "all token lists, all layouts of the allocator, all answers of the machine (interfaces)", "why_tests_cant": "the grammar is recursive: rules, sets and options combine without bound", "anchors": ["src/bfcli/parser.y", "src/bfcli/helper.c:bfc_parse_str", "src/libbpfilter/chain.c:bf_chain_new"]}
{"id": "C61", "title": "What bfcli shows can be written", "statement": "The text that bfcli shows for the value of a matcher, a set, a log rate, a mark, log headers, a redirection target and hook options is a text that bfcli reads back as the same value, in the same environment.", "quantifier": "all matchers, sets and options made from text, all machines whose name and address functions are inverse to each other", "why_tests_cant": "all values of all matcher types, all sets", "anchors": ["src/libbpfilter/matcher.c:_bf_print_*", "src/bfcli/print.c", "src/libbpfilter/matcher.c:_bf_parse_*"]}
{"id": "C62", "title": "From characters to chains", "statement": "Every text has exactly one sequence of tokens: at each point the longest match of the rules of lexer.l, the first rule among those of that length. A ruleset whose words are spelled right is read as the chains that are written, however it is laid out: blanks, ends of lines and comments only separate words. Nothing of a ruleset that is accepted is left out.", "quantifier": "all texts; all rulesets and all their layouts", "why_tests_cant": "words, payloads, comments and layouts are unbounded, and the start condition makes the meaning of a word depend on everything before it", "anchors": ["src/bfcli/lexer.l", "src/bfcli/parser.y", "src/bfcli/helper.c:bfc_parse_file"]}
{"id": "C63", "title": "What a program refers to", "statement": "In a program given to the kernel every instruction is the one that was generated: a jump to the next rule goes to the end of its own rule, the load of a map has that map, the call of a helper stub goes to the first instruction of that stub, which is there in full and once, and a message that is printed is at the place and of the length the instructions say, in a buffer without uninitialised bytes. Putting a program together succeeds when what it refers to exists, and otherwise is refused.", "quantifier": "all sequences of instructions, rule ends, stub calls, map loads and messages; all sets of stubs and their strings; the programs of all chains", "why_tests_cant": "the places depend on everything emitted before and after; a wrong place shows only for the right number of rules, stubs and messages", "anchors": ["src/libbpfilter/cgen/program.c:_bf_program_fixup", "src/libbpfilter/cgen/program.c:_bf_program_generate_elfstubs", "src/libbpfilter/cgen/program.c:_bf_program_load_printer_map", "src/libbpfilter/cgen/printer.c"]}
{"id": "C64", "title": "What a bfcli command does", "statement": "Each bfcli command accepts exactly the options of its usage, requires the ones it needs and refuses --from-str together with --from-file; the last argument of a repeated option counts, --option, --add and --remove add up. A refused command line, a source that does not parse, a name the source does not define, and --dry-run change nothing. Otherwise the command makes exactly one change, the one it is named after: on the only chain of the source, the first of that name, or the chain named; update-set edits the named set by the elements that the texts describe. A ruleset given on the command line to chain set ends up loaded and attached as written.", "quantifier": "all command lines (as lists of options with arguments), all files, all histories of the machine, failing system calls", "why_tests_cant": "options combine without bound and what a command does depends on the whole history of the machine", "anchors": ["src/bfcli/opts.c", "src/bfcli/chain.c", "src/bfcli/ruleset.c", "src/bfcli/main.c", "src/bfcli/helper.c"]}
