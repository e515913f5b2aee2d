# Formal model of facebook/bpfilter in Rocq (Coq 8.16.1)

bpfilter is a compiler and a control plane.  The compiler turns a *chain*
(ordered rules, named sets, a default policy, a hook) into one eBPF program; the
control plane (`bf_chain_*`, `bf_ruleset_*`) keeps chains as pinned objects below
a bpffs directory.  The model follows that split:

* the **data plane**: an executable eBPF machine, the code generator written as a
  total Gallina function that emits the same instruction sequences as
  `src/libbpfilter/cgen/**`, and a separate packet-level reference semantics that
  never mentions instructions.  The main theorems say that running the generated
  program on any packet gives what the reference semantics gives;
* the **control plane**: state machines for locks, pin directories, cgen/handle/cli
  operations, with crash and failure points as explicit inputs;
* the **libraries** they depend on: hashset, list, vector, helper strings, packs,
  sets, chain validation, parsers.

## Layout

`rocq/theories/`, for a topic X: `XModel.v` (definitions that follow /repo, each
with file:line citations, no proofs), `XSpec.v` (specification with no reference
to model helpers; small topics state it at the top of the properties file),
`XProofs.v` (lemmas), and the properties files, in which each theorem is stated
in full, proved by `exact`, followed by `Print Assumptions` and by an `Example`
that shows a concrete case meeting the hypotheses.

Naming: `Cnn_...` for a proved property; suffix `_partial` when only part of the
property is proved (the missing part is said beside it); suffix `_refuted` when
the code violates the property and the theorem proves the violation on the model.

## What is modelled and how each property is proved

| id | model | proof |
|----|-------|-------|
| C01-C05, C16-C18 | eBPF machine (`Bpf*.v`), code generator (`Gen*.v`) for program.c, packet.c, meta.c, cmp.c, set.c, stub.c, flavour files; packet-level spec (`PktSpec.v`) | simulation: each emitted fragment reaches "next" or "next rule" exactly when the spec condition says so; induction over matchers and rules |
| C06-C12, C40-C42 | the same, one lemma per matcher | byte/bit arithmetic on the fragment lemmas |
| C13 | cgen.c `_bf_cgen_load_set_group`, `_bf_cgen_get_set_...` grouping and bit masks | induction over the sets of a group |
| C14 | hashset.c as written (open buckets, ordered list) | refinement to a duplicate-free insertion-ordered list |
| C15 | list.c, vector.c | refinement to lists, with arbitrary allocation failure |
| C19 | parse_ipv6_eh/nh stubs + stub.c dispatch | reference EH walk; bit mask defect shown as `_refuted` |
| C20, C21 | chain.c/rule.c/set.c validation | induction over rules/matchers |
| C22, C23, C48 | pack.c and the pack/new_from_pack pairs of chain, rule, matcher, set, hookopts over a msgpack tree | structural induction, round trip; type-error totality |
| C24 | hook.c options parser | case analysis over options and flavours |
| C25-C27, C46 | lock.c as a transition system over interleavings of processes | inductive invariants |
| C28, C29, C33, C34, C44 | cgen.c/handle.c/cli.c as step lists over a pin directory with a crash or failure after any step | invariants over every prefix of steps |
| C30-C32 | chain.c/cgen.c/cli.c update-set and counter paths | set algebra, index arithmetic |
| C35, C43, C45 | helper.c strings, enum tables, port/prefix parsers | induction over strings; exhaustive case analysis on finite enums |
| C36 | swich.c | fragment lemma on the machine |
| C37 | whole program: forward jumps only | measure on the program counter |
| C38 | stub.c `bf_stub_load` | machine lemma, all offsets and sizes |
| C39 | flow hash stub | function of the 5-tuple |
| C47 | set.c (`bf_set_new`, add/remove one, add/remove many) over the pointer-level hash set | refinement to duplicate-free lists, every allocator behaviour |
| C49 | validation (`ChainModel.v`) + generator (`GenModel.v`) + map loader (`MapModel.v`) | every accepted chain meets the hypotheses of the compilation theorem; generation is total on them |
| C50, C52, C54 | `CtlModel.v` run to its end from any state meeting the stated facts | Hoare-style rules for programs of system calls (`SeqFacts.v`), with an invariant at every stop |
| C51, C53 | the same, every stop, after every history | directory-wise frame: a call only writes below the directory of its own chain |
| C55, C56 | `bf_chain_update`, `bf_chain_update_set` | as C29-C31 |
| C57 | cgroup_sock_addr.c and sock_addr_log.bpf.c on the same machine, context = struct bpf_sock_addr | the simulation of C01, with the operation presented as a packet view; loads checked against the kernel's access rules |
| C58 | mpack's writer and tree parser on byte lists | induction on the format: the parser's explicit stack is related to the grammar `msgpack` of MpackSpec.v in both directions; the writer produces that grammar |
| C59 | bf_set_new_from_raw and bf_set_add_elem_raw on strings, with strtok_r, the value parsers and the hash set | soundness by induction on the rounds of the loop against the pieces of the text (SetTextSpec.v); completeness, outcomes and the endless loop of F5 the same way |
| C60 | bfcli's parser.y from tokens to chains, _parse_log_rate in binary64 | RulesTextSpec.v gives sentences, their tokens and their meaning; soundness by induction on the fuel of each non-terminal, unambiguity by induction on the sentences, completeness by induction on the sentences; whole rates by exactness of 53-bit operations |
| C61 | the printers of matcher.c and the pieces of print.c against the parsers of matcher.c, set.c, hook.c and parser.y | each printer is a right inverse of its parser on the parser's range (`back`): digits by induction, named bytes and TCP flags by computing all 256 cases; sets by reading the printed pieces (SetTextSpec) and C59; percentages up to two decimals by computing all cases, which is all there is |
| C62 | lexer.l, rule by rule with start conditions, against an inductive semantics of patterns and of flex (`matches`, `chosen`, `scans`); the words of a sentence and their layouts (`chain_spelled`, `laid_out`) | derivatives are exact for `matches`, so `longest` is the longest match and `best` the first rule of that length; for words, a computed check over the rules of a state says which of them a word of a class can be; the state is carried through sentences by induction (`runs`); composed with C60. Refuted: what follows a non-ASCII character is dropped (F51), interface names (F52) |
| C63 | `link`: emissions, fixup passes, stub placement, printer, against a layout that says what each instruction stands for (`layout`, `means`) | an invariant relates a list of references to the image, the open fixups and the messages (`Inv`); a pass resolves exactly its kind; rule ends resolve the open jumps by distance; stub strings overwrite instructions without fixups; the programs of GenModel are Forall2-related to the layout of their emissions. Refuted: a rule of more than 32767 instructions, with and without assertions (F53) |
| C64 | `bfcli`: option parsing, choice of the chain, library calls, over the control plane of CtlModel | CliSpec.v says which options a command takes and what they mean (`acceptable`, `means_opts`, `meant`) without the loop; induction on the option list; `ends` of the command is decomposed into the library call; update-set texts by C59's `element`; chain set composed with C62 and C50 |

Simplifications are said in the comment above each definition and summarised in
"Model notes" below.

## Trusted base

* Coq 8.16.1's kernel (and `vm_compute` where used for closed computations).
* `Print Assumptions` is run after each theorem in the properties files.  No
  axiom is used by any theorem: each one is "Closed under the global context".
* The standard library modules that the files load contain axioms which no
  theorem here depends on; a whole-development check (`coqchk`, `vcheck`) lists
  them: the seven parameters of `Coq.ssr.ssrunder` (`Under_rel.Under_rel`,
  `Under_relE`, `Under_rel_from_rel`, `under_rel_done`, `Over_rel`, `over_rel`,
  `over_rel_done`), the standard library's opaque interface of the `under` tactic.
* The correspondence between /repo and the `*Model.v` files: by reading.  Every
  definition cites the lines it models.
* The eBPF machine's instruction semantics follow the kernel's
  `Documentation/bpf/standardization/instruction-set.rst`; helpers and kfuncs
  are modelled by their documented behaviour.

## Model notes

Files of the model, with what they cover.  "As written" means function by function,
with the same order of effects and the same error codes.

| file | /repo (below src/libbpfilter unless said) | how |
|------|-------|-----|
| `Bytes.v`, `Types.v`, `World.v` | hook.h, verdict.h, matcher.h, rule.h, chain.h, set.h | data types; the world a program sees (time, random numbers, maps' contents, published logs) |
| `BpfModel.v` | bpf/*.bpf.c (ELF stubs), the kernel's eBPF machine | executable machine; pointers symbolic, kernel structures by field name; what the verifier would refuse is the outcome `XErr`; little-endian host |
| `GenModel.v` | cgen/matcher/{cmp,meta,set}.c, cgen/{packet,stub,swich,jmp,xdp,tc,nf,cgroup_skb,cgroup_sock_addr}.c, generation half of cgen/program.c | as written; a generator returns its instructions; fixups are resolved at the end of the rule; EMIT_PRINT left out |
| `MapModel.v` | cgen/program.c `_bf_program_load_sets_maps` | as written |
| `ViewModel.v`, `PktSpec.v`, `ViewSpec.v`, `EvalSpec.v`, `WalkSpec.v`, `SockSpec.v` | - | the packet-level specification: no instruction, no register |
| `ChainModel.v` | chain.c, the checks of rule.c/matcher.c | as written |
| `HashModel.v`, `ListModel.v`, `VecModel.v`, `SetModel.v` | core/{hashset,list,vector}.c, set.c | down to pointers, slots, size_t arithmetic; an access outside a live block is the outcome `Er EUB`; the allocator is an argument |
| `StrModel.v`, `EnumModel.v`, `ParseModel.v` | helper.c, the tables of hook.c/verdict.c/rule.c/matcher.c, the payload parsers of matcher.c | buffers with bounds; inet_pton(AF_INET6), strtod and if_nametoindex are arguments |
| `PackModel.v`, `WpackModel.v`, `HookModel.v` | pack.c, `*_pack`/`*_new_from_pack`, hook.c | MessagePack trees; byte buffer of the writer |
| `MpackModel.v` | external/mpack.c (writer, tree parser) | bytes; the builder's pages are one buffer, allocations of the parser succeed, a float or double is `NOther` |
| `SetTextModel.v` | set.c:117-274 | strings by value; strdup succeeds |
| `RulesTextModel.v` | bfcli/parser.y, helper.c:38-90 | tokens; a recursive descent instead of the LALR automaton (the grammar has no conflict); strdup, calloc and list nodes succeed |
| `RateModel.v` | bfcli/parser.y:75-107 | doubles are Coq.Floats.SpecFloat (binary64, ties to even, no primitive floats); strtod on the texts that can follow `every` |
| `PrintModel.v` | matcher.c:121-803 (print members of the ops table), bfcli/print.c:96-300 | what goes to stdout, as strings; if_indextoname and inet_ntop(AF_INET6) are parameters, related to their inverses by PrintSpec.consistent; the layout of a whole chain is not modelled |
| `PercentModel.v` | matcher.c:376-409 | float and double are SpecFloat; %g with six digits; texts without a sign |
| `LexModel.v` | bfcli/lexer.l:22-295 | patterns are regular expressions, matched with derivatives; flex's tables, buffers and its default rule are not modelled; chars are signed |
| `AsmModel.v` | cgen/program.c:379-477, 660-813, 906-995, cgen/printer.c:268-372, printer.h:68-92 | struct bpf_insn as five fields; ELF parsing (elfstub.c) is not modelled: a stub is its instructions and its string loads; allocation failures left out; whether assertions are compiled in is a parameter (`e_debug`): aborts with them, wrapped 16- and 32-bit fields without; a set reference is named by its group |
| `CliModel.v` | bfcli/opts.c:138-299, 407-695, chain.c, ruleset.c, main.c:36-61, helper.c:33-88 | argp's splitting of argv and the options that print and exit are not modelled: a command line is a command and a list of options with arguments; --from-str and --from-file have one id for rulesets and chains; strdup, malloc succeed; files are a function from names to contents; bf_ctx_setup and printing left out |
| `KernModel.v` | - | the kernel as the control plane sees it: one bpffs mount, a pin directory, flock, rename, BPF object descriptors, pins, links at hooks, maps.  Numbers of descriptors, directories and objects are never reused; readdir is a snapshot |
| `LockModel.v` | core/lock.c, io.c | as written, as a tree of system calls |
| `CtlModel.v` | cgen/prog/{link,map}.c, cgen/handle.c, cgen/cgen.c, loader of cgen/program.c, ctx.c, cli.c | as written, as a tree of system calls; automatic cleanup written out |
| `SysSpec.v` | bpfilter.h | processes that interleave, fail and die between any two system calls |

Executions of the control plane are quantified in two ways.  `reachable` (C25-C27,
C46): any number of processes, any interleaving, any failure, any death.
`stops`/`ends`/`history` (C28-C34, C50-C56): one call after another, each of which may
be stopped at any system call and be given any failure allowed by the environment
argument, with no bound on the number of calls.  C25_operation_atomic is the bridge: the
operations on one chain do not interleave.

Hypotheses that recur in the statements:

* `storable`, `generous`: a chain's strings and payloads can be packed, and the
  allocator gives memory when it is asked to (failures of the allocator inside a copy
  are the argument `mem`);
* `spared F` (C29-C31, C55): the environment `F` does not make fail the calls whose
  failure bf_chain_update does not undo; without it the property is false
  (C29_pin_refuted);
* `deployed` (data plane): the program is the one generated for the chain, rules have
  at most 100 matchers (F7) and set keys at most 64 bytes (F29); `accepted_deploys`
  shows it for every chain that bf_chain_new accepts;
* `quirk_free`: the chain uses none of the matchers of findings F2, F3, F8 and F45;
* `sock_ctx` (in `wf_env`): the context of a socket hook is a struct bpf_sock_addr of 72
  bytes whose protocol is below 256 (F43).

## Findings

Deviations of the code from what it documents, found while modelling.  Each one that
is inside the model has a theorem `_refuted` (an execution of the model, as concrete as
it can be) next to the proved part.

| finding | where | theorem |
|---------|-------|---------|
| F1 wrong bit mask of IPv6 extension headers: a first header of type 43, 44 or 51 hides the transport header | cgen/stub.c:36 | C19_first_header_refuted |
| F2 meta.probability above 50% always matches (signed 64-bit comparison) | cgen/matcher/meta.c:51 | C40_probability_refuted |
| F3 meta.iface compares 16 bits | cgen/matcher/meta.c | C41_iface_refuted |
| F6 more than 6 extension headers, reserved octet of the fragment header used as a length | bpf/parse_ipv6_*.bpf.c | C19_seven_headers_refuted, C19_reserved_octet_refuted |
| F7 16-bit jump offsets | cgen/program.c | C37_jumps_of_long_rules_refuted |
| F8 port 0 never matches meta.sport/dport, even negated | cgen/matcher/meta.c | C42_port_zero_refuted |
| F14 a crash in bf_chain_update leaves the old description with the new handle | cgen/cgen.c | C28_update_refuted |
| F15 bf_chain_update removes the old pins before it makes the new ones | cgen/cgen.c | C29_pin_refuted |
| F16 adding elements to an empty set leaves its rules disabled | cli.c:496-540 | C30_empty_set_refuted |
| F17 bf_chain_set removes the old chain before it builds the new one, bf_ruleset_set all of them | cli.c | C33_set_refuted, C33_ruleset_refuted |
| F18, F40 a crash between pinning and storing the description wedges the name | cgen/cgen.c | C51_crash_refuted |
| F21 family= may be given twice and is not recorded; ifindex=abc is 0 | hook.c | C24_duplicate_family_refuted, C24_not_a_number_refuted |
| F26, F37 payload sizes of unserialised matchers are not checked, an empty one aborts | matcher.c | C23_payload_size_refuted, C23_empty_payload_refuted |
| F30 a rule with a negated empty set is disabled although it matches | chain.c | C20_negated_empty_set_refuted |
| F31 bf_swich without default falls into the first body | cgen/swich.c | C36_switch_without_default_refuted |
| F34, F36 port and prefix parsers accept empty, signed and wrapped texts | matcher.c | C45_*_refuted |
| F38 the flush callback of the pack writer ignores a failed realloc | pack.c:13-44 | C48_no_memory_refuted |
| F39 bf_link_new returns a positive errno for a cgroup that cannot be opened | cgen/prog/link.c | C50_cgroup_refuted |
| F41 bf_chain_update does not compare the hooks | cgen/cgen.c | C55_hook_refuted |
| F42 bf_ruleset_flush skips chains it can not restore and reports success | cli.c, core/ctx.c | C44_flush_refuted |
| F43 protocol 262 (Multipath TCP) is compared whole by ip4.proto, by its low byte in sets | cgen/cgroup_sock_addr.c | C57_multipath_refuted |
| F44 IPv4-mapped destinations at sendmsg4 have family AF_INET6: ip4.* never match | cgen/cgroup_sock_addr.c | C57_mapped_address_refuted |
| F5 bf_set_new_from_raw never returns when its payload starts with a blank piece | set.c | C59_blank_start_refuted |
| F45 meta.dport is compared whatever the protocol on socket hooks | cgen/cgroup_sock_addr.c | C57_meta_port_refuted |
| F46 the largest rates of `log every` pass the range check and are converted to uint64_t although they are 2^64 | bfcli/parser.y | C60_rate_undefined_refuted |
| F47 `+ 0.5` moves whole rates between 2^52 and 2^53 ns to the next even number | bfcli/parser.y | C60_rate_rounded_refuted |
| F48 an empty set is shown as `{`, newline, `    }`, which bf_set_new_from_raw never finishes to read (F5) | bfcli/print.c, set.c | C61_empty_set_refuted |
| F49 an interface without a name is shown by its number, which reads as the interface that has this number for a name | matcher.c, if.c | C61_interface_number_refuted |
| F50 meta.probability is printed with %g: 99.99999% is shown as 100% | matcher.c | C61_percent_refuted |
| F51 a byte from 128 on, or a NUL, outside of comments and sets is returned as a char that is negative or 0; bison takes it for the end of the text, so the rest of the ruleset is dropped without an error | bfcli/lexer.l:295 | C62_dropped_refuted |
| F52 `meta.iface` takes letters, digits and `-` only: `eth0.100` and `veth_0` are syntax errors (REDIRECT takes `_`) | bfcli/lexer.l:129, 75 | C62_interface_refuted |
| F53 a rule whose code is longer than 32767 instructions is not refused: with assertions the daemon aborts; without them (CMake's default release build sets NDEBUG) the 16-bit jump offset wraps and the jump to the next rule goes backwards | cgen/program.c:386, 424-427 | C63_far_refuted, C63_jump_refuted |
| a user chain named like a staging directory is swept | core/lock.c | C46_user_chain_swept_refuted |
| bf_set_add_elem trusts the caller for the element's length | set.c | C47_short_element_refuted |

Seen while reading, outside the model: F4 (parse_l3 passes the L2 buffer to the slice),
F12 (uninitialised padding
in IPv6 prefix keys), F27 (pkt_log copies unset header slots).

## Not modelled

Host memory allocation except where failure is explicit in the model, the C
compiler, libbpf/BTF lookup of field offsets (taken as parameters), logging to
stderr, the layout of the text printer (bfcli print.c: lines, counters, elided sets), the tables of flex and bison (C62 and C60 model what they stand for), the pages of
mpack's builder (one buffer stands for them), bpf syscalls' kernel implementation
(modelled by their effect on pins and maps), the verifier.
