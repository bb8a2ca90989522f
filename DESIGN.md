# dump_syms in Rocq: design

(The per-property plan was written before the proofs; the sections from "Trusted
base" on are kept up to date as the development grows.)

## Shape of the development

`rocq/theories/`:

| layer | files | content |
|---|---|---|
| base | `Base.v`, `Str.v`, `Sort.v`, `BMap.v`, `Regex.v`, `Utf8.v` | result monad with `Ok / Err / Panic`, u32/u64 arithmetic in both overflow modes, Rust strings as lists of Unicode scalar values, stable sort, `BTreeMap` as strictly sorted association list |
| model | `M_*.v` | the code, function by function, each definition citing file:lines |
| spec | `S_*.v` | small independent specifications (address lookup, Breakpad parser, inline stack of debug info, ...) |
| proofs | `P_*.v` | lemmas |
| theorems | `T_*.v` | only the property theorems `Cnn_...`, closed by `exact`, with `Print Assumptions` and the non-vacuity examples |

Modelling conventions

* A panic (`unwrap`, slice index, `assert!`, arithmetic overflow with overflow
  checks on) is the value `Panic`; an `anyhow` error is `Err`.
* Arithmetic on u32/u64 takes a flag `ck`: `ck = true` is a build with overflow
  checks (debug/test profile), `ck = false` is the release/dist profile, where
  the operation wraps. Theorems are stated for both.
* `HashMap` iteration order, `sort_unstable` tie breaking, completion order of
  concurrent requests and thread schedules are universally quantified.
* External libraries (symbolic, goblin, regex captures, demangler, SHA-512,
  `fs::canonicalize`, cab, HTTP) are function arguments of the model (records of
  oracles), universally quantified in the theorems; nothing is assumed about
  them unless the theorem says so in a hypothesis.
* Host is Unix (`cfg(unix)`, `std::path` with `/`).

## Per-property plan

| id | what is modelled | how it is proved |
|---|---|---|
| C01 | `Lines` insertion API + `finalize` | induction over insertions (sorted-flag invariant), windows lemma |
| C02 | same + address lookup spec | from C01 by induction on the tiled list |
| C03 | `add_inline`, `ensure_order` dedup | coverage count invariant through the merging fold |
| C04 | `Display for Lines` | permutation + sortedness of the stable sort, non-empty range invariant |
| C05 | `add_*`, `finalize` | uniqueness of the sorted permutation with distinct keys |
| C06 | `collect_function(s)` | induction over the function list, `first`/`count` spec |
| C07-C09 | `collect_publics`, `collect_placeholder_functions` | induction over the list, per-step lemma |
| C10 | `is_inside_symbol` | characterisation of "last key below"; witnesses for the overflow modes |
| C11 | `add_executable_section_symbols`, `append_dummy_symbol_pe_pdb` | induction / case analysis |
| C12 | all symbol-table builders, merge | map invariant (sorted, key = rva) preserved by each step |
| C13 | `collect_function_with_inlines_recursive` | structural recursion (termination by construction), list prefix argument |
| C14 | same + finalisation + spec of inline stacks | nested induction over function trees; refutation for discontiguous inlinees; exact set of line records (`starts`) |
| C15 | same | refutation by witness; exact set of kept lines for calls that run over line ends (P_Overrun), by induction on the tree with the state of the skip loop |
| C16 | `collect_function_without_inlines` | lookup invariance under de-duplication |
| C17, C18 | `SourceFiles` | invariant over histories; refutation without pointer consistency |
| C19-C21 | `get_path`, `Platform`, `normalize_path` | list lemmas; refutations for empty directories / escaping relative paths |
| C22, C23 | `InlineOrigins`, `merge_inline_origins` | history invariant, index lemmas |
| C24-C30 | `ObjectInfo::merge` and helpers | invariants of fresh objects; refutations for three-way merges, placeholder FUNC |
| C31-C33 | `Display` implementations, Breakpad parser spec | round trip per record kind, then per file; refutation for newlines |
| C34-C36 | name parsing and fixing | string lemmas; regex by derivatives |
| C37-C39 | path mappings | tokeniser correctness, memo refinement |
| C40-C43 | symbol-server configuration (argument or `~/.dump_syms/config`), cache, probing | grammar lemmas, FS state machine, quantification over completion orders |
| C44, C45 | `store`, store path, the buffer of the writer | case analysis, injectivity; what a successful store needs of the file system; errors of the last flush go unnoticed |
| C46-C50 | worker protocol as a labelled transition system | inductive invariants over all reachable states; deadlock witnesses |
| C51-C53 | file selection | case analysis over oracle file system |
| C54 | CLI decisions | case analysis, regex language lemma |
| C55 | `from_object` | composition; the mapping is asked once for each entered path, so a panic of the mapping is decided by the table of paths |
| C56 | store path on the file system | location arithmetic of `..` and proper names; witness for the name `..` |
| C57-C59 | file loading by format, PE/PDB lookup, dSYM bundles, one-file runs | case analysis over parser oracles and the file-system state |
| C60 | `--list-arch` | text of the list; witness for unreadable objects |
| C61 | repeated storing to one destination | induction over the modules |
| C62 | `main` for one file | composition of C54, C58 and the exit status |
| C63, C64 | several files: processing, merging and the workers together | an invariant that any number of merges keeps, on top of C46-C50; witness of two schedules |
| C65 | `--list-arch` for several files | induction over the files |
| C66 | exit status for several files | case analysis over C63 and the invariants of C49 |
| C67, C68 | header, completeness and synthetic records of `from_object` | case analysis; the tables of the successive steps extend each other |
| C69 | cabinet archives | path components, induction over the members |
| C70 | debug info to reader | a reader of symbol files (S_Symbolize) composed with C14, C16, C25 and C31 |
| C71 | object_info.rs | the merge of an object with itself, computed record by record |
| C72 | collector.rs | the line table equals the run starts of the debug lines |
| C73 | mapping.rs, utils.rs | SHA-512 clause by clause against FIPS 180-4, and on known answers |
| C74 | main.rs | every argument list is classified: accepted with these settings, help, usage error |
| C75 | main.rs, action.rs, dumper.rs | `program`: arguments and world to world and exit status; inversion |
| C76 | main.rs, dumper.rs, mapping.rs, source.rs, windows/pdb.rs | composition of C38, C51, C53, C57, C58, C62, C31 and C70 for one file; counterexample for a PE with its own debug info |
| C77 | object_info.rs, source.rs, platform.rs | `run_cenv` by cases; extensionality of the collector in the paths used |
| C78 | dumper.rs without `http` | comparison with the other build |
| C79 | collector.rs, inline_origins.rs names | cleaning as in C35, demangling if possible |
| C80, C81, C82 | dumper.rs store by several workers at once | invariant over interleavings of single operations, on top of the invariants of C46-C50; witnesses of schedules for the refutations; followed from the command line in T_Whole, T_Plain and T_One; with two outputs (T_Both) by simulation: leave out the operations of one output and get a run of the other |
| C83, C84 | main.rs, dumper.rs: the program on several files | `program` unfolded to runs of the workers, then C63 and C80; well-founded measure for finiteness; a calm schedule (one worker at the counter at a time) for completion; a setting without symbol servers and with a new store where every hypothesis is about the input (`T_Plain.v`) |
| C85 | cache.rs, lookups by several workers at once | invariants over interleavings of single operations; a file is complete because every byte missing has a writer still before it; witness of a schedule |
| C86 | main.rs, dumper.rs: several files of which some cannot be processed | storing never begins (C46), so that the world keeps its streams and the disk is that of the jobs done; ends of runs by C49 and C66; witnesses of schedules |
| C87 | windows/utils.rs, cache.rs, dumper.rs: several PE files whose PDBs are downloaded into caches | the relation `fetched` between file systems is kept by every job and every job gives the same in all of them (frame lemmas for all reads); then C83 with it |
| C88 | dumper.rs, windows/utils.rs, main.rs: one file dumped twice | every read is at a place of `looked_at`, so that loading does not see what was stored (frame of C44); storing over what was stored finds the directories and writes the same bytes; several files: both runs by C83, the disk stays a tree by C89 |
| C89 | everything of the program that touches the disk or the streams | every operation (make directories, create, write, append) keeps directories and files; induction over the steps of the threads |
| C90 | everything of the program that touches the disk or the streams | what every step may change, kept by induction over the steps of the threads (P_Confined); one file by C56's frame lemma |
| C91 | cache.rs, dumper.rs get_from_id, windows/utils.rs get_pe_pdb_buf | a lookup writes only if no cache has the entry (C43), into the entry of one of them; the servers stay the same because nothing is replaced; last components of paths are directory entries |
| C92 | cache.rs copy_in_cache | `M_Left.v`: the disk at every way out of a download; directories made before a failure stay, and the entry holds what the disk took |

## Trusted base

* The Coq 8.16.1 kernel, including `vm_compute` (bytecode machine), and `coqc`.
* No axioms: every property theorem is followed by `Print Assumptions`, and each
  prints "Closed under the global context". No standard-library axiom is used.
* The correspondence between the Gallina model and the Rust text. It was made by
  reading; no Rust code was run or translated mechanically. Every model
  definition cites the lines it stands for.
* The specifications in `S_*.v` and the theorem statements in `T_*.v`. They
  sometimes mention model *types* (records such as `Symbol`, `Lines`, `Obj`)
  and the model functions whose behaviour they state, but not the helpers those
  functions are made of.

## What is modelled

| source | model |
|---|---|
| `line.rs` | `M_Line.v`, whole file |
| `source.rs`, `inline_origins.rs` | `M_Source.v` (and names in `M_Names.v`), whole files |
| `symbol.rs` | `M_Symbol.v`, `M_Names.v`, merging in `M_Object.v` |
| `collector.rs` | `M_Collector.v`, publics and placeholders in `M_Symbol.v` |
| `platform.rs`, path parts of `utils.rs` | `M_Path.v` |
| `mapping.rs` | `M_Mapping.v`, digests in `M_Digest.v` |
| `object_info.rs` | `M_Object.v` |
| `utils.rs` file reading, cabinets, bundles | `M_Fs.v` |
| `cache.rs` | `M_Cache.v`, lookups by several workers at once `M_Beside.v` |
| `dumper.rs` | `M_Store.v`, `M_Input.v`, `M_Sched.v`, `M_Many.v`, storing by several workers at once `M_Shared.v` |
| `linux.rs`, `mac.rs`, `windows/*.rs` | `M_Input.v` |
| `main.rs`, `action.rs` | `M_Args.v`, `M_Cli.v`, for several files `M_Many.v`, together `M_Main.v`; without `http` `M_Local.v` |

## What is not modelled

* clap's own code (its behaviour is modelled by hand in `M_Args.v` for the options of `cli`; not the
  texts it prints, nor arguments that are no UTF-8), logging, the panic hook's message.
* symbolic, goblin, the demanglers, xz decompression, cab decoding, the
  regex engine on user patterns, JSON syntax, reqwest/tokio: oracles.
* Symbolic links, permissions beyond "may this location be written", a slash at
  the end of a file path, concurrent changes by other processes.
* Memory exhaustion, integer limits of `usize` on collection sizes, stack depth.
* Windows hosts (`cfg(windows)`), where `std::path` splits differently.
* In `load_file` a panicking download leaves the disk as it was before; what it really leaves is
  `load_left` and `job_left` (C92), which the model of the threads does not go on with.
* The worker model interleaves at the granularity of shared-memory operations
  and channel operations, sequentially consistent.

## Findings

Properties that turned out false of the faithful model carry a `_refuted`
theorem with a witness. MANIFEST.json names the theorem for each: C14, C15, C19,
C20, C26, C28, C33, C39, C42, C43, C44, C47, C48, C49, C51, C54, C56, C57, C60,
C61, C64, C66, C69, C73, C76, C81, C82, C85, C86.
Some "proved" properties also have `_refuted` companions that show why a
hypothesis is needed.

## Seeded mutations

`seeded/LOG.jsonl` records wrong programs tried against the theorems. A mutant is
made by editing one definition in a copy of the development and replaying every
proof that can depend on it. "The proof script fails" alone is weak evidence: a
script can break on a harmless edit. Each entry therefore says what the verdict
rests on; entries where the edit turned out not to falsify the claim are kept and
marked as such.
For late attempts (their basis says so) at most the model and the specifications were
rebuilt, and the negation of one theorem statement was proved for the edited model; such
entries name that theorem only.
