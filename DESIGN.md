# Formal model of nodejs_resolver in Rocq (Coq 8.16.1)

## What is modelled

The whole crate `src/*.rs`, `src/plugin/*.rs` (not `tests/`, `bench/`), function by function,
as computable Gallina. Every definition cites the file and lines it models.

| code | model file |
|---|---|
| Rust `str`/`char` operations used by the crate | `Str.v` |
| `std::path` (Unix): components, join, parent, equality | `Path.v` |
| `serde_json::Value`, `to_string` | `Json.v` |
| `serde_json::from_str::<Value>` (1.0.82, default limits, `preserve_order`) | `JsonText.v` |
| data types of `src/lib.rs`, `src/options.rs`, `src/description.rs` | `Types.v` |
| `src/parse.rs`, `src/kind.rs`, `src/normalize.rs` (lexical), request helpers of `src/lib.rs` | `Parse.v` |
| `src/map.rs` | `Map.v` |
| `src/fs.rs`, `src/cache.rs`, `src/description.rs`, `src/utils.rs` | `Desc.v` |
| `adjust` of `src/normalize.rs` and `append_ext_for_path` on bytes, `adjust` for Windows | `Adjust.v` |
| `src/plugin/*.rs`, `src/resolve.rs`, `src/tsconfig.rs`, `src/tsconfig_path.rs`, `src/lib.rs`, `src/normalize.rs` | `Resolve.v` |
| public API (`resolve`, `load_side_effects`, `new`, `default`) | `Top.v` |
| effects | `Prog.v` (programs), `Run.v` (worlds, runs, histories, schedules), `Exec.v` (demonic executions), `Lock.v` (schedules with the locks of the tables) |
| a concrete file system (tree, symbolic links, mtimes) | `Posix.v` |

### Effects: a free monad of atomic operations

`prog A` (file `Prog.v`) is the type of effectful computations: `Ret a`, `Panic msg`,
`OutOfFuel`, or `Do op k` where `op` is one atomic interaction with the outside:
a file-system query (`is_file`, `is_dir`, `exists`, read, mtime, canonicalize), one
`DashMap` operation (`get`/`insert`/`remove`/`contains_key`/drop of a guard) or the draw of a `HashMap`
iteration order. One term therefore has all of these semantics:

* sequential run on a world (file system + tables) — `run`;
* histories: any list of calls by any number of resolvers, with file-system changes between them — `run_history`;
* concurrent runs: any number of threads interleaved at every atomic operation by an arbitrary schedule — `run_sched`;
* concurrent runs with reader-writer locks per shard — `locked_run`;
* demonic semantics (`Exec.v`): every answer to every operation, i.e. a file system that changes during the call.

Loops and recursion that may diverge take fuel; exhaustion is the explicit outcome `OutOfFuel`
(never a normal-looking value). More fuel never changes an outcome (`FuelP.v`). Panics (`unwrap`, `unreachable!`,
`assert!`, bad slices) are `Panic`.

### Simplifications (also stated at the definitions)

* Unix only. Strings are lists of Unicode code points; byte lengths and byte slices are computed through
  `utf8_len`, and slicing off a char boundary is a panic, as in Rust. Paths are valid UTF-8
  (`display()` is the identity).
* Lengths and indices are unbounded. `Map32.v` is the code that computes with `i32` once more with 32 bits; C66 shows that below
  2^31 - 1 bytes it does the same. `usize` does not overflow.
* The JSON and JSONC parsers are oracles (arbitrary functions), so theorems hold for any parser.
  C64 takes the JSON parser the crate calls instead: `JsonText.v` spells it out from the documented behaviour of serde_json (its source is
  not part of the repository), with recursion limit 128; only the printing of 64-bit floats stays an oracle. JSONC remains one throughout.
  The JSON serialiser used for cache keys is modelled concretely; numbers are opaque literals.
* `DashMap` operations are atomic. `run_sched` ignores lock guards that are held across operations
  (this only adds interleavings); `locked_run` (`Lock.v`) respects them, with arbitrary hash functions and shard counts.
* Tracing is not modelled. The debug-only double-read check is modelled (flag `rv_debug`).
* Stack overflow is divergence.

## Files

| kind | files | role |
|---|---|---|
| model | see above | |
| tests | `MapTests.v`, `FixtureTests.v` | replay of the crate's own tests by `vm_compute`, the fixture files read by the parser of `JsonText.v` (generated by `tools/mktests.py`) |
| worlds | `Demo.v`, `WitnessP.v` | small worlds for examples and refutations |
| specifications | `Spec*.v` | what the statements use besides the model's entry points |
| statements | `PropParse`, `PropMap`, `PropMap32`, `PropApi`, `PropLookup`, `PropExports`, `PropNode`, `PropAgain`, `PropReads`, `PropDenote`, `PropWork`, `PropSight`, `PropAdjust`, `PropTs`, `PropTsChain`, `PropCache`, `PropChange`, `PropChangeEnd`, `PropPhase`, `PropTerm`, `PropPanic`, `PropLock`, `PropDesc`, `PropDebug`, `PropFull`, `PropReach`, `PropAllow`, `PropStale`, `PropMove`, `PropEnd`, `PropChain`, `PropPolicy`, `PropInside`, `PropPeriod`, `PropBroken`, `PropJsonText`, `PropRefuted` | the theorems of `MANIFEST.json`, each with `Print Assumptions` and an example |
| proofs | `*P.v` | everything else |

The main proof frameworks:

* `ExecP.v`, `ErrorP.v` — postconditions of all demonic executions (C08, C10, C13, C14, C48, C49); `CarryP.v` — where queries and fragments come from, read off the trace (`SpecCarry.v`).
* `LookupP.v`, `LookupTopP.v`, `ExportsP.v`, `TsP.v` — equations for sequential runs on any file system and any tables.
* `TrieP.v`, `FindP.v`, `SelectP.v`, `FieldP.v`, `NamesP.v`, `CheckP.v` — `src/map.rs` against `SpecMap.v`/`SpecField.v`.
* `SpellP.v`, `SimP.v`, `LoadP.v`, `CacheP.v`, `TwinP.v` — two programs in lockstep, parametric in how the outcomes of the
  right one are quantified (a record of closure properties, `modality`): some tables, all admissible answers with termination, an invariant under any
  interleaving. Used for C25, C27, C29, C37–C39, C42, C43 and, with another instance, C41 (`ChangeP.v`, `GrownP.v`;
  `ChangeEndP.v`: for all pasts of the present disk at once, so that one bound serves them all).
* `NoFuelP.v`, `AnswerP.v`, `TotalP.v`, `TermP.v` — one fuel bound for all admissible answers (C16); `TermP.v` is parametric in the `modality` as well (C16, C41, C63).
* `ReachP.v` — a resolution that ends has loaded finitely many descriptions of absolute paths, so one bound serves the loader of every run (C59, the "reached" parts of C54 and C58).
* `GuarP.v`, `PanicP.v` — which operations and which panics a resolution can have (C15).
* `NodeP.v` — the search of C54 against the program, both directions.
* `FullP.v`, `SoundP.v` — the search of C58 (all options, panics included) against the program: what it comes to is what the program computes without tables (`FullP.v`), and every outcome under any `modality` is one it comes to, for any `world` (what may be answered to each question about the disk), any relation between paths and the descriptions in use and any order of "paths" (`SoundP.v`; C58, C60, C61 and C62 are instances). `AllowP.v` — more answers, descriptions and orders allow more.
* `StaleP.v` — what the tables may hold and what the loader makes of it, on any disk after any changes (C61). `MoveP.v` — the same while the disk changes between any two steps of the calls (C62). `EndP.v` — calls that end, or do not, while the disk changes (C63). `CalmP.v` — the outcomes while only files other than descriptions change (`C62_calm`); `KeepP.v` — the same with a tsconfig that stays as it is.
* `LockP.v` — which guards a program holds, and what it does until it drops them (C55). `LiveP.v` — fair schedules with locks.
* `JsonTextP.v`, `JsonRoundP.v` — the JSON parser against the grammar, printing and reading back. `RetellP.v` — calls on two disks whose files say the same in other words (C64).
* `DescP.v` — what descriptions in the tables say, under any interleaving and any changes of the file system (C26, C56).
* `DebugP.v` — the program of a debug build against that of the release build: a relation kept by sequencing, hence by whole resolutions with two loaders; the record of read descriptions stays within the table of descriptions (C57).
* `HistP.v`, `ColdP.v` — tables under arbitrary changes of the file system (C21, C22, C40).

## Validation of the model (tests, not proofs)

The repository's own tests are replayed inside Coq by `vm_compute`: the tables of `src/map.rs`,
`src/parse.rs`, `src/kind.rs` and the fixture tests of `tests/cases.rs` (fixtures turned into a concrete
file system).

Wrong programs: `seeded/LOG.jsonl` lists edits of the model and the theorems that no longer hold.

## Trusted base

* Coq 8.16.1's kernel, including `vm_compute` (used in examples, witnesses and tests).
* The faithfulness of the model to the code: it was written by reading; the code was not run.
* Axioms: none. Every `Print Assumptions` in `Prop*.v` says "Closed under the global context". No own axioms,
  no plugins, no functors. (Checkers that list the axioms of all loaded library files mention
  `Coq.ssr.ssrunder`, the module type in the standard library that comes with loading `Lia` and friends; no theorem depends on it.)
* What the statements say: `Spec*.v` and the model's entry points used in them (`resolve`, `load_side_effects`,
  `run`, `run_history`, `run_sched`, `field_process`, `parse`, ...).

Conditions that occur in several theorems:

* `sane_fs` (`SpecLoad.v`): spellings of one path have the same status, directories of existing paths exist, and so on.
  Every directory tree with symbolic links has it (`posix_sane`).
* `client`, `no_clash`/`texts_apart`, `steady` (`SpecCache.v`): release build, one description name per table, no exports field
  on the disk with the text of an imports field whose keys begin with `#` (`C37_clear`: enough that no exports field has only such
  keys), no dependence on hash order. Each is necessary: there is a refutation for the negation.
* `SpecTerm.v`: the steps by which a resolution may start over, and those from a tsconfig file to the file it extends;
  termination is proved when they are well-founded, and
  a version with conditions that can be read off the disk.
* `SpecPanic.v`: shapes of descriptions and texts that cannot make the crate panic.
* `SpecChange.v`: changes of the disk that are noticed (edits later by the refresh period, additions).

## Properties: what is modelled and how it is proved

* C01, C02 — `parse_identifier` as the char-by-char state machine; induction over the string with the parser state generalised; uniqueness by induction.
* C03, C04 — `get_target_kind`: the Aho-Corasick leftmost search is modelled as "leftmost position where a pattern matches"; case analysis. C04 refuted (`"assert/,strict"`).
* C05, C06, C07 — `Path.v` and `normalize_path_without_link` as a fold over components; invariant of the accumulator. C06 refuted.
* C08, C10, C48, C49 — postconditions over the complete `resolve` program for every answer of the environment.
* C09, C11, C20, C23, C24 — sequential semantics over an arbitrary fixed file system; equations between runs and small list specifications ("first candidate that exists").
* C12 — refuted (climbing continues with an emptied target); positive part for levels that fail otherwise.
* C13, C14 — error strings of all executions (`SpecError.v`: what each error is about, read off the trace); C14 refuted for relative paths.
* C15 — refuted by several witnesses; positive theorem under explicit, checkable conditions.
* C16 — refuted (alias/imports/browser/extends cycles, relative base, empty main); positive theorem under well-foundedness.
* C17–C19 — equations for the alias plugin; C19 refuted.
* C21, C22 — fresh-cache evaluation of the loader against "nearest ancestor".
* C25 — relational (two-run) logic over programs.
* C26, C27 — alias-field plugin against a chain relation; order independence when at most one key matches; refuted in general.
* C28, C29, C30, C31, C32, C35, C36 — pure functions of `Map.v` against independent specs (DFS, longest-prefix selection).
* C33 — `check_target` against real depth accounting, and the answers of whole resolutions; refuted for targets with empty segments, proved otherwise; what the check accepts exactly, as a count per segment.
* C66 — `Map32.v` against `Map.v` for texts below 2^31 - 1 bytes; for longer ones refuted by induction over the number of segments.
* C67 — C08 (the answer is a file), C48 (where query and fragment come from), uniqueness of the split (C02) and C09 or C54 for the second call. `canonical` (`SpecAgain.v`) is what canonical paths are asked for; the POSIX file systems have it.
* C68 — a call reads the file only if its time is not on record or its directory has no entry, and puts both down; the number of reads and the state of that record add up along a history (`spent`, `PropReadsP.v`).
* C69 — a call performs the operations of one on the bare path (`psame`, `PropDenoteP.v`), and that one is compared with evaluation on fresh tables, as for C37.
* C70 — `goes` (`PropWorkP.v`) follows a run on a tree of any depth and counts; the bounds are proved for all executions (`atmost`), or all with the answers of one disk (`ad`). With one main field the work is linear in the length of the chain of main fields times the number of directories searched, for all requests, imports included (`PropChain.v`).
* C71 — the program logic of `ExecP.v` with the operations so far as the only answers allowed (`sat_before`, `PropSightP.v`).
* C72 — `Adjust.v` (UTF-8 decoding with replacement, prefix removal) against the encoder of RFC 3629 (`SpecAdjust.v`). Refuted for paths that are not UTF-8 and for network shares.
* C73 — the two-run simulation of C25 and C29 (`TwinP.v`) for two resolvers with equal options.
* C34, C50–C53 — evaluation theorems on arbitrary file systems/tables.
* C37, C38, C39 — invariant "every entry is what a fresh load gives"; lifts to all histories and all interleavings. Refuted in general because parsed imports are stored in the exports table; proved when no such clash exists. C39 refuted for different `description_file` names.
* C40–C42 — table/mtime state machine; C41, C42 refuted in general; C41 proved for edits and additions; C42 proved on a changing disk for files unparsable from the start (`PropBroken.v`); C40 refuted for concurrent calls.
* C43 — injectivity of the JSON serialiser; the kind part refuted.
* C44–C47 — tsconfig functions; C47 refuted.
* C54 — the whole search as inductive relations on the disk (`SpecNode.v`), sound and complete for the program on empty tables (`NodeP.v`), then carried to all histories and schedules by the framework of C37/C38.
* C55 — every program follows a guard discipline (a thread takes no lock of the description table while it holds one, and drops it after boundedly many operations); hence some thread can always move, and it stays able to until some thread has moved: under a fair schedule the calls end (`C55_fair`, `C55_live`).
* C56 — invariant "every stored description is what its file said on some file system there has been", for interleavings with changes of the file system between any two steps.
* C57 — simulation: every operation of a debug build is one of the release build or one on the record; invariant "what is on record has an entry in the table" for histories.
* C58 — the whole call as inductive relations on the disk (`SpecFull.v`), for all options together and with the panics; sound, complete and hence single-valued for the program on empty tables (`FullP.v`, `SoundP.v`), then carried to all histories and schedules by the framework of C37/C38.
* C59 — the simulation of C37 read the other way (the run ends whenever the evaluation without tables does), with a loader that gives up where the bound of the run is too small.
* C60 — the same relations with "the description in use" weakened to any spelling of its directory and any order of its browser field, and any order of "paths"; proved once for every notion of run, then used with the invariant of the tables (histories, schedules), the invariant under changes (C41) and the comparison with release builds (C57).
* C61 — the same relations once more, with the readings of `SpecStale.v`: read now, or read earlier (by any resolver, on any file system there has been) and kept, as the check of the modification time allows. The invariant says where each entry of the tables may come from; no condition on the disk or on the descriptions is left. `C61_moving` lets the disk change between any two steps of the earlier, concurrent calls; a directory may then be read partly before and partly after a change (`among`).
* C62 — the relations of C58 do not mention a file system but a `world` (`SpecWorld.v`): for each question to the disk the answers that may be given. A call during which the disk changes gets answers from the file systems of its own steps; the tables hold what was read on those of all steps. With one file system only, this is C61. If descriptions and directories stay as they are (`calm`, `SpecEnd.v`), the descriptions in use are those on disk (`C62_calm`).
* C63 — endless schedules with a disk for each step (`SpecEnd.v`). A program of which no branch with admissible answers runs out of fuel is a well-founded tree, so a thread that gets its turn again and again comes to its end (`EndP.v`). The proof of C16 asks only for exact answers about directories and description files (`okx` of `LoadP.v` with `exact = False`) and, with a tsconfig, about that file and what it extends (`C63_kept_partial`), which is why other files may change meanwhile.
* C64 — the parser accepts exactly the documents of the grammar (`SpecJsonText.v`, inductive) and gives their value; it has the property that C16, C37, C60 and others ask of parsers. A call uses of a text only what the parsers make of it: a relation of programs kept by sequencing, hence by whole resolutions.
* C65 — the invariant of C41 weakened by debts: between storing the time and storing the description a thread owes the entry; each program is checked step by step to pay (`PhaseP.v`), so when all threads have ended the invariant of C41 holds again.

## Findings about the code (each with a machine-checked witness)

| | finding | theorem |
|---|---|---|
| 1 | `"assert/strict"` is not recognised as built in (typo `assert/,strict`) | `C04_builtin_refuted` |
| 2 | leading `..` of relative paths are dropped by normalisation | `C06_relative_meaning_refuted` |
| 3 | after an existing directory without main file, farther node_modules are searched for the emptied target | `C12_same_specifier_refuted` |
| 4 | the internal marker leaks from `load_side_effects` for relative paths | `C14_side_effects_marker_refuted` |
| 5 | panics: `unreachable!()` for a directory without main file, browser value `true`, non-ASCII texts, a scope without slash, ... | `C15_no_panic_refuted`, `C25_browser_true_refuted` |
| 6 | endless resolutions: alias, imports, browser, extends cycles, `"main": ""`, relative base | `C16_termination_refuted` |
| 7 | aliases are disabled by any directory whose path contains the text `node_modules`; alias keys match inside segments | `C18_lookalike_directory_refuted`, `C19_whole_segments_refuted` |
| 8 | a failing main field that is a directory changes the base of the next main field | `C23_main_fields_independent_refuted` |
| 9 | the answer can depend on hash-map order | `C27_order_independent_refuted` |
| 10 | `$` in a matched text is doubled; a target starting with `*` can leave the package (`"./*": "*x"`); the key `"/"` is taken for `"."` | `C31_substitution_refuted`, `C32_relative_refuted`, `C35_slash_key_refuted` |
| 11 | the escape check counts empty segments as depth and ignores the last segment | `C33_check_target_refuted`, `C33_escape_refuted` |
| 11a | the escape check counts names that begin with a dot as no step down, so `./.cache/../x.js` is turned down | `C33_too_strict_refuted` |
| 12 | imports trees are stored in the exports table, so exports may be taken from an imports field of the same text | `C37_…`, `C38_…`, `C43_…_refuted` |
| 13 | a shared cache ignores `description_file` | `C39_shared_cache_refuted` |
| 14 | stale descriptions: edits within the period, deletions, creations, older files; errors reported once | `C41_…`, `C42_…_refuted` |
| 15 | race: two calls after an edit, one re-reads, the other serves the old content (the two tables are updated one after the other) | `C40_concurrent_refuted` |
| 16 | an inherited `baseUrl` is relative to the extending file | `C47_…_refuted` |
| 17 | `#` requests without imports field go to node_modules | `C50_answered_elsewhere_refuted` |
| 18 | self reference needs a node_modules directory, and also catches names that only begin like the package's | `C52_…_refuted` |
| 19 | imports targets that are packages without exports field are not found | `C53_imports_package_refuted` |
| 20 | a remapped file can lose the query of the request | `C48_query_carried_refuted` |
| 21 | a description replaced between the reading of its text and of its time stays outdated although its time is beyond the refresh period | `C61_moving_ex` |
| 22 | a call during which one file gives way to another may find neither | `C62_ex` |
| 23 | a directory removed while a call notes that it has no description makes that call spin for ever (`loop { if path.is_dir() .. }`); a description that keeps coming and going as well; so do two tsconfig files that extend each other in turns | `C63_ends_refuted`, `C63_flicker_refuted`, `C63_extends_refuted` |
| 24 | with prefer_relative an absolute path is first taken for a relative one, so a file may resolve to another one | `C67_prefer_refuted` |
| 25 | the derived `Resolver::default()` has refresh period 0: it reads and parses every description at every lookup | `C68_default_refuted` |
| 26 | "../x" from a symlinked directory leaves the directory the link leads to, where Node's `path.resolve` leaves the one it is in | `C69_dotdot_refuted` |
| 27 | A main field that leads nowhere is followed by the next one from the directory it led to; with two main fields nested descriptions make a successful call take 2^n operations | `C70_polynomial_refuted`, `C70_nested_refuted` |
