{"id": "C01", "title": "Request splitting is lossless", "statement": "The target, query and fragment that `resolve` extracts from a request string, concatenated in that order, are exactly the request string: no character is dropped, duplicated or reordered, so `Request`'s Display gives back the original specifier.", "quantifier": "every request string (any length, any Unicode characters)", "why_tests_cant": "Tests check a dozen literals; a state-machine slip only shows on particular orders of '#' and '?'.", "anchors": ["src/parse.rs: Request::parse_identifier, Display for Request", "src/parse.rs: Resolver::parse"]}
{"id": "C02", "title": "Request splitting is the unique canonical split", "statement": "The target contains no '?' and no '#' except possibly as its first character; the query is empty or starts with '?' and has no '#'; the fragment is empty or starts with '#' and is only present when something precedes it. These conditions determine the split uniquely.", "quantifier": "every request string and every candidate triple", "why_tests_cant": "Uniqueness quantifies over all alternative splits of all strings.", "anchors": ["src/parse.rs: Request::parse_identifier"]}
{"id": "C03", "title": "Request classification is a total decision table", "statement": "Every target falls in exactly one of Internal ('#...'), AbsolutePosix ('/...'), Relative ('', '.', '..', './...', '../...'), AbsoluteWin (a drive letter and ':' alone, or followed by '/' or '\\\\'), Normal (everything else), in that priority.", "quantifier": "every target string", "why_tests_cant": "An infinite input space; the Windows test goes through a multi-pattern automaton whose leftmost match may sit anywhere.", "anchors": ["src/kind.rs: Resolver::get_target_kind"]}
{"id": "C04", "title": "Built-in module test recognises every Node core module of its list", "statement": "`is_build_in_module` answers true for each of Node's core specifiers (assert, assert/strict, fs, fs/promises, ...) and for nothing else.", "quantifier": "every string", "why_tests_cant": "The table can only be compared exhaustively with Node's list and with every non-member.", "anchors": ["src/kind.rs: BUILT_IN_MODULE_SET, Resolver::is_build_in_module"]}
{"id": "C05", "title": "Lexical normalisation removes every '.' and '..' and is idempotent", "statement": "`normalize_path_without_link` of any path contains no '.', '..' or empty component, is absolute exactly when the input is, is a fixed point of itself, and for absolute input equals the usual stack evaluation of the components ('..' pops, '..' at the root stays).", "quantifier": "every path", "why_tests_cant": "Unbounded component sequences; a boundary error only shows for particular nestings of '..'.", "anchors": ["src/normalize.rs: Resolver::normalize_path_without_link"]}
{"id": "C06", "title": "Lexical normalisation keeps the meaning of relative paths", "statement": "Normalising a relative path denotes the same location relative to the current directory: leading '..' components are kept.", "quantifier": "every relative path", "why_tests_cant": "Ranges over all relative paths.", "anchors": ["src/normalize.rs: Resolver::normalize_path_without_link"]}
{"id": "C07", "title": "Effective path of a request", "statement": "A request with target '' or '.' denotes the base path itself; an absolute target denotes the target; any other target denotes base joined with the target by exactly one separator.", "quantifier": "every base path and target", "why_tests_cant": "Infinite inputs; Path::join special cases (empty base, trailing slash, absolute argument).", "anchors": ["src/lib.rs: ResolveInfo::get_path"]}
{"id": "C08", "title": "A successful resolution is an existing regular file", "statement": "Whenever `resolve` returns Ok(Info), the un-normalised path it selected answered 'is a file' to a file-system query made during that call, the returned path is the real path (symlinks on) or lexical normal form (symlinks off) of that path, and the returned target is empty. True for every option set, cache content, file system behaviour (even one changing during the call) and iteration order.", "quantifier": "all options, requests, base paths, cache contents, file-system answers, hash orders", "why_tests_cant": "Quantifies over every cache state and every file-system schedule.", "anchors": ["src/resolve.rs: resolve_as_file", "src/plugin/extensions.rs", "src/normalize.rs: normalize_result", "src/lib.rs: Resolver::resolve"]}
{"id": "C09", "title": "Exact file first, then extensions in the configured order", "statement": "For a relative or absolute request with no alias/browser/tsconfig remapping, if the exact path is a file (and enforce_extension is off) the exact path is returned; otherwise the first extension, in option order, for which path+extension is a file decides; later extensions and directory resolution are never consulted.", "quantifier": "all extension lists, file systems, base paths and targets", "why_tests_cant": "Extension priority must hold for every list and every combination of existing files.", "anchors": ["src/resolve.rs: resolve_as_file", "src/plugin/extensions.rs: ExtensionsPlugin::apply"]}
{"id": "C10", "title": "enforce_extension is respected", "statement": "With enforce_extension on, every file returned by `resolve` is some path followed by one of the configured extensions; `Resolver::new` with enforce_extension unset turns it on exactly when some configured extension is the empty string, and never changes an explicit setting.", "quantifier": "all options, requests, caches and file systems", "why_tests_cant": "Must hold on every route (module, main field, exports, alias, tsconfig) to success.", "anchors": ["src/resolve.rs: resolve_as_file", "src/lib.rs: Resolver::new"]}
{"id": "C11", "title": "node_modules lookup walks the ancestors from nearest to farthest", "statement": "For a bare specifier the directories examined are base/node_modules, parent(base)/node_modules, ... up to the root, in that order; the first directory that produces a file or a hard error decides and farther ones are not consulted; if none decides the result is the generic failure.", "quantifier": "all base paths of any depth, all file systems, all bare specifiers", "why_tests_cant": "Depth is unbounded, and which level decides depends on the whole file system.", "anchors": ["src/resolve.rs: resolve_as_modules"]}
{"id": "C12", "title": "Every node_modules level is searched for the same specifier", "statement": "While climbing, each ancestor's node_modules is searched for the specifier the user asked for.", "quantifier": "all base paths, file systems, bare specifiers", "why_tests_cant": "Requires considering every way a lower level can fail.", "anchors": ["src/resolve.rs: resolve_as_modules, resolve_as_dir", "src/plugin/main_file.rs"]}
{"id": "C13", "title": "Failure messages", "statement": "`resolve` never returns the internal marker \"T0\" as error text; when nothing matches, the error is exactly \"Resolve '<target+query+fragment>' failed in '<base>'\" for the request the user passed.", "quantifier": "all options, requests, caches, file systems", "why_tests_cant": "Every error route has to be considered.", "anchors": ["src/lib.rs: Resolver::_resolve, Resolver::resolve", "src/utils.rs: raise_tag, raise_resolve_failed_message"]}
{"id": "C14", "title": "Public side-effects lookup never leaks the internal marker", "statement": "`load_side_effects` returns a readable error, never the internal marker \"T0\".", "quantifier": "all paths and file systems", "why_tests_cant": "Needs a path whose ancestors are all absent, for every file system.", "anchors": ["src/description.rs: load_side_effects, load_pkg_file"]}
{"id": "C15", "title": "resolve does not panic", "statement": "`resolve` returns Ok or Err on every request, every package.json/tsconfig content and every file system; it never panics.", "quantifier": "all options, requests, descriptions, file systems, caches", "why_tests_cant": "Panic freedom quantifies over all inputs.", "anchors": ["src/lib.rs: _resolve (unreachable!)", "src/map.rs: from_json", "src/resolve.rs: resolve_as_modules", "src/plugin/exports_field.rs", "src/description.rs", "src/tsconfig.rs", "src/tsconfig_path.rs: match_star"]}
{"id": "C16", "title": "resolve terminates", "statement": "`resolve` returns after finitely many steps for every configuration (alias cycles, imports cycles, browser-field cycles, tsconfig extends cycles, relative base directories) and file system.", "quantifier": "all options, requests, descriptions, file systems", "why_tests_cant": "Non-termination cannot be observed by a finite test run, termination must hold for all inputs.", "anchors": ["src/plugin/alias.rs", "src/plugin/imports_field.rs", "src/plugin/alias_field.rs: deal_with_alias_fields_recursive", "src/description.rs: load_pkg_file", "src/tsconfig.rs: parse_file_to_value", "src/plugin/main_field.rs"]}
{"id": "C17", "title": "Alias rewriting substitutes exactly the matched prefix", "statement": "When an alias (from,to) applies to a target, the rewritten target is `to` followed by the target without its prefix `from`; query, fragment and base directory are unchanged.", "quantifier": "all aliases, targets, requests", "why_tests_cant": "All strings, including overlapping and empty prefixes.", "anchors": ["src/plugin/alias.rs: AliasPlugin::apply"]}
{"id": "C18", "title": "Alias priority, fall-through and opt-out", "statement": "Aliases are tried in list order; a matching `Ignored` alias makes `resolve` return Ok(Ignored) unless an earlier alias already resolved; an alias whose rewriting fails to resolve is skipped; if none succeeds the original request is resolved as if there were no alias. No alias applies when the base directory lies under node_modules.", "quantifier": "all alias lists, requests, file systems, caches", "why_tests_cant": "Alias lists are unbounded and each entry's success depends on the whole resolution.", "anchors": ["src/plugin/alias.rs: AliasPlugin::apply", "src/lib.rs: _resolve"]}
{"id": "C19", "title": "An alias key only matches whole path segments", "statement": "An alias for 'foo' affects 'foo' and 'foo/...' but not 'foobar'.", "quantifier": "all alias keys and targets", "why_tests_cant": "Infinite inputs.", "anchors": ["src/plugin/alias.rs: AliasPlugin::apply"]}
{"id": "C20", "title": "prefer_relative tries the relative file first and then falls back", "statement": "With prefer_relative on, a request not already starting with './' or '../' is first resolved as './<request>'; if that succeeds it is the answer, otherwise resolution continues exactly as with prefer_relative off. With it off, no such attempt is made.", "quantifier": "all requests, options, file systems, caches", "why_tests_cant": "Equality of two whole resolutions for every input.", "anchors": ["src/plugin/prefer_relative.rs"]}
{"id": "C21", "title": "The nearest description file is used", "statement": "With a cold cache, the description consulted for a path is the one in the nearest existing ancestor directory (or the path itself when it is a directory) that contains the description file; none if there is none; `load_side_effects` reports exactly that file.", "quantifier": "all paths, all file systems whose directories have directory ancestors", "why_tests_cant": "Unbounded depth; depends on the whole ancestor chain.", "anchors": ["src/description.rs: load_pkg_file, load_side_effects", "src/utils.rs: find_up"]}
{"id": "C22", "title": "sideEffects is reported as written", "statement": "`load_side_effects` returns the boolean or the array of strings in the description unchanged and in order, nothing when the field is absent, and an error for any other shape.", "quantifier": "all JSON values of the field", "why_tests_cant": "Infinite JSON values.", "anchors": ["src/description.rs: parse_description_file"]}
{"id": "C23", "title": "Main fields are tried in order, each against the package directory", "statement": "For a directory with a description, each configured main field that is a string is resolved relative to that directory, in option order, and the first that resolves decides; '.' and './' stop the search; a failing main field does not influence how later ones are resolved.", "quantifier": "all main_fields lists, descriptions, file systems", "why_tests_cant": "Interaction between a failing entry and later ones depends on the file system.", "anchors": ["src/plugin/main_field.rs", "src/resolve.rs: resolve_as_dir"]}
{"id": "C24", "title": "Main files are tried in order", "statement": "When no main field resolves, the configured main_files are tried in order as files of the directory (with extension rules), and the first that exists decides.", "quantifier": "all main_files lists, directories, file systems", "why_tests_cant": "Unbounded lists, every file system.", "anchors": ["src/plugin/main_file.rs"]}
{"id": "C25", "title": "The browser field has no effect when browser_field is off", "statement": "With browser_field off the `browser` object of any description has no influence on the result.", "quantifier": "all descriptions, requests, file systems, caches", "why_tests_cant": "Relates two runs on differing inputs.", "anchors": ["src/plugin/alias_field.rs"]}
{"id": "C26", "title": "Browser-field remapping follows chains and honours false", "statement": "With browser_field on, a request matching a key is replaced by the end of the chain of keys starting at its value (or Ok(Ignored) if the chain ends in false), relative to the package directory.", "quantifier": "all browser objects, requests, iteration orders", "why_tests_cant": "Chains of any length, any hash iteration order.", "anchors": ["src/plugin/alias_field.rs"]}
{"id": "C27", "title": "Results do not depend on hash-map iteration order", "statement": "Two resolvers with the same options on the same file system give the same answer; the answer does not depend on the (randomised) iteration order of hash maps.", "quantifier": "all requests, options, file systems, all iteration orders", "why_tests_cant": "Iteration order is randomised per process/map; tests see one order per run.", "anchors": ["src/plugin/alias_field.rs", "src/tsconfig_path.rs: get_absolute_mapping_entries"]}
{"id": "C28", "title": "Condition matching is first-match depth-first search with backtracking", "statement": "For a conditional target, the value chosen is the first non-object leaf in document order reachable through keys that are 'default' or enabled conditions, backtracking out of nested objects that yield nothing; meeting 'default' before the last key of an object is an error.", "quantifier": "all nested condition objects and condition sets", "why_tests_cant": "Nesting is unbounded; the code is an explicit-stack loop.", "anchors": ["src/map.rs: conditional_mapping"]}
{"id": "C29", "title": "Condition names behave as a set", "statement": "Only membership matters: permuting or duplicating condition_names, or adding a name that occurs nowhere in the field, changes no answer.", "quantifier": "all fields, requests, pairs of condition lists", "why_tests_cant": "Relates all pairs of lists.", "anchors": ["src/map.rs: conditional_mapping, field_process"]}
{"id": "C30", "title": "Subpath selection: exact key, else longest matching prefix pattern", "statement": "For an exports/imports object the entry used for a (ASCII) request is the exact key if present, otherwise among keys 'P*' and folder keys 'P/' whose P is a prefix of the request the one with longest P ('*' preferred on a tie); if none matches the result is the empty list. The order in which keys are written is irrelevant.", "quantifier": "all objects with distinct keys, all requests", "why_tests_cant": "The code builds a path trie; equivalence with the rule must hold for all key sets and requests.", "anchors": ["src/map.rs: PathTreeNode::walk, find_match, apply_folder_mapping, apply_wildcard_mappings, field_process"]}
{"id": "C31", "title": "Pattern substitution inserts the matched remainder verbatim", "statement": "For a pattern key the result is the target with every '*' replaced by the text matched by the key's '*'; for a folder key it is target followed by the remainder.", "quantifier": "all targets, requests", "why_tests_cant": "All strings, including '$' and '*' inside the matched text.", "anchors": ["src/map.rs: target_mapping, field_process"]}
{"id": "C32", "title": "Exports targets are package relative", "statement": "No string returned by exports matching is absolute or starts with '../'; a field containing a selected target that does so yields an error.", "quantifier": "all exports values, requests and condition sets", "why_tests_cant": "All nested arrays/conditions.", "anchors": ["src/map.rs: ExportsField::assert_target, mapping"]}
{"id": "C33", "title": "Exports and imports targets cannot escape the package directory", "statement": "When a package entry point is selected through exports (or a relative imports target) the resulting file lies inside the package directory: at no point do its '..' components climb above it.", "quantifier": "all targets and packages", "why_tests_cant": "All path strings.", "anchors": ["src/map.rs: check_target", "src/plugin/exports_field.rs", "src/plugin/imports_field.rs"]}
{"id": "C34", "title": "Exports encapsulation", "statement": "If a package found in node_modules has an exports field and the requested subpath is not selected by it (or none of its targets is an existing file), `resolve` fails with \"Package path ... is not exported\" and never falls back to the package's files or to farther node_modules.", "quantifier": "all packages, subpaths, conditions, file systems, caches", "why_tests_cant": "All fields and file systems.", "anchors": ["src/plugin/exports_field.rs", "src/resolve.rs: resolve_as_modules"]}
{"id": "C35", "title": "Exports/imports requests and keys are validated", "statement": "Subpath requests ending in '/' are rejected, exports keys may not mix subpaths and conditions, exports subpath keys must start with './' (or be '.'), imports keys must start with '#' but not '#/' and not be '#'.", "quantifier": "all fields and requests", "why_tests_cant": "All strings and key sets.", "anchors": ["src/map.rs: assert_request, build_field_path_tree"]}
{"id": "C36", "title": "Candidate lists come only from targets written in the field", "statement": "Every string returned for a request is obtained from some string target of the selected entry by the substitution rule of C31 under a condition path enabled by condition_names, in document order.", "quantifier": "all fields, requests, condition sets", "why_tests_cant": "Nested arrays and conditions of any depth.", "anchors": ["src/map.rs: mapping"]}
{"id": "C37", "title": "Resolution is independent of earlier calls (cache transparency)", "statement": "On an unchanging file system, the result of `resolve` on a resolver that already served any sequence of calls equals the result on a fresh resolver.", "quantifier": "all histories of calls, all requests, all options", "why_tests_cant": "All histories; tests use one or two calls.", "anchors": ["src/description.rs: load_pkg_file, parse_description_file", "src/cache.rs", "src/fs.rs"]}
{"id": "C38", "title": "Concurrent calls do not interfere", "statement": "On an unchanging file system, calls of `resolve` running concurrently on one shared resolver each return what they would return alone on a fresh resolver, under every interleaving of their cache and file-system operations.", "quantifier": "all numbers of threads, requests and schedules", "why_tests_cant": "All schedules.", "anchors": ["src/cache.rs: ResolverCache", "src/description.rs", "src/fs.rs"]}
{"id": "C39", "title": "Sharing an external cache between resolvers is transparent", "statement": "A resolver given an external cache already used by other resolvers (of any options) answers as a fresh resolver would.", "quantifier": "all options of both resolvers, all histories", "why_tests_cant": "All histories and option pairs.", "anchors": ["src/lib.rs: Resolver::new", "src/cache.rs", "src/description.rs: load_pkg_file"]}
{"id": "C40", "title": "A modified description file is re-read", "statement": "After a description file that is still present has been rewritten with a modification time at least the refresh period (1 s for Resolver::new) later than the recorded one, the next lookup of its directory uses the new content.", "quantifier": "all histories, contents, times", "why_tests_cant": "All histories of file changes.", "anchors": ["src/fs.rs: need_update", "src/description.rs: load_pkg_file"]}
{"id": "C41", "title": "Changes to description files are never silently missed", "statement": "After any change (edit, deletion, creation) to description files, later calls do not answer from the old content.", "quantifier": "all histories of calls and changes", "why_tests_cant": "All histories of file changes and timestamps.", "anchors": ["src/fs.rs: need_update", "src/description.rs: load_pkg_file"]}
{"id": "C42", "title": "Errors in description files are reported on every call", "statement": "While a description file is malformed, every resolution that consults it fails with the same error.", "quantifier": "all histories", "why_tests_cant": "Needs edit-then-repeat histories.", "anchors": ["src/description.rs: load_pkg_file, parse_description_file", "src/fs.rs: read_to_string"]}
{"id": "C43", "title": "Different exports contents never share a cache entry", "statement": "Two description files share a cached parsed field only if the field contents are the same JSON value of the same field kind.", "quantifier": "all pairs of JSON values and field kinds", "why_tests_cant": "Injectivity of the serialised key over all JSON values.", "anchors": ["src/description.rs: parse_description_file"]}
{"id": "C44", "title": "tsconfig star patterns match exactly prefix*suffix", "statement": "A paths pattern A*B matches a request exactly when the request is A, at least one character, then B; the matched text is what lies between; patterns without '*' only match themselves.", "quantifier": "all patterns and requests", "why_tests_cant": "All strings, byte/char boundaries.", "anchors": ["src/tsconfig_path.rs: match_star"]}
{"id": "C45", "title": "tsconfig paths are tried first, then ordinary resolution", "statement": "With a tsconfig whose baseUrl and paths are set, the substituted locations of the matching patterns are tried in order and the first that resolves is the answer; if none does, the answer is that of ordinary resolution; without baseUrl, paths are ignored.", "quantifier": "all tsconfigs, requests, file systems, caches", "why_tests_cant": "Unbounded lists of patterns.", "anchors": ["src/tsconfig_path.rs: _resolve_with_tsconfig, create_match_list"]}
{"id": "C46", "title": "tsconfig extends: the extending file wins", "statement": "After following extends, any value set in the extending file is kept, objects are merged key by key recursively, and values only present in the extended file are inherited.", "quantifier": "all pairs of JSON values", "why_tests_cant": "Recursive merge of arbitrary JSON.", "anchors": ["src/tsconfig.rs: merge, parse_file_to_value"]}
{"id": "C47", "title": "An inherited baseUrl is relative to the file that declares it", "statement": "A baseUrl inherited through extends is interpreted relative to the extended config's directory.", "quantifier": "all tsconfig chains", "why_tests_cant": "All directory layouts.", "anchors": ["src/tsconfig_path.rs: create_match_list"]}
{"id": "C48", "title": "Query and fragment are carried through", "statement": "A successful resolution of a path request keeps the request's query and fragment, and `ResolveInfo::join` renders path, query, fragment in that order.", "quantifier": "all requests, options, file systems", "why_tests_cant": "All routes to success.", "anchors": ["src/lib.rs: ResolveInfo::join", "src/resolve.rs: resolve_as_file", "src/plugin/*.rs"]}
{"id": "C49", "title": "Symlink option", "statement": "With symlinks on the returned path is the operating system's canonical path of the selected file, and a failing canonicalisation is reported as an error; with symlinks off the file system is not consulted for normalisation.", "quantifier": "all file systems, requests", "why_tests_cant": "All file systems.", "anchors": ["src/normalize.rs: normalize_path, normalize_result"]}
{"id": "C50", "title": "Self reference and internal requests stay in the package", "statement": "A '#name' request is answered only from the imports field of the nearest description; if the name is not matched the call fails and no file or node_modules lookup is made for it.", "quantifier": "all requests starting with '#', descriptions, file systems", "why_tests_cant": "All fields and file systems.", "anchors": ["src/plugin/imports_field.rs", "src/lib.rs: _resolve"]}
{"id": "C51", "title": "The first selected exports target that exists is the answer", "statement": "If a package found in node_modules has an exports field and it selects targets for the requested subpath, the answer is the first of them (in the order of the field) that is an existing file and does not climb out of the package; nothing else is consulted.", "quantifier": "all packages, subpaths, conditions, target lists, file systems, caches", "why_tests_cant": "All fields and file systems.", "anchors": ["src/plugin/exports_field.rs", "src/resolve.rs: resolve_as_modules"]}
{"id": "C52", "title": "A package can refer to itself by name, and only by its name", "statement": "A request made inside a package for the name of that package (with or without subpath) is answered from its own exports field; a request for a differently named package never is.", "quantifier": "all packages, names, subpaths, file systems", "why_tests_cant": "All names and file systems.", "anchors": ["src/plugin/exports_field.rs: is_resolve_self", "src/resolve.rs: resolve_as_modules"]}
{"id": "C53", "title": "Imports targets that are package names resolve like the package itself", "statement": "If the imports field maps '#name' to a package name, the request '#name' has the same answer as the request for that package made from the directory of the description.", "quantifier": "all imports fields, packages, file systems", "why_tests_cant": "All fields and file systems.", "anchors": ["src/plugin/imports_field.rs"]}
{"id": "C54", "title": "The resolver answers what the declarative Node search prescribes", "statement": "When no alias, prefer_relative, tsconfig or browser rule concerns a request, the answer to a relative, absolute or bare request (file, directory, package, exports field, climb through node_modules) is exactly the one a search described as relations on the disk alone leads to, after any calls and among any concurrent ones; that search leads to at most one answer, and where it leads to one the call neither panics nor answers otherwise. Excepted are searches that meet an existing directory without main file or an exports target starting with '#'.", "quantifier": "all file systems, options, requests, histories, schedules", "why_tests_cant": "All disks, requests and interleavings; a reference for every one of them.", "anchors": ["src/lib.rs: resolve", "src/resolve.rs", "src/plugin/exports_field.rs", "src/plugin/main_field.rs"]}
{"id": "C55", "title": "Concurrent calls do not deadlock", "statement": "Whatever calls run at the same time, on shared or separate resolvers, and however the keys are distributed over the shards of the tables, a thread that holds a lock guard across operations can always make its next step; at every moment some unfinished call can move, all calls can be brought to their ends, and the executions the locks allow are among those of the lock-free interleaving semantics, also while the disk changes. Under every schedule that gives each call its turn again and again all calls end, with an answer if they meet the conditions of C16 and at most files other than descriptions change.", "quantifier": "all sets of concurrent calls, schedules, changing disks, hash functions, table contents", "why_tests_cant": "A deadlock needs a hash collision and one particular interleaving.", "anchors": ["src/description.rs: load_pkg_file", "src/fs.rs: CachedFS", "src/cache.rs: Cache"]}
{"id": "C56", "title": "A description says what its file said", "statement": "Whatever calls run, in any interleaving and with any changes of the disk between any two operations, every description in the tables, every description a lookup gives and every answer of load_side_effects has the name, version, browser entries, sideEffects, exports and imports of the JSON document some read of that very file gave; browser values other than false and strings are dropped, the last entry of a key counts.", "quantifier": "all calls, interleavings, changing disks, JSON documents", "why_tests_cant": "All documents, all interleavings of reads and rewrites.", "anchors": ["src/description.rs: parse_description_file", "src/description.rs: load_pkg_file", "src/description.rs: load_side_effects"]}
{"id": "C57", "title": "A debug build answers as the release build does", "statement": "Whatever calls run, in any interleaving and with any changes of the disk, what a debug build does is what the release build does with some steps left out: equal tables, and equal ends of all calls that have ended, except for calls stopped by the check that no description is parsed twice. Of calls served one after the other none is stopped by that check as long as every description on disk can be read, whatever changes between the calls; the assertion on results never fails. (Concurrent calls can be stopped by the check.)", "quantifier": "all calls, interleavings, histories, changing disks", "why_tests_cant": "Tests run in one build profile; the check depends on the order of reads and refreshes over a whole history.", "anchors": ["src/description.rs: parse_description_file", "src/description.rs: load_pkg_file", "src/cache.rs: DebugReadMap", "src/lib.rs: normalize_result"]}
{"id": "C58", "title": "Every resolution is that of a reference search", "statement": "What a request comes to is given by a reference search on the disk, without caches, for all options together: aliases, prefer_relative, imports, exports and browser fields, main fields and main files, node_modules, extensions, tsconfig paths with extends. A request comes to one file, to \"ignored\", to one error with its message, or to a panic, and every call returns exactly that, whatever calls came before and whatever calls run at the same time.", "quantifier": "all disks, options, requests, directories, histories of calls, schedules", "why_tests_cant": "Unboundedly many combinations of options, descriptions and disks, each with every cache content.", "anchors": ["src/lib.rs: resolve, _resolve", "src/resolve.rs", "src/plugin/alias.rs", "src/plugin/alias_field.rs", "src/plugin/exports_field.rs", "src/plugin/imports_field.rs", "src/plugin/main_field.rs", "src/plugin/main_file.rs", "src/plugin/prefer_relative.rs", "src/tsconfig_path.rs", "src/tsconfig.rs"]}
{"id": "C59", "title": "Whether a call ends does not depend on the caches", "statement": "A call that comes to an end once, after some history of calls, comes to an end after every history and among any concurrent calls, within a bound that does not depend on them, and with the same answer. Nothing is assumed about cycles of aliases, package fields or tsconfig files elsewhere.", "quantifier": "all disks, options, requests from absolute directories, histories of calls, schedules", "why_tests_cant": "A call that hangs only with certain cache contents shows up only under those contents; there are unboundedly many of them.", "anchors": ["src/description.rs: load_pkg_file", "src/lib.rs: resolve, _resolve", "src/resolve.rs", "src/tsconfig.rs"]}
{"id": "C60", "title": "Every outcome is one that the reference search allows", "statement": "Whatever order the entries of browser fields and of tsconfig paths are iterated in, and under whatever spelling of its directory a description was read first, every answer and every panic of a call is one that the reference search allows: there is an order of the entries at each step with which the search on the disk comes to it. Nothing is assumed about overlapping browser keys or patterns, or about characters outside ASCII. After changes on disk that are noticed, and in debug builds, the disk meant is the present one.", "quantifier": "all disks, options, requests, iteration orders, histories of calls and of noticeable changes on disk, schedules of concurrent calls", "why_tests_cant": "The iteration order of hash maps is random per process; a test sees some of the orders on some of the disks.", "anchors": ["src/lib.rs: resolve, _resolve, load_sideeffects", "src/map.rs", "src/plugin/*.rs", "src/resolve.rs", "src/tsconfig.rs", "src/description.rs"]}
{"id": "C61", "title": "What outdated descriptions can do", "statement": "After any calls and any changes on disk, with no condition on the disk, on the texts of the files, on how resolvers share caches or on modification times, even when the disk changed between any two steps of the earlier, concurrent calls, every outcome of a call is one that the reference search allows on the present disk, given readings of descriptions of the following kinds only: the file as it is now; what some caller read from the file of that directory at an earlier time, kept while the file is gone or its time is less than the refresh period after the one noted; an error of comparing those times. Outdated descriptions have no other effect: all other files are looked up on the present disk. On a disk that stands still, and under the conditions of C60, these readings are those of C60.", "quantifier": "all disks, options, requests, histories of calls and changes on disk, schedules of concurrent calls and of changes between their steps, release and debug builds", "why_tests_cant": "Outdated entries depend on the whole history of calls, changes and modification times.", "anchors": ["src/description.rs: load_pkg_file, parse_description_file", "src/fs.rs: need_update, read_to_string", "src/lib.rs: resolve, load_sideeffects", "src/resolve.rs", "src/plugin/*.rs"]}
{"id": "C62", "title": "Calls during which the disk changes", "statement": "Concurrent calls run in any interleaving while the disk changes between any two of their steps, with no condition on the disk, on the texts of the files, on the resolvers or on the caches they share. Every outcome is one that the reference search of C58 allows when each of its questions to the disk is answered by one of the file systems this very call met, and its readings of descriptions are those of C61, with what was kept having been read in one of the calls. A path that is returned was a file in one of the steps of the call, and is its real path in one of them (or its normalised spelling if symlinks are not followed). If the call met one file system only, the outcomes allowed are those of C61. If only files other than descriptions change and the earlier calls meet the conditions of C60, the descriptions in use are those on disk.", "quantifier": "all sequences of file systems, options, requests, numbers of concurrent calls, schedules of their steps and of the changes, release and debug builds", "why_tests_cant": "A test cannot place changes of the disk between arbitrary steps of arbitrary interleavings.", "anchors": ["src/lib.rs: resolve, load_sideeffects", "src/resolve.rs", "src/description.rs", "src/fs.rs", "src/plugin/*.rs", "src/tsconfig.rs"]}
{"id": "C63", "title": "Calls end also while the disk changes", "statement": "A call that is given its turn again and again comes to an answer (or a panic) also if other calls run at the same time and the disk changes between its steps. False in general: a directory removed between the search for description files and the loop that notes their absence makes that loop spin for ever, although the call ends on the disk before and on the disk after the change; so does a description file that keeps coming and going. True: for resolutions that use neither descriptions nor a tsconfig, whatever happens to the disk; for side-effects queries, if directories and the places of description files stay as they are; and under the conditions of C16 for all calls without tsconfig, if only files other than description files change.", "quantifier": "all endless fair schedules of any number of concurrent calls, all sequences of file systems, all options, requests and initial tables as stated", "why_tests_cant": "That a call never ends cannot be observed, and changes of the disk cannot be placed between arbitrary steps.", "anchors": ["src/description.rs: load_pkg_file", "src/description.rs: find_up", "src/lib.rs: resolve, load_sideeffects", "src/resolve.rs"]}
{"id": "C64", "title": "The text of description files", "statement": "Description files are read as JSON (RFC 8259, at most 127 arrays and objects inside each other): the parser accepts exactly the documents of the grammar and gives the value they spell, of repeated keys the last value at the place of the first; a text spells at most one value. Values read have the form that the theorems about the tables ask for; a value that is printed is read back as it was. A description that is no document is reported as one that does not parse. How files are spelled (white space, escapes, repeated keys) has no influence: if all files of two disks spell the same values and have the same times, all histories and all interleavings of calls, with such disks at every step, have the same outcomes.", "quantifier": "all texts, all values, all printers of floats; all disks, resolvers, histories, schedules and initial tables", "why_tests_cant": "Tests parse a few descriptions; they do not show that nothing else is accepted, nor that no outcome ever depends on the spelling of a file.", "anchors": ["src/description.rs: parse_description_file (serde_json::from_str)", "src/description.rs: exports cache key (to_string)", "src/fs.rs: read_to_string", "src/resolve.rs"]}
{"id": "C65", "title": "Concurrent calls between changes of the disk leave nothing outdated behind", "statement": "Any number of calls run at once, in any interleaving, on one disk; when all of them have ended the disk changes (description files are edited with a modification time later by the refresh period, or added where they do not take over for a directory that had none); then further calls run at once; and so on. While several calls run, one of them may answer from an outdated description, because another has noted the new time and not yet the new description. But after all calls of a phase have ended the next call answers as on empty tables, from what is on disk now, with a bound on its steps that does not depend on the history. A call that has stopped half-way is enough to make this false.", "quantifier": "all numbers of calls per phase, all schedules, all lengths of histories, all disks and changes as stated, all options, requests, resolvers and caches", "why_tests_cant": "Interleavings of table operations cannot be chosen in a test, and the half-updated tables are never visible between calls that run alone.", "anchors": ["src/description.rs: load_pkg_file, parse_description_file", "src/fs.rs: need_update, read_to_string", "src/cache.rs"]}
{"id": "C66", "title": "32-bit indices do no harm", "statement": "The exports/imports code keeps indices into requests and the depth of targets in i32. For requests shorter than 2^31 - 1 bytes and targets shorter than 2^31 characters (or of at most 2^31 segments) no conversion or operation overflows, in debug and in release builds: the answers are those computed with unbounded integers, which the other properties are about. Beyond that a target that stays inside its package is turned down (release) or panics (debug), and a request of 2^31 + 1 bytes panics in debug builds.", "quantifier": "all fields, trees, requests, targets and condition names of the stated length, both kinds of builds", "why_tests_cant": "Texts of two gigabytes are not tested, and a test with short texts does not show that no short text overflows.", "anchors": ["src/map.rs: check_target", "src/map.rs: field_process", "src/map.rs: apply_folder_mapping, apply_wildcard_mappings, find_match"]}
{"id": "C67", "title": "A resolved path resolves to itself", "statement": "The path, query and fragment that a successful resolution returns, written as one text and given back as a request from any directory, to the same or another resolver with the same symlink option and whatever the caches hold, resolve to the same path, query and fragment, provided that the second resolver does not rewrite the path (alias, browser field, tsconfig, prefer_relative), does not enforce extensions, can read the description that applies, the path has no '?' or '#', and, with symlinks off, names a file. Each condition is needed.", "quantifier": "all file systems whose canonical paths are their own canonical paths, all resolvers, directories, requests, tables and histories", "why_tests_cant": "Two calls, related by the answer of the first, for all disks and options.", "anchors": ["src/lib.rs: resolve, ResolveInfo::join", "src/normalize.rs", "src/plugin/prefer_relative.rs", "src/parse.rs"]}
{"id": "C68", "title": "A description file is read once for each version of it", "statement": "In any history of calls and changes of the disk, from whatever tables, a resolver with a refresh period above 0 and no tsconfig reads a given description file, however its path is spelled, at most once more often than the file's modification time is changed, provided the file can be read and parsed whenever the disk changes. Other resolvers may share its cache. A derived Resolver::default() (refresh period 0) reads it at every lookup, and a file that does not parse is read by every call that meets it.", "quantifier": "all file systems on which spellings of a path agree, all histories, resolvers, directories and tables", "why_tests_cant": "A bound on the reads of all calls of a history of any length, in the presence of other resolvers and edits.", "anchors": ["src/description.rs: load_pkg_file, parse_description_file", "src/fs.rs: need_update, read_to_string", "src/cache.rs"]}
{"id": "C69", "title": "A path request is about the path it denotes", "statement": "Two requests that are paths (\"./x\", \"../x\", \"/x\", ...), asked from two directories, that denote the same path (or the same name in two spellings of the same directory), with the same query and fragment, get the same answer from a resolver that does not rewrite them (alias, tsconfig, prefer_relative), whatever calls were made before on the same disk: the same file, query and fragment, both ignored, or both an error, where a \"Resolve ... failed\" message names the request it is about. Browser fields may apply if at most one key matches; no exports field has the text of an imports field that can be accepted. Equality as paths is not enough (a slash at the end), nor may \"..\" be cancelled lexically.", "quantifier": "all file systems on which spellings of a path agree, all resolvers, pairs of directories and requests, and pairs of histories", "why_tests_cant": "A relation between two calls for all ways of writing a path, on all disks, with whatever the caches hold.", "anchors": ["src/lib.rs: get_path, ResolveInfo::join, _resolve", "src/parse.rs", "src/resolve.rs", "src/utils.rs: raise_resolve_failed_message"]}
{"id": "C70", "title": "The work of a call is bounded", "statement": "The number of operations (questions to the disk, uses of the tables) of a call that ends is bounded by a polynomial in the size of the file tree. False with two main fields: n directories inside each other, each with a description whose two main fields name the next one, make a request that is found take at least 2^n operations. Holds for the search for a description (linear in the length of the path, on an unchanging disk whatever the tables answer) and, without descriptions, aliases, prefer_relative and tsconfig, for every call (in each directory from the base upwards at most 4 + E + M(1 + E) questions for E extensions and M main files, whatever the disk answers).", "quantifier": "all file systems, table contents, resolvers, paths and requests, and all interleavings with other threads", "why_tests_cant": "A bound over all trees and all answers; that no polynomial bounds the work is a statement about all sizes.", "anchors": ["src/plugin/main_field.rs", "src/plugin/main_file.rs", "src/resolve.rs: resolve_as_dir, resolve_as_modules", "src/description.rs: load_pkg_file", "src/utils.rs: find_up"]}
{"id": "C71", "title": "Only descriptions and tsconfig files are read", "statement": "A call reads no file other than: the description file of a directory, after the directory and the file were seen to exist; the tsconfig file of the options; a file found for the \"extends\" of a tsconfig file that was read before. Modification times are asked of descriptions only; links are resolved with symlinks on only, for a file seen to exist. What is stored in the tables was read by this call: the text and time of a description, the value of this text under the directory it was read in; that there is no description is stored for directories only.", "quantifier": "all calls (resolve and load_side_effects), resolvers, and executions with arbitrary answers of the disk and the tables", "why_tests_cant": "That something is never done, whatever the disk and other threads do.", "anchors": ["src/description.rs: load_pkg_file, parse_description_file", "src/fs.rs", "src/tsconfig.rs: parse_file_to_value", "src/normalize.rs"]}
{"id": "C72", "title": "The adjusted canonical path names the file that was found", "statement": "With symlinks on, the string made of the canonical path (adjust) names the same file as the canonical path. On Unix it does so exactly if the path is UTF-8: such a path is unchanged, any other one comes out as the name of another path, because display() replaces invalid bytes. Likewise an extension is appended to the path itself exactly if the path is UTF-8. On Windows it does so for paths on a drive and for paths without the prefix \\\\?\\; a canonical path on a network share loses the prefix only, which makes it a relative path UNC\\server\\share\\....", "quantifier": "all byte sequences (Unix), all absolute canonical and plain paths (Windows)", "why_tests_cant": "All byte sequences; the Windows function is not compiled where the tests run.", "anchors": ["src/normalize.rs: adjust", "src/resolve.rs: append_ext_for_path"]}
{"id": "C73", "title": "Resolvers that are told the same answer the same", "statement": "On an unchanging disk two resolvers with the same options and parsers (enforce_extension left open counts as no) give the same answer to a request (and to load_side_effects), whatever their caches, refresh periods, earlier and concurrent calls: the answer is determined by options and disk. In particular Resolver::default() answers as Resolver::new with the default options, although their refresh periods differ (none and a second) and only the latter fills in enforce_extension. While descriptions are edited they may differ.", "quantifier": "all file systems on which spellings of a path agree, all pairs of resolvers with equal options, all requests and pairs of histories, under the conditions of C37", "why_tests_cant": "A relation between two resolvers over all options, disks and histories.", "anchors": ["src/lib.rs: Resolver (derive Default), Resolver::new", "src/options.rs: ResolverOptions::default", "src/fs.rs: CacheFile"]}
