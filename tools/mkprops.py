#!/usr/bin/env python3
"""Generates /verif/properties.jsonl (one JSON object per line)."""
import json, os
P = []
def p(id, title, statement, quantifier, why, *anchors):
    P.append(dict(id=id, title=title, statement=statement, quantifier=quantifier,
                  why_tests_cant=why, anchors=list(anchors)))

# ---------------------------------------------------------------- requests
p("C01","Request splitting is lossless",
  "The target, query and fragment that `resolve` extracts from a request string, concatenated in that order, are exactly the request string: no character is dropped, duplicated or reordered, so `Request`'s Display gives back the original specifier.",
  "every request string (any length, any Unicode characters)",
  "Tests check a dozen literals; a state-machine slip only shows on particular orders of '#' and '?'.",
  "src/parse.rs: Request::parse_identifier, Display for Request", "src/parse.rs: Resolver::parse")
p("C02","Request splitting is the unique canonical split",
  "The target contains no '?' and no '#' except possibly as its first character; the query is empty or starts with '?' and has no '#'; the fragment is empty or starts with '#' and is only present when something precedes it. These conditions determine the split uniquely.",
  "every request string and every candidate triple",
  "Uniqueness quantifies over all alternative splits of all strings.",
  "src/parse.rs: Request::parse_identifier")
p("C03","Request classification is a total decision table",
  "Every target falls in exactly one of Internal ('#...'), AbsolutePosix ('/...'), Relative ('', '.', '..', './...', '../...'), AbsoluteWin (a drive letter and ':' alone, or followed by '/' or '\\\\'), Normal (everything else), in that priority.",
  "every target string",
  "An infinite input space; the Windows test goes through a multi-pattern automaton whose leftmost match may sit anywhere.",
  "src/kind.rs: Resolver::get_target_kind")
p("C04","Built-in module test recognises every Node core module of its list",
  "`is_build_in_module` answers true for each of Node's core specifiers (assert, assert/strict, fs, fs/promises, ...) and for nothing else.",
  "every string",
  "The table can only be compared exhaustively with Node's list and with every non-member.",
  "src/kind.rs: BUILT_IN_MODULE_SET, Resolver::is_build_in_module")
# ---------------------------------------------------------------- paths
p("C05","Lexical normalisation removes every '.' and '..' and is idempotent",
  "`normalize_path_without_link` of any path contains no '.', '..' or empty component, is absolute exactly when the input is, is a fixed point of itself, and for absolute input equals the usual stack evaluation of the components ('..' pops, '..' at the root stays).",
  "every path",
  "Unbounded component sequences; a boundary error only shows for particular nestings of '..'.",
  "src/normalize.rs: Resolver::normalize_path_without_link")
p("C06","Lexical normalisation keeps the meaning of relative paths",
  "Normalising a relative path denotes the same location relative to the current directory: leading '..' components are kept.",
  "every relative path",
  "Ranges over all relative paths.",
  "src/normalize.rs: Resolver::normalize_path_without_link")
p("C07","Effective path of a request",
  "A request with target '' or '.' denotes the base path itself; an absolute target denotes the target; any other target denotes base joined with the target by exactly one separator.",
  "every base path and target",
  "Infinite inputs; Path::join special cases (empty base, trailing slash, absolute argument).",
  "src/lib.rs: ResolveInfo::get_path")
# ---------------------------------------------------------------- success soundness
p("C08","A successful resolution is an existing regular file",
  "Whenever `resolve` returns Ok(Info), the un-normalised path it selected answered 'is a file' to a file-system query made during that call, the returned path is the real path (symlinks on) or lexical normal form (symlinks off) of that path, and the returned target is empty. True for every option set, cache content, file system behaviour (even one changing during the call) and iteration order.",
  "all options, requests, base paths, cache contents, file-system answers, hash orders",
  "Quantifies over every cache state and every file-system schedule.",
  "src/resolve.rs: resolve_as_file","src/plugin/extensions.rs","src/normalize.rs: normalize_result","src/lib.rs: Resolver::resolve")
p("C09","Exact file first, then extensions in the configured order",
  "For a relative or absolute request with no alias/browser/tsconfig remapping, if the exact path is a file (and enforce_extension is off) the exact path is returned; otherwise the first extension, in option order, for which path+extension is a file decides; later extensions and directory resolution are never consulted.",
  "all extension lists, file systems, base paths and targets",
  "Extension priority must hold for every list and every combination of existing files.",
  "src/resolve.rs: resolve_as_file","src/plugin/extensions.rs: ExtensionsPlugin::apply")
p("C10","enforce_extension is respected",
  "With enforce_extension on, every file returned by `resolve` is some path followed by one of the configured extensions; `Resolver::new` with enforce_extension unset turns it on exactly when some configured extension is the empty string, and never changes an explicit setting.",
  "all options, requests, caches and file systems",
  "Must hold on every route (module, main field, exports, alias, tsconfig) to success.",
  "src/resolve.rs: resolve_as_file","src/lib.rs: Resolver::new")
# ---------------------------------------------------------------- node_modules
p("C11","node_modules lookup walks the ancestors from nearest to farthest",
  "For a bare specifier the directories examined are base/node_modules, parent(base)/node_modules, ... up to the root, in that order; the first directory that produces a file or a hard error decides and farther ones are not consulted; if none decides the result is the generic failure.",
  "all base paths of any depth, all file systems, all bare specifiers",
  "Depth is unbounded, and which level decides depends on the whole file system.",
  "src/resolve.rs: resolve_as_modules")
p("C12","Every node_modules level is searched for the same specifier",
  "While climbing, each ancestor's node_modules is searched for the specifier the user asked for.",
  "all base paths, file systems, bare specifiers",
  "Requires considering every way a lower level can fail.",
  "src/resolve.rs: resolve_as_modules, resolve_as_dir","src/plugin/main_file.rs")
# ---------------------------------------------------------------- errors
p("C13","Failure messages",
  "`resolve` never returns the internal marker \"T0\" as error text; when nothing matches, the error is exactly \"Resolve '<target+query+fragment>' failed in '<base>'\" for the request the user passed.",
  "all options, requests, caches, file systems",
  "Every error route has to be considered.",
  "src/lib.rs: Resolver::_resolve, Resolver::resolve","src/utils.rs: raise_tag, raise_resolve_failed_message")
p("C14","Public side-effects lookup never leaks the internal marker",
  "`load_side_effects` returns a readable error, never the internal marker \"T0\".",
  "all paths and file systems",
  "Needs a path whose ancestors are all absent, for every file system.",
  "src/description.rs: load_side_effects, load_pkg_file")
p("C15","resolve does not panic",
  "`resolve` returns Ok or Err on every request, every package.json/tsconfig content and every file system; it never panics.",
  "all options, requests, descriptions, file systems, caches",
  "Panic freedom quantifies over all inputs.",
  "src/lib.rs: _resolve (unreachable!)","src/map.rs: from_json","src/resolve.rs: resolve_as_modules","src/plugin/exports_field.rs","src/description.rs","src/tsconfig.rs","src/tsconfig_path.rs: match_star")
p("C16","resolve terminates",
  "`resolve` returns after finitely many steps for every configuration (alias cycles, imports cycles, browser-field cycles, tsconfig extends cycles, relative base directories) and file system.",
  "all options, requests, descriptions, file systems",
  "Non-termination cannot be observed by a finite test run, termination must hold for all inputs.",
  "src/plugin/alias.rs","src/plugin/imports_field.rs","src/plugin/alias_field.rs: deal_with_alias_fields_recursive","src/description.rs: load_pkg_file","src/tsconfig.rs: parse_file_to_value","src/plugin/main_field.rs")
# ---------------------------------------------------------------- alias
p("C17","Alias rewriting substitutes exactly the matched prefix",
  "When an alias (from,to) applies to a target, the rewritten target is `to` followed by the target without its prefix `from`; query, fragment and base directory are unchanged.",
  "all aliases, targets, requests",
  "All strings, including overlapping and empty prefixes.",
  "src/plugin/alias.rs: AliasPlugin::apply")
p("C18","Alias priority, fall-through and opt-out",
  "Aliases are tried in list order; a matching `Ignored` alias makes `resolve` return Ok(Ignored) unless an earlier alias already resolved; an alias whose rewriting fails to resolve is skipped; if none succeeds the original request is resolved as if there were no alias. No alias applies when the base directory lies under node_modules.",
  "all alias lists, requests, file systems, caches",
  "Alias lists are unbounded and each entry's success depends on the whole resolution.",
  "src/plugin/alias.rs: AliasPlugin::apply","src/lib.rs: _resolve")
p("C19","An alias key only matches whole path segments",
  "An alias for 'foo' affects 'foo' and 'foo/...' but not 'foobar'.",
  "all alias keys and targets",
  "Infinite inputs.",
  "src/plugin/alias.rs: AliasPlugin::apply")
p("C20","prefer_relative tries the relative file first and then falls back",
  "With prefer_relative on, a request not already starting with './' or '../' is first resolved as './<request>'; if that succeeds it is the answer, otherwise resolution continues exactly as with prefer_relative off. With it off, no such attempt is made.",
  "all requests, options, file systems, caches",
  "Equality of two whole resolutions for every input.",
  "src/plugin/prefer_relative.rs")
# ---------------------------------------------------------------- package.json
p("C21","The nearest description file is used",
  "With a cold cache, the description consulted for a path is the one in the nearest existing ancestor directory (or the path itself when it is a directory) that contains the description file; none if there is none; `load_side_effects` reports exactly that file.",
  "all paths, all file systems whose directories have directory ancestors",
  "Unbounded depth; depends on the whole ancestor chain.",
  "src/description.rs: load_pkg_file, load_side_effects","src/utils.rs: find_up")
p("C22","sideEffects is reported as written",
  "`load_side_effects` returns the boolean or the array of strings in the description unchanged and in order, nothing when the field is absent, and an error for any other shape.",
  "all JSON values of the field",
  "Infinite JSON values.",
  "src/description.rs: parse_description_file")
p("C23","Main fields are tried in order, each against the package directory",
  "For a directory with a description, each configured main field that is a string is resolved relative to that directory, in option order, and the first that resolves decides; '.' and './' stop the search; a failing main field does not influence how later ones are resolved.",
  "all main_fields lists, descriptions, file systems",
  "Interaction between a failing entry and later ones depends on the file system.",
  "src/plugin/main_field.rs","src/resolve.rs: resolve_as_dir")
p("C24","Main files are tried in order",
  "When no main field resolves, the configured main_files are tried in order as files of the directory (with extension rules), and the first that exists decides.",
  "all main_files lists, directories, file systems",
  "Unbounded lists, every file system.",
  "src/plugin/main_file.rs")
p("C25","The browser field has no effect when browser_field is off",
  "With browser_field off the `browser` object of any description has no influence on the result.",
  "all descriptions, requests, file systems, caches",
  "Relates two runs on differing inputs.",
  "src/plugin/alias_field.rs")
p("C26","Browser-field remapping follows chains and honours false",
  "With browser_field on, a request matching a key is replaced by the end of the chain of keys starting at its value (or Ok(Ignored) if the chain ends in false), relative to the package directory.",
  "all browser objects, requests, iteration orders",
  "Chains of any length, any hash iteration order.",
  "src/plugin/alias_field.rs")
p("C27","Results do not depend on hash-map iteration order",
  "Two resolvers with the same options on the same file system give the same answer; the answer does not depend on the (randomised) iteration order of hash maps.",
  "all requests, options, file systems, all iteration orders",
  "Iteration order is randomised per process/map; tests see one order per run.",
  "src/plugin/alias_field.rs","src/tsconfig_path.rs: get_absolute_mapping_entries")
# ---------------------------------------------------------------- exports / imports
p("C28","Condition matching is first-match depth-first search with backtracking",
  "For a conditional target, the value chosen is the first non-object leaf in document order reachable through keys that are 'default' or enabled conditions, backtracking out of nested objects that yield nothing; meeting 'default' before the last key of an object is an error.",
  "all nested condition objects and condition sets",
  "Nesting is unbounded; the code is an explicit-stack loop.",
  "src/map.rs: conditional_mapping")
p("C29","Condition names behave as a set",
  "Only membership matters: permuting or duplicating condition_names, or adding a name that occurs nowhere in the field, changes no answer.",
  "all fields, requests, pairs of condition lists",
  "Relates all pairs of lists.",
  "src/map.rs: conditional_mapping, field_process")
p("C30","Subpath selection: exact key, else longest matching prefix pattern",
  "For an exports/imports object the entry used for a (ASCII) request is the exact key if present, otherwise among keys 'P*' and folder keys 'P/' whose P is a prefix of the request the one with longest P ('*' preferred on a tie); if none matches the result is the empty list. The order in which keys are written is irrelevant.",
  "all objects with distinct keys, all requests",
  "The code builds a path trie; equivalence with the rule must hold for all key sets and requests.",
  "src/map.rs: PathTreeNode::walk, find_match, apply_folder_mapping, apply_wildcard_mappings, field_process")
p("C31","Pattern substitution inserts the matched remainder verbatim",
  "For a pattern key the result is the target with every '*' replaced by the text matched by the key's '*'; for a folder key it is target followed by the remainder.",
  "all targets, requests",
  "All strings, including '$' and '*' inside the matched text.",
  "src/map.rs: target_mapping, field_process")
p("C32","Exports targets are package relative",
  "No string returned by exports matching is absolute or starts with '../'; a field containing a selected target that does so yields an error.",
  "all exports values, requests and condition sets",
  "All nested arrays/conditions.",
  "src/map.rs: ExportsField::assert_target, mapping")
p("C33","Exports and imports targets cannot escape the package directory",
  "When a package entry point is selected through exports (or a relative imports target) the resulting file lies inside the package directory: at no point do its '..' components climb above it.",
  "all targets and packages",
  "All path strings.",
  "src/map.rs: check_target","src/plugin/exports_field.rs","src/plugin/imports_field.rs")
p("C34","Exports encapsulation",
  "If a package found in node_modules has an exports field and the requested subpath is not selected by it (or none of its targets is an existing file), `resolve` fails with \"Package path ... is not exported\" and never falls back to the package's files or to farther node_modules.",
  "all packages, subpaths, conditions, file systems, caches",
  "All fields and file systems.",
  "src/plugin/exports_field.rs","src/resolve.rs: resolve_as_modules")
p("C35","Exports/imports requests and keys are validated",
  "Subpath requests ending in '/' are rejected, exports keys may not mix subpaths and conditions, exports subpath keys must start with './' (or be '.'), imports keys must start with '#' but not '#/' and not be '#'.",
  "all fields and requests",
  "All strings and key sets.",
  "src/map.rs: assert_request, build_field_path_tree")
p("C36","Candidate lists come only from targets written in the field",
  "Every string returned for a request is obtained from some string target of the selected entry by the substitution rule of C31 under a condition path enabled by condition_names, in document order.",
  "all fields, requests, condition sets",
  "Nested arrays and conditions of any depth.",
  "src/map.rs: mapping")
# ---------------------------------------------------------------- cache
p("C37","Resolution is independent of earlier calls (cache transparency)",
  "On an unchanging file system, the result of `resolve` on a resolver that already served any sequence of calls equals the result on a fresh resolver.",
  "all histories of calls, all requests, all options",
  "All histories; tests use one or two calls.",
  "src/description.rs: load_pkg_file, parse_description_file","src/cache.rs","src/fs.rs")
p("C38","Concurrent calls do not interfere",
  "On an unchanging file system, calls of `resolve` running concurrently on one shared resolver each return what they would return alone on a fresh resolver, under every interleaving of their cache and file-system operations.",
  "all numbers of threads, requests and schedules",
  "All schedules.",
  "src/cache.rs: ResolverCache","src/description.rs","src/fs.rs")
p("C39","Sharing an external cache between resolvers is transparent",
  "A resolver given an external cache already used by other resolvers (of any options) answers as a fresh resolver would.",
  "all options of both resolvers, all histories",
  "All histories and option pairs.",
  "src/lib.rs: Resolver::new","src/cache.rs","src/description.rs: load_pkg_file")
p("C40","A modified description file is re-read",
  "After a description file that is still present has been rewritten with a modification time at least the refresh period (1 s for Resolver::new) later than the recorded one, the next lookup of its directory uses the new content.",
  "all histories, contents, times",
  "All histories of file changes.",
  "src/fs.rs: need_update","src/description.rs: load_pkg_file")
p("C41","Changes to description files are never silently missed",
  "After any change (edit, deletion, creation) to description files, later calls do not answer from the old content.",
  "all histories of calls and changes",
  "All histories of file changes and timestamps.",
  "src/fs.rs: need_update","src/description.rs: load_pkg_file")
p("C42","Errors in description files are reported on every call",
  "While a description file is malformed, every resolution that consults it fails with the same error.",
  "all histories",
  "Needs edit-then-repeat histories.",
  "src/description.rs: load_pkg_file, parse_description_file","src/fs.rs: read_to_string")
p("C43","Different exports contents never share a cache entry",
  "Two description files share a cached parsed field only if the field contents are the same JSON value of the same field kind.",
  "all pairs of JSON values and field kinds",
  "Injectivity of the serialised key over all JSON values.",
  "src/description.rs: parse_description_file")
# ---------------------------------------------------------------- tsconfig
p("C44","tsconfig star patterns match exactly prefix*suffix",
  "A paths pattern A*B matches a request exactly when the request is A, at least one character, then B; the matched text is what lies between; patterns without '*' only match themselves.",
  "all patterns and requests",
  "All strings, byte/char boundaries.",
  "src/tsconfig_path.rs: match_star")
p("C45","tsconfig paths are tried first, then ordinary resolution",
  "With a tsconfig whose baseUrl and paths are set, the substituted locations of the matching patterns are tried in order and the first that resolves is the answer; if none does, the answer is that of ordinary resolution; without baseUrl, paths are ignored.",
  "all tsconfigs, requests, file systems, caches",
  "Unbounded lists of patterns.",
  "src/tsconfig_path.rs: _resolve_with_tsconfig, create_match_list")
p("C46","tsconfig extends: the extending file wins",
  "After following extends, any value set in the extending file is kept, objects are merged key by key recursively, and values only present in the extended file are inherited.",
  "all pairs of JSON values",
  "Recursive merge of arbitrary JSON.",
  "src/tsconfig.rs: merge, parse_file_to_value")
p("C47","An inherited baseUrl is relative to the file that declares it",
  "A baseUrl inherited through extends is interpreted relative to the extended config's directory.",
  "all tsconfig chains",
  "All directory layouts.",
  "src/tsconfig_path.rs: create_match_list")
# ---------------------------------------------------------------- results
p("C48","Query and fragment are carried through",
  "A successful resolution of a path request keeps the request's query and fragment, and `ResolveInfo::join` renders path, query, fragment in that order.",
  "all requests, options, file systems",
  "All routes to success.",
  "src/lib.rs: ResolveInfo::join","src/resolve.rs: resolve_as_file","src/plugin/*.rs")
p("C49","Symlink option",
  "With symlinks on the returned path is the operating system's canonical path of the selected file, and a failing canonicalisation is reported as an error; with symlinks off the file system is not consulted for normalisation.",
  "all file systems, requests",
  "All file systems.",
  "src/normalize.rs: normalize_path, normalize_result")
p("C50","Self reference and internal requests stay in the package",
  "A '#name' request is answered only from the imports field of the nearest description; if the name is not matched the call fails and no file or node_modules lookup is made for it.",
  "all requests starting with '#', descriptions, file systems",
  "All fields and file systems.",
  "src/plugin/imports_field.rs","src/lib.rs: _resolve")

out = os.path.join(os.path.dirname(os.path.dirname(os.path.abspath(__file__))), "properties.jsonl")
with open(out, "w") as f:
    for x in P: f.write(json.dumps(x, ensure_ascii=False) + "\n")
print(len(P))
