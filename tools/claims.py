CLAIMS = {
 "C01": ("proved", ""),
 "C02": ("proved", ""),
 "C03": ("proved", ""),
 "C04": ("partial", "False as stated: the table has 'assert/,strict' instead of 'assert/strict' (refuted by witness); exact for every other specifier."),
 "C05": ("proved", ""),
 "C06": ("partial", "False as stated: leading '..' of relative paths are dropped (refuted by witness); proved that nothing else is lost."),
 "C07": ("proved", ""),
 "C08": ("proved", ""),
 "C10": ("proved", ""),
 "C13": ("proved", "For every execution (files and tables may change at any moment): the marker is never returned, and every error is the generic one or has its reason in the trace (description file, exports/imports field, canonicalisation, tsconfig); exact generic text when nothing exists."),
 "C14": ("partial", "False for relative paths (refuted by witness); proved for absolute paths."),
 "C48": ("partial", "False when an alias turns a path request into a package request with an exports pattern (refuted); proved without alias/browser/tsconfig, and for all requests when no description has exports/imports. For all requests: query and fragment are those of the request, or empty where a tsconfig answered, or those written in an exports/imports target that was selected."),
 "C49": ("proved", ""),
 "C28": ("proved", ""),
 "C29": ("proved", ""),
 "C30": ("proved", ""),
 "C31": ("partial", "False as stated: '$' in the matched text is doubled (refuted by witness). Proved when the subpath has no '$' and targets of exact keys have no '*'; C36 gives the exact rewriting rule for all subpaths."),
 "C32": ("partial", "False as stated: a target starting with '*' can become absolute or start with '../' (refuted). Proved when no target in the field starts with '*'; only targets that begin with '*' can leave the package; selected targets leaving it are rejected."),
 "C33": ("partial", "False as stated: empty segments count as depth and the last segment is not examined (refuted). Proved for targets without empty segments not ending in '..', for the check and for whole resolutions through exports and imports (symlinks off); for whole resolutions on disks where no file has a path that ends in '..' also for targets that end so. With an empty segment a whole call leaves the package (refuted by witness). What the check accepts is described exactly; it also turns down targets that stay inside when a name begins with '.' (refuted)."),
 "C35": ("partial", "Exact acceptance conditions proved; the code also accepts the key '/' (refuted part)."),
 "C36": ("proved", ""),
 "C12": ("partial", "False as stated: after an existing directory without a main file the search climbs with an emptied target (refuted by witness); proved that this is the only way the specifier changes."),
 "C15": ("partial", "False as stated: ten different panics (refuted by witnesses). Proved: in release builds, for descriptions and tsconfigs of the right shape and complete scopes, the only panics left are unreachable!(), only when a directory without main file is asked for, and, unless all texts are ASCII, a slice inside a character (any history, any change of the disk, any interleaving; debug builds: any history with readable descriptions); not the former for package and internal requests under options that rewrite nothing; with the conditions of C16 there is an answer. A tsconfig may extend others; a theorem reduces the condition to one on the files of a chain."),
 "C16": ("partial", "False as stated: alias, imports, browser and extends cycles, relative bases and a main field '' diverge (refuted: out of fuel for every fuel). Proved: otherwise a bound exists, independent of tables and earlier calls, also under concurrency; conditions: absolute base, no infinite chain of alias/imports/browser/main/extends steps, tables without exports/imports clash."),
 "C19": ("partial", "False as stated: prefixes are textual (refuted by witness); keys that are not textual prefixes proved to have no effect."),
 "C23": ("partial", "False as stated: a failing main field that is a directory moves the base of later ones (refuted by witness); proved when main fields naming directories resolve."),
 "C27": ("partial", "False as stated: ambiguous browser keys depend on hash order (refuted by witness). Proved for the browser field when at most one key matches, and for whole resolutions when no ambiguous key or tsconfig pattern applies (spelling of paths in errors aside; both runs end under the conditions of C16)."),
 "C37": ("partial", "False as stated: exports and imports share one table (refuted by witness). Proved for every history when no exports field on the disk has the text of an imports field whose keys begin with # (enough: no exports field has only such keys), for calls not depending on hash order; agreement where both runs end (they do under the conditions of C16), error texts up to spelling of directories; debug builds when all descriptions can be read."),
 "C38": ("partial", "False as stated, same cause as C37 (refuted by witness). Proved for every interleaving of any number of calls under the conditions of C37."),
 "C39": ("partial", "False as stated: cached descriptions of another description_file name are used (refuted by witness). Proved for resolvers with one description_file name per cache under the conditions of C37."),
 "C41": ("partial", "False as stated: deletions, creations above or beside looked-up directories and edits within the refresh period are missed (refuted by witness). Proved for all histories of calls and changes in which description files are edited with times later by the refresh period or added in new directories, also with these conditions read off the directory tree, and with a bound on the steps that does not depend on the history; release and debug builds, no exports field of a description having the text of an imports field whose keys begin with #."),
 "C42": ("partial", "False as stated: after a malformed update the error is reported once (refuted by witness), and so is it when the malformed file is made in a directory known to have none (refuted by witness). Proved on an unchanging file system after any calls; and for concurrent calls in any interleaving on a changing disk, as long as the file could not be parsed from the beginning."),
 "C43": ("partial", "False as stated: an imports tree is stored in and read from the exports table (refuted by witness). Proved: keys are injective on JSON values, and without such clashes every loaded package has the trees of its own fields."),
 "C09": ("proved", ""),
 "C11": ("proved", ""),
 "C17": ("proved", ""),
 "C18": ("partial", "Order, fall-through, Ignored and opt-out proved; but the opt-out test is textual, so a directory merely containing the text node_modules also disables aliases (refuted by witness)."),
 "C20": ("proved", ""),
 "C24": ("proved", ""),
 "C26": ("proved", ""),
 "C34": ("proved", ""),
 "C50": ("partial", "Proved for descriptions with an imports field (exact trace); without one the request is looked up in node_modules (refuted by witness)."),
 "C44": ("proved", ""),
 "C45": ("proved", ""),
 "C46": ("proved", ""),
 "C47": ("partial", "False as stated: inherited baseUrl is taken relative to the extending file (refuted by witness). Proved: the effective baseUrl is that of the first document of the extends chain that sets one, and is relative to the directory of that document where this is the directory of the first one or the baseUrl is absolute."),
 "C21": ("partial", "False for relative paths (refuted by witness: a description in the current directory makes the lookup fail); proved for absolute paths, for the public call and for the loader all resolutions use."),
 "C22": ("proved", ""),
 "C25": ("partial", "False as stated: a browser value true panics although browser_field is off (refuted by witness). Proved (two-run simulation, after any histories) for browser objects without that value, up to the spelling of paths in errors; both runs end under the conditions of C16."),
 "C40": ("partial", "Proved over all histories with arbitrary file-system changes, where no exports field of a description that was on the disk has the text of an imports field whose keys begin with # (otherwise the wrong tree may be taken, see C43), when the directory is recorded. Sequential calls: with concurrent ones it is false (race between the two tables, refuted by witness)."),
 "C51": ("proved", ""),
 "C52": ("partial", "False as stated: without a node_modules directory on the way the package does not find itself, and names that only begin with the package's name are taken for it (both refuted by witness). Proved where a node_modules directory exists and the names agree."),
 "C53": ("partial", "False as stated: packages without exports field are not found through imports (refuted by witness). Proved for packages whose exports select an existing file."),
 "C54": ("proved", "For release builds, an unchanging disk that compares paths by components, bare specifiers whose package name is ASCII if a subpath follows it, and descriptions where no exports field has the text of an imports field; paths inside error texts up to spelling."),
 "C55": ("proved", "For reader-writer locks per shard, taken by DashMap operations as described in Lock.v. Which waiting thread gets a lock is the choice of the schedule; fair schedules give every thread its turn again and again."),
 "C56": ("proved", "For well-formed JSON numbers; resolvers that share a cache use one description file name and one parser. A tree in the exports field may come from the imports field of another description with the same text (finding of C37), which the statement allows."),
 "C57": ("proved", "The case of readable descriptions needs one cache and one relative description file name per resolver. That concurrent calls are stopped by the check is shown by a witness. C15, C37 and C41 are carried over to debug builds."),
 "C58": ("proved", "For release builds, an unchanging disk that compares paths by components, descriptions where no exports field has the text of an imports field, and, with a tsconfig, patterns whose match does not panic (C44_star_total; so for ASCII) and configurations without repeated keys; browser fields and patterns of which at most one entry concerns a request (C27). Paths inside error texts up to spelling, panics without their text. That the answer is reached, for all large enough bounds, is shown for absolute base directories and tsconfig locations; that a request comes to something at all, under the conditions of C16."),
 "C59": ("proved", "For release builds, an unchanging disk that compares paths by components, descriptions where no exports field has the text of an imports field, absolute base directories and tsconfig locations, and browser fields and patterns of which at most one entry concerns a request (C27)."),
 "C60": ("proved", "For disks that compare paths by components, descriptions where no exports field has the text of an imports field, and, with a tsconfig, configurations without repeated keys. After changes on disk: under the conditions of C41; debug builds: with one cache and one relative description file name per resolver. Panics are allowed without their text. The orders are allowed to differ from step to step, also where the program reads a field only once."),
 "C61": ("proved", "With a tsconfig, configurations without repeated keys. Panics are allowed without their text. The entry used and the time its file is compared with are allowed to come from different readings (as happens when a file that no longer parses is read again)."),
 "C62": ("proved", "With a tsconfig, configurations without repeated keys. Panics are allowed without their text. Each question is allowed to be answered by any of the file systems the call met, in whatever order."),
 "C63": ("partial", "False as stated: one removal of a directory at the wrong moment, or a description file that comes and goes, makes a call run for ever, and so do two tsconfig files that extend each other in turns (all refuted by witness). Proved for all fair schedules: resolutions without descriptions and tsconfig on any changing disk; side-effects queries where directories and places of description files stay; under the conditions of C16 all calls while only other files change, with a tsconfig if that file and what it extends stay as well."),
 "C64": ("proved", "serde_json is modelled from its documentation and known behaviour (JsonText.v); what is printed for 64-bit floats is any function, and where said so one that prints numbers, or prints its own output unchanged. The parser of tsconfig files stays arbitrary. That all files on the two disks have the same modification times is part of the condition."),
 "C65": ("proved", "Release builds; changes of the disk as in C41 (edits with times later by the refresh period, additions); descriptions readable, no exports field with the text of an imports field whose keys begin with #; calls not depending on hash order. That all calls of a phase have ended is necessary (refuted otherwise)."),
 "C66": ("proved", "For the functions of src/map.rs that use i32 (check_target, field_process); usize is taken to be wide enough. For texts of 2 GiB and more it is false (refuted by witness)."),
 "C67": ("proved", "Release builds. Where a condition does not hold it is false (refuted by witness for '#', prefer_relative, enforce_extension and symlinks off)."),
 "C68": ("proved", "Sequential histories; the two conditions on the resolver and the file are needed (refuted by witness without them)."),
 "C69": ("proved", "Release builds, calls one after the other or concurrent (any interleaving) on an unchanging disk; with alias, tsconfig or prefer_relative in play the text of the request matters (C67_prefer_refuted)."),
 "C70": ("partial", "No polynomial bounds the work with two main fields (refuted by witness). Bounds are proved for the search for a description and for resolvers without descriptions and rewriting, and for requests with descriptions: linear in the number of nested steps with one main field, for packages and imports also in the number of directories above and of targets; at most exponential with more main fields. Missing is one for rewriting (alias and browser fields)."),
 "C71": ("proved", "Over all executions with arbitrary answers, so also under concurrency and changes of the disk."),
 "C72": ("partial", "False as stated: for Unix paths that are not UTF-8, and for all Windows paths on a network share (refuted by witness). Proved exactly for UTF-8 paths on Unix, and for drives and plain paths on Windows."),
 "C73": ("proved", "Release builds, unchanging disk, the conditions of C37; false while the disk changes, where the refresh period matters (refuted by witness)."),
}
