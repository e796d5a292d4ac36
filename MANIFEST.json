{
 "claims": [
  {
   "property": "C01",
   "status": "proved",
   "theorems": [
    "C01_split_lossless",
    "C01_display_roundtrip"
   ],
   "note": ""
  },
  {
   "property": "C02",
   "status": "proved",
   "theorems": [
    "C02_split_canonical",
    "C02_split_unique"
   ],
   "note": ""
  },
  {
   "property": "C03",
   "status": "proved",
   "theorems": [
    "C03_kind_table",
    "C03_kind_inverse"
   ],
   "note": ""
  },
  {
   "property": "C04",
   "status": "partial",
   "theorems": [
    "C04_builtin_refuted",
    "C04_builtin_spurious_refuted",
    "C04_builtin_partial"
   ],
   "note": "False as stated: the table has 'assert/,strict' instead of 'assert/strict' (refuted by witness); exact for every other specifier."
  },
  {
   "property": "C05",
   "status": "proved",
   "theorems": [
    "C05_normalize_evaluates",
    "C05_normalize_idempotent",
    "C05_normalize_components",
    "C05_normalize_absolute"
   ],
   "note": ""
  },
  {
   "property": "C06",
   "status": "partial",
   "theorems": [
    "C06_relative_meaning_refuted",
    "C06_meaning_partial"
   ],
   "note": "False as stated: leading '..' of relative paths are dropped (refuted by witness); proved that nothing else is lost."
  },
  {
   "property": "C07",
   "status": "proved",
   "theorems": [
    "C07_effective_path",
    "C07_effective_path_denotes"
   ],
   "note": ""
  },
  {
   "property": "C08",
   "status": "proved",
   "theorems": [
    "C08_success_was_a_file",
    "C08_success_on_disk",
    "C08_success_concurrent"
   ],
   "note": ""
  },
  {
   "property": "C09",
   "status": "proved",
   "theorems": [
    "C09_first_candidate",
    "C09_directory_last"
   ],
   "note": ""
  },
  {
   "property": "C10",
   "status": "proved",
   "theorems": [
    "C10_enforced_extension",
    "C10_new_resolver"
   ],
   "note": ""
  },
  {
   "property": "C11",
   "status": "proved",
   "theorems": [
    "C11_walk",
    "C11_chain_exists",
    "C11_absent_level",
    "C11_nothing_found",
    "C11_nearest_decides",
    "C11_none_decides"
   ],
   "note": ""
  },
  {
   "property": "C12",
   "status": "partial",
   "theorems": [
    "C12_passed_on_partial",
    "C12_same_specifier_partial",
    "C12_same_specifier_refuted"
   ],
   "note": "False as stated: after an existing directory without a main file the search climbs with an emptied target (refuted by witness); proved that this is the only way the specifier changes."
  },
  {
   "property": "C13",
   "status": "proved",
   "theorems": [
    "C13_no_marker",
    "C13_nothing_exists",
    "C13_every_error",
    "C13_generic_message",
    "C13_generic_message_no_description"
   ],
   "note": "For every execution (files and tables may change at any moment): the marker is never returned, and every error is the generic one or has its reason in the trace (description file, exports/imports field, canonicalisation, tsconfig); exact generic text when nothing exists."
  },
  {
   "property": "C14",
   "status": "partial",
   "theorems": [
    "C14_side_effects_marker_refuted",
    "C14_side_effects_marker_partial"
   ],
   "note": "False for relative paths (refuted by witness); proved for absolute paths."
  },
  {
   "property": "C15",
   "status": "partial",
   "theorems": [
    "C15_debug_partial",
    "C15_no_panic_partial",
    "C15_concurrent_partial",
    "C15_answer_partial",
    "C15_tsconfig_partial",
    "C15_package_partial",
    "C15_path_partial",
    "C15_no_panic_refuted"
   ],
   "note": "False as stated: ten different panics (refuted by witnesses). Proved: in release builds, for descriptions and tsconfigs of the right shape and complete scopes, the only panics left are unreachable!(), only when a directory without main file is asked for, and, unless all texts are ASCII, a slice inside a character (any history, any change of the disk, any interleaving; debug builds: any history with readable descriptions); not the former for package and internal requests under options that rewrite nothing; with the conditions of C16 there is an answer. A tsconfig may extend others; a theorem reduces the condition to one on the files of a chain."
  },
  {
   "property": "C16",
   "status": "partial",
   "theorems": [
    "C16_alias_cycle_refuted",
    "C16_termination_refuted",
    "C16_terminates_partial",
    "C16_terminates_concurrent_partial",
    "C16_modest_partial",
    "C16_empty_main_refuted"
   ],
   "note": "False as stated: alias, imports, browser and extends cycles, relative bases and a main field '' diverge (refuted: out of fuel for every fuel). Proved: otherwise a bound exists, independent of tables and earlier calls, also under concurrency; conditions: absolute base, no infinite chain of alias/imports/browser/main/extends steps, tables without exports/imports clash."
  },
  {
   "property": "C17",
   "status": "proved",
   "theorems": [
    "C17_rewrite"
   ],
   "note": ""
  },
  {
   "property": "C18",
   "status": "partial",
   "theorems": [
    "C18_attempts",
    "C18_plan_exists",
    "C18_no_alias_under_node_modules",
    "C18_lookalike_directory_refuted"
   ],
   "note": "Order, fall-through, Ignored and opt-out proved; but the opt-out test is textual, so a directory merely containing the text node_modules also disables aliases (refuted by witness)."
  },
  {
   "property": "C19",
   "status": "partial",
   "theorems": [
    "C19_other_keys_partial",
    "C19_whole_segments_refuted"
   ],
   "note": "False as stated: prefixes are textual (refuted by witness); keys that are not textual prefixes proved to have no effect."
  },
  {
   "property": "C20",
   "status": "proved",
   "theorems": [
    "C20_prefer_relative"
   ],
   "note": ""
  },
  {
   "property": "C21",
   "status": "partial",
   "theorems": [
    "C21_nearest_partial",
    "C21_consulted_partial",
    "C21_nearest_relative_refuted"
   ],
   "note": "False for relative paths (refuted by witness: a description in the current directory makes the lookup fail); proved for absolute paths, for the public call and for the loader all resolutions use."
  },
  {
   "property": "C22",
   "status": "proved",
   "theorems": [
    "C22_side_effects"
   ],
   "note": ""
  },
  {
   "property": "C23",
   "status": "partial",
   "theorems": [
    "C23_main_fields_partial",
    "C23_plan_exists",
    "C23_main_fields_independent_refuted"
   ],
   "note": "False as stated: a failing main field that is a directory moves the base of later ones (refuted by witness); proved when main fields naming directories resolve."
  },
  {
   "property": "C24",
   "status": "proved",
   "theorems": [
    "C24_main_files"
   ],
   "note": ""
  },
  {
   "property": "C25",
   "status": "partial",
   "theorems": [
    "C25_browser_off_partial",
    "C25_browser_true_refuted",
    "C25_browser_off_ends_partial"
   ],
   "note": "False as stated: a browser value true panics although browser_field is off (refuted by witness). Proved (two-run simulation, after any histories) for browser objects without that value, up to the spelling of paths in errors; both runs end under the conditions of C16."
  },
  {
   "property": "C26",
   "status": "proved",
   "theorems": [
    "C26_browser_object",
    "C26_browser_chain",
    "C26_chain_end_unique"
   ],
   "note": ""
  },
  {
   "property": "C27",
   "status": "partial",
   "theorems": [
    "C27_resolution_partial",
    "C27_browser_order_partial",
    "C27_bare_order_partial",
    "C27_order_independent_refuted",
    "C27_resolution_ends_partial"
   ],
   "note": "False as stated: ambiguous browser keys depend on hash order (refuted by witness). Proved for the browser field when at most one key matches, and for whole resolutions when no ambiguous key or tsconfig pattern applies (spelling of paths in errors aside; both runs end under the conditions of C16)."
  },
  {
   "property": "C28",
   "status": "proved",
   "theorems": [
    "C28_condition_matching",
    "C28_condition_matching_nested"
   ],
   "note": ""
  },
  {
   "property": "C29",
   "status": "proved",
   "theorems": [
    "C29_resolution_partial",
    "C29_names_as_set",
    "C29_permuted",
    "C29_unused_or_repeated",
    "C29_resolution_ends_partial"
   ],
   "note": ""
  },
  {
   "property": "C30",
   "status": "proved",
   "theorems": [
    "C30_selection",
    "C30_order_irrelevant",
    "C30_root"
   ],
   "note": ""
  },
  {
   "property": "C31",
   "status": "partial",
   "theorems": [
    "C31_substitution_refuted",
    "C31_substitution_partial"
   ],
   "note": "False as stated: '$' in the matched text is doubled (refuted by witness). Proved when the subpath has no '$' and targets of exact keys have no '*'; C36 gives the exact rewriting rule for all subpaths."
  },
  {
   "property": "C32",
   "status": "partial",
   "theorems": [
    "C32_relative_refuted",
    "C32_relative_partial",
    "C32_only_star",
    "C32_bad_target_rejected"
   ],
   "note": "False as stated: a target starting with '*' can become absolute or start with '../' (refuted). Proved when no target in the field starts with '*'; only targets that begin with '*' can leave the package; selected targets leaving it are rejected."
  },
  {
   "property": "C33",
   "status": "partial",
   "theorems": [
    "C33_exports_partial",
    "C33_imports_partial",
    "C33_exports_dotdot_partial",
    "C33_imports_dotdot_partial",
    "C33_posix",
    "C33_escape_refuted",
    "C33_check_target_refuted",
    "C33_check_target_partial",
    "C33_check_target_exact",
    "C33_check_target_accepts",
    "C33_too_strict_refuted",
    "C33_check_target_total"
   ],
   "note": "False as stated: empty segments count as depth and the last segment is not examined (refuted). Proved for targets without empty segments not ending in '..', for the check and for whole resolutions through exports and imports (symlinks off); for whole resolutions on disks where no file has a path that ends in '..' also for targets that end so. With an empty segment a whole call leaves the package (refuted by witness). What the check accepts is described exactly; it also turns down targets that stay inside when a name begins with '.' (refuted)."
  },
  {
   "property": "C34",
   "status": "proved",
   "theorems": [
    "C34_encapsulation",
    "C34_on_disk"
   ],
   "note": ""
  },
  {
   "property": "C35",
   "status": "partial",
   "theorems": [
    "C35_trailing_slash_rejected",
    "C35_exports_keys",
    "C35_slash_key_refuted",
    "C35_imports_keys"
   ],
   "note": "Exact acceptance conditions proved; the code also accepts the key '/' (refuted part)."
  },
  {
   "property": "C36",
   "status": "proved",
   "theorems": [
    "C36_candidates"
   ],
   "note": ""
  },
  {
   "property": "C37",
   "status": "partial",
   "theorems": [
    "C37_transparent_partial",
    "C37_clear",
    "C37_debug_partial",
    "C37_transparent_refuted",
    "C37_transparent_ends_partial"
   ],
   "note": "False as stated: exports and imports share one table (refuted by witness). Proved for every history when no exports field on the disk has the text of an imports field whose keys begin with # (enough: no exports field has only such keys), for calls not depending on hash order; agreement where both runs end (they do under the conditions of C16), error texts up to spelling of directories; debug builds when all descriptions can be read."
  },
  {
   "property": "C38",
   "status": "partial",
   "theorems": [
    "C38_concurrent_partial",
    "C38_concurrent_refuted",
    "C38_concurrent_ends_partial"
   ],
   "note": "False as stated, same cause as C37 (refuted by witness). Proved for every interleaving of any number of calls under the conditions of C37."
  },
  {
   "property": "C39",
   "status": "partial",
   "theorems": [
    "C39_shared_partial",
    "C39_shared_cache_refuted",
    "C39_shared_ends_partial"
   ],
   "note": "False as stated: cached descriptions of another description_file name are used (refuted by witness). Proved for resolvers with one description_file name per cache under the conditions of C37."
  },
  {
   "property": "C40",
   "status": "partial",
   "theorems": [
    "C40_reread_partial",
    "C40_kept",
    "C40_concurrent_refuted",
    "C40_new_partial",
    "C40_new_kept",
    "C40_default_partial"
   ],
   "note": "Proved over all histories with arbitrary file-system changes, where no exports field of a description that was on the disk has the text of an imports field whose keys begin with # (otherwise the wrong tree may be taken, see C43), when the directory is recorded. Sequential calls: with concurrent ones it is false (race between the two tables, refuted by witness)."
  },
  {
   "property": "C41",
   "status": "partial",
   "theorems": [
    "C41_changes_noticed_partial",
    "C41_on_disk_partial",
    "C41_changes_noticed_ends_partial",
    "C41_on_disk_ends_partial",
    "C41_debug_partial",
    "C41_changes_noticed_refuted"
   ],
   "note": "False as stated: deletions, creations above or beside looked-up directories and edits within the refresh period are missed (refuted by witness). Proved for all histories of calls and changes in which description files are edited with times later by the refresh period or added in new directories, also with these conditions read off the directory tree, and with a bound on the steps that does not depend on the history; release and debug builds, no exports field of a description having the text of an imports field whose keys begin with #."
  },
  {
   "property": "C42",
   "status": "partial",
   "theorems": [
    "C42_moving_partial",
    "C42_made_refuted",
    "C42_every_time_partial",
    "C42_errors_repeated_refuted"
   ],
   "note": "False as stated: after a malformed update the error is reported once (refuted by witness), and so is it when the malformed file is made in a directory known to have none (refuted by witness). Proved on an unchanging file system after any calls; and for concurrent calls in any interleaving on a changing disk, as long as the file could not be parsed from the beginning."
  },
  {
   "property": "C43",
   "status": "partial",
   "theorems": [
    "C43_keys_partial",
    "C43_own_trees_partial",
    "C43_kinds_share_refuted"
   ],
   "note": "False as stated: an imports tree is stored in and read from the exports table (refuted by witness). Proved: keys are injective on JSON values, and without such clashes every loaded package has the trees of its own fields."
  },
  {
   "property": "C44",
   "status": "proved",
   "theorems": [
    "C44_star",
    "C44_star_ascii_total",
    "C44_star_total"
   ],
   "note": ""
  },
  {
   "property": "C45",
   "status": "proved",
   "theorems": [
    "C45_paths_first",
    "C45_locations_exist",
    "C45_no_base_url"
   ],
   "note": ""
  },
  {
   "property": "C46",
   "status": "proved",
   "theorems": [
    "C46_extending_wins",
    "C46_inherited",
    "C46_nothing_invented",
    "C46_key_order",
    "C46_extends_followed"
   ],
   "note": ""
  },
  {
   "property": "C47",
   "status": "partial",
   "theorems": [
    "C47_inherited_base_refuted",
    "C47_own_base_partial",
    "C47_declared_partial",
    "C47_chain_exists"
   ],
   "note": "False as stated: inherited baseUrl is taken relative to the extending file (refuted by witness). Proved: the effective baseUrl is that of the first document of the extends chain that sets one, and is relative to the directory of that document where this is the directory of the first one or the baseUrl is absolute."
  },
  {
   "property": "C48",
   "status": "partial",
   "theorems": [
    "C48_query_carried_refuted",
    "C48_path_request_partial",
    "C48_any_request_partial",
    "C48_sources",
    "C48_join_order"
   ],
   "note": "False when an alias turns a path request into a package request with an exports pattern (refuted); proved without alias/browser/tsconfig, and for all requests when no description has exports/imports. For all requests: query and fragment are those of the request, or empty where a tsconfig answered, or those written in an exports/imports target that was selected."
  },
  {
   "property": "C49",
   "status": "proved",
   "theorems": [
    "C49_symlinks_on",
    "C49_symlinks_off"
   ],
   "note": ""
  },
  {
   "property": "C50",
   "status": "partial",
   "theorems": [
    "C50_chain",
    "C50_unmatched",
    "C50_matched",
    "C50_answered_elsewhere_refuted"
   ],
   "note": "Proved for descriptions with an imports field (exact trace); without one the request is looked up in node_modules (refuted by witness)."
  },
  {
   "property": "C51",
   "status": "proved",
   "theorems": [
    "C51_exports_decide"
   ],
   "note": ""
  },
  {
   "property": "C52",
   "status": "partial",
   "theorems": [
    "C52_self_reference_partial",
    "C52_no_node_modules_refuted",
    "C52_other_name_refuted"
   ],
   "note": "False as stated: without a node_modules directory on the way the package does not find itself, and names that only begin with the package's name are taken for it (both refuted by witness). Proved where a node_modules directory exists and the names agree."
  },
  {
   "property": "C53",
   "status": "partial",
   "theorems": [
    "C53_imports_package_partial",
    "C53_imports_package_refuted"
   ],
   "note": "False as stated: packages without exports field are not found through imports (refuted by witness). Proved for packages whose exports select an existing file."
  },
  {
   "property": "C54",
   "status": "proved",
   "theorems": [
    "C54_unique",
    "C54_reference",
    "C54_concurrent",
    "C54_reached"
   ],
   "note": "For release builds, an unchanging disk that compares paths by components, bare specifiers whose package name is ASCII if a subpath follows it, and descriptions where no exports field has the text of an imports field; paths inside error texts up to spelling."
  },
  {
   "property": "C55",
   "status": "proved",
   "theorems": [
    "C55_holder_goes_on",
    "C55_no_deadlock",
    "C55_completes",
    "C55_locks_restrict",
    "C55_locks_restrict_moving",
    "C55_fair",
    "C55_live",
    "C55_live_calm"
   ],
   "note": "For reader-writer locks per shard, taken by DashMap operations as described in Lock.v. Which waiting thread gets a lock is the choice of the schedule; fair schedules give every thread its turn again and again."
  },
  {
   "property": "C56",
   "status": "proved",
   "theorems": [
    "C56_tables",
    "C56_loaded",
    "C56_side_effects"
   ],
   "note": "For well-formed JSON numbers; resolvers that share a cache use one description file name and one parser. A tree in the exports field may come from the imports field of another description with the same text (finding of C37), which the statement allows."
  },
  {
   "property": "C57",
   "status": "proved",
   "theorems": [
    "C57_release",
    "C57_history",
    "C57_unnoticed",
    "C57_unnoticed_concurrent_refuted"
   ],
   "note": "The case of readable descriptions needs one cache and one relative description file name per resolver. That concurrent calls are stopped by the check is shown by a witness. C15, C37 and C41 are carried over to debug builds."
  },
  {
   "property": "C58",
   "status": "proved",
   "theorems": [
    "C58_changes",
    "C58_unique",
    "C58_described",
    "C58_concurrent",
    "C58_reached",
    "C58_ends_iff",
    "C58_total"
   ],
   "note": "For release builds, an unchanging disk that compares paths by components, descriptions where no exports field has the text of an imports field, and, with a tsconfig, patterns whose match does not panic (C44_star_total; so for ASCII) and configurations without repeated keys; browser fields and patterns of which at most one entry concerns a request (C27). Paths inside error texts up to spelling, panics without their text. That the answer is reached, for all large enough bounds, is shown for absolute base directories and tsconfig locations; that a request comes to something at all, under the conditions of C16."
  },
  {
   "property": "C59",
   "status": "proved",
   "theorems": [
    "C59_ends_always",
    "C59_ends_concurrent"
   ],
   "note": "For release builds, an unchanging disk that compares paths by components, descriptions where no exports field has the text of an imports field, absolute base directories and tsconfig locations, and browser fields and patterns of which at most one entry concerns a request (C27)."
  },
  {
   "property": "C60",
   "status": "proved",
   "theorems": [
    "C60_reference",
    "C60_allowed",
    "C60_concurrent",
    "C60_total",
    "C60_changes",
    "C60_debug"
   ],
   "note": "For disks that compare paths by components, descriptions where no exports field has the text of an imports field, and, with a tsconfig, configurations without repeated keys. After changes on disk: under the conditions of C41; debug builds: with one cache and one relative description file name per resolver. Panics are allowed without their text. The orders are allowed to differ from step to step, also where the program reads a field only once."
  },
  {
   "property": "C61",
   "status": "proved",
   "theorems": [
    "C61_any",
    "C61_concurrent",
    "C61_still",
    "C61_moving",
    "C61_moving_concurrent"
   ],
   "note": "With a tsconfig, configurations without repeated keys. Panics are allowed without their text. The entry used and the time its file is compared with are allowed to come from different readings (as happens when a file that no longer parses is read again)."
  },
  {
   "property": "C62",
   "status": "proved",
   "theorems": [
    "C62_moving",
    "C62_still",
    "C62_found",
    "C62_calm"
   ],
   "note": "With a tsconfig, configurations without repeated keys. Panics are allowed without their text. Each question is allowed to be answered by any of the file systems the call met, in whatever order."
  },
  {
   "property": "C63",
   "status": "partial",
   "theorems": [
    "C63_ends_refuted",
    "C63_flicker_refuted",
    "C63_side_partial",
    "C63_no_description_partial",
    "C63_calm_partial",
    "C63_kept_partial",
    "C63_kept_chain",
    "C63_extends_refuted"
   ],
   "note": "False as stated: one removal of a directory at the wrong moment, or a description file that comes and goes, makes a call run for ever, and so do two tsconfig files that extend each other in turns (all refuted by witness). Proved for all fair schedules: resolutions without descriptions and tsconfig on any changing disk; side-effects queries where directories and places of description files stay; under the conditions of C16 all calls while only other files change, with a tsconfig if that file and what it extends stay as well."
  },
  {
   "property": "C64",
   "status": "proved",
   "theorems": [
    "C64_reads",
    "C64_unique",
    "C64_wf",
    "C64_prints_back",
    "C64_values",
    "C64_invalid",
    "C64_spelling",
    "C64_spelling_moving"
   ],
   "note": "serde_json is modelled from its documentation and known behaviour (JsonText.v); what is printed for 64-bit floats is any function, and where said so one that prints numbers, or prints its own output unchanged. The parser of tsconfig files stays arbitrary. That all files on the two disks have the same modification times is part of the condition."
  },
  {
   "property": "C65",
   "status": "proved",
   "theorems": [
    "C65_phases",
    "C65_phases_end",
    "C65_on_disk",
    "C65_on_disk_end",
    "C65_histories",
    "C65_waiting_refuted"
   ],
   "note": "Release builds; changes of the disk as in C41 (edits with times later by the refresh period, additions); descriptions readable, no exports field with the text of an imports field whose keys begin with #; calls not depending on hash order. That all calls of a phase have ended is necessary (refuted otherwise)."
  },
  {
   "property": "C66",
   "status": "proved",
   "theorems": [
    "C66_field_process",
    "C66_check_target",
    "C66_check_target_shallow",
    "C66_long_target_refuted",
    "C66_long_request_refuted"
   ],
   "note": "For the functions of src/map.rs that use i32 (check_target, field_process); usize is taken to be wide enough. For texts of 2 GiB and more it is false (refuted by witness)."
  },
  {
   "property": "C67",
   "status": "proved",
   "theorems": [
    "C67_again",
    "C67_after_history",
    "C67_posix",
    "C67_marks_refuted",
    "C67_prefer_refuted",
    "C67_enforce_refuted",
    "C67_links_refuted"
   ],
   "note": "Release builds. Where a condition does not hold it is false (refuted by witness for '#', prefer_relative, enforce_extension and symlinks off)."
  },
  {
   "property": "C68",
   "status": "proved",
   "theorems": [
    "C68_once",
    "C68_default_refuted",
    "C68_malformed_refuted"
   ],
   "note": "Sequential histories; the two conditions on the resolver and the file are needed (refuted by witness without them)."
  },
  {
   "property": "C69",
   "status": "proved",
   "theorems": [
    "C69_denotes",
    "C69_concurrent",
    "C69_slash_refuted",
    "C69_dotdot_refuted"
   ],
   "note": "Release builds, calls one after the other or concurrent (any interleaving) on an unchanging disk; with alias, tsconfig or prefer_relative in play the text of the request matters (C67_prefer_refuted)."
  },
  {
   "property": "C70",
   "status": "partial",
   "theorems": [
    "C70_main_field_partial",
    "C70_main_field_run_partial",
    "C70_main_fields_partial",
    "C70_packages_partial",
    "C70_packages_run_partial",
    "C70_requests_partial",
    "C70_events",
    "C70_polynomial_refuted",
    "C70_nested_refuted",
    "C70_plain_partial",
    "C70_side_partial"
   ],
   "note": "No polynomial bounds the work with two main fields (refuted by witness). Bounds are proved for the search for a description and for resolvers without descriptions and rewriting, and for requests with descriptions: linear in the number of nested steps with one main field, for packages and imports also in the number of directories above and of targets; at most exponential with more main fields. Missing is one for rewriting (alias and browser fields)."
  },
  {
   "property": "C71",
   "status": "proved",
   "theorems": [
    "C71_read",
    "C71_other",
    "C71_stored"
   ],
   "note": "Over all executions with arbitrary answers, so also under concurrency and changes of the disk."
  },
  {
   "property": "C72",
   "status": "partial",
   "theorems": [
    "C72_text_partial",
    "C72_exact_partial",
    "C72_prefix",
    "C72_invalid",
    "C72_bytes_refuted",
    "C72_extension_partial",
    "C72_drive_partial",
    "C72_other_partial",
    "C72_share_refuted"
   ],
   "note": "False as stated: for Unix paths that are not UTF-8, and for all Windows paths on a network share (refuted by witness). Proved exactly for UTF-8 paths on Unix, and for drives and plain paths on Windows."
  },
  {
   "property": "C73",
   "status": "proved",
   "theorems": [
    "C73_policy",
    "C73_concurrent",
    "C73_default",
    "C73_changing_refuted"
   ],
   "note": "Release builds, unchanging disk, the conditions of C37; false while the disk changes, where the refresh period matters (refuted by witness)."
  }
 ]
}