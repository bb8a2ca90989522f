{
 "claims": [
  {
   "property": "C01",
   "status": "proved",
   "theorems": [
    "C01_lines_stable_and_tiled",
    "C01_lines_only_never_panics"
   ],
   "note": "Any insertion history, both overflow modes; the inline-range bound is only needed because finalising also merges inline ranges."
  },
  {
   "property": "C02",
   "status": "proved",
   "theorems": [
    "C02_lookup"
   ],
   "note": "Lookup result characterised for every address."
  },
  {
   "property": "C03",
   "status": "proved",
   "theorems": [
    "C03_ranges_merge",
    "C03_never_panics",
    "C03_overflow_refuted"
   ],
   "note": "Coverage, order, maximal neighbour merging, panic freedom under the 32-bit bound; C03_overflow_refuted shows what happens beyond it."
  },
  {
   "property": "C04",
   "status": "proved",
   "theorems": [
    "C04_inline_records"
   ],
   "note": "Text is stated with a separate field-joining specification."
  },
  {
   "property": "C05",
   "status": "proved",
   "theorems": [
    "C05_insertion_order",
    "C05_same_text",
    "C05_ties_refuted"
   ],
   "note": "C05_ties_refuted shows that the distinctness hypothesis is needed."
  },
  {
   "property": "C06",
   "status": "proved",
   "theorems": [
    "C06_func_records"
   ],
   "note": "Every list of functions (readable or not), inlines on or off."
  },
  {
   "property": "C07",
   "status": "proved",
   "theorems": [
    "C07_records_kept",
    "C07_new_records",
    "C07_other_addresses",
    "C07_no_panic",
    "C07_effect",
    "C07_windows",
    "C07_windows_unique",
    "C07_in_order"
   ],
   "note": "Any table, any list of publics, both overflow modes."
  },
  {
   "property": "C08",
   "status": "proved",
   "theorems": [
    "C08_inside_dropped",
    "C08_free_added",
    "C08_list_is_steps",
    "C08_final_table_sorted",
    "C08_final_table_unsorted_refuted"
   ],
   "note": "Every dropped or added public is decided against the table at its turn; in the final table the property holds for address-sorted input and C08_final_table_unsorted_refuted shows it fails otherwise."
  },
  {
   "property": "C09",
   "status": "proved",
   "theorems": [
    "C09_only_fill_holes",
    "C09_at_most_one_each",
    "C09_entry",
    "C09_bad_entries_ignored",
    "C09_no_panic"
   ],
   "note": "Any table and any list of exception entries."
  },
  {
   "property": "C10",
   "status": "proved",
   "theorems": [
    "C10_containment_exact",
    "C10_overflow"
   ],
   "note": "Exact containment; C10_overflow characterises the wrap."
  },
  {
   "property": "C11",
   "status": "proved",
   "theorems": [
    "C11_elf_sections",
    "C11_pe_trailing",
    "C11_pe_empty",
    "C11_pe_overflow"
   ],
   "note": "ELF and PE parts for any table; overflow case stated separately."
  },
  {
   "property": "C12",
   "status": "proved",
   "theorems": [
    "C12_functions_filed",
    "C12_written_ascending",
    "C12_read_ascending",
    "C12_merge_filed",
    "C12_fresh_filed",
    "C12_publics_filed",
    "C12_placeholders_filed",
    "C12_sections_filed"
   ],
   "note": "Functions, publics, placeholders (whose addresses are 32-bit values in the file), sections and merges of any number of objects are filed by address; the text is written in ascending order for any names, and is read back so for names without line breaks."
  },
  {
   "property": "C13",
   "status": "proved",
   "theorems": [
    "C13_collect_total",
    "C13_overflow_panics_refuted",
    "C13_ranges_from_inlinees"
   ],
   "note": "Total in release builds for every tree; with overflow checks for trees whose line ends fit (C13_overflow_panics_refuted shows the panic). C13_ranges_from_inlinees gives the range accounting, including completeness for well-formed trees."
  },
  {
   "property": "C14",
   "status": "partial",
   "theorems": [
    "C14_stack_unique",
    "C14_inline_records",
    "C14_innermost_line_partial",
    "C14_only_after_gap",
    "C14_lines_exact",
    "C14_innermost_line_refuted"
   ],
   "note": "REFUTED for the innermost line: successive equal lines of an inlined function with a gap between them lose the second (C14_innermost_line_refuted). The INLINE records are proved for every well-formed tree; the innermost line is proved to be missing only after such a gap (C14_only_after_gap), and the line that is found is characterised exactly in every case (C14_lines_exact)."
  },
  {
   "property": "C15",
   "status": "partial",
   "theorems": [
    "C15_caller_line_partial",
    "C15_overrun_refuted",
    "C15_kept",
    "C15_only_kept",
    "C15_only_crossed"
   ],
   "note": "REFUTED for inline ranges that reach over the end of a caller line (C15_overrun_refuted). What happens is proved exactly for trees whose calls are ordered and nested but may run over the ends of lines: a line is emitted if and only if it is kept in the sense of S_Collector.kept (C15_kept, C15_only_kept), and a lost line is always one that an inlined call runs into (C15_only_crossed)."
  },
  {
   "property": "C16",
   "status": "proved",
   "theorems": [
    "C16_lookup",
    "C16_line_zero_never",
    "C16_line_zero_refuted"
   ],
   "note": "Lookup for every sorted table below 2^32; line numbers beyond 32 bits can become 0 (C16_line_zero_refuted)."
  },
  {
   "property": "C17",
   "status": "proved",
   "theorems": [
    "C17_references_resolve"
   ],
   "note": "Every object, inlines on or off, given consistent string addresses."
  },
  {
   "property": "C18",
   "status": "proved",
   "theorems": [
    "C18_numbers_denote_paths",
    "C18_numbers_never_change",
    "C18_inconsistent_pointers_refuted"
   ],
   "note": "For histories whose string addresses are consistent; C18_inconsistent_pointers_refuted shows the wrong file otherwise."
  },
  {
   "property": "C19",
   "status": "partial",
   "theorems": [
    "C19_absolute_dir_kept",
    "C19_relative_dir_partial",
    "C19_windows_empty_dir_refuted",
    "C19_no_directory_refuted",
    "C19_no_compdir",
    "C19_windows_no_dir",
    "C19_utf8_compdir",
    "C19_latin1_compdir",
    "C19_canonical_or_normalised",
    "C19_absolute_test"
   ],
   "note": "REFUTED for Windows paths with an empty directory (treated as absolute, compilation directory ignored) and for files with no directory at all (an absolute path is invented). The path is determined in every case: C19_absolute_dir_kept, C19_relative_dir_partial, C19_no_compdir, C19_windows_no_dir."
  },
  {
   "property": "C20",
   "status": "partial",
   "theorems": [
    "C20_one_separator_at_the_seam",
    "C20_unix_text",
    "C20_windows_text",
    "C20_absolute_preserved",
    "C20_unix_associative",
    "C20_windows_root_refuted",
    "C20_windows_slash_partial",
    "C20_windows_not_associative_refuted"
   ],
   "note": "The claim about the Windows separator is REFUTED for a left side made only of separators; seam, absoluteness and Unix associativity are proved in full."
  },
  {
   "property": "C21",
   "status": "proved",
   "theorems": [
    "C21_no_dots",
    "C21_idempotent",
    "C21_absolute_meaning",
    "C21_exact",
    "C21_relative_meaning_refuted"
   ],
   "note": "Exact result for every path; the changed meaning of climbing relative paths is shown by a refutation."
  },
  {
   "property": "C22",
   "status": "proved",
   "theorems": [
    "C22_numbers_denote_names",
    "C22_numbers_never_change",
    "C22_no_control_characters"
   ],
   "note": "Every history, every demangler."
  },
  {
   "property": "C23",
   "status": "proved",
   "theorems": [
    "C23_merge"
   ],
   "note": "Every pair of lists."
  },
  {
   "property": "C24",
   "status": "proved",
   "theorems": [
    "C24_refuses",
    "C24_total",
    "C24_iteration_order"
   ],
   "note": "Every pair of objects that from_object can return with one path mapping; panic freedom needs record ends below 2^32 when overflow checks are on."
  },
  {
   "property": "C25",
   "status": "proved",
   "theorems": [
    "C25_attribution"
   ],
   "note": "Every pair of freshly processed objects with the same path mapping and every hash-map order."
  },
  {
   "property": "C26",
   "status": "partial",
   "theorems": [
    "C26_chain_partial",
    "C26_same_sources",
    "C26_places",
    "C26_which_files",
    "C26_refuted"
   ],
   "note": "REFUTED: C26_refuted gives three processed objects whose merge attributes a function to a file of another object, because the path index is not extended by a merge. Proved when at each step the accumulated object has more records than the next or has all its files indexed, and for objects of the same sources in any order (C26_same_sources). For any objects merging succeeds and everything but file names is right (C26_places); C26_which_files says which file names are wrong and what they become."
  },
  {
   "property": "C27",
   "status": "proved",
   "theorems": [
    "C27_merged_records",
    "C27_larger_kept"
   ],
   "note": "Record at every address, for record ends below 2^32."
  },
  {
   "property": "C28",
   "status": "partial",
   "theorems": [
    "C28_real_func_kept_partial",
    "C28_placeholder_wins",
    "C28_exactly",
    "C28_real_func_lost_refuted"
   ],
   "note": "REFUTED: a placeholder FUNC of the larger object hides the real FUNC of the smaller one. The condition is exact: a real FUNC of either object stays if and only if the larger object has no placeholder FUNC at that address (C28_exactly); otherwise the placeholder is what remains (C28_placeholder_wins)."
  },
  {
   "property": "C29",
   "status": "proved",
   "theorems": [
    "C29_cfi"
   ],
   "note": "Every pair of CFI texts."
  },
  {
   "property": "C30",
   "status": "proved",
   "theorems": [
    "C30_identity",
    "C30_pe_name_refuted"
   ],
   "note": "Every merge that succeeds; C30_pe_name_refuted shows that the PE name belonging to the code id is not kept."
  },
  {
   "property": "C31",
   "status": "proved",
   "theorems": [
    "C31_parse_back",
    "C31_fresh_writable",
    "C31_merged_writable",
    "C31_write_total"
   ],
   "note": "Freshly processed objects and merges of any number of them; the reader of the format is a separate specification. CFI text is assumed to consist of STACK lines, code id and PE name not to end in white space."
  },
  {
   "property": "C32",
   "status": "proved",
   "theorems": [
    "C32_origin_lines"
   ],
   "note": "Every history of names and every demangler; after merging the lists only contain such names (C23)."
  },
  {
   "property": "C33",
   "status": "partial",
   "theorems": [
    "C33_apart",
    "C33_one_line_partial",
    "C33_line_count",
    "C33_one_line_iff",
    "C33_injected_refuted",
    "C33_public_and_file_refuted"
   ],
   "note": "REFUTED: function, public and file names are written verbatim, so a line break in one adds records to the file (C33_injected_refuted, C33_public_and_file_refuted). The number of lines is exact: one plus the line breaks of the name (C33_line_count, C33_one_line_iff)."
  },
  {
   "property": "C34",
   "status": "proved",
   "theorems": [
    "C34_stdcall",
    "C34_fastcall",
    "C34_vectorcall",
    "C34_cdecl",
    "C34_undecorated_unchanged",
    "C34_punctuated_unchanged",
    "C34_panics_exactly",
    "C34_decision_table"
   ],
   "note": "Round trip for each calling convention, the full decision table, and the exact set of inputs that panic (a name whose first character is not ASCII)."
  },
  {
   "property": "C35",
   "status": "proved",
   "theorems": [
    "C35_fix_name",
    "C35_result_clean",
    "C35_idempotent",
    "C35_untouched",
    "C35_stripped_unique"
   ],
   "note": "Unit suffix language is a separate regular-expression specification; removal is unique and idempotent."
  },
  {
   "property": "C36",
   "status": "proved",
   "theorems": [
    "C36_constants_ignored",
    "C36_constants_removable",
    "C36_constant_names"
   ],
   "note": "Every decoded constant name and no other is ignored."
  },
  {
   "property": "C37",
   "status": "proved",
   "theorems": [
    "C37_decomposes",
    "C37_expansion",
    "C37_unknown_action",
    "C37_no_panic"
   ],
   "note": "Every template, variable set, expression and path; regular-expression matching and digests are arguments."
  },
  {
   "property": "C38",
   "status": "proved",
   "theorems": [
    "C38_rule_order",
    "C38_first_rule",
    "C38_memo_transparent",
    "C38_history",
    "C38_retry",
    "C38_changed_file_refuted"
   ],
   "note": "Every rule list, history of lookups and interleaving of checks and insertions. C38_changed_file_refuted shows why the files must not change."
  },
  {
   "property": "C39",
   "status": "partial",
   "theorems": [
    "C39_command_line",
    "C39_variables",
    "C39_no_equals",
    "C39_lengths",
    "C39_pairs_partial",
    "C39_empty_list_refuted",
    "C39_panics"
   ],
   "note": "REFUTED for an empty list given on one side only, which panics (C39_empty_list_refuted). Proved when both lists are given or neither is, and for every accepted command line, whose lists are never empty (C39_command_line). C39_panics states exactly when it panics."
  },
  {
   "property": "C40",
   "status": "proved",
   "theorems": [
    "C40_servers",
    "C40_entry",
    "C40_source",
    "C40_broken"
   ],
   "note": "Every configuration string, home directory and file system. A configuration file that is a directory or not text makes the program panic when servers are needed (C40_broken, C57_broken_config, C58_broken_config)."
  },
  {
   "property": "C41",
   "status": "proved",
   "theorems": [
    "C41_later_lookup",
    "C41_bad_response",
    "C41_miss_unchanged"
   ],
   "note": "Every network, schedule and file system with a working disk; proper file names (no separators). The later lookup is proved when every server that may have given the URL has a cache."
  },
  {
   "property": "C42",
   "status": "partial",
   "theorems": [
    "C42_truncated_served",
    "C42_refuted",
    "C42_full_disk_refuted",
    "C42_directories_partial"
   ],
   "note": "REFUTED: a truncated file in the cache is returned by every later lookup (C42_refuted, C42_truncated_served); the same happens without a crash on a full disk (C42_full_disk_refuted). Proved for crashes before the file is created."
  },
  {
   "property": "C43",
   "status": "partial",
   "theorems": [
    "C43_download",
    "C43_nobody_answers",
    "C43_cannot_be_asked",
    "C43_somebody_answers",
    "C43_multibyte_refuted"
   ],
   "note": "REFUTED for names ending in a multi-byte character, for which forming the compressed name panics (C43_multibyte_refuted). The condition is exact: uncached lookups panic without a request if and only if the candidates cannot be asked for (C43_cannot_be_asked, C43_nobody_answers, C43_somebody_answers). The download itself is proved for every order of answers."
  },
  {
   "property": "C44",
   "status": "partial",
   "theorems": [
    "C44_no_cfi",
    "C44_complete",
    "C44_succeeds",
    "C44_needs_room",
    "C44_nothing_else",
    "C44_kept",
    "C44_full_disk_refuted"
   ],
   "note": "REFUTED on a full disk, where a text cut short counts as success (C44_full_disk_refuted). Proved on a working disk for every output selection, object and file system; C44_kept says what a success guarantees on any disk (at most the last 8192 bytes are missing), C44_needs_room what it needs of the file system."
  },
  {
   "property": "C45",
   "status": "proved",
   "theorems": [
    "C45_shape",
    "C45_injective",
    "C45_empty_parts_refuted",
    "C45_directory",
    "C45_no_directory"
   ],
   "note": "Names and ids non-empty and without separator; C45_empty_parts_refuted shows the non-emptiness is needed."
  },
  {
   "property": "C46",
   "status": "proved",
   "theorems": [
    "C46_merged_first"
   ],
   "note": "Every number of files and workers and every schedule of a small-step model of the threads, the queue, the lock and the counter."
  },
  {
   "property": "C47",
   "status": "partial",
   "theorems": [
    "C47_dump_syms_keeps_ids",
    "C47_at_most_once",
    "C47_exactly_once_partial",
    "C47_no_jobs_refuted"
   ],
   "note": "At most once: every run. REFUTED for exactly once with no job and one file (C47_no_jobs_refuted); proved for every other completed run without failed workers."
  },
  {
   "property": "C48",
   "status": "partial",
   "theorems": [
    "C48_race_refuted",
    "C48_race_is_final",
    "C48_one_worker_refuted",
    "C48_no_worker_refuted",
    "C48_finite",
    "C48_completes_partial",
    "C48_can_complete"
   ],
   "note": "REFUTED: racing workers can both miss the last file (C48_race_refuted, final by C48_race_is_final); with one worker and two modules, or no worker, no run ever ends. Proved: every run is finite, and without the race, with two workers or one module, it completes; and with two workers or one module there is a schedule that completes (C48_can_complete)."
  },
  {
   "property": "C49",
   "status": "partial",
   "theorems": [
    "C49_nothing_stored",
    "C49_hangs_refuted",
    "C49_silent_refuted"
   ],
   "note": "REFUTED: with fewer failing files than workers no run ever ends (C49_hangs_refuted); otherwise it may return success having stored nothing (C49_silent_refuted). Proved: nothing is stored."
  },
  {
   "property": "C50",
   "status": "proved",
   "theorems": [
    "C50_blocked_causes",
    "C50_zero_by_race",
    "C50_self_block_groups"
   ],
   "note": "Every reachable blocked state when files can be processed, merged and stored."
  },
  {
   "property": "C51",
   "status": "partial",
   "theorems": [
    "C51_chosen",
    "C51_only",
    "C51_none_partial",
    "C51_unreadable",
    "C51_unreadable_refuted"
   ],
   "note": "REFUTED: a file whose only object cannot be read makes the program panic (C51_unreadable_refuted; always, C51_unreadable). Proved otherwise: the chosen object is the only one or the first readable one of the architecture, nothing else is ever dumped, and an error results if there is none."
  },
  {
   "property": "C52",
   "status": "proved",
   "theorems": [
    "C52_found",
    "C52_sound",
    "C52_none",
    "C52_dump",
    "C52_damaged_panics"
   ],
   "note": "C52_found, C52_sound and C52_none determine the result for every directory. A candidate that is a damaged compressed archive makes the program panic (C52_damaged_panics), which the property does not exclude."
  },
  {
   "property": "C53",
   "status": "proved",
   "theorems": [
    "C53_local",
    "C53_servers",
    "C53_no_name",
    "C53_damaged_panics",
    "C53_working_directory_refuted"
   ],
   "note": "Search order as specified by pdb_places; the place called working directory in the program's comment is the directory above it: C53_working_directory_refuted shows that a PDB in the working directory itself is not found. A damaged archive at a place makes the program panic (C53_damaged_panics)."
  },
  {
   "property": "C54",
   "status": "partial",
   "theorems": [
    "C54_output",
    "C54_jobs",
    "C54_extra_info",
    "C54_newline_refuted",
    "C54_plan"
   ],
   "note": "REFUTED in one point: an accepted extra INFO line may hold a line break and then injects records (C54_newline_refuted). Output selection, job count and acceptance of INFO lines are proved in full; how the options are read from the command line is C74."
  },
  {
   "property": "C55",
   "status": "proved",
   "theorems": [
    "C55_no_panic",
    "C55_mapping_panics",
    "C55_object_ok",
    "C55_records",
    "C55_ends"
   ],
   "note": "Every parsed object; the record at every address is described by C55_records. Needs the minidebuginfo section inside the file and path mappings that do not panic on an entered path; exactly then the mapping panics (C55_mapping_panics)."
  },
  {
   "property": "C56",
   "status": "partial",
   "theorems": [
    "C56_inside_partial",
    "C56_climbs_refuted",
    "C56_names",
    "C56_merged_names",
    "C56_places",
    "C56_below"
   ],
   "note": "REFUTED: an ELF or Mach-O file that calls itself \"..\" is stored outside of the directory (C56_climbs_refuted). Proved for every other name (C56_below; names never have a slash, C56_names and C56_merged_names); C56_places gives the place for every name."
  },
  {
   "property": "C57",
   "status": "partial",
   "theorems": [
    "C57_elf",
    "C57_macho",
    "C57_pdb",
    "C57_pe_with_pdb",
    "C57_pe_alone",
    "C57_unknown",
    "C57_broken_pe",
    "C57_broken_config",
    "C57_other_build_refuted"
   ],
   "note": "REFUTED in one point: a PDB of another build found next to a PE is used, so the module has another debug id (C57_other_build_refuted). The dispatch is proved for every format."
  },
  {
   "property": "C58",
   "status": "proved",
   "theorems": [
    "C58_complete",
    "C58_failure",
    "C58_offline",
    "C58_by_id",
    "C58_broken_config",
    "C58_by_path",
    "C58_bad_options",
    "C58_settings"
   ],
   "note": "Names and debug ids must be proper path components (C56 shows what happens otherwise); parsers are oracles."
  },
  {
   "property": "C59",
   "status": "proved",
   "theorems": [
    "C59_bundle",
    "C59_refused"
   ],
   "note": "Refusal is a panic."
  },
  {
   "property": "C60",
   "status": "partial",
   "theorems": [
    "C60_listed",
    "C60_unreadable_refuted",
    "C60_panics"
   ],
   "note": "REFUTED for files with an unreadable object: the program panics (C60_unreadable_refuted, C60_panics). Proved for files whose objects are all readable."
  },
  {
   "property": "C61",
   "status": "partial",
   "theorems": [
    "C61_stdout",
    "C61_last_wins",
    "C61_overwritten_refuted"
   ],
   "note": "REFUTED for a file destination: each module replaces the one before (C61_last_wins, C61_overwritten_refuted). Proved for standard output."
  },
  {
   "property": "C62",
   "status": "proved",
   "theorems": [
    "C62_success",
    "C62_failure",
    "C62_bad_line"
   ],
   "note": "Argument parsing by clap and logging are not modelled."
  },
  {
   "property": "C63",
   "status": "proved",
   "theorems": [
    "C63_works",
    "C63_stored",
    "C63_records",
    "C63_written",
    "C63_same_sources",
    "C63_as_alone"
   ],
   "note": "C63_same_sources adds the source attribution for files of one debug id with the same paths (C26 refutes it otherwise). Hypotheses: strings at one place are one string (as for C17), record ends fit 32 bits when overflow checks are on, and the files do not change while the program runs. Whether a run ends is C48."
  },
  {
   "property": "C64",
   "status": "partial",
   "theorems": [
    "C64_schedule_refuted",
    "C64_pairs_partial",
    "C64_functions",
    "C64_same_sources"
   ],
   "note": "REFUTED: two files with one debug id, equally many records and one address under two names (C64_schedule_refuted). Proved when each debug id has at most two files and these differ in their number of records. For any number of files the FUNC addresses are proved to be the same when no file has placeholders, and functions that only one file has are the same up to source files (C64_functions), including the source files when the files share their paths (C64_same_sources)."
  },
  {
   "property": "C65",
   "status": "proved",
   "theorems": [
    "C65_in_order",
    "C65_stops",
    "C65_one"
   ],
   "note": "Also panics (unreadable files or objects) end the program."
  },
  {
   "property": "C66",
   "status": "partial",
   "theorems": [
    "C66_statuses",
    "C66_refused",
    "C66_success",
    "C66_panic",
    "C66_error_refuted",
    "C66_overflow_refuted"
   ],
   "note": "REFUTED: a file that fails with an error can leave status 0 with nothing stored (C66_error_refuted), and with overflow checks files that are all processed well can make the program panic when they are merged (C66_overflow_refuted). Proved: the possible statuses, those for settings that are refused (C66_refused), status 0 for good input, status 101 when files fail only by panicking. C86 says the same of the whole program."
  },
  {
   "property": "C67",
   "status": "proved",
   "theorems": [
    "C67_header",
    "C67_determined"
   ],
   "note": "C67_determined shows that the specification leaves no choice. Upper case is ASCII only (ids are hexadecimal)."
  },
  {
   "property": "C68",
   "status": "proved",
   "theorems": [
    "C68_complete",
    "C68_synthetic",
    "C68_trailing"
   ],
   "note": "Section sizes below 2^64; for the trailing record, addresses that fit 32 bits."
  },
  {
   "property": "C69",
   "status": "partial",
   "theorems": [
    "C69_read_partial",
    "C69_determined",
    "C69_upper_case_refuted",
    "C69_no_extension_refuted"
   ],
   "note": "REFUTED for extensions in upper case (C69_upper_case_refuted) and for archives without extension, which always panic (C69_no_extension_refuted). Proved for every other name: exactly the specified member is read."
  },
  {
   "property": "C70",
   "status": "partial",
   "theorems": [
    "C70_name",
    "C70_name_windows",
    "C70_inlines",
    "C70_caller_line",
    "C70_innermost_line_partial",
    "C70_only_after_gap",
    "C70_lines_exact",
    "C70_flat",
    "C70_merged"
   ],
   "note": "The innermost line is missing only after a gap between successive equal lines of an inlined function (C70_only_after_gap), where it is false (C14_innermost_line_refuted); C70_lines_exact says which line is found in every case. Name, inlined calls, lines of the caller, the case without inlines and merging are proved in full. On Windows the name is the one that the publics at the address give (C70_name_windows). Names and paths without line breaks (see C33)."
  },
  {
   "property": "C71",
   "status": "proved",
   "theorems": [
    "C71_twice",
    "C71_same_source",
    "C71_unchanged_refuted"
   ],
   "note": "C71_unchanged_refuted shows that the symbol file does change; the claim describes the exact change."
  },
  {
   "property": "C72",
   "status": "proved",
   "theorems": [
    "C72_flat_exact",
    "C72_exact",
    "C72_no_repeat",
    "C72_wide_refuted"
   ],
   "note": "C72_wide_refuted shows why numbers are taken below 2^32. Functions with inlined calls are the subject of C14 and C15."
  },
  {
   "property": "C73",
   "status": "partial",
   "theorems": [
    "C73_text",
    "C73_every_file",
    "C73_missing",
    "C73_directory_refuted",
    "C73_constants",
    "C73_padding",
    "C73_functions",
    "C73_schedule",
    "C73_rounds",
    "C73_blocks"
   ],
   "note": "REFUTED in one point: a directory makes the program panic instead of reporting an error (C73_directory_refuted). Everything else is proved; SHA-512 is modelled bit by bit and checked against FIPS 180-4 clause by clause and on known answers."
  },
  {
   "property": "C74",
   "status": "proved",
   "theorems": [
    "C74_understood",
    "C74_help",
    "C74_usage",
    "C74_spelling"
   ],
   "note": "clap 4.5 is modelled by hand for what cli uses of it (M_Args.v); arguments are valid UTF-8."
  },
  {
   "property": "C75",
   "status": "proved",
   "theorems": [
    "C75_settings",
    "C75_defaults",
    "C75_statuses",
    "C75_ends",
    "C75_no_work",
    "C75_listing",
    "C75_several",
    "C75_several_refused",
    "C75_mapping_panic"
   ],
   "note": "Several files: the worlds and exit statuses of runs of the workers that end (C75_several with C80-C84); a directory whose digest a rule asks for counts as not mapped (it panics, C73)."
  },
  {
   "property": "C76",
   "status": "partial",
   "theorems": [
    "C76_mapping",
    "C76_file",
    "C76_pe_pdb",
    "C76_pe_alone",
    "C76_shown",
    "C76_no_rules",
    "C76_mingw_refuted"
   ],
   "note": "REFUTED for a PE file without a usable PDB (C76_mingw_refuted: --inlines and the rules have no effect on an executable made with MinGW); what happens then is C76_pe_alone. ELF, Mach-O and PDB files: C76_file; PE files with a PDB: C76_pe_pdb. A rule that asks for the digest of a directory makes the program panic (C73, C55_mapping_panics, C76_ex_directory)."
  },
  {
   "property": "C77",
   "status": "proved",
   "theorems": [
    "C77_located",
    "C77_looked_for",
    "C77_as_written",
    "C77_reproducible",
    "C77_only_its_paths"
   ],
   "note": "fs::canonicalize is an oracle."
  },
  {
   "property": "C78",
   "status": "proved",
   "theorems": [
    "C78_nothing_remote",
    "C78_same",
    "C78_pe",
    "C78_pe_same",
    "C78_pdb_beside",
    "C78_untouched"
   ],
   "note": "C78_pdb_beside: a PDB beside a PE file, for which no server is needed, is not used in this build."
  },
  {
   "property": "C79",
   "status": "proved",
   "theorems": [
    "C79_function",
    "C79_public",
    "C79_inlined",
    "C79_no_control"
   ],
   "note": "The demangler and the recognition of languages are oracles."
  },
  {
   "property": "C80",
   "status": "proved",
   "theorems": [
    "C80_both",
    "C80_both_file",
    "C80_steady",
    "C80_threads",
    "C80_over",
    "C80_alone",
    "C80_store",
    "C80_complete"
   ],
   "note": "Processing a file is one step of the model; creating directories, creating the file and every write are steps of their own. Hypothesis [steady]: downloads made for one file do not change what another file gives; without symbol servers it holds (C80_steady). Every file is processed exactly once before storing begins, in some order, and the result differs from what that leaves only in files of the store ([partly], [processed]); after the end of the process nothing goes on (C80_over). The disk does not get full (C44 has one that does). With a second output the store is the same: C80_both (a stream), C80_both_file (a file)."
  },
  {
   "property": "C81",
   "status": "partial",
   "theorems": [
    "C81_can_end",
    "C81_pieces",
    "C81_whole_partial",
    "C81_whole_refuted",
    "C81_program_partial"
   ],
   "note": "REFUTED for texts of 8192 bytes or more (C81_whole_refuted: another module in the middle of the text, all exits successful). Proved: C81_pieces for every text, C81_whole_partial for texts shorter than the buffer of the writer, from the command line C81_program_partial. A write to a stream is carried out as a whole (the operating system may split one)."
  },
  {
   "property": "C82",
   "status": "partial",
   "theorems": [
    "C82_program_partial",
    "C82_can_end",
    "C82_one_module",
    "C82_one_text_refuted"
   ],
   "note": "REFUTED (C82_one_text_refuted: two workers write the same file, which ends as the text of one module followed by the end of the longer text of the other, all exits successful). Proved for files of one debug id: C82_one_module; for the whole program, any output: C82_program_partial (status 0, the text is complete at each destination, nothing else changes) and C82_can_end (even with one job)."
  },
  {
   "property": "C83",
   "status": "proved",
   "theorems": [
    "C83_both_partial",
    "C83_both_ends",
    "C83_both_file",
    "C83_both_file_ends",
    "C83_plain",
    "C83_plain_ends",
    "C83_store",
    "C83_can_end",
    "C83_as_alone"
   ],
   "note": "Hypotheses as for C80 ([steady], room in the store, a disk that does not get full); C83_plain has them replaced by plain ones (no symbol servers, a new store, texts that keep to their lines) and says what the stored texts read as. With one job and two modules, or no job, no run ends (C48); that a particular schedule ends is not claimed because of the race of C48. With --store and -o: C83_both_partial (standard output; texts shorter than the buffer), C83_both_file (a file; what it holds is C82), and that these end: C83_both_ends, C83_both_file_ends."
  },
  {
   "property": "C84",
   "status": "proved",
   "theorems": [
    "C84_finite",
    "C84_stuck"
   ],
   "note": "The hangs that remain are the ones of C48 and C50 (both REFUTED as claims that runs end)."
  },
  {
   "property": "C85",
   "status": "partial",
   "theorems": [
    "C85_alone",
    "C85_apart_partial",
    "C85_one_cache_partial",
    "C85_same_partial",
    "C85_kept",
    "C85_beside_refuted"
   ],
   "note": "REFUTED (C85_beside_refuted: a worker finds in the cache the file that another has just created, and reads an empty file, or part of it, as the symbols). Proved: lookups of other files are not disturbed (C85_apart_partial, C85_one_cache_partial); otherwise the result is the right one or a reading of an incomplete copy (C85_same_partial); when all have ended the cache has the complete file (C85_kept); the operations without others are the lookup of C41-C43 (C85_alone). Reading a file from the cache and create_dir_all are one step; the file systems considered have no file where a directory of a cache is needed and the disk is not full."
  },
  {
   "property": "C86",
   "status": "partial",
   "theorems": [
    "C86_nothing",
    "C86_panic",
    "C86_errors",
    "C86_silent_refuted",
    "C86_hangs_refuted"
   ],
   "note": "REFUTED: with one job the program ends with status 0 although a file that gives status 1 when alone could not be processed (C86_silent_refuted), and with two it never ends (C86_hangs_refuted). Proved for every output: nothing is written (C86_nothing); status 101 if files fail by panicking only (C86_panic); if they fail with errors only, the program ends only if every worker can meet one of them, and then with status 0 (C86_errors)."
  },
  {
   "property": "C87",
   "status": "proved",
   "theorems": [
    "C87_steady",
    "C87_order",
    "C87_one_cache",
    "C87_program",
    "C87_program_ends",
    "C87_beside_refuted"
   ],
   "note": "For servers named by the configuration file. Without the condition on the places of the files it is false (C87_beside_refuted: a PE file in the directory where the PDB of another one is kept). The lookups of different workers are made one after the other here; C85 is about lookups at the same time."
  },
  {
   "property": "C88",
   "status": "proved",
   "theorems": [
    "C88_same_module",
    "C88_stored_again",
    "C88_again",
    "C88_program",
    "C88_over_input_refuted",
    "C88_over_pdb_refuted",
    "C88_several",
    "C88_shared_id_refuted"
   ],
   "note": "For a file that is asked for by its path and is not a bundle; no symbol server named and no configuration file. The condition that nothing is written where files are looked for is needed: C88_over_input_refuted (the second run fails) and C88_over_pdb_refuted (the second run succeeds with another text). C88_program is for arguments without path mapping rules. C88_several: several files and --store, every file with a debug id of its own; without that it is false, C88_shared_id_refuted (the merged module can get the other file's name the second time, so that a file is added to the store)."
  },
  {
   "property": "C89",
   "status": "proved",
   "theorems": [
    "C89_file",
    "C89_moments",
    "C89_program",
    "C89_contents_refuted"
   ],
   "note": "Nothing is assumed. Log messages are not modelled. The contents of a file that was there may go: C89_contents_refuted."
  },
  {
   "property": "C90",
   "status": "proved",
   "theorems": [
    "C90_moments",
    "C90_several",
    "C90_plain",
    "C90_file",
    "C90_nothing",
    "C90_one",
    "C90_names_refuted"
   ],
   "note": "Module names and debug ids must be directory entries (C90_names_refuted: otherwise a file beside the store is replaced). What processing the inputs downloads is in fs1 (none without symbol servers, C90_plain). Log messages are not modelled."
  },
  {
   "property": "C91",
   "status": "proved",
   "theorems": [
    "C91_load",
    "C91_nothing_replaced",
    "C91_after",
    "C91_file",
    "C91_one",
    "C91_several",
    "C91_others_one",
    "C91_others_several",
    "C91_ids_refuted"
   ],
   "note": "Ids must be directory entries (C91_ids_refuted); names always are (file_name_proper). What a download leaves that panics is C92. C91_several needs processing to be steady as in C80; C91_after does not."
  },
  {
   "property": "C92",
   "status": "proved",
   "theorems": [
    "C92_agrees",
    "C92_load",
    "C92_nothing_replaced",
    "C92_lookup",
    "C92_contents",
    "C92_damaged",
    "C92_file",
    "C92_after",
    "C92_later_refuted"
   ],
   "note": "load_left is what is on the disk when load_file returns or panics; without a panic they agree (C92_agrees). C92_file has the output as well, C92_after several files one after the other; the threads of C80 and C89 go on with the disk before the panic. Ids must be directory entries. That a later lookup is not misled is false: C92_later_refuted."
  }
 ]
}