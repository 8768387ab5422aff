{
 "claims": [
  {
   "property": "C01",
   "status": "proved",
   "theorems": [
    "C01_order",
    "C01_strict_total",
    "C01_eq_canonical",
    "C01_built_canonical",
    "C01_eq_any_spelling_refuted",
    "C01_main"
   ],
   "note": "The eq/hash part holds for canonical spellings; C01_eq_any_spelling_refuted shows '9.01' vs '9.1' breaks it otherwise."
  },
  {
   "property": "C02",
   "status": "proved",
   "theorems": [
    "C02_roundtrip",
    "C02_patch_truncates",
    "C02_patch_any_string",
    "C02_patch_rejects_nonnumeric",
    "C02_patch_rejects_short",
    "C02_rads_four_numbers"
   ],
   "note": ""
  },
  {
   "property": "C03",
   "status": "proved",
   "theorems": [
    "C03_as_int_order",
    "C03_threshold",
    "C03_main",
    "C03_as_int_unbounded_refuted"
   ],
   "note": "Bound on the patch number is necessary: C03_as_int_unbounded_refuted."
  },
  {
   "property": "C04",
   "status": "proved",
   "theorems": [
    "C04_delivers_ranges",
    "C04_chunking_independent",
    "C04_position"
   ],
   "note": ""
  },
  {
   "property": "C05",
   "status": "proved",
   "theorems": [
    "C05_patches",
    "C05_patch",
    "C05_patch_latest",
    "C05_patch_none_on_empty_refuted",
    "C05_patch_element",
    "C05_latest",
    "C05_latest_greatest",
    "C05_sorted"
   ],
   "note": "Exception found: patch() on an empty storage raises StopIteration (C05_patch_none_on_empty_refuted)."
  },
  {
   "property": "C06",
   "status": "proved",
   "theorems": [
    "C06_merge",
    "C06_versions",
    "C06_solution_elements",
    "C06_solution_sorted"
   ],
   "note": ""
  },
  {
   "property": "C07",
   "status": "proved",
   "theorems": [
    "C07_contents",
    "C07_never_wrong",
    "C07_frame",
    "C07_succeeds",
    "C07_empty_file_refuted"
   ],
   "note": "zlib and the network are arbitrary functions (zlib satisfying chunking independence). C07_empty_file_refuted: an empty file sharing the offset of a non-empty one listed before it makes the extraction raise."
  },
  {
   "property": "C08",
   "status": "proved",
   "theorems": [
    "C08_dependencies",
    "C08_sound",
    "C08_projects",
    "C08_truncation_refuted"
   ],
   "note": "C08_truncation_refuted: a solution manifest cut in its last dependency list is accepted with dependencies missing."
  },
  {
   "property": "C09",
   "status": "proved",
   "theorems": [
    "C09_manifest",
    "C09_rejects",
    "C09_files"
   ],
   "note": ""
  },
  {
   "property": "C10",
   "status": "proved",
   "theorems": [
    "C10_language",
    "C10_rejects",
    "C10_meaning",
    "C10_strict_dotted_refuted"
   ],
   "note": "The accepted language is characterised exactly; it is laxer than dotted numbers (C10_strict_dotted_refuted)."
  },
  {
   "property": "C11",
   "status": "proved",
   "theorems": [
    "C11_type_and_path",
    "C11_precedence",
    "C11_loaded"
   ],
   "note": "JSON values are modelled as strings; isdir/isfile/json.load are arbitrary oracles."
  },
  {
   "property": "C12",
   "status": "proved",
   "theorems": [
    "C12_frame",
    "C12_success",
    "C12_failure",
    "C12_reraise",
    "C12_bare_name_refuted",
    "C12_previous_refuted",
    "C12_link_refuted"
   ],
   "note": "Stated for paths with a directory part, without '..', not reached through symbolic links; outside that the guard is weaker (C12_bare_name_refuted, C12_previous_refuted, C12_link_refuted)."
  },
  {
   "property": "C13",
   "status": "proved",
   "theorems": [
    "C13_existing",
    "C13_no_request",
    "C13_success",
    "C13_failure",
    "C13_request_error",
    "C13_frame",
    "C13_idempotent",
    "C13_complete",
    "C13_never_clobbers",
    "C13_crash_refuted"
   ],
   "note": "Exception found: after a crash during the write a partial file is taken for complete (C13_crash_refuted)."
  },
  {
   "property": "C14",
   "status": "proved",
   "theorems": [
    "C14_headers",
    "C14_attributes",
    "C14_rejects_magic",
    "C14_rejects_version",
    "C14_rejects_truncated"
   ],
   "note": ""
  },
  {
   "property": "C15",
   "status": "proved",
   "theorems": [
    "C15_plain",
    "C15_redirect",
    "C15_subchunks",
    "C15_malformed",
    "C15_subchunk_errors",
    "C15_no_toc",
    "C15_read_file_data"
   ],
   "note": "Hash and decompressors are arbitrary functions. C15_malformed assumes a total decompressor; C15_subchunk_errors covers failing ones."
  },
  {
   "property": "C16",
   "status": "proved",
   "theorems": [
    "C16_sanitize",
    "C16_extension",
    "C16_no_collision",
    "C16_long_extension_refuted",
    "C16_dots_refuted"
   ],
   "note": "Exceptions found: extensions longer than 233 characters (C16_long_extension_refuted) and names made of dots only (C16_dots_refuted). Non-collision assumes guessed extensions made of pieces shorter than 16 characters, as in the signature table."
  },
  {
   "property": "C17",
   "status": "proved",
   "theorems": [
    "C17_unknown_path",
    "C17_distinct",
    "C17_keeps",
    "C17_all_files"
   ],
   "note": ""
  },
  {
   "property": "C18",
   "status": "proved",
   "theorems": [
    "C18_frame",
    "C18_contents",
    "C18_keeps",
    "C18_contents_keep",
    "C18_contained",
    "C18_escape_refuted",
    "C18_succeeds"
   ],
   "note": "Stated for entries whose path has no '..' and is not reached through symbolic links; C18_escape_refuted: absolute paths and '..' are written outside the output directory. C18_succeeds says when the extraction succeeds."
  },
  {
   "property": "C19",
   "status": "proved",
   "theorems": [
    "C19_guess",
    "C19_cache",
    "C19_new",
    "C19_archives"
   ],
   "note": "json.loads is an arbitrary oracle."
  },
  {
   "property": "C20",
   "status": "proved",
   "theorems": [
    "C20_round_trip",
    "C20_sorted",
    "C20_width",
    "C20_cached",
    "C20_line_break_refuted",
    "C20_unknown",
    "C20_unknown_lines"
   ],
   "note": "Decoded text (the locale encoding is not modelled); C20_line_break_refuted: strings with a carriage return do not survive."
  },
  {
   "property": "C21",
   "status": "proved",
   "theorems": [
    "C21_init",
    "C21_only_correct",
    "C21_found",
    "C21_is_known",
    "C21_patterns_raise",
    "C21_patterns_refuted"
   ],
   "note": "xxhash is an arbitrary function. C21_patterns_refuted: the last step of guess_patterns raises RuntimeError whenever it finds something. Candidate generators other than the modelled ones reduce to check/check_iter."
  },
  {
   "property": "C22",
   "status": "proved",
   "theorems": [
    "C22_directories",
    "C22_ancestors",
    "C22_stale_refuted"
   ],
   "note": "C22_stale_refuted: the cached list is not updated when new paths are found."
  },
  {
   "property": "C23",
   "status": "proved",
   "theorems": [
    "C23_cover",
    "C23_exact",
    "C23_excluded",
    "C23_order",
    "C23_identical",
    "C23_missing_refuted",
    "C23_mixed_refuted",
    "C23_excluded_refuted"
   ],
   "note": "Paths lists must be prefix-free (no path is also the directory of another one): otherwise the outcome depends on the order (C23_mixed_refuted), an excluded path equal to a directory has no effect (C23_excluded_refuted); a path missing from the second list gives KeyError (C23_missing_refuted)."
  },
  {
   "property": "C24",
   "status": "proved",
   "theorems": [
    "C24_plain",
    "C24_entries",
    "C24_left",
    "C24_emptied",
    "C24_dicts",
    "C24_predicate",
    "C24_v1_refuted",
    "C24_repeated_refuted"
   ],
   "note": "Holds for archives with checksums (WAD version 2+) and without repeated hashes. Found: entries of version 1 archives have checksum None and are all dropped when the other exporter has an archive of that name (C24_v1_refuted)."
  },
  {
   "property": "C25",
   "status": "proved",
   "theorems": [
    "C25_changes",
    "C25_kept",
    "C25_links",
    "C25_kept_dir",
    "C25_outside",
    "C25_removed",
    "C25_pruned"
   ],
   "note": "For an output path without \"..\" or links above it and regular file names. Proved under any failures (C25_changes and its corollaries), on success all extra files are gone (C25_removed), and without failures the run succeeds and leaves no newly empty directory (C25_pruned). Found: the output directory itself and its empty parents may disappear (C25_gone_ex); the trees_to_remove branch is never used."
  },
  {
   "property": "C26",
   "status": "proved",
   "theorems": [
    "C26_plan",
    "C26_selected",
    "C26_plain",
    "C26_layout_refuted",
    "C26_v1_refuted",
    "C26_nesting_refuted",
    "C26_listing_refuted",
    "C26_selection",
    "C26_selection_succeeds"
   ],
   "note": "The plan is modelled from the exporters given by add_patch_files; same_entries (equal entries get equal names and extensions) is a hypothesis on them, C26_selected carries it through _transform_exported_files. Found: across the 14.4 layout change the plan raises KeyError (C26_layout_refuted); version 1 archives too (C26_v1_refuted); a mesh a.skn and a file below a/ make it fail (C26_nesting_refuted); without symlinks files.exported.txt lists 'cdragon' (C26_listing_refuted). C26_selection says which files are exported and under which paths, for all versions of patches."
  },
  {
   "property": "C27",
   "status": "proved",
   "theorems": [
    "C27_plain",
    "C27_mipmaps",
    "C27_header",
    "C27_rejects",
    "C27_total",
    "C27_accepts",
    "C27_rgba16_refuted",
    "C27_empty_refuted",
    "C27_truncated_refuted"
   ],
   "note": "Exceptions found: RGBA16 with mipmaps is rejected (C27_rgba16_refuted), an empty or truncated image with mipmaps gives TEX header bytes as pixels (C27_empty_refuted, C27_truncated_refuted)."
  },
  {
   "property": "C28",
   "status": "proved",
   "theorems": [
    "C28_decode",
    "C28_accepted",
    "C28_length",
    "C28_cut",
    "C28_cut_refuted",
    "C28_magic",
    "C28_patch_header",
    "C28_depth"
   ],
   "note": ""
  },
  {
   "property": "C29",
   "status": "proved",
   "theorems": [
    "C29_numbering",
    "C29_unknown",
    "C29_injective",
    "C29_eras"
   ],
   "note": ""
  },
  {
   "property": "C30",
   "status": "proved",
   "theorems": [
    "C30_lookup",
    "C30_same_key",
    "C30_case",
    "C30_agree",
    "C30_errors",
    "C30_set",
    "C30_set_name_refuted",
    "C30_path",
    "C30_path_default",
    "C30_path_only",
    "C30_compare",
    "C30_compare_known_refuted"
   ],
   "note": ""
  },
  {
   "property": "C31",
   "status": "proved",
   "theorems": [
    "C31_names",
    "C31_values",
    "C31_count",
    "C31_file",
    "C31_type_refuted",
    "C31_names_refuted"
   ],
   "note": ""
  },
  {
   "property": "C32",
   "status": "proved",
   "theorems": [
    "C32_decode",
    "C32_block_injective",
    "C32_accepted",
    "C32_rejects_magic",
    "C32_rejects_version",
    "C32_rejects_truncated",
    "C32_unterminated_refuted",
    "C32_lookup",
    "C32_lookup_int",
    "C32_agree"
   ],
   "note": "Hashes and str.lower are arbitrary functions. C32_unterminated_refuted: a text without terminator loses its last byte."
  },
  {
   "property": "C33",
   "status": "proved",
   "theorems": [
    "C33_decode",
    "C33_decode_unique",
    "C33_rejects_magic",
    "C33_rejects_truncated",
    "C33_in_range",
    "C33_zero_index_refuted",
    "C33_obj",
    "C33_obj_words",
    "C33_obj_triangles",
    "C33_obj_face_refuted"
   ],
   "note": "Floats are 32-bit patterns. C33_zero_index_refuted and C33_obj_face_refuted: index 0 and malformed face lines can be produced."
  },
  {
   "property": "C34",
   "status": "proved",
   "theorems": [
    "C34_tables",
    "C34_decode",
    "C34_fuel",
    "C34_file",
    "C34_chunks"
   ],
   "note": "zstd is an arbitrary function. C34_tables and C34_decode are equivalences with a positional layout relation; texts may be cut by the end of the body, as the code reads them."
  },
  {
   "property": "C35",
   "status": "proved",
   "theorems": [
    "C35_name",
    "C35_missing",
    "C35_cycle",
    "C35_cases",
    "C35_endless",
    "C35_ends"
   ],
   "note": "The directory loop is modelled with a bound on iterations (None when exhausted); C35_cycle: no bound is enough exactly for cyclic chains."
  },
  {
   "property": "C36",
   "status": "proved",
   "theorems": [
    "C36_add",
    "C36_manifest",
    "C36_adjacent",
    "C36_disjoint"
   ],
   "note": "A chunk without size can only be the last of its bundle (TypeError otherwise)."
  },
  {
   "property": "C37",
   "status": "proved",
   "theorems": [
    "C37_all",
    "C37_none",
    "C37_one"
   ],
   "note": "str.lower is an arbitrary function."
  },
  {
   "property": "C38",
   "status": "proved",
   "theorems": [
    "C38_content",
    "C38_reads",
    "C38_no_partial",
    "C38_store",
    "C38_frame",
    "C38_sequence",
    "C38_direct",
    "C38_direct_frame",
    "C38_direct_raised",
    "C38_crash_refuted",
    "C38_overwrite_refuted"
   ],
   "note": "zstd and sha1 are arbitrary functions (digests are file names). C38_content/C38_reads/C38_no_partial/C38_sequence are for use_extract_symlinks=True with an arbitrary plan of failures; C38_direct* for False. C38_crash_refuted: a killed process leaves a partial shared file that later extractions use. C38_overwrite_refuted: without symlinks an existing wrong file is never rewritten."
  },
  {
   "property": "C39",
   "status": "proved",
   "theorems": [
    "C39_available",
    "C39_extract",
    "C39_again",
    "C39_overwrite_refuted",
    "C39_order",
    "C39_place"
   ],
   "note": "Stated for outputs at different places that are not linked elsewhere, and extract() without overwrite; with overwrite=True bundles can be missing (C39_overwrite_refuted). Decompression is an arbitrary function; nothing is claimed about chunks that cannot be decompressed."
  },
  {
   "property": "C40",
   "status": "proved",
   "theorems": [
    "C40_distinct",
    "C40_one_by_one",
    "C40_successes",
    "C40_content",
    "C40_ends",
    "C40_order"
   ],
   "note": "Threads are interleaved call by call on the model filesystem, with any failures where stated; the HTTP answer for a path is an arbitrary function of the path, the same for all calls."
  },
  {
   "property": "C41",
   "status": "proved",
   "theorems": [
    "C41_list",
    "C41_list_once",
    "C41_list_total",
    "C41_fetch",
    "C41_fetch_succeeds",
    "C41_others",
    "C41_twice",
    "C41_first",
    "C41_kept",
    "C41_client",
    "C41_game",
    "C41_answers",
    "C41_crash_duplicate_refuted",
    "C41_crash_list_refuted",
    "C41_crash_stamp_refuted",
    "C41_same_second_refuted",
    "C41_clock_refuted",
    "C41_names_refuted"
   ],
   "note": "C41_first holds for histories without crashes and with a clock that does not go back. Found: a crash between the writes makes the next fetch add a duplicate (C41_crash_duplicate_refuted), a crash during a write makes releases unlistable (C41_crash_list_refuted) or fetching impossible (C41_crash_stamp_refuted), same-second fetches can lose a release (C41_same_second_refuted), names such as '05' list a release twice (C41_names_refuted). json.load/dump/== and the requests are arbitrary functions; iter_releases is consumed at once. C41_answers says which documents are requested. C41_fetch_succeeds says when a fetch succeeds."
  },
  {
   "property": "C42",
   "status": "proved",
   "theorems": [
    "C42_element",
    "C42_accepted",
    "C42_refused",
    "C42_same_path",
    "C42_returns",
    "C42_distinct"
   ],
   "note": "C42_accepted is an equivalence: each dot of the URL may be '.secure.', and one final newline is accepted ($ in the regular expression)."
  },
  {
   "property": "C43",
   "status": "proved",
   "theorems": [
    "C43_directory",
    "C43_exporter",
    "C43_refused",
    "C43_missing",
    "C43_missing_refuted",
    "C43_old_refuted",
    "C43_name_refuted",
    "C43_main_refuted"
   ],
   "note": "Proved when a stored patch is older than `first`, or all version directories are known. False otherwise: an unknown version directory is ignored (C43_missing_refuted), an irrelevant old one is an error (C43_old_refuted), a directory named by one number or a \"main\" patch raises (C43_name_refuted, C43_main_refuted). Constructor: C43_exporter, C43_refused."
  },
  {
   "property": "C44",
   "status": "proved",
   "theorems": [
    "C44_patch",
    "C44_errors",
    "C44_oldest_refuted",
    "C44_update_never",
    "C44_update_refuted"
   ],
   "note": "Without a patch the command always fails, because the test on --from is inverted (C44_update_never, C44_update_refuted). The oldest stored patch needs --previous (C44_oldest_refuted)."
  },
  {
   "property": "C45",
   "status": "proved",
   "theorems": [
    "C45_honoured",
    "C45_rejected",
    "C45_absent",
    "C45_rads",
    "C45_both",
    "C45_unknown",
    "C45_default_refuted"
   ],
   "note": "False without a storage path: the option is ignored (C45_default_refuted). Configuration values are texts. Constructors of storages: C45_rads, C45_both, C45_unknown."
  },
  {
   "property": "C46",
   "status": "proved",
   "theorems": [
    "C46_first",
    "C46_frame",
    "C46_written",
    "C46_announced",
    "C46_skn_exact",
    "C46_failed",
    "C46_skip",
    "C46_skip_entry",
    "C46_not_skipped",
    "C46_export_frame",
    "C46_export_plain",
    "C46_export_entries",
    "C46_skn_escape_refuted",
    "C46_kind"
   ],
   "note": "Conversions and exports run on the filesystem model with arbitrary failures; image codecs, JSON serializers and the parsers of skin files are function parameters. Frame (C46_frame, C46_export_frame), results (C46_written, C46_announced, C46_skn_exact), failures (C46_failed), skipping (C46_skip) and complete exports without clashing outputs (C46_export_plain, C46_export_entries). Hypothesis: entry names of skin files contain no '/'; C46_skn_escape_refuted shows that otherwise files are written outside of the output directory. C46_kind says which converter of a patch export is used for each path."
  },
  {
   "property": "C47",
   "status": "proved",
   "theorems": [
    "C47_strict",
    "C47_strict_rejects",
    "C47_replace_valid",
    "C47_replace_keeps",
    "C47_replace_text",
    "C47_unpack_string",
    "C47_truncated_string_refuted"
   ],
   "note": "C47_truncated_string_refuted: unpack_string accepts a string whose bytes are cut by the end of the file."
  },
  {
   "property": "C48",
   "status": "proved",
   "theorems": [
    "C48_image_path",
    "C48_names",
    "C48_hashes",
    "C48_atlas_index",
    "C48_hashes_index",
    "C48_skins",
    "C48_skins_magic",
    "C48_skins_version"
   ],
   "note": "Floats are 32-bit patterns, str.lower an arbitrary function. A table of names whose count reads as IMAA is excluded; truncated texts are C47."
  },
  {
   "property": "C49",
   "status": "proved",
   "theorems": [
    "C49_hash_dir",
    "C49_absolute",
    "C49_replaces",
    "C49_documented_refuted",
    "C49_hash_list"
   ],
   "note": "C49_documented_refuted: the docstring announces another subdirectory than the one used."
  },
  {
   "property": "C50",
   "status": "proved",
   "theorems": [
    "C50_text",
    "C50_binary",
    "C50_rejects",
    "C50_first_refuted",
    "C50_eof_refuted",
    "C50_crlf_refuted",
    "C50_equal_refuted"
   ],
   "note": "False for an entry on the first line (C50_first_refuted), an unended last line (C50_eof_refuted), CR LF lines (C50_crlf_refuted) and keys with an equal sign (C50_equal_refuted); proved for all other tables."
  },
  {
   "property": "C51",
   "status": "proved",
   "theorems": [
    "C51_wordlist"
   ],
   "note": ""
  },
  {
   "property": "C52",
   "status": "proved",
   "theorems": [
    "C52_basenames",
    "C52_substitute_basenames",
    "C52_extensions"
   ],
   "note": ""
  },
  {
   "property": "C53",
   "status": "proved",
   "theorems": [
    "C53_resolve",
    "C53_open"
   ],
   "note": ""
  },
  {
   "property": "C54",
   "status": "proved",
   "theorems": [
    "C54_added",
    "C54_leads",
    "C54_outcome",
    "C54_error",
    "C54_again",
    "C54_refused",
    "C54_current_refuted"
   ],
   "note": "For regular file names, links that are not inside each other, and an output path without \"..\" or links above it. Frame under any failures (C54_added, C54_refused); without failures the result and the error are characterised (C54_leads, C54_outcome, C54_error, C54_again). Found: a link that is already there is kept even if it leads elsewhere (C54_current_refuted)."
  },
  {
   "property": "C55",
   "status": "proved",
   "theorems": [
    "C55_frame",
    "C55_paths",
    "C55_nothing_else",
    "C55_plain",
    "C55_entries",
    "C55_linked",
    "C55_exported_list",
    "C55_links_list",
    "C55_unknown_list",
    "C55_stale_list_refuted"
   ],
   "note": "Composition of C24, C26, C45, C46 and C54. For regular paths that are not nested, an output directory next to another file and no links in it from exploded skins. The frame holds under any failures; contents are for runs without failures (and overwriting). Found: an old list of links is kept when the new export has no links (C55_stale_list_refuted). Its exporters are those of C56; the TFT and Arena data are not part of the model."
  },
  {
   "property": "C56",
   "status": "proved",
   "theorems": [
    "C56_plain",
    "C56_archives",
    "C56_entries",
    "C56_extensions",
    "C56_same",
    "C56_summed",
    "C56_unique",
    "C56_plannable",
    "C56_guess_refuted"
   ],
   "note": "Opening an archive is the model of C09-C19; the sources are the pairs given by the elements of a patch, downloading is not part of it. The order is independent only when all data with a hash gives the same extension (`consistent`). Found: otherwise the cache of extensions makes an export with links fail with KeyError although equal checksums go with equal data (C56_guess_refuted)."
  },
  {
   "property": "C57",
   "status": "proved",
   "theorems": [
    "C57_items",
    "C57_succeeds",
    "C57_template_refuted"
   ],
   "note": "Found: an item made from a template item or from the null item makes the whole export fail with KeyError (C57_template_refuted)."
  },
  {
   "property": "C58",
   "status": "proved",
   "theorems": [
    "C58_traits",
    "C58_traits_succeeds",
    "C58_characters",
    "C58_characters_succeeds",
    "C58_sets",
    "C58_sets_succeeds",
    "C58_old_format",
    "C58_old_format_refuted"
   ],
   "note": "The order of the traits of a set is that of a Python set: any permutation. Found: the old format (no TFTSetData) always raises (C58_old_format, C58_old_format_refuted). A list of traits with a key that is neither a hash nor a number is ignored."
  },
  {
   "property": "C59",
   "status": "proved",
   "theorems": [
    "C59_champions",
    "C59_all",
    "C59_once",
    "C59_succeeds",
    "C59_icon",
    "C59_icon_refuted"
   ],
   "note": "Ability icon, role and statistics are part of the statement; success is not claimed (a role or spell of an unexpected kind raises)."
  },
  {
   "property": "C60",
   "status": "proved",
   "theorems": [
    "C60_export",
    "C60_times",
    "C60_template_succeeds",
    "C60_succeeds",
    "C60_twice_refuted"
   ],
   "note": "Writing the JSON files and choosing the languages are not part of this claim."
  },
  {
   "property": "C61",
   "status": "proved",
   "theorems": [
    "C61_augments",
    "C61_succeeds",
    "C61_foreign",
    "C61_translated",
    "C61_eager_refuted",
    "C61_unnamed"
   ],
   "note": "The JSON form of the calculations is claimed for objects whose fields are distinct and named by right hash lists, as in C31."
  },
  {
   "property": "C62",
   "status": "proved",
   "theorems": [
    "C62_paths",
    "C62_pattern_refuted",
    "C62_other_refuted",
    "C62_name_refuted"
   ],
   "note": "C62_paths: whatever the order of the listings. Hypotheses: the base directory does not end with a slash and has no pattern characters, file names are valid and language codes of existing files have no backslash, end of line or leading dot. C62_pattern_refuted and C62_other_refuted: base_dir is not escaped for glob. C62_name_refuted: a name with an end of line raises AttributeError. glob follows CPython 3.11."
  },
  {
   "property": "C63",
   "status": "proved",
   "theorems": [
    "C63_files",
    "C63_frame",
    "C63_succeeds",
    "C63_missing",
    "C63_old",
    "C63_tft",
    "C63_arena",
    "C63_crash_refuted",
    "C63_types_refuted"
   ],
   "note": "Proved for any template, reader of string tables, translation and dump, then for TFT and Arena; truncated files after a crash and the type codes of older patches are refuted."
  },
  {
   "property": "C64",
   "status": "proved",
   "theorems": [
    "C64_yaml",
    "C64_metadata",
    "C64_hit",
    "C64_store",
    "C64_none",
    "C64_pbe",
    "C64_patcher",
    "C64_unknown",
    "C64_rads_pbe",
    "C64_rads",
    "C64_rads_again",
    "C64_crash_refuted",
    "C64_none_refuted",
    "C64_rads_refuted"
   ],
   "note": "C64_none_refuted: the docstrings announce None when there is no version, but PatchVersion(None) raises ValueError. C64_rads_refuted: os.path.isfile(path) is called on the path in the storage instead of its filesystem path."
  },
  {
   "property": "C65",
   "status": "proved",
   "theorems": [
    "C65_numbers",
    "C65_digits",
    "C65_largest",
    "C65_words",
    "C65_no_words",
    "C65_added",
    "C65_safe",
    "C65_lcu_numbers",
    "C65_game_numbers",
    "C65_wordlists",
    "C65_lcu_words",
    "C65_game_words",
    "C65_lcu_added",
    "C65_game_added",
    "C65_percent_refuted"
   ],
   "note": "The results of formats with other directives than %%, %s, %d and %0Nd are an arbitrary function; a width of 0 is not modelled. C65_percent_refuted: a known path ending with a percent sign raises ValueError before other paths are tried."
  },
  {
   "property": "C66",
   "status": "proved",
   "theorems": [
    "C66_regions",
    "C66_plugins",
    "C66_plugins_safe",
    "C66_suffixes",
    "C66_langs",
    "C66_characters",
    "C66_replaced",
    "C66_prefixes",
    "C66_from_game",
    "C66_from_client",
    "C66_round",
    "C66_plugins_refuted",
    "C66_percent_refuted",
    "C66_characters_refuted"
   ],
   "note": "Known paths with '{' are excluded from the theorems on languages and characters, and those with '%' from the theorems on plugins and suffixes. C66_plugins_refuted: a known path plugins/foo raises TypeError. C66_characters_refuted: all occurrences of the name are replaced, so vision.dds of vi is not tried for jinx; C66_percent_refuted: a file directly in plugins with %s in its name is used as a format, which adds paths outside of plugins."
  },
  {
   "property": "C67",
   "status": "proved",
   "theorems": [
    "C67_characters",
    "C67_skins",
    "C67_one_skin",
    "C67_groups",
    "C67_chromas",
    "C67_chromas_fail",
    "C67_files",
    "C67_shaders",
    "C67_patterns",
    "C67_skins_refuted",
    "C67_loot_refuted"
   ],
   "note": "C67_characters, C67_skins, C67_one_skin, C67_groups, C67_chromas, C67_chromas_fail, C67_files, C67_shaders, C67_patterns; C67_skins_refuted and C67_loot_refuted: two defects. Digits are the ASCII ones."
  },
  {
   "property": "C68",
   "status": "proved",
   "theorems": [
    "C68_normpath",
    "C68_bin",
    "C68_bin_safe",
    "C68_file",
    "C68_quotes",
    "C68_safe",
    "C68_outcome",
    "C68_tried",
    "C68_prefix",
    "C68_xdbg",
    "C68_ascii_refuted",
    "C68_include_refuted",
    "C68_length_refuted"
   ],
   "note": "C68_normpath, C68_bin, C68_bin_safe, C68_file, C68_quotes, C68_safe, C68_outcome, C68_tried, C68_prefix, C68_xdbg; C68_ascii_refuted, C68_include_refuted and C68_length_refuted: three defects. The order in which a set of paths is checked is not observable here; reading of the archive is a parameter."
  },
  {
   "property": "C69",
   "status": "proved",
   "theorems": [
    "C69_frame",
    "C69_contents",
    "C69_complete",
    "C69_again",
    "C69_list",
    "C69_paths",
    "C69_relpath",
    "C69_inside_refuted"
   ],
   "note": "C69_frame, C69_contents, C69_complete, C69_again, C69_list, C69_paths, C69_relpath; C69_inside_refuted: a package manifest can make the download write outside of the storage. Extraction of one project version is that of C07, the manifests are those of C08 and C09."
  },
  {
   "property": "C70",
   "status": "proved",
   "theorems": [
    "C70_calendar",
    "C70_date",
    "C70_date_valid",
    "C70_bundled",
    "C70_frame",
    "C70_done",
    "C70_stops",
    "C70_offline",
    "C70_fresh",
    "C70_lost_refuted",
    "C70_dot_refuted",
    "C70_crash_refuted"
   ],
   "note": "C70_calendar, C70_date, C70_date_valid, C70_bundled, C70_frame, C70_done, C70_stops, C70_offline, C70_fresh; C70_lost_refuted: a failed write loses the old file; C70_dot_refuted: with '.' as directory an update always fails and removes the file; C70_crash_refuted: after a crash an incomplete file counts as recent. Dates are read for ASCII texts; the modification time of each file is a parameter."
  },
  {
   "property": "C71",
   "status": "proved",
   "theorems": [
    "C71_pattern",
    "C71_chosen",
    "C71_pattern_unknown",
    "C71_output",
    "C71_stops",
    "C71_not_dir",
    "C71_frame",
    "C71_done",
    "C71_lazy",
    "C71_starts",
    "C71_beside",
    "C71_list",
    "C71_list_runs",
    "C71_line",
    "C71_list_ext_refuted"
   ],
   "note": "C71_pattern, C71_chosen, C71_pattern_unknown, C71_output, C71_stops, C71_not_dir, C71_frame, C71_done, C71_lazy, C71_starts, C71_beside (a file of the name without '.client' prevents the default extraction), C71_list, C71_list_runs, C71_line; C71_list_ext_refuted: the listing shows '?' for unknown files whose extension would be guessed, though a format with an extension exists. The archive is read once; the content of hash files is UTF-8."
  },
  {
   "property": "C72",
   "status": "proved",
   "theorems": [
    "C72_patterns",
    "C72_json",
    "C72_kind",
    "C72_kind_once",
    "C72_text",
    "C72_outcome",
    "C72_safe",
    "C72_tried",
    "C72_prefix",
    "C72_link",
    "C72_words",
    "C72_wads",
    "C72_dots",
    "C72_names_lost_refuted",
    "C72_relative_refuted"
   ],
   "note": "C72_patterns, C72_json, C72_kind, C72_kind_once, C72_text, C72_outcome, C72_safe, C72_tried, C72_prefix, C72_link, C72_words, C72_wads, C72_dots; C72_names_lost_refuted: the names of a file are lost when a later entry is a redirection; C72_relative_refuted: a file required as './c.js' from the same directory is not found because the dots are kept in the searched path. word (\\w), str.lower, json.loads and str of a JSON value are parameters; word contains the ASCII letters and digits."
  },
  {
   "property": "C73",
   "status": "proved",
   "theorems": [
    "C73_total",
    "C73_needed",
    "C73_listed",
    "C73_links_refuted"
   ],
   "note": "C73_total, C73_needed, C73_listed; C73_links_refuted: the links of a manifest are listed by fspaths() but never made by a successful download. Hypotheses: links left at the places of the files are not dangling; with use_extract_symlinks, files of the same digest have the same content and the shared directory holds the right contents."
  },
  {
   "property": "C74",
   "status": "proved",
   "theorems": [
    "C74_designates",
    "C74_unique",
    "C74_refused",
    "C74_dot",
    "C74_download",
    "C74_files",
    "C74_files_refused",
    "C74_versions",
    "C74_relpaths",
    "C74_paths",
    "C74_available_refuted",
    "C74_empty_refuted",
    "C74_case_refuted"
   ],
   "note": "C74_designates, C74_unique, C74_refused, C74_dot, C74_download, C74_files, C74_files_refused, C74_versions, C74_relpaths, C74_paths; C74_available_refuted: an element of an available patch cannot be given by its version ('game=V' only looks at stored elements) although 'patch=V' works; C74_empty_refuted: 'patch=' on an empty server raises StopIteration instead of the error message; C74_case_refuted: names that differ in case only have the same relative path."
  },
  {
   "property": "C75",
   "status": "proved",
   "theorems": [
    "C75_done",
    "C75_any",
    "C75_dry",
    "C75_refused",
    "C75_method",
    "C75_sound",
    "C75_reload",
    "C75_element",
    "C75_element_refuted",
    "C75_lost_refuted",
    "C75_write_refuted"
   ],
   "note": "C75_done, C75_any, C75_dry, C75_refused, C75_method, C75_sound, C75_reload, C75_element; C75_element_refuted: a component such as 'game=9.1' always raises AttributeError ([component.elements]); C75_lost_refuted: when a method raises, the hashes found before are not saved and the game archives are not searched; C75_write_refuted: a failure while saving loses the known hashes, as the file is emptied first."
  },
  {
   "property": "C76",
   "status": "proved",
   "theorems": [
    "C76_grammar",
    "C76_refused",
    "C76_kind",
    "C76_bare",
    "C76_numbers",
    "C76_main",
    "C76_newest",
    "C76_first",
    "C76_patch",
    "C76_written",
    "C76_text",
    "C76_printed",
    "C76_newest_refuted",
    "C76_printed_refuted",
    "C76_order",
    "C76_strict",
    "C76_equal",
    "C76_equal_refuted",
    "C76_parts",
    "C76_stored"
   ],
   "note": "C76_grammar, C76_refused, C76_kind, C76_bare, C76_numbers, C76_main, C76_newest, C76_first, C76_patch, C76_written, C76_text, C76_printed, C76_order, C76_equal, C76_strict, C76_parts, C76_stored; C76_newest_refuted: 'project=' is not the newest version when the listing is not sorted, unlike 'solution='; C76_printed_refuted: the texts printed for parts (rads:name=version) are never accepted back; C76_equal_refuted: versions 0.0.0.1 and 0.0.0.01 are neither equal nor ordered."
  },
  {
   "property": "C77",
   "status": "proved",
   "theorems": [
    "C77_available",
    "C77_not_dict",
    "C77_list",
    "C77_order",
    "C77_total",
    "C77_offline",
    "C77_latest",
    "C77_stored_refuted",
    "C77_others_refuted",
    "C77_version_refuted"
   ],
   "note": "C77_available, C77_not_dict, C77_list, C77_order, C77_total, C77_offline, C77_latest; C77_stored_refuted: listing with stored=True downloads manifests when a version is not cached; C77_others_refuted: one element whose version cannot be retrieved hides the cached elements of older releases; C77_version_refuted: an empty cache file gives an element without version."
  },
  {
   "property": "C78",
   "status": "proved",
   "theorems": [
    "C78_missing",
    "C78_stops",
    "C78_frame",
    "C78_done",
    "C78_total",
    "C78_incomplete",
    "C78_default",
    "C78_given",
    "C78_outside_refuted",
    "C78_same_name_refuted",
    "C78_default_refuted"
   ],
   "note": "C78_missing, C78_stops, C78_frame, C78_done, C78_total, C78_incomplete, C78_default, C78_given; C78_outside_refuted: submesh names are not checked, files can be written outside of the output directory; C78_same_name_refuted: submeshes of the same name overwrite each other; C78_default_refuted: without extension, the default output is the mesh file itself and the command fails."
  },
  {
   "property": "C79",
   "status": "proved",
   "theorems": [
    "C79_type",
    "C79_kinds",
    "C79_literal",
    "C79_literal_unique",
    "C79_quotes",
    "C79_simple",
    "C79_simple_field",
    "C79_key",
    "C79_value",
    "C79_field",
    "C79_list",
    "C79_struct",
    "C79_null",
    "C79_embedded",
    "C79_none",
    "C79_some",
    "C79_map",
    "C79_entry",
    "C79_patch",
    "C79_dump",
    "C79_missing",
    "C79_command",
    "C79_prints",
    "C79_forged_refuted",
    "C79_list2_refuted",
    "C79_hash_as_string_refuted"
   ],
   "note": "C79_type, C79_literal, C79_literal_unique, C79_quotes, C79_simple, C79_simple_field, C79_key, C79_value, C79_field, C79_list, C79_struct, C79_null, C79_embedded, C79_none, C79_some, C79_map, C79_entry, C79_patch, C79_dump, C79_missing, C79_command, C79_prints; C79_forged_refuted: keys of maps are shown without quotes, a key with newlines forges fields; C79_list2_refuted: nested lists of the second type are shown as the first type; C79_hash_as_string_refuted: a known link is shown as the string of its name. Names in the hash tables are single lines of valid characters. The repr of floats and the printable characters are parameters."
  },
  {
   "property": "C80",
   "status": "proved",
   "theorems": [
    "C80_given",
    "C80_continues",
    "C80_active",
    "C80_interrupted",
    "C80_lines",
    "C80_displayed",
    "C80_restored",
    "C80_restored_inside",
    "C80_restored_refuted",
    "C80_restored_end_refuted",
    "C80_clock_refuted",
    "C80_lost_refuted"
   ],
   "note": "C80_given, C80_continues, C80_active, C80_interrupted, C80_lines, C80_displayed, C80_restored, C80_restored_inside; C80_restored_refuted, C80_restored_end_refuted: a double signal just after the installation or during the end leaves the handler of the iterator installed; C80_clock_refuted: after the clock is set back a single signal interrupts; C80_lost_refuted: a signal between the display and the reset of the flag displays nothing."
  },
  {
   "property": "C81",
   "status": "proved",
   "theorems": [
    "C81_frame",
    "C81_total",
    "C81_again",
    "C81_shared_refuted"
   ],
   "note": "C81_total, C81_again, C81_frame; C81_shared_refuted: elements share the directory of the files, and a file of the second one with the name and the size of a file of the first one keeps the content of the first one."
  },
  {
   "property": "C82",
   "status": "proved",
   "theorems": [
    "C82_frame",
    "C82_succeeds",
    "C82_done",
    "C82_files",
    "C82_others",
    "C82_again",
    "C82_no_hidden_failure"
   ],
   "note": "C82_frame, C82_succeeds, C82_done, C82_files, C82_others, C82_again."
  }
 ]
}