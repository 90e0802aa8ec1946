{
 "claims": [
  {
   "property": "C01",
   "status": "proved",
   "theorems": [
    "C01_text_roundtrip",
    "C01_text_roundtrip_norm",
    "C01_string_lost",
    "C01_number_refuted",
    "C01_number_changed_refuted"
   ],
   "note": "Holds for every number formatter; clean strings and plainly printed numbers are the stated guard, and the excluded cases are shown to be lost (C01_string_lost, C01_number_refuted)."
  },
  {
   "property": "C02",
   "status": "proved",
   "theorems": [
    "C02_indent_roundtrip"
   ],
   "note": "For TSON values; MarshalIndent on plain data is modelled in Vss.v and used by the properties of the vehicle data files."
  },
  {
   "property": "C03",
   "status": "proved",
   "theorems": [
    "C03_panics_exactly",
    "C03_no_null_no_panic",
    "C03_no_panic_refuted",
    "C03_terminates"
   ],
   "note": "Exact characterisation of the panicking inputs by a grammar; that Unmarshal never panics is false (C03_no_panic_refuted). Go stack exhaustion on very deep input is not modelled."
  },
  {
   "property": "C04",
   "status": "proved",
   "theorems": [
    "C04_result_wf"
   ],
   "note": ""
  },
  {
   "property": "C05",
   "status": "proved",
   "theorems": [
    "C05_trailing_accepted",
    "C05_trailing_after_marshal"
   ],
   "note": "The accurate behaviour (trailing bytes dropped) is proved for all suffixes."
  },
  {
   "property": "C06",
   "status": "proved",
   "theorems": [
    "C06_member_stamp_zero",
    "C06_element_stamp_zero",
    "C06_default_refuted"
   ],
   "note": "The accurate behaviour (timestamp 0) is proved; the expected one is refuted."
  },
  {
   "property": "C07",
   "status": "proved",
   "theorems": [
    "C07_text_injective"
   ],
   "note": ""
  },
  {
   "property": "C08",
   "status": "proved",
   "theorems": [
    "C08_get_value",
    "C08_slash_keys_split",
    "C08_slash_key_unreachable",
    "C08_no_slash_panics"
   ],
   "note": "Also: keys with a slash cannot be addressed, slash-less paths panic."
  },
  {
   "property": "C09",
   "status": "proved",
   "theorems": [
    "C09_latest_is_max",
    "C09_order_independent",
    "C09_null_panics"
   ],
   "note": ""
  },
  {
   "property": "C10",
   "status": "proved",
   "theorems": [
    "C10_equal",
    "C10_equal_rounded",
    "C10_unencodable",
    "C10_large_refuted"
   ],
   "note": "Timestamps up to 2^53; the general rounding rule and the refutation beyond 2^53 are proved too. encoding/json is trusted to keep finite numbers and valid UTF-8."
  },
  {
   "property": "C11",
   "status": "proved",
   "theorems": [
    "C11_equal_values",
    "C11_leaf_timestamp_counts",
    "C11_leaf_equals_object",
    "C11_unencodable_all_equal"
   ],
   "note": "Containers; the behaviour on bare leaves and on non-finite numbers is described by separate theorems."
  },
  {
   "property": "C12",
   "status": "proved",
   "theorems": [
    "C12_compatible_roundtrip",
    "C12_large_refuted"
   ],
   "note": "Timestamps up to 2^53, any member order of the JSON; refuted beyond."
  },
  {
   "property": "C13",
   "status": "proved",
   "theorems": [
    "C13_json_roundtrip"
   ],
   "note": ""
  },
  {
   "property": "C14",
   "status": "proved",
   "theorems": [
    "C14_null_panics",
    "C14_scalar_panics",
    "C14_number_fails",
    "C14_argument_rewritten"
   ],
   "note": "The accurate behaviour (panic on null and scalars, caller's data rewritten) is proved; the expected one is false."
  },
  {
   "property": "C15",
   "status": "proved",
   "theorems": [
    "C15_set"
   ],
   "note": "Names without / and . (others are split, see DESIGN.md); after a missing member no further name may read as a number, because the code then creates an array."
  },
  {
   "property": "C16",
   "status": "proved",
   "theorems": [
    "C16_remove"
   ],
   "note": ""
  },
  {
   "property": "C17",
   "status": "proved",
   "theorems": [
    "C17_error_below_member",
    "C17_error_at_top",
    "C17_every_error",
    "C17_unchanged_refuted"
   ],
   "note": "The accurate behaviour is proved for every failing operation on an object; the expected one is refuted."
  },
  {
   "property": "C18",
   "status": "proved",
   "theorems": [
    "C18_sequential",
    "C18_one_operation",
    "C18_in_place",
    "C18_empty_patch_refuted"
   ],
   "note": "The empty patch returning null is proved as such."
  },
  {
   "property": "C19",
   "status": "proved",
   "theorems": [
    "C19_leading_slash",
    "C19_pointer_refuted"
   ],
   "note": "For every operation and every outcome."
  },
  {
   "property": "C20",
   "status": "proved",
   "theorems": [
    "C20_never_transforms",
    "C20_relative_transforms",
    "C20_arrays_exact",
    "C20_transforms_refuted",
    "C20_front_refuted"
   ],
   "note": "The intended equation is false: generated paths start with a slash, ApplyOperation takes the empty first piece as a name. Proved: the returned document never has b's values unless the objects already agree outside the empty name; relative paths transform a into b for bridged documents with plain names (arrays changed in place, trimmed, or grown at the end); C20_arrays_exact: for an array of leaves whose length changes, if and only if it is trimmed; front insertion into arrays refuted."
  },
  {
   "property": "C21",
   "status": "proved",
   "theorems": [
    "C21_empty_iff_same_values",
    "C21_nan_refuted"
   ],
   "note": "Both directions; NaN witness alongside."
  },
  {
   "property": "C22",
   "status": "proved",
   "theorems": [
    "C22_empty_iff_same_content"
   ],
   "note": "Both directions."
  },
  {
   "property": "C23",
   "status": "proved",
   "theorems": [
    "C23_operations_describe",
    "C23_leaves_covered",
    "C23_removals_covered",
    "C23_written_pointer"
   ],
   "note": "Soundness of every operation, coverage of every leaf and of every missing member; written paths are RFC 6901 pointers when no name is empty. 'Kept' inside arrays of different length means an equal element of the other array."
  },
  {
   "property": "C24",
   "status": "proved",
   "theorems": [
    "C24_array_difference",
    "C24_total_refuted"
   ],
   "note": "At any depth reached through common members and arrays of equal length; new elements that are no leaves panic (refuted totality)."
  },
  {
   "property": "C25",
   "status": "proved",
   "theorems": [
    "C25_versions_consecutive"
   ],
   "note": "For every state of a log made by NewLogument, also when other code edits the shared documents in between."
  },
  {
   "property": "C26",
   "status": "proved",
   "theorems": [
    "C26_append_never_fails",
    "C26_commits_what_was_stored",
    "C26_nothing_stored",
    "C26_empty_version"
   ],
   "note": "Interleaved with any non-committing calls. Storing an empty non-nil patch commits an empty version (C26_empty_version)."
  },
  {
   "property": "C27",
   "status": "proved",
   "theorems": [
    "C27_kept_exactly",
    "C27_at_most_reordered",
    "C27_never_gains",
    "C27_track_refuted",
    "C27_compact_refuted",
    "C27_history_refuted"
   ],
   "note": "Exact preservation, reordering, never gaining operations, and witnesses that Track, Compact and History drop operations."
  },
  {
   "property": "C28",
   "status": "proved",
   "theorems": [
    "C28_snapshot_replays",
    "C28_empty_version_refuted",
    "C28_any_state",
    "C28_back_refuted"
   ],
   "note": "Ascending queries interleaved with Store, Append and TemporalTrack: the patches of all versions must be applicable in order. C28_any_state describes every outcome in every reachable state. A version without operations reads as null, and asking backwards can panic (refutations)."
  },
  {
   "property": "C29",
   "status": "proved",
   "theorems": [
    "C29_one_object",
    "C29_queries_alias",
    "C29_immutable_refuted",
    "C29_set_refuted"
   ],
   "note": "The accurate behaviour (one shared object or null) is proved for every reachable state; the expected immutability is refuted."
  },
  {
   "property": "C30",
   "status": "proved",
   "theorems": [
    "C30_track",
    "C30_changes_only_refuted"
   ],
   "note": "Full description of result, side effect and panics; the expected no-side-effect behaviour is refuted."
  },
  {
   "property": "C31",
   "status": "proved",
   "theorems": [
    "C31_temporal_track"
   ],
   "note": "The previously reported value equals (under Go's ==) the previous in-range value of the path, so the statement uses the latter."
  },
  {
   "property": "C32",
   "status": "proved",
   "theorems": [
    "C32_compact",
    "C32_changes_kept",
    "C32_last_values",
    "C32_idempotent"
   ],
   "note": "Full description plus preserved last values and idempotence."
  },
  {
   "property": "C33",
   "status": "proved",
   "theorems": [
    "C33_compact_replay",
    "C33_replay_refuted"
   ],
   "note": "Pairwise independent member paths with scalar add/replace, for every prefix of versions; refuted for removal through an ancestor and for two spellings."
  },
  {
   "property": "C34",
   "status": "proved",
   "theorems": [
    "C34_history",
    "C34_missing_panics",
    "C34_order_refuted"
   ],
   "note": "For all iteration orders: a permutation of the chronological changes, equal to it when versions are visited in order; panic on missing path."
  },
  {
   "property": "C35",
   "status": "proved",
   "theorems": [
    "C35_slice",
    "C35_queries_find_base",
    "C35_queries_panic",
    "C35_all_versions_refuted"
   ],
   "note": "Full description; which versions can be queried on the slice; the expectation that all can is refuted."
  },
  {
   "property": "C36",
   "status": "proved",
   "theorems": [
    "C36_temporal_slice",
    "C36_unusable"
   ],
   "note": "Full description, and unusability as soon as a version has two operations in range."
  },
  {
   "property": "C37",
   "status": "proved",
   "theorems": [
    "C37_one_version",
    "C37_fails",
    "C37_null",
    "C37_state_at_time_refuted"
   ],
   "note": "Full description for every reachable log and iteration order; the expected reconstruction is refuted."
  },
  {
   "property": "C38",
   "status": "proved",
   "theorems": [
    "C38_set",
    "C38_ignored",
    "C38_recorded_iff",
    "C38_broken"
   ],
   "note": "Showing the written value is proved for names without / and . whose way is free (see C15)."
  },
  {
   "property": "C39",
   "status": "proved",
   "theorems": [
    "C39_replace",
    "C39_no_snapshot",
    "C39_other_kinds",
    "C39_repeats",
    "C39_only_changes_refuted"
   ],
   "note": "Full description by cases, repeated recording for pointer paths, and a refutation of the expected behaviour."
  },
  {
   "property": "C40",
   "status": "proved",
   "theorems": [
    "C40_writes_through",
    "C40_store_overwrites_caller",
    "C40_committed_refuted",
    "C40_isolated"
   ],
   "note": "Slice-level model of Store, Append and the pool update of Set with backing arrays and an arbitrary growth choice; refines the value-level log under the stated discipline. In-place sorting by TemporalSnapshot, and several logs, are in C96."
  },
  {
   "property": "C41",
   "status": "proved",
   "theorems": [
    "C41_accepts_grammar",
    "C41_unambiguous"
   ],
   "note": "Completeness, soundness and unambiguity."
  },
  {
   "property": "C42",
   "status": "proved",
   "theorems": [
    "C42_other_documents"
   ],
   "note": ""
  },
  {
   "property": "C43",
   "status": "proved",
   "theorems": [
    "C43_array_set",
    "C43_array_remove",
    "C43_array_lost"
   ],
   "note": "Arrays reached through object members."
  },
  {
   "property": "C44",
   "status": "proved",
   "theorems": [
    "C44_operations_describe",
    "C44_leaves_covered",
    "C44_relative_transforms",
    "C44_all_covered_refuted",
    "C44_array_refuted"
   ],
   "note": "The statement describes the actual behaviour; two refutations for the array case; C44_relative_transforms for bridged documents (arrays of different length begin alike and then differ at every index)."
  },
  {
   "property": "C45",
   "status": "proved",
   "theorems": [
    "C45_reads",
    "C45_panics"
   ],
   "note": "Reading is characterised by an inductive relation in both directions; panics by stray scalars."
  },
  {
   "property": "C46",
   "status": "proved",
   "theorems": [
    "C46_to_array"
   ],
   "note": "Both outcomes characterised for all arrays."
  },
  {
   "property": "C47",
   "status": "proved",
   "theorems": [
    "C47_canonical",
    "C47_written",
    "C47_decoded",
    "C47_decoding_refuted"
   ],
   "note": "The text is modelled as a tree in written order; strings are assumed valid UTF-8. The loss when decoding is a separate refutation."
  },
  {
   "property": "C48",
   "status": "proved",
   "theorems": [
    "C48_sorted",
    "C48_canonical",
    "C48_same_bytes_refuted"
   ],
   "note": "Success condition, order of keys and canonicity; the expected equality with ToCompatibleTsonBytes is refuted."
  },
  {
   "property": "C49",
   "status": "proved",
   "theorems": [
    "C49_parse_value",
    "C49_agrees"
   ],
   "note": "These functions are not called elsewhere in the package."
  },
  {
   "property": "C50",
   "status": "proved",
   "theorems": [
    "C50_period",
    "C50_negative"
   ],
   "note": "Exact for numbers that are not negative; any negative end makes the period the single time 0."
  },
  {
   "property": "C51",
   "status": "proved",
   "theorems": [
    "C51_track",
    "C51_not_found",
    "C51_one_name",
    "C51_one_name_refuted",
    "C51_late_refuted",
    "C51_clash_refuted"
   ],
   "note": "Sound, complete and ordered; failure characterised; refutations for one-name paths, values after the clock, and names with dots."
  },
  {
   "property": "C52",
   "status": "proved",
   "theorems": [
    "C52_snapshot",
    "C52_source",
    "C52_absent_refuted",
    "C52_tie_refuted",
    "C52_shadow_refuted"
   ],
   "note": "The value in force is shown, and what is shown comes from a patch; refutations for absent values, two patches at time 0, and values below scalars."
  },
  {
   "property": "C53",
   "status": "proved",
   "theorems": [
    "C53_events"
   ],
   "note": "Sound and complete for predicates that respect equality of JSON values."
  },
  {
   "property": "C54",
   "status": "proved",
   "theorems": [
    "C54_transform_tson",
    "C54_transform_json",
    "C54_transform",
    "C54_stamped_refuted"
   ],
   "note": "C54_transform determines the result completely; with a refutation for objects that look like leaves"
  },
  {
   "property": "C55",
   "status": "proved",
   "theorems": [
    "C55_initial"
   ],
   "note": ""
  },
  {
   "property": "C56",
   "status": "proved",
   "theorems": [
    "C56_shown",
    "C56_zero_refuted",
    "C56_tie_refuted",
    "C56_root_refuted",
    "C56_array_refuted",
    "C56_zero"
   ],
   "note": "updates of other scalars may be at time 0; with refutations for updates of the scalar itself at time 0 (unseen then, or lost for good by the unstable sort), top-level scalars and arrays"
  },
  {
   "property": "C57",
   "status": "proved",
   "theorems": [
    "C57_unmarshal",
    "C57_one_reading"
   ],
   "note": "Unmarshal against an RFC 8259 grammar; the float64 reader is a parameter, nesting limit not modelled."
  },
  {
   "property": "C58",
   "status": "proved",
   "theorems": [
    "C58_json_roundtrip",
    "C58_string_roundtrip",
    "C58_scalars",
    "C58_operation",
    "C58_generated"
   ],
   "note": "Round trips of json.Marshal, String, Marshal and generated patches; the float64 text is a parameter and has to be read back."
  },
  {
   "property": "C59",
   "status": "proved",
   "theorems": [
    "C59_unwritable",
    "C59_nan_refuted",
    "C59_injection",
    "C59_escapes_refuted",
    "C59_bad_bytes_refuted"
   ],
   "note": "Failure conditions proved exactly; the intended escaping is refuted universally (C59_injection) and by witnesses."
  },
  {
   "property": "C60",
   "status": "proved",
   "theorems": [
    "C60_store_text",
    "C60_store_generated"
   ],
   "note": "Store of JSON text equals storing the patch; panics otherwise."
  },
  {
   "property": "C61",
   "status": "proved",
   "theorems": [
    "C61_same_bytes",
    "C61_roundtrip",
    "C61_reads",
    "C61_json_bytes"
   ],
   "note": "Byte-level canonical form, round trips and exact acceptance of compatible TSON."
  },
  {
   "property": "C62",
   "status": "proved",
   "theorems": [
    "C62_new",
    "C62_twice",
    "C62_branch_refuted"
   ],
   "note": "Full characterisation of what NewVssJson keeps; the dependence of dropped branches on siblings is shown as a refutation."
  },
  {
   "property": "C63",
   "status": "proved",
   "theorems": [
    "C63_leaves",
    "C63_once",
    "C63_children_refuted"
   ],
   "note": "Exact list of leaves; uniqueness for clear names; refuted with \"children\" inside."
  },
  {
   "property": "C64",
   "status": "proved",
   "theorems": [
    "C64_generate",
    "C64_typed",
    "C64_nested_refuted",
    "C64_fail_refuted",
    "C64_possible"
   ],
   "note": "All schemas, sizes, fair random numbers and iteration orders; C64_possible is an equivalence; nested nodes, attributes at the top and unknown datatypes are refuted."
  },
  {
   "property": "C65",
   "status": "proved",
   "theorems": [
    "C65_next",
    "C65_rounds",
    "C65_fresh",
    "C65_lost_refuted",
    "C65_possible"
   ],
   "note": "One round characterised leaf by leaf and any number of rounds by induction; lost leaves are refuted."
  },
  {
   "property": "C66",
   "status": "proved",
   "theorems": [
    "C66_values",
    "C66_stamps"
   ],
   "note": "Both directions, and no repeated path when names are not empty."
  },
  {
   "property": "C67",
   "status": "proved",
   "theorems": [
    "C67_first",
    "C67_patch",
    "C67_fresh",
    "C67_rounds",
    "C67_close_refuted"
   ],
   "note": "timestamps are compared after rounding to float64, as the code does; C67_close_refuted shows what is lost by it"
  },
  {
   "property": "C68",
   "status": "proved",
   "theorems": [
    "C68_values",
    "C68_stamps",
    "C68_order_refuted"
   ],
   "note": "success is characterised exactly; with obstacles of both kinds the outcome is order dependent (C68_order_refuted)"
  },
  {
   "property": "C69",
   "status": "proved",
   "theorems": [
    "C69_build",
    "C69_index_refuted",
    "C69_panic_refuted",
    "C69_lost_refuted",
    "C69_indices"
   ],
   "note": "Names in brackets, empty branches and colliding paths are handled wrongly: C69_*_refuted; C69_indices says where names in brackets put a leaf."
  },
  {
   "property": "C70",
   "status": "proved",
   "theorems": [
    "C70_file",
    "C70_generated",
    "C70_empty",
    "C70_not_json",
    "C70_map_fails",
    "C70_small_refuted",
    "C70_schema_refuted"
   ],
   "note": "C70_empty, C70_map_fails describe failures for all inputs; C70_small_refuted and C70_schema_refuted are findings."
  },
  {
   "property": "C71",
   "status": "proved",
   "theorems": [
    "C71_file",
    "C71_first",
    "C71_round",
    "C71_stamp",
    "C71_quote_refuted",
    "C71_bell_refuted",
    "C71_panic_refuted"
   ],
   "note": "C71_quote_refuted, C71_bell_refuted and C71_panic_refuted are findings."
  },
  {
   "property": "C72",
   "status": "proved",
   "theorems": [
    "C72_files",
    "C72_chain_refuted",
    "C72_missing",
    "C72_stops",
    "C72_program",
    "C72_metadata"
   ],
   "note": "C72_missing, C72_stops and C72_program describe the panics for all inputs; C72_chain_refuted is a finding. good_schema and good_env are the conditions under which C70 and C71 hold for all files."
  },
  {
   "property": "C73",
   "status": "proved",
   "theorems": [
    "C73_run",
    "C73_current_refuted",
    "C73_early",
    "C73_answers",
    "C73_answers_refuted"
   ],
   "note": "C73_answers describes the whole document when the names of the schema allow it; C73_answers_refuted shows that the condition on names is needed. C73_run needs no such condition. C73_current_refuted is a finding that follows from C73_run; C73_early holds for all files."
  },
  {
   "property": "C74",
   "status": "proved",
   "theorems": [
    "C74_snapshots",
    "C74_creates",
    "C74_stops",
    "C74_back_refuted"
   ],
   "note": "C74_back_refuted: a query for an earlier time after a later one shows later values"
  },
  {
   "property": "C75",
   "status": "proved",
   "theorems": [
    "C75_filter",
    "C75_search",
    "C75_fails",
    "C75_run",
    "C75_fresh"
   ],
   "note": "C75_filter, C75_search and C75_fails hold for any consistent log; C75_run for the log of an experiment; C75_fresh for a log before its first snapshot query"
  },
  {
   "property": "C76",
   "status": "proved",
   "theorems": [
    "C76_snapshots",
    "C76_events",
    "C76_null_refuted",
    "C76_before_refuted",
    "C76_idle_refuted"
   ],
   "note": "refuted without the conditions: null before the first update, periods begun before the window, updates that change nothing"
  },
  {
   "property": "C77",
   "status": "proved",
   "theorems": [
    "C77_counts",
    "C77_outputs",
    "C77_times",
    "C77_interval",
    "C77_total",
    "C77_cumulative",
    "C77_experiment"
   ],
   "note": "C77_times and later hold also when the scenario changes; C77_experiment is for every scenario name"
  },
  {
   "property": "C78",
   "status": "proved",
   "theorems": [
    "C78_documents",
    "C78_patches",
    "C78_sensors",
    "C78_rows",
    "C78_values_refuted",
    "C78_mixed_refuted"
   ],
   "note": "C78_documents and C78_patches also hold when the scenario changes; C78_values_refuted and C78_mixed_refuted give runs in which the intended statements fail"
  },
  {
   "property": "C79",
   "status": "proved",
   "theorems": [
    "C79_range",
    "C79_table",
    "C79_scenarios",
    "C79_line",
    "C79_line_results"
   ],
   "note": "Ranges by pattern for all runs without scenario changes, for the table in every experiment, narrower scenario ranges, and the exact movement of sensors on lines with the final values of the lines of the program. The range theorems use the real numbers of the standard library through Flocq (axioms listed in DESIGN.md)."
  },
  {
   "property": "C80",
   "status": "proved",
   "theorems": [
    "C80_transitions",
    "C80_experiment"
   ],
   "note": "Transitions of mixed runs in general (sound, spaced, complete), and none in any experiment of the program."
  },
  {
   "property": "C81",
   "status": "proved",
   "theorems": [
    "C81_log"
   ],
   "note": "For runs with and without scenario changes. The paths must be plain names, none below another, and the numbers finite (otherwise the file cannot be written)."
  },
  {
   "property": "C82",
   "status": "proved",
   "theorems": [
    "C82_experiment",
    "C82_urban",
    "C82_short",
    "C82_still",
    "C82_zero",
    "C82_urban_zero"
   ],
   "note": "C82_experiment for all runs whose patches span ten seconds, C82_urban for every urban run of the program, C82_short and C82_still for the panics, C82_zero and C82_urban_zero for the contradiction at time 0. The agreement of document and log is for a clock not before the last patch."
  },
  {
   "property": "C83",
   "status": "proved",
   "theorems": [
    "C83_latest",
    "C83_none"
   ],
   "note": ""
  },
  {
   "property": "C84",
   "status": "proved",
   "theorems": [
    "C84_counts",
    "C84_reduction",
    "C84_fewer",
    "C84_shares",
    "C84_idle",
    "C84_sizes",
    "C84_bandwidth",
    "C84_unsized",
    "C84_experiment",
    "C84_rows"
   ],
   "note": "Finding: the reported reduction cannot be below 50 percent; a value that is not finite makes the sizes 0."
  },
  {
   "property": "C85",
   "status": "proved",
   "theorems": [
    "C85_files",
    "C85_stop",
    "C85_earlier",
    "C85_run",
    "C85_moment"
   ],
   "note": "CreateSnapshot and saveResultToFile: numbered files, refused patches, files left by earlier calls, and the files of a simulation. File system errors are not modelled."
  },
  {
   "property": "C86",
   "status": "proved",
   "theorems": [
    "C86_stays",
    "C86_follows"
   ],
   "note": "Both directions: patches as generated never reach the document (all calls, any order), and with relative paths the log follows documents whose consecutive pairs are bridged and differ. Documents whose patch is empty would make a version that reads as null (C28) and are excluded."
  },
  {
   "property": "C87",
   "status": "proved",
   "theorems": [
    "C87_equal_documents",
    "C87_nan_refuted"
   ],
   "note": "All operations, paths and outcomes, for object documents. NaN is excluded because a document with NaN does not equal itself (C87_nan_refuted)."
  },
  {
   "property": "C88",
   "status": "proved",
   "theorems": [
    "C88_table"
   ],
   "note": "csv_text models encoding/csv's Writer; RFC 4180 grammar in CsvSpec"
  },
  {
   "property": "C89",
   "status": "proved",
   "theorems": [
    "C89_integer",
    "C89_fixed",
    "C89_one",
    "C89_order"
   ],
   "note": "C89_order uses the standard real axioms through Flocq"
  },
  {
   "property": "C90",
   "status": "proved",
   "theorems": [
    "C90_sensor",
    "C90_timing",
    "C90_cumulative",
    "C90_results",
    "C90_transitions",
    "C90_experiment"
   ],
   "note": "timing, results and experiment use the standard real axioms; measured times are arbitrary"
  },
  {
   "property": "C91",
   "status": "proved",
   "theorems": [
    "C91_queries"
   ],
   "note": "percentages for figures below 2^31; standard real axioms"
  },
  {
   "property": "C92",
   "status": "proved",
   "theorems": [
    "C92_indented",
    "C92_failure",
    "C92_compatible"
   ],
   "note": "the text of a number is a parameter that must be read back; C92_exact shows one"
  },
  {
   "property": "C93",
   "status": "proved",
   "theorems": [
    "C93_names",
    "C93_files",
    "C93_others",
    "C93_lost",
    "C93_patches"
   ],
   "note": "closed under the global context"
  },
  {
   "property": "C94",
   "status": "proved",
   "theorems": [
    "C94_program",
    "C94_urban",
    "C94_any",
    "C94_none",
    "C94_short",
    "C94_lost"
   ],
   "note": "C94_program and C94_urban use the standard real axioms, through C82"
  },
  {
   "property": "C95",
   "status": "proved",
   "theorems": [
    "C95_saved",
    "C95_kept",
    "C95_skipped",
    "C95_then",
    "C95_stale"
   ],
   "note": "C95_saved and C95_then use the four standard real-number axioms; a file or directory in the way is modelled, other file errors are not"
  },
  {
   "property": "C96",
   "status": "proved",
   "theorems": [
    "C96_shared",
    "C96_sorts",
    "C96_query_refuted",
    "C96_others",
    "C96_own",
    "C96_interleaved",
    "C96_made"
   ],
   "note": "C96_query_refuted records the surprising effect; the others are its exact extent. Which snapshot TemporalSnapshot starts from is a parameter of the slice model, tied to the documents in C96_own"
  },
  {
   "property": "C97",
   "status": "proved",
   "theorems": [
    "C97_one_document",
    "C97_answers",
    "C97_set_shows",
    "C97_frozen_refuted",
    "C97_asked_refuted",
    "C97_no_current",
    "C97_apart",
    "C97_readable"
   ],
   "note": "C97_frozen_refuted and C97_asked_refuted record what a user would not expect. Patches are values here; the operation slices logs share are the subject of C96"
  },
  {
   "property": "C98",
   "status": "proved",
   "theorems": [
    "C98_listing",
    "C98_lost",
    "C98_print"
   ],
   "note": "C98_listing and C98_lost describe PrintWithIndex; C98_print describes Print, whose text is that of Save (C70) and a line feed"
  },
  {
   "property": "C99",
   "status": "proved",
   "theorems": [
    "C99_operation",
    "C99_patch",
    "C99_length",
    "C99_inside",
    "C99_growth_refuted",
    "C99_removal_refuted",
    "C99_snapshot",
    "C99_order_refuted",
    "C99_sets",
    "C99_current_refuted",
    "C99_temporal_refuted"
   ],
   "note": "Universal descriptions for edits of single elements (set a leaf, remove); removals before the last operation are described for arrays of leaves and nulls. The intended reading is refuted by concrete cases."
  },
  {
   "property": "C100",
   "status": "proved",
   "theorems": [
    "C100_content",
    "C100_member",
    "C100_new",
    "C100_absent",
    "C100_leaf",
    "C100_element",
    "C100_outside",
    "C100_stuck",
    "C100_array_refuted"
   ],
   "note": "Contents are those of unshared documents (doc_of). The law for members that are arrays is refuted (C100_array_refuted)."
  },
  {
   "property": "C101",
   "status": "proved",
   "theorems": [
    "C101_faithful",
    "C101_shows",
    "C101_only",
    "C101_built",
    "C101_forged_refuted"
   ],
   "note": "The text of data (%v) is a parameter. Item order in a listing is the iteration order of Go maps, which the lists of the model stand for. C101_forged_refuted shows that the condition on line feeds is needed."
  },
  {
   "property": "C102",
   "status": "proved",
   "theorems": [
    "C102_named",
    "C102_inside",
    "C102_outside_refuted",
    "C102_files"
   ],
   "note": "Names are resolved part by part as the operating system does, without links. C102_outside_refuted shows that the condition on directories elsewhere is needed; internal/tson in the repository meets it."
  },
  {
   "property": "C103",
   "status": "proved",
   "theorems": [
    "C103_same_answers",
    "C103_goes_on",
    "C103_fork",
    "C103_temporal_track",
    "C103_history"
   ],
   "note": "A slice answers like the log (simulation over all call sequences), also when it is extended at the end; TemporalTrack and History on slices described. History panics on slices that begin after version 0."
  },
  {
   "property": "C104",
   "status": "proved",
   "theorems": [
    "C104_temporal_track",
    "C104_stops",
    "C104_compact",
    "C104_again",
    "C104_append",
    "C104_first"
   ],
   "note": "TemporalTrack and a second TemporalSlice on a time slice act on the common time range; an exact condition says when the slice can be used; Append and the first version described. A first version without a stored snapshot loses its operations."
  },
  {
   "property": "C105",
   "status": "proved",
   "theorems": [
    "C105_commute",
    "C105_nested",
    "C105_track",
    "C105_history",
    "C105_temporal_track",
    "C105_ordered",
    "C105_order_refuted"
   ],
   "note": "Compact calls commute; nested targets; Track of everything is Compact of everything; History is unchanged; TemporalTrack is unchanged for a full range and described for time-ordered logs. C105_order_refuted shows why time order is needed."
  },
  {
   "property": "C106",
   "status": "proved",
   "theorems": [
    "C106_inner",
    "C106_before",
    "C106_apart",
    "C106_overlap_refuted",
    "C106_compact",
    "C106_all",
    "C106_history",
    "C106_temporal_track",
    "C106_replay"
   ],
   "note": "Later History, Compact, Track and TemporalTrack calls; C106_overlap_refuted shows that overlapping Track calls do not commute."
  },
  {
   "property": "C107",
   "status": "proved",
   "theorems": [
    "C107_recorded",
    "C107_compact",
    "C107_track",
    "C107_temporal_track",
    "C107_history",
    "C107_snapshot",
    "C107_temporal_snapshot_refuted"
   ],
   "note": "TemporalSnapshot is refuted with a witness; History needs the versions to be met in their order, since Go may choose another; Snapshot is about logs over an object with the first snapshot only and non-empty last versions."
  },
  {
   "property": "C108",
   "status": "proved",
   "theorems": [
    "C108_all",
    "C108_history",
    "C108_longer",
    "C108_narrow",
    "C108_narrow_refuted"
   ],
   "note": "The relation between TemporalTrack of a shorter and a longer range needs operations in time order, and is refuted without."
  },
  {
   "property": "C109",
   "status": "proved",
   "theorems": [
    "C109_names",
    "C109_distinct",
    "C109_kept",
    "C109_other",
    "C109_run",
    "C109_program",
    "C109_order",
    "C109_sign",
    "C109_negative",
    "C109_order_refuted"
   ],
   "note": "The intended order of names is refuted for numbers that do not fit in the width and proved otherwise."
  },
  {
   "property": "C110",
   "status": "proved",
   "theorems": [
    "C110_apply",
    "C110_run",
    "C110_snapshot",
    "C110_temporal_snapshot",
    "C110_version",
    "C110_latest",
    "C110_place",
    "C110_place_snapshot",
    "C110_place_temporal_snapshot",
    "C110_place_refuted"
   ],
   "note": "Covers every call of a log, failed ones included. Places: C110_place for values reached by names; C110_place_refuted shows that operations with an array or object as value can move a value. Elements of arrays may move to other indices, so their places are not part of the claim."
  }
 ]
}
