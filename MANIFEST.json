{
 "claims": [
  {
   "property": "C01",
   "status": "proved",
   "theorems": [
    "C01_hit_is_last_set"
   ],
   "note": "Proved as stated."
  },
  {
   "property": "C02",
   "status": "proved",
   "theorems": [
    "C02_unlimited_is_expiring_map",
    "C02_kept_value_is_returned"
   ],
   "note": "Proved as stated."
  },
  {
   "property": "C03",
   "status": "proved",
   "theorems": [
    "C03_get_decision",
    "C03_get_absent"
   ],
   "note": "Proved as stated."
  },
  {
   "property": "C04",
   "status": "proved",
   "theorems": [
    "C04_set_renews",
    "C04_set_is_kept",
    "C04_set_ttl"
   ],
   "note": "Proved as stated."
  },
  {
   "property": "C05",
   "status": "proved",
   "theorems": [
    "C05_clean_evicts_lru"
   ],
   "note": "Proved as stated."
  },
  {
   "property": "C06",
   "status": "proved",
   "theorems": [
    "C06_maxitems_bound"
   ],
   "note": "Proved as stated."
  },
  {
   "property": "C07",
   "status": "proved",
   "theorems": [
    "C07_maxitems_small_refuted",
    "C07_maxitems_flush_refuted",
    "C07_maxitems_expire_refuted",
    "C07_maxitems_unbounded_refuted"
   ],
   "note": "The code violates the documented bound: the theorems prove the violation (concrete histories, and for every Maxitems and every N a history with Count = N)."
  },
  {
   "property": "C08",
   "status": "proved",
   "theorems": [
    "C08_no_panic",
    "C08_clean_200_panics"
   ],
   "note": "Proved as stated."
  },
  {
   "property": "C09",
   "status": "proved",
   "theorems": [
    "C09_clean_effect"
   ],
   "note": "Proved as stated."
  },
  {
   "property": "C10",
   "status": "proved",
   "theorems": [
    "C10_verify_keeps_valid",
    "C10_order_irrelevant"
   ],
   "note": "Proved as stated."
  },
  {
   "property": "C11",
   "status": "proved",
   "theorems": [
    "C11_verify_count_refuted",
    "C11_clean_count_refuted",
    "C11_clean0_always_reports_0",
    "C11_verify_always_reports_0"
   ],
   "note": "The code violates the documented meaning of the result: the theorems prove the violation."
  },
  {
   "property": "C12",
   "status": "proved",
   "theorems": [
    "C12_ttl_survives_clean"
   ],
   "note": "Proved as stated."
  },
  {
   "property": "C13",
   "status": "proved",
   "theorems": [
    "C13_flush_empties",
    "C13_flush_count"
   ],
   "note": "Proved as stated."
  },
  {
   "property": "C14",
   "status": "proved",
   "theorems": [
    "C14_lru_after_flush_refuted",
    "C14_clean_after_flush_refuted"
   ],
   "note": "The code violates least-recently-used eviction after Flush: the theorems prove the violation."
  },
  {
   "property": "C15",
   "status": "proved",
   "theorems": [
    "C15_other_keys"
   ],
   "note": "Proved as stated."
  },
  {
   "property": "C16",
   "status": "proved",
   "theorems": [
    "C16_concurrent_safety"
   ],
   "note": "Proved as stated."
  },
  {
   "property": "C17",
   "status": "proved",
   "theorems": [
    "C17_hit_was_current",
    "C17_invalid_was_present",
    "C17_hit_was_last_set"
   ],
   "note": "Proved as stated."
  },
  {
   "property": "C18",
   "status": "proved",
   "theorems": [
    "C18_stale_invalidation_refuted",
    "C18_stale_verify_refuted",
    "C18_flushed_verify_refuted",
    "C18_orphan_in_recency_list_refuted"
   ],
   "note": "Schedules: stale Get, stale Verify, Verify over the map replaced by Flush, Get and Del."
  },
  {
   "property": "C19",
   "status": "proved",
   "theorems": [
    "C19_cache_discipline",
    "C19_verify_no_deadlock",
    "C19_verify_race_refuted"
   ],
   "note": "Cache methods other than Verify: race freedom, no re-entrance, no deadlock. Verify's unlocked iteration is a violation, proved by a schedule."
  },
  {
   "property": "C20",
   "status": "proved",
   "theorems": [
    "C20_paths",
    "C20_every_key",
    "C20_total",
    "C20_no_panic"
   ],
   "note": "Proved as stated."
  },
  {
   "property": "C21",
   "status": "proved",
   "theorems": [
    "C21_set_get",
    "C21_del_get",
    "C21_set_other",
    "C21_del_other",
    "C21_last_set_wins",
    "C21_del_twice",
    "C21_defined"
   ],
   "note": "Proved as stated."
  },
  {
   "property": "C22",
   "status": "proved",
   "theorems": [
    "C22_exact_answer",
    "C22_stored_not_read_refuted"
   ],
   "note": "The code violates the documented meaning of Get: exact answer proved for every key containing '>', and the loss for every dataset lacking the first segment."
  },
  {
   "property": "C23",
   "status": "proved",
   "theorems": [
    "C23_integers",
    "C23_wraps_only_unsigned",
    "C23_bool",
    "C23_float",
    "C23_zero",
    "C23_time",
    "C23_other"
   ],
   "note": "Proved as stated."
  },
  {
   "property": "C24",
   "status": "proved",
   "theorems": [
    "C24_exact",
    "C24_nearest",
    "C24_float32",
    "C24_float64",
    "C24_bool",
    "C24_time",
    "C24_other"
   ],
   "note": "Proved as stated."
  },
  {
   "property": "C25",
   "status": "proved",
   "theorems": [
    "C25_truth",
    "C25_found"
   ],
   "note": "Proved as stated."
  },
  {
   "property": "C26",
   "status": "proved",
   "theorems": [
    "C26_missing",
    "C26_only_if_found",
    "C26_dataset",
    "C26_collection",
    "C26_time",
    "C26_slices",
    "C26_string",
    "C26_wrapper",
    "C26_wrapper_writes"
   ],
   "note": "Proved as stated."
  },
  {
   "property": "C27",
   "status": "proved",
   "theorems": [
    "C27_terminates",
    "C27_deep_copy"
   ],
   "note": "Proved as stated."
  },
  {
   "property": "C28",
   "status": "proved",
   "theorems": [
    "C28_clone_independent",
    "C28_original_independent"
   ],
   "note": "The mutated objects are those reachable from the original (resp. the clone) when Clone returns; slices of plain values are values in the model, so writes into the backing array of a stored []string are not covered."
  },
  {
   "property": "C29",
   "status": "proved",
   "theorems": [
    "C29_never_returns_refuted"
   ],
   "note": "The code does not terminate on cyclic data: proved for every depth."
  },
  {
   "property": "C30",
   "status": "proved",
   "theorems": [
    "C30_represents",
    "C30_paths",
    "C30_collection"
   ],
   "note": "Paths through maps and arrays of maps, including missing keys and indexes out of range."
  },
  {
   "property": "C31",
   "status": "proved",
   "theorems": [
    "C31_index_mapping",
    "C31_scalars_dropped_refuted"
   ],
   "note": "The code drops elements: exact index mapping proved, and the loss of scalars."
  },
  {
   "property": "C32",
   "status": "proved",
   "theorems": [
    "C32_dataset",
    "C32_language_xml",
    "C32_language_string",
    "C32_language_gostring"
   ],
   "note": "Proved as stated."
  },
  {
   "property": "C33",
   "status": "proved",
   "theorems": [
    "C33_deque",
    "C33_panic_exactly_when_empty",
    "C33_deterministic"
   ],
   "note": "Proved as stated."
  },
  {
   "property": "C34",
   "status": "proved",
   "theorems": [
    "C34_last_entry",
    "C34_not_found"
   ],
   "note": "Proved as stated."
  },
  {
   "property": "C35",
   "status": "proved",
   "theorems": [
    "C35_deviations_refuted"
   ],
   "note": "The code deviates: both deviations and the agreement elsewhere are proved."
  },
  {
   "property": "C36",
   "status": "proved",
   "theorems": [
    "C36_cache_sections",
    "C36_cache_steps",
    "C36_language",
    "C36_dataset",
    "C36_collection",
    "C36_mutual_exclusion",
    "C36_progress"
   ],
   "note": "Any number of threads; memory accesses interleave one by one. XDatasetTS is proved around any inner dataset used only through the wrapper."
  },
  {
   "property": "C37",
   "status": "proved",
   "theorems": [
    "C37_getdata_panic_refuted",
    "C37_no_shrink_no_panic"
   ],
   "note": "The panic is a violation, proved by a schedule; absence of panics without Pop/Shift is proved for all schedules."
  },
  {
   "property": "C38",
   "status": "proved",
   "theorems": [
    "C38_cache_releases",
    "C38_empty_pop_blocks",
    "C38_nil_dataset_blocks",
    "C38_clone_blocks",
    "C38_language_releases",
    "C38_reads_release"
   ],
   "note": "The code violates the expectation that a panic releases the lock: proved for every reachable state; the deferring methods are proved never to leave the lock held."
  },
  {
   "property": "C39",
   "status": "proved",
   "theorems": [
    "C39_get",
    "C39_get_status",
    "C39_get_entries",
    "C39_name",
    "C39_tag"
   ],
   "note": "Proved as stated."
  },
  {
   "property": "C40",
   "status": "proved",
   "theorems": [
    "C40_load_string",
    "C40_lines_total",
    "C40_overlay_unique",
    "C40_overlay_keeps",
    "C40_overlay_last",
    "C40_blanks"
   ],
   "note": "Proved as stated."
  },
  {
   "property": "C41",
   "status": "proved",
   "theorems": [
    "C41_flat_round_trip"
   ],
   "note": "Proved as stated."
  },
  {
   "property": "C42",
   "status": "proved",
   "theorems": [
    "C42_long_line"
   ],
   "note": "Proved as stated."
  },
  {
   "property": "C43",
   "status": "proved",
   "theorems": [
    "C43_xml_round_trip",
    "C43_xml_same",
    "C43_reader"
   ],
   "note": "encoding/xml is modelled from the library (XmlModel.v: text, rawToken, unmarshal); decode is any decoder that agrees with that model where the model answers (faithful). parse_tag is a parameter."
  },
  {
   "property": "C44",
   "status": "proved",
   "theorems": [
    "C44_value_malformed_refuted",
    "C44_value_changed_refuted",
    "C44_value_injects_refuted",
    "C44_value_not_xml_refuted",
    "C44_key_quote_refuted",
    "C44_key_lt_refuted",
    "C44_key_amp_refuted"
   ],
   "note": "The code violates the expectation that GetXML escapes: six families of tables, each for all its members, with witnesses."
  },
  {
   "property": "C45",
   "status": "proved",
   "theorems": [
    "C45_pattern",
    "C45_scanner",
    "C45_total",
    "C45_unique",
    "C45_nothing_lost"
   ],
   "note": "The direct reading of the text (reads) against the leftmost-first matches of the transcribed regular expression."
  },
  {
   "property": "C46",
   "status": "proved",
   "theorems": [
    "C46_plain_text"
   ],
   "note": "Data: nil or any dataset behind any number of wrappers."
  },
  {
   "property": "C47",
   "status": "proved",
   "theorems": [
    "C47_comment_is_one_element",
    "C47_compiled",
    "C47_comment_and_boxes",
    "C47_no_output"
   ],
   "note": "Proved as stated."
  },
  {
   "property": "C48",
   "status": "proved",
   "theorems": [
    "C48_balanced",
    "C48_new_template"
   ],
   "note": "Proved as stated."
  },
  {
   "property": "C49",
   "status": "proved",
   "theorems": [
    "C49_boxes",
    "C49_load_boxes"
   ],
   "note": "Stated for NewXTemplateFromString and for LoadString over a template that already has sub templates."
  },
  {
   "property": "C50",
   "status": "proved",
   "theorems": [
    "C50_failed_load",
    "C50_debris_refuted"
   ],
   "note": "The code violates the expectation that a failed load has no effect: the exact frame is proved and a witness renders differently afterwards."
  },
  {
   "property": "C51",
   "status": "proved",
   "theorems": [
    "C51_add_template",
    "C51_lookup",
    "C51_unique",
    "C51_inner_boxes_hidden"
   ],
   "note": "Proved as stated."
  },
  {
   "property": "C52",
   "status": "proved",
   "theorems": [
    "C52_meaning",
    "C52_unique",
    "C52_scope_restored",
    "C52_loaded"
   ],
   "note": "Execution agrees with an inductive semantics of the metalanguage (RenderSpec.renders) in both directions, and that semantics is deterministic. Texts of values go through fmt (golib record)."
  },
  {
   "property": "C53",
   "status": "proved",
   "theorems": [
    "C53_only_counters",
    "C53_loop_free"
   ],
   "note": "counted: an object of the data is unchanged, or is a dataset inside an element of a collection whose .counter was set to its index plus one. Templates are unchanged by construction: Execute of the model returns no template heap."
  },
  {
   "property": "C54",
   "status": "proved",
   "theorems": [
    "C54_not_repeatable_refuted",
    "C54_repeatable_without_loops"
   ],
   "note": "The expectation that rendering is repeatable is violated by the code: witness with a loop; repeatable without loops."
  },
  {
   "property": "C55",
   "status": "proved",
   "theorems": [
    "C55_condition",
    "C55_loop",
    "C55_base_rendered_refuted"
   ],
   "note": "The documentation is violated: both rules proved as equivalences and four witnesses."
  },
  {
   "property": "C56",
   "status": "proved",
   "theorems": [
    "C56_text",
    "C56_panic"
   ],
   "note": "Exact characterisation of the text and of the panic (nil_renders)."
  },
  {
   "property": "C57",
   "status": "proved",
   "theorems": [
    "C57_terminates",
    "C57_self_reference",
    "C57_endless",
    "C57_box_calls_itself_refuted"
   ],
   "note": "NoFuel at every fuel models non termination."
  },
  {
   "property": "C58",
   "status": "proved",
   "theorems": [
    "C58_clone_renders",
    "C58_clone_terminates",
    "C58_clone_keeps"
   ],
   "note": "For every iteration order of the map of sub templates."
  },
  {
   "property": "C59",
   "status": "proved",
   "theorems": [
    "C59_boxes_change_hands",
    "C59_not_independent"
   ],
   "note": "General: the exact exchange of fathers and its effect on AddTemplate; with a concrete case."
  },
  {
   "property": "C60",
   "status": "proved",
   "theorems": [
    "C60_set_then_get_refuted"
   ],
   "note": "The code violates this expectation after a Flush: the theorem proves the violation."
  },
  {
   "property": "C61",
   "status": "proved",
   "theorems": [
    "C61_read_time_race_refuted",
    "C61_ttl_race_refuted"
   ],
   "note": "The code violates race freedom of the entry fields: the theorems prove the violation."
  },
  {
   "property": "C62",
   "status": "proved",
   "theorems": [
    "C62_clone_race_refuted"
   ],
   "note": "The code violates thread safety: the theorem proves the violation."
  },
  {
   "property": "C63",
   "status": "proved",
   "theorems": [
    "C63_name_race_refuted",
    "C63_load_race_refuted"
   ],
   "note": "The code violates thread safety of the two fields: the theorems prove the violation."
  },
  {
   "property": "C64",
   "status": "proved",
   "theorems": [
    "C64_cycle_deadlock_refuted"
   ],
   "note": "The code deadlocks: the theorem exhibits the schedule."
  },
  {
   "property": "C65",
   "status": "proved",
   "theorems": [
    "C65_language_discipline",
    "C65_dataset_discipline",
    "C65_collection_discipline"
   ],
   "note": "Proved as stated."
  },
  {
   "property": "C66",
   "status": "proved",
   "theorems": [
    "C66_getdata_misses_refuted",
    "C66_getdata_moment"
   ],
   "note": "The code violates the expectation: the first theorem exhibits the schedule; the second says when the expectation holds."
  },
  {
   "property": "C67",
   "status": "proved",
   "theorems": [
    "C67_endless",
    "C67_added_to_itself_refuted",
    "C67_added_below_refuted",
    "C67_execute_refuted"
   ],
   "note": "The code allows cycles of fathers: exact condition of endless lookups, and the two ways to create one, for all heaps."
  },
  {
   "property": "C68",
   "status": "proved",
   "theorems": [
    "C68_last_parent",
    "C68_first_parent_refuted"
   ],
   "note": "The code violates the expectation: general resolution rule and a witness whose output changes."
  },
  {
   "property": "C69",
   "status": "proved",
   "theorems": [
    "C69_overlay",
    "C69_rejected",
    "C69_xml_not_replaced_refuted",
    "C69_text_not_replaced_refuted"
   ],
   "note": "The documentation is violated. decode (encoding/xml) and parse_tag are parameters; C43 composes with the model of the XML reader."
  },
  {
   "property": "C70",
   "status": "proved",
   "theorems": [
    "C70_language_files",
    "C70_template_files",
    "C70_language_errors",
    "C70_xml_errors",
    "C70_template_errors",
    "C70_handle_left_refuted",
    "C70_handles_closed",
    "C70_xml_handles"
   ],
   "note": "The operating system is an oracle (open, read, close per path). The handle left open is a violation, proved for every such path."
  },
  {
   "property": "C71",
   "status": "proved",
   "theorems": [
    "C71_not_converted_refuted"
   ],
   "note": "The documentation is violated: the theorem covers all five slice getters."
  },
  {
   "property": "C72",
   "status": "proved",
   "theorems": [
    "C72_text",
    "C72_order",
    "C72_order_lost_refuted",
    "C72_boxes_lost_refuted",
    "C72_ambiguous_refuted"
   ],
   "note": "fmt's print of the structure is modelled; quote (%#v of a string) is a parameter. The expectation that the print identifies the template is violated: three witnesses."
  },
  {
   "property": "C73",
   "status": "proved",
   "theorems": [
    "C73_well_formed",
    "C73_get",
    "C73_complete",
    "C73_clone",
    "C73_clone_nil_refuted"
   ],
   "note": "built: inductive set of heaps reached by calls; induction over the calls. Nil elements are a parameter of the relation; with nil the failure of Clone is proved."
  },
  {
   "property": "C74",
   "status": "proved",
   "theorems": [
    "C74_same_value",
    "C74_slices_shared_refuted"
   ],
   "note": "The documentation is violated. AliasModel.v refines the model: slices are backing arrays in a second heap; C74_same_value links it to the main model."
  },
  {
   "property": "C75",
   "status": "proved",
   "theorems": [
    "C75_exact_types",
    "C75_otherwise_zero",
    "C75_not_converted_refuted",
    "C75_collection"
   ],
   "note": "Both implementations of the collection where the locations allow; the expectation of conversion is violated for every integer kind but int."
  },
  {
   "property": "C76",
   "status": "proved",
   "theorems": [
    "C76_atomic_map"
   ],
   "note": "Refinement: invariant relates the shared state and every thread's pending answer to the atomic map run in the order of the first steps."
  },
  {
   "property": "C77",
   "status": "proved",
   "theorems": [
    "C77_calls_apart"
   ],
   "note": "Refinement of CacheConc.v to CacheModel.v, all calls. The iteration of Verify is explicit: entries not visited yet, in any order, and all of them when nobody interferes."
  },
  {
   "property": "C78",
   "status": "proved",
   "theorems": [
    "C78_text",
    "C78_one_text",
    "C78_tells_apart",
    "C78_tells_apart_refuted"
   ],
   "note": "quote (%#v of a string) is a parameter. The expectation that the print identifies the table is violated in general: witness; proved under the stated condition."
  },
  {
   "property": "C79",
   "status": "proved",
   "theorems": [
    "C79_text",
    "C79_panics",
    "C79_terminates",
    "C79_cycle_refuted"
   ],
   "note": "The texts of plain values are fmt's (golib record and plain_text). prints is an inductive relation without fuel; nil wrappers are excluded by whole. Divergence on cycles is proved for every fuel."
  },
  {
   "property": "C80",
   "status": "proved",
   "theorems": [
    "C80_execute_no_race",
    "C80_counter_race_refuted",
    "C80_clone_race_refuted"
   ],
   "note": "Skeletons of the template methods (no locks): reads of the tree, reads of the data, writes of .counter. The two expectations are violated: witness schedules. That only .counter is written, and nothing without loops, is C53; that Clone writes the fathers is C59."
  },
  {
   "property": "C81",
   "status": "proved",
   "theorems": [
    "C81_same_answers",
    "C81_verify",
    "C81_maxitems_refuted",
    "C81_set_then_get_refuted"
   ],
   "note": "Simulation: a version 1 cache is the version 2 cache whose entries have no TTL. The expectation that Verify forgets the keys is violated: computed witnesses."
  },
  {
   "property": "C82",
   "status": "proved",
   "theorems": [
    "C82_no_deadlock",
    "C82_recency_without_get",
    "C82_items_without_set",
    "C82_get_race_refuted",
    "C82_set_race_refuted"
   ],
   "note": "Lock skeletons of xcache.go; violations are computed schedules."
  },
  {
   "property": "C83",
   "status": "proved",
   "theorems": [
    "C83_same_answers",
    "C83_xml_file_refuted"
   ],
   "note": "Same answers proved for every history; the open handle of LoadXMLFile is the violation (refuted)."
  },
  {
   "property": "C84",
   "status": "proved",
   "theorems": [
    "C84_same",
    "C84_nil",
    "C84_time",
    "C84_collection",
    "C84_collection_panics_refuted"
   ],
   "note": "Exact differences proved; the panic of GetCollection is the violation (refuted)."
  },
  {
   "property": "C85",
   "status": "proved",
   "theorems": [
    "C85_pattern",
    "C85_scanner",
    "C85_total",
    "C85_unique",
    "C85_nothing_lost",
    "C85_same_reading",
    "C85_text_swallowed_refuted"
   ],
   "note": "Scanner proved equal to the relation in both directions; the swallowed text is the violation (refuted)."
  },
  {
   "property": "C86",
   "status": "proved",
   "theorems": [
    "C86_balanced",
    "C86_load",
    "C86_new",
    "C86_lookup"
   ],
   "note": "The tree is described by loaded1/box_ok1, without fathers."
  },
  {
   "property": "C87",
   "status": "proved",
   "theorems": [
    "C87_meaning",
    "C87_unique",
    "C87_loaded"
   ],
   "note": "renders1 has panics as a result; equivalence with the code in both directions. The data heap is not written in version 1 (by inspection: the injector stores nothing into data)."
  },
  {
   "property": "C88",
   "status": "proved",
   "theorems": [
    "C88_terminates",
    "C88_all_fuel"
   ],
   "note": "Age of the templates decreases along sub templates for all heaps made by loading."
  },
  {
   "property": "C89",
   "status": "proved",
   "theorems": [
    "C89_loop_over_other",
    "C89_loop_over_nothing",
    "C89_condition",
    "C89_nil_element",
    "C89_panics_refuted"
   ],
   "note": "Exact results of the single elements; comparison with version 2 computed on a concrete heap."
  },
  {
   "property": "C90",
   "status": "proved",
   "theorems": [
    "C90_load",
    "C90_new",
    "C90_execute",
    "C90_sibling_refuted"
   ],
   "note": "Both directions; the conditions own_names and straight are checked on a concrete template (C90_applies). Siblings are the violation (refuted)."
  },
  {
   "property": "C91",
   "status": "proved",
   "theorems": [
    "C91_string",
    "C91_not_loaded_refuted"
   ],
   "note": "GoString has the same body as String in the code; one definition."
  },
  {
   "property": "C92",
   "status": "proved",
   "theorems": [
    "C92_addresses",
    "C92_clone",
    "C92_clone_unshared",
    "C92_clone_shared_refuted"
   ],
   "note": "Correspondence as a relation between addresses (SameSpec); the clone with a shared object is the violation (refuted)."
  },
  {
   "property": "C93",
   "status": "proved",
   "theorems": [
    "C93_list",
    "C93_list_shows_values_refuted",
    "C93_dump_inside",
    "C93_condition_on_dataset",
    "C93_condition_on_value",
    "C93_condition_enters_refuted",
    "C93_selection",
    "C93_fallback_refuted",
    "C93_loop_names_refuted",
    "C93_even_refuted"
   ],
   "note": "Rules proved on the compositional semantics (equivalent to the code by C53); violations computed on concrete templates (refuted)."
  },
  {
   "property": "C94",
   "status": "proved",
   "theorems": [
    "C94_concat",
    "C94_last_newline",
    "C94_twice",
    "C94_crlf",
    "C94_crlf_always_refuted",
    "C94_order",
    "C94_order_condition_needed"
   ],
   "note": "Equalities on load_string, without bounds; the violation (refuted) is CR LF at the buffer limit; C94_order_condition_needed shows that the condition of C94_order cannot be dropped."
  },
  {
   "property": "C95",
   "status": "proved",
   "theorems": [
    "C95_loads",
    "C95_same",
    "C95_unique",
    "C95_get_xml",
    "C95_truncated",
    "C95_mismatched",
    "C95_unclosed",
    "C95_errors",
    "C95_illegal",
    "C95_root_refuted",
    "C95_trailing_refuted"
   ],
   "note": "Grammar of documents (XmlDocSpec) independent of the reader; relative to a decoder that agrees with the modelled part of encoding/xml (faithful). The converse (only documents are accepted) is not claimed; two accepted non documents are the violations (refuted)."
  },
  {
   "property": "C96",
   "status": "proved",
   "theorems": [
    "C96_collections",
    "C96_recency_list",
    "C96_remove",
    "C96_evict",
    "C96_copy_refuted"
   ],
   "note": "Slices as views of arrays in a memory, growth policy of append an arbitrary function; both directions, by the invariant that different variables have different arrays. Assignment of collections is the violation (refuted, for every growth policy)."
  },
  {
   "property": "C97",
   "status": "proved",
   "theorems": [
    "C97_made",
    "C97_language_reads",
    "C97_language_stores",
    "C97_language_empty",
    "C97_lock_kept",
    "C97_lock_released_refuted",
    "C97_cache_before_flush",
    "C97_cache_after_flush"
   ],
   "note": "Model with nil maps (ZeroModel), shown to agree with LangModel and CacheModel on made values; the lock left taken is characterised exactly (C97_lock_kept) and computed (refuted)."
  },
  {
   "property": "C98",
   "status": "proved",
   "theorems": [
    "C98_agrees",
    "C98_clean",
    "C98_beyond",
    "C98_negative_refuted",
    "C98_huge_refuted"
   ],
   "note": "Model of the cache with wrapped multiplication (WrapModel) equal to CacheModel within the bound; the two overflows are computed (refuted)."
  },
  {
   "property": "C99",
   "status": "proved",
   "theorems": [
    "C99_get_string",
    "C99_inside_a_print",
    "C99_numeral",
    "C99_integers_apart",
    "C99_slices_apart",
    "C99_apart_refuted"
   ],
   "note": "Texts specified without the printing functions (PlainSpec); floats, times and other types print by fmt, which is a parameter."
  },
  {
   "property": "C100",
   "status": "proved",
   "theorems": [
    "C100_call",
    "C100_call_ends",
    "C100_no_data",
    "C100_history",
    "C100_execute",
    "C100_execute_panics",
    "C100_clone",
    "C100_loop_refuted",
    "C100_lock_released_refuted"
   ],
   "note": "Model with nil maps (NilModel), related to DatasetModel and TemplateModel: an execution panics exactly where the one with empty maps stores into one of them. Both violations are computed (refuted)."
  },
  {
   "property": "C101",
   "status": "proved",
   "theorems": [
    "C101_recent_kept",
    "C101_few_others",
    "C101_bound_exact"
   ],
   "note": "From the order of the recency list (C60): an eviction takes the oldest entries, and the entries younger than the key are all keys used after it. Clean with a percentage from -100 to 0 is allowed in the histories."
  },
  {
   "property": "C102",
   "status": "proved",
   "theorems": [
    "C102_pattern",
    "C102_unprinted"
   ],
   "note": "Roles of keys (free, plain, dataset or plain, any) are a parameter; the heap with other contents is related to the first one, and the two executions are related call by call. Dumps of the whole data and variables that name an element of a collection by its number are outside (they print objects)."
  },
  {
   "property": "C103",
   "status": "proved",
   "theorems": [
    "C103_bound",
    "C103_count",
    "C103_list",
    "C103_unbounded_refuted",
    "C103_leak_refuted",
    "C103_fresh_refuted"
   ],
   "note": "Bound for every schedule by a potential argument; the three violations are schedules (refuted), the first two for every size. Granularity: critical sections, as in CacheConc."
  },
  {
   "property": "C104",
   "status": "proved",
   "theorems": [
    "C104_compose",
    "C104_walk_found",
    "C104_found_walks",
    "C104_set",
    "C104_del",
    "C104_set_elsewhere",
    "C104_del_elsewhere",
    "C104_push",
    "C104_pop",
    "C104_unshift",
    "C104_shift",
    "C104_unshift_walk",
    "C104_shift_walk",
    "C104_renumbered",
    "C104_literal_refuted",
    "C104_cycle_refuted"
   ],
   "note": "Composition by induction on the walk; the two limits (literal keys with the separator, cycles) are refuted theorems. Keys with the separator are excluded from the writes (C21 covers them)."
  },
  {
   "property": "C105",
   "status": "proved",
   "theorems": [
    "C105_round",
    "C105_before",
    "C105_tree",
    "C105_any_text"
   ],
   "note": "A text in front of an element never merges with it, because the third character of an element is never its mark; trees by uniqueness of the bracketing."
  },
  {
   "property": "C106",
   "status": "proved",
   "theorems": [
    "C106_no_invention",
    "C106_flat_loads",
    "C106_flat_atomic_refuted",
    "C106_half_seen_refuted",
    "C106_documents",
    "C106_documents_seen"
   ],
   "note": "Granularity: critical sections (C36, C65). The unprotected writes of the name and the tag are separate steps; nothing is claimed about name and tag (C63)."
  },
  {
   "property": "C107",
   "status": "proved",
   "theorems": [
    "C107_panics",
    "C107_always",
    "C107_no_holes",
    "C107_made",
    "C107_no_text",
    "C107_skipped_refuted"
   ],
   "note": "The heap at the moment of the panic (counters already stored) is not described. Wrappers that wrap nothing and nil maps are excluded here (C38, C100)."
  },
  {
   "property": "C108",
   "status": "proved",
   "theorems": [
    "C108_shrinks",
    "C108_stuck_refuted",
    "C108_raised"
   ],
   "note": "The code violates the expectation for small counts (C108_stuck_refuted); the other theorems say what holds."
  },
  {
   "property": "C109",
   "status": "proved",
   "theorems": [
    "C109_pure",
    "C109_hit",
    "C109_invalidated",
    "C109_verdict",
    "C109_no_panic",
    "C109_endless",
    "C109_terminates",
    "C109_renewed_not_seen_refuted",
    "C109_renewed_lost_refuted",
    "C109_overfull_refuted"
   ],
   "note": "Sequential use. The three _refuted theorems exhibit the violations."
  },
  {
   "property": "C110",
   "status": "proved",
   "theorems": [
    "C110_pure",
    "C110_left",
    "C110_no_panic",
    "C110_terminates",
    "C110_renewed_lost_refuted",
    "C110_undercounts_refuted"
   ],
   "note": "Keys added during the walk (given by Go or not) and a Flush by the validator (the walk goes on in the old map) are not modelled here; C110_left excludes programs that store or flush. C115 covers them in the concurrent model."
  },
  {
   "property": "C111",
   "status": "proved",
   "theorems": [
    "C111_tree",
    "C111_alike",
    "C111_same_text",
    "C111_equivalence",
    "C111_concat",
    "C111_inline",
    "C111_unknown",
    "C111_inner_boxes_refuted"
   ],
   "note": "Inlining and omission are stated for elements outside the boxes. Side by side texts (around a removed comment) are not merged: the words must be equal after leaving out the comments."
  },
  {
   "property": "C112",
   "status": "proved",
   "theorems": [
    "C112_alone",
    "C112_ends",
    "C112_counters",
    "C112_quiet",
    "C112_apart",
    "C112_noticed_refuted"
   ],
   "note": "Granularity: one method call of a dataset or collection is one access (locks: C36, C37; without locks shared writes are races, C80); printing a value and the dump are one access as well. Templates and languages are not changed meanwhile."
  },
  {
   "property": "C113",
   "status": "proved",
   "theorems": [
    "C113_reason",
    "C113_expired",
    "C113_switch_off_refuted",
    "C113_limit_off_refuted"
   ],
   "note": "Model: the actions AMax and AExpire of CacheConc.v between any two steps, and other values for each of the readings inside a critical section (in_mid). The two expectations are refuted by schedules."
  },
  {
   "property": "C114",
   "status": "proved",
   "theorems": [
    "C114_leaves_accepted",
    "C114_deletes_rejected",
    "C114_function"
   ],
   "note": "The loop of Verify over the map it began with, in any order; a concurrent Flush leaves it on the old map (C18_flushed_verify_refuted). What the validator says is an input of the step (in_says); C114_function is the special case of a function."
  },
  {
   "property": "C115",
   "status": "proved",
   "theorems": [
    "C115_left",
    "C115_no_panic",
    "C115_endless",
    "C115_reloaded_lost_refuted"
   ],
   "note": "The validator of a call of thread d runs as thread d+1 while thread d stands still; during the call no other goroutine runs (before it they may have stopped anywhere). The last violation is a computed run (refuted)."
  },
  {
   "property": "C116",
   "status": "proved",
   "theorems": [
    "C116_meaning",
    "C116_unseen",
    "C116_tame",
    "C116_snapshot_refuted",
    "C116_loop_refuted"
   ],
   "note": "Granularity as in C112. The other goroutines are arbitrary accesses (functions on the heap). C116_unseen: values printed or tested are no objects, no dump; it speaks of executions that return. The violations are computed schedules (refuted)."
  },
  {
   "property": "C117",
   "status": "proved",
   "theorems": [
    "C117_alone",
    "C117_alone_clone",
    "C117_ends",
    "C117_copies",
    "C117_texts",
    "C117_lookup",
    "C117_fits",
    "C117_lost_refuted",
    "C117_wrong_refuted"
   ],
   "note": "One access is one read or one assignment of a field of a template; the contents of a map of sub templates and of Root are not written once they can be reached. Each goroutine has its own data (shared data are C112 and C116). C117_texts speaks of scripts for which the fuel suffices. The violations are computed schedules (refuted)."
  },
  {
   "property": "C118",
   "status": "proved",
   "theorems": [
    "C118_alone",
    "C118_alone_add",
    "C118_ends",
    "C118_no_panic",
    "C118_swap",
    "C118_mixed_refuted",
    "C118_add_lost_refuted",
    "C118_loads_refuted"
   ],
   "note": "One access is one read or one assignment of a field of a template, or the writing of one entry of a map of sub templates; each goroutine has its own data. That the runtime may stop a program that writes a map while another goroutine reads it is not modelled. C118_swap speaks of texts without boxes loaded into templates that are not sub templates. The violations are computed schedules (refuted)."
  },
  {
   "property": "C119",
   "status": "proved",
   "theorems": [
    "C119_no_panic",
    "C119_careful",
    "C119_grows",
    "C119_loop",
    "C119_endless_refuted"
   ],
   "note": "One call of a method of a dataset or collection is one access (ParModel.v). A goroutine is careful if each of its accesses keeps the data sound and lets them grow, whatever careful goroutines do beside it. passes and shows are the relations of C116, which C116_meaning gives for every execution that returns. The violation is a schedule for every number of elements (refuted)."
  },
  {
   "property": "C120",
   "status": "proved",
   "theorems": [
    "C120_page",
    "C120_means",
    "C120_only_named",
    "C120_same_end",
    "C120_same_panic",
    "C120_set"
   ],
   "note": "The texts of the values of the data (parameter F) are the same for all languages: a page that prints the language object itself, {{#}}, is outside. No hypothesis on the templates."
  },
  {
   "property": "C121",
   "status": "proved",
   "theorems": [
    "C121_alone",
    "C121_ends",
    "C121_page",
    "C121_panic",
    "C121_untouched",
    "C121_other_languages",
    "C121_one_language_refuted"
   ],
   "note": "One step is one call of XLanguage.Get or one section of a call that changes a language (LangConc.v). The data and templates of an execution are not changed by the others meanwhile (C112 to C119). The violation is a computed schedule (refuted)."
  },
  {
   "property": "C122",
   "status": "proved",
   "theorems": [
    "C122_alone",
    "C122_reads",
    "C122_moments",
    "C122_still",
    "C122_flat",
    "C122_no_panic",
    "C122_mindful",
    "C122_one_moment_refuted"
   ],
   "note": "One step is one look at an object. The new objects are given by value, C122_alone relates them to the clone in the heap (C27). The list of a collection is read at once: that Pop and Push meanwhile overwrite a cell of the array, which XDatasetCollectionTS.Clone reads without its lock, is the subject of C126. The violation is a computed schedule (refuted)."
  },
  {
   "property": "C123",
   "status": "proved",
   "theorems": [
    "C123_alone",
    "C123_moments",
    "C123_text",
    "C123_still",
    "C123_flat",
    "C123_no_panic",
    "C123_one_moment_refuted"
   ],
   "note": "One step is one look at an object; that writers wait for the read locks held during a print is left out (more interleavings). The texts of floats, times and other values are those of fmt (golib). The violation is a computed schedule (refuted)."
  },
  {
   "property": "C124",
   "status": "proved",
   "theorems": [
    "C124_alone",
    "C124_no_circle",
    "C124_goes_on",
    "C124_returns",
    "C124_parent_refuted",
    "C124_acyclic_refuted"
   ],
   "note": "sync.RWMutex is modelled with the preference of writers; a writer that leaves may be followed by another writer before the readers that wait (more waits than in package sync). GetDataString and the other getters of the collections are GetData followed by a print. The two violations are computed schedules with single writers per lock, as package sync allows them (refuted)."
  },
  {
   "property": "C125",
   "status": "proved",
   "theorems": [
    "C125_exclusive",
    "C125_get",
    "C125_typed",
    "C125_collection_refuted"
   ],
   "note": "The methods with their locks are those of C124. The typed getters are those whose conversion looks at the value only; GetString of an object prints it (C123). The violation is a computed schedule (refuted)."
  },
  {
   "property": "C126",
   "status": "proved",
   "theorems": [
    "C126_no_panic",
    "C126_seen",
    "C126_place",
    "C126_exact",
    "C126_moment_refuted"
   ],
   "note": "The elements are the pointers in the list; how each of them is copied is C122. Push, Pop, Shift and Unshift are one step each; the slice (pointer, length, capacity) is read at once, the race on its words is C62. The violation is a computed schedule (refuted)."
  },
  {
   "property": "C127",
   "status": "proved",
   "theorems": [
    "C127_alone",
    "C127_no_circle",
    "C127_goes_on",
    "C127_servers",
    "C127_parent_refuted"
   ],
   "note": "The locks are those of C124 (sync.RWMutex with waiting writers); the lock of a language is left out. Executions may run out of fuel in the model; the second part assumes that none has. The violation is a computed schedule of four executions (refuted)."
  },
  {
   "property": "C128",
   "status": "proved",
   "theorems": [
    "C128_bound",
    "C128_bound_without_data",
    "C128_grows",
    "C128_polynomial_refuted"
   ],
   "note": "The bounds V on printed values and dumps are assumed for all the counters that loops may write into elements. The violation is proved for all m and n, with boxes that refer m times to the box before (refuted)."
  },
  {
   "property": "C129",
   "status": "proved",
   "theorems": [
    "C129_wrapped",
    "C129_collections",
    "C129_symmetric",
    "C129_get",
    "C129_string",
    "C129_wrapper",
    "C129_printed_collection_refuted"
   ],
   "note": "The correspondence R of objects is any relation under which corresponding objects have corresponding contents and different XDataset stay different (as in C92, where a shared element can be told from two copies through its .counter). The violation is a computed page (refuted). Executions that panic or never end are not compared here (C107)."
  },
  {
   "property": "C130",
   "status": "proved",
   "theorems": [
    "C130_values",
    "C130_first",
    "C130_again",
    "C130_count",
    "C130_served",
    "C130_loaded",
    "C130_fits",
    "C130_useless",
    "C130_larger",
    "C130_larger_refuted"
   ],
   "note": "The client is part of the specification (DemandSpec.v): one goroutine, values that are never nil. The violation is proved for all r by induction (refuted)."
  },
  {
   "property": "C131",
   "status": "proved",
   "theorems": [
    "C131_values",
    "C131_once",
    "C131_clients",
    "C131_settled",
    "C131_stampede_refuted"
   ],
   "note": "The clients are part of the specification (CrowdSpec.v): their calls begin in the order Get, load, Set; the cache is the concurrent model of C16-C18. Proved for every n by induction (refuted)."
  },
  {
   "property": "C132",
   "status": "proved",
   "theorems": [
    "C132_age",
    "C132_young",
    "C132_late_refuted",
    "C132_forever_refuted"
   ],
   "note": "The cache is the concurrent model of C16-C18; in_t1 of a step is the clock as that step reads or would read it. Expiry is the field Expire; the time to live only appears in the second violation. Reasons for which a Get answers 'invalidated' are C113. Violations by schedules (refuted), the first for every delay."
  }
 ]
}