{
 "claims": [
  {
   "property": "C01",
   "status": "partial",
   "theorems": [
    "C01_list_is_sequence",
    "C01_unique_list_is_sequence_partial",
    "C01_index_of_is_first_occurrence",
    "C01_unique_list_is_sequence_refuted",
    "C01_notifying_list_same_as_plain"
   ],
   "note": "Full for non-unique lists. For unique lists the statement is false for AddAll/InsertAll of a collection smaller than the list (duplicate filter iterates a set while removing from it); proved for all other histories, refuted with a witness otherwise."
  },
  {
   "property": "C02",
   "status": "partial",
   "theorems": [
    "C02_unique_list_has_no_duplicates_partial",
    "C02_unique_list_has_no_duplicates_refuted"
   ],
   "note": "False of the code: [1,2,3].AddAll([1,2]) gives [1,2,3,2]. Proved for every history whose bulk additions meet bulk_ok."
  },
  {
   "property": "C03",
   "status": "partial",
   "theorems": [
    "C03_notifications_mirror_unique_list",
    "C03_notifications_mirror_list_partial",
    "C03_notifications_mirror_list_refuted",
    "C03_observer_is_deterministic"
   ],
   "note": "Full for unique lists (all reference features). For non-unique attribute lists it fails exactly for l.AddAll(l)/l.InsertAll(i,l)."
  },
  {
   "property": "C04",
   "status": "partial",
   "theorems": [
    "C04_merge_preserves_meaning_list_partial",
    "C04_merge_never_panics_on_consecutive_notifications",
    "C04_unsafe_removal_merge_always_wrong",
    "C04_merge_preserves_meaning_list_refuted",
    "C04_merge_set_positions_refuted",
    "C04_merge_preserves_meaning_single",
    "C04_merge_unset_refuted",
    "C04_chain_preserves_meaning_refuted"
   ],
   "note": "False of the code for REMOVE_MANY+REMOVE in front of a removed position, for SETs at different positions and for chains; proved elsewhere, and proved always wrong outside merge_safe for REMOVE_MANY."
  },
  {
   "property": "C05",
   "status": "partial",
   "theorems": [
    "C05_containment_agrees_partial",
    "C05_at_most_one_place_partial",
    "C05_calls_panic_only_on_bad_position",
    "C05_containment_agrees_refuted",
    "C05_multiple_inheritance_refuted"
   ],
   "note": "Invariant over all histories of typed calls except EUnset of a many-valued reference with inverse (witness: children keep their container); metamodels where feature ids are positions (false with several supertypes: witness)."
  },
  {
   "property": "C06",
   "status": "partial",
   "theorems": [
    "C06_opposites_agree_partial",
    "C06_opposites_agree_refuted",
    "C06_own_opposite_refuted"
   ],
   "note": "Same histories as C05. EUnset of a many-valued reference and a reference that is its own opposite break it (witnesses)."
  },
  {
   "property": "C07",
   "status": "partial",
   "theorems": [
    "C07_compact_object_is_record_partial",
    "C07_compact_object_is_record_refuted",
    "C07_other_field_corrupted_refuted",
    "C07_container_variant_refuted",
    "C07_clearing_proxy_refuted"
   ],
   "note": "Refinement to a record proved for histories that only set non-nil values or clear fields the code clears correctly; false otherwise (witnesses)."
  },
  {
   "property": "C08",
   "status": "partial",
   "theorems": [
    "C08_resources_agree_partial",
    "C08_contents_call_takes_effect",
    "C08_one_resource_partial",
    "C08_resource_sets_agree",
    "C08_resource_list_call_takes_effect",
    "C08_unload_refuted"
   ],
   "note": "Contents: all histories of typed calls without Unload (witness). Resource sets: all histories of list calls."
  },
  {
   "property": "C09",
   "status": "partial",
   "theorems": [
    "C09_unload_detaches_refuted",
    "C09_unload_keeps_every_link"
   ],
   "note": "False of the code: Unload drops the list without resetting the resource of any object."
  },
  {
   "property": "C10",
   "status": "partial",
   "theorems": [
    "C10_resolution_sound_partial",
    "C10_incremental_partial",
    "C10_random_partial",
    "C10_attribute_partial",
    "C10_shared_id_refuted",
    "C10_reused_detached_id_refuted",
    "C10_stale_attribute_id_refuted"
   ],
   "note": "Full statement is false: SetID accepts an id owned by another object. Proved for histories that never do so (and, for the attribute manager, never change a registered object's attribute behind its back)."
  },
  {
   "property": "C11",
   "status": "proved",
   "theorems": [
    "C11_generated_ids_are_fresh",
    "C11_overflow_refuted",
    "C11_address_reuse_refuted"
   ],
   "note": "Freshness over the whole past, for objects without a detached id; refuted past int64, and when the allocator reuses the address of a detached object."
  },
  {
   "property": "C12",
   "status": "proved",
   "theorems": [
    "C12_former_id_given_back"
   ],
   "note": "For any id type and generator; assumes distinct addresses."
  },
  {
   "property": "C13",
   "status": "proved",
   "theorems": [
    "normalize_yields_canonical_path",
    "canonical_path_is_unique",
    "normalize_twice_is_once"
   ],
   "note": ""
  },
  {
   "property": "C14",
   "status": "partial",
   "theorems": [
    "relativize_same_refuted",
    "relativize_directory_refuted",
    "relativize_port_refuted",
    "authority_panics_refuted",
    "relativize_unnormalised_refuted",
    "resolve_inverts_relativize"
   ],
   "note": "False in general: the empty reference is not resolved, Authority searches the host in the whole text (wrong result or panic), and an unnormalised base is resolved from another directory. See C66 for what holds."
  },
  {
   "property": "C15",
   "status": "partial",
   "theorems": [
    "C15_round_trip_partial",
    "C15_slash_id_refuted",
    "C15_question_mark_refuted",
    "C15_manager_refuted",
    "C15_feature_name_refuted"
   ],
   "note": "Refuted: ids starting with / are read as paths, an id ? makes GetEObject panic, ID attributes are written but only the id manager is asked when reading, a single-valued feature name ending with . and digits is read as a position. Proved for the other ids and names (C71)."
  },
  {
   "property": "C16",
   "status": "proved",
   "theorems": [
    "C16_tree_iterator_preorder",
    "C16_preorder_complete",
    "C16_preorder_once",
    "C16_parents_first",
    "C16_preorder_unique"
   ],
   "note": "All call patterns, with and without the root; the tree is not modified during the iteration."
  },
  {
   "property": "C17",
   "status": "partial",
   "theorems": [
    "C17_map_agrees_refuted",
    "C17_put_order_refuted",
    "C17_entry_update_refuted",
    "C17_lookup_partial"
   ],
   "note": "Refuted in general: the entry list accepts duplicate keys and direct entry updates, which the key index misses. Proved for disciplined histories (C56)."
  },
  {
   "property": "C18",
   "status": "partial",
   "theorems": [
    "C18_partial",
    "C18_refuted_unnamed_feature",
    "C18_refuted_plain_proxy",
    "C18_refuted_date",
    "C18_refuted_no_uri"
   ],
   "note": "False in general: a feature without a name cannot be read back, a proxy held by a non-resolving reference and an object of a resource without URI become ordinary empty objects, and the location of a date is lost. Proved for the graphs of C79. References with opposites other than containment: see C19."
  },
  {
   "property": "C19",
   "status": "partial",
   "theorems": [
    "C19_refuted",
    "C19_statement_refuted",
    "C19_partial"
   ],
   "note": "False whenever some but not all objects were already in the list (C80): the new objects are added at the end of the list before the moves, which assume they come first."
  },
  {
   "property": "C20",
   "status": "partial",
   "theorems": [
    "C20_views_partial",
    "C20_cross_references_refuted",
    "C20_undelivered_refuted",
    "C20_feature_update_refuted",
    "C20_rename_refuted"
   ],
   "note": "Refuted: eAllCrossReferences is never invalidated; updates of a feature inside a class and silent classes leave stale views. Everything else proved (C57)."
  },
  {
   "property": "C21",
   "status": "proved",
   "theorems": [
    "C21_feature_ids"
   ],
   "note": "After every fair history; duplicated features (diamonds) included."
  },
  {
   "property": "C22",
   "status": "partial",
   "theorems": [
    "C22_store_list_is_a_sequence_partial",
    "C22_attached_store_refuted",
    "C22_detached_empty_list_refuted",
    "C22_self_insertion_refuted",
    "C22_proxy_search_refuted"
   ],
   "note": "False in general: SetEStore never updates the size, a list detached while empty loses later additions, inserting a non-unique cached list into itself makes cache and store differ, and a resolved proxy is no longer found in a cached list. Proved for all other histories."
  },
  {
   "property": "C23",
   "status": "partial",
   "theorems": [
    "C23_order_partial",
    "C23_add_all_refuted",
    "C23_add_all_front_refuted",
    "C23_precision_refuted"
   ],
   "note": "Refuted: AddAll of several elements before others is misplaced; repeated insertion at one place exhausts binary64. Proved for histories whose new positions fall between their neighbours, and with exact positions (C59)."
  },
  {
   "property": "C24",
   "status": "partial",
   "theorems": [
    "C24_write_first_partial",
    "C24_reads_refuted",
    "C24_read_late_refuted",
    "C24_timeout_refuted"
   ],
   "note": "Refuted: a write waits only for the last pending read, and a timed out operation executes without waiting. Proved when the first operation writes and nothing times out; C60 gives the condition under which the rest holds."
  },
  {
   "property": "C25",
   "status": "partial",
   "theorems": [
    "C25_earlier_partial",
    "C25_object_later_refuted",
    "C25_store_later_refuted"
   ],
   "note": "Refuted: an operation on a feature does not wait for an earlier operation on its object or on the store. Proved: operations on objects or the store wait for earlier writes (see also C61)."
  },
  {
   "property": "C26",
   "status": "partial",
   "theorems": [
    "C26_isolated_partial",
    "C26_cascade_refuted",
    "C26_panic_refuted",
    "C26_statement_refuted"
   ],
   "note": "Refuted: a rejected operation that others wait for, a panic, or one failed SQL write disable all later ones for ever. Proved for isolated failures (C62)."
  },
  {
   "property": "C27",
   "status": "partial",
   "theorems": [
    "C27_writes_partial",
    "C27_reads_refuted",
    "C27_unknown_refuted",
    "C27_script_refuted",
    "C27_self_wait_refuted"
   ],
   "note": "Refuted: a write waits only for the last read of its table, statements of unknown kind are not ordered with reads, scripts ending with SELECT count as reads, a script writing a table twice waits for itself. Proved: two single write statements never overlap (see C64)."
  },
  {
   "property": "C28",
   "status": "partial",
   "theorems": [
    "C28_pending_partial",
    "C28_add_root_refuted",
    "C28_value_refuted",
    "C28_set_container_refuted"
   ],
   "note": "Refuted: Get may answer with the value of AddRoot, SetContainer or of a Set on another object. Proved when only Set writes the feature (C65)."
  },
  {
   "property": "C29",
   "status": "proved",
   "theorems": [
    "C29_fifo",
    "C29_closed_when_drained",
    "C29_sender_never_blocked",
    "C29_receiver_never_blocked",
    "C29_drain_progress",
    "C29_drain_terminates",
    "C29_drains"
   ],
   "note": "All interleavings of any number of senders, receivers and closers."
  },
  {
   "property": "C30",
   "status": "proved",
   "theorems": [
    "C30_mutual_exclusion",
    "C30_no_entry_remains",
    "C30_no_mutex_left_locked",
    "C30_no_fatal_unlock",
    "C30_waits_only_for_same_key"
   ],
   "note": ""
  },
  {
   "property": "C31",
   "status": "partial",
   "theorems": [
    "C31_refuted",
    "C31_refuted_underscore",
    "C31_refuted_features",
    "C31_distinct_tables_partial"
   ],
   "note": "False: names are lower-cased and joined with an underscore without any check for collisions (classes A and a, class A_b and list b of class A, features x and X). Proved under the record distinct_names of SqlSchemaSpec.v."
  },
  {
   "property": "C32",
   "status": "partial",
   "theorems": [
    "C32_values_partial",
    "C32_refuted",
    "C32_refuted_annotation"
   ],
   "note": "False for dates with fractions of seconds or seconds of offset, NaN, -0.0, nil slices, and data types whose annotation names another type; proved for all other values (storable, SqlValueSpec.v). SQLite's storage rules are modelled from its documentation."
  },
  {
   "property": "C33",
   "status": "partial",
   "theorems": [
    "C33_lookup_innermost_partial",
    "C33_leaving_restores_partial",
    "C33_lookup_innermost_refuted",
    "C33_declaration_panics_refuted",
    "C33_prefix_for_uri_refuted"
   ],
   "note": "Proved for histories in which no declaration has gone out of scope before a new one is made; after that declarePrefix panics or writes to the wrong slot (off by one), shown by witnesses and by a general theorem."
  },
  {
   "property": "C34",
   "status": "partial",
   "theorems": [
    "C34_prefixes_denote_namespaces_partial",
    "C34_prefixes_stable",
    "C34_terminates_partial",
    "C34_terminates_refuted",
    "C34_xsi_refuted",
    "C34_must_have_prefix_refuted",
    "C34_reader_terminates_refuted"
   ],
   "note": "Soundness of prefixes proved when no declaration rebinds a prefix; termination characterised exactly, false with three packages of one prefix; xsi aliasing and cached empty prefix are witnesses; the reader always loops on a prefix declared three times."
  },
  {
   "property": "C35",
   "status": "partial",
   "theorems": [
    "C35_well_formed_partial",
    "C35_content_refuted",
    "C35_document_root_refuted"
   ],
   "note": "Refuted: values of many-valued attributes are written without escaping, and a document root writes its attributes and the end of its tag outside of any tag. Proved for other objects with plain texts (C69)."
  },
  {
   "property": "C36",
   "status": "partial",
   "theorems": [
    "C36_literals_partial",
    "C36_refuted"
   ],
   "note": "False for an enumeration with two literals of the same text (the first is read back); proved for all integer, boolean and string types and for enumerations whose texts determine the value."
  },
  {
   "property": "C37",
   "status": "proved",
   "theorems": [
    "C37_binary_search_total",
    "C37_binary_search_correct",
    "C37_insertion_keeps_sorted"
   ],
   "note": ""
  },
  {
   "property": "C38",
   "status": "partial",
   "theorems": [
    "C38_refuted",
    "C38_refuted_generated",
    "C38_refuted_opposite_outside",
    "C38_refuted_container_reference",
    "C38_refuted_unchangeable",
    "C38_refuted_nan",
    "C38_refuted_inherited_reference",
    "C38_refuted_dynamic",
    "C38_copy_partial"
   ],
   "note": "False as stated: references with an opposite to objects outside the tree, references of the root to its container, unchangeable features and NaN make the copy unequal; inherited references are lost although Equals answers true; for dynamic objects the children of the copy have no container and attribute lists are shared. Proved for generated classes when these do not occur."
  },
  {
   "property": "C39",
   "status": "partial",
   "theorems": [
    "C39_equals_partial",
    "C39_refuted"
   ],
   "note": "Equals is reflexive and symmetric, and equal objects agree on the features of their class. The full claim is false: inherited features are not compared (GetEStructuralFeatures), so objects that differ in an inherited attribute are Equal."
  },
  {
   "property": "C40",
   "status": "partial",
   "theorems": [
    "C40_content_adapter_partial",
    "C40_bulk_addition_refuted",
    "C40_contents_set_refuted",
    "C40_nested_root_refuted"
   ],
   "note": "Proved for every history in which bulk additions only add objects that are not contained yet, Set in the contents of a resource does not replace an object that has a container, and containment stays acyclic. False otherwise: AddAll([a, b]) with b contained in a leaves the adapter on b; Set in the contents of a resource takes it off an object still contained; and an adapter the user put on an object is taken off when the object leaves an adapted container."
  },
  {
   "property": "C41",
   "status": "partial",
   "theorems": [
    "C41_round_trip_partial",
    "C41_escape_refuted",
    "C41_count_refuted",
    "C41_at_refuted",
    "C41_annotation_refuted"
   ],
   "note": "Refuted: names are escaped again instead of unescaped, names ending like counts or starting with @ are misread, and the segment of the first annotation with a source always panics. Proved for the other names (C74)."
  },
  {
   "property": "C42",
   "status": "partial",
   "theorems": [
    "C42_each_observer_once_in_order",
    "C42_nothing_when_off",
    "C42_observers_may_add",
    "C42_each_observer_once_refuted"
   ],
   "note": "Proved when observers do not remove adapters while notified; an observer that removes itself makes the next one miss the notification (witness)."
  },
  {
   "property": "C43",
   "status": "proved",
   "theorems": [
    "C43_package_lookup",
    "C43_lookup_deterministic",
    "C43_factory_lookup",
    "C43_registration_is_local",
    "C43_codec_lookup",
    "C43_codec_lookup_none",
    "C43_extension"
   ],
   "note": ""
  },
  {
   "property": "C44",
   "status": "partial",
   "theorems": [
    "converter_cycle_refuted",
    "converter_unfinished_refuted",
    "converter_finishes"
   ],
   "note": "False for cyclic maps and for mappings to themselves. See C67 for what holds."
  },
  {
   "property": "C45",
   "status": "partial",
   "theorems": [
    "C45_acyclic_refuted",
    "C45_acyclic_partial",
    "C45_eresource_returns_partial"
   ],
   "note": "False of the code (no guard); proved for histories where no call asks for an object to be put below itself."
  },
  {
   "property": "C46",
   "status": "partial",
   "theorems": [
    "C46_class_filter_sound_partial",
    "C46_own_class_refuted",
    "C46_unset_reference_refuted",
    "C46_subclass_refuted",
    "C46_cycle_refuted",
    "C46_order_refuted"
   ],
   "note": "Only soundness holds; completeness and order are refuted by five independent witnesses."
  },
  {
   "property": "C47",
   "status": "partial",
   "theorems": [
    "C47_returned_slice_stays_partial",
    "C47_returned_slice_refuted",
    "C47_other_list_writes_returned_slice_refuted",
    "C47_lists_of_one_slice_refuted"
   ],
   "note": "As stated, false: ToArray returns the list's own slice, so later Set/RemoveAt of the list change it; InsertAll of another list can write into it through the spare capacity of its argument; lists made of one slice overwrite each other. Proved: the returned slice keeps its elements while its list is only read, appended to or cleared. For lists among themselves see C94."
  },
  {
   "property": "C48",
   "status": "partial",
   "theorems": [
    "C48_loaded_iff_contents_partial"
   ],
   "note": "All histories of contents calls interleaved with containment edits; LoadWithReader setting the flag on an empty document is outside the statement; C177 has it."
  },
  {
   "property": "C49",
   "status": "partial",
   "theorems": [
    "C49_callbacks_announce_each_element_once",
    "C49_callbacks_have_exact_positions_partial",
    "C49_callbacks_have_exact_positions_refuted"
   ],
   "note": "Announcement of each element exactly once: proved for all calls. Exact positions: false for AddAll (positions start at 0), proved for all other calls."
  },
  {
   "property": "C50",
   "status": "partial",
   "theorems": [
    "C50_target_iff_registered_partial",
    "C50_clear_refuted",
    "C50_set_refuted",
    "C50_two_notifiers_refuted"
   ],
   "note": "Proved for histories of Add/Remove style calls; Clear and Set leave stale targets (witnesses)."
  },
  {
   "property": "C51",
   "status": "partial",
   "theorems": [
    "C51_close_safe_partial",
    "C51_close_safe_refuted"
   ],
   "note": "Proved when calls to Close do not overlap and nobody sends after Close; two overlapping calls may panic (witness)."
  },
  {
   "property": "C52",
   "status": "partial",
   "theorems": [
    "C52_set_is_read_back_partial",
    "C52_unset_is_read_back_partial",
    "C52_list_call_is_read_back_partial",
    "C52_set_is_read_back_refuted",
    "C52_unset_elsewhere_refuted"
   ],
   "note": "Read back proved when feature ids are positions; with several supertypes another feature is set (witness); unsetting a container reference that is not set takes the object out of the reference that contains it (witness). What else changes is stated and proved in C129."
  },
  {
   "property": "C53",
   "status": "partial",
   "theorems": [
    "C53_containment_feature_partial",
    "C53_remove_detaches_partial",
    "C53_remove_detaches_refuted"
   ],
   "note": "Proved for containment references without opposite; with one, Remove unsets the container of the container (witness)."
  },
  {
   "property": "C54",
   "status": "partial",
   "theorems": [
    "C54_contained_root_needs_resolving_reference_partial",
    "C54_contained_root_refuted"
   ],
   "note": "Proved when both ends of opposite references agree on resolveProxies; false otherwise (witness)."
  },
  {
   "property": "C55",
   "status": "proved",
   "theorems": [
    "C55_contents_iterator",
    "C55_contents_queries"
   ],
   "note": "eContentsList and its iterator."
  },
  {
   "property": "C56",
   "status": "proved",
   "theorems": [
    "C56_map_operations",
    "C56_map_total"
   ],
   "note": "Refinement to an association list for every disciplined history."
  },
  {
   "property": "C57",
   "status": "proved",
   "theorems": [
    "C57_views_never_stale"
   ],
   "note": "Invariant over caches, sub class links and stored ids."
  },
  {
   "property": "C58",
   "status": "proved",
   "theorems": [
    "C58_operation_ids"
   ],
   "note": "Same invariant."
  },
  {
   "property": "C59",
   "status": "proved",
   "theorems": [
    "C59_order_exact"
   ],
   "note": "Positions as rationals; the precision loss of binary64 is C23_precision_refuted."
  },
  {
   "property": "C60",
   "status": "proved",
   "theorems": [
    "C60_feature_order"
   ],
   "note": ""
  },
  {
   "property": "C61",
   "status": "proved",
   "theorems": [
    "C61_covering_order"
   ],
   "note": ""
  },
  {
   "property": "C62",
   "status": "proved",
   "theorems": [
    "C62_isolated_failures"
   ],
   "note": ""
  },
  {
   "property": "C63",
   "status": "proved",
   "theorems": [
    "C63_no_deadlock"
   ],
   "note": "For statements the corresponding claim is refuted by C27_self_wait_refuted."
  },
  {
   "property": "C64",
   "status": "proved",
   "theorems": [
    "C64_statements"
   ],
   "note": ""
  },
  {
   "property": "C65",
   "status": "proved",
   "theorems": [
    "C65_get_last_set"
   ],
   "note": ""
  },
  {
   "property": "C66",
   "status": "proved",
   "theorems": [
    "resolve_inverts_relativize"
   ],
   "note": ""
  },
  {
   "property": "C67",
   "status": "proved",
   "theorems": [
    "converter_finishes"
   ],
   "note": ""
  },
  {
   "property": "C68",
   "status": "proved",
   "theorems": [
    "components_are_kept",
    "cache_confuses_components_refuted"
   ],
   "note": "The hypothesis on the cache is needed: cache_confuses_components_refuted."
  },
  {
   "property": "C69",
   "status": "proved",
   "theorems": [
    "C69_well_formed"
   ],
   "note": "well-formed: see XmlOutSpec.v; not included: uniqueness of attribute names, declaration of prefixes (C34), control characters"
  },
  {
   "property": "C70",
   "status": "proved",
   "theorems": [
    "C70_attribute_value"
   ],
   "note": "single-valued attributes; texts of the other kinds are not escaped (C35)"
  },
  {
   "property": "C71",
   "status": "proved",
   "theorems": [
    "C71_round_trip",
    "C71_distinct"
   ],
   "note": "containment consistency is a hypothesis, see C05 and C08"
  },
  {
   "property": "C72",
   "status": "proved",
   "theorems": [
    "C72_foreign"
   ],
   "note": ""
  },
  {
   "property": "C73",
   "status": "proved",
   "theorems": [
    "C73_relative",
    "C73_self_refuted"
   ],
   "note": "The object itself is excluded: its relative path is empty and following it panics (C73_self_refuted)."
  },
  {
   "property": "C74",
   "status": "proved",
   "theorems": [
    "C74_segment"
   ],
   "note": ""
  },
  {
   "property": "C75",
   "status": "proved",
   "theorems": [
    "C75_new_list_agrees_with_its_store",
    "C75_store_list_histories_are_those_of_a_sequence",
    "C75_cache_is_not_observable",
    "C75_store_list_notifications_mirror_the_contents"
   ],
   "note": "The store is modelled by the contract of the EStore interface."
  },
  {
   "property": "C76",
   "status": "proved",
   "theorems": [
    "C76_persistent_feature_is_a_variable",
    "C76_transient_feature_refuted"
   ],
   "note": "The second theorem shows why transient features are excluded: switching the cache erases them."
  },
  {
   "property": "C77",
   "status": "proved",
   "theorems": [
    "C77_queries_see_the_resolved_objects"
   ],
   "note": "RESOLVE notifications are not modelled."
  },
  {
   "property": "C78",
   "status": "proved",
   "theorems": [
    "C78_callbacks_do_not_depend_on_the_cache",
    "C78_callbacks_of_remove_range_refuted",
    "C78_callbacks_of_move_refuted"
   ],
   "note": "The refutations show that RemoveRange and Move are rightly excluded: an uncached RemoveRange passes a slice to DidRemove."
  },
  {
   "property": "C79",
   "status": "proved",
   "theorems": [
    "C79_round_trip"
   ],
   "note": "msgpack is modelled by typed tokens; hypotheses: record good of BinarySpec.v"
  },
  {
   "property": "C80",
   "status": "proved",
   "theorems": [
    "C80_same_objects",
    "C80_same_order_iff"
   ],
   "note": ""
  },
  {
   "property": "C81",
   "status": "proved",
   "theorems": [
    "C81_schema_is_computed",
    "C81_key_is_primary"
   ],
   "note": ""
  },
  {
   "property": "C82",
   "status": "proved",
   "theorems": [
    "C31_distinct_tables_partial",
    "C82_distinct_columns"
   ],
   "note": "hypotheses on names: record distinct_names; names of indexes not considered"
  },
  {
   "property": "C83",
   "status": "proved",
   "theorems": [
    "C83_create_statement",
    "C83_row_statements",
    "C83_escaping_twice_is_harmless",
    "C83_refuted_other_names"
   ],
   "note": "SQLite's tokenizer is part of the specification; WHERE and ORDER BY texts are constants of the codec and not covered"
  },
  {
   "property": "C84",
   "status": "proved",
   "theorems": [
    "C84_factory_floats",
    "C84_ecore_data_types",
    "C84_refuted_other_values"
   ],
   "note": "strconv.FormatFloat/ParseFloat enter as functions with the documented shortest-format guarantee as hypothesis; C84_refuted_other_values shows that the conditions on dates and slices are needed"
  },
  {
   "property": "C85",
   "status": "proved",
   "theorems": [
    "C85_factory",
    "C85_ecore",
    "C85_refuted_empty_byte"
   ],
   "note": "an empty EByte literal gives a string, shown by C85_refuted_empty_byte"
  },
  {
   "property": "C86",
   "status": "proved",
   "theorems": [
    "C86_encode_keeps_enums",
    "C86_decode_keeps_enums",
    "C86_row_is_literal"
   ],
   "note": ""
  },
  {
   "property": "C87",
   "status": "proved",
   "theorems": [
    "C87_null"
   ],
   "note": ""
  },
  {
   "property": "C88",
   "status": "proved",
   "theorems": [
    "C88_references",
    "C88_refuted_numeric_uri"
   ],
   "note": "the URI itself is opaque (relativization is C13/C66)"
  },
  {
   "property": "C89",
   "status": "proved",
   "theorems": [
    "C89_equals_decides_matching",
    "C89_equals_all_decides_matching",
    "C89_refuted_transitive",
    "C89_refuted_read_list"
   ],
   "note": "Exact characterisation. The refuted theorems record that Equals is not transitive, and that an empty list that was read once differs from one that was not."
  },
  {
   "property": "C90",
   "status": "proved",
   "theorems": [
    "C90_copy_exact",
    "C90_copy_all_exact",
    "C90_refuted_nested_roots"
   ],
   "note": "Full behaviour of Copy and CopyAll on generated classes, no proxies; the last theorem shows why no root may be inside another."
  },
  {
   "property": "C91",
   "status": "proved",
   "theorems": [
    "C91_copy_equals"
   ],
   "note": "Composition of C90 with C89."
  },
  {
   "property": "C92",
   "status": "proved",
   "theorems": [
    "C92_content_adapter_history",
    "C92_taken_off"
   ],
   "note": "Objects and resources as roots, put on and off, any other adapters. No resource sets and no proxies."
  },
  {
   "property": "C93",
   "status": "proved",
   "theorems": [
    "C93_call_ends",
    "C93_attach_ends",
    "C93_detach_ends"
   ],
   "note": "Fuel of the model is enough for every finite graph; graphs reachable from the empty one are finite."
  },
  {
   "property": "C94",
   "status": "proved",
   "theorems": [
    "C94_lists_over_slices_are_sequences",
    "C94_calls_leave_other_lists_alone",
    "C94_creations_leave_other_lists_alone"
   ],
   "note": "Model with arrays, offsets, lengths and capacities. fair: a list is made only of a slice that overlaps no other list's, spare capacity included; op_ok is the condition of C01 on bulk additions to unique lists (the second theorem needs no such condition)."
  },
  {
   "property": "C95",
   "status": "proved",
   "theorems": [
    "C95_resource_of_a_document"
   ],
   "note": "careful programs; packaged: resources of packages are not members of the set; closed: the documents demanded are finitely many. Normalize is total on texts (C67 says when)."
  },
  {
   "property": "C96",
   "status": "proved",
   "theorems": [
    "C96_answer_stays",
    "C96_one_resource_per_document",
    "C96_documents_distinct"
   ],
   "note": "Resources of packages are excluded from the comparison of two calls, since two packages may share a resource."
  },
  {
   "property": "C97",
   "status": "proved",
   "theorems": [
    "C97_each_resource_read_once",
    "C97_read_once_without_unloading"
   ],
   "note": "Additive calls: GetResource, GetEObject, Load, CreateResource, contents.Add, SetURIResourceMap."
  },
  {
   "property": "C98",
   "status": "proved",
   "theorems": [
    "C98_load_reads_the_document",
    "C98_get_resource_reads_the_document",
    "C98_reload_reads_the_document"
   ],
   "note": "A decoder adds roots, demands other objects and reports errors. A resource that already has contents counts as loaded and is not read (C98_filled_resource_is_not_read)."
  },
  {
   "property": "C99",
   "status": "partial",
   "theorems": [
    "C99_answers_partial",
    "C99_moved_resource_refuted",
    "C99_removed_resource_refuted",
    "C99_resource_without_uri_refuted"
   ],
   "note": "Proved for programs that move and remove resources only while no URI cache is used and give every resource a URI. False otherwise: the URI cache keeps answering with a moved or removed resource, and a resource without URI in the set makes GetResource recurse for ever in Normalize."
  },
  {
   "property": "C100",
   "status": "partial",
   "theorems": [
    "C100_objects_resolve_to_themselves",
    "C100_result_of_resolution_partial",
    "C100_resolution_ends_partial",
    "C100_mutual_proxies_refuted"
   ],
   "note": "The result is as stated whenever the call returns, and it returns when proxies are ranked. False in general: two proxies that designate each other are resolved for ever. Only with a resource set; the branch without one (package registry) is not modelled."
  },
  {
   "property": "C101",
   "status": "proved",
   "theorems": [
    "C101_xml_round_trip"
   ],
   "note": "Metamodels without references that have a non-container opposite; the tokenizer of encoding/xml is XmlTokenModel; document roots and DecodeObject are left out. Conditions: valid, spaces_ok, id_attribute_ok, linkable of XmlInSpec, shown to hold for the example."
  },
  {
   "property": "C102",
   "status": "partial",
   "theorems": [
    "C102_undeferred_round_trip_refuted"
   ],
   "note": "False: a list of references whose first object comes later in the document than its second one is loaded in another order."
  },
  {
   "property": "C103",
   "status": "partial",
   "theorems": [
    "C103_unknown_content_refuted"
   ],
   "note": "False: the end tag of the unknown element takes the parent off the stack, so that the elements that follow are lost."
  },
  {
   "property": "C104",
   "status": "partial",
   "theorems": [
    "C104_loading_panics_refuted"
   ],
   "note": "False: four texts that make the decoder panic."
  },
  {
   "property": "C105",
   "status": "partial",
   "theorems": [
    "C105_values_lost_refuted"
   ],
   "note": "False: lists of values in attributes are ignored, xsi:nil becomes the empty text, and an empty list of references becomes a reference to the root."
  },
  {
   "property": "C106",
   "status": "proved",
   "theorems": [
    "C106_loaded_well_formed"
   ],
   "note": "Texts that would move an object which has a container already, or is a root already, into another place are outside of the model."
  },
  {
   "property": "C107",
   "status": "proved",
   "theorems": [
    "C107_cut_document"
   ],
   "note": "Conditions as in C101. A text cut off before the start tag of the root is loaded as an empty resource without error."
  },
  {
   "property": "C108",
   "status": "partial",
   "theorems": [
    "C108_renamed_classifier_refuted",
    "C108_undelivered_refuted"
   ],
   "note": "false: the cache of GetEClassifier is emptied by changes of the list only, and only if the package delivers; what holds is C109"
  },
  {
   "property": "C109",
   "status": "proved",
   "theorems": [
    "C109_classifier_by_name",
    "C109_right_again"
   ],
   "note": ""
  },
  {
   "property": "C110",
   "status": "partial",
   "theorems": [
    "C110_types_refuted"
   ],
   "note": "false in four ways: removed classifiers are found, present ones are not found after a removal, changes of names are not seen, and among classifiers of one name the answer depends on earlier lookups; what holds is C111"
  },
  {
   "property": "C111",
   "status": "proved",
   "theorems": [
    "C111_types_found"
   ],
   "note": ""
  },
  {
   "property": "C112",
   "status": "partial",
   "theorems": [
    "C112_name_and_types_refuted"
   ],
   "note": "false: the two calls keep entries of different types under one key"
  },
  {
   "property": "C113",
   "status": "partial",
   "theorems": [
    "C113_default_after_change_refuted"
   ],
   "note": "false: the default value is kept for the factory, not for the type; what holds is C114"
  },
  {
   "property": "C114",
   "status": "proved",
   "theorems": [
    "C114_default_value"
   ],
   "note": ""
  },
  {
   "property": "C115",
   "status": "partial",
   "theorems": [
    "C115_kept_answers_refuted"
   ],
   "note": "false for each of the three; what holds is C116"
  },
  {
   "property": "C116",
   "status": "proved",
   "theorems": [
    "C116_reference_type",
    "C116_classifier_number",
    "C116_type_default"
   ],
   "note": ""
  },
  {
   "property": "C117",
   "status": "partial",
   "theorems": [
    "C117_inherited_refuted",
    "C117_never_set_refuted",
    "C117_unset_refuted",
    "C117_is_set_refuted"
   ],
   "note": "false: inherited attributes are not stored and read as a Go error, attributes never set read as zero whatever their default value, UnSet of an enumeration stores a number that is read as another literal, IsSet compares values of different Go types; what holds is C118 and C119"
  },
  {
   "property": "C118",
   "status": "proved",
   "theorems": [
    "C118_get_last"
   ],
   "note": "operations executed one after the other; objects have no value of their own when first stored"
  },
  {
   "property": "C119",
   "status": "proved",
   "theorems": [
    "C119_is_set"
   ],
   "note": ""
  },
  {
   "property": "C120",
   "status": "partial",
   "theorems": [
    "C120_multiple_inheritance_refuted"
   ],
   "note": "false with two supertypes: the number of the feature is the one in the declaring class; what holds is C121"
  },
  {
   "property": "C121",
   "status": "proved",
   "theorems": [
    "C121_container",
    "C121_first_container"
   ],
   "note": "instances without static features"
  },
  {
   "property": "C122",
   "status": "partial",
   "theorems": [
    "C122_refuted",
    "C122_refuted_second_root",
    "C122_refuted_unset",
    "C122_refuted_forward",
    "C122_refuted_abstract",
    "C122_refuted_identity",
    "C122_refuted_peer"
   ],
   "note": "false: only the first root is saved, attributes not set come back as zero, links to objects saved later come back as proxies or make the load fail, identifiers are lost or invented, objects that are not contained are copied; what holds is C123"
  },
  {
   "property": "C123",
   "status": "proved",
   "theorems": [
    "C123_saved",
    "C123_loaded"
   ],
   "note": "values of attributes are read back from their columns (C32 and C87 are about which ones); references have no opposites; fewer than 2^63 objects"
  },
  {
   "property": "C124",
   "status": "partial",
   "theorems": [
    "C124_cycle_refuted",
    "C124_names_refuted",
    "C124_roots_refuted",
    "C124_twice_refuted"
   ],
   "note": "false: the encoder does not end for cycles of references that resolve no proxies, writes the first root only, writes objects behind such references again, and writes a member twice when a feature is called eClass; what holds is C125"
  },
  {
   "property": "C125",
   "status": "proved",
   "theorems": [
    "C125_json",
    "C125_kinds",
    "C125_empty"
   ],
   "note": "the JSON value described by the calls of the writer; its text is left to the jsonwriter library"
  },
  {
   "property": "C126",
   "status": "partial",
   "theorems": [
    "C126_reading_sets_refuted",
    "C126_announced_values_refuted",
    "C126_nil_refuted",
    "C126_shared_list_refuted",
    "C126_removed_feature_refuted",
    "C126_added_feature_refuted",
    "C126_other_class_refuted",
    "C126_two_supertypes_refuted"
   ],
   "note": "false: reading a list sets it, notifications have nil in place of default values, ESet of a list shares it, and values are kept by number, so that they move to other features when a class changes; what holds is C127 and C128"
  },
  {
   "property": "C127",
   "status": "proved",
   "theorems": [
    "C127_variables",
    "C127_new_object"
   ],
   "note": "attributes; references are in C05, C06 and C52"
  },
  {
   "property": "C128",
   "status": "proved",
   "theorems": [
    "C128_set_class",
    "C128_added_features"
   ],
   "note": ""
  },
  {
   "property": "C129",
   "status": "proved",
   "theorems": [
    "C129_other_references",
    "C129_other_containers",
    "C129_roots",
    "C129_parent",
    "C129_parent_other_containers"
   ],
   "note": "same histories and metamodels as C05; what is read through other container references follows from C06"
  },
  {
   "property": "C130",
   "status": "proved",
   "theorems": [
    "C130_sources_agree"
   ],
   "note": "the tables are the statements of the sources, transcribed (EcoreTables)"
  },
  {
   "property": "C131",
   "status": "partial",
   "theorems": [
    "C131_resolving_lists_refuted",
    "C131_resolving_lists_partial"
   ],
   "note": "false for the classifiers and the subpackages of a package, true for all other lists"
  },
  {
   "property": "C132",
   "status": "proved",
   "theorems": [
    "C132_generated_as_dynamic"
   ],
   "note": "derived references and EAnnotation.details are not covered; values are of the declared type"
  },
  {
   "property": "C133",
   "status": "proved",
   "theorems": [
    "C133_generated_graph"
   ],
   "note": "without EAnnotation.details, see C134"
  },
  {
   "property": "C134",
   "status": "partial",
   "theorems": [
    "C134_entry_of_one_annotation_refuted"
   ],
   "note": "false: an entry added to a second annotation stays in the first"
  },
  {
   "property": "C135",
   "status": "partial",
   "theorems": [
    "C135_set_returns_refuted"
   ],
   "note": "false for features that cannot be changed, see C136"
  },
  {
   "property": "C136",
   "status": "proved",
   "theorems": [
    "C136_set_returns_iff_changeable"
   ],
   "note": ""
  },
  {
   "property": "C137",
   "status": "proved",
   "theorems": [
    "C137_attributes"
   ],
   "note": "attributes kept in a field of their own; C137_literal_differs shows one that is not"
  },
  {
   "property": "C138",
   "status": "partial",
   "theorems": [
    "C138_own_list_refuted",
    "C138_own_list_partial"
   ],
   "note": "false: the call always empties the reference"
  },
  {
   "property": "C139",
   "status": "partial",
   "theorems": [
    "C139_read_never_panics_refuted"
   ],
   "note": "false, see C140"
  },
  {
   "property": "C140",
   "status": "proved",
   "theorems": [
    "C140_read_panics_iff_removed"
   ],
   "note": ""
  },
  {
   "property": "C141",
   "status": "partial",
   "theorems": [
    "C141_announced_refuted",
    "C141_announced_partial"
   ],
   "note": "False for instanceTypeName of EClassifier, whose setter announces instanceClassName; proved for every other changeable feature except defaultValue, whose setter is not modelled."
  },
  {
   "property": "C142",
   "status": "partial",
   "theorems": [
    "C142_reference_refuted"
   ],
   "note": "False: an object that is not an SQLObject loses its references when unregistered, and a reference that does not contain, set to an object not in the store, gives a proxy. C143 and C146 say what holds."
  },
  {
   "property": "C143",
   "status": "proved",
   "theorems": [
    "C143_reference"
   ],
   "note": ""
  },
  {
   "property": "C144",
   "status": "partial",
   "theorems": [
    "C144_roots_refuted"
   ],
   "note": "False in three ways, see C145 for what holds"
  },
  {
   "property": "C145",
   "status": "proved",
   "theorems": [
    "C145_roots"
   ],
   "note": ""
  },
  {
   "property": "C146",
   "status": "proved",
   "theorems": [
    "C146_identifier_survives"
   ],
   "note": ""
  },
  {
   "property": "C147",
   "status": "partial",
   "theorems": [
    "C147_unregister_refuted"
   ],
   "note": "False when the object was unregistered before, see C148"
  },
  {
   "property": "C148",
   "status": "proved",
   "theorems": [
    "C148_unregister"
   ],
   "note": ""
  },
  {
   "property": "C149",
   "status": "proved",
   "theorems": [
    "C149_unique_list_exactly"
   ],
   "note": ""
  },
  {
   "property": "C150",
   "status": "proved",
   "theorems": [
    "C150_bulk_addition_iff"
   ],
   "note": ""
  },
  {
   "property": "C151",
   "status": "partial",
   "theorems": [
    "C151_registries_right_refuted",
    "C151_unload_refuted"
   ],
   "note": "False for roots that are also contained in an object of another resource, and after Unload; see C152"
  },
  {
   "property": "C152",
   "status": "proved",
   "theorems": [
    "C152_registries_right",
    "C152_local_metamodel_calls_proper",
    "C152_calls_return"
   ],
   "note": ""
  },
  {
   "property": "C153",
   "status": "partial",
   "theorems": [
    "C153_remove_range_refuted",
    "C153_attached_store_refuted",
    "C153_lookup_partial"
   ],
   "note": "False: RemoveRange panics on a map that does not cache, and a map that was read keeps its answers when another store is attached. Missing from the partial theorem: these two uses; see C154 for what holds."
  },
  {
   "property": "C154",
   "status": "proved",
   "theorems": [
    "C154_map_operations",
    "C154_list_operations",
    "C154_total"
   ],
   "note": ""
  },
  {
   "property": "C155",
   "status": "partial",
   "theorems": [
    "C155_concurrent_use_refuted",
    "C155_no_deadlock_partial"
   ],
   "note": "False: the first lookup and an addition take the mutexes of the map and of its list in opposite orders. The partial theorem excludes one of the two; C156 is exact."
  },
  {
   "property": "C156",
   "status": "proved",
   "theorems": [
    "C156_deadlock_exactly",
    "C156_unlock_by_holder"
   ],
   "note": ""
  },
  {
   "property": "C157",
   "status": "partial",
   "theorems": [
    "C157_list_identity_refuted",
    "C157_list_identity_partial"
   ],
   "note": "False: SetCache makes an object with a store forget its list; the old and the new list then write into the store without seeing each other. The partial theorem leaves out SetCache, SetEStore and changes of the feature itself; C158 is exact."
  },
  {
   "property": "C158",
   "status": "proved",
   "theorems": [
    "C158_list_replaced_exactly"
   ],
   "note": ""
  },
  {
   "property": "C159",
   "status": "proved",
   "theorems": [
    "C159_object_is_a_record"
   ],
   "note": ""
  },
  {
   "property": "C160",
   "status": "partial",
   "theorems": [
    "C160_detached_list_writes_refuted",
    "C160_detach_loses_refuted",
    "C160_detach_keeps_partial"
   ],
   "note": "False: lists read before go on writing into the old store, lists not read before are empty afterwards, and an object that caches loses the values it has not read. The partial theorem has the values of objects that do not cache and the lists read before; C161 is exact."
  },
  {
   "property": "C161",
   "status": "proved",
   "theorems": [
    "C161_detach_exactly",
    "C161_attach_uncached",
    "C161_attach_cached"
   ],
   "note": ""
  },
  {
   "property": "C162",
   "status": "partial",
   "theorems": [
    "C162_early_read_refuted",
    "C162_detach_loses_container_refuted",
    "C162_container_read_back_partial"
   ],
   "note": "False: reading the container before the store is attached makes SetEStore erase the container in the store, and an object detached before its container is read has none. The partial theorem has a single set and read; C163 has the sequences for which the claim holds."
  },
  {
   "property": "C163",
   "status": "proved",
   "theorems": [
    "C163_container_is_a_variable"
   ],
   "note": ""
  },
  {
   "property": "C164",
   "status": "partial",
   "theorems": [
    "C164_reading_sets_refuted",
    "C164_reading_partial"
   ],
   "note": "False: reading an empty list makes the feature set. The partial theorem has single-valued features; missing: lists."
  },
  {
   "property": "C165",
   "status": "proved",
   "theorems": [
    "C165_record_across_stores"
   ],
   "note": ""
  },
  {
   "property": "C166",
   "status": "partial",
   "theorems": [
    "C166_pair_refuted",
    "C166_pair_partial"
   ],
   "note": "False both ways: lists dropped between Lock and Unlock stay locked (the SQL encoder does this to every new object that does not cache), lists loaded in between are unlocked without being held. The partial theorem has histories that keep the set of lists; C167 is exact."
  },
  {
   "property": "C167",
   "status": "proved",
   "theorems": [
    "C167_left_exactly",
    "C167_encoded_object"
   ],
   "note": ""
  },
  {
   "property": "C168",
   "status": "proved",
   "theorems": [
    "C168_calls_return"
   ],
   "note": ""
  },
  {
   "property": "C169",
   "status": "proved",
   "theorems": [
    "C169_one_row_each"
   ],
   "note": ""
  },
  {
   "property": "C170",
   "status": "partial",
   "theorems": [
    "C170_nil_error_refuted",
    "C170_nil_error_partial"
   ],
   "note": "False: the id is registered before the features are written, and stays after an error. The partial theorem says what a call without error means, and that all is written at the end when no call returned an error."
  },
  {
   "property": "C171",
   "status": "proved",
   "theorems": [
    "C171_class_calls_return"
   ],
   "note": ""
  },
  {
   "property": "C172",
   "status": "proved",
   "theorems": [
    "C172_made_once"
   ],
   "note": ""
  },
  {
   "property": "C173",
   "status": "proved",
   "theorems": [
    "C173_calls_return_while_ids_change"
   ],
   "note": ""
  },
  {
   "property": "C174",
   "status": "partial",
   "theorems": [
    "C174_listener_refuted",
    "C174_listener_partial"
   ],
   "note": "False: the notification of a load is made before the document is read and sent afterwards; contents emptied meanwhile are reported first. The partial theorem has loads that only add; missing: removals while a document is read."
  },
  {
   "property": "C175",
   "status": "partial",
   "theorems": [
    "C175_loaded_contents_refuted",
    "C175_loaded_contents_partial"
   ],
   "note": "False both ways: a list got before Unload still sets and clears the flag. The partial theorem has calls on the current list; missing: lists got before Unload."
  },
  {
   "property": "C176",
   "status": "proved",
   "theorems": [
    "C176_counted"
   ],
   "note": ""
  },
  {
   "property": "C177",
   "status": "proved",
   "theorems": [
    "C177_contents_or_document"
   ],
   "note": "Lists kept across Unload are excluded: C175 shows that they break the claim."
  },
  {
   "property": "C178",
   "status": "proved",
   "theorems": [
    "C178_override_found"
   ],
   "note": ""
  },
  {
   "property": "C179",
   "status": "partial",
   "theorems": [
    "C179_most_specific_refuted",
    "C179_most_specific_partial"
   ],
   "note": "False both ways: with three classes in a row the operation of the middle one is returned; with a class reached twice the operation itself is. The partial theorem has a single override and no duplicates; C180 is exact."
  },
  {
   "property": "C180",
   "status": "proved",
   "theorems": [
    "C180_first_after",
    "C180_duplicates"
   ],
   "note": ""
  }
 ]
}