{
 "claims": [
  {
   "property": "C01",
   "status": "proved",
   "theorems": [
    "C01_conversion_succeeds_iff",
    "C01_conversion_value",
    "C01_conversion_error",
    "C01_roundtrip_from_unsigned",
    "C01_roundtrip_from_signed",
    "C01_from_string_total",
    "C01_field",
    "C01_from_int"
   ],
   "note": "Every conversion between plain int, int64, uint64 and Fingerprint keys, over unbounded Z inputs."
  },
  {
   "property": "C02",
   "status": "proved",
   "theorems": [
    "C02_binary_exact_or_error",
    "C02_binary_undefined",
    "C02_unary_exact_or_error",
    "C02_binary_value",
    "C02_binary_result",
    "C02_undefined_raises",
    "C02_defined_or_not",
    "C02_unary_value",
    "C02_unary_defined"
   ],
   "note": "All wrapped binary and unary operators; undefined cases (division by zero, negative shifts) covered separately."
  },
  {
   "property": "C03",
   "status": "proved",
   "theorems": [
    "C03_combine_total",
    "C03_combine_any_order",
    "C03_combine_any_grouping",
    "C03_identity_neutral",
    "C03_twice_cancels",
    "C03_combine_sensitive",
    "C03_is_identity"
   ],
   "note": "Fingerprint.combine on lists of any length."
  },
  {
   "property": "C04",
   "status": "proved",
   "theorems": [
    "C04_registry_holds_best_offer",
    "C04_highest_priority_wins",
    "C04_order_independent",
    "C04_raises_iff",
    "C04_failure_changes_nothing",
    "C04_returns_value",
    "C04_other_keys_kept",
    "C04_never_replaced_without_priority"
   ],
   "note": "Any key type with decidable equality, any history of calls starting from an empty registry."
  },
  {
   "property": "C05",
   "status": "partial",
   "theorems": [
    "C05_ordinal_is_english_partial",
    "C05_ordinal_negative_refuted",
    "C05_one_or_none"
   ],
   "note": "ordinal is right for every natural number and wrong for negative ones (finding: ordinal(-9) is '-9st'). one_or_none is fully proved."
  },
  {
   "property": "C06",
   "status": "proved",
   "theorems": [
    "C06_prefixes_compose",
    "C06_general_types_compose",
    "C06_other_errors_unchanged",
    "C06_results_unchanged"
   ],
   "note": "Any class hierarchy, nesting and prefixes. Hypothesis: str() of the wrapping class shows its message (false of KeyError, never used with wrap_exc in the repository)."
  },
  {
   "property": "C07",
   "status": "proved",
   "theorems": [
    "C07_lookup_last_given",
    "C07_lookup_missing",
    "C07_created_iff_hashable",
    "C07_creation_error",
    "C07_equal_iff_same_lookups",
    "C07_equal_hash",
    "C07_insertion_order_irrelevant",
    "C07_union_right_wins",
    "C07_iteration"
   ],
   "note": "Immutability of the operands is by construction (no method mutates); look-up, equality, hash and union are proved."
  },
  {
   "property": "C08",
   "status": "partial",
   "theorems": [
    "C08_reflected_union_partial",
    "C08_reflected_union_refuted"
   ],
   "note": "Refuted: __ror__ = __or__ makes the left operand win. Holds when the operands agree on common keys."
  },
  {
   "property": "C09",
   "status": "proved",
   "theorems": [
    "C09_values_are_kept",
    "C09_boxes_are_kept",
    "C09_assigning_to_value_raises"
   ],
   "note": "Histories of any length, through the box or any nested box."
  },
  {
   "property": "C10",
   "status": "proved",
   "theorems": [
    "C10_closed_is_immutable",
    "C10_closed_assignment_raises",
    "C10_closed_lookup_iff_stored",
    "C10_open_lookup_creates",
    "C10_hashable_iff_closed",
    "C10_equal_boxes_hash_alike",
    "C10_missing_answers",
    "C10_private_answers"
   ],
   "note": "Closed boxes, look-ups on open boxes, hash and equality."
  },
  {
   "property": "C11",
   "status": "proved",
   "theorems": [
    "C11_membership_is_pure",
    "C11_membership_iff_stored",
    "C11_assigned_is_found",
    "C11_assignment_is_local",
    "C11_walk_is_lookup",
    "C11_walk_once",
    "C11_dotted",
    "C11_stored_keys",
    "C11_hidden",
    "C11_hidden_name",
    "C11_public",
    "C11_lookup_answers",
    "C11_membership_answers",
    "C11_walk_answers"
   ],
   "note": "Membership, look-up after assignment, locality and walk.  C11_dotted, C11_public, C11_stored_keys, C11_hidden and C11_hidden_name say what keys mean without the model's own splitting and underscore check."
  },
  {
   "property": "C12",
   "status": "partial",
   "theorems": [
    "C12_failed_assignment_partial",
    "C12_failed_assignment_refuted",
    "C12_failed_merge_refuted"
   ],
   "note": "Refuted twice (auto-created boxes and partial merges stay behind). Holds when the boxes on the way exist and nothing is merged."
  },
  {
   "property": "C13",
   "status": "proved",
   "theorems": [
    "C13_roundtrip",
    "C13_rendering_succeeds",
    "C13_default_roundtrip",
    "C13_parsed_is_valid",
    "C13_texts_determine_field",
    "C13_parsing",
    "C13_parsing_errors",
    "C13_calendar",
    "C13_components",
    "C13_components_listed",
    "C13_decimal",
    "C13_hexadecimal",
    "C13_digits_unique",
    "C13_padded",
    "C13_format_padded",
    "C13_format_other",
    "C13_key_types",
    "C13_key_types_error",
    "C13_not_a_collection"
   ],
   "note": "Built-in field classes (dates, integers of any size, null); custom field classes are not modelled. Format specs: none or zero padded widths. The accepted texts (int grammar, ISO calendar forms), the calendar, the components and the key types are characterised exactly; ISO week dates are not modelled."
  },
  {
   "property": "C14",
   "status": "partial",
   "theorems": [
    "C14_fills_exactly_partial",
    "C14_identity_partial",
    "C14_order_irrelevant_partial",
    "C14_only_templates",
    "C14_every_template",
    "C14_identity_iff",
    "C14_in_steps",
    "C14_any_order",
    "C14_escapes_refuted",
    "C14_braces_in_values_refuted",
    "C14_index_refuted",
    "C14_colon_refuted",
    "C14_attribute",
    "C14_index",
    "C14_text_index"
   ],
   "note": "For every string: C14_only_templates says which strings can be formatted at all, C14_every_template what the result is (given bare placeholders become their values, also inside format specs; the rest is kept up to escapes, colons without a spec and leading zeros of indexes), C14_identity_iff exactly when nothing changes, C14_in_steps/C14_any_order that steps and order do not matter without escapes and without braces in the values. Outside those conditions the statement is false (four refutations). Attributes that every Python object has are not modelled. A filled placeholder with an attribute or an index: C14_attribute, C14_index, C14_text_index."
  },
  {
   "property": "C15",
   "status": "proved",
   "theorems": [
    "C15_recorded",
    "C15_refused",
    "C15_asks",
    "C15_accepted",
    "C15_incomplete_key_refuted",
    "C15_path_text",
    "C15_missing_field"
   ],
   "note": "Key and fingerprint presence checks, recorded values, acceptance of complete arguments. Names of the key are not checked (C15_incomplete_key_refuted, beyond the stated property). C15_path_text gives the exact text of every generated path, C15_missing_field that a key lacking a field the templates name is a KeyError."
  },
  {
   "property": "C16",
   "status": "proved",
   "theorems": [
    "C16_path_determines_partition",
    "C16_default_layout",
    "C16_adjacent_refuted"
   ],
   "note": "For separated, covering templates (the default layout among them). Adjacent placeholders collide (C16_adjacent_refuted)."
  },
  {
   "property": "C17",
   "status": "partial",
   "theorems": [
    "C17_parsed_back_partial",
    "C17_default_layout",
    "C17_rediscovered_partial",
    "C17_mixed_refuted"
   ],
   "note": "Holds for key fields of one class; refuted for mixed classes."
  },
  {
   "property": "C18",
   "status": "partial",
   "theorems": [
    "C18_one_class_partial",
    "C18_mixed_classes_refuted"
   ],
   "note": "Refuted for every set of key types with two different classes; holds when all declared classes are equal."
  },
  {
   "property": "C19",
   "status": "partial",
   "theorems": [
    "C19_sound",
    "C17_rediscovered_partial",
    "C19_succeeds_partial",
    "C19_default_layout",
    "C19_stray_file_refuted",
    "C19_twice_refuted",
    "C19_fixed_value",
    "C19_fixed_fingerprint"
   ],
   "note": "Sound for all templates and file systems; complete and successful when the matching files were written by the template; refuted for files with other spellings of a value."
  },
  {
   "property": "C20",
   "status": "partial",
   "theorems": [
    "C20_matches_partial",
    "C20_wildcard",
    "C20_matches",
    "C20_hard_coded_dropped",
    "C20_listed",
    "C20_every_path",
    "C20_escapes_refuted",
    "C20_default_dates_refuted",
    "C20_index_refuted"
   ],
   "note": "For every string: C20_wildcard says exactly which have a wildcard and which, C20_matches that every path that can be generated matches it when the text has no escapes and the key has the hard coded values. C20_listed says which paths a wildcard lists. Refuted: format specs have no wildcard (default date layout), other values than hard coded ones are written but not found, escapes are undone twice in paths and once in wildcards."
  },
  {
   "property": "C21",
   "status": "partial",
   "theorems": [
    "C21_removed_with_separator_partial",
    "C21_absent",
    "C21_gone",
    "C21_no_fingerprint_left",
    "C21_pieces",
    "C21_every",
    "C21_templates",
    "C21_uniform",
    "C21_trailing_separator_refuted",
    "C21_empty_path_refuted",
    "C21_escape_refuted",
    "C21_format_visit",
    "C21_graph_visit",
    "C21_fingerprint_visit",
    "C21_names_visit",
    "C21_type_visit",
    "C21_format_fills",
    "C21_graph_fills",
    "C21_fingerprint_fills",
    "C21_names_fill",
    "C21_type_fills"
   ],
   "note": "The exact effect is proved for every text and any number of occurrences (C21_every), and for templates what remains (C21_templates). The property as stated holds if all or none of the occurrences are followed by a separator (C21_uniform); otherwise a trailing separator or an empty path can remain (refuted), and escapes are not respected (refuted). What each visitor of a storage resolves is stated exactly (C21_*_visit), with the filled templates when there is something to fill in (C21_*_fills)."
  },
  {
   "property": "C22",
   "status": "proved",
   "theorems": [
    "C22_content",
    "C22_text",
    "C22_values",
    "C22_skipped",
    "C22_declaration_order",
    "C22_document"
   ],
   "note": "Computed fields other than the type name, floats, dates and custom field serializers are not modelled. Decoding the text gives back the document of the value (C22_document)."
  },
  {
   "property": "C23",
   "status": "partial",
   "theorems": [
    "C23_equal_models_partial",
    "C23_equal_models_refuted",
    "C23_fingerprint_value"
   ],
   "note": "False in general: mapping insertion order, set iteration order and True == 1 change the text of equal models. The partial theorem covers equal values whose mappings are in key order, whose sets have at most one element and that do not mix booleans and integers. Models, values and identity fingerprints: which fingerprint a value has (C23_fingerprint_value)."
  },
  {
   "property": "C24",
   "status": "proved",
   "theorems": [
    "C24_semver",
    "C24_subclass"
   ],
   "note": "For SemVer and all its subclasses."
  },
  {
   "property": "C25",
   "status": "proved",
   "theorems": [
    "C25_to_system",
    "C25_to_artigraph",
    "C25_unsupported",
    "C25_registration_order",
    "C25_registered",
    "C25_new_adapter"
   ],
   "note": "For both conversions, any adapters and any extension tree."
  },
  {
   "property": "C26",
   "status": "partial",
   "theorems": [
    "C26_hints_exist",
    "C26_round_trip_partial",
    "C26_stable",
    "C26_again",
    "C26_null_refuted",
    "C26_enum_refuted",
    "C26_meaning",
    "C26_understood",
    "C26_enum_items"
   ],
   "note": "Hints exist exactly for types without unsigned integers, datetimes, times and geographies; the round trip (with widening) holds exactly for expressible types. Missing, and refuted: Null fields of Structs, nullable Null, Enums whose items are not of one class that of the Enum's type. Converting again never changes a type obtained from a hint. What each hint means is stated as a relation and shown sound and complete; Enum items are characterised for types without parts."
  },
  {
   "property": "C27",
   "status": "proved",
   "theorems": [
    "C27_accepted",
    "C27_round_trip",
    "C27_lossless",
    "C27_stable",
    "C27_readable",
    "C27_back",
    "C27_foreign_refuted",
    "C27_repeated_refuted"
   ],
   "note": "For all types that can exist and any nesting: which are accepted and why others are refused, what comes back (stored spells out the losses), when nothing is lost, and the same from PyArrow's side. The JSON text of the schema metadata is structured data in the model."
  },
  {
   "property": "C28",
   "status": "partial",
   "theorems": [
    "C28_accepted",
    "C28_nested_arrays",
    "C28_round_trip_partial",
    "C28_untidy",
    "C28_lossless",
    "C28_stable",
    "C28_readable",
    "C28_back",
    "C28_list_description_refuted",
    "C28_nested_collection_refuted",
    "C28_repeated_partition_refuted",
    "C28_standard_names_refuted",
    "C28_ingestion_time_refuted"
   ],
   "note": "Every type is accepted or refused as specified (C28_accepted); nested arrays always refused. Round trip proved with the exact normal form for all accepted types except Collections inside other types and repeated partition columns, for which reading back is proved to fail (C28_untidy and refuted witnesses), so the full statement is false. Also proved: what is lossless, stability, and the reverse direction from fields and tables."
  },
  {
   "property": "C29",
   "status": "partial",
   "theorems": [
    "C29_arrays",
    "C29_array_round_trip",
    "C29_array_lossless",
    "C29_array_readable",
    "C29_array_back",
    "C29_frames",
    "C29_frame_round_trip_partial",
    "C29_frame_lossless",
    "C29_lost",
    "C29_bytes_refuted",
    "C29_series_readable",
    "C29_frame_readable",
    "C29_repeated_labels_refuted",
    "C29_array_system_on_frames_refuted"
   ],
   "note": "NumPy in full, both directions (up to its 64 dimensions). pandas: the round trip of all types but those with Lists or columns of bytes, which are accepted and never come back (C29_bytes_refuted, C29_lost); reading of Series and of frames with distinct labels is characterised, frames with repeated labels are read forever."
  },
  {
   "property": "C30",
   "status": "partial",
   "theorems": [
    "C30_subtyping",
    "C30_right_when_it_answers",
    "C30_reflexive",
    "C30_transitive",
    "C30_any_is_top",
    "C30_any_below_no_class",
    "C30_union_is_disjunction",
    "C30_annotated_ignored",
    "C30_covariant",
    "C30_arity",
    "C30_annotated_union_refuted",
    "C30_reflexive_refuted",
    "C30_total_refuted",
    "C30_tuple",
    "C30_no_types",
    "C30_types"
   ],
   "note": "Proved for classes, TypedDicts and subscripted classes, possibly behind Annotated and TypeVars, against the same, None, Any and unions; refuted beyond: Annotated around a union is not ignored, TypedDicts are not below themselves, unions are never below anything, tuple[int, int] against tuple[int, ...] raises"
  },
  {
   "property": "C31",
   "status": "proved",
   "theorems": [
    "C31_created",
    "C31_refused",
    "C31_fields",
    "C31_partitioned",
    "C31_others_unpartitioned"
   ],
   "note": "Created iff valid, refused with ValueError otherwise; partition and cluster fields are the declared ones, repeated names once; is_partitioned iff a Collection with partition fields."
  },
  {
   "property": "C32",
   "status": "partial",
   "theorems": [
    "C32_input_fingerprint",
    "C32_order",
    "C32_change",
    "C32_distinct_refuted",
    "C32_equal_contents_refuted"
   ],
   "note": "Exact value, independence of order and paths, and change under any single edit are proved for every producer and hash. Distinctness is false whatever the hash: exchanging two inputs' contents, or two inputs with equal contents, gives the same fingerprint."
  },
  {
   "property": "C33",
   "status": "proved",
   "theorems": [
    "C33_out",
    "C33_out_defaults"
   ],
   "note": ""
  },
  {
   "property": "C34",
   "status": "partial",
   "theorems": [
    "C34_one_open",
    "C34_window",
    "C34_open_not_sealed",
    "C34_exit",
    "C34_cached_dependencies_refuted",
    "C34_finished",
    "C34_dependencies_known"
   ],
   "note": "One open graph, mutability window and refusal of build, snapshot, read and write hold in every history. The dependencies property also needs a finished graph but answers from its cache once the graph is reopened (refuted). Exactly which graphs count as finished, and when dependencies answers, is stated over histories."
  },
  {
   "property": "C35",
   "status": "proved",
   "theorems": [
    "C35_dependencies",
    "C35_nodes",
    "C35_order",
    "C35_order_iff_acyclic",
    "C35_cycle_raises",
    "C35_graphs_are_acyclic"
   ],
   "note": "Dependency tables of graphs turn out never to be cyclic, because artifacts are immutable values; the sorter is also proved right on arbitrary tables."
  },
  {
   "property": "C36",
   "status": "partial",
   "theorems": [
    "C36_reopened_refuted",
    "C36_first_closing_partial",
    "C36_stale"
   ],
   "note": "Refuted: dependencies is a cached_property filled at the first closing. Proved: the first closing covers everything and the value never changes afterwards."
  },
  {
   "property": "C37",
   "status": "partial",
   "theorems": [
    "C37_missing_data",
    "C37_snapshots",
    "C37_records",
    "C37_order_partial",
    "C37_definition_order_refuted",
    "C37_change_partial",
    "C37_shared_file_refuted",
    "C37_exact",
    "C37_differs"
   ],
   "note": "Missing data, what is recorded, independence of discovery order and sensitivity to one raw content are proved. Independence of definition order holds up to the graph's own fingerprint (which hashes the definition order: refuted otherwise); a raw file read by two artifacts cancels out (refuted). The exact id is the xor of the fingerprints of graph, nodes, names and raw partitions (C37_exact), so any change, structural ones too, is seen unless what is new and what is gone have the same xor (C37_differs, iff)."
  },
  {
   "property": "C38",
   "status": "proved",
   "theorems": [
    "C38_read_tag",
    "C38_write_tag"
   ],
   "note": ""
  },
  {
   "property": "C39",
   "status": "proved",
   "theorems": [
    "C39_links",
    "C39_known",
    "C39_nothing_lost",
    "C39_failed_discovery",
    "C39_graphs",
    "C39_snapshots",
    "C39_both"
   ],
   "note": ""
  },
  {
   "property": "C40",
   "status": "partial",
   "theorems": [
    "C40_outputs_linked_partial",
    "C40_single_outputs_linked",
    "C40_asked",
    "C40_fresh",
    "C40_other_output_refuted",
    "C40_literal_refuted",
    "C40_too_few_refuted"
   ],
   "note": "Proved for graphs in order from any state in which no partition is available for only some outputs of its producer, and from any state for producers with one output in the graph. Refuted otherwise (one of two outputs available, literal outputs, too few values)."
  },
  {
   "property": "C41",
   "status": "partial",
   "theorems": [
    "C41_rebuild_partial",
    "C41_no_values_refuted"
   ],
   "note": "Proved for every graph in order, prior state and set iteration order; refuted if build returns fewer values than declared."
  },
  {
   "property": "C42",
   "status": "partial",
   "theorems": [
    "C42_data_computed_partial",
    "C42_data_stays",
    "C42_exchanged_inputs_refuted",
    "C42_changed_meanwhile_refuted",
    "C42_failed_write_refuted"
   ],
   "note": "Proved for all histories of raw changes, restarts, snapshots and builds in which requests with equal path, key and fingerprint compute equal data and what passes the checks can be written. Refuted without: exchanged inputs, raw data changed between snapshot and build, failed writes."
  },
  {
   "property": "C43",
   "status": "proved",
   "theorems": [
    "C43_rejected",
    "C43_not_accepted",
    "C43_kept"
   ],
   "note": "For every graph, producer, partition and prior state."
  },
  {
   "property": "C44",
   "status": "partial",
   "theorems": [
    "C44_resumed_partial",
    "C44_resume_partial",
    "C44_left_behind_partial",
    "C44_new_process_partial",
    "C44_several_outputs_refuted",
    "C44_half_written_refuted",
    "C44_order_refuted"
   ],
   "note": "For graphs whose producers have one output each and whose outputs have different paths. In the same process: if a build would succeed, then one stopped after any number of effects and run again succeeds with the same files and backend as an undisturbed one. In new processes: a stopped build leaves only complete files and at most one empty one; once that is removed, after any number of stopped processes, a build ends with the same snapshot, files and links as if none had been stopped, provided that the order of a listed set depends on its elements only. Refuted for several outputs, for half-written files found by a new process, and for sets whose order depends on how they were filled."
  },
  {
   "property": "C45",
   "status": "partial",
   "theorems": [
    "C45_only_asked_partial",
    "C45_empty_map_refuted"
   ],
   "note": "For every state that can arise. Refuted for a map that asks for nothing."
  },
  {
   "property": "C46",
   "status": "partial",
   "theorems": [
    "C46_outputs_stored_partial",
    "C46_left_out_refuted"
   ],
   "note": "Proved if no output is left out before one that is in the graph; refuted otherwise."
  },
  {
   "property": "C47",
   "status": "proved",
   "theorems": [
    "C47_no_data",
    "C47_several",
    "C47_concatenated",
    "C47_single",
    "C47_unimplemented",
    "C47_written",
    "C47_writable",
    "C47_others_kept",
    "C47_codecs",
    "C47_codec_single",
    "C47_no_codec",
    "C47_failed_write"
   ],
   "note": "For every view, format and kind of storage partition, with the texts of json and pickle as arguments: no partitions, several partitions of an unpartitioned type, the concatenation in order, and that what is written is what is read and that no other partition is changed. Which formats have a reader where, and what a failing write leaves behind, are stated independently of the dispatch."
  },
  {
   "property": "C48",
   "status": "partial",
   "theorems": [
    "C48_preset",
    "C48_value_kept_partial",
    "C48_refused",
    "C48_not_overwritten",
    "C48_unset",
    "C48_partitioned_raw",
    "C48_written",
    "C48_template_refuted",
    "C48_default_id",
    "C48_raw_id",
    "C48_failed_write",
    "C48_snapshot",
    "C48_literal_snapshot"
   ],
   "note": "A preset value is kept if it contains no braces (refuted otherwise: values are resolved as templates, so a JSON object literal cannot be discovered); discovery, refusal as an output, and written values being read back are proved without that guard on the value. The exact default id in a graph, failing writes and snapshots are stated too."
  },
  {
   "property": "C49",
   "status": "partial",
   "theorems": [
    "C49_describes",
    "C49_plain",
    "C49_items",
    "C49_pairs",
    "C49_flat",
    "C49_flat_dict",
    "C49_errors",
    "C49_order_partial",
    "C49_order_dict_partial",
    "C49_order_uniform",
    "C49_order_refuted",
    "C49_range_partial",
    "C49_large_int_refuted",
    "C49_read_back_partial",
    "C49_keys_refuted",
    "C49_stored_refuted"
   ],
   "note": "Every inferred type describes the value by class, and which values are accepted is characterised. Order: the type never changes, but acceptance does ([1, True] against [True, 1], refuted). Ranges need 64 bit integers (2**70 refuted), and reading back needs string keys (refuted otherwise)."
  },
  {
   "property": "C50",
   "status": "proved",
   "theorems": [
    "C50_accepted",
    "C50_errors",
    "C50_generated",
    "C50_decorated",
    "C50_map_lacks_refuted",
    "C50_inherited_map_refuted",
    "C50_kwargs_refuted",
    "C50_self_refuted",
    "C50_returns"
   ],
   "note": "Accepted iff the declarative rules hold, for any views and artifacts; 'map fits' includes that a generated map has no parameter called kwargs (see C50_kwargs_refuted). Also: which exceptions are raised, what a generated map gets, and when decorated functions are accepted. The _refuted theorems show accepted classes that cannot be built. C50_returns states the outputs by the return hint."
  },
  {
   "property": "C51",
   "status": "partial",
   "theorems": [
    "C51_registered_partial",
    "C51_itself",
    "C51_transitive",
    "C51_lookup",
    "C51_order_refuted",
    "C51_union_return_refuted",
    "C51_tidied",
    "C51_tidied_return"
   ],
   "note": "Acceptance iff the handler refines the spec, for hints of classes and subscripted classes (handler) and classes, unions and TypeVars (spec); refuted for handlers whose return hint is a union. Refinement is reflexive and transitive; the order of parameters is not checked (refuted)."
  },
  {
   "property": "C52",
   "status": "proved",
   "theorems": [
    "C52_explicit",
    "C52_ambiguous",
    "C52_registered",
    "C52_definable",
    "C52_says",
    "C52_represents",
    "C52_builtin",
    "C52_artifact",
    "C52_subclass_refuted",
    "C52_python_type_refuted",
    "C52_none_refuted",
    "C52_builtin_types"
   ],
   "note": "For any classes of views and artifacts. The chosen view, the artifact class and type read off the annotation, acceptance only of subtypes, completeness for the builtin views, and the check of artifacts. Witnesses of gaps beyond the statement are in the _refuted theorems."
  },
  {
   "property": "C53",
   "status": "proved",
   "theorems": [
    "C53_path",
    "C53_placed_for_good",
    "C53_name_field_refuted"
   ],
   "note": "for names of key fields that are not placeholders of the template themselves (C53_name_field_refuted otherwise), texts without braces"
  },
  {
   "property": "C54",
   "status": "proved",
   "theorems": [
    "C54_cast_where_found",
    "C54_placed_where_found",
    "C54_no_shared_file",
    "C54_no_shared_file_between_graphs",
    "C54_separator_refuted",
    "C54_graph_separator_refuted"
   ],
   "note": "names of artifacts and graphs without separators and braces (C54_separator_refuted otherwise), all artifacts with the default storage under one root, assigned within the graph"
  },
  {
   "property": "C55",
   "status": "proved",
   "theorems": [
    "C55_undisturbed",
    "C55_wildcard_refuted"
   ],
   "note": "names without wildcards (C55_wildcard_refuted otherwise), as for C54"
  },
  {
   "property": "C56",
   "status": "partial",
   "theorems": [
    "C56_models_exist",
    "C56_round_trip_partial",
    "C56_stable",
    "C56_again_partial",
    "C56_extends",
    "C56_nullable_refuted",
    "C56_fields_refuted"
   ],
   "note": "The round trip is characterised exactly (iff) for all types, and the again-theorem for all model classes without TypedDicts. The full round trip is refuted: nullable Structs, fields with a leading underscore, Null fields. create_model is modelled after pydantic 2.7.3; Annotated models are not modelled."
  },
  {
   "property": "C57",
   "status": "partial",
   "theorems": [
    "C57_created",
    "C57_failures",
    "C57_annotations_given",
    "C57_statistics_given",
    "C57_annotations_refuted",
    "C57_statistics_refuted",
    "C57_again_refuted",
    "C57_no_hint",
    "C57_no_keys",
    "C57_default",
    "C57_local_file"
   ],
   "note": "Refuted: an artifact created without annotations (or statistics) has those of its class twice, and one created again from its own values has them once more. Everything else is exact: created iff supplied and accepted, what is raised otherwise, annotations given come after the class's, and for JSON and Pickle on the default literal or local file which types are refused and where the others are stored. Not proved: the storage template when a key field is called 'extension'."
  },
  {
   "property": "C58",
   "status": "proved",
   "theorems": [
    "C58_generated",
    "C58_paths",
    "C58_written",
    "C58_stranger",
    "C58_read",
    "C58_discovered",
    "C58_encoded",
    "C58_directories",
    "C58_apart_refuted"
   ],
   "note": "For storages as C19 can discover them (discoverable) that are apart. The two models of files are related; every operation the executor has on files preserves the relation or gives the same answer. Different directories suffice to be apart; that it is needed is shown by C58_apart_refuted."
  },
  {
   "property": "C59",
   "status": "partial",
   "theorems": [
    "C59_exactly",
    "C59_effects",
    "C59_failed",
    "C59_asked_once",
    "C59_again",
    "C59_discovered",
    "C59_overlap_refuted"
   ],
   "note": "For every directory tree, suffixes, loaded modules and behaviour of the modules, given directories none of which lies below another (refuted otherwise). The lock, modules that import others and links that form cycles are not modelled."
  },
  {
   "property": "C60",
   "status": "partial",
   "theorems": [
    "C60_located",
    "C60_sound",
    "C60_rediscovered_partial",
    "C60_succeeds_partial",
    "C60_apart_partial",
    "C60_written_found_partial",
    "C60_path",
    "C60_extension_refuted",
    "C60_snapshot"
   ],
   "note": "Location, soundness and the default path for all texts; completeness and separation for the templates of C17 and C19 (one class of key fields, placeholders well separated). The default object's name has a doubled dot (refuted)."
  },
  {
   "property": "C61",
   "status": "partial",
   "theorems": [
    "C61_alone",
    "C61_ends",
    "C61_no_waiting",
    "C61_independent",
    "C61_right_partial",
    "C61_right_end_partial",
    "C61_recorded_partial",
    "C61_agree_partial",
    "C61_fails_refuted",
    "C61_half_written_refuted",
    "C61_stale_refuted",
    "C61_lenient_refuted"
   ],
   "note": "C61_alone, C61_ends, C61_no_waiting and C61_independent are the full claims about one process and about independent ones. For processes that write the same files the files are right at any time (or empty while being written) and in the end, provided formats refuse empty files, produced artifacts are files and what passes the check can be written. Missing: that every process ends as it would alone. This is refuted: it may fail on, or link, a file another has just opened, or record its fingerprint while it is empty."
  },
  {
   "property": "C62",
   "status": "proved",
   "theorems": [
    "C62_read_arguments",
    "C62_read_annotated",
    "C62_read_raw",
    "C62_read_raw_file",
    "C62_read_snapshot",
    "C62_read_produced",
    "C62_read_built",
    "C62_write",
    "C62_write_succeeds",
    "C62_write_failed",
    "C62_write_refused",
    "C62_written_read",
    "C62_written_found",
    "C62_written_snapshot",
    "C62_written_used",
    "C62_emptied_refuted",
    "C62_literal_refuted",
    "C62_changed_refuted",
    "C62_hidden_refuted",
    "C62_snapshot_read",
    "C62_snapshot_write"
   ],
   "note": "Without crashes. Findings: a failing write empties the file, raw literals cannot be read back, a snapshot's raw data is not checked, a partition written by hand hides files from a new process."
  },
  {
   "property": "C63",
   "status": "partial",
   "theorems": [
    "C63_exact",
    "C63_injective",
    "C63_read_back",
    "C63_refused",
    "C63_types",
    "C63_dated_rows_refuted",
    "C63_cut_short_partial",
    "C63_followed",
    "C63_cut_number_refuted",
    "C63_left_behind",
    "C63_written",
    "C63_partitions",
    "C63_failed_write",
    "C63_old_data_refuted",
    "C63_keys_refuted",
    "C63_surrogates_refuted",
    "C63_dict_partition_refuted",
    "C63_spelled",
    "C63_spelled_once"
   ],
   "note": "Proved for everything but: a number cut off is read as another number (C63_cut_number_refuted, C63_cut_short_partial excludes it). The refuted theorems show which objects of accepted types cannot be stored or come back changed."
  },
  {
   "property": "C64",
   "status": "partial",
   "theorems": [
    "C64_computed",
    "C64_mapped",
    "C64_one_table",
    "C64_default_map",
    "C64_mapped_json",
    "C64_succeeds",
    "C64_one_value",
    "C64_json",
    "C64_reused_partial",
    "C64_tuple_refuted",
    "C64_exchanged_refuted",
    "C64_reader"
   ],
   "note": "C64_computed, C64_mapped: storages where nothing has been built; maps that go by partition keys (the default one does: C64_default_map). C64_one_table: up to the order of rows, for maps that do not depend on an order. C64_succeeds: when a build of producers without a map succeeds (iff). C64_reused_partial: storages with data from earlier builds, producers without a map, if those builds were of requests that agree and all are covered; without that what is read can be an older value (C64_exchanged_refuted). Maps that look at field values or fingerprints instead of keys, and data reused by producers with a map, are not covered"
  },
  {
   "property": "C65",
   "status": "partial",
   "theorems": [
    "C65_fields",
    "C65_defined",
    "C65_alike",
    "C65_generates",
    "C65_always",
    "C65_without_type",
    "C65_subscripted",
    "C65_metadata_refuted",
    "C65_overridden_refuted",
    "C65_without_type_refuted",
    "C65_generic_refuted"
   ],
   "note": "Classes: in full (C65_defined, C65_alike). Generating a partition hands over every field once and refines Storage_Model.generate_partition (C65_generates), and fails only where formatting does if the partition class asks no more than its hints (C65_always). Refuted otherwise: metadata, overridden fields, no partition type, generic bases."
  },
  {
   "property": "C66",
   "status": "partial",
   "theorems": [
    "C66_chosen",
    "C66_none",
    "C66_order",
    "C66_discovery",
    "C66_added",
    "C66_same_reader",
    "C66_same_writer",
    "C66_accepted_partial",
    "C66_builtin_alike",
    "C66_builtin_readers",
    "C66_builtin_writers",
    "C66_reads",
    "C66_writes",
    "C66_list_refuted",
    "C66_data_refuted",
    "C66_draw_refuted"
   ],
   "note": "Proved for tables in which no reader tells lists from tuples and no writer looks at the class of the data, which holds for the package's own; otherwise the claim is false: C66_list_refuted, C66_data_refuted. A further handler can make a lookup ambiguous: C66_draw_refuted. multimethod's choice is modelled without its tie breaking."
  },
  {
   "property": "C67",
   "status": "partial",
   "theorems": [
    "C67_classes",
    "C67_view_mode",
    "C67_created",
    "C67_creation_fails",
    "C67_inputs",
    "C67_out",
    "C67_out_default",
    "C67_iter",
    "C67_fresh",
    "C67_out_fails",
    "C67_once",
    "C67_sound",
    "C67_ends_agree",
    "C67_handled_partial"
   ],
   "note": "Creation, outputs, iteration, soundness and agreement of types are proved in full. That reads and writes find handlers (C67_handled_partial) is proved for tables in which no reader tells lists from tuples and no writer looks at the class of the data, as are the package's own; otherwise it is false (C66_list_refuted, C66_data_refuted)."
  },
  {
   "property": "C68",
   "status": "proved",
   "theorems": [
    "C68_complete",
    "C68_never_built",
    "C68_never_called",
    "C68_key_error",
    "C68_closed_refuted",
    "C68_replaced"
   ],
   "note": "C68_complete for graphs with all inputs; C68_never_built, C68_never_called and C68_key_error for graphs lacking one; C68_closed_refuted shows that closing does not require it; C68_replaced for the default LocalFile storage."
  },
  {
   "property": "C69",
   "status": "proved",
   "theorems": [
    "C69_exact",
    "C69_only",
    "C69_reused",
    "C69_versions",
    "C69_new_version"
   ],
   "note": "For graphs in order (in_order, distinct_paths: outputs have storages and paths of their own, what C40 needs as well) and sets that iterate over their elements. C69_exact: the calls in the log of a successful build are exactly the asked-for partitions none of whose outputs was available at the start, without repetition; C69_only for every outcome; C69_reused across builds and graphs of one process; C69_versions and C69_new_version for versions. A partition with some outputs available and others not is not computed, as C40 records."
  },
  {
   "property": "C70",
   "status": "proved",
   "theorems": [
    "C70_alike",
    "C70_every_version",
    "C70_shares",
    "C70_recomputed",
    "C70_commit",
    "C70_no_commit",
    "C70_source",
    "C70_times",
    "C70_equal_times_refuted"
   ],
   "note": "Datetimes are assumed to be written differently when they differ; C70_equal_times_refuted is a finding about C23 (equal models have equal fingerprints)."
  },
  {
   "property": "C71",
   "status": "partial",
   "theorems": [
    "C71_data",
    "C71_tag",
    "C71_read_partial",
    "C71_rebuilt",
    "C71_raw_refuted"
   ],
   "note": "Data of recorded produced partitions and tags: proved in full. Reading through a tag: shown when the snapshot is not built again, and when it is built again after a build that succeeded, if its producers ask for something (see C45), find all outputs or none (see C40) and no snapshot of other raw data has the same id. Raw artifacts read through a tag are refuted."
  },
  {
   "property": "C72",
   "status": "partial",
   "theorems": [
    "C72_fingerprint_partial",
    "C72_reads",
    "C72_unseen",
    "C72_copied_stale",
    "C72_refilled_stale",
    "C72_ids",
    "C72_fingerprint_refuted",
    "C72_snapshot_refuted",
    "C72_copy_is_new",
    "C72_copied_versions",
    "C72_versions_refuted"
   ],
   "note": "Holds if nothing that was asked for its fingerprint is changed afterwards, in place or in a copy; refuted in general: model_copy copies the cached value, so that an artifact read before it is assigned to a graph keeps its old fingerprint and snapshot ids depend on it."
  },
  {
   "property": "C73",
   "status": "proved",
   "theorems": [
    "C73_shared",
    "C73_deepcopy",
    "C73_separate",
    "C73_shallow",
    "C73_succeeds"
   ],
   "note": "Proved of a heap model of copying; tuples are treated as instances that are always copied, and models that contain themselves are excluded."
  },
  {
   "property": "C74",
   "status": "partial",
   "theorems": [
    "C74_lookup",
    "C74_stable",
    "C74_components",
    "C74_outcome",
    "C74_extended",
    "C74_built_in",
    "C74_newer_python_refuted",
    "C74_attributes"
   ],
   "note": "Proved for Python 3.12; false from Python 3.13 on, where classmethod no longer wraps properties (C74_newer_python_refuted)."
  }
 ]
}
