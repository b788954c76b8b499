{"claims": [
  {"property": "C01", "status": "proved", "theorems": ["C01_form_map_balanced", "C01_field_map_balanced", "C01_attribute_balanced", "C01_hook_balanced"], "note": "every field, form, hook program, source, depth, reachable context and outcome"},
  {"property": "C02", "status": "proved", "theorems": ["C02_inside_block", "C02_nested_blocks", "C02_after_block", "C02_after_any_block"], "note": "src_path itself is derived from src and is the subject of C01/C03"},
  {"property": "C03", "status": "proved", "theorems": ["C03_rewind_round_trip"], "note": ""},
  {"property": "C04", "status": "partial", "theorems": ["C04_rewind_to_innermost_refuted", "C04_rewind_to_innermost_always_fails"], "note": "false of the code: refuted by a witness, and shown to fail on every stack"},
  {"property": "C05", "status": "proved", "theorems": ["C05_rewind_nowhere", "C05_rewind_block_nowhere"], "note": ""},
  {"property": "C06", "status": "proved", "theorems": ["C06_thread_isolation"], "note": ""},
  {"property": "C07", "status": "proved", "theorems": ["C07_json_reads_repeatable", "C07_config_reads_repeatable", "C07_native_reads_repeatable", "C07_json_value"], "note": "string and integer keys; other keys make Path.value raise AttributeError in the code and are excluded (simplification recorded in DESIGN.md)"},
  {"property": "C08", "status": "partial", "theorems": ["C08_missing_stays_missing_refuted", "C08_name_appears", "C08_missing_stays_missing_partial"], "note": "false of the code for the key 'name': refuted by a witness, and C08_name_appears says it happens below every missing key; proved for every sequence of reads whose keys are not 'name'"},
  {"property": "C09", "status": "proved", "theorems": ["C09_text_determines_path", "C09_every_path_has_text", "C09_union_text_determines_path", "C09_text", "C09_no_text"], "note": "string keys must be non-empty, free of '.' and '[' and not the text of an integer"},
  {"property": "C10", "status": "proved", "theorems": ["C10_present_wins", "C10_missing_only_if_nowhere"], "note": "over any set of ordinary values closed under items and attributes; keys without a '()' suffix"},
  {"property": "C11", "status": "partial", "theorems": ["C11_absent_key_missing_partial", "C11_absent_key_missing_refuted", "C11_absent_key_is_attribute"], "note": "false of the code for names of dict attributes: refuted by a witness, and C11_absent_key_is_attribute says what every absent key gives; proved for all other names"},
  {"property": "C12", "status": "proved", "theorems": ["C12_accepts_exactly", "C12_rejects_the_rest"], "note": "ASCII text"},
  {"property": "C13", "status": "proved", "theorems": ["C13_text_round_trips", "C13_plus_sign_round_trips", "C13_text_is_decimal"], "note": ""},
  {"property": "C14", "status": "proved", "theorems": ["C14_accepts_exactly", "C14_rejects_the_rest"], "note": "ASCII text"},
  {"property": "C15", "status": "proved", "theorems": ["C15_strict_value_unchanged", "C15_int_as_float", "C15_strict_value_has_type", "C15_lax_extends_strict"], "note": "int to float is Python's float(int): rounding and OverflowError as in the interpreter"},
  {"property": "C16", "status": "proved", "theorems": ["C16_field_map_is_pipeline", "C16_compute_decides", "C16_answers"], "note": "Every field, hook, source and context: field.map equals the stage list of SpecPipe."},
  {"property": "C17", "status": "proved", "theorems": ["C17_missing_required", "C17_nothing_stored"], "note": "Any field without compute/resolve/default hooks (other hooks allowed), any source and reachable context."},
  {"property": "C18", "status": "proved", "theorems": ["C18_default_verbatim", "C18_default_for_ignored"], "note": "Static defaults, for an absent key and for an ignored value."},
  {"property": "C19", "status": "proved", "theorems": ["C19_optional_vanishes"], "note": "optional=True is the default NONE (fields.py:377-384)."},
  {"property": "C20", "status": "proved", "theorems": ["C20_ignore_default", "C20_ignore_both", "C20_ignore_missing", "C20_marker_not_stored"], "note": "All four flag combinations; a default hook bypasses ignore_default when compute yields nothing (fields.py:571-573), outside the claim."},
  {"property": "C21", "status": "proved", "theorems": ["C21_null", "C21_parser_not_run"], "note": "Every kind; plus: neither the built-in parser nor a parse hook runs on a null."},
  {"property": "C22", "status": "proved", "theorems": ["C22_ignored_is_absent", "C22_equal", "C22_unequal"], "note": "Hook-free fields; values given to map(v), nulls, and primitives read from the source."},
  {"property": "C23", "status": "proved", "theorems": ["C23_translation_first", "C23_unhashable", "C23_checked_translated", "C23_choices_admit_translations"], "note": "Equality of runs for a value and its translation with any hooks; values read are checked after translation; choices admit translated values; a value that cannot be looked up is a TypeError."},
  {"property": "C24", "status": "proved", "theorems": ["C24_within_bounds", "C24_below_min", "C24_above_max"], "note": "Exact rational comparison across bool, int, float and Decimal; values and bounds finite."},
  {"property": "C25", "status": "proved", "theorems": ["C25_accepted", "C25_rejected", "C25_first_is_unique", "C25_not_a_text"], "note": "Acceptance iff all five constraints hold, else exactly the first violated one."},
  {"property": "C26", "status": "proved", "theorems": ["C26_no_silent_drop", "C26_no_silent_drop_plain", "C26_validate_hook_refuted"], "note": "Every kind and source. Hypotheses: no user hooks on the field itself; no markers in the data read, translations, default or environment; allow_field lists get a sequence. The hook variant is refuted."},
  {"property": "C27", "status": "partial", "theorems": ["C27_unparsable_date_is_none", "C27_first_matching_format", "C27_unparsable_date_reported_refuted"], "note": "False in the code: refuted with a witness, and characterised: such a date is always None (or 'not nullable'); the first accepting format gives the date."},
  {"property": "C28", "status": "partial", "theorems": ["C28_unparsable_decimal_escapes", "C28_parsable_decimal", "C28_unparsable_decimal_reported_refuted"], "note": "False in the code: refuted with a witness, and characterised: InvalidOperation always escapes and nothing is reported; parsable text maps to its Decimal."},
  {"property": "C29", "status": "proved", "theorems": ["C29_json_never_crashes", "C29_float_refuted"], "note": "wider than stated: dates, times, code, UUIDs and groups too; a Float field can let an OverflowError out (witness)"},
  {"property": "C30", "status": "proved", "theorems": ["C30_json_map_is_evaluation", "C30_native_map_is_evaluation", "C30_dict_map_is_evaluation", "C30_config_map_is_evaluation", "C30_polymorphic_native", "C30_polymorphic_json", "C30_union_map_is_evaluation", "C30_nested_union_map_is_evaluation", "C30_native_union_map_is_evaluation"], "note": "fields of every kind, any nesting, no resolve hook, other hooks restricted to value, error and form operations; JSON documents, configurations, and native data without aliases, ignores or forms; unions of JSON documents or of Python dicts for forms and Dicts, nested to any depth, of fields that read one primitive (C30_union_\u2026, C30_nested_union_\u2026, C30_native_union_map_is_evaluation); PolymorphicSubForm fields on JSON and native data, except when the value probed is a sequence or form or the probe stores no type (the evaluator then answers that it does not know)"},
  {"property": "C31", "status": "proved", "theorems": ["C31_list_in_order", "C31_list_raises", "C31_not_a_list", "C31_scalar", "C31_items_accounted"], "note": "Order and survivors for any item field and any source; errors per index and their location for item fields without hooks on JSON, native and configuration sources."},
  {"property": "C32", "status": "proved", "theorems": ["C32_too_short", "C32_too_long"], "note": "Counted after dropping; any item field."},
  {"property": "C33", "status": "partial", "theorems": ["C33_tuple_in_order", "C33_wrong_length", "C33_wrong_length_raise", "C33_arity_refuted"], "note": "Wrong length: one error in collect mode, two in raise mode (the field catches its own FormError); right length: the mapped items in order. The arity claim is false and refuted with a witness."},
  {"property": "C34", "status": "partial", "theorems": ["C34_dict_of_pairs", "C34_distinct_keys", "C34_required_keys_partial", "C34_odd_keys_raise", "C34_max_keys", "C34_required_keys_refuted"], "note": "Any key and value fields and key filter; repeated keys keep the first place and last value. The clause on required keys holds for missing keys that are strings; a missing key that is not one raises TypeError from the message, proved for all dicts and refuted as a report."},
  {"property": "C35", "status": "proved", "theorems": ["C35_group_in_order", "C35_no_match", "C35_stopped"], "note": "Any entries; first match; the default when no key matches."},
  {"property": "C36", "status": "partial", "theorems": ["C36_bare_field_refuted", "C36_own_key_below", "C36_own_key_found"], "note": "False in the code: refuted with a witness. For all sources: a bare entry reads its key once more below its key, so it is reported missing at k.k and left out (C36_own_key_below), or maps what is there (C36_own_key_found)."},
  {"property": "C37", "status": "proved", "theorems": ["C37_subform_errors_once", "C37_subform_raises"], "note": "One sub-form field, in any mode and at any nesting, whatever the fields of the form do (any hooks, any kinds): the sub-form is mapped in its own error list, and exactly these errors are appended, in order; fields that report where they are add nothing else. Composes with C31, C33, C34 through lists, tuples and dicts; full paths are C69. Hypotheses: no hooks on the sub-form field itself; unmapped ignored."},
  {"property": "C38", "status": "partial", "theorems": ["C38_union_flat_partial", "C38_union_raise_partial", "C38_union_fails_partial", "C38_native_union_flat_partial", "C38_native_union_raise_partial", "C38_native_union_fails_partial", "C38_json_flat_partial", "C38_native_flat_partial", "C38_config_flat_partial", "C38_raise_partial", "C38_raise_fails_partial", "C38_hooks_refuted", "C38_raise_refuted", "C38_tags_refuted"], "note": "Proved for sub-form fields and sibling fields without hooks and without sub-forms of their own, over JSON, configuration and native data, and for fields that read one primitive and Dicts of such, nested, over unions of JSON documents or of Python dicts (C38_union_\u2026, C38_native_union_\u2026): errors collected when the inlined form maps without an exception; errors raised when it maps without an error, and that both raise a FormError beginning with the same error otherwise. False for hooks that raise, for an explicit tags argument and for the list of errors raised: refuted with witnesses. Not covered: lists, tuples and groups over unions, and mount sources."},
  {"property": "C39", "status": "proved", "theorems": ["C39_all_fields_in_order"], "note": "Every outcome of form.map with its own source, any hooks, any kind of field, unmapped ignored."},
  {"property": "C40", "status": "proved", "theorems": ["C40_union", "C40_raise_iff_collect_reports", "C40_native_union"], "note": "every kind but PolymorphicSubForm, translations and attach_parent allowed; JSON, configuration and plain native sources, and unions of JSON documents or of Python dicts for the forms of C103 (C40_union, C40_native_union)"},
  {"property": "C41", "status": "partial", "theorems": ["C41_union", "C41_first_error_of_leaves", "C41_in_list_refuted", "C41_native_union"], "note": "Proved for forms of single-value fields, also over unions of JSON documents or of Python dicts; the first error agrees for every form (C40). False in the code for containers: refuted with a witness."},
  {"property": "C42", "status": "proved", "theorems": ["C42_constructor", "C42_keywords", "C42_no_arguments", "C42_none_refuted"], "note": "The constructor's outcome and state for every source, dict, form, list or tuple argument, keyword arguments, and no arguments. Form(None) is shown to differ from map(None)."},
  {"property": "C43", "status": "proved", "theorems": ["C43_unselected_unchanged"], "note": "Every kind of field, polymorphic sub-forms included; no attach_parent; hooks that do not set, delete or lazily read form attributes; unmapped ignored. That unselected fields are not read or reported is C39."},
  {"property": "C44", "status": "proved", "theorems": ["C44_reset_then_map", "C44_stale_or_reset"], "note": "Same fields as C43."},
  {"property": "C45", "status": "partial", "theorems": ["C45_union_capture", "C45_nested_union_capture", "C45_native_union_capture", "C45_capture", "C45_native_capture", "C45_config_capture", "C45_ignore", "C45_bad_directive", "C45_every_key_refuted"], "note": "Capture proved in collect mode for JSON objects (every key that has a value is stored), native dicts and sections of a configuration (every key), and unions of JSON documents or of Python dicts (C45_union_capture: forms of values; C45_nested_union_capture, C45_native_union_capture: the forms of C103; keys without dots, no nulls). False for the string keys of a JSON object with a dot or an index, which are reported as missing: refuted with a witness. Capture from mounts is not proved."},
  {"property": "C46", "status": "proved", "theorems": ["C46_json_unread_keys", "C46_native_unread_keys", "C46_config_unread_keys", "C46_polymorphic_json", "C46_polymorphic_native"], "note": "JSON objects, plain dicts and configurations; forms without resolve hooks; polymorphic sub-forms on JSON and native data whenever C30's evaluation knows the outcome; a Group reads every key, so it is excluded."},
  {"property": "C47", "status": "partial", "theorems": ["C47_union_partial", "C47_nested_union_partial", "C47_native_union_partial", "C47_reset_capture_partial", "C47_raise_capture_partial", "C47_reset_order_refuted", "C47_json_remap_partial", "C47_native_remap_partial", "C47_config_remap_partial", "C47_json_raise_partial", "C47_native_raise_partial", "C47_config_raise_partial", "C47_succeeds_partial", "C47_pair_refuted"], "note": "Proved for hook-free fields without sub-forms over JSON, configuration and native data: errors collected or raised with unmapped='ignore' or 'capture' (any reset). With unmapped='capture' and reset=True the entries of the second mapping are those of the first in another order (C47_reset_order_refuted). False for unmapped=(key, value) fields that translate keys: refuted with a witness. Over unions of JSON documents or of Python dicts proved for fields that read one primitive (C47_union_partial) and Dicts of such, nested (C47_nested_union_partial, C47_native_union_partial), with unmapped='ignore'. Not covered: lists, tuples, groups and 'capture' over unions, and mount sources."},
  {"property": "C48", "status": "proved", "theorems": ["C48_attributes"], "note": "Any sequence of attribute operations refines finite maps."},
  {"property": "C49", "status": "partial", "theorems": ["C49_own_reads_partial", "C49_rewound_read_refuted"], "note": "False in the code: refuted with a witness. Proved for reads outside a mapping and inside the form's own mapping."},
  {"property": "C50", "status": "partial", "theorems": ["C50_present", "C50_yes", "C50_unknown", "C50_method_refuted", "C50_absent_refuted", "C50_required_raises", "C50_default_stored", "C50_field_present", "C50_field_required", "C50_field_default", "C50_field_raising"], "note": "False in the code: refuted with three witnesses. Proved: has answers True for names with an entry, for methods of forms (C50_method_refuted: 'map') and for fields that hold a method, and for no others; a name that is no field is True for a method, raises for another attribute and is False else; outside a mapping a required field without an entry always raises FormError, one with a default always stores it and raises unless it is None or a method. Asked with a field: whether an entry is None; without one a default is stored and answers, a required or optional field raises."},
  {"property": "C51", "status": "proved", "theorems": ["C51_flatten", "C51_flatten_total"], "note": "Any nesting depth; exactly the leaves, each once, in lexicographic field order; totality for finite nesting."},
  {"property": "C52", "status": "proved", "theorems": ["C52_filter", "C52_filter_leaves"], "note": "One level exactly, and at any nesting depth as an equation on flatten. Tuples become lists; a NONE entry is dropped."},
  {"property": "C53", "status": "proved", "theorems": ["C53_copy", "C53_independent"], "note": "Equal entries, and any later sequence of updates projects onto each form."},
  {"property": "C54", "status": "proved", "theorems": ["C54_fields", "C54_override", "C54_new_after", "C54_line"], "note": "The order of fields for any bases and any given method resolution order; for lines of single inheritance the exact list of names. The method resolution order itself is an input."},
  {"property": "C55", "status": "partial", "theorems": ["C55_table", "C55_known", "C55_unknown", "C55_untyped", "C55_null", "C55_failed_probe", "C55_no_data", "C55_any_probe", "C55_rejected_probe", "C55_inherited_refuted"], "note": "Table: exact, and an identity listed by one class only leads to it. Data: any probe form, type field and data: the class listed for the identity the probe form holds, an unlisted identity, None, data the probe form rejects, and a probe that raises; for one plain String type field over a mapping from any source, what that identity is. False for a subclass that inherits the type field: C55_inherited_refuted."},
  {"property": "C56", "status": "partial", "theorems": ["C56_refuted", "C56_empty_table_partial", "C56_frozen_partial"], "note": "False in the code: refuted with a witness. A table that is non-empty when first used never changes again (C56_frozen_partial); an empty one is computed anew (C56_empty_table_partial)."},
  {"property": "C57", "status": "proved", "theorems": ["C57_union_answers", "C57_keys", "C57_first_value"], "note": "JSON and plain native sources, keys of one step (no dots, no call suffix, indices from 0), every sequence of operations"},
  {"property": "C58", "status": "proved", "theorems": ["C58_first", "C58_last", "C58_invalid"], "note": "as C57; with 'last' and no merge_depth"},
  {"property": "C59", "status": "proved", "theorems": ["C59_concatenation", "C59_invalid"], "note": "as C57"},
  {"property": "C60", "status": "partial", "theorems": ["C60_sequences", "C60_mappings_refuted", "C60_mappings_by_number_of_sources"], "note": "True for sequences. False in the code for mappings: refuted with a witness; C60_mappings_by_number_of_sources says what holds instead, for all keys and any number of sources."},
  {"property": "C61", "status": "partial", "theorems": ["C61_mount_alone", "C61_plain_alone", "C61_root", "C61_unmounted", "C61_python3", "C61_union_null_refuted", "C61_list_raises"], "note": "Proved for every sequence of operations and every set of mounts, with what is said at the root and at a key where nothing is mounted; for mounted unions is_null differs (refuted with a witness)."},
  {"property": "C62", "status": "partial", "theorems": ["C62_missing_mount_refuted", "C62_unmounted_key", "C62_field_raises"], "note": "False in the code: refuted with a witness. For all mounts: a key naming no mount always leads to an existing empty mapping whose primitive read raises KeyError, and so does every field reading one there."},
  {"property": "C63", "status": "proved", "theorems": ["C63_precedence"], "note": "every section given as parsed options; ConfigParser's own parsing and interpolation are outside the model"},
  {"property": "C64", "status": "partial", "theorems": ["C64_error_text", "C64_line_breaks_refuted", "C64_all_lines"], "note": "Proved for errors whose texts are one line; false otherwise: a text with a line break is a witness."},
  {"property": "C65", "status": "partial", "theorems": ["C65_attach_parent_refuted", "C65_only_objects_partial"], "note": "False in the code: refuted with a witness. What holds for all inputs: such a field only ever maps forms, objects or nothing (C65_only_objects_partial)."},
  {"property": "C66", "status": "partial", "theorems": ["C66_first_function_registers", "C66_attached_refuted", "C66_attached_answers_the_class"], "note": "Proved for fields not yet in a form class. For a field already in one the class is returned: C66_attached_refuted, and C66_attached_answers_the_class for all such hooks."},
  {"property": "C67", "status": "partial", "theorems": ["C67_refuted", "C67_containers_shared", "C67_attributes_partial", "C67_clone_partial", "C67_own_partial", "C67_contents_partial"], "note": "False in the code: refuted with a witness; sharing is proved for every sequence of operations, and the attributes that are replaced are separate. C67_clone_partial, C67_own_partial: what a clone begins with and what setting does. C67_contents_partial: after any sequence of operations, what a shared container has."},
  {"property": "C68", "status": "partial", "theorems": ["C68_ignored_stays_ignored_refuted", "C68_read_first_partial", "C68_read_below"], "note": "False in the code: refuted by a witness. For all sources: a location read first stays missing (C68_read_first_partial); after reading below it, it always exists (C68_read_below)."},
  {"property": "C69", "status": "proved", "theorems": ["C69_errors_below", "C69_form_errors_below"], "note": "Excludes PolymorphicSubForm (its type probe may report at the root of an empty source) and hooks that call ctx.reset() or read form attributes."},
  {"property": "C70", "status": "partial", "theorems": ["C70_two_keys_refuted", "C70_two_keys_always"], "note": "False in the code: refuted with a witness. For all unions and all browsing before: two appended keys never find anything (C70_two_keys_always)."},
  {"property": "C71", "status": "proved", "theorems": ["C71_positions", "C71_reads", "C71_unread_refuted", "C71_keys_refuted"], "note": "For the native source Form.map makes of a list or tuple, on untouched paths; items equal to NONE are excluded. Two keys appended before the first read miss the item (C71_unread_refuted) and the root's mapping lists fields without an item (C71_keys_refuted)."},
  {"property": "C72", "status": "proved", "theorems": ["C72_none_default", "C72_default", "C72_optional", "C72_required", "C72_ignore", "C72_two_calls", "C72_any_two_calls_refuted", "C72_optional_last_refuted", "C72_ignore_many_refuted", "C72_tags_refuted"], "note": "Every keyword of Field.options but translate and attach_parent, followed to the mapped value. The two-call claim has the two stated exceptions, both shown necessary; ignore and tags with several values are refuted."},
  {"property": "C73", "status": "proved", "theorems": ["C73_string", "C73_exact_length", "C73_length_zero_refuted", "C73_number", "C73_list", "C73_list_length_refuted"], "note": "length=0 and List with an integer length are refuted. Date, Time and Datetime constructors are modelled but not covered here."},
  {"property": "C74", "status": "proved", "theorems": ["C74_constant", "C74_type_constant", "C74_attached", "C74_again_refuted"], "note": "On a field without hooks; a second constant is refuted."},
  {"property": "C75", "status": "proved", "theorems": ["C75_format", "C75_unknown_attribute", "C75_no_attribute", "C75_raises", "C75_attribute_raises"], "note": "format is an oracle; on the way to a value, fields that are mapped and attributes Python finds in other values (C75_no_attribute: one it does not find)."},
  {"property": "C76", "status": "proved", "theorems": ["C76_capture", "C76_null_refuted"], "note": "Regular expressions are an oracle. The field's name is the one it is attached under. A null under capture is refuted."},
  {"property": "C77", "status": "proved", "theorems": ["C77_pattern", "C77_float_refuted"], "note": "Regular expressions are an oracle. Float.pattern is refuted."},
  {"property": "C78", "status": "proved", "theorems": ["C78_group", "C78_arguments", "C78_bare", "C78_odd", "C78_alien"], "note": "The error for a field without src and the acceptance of arguments are exact; other refusals are not described."},
  {"property": "C79", "status": "proved", "theorems": ["C79_value", "C79_absent", "C79_abstract_refuted"], "note": "The abstract type is refuted."},
  {"property": "C80", "status": "proved", "theorems": ["C80_tuple", "C80_single_field", "C80_not_a_field"], "note": "The wrong length in collect mode; see C33 for raise mode."},
  {"property": "C81", "status": "proved", "theorems": ["C81_place", "C81_flat"], "note": "every constructor hands its positional source and src to Field.__init__; flat"},
  {"property": "C82", "status": "proved", "theorems": ["C82_range", "C82_unread", "C82_any_instant_refuted"], "note": "range in both error modes; the errors of _parse when collecting; refuted for a datetime given to a Date"},
  {"property": "C83", "status": "proved", "theorems": ["C83_values", "C83_last", "C83_method_names", "C83_own_names", "C83_any_name_refuted"], "note": "after any nesting of blocks; last value is ctx.k; refuted for names of methods"},
  {"property": "C84", "status": "proved", "theorems": ["C84_reads", "C84_no_defaults", "C84_no_text"], "note": "reads with defaults; raises without; no text is accepted, with the exception named"},
  {"property": "C85", "status": "proved", "theorems": ["C85_raw", "C85_else", "C85_nowhere", "C85_first_line_refuted", "C85_own_option_refuted"], "note": "the lines below the option; unchanged otherwise; refuted for text on the option's line and for prefixes"},
  {"property": "C86", "status": "partial", "theorems": ["C86_keys_are_a_list", "C86_mount_keys_partial", "C86_mount_keys_refuted"], "note": "Proved for plain and union sources under every sequence of edits and reads; for mounts as long as the first key is only added to an empty path and removed as the last. False otherwise: refuted with a witness."},
  {"property": "C87", "status": "partial", "theorems": ["C87_reads_its_keys_refuted", "C87_inner_edits_ignored", "C87_unread_partial", "C87_odd_key", "C87_end_partial"], "note": "False in the code: refuted with a witness. For all sources: once a value was read, edits that leave the last key alone never change what is read (C87_inner_edits_ignored). An unread path may be edited anyhow, and edits at the end are descents and ascents."},
  {"property": "C88", "status": "proved", "theorems": ["C88_probe_is_a_prefix", "C88_probe_exists", "C88_same_names_refuted"], "note": "Any reachable class heap; fields up to the type field with different names and creation counts (two of one name: refuted)."},
  {"property": "C89", "status": "partial", "theorems": ["C89_keyword_order", "C89_names_partial", "C89_names_refuted"], "note": "Keyword order: every heap, base and keywords. Names and creation order: fields no class has registered; refuted for registered ones."},
  {"property": "C90", "status": "proved", "theorems": ["C90_lines", "C90_words"], "note": ""},
  {"property": "C91", "status": "proved", "theorems": ["C91_number", "C91_list", "C91_clock", "C91_options", "C91_ignore", "C91_translate", "C91_table", "C91_translations", "C91_no_table", "C91_tag", "C91_elsewhere"], "note": "For numbers, lists, dates, times and datetimes with arbitrary sequences of calls; later options for all constructors that take no fields or classes."},
  {"property": "C92", "status": "proved", "theorems": ["C92_inside", "C92_below", "C92_above", "C92_ignored", "C92_nan_stored", "C92_nan_unbounded", "C92_nan_raises"], "note": "py_lt and py_eq are the order and equality of the extended line; object identity of NaN is not modelled (DESIGN.md, simplifications)."},
  {"property": "C93", "status": "proved", "theorems": ["C93_maps_its_form", "C93_polymorphic", "C93_accepts"], "note": "Equality of the parse step, for any recursion; reset shown to be without effect."},
  {"property": "C94", "status": "proved", "theorems": ["C94_number", "C94_text", "C94_special"], "note": "All numbers and texts; hook-free fields; the float's value over the rationals."},
  {"property": "C95", "status": "proved", "theorems": ["C95_unknown", "C95_excluded", "C95_options"], "note": "the model of constructors (Build) leaves out arguments its header lists"},
  {"property": "C96", "status": "proved", "theorems": ["C96_json", "C96_other_sources"], "note": "float() of a text is an oracle, as everywhere; the union and mount sources read through these (C60, C61)"},
  {"property": "C97", "status": "proved", "theorems": ["C97_value", "C97_unreadable", "C97_absent", "C97_taken", "C97_src", "C97_given", "C97_restores", "C97_python3"], "note": "Values and unreadable values for fields of one value without hooks; missing names for any kind of field; restoring for all fields."},
  {"property": "C98", "status": "proved", "theorems": ["C98_replaced", "C98_stock", "C98_calls", "C98_determined", "C98_form_error", "C98_just_reported_refuted", "C98_block", "C98_mapping_keeps"], "note": "Reports.v models one error list and the classes in force beside the mapping; a form mapped while a class is replaced is not modelled."},
  {"property": "C99", "status": "proved", "theorems": ["C99_reads", "C99_no_primitive", "C99_inside", "C99_keys", "C99_entry"], "note": "Attributes of forms are those the environment gives (reading one that is a field maps the field, which is not part of this model of the read)."},
  {"property": "C100", "status": "partial", "theorems": ["C100_reads_back_partial", "C100_iso_writes_its_name", "C100_iso_rejected", "C100_clock_time", "C100_no_format", "C100_no_text", "C100_reads_back_refuted", "C100_written_refuted"], "note": "Proved wherever strptime undoes strftime with the field's first format, for dates, times and datetimes with any bounds. False with 'iso8601' and for datetime.time: refuted with witnesses, and C100_iso_writes_its_name, C100_clock_time for all instants; C100_no_text: every format that is not written with."},
  {"property": "C101", "status": "partial", "theorems": ["C101_value", "C101_invalid", "C101_reported", "C101_ignored", "C101_nothing", "C101_default_refuted"], "note": "The value: any state. Outside a mapping: refused values raise AttributeError, ignored ones give the default; False for field(): always AttributeError (C101_nothing), refuted with a witness for a default."},
  {"property": "C102", "status": "proved", "theorems": ["C102_first_wins", "C102_native", "C102_null_refuted", "C102_decimal_refuted", "C102_date_refuted"], "note": "Any environment, fuel, documents, merge strategies, depth, tags and mode. Fields: the kinds that read one primitive. Beyond that, witnesses: null (C102_null_refuted) and Decimal (C102_decimal_refuted)."},
  {"property": "C103", "status": "proved", "theorems": ["C103_merged", "C103_native"], "note": "Any environment, fuel, documents, merging document, strategies, depth, tags and mode. Forms and Dicts nested without bound (reads_alike is inductive over the fields), also flat ones, with the unmapped keys ignored or captured. C103_native: the same over unions of Python dicts; sentinel_ok: the attributes the source's NONE sentinel has must be plain data too. A captured key must read alike as a value even if a field has it already. Root fields the tags leave out are unconstrained. C30_nested_union_map_is_evaluation gives the same in terms of the evaluator; C40_union, C41_union, C38_union_\u2026, C47_nested_union_partial what follows."},
  {"property": "C104", "status": "proved", "theorems": ["C104_opens", "C104_shut", "C104_map_raises", "C104_no_source"], "note": "Any environment, fuel, form, argument, tags, reset and mode. Union members: JSON and plain Python documents for the shapes of data (sh_shape, op_union), any source for a missing section."},
  {"property": "C105", "status": "proved", "theorems": ["C105_order", "C105_capture_refuted", "C105_shown_refuted"], "note": "Any environment, fuel, strictness, location, form, tags, reset and mode; forms, lists and tuples nested without bound (orderless is inductive over the fields); any hooks of the sort described (orderless_prog) but no resolve hook. Outside of it: C105_capture_refuted and C105_shown_refuted."},
  {"property": "C106", "status": "proved", "theorems": ["C106_strict", "C106_back_refuted", "C106_tolerant_refuted"], "note": "Any environment, fuel, location, form, tags, reset and mode (honest_field is inductive over the fields). The converse: C106_back_refuted; hooks that handle the exception: C106_tolerant_refuted."},
  {"property": "C107", "status": "proved", "theorems": ["C107_json", "C107_native", "C107_config", "C107_handled_refuted"], "note": "Any environment, fuel, form, tags, reset and mode; native values as in C30 (plain_native), configurations given as in C30 (config_given). Hooks: passing_prog. A hook that handles FormError: C107_handled_refuted."},
  {"property": "C108", "status": "proved", "theorems": ["C108_depth", "C108_json", "C108_native", "C108_config", "C108_less_refuted"], "note": "Any environment, location, strictness, tags, reset and mode; direct forms as in C30 (hooks that use the value, the errors and the forms only), native values as in C30 (plain_native), configurations as in C30 (config_given). Less: C108_less_refuted."},
  {"property": "C109", "status": "proved", "theorems": ["C109_json", "C109_native", "C109_config", "C109_blocks", "C109_seen_refuted"], "note": "Any environment, fuel, location, strictness, form, tags, reset and mode; direct forms, native values and configurations as in C30. looks_alike also asks for as many paths made before, since the identity of its path tells an error apart. C109_seen_refuted: ignore_missing makes a difference."},
  {"property": "C110", "status": "proved", "theorems": ["C110_json", "C110_native", "C110_config", "C110_parent_refuted"], "note": "Any environment, fuel, location, strictness, form, tags, reset and mode (hooked reading_prog is inductive over the fields); native values and configurations as in C30. A field named parent: C110_parent_refuted."},
  {"property": "C111", "status": "proved", "theorems": ["C111_json", "C111_native", "C111_config", "C111_capture_refuted"], "note": "Any environment, fuel, location, strictness, form, tags, reset and mode; direct forms (C30) without capture (uncaptured is inductive over the fields); native values and configurations as in C30. Capture: C111_capture_refuted."}
]}
