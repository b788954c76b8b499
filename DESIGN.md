# Design

A Rocq (Coq 8.16.1) model of `pilo` (eventbrite/pilo, pinned commit in `/repo`), and proofs
of the properties in `properties.jsonl` about that model.  Only the standard library is used.

## Approach

The model is a deep-ish embedding: Python functions of pilo become total Gallina functions,
one definition per function, each with a comment citing file and lines.  Exceptions are
values (`res A := Ok a | Exn e`).  Everything that pilo leaves to the Python runtime
(`getattr` on arbitrary objects, `float(str)`, regular expressions, date parsing, `str()`
of values, ...) is a field of a record `env`; every theorem quantifies over all `env`.

| file | models |
|---|---|
| `PyBase.v`, `PyStr.v` | Python values, exceptions, `==`, `<`, dicts, `int(str)`, `str(int)`, `split` |
| `Source.v` | `pilo/source/*.py`: parsers, paths with their value cache, Default/Json/Config/Union/Mount sources |
| `Field.v` | what a field or form class *is*: options, hooks (programs over the hook-visible API), kinds |
| `Context.v` | `pilo/context.py`: frames, push, restore, rewind, reset; the state monad |
| `Fields.v` | `pilo/fields.py`: `Field._map`, all `_parse`/`_validate`, `Form._map`, `Form.map`, `Field.__get__`, `Types.probe` |
| `Forms.v` | constructor, `has`, `flatten`, `munge`, `filter`, `copy`, `__set__`, `__delete__` |
| `Meta.v` | `FormMeta`, `attach`, `Types.map`, `clone`, `Hook` registration |
| `Threads.v` | several threads with contexts of their own |
| `Build.v` | constructors of fields, options, the methods that register hooks |
| `Reports.v` | the error lists with `ctx.Missing` and `ctx.Invalid` replaced |
| `FromContext.v` | `Field.from_context`: the context as a source |
| `More.v` | attributes of contexts and frames, the `ConfigSource` constructor, `preserve_whitespace` |
| `PathEdit.v` | list methods of paths |
| `Spec*.v`, `Eval.v` | independent specifications used in theorem statements |
| `*Proofs.v` | lemmas |
| `Props*.v` | one theorem per claim, closed by `exact`, with `Print Assumptions` |

State: a stack of frames, a heap of forms (dict contents), a heap of live `Path` objects, a
heap of error lists.  `Field.map` is recursive through sub-fields, sub-forms and hooks that
read attributes; the model ties the knot with fuel, and running out of fuel is Python's
recursion-limit `RuntimeError` (`ERecursion`), so every theorem about all fuels covers
arbitrarily deep recursion.

Hooks are programs (`prog`): they may return, raise, read `ctx.form`, get/set form attributes,
read the current path, report errors, open `with ctx(...)` blocks and branch on any result with
arbitrary Gallina functions.

## Properties

- **C01 Mapping leaves the context as it found it** — closure lemmas `good m` for every monadic operation, induction on fuel and on hook programs *proved*: `C01_form_map_balanced`, `C01_field_map_balanced`, `C01_attribute_balanced`, `C01_hook_balanced`.
- **C02 Context variables are scoped** — frames as association lists; lookup specified by the most recent binding; induction on the body's balance *proved*: `C02_inside_block`, `C02_nested_blocks`, `C02_after_block`, `C02_after_any_block`.
- **C03 rewind shows the older context and restores the newer one** — invariant relating frames carrying src to path keys; case analysis on the first hit *proved*: `C03_rewind_round_trip`.
- **C04 rewind to the current frame keeps the context usable** — refuted by a computed witness, plus the general statement that the stack becomes empty *partial*: `C04_rewind_to_innermost_refuted`, `C04_rewind_to_innermost_always_fails`.
- **C05 A rewind that finds no frame changes nothing** — induction on the stack *proved*: `C05_rewind_nowhere`, `C05_rewind_block_nowhere`.
- **C06 Threads do not see each other's context** — per-thread stacks as a map from thread ids; simulation by projection, induction on the schedule *proved*: `C06_thread_isolation`.
- **C07 Reading a path is repeatable** — cache-coherence invariant over operation sequences *proved*: `C07_json_reads_repeatable`, `C07_config_reads_repeatable`, `C07_native_reads_repeatable`, `C07_json_value`.
- **C08 Existence of a missing native location is stable** — refuted by witness *partial*: `C08_missing_stays_missing_refuted`, `C08_name_appears`, `C08_missing_stays_missing_partial`.
- **C09 Error locations are unambiguous** — parser for rendered paths as left inverse, or prefix-code argument *proved*: `C09_text_determines_path`, `C09_every_path_has_text`, `C09_union_text_determines_path`, `C09_text`, `C09_no_text`.
- **C10 Native lookup order** — case analysis against an independent ordered-candidates specification *proved*: `C10_present_wins`, `C10_missing_only_if_nowhere`.
- **C11 A key absent from a dict is missing** — positive theorem for non-attribute names, refuted by witness otherwise *partial*: `C11_absent_key_missing_partial`, `C11_absent_key_missing_refuted`, `C11_absent_key_is_attribute`.
- **C12 Integers accept exactly integral values** — inductive specification of integral values, both directions *proved*: `C12_accepts_exactly`, `C12_rejects_the_rest`.
- **C13 Integer text round-trips** — induction on digits *proved*: `C13_text_round_trips`, `C13_plus_sign_round_trips`, `C13_text_is_decimal`.
- **C14 Booleans accept exactly the documented spellings** — specification as a finite list of spellings under case folding *proved*: `C14_accepts_exactly`, `C14_rejects_the_rest`.
- **C15 Strict JSON never coerces** — case analysis *proved*: `C15_strict_value_unchanged`, `C15_int_as_float`, `C15_strict_value_has_type`, `C15_lax_extends_strict`.
- **C16 Steps run in the documented order** — relational big-step specification of the pipeline, equivalence with the interpreter *proved*: `C16_field_map_is_pipeline`, `C16_compute_decides`, `C16_answers`.
- **C17 Missing required fields** — from the refinement theorem *proved*: `C17_missing_required`, `C17_nothing_stored`.
- **C18 Defaults are returned verbatim** — from the pipeline theorem *proved*: `C18_default_verbatim`, `C18_default_for_ignored`.
- **C19 Optional fields vanish silently** — from the pipeline theorem *proved*: `C19_optional_vanishes`.
- **C20 ignore_default and ignore_missing** — from the pipeline theorem *proved*: `C20_ignore_default`, `C20_ignore_both`, `C20_ignore_missing`, `C20_marker_not_stored`.
- **C21 Null handling** — from the pipeline theorem *proved*: `C21_null`, `C21_parser_not_run`.
- **C22 Ignored values fall back to the default** — from the pipeline theorem *proved*: `C22_ignored_is_absent`, `C22_equal`, `C22_unequal`.
- **C23 Translations precede filtering and validation** — from the pipeline theorem *proved*: `C23_translation_first`, `C23_unhashable`, `C23_checked_translated`, `C23_choices_admit_translations`.
- **C24 Number bounds are inclusive and complete** — order facts on exact rationals *proved*: `C24_within_bounds`, `C24_below_min`, `C24_above_max`.
- **C25 String constraints** — list of constraints, first violated *proved*: `C25_accepted`, `C25_rejected`, `C25_first_is_unique`, `C25_not_a_text`.
- **C26 No field disappears silently** — M-level: every path through parse, default, munge and validate that ends in a marker reports first; refuted with a validate hook *proved*: `C26_no_silent_drop`, `C26_no_silent_drop_plain`, `C26_validate_hook_refuted`.
- **C27 Unparsable dates are reported** — refuted *partial*: `C27_unparsable_date_is_none`, `C27_first_matching_format`, `C27_unparsable_date_reported_refuted`.
- **C28 Unparsable decimals are reported** — refuted *partial*: `C28_unparsable_decimal_escapes`, `C28_parsable_decimal`, `C28_unparsable_decimal_reported_refuted`.
- **C29 Bad JSON data never crashes a form** — induction over fields via the refinement theorem *proved*: `C29_json_never_crashes`, `C29_float_refuted`.
- **C30 Mapping is compositional** — simulation: interpreter with context/paths/caches vs pure evaluator; induction on fuel *proved*: `C30_json_map_is_evaluation`, `C30_native_map_is_evaluation`, `C30_dict_map_is_evaluation`, `C30_config_map_is_evaluation`, `C30_polymorphic_native`, `C30_polymorphic_json`, `C30_union_map_is_evaluation`, `C30_nested_union_map_is_evaluation`, `C30_native_union_map_is_evaluation`.
- **C31 Lists keep order and drop only invalid items** — evaluator equation *proved*: `C31_list_in_order`, `C31_list_raises`, `C31_not_a_list`, `C31_scalar`, `C31_items_accounted`.
- **C32 List length bounds** — evaluator equation *proved*: `C32_too_short`, `C32_too_long`.
- **C33 Tuples have exactly one value per position** — evaluator equation; arity refuted *partial*: `C33_tuple_in_order`, `C33_wrong_length`, `C33_wrong_length_raise`, `C33_arity_refuted`.
- **C34 Dicts map every admitted key** — evaluator equation; a missing key that is not a string raises, refuted as a report *partial*: `C34_dict_of_pairs`, `C34_distinct_keys`, `C34_required_keys_partial`, `C34_odd_keys_raise`, `C34_max_keys`, `C34_required_keys_refuted`.
- **C35 Groups dispatch on the first matching pattern** — evaluator equation *proved*: `C35_group_in_order`, `C35_no_match`, `C35_stopped`.
- **C36 A bare field in a Group reads the key it names** — refuted; the reading one key too deep proved for all sources from C17 and C35 *partial*: `C36_bare_field_refuted`, `C36_own_key_below`, `C36_own_key_found`.
- **C37 Sub-form errors surface exactly once with full paths** — refinement of field_map on a sub-form field to the relation maps; locality of errors (C69) *proved*: `C37_subform_errors_once`, `C37_subform_raises`.
- **C38 A flat sub-form reads the enclosing mapping** — evaluator run of the flat sub-form related to the run of its fields in the enclosing form; witnesses for raising hooks and explicit tags *partial*: `C38_union_flat_partial`, `C38_union_raise_partial`, `C38_union_fails_partial`, `C38_native_union_flat_partial`, `C38_native_union_raise_partial`, `C38_native_union_fails_partial`, `C38_json_flat_partial`, `C38_native_flat_partial`, `C38_config_flat_partial`, `C38_raise_partial`, `C38_raise_fails_partial`, `C38_hooks_refuted`, `C38_raise_refuted`, `C38_tags_refuted`.
- **C39 Collect mode reports all errors in field order** — refinement of form.map to the relation outcome, by induction on the field list *proved*: `C39_all_fields_in_order`.
- **C40 Raise mode raises iff collect mode reports** — two-mode simulation of the evaluator *proved*: `C40_union`, `C40_raise_iff_collect_reports`, `C40_native_union`.
- **C41 Raise mode stops at the first error** — refuted for nested containers, proved for leaves *partial*: `C41_union`, `C41_first_error_of_leaves`, `C41_in_list_refuted`, `C41_native_union`.
- **C42 The constructor is map followed by raise** — equation between the two state transformers *proved*: `C42_constructor`, `C42_keywords`, `C42_no_arguments`, `C42_none_refuted`.
- **C43 Tags select fields** — induction on the field list *proved*: `C43_unselected_unchanged`.
- **C44 reset clears exactly the selected fields first** — induction on the field list *proved*: `C44_reset_then_map`, `C44_stale_or_reset`.
- **C45 unmapped='capture' collects the remaining keys** — evaluator equation *partial*: `C45_union_capture`, `C45_nested_union_capture`, `C45_native_union_capture`, `C45_capture`, `C45_native_capture`, `C45_config_capture`, `C45_ignore`, `C45_bad_directive`, `C45_every_key_refuted`.
- **C46 Unread keys do not matter** — two-run induction on fields *proved*: `C46_json_unread_keys`, `C46_native_unread_keys`, `C46_config_unread_keys`, `C46_polymorphic_json`, `C46_polymorphic_native`.
- **C47 Mapping the same source twice changes nothing** — two runs of the evaluator related field by field: the second run finds the entries of the first and writes them again (JSON, native); where fields are reset, captured keys stay and the others move behind them; witnesses for unmapped pairs and for the order *partial*: `C47_union_partial`, `C47_nested_union_partial`, `C47_native_union_partial`, `C47_reset_capture_partial`, `C47_raise_capture_partial`, `C47_reset_order_refuted`, `C47_json_remap_partial`, `C47_native_remap_partial`, `C47_config_remap_partial`, `C47_json_raise_partial`, `C47_native_raise_partial`, `C47_config_raise_partial`, `C47_succeeds_partial`, `C47_pair_refuted`.
- **C48 Attribute access agrees with entries** — refinement of finite maps by induction on the sequence of operations *proved*: `C48_attributes`.
- **C49 Lazy attribute reads never expose sentinels** — refuted by evaluation; the other two branches of __get__ by case analysis *partial*: `C49_own_reads_partial`, `C49_rewound_read_refuted`.
- **C50 has() answers yes or no** — refuted by evaluation; the positive half by case analysis; the answers outside a mapping from C17/C18 run in the empty source *partial*: `C50_present`, `C50_yes`, `C50_unknown`, `C50_method_refuted`, `C50_absent_refuted`, `C50_required_raises`, `C50_default_stored`, `C50_field_present`, `C50_field_required`, `C50_field_default`, `C50_field_raising`.
- **C51 flatten yields every leaf once** — induction on the nesting depth and on the field list against an inductive leaf relation *proved*: `C51_flatten`, `C51_flatten_total`.
- **C52 filter(tags) and its inverse partition the form** — induction on the nesting depth and on the field list, with an invariant on the fresh part of the heap *proved*: `C52_filter`, `C52_filter_leaves`.
- **C53 copy is a shallow, independent copy** — induction on the entries; projection of runs for independence *proved*: `C53_copy`, `C53_independent`.
- **C54 Fields are ordered by declaration across inheritance** — Meta.v models field objects, counts, attach and the metaclass over a heap of classes; the field list is characterised for every reachable heap, and for lines of classes by an independent list of names (SpecMeta.expected_names), by induction over the class bodies. *proved*: `C54_fields`, `C54_override`, `C54_new_after`, `C54_line`.
- **C55 Polymorphic dispatch picks the class registered for the identity** — Types.map as a walk over the class heap, proved exact against `descends`/`lists`; the dispatch in Fields.parse_poly is proved equal to a sub-form of the class, through the evaluator refinement for the probe form. *partial*: `C55_table`, `C55_known`, `C55_unknown`, `C55_untyped`, `C55_null`, `C55_failed_probe`, `C55_no_data`, `C55_any_probe`, `C55_rejected_probe`, `C55_inherited_refuted`.
- **C56 Later subclasses are dispatched too** — refuted on a concrete hierarchy; the frozen and the empty table by case analysis *partial*: `C56_refuted`, `C56_empty_table_partial`, `C56_frozen_partial`.
- **C57 A union combines the keys of its sources** — refinement: the paths, caches and merge objects of the union simulate a machine on values and positions, for every sequence of operations; then induction on the keys *proved*: `C57_union_answers`, `C57_keys`, `C57_first_value`.
- **C58 merge='first' and 'last' pick one mapping** — the same simulation, after the choice at the first key *proved*: `C58_first`, `C58_last`, `C58_invalid`.
- **C59 Combined sequences concatenate** — the same simulation, with the concatenation of the sequences *proved*: `C59_concatenation`, `C59_invalid`.
- **C60 merge_depth limits merging by depth** — the same simulation; refuted for mappings by evaluation *partial*: `C60_sequences`, `C60_mappings_refuted`, `C60_mappings_by_number_of_sources`.
- **C61 A mount routes each key to its own source** — projection of a run onto one mount, by induction on the run with an invariant on the lengths of all paths *partial*: `C61_mount_alone`, `C61_plain_alone`, `C61_root`, `C61_unmounted`, `C61_python3`, `C61_union_null_refuted`, `C61_list_raises`.
- **C62 A missing mount is a missing key** — refuted by evaluation; the general behaviour by an invariant of mount paths over all steps *partial*: `C62_missing_mount_refuted`, `C62_unmounted_key`, `C62_field_raises`.
- **C63 Config lookup precedence** — induction on the options; the regular expression is characterised by an iff *proved*: `C63_precedence`.
- **C64 FormError text lists every error** — induction on the errors *partial*: `C64_error_text`, `C64_line_breaks_refuted`, `C64_all_lines`.
- **C65 attach_parent accepts every mapped value** — refuted; what can be mapped at all by inversion of field.map *partial*: `C65_attach_parent_refuted`, `C65_only_objects_partial`.
- **C66 Hook registration happens once** — Hook.__call__ as a state machine over call sequences, induction over the calls. *partial*: `C66_first_function_registers`, `C66_attached_refuted`, `C66_attached_answers_the_class`.
- **C67 Cloned fields are independent** — Field.clone over objects with containers by reference; refuted with a witness, sharing proved for all operation sequences. *partial*: `C67_refuted`, `C67_containers_shared`, `C67_attributes_partial`, `C67_clone_partial`, `C67_own_partial`, `C67_contents_partial`.
- **C68 An ignored location stays ignored** — refuted by witness; both orders of reading by induction over the keys *partial*: `C68_ignored_stays_ignored_refuted`, `C68_read_first_partial`, `C68_read_below`.
- **C69 Errors are located at or below the field that reports them** — invariant over every computation: reports_below (SpecLocal), by structural induction on hooks and induction on the nesting depth *proved*: `C69_errors_below`, `C69_form_errors_below`.
- **C70 A union finds what is nested in its lists and mappings** — refuted by evaluation; the general failure by an invariant of union paths *partial*: `C70_two_keys_refuted`, `C70_two_keys_always`.
- **C71 A sequence is read by position** — the source built by root_source compared with the dict by_name (SpecPos): a relation between the two paths kept by every command, induction over the commands *proved*: `C71_positions`, `C71_reads`, `C71_unread_refuted`, `C71_keys_refuted`.
- **C72 Options mean what they say** — Build.v (field_options, field_init) followed by field_map; lemma per keyword; the two-call claim by comparing the record of options *proved*: `C72_none_default`, `C72_default`, `C72_optional`, `C72_required`, `C72_ignore`, `C72_two_calls`, `C72_any_two_calls_refuted`, `C72_optional_last_refuted`, `C72_ignore_many_refuted`, `C72_tags_refuted`.
- **C73 Constraints given to constructors are the constraints checked** — the constructors String_init, Number_init, List_init against string_said, range_said, pair_said (SpecBuild), then C24, C23 and C31/C32 *proved*: `C73_string`, `C73_exact_length`, `C73_length_zero_refuted`, `C73_number`, `C73_list`, `C73_list_length_refuted`.
- **C74 A constant field maps its constant** — constant registers a compute hook (Build.v); the field then runs that hook in field_map *proved*: `C74_constant`, `C74_type_constant`, `C74_attached`, `C74_again_refuted`.
- **C75 A format field is made of other fields** — format_hook is a program reading attributes of the form; induction over the keywords and over the names between dots *proved*: `C75_format`, `C75_unknown_attribute`, `C75_no_attribute`, `C75_raises`, `C75_attribute_raises`.
- **C76 A capture field maps the group it names** — capture_hook is a munge hook; groups of a match are specified by has_group, lacks_group *proved*: `C76_capture`, `C76_null_refuted`.
- **C77 A number field with a pattern reads what matches** — pattern_hook is a parse hook; the text matched is read with parse_int, specified by int_text *proved*: `C77_pattern`, `C77_float_refuted`.
- **C78 A group is made of the fields given, however nested** — Group_init against entries_said: mutual induction over nested arguments; then C35 *proved*: `C78_group`, `C78_arguments`, `C78_bare`, `C78_odd`, `C78_alien`.
- **C79 A type has a value if it has one choice** — type_instance, type_value (Build.v) *proved*: `C79_value`, `C79_absent`, `C79_abstract_refuted`.
- **C80 A tuple has the fields given, in order** — Tuple_init against fields_said; then C33 *proved*: `C80_tuple`, `C80_single_field`, `C80_not_a_field`.
- **C81 A field reads where it was told to** — every constructor reduces to field_init with the same src keyword (Make81); place of SpecField *proved*: `C81_place`, `C81_flat`.
- **C82 Dates and times lie within their bounds** — clock_init against formats_said and bound_said; parse_date, parse_time, parse_datetime, then vio_below and vio_above on instants (Make82) *proved*: `C82_range`, `C82_unread`, `C82_any_instant_refuted`.
- **C83 values_for lists every value of a context variable** — values_for and ctx_attr over the frames; given_by in SpecMore; induction on the blocks with push_stack (MoreProofs) *proved*: `C83_values`, `C83_last`, `C83_method_names`, `C83_own_names`, `C83_any_name_refuted`.
- **C84 What configurations a ConfigSource reads** — ConfigSource_init; psource_path and pp_value on two keys; config_value of SpecMount (MoreProofs) *proved*: `C84_reads`, `C84_no_defaults`, `C84_no_text`.
- **C85 preserve_whitespace reads the text below the option** — as_raw on the lines of the file against lines_below of SpecMore; textwrap.dedent is a parameter (MoreProofs) *proved*: `C85_raw`, `C85_else`, `C85_nowhere`, `C85_first_line_refuted`, `C85_own_option_refuted`.
- **C86 The keys of a path are a list** — shapes of paths (keys, lengths of sub-paths) under edits; split-based specification of Python's lists; induction on the edits; mounts: the same for edits below the first key, refuted otherwise *partial*: `C86_keys_are_a_list`, `C86_mount_keys_partial`, `C86_mount_keys_refuted`.
- **C87 A path reads what is at its keys** — refuted; the cached last part decides the value, proved for all edits before it; unread paths and edits at the end by equality of paths *partial*: `C87_reads_its_keys_refuted`, `C87_inner_edits_ignored`, `C87_unread_partial`, `C87_odd_key`, `C87_end_partial`.
- **C88 The type probe is the form up to the type field** — probe_members and define_class on class heaps: invariant of reachable heaps (fields listed, sorted, named), the copies are a run of new objects, sorted lists with distinct keys are equal (ProbeProofs) *proved*: `C88_probe_is_a_prefix`, `C88_probe_exists`, `C88_same_names_refuted`.
- **C89 Form.from_fields does not depend on keyword order** — class lookups agree for permuted members, dir is sorted, so collect agrees (ProbeProofs); names of new fields from define_lem; registered fields refuted *partial*: `C89_keyword_order`, `C89_names_partial`, `C89_names_refuted`.
- **C90 Options of several lines are lists** — cfg_sequence in Source.v, with pp_sequence and config_resolve. The lines are a relation on character lists (broken, stripped); shlex is a parameter of the model. Induction on the text; a read path is shown to stand on its value. *proved*: `C90_lines`, `C90_words`.
- **C91 Chained methods are constructor keywords** — induction on the list of calls; the constructor keywords by the lemmas of C72, C73 and C82 *proved*: `C91_number`, `C91_list`, `C91_clock`, `C91_options`, `C91_ignore`, `C91_translate`, `C91_table`, `C91_translations`, `C91_no_table`, `C91_tag`, `C91_elsewhere`.
- **C92 Infinities and NaN against bounds and ignored values** — the extended line as a separate type with its own order; py_lt and py_eq are shown to be that order and its equality, then the field lemmas of C22 and C24 apply *proved*: `C92_inside`, `C92_below`, `C92_above`, `C92_ignored`, `C92_nan_stored`, `C92_nan_unbounded`, `C92_nan_raises`.
- **C93 Sub-form fields map their form as they are told** — constructor models; the parse step of the constructed field is shown equal to making a form and mapping it, by showing that reset does nothing to a form without entries *proved*: `C93_maps_its_form`, `C93_polymorphic`, `C93_accepts`.
- **C94 A Decimal holds exactly the number given** — the decimal of a float m*2^e is shown to have the value m*2^e over the rationals; then the bounds lemmas of C24 *proved*: `C94_number`, `C94_text`, `C94_special`.
- **C95 Unknown keywords are refused** — constructor models; a relation between a list of keywords and the same with one more is kept by every pop, up to the call of options that refuses it *proved*: `C95_unknown`, `C95_excluded`, `C95_options`.
- **C96 What a source reads as each type** — a relation per source giving the outcome for each type; case analysis, C12, C14 and the rounding of C15 *proved*: `C96_json`, `C96_other_sources`.
- **C97 from_context reads a variable of the context** — the resolve hook as a function of the context; symbolic run of its two blocks, field stages as for C17-C24 *proved*: `C97_value`, `C97_unreadable`, `C97_absent`, `C97_taken`, `C97_src`, `C97_given`, `C97_restores`, `C97_python3`.
- **C98 An application's own error classes** — error lists of any objects, beside the mapping's own; a relation for what a list raises, induction on the calls, and agreement with Context.report when no class is given *proved*: `C98_replaced`, `C98_stock`, `C98_calls`, `C98_determined`, `C98_form_error`, `C98_just_reported_refuted`, `C98_block`, `C98_mapping_keeps`.
- **C99 A form is a source like the dict it is** — equality of the reads at a form and at a dict, by cases on what is cached and induction on the parts *proved*: `C99_reads`, `C99_no_primitive`, `C99_inside`, `C99_keys`, `C99_entry`.
- **C100 What format writes the field reads** — format as a function of the format attribute and the instant, strftime an oracle; reading back by C82, witnesses for iso8601 and datetime.time *partial*: `C100_reads_back_partial`, `C100_iso_writes_its_name`, `C100_iso_rejected`, `C100_clock_time`, `C100_no_format`, `C100_no_text`, `C100_reads_back_refuted`, `C100_written_refuted`.
- **C101 A field called with a value returns it** — field._map run in a state without source and list of errors; case analysis of the steps after the value *partial*: `C101_value`, `C101_invalid`, `C101_reported`, `C101_ignored`, `C101_nothing`, `C101_default_refuted`.
- **C102 A union of documents maps like the document that merges them** — two runs related step by step: same forms, errors and stack, paths that answer alike; the union from UnionProofs, the document from SrcPath *proved*: `C102_first_wins`, `C102_native`, `C102_null_refuted`, `C102_decimal_refuted`, `C102_date_refuted`.
- **C103 A union maps forms within forms like the document that merges them** — the two runs of C102 with places: what the union has open and the dict of the document there, entered and left together; induction on the fuel *proved*: `C103_merged`, `C103_native`.
- **C104 A source that cannot be opened fails the mapping and changes nothing but the reset** — two inductive descriptions, of what opens and of what does not; case analysis, unions by the lemmas of C57 *proved*: `C104_opens`, `C104_shut`, `C104_map_raises`, `C104_no_source`.
- **C105 The order of the keys of a document does not matter** — two evaluations (C30) related step by step: readings whose values are equal up to order; induction on the fuel *proved*: `C105_order`, `C105_capture_refuted`, `C105_shown_refuted`.
- **C106 Strict reading refuses more and changes nothing else** — two evaluations (C30) step by step: the strict one raises, reports, or is the same as the other; errors are never forgotten; induction on the fuel *proved*: `C106_strict`, `C106_back_refuted`, `C106_tolerant_refuted`.
- **C107 The location of a source shows in the paths of errors only** — two evaluations (C30) whose sources differ in the location: errors related one by one, exceptions up to that; steps that do not see the errors are equal; induction on the fuel *proved*: `C107_json`, `C107_native`, `C107_config`, `C107_handled_refuted`.
- **C108 The stack a mapping needs is as deep as its fields are nested** — depth of fields as an inductive relation, some depth for every form by mutual induction; evaluators (C30) over two recursions that agree on less deep fields agree; induction on the depth *proved*: `C108_depth`, `C108_json`, `C108_native`, `C108_config`, `C108_less_refuted`.
- **C109 A mapping sees five variables of the context it is called in** — both mappings are evaluations (C30) that start from the same readings of the context; blocks by the lemmas of C02, induction on the blocks *proved*: `C109_json`, `C109_native`, `C109_config`, `C109_blocks`, `C109_seen_refuted`.
- **C110 Mapping a form changes that form and the forms it makes, and no others** — invariant of the evaluation (C30): the forms that are to stay are as they were; new forms come after them, attach_parent finds no field to set; induction on the fuel *proved*: `C110_json`, `C110_native`, `C110_config`, `C110_parent_refuted`.
- **C111 Forms that ignore unmapped keys hold entries of their fields only** — invariant of the evaluation (C30): every key is the name of a field and classes do not change; attributes that are set are fields; induction on the fuel *proved*: `C111_json`, `C111_native`, `C111_config`, `C111_capture_refuted`.

## Trusted base

- Coq 8.16.1: its kernel, its `vm_compute` conversion, the parser and the notations of the
  standard library used to state the theorems.  `coqchk -o` accepts the compiled files.
- Axioms: none.  `Print Assumptions` stands under every theorem of the `Props*.v` files and prints
  `Closed under the global context` for each of them.  The seven constants `Coq.ssr.ssrunder.Under_rel.*`
  that a whole-library audit lists belong to a module type of the standard library
  (loaded with `Lia`/`Bool`); no theorem depends on them.
- No `Admitted`, no `Axiom`/`Parameter`, no section-less `Variable`/`Hypothesis`, no functor or
  module type, no switched-off check, no plugin.
- The correspondence between the Python text and the Gallina functions.  It is by reading:
  every definition of the model files (`PyBase`, `PyStr`, `Source`, `Field`, `Context`,
  `Fields`, `Forms`, `Meta`, `Build`, `More`, `PathEdit`, `Threads`, `FromContext`, `Reports`, `Formats`) cites the file and lines it stands for.
  `tools/coverage.py` lists the functions of `/repo/pilo` that no comment cites.
- The specification files `Spec*.v` and the definitions in the `Props*.v` files, which say
  what the theorems mean.

## What is modelled, and what is not

Modelled: `pilo/context.py` (frames, push, restore, rewind, reset, `__getattr__`), `pilo/source/*.py`
(parsers, paths with their cache of values, the five sources), `pilo/fields.py` (every kind of field,
its steps and hooks; forms: mapping, tags, reset, unmapped keys, both error modes, the constructor,
attributes, `has`, `flatten`, `munge`, `filter`, `copy`; the metaclass, `attach`, `clone`, hook registration),
`pilo/__init__.py` (`Types`).  `Build` models the constructors of fields with their keywords, `options`, and the methods
that register hooks (`constant`, `format`, `capture`, `pattern`); its header lists what it leaves out.  `PathEdit` models
the list methods of paths for integer indices and keys that are integers or strings.

Left to oracles (fields of the record `env`, universally quantified): attributes and items of
objects of unknown classes, calling them, `float(text)`, `decimal.Decimal(text)`, `str(obj)`,
ISO 8601 parsing, `strptime`, `uuid.UUID`, regular expressions, `compile`/`import` in `Code`,
`shlex.split`, `str.format`; `strftime` is an argument of `Formats`.

Simplifications:

- Text is a list of 8-bit characters; `upper`/`lower`/`strip` act on ASCII.
- Floats are IEEE doubles (`spec_float`), decimals a coefficient and an exponent (no context precision); NaN is one value,
  equal to nothing; Python's `in` and dict lookups first compare by identity, so the very same NaN
  object given as an ignored value and as data would be found.
  Python 2 `long` is not distinguished from `int`.
- A form object is a reference into a heap; two forms are equal only if they are the same
  object (in Python they are equal as dicts), and a form counts as true where its truth is asked (in Python an
  empty one is false).  A form object used as native *data* is read through
  the oracles.
- The attributes of a form are its fields, and what `Form`, its mixins and `dict` define for names without two leading underscores
  (`form_attribute`); what else the class of an application defines, or was set on the form, is not modelled.
- The recursion limit is fuel: with too little of it a mapping raises `ERecursion`. C108 says how much is enough.
- Hooks are programs over the operations that pilo offers to a hook.  A hook cannot open a `with ctx(src=..., src_path=...)`
  block giving both keys, and cannot keep a path object after it returned.  A resolve hook returns
  `None` or a key, as the documentation has it.
- Sources inside a union are Default, Json or Config sources; a union or plain source may be
  mounted; unions of unions, mounts of mounts and mounts inside unions are not modelled, nor is `Join.path` as a source of its own.
  On Python 3 a configuration section in a union raises as soon as the union reaches it; in Python its keys can still be
  looked up one by one there, and only listing them raises.
- Configuration files enter as parsed sections and options; in `More` the text of the file enters beside them, and that
  both come from one file is not assumed.  `More` leaves names with two leading underscores out of the attributes.
- `ctx.tags` set by a hook is a list of texts; anything else set there counts as no tags.  On a value that a munge hook made no
  text, the alphabet check raises `TypeError` (Python looks at the items of a list).  A date, time or datetime field that reads a
  union itself, at its root, raises `TypeError` with every format (in Python the iso8601 parser refuses it as no date).
- Elsewhere than in `More`, a context variable has a name that is no attribute of `Context`.
- `ctx.Missing`/`ctx.Invalid` (replacing the exception classes) are modelled in `Reports.v`, beside the mapping: one error list and
  what is reported to it.  A form mapped while a class is replaced is not modelled.
- `from_context` (`FromContext.v`) stands beside the other fields, as a way of mapping one field; a form whose fields use it is not
  modelled.  The variables it sees are those at the time it resolves.
- Instants are numbers of their class: a `struct_time` and a `datetime.time` are the same (except in `Formats.v`), and so are naive and aware datetimes
  (comparing them raises `TypeError` in Python).
- Sets are lists in order of first occurrence, so an error that lists the elements of a set shows them in that order.
- `generator` methods (`flatten`) are consumed at once.
- The method resolution order of a class is given with the class; `__subclasses__()` never loses a
  class; attributes of classes are not assigned after the class statement, except by pilo.
- In `Fields`, `attach_parent` stores a proxy also outside a mapping, where Python stores `None`.  Of the texts of errors, only the list of missing keys is built during a mapping (building it may raise, see C34).
- A path key that is a `bool` renders as the integer it is equal to; `int(text)` does not accept underscores.

## Findings

Claims that are false of the code, each with a witness (`..._refuted`), in the order of the properties:

- C100: `format` writes the word iso8601 for every instant if that is the field's format, and takes a `datetime.time` for a format.
- C92 (true, but surprising): `Float(min_value=0, max_value=1)` accepts the NaN that Python's JSON reader gives.
- C04: `ctx.rewind` to the innermost frame empties the whole stack; the next access raises.
- C08: a missing native location exists after it was read, if its key is `name`.
- C11: a key missing from a dict is found when dicts have an attribute of that name (`items`, `keys`, ...).
- C27: text that is no date becomes `None` without an error.
- C28: `decimal.InvalidOperation` escapes from the mapping.
- C33: a tuple can be shorter than its fields (items mapped to `NONE` are skipped).
- C34: a missing required key that is not a string is not reported: the message joins the missing
  keys (fields.py:1182), which raises `TypeError` out of the mapping in either mode. (And
  `required_keys` has to be a set: a list, like its default, has no `difference`; the model only has sets.)
- C36: a field given to a `Group` without a pattern reads its key inside the value of that key.
- C38: an exception raised in a flat sub-form is reported, in the enclosing form it escapes;
  `map(tags=...)` does not reach the fields of a flat sub-form.
- C41: in raise mode an error in a nested container is reported once per enclosing container.
- C45: captured keys that contain a dot or an index are reported as missing.
- C47: mapping again changes entries when unmapped keys are translated.
- C49: a lazy attribute read from another form's mapping returns a sentinel.
- C50: `has` raises, and stores defaults; it is `True` for names of methods (`map`, `copy`) and raises for other attributes (`keys`).
- C55, C56: a subclass that inherits the type field takes over the identity of its base; later subclasses are not dispatched.
- C60: `merge_depth` does not limit the merging of mappings.
- C61, C62: a mounted union answers `is_null` differently; a missing mount exists and raises `KeyError`.
- C61: a `List` below a mount whose value is no sequence raises `AttributeError` (fields.py:1109) instead of reporting an error.
- C59: an invalid sequence merge strategy is noticed only at a second sequence, and then raises `IndexError`: the message of the intended error cannot be formatted.
- C87: a path with a key that is neither a name nor an index cannot be read (`AttributeError`).
- C64: a line break in a message breaks the text of a `FormError` into lines.
- C65: `attach_parent` raises `AttributeError` on values without attributes.
- C66: a hook on an attached field returns the class of the form in place of the field.
- C67: a cloned field shares its ignores, translations and tags with the original.
- C68: an ignored location is present after something below it was read.
- C70: in a union, an element of a list is lost when its index and a key below it are appended at once.
- C25: a translation that is not a text raises `TypeError` out of the mapping if the field has an alphabet, a length or a pattern.
- C72: `options(default=None)` then `options(nullable=False)` differs from giving both at once; `ignore=[a, b]` ignores
  the list only; `tags=[...]` raises `TypeError`.
- C73: `String(length=0)` accepts any text; `List(f, length=3)` raises `TypeError`.
- C74: a second `constant` on a field raises `TypeError`.
- C76: a null under `capture` raises `TypeError` out of the mapping.
- C77: `Float.pattern` makes integers, and reports fractions.
- C79: the value of an abstract type is its `default` hook, not an error.
- C80: the message refusing what is not a field cannot be formatted, so numbers and texts raise `ValueError`.
- C82: a datetime given to a `Date` with `after` or `before` raises `TypeError` out of the mapping.
- C83: `ctx.stack`, `ctx.push`, ... and `values_for('items')` do not give the variables of that name.
- C84: `ConfigSource(text)` and `from_file` always raise; a source over all sections needs a dict of defaults.
- C85: `preserve_whitespace` loses the text on the option's own line, and takes an option for another whose name it begins.
- C86: inserting before the first key of a mount path replaces it; that key cannot be deleted while there are others.
- C87: a path that was read keeps its value when keys before the last are changed.
- C88, C89: fields are collected by name: with two fields of one name the type probe lacks the first;
  a field that some class already registered keeps its name and key in `Form.from_fields(other=field)`.

## Mutation testing

`tools/mutate.py` rebuilds a copy of the development with one definition of the model
changed; lemmas that no longer hold are admitted in the copy, and a theorem counts as failed if its
proof fails or depends on such a lemma.  `seeded/LOG.jsonl` has one line per attempt.
