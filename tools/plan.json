{
 "C01": "closure lemmas `good m` for every monadic operation, induction on fuel and on hook programs",
 "C02": "frames as association lists; lookup specified by the most recent binding; induction on the body's balance",
 "C03": "invariant relating frames carrying src to path keys; case analysis on the first hit",
 "C04": "refuted by a computed witness, plus the general statement that the stack becomes empty",
 "C05": "induction on the stack",
 "C06": "per-thread stacks as a map from thread ids; simulation by projection, induction on the schedule",
 "C07": "cache-coherence invariant over operation sequences",
 "C08": "refuted by witness",
 "C09": "parser for rendered paths as left inverse, or prefix-code argument",
 "C10": "case analysis against an independent ordered-candidates specification",
 "C11": "positive theorem for non-attribute names, refuted by witness otherwise",
 "C12": "inductive specification of integral values, both directions",
 "C13": "induction on digits",
 "C14": "specification as a finite list of spellings under case folding",
 "C15": "case analysis",
 "C16": "relational big-step specification of the pipeline, equivalence with the interpreter",
 "C17": "from the refinement theorem",
 "C18": "from the pipeline theorem",
 "C19": "from the pipeline theorem",
 "C20": "from the pipeline theorem",
 "C21": "from the pipeline theorem",
 "C22": "from the pipeline theorem",
 "C23": "from the pipeline theorem",
 "C24": "order facts on exact rationals",
 "C25": "list of constraints, first violated",
 "C26": "M-level: every path through parse, default, munge and validate that ends in a marker reports first; refuted with a validate hook",
 "C27": "refuted",
 "C28": "refuted",
 "C29": "induction over fields via the refinement theorem",
 "C30": "simulation: interpreter with context/paths/caches vs pure evaluator; induction on fuel",
 "C31": "evaluator equation",
 "C32": "evaluator equation",
 "C33": "evaluator equation; arity refuted",
 "C34": "evaluator equation; a missing key that is not a string raises, refuted as a report",
 "C35": "evaluator equation",
 "C36": "refuted; the reading one key too deep proved for all sources from C17 and C35",
 "C37": "refinement of field_map on a sub-form field to the relation maps; locality of errors (C69)",
 "C38": "evaluator run of the flat sub-form related to the run of its fields in the enclosing form; witnesses for raising hooks and explicit tags",
 "C39": "refinement of form.map to the relation outcome, by induction on the field list",
 "C40": "two-mode simulation of the evaluator",
 "C41": "refuted for nested containers, proved for leaves",
 "C42": "equation between the two state transformers",
 "C43": "induction on the field list",
 "C44": "induction on the field list",
 "C45": "evaluator equation",
 "C46": "two-run induction on fields",
 "C47": "two runs of the evaluator related field by field: the second run finds the entries of the first and writes them again (JSON, native); where fields are reset, captured keys stay and the others move behind them; witnesses for unmapped pairs and for the order",
 "C48": "refinement of finite maps by induction on the sequence of operations",
 "C49": "refuted by evaluation; the other two branches of __get__ by case analysis",
 "C50": "refuted by evaluation; the positive half by case analysis; the answers outside a mapping from C17/C18 run in the empty source",
 "C51": "induction on the nesting depth and on the field list against an inductive leaf relation",
 "C52": "induction on the nesting depth and on the field list, with an invariant on the fresh part of the heap",
 "C53": "induction on the entries; projection of runs for independence",
 "C54": "Meta.v models field objects, counts, attach and the metaclass over a heap of classes; the field list is characterised for every reachable heap, and for lines of classes by an independent list of names (SpecMeta.expected_names), by induction over the class bodies.",
 "C55": "Types.map as a walk over the class heap, proved exact against `descends`/`lists`; the dispatch in Fields.parse_poly is proved equal to a sub-form of the class, through the evaluator refinement for the probe form.",
 "C56": "refuted on a concrete hierarchy; the frozen and the empty table by case analysis",
 "C57": "refinement: the paths, caches and merge objects of the union simulate a machine on values and positions, for every sequence of operations; then induction on the keys",
 "C58": "the same simulation, after the choice at the first key",
 "C59": "the same simulation, with the concatenation of the sequences",
 "C60": "the same simulation; refuted for mappings by evaluation",
 "C61": "projection of a run onto one mount, by induction on the run with an invariant on the lengths of all paths",
 "C62": "refuted by evaluation; the general behaviour by an invariant of mount paths over all steps",
 "C63": "induction on the options; the regular expression is characterised by an iff",
 "C64": "induction on the errors",
 "C65": "refuted; what can be mapped at all by inversion of field.map",
 "C66": "Hook.__call__ as a state machine over call sequences, induction over the calls.",
 "C67": "Field.clone over objects with containers by reference; refuted with a witness, sharing proved for all operation sequences.",
 "C68": "refuted by witness; both orders of reading by induction over the keys",
 "C69": "invariant over every computation: reports_below (SpecLocal), by structural induction on hooks and induction on the nesting depth",
 "C70": "refuted by evaluation; the general failure by an invariant of union paths",
 "C71": "the source built by root_source compared with the dict by_name (SpecPos): a relation between the two paths kept by every command, induction over the commands",
 "C72": "Build.v (field_options, field_init) followed by field_map; lemma per keyword; the two-call claim by comparing the record of options",
 "C73": "the constructors String_init, Number_init, List_init against string_said, range_said, pair_said (SpecBuild), then C24, C23 and C31/C32",
 "C74": "constant registers a compute hook (Build.v); the field then runs that hook in field_map",
 "C75": "format_hook is a program reading attributes of the form; induction over the keywords and over the names between dots",
 "C76": "capture_hook is a munge hook; groups of a match are specified by has_group, lacks_group",
 "C77": "pattern_hook is a parse hook; the text matched is read with parse_int, specified by int_text",
 "C78": "Group_init against entries_said: mutual induction over nested arguments; then C35",
 "C79": "type_instance, type_value (Build.v)",
 "C80": "Tuple_init against fields_said; then C33",
 "C81": "every constructor reduces to field_init with the same src keyword (Make81); place of SpecField",
 "C82": "clock_init against formats_said and bound_said; parse_date, parse_time, parse_datetime, then vio_below and vio_above on instants (Make82)",
 "C83": "values_for and ctx_attr over the frames; given_by in SpecMore; induction on the blocks with push_stack (MoreProofs)",
 "C84": "ConfigSource_init; psource_path and pp_value on two keys; config_value of SpecMount (MoreProofs)",
 "C85": "as_raw on the lines of the file against lines_below of SpecMore; textwrap.dedent is a parameter (MoreProofs)",
 "C86": "shapes of paths (keys, lengths of sub-paths) under edits; split-based specification of Python's lists; induction on the edits; mounts: the same for edits below the first key, refuted otherwise",
 "C87": "refuted; the cached last part decides the value, proved for all edits before it; unread paths and edits at the end by equality of paths",
 "C88": "probe_members and define_class on class heaps: invariant of reachable heaps (fields listed, sorted, named), the copies are a run of new objects, sorted lists with distinct keys are equal (ProbeProofs)",
 "C89": "class lookups agree for permuted members, dir is sorted, so collect agrees (ProbeProofs); names of new fields from define_lem; registered fields refuted",
 "C90": "cfg_sequence in Source.v, with pp_sequence and config_resolve. The lines are a relation on character lists (broken, stripped); shlex is a parameter of the model. Induction on the text; a read path is shown to stand on its value.",
 "C91": "induction on the list of calls; the constructor keywords by the lemmas of C72, C73 and C82",
 "C92": "the extended line as a separate type with its own order; py_lt and py_eq are shown to be that order and its equality, then the field lemmas of C22 and C24 apply",
 "C93": "constructor models; the parse step of the constructed field is shown equal to making a form and mapping it, by showing that reset does nothing to a form without entries",
 "C94": "the decimal of a float m*2^e is shown to have the value m*2^e over the rationals; then the bounds lemmas of C24",
 "C95": "constructor models; a relation between a list of keywords and the same with one more is kept by every pop, up to the call of options that refuses it",
 "C96": "a relation per source giving the outcome for each type; case analysis, C12, C14 and the rounding of C15",
 "C97": "the resolve hook as a function of the context; symbolic run of its two blocks, field stages as for C17-C24",
 "C98": "error lists of any objects, beside the mapping's own; a relation for what a list raises, induction on the calls, and agreement with Context.report when no class is given",
 "C99": "equality of the reads at a form and at a dict, by cases on what is cached and induction on the parts",
 "C100": "format as a function of the format attribute and the instant, strftime an oracle; reading back by C82, witnesses for iso8601 and datetime.time",
 "C101": "field._map run in a state without source and list of errors; case analysis of the steps after the value",
 "C102": "two runs related step by step: same forms, errors and stack, paths that answer alike; the union from UnionProofs, the document from SrcPath",
 "C103": "the two runs of C102 with places: what the union has open and the dict of the document there, entered and left together; induction on the fuel",
 "C104": "two inductive descriptions, of what opens and of what does not; case analysis, unions by the lemmas of C57",
 "C105": "two evaluations (C30) related step by step: readings whose values are equal up to order; induction on the fuel",
 "C106": "two evaluations (C30) step by step: the strict one raises, reports, or is the same as the other; errors are never forgotten; induction on the fuel",
 "C107": "two evaluations (C30) whose sources differ in the location: errors related one by one, exceptions up to that; steps that do not see the errors are equal; induction on the fuel",
 "C108": "depth of fields as an inductive relation, some depth for every form by mutual induction; evaluators (C30) over two recursions that agree on less deep fields agree; induction on the depth",
 "C109": "both mappings are evaluations (C30) that start from the same readings of the context; blocks by the lemmas of C02, induction on the blocks",
 "C110": "invariant of the evaluation (C30): the forms that are to stay are as they were; new forms come after them, attach_parent finds no field to set; induction on the fuel",
 "C111": "invariant of the evaluation (C30): every key is the name of a field and classes do not change; attributes that are set are fields; induction on the fuel"
}