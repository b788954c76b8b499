{
 "C01": [
  "proved",
  "every field, form, hook program, source, depth, reachable context and outcome"
 ],
 "C02": [
  "proved",
  "src_path itself is derived from src and is the subject of C01/C03"
 ],
 "C03": [
  "proved",
  ""
 ],
 "C04": [
  "partial",
  "false of the code: refuted by a witness, and shown to fail on every stack"
 ],
 "C05": [
  "proved",
  ""
 ],
 "C06": [
  "proved",
  ""
 ],
 "C07": [
  "proved",
  "string and integer keys; other keys make Path.value raise AttributeError in the code and are excluded (simplification recorded in DESIGN.md)"
 ],
 "C08": [
  "partial",
  "false of the code for the key 'name': refuted by a witness, and C08_name_appears says it happens below every missing key; proved for every sequence of reads whose keys are not 'name'"
 ],
 "C09": [
  "proved",
  "string keys must be non-empty, free of '.' and '[' and not the text of an integer"
 ],
 "C10": [
  "proved",
  "over any set of ordinary values closed under items and attributes; keys without a '()' suffix"
 ],
 "C11": [
  "partial",
  "false of the code for names of dict attributes: refuted by a witness, and C11_absent_key_is_attribute says what every absent key gives; proved for all other names"
 ],
 "C12": [
  "proved",
  "ASCII text"
 ],
 "C13": [
  "proved",
  ""
 ],
 "C14": [
  "proved",
  "ASCII text"
 ],
 "C15": [
  "proved",
  "int to float is Python's float(int): rounding and OverflowError as in the interpreter"
 ],
 "C68": [
  "partial",
  "False in the code: refuted by a witness. For all sources: a location read first stays missing (C68_read_first_partial); after reading below it, it always exists (C68_read_below)."
 ],
 "C30": [
  "proved",
  "fields of every kind, any nesting, no resolve hook, other hooks restricted to value, error and form operations; JSON documents, configurations, and native data without aliases, ignores or forms; unions of JSON documents or of Python dicts for forms and Dicts, nested to any depth, of fields that read one primitive (C30_union_\u2026, C30_nested_union_\u2026, C30_native_union_map_is_evaluation); PolymorphicSubForm fields on JSON and native data, except when the value probed is a sequence or form or the probe stores no type (the evaluator then answers that it does not know)"
 ],
 "C16": [
  "proved",
  "Every field, hook, source and context: field.map equals the stage list of SpecPipe."
 ],
 "C17": [
  "proved",
  "Any field without compute/resolve/default hooks (other hooks allowed), any source and reachable context."
 ],
 "C18": [
  "proved",
  "Static defaults, for an absent key and for an ignored value."
 ],
 "C19": [
  "proved",
  "optional=True is the default NONE (fields.py:377-384)."
 ],
 "C20": [
  "proved",
  "All four flag combinations; a default hook bypasses ignore_default when compute yields nothing (fields.py:571-573), outside the claim."
 ],
 "C21": [
  "proved",
  "Every kind; plus: neither the built-in parser nor a parse hook runs on a null."
 ],
 "C22": [
  "proved",
  "Hook-free fields; values given to map(v), nulls, and primitives read from the source."
 ],
 "C23": [
  "proved",
  "Equality of runs for a value and its translation with any hooks; values read are checked after translation; choices admit translated values; a value that cannot be looked up is a TypeError."
 ],
 "C24": [
  "proved",
  "Exact rational comparison across bool, int, float and Decimal; values and bounds finite."
 ],
 "C25": [
  "proved",
  "Acceptance iff all five constraints hold, else exactly the first violated one."
 ],
 "C27": [
  "partial",
  "False in the code: refuted with a witness, and characterised: such a date is always None (or 'not nullable'); the first accepting format gives the date."
 ],
 "C28": [
  "partial",
  "False in the code: refuted with a witness, and characterised: InvalidOperation always escapes and nothing is reported; parsable text maps to its Decimal."
 ],
 "C31": [
  "proved",
  "Order and survivors for any item field and any source; errors per index and their location for item fields without hooks on JSON, native and configuration sources."
 ],
 "C32": [
  "proved",
  "Counted after dropping; any item field."
 ],
 "C33": [
  "partial",
  "Wrong length: one error in collect mode, two in raise mode (the field catches its own FormError); right length: the mapped items in order. The arity claim is false and refuted with a witness."
 ],
 "C34": [
  "partial",
  "Any key and value fields and key filter; repeated keys keep the first place and last value. The clause on required keys holds for missing keys that are strings; a missing key that is not one raises TypeError from the message, proved for all dicts and refuted as a report."
 ],
 "C35": [
  "proved",
  "Any entries; first match; the default when no key matches."
 ],
 "C36": [
  "partial",
  "False in the code: refuted with a witness. For all sources: a bare entry reads its key once more below its key, so it is reported missing at k.k and left out (C36_own_key_below), or maps what is there (C36_own_key_found)."
 ],
 "C26": [
  "proved",
  "Every kind and source. Hypotheses: no user hooks on the field itself; no markers in the data read, translations, default or environment; allow_field lists get a sequence. The hook variant is refuted."
 ],
 "C69": [
  "proved",
  "Excludes PolymorphicSubForm (its type probe may report at the root of an empty source) and hooks that call ctx.reset() or read form attributes."
 ],
 "C37": [
  "proved",
  "One sub-form field, in any mode and at any nesting, whatever the fields of the form do (any hooks, any kinds): the sub-form is mapped in its own error list, and exactly these errors are appended, in order; fields that report where they are add nothing else. Composes with C31, C33, C34 through lists, tuples and dicts; full paths are C69. Hypotheses: no hooks on the sub-form field itself; unmapped ignored."
 ],
 "C39": [
  "proved",
  "Every outcome of form.map with its own source, any hooks, any kind of field, unmapped ignored."
 ],
 "C43": [
  "proved",
  "Every kind of field, polymorphic sub-forms included; no attach_parent; hooks that do not set, delete or lazily read form attributes; unmapped ignored. That unselected fields are not read or reported is C39."
 ],
 "C44": [
  "proved",
  "Same fields as C43."
 ],
 "C65": [
  "partial",
  "False in the code: refuted with a witness. What holds for all inputs: such a field only ever maps forms, objects or nothing (C65_only_objects_partial)."
 ],
 "C29": [
  "proved",
  "wider than stated: dates, times, code, UUIDs and groups too; a Float field can let an OverflowError out (witness)"
 ],
 "C40": [
  "proved",
  "every kind but PolymorphicSubForm, translations and attach_parent allowed; JSON, configuration and plain native sources, and unions of JSON documents or of Python dicts for the forms of C103 (C40_union, C40_native_union)"
 ],
 "C41": [
  "partial",
  "Proved for forms of single-value fields, also over unions of JSON documents or of Python dicts; the first error agrees for every form (C40). False in the code for containers: refuted with a witness."
 ],
 "C45": [
  "partial",
  "Capture proved in collect mode for JSON objects (every key that has a value is stored), native dicts and sections of a configuration (every key), and unions of JSON documents or of Python dicts (C45_union_capture: forms of values; C45_nested_union_capture, C45_native_union_capture: the forms of C103; keys without dots, no nulls). False for the string keys of a JSON object with a dot or an index, which are reported as missing: refuted with a witness. Capture from mounts is not proved."
 ],
 "C46": [
  "proved",
  "JSON objects, plain dicts and configurations; forms without resolve hooks; polymorphic sub-forms on JSON and native data whenever C30's evaluation knows the outcome; a Group reads every key, so it is excluded."
 ],
 "C57": [
  "proved",
  "JSON and plain native sources, keys of one step (no dots, no call suffix, indices from 0), every sequence of operations"
 ],
 "C58": [
  "proved",
  "as C57; with 'last' and no merge_depth"
 ],
 "C59": [
  "proved",
  "as C57"
 ],
 "C60": [
  "partial",
  "True for sequences. False in the code for mappings: refuted with a witness; C60_mappings_by_number_of_sources says what holds instead, for all keys and any number of sources."
 ],
 "C70": [
  "partial",
  "False in the code: refuted with a witness. For all unions and all browsing before: two appended keys never find anything (C70_two_keys_always)."
 ],
 "C61": [
  "partial",
  "Proved for every sequence of operations and every set of mounts, with what is said at the root and at a key where nothing is mounted; for mounted unions is_null differs (refuted with a witness)."
 ],
 "C62": [
  "partial",
  "False in the code: refuted with a witness. For all mounts: a key naming no mount always leads to an existing empty mapping whose primitive read raises KeyError, and so does every field reading one there."
 ],
 "C63": [
  "proved",
  "every section given as parsed options; ConfigParser's own parsing and interpolation are outside the model"
 ],
 "C42": [
  "proved",
  "The constructor's outcome and state for every source, dict, form, list or tuple argument, keyword arguments, and no arguments. Form(None) is shown to differ from map(None)."
 ],
 "C48": [
  "proved",
  "Any sequence of attribute operations refines finite maps."
 ],
 "C49": [
  "partial",
  "False in the code: refuted with a witness. Proved for reads outside a mapping and inside the form's own mapping."
 ],
 "C50": [
  "partial",
  "False in the code: refuted with three witnesses. Proved: has answers True for names with an entry, for methods of forms (C50_method_refuted: 'map') and for fields that hold a method, and for no others; a name that is no field is True for a method, raises for another attribute and is False else; outside a mapping a required field without an entry always raises FormError, one with a default always stores it and raises unless it is None or a method. Asked with a field: whether an entry is None; without one a default is stored and answers, a required or optional field raises."
 ],
 "C51": [
  "proved",
  "Any nesting depth; exactly the leaves, each once, in lexicographic field order; totality for finite nesting."
 ],
 "C52": [
  "proved",
  "One level exactly, and at any nesting depth as an equation on flatten. Tuples become lists; a NONE entry is dropped."
 ],
 "C53": [
  "proved",
  "Equal entries, and any later sequence of updates projects onto each form."
 ],
 "C64": [
  "partial",
  "Proved for errors whose texts are one line; false otherwise: a text with a line break is a witness."
 ],
 "C54": [
  "proved",
  "The order of fields for any bases and any given method resolution order; for lines of single inheritance the exact list of names. The method resolution order itself is an input."
 ],
 "C55": [
  "partial",
  "Table: exact, and an identity listed by one class only leads to it. Data: any probe form, type field and data: the class listed for the identity the probe form holds, an unlisted identity, None, data the probe form rejects, and a probe that raises; for one plain String type field over a mapping from any source, what that identity is. False for a subclass that inherits the type field: C55_inherited_refuted."
 ],
 "C56": [
  "partial",
  "False in the code: refuted with a witness. A table that is non-empty when first used never changes again (C56_frozen_partial); an empty one is computed anew (C56_empty_table_partial)."
 ],
 "C66": [
  "partial",
  "Proved for fields not yet in a form class. For a field already in one the class is returned: C66_attached_refuted, and C66_attached_answers_the_class for all such hooks."
 ],
 "C67": [
  "partial",
  "False in the code: refuted with a witness; sharing is proved for every sequence of operations, and the attributes that are replaced are separate. C67_clone_partial, C67_own_partial: what a clone begins with and what setting does. C67_contents_partial: after any sequence of operations, what a shared container has."
 ],
 "C47": [
  "partial",
  "Proved for hook-free fields without sub-forms over JSON, configuration and native data: errors collected or raised with unmapped='ignore' or 'capture' (any reset). With unmapped='capture' and reset=True the entries of the second mapping are those of the first in another order (C47_reset_order_refuted). False for unmapped=(key, value) fields that translate keys: refuted with a witness. Over unions of JSON documents or of Python dicts proved for fields that read one primitive (C47_union_partial) and Dicts of such, nested (C47_nested_union_partial, C47_native_union_partial), with unmapped='ignore'. Not covered: lists, tuples, groups and 'capture' over unions, and mount sources."
 ],
 "C38": [
  "partial",
  "Proved for sub-form fields and sibling fields without hooks and without sub-forms of their own, over JSON, configuration and native data, and for fields that read one primitive and Dicts of such, nested, over unions of JSON documents or of Python dicts (C38_union_\u2026, C38_native_union_\u2026): errors collected when the inlined form maps without an exception; errors raised when it maps without an error, and that both raise a FormError beginning with the same error otherwise. False for hooks that raise, for an explicit tags argument and for the list of errors raised: refuted with witnesses. Not covered: lists, tuples and groups over unions, and mount sources."
 ],
 "C71": [
  "proved",
  "For the native source Form.map makes of a list or tuple, on untouched paths; items equal to NONE are excluded. Two keys appended before the first read miss the item (C71_unread_refuted) and the root's mapping lists fields without an item (C71_keys_refuted)."
 ],
 "C72": [
  "proved",
  "Every keyword of Field.options but translate and attach_parent, followed to the mapped value. The two-call claim has the two stated exceptions, both shown necessary; ignore and tags with several values are refuted."
 ],
 "C73": [
  "proved",
  "length=0 and List with an integer length are refuted. Date, Time and Datetime constructors are modelled but not covered here."
 ],
 "C74": [
  "proved",
  "On a field without hooks; a second constant is refuted."
 ],
 "C75": [
  "proved",
  "format is an oracle; on the way to a value, fields that are mapped and attributes Python finds in other values (C75_no_attribute: one it does not find)."
 ],
 "C76": [
  "proved",
  "Regular expressions are an oracle. The field's name is the one it is attached under. A null under capture is refuted."
 ],
 "C77": [
  "proved",
  "Regular expressions are an oracle. Float.pattern is refuted."
 ],
 "C78": [
  "proved",
  "The error for a field without src and the acceptance of arguments are exact; other refusals are not described."
 ],
 "C79": [
  "proved",
  "The abstract type is refuted."
 ],
 "C80": [
  "proved",
  "The wrong length in collect mode; see C33 for raise mode."
 ],
 "C81": [
  "proved",
  "every constructor hands its positional source and src to Field.__init__; flat"
 ],
 "C82": [
  "proved",
  "range in both error modes; the errors of _parse when collecting; refuted for a datetime given to a Date"
 ],
 "C83": [
  "proved",
  "after any nesting of blocks; last value is ctx.k; refuted for names of methods"
 ],
 "C84": [
  "proved",
  "reads with defaults; raises without; no text is accepted, with the exception named"
 ],
 "C85": [
  "proved",
  "the lines below the option; unchanged otherwise; refuted for text on the option's line and for prefixes"
 ],
 "C86": [
  "partial",
  "Proved for plain and union sources under every sequence of edits and reads; for mounts as long as the first key is only added to an empty path and removed as the last. False otherwise: refuted with a witness."
 ],
 "C87": [
  "partial",
  "False in the code: refuted with a witness. For all sources: once a value was read, edits that leave the last key alone never change what is read (C87_inner_edits_ignored). An unread path may be edited anyhow, and edits at the end are descents and ascents."
 ],
 "C88": [
  "proved",
  "Any reachable class heap; fields up to the type field with different names and creation counts (two of one name: refuted)."
 ],
 "C89": [
  "partial",
  "Keyword order: every heap, base and keywords. Names and creation order: fields no class has registered; refuted for registered ones."
 ],
 "C90": [
  "proved",
  ""
 ],
 "C91": [
  "proved",
  "For numbers, lists, dates, times and datetimes with arbitrary sequences of calls; later options for all constructors that take no fields or classes."
 ],
 "C92": [
  "proved",
  "py_lt and py_eq are the order and equality of the extended line; object identity of NaN is not modelled (DESIGN.md, simplifications)."
 ],
 "C93": [
  "proved",
  "Equality of the parse step, for any recursion; reset shown to be without effect."
 ],
 "C94": [
  "proved",
  "All numbers and texts; hook-free fields; the float's value over the rationals."
 ],
 "C95": [
  "proved",
  "the model of constructors (Build) leaves out arguments its header lists"
 ],
 "C96": [
  "proved",
  "float() of a text is an oracle, as everywhere; the union and mount sources read through these (C60, C61)"
 ],
 "C97": [
  "proved",
  "Values and unreadable values for fields of one value without hooks; missing names for any kind of field; restoring for all fields."
 ],
 "C98": [
  "proved",
  "Reports.v models one error list and the classes in force beside the mapping; a form mapped while a class is replaced is not modelled."
 ],
 "C99": [
  "proved",
  "Attributes of forms are those the environment gives (reading one that is a field maps the field, which is not part of this model of the read)."
 ],
 "C100": [
  "partial",
  "Proved wherever strptime undoes strftime with the field's first format, for dates, times and datetimes with any bounds. False with 'iso8601' and for datetime.time: refuted with witnesses, and C100_iso_writes_its_name, C100_clock_time for all instants; C100_no_text: every format that is not written with."
 ],
 "C101": [
  "partial",
  "The value: any state. Outside a mapping: refused values raise AttributeError, ignored ones give the default; False for field(): always AttributeError (C101_nothing), refuted with a witness for a default."
 ],
 "C102": [
  "proved",
  "Any environment, fuel, documents, merge strategies, depth, tags and mode. Fields: the kinds that read one primitive. Beyond that, witnesses: null (C102_null_refuted) and Decimal (C102_decimal_refuted)."
 ],
 "C103": [
  "proved",
  "Any environment, fuel, documents, merging document, strategies, depth, tags and mode. Forms and Dicts nested without bound (reads_alike is inductive over the fields), also flat ones, with the unmapped keys ignored or captured. C103_native: the same over unions of Python dicts; sentinel_ok: the attributes the source's NONE sentinel has must be plain data too. A captured key must read alike as a value even if a field has it already. Root fields the tags leave out are unconstrained. C30_nested_union_map_is_evaluation gives the same in terms of the evaluator; C40_union, C41_union, C38_union_\u2026, C47_nested_union_partial what follows."
 ],
 "C104": [
  "proved",
  "Any environment, fuel, form, argument, tags, reset and mode. Union members: JSON and plain Python documents for the shapes of data (sh_shape, op_union), any source for a missing section."
 ],
 "C105": [
  "proved",
  "Any environment, fuel, strictness, location, form, tags, reset and mode; forms, lists and tuples nested without bound (orderless is inductive over the fields); any hooks of the sort described (orderless_prog) but no resolve hook. Outside of it: C105_capture_refuted and C105_shown_refuted."
 ],
 "C106": [
  "proved",
  "Any environment, fuel, location, form, tags, reset and mode (honest_field is inductive over the fields). The converse: C106_back_refuted; hooks that handle the exception: C106_tolerant_refuted."
 ],
 "C107": [
  "proved",
  "Any environment, fuel, form, tags, reset and mode; native values as in C30 (plain_native), configurations given as in C30 (config_given). Hooks: passing_prog. A hook that handles FormError: C107_handled_refuted."
 ],
 "C108": [
  "proved",
  "Any environment, location, strictness, tags, reset and mode; direct forms as in C30 (hooks that use the value, the errors and the forms only), native values as in C30 (plain_native), configurations as in C30 (config_given). Less: C108_less_refuted."
 ],
 "C109": [
  "proved",
  "Any environment, fuel, location, strictness, form, tags, reset and mode; direct forms, native values and configurations as in C30. looks_alike also asks for as many paths made before, since the identity of its path tells an error apart. C109_seen_refuted: ignore_missing makes a difference."
 ],
 "C110": [
  "proved",
  "Any environment, fuel, location, strictness, form, tags, reset and mode (hooked reading_prog is inductive over the fields); native values and configurations as in C30. A field named parent: C110_parent_refuted."
 ],
 "C111": [
  "proved",
  "Any environment, fuel, location, strictness, form, tags, reset and mode; direct forms (C30) without capture (uncaptured is inductive over the fields); native values and configurations as in C30. Capture: C111_capture_refuted."
 ]
}