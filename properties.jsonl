{"id": "C01", "title": "Mapping leaves the context as it found it", "statement": "Calling form.map(...) (in any error mode, nested or not), field.map(...) or reading a field attribute leaves the shared ctx exactly as it was before the call: the same stack of frames and, for every source path that was live before, the same keys. This holds whether the call returns or raises, and whatever the hooks do with the API they are given.", "quantifier": "every form/field definition (any nesting, any recursive depth), every hook built from the hook-visible API, every source, every starting context, every outcome", "why_tests_cant": "Leaks only show after particular exceptions at particular depths; the property is about all of them and about later unrelated mappings.", "anchors": ["pilo/context.py:Context.push", "pilo/context.py:Context.restore", "pilo/context.py:Context.rewind", "pilo/context.py:Context.reset", "pilo/fields.py:Field.map", "pilo/fields.py:Form.map"]}
{"id": "C02", "title": "Context variables are scoped", "statement": "Inside `with ctx(**vars)` a variable given in vars has that value, any other variable has the value it had outside; after the block every variable reads as it did before, also when the block raises. Blocks nest.", "quantifier": "every stack of frames, every set of variables, every body", "why_tests_cant": "Any finite set of nested blocks leaves infinitely many untested.", "anchors": ["pilo/context.py:Context.__getattr__", "pilo/context.py:Context.push", "pilo/context.py:Context.restore"]}
{"id": "C03", "title": "rewind shows the older context and restores the newer one", "statement": "`with ctx.rewind(stop)` where stop selects a frame below the top: inside, variables and the source path are those that were current when that frame was on top; afterwards the stack and the keys of the source path are those before the rewind.", "quantifier": "every stack, every stop predicate whose first hit (from the top) is not the top frame itself, every source path", "why_tests_cant": "Depends on which frames carry src / src_path keys; combinations are unbounded.", "anchors": ["pilo/context.py:Context.rewind", "pilo/context.py:Context.restore"]}
{"id": "C04", "title": "rewind to the current frame keeps the context usable", "statement": "`ctx.rewind(stop)` with a stop that accepts the current top frame (such as the docstring's `return True`) leaves a usable context. (Expected from the docstring; the code deletes the whole stack.)", "quantifier": "every context with at least one frame", "why_tests_cant": "Needs the general statement about which index is deleted; tests never call rewind with a hit on the top frame.", "anchors": ["pilo/context.py:Context.rewind"]}
{"id": "C05", "title": "A rewind that finds no frame changes nothing", "statement": "ctx.rewind(stop) with a stop no frame satisfies raises RewindDidNotStop and leaves the stack and the source path unchanged.", "quantifier": "every stack and every stop predicate rejecting all of its frames", "why_tests_cant": "Universal over stacks.", "anchors": ["pilo/context.py:Context.rewind", "pilo/context.py:RewindDidNotStop"]}
{"id": "C06", "title": "Threads do not see each other's context", "statement": "With any interleaving of context operations by any number of threads, each thread observes exactly what it would observe running alone.", "quantifier": "every number of threads, every schedule of push/restore/read operations", "why_tests_cant": "Schedules are unbounded and a test only ever sees a few.", "anchors": ["pilo/context.py:Context"]}
{"id": "C07", "title": "Reading a path is repeatable", "statement": "During a mapping, the value read at a location does not depend on what was read before at that location or below or above it: in any sequence of descending, ascending and reading, each read equals resolving the current keys afresh from the data. For JSON sources this holds for every key; the same for ConfigParser sources; for native (DefaultSource) data without aliases or ignores it holds as long as no read goes through a missing prefix. The value read from JSON data is the one at that location of the document.", "quantifier": "every data, every sequence of append/pop/value/exists/is_null/primitive/sequence/mapping operations", "why_tests_cant": "The cache makes correctness depend on operation history; histories are unbounded.", "anchors": ["pilo/source/__init__.py:Path.value", "pilo/source/__init__.py:Path.exists", "pilo/source/__init__.py:Path.insert", "pilo/source/__init__.py:Path.__delitem__"]}
{"id": "C08", "title": "Existence of a missing native location is stable", "statement": "Asking twice whether a location below a missing native container exists gives the same answer. (Expected; false for the key 'name' because the cached sentinel has that attribute.)", "quantifier": "every native data and path", "why_tests_cant": "Needs the second read through a cached missing prefix.", "anchors": ["pilo/source/__init__.py:Path.value", "pilo/source/default.py:DefaultPath._as_attr"]}
{"id": "C09", "title": "Error locations are unambiguous", "statement": "The text of a source path determines the path: two different key sequences (string keys free of '.', '[' and not looking like an integer) never render the same. The text is the location, the section in brackets, the first key, then .name or [index] for each further key; it cannot be had when a further key is neither.", "quantifier": "all pairs of paths of any length", "why_tests_cant": "Injectivity is a statement about all pairs.", "anchors": ["pilo/source/__init__.py:Path.__str__"]}
{"id": "C10", "title": "Native lookup order", "statement": "Looking up key k in native data tries the item k, then (at top level) the alias of k, then the attribute k, then k split at dots one step at a time; the first that is present wins and a present value is returned unchanged.", "quantifier": "every container of ordinary values, key without a call suffix, alias table and depth", "why_tests_cant": "The precedence is over all combinations of presence.", "anchors": ["pilo/source/default.py:DefaultPath.resolve", "pilo/source/default.py:DefaultPath._resolve"]}
{"id": "C11", "title": "A key absent from a dict is missing", "statement": "If a plain dict has no key k (no dot, no '()'), then a field with src k treats it as absent. True when k is not the name of an attribute of dict; expected always.", "quantifier": "every dict and key", "why_tests_cant": "The exceptions are names like 'items', 'copy', 'keys' that no test uses.", "anchors": ["pilo/source/default.py:DefaultPath._as_attr", "pilo/source/default.py:DefaultPath.resolve"]}
{"id": "C12", "title": "Integers accept exactly integral values", "statement": "On native sources an Integer field accepts exactly: ints that are not bools, floats with an integral value, and strings that are base-10 integers (optionally signed and space-padded); the result is the number denoted. Everything else is an error, never a silently wrong number.", "quantifier": "every value", "why_tests_cant": "Values are unbounded.", "anchors": ["pilo/source/__init__.py:ParserMixin.as_int", "pilo/fields.py:Integer._parse"]}
{"id": "C13", "title": "Integer text round-trips", "statement": "For every integer n, mapping str(n) with an Integer field gives n; with surrounding spaces or a '+' sign too.", "quantifier": "every integer", "why_tests_cant": "Infinitely many integers.", "anchors": ["pilo/source/__init__.py:ParserMixin.as_int"]}
{"id": "C14", "title": "Booleans accept exactly the documented spellings", "statement": "On native sources a Boolean field accepts exactly bools, ints (non-zero is true) and, case-insensitively, '0','f','false','1','t','true'.", "quantifier": "every value", "why_tests_cant": "Case variants and all other strings.", "anchors": ["pilo/source/__init__.py:ParserMixin.as_bool"]}
{"id": "C15", "title": "Strict JSON never coerces", "statement": "With JsonSource(strict=True) a successfully parsed primitive is the JSON value itself (an int is accepted for a float as the nearest double, the even one of two, and raises OverflowError from 2**1024 - 2**970 on); with strict=False every value accepted strictly is accepted with the same result.", "quantifier": "every JSON value and primitive type", "why_tests_cant": "Universal over values and types.", "anchors": ["pilo/source/json.py:JsonSource.as_string", "pilo/source/json.py:JsonSource.as_int", "pilo/source/json.py:JsonSource.as_float", "pilo/source/json.py:JsonSource.as_bool"]}
{"id": "C16", "title": "Steps run in the documented order", "statement": "Mapping a field is resolve, compute, munge, filter, validate, with the default used exactly when compute or munge yields nothing or the filter rejects, and with each later step skipped as soon as an earlier one decides the result. Hooks that are set run in place of (compute, parse, resolve, default) or after (munge, filter, validate) the built-in step; a filter or validate hook says no by returning None, False, a zero or something empty.", "quantifier": "every field, every hook, every source, every context", "why_tests_cant": "All hook combinations times all values.", "anchors": ["pilo/fields.py:Field._map", "pilo/fields.py:Field.map"]}
{"id": "C17", "title": "Missing required fields", "statement": "A field without default whose source key is absent yields exactly one Missing error, located at that key, and nothing is stored.", "quantifier": "every hook-free field kind, source, context without ignore_missing", "why_tests_cant": "All kinds at all depths.", "anchors": ["pilo/fields.py:Field._default", "pilo/fields.py:Errors.missing", "pilo/fields.py:Missing"]}
{"id": "C18", "title": "Defaults are returned verbatim", "statement": "If the key is absent (or the value filtered out) and a default is set, the result is that default, with no error, and neither translations, filters nor validation are applied to it.", "quantifier": "every field kind, default value and source", "why_tests_cant": "All defaults, including invalid ones.", "anchors": ["pilo/fields.py:Field._default", "pilo/fields.py:Field._map"]}
{"id": "C19", "title": "Optional fields vanish silently", "statement": "With optional=True an absent key stores nothing and reports nothing.", "quantifier": "every field kind and source", "why_tests_cant": "All kinds at all depths.", "anchors": ["pilo/fields.py:Field.options", "pilo/fields.py:Field._default"]}
{"id": "C20", "title": "ignore_default and ignore_missing", "statement": "Under ctx(ignore_default=True) a static default is not used: the absent field is Missing, unless ignore_missing is set too, in which case nothing is stored or reported. Under ignore_missing alone absent required fields are silently skipped and defaults still apply.", "quantifier": "every field without a default hook, every source, every context", "why_tests_cant": "Four context modes times all fields.", "anchors": ["pilo/fields.py:Field._default"]}
{"id": "C21", "title": "Null handling", "statement": "A present null maps to None without error unless the field was made non-nullable, in which case there is exactly one 'not nullable' error and nothing is stored; type parsers are never run on null.", "quantifier": "every built-in field kind over plain sources", "why_tests_cant": "All kinds and depths.", "anchors": ["pilo/fields.py:Field._compute", "pilo/fields.py:Field._validate"]}
{"id": "C22", "title": "Ignored values fall back to the default", "statement": "A value equal to one of the field's ignored values is treated as if it were absent (after translation): the default is used, or Missing is reported.", "quantifier": "every field without hooks, ignore list and value", "why_tests_cant": "Universal over values.", "anchors": ["pilo/fields.py:Field._filter", "pilo/fields.py:Field.ignore"]}
{"id": "C23", "title": "Translations precede filtering and validation", "statement": "A computed value that is a key of the translation table is replaced by the table's value before hooks, filters and validation see it; other values are unchanged; a String's choices also admit translated values.", "quantifier": "every table and value", "why_tests_cant": "Universal over tables.", "anchors": ["pilo/fields.py:Field._munge", "pilo/fields.py:Field.translate", "pilo/fields.py:String._validate"]}
{"id": "C24", "title": "Number bounds are inclusive and complete", "statement": "With min and/or max a mapped number is stored iff min <= value <= max (exact comparison across int, float and Decimal); otherwise exactly one error naming the violated bound (min first) is reported.", "quantifier": "every finite number and bounds", "why_tests_cant": "Universal over numbers.", "anchors": ["pilo/fields.py:Number._validate"]}
{"id": "C25", "title": "String constraints", "statement": "A string is accepted iff all of alphabet, minimum length, maximum length, pattern and choices hold; if not, exactly one error is reported and it is the first violated in that order. A translation that is not a text raises TypeError if there is any constraint but choices.", "quantifier": "every string and every combination of constraints", "why_tests_cant": "All strings and combinations.", "anchors": ["pilo/fields.py:String._validate"]}
{"id": "C26", "title": "No field disappears silently", "statement": "For fields without hooks, whose data, translations and default hold none of the internal markers NONE, ERROR, NOT_SET: mapping a field either yields a value, or reports at least one error, or the field is optional (or ignore_missing is set). (With a validate hook this is false: a hook returning False without reporting drops the value with no error.)", "quantifier": "every hook-free field of every kind, any source", "why_tests_cant": "A statement about absence of silent failure over all inputs.", "anchors": ["pilo/fields.py:Field._map", "pilo/fields.py:Form._map"]}
{"id": "C27", "title": "Unparsable dates are reported", "statement": "A Date field given a string that matches none of its formats reports an error. (Expected; in the code it maps to None silently.)", "quantifier": "every string and list of formats", "why_tests_cant": "Universal over strings; tests only use parsable dates.", "anchors": ["pilo/fields.py:Date._parse"]}
{"id": "C28", "title": "Unparsable decimals are reported", "statement": "A Decimal field given a string that is not a number reports an error like every other numeric field. (Expected; in the code decimal.InvalidOperation escapes from map.)", "quantifier": "every string", "why_tests_cant": "Universal.", "anchors": ["pilo/fields.py:Decimal._parse"]}
{"id": "C29", "title": "Bad JSON data never crashes a form", "statement": "For a form whose fields have no hooks and are built from strings, integers, booleans, lists, tuples, dicts and sub-forms, mapping any JSON object with JsonSource returns (it raises nothing); every problem is in the returned errors.", "quantifier": "every such form, every JSON object", "why_tests_cant": "Crash freedom over all inputs and all form shapes.", "anchors": ["pilo/fields.py:Form.map", "pilo/fields.py:Field._compute"]}
{"id": "C30", "title": "Mapping is compositional", "statement": "For hook-free fields (and pure hooks) over plain native data, JSON documents or configurations, field.map equals a direct recursive evaluation of the field on the value found at its location: the shared context, mutable path and its cache are unobservable, and the value of a container is determined by the values of its parts.", "quantifier": "every field (any nesting), every value", "why_tests_cant": "Refinement for all programs and inputs.", "anchors": ["pilo/fields.py:Field.map", "pilo/fields.py:List._parse", "pilo/fields.py:Tuple._parse", "pilo/fields.py:Dict._parse", "pilo/fields.py:SubForm._parse", "pilo/fields.py:Form.map"]}
{"id": "C31", "title": "Lists keep order and drop only invalid items", "statement": "A List maps to the in-order list of its successfully mapped items; every dropped item that is not optional has an error located at its index. A value that is no sequence is invalid, unless allow_field makes it a list of one.", "quantifier": "order and survivors: every item field, source and sequence of any length; one error per dropped item: item fields without hooks, over JSON, native and configuration sources", "why_tests_cant": "All lengths and items.", "anchors": ["pilo/fields.py:List._parse"]}
{"id": "C32", "title": "List length bounds", "statement": "min/max length are checked against the number of surviving items, with exactly one error if violated.", "quantifier": "every list field and data", "why_tests_cant": "All lengths.", "anchors": ["pilo/fields.py:List._validate"]}
{"id": "C33", "title": "Tuples have exactly one value per position", "statement": "A Tuple field given a sequence of the wrong length reports one error and stores nothing; given one of the right length with every item valid it stores exactly the mapped items in order. (That a stored tuple always has the declared arity is false: invalid items are dropped.)", "quantifier": "every tuple field and data", "why_tests_cant": "All arities and items.", "anchors": ["pilo/fields.py:Tuple._parse"]}
{"id": "C34", "title": "Dicts map every admitted key", "statement": "A Dict maps to exactly the pairs (mapped key, mapped value) for the source keys accepted by the key filter whose value and key both map; required_keys and max_keys are then enforced with one error each.", "quantifier": "every key/value field and mapping", "why_tests_cant": "All mappings.", "anchors": ["pilo/fields.py:Dict._parse", "pilo/fields.py:Dict._validate"]}
{"id": "C35", "title": "Groups dispatch on the first matching pattern", "statement": "A Group maps to the list, in source key order, of (key, captures, value) for keys matched by some entry, each mapped with the first matching entry; if no key matches the default (an empty list) is used. A key that is not a text and comes to a pattern raises TypeError.", "quantifier": "every group and mapping", "why_tests_cant": "All mappings and matchers.", "anchors": ["pilo/fields.py:Group._parse", "pilo/fields.py:Group._match"]}
{"id": "C36", "title": "A bare field in a Group reads the key it names", "statement": "Group(String('a')) maps the value at key 'a'. (Expected; the code looks up 'a' inside the value at 'a'.)", "quantifier": "every bare field in a Group", "why_tests_cant": "Only tuple entries are tested.", "anchors": ["pilo/fields.py:Group.__init__", "pilo/fields.py:Group._parse"]}
{"id": "C37", "title": "Sub-form errors surface exactly once with full paths", "statement": "The errors returned by form.map contain, for each sub-form (directly nested, in lists, tuples or dicts), exactly the sub-form's own errors, in order, located at their full path; a sub-form with errors is not stored.", "quantifier": "every nesting", "why_tests_cant": "All nestings and inputs.", "anchors": ["pilo/fields.py:Form._nested_map", "pilo/fields.py:SubForm._parse"]}
{"id": "C38", "title": "A flat sub-form reads the enclosing mapping", "statement": "A SubForm with flat=True yields the same entries and errors as its fields would have yielded if mapped in the enclosing form.", "quantifier": "every form type and mapping", "why_tests_cant": "All forms.", "anchors": ["pilo/fields.py:SubForm.options"]}
{"id": "C39", "title": "Collect mode reports all errors in field order", "statement": "form.map(src) in collect mode maps every selected field in declaration order and returns the concatenation of the errors of each, however many earlier fields failed.", "quantifier": "every form and source", "why_tests_cant": "All subsets of failing fields.", "anchors": ["pilo/fields.py:Form._map", "pilo/fields.py:CollectErrors"]}
{"id": "C40", "title": "Raise mode raises iff collect mode reports", "statement": "form.map(src, error='raise') raises FormError exactly when collect mode would return at least one error (hook-free forms over plain sources); otherwise it returns the form with the same entries.", "quantifier": "every hook-free form without PolymorphicSubForm fields; JSON documents, configurations and native data without aliases or ignores", "why_tests_cant": "All forms and inputs.", "anchors": ["pilo/fields.py:RaiseErrors", "pilo/fields.py:Form.map"]}
{"id": "C41", "title": "Raise mode stops at the first error", "statement": "The FormError raised in raise mode carries exactly the first error collect mode would report. True for leaf fields at top level; expected always, but false inside a List/Dict/Tuple, where the enclosing field catches the FormError and adds an Invalid.", "quantifier": "every form and source", "why_tests_cant": "Needs nested containers in raise mode.", "anchors": ["pilo/fields.py:RaiseErrors.__call__", "pilo/fields.py:Field._compute"]}
{"id": "C42", "title": "The constructor is map followed by raise", "statement": "Form(src) returns a form with exactly the entries form.map(src) produces when there are no errors and otherwise raises FormError carrying exactly those errors in order.", "quantifier": "every form class and source", "why_tests_cant": "All forms and inputs.", "anchors": ["pilo/fields.py:Form.__init__"]}
{"id": "C43", "title": "Tags select fields", "statement": "form.map(src, tags=T) maps exactly the fields having a tag in T (all fields if T is empty); the others are neither read, reported nor changed.", "quantifier": "every tag set and source; every form whose fields have no attach_parent and no hook that sets, deletes or lazily reads an attribute of a form", "why_tests_cant": "All tag assignments.", "anchors": ["pilo/fields.py:Form._map", "pilo/fields.py:Form.map"]}
{"id": "C44", "title": "reset clears exactly the selected fields first", "statement": "map(reset=True, tags=T) removes the entries of the selected fields before mapping and no other entry; without reset, entries whose field does not map now keep their old value.", "quantifier": "every form state, tag set and source; every form whose fields have no attach_parent and no hook that sets, deletes or lazily reads an attribute of a form", "why_tests_cant": "All prior states.", "anchors": ["pilo/fields.py:Form._reset", "pilo/fields.py:Form.map"]}
{"id": "C45", "title": "unmapped='capture' collects the remaining keys", "statement": "With unmapped='capture' every source key that is a string and not the name of an entry just mapped is stored under its own name with its raw value; with 'ignore' none is; an invalid directive is a ValueError.", "quantifier": "every form and mapping", "why_tests_cant": "All mappings.", "anchors": ["pilo/fields.py:Form._unmapped"]}
{"id": "C46", "title": "Unread keys do not matter", "statement": "Adding, removing or changing source keys that no field of the form reads changes neither the entries nor the errors (unmapped='ignore').", "quantifier": "every form without Group fields and resolve hooks and every pair of JSON objects, dicts or configurations agreeing on the read keys", "why_tests_cant": "A two-run (non-interference) property.", "anchors": ["pilo/fields.py:Form._map"]}
{"id": "C47", "title": "Mapping the same source twice changes nothing", "statement": "For hook-free forms without sub-forms, mapping a source a second time returns the same errors and leaves the same entries.", "quantifier": "every such form, state and source", "why_tests_cant": "Two-run property.", "anchors": ["pilo/fields.py:Form.map"]}
{"id": "C48", "title": "Attribute access agrees with entries", "statement": "Reading an attribute whose field has an entry returns it; setting stores it; deleting removes it and only it, and deleting an absent one is a no-op.", "quantifier": "every form state, field and value", "why_tests_cant": "All states.", "anchors": ["pilo/fields.py:Field.__get__", "pilo/fields.py:Field.__set__", "pilo/fields.py:Field.__delete__"]}
{"id": "C49", "title": "Lazy attribute reads never expose sentinels", "statement": "Reading another field's attribute from a hook during mapping returns a proper value or raises AttributeError, never an internal sentinel. (Expected; false when the read rewinds the context.)", "quantifier": "every form and hook", "why_tests_cant": "Needs the rewind branch with an absent field.", "anchors": ["pilo/fields.py:Field.__get__"]}
{"id": "C50", "title": "has() answers yes or no", "statement": "form.has(name) is True iff the form has an entry for name and otherwise False. (Expected; a missing required field raises FormError and a defaulted one AttributeError, the name of a method of forms such as 'map' is True, and that of another attribute such as 'keys' raises AttributeError.)", "quantifier": "every form and name", "why_tests_cant": "Tests only cover present entries.", "anchors": ["pilo/fields.py:Form.has"]}
{"id": "C51", "title": "flatten yields every leaf once", "statement": "flatten() yields, in field order, exactly the entries that are not forms, of the form and of every directly nested form, each with the chain of fields leading to it.", "quantifier": "every form state of any nesting depth", "why_tests_cant": "All nestings.", "anchors": ["pilo/fields.py:Form.flatten"]}
{"id": "C52", "title": "filter(tags) and its inverse partition the form", "statement": "For a form whose values are not nested forms, filter(*T) keeps exactly the entries of fields with a tag in T, filter(*T, inv=True) exactly the entries of the other fields; the original is unchanged.", "quantifier": "every form state and tag set", "why_tests_cant": "All states and tag sets.", "anchors": ["pilo/fields.py:Form.filter", "pilo/fields.py:Form.munge"]}
{"id": "C53", "title": "copy is a shallow, independent copy", "statement": "copy() has the same entries; later changes to the entries of either form do not affect the other; nested forms are shared.", "quantifier": "every form state and every sequence of later updates", "why_tests_cant": "All later updates.", "anchors": ["pilo/fields.py:Form.copy"]}
{"id": "C54", "title": "Fields are ordered by declaration across inheritance", "statement": "A form class's field list contains each of its fields exactly once, in order of first declaration along the class hierarchy: a subclass's override takes the place of the field it overrides, new fields come after.", "quantifier": "every class hierarchy", "why_tests_cant": "All hierarchies and override patterns.", "anchors": ["pilo/fields.py:FormMeta.__new__", "pilo/fields.py:Field.attach", "pilo/fields.py:CreatedCountMixin"]}
{"id": "C55", "title": "Polymorphic dispatch picks the class registered for the identity", "statement": "A PolymorphicSubForm maps with the form class whose type field lists the identity found in the data; an unknown identity is exactly one error.", "quantifier": "every class table and data", "why_tests_cant": "All tables and data.", "anchors": ["pilo/fields.py:PolymorphicSubForm._form_type", "pilo/fields.py:Type.probe", "pilo/__init__.py:Types.map"]}
{"id": "C56", "title": "Later subclasses are dispatched too", "statement": "Defining a new subclass after the type table was first used makes its identity known. (Expected; the table is computed once and never refreshed.)", "quantifier": "every hierarchy and order of definition and use", "why_tests_cant": "Order of definition and use.", "anchors": ["pilo/fields.py:Type.probe"]}
{"id": "C57", "title": "A union combines the keys of its sources", "statement": "With merge='combine' the keys visible in a union at a location are exactly those of any source having a non-null mapping there, and a primitive is taken from the first source (in order) that has the key.", "quantifier": "every list of JSON sources and native sources without aliases or ignores, every data, keys of one step (no dots, no call suffix, indices from 0)", "why_tests_cant": "All numbers of sources and data.", "anchors": ["pilo/source/union.py:Mapping", "pilo/source/union.py:Join.primitive", "pilo/source/union.py:UnionSource.mapping"]}
{"id": "C58", "title": "merge='first' and 'last' pick one mapping", "statement": "With 'first' exactly the first existing mapping is used (null counts as existing and hides the rest), with 'last' the last existing non-null one. Any other merge strategy raises ValueError as soon as a mapping is asked for.", "quantifier": "every list of sources as in C57", "why_tests_cant": "All numbers of sources.", "anchors": ["pilo/source/union.py:Mapping.__init__"]}
{"id": "C59", "title": "Combined sequences concatenate", "statement": "With sequence merge 'combine' the union's sequence has the total length and its i-th element is that of the concatenation. An invalid strategy is noticed only when a second sequence is met, and then raises IndexError.", "quantifier": "every list of sources as in C57 with sequences, every index", "why_tests_cant": "All lengths and indices.", "anchors": ["pilo/source/union.py:Sequence"]}
{"id": "C60", "title": "merge_depth limits merging by depth", "statement": "merge_depth=d applies the merge rule only at path depth less than d. (Expected and true for sequences; for mappings the code compares d with the number of sources.)", "quantifier": "every union and depth", "why_tests_cant": "Needs depth and source count to differ.", "anchors": ["pilo/source/union.py:Mapping.__init__", "pilo/source/union.py:Sequence.__init__"]}
{"id": "C61", "title": "A mount routes each key to its own source", "statement": "Below key k a MountSource behaves exactly like the source mounted at k, and what is read under one mount never affects another (Python 2). A List below a mount whose value is no sequence raises AttributeError instead of reporting an error. On Python 3 mapping from a MountSource raises AttributeError before any field is looked at.", "quantifier": "every set of mounts and sequence of reads", "why_tests_cant": "All histories.", "anchors": ["pilo/source/mount.py:MountPath"]}
{"id": "C62", "title": "A missing mount is a missing key", "statement": "A field whose src names no mount is absent. (Expected; the code says it exists, and primitives raise KeyError; on Python 3 no mount works at all.)", "quantifier": "every mount source and key", "why_tests_cant": "Only existing mounts are tested.", "anchors": ["pilo/source/mount.py:MountPath.path", "pilo/source/mount.py:MountPath.primitive"]}
{"id": "C63", "title": "Config lookup precedence", "statement": "In a configuration section, 'name[key]' options form a mapping under name that wins over a plain option name, which wins over the defaults.", "quantifier": "every section and key", "why_tests_cant": "All option sets.", "anchors": ["pilo/source/configparser.py:SectionMapping.__getitem__"]}
{"id": "C64", "title": "FormError text lists every error", "statement": "str(FormError) has one '* Class: message' line per error, in order.", "quantifier": "every list of errors", "why_tests_cant": "All lengths.", "anchors": ["pilo/fields.py:FormError.message"]}
{"id": "C65", "title": "attach_parent accepts every mapped value", "statement": "A field with attach_parent=True that maps None or a primitive still maps. (Expected; setting .parent on such a value raises AttributeError out of map.)", "quantifier": "every value", "why_tests_cant": "Tests only use objects.", "anchors": ["pilo/fields.py:Field.map"]}
{"id": "C66", "title": "Hook registration happens once", "statement": "Calling a hook with a function when none is set registers it and returns the outermost field; the registered function then receives exactly the later call's arguments, with the attached target or the current form.", "quantifier": "every hook and call sequence", "why_tests_cant": "All call sequences.", "anchors": ["pilo/fields.py:Hook.__call__"]}
{"id": "C67", "title": "Cloned fields are independent", "statement": "Changing a clone's ignores, translations or tags does not affect the original. (Expected; the containers are shared.)", "quantifier": "every field and later change", "why_tests_cant": "Aliasing is invisible to value tests.", "anchors": ["pilo/fields.py:Field.clone"]}
{"id": "C68", "title": "An ignored location stays ignored", "statement": "A location listed in a DefaultSource's ignores reads as missing whatever was read before. (Expected; false when a location below it is read first, because ignores compare the whole current path.)", "quantifier": "every native data, ignores table and reading order", "why_tests_cant": "The order of reads is chosen by the form definition; any fixed order hides the others.", "anchors": ["pilo/source/default.py:DefaultPath._resolve", "pilo/source/default.py:DefaultSource.ignore"]}
{"id": "C69", "title": "Errors are located at or below the field that reports them", "statement": "Every error a field adds while it is mapped is about the source path object in use, its text names a location at or below the place where the field was mapped, and no other error list changes; the errors returned by form.map(src) are located in src.", "quantifier": "every field of every kind but PolymorphicSubForm with hooks that do not reset the context or read form attributes, every source and state", "why_tests_cant": "The location is the state of a shared mutable path at the time of the report; only an invariant over every nesting shows it is right.", "anchors": ["pilo/fields.py:FieldError", "pilo/fields.py:Field._map", "pilo/fields.py:List._parse", "pilo/fields.py:SubForm._parse", "pilo/fields.py:Form._nested_map", "pilo/context.py:Context.push", "pilo/context.py:Context.restore"]}
{"id": "C70", "title": "A union finds what is nested in its lists and mappings", "statement": "A value that can be read through a union key by key is also found when two keys are appended to the path before it is asked for, as a field with a src inside a List does. (Expected; false: values not yet opened as a mapping or a sequence have no keys.)", "quantifier": "every union, location and pair of keys", "why_tests_cant": "Depends on which locations earlier reads opened.", "anchors": ["pilo/source/union.py:Join", "pilo/source/union.py:Sequence.__getitem__", "pilo/source/union.py:UnionPath.resolve"]}
{"id": "C71", "title": "A sequence is read by position", "statement": "A form mapped from a list or a tuple reads each field from the item at the field's position (nothing when there is none), and whatever is read at or below that location after its first read is what a dict naming the items would give.", "quantifier": "every sequence, form class with distinct identifier field names, field, first read and later sequence of reads that stays below the field", "why_tests_cant": "The alias table is consulted or not depending on the length of the current path; tests use two flat fields.", "anchors": ["pilo/fields.py:Form._seq_source", "pilo/source/default.py:DefaultPath._resolve", "pilo/source/default.py:DefaultSource.mapping"]}
{"id": "C72", "title": "Options mean what they say", "statement": "A field built with default=None maps an absent value and a null to None without an error; with another default an absent value maps to it; with optional=True and no default an absent field vanishes; with neither it is reported missing; a value equal to ignore=v counts as absent. Keywords given in two calls of options amount to the same as in one. (The last is false when the second call takes back what default=None or default implied; ignore=[a, b] and tags=[...] do not accept several values.)", "quantifier": "every field class, arguments, keywords, source and state", "why_tests_cant": "Combinations of keywords interact; tests try one keyword at a time.", "anchors": ["pilo/fields.py:Field.options", "pilo/fields.py:Field.__init__", "pilo/fields.py:Field.map"]}
{"id": "C73", "title": "Constraints given to constructors are the constraints checked", "statement": "A String built with length, min_length, max_length, pattern, alphabet and choices accepts exactly the texts satisfying all that was given; numbers built with range, min_value, max_value accept exactly the numbers within; a List built with lengths accepts exactly so many surviving items. (length=0 sets no limit, and List takes no integer as length.)", "quantifier": "every keyword list that gives the constraints, every value, source and state", "why_tests_cant": "All keyword combinations and values.", "anchors": ["pilo/fields.py:String.__init__", "pilo/fields.py:Number.__init__", "pilo/fields.py:List.__init__"]}
{"id": "C74", "title": "A constant field maps its constant", "statement": "After field.constant(v) the field maps v whatever the source holds, provided v passes the field's own checks; so does Type.constant and constant on an attached field. (A second constant raises TypeError instead of replacing the first.)", "quantifier": "every field without hooks, value, source and state", "why_tests_cant": "Any source.", "anchors": ["pilo/fields.py:Field.constant", "pilo/fields.py:Type.constant", "pilo/fields.py:Hook.__call__"]}
{"id": "C75", "title": "A format field is made of other fields", "statement": "String.format(fmt, k='a.b', ...) maps to fmt.format of the attributes named, read from the form being mapped; a name that is no field or other attribute of the form it is asked of is reported as one error on the field, and whatever else reading an attribute raises, or str.format itself, is raised and not reported.", "quantifier": "every format, list of keywords, nesting of forms and state", "why_tests_cant": "Unbounded attribute chains and keyword lists.", "anchors": ["pilo/fields.py:String.format"]}
{"id": "C76", "title": "A capture field maps the group it names", "statement": "String.capture(pattern, name) maps a matching text to the group called name (else to the field's own name, else to group 1); a text that does not match, or has no such group, counts as missing. (A value that is no text, such as a null, raises TypeError out of map.)", "quantifier": "every pattern, name, text, source and state", "why_tests_cant": "Every combination of groups.", "anchors": ["pilo/fields.py:String.capture"]}
{"id": "C77", "title": "A number field with a pattern reads what matches", "statement": "Integer.pattern(p) maps a text to the integer that is the part matched by p, and reports one error if nothing matches or the match is no integer. (Float.pattern does the same, so it reports matched fractions and returns integers.)", "quantifier": "every pattern, text, source and state", "why_tests_cant": "All patterns and texts.", "anchors": ["pilo/fields.py:Integer.pattern", "pilo/fields.py:Float.pattern"]}
{"id": "C78", "title": "A group is made of the fields given, however nested", "statement": "Group(...) accepts exactly fields with a src, (src, field) pairs and lists of these nested to any depth; it groups by them in the order given, maps to [] if no key matches, and refuses a field without src, a tuple that is not a pair and anything else, with an error naming the indices.", "quantifier": "every nesting of arguments, every mapping", "why_tests_cant": "Unbounded nesting.", "anchors": ["pilo/fields.py:Group.__init__"]}
{"id": "C79", "title": "A type has a value if it has one choice", "statement": "Type.instance(v).value is v and Type.instance(v, w, ...).value raises TypeError. (Type.abstract().value is expected to raise as well; it returns the default hook.) Where the source has nothing, the first maps to v and the second to nothing, without an error.", "quantifier": "every list of choices and keywords", "why_tests_cant": "All lists.", "anchors": ["pilo/fields.py:Type.instance", "pilo/fields.py:Type.value", "pilo/fields.py:Type.abstract"]}
{"id": "C80", "title": "A tuple has the fields given, in order", "statement": "Tuple built from two or more fields, or a list or tuple of any number, optionally preceded by a source name, maps a sequence of as many items to the items mapped by the fields in order and reports a sequence of any other length; a single field is refused with TypeError, and so is anything that is not a field (a number or a text with ValueError).", "quantifier": "every list of fields, keywords, sequence and state", "why_tests_cant": "All lengths.", "anchors": ["pilo/fields.py:Tuple.__init__", "pilo/fields.py:Tuple._parse"]}
{"id": "C81", "title": "A field reads where it was told to", "statement": "A field built by any constructor (plain, String, number, date and time, List, Dict, Tuple, SubForm, PolymorphicSubForm) reads at the key or index given as its positional argument or as src, below its name if none is given, and the enclosing mapping itself with src=None or, for a sub-form, flat=True.", "quantifier": "every constructor, arguments, keywords, name and path", "why_tests_cant": "Each constructor takes its own arguments out before the common one sees the rest; tests try a few combinations.", "anchors": ["pilo/fields.py:Field.__init__", "pilo/fields.py:Field.attach", "pilo/fields.py:Tuple.__init__", "pilo/fields.py:List.__init__", "pilo/fields.py:SubForm.__init__", "pilo/fields.py:SubForm.options"]}
{"id": "C82", "title": "Dates and times lie within their bounds", "statement": "A Date, Time or Datetime maps a text its format reads (for a Date: the first format that does), or an instant of its own class, exactly if it lies between after and before, both included; otherwise there is one error that names the bound. A text is one error if there is no format, or if the one format of a Time or Datetime does not read it. (A datetime given to a Date with a bound raises TypeError out of map.)", "quantifier": "every class, formats, bounds, text, source and state", "why_tests_cant": "All instants and bounds.", "anchors": ["pilo/fields.py:Date.__init__", "pilo/fields.py:Date._parse", "pilo/fields.py:Date._validate", "pilo/fields.py:Time._parse", "pilo/fields.py:Time._validate", "pilo/fields.py:Datetime._parse", "pilo/fields.py:Datetime._validate", "pilo/fields.py:RangeMixin.after"]}
{"id": "C83", "title": "values_for lists every value of a context variable", "statement": "ctx.values_for(k) lists the values that the open blocks give for k, outermost first, and nothing else; ctx.k is the last of them and raises if there is none. (Names of dict methods, such as items, list the methods of the frames; stack, push, reset, rewind, restore and values_for are attributes of the context whatever a block gives.)", "quantifier": "every nesting of blocks and every name", "why_tests_cant": "Unbounded nesting and all names.", "anchors": ["pilo/context.py:Context.values_for", "pilo/context.py:Context.__getattr__", "pilo/context.py:Frame.__getattr__"]}
{"id": "C84", "title": "What configurations a ConfigSource reads", "statement": "A ConfigSource over a parser with a dict of defaults reads, below every section, the options of the section as C63 says, with the section's defaults. Without a section and without defaults, reading any section that exists raises AttributeError. A configuration given as a text, or by from_file, is never accepted: the constructor raises.", "quantifier": "every configuration, section, option, defaults and keywords of the constructor", "why_tests_cant": "All configurations; no test gives a text.", "anchors": ["pilo/source/configparser.py:ConfigSource.__init__", "pilo/source/configparser.py:ConfigSource.from_file", "pilo/source/configparser.py:Mapping.__getitem__", "pilo/source/configparser.py:ConfigPath.__init__"]}
{"id": "C85", "title": "preserve_whitespace reads the text below the option", "statement": "With preserve_whitespace a text value with a line break is replaced by the dedented indented lines of the file below the first line that begins with the option's name after the section's header; every other value is as without it. A file without the header gives the empty text. (Text on the option's own line is lost, and an option whose name begins an earlier one gets the other's text.)", "quantifier": "every file, section, option and value", "why_tests_cant": "All files.", "anchors": ["pilo/source/configparser.py:ConfigSource.as_raw", "pilo/source/configparser.py:ConfigSource.primitive"]}
{"id": "C86", "title": "The keys of a path are a list", "statement": "Setting, deleting, inserting and reading keys of a path by (possibly negative) index, its length and its name behave as on a Python list of the keys, whatever is read in between, and the sub-paths of a union follow. (False for mounted sources: inserting before the first key replaces it, it cannot be deleted while there are others, and indices counting back beyond it edit other keys.)", "quantifier": "every source, and every sequence of edits and reads", "why_tests_cant": "Unbounded sequences of edits with any index.", "anchors": ["pilo/source/__init__.py:Path.__setitem__", "pilo/source/__init__.py:Path.__delitem__", "pilo/source/__init__.py:Path.insert", "pilo/source/__init__.py:Path.name", "pilo/source/union.py:UnionPath.__setitem__", "pilo/source/union.py:UnionPath.insert", "pilo/source/mount.py:MountPath.__setitem__", "pilo/source/mount.py:MountPath.__delitem__", "pilo/source/mount.py:MountPath.insert"]}
{"id": "C87", "title": "A path reads what is at its keys", "statement": "After a key of a path was changed, the path reads what is at its new keys. (Expected; false once it was read: parts after the changed one keep the values found below the old key. A path with a key that is neither a name nor an index cannot be read.)", "quantifier": "every source, sequence of edits and read", "why_tests_cant": "Every interleaving of edits and reads.", "anchors": ["pilo/source/__init__.py:Path.value", "pilo/source/__init__.py:Path.__setitem__", "pilo/source/__init__.py:Path.__delitem__", "pilo/source/__init__.py:Path.insert"]}
{"id": "C88", "title": "The type probe is the form up to the type field", "statement": "Types.for_field makes a form class with copies of the fields of the type field's form up to and including the type field, in the same order, with the same names, keys and choices, and nothing else; it always finds the type field and changes no existing class or field. (Two fields of the same name: the probe has only the later one.)", "quantifier": "every class heap that can be built, every type field and base form whose fields up to the type field differ in name and creation count", "why_tests_cant": "All class hierarchies.", "anchors": ["pilo/__init__.py:Types.for_field", "pilo/__init__.py:Types.__init__", "pilo/fields.py:Field.clone", "pilo/fields.py:Field.attach", "pilo/fields.py:FormMeta.__new__"]}
{"id": "C89", "title": "Form.from_fields does not depend on keyword order", "statement": "Form.from_fields(**fields) makes a form class that does not depend on the order of the keywords, whose fields are the given ones in the order they were created, each named by its keyword. (The last is false of a field another class has registered: it keeps its name and key.)", "quantifier": "every class heap that can be built, base without fields, and keywords", "why_tests_cant": "All orders of all numbers of keywords.", "anchors": ["pilo/fields.py:Form.from_fields", "pilo/fields.py:SubForm.from_fields", "pilo/fields.py:FormMeta.__new__", "pilo/fields.py:Field.attach"]}
{"id": "C90", "title": "Options of several lines are lists", "statement": "In a configuration, an option whose text has a line break is a list of its lines without the space around them, blank lines left out: its length is their number, index i reads the i-th and an index beyond them is missing. An option on one line is the list of words shlex.split finds; what that raises, its length and the reads of its elements raise.", "quantifier": "every configuration, option text and index", "why_tests_cant": "All texts and indices.", "anchors": ["pilo/source/configparser.py:Sequence.__init__", "pilo/source/configparser.py:Sequence.__getitem__", "pilo/source/configparser.py:Sequence.__len__", "pilo/source/configparser.py:ConfigPath.resolve", "pilo/source/configparser.py:ConfigSource.sequence"]}
{"id": "C91", "title": "Chained methods are constructor keywords", "statement": "Calling min, max, range, after, before, between, format, options, ignore, translate and tag on a constructed field, in any number and order, makes the field that the constructor makes when it is given the values said last (the options of several calls accumulate as C72 says); other classes have no such methods. translate takes a dict or a sequence of pairs, which adds to the translations, and refuses anything else.", "quantifier": "every number, list, date, time and datetime constructor call and every sequence of such calls", "why_tests_cant": "Unbounded sequences of calls with any values.", "anchors": ["pilo/fields.py:Number.min", "pilo/fields.py:Number.max", "pilo/fields.py:Number.range", "pilo/fields.py:List.min", "pilo/fields.py:List.max", "pilo/fields.py:List.range", "pilo/fields.py:RangeMixin.after", "pilo/fields.py:RangeMixin.before", "pilo/fields.py:RangeMixin.between", "pilo/fields.py:Date.format", "pilo/fields.py:Time.format", "pilo/fields.py:Datetime.format", "pilo/fields.py:Field.options", "pilo/fields.py:Field.ignore", "pilo/fields.py:Field.translate", "pilo/fields.py:Field.tag"]}
{"id": "C92", "title": "Infinities and NaN against bounds and ignored values", "statement": "An infinity is compared with the bounds as the end of the line it is, whatever the classes of number and bound (int, float, Decimal): the violated bound is the one reported. A number equal to an ignored one of any class is treated as absent. NaN is stored by a field with any int or float bounds, whatever its ignored values and translations; it raises decimal.InvalidOperation, reporting nothing, when it meets a bound and one of the two is a Decimal.", "quantifier": "every number, infinity or NaN, bounds, translations and ignored values; every source; collect and raise mode", "why_tests_cant": "Universal over numbers; special floats are rarely tested.", "anchors": ["pilo/fields.py:Number._validate", "pilo/fields.py:Field._filter", "pilo/fields.py:Field._munge"]}
{"id": "C93", "title": "Sub-form fields map their form as they are told", "statement": "A SubForm field maps a new form of its class exactly as form.map(unmapped=...) does with what its unmapped keyword says, is that form if this reports no error and ERROR otherwise; a PolymorphicSubForm does the same with the class its type field chooses. reset makes no difference to either, since the form is new. SubForm accepts reset, unmapped and flat in any combination.", "quantifier": "every form class, arguments, keywords, path and state, whatever the fields inside do", "why_tests_cant": "All forms and all states.", "anchors": ["pilo/fields.py:SubForm.__init__", "pilo/fields.py:SubForm.options", "pilo/fields.py:SubForm._parse", "pilo/fields.py:PolymorphicSubForm.__init__", "pilo/fields.py:PolymorphicSubForm._parse", "pilo/fields.py:Form._reset"]}
{"id": "C94", "title": "A Decimal holds exactly the number given", "statement": "A Decimal field over an int, a bool, a float or a Decimal is a decimal of exactly the same numeric value (a Decimal is itself, infinities and NaN stay what they are), and over a text the decimal it spells; it is accepted iff this value lies within the bounds, else the first bound it is beyond is reported once.", "quantifier": "every number and text, bounds, sources, contexts; collect and raise mode", "why_tests_cant": "All numbers: the exact value of a float has up to 767 digits.", "anchors": ["pilo/fields.py:Decimal._parse", "pilo/fields.py:Number._validate"]}
{"id": "C95", "title": "Unknown keywords are refused", "statement": "A constructor of a field that is given a keyword its class does not know raises TypeError, whatever else it is given; so does one that is given min_value or max_value beside a range, min_length or max_length beside a length, or field beside the field of a list. options refuses every keyword that is no option, src included.", "quantifier": "every field class, arguments, keyword and place among the keywords", "why_tests_cant": "All names: tests misspell a few.", "anchors": ["pilo/fields.py:Field.__init__", "pilo/fields.py:Field.options", "pilo/fields.py:String.__init__", "pilo/fields.py:Number.__init__", "pilo/fields.py:Date.__init__", "pilo/fields.py:Time.__init__", "pilo/fields.py:Datetime.__init__", "pilo/fields.py:Tuple.__init__", "pilo/fields.py:List.__init__", "pilo/fields.py:Dict.__init__", "pilo/fields.py:SubForm.__init__", "pilo/fields.py:SubForm.options", "pilo/fields.py:PolymorphicSubForm.__init__", "pilo/fields.py:Group.__init__"]}
{"id": "C96", "title": "What a source reads as each type", "statement": "A native or configuration source reads as text only text; as integer what denotes one (integers but not booleans, floats without a fraction, decimal texts); as float floats, integers and booleans rounded to the nearest double, and texts float() accepts; as boolean booleans, integers (0 is false) and the texts 0, f, false, 1, t, true in any case. A strict JSON source reads only values of the type, and integers and booleans as floats; one that is not strict also any value as its text, whatever denotes an integer as one, texts as floats, and integers as booleans, but no texts as booleans. Everything else raises the error naming the value and the type, and an integer beyond the doubles read as float OverflowError.", "quantifier": "every source, strictness, type and value", "why_tests_cant": "All values, including numbers of any size.", "anchors": ["pilo/source/__init__.py:ParserMixin.as_string", "pilo/source/__init__.py:ParserMixin.as_int", "pilo/source/__init__.py:ParserMixin.as_float", "pilo/source/__init__.py:ParserMixin.as_bool", "pilo/source/__init__.py:ParserMixin.parser", "pilo/source/json.py:JsonSource.as_string", "pilo/source/json.py:JsonSource.as_int", "pilo/source/json.py:JsonSource.as_float", "pilo/source/json.py:JsonSource.as_bool", "pilo/source/json.py:JsonSource.primitive"]}
{"id": "C97", "title": "from_context reads a variable of the context", "statement": "A field with from_context() maps, on Python 2, the value that the innermost open block gives its name, as a native source would hold it: read as the field's type, translated, ignored or validated, with errors at a path that is the name alone; a name no block gives is missing and takes the default. Names that the context has itself (push, stack and five others) read that attribute whatever the blocks give, which no type but Any accepts, and src, which the field's own block gives, reads the word src. It needs no source, and leaves the context as it was whatever happens. On Python 3, which has no contextlib.nested, mapping it raises AttributeError.", "quantifier": "every reachable context, field, variable and value; collect and raise mode", "why_tests_cant": "All nestings of blocks; nothing in the test suite calls it.", "anchors": ["pilo/fields.py:Field.from_context", "pilo/fields.py:Field._map", "pilo/fields.py:Field._compute", "pilo/context.py:Context.__getattr__", "pilo/context.py:Context.push", "pilo/context.py:Context.restore", "pilo/source/default.py:DefaultPath.resolve"]}
{"id": "C98", "title": "An application's own error classes", "statement": "A class that the context gives as Missing or Invalid, in the innermost block that gives one, makes the errors of missing and invalid fields in place of pilo's; mapping fields and closing blocks leaves what is in force as it was. A collecting list keeps everything in order and raises nothing. A raising list keeps everything too and raises, at each call, one FormError of exactly the FieldErrors reported so far, or, when there are none, the first thing reported; so an exception reported after others need not be the one raised. If the class itself raises, nothing is reported. With no class given this is what mapping does in the other properties.", "quantifier": "every context, class, error and history of reports; collect and raise mode", "why_tests_cant": "All histories of reports and all classes; nothing in the test suite replaces them.", "anchors": ["pilo/fields.py:Errors.missing", "pilo/fields.py:Errors.invalid", "pilo/fields.py:RaiseErrors.__call__", "pilo/fields.py:CollectErrors.__call__", "pilo/fields.py:Missing.__init__", "pilo/fields.py:Invalid.__init__", "pilo/context.py:Context.__getattr__", "pilo/context.py:Context.push"]}
{"id": "C99", "title": "A form is a source like the dict it is", "statement": "A native source made of a form, which is a dict, answers every read at every path as a source of a plain dict with the form's entries does: the values, whether they exist or are null, keys, sequences and primitives, and the values it caches; only at the root is the value the form itself, and no value of a primitive type. A form inside the data of a native, JSON or configuration source resolves keys and lists them as the dict would.", "quantifier": "every form, entries, aliases, ignores, path and cached values; forms without attributes that dicts lack", "why_tests_cant": "All paths and all nestings of forms in data.", "anchors": ["pilo/source/default.py:DefaultPath.resolve", "pilo/source/default.py:DefaultSource.mapping", "pilo/source/default.py:DefaultSource.sequence", "pilo/source/default.py:DefaultSource.primitive", "pilo/source/__init__.py:Path.value", "pilo/source/__init__.py:Path.exists", "pilo/source/__init__.py:Path.is_null"]}
{"id": "C100", "title": "What format writes the field reads", "statement": "Called with an instant the field maps, format() of a Date, Time or Datetime returns it as a text that the same field maps to the instant again. (Expected. True with a format that strptime undoes, the first one of a date with several; false with the format 'iso8601', which writes the word iso8601 for every instant, and for a datetime.time, which a Time maps but which becomes the format of the field instead of being written. Without a format it is a TypeError, and so are several formats of a Time or Datetime.)", "quantifier": "every field, format, instant and source, for any strftime and strptime", "why_tests_cant": "All instants and formats; nothing in the test suite calls format with an instant.", "anchors": ["pilo/fields.py:Date.format", "pilo/fields.py:Time.format", "pilo/fields.py:Datetime.format", "pilo/fields.py:Date._parse", "pilo/fields.py:Time._parse", "pilo/fields.py:Datetime._parse"]}
{"id": "C101", "title": "A field called with a value returns it", "statement": "field(value) returns the value, translated, whatever the context; outside any mapping it returns the default in place of an ignored value and refuses a value the field does not take, field() returns the default, and the context is as before. In a block that gives a list of errors but no source, a refused value is reported to that list as an error at no place. (Expected; refusing is an AttributeError for want of a list of errors, and field() is an AttributeError whether there is a default or not.)", "quantifier": "every field without hooks, value and state", "why_tests_cant": "Every class of field, value and state of the context.", "anchors": ["pilo/fields.py:Field.map", "pilo/fields.py:Field._map", "pilo/fields.py:Field._munge", "pilo/fields.py:Field._default", "pilo/fields.py:Field._validate", "pilo/fields.py:Field._compute"]}
{"id": "C102", "title": "A union of documents maps like the document that merges them", "statement": "A form of strings, integers, floats, booleans, dates, times, datetimes, code and fields of no type, each read from one key of the top level, maps from a union of JSON documents, whatever the merge strategies and depth, as from one JSON document that has at every key what the first of the documents with the key has there: the same values, errors at the same paths, exceptions and context. Values at the keys read are not null: a null is an error in the union, also for a nullable field. A Decimal is read as a number from the document and as a text from the union, and may differ. The same holds of unions of dicts of plain Python data, for values that are no dates or times: those a union reads as texts.", "quantifier": "every list of documents, form, tags, merge and error mode; hooks that read forms and report errors", "why_tests_cant": "All documents and all merges of them.", "anchors": ["pilo/source/union.py:UnionPath.resolve", "pilo/source/union.py:UnionSource.primitive", "pilo/source/union.py:UnionPath.is_null", "pilo/source/union.py:Join.primitive", "pilo/source/union.py:Mapping.__init__", "pilo/fields.py:Form.map", "pilo/fields.py:Form._root_map", "pilo/fields.py:Form._map", "pilo/fields.py:Field._compute"]}
{"id": "C103", "title": "A union maps forms within forms like the document that merges them", "statement": "A form, whose fields are as in the property before this, forms again of such fields, or Dicts of such fields and forms, to any depth, maps from a union of JSON documents as from one JSON document, and from a union of dicts of plain Python data, where no date or time is read, as from one such dict: one that has, at each key a value is read from, the value of the first of the mappings with the key, and at each key a form or a Dict is read from, a dict that agrees in the same way with the mappings there as the union's strategy merges them (all, the first, or the last not null; by merge_depth the first where there are at least that many). Where every key is read, by a Dict or with unmapped='capture' or unmapped fields, the dict has the keys of the mappings, each where it is first met. The values, errors and their paths, exceptions and context are the same.", "quantifier": "every list of documents, merge strategy, merge depth, nesting of forms, tags and error mode; hooks that read forms and report errors", "why_tests_cant": "All documents, all nestings and all merges of them.", "anchors": ["pilo/source/union.py:UnionPath.resolve", "pilo/source/union.py:UnionSource.mapping", "pilo/source/union.py:UnionSource.primitive", "pilo/source/union.py:UnionPath.is_null", "pilo/source/union.py:Join.primitive", "pilo/source/union.py:Mapping.__init__", "pilo/fields.py:Form.map", "pilo/fields.py:Form._root_map", "pilo/fields.py:Form._nested_map", "pilo/fields.py:Form._map", "pilo/fields.py:Form._unmapped", "pilo/fields.py:Field._compute", "pilo/fields.py:SubForm._parse", "pilo/fields.py:Dict._parse"]}
{"id": "C104", "title": "A source that cannot be opened fails the mapping and changes nothing but the reset", "statement": "Mapping a form from a source that cannot be opened raises, whatever the error mode: a configuration without the section it is read for (NoSectionError), a union of no sources (ValueError), a union one of whose sources cannot be opened (its exception) or whose data is neither null nor a mapping (a source error), on Python 2 a mount of such, and on Python 3 every mount (AttributeError). An argument that is neither a source nor a dict, list, tuple, form or None is a ValueError. The context, the paths and the other forms are as before; the form itself has been reset already, if it was to be. Other plain sources, unions of JSON and plain Python documents and, on Python 2, mounts of these open.", "quantifier": "every form, source, context, mode, tags and reset", "why_tests_cant": "Every source and state; the reset before the failure shows only in forms mapped before.", "anchors": ["pilo/fields.py:Form.map", "pilo/fields.py:Form._root_map", "pilo/context.py:Context.push", "pilo/source/configparser.py:ConfigPath.__init__", "pilo/source/configparser.py:SectionMapping.__init__", "pilo/source/union.py:UnionPath.__init__", "pilo/source/union.py:UnionSource.path", "pilo/source/union.py:Mapping.__init__", "pilo/source/mount.py:MountPath.__init__"]}
{"id": "C105", "title": "The order of the keys of a document does not matter", "statement": "Two JSON documents that differ only in the order of the entries of their mappings, at any depth, map alike to a form of fields that show no mapping as it is: integers, floats, booleans, in a strict source also strings, decimals, dates, times, datetimes and UUIDs, and lists, tuples and forms of such fields that ignore unmapped keys. Hooks may read and change forms, report errors, and ask whether the value exists, is null or is a list and how long, but not look at the value in the source nor handle the FormError of raise mode. The errors are the same, in the same order, at the same paths and with the same text, but for the order in mappings quoted there; the exception raised is the same; and every form has the same entries in the same order. (With unmapped='capture', and for a Dict, a field of no type, or a String of a source that is not strict, the order shows in the values; witnesses.)", "quantifier": "every pair of documents, form, nesting, tags, reset, error mode and context", "why_tests_cant": "All documents, all orders of their keys and all nestings of forms.", "anchors": ["pilo/source/json.py:JsonPath.resolve", "pilo/source/json.py:JsonSource.mapping", "pilo/source/json.py:JsonSource.sequence", "pilo/source/json.py:JsonSource.primitive", "pilo/fields.py:Form.map", "pilo/fields.py:Form._map", "pilo/fields.py:Form._unmapped", "pilo/fields.py:Field._compute", "pilo/fields.py:SubForm._parse", "pilo/fields.py:List._parse", "pilo/fields.py:Tuple._parse"]}
{"id": "C106", "title": "Strict reading refuses more and changes nothing else", "statement": "What a form maps from a JSON document read with strict=True without an error, it maps from the same document read without it: no error either, the same form objects with the same entries, and the same context. Forms of every class of field but the polymorphic one, nested to any depth, with any way of treating unmapped keys, and with hooks that use the value, the errors and the forms and let pass the exception of reading the value as a type. (Not the other way round, and not with a hook that handles that exception; witnesses.)", "quantifier": "every document, form, nesting, unmapped, tags, reset, error mode and context", "why_tests_cant": "All documents and all nestings of forms.", "anchors": ["pilo/source/json.py:JsonSource.as_string", "pilo/source/json.py:JsonSource.as_int", "pilo/source/json.py:JsonSource.as_float", "pilo/source/json.py:JsonSource.as_bool", "pilo/source/json.py:JsonSource.primitive", "pilo/fields.py:Form.map", "pilo/fields.py:Form._map", "pilo/fields.py:Form._unmapped", "pilo/fields.py:Field._compute", "pilo/fields.py:SubForm._parse", "pilo/fields.py:List._parse", "pilo/fields.py:Tuple._parse", "pilo/fields.py:Dict._parse", "pilo/fields.py:Group._parse"]}
{"id": "C107", "title": "The location of a source shows in the paths of errors only", "statement": "Mapping a form from the same JSON document, native value or configuration at two locations gives the same errors in the same order, with the same texts and fields, at paths that differ only in the location in front of them (nothing when there is none, otherwise the location and a colon), also in the errors of a form within an error; the same exception, up to such errors; the same form objects with the same entries; and the same context. Forms of every class of field but the polymorphic one, nested to any depth, with any way of treating unmapped keys, and with hooks that use the value, the errors and the forms and do not handle the FormError of raise mode. (A hook that handles it may keep the path; witness.)", "quantifier": "every source, pair of locations, form, nesting, unmapped, tags, reset, error mode and context", "why_tests_cant": "All sources, all locations and all nestings of forms.", "anchors": ["pilo/source/__init__.py:Source.path", "pilo/source/__init__.py:Path.__str__", "pilo/fields.py:Form.map", "pilo/fields.py:Form._map", "pilo/fields.py:Form._unmapped", "pilo/fields.py:Field._compute", "pilo/fields.py:SubForm._parse", "pilo/fields.py:List._parse", "pilo/fields.py:Tuple._parse", "pilo/fields.py:Dict._parse", "pilo/fields.py:Group._parse"]}
{"id": "C108", "title": "The stack a mapping needs is as deep as its fields are nested", "statement": "Every form of fields of any class but the polymorphic one, with any way of treating unmapped keys, is nested some number of fields deep; and whatever the JSON document, native value or configuration it is mapped from, a recursion limit that allows that many nested fields gives the same errors, exception, form objects and context as every higher one: how deep the document is does not count. (A lower limit may fail the mapping; witness.) So what the other properties say of every limit is said of mappings that never meet it.", "quantifier": "every form, source, recursion limit, unmapped, tags, reset, error mode and context", "why_tests_cant": "All documents, all forms and all recursion limits.", "anchors": ["pilo/fields.py:Form.map", "pilo/fields.py:Form._map", "pilo/fields.py:Form._unmapped", "pilo/fields.py:Field.map", "pilo/fields.py:Field._compute", "pilo/fields.py:SubForm._parse", "pilo/fields.py:List._parse", "pilo/fields.py:Tuple._parse", "pilo/fields.py:Dict._parse", "pilo/fields.py:Group._parse"]}
{"id": "C109", "title": "A mapping sees five variables of the context it is called in", "statement": "A form mapped from a JSON document, a native value or a configuration of its own gives the same errors, exception and form objects in two contexts that bind ignore_default, ignore_missing, tags, form and field alike, whatever else they bind and however their blocks are nested. So opening any number of blocks that bind other names, or that move the path of the enclosing source, makes no difference. Forms of every class of field but the polymorphic one, nested to any depth, with any way of treating unmapped keys, and with hooks that use the value, the errors and the forms only. (Blocks that bind one of the five do make a difference; witness.)", "quantifier": "every pair of contexts, nesting of blocks, form, source, unmapped, tags, reset and error mode", "why_tests_cant": "All contexts, all blocks and all forms.", "anchors": ["pilo/context.py:Context.__getattr__", "pilo/context.py:Context.push", "pilo/fields.py:Form.map", "pilo/fields.py:Form._map", "pilo/fields.py:Form._unmapped", "pilo/fields.py:Field.map", "pilo/fields.py:Field._compute", "pilo/fields.py:SubForm._parse"]}
{"id": "C110", "title": "Mapping a form changes that form and the forms it makes, and no others", "statement": "Every form object that exists when a form is mapped from a JSON document, a native value or a configuration, other than that form, has the same class and the same entries in the same order afterwards, whatever the mapping returns or raises. Forms of every class of field but the polymorphic one, nested to any depth, with any way of treating unmapped keys, with or without attach_parent, and with hooks that change no form; the form that is to stay has no field named parent. (With a field named parent, a form that is the default of a field with attach_parent is changed; witness.)", "quantifier": "every form, other form, source, fuel, unmapped, tags, reset, error mode and context", "why_tests_cant": "All forms and all other forms.", "anchors": ["pilo/fields.py:Form.map", "pilo/fields.py:Form._map", "pilo/fields.py:Form._unmapped", "pilo/fields.py:Field.map", "pilo/fields.py:Field._map", "pilo/fields.py:Field._compute", "pilo/fields.py:SubForm._parse", "pilo/fields.py:List._parse", "pilo/fields.py:Tuple._parse", "pilo/fields.py:Dict._parse", "pilo/fields.py:Group._parse"]}
{"id": "C111", "title": "Forms that ignore unmapped keys hold entries of their fields only", "statement": "If every key of every form object is the name of a field of its class, this is still so after a form has been mapped from a JSON document, a native value or a configuration, also of the form objects made by the mapping, and whatever the mapping returns or raises. Forms of every class of field but the polymorphic one, nested to any depth, none of which captures unmapped keys; attach_parent and hooks that set or delete attributes of forms included. (With unmapped='capture' the other keys of the source are entries too; witness.)", "quantifier": "every form, source, fuel, tags, reset, error mode and context", "why_tests_cant": "All documents, all forms and all hooks.", "anchors": ["pilo/fields.py:Form.map", "pilo/fields.py:Form._map", "pilo/fields.py:Form._unmapped", "pilo/fields.py:Field.map", "pilo/fields.py:Field._map", "pilo/fields.py:Field._compute", "pilo/fields.py:Field.__set__", "pilo/fields.py:SubForm._parse", "pilo/fields.py:List._parse", "pilo/fields.py:Tuple._parse", "pilo/fields.py:Dict._parse", "pilo/fields.py:Group._parse"]}
