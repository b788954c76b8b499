#!/usr/bin/env python3
"""Writes properties.jsonl (kept as a script so the list stays well-formed)."""
import json, os
P = []
def p(title, statement, quantifier, why, anchors):
    P.append(dict(id="C%02d" % (len(P) + 1), title=title, statement=statement,
                  quantifier=quantifier, why_tests_cant=why, anchors=anchors))
F = "pilo/fields.py"; C = "pilo/context.py"; S = "pilo/source/"
def a(f, *syms): return [f + ":" + s for s in syms]

p("Mapping leaves the context as it found it",
  "Calling form.map(...) (in any error mode, nested or not), field.map(...) or reading a field attribute leaves the shared ctx exactly as it was before the call: the same stack of frames and, for every source path that was live before, the same keys. This holds whether the call returns or raises, and whatever the hooks do with the API they are given.",
  "every form/field definition (any nesting, any recursive depth), every hook built from the hook-visible API, every source, every starting context, every outcome",
  "Leaks only show after particular exceptions at particular depths; the property is about all of them and about later unrelated mappings.",
  a(C, "Context.push", "Context.restore", "Context.rewind", "Context.reset") + a(F, "Field.map", "Form.map"))
p("Context variables are scoped",
  "Inside `with ctx(**vars)` a variable given in vars has that value, any other variable has the value it had outside; after the block every variable reads as it did before, also when the block raises. Blocks nest.",
  "every stack of frames, every set of variables, every body",
  "Any finite set of nested blocks leaves infinitely many untested.",
  a(C, "Context.__getattr__", "Context.push", "Context.restore"))
p("rewind shows the older context and restores the newer one",
  "`with ctx.rewind(stop)` where stop selects a frame below the top: inside, variables and the source path are those that were current when that frame was on top; afterwards the stack and the keys of the source path are those before the rewind.",
  "every stack, every stop predicate whose first hit (from the top) is not the top frame itself, every source path",
  "Depends on which frames carry src / src_path keys; combinations are unbounded.",
  a(C, "Context.rewind", "Context.restore"))
p("rewind to the current frame keeps the context usable",
  "`ctx.rewind(stop)` with a stop that accepts the current top frame (such as the docstring's `return True`) leaves a usable context. (Expected from the docstring; the code deletes the whole stack.)",
  "every context with at least one frame",
  "Needs the general statement about which index is deleted; tests never call rewind with a hit on the top frame.",
  a(C, "Context.rewind"))
p("A rewind that finds no frame changes nothing",
  "ctx.rewind(stop) with a stop no frame satisfies raises RewindDidNotStop and leaves the stack and the source path unchanged.",
  "every stack and every stop predicate rejecting all of its frames",
  "Universal over stacks.", a(C, "Context.rewind", "RewindDidNotStop"))
p("Threads do not see each other's context",
  "With any interleaving of context operations by any number of threads, each thread observes exactly what it would observe running alone.",
  "every number of threads, every schedule of push/restore/read operations",
  "Schedules are unbounded and a test only ever sees a few.", a(C, "Context"))
p("Reading a path is repeatable",
  "During a mapping, the value read at a location does not depend on what was read before at that location or below or above it: in any sequence of descending, ascending and reading, each read equals resolving the current keys afresh from the data. For JSON sources this holds for every key; the same for ConfigParser sources; for native (DefaultSource) data without aliases or ignores it holds as long as no read goes through a missing prefix. The value read from JSON data is the one at that location of the document.",
  "every data, every sequence of append/pop/value/exists/is_null/primitive/sequence/mapping operations",
  "The cache makes correctness depend on operation history; histories are unbounded.",
  a(S + "__init__.py", "Path.value", "Path.exists", "Path.insert", "Path.__delitem__"))
p("Existence of a missing native location is stable",
  "Asking twice whether a location below a missing native container exists gives the same answer. (Expected; false for the key 'name' because the cached sentinel has that attribute.)",
  "every native data and path", "Needs the second read through a cached missing prefix.",
  a(S + "__init__.py", "Path.value") + a(S + "default.py", "DefaultPath._as_attr"))
p("Error locations are unambiguous",
  "The text of a source path determines the path: two different key sequences (string keys free of '.', '[' and not looking like an integer) never render the same. The text is the location, the section in brackets, the first key, then .name or [index] for each further key; it cannot be had when a further key is neither.",
  "all pairs of paths of any length", "Injectivity is a statement about all pairs.",
  a(S + "__init__.py", "Path.__str__"))
p("Native lookup order",
  "Looking up key k in native data tries the item k, then (at top level) the alias of k, then the attribute k, then k split at dots one step at a time; the first that is present wins and a present value is returned unchanged.",
  "every container of ordinary values, key without a call suffix, alias table and depth", "The precedence is over all combinations of presence.",
  a(S + "default.py", "DefaultPath.resolve", "DefaultPath._resolve"))
p("A key absent from a dict is missing",
  "If a plain dict has no key k (no dot, no '()'), then a field with src k treats it as absent. True when k is not the name of an attribute of dict; expected always.",
  "every dict and key", "The exceptions are names like 'items', 'copy', 'keys' that no test uses.",
  a(S + "default.py", "DefaultPath._as_attr", "DefaultPath.resolve"))
p("Integers accept exactly integral values",
  "On native sources an Integer field accepts exactly: ints that are not bools, floats with an integral value, and strings that are base-10 integers (optionally signed and space-padded); the result is the number denoted. Everything else is an error, never a silently wrong number.",
  "every value", "Values are unbounded.", a(S + "__init__.py", "ParserMixin.as_int") + a(F, "Integer._parse"))
p("Integer text round-trips",
  "For every integer n, mapping str(n) with an Integer field gives n; with surrounding spaces or a '+' sign too.",
  "every integer", "Infinitely many integers.", a(S + "__init__.py", "ParserMixin.as_int"))
p("Booleans accept exactly the documented spellings",
  "On native sources a Boolean field accepts exactly bools, ints (non-zero is true) and, case-insensitively, '0','f','false','1','t','true'.",
  "every value", "Case variants and all other strings.", a(S + "__init__.py", "ParserMixin.as_bool"))
p("Strict JSON never coerces",
  "With JsonSource(strict=True) a successfully parsed primitive is the JSON value itself (an int is accepted for a float as the nearest double, the even one of two, and raises OverflowError from 2**1024 - 2**970 on); with strict=False every value accepted strictly is accepted with the same result.",
  "every JSON value and primitive type", "Universal over values and types.",
  a(S + "json.py", "JsonSource.as_string", "JsonSource.as_int", "JsonSource.as_float", "JsonSource.as_bool"))
p("Steps run in the documented order",
  "Mapping a field is resolve, compute, munge, filter, validate, with the default used exactly when compute or munge yields nothing or the filter rejects, and with each later step skipped as soon as an earlier one decides the result. Hooks that are set run in place of (compute, parse, resolve, default) or after (munge, filter, validate) the built-in step; a filter or validate hook says no by returning None, False, a zero or something empty.",
  "every field, every hook, every source, every context", "All hook combinations times all values.",
  a(F, "Field._map", "Field.map"))
p("Missing required fields",
  "A field without default whose source key is absent yields exactly one Missing error, located at that key, and nothing is stored.",
  "every hook-free field kind, source, context without ignore_missing", "All kinds at all depths.",
  a(F, "Field._default", "Errors.missing", "Missing"))
p("Defaults are returned verbatim",
  "If the key is absent (or the value filtered out) and a default is set, the result is that default, with no error, and neither translations, filters nor validation are applied to it.",
  "every field kind, default value and source", "All defaults, including invalid ones.",
  a(F, "Field._default", "Field._map"))
p("Optional fields vanish silently",
  "With optional=True an absent key stores nothing and reports nothing.",
  "every field kind and source", "All kinds at all depths.", a(F, "Field.options", "Field._default"))
p("ignore_default and ignore_missing",
  "Under ctx(ignore_default=True) a static default is not used: the absent field is Missing, unless ignore_missing is set too, in which case nothing is stored or reported. Under ignore_missing alone absent required fields are silently skipped and defaults still apply.",
  "every field without a default hook, every source, every context", "Four context modes times all fields.",
  a(F, "Field._default"))
p("Null handling",
  "A present null maps to None without error unless the field was made non-nullable, in which case there is exactly one 'not nullable' error and nothing is stored; type parsers are never run on null.",
  "every built-in field kind over plain sources", "All kinds and depths.",
  a(F, "Field._compute", "Field._validate"))
p("Ignored values fall back to the default",
  "A value equal to one of the field's ignored values is treated as if it were absent (after translation): the default is used, or Missing is reported.",
  "every field without hooks, ignore list and value", "Universal over values.", a(F, "Field._filter", "Field.ignore"))
p("Translations precede filtering and validation",
  "A computed value that is a key of the translation table is replaced by the table's value before hooks, filters and validation see it; other values are unchanged; a String's choices also admit translated values.",
  "every table and value", "Universal over tables.", a(F, "Field._munge", "Field.translate", "String._validate"))
p("Number bounds are inclusive and complete",
  "With min and/or max a mapped number is stored iff min <= value <= max (exact comparison across int, float and Decimal); otherwise exactly one error naming the violated bound (min first) is reported.",
  "every finite number and bounds", "Universal over numbers.", a(F, "Number._validate"))
p("String constraints",
  "A string is accepted iff all of alphabet, minimum length, maximum length, pattern and choices hold; if not, exactly one error is reported and it is the first violated in that order. A translation that is not a text raises TypeError if there is any constraint but choices.",
  "every string and every combination of constraints", "All strings and combinations.", a(F, "String._validate"))
p("No field disappears silently",
  "For fields without hooks, whose data, translations and default hold none of the internal markers NONE, ERROR, NOT_SET: mapping a field either yields a value, or reports at least one error, or the field is optional (or ignore_missing is set). (With a validate hook this is false: a hook returning False without reporting drops the value with no error.)",
  "every hook-free field of every kind, any source", "A statement about absence of silent failure over all inputs.",
  a(F, "Field._map", "Form._map"))
p("Unparsable dates are reported",
  "A Date field given a string that matches none of its formats reports an error. (Expected; in the code it maps to None silently.)",
  "every string and list of formats", "Universal over strings; tests only use parsable dates.", a(F, "Date._parse"))
p("Unparsable decimals are reported",
  "A Decimal field given a string that is not a number reports an error like every other numeric field. (Expected; in the code decimal.InvalidOperation escapes from map.)",
  "every string", "Universal.", a(F, "Decimal._parse"))
p("Bad JSON data never crashes a form",
  "For a form whose fields have no hooks and are built from strings, integers, booleans, lists, tuples, dicts and sub-forms, mapping any JSON object with JsonSource returns (it raises nothing); every problem is in the returned errors.",
  "every such form, every JSON object", "Crash freedom over all inputs and all form shapes.",
  a(F, "Form.map", "Field._compute"))
p("Mapping is compositional",
  "For hook-free fields (and pure hooks) over plain native data, JSON documents or configurations, field.map equals a direct recursive evaluation of the field on the value found at its location: the shared context, mutable path and its cache are unobservable, and the value of a container is determined by the values of its parts.",
  "every field (any nesting), every value", "Refinement for all programs and inputs.",
  a(F, "Field.map", "List._parse", "Tuple._parse", "Dict._parse", "SubForm._parse", "Form.map"))
p("Lists keep order and drop only invalid items",
  "A List maps to the in-order list of its successfully mapped items; every dropped item that is not optional has an error located at its index. A value that is no sequence is invalid, unless allow_field makes it a list of one.",
  "order and survivors: every item field, source and sequence of any length; one error per dropped item: item fields without hooks, over JSON, native and configuration sources", "All lengths and items.", a(F, "List._parse"))
p("List length bounds",
  "min/max length are checked against the number of surviving items, with exactly one error if violated.",
  "every list field and data", "All lengths.", a(F, "List._validate"))
p("Tuples have exactly one value per position",
  "A Tuple field given a sequence of the wrong length reports one error and stores nothing; given one of the right length with every item valid it stores exactly the mapped items in order. (That a stored tuple always has the declared arity is false: invalid items are dropped.)",
  "every tuple field and data", "All arities and items.", a(F, "Tuple._parse"))
p("Dicts map every admitted key",
  "A Dict maps to exactly the pairs (mapped key, mapped value) for the source keys accepted by the key filter whose value and key both map; required_keys and max_keys are then enforced with one error each.",
  "every key/value field and mapping", "All mappings.", a(F, "Dict._parse", "Dict._validate"))
p("Groups dispatch on the first matching pattern",
  "A Group maps to the list, in source key order, of (key, captures, value) for keys matched by some entry, each mapped with the first matching entry; if no key matches the default (an empty list) is used. A key that is not a text and comes to a pattern raises TypeError.",
  "every group and mapping", "All mappings and matchers.", a(F, "Group._parse", "Group._match"))
p("A bare field in a Group reads the key it names",
  "Group(String('a')) maps the value at key 'a'. (Expected; the code looks up 'a' inside the value at 'a'.)",
  "every bare field in a Group", "Only tuple entries are tested.", a(F, "Group.__init__", "Group._parse"))
p("Sub-form errors surface exactly once with full paths",
  "The errors returned by form.map contain, for each sub-form (directly nested, in lists, tuples or dicts), exactly the sub-form's own errors, in order, located at their full path; a sub-form with errors is not stored.",
  "every nesting", "All nestings and inputs.", a(F, "Form._nested_map", "SubForm._parse"))
p("A flat sub-form reads the enclosing mapping",
  "A SubForm with flat=True yields the same entries and errors as its fields would have yielded if mapped in the enclosing form.",
  "every form type and mapping", "All forms.", a(F, "SubForm.options"))
p("Collect mode reports all errors in field order",
  "form.map(src) in collect mode maps every selected field in declaration order and returns the concatenation of the errors of each, however many earlier fields failed.",
  "every form and source", "All subsets of failing fields.", a(F, "Form._map", "CollectErrors"))
p("Raise mode raises iff collect mode reports",
  "form.map(src, error='raise') raises FormError exactly when collect mode would return at least one error (hook-free forms over plain sources); otherwise it returns the form with the same entries.",
  "every hook-free form without PolymorphicSubForm fields; JSON documents, configurations and native data without aliases or ignores", "All forms and inputs.", a(F, "RaiseErrors", "Form.map"))
p("Raise mode stops at the first error",
  "The FormError raised in raise mode carries exactly the first error collect mode would report. True for leaf fields at top level; expected always, but false inside a List/Dict/Tuple, where the enclosing field catches the FormError and adds an Invalid.",
  "every form and source", "Needs nested containers in raise mode.", a(F, "RaiseErrors.__call__", "Field._compute"))
p("The constructor is map followed by raise",
  "Form(src) returns a form with exactly the entries form.map(src) produces when there are no errors and otherwise raises FormError carrying exactly those errors in order.",
  "every form class and source", "All forms and inputs.", a(F, "Form.__init__"))
p("Tags select fields",
  "form.map(src, tags=T) maps exactly the fields having a tag in T (all fields if T is empty); the others are neither read, reported nor changed.",
  "every tag set and source; every form whose fields have no attach_parent and no hook that sets, deletes or lazily reads an attribute of a form", "All tag assignments.", a(F, "Form._map", "Form.map"))
p("reset clears exactly the selected fields first",
  "map(reset=True, tags=T) removes the entries of the selected fields before mapping and no other entry; without reset, entries whose field does not map now keep their old value.",
  "every form state, tag set and source; every form whose fields have no attach_parent and no hook that sets, deletes or lazily reads an attribute of a form", "All prior states.", a(F, "Form._reset", "Form.map"))
p("unmapped='capture' collects the remaining keys",
  "With unmapped='capture' every source key that is a string and not the name of an entry just mapped is stored under its own name with its raw value; with 'ignore' none is; an invalid directive is a ValueError.",
  "every form and mapping", "All mappings.", a(F, "Form._unmapped"))
p("Unread keys do not matter",
  "Adding, removing or changing source keys that no field of the form reads changes neither the entries nor the errors (unmapped='ignore').",
  "every form without Group fields and resolve hooks and every pair of JSON objects, dicts or configurations agreeing on the read keys", "A two-run (non-interference) property.",
  a(F, "Form._map"))
p("Mapping the same source twice changes nothing",
  "For hook-free forms without sub-forms, mapping a source a second time returns the same errors and leaves the same entries.",
  "every such form, state and source", "Two-run property.", a(F, "Form.map"))
p("Attribute access agrees with entries",
  "Reading an attribute whose field has an entry returns it; setting stores it; deleting removes it and only it, and deleting an absent one is a no-op.",
  "every form state, field and value", "All states.", a(F, "Field.__get__", "Field.__set__", "Field.__delete__"))
p("Lazy attribute reads never expose sentinels",
  "Reading another field's attribute from a hook during mapping returns a proper value or raises AttributeError, never an internal sentinel. (Expected; false when the read rewinds the context.)",
  "every form and hook", "Needs the rewind branch with an absent field.", a(F, "Field.__get__"))
p("has() answers yes or no",
  "form.has(name) is True iff the form has an entry for name and otherwise False. (Expected; a missing required field raises FormError and a defaulted one AttributeError, the name of a method of forms such as 'map' is True, and that of another attribute such as 'keys' raises AttributeError.)",
  "every form and name", "Tests only cover present entries.", a(F, "Form.has"))
p("flatten yields every leaf once",
  "flatten() yields, in field order, exactly the entries that are not forms, of the form and of every directly nested form, each with the chain of fields leading to it.",
  "every form state of any nesting depth", "All nestings.", a(F, "Form.flatten"))
p("filter(tags) and its inverse partition the form",
  "For a form whose values are not nested forms, filter(*T) keeps exactly the entries of fields with a tag in T, filter(*T, inv=True) exactly the entries of the other fields; the original is unchanged.",
  "every form state and tag set", "All states and tag sets.", a(F, "Form.filter", "Form.munge"))
p("copy is a shallow, independent copy",
  "copy() has the same entries; later changes to the entries of either form do not affect the other; nested forms are shared.",
  "every form state and every sequence of later updates", "All later updates.", a(F, "Form.copy"))
p("Fields are ordered by declaration across inheritance",
  "A form class's field list contains each of its fields exactly once, in order of first declaration along the class hierarchy: a subclass's override takes the place of the field it overrides, new fields come after.",
  "every class hierarchy", "All hierarchies and override patterns.", a(F, "FormMeta.__new__", "Field.attach", "CreatedCountMixin"))
p("Polymorphic dispatch picks the class registered for the identity",
  "A PolymorphicSubForm maps with the form class whose type field lists the identity found in the data; an unknown identity is exactly one error.",
  "every class table and data", "All tables and data.", a(F, "PolymorphicSubForm._form_type", "Type.probe") + a("pilo/__init__.py", "Types.map"))
p("Later subclasses are dispatched too",
  "Defining a new subclass after the type table was first used makes its identity known. (Expected; the table is computed once and never refreshed.)",
  "every hierarchy and order of definition and use", "Order of definition and use.", a(F, "Type.probe"))
p("A union combines the keys of its sources",
  "With merge='combine' the keys visible in a union at a location are exactly those of any source having a non-null mapping there, and a primitive is taken from the first source (in order) that has the key.",
  "every list of JSON sources and native sources without aliases or ignores, every data, keys of one step (no dots, no call suffix, indices from 0)", "All numbers of sources and data.", a(S + "union.py", "Mapping", "Join.primitive", "UnionSource.mapping"))
p("merge='first' and 'last' pick one mapping",
  "With 'first' exactly the first existing mapping is used (null counts as existing and hides the rest), with 'last' the last existing non-null one. Any other merge strategy raises ValueError as soon as a mapping is asked for.",
  "every list of sources as in C57", "All numbers of sources.", a(S + "union.py", "Mapping.__init__"))
p("Combined sequences concatenate",
  "With sequence merge 'combine' the union's sequence has the total length and its i-th element is that of the concatenation. An invalid strategy is noticed only when a second sequence is met, and then raises IndexError.",
  "every list of sources as in C57 with sequences, every index", "All lengths and indices.", a(S + "union.py", "Sequence"))
p("merge_depth limits merging by depth",
  "merge_depth=d applies the merge rule only at path depth less than d. (Expected and true for sequences; for mappings the code compares d with the number of sources.)",
  "every union and depth", "Needs depth and source count to differ.", a(S + "union.py", "Mapping.__init__", "Sequence.__init__"))
p("A mount routes each key to its own source",
  "Below key k a MountSource behaves exactly like the source mounted at k, and what is read under one mount never affects another (Python 2). A List below a mount whose value is no sequence raises AttributeError instead of reporting an error. On Python 3 mapping from a MountSource raises AttributeError before any field is looked at.",
  "every set of mounts and sequence of reads", "All histories.", a(S + "mount.py", "MountPath"))
p("A missing mount is a missing key",
  "A field whose src names no mount is absent. (Expected; the code says it exists, and primitives raise KeyError; on Python 3 no mount works at all.)",
  "every mount source and key", "Only existing mounts are tested.", a(S + "mount.py", "MountPath.path", "MountPath.primitive"))
p("Config lookup precedence",
  "In a configuration section, 'name[key]' options form a mapping under name that wins over a plain option name, which wins over the defaults.",
  "every section and key", "All option sets.", a(S + "configparser.py", "SectionMapping.__getitem__"))
p("FormError text lists every error",
  "str(FormError) has one '* Class: message' line per error, in order.",
  "every list of errors", "All lengths.", a(F, "FormError.message"))
p("attach_parent accepts every mapped value",
  "A field with attach_parent=True that maps None or a primitive still maps. (Expected; setting .parent on such a value raises AttributeError out of map.)",
  "every value", "Tests only use objects.", a(F, "Field.map"))
p("Hook registration happens once",
  "Calling a hook with a function when none is set registers it and returns the outermost field; the registered function then receives exactly the later call's arguments, with the attached target or the current form.",
  "every hook and call sequence", "All call sequences.", a(F, "Hook.__call__"))
p("Cloned fields are independent",
  "Changing a clone's ignores, translations or tags does not affect the original. (Expected; the containers are shared.)",
  "every field and later change", "Aliasing is invisible to value tests.", a(F, "Field.clone"))

p("An ignored location stays ignored",
  "A location listed in a DefaultSource's ignores reads as missing whatever was read before. (Expected; false when a location below it is read first, because ignores compare the whole current path.)",
  "every native data, ignores table and reading order", "The order of reads is chosen by the form definition; any fixed order hides the others.",
  a(S+"default.py", "DefaultPath._resolve", "DefaultSource.ignore"))

p("Errors are located at or below the field that reports them",
  "Every error a field adds while it is mapped is about the source path object in use, its text names a location at or below the place where the field was mapped, and no other error list changes; the errors returned by form.map(src) are located in src.",
  "every field of every kind but PolymorphicSubForm with hooks that do not reset the context or read form attributes, every source and state", "The location is the state of a shared mutable path at the time of the report; only an invariant over every nesting shows it is right.",
  a(F, "FieldError", "Field._map", "List._parse", "SubForm._parse", "Form._nested_map") + a("pilo/context.py", "Context.push", "Context.restore"))

p("A union finds what is nested in its lists and mappings",
  "A value that can be read through a union key by key is also found when two keys are appended to the path before it is asked for, as a field with a src inside a List does. (Expected; false: values not yet opened as a mapping or a sequence have no keys.)",
  "every union, location and pair of keys", "Depends on which locations earlier reads opened.",
  a(S+"union.py", "Join", "Sequence.__getitem__", "UnionPath.resolve"))

p("A sequence is read by position",
  "A form mapped from a list or a tuple reads each field from the item at the field's position (nothing when there is none), and whatever is read at or below that location after its first read is what a dict naming the items would give.",
  "every sequence, form class with distinct identifier field names, field, first read and later sequence of reads that stays below the field", "The alias table is consulted or not depending on the length of the current path; tests use two flat fields.",
  a(F, "Form._seq_source") + a(S+"default.py", "DefaultPath._resolve", "DefaultSource.mapping"))

p("Options mean what they say",
  "A field built with default=None maps an absent value and a null to None without an error; with another default an absent value maps to it; with optional=True and no default an absent field vanishes; with neither it is reported missing; a value equal to ignore=v counts as absent. Keywords given in two calls of options amount to the same as in one. (The last is false when the second call takes back what default=None or default implied; ignore=[a, b] and tags=[...] do not accept several values.)",
  "every field class, arguments, keywords, source and state", "Combinations of keywords interact; tests try one keyword at a time.",
  a(F, "Field.options", "Field.__init__", "Field.map"))
p("Constraints given to constructors are the constraints checked",
  "A String built with length, min_length, max_length, pattern, alphabet and choices accepts exactly the texts satisfying all that was given; numbers built with range, min_value, max_value accept exactly the numbers within; a List built with lengths accepts exactly so many surviving items. (length=0 sets no limit, and List takes no integer as length.)",
  "every keyword list that gives the constraints, every value, source and state", "All keyword combinations and values.",
  a(F, "String.__init__", "Number.__init__", "List.__init__"))
p("A constant field maps its constant",
  "After field.constant(v) the field maps v whatever the source holds, provided v passes the field's own checks; so does Type.constant and constant on an attached field. (A second constant raises TypeError instead of replacing the first.)",
  "every field without hooks, value, source and state", "Any source.", a(F, "Field.constant", "Type.constant", "Hook.__call__"))
p("A format field is made of other fields",
  "String.format(fmt, k='a.b', ...) maps to fmt.format of the attributes named, read from the form being mapped; a name that is no field or other attribute of the form it is asked of is reported as one error on the field, and whatever else reading an attribute raises, or str.format itself, is raised and not reported.",
  "every format, list of keywords, nesting of forms and state", "Unbounded attribute chains and keyword lists.", a(F, "String.format"))
p("A capture field maps the group it names",
  "String.capture(pattern, name) maps a matching text to the group called name (else to the field's own name, else to group 1); a text that does not match, or has no such group, counts as missing. (A value that is no text, such as a null, raises TypeError out of map.)",
  "every pattern, name, text, source and state", "Every combination of groups.", a(F, "String.capture"))
p("A number field with a pattern reads what matches",
  "Integer.pattern(p) maps a text to the integer that is the part matched by p, and reports one error if nothing matches or the match is no integer. (Float.pattern does the same, so it reports matched fractions and returns integers.)",
  "every pattern, text, source and state", "All patterns and texts.", a(F, "Integer.pattern", "Float.pattern"))
p("A group is made of the fields given, however nested",
  "Group(...) accepts exactly fields with a src, (src, field) pairs and lists of these nested to any depth; it groups by them in the order given, maps to [] if no key matches, and refuses a field without src, a tuple that is not a pair and anything else, with an error naming the indices.",
  "every nesting of arguments, every mapping", "Unbounded nesting.", a(F, "Group.__init__"))
p("A type has a value if it has one choice",
  "Type.instance(v).value is v and Type.instance(v, w, ...).value raises TypeError. (Type.abstract().value is expected to raise as well; it returns the default hook.) Where the source has nothing, the first maps to v and the second to nothing, without an error.",
  "every list of choices and keywords", "All lists.", a(F, "Type.instance", "Type.value", "Type.abstract"))
p("A tuple has the fields given, in order",
  "Tuple built from two or more fields, or a list or tuple of any number, optionally preceded by a source name, maps a sequence of as many items to the items mapped by the fields in order and reports a sequence of any other length; a single field is refused with TypeError, and so is anything that is not a field (a number or a text with ValueError).",
  "every list of fields, keywords, sequence and state", "All lengths.", a(F, "Tuple.__init__", "Tuple._parse"))

p("A field reads where it was told to",
  "A field built by any constructor (plain, String, number, date and time, List, Dict, Tuple, SubForm, PolymorphicSubForm) reads at the key or index given as its positional argument or as src, below its name if none is given, and the enclosing mapping itself with src=None or, for a sub-form, flat=True.",
  "every constructor, arguments, keywords, name and path", "Each constructor takes its own arguments out before the common one sees the rest; tests try a few combinations.",
  a(F, "Field.__init__", "Field.attach", "Tuple.__init__", "List.__init__", "SubForm.__init__", "SubForm.options"))
p("Dates and times lie within their bounds",
  "A Date, Time or Datetime maps a text its format reads (for a Date: the first format that does), or an instant of its own class, exactly if it lies between after and before, both included; otherwise there is one error that names the bound. A text is one error if there is no format, or if the one format of a Time or Datetime does not read it. (A datetime given to a Date with a bound raises TypeError out of map.)",
  "every class, formats, bounds, text, source and state", "All instants and bounds.",
  a(F, "Date.__init__", "Date._parse", "Date._validate", "Time._parse", "Time._validate", "Datetime._parse", "Datetime._validate", "RangeMixin.after"))

p("values_for lists every value of a context variable",
  "ctx.values_for(k) lists the values that the open blocks give for k, outermost first, and nothing else; ctx.k is the last of them and raises if there is none. (Names of dict methods, such as items, list the methods of the frames; stack, push, reset, rewind, restore and values_for are attributes of the context whatever a block gives.)",
  "every nesting of blocks and every name", "Unbounded nesting and all names.",
  a(C, "Context.values_for", "Context.__getattr__", "Frame.__getattr__"))
p("What configurations a ConfigSource reads",
  "A ConfigSource over a parser with a dict of defaults reads, below every section, the options of the section as C63 says, with the section's defaults. Without a section and without defaults, reading any section that exists raises AttributeError. A configuration given as a text, or by from_file, is never accepted: the constructor raises.",
  "every configuration, section, option, defaults and keywords of the constructor", "All configurations; no test gives a text.",
  a(S + "configparser.py", "ConfigSource.__init__", "ConfigSource.from_file", "Mapping.__getitem__", "ConfigPath.__init__"))
p("preserve_whitespace reads the text below the option",
  "With preserve_whitespace a text value with a line break is replaced by the dedented indented lines of the file below the first line that begins with the option's name after the section's header; every other value is as without it. A file without the header gives the empty text. (Text on the option's own line is lost, and an option whose name begins an earlier one gets the other's text.)",
  "every file, section, option and value", "All files.",
  a(S + "configparser.py", "ConfigSource.as_raw", "ConfigSource.primitive"))

p("The keys of a path are a list",
  "Setting, deleting, inserting and reading keys of a path by (possibly negative) index, its length and its name behave as on a Python list of the keys, whatever is read in between, and the sub-paths of a union follow. (False for mounted sources: inserting before the first key replaces it, it cannot be deleted while there are others, and indices counting back beyond it edit other keys.)",
  "every source, and every sequence of edits and reads", "Unbounded sequences of edits with any index.",
  a(S + "__init__.py", "Path.__setitem__", "Path.__delitem__", "Path.insert", "Path.name") + a(S + "union.py", "UnionPath.__setitem__", "UnionPath.insert") + a(S + "mount.py", "MountPath.__setitem__", "MountPath.__delitem__", "MountPath.insert"))
p("A path reads what is at its keys",
  "After a key of a path was changed, the path reads what is at its new keys. (Expected; false once it was read: parts after the changed one keep the values found below the old key. A path with a key that is neither a name nor an index cannot be read.)",
  "every source, sequence of edits and read", "Every interleaving of edits and reads.",
  a(S + "__init__.py", "Path.value", "Path.__setitem__", "Path.__delitem__", "Path.insert"))

p("The type probe is the form up to the type field",
  "Types.for_field makes a form class with copies of the fields of the type field's form up to and including the type field, in the same order, with the same names, keys and choices, and nothing else; it always finds the type field and changes no existing class or field. (Two fields of the same name: the probe has only the later one.)",
  "every class heap that can be built, every type field and base form whose fields up to the type field differ in name and creation count", "All class hierarchies.",
  a("pilo/__init__.py", "Types.for_field", "Types.__init__") + a(F, "Field.clone", "Field.attach", "FormMeta.__new__"))
p("Form.from_fields does not depend on keyword order",
  "Form.from_fields(**fields) makes a form class that does not depend on the order of the keywords, whose fields are the given ones in the order they were created, each named by its keyword. (The last is false of a field another class has registered: it keeps its name and key.)",
  "every class heap that can be built, base without fields, and keywords", "All orders of all numbers of keywords.",
  a(F, "Form.from_fields", "SubForm.from_fields", "FormMeta.__new__", "Field.attach"))

p("Options of several lines are lists",
  "In a configuration, an option whose text has a line break is a list of its lines without the space around them, blank lines left out: its length is their number, index i reads the i-th and an index beyond them is missing. An option on one line is the list of words shlex.split finds; what that raises, its length and the reads of its elements raise.",
  "every configuration, option text and index", "All texts and indices.",
  a(S + "configparser.py", "Sequence.__init__", "Sequence.__getitem__", "Sequence.__len__", "ConfigPath.resolve", "ConfigSource.sequence"))

p("Chained methods are constructor keywords",
  "Calling min, max, range, after, before, between, format, options, ignore, translate and tag on a constructed field, in any number and order, makes the field that the constructor makes when it is given the values said last (the options of several calls accumulate as C72 says); other classes have no such methods. translate takes a dict or a sequence of pairs, which adds to the translations, and refuses anything else.",
  "every number, list, date, time and datetime constructor call and every sequence of such calls", "Unbounded sequences of calls with any values.",
  a(F, "Number.min", "Number.max", "Number.range", "List.min", "List.max", "List.range", "RangeMixin.after", "RangeMixin.before", "RangeMixin.between", "Date.format", "Time.format", "Datetime.format", "Field.options", "Field.ignore", "Field.translate", "Field.tag"))

p("Infinities and NaN against bounds and ignored values",
  "An infinity is compared with the bounds as the end of the line it is, whatever the classes of number and bound (int, float, Decimal): the violated bound is the one reported. A number equal to an ignored one of any class is treated as absent. NaN is stored by a field with any int or float bounds, whatever its ignored values and translations; it raises decimal.InvalidOperation, reporting nothing, when it meets a bound and one of the two is a Decimal.",
  "every number, infinity or NaN, bounds, translations and ignored values; every source; collect and raise mode", "Universal over numbers; special floats are rarely tested.",
  a(F, "Number._validate", "Field._filter", "Field._munge"))

p("Sub-form fields map their form as they are told",
  "A SubForm field maps a new form of its class exactly as form.map(unmapped=...) does with what its unmapped keyword says, is that form if this reports no error and ERROR otherwise; a PolymorphicSubForm does the same with the class its type field chooses. reset makes no difference to either, since the form is new. SubForm accepts reset, unmapped and flat in any combination.",
  "every form class, arguments, keywords, path and state, whatever the fields inside do", "All forms and all states.",
  a(F, "SubForm.__init__", "SubForm.options", "SubForm._parse", "PolymorphicSubForm.__init__", "PolymorphicSubForm._parse", "Form._reset"))

p("A Decimal holds exactly the number given",
  "A Decimal field over an int, a bool, a float or a Decimal is a decimal of exactly the same numeric value (a Decimal is itself, infinities and NaN stay what they are), and over a text the decimal it spells; it is accepted iff this value lies within the bounds, else the first bound it is beyond is reported once.",
  "every number and text, bounds, sources, contexts; collect and raise mode", "All numbers: the exact value of a float has up to 767 digits.",
  a(F, "Decimal._parse", "Number._validate"))

p("Unknown keywords are refused",
  "A constructor of a field that is given a keyword its class does not know raises TypeError, whatever else it is given; so does one that is given min_value or max_value beside a range, min_length or max_length beside a length, or field beside the field of a list. options refuses every keyword that is no option, src included.",
  "every field class, arguments, keyword and place among the keywords", "All names: tests misspell a few.",
  a(F, "Field.__init__", "Field.options", "String.__init__", "Number.__init__", "Date.__init__", "Time.__init__", "Datetime.__init__", "Tuple.__init__", "List.__init__", "Dict.__init__", "SubForm.__init__", "SubForm.options", "PolymorphicSubForm.__init__", "Group.__init__"))

p("What a source reads as each type",
  "A native or configuration source reads as text only text; as integer what denotes one (integers but not booleans, floats without a fraction, decimal texts); as float floats, integers and booleans rounded to the nearest double, and texts float() accepts; as boolean booleans, integers (0 is false) and the texts 0, f, false, 1, t, true in any case. A strict JSON source reads only values of the type, and integers and booleans as floats; one that is not strict also any value as its text, whatever denotes an integer as one, texts as floats, and integers as booleans, but no texts as booleans. Everything else raises the error naming the value and the type, and an integer beyond the doubles read as float OverflowError.",
  "every source, strictness, type and value", "All values, including numbers of any size.",
  a(S + "__init__.py", "ParserMixin.as_string", "ParserMixin.as_int", "ParserMixin.as_float", "ParserMixin.as_bool", "ParserMixin.parser") + a(S + "json.py", "JsonSource.as_string", "JsonSource.as_int", "JsonSource.as_float", "JsonSource.as_bool", "JsonSource.primitive"))

p("from_context reads a variable of the context",
  "A field with from_context() maps, on Python 2, the value that the innermost open block gives its name, as a native source would hold it: read as the field's type, translated, ignored or validated, with errors at a path that is the name alone; a name no block gives is missing and takes the default. Names that the context has itself (push, stack and five others) read that attribute whatever the blocks give, which no type but Any accepts, and src, which the field's own block gives, reads the word src. It needs no source, and leaves the context as it was whatever happens. On Python 3, which has no contextlib.nested, mapping it raises AttributeError.",
  "every reachable context, field, variable and value; collect and raise mode", "All nestings of blocks; nothing in the test suite calls it.",
  a(F, "Field.from_context", "Field._map", "Field._compute") + a("pilo/context.py", "Context.__getattr__", "Context.push", "Context.restore") + a(S + "default.py", "DefaultPath.resolve"))

p("An application's own error classes",
  "A class that the context gives as Missing or Invalid, in the innermost block that gives one, makes the errors of missing and invalid fields in place of pilo's; mapping fields and closing blocks leaves what is in force as it was. A collecting list keeps everything in order and raises nothing. A raising list keeps everything too and raises, at each call, one FormError of exactly the FieldErrors reported so far, or, when there are none, the first thing reported; so an exception reported after others need not be the one raised. If the class itself raises, nothing is reported. With no class given this is what mapping does in the other properties.",
  "every context, class, error and history of reports; collect and raise mode", "All histories of reports and all classes; nothing in the test suite replaces them.",
  a(F, "Errors.missing", "Errors.invalid", "RaiseErrors.__call__", "CollectErrors.__call__", "Missing.__init__", "Invalid.__init__") + a("pilo/context.py", "Context.__getattr__", "Context.push"))

p("A form is a source like the dict it is",
  "A native source made of a form, which is a dict, answers every read at every path as a source of a plain dict with the form's entries does: the values, whether they exist or are null, keys, sequences and primitives, and the values it caches; only at the root is the value the form itself, and no value of a primitive type. A form inside the data of a native, JSON or configuration source resolves keys and lists them as the dict would.",
  "every form, entries, aliases, ignores, path and cached values; forms without attributes that dicts lack", "All paths and all nestings of forms in data.",
  a(S + "default.py", "DefaultPath.resolve", "DefaultSource.mapping", "DefaultSource.sequence", "DefaultSource.primitive") + a(S + "__init__.py", "Path.value", "Path.exists", "Path.is_null"))

p("What format writes the field reads",
  "Called with an instant the field maps, format() of a Date, Time or Datetime returns it as a text that the same field maps to the instant again. (Expected. True with a format that strptime undoes, the first one of a date with several; false with the format 'iso8601', which writes the word iso8601 for every instant, and for a datetime.time, which a Time maps but which becomes the format of the field instead of being written. Without a format it is a TypeError, and so are several formats of a Time or Datetime.)",
  "every field, format, instant and source, for any strftime and strptime", "All instants and formats; nothing in the test suite calls format with an instant.",
  a(F, "Date.format", "Time.format", "Datetime.format", "Date._parse", "Time._parse", "Datetime._parse"))

p("A field called with a value returns it",
  "field(value) returns the value, translated, whatever the context; outside any mapping it returns the default in place of an ignored value and refuses a value the field does not take, field() returns the default, and the context is as before. In a block that gives a list of errors but no source, a refused value is reported to that list as an error at no place. (Expected; refusing is an AttributeError for want of a list of errors, and field() is an AttributeError whether there is a default or not.)",
  "every field without hooks, value and state", "Every class of field, value and state of the context.",
  a(F, "Field.map", "Field._map", "Field._munge", "Field._default", "Field._validate", "Field._compute"))
p("A union of documents maps like the document that merges them",
  "A form of strings, integers, floats, booleans, dates, times, datetimes, code and fields of no type, each read from one key of the top level, maps from a union of JSON documents, whatever the merge strategies and depth, as from one JSON document that has at every key what the first of the documents with the key has there: the same values, errors at the same paths, exceptions and context. Values at the keys read are not null: a null is an error in the union, also for a nullable field. A Decimal is read as a number from the document and as a text from the union, and may differ. The same holds of unions of dicts of plain Python data, for values that are no dates or times: those a union reads as texts.",
  "every list of documents, form, tags, merge and error mode; hooks that read forms and report errors", "All documents and all merges of them.",
  a(S + "union.py", "UnionPath.resolve", "UnionSource.primitive", "UnionPath.is_null", "Join.primitive", "Mapping.__init__") + a(F, "Form.map", "Form._root_map", "Form._map", "Field._compute"))
p("A union maps forms within forms like the document that merges them",
  "A form, whose fields are as in the property before this, forms again of such fields, or Dicts of such fields and forms, to any depth, maps from a union of JSON documents as from one JSON document, and from a union of dicts of plain Python data, where no date or time is read, as from one such dict: one that has, at each key a value is read from, the value of the first of the mappings with the key, and at each key a form or a Dict is read from, a dict that agrees in the same way with the mappings there as the union's strategy merges them (all, the first, or the last not null; by merge_depth the first where there are at least that many). Where every key is read, by a Dict or with unmapped='capture' or unmapped fields, the dict has the keys of the mappings, each where it is first met. The values, errors and their paths, exceptions and context are the same.",
  "every list of documents, merge strategy, merge depth, nesting of forms, tags and error mode; hooks that read forms and report errors", "All documents, all nestings and all merges of them.",
  a(S + "union.py", "UnionPath.resolve", "UnionSource.mapping", "UnionSource.primitive", "UnionPath.is_null", "Join.primitive", "Mapping.__init__") + a(F, "Form.map", "Form._root_map", "Form._nested_map", "Form._map", "Form._unmapped", "Field._compute", "SubForm._parse", "Dict._parse"))
p("A source that cannot be opened fails the mapping and changes nothing but the reset",
  "Mapping a form from a source that cannot be opened raises, whatever the error mode: a configuration without the section it is read for (NoSectionError), a union of no sources (ValueError), a union one of whose sources cannot be opened (its exception) or whose data is neither null nor a mapping (a source error), on Python 2 a mount of such, and on Python 3 every mount (AttributeError). An argument that is neither a source nor a dict, list, tuple, form or None is a ValueError. The context, the paths and the other forms are as before; the form itself has been reset already, if it was to be. Other plain sources, unions of JSON and plain Python documents and, on Python 2, mounts of these open.",
  "every form, source, context, mode, tags and reset", "Every source and state; the reset before the failure shows only in forms mapped before.",
  a(F, "Form.map", "Form._root_map") + a(C, "Context.push") + a(S + "configparser.py", "ConfigPath.__init__", "SectionMapping.__init__") + a(S + "union.py", "UnionPath.__init__", "UnionSource.path", "Mapping.__init__") + a(S + "mount.py", "MountPath.__init__"))
p("The order of the keys of a document does not matter",
  "Two JSON documents that differ only in the order of the entries of their mappings, at any depth, map alike to a form of fields that show no mapping as it is: integers, floats, booleans, in a strict source also strings, decimals, dates, times, datetimes and UUIDs, and lists, tuples and forms of such fields that ignore unmapped keys. Hooks may read and change forms, report errors, and ask whether the value exists, is null or is a list and how long, but not look at the value in the source nor handle the FormError of raise mode. The errors are the same, in the same order, at the same paths and with the same text, but for the order in mappings quoted there; the exception raised is the same; and every form has the same entries in the same order. (With unmapped='capture', and for a Dict, a field of no type, or a String of a source that is not strict, the order shows in the values; witnesses.)",
  "every pair of documents, form, nesting, tags, reset, error mode and context", "All documents, all orders of their keys and all nestings of forms.",
  a(S + "json.py", "JsonPath.resolve", "JsonSource.mapping", "JsonSource.sequence", "JsonSource.primitive") + a(F, "Form.map", "Form._map", "Form._unmapped", "Field._compute", "SubForm._parse", "List._parse", "Tuple._parse"))
p("Strict reading refuses more and changes nothing else",
  "What a form maps from a JSON document read with strict=True without an error, it maps from the same document read without it: no error either, the same form objects with the same entries, and the same context. Forms of every class of field but the polymorphic one, nested to any depth, with any way of treating unmapped keys, and with hooks that use the value, the errors and the forms and let pass the exception of reading the value as a type. (Not the other way round, and not with a hook that handles that exception; witnesses.)",
  "every document, form, nesting, unmapped, tags, reset, error mode and context", "All documents and all nestings of forms.",
  a(S + "json.py", "JsonSource.as_string", "JsonSource.as_int", "JsonSource.as_float", "JsonSource.as_bool", "JsonSource.primitive") + a(F, "Form.map", "Form._map", "Form._unmapped", "Field._compute", "SubForm._parse", "List._parse", "Tuple._parse", "Dict._parse", "Group._parse"))
p("The location of a source shows in the paths of errors only",
  "Mapping a form from the same JSON document, native value or configuration at two locations gives the same errors in the same order, with the same texts and fields, at paths that differ only in the location in front of them (nothing when there is none, otherwise the location and a colon), also in the errors of a form within an error; the same exception, up to such errors; the same form objects with the same entries; and the same context. Forms of every class of field but the polymorphic one, nested to any depth, with any way of treating unmapped keys, and with hooks that use the value, the errors and the forms and do not handle the FormError of raise mode. (A hook that handles it may keep the path; witness.)",
  "every source, pair of locations, form, nesting, unmapped, tags, reset, error mode and context", "All sources, all locations and all nestings of forms.",
  a(S + "__init__.py", "Source.path", "Path.__str__") + a(F, "Form.map", "Form._map", "Form._unmapped", "Field._compute", "SubForm._parse", "List._parse", "Tuple._parse", "Dict._parse", "Group._parse"))
p("The stack a mapping needs is as deep as its fields are nested",
  "Every form of fields of any class but the polymorphic one, with any way of treating unmapped keys, is nested some number of fields deep; and whatever the JSON document, native value or configuration it is mapped from, a recursion limit that allows that many nested fields gives the same errors, exception, form objects and context as every higher one: how deep the document is does not count. (A lower limit may fail the mapping; witness.) So what the other properties say of every limit is said of mappings that never meet it.",
  "every form, source, recursion limit, unmapped, tags, reset, error mode and context", "All documents, all forms and all recursion limits.",
  a(F, "Form.map", "Form._map", "Form._unmapped", "Field.map", "Field._compute", "SubForm._parse", "List._parse", "Tuple._parse", "Dict._parse", "Group._parse"))
p("A mapping sees five variables of the context it is called in",
  "A form mapped from a JSON document, a native value or a configuration of its own gives the same errors, exception and form objects in two contexts that bind ignore_default, ignore_missing, tags, form and field alike, whatever else they bind and however their blocks are nested. So opening any number of blocks that bind other names, or that move the path of the enclosing source, makes no difference. Forms of every class of field but the polymorphic one, nested to any depth, with any way of treating unmapped keys, and with hooks that use the value, the errors and the forms only. (Blocks that bind one of the five do make a difference; witness.)",
  "every pair of contexts, nesting of blocks, form, source, unmapped, tags, reset and error mode", "All contexts, all blocks and all forms.",
  a(C, "Context.__getattr__", "Context.push") + a(F, "Form.map", "Form._map", "Form._unmapped", "Field.map", "Field._compute", "SubForm._parse"))
p("Mapping a form changes that form and the forms it makes, and no others",
  "Every form object that exists when a form is mapped from a JSON document, a native value or a configuration, other than that form, has the same class and the same entries in the same order afterwards, whatever the mapping returns or raises. Forms of every class of field but the polymorphic one, nested to any depth, with any way of treating unmapped keys, with or without attach_parent, and with hooks that change no form; the form that is to stay has no field named parent. (With a field named parent, a form that is the default of a field with attach_parent is changed; witness.)",
  "every form, other form, source, fuel, unmapped, tags, reset, error mode and context", "All forms and all other forms.",
  a(F, "Form.map", "Form._map", "Form._unmapped", "Field.map", "Field._map", "Field._compute", "SubForm._parse", "List._parse", "Tuple._parse", "Dict._parse", "Group._parse"))
p("Forms that ignore unmapped keys hold entries of their fields only",
  "If every key of every form object is the name of a field of its class, this is still so after a form has been mapped from a JSON document, a native value or a configuration, also of the form objects made by the mapping, and whatever the mapping returns or raises. Forms of every class of field but the polymorphic one, nested to any depth, none of which captures unmapped keys; attach_parent and hooks that set or delete attributes of forms included. (With unmapped='capture' the other keys of the source are entries too; witness.)",
  "every form, source, fuel, tags, reset, error mode and context", "All documents, all forms and all hooks.",
  a(F, "Form.map", "Form._map", "Form._unmapped", "Field.map", "Field._map", "Field._compute", "Field.__set__", "SubForm._parse", "List._parse", "Tuple._parse", "Dict._parse", "Group._parse"))
out = os.path.join(os.path.dirname(__file__), "..", "properties.jsonl")
with open(out, "w") as f:
    for x in P: f.write(json.dumps(x) + "\n")
print(len(P))
