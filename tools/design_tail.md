## Trusted base

- Coq 8.16.1: its kernel, its `vm_compute` conversion, the parser and the notations of the
  standard library used to state the theorems.  `coqchk -o` accepts the compiled files.
- Axioms: none.  `Print Assumptions` stands under every theorem of the `Props*.v` files and prints
  `Closed under the global context` for each of them.  The seven constants `Coq.ssr.ssrunder.Under_rel.*`
  that a whole-library audit lists belong to a module type of the standard library
  (loaded with `Lia`/`Bool`); no theorem depends on them.
- No `Admitted`, no `Axiom`/`Parameter`, no section-less `Variable`/`Hypothesis`, no functor or
  module type, no switched-off check, no plugin.
- The correspondence between the Python text and the Gallina functions.  It is by reading:
  every definition of the model files (`PyBase`, `PyStr`, `Source`, `Field`, `Context`,
  `Fields`, `Forms`, `Meta`, `Build`, `More`, `PathEdit`, `Threads`, `FromContext`, `Reports`, `Formats`) cites the file and lines it stands for.
  `tools/coverage.py` lists the functions of `/repo/pilo` that no comment cites.
- The specification files `Spec*.v` and the definitions in the `Props*.v` files, which say
  what the theorems mean.

## What is modelled, and what is not

Modelled: `pilo/context.py` (frames, push, restore, rewind, reset, `__getattr__`), `pilo/source/*.py`
(parsers, paths with their cache of values, the five sources), `pilo/fields.py` (every kind of field,
its steps and hooks; forms: mapping, tags, reset, unmapped keys, both error modes, the constructor,
attributes, `has`, `flatten`, `munge`, `filter`, `copy`; the metaclass, `attach`, `clone`, hook registration),
`pilo/__init__.py` (`Types`).  `Build` models the constructors of fields with their keywords, `options`, and the methods
that register hooks (`constant`, `format`, `capture`, `pattern`); its header lists what it leaves out.  `PathEdit` models
the list methods of paths for integer indices and keys that are integers or strings.

Left to oracles (fields of the record `env`, universally quantified): attributes and items of
objects of unknown classes, calling them, `float(text)`, `decimal.Decimal(text)`, `str(obj)`,
ISO 8601 parsing, `strptime`, `uuid.UUID`, regular expressions, `compile`/`import` in `Code`,
`shlex.split`, `str.format`; `strftime` is an argument of `Formats`.

Simplifications:

- Text is a list of 8-bit characters; `upper`/`lower`/`strip` act on ASCII.
- Floats are IEEE doubles (`spec_float`), decimals a coefficient and an exponent (no context precision); NaN is one value,
  equal to nothing; Python's `in` and dict lookups first compare by identity, so the very same NaN
  object given as an ignored value and as data would be found.
  Python 2 `long` is not distinguished from `int`.
- A form object is a reference into a heap; two forms are equal only if they are the same
  object (in Python they are equal as dicts), and a form counts as true where its truth is asked (in Python an
  empty one is false).  A form object used as native *data* is read through
  the oracles.
- The attributes of a form are its fields, and what `Form`, its mixins and `dict` define for names without two leading underscores
  (`form_attribute`); what else the class of an application defines, or was set on the form, is not modelled.
- The recursion limit is fuel: with too little of it a mapping raises `ERecursion`. C108 says how much is enough.
- Hooks are programs over the operations that pilo offers to a hook.  A hook cannot open a `with ctx(src=..., src_path=...)`
  block giving both keys, and cannot keep a path object after it returned.  A resolve hook returns
  `None` or a key, as the documentation has it.
- Sources inside a union are Default, Json or Config sources; a union or plain source may be
  mounted; unions of unions, mounts of mounts and mounts inside unions are not modelled, nor is `Join.path` as a source of its own.
  On Python 3 a configuration section in a union raises as soon as the union reaches it; in Python its keys can still be
  looked up one by one there, and only listing them raises.
- Configuration files enter as parsed sections and options; in `More` the text of the file enters beside them, and that
  both come from one file is not assumed.  `More` leaves names with two leading underscores out of the attributes.
- `ctx.tags` set by a hook is a list of texts; anything else set there counts as no tags.  On a value that a munge hook made no
  text, the alphabet check raises `TypeError` (Python looks at the items of a list).  A date, time or datetime field that reads a
  union itself, at its root, raises `TypeError` with every format (in Python the iso8601 parser refuses it as no date).
- Elsewhere than in `More`, a context variable has a name that is no attribute of `Context`.
- `ctx.Missing`/`ctx.Invalid` (replacing the exception classes) are modelled in `Reports.v`, beside the mapping: one error list and
  what is reported to it.  A form mapped while a class is replaced is not modelled.
- `from_context` (`FromContext.v`) stands beside the other fields, as a way of mapping one field; a form whose fields use it is not
  modelled.  The variables it sees are those at the time it resolves.
- Instants are numbers of their class: a `struct_time` and a `datetime.time` are the same (except in `Formats.v`), and so are naive and aware datetimes
  (comparing them raises `TypeError` in Python).
- Sets are lists in order of first occurrence, so an error that lists the elements of a set shows them in that order.
- `generator` methods (`flatten`) are consumed at once.
- The method resolution order of a class is given with the class; `__subclasses__()` never loses a
  class; attributes of classes are not assigned after the class statement, except by pilo.
- In `Fields`, `attach_parent` stores a proxy also outside a mapping, where Python stores `None`.  Of the texts of errors, only the list of missing keys is built during a mapping (building it may raise, see C34).
- A path key that is a `bool` renders as the integer it is equal to; `int(text)` does not accept underscores.

## Findings

Claims that are false of the code, each with a witness (`..._refuted`), in the order of the properties:

- C100: `format` writes the word iso8601 for every instant if that is the field's format, and takes a `datetime.time` for a format.
- C92 (true, but surprising): `Float(min_value=0, max_value=1)` accepts the NaN that Python's JSON reader gives.
- C04: `ctx.rewind` to the innermost frame empties the whole stack; the next access raises.
- C08: a missing native location exists after it was read, if its key is `name`.
- C11: a key missing from a dict is found when dicts have an attribute of that name (`items`, `keys`, ...).
- C27: text that is no date becomes `None` without an error.
- C28: `decimal.InvalidOperation` escapes from the mapping.
- C33: a tuple can be shorter than its fields (items mapped to `NONE` are skipped).
- C34: a missing required key that is not a string is not reported: the message joins the missing
  keys (fields.py:1182), which raises `TypeError` out of the mapping in either mode. (And
  `required_keys` has to be a set: a list, like its default, has no `difference`; the model only has sets.)
- C36: a field given to a `Group` without a pattern reads its key inside the value of that key.
- C38: an exception raised in a flat sub-form is reported, in the enclosing form it escapes;
  `map(tags=...)` does not reach the fields of a flat sub-form.
- C41: in raise mode an error in a nested container is reported once per enclosing container.
- C45: captured keys that contain a dot or an index are reported as missing.
- C47: mapping again changes entries when unmapped keys are translated.
- C49: a lazy attribute read from another form's mapping returns a sentinel.
- C50: `has` raises, and stores defaults; it is `True` for names of methods (`map`, `copy`) and raises for other attributes (`keys`).
- C55, C56: a subclass that inherits the type field takes over the identity of its base; later subclasses are not dispatched.
- C60: `merge_depth` does not limit the merging of mappings.
- C61, C62: a mounted union answers `is_null` differently; a missing mount exists and raises `KeyError`.
- C61: a `List` below a mount whose value is no sequence raises `AttributeError` (fields.py:1109) instead of reporting an error.
- C59: an invalid sequence merge strategy is noticed only at a second sequence, and then raises `IndexError`: the message of the intended error cannot be formatted.
- C87: a path with a key that is neither a name nor an index cannot be read (`AttributeError`).
- C64: a line break in a message breaks the text of a `FormError` into lines.
- C65: `attach_parent` raises `AttributeError` on values without attributes.
- C66: a hook on an attached field returns the class of the form in place of the field.
- C67: a cloned field shares its ignores, translations and tags with the original.
- C68: an ignored location is present after something below it was read.
- C70: in a union, an element of a list is lost when its index and a key below it are appended at once.
- C25: a translation that is not a text raises `TypeError` out of the mapping if the field has an alphabet, a length or a pattern.
- C72: `options(default=None)` then `options(nullable=False)` differs from giving both at once; `ignore=[a, b]` ignores
  the list only; `tags=[...]` raises `TypeError`.
- C73: `String(length=0)` accepts any text; `List(f, length=3)` raises `TypeError`.
- C74: a second `constant` on a field raises `TypeError`.
- C76: a null under `capture` raises `TypeError` out of the mapping.
- C77: `Float.pattern` makes integers, and reports fractions.
- C79: the value of an abstract type is its `default` hook, not an error.
- C80: the message refusing what is not a field cannot be formatted, so numbers and texts raise `ValueError`.
- C82: a datetime given to a `Date` with `after` or `before` raises `TypeError` out of the mapping.
- C83: `ctx.stack`, `ctx.push`, ... and `values_for('items')` do not give the variables of that name.
- C84: `ConfigSource(text)` and `from_file` always raise; a source over all sections needs a dict of defaults.
- C85: `preserve_whitespace` loses the text on the option's own line, and takes an option for another whose name it begins.
- C86: inserting before the first key of a mount path replaces it; that key cannot be deleted while there are others.
- C87: a path that was read keeps its value when keys before the last are changed.
- C88, C89: fields are collected by name: with two fields of one name the type probe lacks the first;
  a field that some class already registered keeps its name and key in `Form.from_fields(other=field)`.

## Mutation testing

`tools/mutate.py` rebuilds a copy of the development with one definition of the model
changed; lemmas that no longer hold are admitted in the copy, and a theorem counts as failed if its
proof fails or depends on such a lemma.  `seeded/LOG.jsonl` has one line per attempt.
