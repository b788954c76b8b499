# Design

A Rocq (Coq 8.16.1) model of `pilo` (eventbrite/pilo, pinned commit in `/repo`), and proofs
of the properties in `properties.jsonl` about that model.  Only the standard library is used.

## Approach

The model is a deep-ish embedding: Python functions of pilo become total Gallina functions,
one definition per function, each with a comment citing file and lines.  Exceptions are
values (`res A := Ok a | Exn e`).  Everything that pilo leaves to the Python runtime
(`getattr` on arbitrary objects, `float(str)`, regular expressions, date parsing, `str()`
of values, ...) is a field of a record `env`; every theorem quantifies over all `env`.

| file | models |
|---|---|
| `PyBase.v`, `PyStr.v` | Python values, exceptions, `==`, `<`, dicts, `int(str)`, `str(int)`, `split` |
| `Source.v` | `pilo/source/*.py`: parsers, paths with their value cache, Default/Json/Config/Union/Mount sources |
| `Field.v` | what a field or form class *is*: options, hooks (programs over the hook-visible API), kinds |
| `Context.v` | `pilo/context.py`: frames, push, restore, rewind, reset; the state monad |
| `Fields.v` | `pilo/fields.py`: `Field._map`, all `_parse`/`_validate`, `Form._map`, `Form.map`, `Field.__get__`, `Types.probe` |
| `Forms.v` | constructor, `has`, `flatten`, `munge`, `filter`, `copy`, `__set__`, `__delete__` |
| `Meta.v` | `FormMeta`, `attach`, `Types.map`, `clone`, `Hook` registration |
| `Threads.v` | several threads with contexts of their own |
| `Build.v` | constructors of fields, options, the methods that register hooks |
| `Reports.v` | the error lists with `ctx.Missing` and `ctx.Invalid` replaced |
| `FromContext.v` | `Field.from_context`: the context as a source |
| `More.v` | attributes of contexts and frames, the `ConfigSource` constructor, `preserve_whitespace` |
| `PathEdit.v` | list methods of paths |
| `Spec*.v`, `Eval.v` | independent specifications used in theorem statements |
| `*Proofs.v` | lemmas |
| `Props*.v` | one theorem per claim, closed by `exact`, with `Print Assumptions` |

State: a stack of frames, a heap of forms (dict contents), a heap of live `Path` objects, a
heap of error lists.  `Field.map` is recursive through sub-fields, sub-forms and hooks that
read attributes; the model ties the knot with fuel, and running out of fuel is Python's
recursion-limit `RuntimeError` (`ERecursion`), so every theorem about all fuels covers
arbitrarily deep recursion.

Hooks are programs (`prog`): they may return, raise, read `ctx.form`, get/set form attributes,
read the current path, report errors, open `with ctx(...)` blocks and branch on any result with
arbitrary Gallina functions.

