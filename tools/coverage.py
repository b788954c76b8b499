#!/usr/bin/env python3
"""Which lines of /repo/pilo do the comments of the model cite?  Prints the functions with none."""
import ast, os, re
d = os.path.join(os.path.dirname(os.path.abspath(__file__)), "..", "rocq", "theories")
files = {f: os.path.join("/repo/pilo", f) for f in
         ["__init__.py", "context.py", "fields.py", "source/__init__.py", "source/configparser.py",
          "source/default.py", "source/json.py", "source/mount.py", "source/union.py"]}
cited = {f: set() for f in files}
names = {"fields.py": "fields.py", "context.py": "context.py", "union.py": "source/union.py", "mount.py": "source/mount.py",
         "json.py": "source/json.py", "default.py": "source/default.py", "configparser.py": "source/configparser.py",
         "source/__init__.py": "source/__init__.py", "pilo/__init__.py": "__init__.py", "__init__.py": "__init__.py"}
for v in ["PyBase", "PyStr", "Source", "Field", "Context", "Fields", "Forms", "Meta", "Threads", "Build", "More", "Positional"]:
    p = os.path.join(d, v + ".v")
    if not os.path.exists(p): continue
    for c in re.findall(r"\(\*.*?\*\)", open(p).read(), re.S):
        cur = None
        for m in re.finditer(r"(source/__init__\.py|pilo/__init__\.py|__init__\.py|\w+\.py)|(\d+)(?:-(\d+))?", c):
            if m.group(1): cur = names.get(m.group(1), cur)
            elif cur is None and v in ("Fields", "Field", "Forms"): cur = "fields.py"
            if m.group(2) and cur:
                a = int(m.group(2)); b = int(m.group(3) or a)
                cited[cur] |= set(range(a, b + 1))
for f, p in files.items():
    src = open(p).read()
    for n in ast.walk(ast.parse(src)):
        if isinstance(n, ast.FunctionDef):
            r = set(range(n.body[0].lineno, (n.end_lineno or n.lineno) + 1))
            if len(r & cited[f]) * 2 < len(r): print("%s:%d-%d %s  cited %d of %d" % (f, n.lineno, n.end_lineno, n.name, len(r & cited[f]), len(r)))
