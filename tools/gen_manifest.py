#!/usr/bin/env python3
"""MANIFEST.json: status and notes from claims.json, theorem names read from Props*.v."""
import json, os, re, glob
d = os.path.dirname(os.path.abspath(__file__)); r = os.path.join(d, "..")
claims = json.load(open(os.path.join(d, "claims.json")))
thms = {}
for f in sorted(glob.glob(os.path.join(r, "rocq/theories/Props*.v"))):
    for m in re.finditer(r"^Theorem (C\d\d+)(_\w+)", open(f).read(), re.M):
        thms.setdefault(m.group(1), []).append(m.group(1) + m.group(2))
out = []
for k in sorted(set(claims) | set(thms), key=lambda k: int(k[1:])):
    st, note = claims.get(k, ["partial", ""])
    out.append({"property": k, "status": st, "theorems": thms.get(k, []), "note": note})
    if not thms.get(k) and st != "not_applicable": print("no theorem for", k)
    if k not in claims: print("no claim entry for", k)
open(os.path.join(r, "MANIFEST.json"), "w").write(
    '{"claims": [\n' + ",\n".join("  " + json.dumps(c) for c in out) + "\n]}\n")
