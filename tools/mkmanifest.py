#!/usr/bin/env python3
"""Write MANIFEST.json; every theorem name is checked to occur in rocq/theories."""
import json, re, glob, os

ROOT = os.path.join(os.path.dirname(os.path.abspath(__file__)), "..")
src = "\n".join(open(f).read() for f in glob.glob(os.path.join(ROOT, "rocq/theories/*.v")))
examples = set(re.findall(r"^\s*Example\s+([\w']+)", src, re.M))
names = set(re.findall(r"^\s*(?:Theorem|Lemma|Corollary|Example)\s+([\w']+)", src, re.M))
ids = [json.loads(l)["id"] for l in open(os.path.join(ROOT, "properties.jsonl"))]

TODO = "not yet proved; see DESIGN.md"
exec(open(os.path.join(ROOT, "tools/claims.py")).read())   # defines CLAIMS

out = []
for i in ids:
    status, thms, note = CLAIMS.get(i, ("partial", [], TODO))
    for t in thms:
        if t not in names:
            raise SystemExit(f"{i}: unknown theorem {t}")
    ex = [t for t in thms if t in examples]
    if ex:
        note = (note + "; " if note else "") + "hypotheses met: " + ", ".join(ex)
    thms = [t for t in thms if t not in examples]
    out.append({"property": i, "status": status, "theorems": thms, "note": note})
json.dump({"claims": out}, open(os.path.join(ROOT, "MANIFEST.json"), "w"), indent=1)
print(len(out), "claims,", sum(1 for o in out if o["status"] == "proved"), "proved")
