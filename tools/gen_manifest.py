#!/usr/bin/env python3
"""Writes MANIFEST.json.  Checks that every theorem named exists in the Coq sources."""
import json, pathlib, re
root = pathlib.Path(__file__).resolve().parent.parent
src = "\n".join(p.read_text() for p in sorted((root / "rocq/theories").glob("*.v")))
names = set(re.findall(r"^\s*Theorem\s+(\w+)", src, re.M))
claims = []
def c(prop, status, theorems, note):
    for t in theorems:
        assert t in names, t
    claims.append({"property": prop, "status": status, "theorems": theorems, "note": note})
exec((root / "tools/claims.py").read_text())
props = [json.loads(l)["id"] for l in (root / "properties.jsonl").read_text().splitlines() if l.strip()]
done = {x["property"] for x in claims}
missing = [p for p in props if p not in done]
unused = sorted(n for n in names if not any(n in x["theorems"] for x in claims))
claims.sort(key=lambda x: props.index(x["property"]))
(root / "MANIFEST.json").write_text(json.dumps({"claims": claims}, indent=1) + "\n")
print("missing:", missing)
print("theorems not in manifest:", unused)
