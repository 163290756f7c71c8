#!/usr/bin/env python3
"""Recompiles the Prop*.v files of a built tree and rewrites the section of DESIGN.md that lists what
Print Assumptions reports for each theorem."""
import re, subprocess, os, glob, collections, json
HERE = os.path.dirname(os.path.abspath(__file__)); ROCQ = os.path.join(HERE, "..", "rocq")
groups = collections.OrderedDict()
# outputs of earlier runs, valid as long as the .vo file is the same
CACHE = "/tmp/assumptions_cache.json"
cache = json.load(open(CACHE)) if os.path.exists(CACHE) else {}
for line in open(os.path.join(ROCQ, "_CoqProject")):
    m = re.match(r'theories/(Prop\w+)\.v', line)
    if not m: continue
    f = "theories/%s.v" % m.group(1)
    stamp = os.stat(os.path.join(ROCQ, f + "o")).st_mtime_ns
    if cache.get(f, [0])[0] != stamp:
        out = subprocess.run(["coqc", "-Q", "theories", "Verif", "-o", "/tmp/%s.vo" % m.group(1), f], cwd=ROCQ, stdout=subprocess.PIPE, stderr=subprocess.STDOUT, text=True).stdout
        cache[f] = [stamp, out]
        json.dump(cache, open(CACHE, "w"))
    out = cache[f][1]
    thms = re.findall(r'^Print Assumptions (\w+)\.', open(os.path.join(ROCQ, f)).read(), re.M)
    blocks, cur = [], None
    for l in out.split("\n"):
        if l.startswith("Closed under"): blocks.append(set()); cur = None
        elif l.startswith("Axioms:"): cur = set(); blocks.append(cur)
        elif cur is not None and l and not l[0].isspace(): cur.add(re.split(r'[ :]', l)[0])
    assert len(blocks) == len(thms), (f, len(blocks), len(thms), out[-500:])
    for t, b in zip(thms, blocks): groups.setdefault(tuple(sorted(b)), []).append(t)
txt = ["<!-- assumptions:begin (tools/gen_assumptions.py) -->"]
for k, ts in sorted(groups.items(), key=lambda kv: (len(kv[0]), kv[0])):
    txt.append("* **%s** (%d theorems): %s" % ("Closed under the global context" if not k else ", ".join("`%s`" % a for a in k), len(ts), ", ".join("`%s`" % t for t in ts)))
    txt.append("")
txt.append("<!-- assumptions:end -->")
p = os.path.join(HERE, "..", "DESIGN.md"); s = open(p).read()
new = "\n".join(txt)
if "<!-- assumptions:begin" in s: s = re.sub(r'<!-- assumptions:begin.*?<!-- assumptions:end -->', lambda _: new, s, flags=re.S)
else: s += "\n" + new + "\n"
open(p, "w").write(s)
for k, ts in groups.items(): print(len(ts), k)
