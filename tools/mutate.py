#!/usr/bin/env python3
"""Mutation testing of the theorems.

usage: mutate.py MUTANTS.jsonl OUT.jsonl [scratch-dir] [jobs]

Each line of MUTANTS.jsonl: {"id", "file", "definition", "old", "new", "claim"}.  For every mutant the
sources (with compiled files) are copied to a scratch directory outside this repository, the edit is
applied, and the project is rebuilt.  Whenever a proof fails it is replaced (in the scratch copy) by
[Admitted] and the build goes on, so that in the end [Print Assumptions] under each property theorem
tells whether the theorem depends on a failed proof."""
import json, os, re, shutil, subprocess, sys, time

HERE = os.path.dirname(os.path.abspath(__file__))
SRC = os.path.join(HERE, "..", "rocq")
START = re.compile(r'^\s*(?:#\[[^\]]*\]\s*)?(?:Local |Global )?(Lemma|Theorem|Example|Corollary|Instance|Definition|Fixpoint|Ltac|Inductive|Record)\s+([A-Za-z0-9_\']+)', re.M)
ERR = re.compile(r'File "\./(theories/\w+\.v)", line (\d+), characters (\d+)-(\d+):\nError', re.M)

def admit(path, line):
    """Replace the proof enclosing [line] by Admitted; return its name or None."""
    t = open(path).read()
    offs = [0]
    for l in t.split("\n"): offs.append(offs[-1] + len(l) + 1)
    pos = offs[line]  # end of the line
    best = None
    for m in START.finditer(t):
        if m.start() >= pos: break
        best = m
    if best is None: return None, "no enclosing command"
    # a line may hold several lemmas: take the last one starting before the error line's end whose Qed is not before the line
    cands = [m for m in START.finditer(t) if m.start() < pos]
    b = cands[-1]
    pm = re.compile(r'\bProof\b[^.]*\.').search(t, b.start())
    qm = re.compile(r'\b(Qed|Defined)\.').search(t, b.start())
    if not pm or not qm or qm.start() < pm.start(): return None, "not a proof: " + b.group(2)
    if offs[line - 1] + 0 > qm.end(): return None, "error after proof of " + b.group(2)
    t = t[:pm.start()] + "Proof. Admitted." + t[qm.end():]
    open(path, "w").write(t)
    return b.group(2), None

def run(mut, scratch, jobs, timeout=3000):
    if os.path.exists(scratch): shutil.rmtree(scratch)
    shutil.copytree(SRC, scratch, copy_function=shutil.copy2)
    p = os.path.join(scratch, mut["file"])
    t = open(p).read()
    if t.count(mut["old"]) != 1:
        return {"error": "old text occurs %d times" % t.count(mut["old"])}
    open(p, "w").write(t.replace(mut["old"], mut["new"]))
    subprocess.run("coq_makefile -f _CoqProject -o Makefile", shell=True, cwd=scratch, stdout=subprocess.DEVNULL)
    admitted, fatal, out, t0 = [], [], "", time.time()
    for rnd in range(200):
        r = subprocess.run("make -k -j%d -Otarget COQEXTRAFLAGS='-set \"Default Timeout=120\"'" % jobs, shell=True, cwd=scratch,
                           stdout=subprocess.PIPE, stderr=subprocess.STDOUT, text=True)
        out += r.stdout
        errs = ERR.findall(r.stdout)
        if r.returncode == 0: break
        if not errs:
            fatal.append(r.stdout[-2000:]); break
        bad = False
        for f, line, _, _ in errs:
            name, why = admit(os.path.join(scratch, f), int(line))
            if name: admitted.append((os.path.basename(f), name))
            else: fatal.append(f + ":" + line + " " + why); bad = True
        if bad or time.time() - t0 > timeout: 
            if not bad: fatal.append("time limit")
            break
    # theorems depending on admitted lemmas
    names = {n for _, n in admitted}
    failed, okay, notbuilt = [], [], []
    for line in open(os.path.join(scratch, "_CoqProject")):
        m = re.match(r'theories/(Prop\w+)\.v', line)
        if not m: continue
        src = open(os.path.join(scratch, "theories", m.group(1) + ".v")).read()
        thms = re.findall(r'Print Assumptions (\w+)\.', src)
        secs = re.findall(r'COQC theories/%s\.v\n(.*?)(?=\nCOQC |\nmake|\Z)' % m.group(1), out, re.S)
        blocks = []
        if secs:
            cur = None
            for l in secs[-1].split("\n"):
                if l.startswith("Closed under"): blocks.append(set()); cur = None
                elif l.startswith("Axioms:"): cur = set(); blocks.append(cur)
                elif cur is not None and l and not l[0].isspace(): cur.add(re.split(r'[ :]', l)[0].split(".")[-1])
        if len(blocks) != len(thms):
            if not secs and os.path.exists(os.path.join(scratch, "theories", m.group(1) + ".vo")) : okay += thms   # untouched file
            else: notbuilt += thms
            continue
        for th, b in zip(thms, blocks): (failed if b & names else okay).append(th)
    return {"proofs_failed": ["%s:%s" % a for a in admitted], "failed": failed, "cases_failed": [n for f, n in admitted if f.startswith("Prop")],
            "unaffected": len(okay), "not_built": len(notbuilt), "fatal": fatal, "seconds": round(time.time() - t0)}

if __name__ == "__main__":
    muts = [json.loads(l) for l in open(sys.argv[1]) if l.strip()]
    done = set()
    if os.path.exists(sys.argv[2]): done = {json.loads(l)["id"] for l in open(sys.argv[2])}
    scratch = sys.argv[3] if len(sys.argv) > 3 else "/tmp/mutant"
    jobs = int(sys.argv[4]) if len(sys.argv) > 4 else 4
    for m in muts:
        if m["id"] in done: continue
        r = run(m, scratch, jobs)
        m.update(r)
        with open(sys.argv[2], "a") as f: f.write(json.dumps(m) + "\n")
        print(m["id"], len(m.get("failed", [])), m.get("fatal"), m.get("seconds"), m.get("error", ""), flush=True)
