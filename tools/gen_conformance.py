#!/usr/bin/env python3
"""Generates rocq/theories/Conformance.v from the numerical expectations in the repository's own tests
(python/tests/test_DDScalar.py, test/src/test.cpp).  Tests of the transcription, not proofs.

The model is run on binary64 with a table of libm values computed here by Python's math module."""
import re, math, os, itertools
R = "/repo/"
py = open(R + "python/tests/test_DDScalar.py").read().split("\n")
cpp = open(R + "test/src/test.cpp").read().split("\n")
OUT = os.path.join(os.path.dirname(os.path.abspath(__file__)), "..", "rocq", "theories", "Conformance.v")

def me(x):
    x = float(x)
    if x == 0: return (0, 0)
    m, e = math.frexp(x); m = int(m * 2**53); e -= 53
    while m % 2 == 0: m //= 2; e += 1
    return m, e
def fl(x):
    m, e = me(x); return "(fl (%d) (%d))" % (m, e)
def lst(l): return "[" + "; ".join(fl(x) for x in l) + "]"

U = {}
for i, l in enumerate(py):
    m = re.match(r"\s+def (u\d)\(self\)", l)
    if m: U[m.group(1)] = [float(v) for v in re.search(r"\[(.*)\]", py[i + 1]).group(1).split(",")]
for l in cpp:
    m = re.match(r"const DDScalar<2, double, 3> (dd\d)\{(.*)\};", l)
    if m: U[m.group(1)] = [float(v) for v in m.group(2).split(",")]

args = sorted({v[0] for v in U.values()} | {2.0, 10.0, 3.0, 1.0})
uf = dict(cos=math.cos, sin=math.sin, tan=math.tan, acos=math.acos, asin=math.asin, atan=math.atan, cosh=math.cosh, sinh=math.sinh,
          tanh=math.tanh, acosh=math.acosh, asinh=math.asinh, atanh=math.atanh, exp=math.exp, log=math.log, log2=math.log2, log10=math.log10,
          cbrt=lambda x: math.copysign(abs(x) ** (1 / 3), x))
tabs = {}
for n, f in uf.items():
    t = []
    for a in args:
        try: t.append((a, f(a)))
        except (ValueError, OverflowError): pass
    tabs[n] = t
pw = []
for a in args:
    for b in (2.0, 3.0): pw.append((a, b, a ** b))
for b in (3.5, 3.5 - 1, 3.5 - 2): pw.append((3.0, b, 3.0 ** b))
for b in (1.0, 0.0): pw.append((1.0, b, 1.0))
for k in U: pw.append((U[k][0] * U[k][0] - 1, 2.0, (U[k][0] * U[k][0] - 1) ** 2))
at2 = [(3.0, 4.0, math.atan2(3.0, 4.0))]
hy = [(U["u7"][0], U["u8"][0], math.hypot(U["u7"][0], U["u8"][0]))]
hy3 = [(U["u7"][0], U["u8"][0], U["u9"][0], math.hypot(U["u7"][0], U["u8"][0], U["u9"][0]))]

cases = []   # (comment, coq expression using c, expected)
un = dict(negative="Uneg", reciprocal="Ureciprocal", arccosh="Uacosh", arcsinh="Uasinh", arctanh="Uatanh", arccos="Uacos", arcsin="Uasin", arctan="Uatan")
ops = {"+": "Badd", "-": "Bsub", "*": "Bmul", "/": "Bdiv"}
sops = {"+": "Uadds", "-": "Usubs", "*": "Umuls", "/": "Udivs"}
rops = {"+": "Usadd", "-": "Ussub", "*": "Usmul", "/": "Usdiv"}
asg = {"+": "add_assign", "-": "sub_assign", "*": "mul_assign", "/": "div_assign"}
sasg = {"+": "adds_assign", "-": "subs_assign", "*": "muls_assign", "/": "divs_assign"}
def var(v, pre): return "(num c %s)" % v
def tr(e, vre):
    e = e.strip()
    V = vre
    m = re.fullmatch(r"(?:np\.)?(\w+)\(%s\)" % V, e)
    if m: return "apply_u F c %s %s" % (un.get(m.group(1), "U" + m.group(1)), var(m.group(2), 0))
    m = re.fullmatch(r"-%s" % V, e)
    if m: return "apply_u F c Uneg %s" % var(m.group(1), 0)
    m = re.fullmatch(r"%s\.(sin|cos)\(\)" % V, e)
    if m: return "apply_u F c U%s %s" % (m.group(2), var(m.group(1), 0))
    m = re.fullmatch(r"%s ([-+*/]) %s" % (V, V), e)
    if m: return "apply_b F c %s %s %s" % (ops[m.group(2)], var(m.group(1), 0), var(m.group(3), 0))
    m = re.fullmatch(r"%s ([-+*/]) ([\d.]+)" % V, e)
    if m: return "apply_u F c (%s %s) %s" % (sops[m.group(2)], fl(m.group(3)), var(m.group(1), 0))
    m = re.fullmatch(r"([\d.]+) ([-+*/]) %s" % V, e)
    if m: return "apply_u F c (%s %s) %s" % (rops[m.group(2)], fl(m.group(1)), var(m.group(3), 0))
    m = re.fullmatch(r"(?:np|hj)\.hypot\(%s, %s\)" % (V, V), e)
    if m: return "apply_b F c Bhypot %s %s" % (var(m.group(1), 0), var(m.group(2), 0))
    m = re.fullmatch(r"hj\.hypot\(%s, %s, %s\)" % (V, V, V), e) or re.fullmatch(r"%s\.hypot\(%s, %s\)" % (V, V, V), e)
    if m: return "hypot3 F c %s %s %s" % tuple(var(m.group(k), 0) for k in (1, 2, 3))
    m = re.fullmatch(r"%s\.log\((\d+)\)" % V, e)
    if m: return "apply_u F c (Ulogb %s) %s" % (fl(m.group(2)), var(m.group(1), 0))
    m = re.fullmatch(r"pow\(%s, ([\d.]+)\)" % V, e)
    if m: return "apply_u F c (Upow %s) %s" % (fl(m.group(2)), var(m.group(1), 0))
    m = re.fullmatch(r"atan2\(%s, %s\)" % (V, V), e)
    if m: return "apply_b F c Batan2 %s %s" % (var(m.group(1), 0), var(m.group(2), 0))
    return None

skipped = []
cur = None
for i, l in enumerate(py):
    m = re.match(r"    r = (.*)$", l)
    if m: cur = tr(m.group(1), r"ctx\.(u\d)"); src = m.group(1); base = re.fullmatch(r"ctx\.(u\d)", m.group(1))
    m = re.match(r"    r ([-+*/])= (.*)$", l)
    if m and base:
        o, rhs = m.groups(); src += "; r %s= %s" % (o, rhs)
        v = re.fullmatch(r"ctx\.(u\d)", rhs)
        if v: cur = "%s F c %s (Some %s)" % (asg[o], var(base.group(1), 0), var(v.group(1), 0))
        elif o in "*/": cur = "%s F %s (SVal %s)" % (sasg[o], var(base.group(1), 0), fl(rhs))
        else: cur = "apply_u F c (%s %s) %s" % (sops[o], fl(rhs), var(base.group(1), 0))   # no __iadd__/__isub__ with float: falls back to +, -
    m = re.match(r"    ctx\.check\(r, \[(.*)\]\)", l)
    if m and i > 520:
        if cur: cases.append(("test_DDScalar.py:%d  %s" % (i + 1, src), cur, [float(v) for v in m.group(1).split(",")], "py"))
        else: skipped.append((i + 1, src))
cur = None; vals = {}; exprs = {}; order = []
def flush():
    for r in order:
        if r in exprs and exprs[r][0] and len(vals.get(r, [])) == 10: cases.append(("test.cpp:%d  %s" % exprs[r][1:], exprs[r][0], vals[r], "cpp"))
        elif r in exprs: skipped.append(exprs[r][1:])
    vals.clear(); exprs.clear(); order.clear()
for i, l in enumerate(cpp):
    if l.startswith("TEST_CASE"): flush()
    if "SScalar" in l: break
    m = re.match(r"    (?:const )?auto (r\d?) = (.*);$", l)
    if m:
        order.append(m.group(1)); exprs[m.group(1)] = (tr(m.group(2), r"(dd\d)"), i + 1, m.group(2)); base = re.fullmatch(r"(dd\d)", m.group(2))
    m = re.match(r"    (r\d) ([-+*/])= (.*);$", l)
    if m and base:
        v = re.fullmatch(r"(dd\d)", m.group(3))
        e = ("%s F c %s (Some %s)" % (asg[m.group(2)], var(base.group(1), 0), var(v.group(1), 0)) if v
             else "%s F %s (SVal %s)" % (sasg[m.group(2)], var(base.group(1), 0), fl(m.group(3))))
        exprs[m.group(1)] = (e, i + 1, "%s; %s %s= %s" % (base.group(1), m.group(1), m.group(2), m.group(3)))
    m = re.match(r"    REQUIRE\((r\d?)\.[fgh]\(.*\) == doctest::Approx\((.*)\)\);", l)
    if m: vals.setdefault(m.group(1), []).append(float(m.group(2)))
flush()

def tab1(t): return "[" + "; ".join("(%s, %s)" % (fl(a), fl(b)) for a, b in t) + "]"
def tabn(t):
    return "[" + "; ".join("(%s, %s)" % ("(" + ", ".join(fl(x) for x in r[:-1]) + ")", fl(r[-1])) for r in t) + "]"
o = []
o.append("""(** Generated by tools/gen_conformance.py.  Tests of the transcription, not proofs: the model, run on
    binary64 with the libm values tabulated below (computed by Python's math module), reproduces the numbers
    the repository's own tests expect (python/tests/test_DDScalar.py with rtol 1e-7, test/src/test.cpp). *)
From Coq Require Import ZArith List Bool String.
From Flocq Require Import Core BinarySingleNaN.
From Verif Require Import Outcome Scalar Float64 Model Ops64 ModelS ModelPy Samples.
Import ListNotations.
Open Scope Z_scope.
Open Scope list_scope.

Definition fl (m e : Z) : b64 := binary_normalize prec64 emax64 prec64_gt_0 prec64_lt_emax mode_NE m e false.
Fixpoint look1 (t : list (b64 * b64)) (x : b64) : b64 :=
  match t with [] => B754_nan | (a, v) :: t => if Beqb a x then v else look1 t x end.
Fixpoint look2 (t : list (b64 * b64 * b64)) (x y : b64) : b64 :=
  match t with [] => B754_nan | (a, b, v) :: t => if Beqb a x && Beqb b y then v else look2 t x y end.
Fixpoint look3 (t : list (b64 * b64 * b64 * b64)) (x y z : b64) : b64 :=
  match t with [] => B754_nan | (a, b, c, v) :: t => if Beqb a x && Beqb b y && Beqb c z then v else look3 t x y z end.
""")
o.append("Definition tabulated : libm := {|")
o.append("  m_pow := look2 %s;" % tabn(pw))
for n in uf: o.append("  m_%s := look1 %s;" % (n, tab1(tabs[n])))
o.append("  m_atan2 := look2 %s;\n  m_hypot := look2 %s;\n  m_hypot3 := look3 %s |}." % (tabn(at2), tabn(hy), tabn(hy3)))
o.append("Definition F := b64ops tabulated.")
for k in sorted(U): o.append("Definition %s : list b64 := %s." % (k, lst(U[k])))
o.append("""
(** [rtol = 1e-7], [atol = 1e-14] *)
Definition close (act exp : b64) : bool :=
  Bleb (Babs (b64_sub act exp)) (b64_add %s (b64_mul %s (Babs exp))).
Definition data_len (c : cfg) (n : nat) : nat := if c_ord c =? 1 then 1 + n else ((n + 1) * (n + 2)) / 2.
(** The test data of size [n] as a number of type [c] (first order: the leading part). *)
Definition size_of (l : list b64) : nat := match List.length l with 3 => 1 | 6 => 2 | 10 => 3 | _ => 0 end%%nat.
Definition num (c : cfg) (l : list b64) : dd b64 :=
  mk (Z.of_nat (size_of l)) (full (firstn (data_len c (size_of l)) l)).
Fixpoint all_close (l : data b64) (e : list b64) : bool :=
  match l, e with
  | [], [] => true
  | Some a :: l, b :: e => close a b && all_close l e
  | _, _ => false
  end.
Definition agrees (c : cfg) (r : res (dd b64)) (e : list b64) : bool :=
  match r with
  | Ok d => (size c d =? Z.of_nat (size_of e)) && all_close (m_data d) (firstn (data_len c (size_of e)) e)
  | _ => false
  end.
Definition types2 : list cfg :=
  [ {| c_ord := 1; c_tsize := 2; c_exc := true; c_dbg := false |}; {| c_ord := 1; c_tsize := -1; c_exc := true; c_dbg := false |};
    {| c_ord := 2; c_tsize := 2; c_exc := true; c_dbg := false |}; {| c_ord := 2; c_tsize := -1; c_exc := true; c_dbg := false |} ].
Definition types3 : list cfg := [ {| c_ord := 2; c_tsize := 3; c_exc := true; c_dbg := true |} ].
""" % (fl(1e-14), fl(1e-7)))
for k, (com, e, exp, kind) in enumerate(cases):
    o.append("(* %s *)\nExample test_%02d : forallb (fun c => agrees c (%s) %s) %s = true.\nProof. vm_compute. reflexivity. Qed." %
             (com, k, e, lst(exp), "types2" if kind == "py" else "types3"))

# SScalar tests of test.cpp
def srun():
    start = next(i for i, l in enumerate(cpp) if "SScalar<double> s1" in l)
    out, exprs, vals, order, base = [], {}, {}, [], None
    def flush():
        for r in order:
            if exprs[r][0]: out.append((exprs[r], vals.get(r, [])))
            else: skipped.append(exprs[r][1:])
        exprs.clear(); vals.clear(); order.clear()
    sv = r"(s\d)"
    def trs(e):
        t = tr(e, sv)
        if t is None: return None
        return re.sub(r"\(num c (s\d)\)", r"\1", t).replace("apply_u F c", "s_apply_u F").replace("apply_b F c", "s_apply_b F")
    for i in range(start, len(cpp)):
        l = cpp[i]
        if l.startswith("TEST_CASE"): flush()
        m = re.match(r"    (?:const )?auto (r\d?) = (.*);$", l)
        if m:
            order.append(m.group(1)); exprs[m.group(1)] = (trs(m.group(2)), i + 1, m.group(2)); base = re.fullmatch(sv, m.group(2))
        m = re.match(r"    (r\d) ([-+*/])= (.*);$", l)
        if m and base:
            v = re.fullmatch(sv, m.group(3))
            e = ("s_%s F %s (Some %s)" % (asg[m.group(2)], base.group(1), v.group(1)) if v else "s_%s F %s %s" % (sasg[m.group(2)], base.group(1), fl(m.group(3))))
            exprs[m.group(1)] = (e, i + 1, m.group(0).strip())
        m = re.match(r'    REQUIRE\((r\d)\.(f\(\)|d\("(\w)"\)) == doctest::Approx\((.*)\)\);', l)
        if m: vals.setdefault(m.group(1), []).append((m.group(3), float(m.group(4))))
    flush()
    return out
for l in cpp:
    m = re.match(r"const SScalar<double> (s\d)\(([\d.]+), \{(.*)\}\);", l)
    if m: o.append("Definition %s : ss b64 := mks %s [%s]." % (m.group(1), fl(m.group(2)), "; ".join('("%s"%%string, %s)' % (a, fl(b)) for a, b in re.findall(r'\{"(\w)", ([\d.]+)\}', m.group(3)))))
ns = 0
for (e, ln, src), vs in srun():
    o.append('(* test.cpp:%d  %s *)\nExample test_s%02d : let r := %s in\n  %s = true.\nProof. vm_compute. reflexivity. Qed.' %
             (ln, src, ns, e, " && ".join(("close (s_get_f r) %s" % fl(v)) if k is None else ('close (s_get_d F r "%s") %s' % (k, fl(v))) for k, v in vs)))
    ns += 1
o.append(open(os.path.join(os.path.dirname(os.path.abspath(__file__)), "conformance_manual.txt")).read())
open(OUT, "w").write("\n".join(o) + "\n")
print(len(cases), ns, "cases; skipped:", skipped)
