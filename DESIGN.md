# HyperJet in Rocq/Coq: design

(Plan written before the proofs; kept current.)

## What is modelled

`include/hyperjet/hyperjet.h` (classes `DDScalar`, `SScalar`) and the logic of
`python/src/common.h`, `python/src/main.cpp`.  Every definition cites the lines it models.

| File | Models |
|---|---|
| `Outcome.v` | outcomes, `ptrdiff_t`, counting loops, storage cells (C++ semantics, nothing of HyperJet) |
| `Scalar.v` | the scalar interface `Ops` (operations, no laws) |
| `Float64.v`, `Ops64.v` | binary64 (Flocq), `size_from_data_length`'s `sqrt`, `double` as scalar type |
| `RealOps.v` | exact reals as scalar type |
| `Model.v` | `DDScalar` (hyperjet.h 43-1987) |
| `ModelS.v` | `SScalar` (hyperjet.h 1989-2894) |
| `ModelNS.v` | `SScalar` with `DDScalar` as its scalar type: +, -, \*, +=, -=, \*=, `variable`, sin, cos, exp (2002-2025, 2060-2063, 2143-2267, 2376-2396, 2556-2564); new entries are made by `DDScalar()` (315-328); operands are distinct objects |
| `ModelBuf.v` | `adata`, `set_adata` (hyperjet.h 870-878) |
| `ModelPy.v` | `hj.variables`, pickling, `hj.f/d/dd` (python/src/main.cpp, common.h) |
| `ModelObj.v` | Python sessions: objects, names, storage buffers with capacities, array views `x.g`, `x.data`, exceptions (common.h 48-60, 90-130, 150-181) |
| `ModelDisp.v` | Python's operator dispatch, method names, `len`, truth values, `repr` (common.h 87-185, 219-220, bind_sscalar.cpp, hyperjet.h 955-968, 2103-2125) |
| `ModelStrict.v` | the constructors and factory functions once more, recording which members are initialised; raw constructors, `variables(std::array)` (hyperjet.h 315-366, 532-705), the element reference in `operator*=` |
| `ModelObjS.v` | Python sessions with `SScalar`: names, objects, aliasing, in-place operators (bind_sscalar.cpp) |
| `ModelMove.v` | C++ programs with copies, moves, swaps and calls (implicit special members of hyperjet.h 57-58, 1997-1999); contents of moved-from containers are a parameter; insertion sort |
| `ModelMem.v` | the operators, `resize` and programs once more, every allocation may fail (hyperjet.h 57-58, 422-428, 565-660, 1138-1243, 1995-2332) |
| `ModelMemZ.v` | Python sessions with sparse numbers, every allocation may fail (hyperjet.h 1995-2332, bind_sscalar.cpp 13-112) |
| `ModelMemO.v` | Python sessions with dense numbers, every allocation may fail (hyperjet.h 422-428, 565-660, 1138-1243, common.h 48-181) |
| `ModelFmt.v` | what `std::ostream` writes for a `double`: `printf` with `%.6g` (hyperjet.h 955-968, 2103-2125); assumed correctly rounded, classic locale |
| `ModelNew.v` | Python constructors and overloaded static functions: pybind11's dispatcher and argument conversions (common.h 25-41, 59-86, bind_sscalar.cpp 10-18) |
| `Spec.v`, `ExprSpec.v`, `ProgSpec.v`, `SpecS.v`, `NumSpec.v`, `RangeSpec.v`, `ArrSpec.v`, `ObjSpec.v`, `ValSpec.v`, `FitSpec.v`, `ParamSpec.v`, `ErrSpec.v`, `DispSpec.v`, `SessSpec.v`, `FmaSpec.v`, `RingSpec.v`, `NestSpec.v`, `BuildSpec.v`, `NewSpec.v`, `VarSpec.v`, `RelSpec.v`, `DomSpec.v`, `DivSpec.v`, `IncSpec.v`, `RenSpec.v`, `SameSpec.v`, `OnlySpec.v`, `ParSSpec.v`, `FmtSpec.v`, `ThrSpec.v`, `RedSpec.v`, `MoveSpec.v`, `GradeSpec.v`, `MemSpec.v`, `MeanSpec.v`, `ImplSpec.v`, `SysSpec.v`, `GradeSSpec.v`, `SysSSpec.v`, `RedSSpec.v`, `MemZSpec.v`, `MemOSpec.v`, `EdgeSSpec.v`, `IdSSpec.v`, `NestSSpec.v`, `NestTSpec.v`, `NestUSpec.v`, `NestPSpec.v`, `NestVSpec.v` | specifications used in statements (layout, expressions, programs, tables, error scale, shapes, preconditions of statements, sessions on plain values, polynomials, relations between scalar types, doubles with error bounds, Python source expressions, sessions on plain floats, evaluation with contractions, commutative rings, numbers of numbers, relation between builds, arguments of constructor calls, counting of roundings, arguments outside domains, ranges of powers, chain-rule coefficients, names of sparse variables, agreement of sparse and dense doubles, restriction of names, relations between sparse numbers of two scalar types, reading decimal numbers, interleavings of threads, reductions of arrays) |
| `Prop*.v` | property theorems only, each `exact lemma`, `Print Assumptions`, concrete cases |
| `Samples.v` | concrete numbers for the cases |
| `Conformance.v` | generated tests: the model reproduces the numbers of the repository's own tests |
| other files | proofs |

* **Outcomes.** Every modelled function returns `res A := Ok a | Throw kind | Abort | UB`.
  `Throw` is a C++ exception, `Abort` a failed `assert`, `UB` undefined behaviour: access
  outside the storage, read of an uninitialised cell, signed overflow of `ptrdiff_t`,
  out-of-range float-to-int cast.
* **Configuration.** `cfg` = template parameters (`TOrder`, `TSize`) and build flags
  (exceptions on/off, assertions on/off).
* **Scalars.** The model is polymorphic in the scalar type, like the C++ template: a record
  `Ops S` gives the operations, with *no laws*. Theorems about layout, sizes, memory safety,
  truncation, static/dynamic agreement hold for every `Ops` (hence for IEEE doubles).
  Instances: exact reals (`Rops`, for derivative correctness) and IEEE binary64 (`b64ops M`,
  libm functions as an explicit record `M` about which a theorem assumes only what it states).
* **Storage.** `m_data` is a list of cells `option S`; `None` is an indeterminate value
  (`std::array` members left uninitialised by `empty()`). Loops are bounded folds over the
  same index ranges as the C++ loops, with the running pointers `k`, `it`, `source`, `target`
  as explicit state.
* **In-place operators** receive `const Type&` that may alias `*this`; a reference is
  `option dd` (`None` = alias of the object being written), a scalar reference is a value or an
  element of the object (`sref`), so aliasing is visible.
* **Expressions and programs.** `expr` (all operators and functions) and `stmt` (registers,
  assignments, in-place operators, `if`, `while`) with two semantics: running the model, and
  plain real functions.

### Simplifications (each is also noted at the definition)

* 64-bit `ptrdiff_t`, `std::vector<double>::max_size() = 2^60-1`; memory exhaustion only in `ModelMem.v` (C99), `ModelMemZ.v` (C107) and `ModelMemO.v` (C108).
* Eigen matrices are row-major tables; element access outside a matrix and vector assignment with a
  wrong length are `UB` (debug builds of Eigen assert them).
* Pointers are indices: forming the address one past the end with `&m_data[n]` (`operator*=`, line 1156, size 0) is not
  `UB` in the model, only an access through it is.  Copying an object with indeterminate entries is not `UB`, reading them is.
  `ModelStrict.v` and C77 treat both by the letter of the standard.
* `unordered_map` is the list of its entries in iteration order; all C33-C36 theorems hold for every order.
  `SScalar x;` without initialiser (indeterminate `m_f`) is not modelled.
* `log(2)`, `log(10)` of an `int` use the scalar type's logarithm.
* Sessions (`ModelObj.v`): all numbers of one session have one class; objects are never deallocated; what pybind11 and
  Python are assumed to do is listed at the head of the file.  `std::vector::resize` reallocates iff the new length
  exceeds the capacity; capacities are arbitrary (`slack`).
* binary64: round to nearest even, one NaN payload, no extended precision; no contraction into fused multiply-add
  except in C74, where every sum of a product may be fused. libm results are arbitrary except the ISO C Annex F cases a theorem names.

### Nested numbers (C76)

`NestSpec.v` instantiates the scalar type of the model with the model's own numbers (`dops`). Simplifications: an operator with a literal on one side is the operator on two numbers (C26 for reals); an exponent is the value of a converted literal; all levels have the same variables. By reading: `pow(b.f(), 2)` (1192-1217, 1234-1237, 1571) with an inner number is ambiguous between `pow(DDScalar, index)` and `pow(DDScalar, double)` (1771-1781), so `/` and `atanh` of nested numbers do not compile as written, and three levels need two user conversions for the literal 0 in `std::fill` (344); C76 is about the formulas with these calls resolved to `double`.

`NestTSpec.v` instantiates it with the sparse numbers of `ModelS.v` (`sops`), with the same simplifications; the names and the dense variables are the same parameters. By reading: `pow(b.f(), 2)` with a sparse number has only the `index` overload (2718-2722), since the deduction of `TScalar` at 2724-2728 fails for an `int`. The in-place operators inside the kernels (`d.second *= da`, `r[d.first] += db * d.second`, 2002-2042) are those that make a new number; for sparse numbers with other operands they agree.

`NestUSpec.v` evaluates `ModelS.v` itself over `sops`: an absent key inserts `SScalar()`, which value-initialisation makes 0 (2045). By reading: `pow` of the outer class passes an exponent of the scalar type to the inner `pow`, which has no such overload (2341, 2717-2728), so powers of nested sparse numbers do not compile; `/` does, since its exponent is the literal 2 (2289).

### Not modelled

Eigen expression templates and `NumTraits`, numpy broadcasting (their effect on the entries: trees of operations, C96), the `const` overload of `ag()` (does not compile when instantiated), threads of C++ programs (Python threads: C95), what the interpreter itself does when memory is exhausted (one request per statement, C107, C108), accuracy of libm. Rounding errors of derivatives: C54 for polynomial
expressions (closed bound), C67 for all (running bound), C74 (bound in advance, any contraction into fused multiply-adds), C83 (relative, number of roundings); the other derivative theorems are in exact reals.

## Plan per property (written before the proofs; outcome in MANIFEST.json)

| Id | Plan |
|---|---|
| C01 | closed form of the triangular index, injectivity on i<=j; any scalar type |
| C02 | `enc` spec list; accessors on `enc`; any scalar type |
| C03, C04 | loop invariants over the `it++` walk |
| C05, C06 | Flocq: round(sqrt(round(1+8n))) is exact at triangular lengths < 2^60; other lengths rejected by the exact check; length 0 refutes C06 |
| C07, C09, C10 | direct computation + invariants |
| C08 | expected refuted (`check_valid_size` is never called for dynamic types) |
| C11 | case analysis; expected refuted for `atan2`, 3-argument `hypot` |
| C12 | characterisation of unary/binary/ternary loops: result is `enc` of a closed form |
| C13, C14 | iterator-walk invariants; shrinking expected refuted (out-of-bounds write) |
| C15 | induction over expressions on `enc` closed forms (exact reals) |
| C16, C17 | induction over expressions with a two-parameter (hyper-dual) derivative predicate, Coquelicot |
| C18 | invariants on the strided walk; C19: C17 + Taylor-Peano |
| C20, C21 | closed forms of both sides; C21 expected refuted for `*=` (Hessian) |
| C22, C23 | case analysis |
| C24, C25 | simulation relations over programs, any scalar type |
| C26-C30 | closed forms + field/ring over exact reals |
| C31-C36 | association-list model of `unordered_map`; induction; expected refuted for aliased `*=`, `/=` and for eval role |
| C37, C38 | Flocq computation; expected refuted |
| C39, C40 | computation; expected refuted in part |
| C41 | case analysis over the dispatch |
| C42 | expected refuted (`== n == 0` inverts the check) |
| C43 | induction over fuel-bounded executions, local constancy of branches |
| C44 | list reasoning; second order expected refuted |
| C45 | store model: frame property over programs |
| C46-C48 | corollaries of the expression theorem: algebraic laws, chain rule for operands with arbitrary data, dependence on the denoted function only |
| C49, C50 | program simulation for the sparse type; case analysis |
| C51, C52 | Flocq error-free/correct-rounding lemmas per component; under-/overflow witnesses; magnitude calculus (`upto e v`) for the safe range |
| C53 | case analysis on pickled states; `hm` on first-order storage (expected refuted) |
| C54, C55 | one relational induction over the model run on four scalar types at once (double, real, magnitude, overflow checker); standard error model from Flocq |
| C56, C57 | loop invariant "Ok so far implies all cells read exist"; reduction of large matrices to their leading block |
| C58-C61 | invariant of the heap (live buffers, one owner each), effect of one statement, induction over sessions; C58 expected refuted after `resize`, C60 for `resize` |
| C62 | second interpreter of sessions on plain values; simulation relation (names, loads, array windows) kept by each statement |
| C63, C64 | second-order Peano expansion in all directions at once (calculus of expansions, induction over expressions); uniqueness of the expansion |
| C65 | logical relation on cells, storage, heaps, results; one lemma per model function, induction over expressions, statements, sessions |
| C66 | C65 between reals and enclosing scalars, composed with C16/C17; interval instance `Iops` over integers |
| C67 | C65 twice, between doubles and bounded doubles and between reals and bounded doubles; mean value bounds per function |
| C68 | lower Python source to `expr` (any scalar type), then C16, C17, C32 |
| C69-C71 | case analysis on the operands; witnesses for the false parts |
| C72, C73 | one expression per object: the float session computes it at every point, the object holds its jet; storage through C62 |
| C74 | run the model on a scalar type that records operations; nondeterministic evaluation of the record; C65 against balls around the exact values |
| C75 | the jet of an expression, applied to two directions, is its value over S[e1,e2]/(e1^2,e2^2); induction over expressions, uniqueness of quotients with invertible value |
| C76 | jets with expressions as components simulate the inner operators level by level; their components stay in the domain, which is open, and are the partial derivatives at every nearby point; induction over the depth |
| C77 | second, stricter model of the constructors compared with the first; relation "equal up to `m_size`" kept by every operation and session; expected refuted for static types |
| C78 | relation `keeps` between results in two builds, shown for `assert_` and the checks and lifted through bind and loops; expected refuted for length validation (C42) |
| C79 | operation on a too long operand equals that on the operand cut to the storage of the left size; too short: the loop reaches the end of the operand |
| C80 | pybind11's two passes as a function of the conversions; case analysis per call form; expected refuted where an array of one element converts to a number |
| C81 | parametricity: the binary relation on components "entry of variable i lies in P" for P absorbing products; P = {0} and P = {zeros, NaN}; counterexample by evaluation |
| C82 | the lemma of C50-type congruence on components read through sigma; symmetric storage forces order; counterexample by evaluation |
| C83 | parametricity (as C67) with exact value + count of roundings as scalar type; per function the counts are added up; expected refuted where 1 - x*x cancels |
| C84 | NaN propagates from the root of a negative difference; logarithms expected refuted; their derivatives compared with those of ln\|x\| by the counts of C83 |
| C85 | exponents of all intermediate results bounded (as C52); expected refuted where b^2, b^3 leave the range although the quotient does not |
| C86 | the three kernels as two passes; expected refuted for the early return |
| C87 | tables mapped by an injective renaming; every table operation commutes with it |
| C88 | the derivatives of every operation are linear combinations with coefficients depending on values only |
| C89 | the two sets of formulas compared as double expressions; expected refuted for derivatives (`inf*0`) |
| C90 | the map that drops entries commutes with every loop over tables |
| C91 | a logical relation on tables (same names, related entries); reorderings transported by `Permutation_Forall2` |
| C92 | C91 with the certificates of C66, C67, C74, C83 and the exactness of sparse numbers over the reals (C32) |
| C93 | the digits are those of Flocq's rounding in radix 10 with 6 digits; a reader of decimal numbers as specification; expected refuted (six digits) |
| C94 | reader for texts of sparse numbers; expected refuted (names are not quoted) |
| C95 | sessions on values: a map of objects per thread between its own run and the interleaved one, kept by its statements and by those of other threads; storage through C62 |
| C96 | jets form a commutative ring up to the entries of the storage; trees to lists, permutations; expressions of trees through C16, C17; one rounding per level for sums of doubles; expected refuted for doubles |
| C97 | a set of variables that hold values, kept by every statement; moves into moved-from variables keep the multiset of numbers; invariant of insertion sort with a hole; expected refuted with NaN |
| C98 | relation between jets that depends on the index of the derivative, kept by every kernel (products add indices up); instances: factors over R, signs of doubles, shifts of doubles under a running check of the exponents; expected refuted without the check (underflow) |
| C99 | answers of the allocator as a list; a run with answers compared with the run without by induction on the fuel; for sparse in-place operators: the loop over the right operand stops at a prefix |
| C100 | the function on the segment between two points as a function of one variable; mean value theorem and Taylor-Lagrange; derivatives at the intermediate point related to the box by C65; eval over related sums; tests and Newton steps from the mean value form, existence by the intermediate value theorem |
| C101 | one step on jets by the chain rule (`ch_ev`); the solution as a function of two pseudo variables satisfies the same affine equations (uniqueness of derivatives); differences satisfy a(k+1) = q(k) a(k) + eps(k); nearby values: local contraction, continuity of the coefficients through expressions for derivatives (C76) |
| C102 | as C101 with vectors and matrices: maximum norms, row sums; contraction of the values from the uniform approximation (C64) |
| C103 | relation of tables name by name, as C91 with a relation of its own for the derivatives by each name; instances for reals, signs, powers of two from C98 |
| C104 | a real sparse number inside the computed one at every point of the segment (C32, C91), then the mean value theorem as in C100 |
| C105 | sparse sweeps shadow the jets of C102; the chain rule by any name for the rest |
| C106 | sparse numbers shadow the jets of C75 over the ring; value and one derivative form a commutative monoid under sums and products |
| C107 | every operation asks an exact number of times; a refused loop has merged a prefix; both directions by induction on the session |
| C108 | a refused statement returns the heap it got, by cases; a session with refusals is one with the statements left out (induction on the derivation), `resize` apart |
| C111 | the same, with the scales of C52 |
| C112 | one dense number of size 1 for each name (C34), then the theorems on dense numbers (C28-C30, C47, C48) |
| C113, C114 | from C83 by C89; the factor of a function is that of a variable; special cases of `pow` |
| C115 | entries stay well-formed and keep their names until the first new one, whose fresh scalar cannot be added to; one name: jets of symbolic derivatives and uniqueness of derivatives |
| C116 | every scalar of the dense computation is related to the symbolic expression it computes: a sparse number with the value and the first derivatives of that expression; the symbolic jet of C76 then gives the derivatives |
| C117 | the same relation for the value and for every entry of the outer table; a missing entry corresponds to an expression whose value and derivatives are 0 |
| C118 | the first n components of a jet computation do not see the seeds of the other variables, so C116's relation for all names applies |
| C119 | the relation "has the value" is respected by all scalar operations, so the relation theorem of C65 applies; a quotient with numerator 3 for the doubles |
| C120 | the relation "well-formed with this value" is respected by all operations of the inner numbers; C65 and C91 do the rest; induction over the levels for any depth |
| C109, C110 | entries of the result tables by name; NaN and magnitude lemmas of C84, C85; logarithms from C84 by the correspondence of C89 |

## Findings (behaviour of the code that violates a listed property; all proved in the model)

* `x *= x` on second-order numbers gives Hessian `2 f h + 4 f g g^T` instead of `2 f h + 2 g g^T` (C21); reachable from Python.
* `x *= x.f()` (a reference into `x`) uses the new value for the derivatives (C21).
* `SScalar`: `x *= x`, `x /= x` use already scaled derivatives (C35); `eval` leaves out the value and compares iterators of different maps (C36).
* Size checks missing: `atan2`, third operand of `hypot` (C11), negative sizes (C08), `create({})` and unpickling `([],)` give size -1 (C06, C53).
* `pad_left`/`pad_right` with a smaller size write out of bounds (C13, C14).
* `resize` of second-order dynamic numbers moves Hessian entries into the gradient and vice versa (C44).
* Dynamic default / converting constructors create a size-1 number with one cell; the initialiser-list constructor writes into an empty vector (C39).
* `size_from_data_length` without exceptions asserts the opposite of what it means (C42).
* `hm()` / `hj.dd` on first-order numbers read out of bounds (C53); mutable `g(-1)` is the value (C40).
* `a / b` is `a * (1/b)`: two roundings, `49/49 != 1`, `x/x = inf` for subnormal `x`; differs from `a /= b` (C37).
* `pow(x, 0)`, `pow(x, 1)` at `x = 0` give NaN derivatives (C38).
* `set_hm` accepts matrices of any shape; smaller ones are read out of bounds, also by `from_arrays` without assertions (C56).
* `hypot`, `atan2` of tiny operands give NaN/inf derivatives; `hypot` of values from 2^342 on loses its curvature (0 instead of
  1/|a|) because `f*f*f` overflows, from 2^512 on its Hessian is NaN (C52). In the range between, everything is finite.
* Arrays `x.g`, `x.data` dangle after a growing `x.resize(n)` (C58); a failing `resize` leaves the object malformed (C60).
* Static types never set `m_size` (except from an initialiser list) and `empty()` copies an uninitialised array: by the letter of the standard every copy is undefined; nothing depends on the value (C77).
* With exceptions and assertions off, an operator on numbers of sizes n < m adds the gradient of the longer one into the Hessian of the shorter one; with the operands exchanged it reads past the end (C79).
* `DScalar(2, np.array([3.0]))` is the constant 2 of size 3, not the number with gradient (3): an array of one element converts to a size; `D2Scalar(np.array([5.0]))` is the constant 5 although `D2Scalar([5.0])` is rejected (C80).
* `sqrt(x0)` at `x0 = 0` has the derivative NaN, not 0, with respect to an unused variable `x1` (and the same wherever a coefficient is infinite); nothing but zeros and NaN is possible (C81).
* Renumbering the variables can change the last bit of off-diagonal second derivatives: `1/a` with value 5 and gradient (3, 5) gives 0.24000000000000007, with gradient (5, 3) 0.24000000000000005 (C82).
* `tanh` computes its derivative as `1 - f*f`: no correct digit for arguments from 20 on (0 or at least 2^-53 instead of at most 2^-55), whatever the C library returns (C83). `acos`, `asin`, `atanh` use `1 - x*x` instead of `(1 - x)*(1 + x)` and lose half of the digits near 1 (C83); `acosh` does it right.
* `asinh` has derivative 0 from 2^512 on because `1 + x*x` overflows (C83). The mixed second derivative of `atan2` at (7/4, 7/4 + 2^-52) is 0 instead of a negative number (`db*db - da*da` cancels, C83).
* The logarithms (and `atanh` beyond 1) of a negative number return NaN with finite derivatives, namely those of `ln|x|`: an optimiser that looks at derivatives only does not notice that it left the domain (C84). `sqrt`, `acos`, `asin`, `acosh` return NaN throughout. `pow(x, b)` with x < 0 and tiny b returns NaN with finite derivatives because `b - 1` rounds to -1 (C84).
* `x / y` with |y| at most 2^-359: `pow(b, 3)` underflows to 0, no entry of the Hessian is finite, not even for division by a constant (`inf*0`), although e.g. 2^-400/y at y = 2^-400 has second derivative 2^801; from 2^342 on `pow(b, 3)` overflows and the second derivatives through the denominator are 0 (2^1000/y at y = 2^350 has 2^-49); from 2^512 on `pow(b, 2)` overflows and the gradient through the denominator is 0 as well (C85).
* `unary`, `binary`, `ternary` with the tag `Zero` for all first-order coefficients drop the second-order terms and leave the derivatives of the result unwritten; latent, no function uses it (C86).
* `sqrt(u) + v` at u = 0: `DDScalar` reports NaN for the derivative by v, `SScalar` reports 1; absent names are not multiplied by the infinite coefficient. This, and the sign of zeros, is the only difference between the two classes on doubles apart from `r *= r`, `r /= r` (C89).
* For `SScalar` a derivative 0 that is stored is not the same as a name that is not stored: times infinity the first becomes NaN, the second stays 0. The derivatives by different names never influence each other (C90).
* `repr` shows six digits and does not quote names: 1000000 and 1000001 look the same, and so do an `SScalar` with the names `x`, `y` and one with the name `x +2*dy` (C93, C94).
* Python `x += 1.0`, `x -= 1.0` have no in-place binding: they rebind the name, unlike `x *= 2.0`, `x += y` (C59).
* Python: `bool(x)` is `size != 0`, not `value != 0` (a variable at 0 is true, `SScalar(5.0)` false) (C70); `hj.hypot` is missing for `SScalar` (C69);
  `repr` of an `SScalar` depends on the iteration order of its table (C71).

## How the theorems are tested

* Every theorem has a concrete case beside it (`Example ..._case`).
* `tools/mutate.py` applies realistic bugs to the model in a scratch copy, rebuilds, replaces failing proofs by `Admitted`
  there, and reads off `Print Assumptions` which property theorems depend on a failed proof. Results: `seeded/LOG.jsonl`.
* `Conformance.v` (`tools/gen_conformance.py`): the model run on binary64 reproduces the expectations of
  `python/tests/test_DDScalar.py`, `test_SScalar.py` and `test/src/test.cpp` (tests of the transcription, not proofs).

## Trusted base

* Coq 8.16.1's kernel (and `vm_compute`, used for concrete cases and witnesses), `coqc`.
* The faithfulness of the model files listed above to the cited lines; the specifications in `Spec*.v`.
* Axioms, as reported by `Print Assumptions` under each theorem. Only the standard library's: those of its real
  numbers (`sig_forall_dec`, `sig_not_dec`), `classic` and `functional_extensionality_dep`, which come in through
  `Reals` (also via Flocq and Coquelicot, whose own files add none). No axioms of this project.

<!-- assumptions:begin (tools/gen_assumptions.py) -->
* **Closed under the global context** (222 theorems): `C01_hessian_symmetric_framed`, `C02_storage_layout`, `C03_hm_full`, `C03_hm_zeros`, `C03_hm_other_mode`, `C04_set_hm`, `C04_arrays_round_trip`, `C04_gradient_round_trip`, `C07_zero`, `C07_constant`, `C07_variable`, `C07_empty`, `C07_sizeless`, `C08_negative_sizes_partial`, `C08_refuted`, `C08_first_order_minus_one_accepted`, `C08_second_order_negative_accepted`, `C09_variables`, `C10_wrong_size_rejected`, `C10_right_size_accepted`, `C39_static_converting_ctor_partial`, `C39_refuted`, `C39_dynamic_converting_ctor_malformed`, `C39_dynamic_default_ctor_malformed`, `C39_static_default_ctor_uninitialised`, `C44_resize_first_order_partial`, `C44_resize_any_order_partial`, `C44_refuted`, `C44_second_order_growing_moves_hessian_into_gradient`, `C44_second_order_shrinking_moves_gradient_into_hessian`, `C11_mismatch_rejected_partial`, `C11_atan2_refuted`, `C11_hypot3_refuted`, `C11_atan2_mismatch_behaviour`, `C11_hypot3_mismatch_behaviour`, `C12_unary_safe`, `C12_binary_safe`, `C12_hypot3_safe`, `C12_assign_safe`, `C12_scalar_assign_safe`, `C13_pad_right_partial`, `C14_pad_left_partial`, `C13_C14_shrinking_refuted`, `C13_C14_shrinking_is_undefined`, `C20_add_assign`, `C20_sub_assign`, `C20_mul_assign`, `C20_scalar_assign`, `C22_comparisons_are_of_values`, `C40_index_asserted_partial`, `C40_flat_index_asserted_partial`, `C40_debug_refuted`, `C40_release_refuted`, `C40_mutable_gradient_minus_one_is_the_value`, `C40_release_gradient_reads_hessian`, `C40_first_order_hessian_out_of_bounds`, `C40_eval_short_increment_out_of_bounds`, `C18_eval_reads_prefix`, `C21_add_self`, `C21_sub_self`, `C23_abs_any_scalar`, `C26_scalar_side_bit_for_bit`, `C27_commutative_bit_for_bit`, `C24_first_order_is_truncation`, `C25_static_dynamic_same_data`, `C45_unassigned_is_unchanged`, `C45_copies_independent`, `C31_lookup`, `C31_absent_is_zero`, `C31_stored_is_found`, `C31_size_counts_names`, `C31_binary_names`, `C31_unary_names`, `C31_expression_names`, `C33_expressions_order_free`, `C33_programs_order_free`, `C33_model_included`, `C35_scalar_operands`, `C35_other_operands_unchanged`, `C36_iso_eval_defined_iff_empty`, `C50_sparse_comparisons`, `C37_values`, `C41_variables`, `C53_utilities`, `C53_first_order_hessian_refuted`, `C53_first_order_hessian_out_of_bounds`, `C56_set_hm_shapes`, `C56_from_arrays_shapes`, `C57_set_zero`, `C57_adata_round_trip`, `C57_set_adata_wrong_length`, `C60_operators_throw_first`, `C65_expressions`, `C65_programs`, `C68_lowering`, `C69_other_operands_rejected`, `C69_other_comparisons`, `C69_number_exponents_rejected`, `C69_float_on_the_left`, `C69_module_hypot_partial`, `C69_module_hypot_refuted`, `C70_truth_of_dense_refuted`, `C70_truth_of_sparse_refuted`, `C70_truth_is_size`, `C70_truth_is_having_names`, `C70_truth_raises`, `C71_dense_repr`, `C71_sparse_repr_partial`, `C71_sparse_repr_refuted`, `C73_other_objects_unchanged`, `C75_polynomials_over_rings`, `C75_quotients_over_rings`, `C75_components`, `C76_dynamic_inner_throws`, `C77_size_not_observable`, `C77_mul_reference`, `C78_methods`, `C78_programs`, `C79_shorter`, `C79_longer`, `C79_leak`, `C80_keyword_order`, `C80_static_constant`, `C80_static_sized`, `C80_static_variable`, `C80_sparse`, `C80_static_keywords`, `C80_static_variables`, `C80_sparse_static`, `C81_programs`, `C82_selection`, `C82_renumbering_partial`, `C86_zero_tags_refuted`, `C87_expressions`, `C87_programs`, `C87_expression_run`, `C87_program_run`, `C87_sessions`, `C87_eval`, `C90_expressions`, `C90_programs`, `C90_expression_run`, `C90_program_run`, `C90_sessions`, `C90_one_name`, `C90_one_name_programs`, `C91_expressions`, `C91_any_order`, `C91_programs`, `C91_programs_any_order`, `C91_sessions`, `C91_derivatives`, `C91_eval`, `C91_comparisons`, `C93_not_finite`, `C95_sparse`, `C96_any_order`, `C96_python_sum`, `C96_dot_defined`, `C96_matrix_products`, `C96_mirrored`, `C97_values`, `C97_sparse`, `C97_calls`, `C97_calls_sparse`, `C97_static`, `C97_moved_from`, `C97_rearranged`, `C97_rearranged_sparse`, `C97_sorted`, `C97_sorted_sparse`, `C98_graded`, `C98_graded_programs`, `C99_sparse`, `C99_sparse_granted`, `C99_sparse_valid`, `C99_sparse_others`, `C99_half_reads`, `C99_known_names`, `C99_retry`, `C99_retry_refuted`, `C99_unchanged_refuted`, `C99_dense`, `C99_dense_granted`, `C99_dense_unchanged`, `C99_static`, `C99_dense_requests`, `C99_resize`, `C99_resize_refused`, `C99_resize_unchanged_refuted`, `C103_expressions`, `C103_any_order`, `C103_programs`, `C103_programs_any_order`, `C103_sessions`, `C103_eval`, `C106_polynomials_over_rings`, `C106_quotients_over_rings`, `C106_components`, `C106_any_order`, `C106_python_sum`, `C106_reductions_exist`, `C106_matrix_products`, `C106_dot`, `C107_statement`, `C107_sessions`, `C107_granted`, `C107_others`, `C107_valid`, `C107_retry`, `C107_unchanged_refuted`, `C107_retry_refuted`, `C110_constant`, `C113_quotient_values`, `C115_known_names_partial`, `C115_new_name_static_refuted`, `C115_new_name_dynamic_refuted`, `C115_new_name_dynamic_any_refuted`, `C119_programs_partial`, `C120_dense_programs_partial`, `C120_sparse_expressions_partial`, `C120_sparse_any_order_partial`

* **`ClassicalDedekindReals.sig_forall_dec`, `FunctionalExtensionality.functional_extensionality_dep`** (1 theorems): `C83_meaning`

* **`ClassicalDedekindReals.sig_forall_dec`, `ClassicalDedekindReals.sig_not_dec`, `Classical_Prop.classic`, `FunctionalExtensionality.functional_extensionality_dep`** (307 theorems): `C05_create_round_trip`, `C06_create_lengths_partial`, `C06_empty_refuted`, `C06_empty_data_gives_size_minus_one`, `C39_static_list_ctor_partial`, `C39_list_refuted`, `C39_dynamic_list_ctor`, `C39_static_list_ctor_short`, `C42_refuted`, `C42_check_is_inverted`, `C15_pad_right_commutes`, `C15_pad_left_commutes`, `C16_first_derivatives_exact`, `C17_second_derivatives_exact`, `C18_eval_is_taylor`, `C19_eval_approximates`, `C46_relabelling_commutes`, `C20_div_assign`, `C21_div_self`, `C21_mul_self_partial`, `C21_mul_self_refuted`, `C21_mul_self_computes`, `C21_mul_by_own_value_computes`, `C22_real_comparisons_consistent`, `C23_abs_real`, `C26_scalar_is_constant`, `C27_ring_laws`, `C28_division_inverts_multiplication`, `C29_identities_everywhere`, `C29_identities_positive`, `C29_identities_nonzero`, `C29_identities_unit_interval`, `C29_acosh`, `C29_tan`, `C29_identities_two_operands`, `C29_atan2_is_atan_of_quotient`, `C30_hypot3_consistent`, `C47_chain_rule`, `C48_same_function_same_data`, `C43_program_derivatives`, `C32_sparse_exact`, `C33_eval_order_free`, `C34_variables_agree`, `C34_operands_agree`, `C34_programs_agree`, `C35_distinct_operands`, `C35_self_partial`, `C35_self_mul_refuted`, `C35_self_div_refuted`, `C35_self_computes`, `C35_self_mul_right_iff`, `C36_eval_linear_partial`, `C36_taylor_refuted`, `C36_defined_refuted`, `C36_dense_eval_adds_value`, `C49_sparse_program_derivatives`, `C50_sparse_abs`, `C20_C21_C27_binary64`, `C22_nan`, `C22_finite`, `C37_self_division_refuted`, `C37_agrees_with_assignment_refuted`, `C37_assignment_correctly_rounded`, `C37_accuracy_partial`, `C37_exact_reciprocal_partial`, `C37_tiny_self_division`, `C38_finite_at_zero_refuted`, `C38_exponent_one_refuted`, `C38_exponent_zero_at_zero`, `C38_exponent_one_at_zero`, `C38_exponent_two_at_zero_partial`, `C38_larger_exponents_at_zero_partial`, `C38_natural_power_is_product_partial`, `C51_correctly_rounded`, `C51_bit_identities`, `C52_hypot_refuted`, `C52_atan2_refuted`, `C52_hypot_tiny`, `C52_atan2_tiny`, `C05_pickle_round_trip`, `C53_other_states_rejected`, `C53_state_lengths_partial`, `C53_empty_state_refuted`, `C53_empty_state`, `C54_rounding_error`, `C55_integer_polynomials_exact`, `C55_beyond_2_53`, `C62_sessions_are_values`, `C62_capacities_do_not_show`, `C63_eval_exact_for_polynomials`, `C64_eval_approximates_uniformly`, `C58_views_stay_live_partial`, `C58_views_after_resize`, `C58_views_always_live_refuted`, `C59_number_operand_shared_partial`, `C59_float_scaling_shared_partial`, `C59_float_shift_rebinds`, `C59_always_in_place_refuted`, `C60_nothing_changed_partial`, `C60_failed_resize`, `C60_nothing_changed_refuted`, `C61_legal_sessions_are_safe`, `C65_sessions`, `C65_methods`, `C66_enclosure`, `C67_certificates`, `C67_running_error`, `C67_local_errors`, `C68_python_expressions_exact`, `C68_sparse_expressions_exact`, `C72_sessions_exact`, `C72_aliased_product_refuted`, `C73_sparse_sessions_exact`, `C73_aliased_operands_refuted`, `C74_error_bounds_under_contraction`, `C74_uncontracted`, `C74_integers_exact`, `C74_contraction_matters`, `C76_nested_derivatives`, `C76_nth_derivative`, `C77_dynamic_initialised_partial`, `C77_static_copies_refuted`, `C77_static_list`, `C77_size_never_read`, `C52_hypot_in_range_partial`, `C52_hypot3_in_range_partial`, `C52_atan2_in_range_partial`, `C52_hypot_large`, `C52_hypot_curvature`, `C52_hypot_huge`, `C78_sessions`, `C78_lengths_partial`, `C78_lengths_refuted`, `C80_default`, `C80_value`, `C80_value_and_size`, `C80_size`, `C80_data`, `C80_data_rejected_partial`, `C80_data_single`, `C80_data_rejected_refuted`, `C80_gradient_keyword`, `C80_gradient_partial`, `C80_gradient_single`, `C80_gradient_refuted`, `C80_arrays`, `C80_unknown_keyword`, `C80_sizes_rejected`, `C80_float_no_size`, `C80_values_rejected`, `C80_data_column`, `C80_data_table`, `C80_gradient_row`, `C80_gradient_table`, `C80_hessian_vector`, `C81_reals`, `C81_doubles_partial`, `C81_refuted`, `C81_scalars`, `C82_refuted`, `C83_expressions`, `C83_functions_partial`, `C83_two_operands_partial`, `C83_tanh_refuted`, `C83_near_one_refuted`, `C83_asinh_refuted`, `C83_atan2_refuted`, `C84_roots_partial`, `C84_logarithms_refuted`, `C84_pow_refuted`, `C85_in_range_partial`, `C85_tiny_refuted`, `C85_exact`, `C85_huge_refuted`, `C85_flat_refuted`, `C86_unary_partial`, `C86_binary_partial`, `C86_ternary_partial`, `C88_variables`, `C88_expressions`, `C88_programs`, `C88_sessions`, `C89_expressions`, `C89_variables`, `C89_programs`, `C89_programs_any_order`, `C89_exact_expressions_partial`, `C89_exact_programs_partial`, `C89_exact_refuted`, `C92_enclosure`, `C92_running_error`, `C92_relative`, `C92_contraction`, `C92_uncontracted`, `C92_integers`, `C93_rounded_partial`, `C93_accuracy_partial`, `C93_determines_refuted`, `C93_same_text`, `C93_as_written`, `C93_monotone`, `C93_dense`, `C94_reads_partial`, `C94_determines_partial`, `C94_determines_refuted`, `C95_values`, `C95_orders`, `C95_storage`, `C96_dot_exact`, `C96_norm_exact`, `C96_any_order_refuted`, `C96_sums_of_doubles`, `C97_order_real`, `C97_order_double`, `C97_sorted_refuted`, `C98_real_seeds`, `C98_signs`, `C98_powers_of_two`, `C98_powers_of_two_programs`, `C98_powers_of_two_refuted`, `C100_mean_value_form`, `C100_taylor_form`, `C100_centred_form`, `C100_monotonicity_test`, `C100_convexity_test`, `C100_injectivity_test`, `C100_newton_step`, `C101_at_the_solution`, `C101_newton`, `C101_near_the_solution`, `C102_at_the_solution`, `C102_newton`, `C102_near_the_solution`, `C103_real_seeds`, `C103_signs`, `C103_powers_of_two`, `C103_powers_of_two_programs`, `C104_mean_value_form`, `C104_centred_form`, `C104_monotonicity_test`, `C104_injectivity_test`, `C104_newton_step`, `C105_at_the_solution`, `C105_newton`, `C105_near_the_solution`, `C105_steps_exist`, `C108_statement`, `C108_sessions`, `C108_granted`, `C108_left_out_partial`, `C108_others`, `C108_retry`, `C108_resize`, `C108_unchanged_refuted`, `C109_roots_partial`, `C109_names_refuted`, `C109_logarithms_refuted`, `C109_pow_refuted`, `C110_in_range_partial`, `C110_tiny_refuted`, `C110_huge_refuted`, `C110_other_names`, `C111_hypot`, `C111_hypot3`, `C111_atan2_in_range_partial`, `C111_atan2_tiny_refuted`, `C111_atan2_huge_refuted`, `C112_chain_rule`, `C112_same_function`, `C112_division`, `C112_everywhere`, `C112_positive`, `C112_nonzero`, `C112_unit_interval`, `C112_acosh`, `C112_tan`, `C112_two_operands`, `C112_atan2_is_atan_of_quotient`, `C112_hypot3`, `C112_natural_powers`, `C112_names_refuted`, `C113_functions_partial`, `C113_variable_partial`, `C113_two_variables_partial`, `C113_tanh_refuted`, `C113_near_one_refuted`, `C113_asinh_refuted`, `C113_self_division_refuted`, `C113_agrees_with_assignment_refuted`, `C114_finite_refuted`, `C114_exponent_zero`, `C114_exponent_one`, `C114_larger_exponents`, `C115_one_name_partial`, `C115_values_partial`, `C116_derivatives`, `C117_second_derivatives`, `C118_sensitivities`, `C119_sessions_partial`, `C119_real_programs`, `C119_same_bits_refuted`, `C120_dense_sessions_partial`, `C120_real_programs`, `C120_any_depth`, `C120_real_sparse_expressions`, `C120_real_sparse_programs`, `C120_same_bits_refuted`

<!-- assumptions:end -->
