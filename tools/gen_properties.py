#!/usr/bin/env python3
"""Regenerates ../properties.jsonl (one JSON object per line)."""
import json, os
H = "include/hyperjet/hyperjet.h"
P = []
def p(title, statement, quantifier, why, anchors):
    P.append(dict(id="C%02d" % (len(P)+1), title=title, statement=statement,
                  quantifier=quantifier, why_tests_cant=why, anchors=anchors))

p("Hessian accessors are symmetric and frame-preserving",
  "For a second-order number x of any size n and any 0<=i,j<n: h(i,j) succeeds and equals h(j,i); after set_h(i,j,v), h(i,j)=h(j,i)=v while f, every g(k), every h(k,l) with {k,l}!={i,j}, the size and the storage length are unchanged.",
  "all sizes, all index pairs, all values, all scalar types",
  "The triangular index formula must be right for every (n,i,j); tests look at n=2,3.",
  [H+": DDScalar::h(index,index), DDScalar::set_h(index,index,Scalar)"])
p("Storage layout is value, gradient, packed upper triangle",
  "For every size n the storage is exactly [f, g(0..n-1), h(0,0..n-1), h(1,1..n-1), ...]: f(), g(i), h(i,j) and the flat h(k) read precisely these positions, no access by valid indices leaves the storage, and distinct unordered index pairs never share a slot.",
  "all sizes n, all valid indices",
  "Collision freedom and in-bounds access are statements about all n and all pairs of index pairs.",
  [H+": DDScalar::f, g, h, data_length_from_size, data"])
p("Hessian matrix export",
  "hm('full') returns the symmetric n x n matrix with entry (i,j) equal to h(i,j); hm('zeros') returns h(i,j) on and above the diagonal and 0 below; any other mode throws 'Invalid value for mode'.",
  "all sizes, all second-order numbers, all mode strings",
  "All sizes and all mode strings.",
  [H+": DDScalar::hm", "python/src/common.h: hm"])
p("Hessian matrix import and array round trip",
  "set_hm(M) stores exactly the upper triangle of M (h(i,j)=M(min,max)) and leaves f and g alone; from_arrays(x.f, x.g, x.hm(mode)) rebuilds x exactly for both modes; from_gradient(x.f,x.g) rebuilds a first-order x.",
  "all sizes, matrices and numbers",
  "Round trip over all sizes.",
  [H+": DDScalar::set_hm, from_arrays, from_gradient, ag"])
p("create / pickle round trip",
  "For every well-formed number x (first or second order, static or dynamic, any size that fits in memory), unpickling its pickled state, and create(x.data()), yield a number with the same size and identical data. In particular the floating-point computation sqrt(1+8n) used to recover the size never mis-rounds.",
  "all sizes up to the std::vector limit (2^60-1 entries), all contents",
  "The size is recovered through a double square root; correctness for all lengths up to 2^60 cannot be tested.",
  [H+": DDScalar::size_from_data_length, create", "python/src/common.h: py::pickle"])
p("create accepts exactly the storage lengths of some size",
  "create(data) on a dynamic type throws 'Invalid length' unless the length of data is 1+n (first order) or (n+1)(n+2)/2 (second order) for some n>=0, in which case it succeeds with size n.",
  "all data lengths",
  "Every length must be classified, including 0.",
  [H+": DDScalar::create, size_from_data_length", "python/src/common.h: py::init(create)"])
p("zero, constant, variable and empty build the number they name",
  "For every valid size n: zero(n) has value 0 and all derivatives 0; constant(f,n) has value f and all derivatives 0; variable(i,f,n) with 0<=i<n has value f, gradient the i-th unit vector and Hessian 0; empty(n) has size n and storage of the matching length. The size-less overloads give size 0 (dynamic) or the static size.",
  "all sizes, indices, values, orders, static and dynamic",
  "All sizes and index positions.",
  [H+": DDScalar::zero, constant, variable, empty"])
p("Negative sizes are rejected",
  "For a dynamic type, empty/zero/constant/variable/resize called with a negative size raise an exception and never produce a number.",
  "all negative sizes, both orders",
  "All negative integers; the arithmetic (n+1)(n+2)/2 is positive again for n<=-3.",
  [H+": DDScalar::check_valid_size, empty(index), zero(index), constant(Scalar,index), variable(index,Scalar,index), resize"])
p("variables() seeds the identity Jacobian",
  "variables([v0..v_{n-1}]) returns n numbers of size n, the i-th having value v_i, gradient e_i and Hessian 0, for dynamic types and for the matching static type.",
  "all lists of values of any length",
  "All lengths.",
  [H+": DDScalar::variables", "python/src/common.h: variables"])
p("Static types reject a wrong size argument",
  "For a type with static size N, empty/zero/constant/variable given a size argument different from N throw 'Invalid size', and given N behave as the size-less overload.",
  "all N>=0, all size arguments",
  "All pairs (N,size).",
  [H+": DDScalar::check_valid_size, empty, zero, constant, variable"])
p("Mixing sizes raises instead of corrupting",
  "For dynamic numbers a, b of different sizes every two-operand operation (+,-,*,/,+=,-=,*=,/=,atan2,hypot) and hypot(a,b,c) with any mismatch throws 'Incompatible size', never reads out of bounds and leaves the operands unchanged.",
  "all pairs/triples of sizes that are not all equal, both orders, all contents",
  "All size combinations; the bad ones are undefined behaviour, which a test may not notice.",
  [H+": DDScalar::check_equal_size, operator+,-,*,/, atan2, hypot"])
p("Operations are memory safe and size preserving",
  "For well-formed operands of one common size every arithmetic operator, in-place operator (distinct operands), unary minus, abs, mathematical function, atan2, hypot (2 and 3 arguments) terminates without exception, assertion failure, out-of-bounds access or read of an uninitialised cell, and yields a well-formed, fully initialised number of the same size; the operands of out-of-place operations are unchanged. This holds for any scalar type and any contents (including NaN/inf).",
  "all sizes, contents, orders, static/dynamic, build modes, scalar types",
  "Memory safety for all sizes and absence of uninitialised reads.",
  [H+": DDScalar::unary, binary, ternary and all operators and functions"])
p("pad_right embeds into leading variables",
  "For m>=n, pad_right(m) of a number of size n is a well-formed number of size m with the same value, g(i) and h(i,j) for i,j<n, and zeros for every index >=n. A smaller m is rejected with an exception.",
  "all n, m, both orders, all contents",
  "All pairs (n,m); m<n writes out of bounds.",
  [H+": DDScalar::pad_right"])
p("pad_left embeds into trailing variables",
  "For m>=n, pad_left(m) of a number of size n is a well-formed number of size m with the same value, g(m-n+i)=g(i), h(m-n+i,m-n+j)=h(i,j), and zeros for every index <m-n. A smaller m is rejected with an exception.",
  "all n, m, both orders, all contents",
  "All pairs (n,m); m<n writes out of bounds.",
  [H+": DDScalar::pad_left"])
p("Padding commutes with computation",
  "Padding the inputs (left or right) and then computing gives the padding of the computed result, for every expression in exact arithmetic: adding unused variables changes nothing.",
  "all expressions, sizes and contents",
  "All expressions.",
  [H+": DDScalar::pad_left, pad_right, operators"])
p("First-order derivatives are exact for every expression",
  "For every expression built from variables and constants by the library's operators and functions and every point p in its (open) domain, evaluating it on variables(p) yields f equal to the real value and g(i) equal to the partial derivative with respect to the i-th variable (and g.u equal to the derivative in direction u), in exact real arithmetic. Holds for first- and second-order numbers, static and dynamic.",
  "all expressions, dimensions, points of the domain, directions",
  "All compositions of all functions at all points.",
  [H+": DDScalar (all operators and functions)", "README.md: Quickstart"])
p("Second-order derivatives are exact for every expression",
  "Under the same conditions as the first-order property, h(i,j) of a second-order number equals the mixed second partial derivative d/dx_i (d/dx_j) of the real function at p (and u^T H v the mixed directional derivative), in exact real arithmetic.",
  "all expressions, dimensions, points of the domain, index pairs",
  "All compositions of all functions at all points.",
  [H+": DDScalar<2> (all operators and functions)", "README.md: hm"])
p("eval is the Taylor polynomial",
  "x.eval(d) returns f + sum d_i g(i) for first-order and f + sum d_i g(i) + 1/2 sum_ij d_i d_j h(i,j) for second-order numbers in exact arithmetic, reading only d[0..n-1] and valid storage.",
  "all sizes, contents and increments d of length n",
  "The strided index walk must be right for all n.",
  [H+": DDScalar::eval"])
p("eval approximates the function to second order",
  "If x is the result of an expression at p, then F(p+t*v)-x.eval(t*v) = o(t^2) for second-order and o(t) for first-order numbers, for every direction v.",
  "all expressions, points, directions",
  "A limit statement.",
  [H+": DDScalar::eval"])
p("In-place operators agree with their binary counterparts",
  "For distinct objects a and b, after a op= b (op in +,-,*,/) a holds a op b computed out of place and b is unchanged; likewise for scalar right-hand sides. For +,-,* the agreement is bit-for-bit whenever scalar + and * are commutative; for / it holds in exact arithmetic.",
  "all sizes, contents, orders, static/dynamic",
  "All contents, bit-for-bit.",
  [H+": operator+=, -=, *=, /="])
p("In-place operators work when both operands are the same object",
  "x op= x gives the same result as x = x op x for op in +,-,*,/ (exact arithmetic).",
  "all sizes and contents",
  "Aliasing for all contents.",
  [H+": DDScalar::operator+=, -=, *=, /= (const Type&)", "python/src/common.h: py::self *= py::self"])
p("Comparisons compare values only and are mutually consistent",
  "==,!=,<,>,<=,>= between numbers and between a number and a scalar (either side) depend only on the values and return what the comparison of the values returns; over totally ordered scalars trichotomy, a<b iff b>a, a<=b iff not b<a, and a!=b iff not a==b hold, and with NaN values != is true and all others false.",
  "all pairs of numbers and scalars",
  "All pairs including NaN.",
  [H+": operator==, !=, <, >, <=, >="])
p("abs is the absolute value with its derivatives",
  "abs(x) has value |f|; for f>0 it equals x, for f<0 it equals -x in every component; applying it twice is the same as once; its derivatives are those of |F| wherever F!=0.",
  "all sizes and contents",
  "All contents.",
  [H+": DDScalar::abs"])
p("First-order numbers are the truncation of second-order numbers",
  "Running any sequence of operations on first-order numbers gives bit-for-bit the value and gradient obtained from second-order numbers with the same value and gradient, for every scalar type.",
  "all programs, sizes, contents, scalar types",
  "Bitwise equality across all programs.",
  [H+": DDScalar<1>, DDScalar<2>, unary, binary, ternary"])
p("Static and dynamic numbers compute the same data",
  "For every operation, the static type with size N and the dynamic type with size N produce identical data from identical data, for every scalar type.",
  "all programs, N, contents, scalar types",
  "Bitwise equality across all programs.",
  [H+": DDScalar<O,S,N>, DDScalar<O,S,Dynamic>"])
p("Mixed scalar operations equal operations with a constant",
  "x+c, c+x, x-c, c-x, x*c, c*x, x/c, c/x (c!=0 where divided by; f!=0 for c/x) equal the same operation with constant(c,n) in exact arithmetic; x+c=c+x and x*c=c*x bit-for-bit.",
  "all sizes, contents, scalars",
  "All contents.",
  [H+": operator+(Scalar), operator-(Scalar), operator*(Scalar), operator/(Scalar) and friends"])
p("Commutativity is bit-exact; ring laws hold exactly",
  "a+b=b+a and a*b=b*a bit-for-bit whenever scalar + and * commute (binary64 with a single NaN included); in exact arithmetic + and * form a commutative ring with unit constant(1,n) and zero zero(n), -a is the additive inverse and a-b = a+(-b).",
  "all sizes and contents",
  "Algebraic laws over all contents.",
  [H+": operator+, -, *, unary -"])
p("Division inverts multiplication",
  "For b with nonzero value, in exact arithmetic: (a/b)*b = a, a/b = a*reciprocal(b), 1/b = reciprocal(b), reciprocal(reciprocal(b)) = b, b/b = constant(1): in every component including the Hessian.",
  "all sizes, contents with nonzero value",
  "Algebraic laws over all contents.",
  [H+": operator/, reciprocal"])
p("Functional identities hold in every component",
  "On the domain: exp(log x)=x, log(exp x)=x, sqrt(x)*sqrt(x)=x, cbrt(x)^3=x, sin^2+cos^2=1, cosh^2-sinh^2=1, tan=sin/cos, tanh=sinh/cosh, sin(asin x)=x, cos(acos x)=x, tan(atan x)=x, pow(x,2)=x*x, hypot(a,b)=sqrt(a*a+b*b), atan2(y,x)=atan(y/x) up to a constant, log2/log10/log(base) = log/log(base), including all gradient and Hessian entries.",
  "all sizes and contents in the domain",
  "Identities over all contents; a wrong second-derivative coefficient shows up only in the Hessian.",
  [H+": DDScalar mathematical functions"])
p("hypot with three arguments is consistent with two",
  "hypot(a,b,c) = hypot(hypot(a,b),c) = sqrt(a*a+b*b+c*c) in every component in exact arithmetic wherever a and b are not both zero-valued.",
  "all sizes and contents",
  "Identity over all contents.",
  [H+": DDScalar::hypot"])
p("SScalar lookup semantics",
  "variable(name,v) has value v, d(name)=1 and d(other)=0; constant(v) has all d()=0; d() of an absent name is 0; size() counts the stored names; results of binary operations store exactly the union of the operands' names.",
  "all names, values and sparse numbers",
  "All names and maps.",
  [H+": SScalar::variable, constant, d, size, unary, binary, ternary"])
p("SScalar derivatives are exact for every expression",
  "For every expression over named variables and every point of its domain, the SScalar result has the real value and d(name) equal to the partial derivative with respect to that name, in exact arithmetic.",
  "all expressions, name sets, points",
  "All compositions at all points.",
  [H+": SScalar operators and functions"])
p("SScalar results do not depend on hash-table order",
  "If the operands' tables are iterated in any other order, every derivative d(name) of every operation is the same bit-for-bit, and eval is the same in exact arithmetic.",
  "all iteration orders, all maps",
  "unordered_map order is unspecified; tests see one order.",
  [H+": SScalar::binary, ternary, eval, operators"])
p("SScalar agrees with DDScalar",
  "Evaluating an expression on SScalar variables named x_0..x_{n-1} and on DDScalar variables gives the same value and d(x_i)=g(i), in exact arithmetic.",
  "all expressions, dimensions, points",
  "All expressions.",
  [H+": SScalar, DDScalar"])
p("SScalar in-place operators",
  "a op= b for distinct objects, and for a scalar b, equals a op b and leaves b unchanged; x op= x equals x op x, for op in +,-,*,/ (exact arithmetic).",
  "all maps and values, aliased and not",
  "Aliasing over all contents.",
  [H+": SScalar::operator+=, -=, *=, /=", "python/src/bind_sscalar.cpp"])
p("SScalar eval",
  "SScalar::eval(d) is the sum over the stored names of coefficient times increment (absent increments count 0), and it plays the same role as DDScalar::eval: both return the first-order Taylor value.",
  "all maps and increments",
  "All maps.",
  [H+": SScalar::eval, DDScalar::eval"])
p("Division is as accurate as the scalar type's division",
  "In binary64 the value of a/b is the correctly rounded quotient of the values, in particular x/x has value exactly 1 for every finite nonzero x, and a/b agrees with a/=b and with a/scalar.",
  "all finite binary64 values",
  "All doubles.",
  [H+": operator/(const Type&), operator/(Scalar), operator/="])
p("pow is differentiable where the power function is",
  "For b a non-negative integer, x.pow(b) has finite derivatives at every finite value including 0 (pow(x,0)=1, pow(x,1)=x, pow(x,2)=x*x in every component).",
  "all exponents and values, including zero",
  "The exceptional point 0 for all exponents.",
  [H+": DDScalar::pow, SScalar::pow"])
p("Every constructor yields a usable number",
  "The default constructor, the converting constructor DDScalar(f), and the initializer-list constructor produce well-formed numbers: the converting constructor builds the constant f, usable in every operation, and the initializer-list constructor builds the number with that data or throws.",
  "all types, values and lists",
  "All lengths and both storage kinds.",
  [H+": DDScalar(), DDScalar(TScalar), DDScalar(initializer_list)"])
p("Accessors reject out-of-range indices",
  "g(i), set_g, h(i,j), set_h, h(k), eval with indices (or increment lengths) outside the number's size, and every Hessian accessor on a first-order number, fail an assertion or throw; they never read or modify another component silently.",
  "all indices, sizes, orders, build modes",
  "All integers as indices.",
  [H+": g, h, set_g, set_h, hm, eval", "python/src/common.h: h, set_h, hm bound for order 1"])
p("Python variables() picks a type with the right semantics",
  "hj.variables(values, order) returns, for order 0 the values, for order 1 and 2 the list of seeded variables with identity gradient for every length, and raises 'Invalid order' for any other order.",
  "all lists of values, all integer orders",
  "All lengths and orders.",
  ["python/src/main.cpp: variables"])
p("Length validation without exceptions",
  "With HYPERJET_NO_EXCEPTIONS and assertions enabled, create(data) aborts on an invalid length and succeeds on a valid one.",
  "all lengths",
  "All lengths, alternative build.",
  [H+": size_from_data_length (assert branch)"])
p("Programs with state, branches and loops are differentiated correctly",
  "For every imperative program over mutable hyper-dual registers using assignments, in-place operators (distinct operands), conditionals and loops on comparisons, run from variables(p): if it terminates and no comparison executed compares equal values, then every register's value, gradient and Hessian are the real value, gradient and Hessian of the function the program computes near p.",
  "all programs, histories, points",
  "Arbitrary histories of operations.",
  [H+": DDScalar operators, comparisons, assignments"])
p("resize",
  "resize(m), m>=0, on a dynamic number makes its size m with storage of matching length; for first-order numbers it keeps value and the first min(n,m) gradient entries and zero-fills; for second-order numbers it keeps value, gradient and Hessian of the remaining variables.",
  "all n, m, orders, contents",
  "All pairs (n,m).",
  [H+": resize"])
p("Serialisation and copies are independent",
  "Copies (copy construction, __copy__, __deepcopy__) have equal data and later in-place operations on one never change the other.",
  "all programs over registers",
  "All later histories.",
  [H+": DDScalar (implicit copy)", "python/src/common.h: __copy__, __deepcopy__"])
p("Results do not depend on how the variables are numbered",
  "If the inputs of an expression are relabelled (variables permuted, merged, dropped into a larger set of variables, or moved between static and dynamic types of the same order), the result is the relabelled result, in exact arithmetic: value unchanged, gradient and Hessian entries moved to the new labels, entries of unused variables zero.",
  "all expressions, sizes, relabellings, contents, static/dynamic",
  "All relabellings of all sizes.",
  [H+": DDScalar operators and functions"])
p("Chain rule for arbitrary operands",
  "Evaluating an expression F on arbitrary numbers (not only on variables), with values in the open domain of F, gives value F(values), gradient sum_k dF/dk * g_k and Hessian sum_k dF/dk * H_k + sum_kl d2F/dkdl * g_k g_l^T, in exact arithmetic, where dF and d2F are the real partial derivatives of F at the values.",
  "all expressions, numbers of operands, sizes, contents, static/dynamic",
  "All operand gradients and Hessians, e.g. results of earlier computations.",
  [H+": DDScalar operators and functions"])
p("The data computed depend only on the function",
  "Two expressions that denote the same real function on a neighbourhood of the operands' values (both in their open domains there) give identical value, gradient and Hessian on all operands, in exact arithmetic.",
  "all pairs of expressions, operands, sizes, static/dynamic",
  "All pairs of expressions.",
  [H+": DDScalar operators and functions"])
p("Derivatives of programs over SScalar",
  "For every program with registers, in-place operators, branches and loops over SScalar numbers (none of the statements being r *= r or r /= r), started from named variables and constants at a point where the run on reals stays in the open domains and compares no equal values, the program terminates normally and each register holds the real value and, under each name, the partial derivative of the function the program computes, in exact arithmetic.",
  "all programs, names, points",
  "All programs including unbounded loops.",
  [H+": SScalar operators, comparisons, in-place operators"])
p("SScalar comparisons and abs",
  "Comparisons of SScalar numbers (with each other, with a scalar on either side) return what the comparison of the values returns; abs(x) is x for x.f()>=0 and -x (value and all derivatives) for x.f()<0.",
  "all sparse numbers and scalars",
  "All maps and values.",
  [H+": SScalar comparison operators, abs"])
p("Binary64 linear operations round once",
  "With double scalars (binary64, round to nearest even), +, -, unary -, number*scalar, number+scalar and number-scalar return in every component (value, gradient, Hessian) the correctly rounded exact result when it does not overflow, unary minus being exact; and -(-x), x*1, 1*x, x/1 and x-0 return x bit for bit, including signed zeros, infinities and NaN.",
  "all sizes, contents and scalars",
  "All doubles in all components.",
  [H+": operator+, operator-, operator*(Scalar), operator/(Scalar)"])
p("hypot and atan2 are finite away from their singular points",
  "With double scalars, hypot and atan2 of finite numbers whose values are not at the singular point have finite gradient and Hessian when the operands' data are finite and the exact derivatives are representable.",
  "all finite doubles",
  "Under- and overflow ranges of intermediate results.",
  [H+": DDScalar::hypot, DDScalar::atan2"])
p("Unpickling validates; the array utilities return value, gradient and Hessian",
  "Unpickling any state yields a well-formed number of the class or raises an exception; hj.f, hj.d and hj.dd return, elementwise, the value, the gradient and the full symmetric Hessian of every number of a bound class.",
  "all states (tuples of arbitrary length holding lists of floats or other objects), all numbers of both orders and all sizes",
  "All lengths of states, all classes.",
  ["python/src/common.h: py::pickle", "python/src/main.cpp: hj.f, hj.d, hj.dd"])
p("Rounding error of polynomial expressions in double",
  "For every polynomial expression (+, -, * of numbers and constants, division by constants), run on variables(p) with double scalars without overflow, underflow or division by zero: value, every gradient entry and every Hessian entry differ from the real value and the real partial derivatives by at most ((1+u)^k - 1) times the value the same computation gives on absolute values without cancellation, k being the number of roundings accumulated (1 per sum or scalar product, 2 per scalar division, 3 per product) and u = 2^-53.",
  "all expressions, points, sizes, static/dynamic",
  "All doubles at all points; the bound is for every expression.",
  [H+": DDScalar operators"])
p("Integer polynomials are differentiated exactly in double",
  "For every expression built from +, -, * over integer constants and integer-valued variables: if no intermediate integer exceeds 2^53 in absolute value, value, gradient and Hessian computed in double are exactly the real value and partial derivatives.",
  "all expressions, integer points, sizes, static/dynamic",
  "All integer inputs.",
  [H+": DDScalar operators"])
p("Shapes of matrix arguments",
  "set_hm(m) with an r x k matrix on a second-order number of size n stores the upper triangle of the leading n x n block, leaves value and gradient alone and does not look at anything else if r>=n and k>=n; otherwise it reads out of bounds. from_arrays rejects every mis-shaped matrix in builds with assertions and behaves like set_hm in builds without.",
  "all n, r, k, contents, static/dynamic",
  "All shapes; out-of-bounds reads are not observable.",
  [H+": set_hm, from_arrays"])
p("set_zero, adata, set_adata",
  "set_zero turns a number with any contents, also indeterminate ones, into the constant 0 of the same size; adata returns all stored scalars in storage order and set_adata of them on a number of the same size reproduces the number; set_adata with another length is undefined.",
  "all sizes, contents, orders, static/dynamic",
  "All sizes and contents.",
  [H+": set_zero, adata, set_adata"])
p("Arrays obtained from a number alias its storage",
  "x.g and x.data return arrays that read and write the entries of x itself (x.g the gradient, x.data all stored scalars), at any later time of the session, whatever happens to other objects, and reading them is always defined.",
  "all sessions (sequences of Python statements incl. caught exceptions) before and after, all classes, sizes, contents, capacities of std::vector",
  "Dangling arrays usually still read plausible values.",
  ["python/src/common.h: g, data properties, resize", H+": ag, adata, resize"])
p("Augmented assignment in Python works on the shared object",
  "r op= a and r op= float change the object r is bound to, so that all names of the object see the result, keep all bindings and change no other object.",
  "all sessions, operators +=, -=, *=, /=, operands incl. r itself, all classes",
  "All sharing patterns of names and objects.",
  ["python/src/common.h: py::self op= bindings"])
p("A statement that raises an exception changes nothing",
  "If a Python statement on numbers raises (size mismatch, invalid length, unbound name, array index), all objects, names and arrays are as before.",
  "all reachable and unreachable states, all statements, all classes",
  "All states and failing calls; the damage is only visible later.",
  [H+": check_equal_size, resize, in-place operators, setters"])
p("Sessions that respect the preconditions are safe",
  "Every sequence of Python statements (construction, arithmetic, functions, copies, aliases, in-place operators, setters, resize, pad, array views; exceptions caught) in which sizes are non-negative and fit into memory, indices given to variable and set_h are in range, atan2 and hypot(x,y,z) get operands of one size, pad does not shrink, set_hm gets a large enough matrix on a second-order number, and resize is not called on an object with a live array, ends without undefined behaviour or failed assertion, with every bound name holding a well-formed number and every array readable.",
  "all sessions of any length, all classes, contents, capacities, builds with exceptions",
  "All statement sequences.",
  [H+": DDScalar", "python/src/common.h"])
p("Sessions behave as if numbers were plain values",
  "Every Python session that respects the preconditions raises the same exceptions, binds the same names and leaves the same numbers and arrays as if every object were a plain value without storage; nothing observable depends on the capacities of the vectors, i.e. on when resize moves the storage.",
  "all sessions of any length, all classes, contents, capacities, any scalar type",
  "All statement sequences and all growth policies of std::vector.",
  [H+": DDScalar", "python/src/common.h"])
p("eval reproduces polynomials exactly",
  "If an expression denotes near p a polynomial of degree at most the order of the type (however it is written, e.g. x*x*x/x), evaluating it on variables(p) and calling eval(d) returns the value of the polynomial at p+d, for every d however large.",
  "all expressions, points, polynomials, displacements, sizes, orders, static/dynamic; exact real arithmetic",
  "All expressions, points and displacements.",
  [H+": eval, variables, operators and functions"])
p("eval approximates uniformly in all directions",
  "For every expression twice differentiable at p and every eps > 0 there is a delta such that for all displacements d with |d|_1 < delta, eval(d) of the result on variables(p) differs from the function at p+d by at most eps*|d|_1^order.",
  "all expressions, points, displacements in all directions, sizes, orders, static/dynamic; exact real arithmetic",
  "Infinitely many directions at once.",
  [H+": eval, variables, operators and functions"])
p("Results depend on the scalar type only through its operations",
  "If a relation between two scalar types is respected by their operations (and, where abs or comparisons are used, by their comparisons), then every method, expression, program and Python session run on related inputs ends the same way on both types (same exceptions, failed assertions, undefined behaviour) with related contents cell by cell.",
  "all scalar types and relations, all states including malformed ones, all expressions, programs and sessions, all classes",
  "All scalar types.",
  [H+": DDScalar template", "python/src/common.h"])
p("Interval arithmetic encloses all derivatives",
  "With any scalar type whose operations enclose the real ones (e.g. intervals), evaluating an abs-free expression on variables over a box succeeds, and the value, gradient and Hessian of the result contain the value and all partial derivatives of the function at every point of the box where it is differentiable.",
  "all expressions without abs, boxes, sizes, orders, static/dynamic, all enclosing scalar types",
  "All points of the box.",
  [H+": DDScalar template, variables, operators and functions"])
p("Rounding errors of all derivatives are bounded by a running bound",
  "For every abs-free expression of any functions, evaluated on doubles with any libm: if every double carries a bound (sum of the rounding errors of the operations, propagated by derivative bounds of each function), the bounds of the final value, gradient and Hessian, where they exist, bound their distance from the exact derivatives of the real function. More generally any scalar type that follows the doubles and encloses the reals certifies the result.",
  "all abs-free expressions, doubles, libm implementations, sizes, orders, static/dynamic",
  "All inputs; the exact derivatives are not computable.",
  [H+": variables, operators and functions"])
p("Python source expressions compute exact derivatives",
  "Every Python expression built from names bound to hj.variables(p, order) (or SScalar variables), float literals, unary minus, abs, + - * / with floats and numbers mixed freely, ** with float exponents, and method calls under all bound names (including numpy's aliases arcsin, arctan2, ...) evaluates, where the function written down is smooth, to a number with its value, gradient and (order 2) Hessian, or to the float if no name occurs.",
  "all expressions, points, sizes, orders 1 and 2, dense and sparse; exact real arithmetic",
  "All expressions and points.",
  ["python/src/common.h:88-185", "python/src/bind_sscalar.cpp:25-112", "python/src/main.cpp:63-189"])
p("Operators reject operands of other classes",
  "In Python, + - * / and < > <= >= between numbers of different classes (order, static size, dense/sparse) or with foreign objects raise TypeError, == is False and != True; ** needs a float exponent; a float on the left of a comparison compares as written; hj.hypot agrees with the method hypot.",
  "all operands",
  "All pairs of operands and classes.",
  ["python/src/common.h:91,150-185,219-220", "python/src/bind_sscalar.cpp:77-112"])
p("Truth values",
  "bool(x) in Python is true exactly if the value is non-zero, as for floats, and len(x) does not raise.",
  "all numbers, dense and sparse",
  "All numbers.",
  ["python/src/common.h:90", "python/src/bind_sscalar.cpp:28", H+":2066-2069"])
p("repr shows the number",
  "The text written by operator<< / repr is the value followed by hj for dense numbers and the value followed by the signed derivatives with their names for sparse ones; equal numbers have equal texts.",
  "all numbers, all number formats",
  "All numbers and iteration orders.",
  [H+":955-968", H+":2103-2125"])
p("Sessions with names, aliases and in-place operators compute exact derivatives",
  "After any Python session of one class that creates variables and constants of one size and applies functions, operators, aliasing, copies and in-place operators (statements with unbound names raise NameError; arrays may be taken and read): every bound name holds value, gradient and (order 2) Hessian of the function that the same session computes on plain shared floats, provided operands stay in the open domains and no second-order object is multiplied in place by itself.",
  "all sessions, points, sizes, orders, static/dynamic; exact real arithmetic",
  "All sessions, including all aliasing patterns.",
  ["python/src/common.h:48-185", H+": operators"])
p("Sparse sessions compute exact derivatives",
  "After any Python session with SScalar objects built by variable, constant, functions, operators, aliasing and in-place operators: d(k) of every bound name is the derivative with respect to the variable called k (zero if none) of the function that the same session computes on plain shared floats, provided operands stay in the open domains and no object is multiplied or divided in place by itself; a statement changes no other object.",
  "all sessions, points and names; exact real arithmetic",
  "All sessions, including all aliasing patterns.",
  ["python/src/bind_sscalar.cpp:10-112", H+":1990-2335"])
p("Error bounds hold whatever is contracted into fused multiply-adds",
  "If the compiler may fuse any product with any addition or subtraction of it (GCC's default -ffp-contract=fast), the computed value, gradient and Hessian of every expression are still within a bound of the exact derivatives that is computed in advance from the exact values, the unit roundoff and the accuracy of libm, and nothing overflows where the bound exists; integer polynomials within 53 bits are exact for every choice of contractions.",
  "all expressions without abs, points, sizes, orders, and all choices of contractions, one per occurrence; libm accurate to any relative error k",
  "All expressions and exponentially many ways to contract each of them.",
  [H+": all arithmetic", H+":943"])
p("Derivatives over any commutative ring",
  "If the scalar type is a commutative ring (unsigned integers of any width, rationals, ...), evaluating a polynomial expression gives f, g, H such that the expression at p + u e1 + v e2, with infinitesimals e1, e2 of square zero, equals f + (g.u) e1 + (g.v) e2 + (u.Hv) e1 e2 for all u, v; the same with quotients, reciprocals and natural powers where the divisors are invertible.",
  "all commutative rings, expressions, points, directions, sizes, orders, static/dynamic",
  "All rings and expressions; no limits, no rounding.",
  [H+":40-60", H+":136-310", H+":986-1310"])
p("Numbers of numbers hold higher derivatives",
  "If the scalar type of a number is itself a number of static size (nested to any depth, orders 1 and 2 mixed), evaluating an expression on nested variables succeeds and every component, followed through all levels, is the corresponding iterated partial derivative; with one variable, k levels hold the k-th derivative. Inner numbers of dynamic size do not work: literals become numbers of size 1 and combining them throws.",
  "all expressions without abs, points, numbers of variables, depths, orders; exact real arithmetic",
  "All depths and expressions; derivatives are limits.",
  [H+":40-60", H+":330-345", H+":972-1655"])
p("Constructors initialise all members; nothing depends on uninitialised ones",
  "Every constructor and factory function initialises both members, so that no copy of a number copies an indeterminate value; and in static types, where m_size is redundant, no operation, accessor or Python session depends on its content. References to elements are only formed to existing elements.",
  "all constructors, factory functions, sizes, orders, scalar types, sessions",
  "Reading an indeterminate member rarely shows in a test; sanitizers see only the executed path.",
  [H+":57-58", H+":315-366", H+":398-408", H+":532-705", H+":1138-1168"])
p("Builds with fewer checks agree with checking builds",
  "Whatever an operation, expression, program or Python session returns in one build of the library, it returns in every build with fewer checks (assertions off, exceptions off); with assertions off only, exceptions stay the same as well.",
  "all methods, expressions, programs, sessions, scalar types, sizes, orders and combinations of HYPERJET_NO_EXCEPTIONS and NDEBUG",
  "A test suite is run in one build; the claim relates pairs of builds for all inputs.",
  [H+":28-130"])
p("Operands of different sizes when nothing is checked",
  "In builds without exceptions and assertions a binary operator or in-place operator on dynamic numbers of different sizes is undefined behaviour exactly if the right operand is the smaller one; otherwise the right operand acts as a number of the size of the left one that has its value and the beginning of its gradient, and whose Hessian starts with the rest of that gradient.",
  "all operators, sizes, orders, scalar types",
  "Wrong results and out-of-bounds reads for all pairs of sizes; tests run with checks on.",
  [H+":85-130", H+":136-310", H+":1060-1242"])
p("Python constructors build what is written",
  "T(), T(f), T(f, size), T(size=n), T(data), T(f, g) and T(f, g, hm), with or without keywords, in any order of keywords, reach the constructor function of that meaning for every way of writing the numbers (ints, floats, lists, arrays); a static class rejects data of the wrong length; unknown keywords are rejected; the same for SScalar and the overloaded static functions.",
  "all classes, arguments, ways of writing the call",
  "Overload resolution with implicit conversions: all combinations of argument types, shapes and keywords.",
  ["python/src/common.h:25-41", "python/src/common.h:62-86", "python/src/bind_sscalar.cpp:10-18"])
p("Derivatives with respect to an unused variable are zero",
  "If a variable does not occur in an expression, or only in values a program does not use for a result, then every derivative with respect to it (gradient entry and Hessian row and column) is zero.",
  "all expressions, programs with branches and loops, points, sizes, orders, scalar types",
  "All expressions and all special values; at singular points the general rule multiplies zeros by infinities.",
  [H+":136-310", H+":943-1655"])
p("Derivatives do not depend on the other variables carried along or on their numbering",
  "Evaluating with some of the variables, or with the variables renumbered, gives bit for bit the value, gradient and Hessian entries that evaluating with all variables gives for them.",
  "all expressions, programs with branches and loops, selections and renumberings of variables, sizes, orders, static/dynamic, scalar types",
  "Relates pairs of runs of different size for all inputs; differences are in the last bit.",
  [H+":136-310", H+":943-1655"])
p("Derivatives are accurate to a fixed number of roundings",
  "The first and second derivatives of every function differ from the exact ones by a number of roundings (relative errors of 2^-53) that depends on the function and on the accuracy of the C library only, not on the argument; for expressions the number is known as long as no cancelling subtraction of inexact numbers occurs.",
  "all functions, expressions, doubles, C libraries of given accuracy",
  "Relative accuracy over the whole range of doubles; cancellation shows up only near particular arguments.",
  [H+":1182-1655"])
p("Outside its domain a function gives NaN in every part of the result",
  "Where a function has no value (sqrt and logarithms of negative numbers, acos, asin and atanh beyond 1, acosh below 1, powers of negative numbers with an exponent that is not an integer) the value and every gradient and Hessian entry of the result are NaN, whatever the derivatives of the operand.",
  "all functions, finite doubles outside the domain, derivatives, sizes, orders, C libraries that report domain errors by NaN",
  "All doubles outside the domains; a finite derivative next to a NaN value passes tests that look at the value.",
  [H+":1253-1395", H+":1530-1655"])
p("Quotients have finite derivatives wherever the exact ones are in the range of doubles",
  "x / y, x /= y and a / y with a plain number have finite first and second derivatives if the operands and the exact derivatives are in the range of doubles, and the derivatives are zero only where the exact ones are too small for a double.",
  "all finite doubles, derivatives, sizes, orders, C libraries with powers of known range",
  "The whole range of exponents of numerator and denominator; intermediate overflow appears only far from usual arguments.",
  [H+":1182-1242"])
p("The chain-rule kernels add or write the derivatives of a composite",
  "unary, binary and ternary, in the writing and in the adding form (TIncrement), set the value and put into every gradient and Hessian entry of the result the chain-rule combination of the operands, plus, in the adding form, what was there before; for all coefficients, including the tags Zero, One, MinusOne.",
  "all operands, results, coefficients and tags, both forms, sizes, orders, static/dynamic",
  "The adding form and most combinations of tags are instantiated by no function of the library.",
  [H+":136-312"])
p("Names of sparse variables do not matter",
  "Renaming the variables of SScalar numbers by a map that keeps different names different changes nothing but the names: same values, same derivatives by the new names, same sizes, same branches, exceptions and termination, same results of eval.",
  "all expressions, programs with branches and loops, Python sessions, renamings, iteration orders of the hash tables, scalar types",
  "All names and all pairs of runs; a hash or order dependence shows up for particular names only.",
  ["include/hyperjet/hyperjet.h:2002-2896", "python/src/bind_sscalar.cpp:1-112"])
p("Sparse variables with the same name act as one variable",
  "If several variables of SScalar numbers are given the same name, the value of a result is unchanged and its derivative by that name is the sum of its derivatives by the variables that were identified.",
  "all expressions, programs with branches, loops and aliased in-place operators, Python sessions, identifications of names, real arguments",
  "Relates runs with different tables; the merge of tables has to be right for overlapping and for disjoint sets of names.",
  ["include/hyperjet/hyperjet.h:2002-2896"])
p("SScalar and DDScalar give the same doubles",
  "Run on doubles, the same formula or program gives a sparse and a dense number with bit for bit the same value and the same first derivatives.",
  "all expressions and programs with branches and loops, doubles including infinities and NaN, operands, names, sizes, iteration orders, C libraries",
  "All doubles and all programs; two separately written sets of formulas have to round alike.",
  [H+":136-312", H+":1182-1655", H+":2002-2896"])
p("The derivative of a sparse number by one name depends on that name only",
  "Removing some of the names from all SScalar operands (creating their variables as constants) changes neither the value of a result, nor its derivatives by the remaining names, nor which of these are stored, nor branches, exceptions and termination.",
  "all expressions, programs with branches, loops and aliased in-place operators, Python sessions, sets of names, iteration orders of the hash tables, scalar types",
  "Relates runs with different tables for all sets of names; an interference between entries of a table shows up for particular sets only.",
  [H+":2002-2896", "python/src/bind_sscalar.cpp:1-112"])
p("SScalar depends on the scalar type only through its operations",
  "A relation between two scalar types that their operations respect is respected by every expression, program and session of SScalar numbers and by d, eval and the comparisons, with the same names stored in the same order and the same outcome.",
  "all pairs of scalar types, relations, expressions, programs, sessions, iteration orders",
  "Quantifies over scalar types.",
  [H+":1989-2896"])
p("Derivatives of SScalar computed in doubles have known error bounds",
  "Value and derivatives of a formula computed with SScalar<double> lie within a bound of the exact ones that is computed alongside (running error), within the number of roundings counted in advance (relative error), within a bound for every choice of fused multiply-adds, and are exact for integers of at most 53 bits; with interval-like scalars they enclose the exact ones at every point of a box.",
  "all formulas, doubles, names, iteration orders, C libraries, choices of contractions",
  "All doubles and all formulas; the exact derivatives are real numbers.",
  [H+":2002-2896"])
p("The text of a number denotes its value",
  "repr of a DDScalar and of the parts of an SScalar is a decimal numeral that denotes the double: equal texts mean equal numbers, numbers in order have texts in order, numbers given by short decimals are shown as written, infinities and NaN are not shown as numbers.",
  "all doubles",
  "2^64 doubles; carries, ties and the switch between the two notations happen at isolated values.",
  [H+":955-968", H+":2103-2125"])
p("The text of a sparse number determines its names",
  "From repr of an SScalar its value, its names and its derivatives (to the digits shown) can be read back.",
  "all SScalar numbers, all names",
  "Names are arbitrary strings.",
  [H+":2103-2125", "python/src/bind_sscalar.cpp:30"])
p("Threads that share numbers only for reading do not influence each other",
  "If statements of several Python threads are executed in any interleaving, every thread changes only objects it alone has names or arrays of, and every thread alone respects the preconditions, then the interleaving does so too, and every thread meets the same exceptions and sees the same numbers, arrays and identities as if it ran alone; this holds for dense and sparse numbers.",
  "all interleavings of all sessions of all numbers of threads, all capacities",
  "The number of interleavings is exponential, and a test runs one of them.",
  [H+":58-1980", H+":1990-2330", "python/src/common.h", "python/src/bind_sscalar.cpp:1-112"])
p("Vector and matrix operations on arrays of numbers",
  "With exact scalars, sums and products of several numbers do not depend on the order and grouping in which numpy, Eigen or Python's sum forms them, matrix products are associative, and scalar products and norms have the exact derivatives of the functions they denote. With doubles, exchanging operands changes no bit, and a sum in any grouping has every component within (1+u)^depth - 1 times the sum of absolute values of the exact one.",
  "all arrays of numbers, all groupings and orders, all points",
  "All orders of reduction of arrays of all lengths; a test fixes one.",
  [H+":1020-1119", H+":2898-2937", "README.md"])
p("Moves and swaps of numbers in C++",
  "A C++ program that does not use a moved-from number before assigning to it ends like the program in which every move is a copy, whatever the moved-from containers hold; numbers of static types may be moved freely. Swapping and moving algorithms lose and change no number, and sorting by < orders the numbers by value with their derivatives attached. A moved-from dynamic number keeps its size, so that reading it is undefined behaviour or returns zeros, never an exception.",
  "all programs of copies, moves, swaps and calls, all contents of moved-from containers, all lengths",
  "The contents of a moved-from container are unspecified and differ between standard libraries.",
  [H+":57-58", H+":313-366", H+":1666-1694", H+":1997-2062"])
p("Rescaled variables rescale the derivatives",
  "Multiplying the seeds of variable i by s_i multiplies the first derivatives of every result of formulas and programs by s_i and the second ones by s_i*s_j: exactly with exact arithmetic; bit for bit (up to the sign of zero) for signs with doubles and any mathematical library; bit for bit for powers of two with doubles wherever no intermediate result comes near the limits of the format.",
  "all formulas and programs, all points, all factors, signs and powers of two",
  "A test fixes the factors; rounding, underflow and the order of operations decide whether a factor is exact.",
  [H+":178-312", H+":1020-1119", H+":1253-1500"])
p("Memory exhaustion: what a refused allocation leaves",
  "Whatever allocations fail with std::bad_alloc, a program either ends as with unlimited memory or stops at a statement the unlimited run comes to. Static numbers never allocate. Dense numbers of one size are left exactly as they were before that statement; a refused resize leaves an unusable number. Sparse numbers are left as they were by all statements except r = a (new value, some table) and r op= a with new names in a, which leaves the new value and, for each name, either the new derivative or the one for a constant right operand; tables stay valid and other registers keep their numbers.",
  "all programs, all sequences of answers of the allocator, all contents a failed copy assignment may leave",
  "Any of the allocations may be the failing one; tests run with enough memory.",
  [H+":57-58", H+":422-428", H+":549-660", H+":1138-1171", H+":1224-1243", H+":1995-2330"])
p("Interval numbers: mean value forms, tests and Newton steps",
  "With an interval-like scalar type, the numbers computed from a box are usable in rigorous numerics: between any two points of the box the function changes by a gradient inside the computed one (and, second order, a symmetric Hessian inside the computed one) applied to the difference; eval of a number with the box's highest derivatives and the centre's lower ones encloses the function; a derivative enclosure of one sign proves monotonicity, a positive semidefinite Hessian enclosure convexity, a Jacobian enclosure without kernels injectivity; an interval Newton step contains all roots, and proves existence and uniqueness if it stays inside.",
  "all formulas without abs, all boxes inside the domain, all enclosing scalar types with convex sets, all pairs of points",
  "A statement about all pairs of real points of all boxes.",
  [H+":178-312", H+":907-951", H+":1020-1119"])
p("Iterative solvers deliver the derivatives of the solution",
  "Let x = xi(p) solve x = e(x, p). Iterating X = e(X, P) with numbers, P the variables with values p, from a number with the value xi(p) and any derivatives, multiplies the error of the gradient by q = de/dx in every step; if q = 0 (Newton steps X - f(X, P)/d with the slope d at the root) the gradient is that of xi after one step and the Hessian after two; if |q| < 1 the Hessian converges. From every number with a value close enough to xi(p), values, gradients and Hessians converge to those of xi.",
  "all formulas, points and parameters, all starting numbers, all numbers of steps",
  "A statement about limits, and about all starting derivatives.",
  [H+":178-312", H+":1020-1119", H+":1253-1500", "README.md"])
p("Solvers of systems of equations deliver the derivatives of the solution",
  "Let x = xi(p) solve the system x = e(x, p) of m equations. Sweeps X = e(X, P) with numbers from the values xi(p) and any derivatives multiply the errors of the gradients by the matrix Q = de/dx; Newton steps X - B f(X, P) with the inverse Jacobian matrix B at the root give the gradients of xi after one sweep and the Hessians after two; if the row sums of |Q| are below 1, values, gradients and Hessians converge to those of xi from all numbers with values close enough.",
  "all systems of formulas of any size, all points and parameters, all starting numbers, all numbers of sweeps",
  "A statement about limits, and about all starting derivatives.",
  [H+":178-312", H+":1020-1119", H+":1253-1500", "README.md"])
p("Rescaled variables of sparse numbers rescale the derivatives",
  "SScalar: multiplying the seed of the variable named k by s_k multiplies the derivatives by k of every result of formulas, programs and Python sessions by s_k and changes neither values, names nor iteration orders; eval with the increments divided by s_k gives the same. Exactly with exact arithmetic; bit for bit (up to the sign of zero) for signs with doubles and any mathematical library; bit for bit for powers of two with doubles wherever no intermediate result comes near the limits of the format.",
  "all formulas, programs and sessions, all points, names, factors, signs and powers of two, all iteration orders of the tables",
  "A test fixes the factors; rounding, underflow and the order of operations decide whether a factor is exact.",
  [H+":1995-2332", H+":2336-2613", "python/src/bind_sscalar.cpp:13-112"])
p("Sparse interval numbers: mean value forms, tests and Newton steps",
  "SScalar over a type of convex sets with enclosing operations: between two points of a box the function grows by derivatives inside the computed ones (0 for variables that do not occur) times the difference of the points; eval with enclosed increments encloses the growth, and with the value from around the centre the values over the box; a positive derivative means strictly increasing, a Jacobian without singular members one-to-one; Newton's step keeps all roots, a derivative without 0 allows at most one, and a step into the box proves one. Whatever the iteration orders of the tables.",
  "all scalar types of convex sets, all formulas without abs, all names, boxes and points, all iteration orders",
  "A test evaluates at points; the statements are about all pairs of points of a box and existence of roots.",
  [H+":1995-2100", H+":2106-2332", H+":2336-2613"])
p("Sparse numbers in iterative solvers of systems",
  "SScalar: iterating X = es(X, P) from the values of a solution multiplies the errors of the derivatives by the parameters, and the derivatives by all other names, by the Jacobian of the right-hand sides; Newton steps with the inverse Jacobian give the derivatives of the root after one step and 0 for all other names; if the iteration contracts, from all nearby values the values and derivatives converge to those of the solution. Whatever the iteration orders of the tables.",
  "all systems, parameters, names, starting numbers with any derivatives, numbers of steps, iteration orders",
  "Convergence and all step counts cannot be tested; leftover names of starting values are a silent error.",
  [H+":1995-2332", H+":2336-2613"])
p("Sparse numbers over any commutative ring",
  "SScalar over a scalar type whose operations form a commutative ring (words of any width included): the value of a polynomial at p + u e, e an infinitesimal with square zero, is the computed value plus the derivatives by the names of the variables times u, for every direction u; the same with quotients and natural powers where the divisors are invertible. Sums, products (Python's sum and math.prod included), scalar products and matrix products have the same value and the same entries in whatever order they are formed; matrix products are associative.",
  "all commutative rings, formulas, names, points and directions, all orders of reduction, all iteration orders of the tables",
  "A test fixes the scalar type, the order of the operands and the iteration order of the tables.",
  [H+":1995-2100", H+":2106-2332", H+":2336-2372"])
p("Memory exhaustion in Python sessions with sparse numbers",
  "A Python statement on SScalar objects that gets all memory it asks for does what it does with unlimited memory; one that ends in MemoryError binds no name, creates no object, and leaves all numbers as they were, except that r op= a on two objects may have been done with the first entries of a only, seen through all names of r's object. The session goes on with valid objects; the reachable states are exactly these. Every other statement can simply be tried again; r op= a cannot.",
  "all sessions, heaps and aliasings, all patterns of refused requests, all scalar types",
  "Allocation failures at every single request cannot be provoked by tests, let alone their combinations over a session.",
  [H+":1995-2042", H+":2051-2063", H+":2106-2332", "python/src/bind_sscalar.cpp:13-112"])
p("Python sessions on dense numbers survive memory exhaustion; resize does not give the strong guarantee",
  "Whatever allocation is refused during a Python session with dense numbers, the refused statement leaves all names, views, buffers and objects as they were, except that a resize that needs a new buffer leaves the new size with the old data. Sessions without resize end as the same session with the refused statements left out, and every such choice occurs. Every refused statement, resize included, gives on a second try what it would have given on the first. A half-done resize to another size leaves an object that is not a number of any size, whose entries may be read out of bounds.",
  "all configurations, sessions, states, patterns of refused allocations, scalar types",
  "allocation failures cannot be provoked at each point of each session, and the half-resized object is a latent out-of-bounds read",
  [f"{H}:422-428", f"{H}:1138-1243", "python/src/common.h:48-181"])

p("Outside its domain a function of a sparse number gives NaN in every part of the result",
  "Where a function has no value (roots, logarithms and non-integer powers of negative numbers, acos, asin, atanh beyond 1, acosh below 1), the SScalar result is NaN in the value and in the derivative by every name.",
  "all sparse numbers with finite value, all functions, all C libraries that report domain errors by NaN",
  "the arguments form a continuum; whether a stored derivative is NaN depends on rounding of exponents; names that are not stored are easily overlooked",
  [f"{H}:2336-2354", f"{H}:2408-2432", f"{H}:2521-2552", f"{H}:2566-2606"])
p("Quotients of sparse numbers have finite derivatives wherever the exact ones are in the range of doubles",
  "x / y, x /= y and a / y of sparse numbers have finite values and derivatives whenever value and exact derivatives are in the range of doubles; derivatives by names that the denominator does not hold are those of a quotient by a plain number.",
  "all sparse numbers over binary64, all C libraries whose pow is right within a factor of two",
  "overflow and underflow of intermediate squares shows for extreme denominators only",
  [f"{H}:2281-2332"])

p("hypot and atan2 of sparse numbers have finite derivatives wherever the exact ones are in the range of doubles",
  "hypot (two and three operands) and atan2 of sparse numbers have finite values and derivatives whenever value and exact derivatives are in the range of doubles, up to a margin at the ends.",
  "all sparse numbers over binary64, all C libraries whose hypot is not below half the larger operand",
  "overflow and underflow of intermediate squares shows for extreme operands only",
  [f"{H}:2444-2455", f"{H}:2457-2485"])

p("Chain rule and identities of sparse numbers",
  "SScalar, exact arithmetic: on operands with any derivatives by any names, shared or not, the derivative of a formula by every name is the sum of its partial derivatives times the operands' derivatives. Formulas that denote the same function near the point give the same value and the same derivative by every name: division inverts multiplication, log(exp(x)) = x, sin^2 + cos^2 = 1, pow(x, n) is the product, hypot(x, y, z) = hypot(hypot(x, y), z) and so on. They store the same names.",
  "all formulas, operands, names, iteration orders of the tables",
  "identities between all formulas at all points; a test fixes names and their sharing",
  [f"{H}:2106-2332", f"{H}:2336-2613"])
p("Derivatives of sparse numbers are accurate to a fixed number of roundings; quotients are correctly rounded",
  "Functions of sparse numbers over binary64: the derivative by every name is the exact derivative times the operand's up to a known number of roundings, whatever the argument. The value of a quotient is the correctly rounded one, x / x is 1, and x / y agrees with x /= y.",
  "all functions, arguments, names, operands; all C libraries accurate to a number of roundings",
  "the arguments form a continuum; cancellation shows in small regions only",
  [f"{H}:2281-2332", f"{H}:2336-2606"])
p("Powers of sparse numbers at zero",
  "pow(x, n) of a sparse number with a natural exponent n has finite derivatives at every finite number, 0 included: those of x for n = 1, zero for larger n and for n = 0.",
  "all sparse numbers with the value 0 of either sign, all integer exponents that are doubles, all C libraries with the standard's special cases of pow",
  "special values of the C library at 0 are easily left out of tests, and there are many exponents",
  [f"{H}:2336-2344"])
p("Sparse numbers with dense numbers as scalars",
  "SScalar<DDScalar<order, double, size>>: the arithmetic is that of sparse numbers, whatever names the operands have, and the value and every entry carry the derivatives of the dense numbers along, so that the entries hold derivatives of one order more.",
  "all operands with scalars of one size, all sets of names, all functions of one variable built from +, -, *, sin, cos, exp",
  "reading an indeterminate array usually gives zeros in a test, and no test instantiates the sparse class with a class type",
  [f"{H}:2002-2025", f"{H}:315-328", f"{H}:2143-2267"])

p("Dense numbers with sparse numbers as scalars",
  "DDScalar<order, SScalar<double>, size>: the evaluation of an expression on variables whose values are sparse variables succeeds, and the value and every gradient and Hessian entry is a sparse number holding its own value and, under each name, its own partial derivative.",
  "all expressions without abs in which every function is evaluated where it is smooth, all points, all sets of distinct names, both orders, static and dynamic sizes",
  "no test instantiates the dense class with the sparse one, and the derivatives of all orders of all expressions cannot be enumerated",
  [f"{H}:43-60", f"{H}:1181-1265", f"{H}:2002-2067", f"{H}:2711-2893"])

p("Sparse numbers with sparse numbers as scalars",
  "SScalar<SScalar<double>>: an expression on variables whose values are sparse variables of the same names gives a number whose value holds the value and the first derivatives, and whose entry under each name holds that first derivative and, under each name, the second derivatives.",
  "all expressions without abs, pow and logarithms to a base in which every function is evaluated where it is smooth, all points, all sets of distinct names",
  "no test nests the sparse class, and the second derivatives of all expressions cannot be enumerated",
  [f"{H}:2002-2067", f"{H}:2129-2606", f"{H}:2711-2893"])

p("Sensitivities of gradients and Hessians by named parameters",
  "DDScalar<order, SScalar<double>, n>: an expression of n dense variables and any number of dense constants, each with a sparse variable of its own name as its value, gives a number of size n whose value, gradient and Hessian entries hold their own derivatives by the names of all variables and constants.",
  "all n, all numbers of parameters, all expressions without abs in which every function is evaluated where it is smooth, all points, both orders, static and dynamic sizes",
  "no test mixes the two classes; derivatives of derivatives by parameters cannot be checked for all expressions",
  [f"{H}:43-60", f"{H}:1181-1265", f"{H}:2002-2067", f"{H}:2711-2893"])

p("Sparse scalars do not change the values a dense number computes",
  "DDScalar<order, SScalar<double>, size>: a program computes the same values, gradients, Hessians, branches, exceptions and failures as with plain scalars, once the derivatives of the sparse scalars are forgotten.",
  "all programs and sessions, all scalar types, all states, malformed ones included",
  "equality of all programs under two instantiations of a template is a statement about every operation at once",
  [f"{H}:43-60", f"{H}:1181-1265", f"{H}:2281-2292", f"{H}:2617-2705"])

p("Nesting does not change the values a number computes",
  "DDScalar<.., DDScalar<.., double, n>, ..> and SScalar<SScalar<double>>: the values (and names, branches, exceptions) computed are those computed with plain scalars, whatever derivatives the inner numbers carry.",
  "all programs on nested dense numbers with inner numbers of any static size and order, all expressions on nested sparse numbers, all scalar types",
  "equality of all programs under two instantiations of a template is a statement about every operation at once",
  [f"{H}:1181-1206", f"{H}:2281-2292", f"{H}:43-60"])

with open(os.path.join(os.path.dirname(os.path.abspath(__file__)), "..", "properties.jsonl"), "w") as f:
    for q in P: f.write(json.dumps(q) + "\n")
print(len(P))
