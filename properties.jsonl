{"id": "C01", "title": "Hessian accessors are symmetric and frame-preserving", "statement": "For a second-order number x of any size n and any 0<=i,j<n: h(i,j) succeeds and equals h(j,i); after set_h(i,j,v), h(i,j)=h(j,i)=v while f, every g(k), every h(k,l) with {k,l}!={i,j}, the size and the storage length are unchanged.", "quantifier": "all sizes, all index pairs, all values, all scalar types", "why_tests_cant": "The triangular index formula must be right for every (n,i,j); tests look at n=2,3.", "anchors": ["include/hyperjet/hyperjet.h: DDScalar::h(index,index), DDScalar::set_h(index,index,Scalar)"]}
{"id": "C02", "title": "Storage layout is value, gradient, packed upper triangle", "statement": "For every size n the storage is exactly [f, g(0..n-1), h(0,0..n-1), h(1,1..n-1), ...]: f(), g(i), h(i,j) and the flat h(k) read precisely these positions, no access by valid indices leaves the storage, and distinct unordered index pairs never share a slot.", "quantifier": "all sizes n, all valid indices", "why_tests_cant": "Collision freedom and in-bounds access are statements about all n and all pairs of index pairs.", "anchors": ["include/hyperjet/hyperjet.h: DDScalar::f, g, h, data_length_from_size, data"]}
{"id": "C03", "title": "Hessian matrix export", "statement": "hm('full') returns the symmetric n x n matrix with entry (i,j) equal to h(i,j); hm('zeros') returns h(i,j) on and above the diagonal and 0 below; any other mode throws 'Invalid value for mode'.", "quantifier": "all sizes, all second-order numbers, all mode strings", "why_tests_cant": "All sizes and all mode strings.", "anchors": ["include/hyperjet/hyperjet.h: DDScalar::hm", "python/src/common.h: hm"]}
{"id": "C04", "title": "Hessian matrix import and array round trip", "statement": "set_hm(M) stores exactly the upper triangle of M (h(i,j)=M(min,max)) and leaves f and g alone; from_arrays(x.f, x.g, x.hm(mode)) rebuilds x exactly for both modes; from_gradient(x.f,x.g) rebuilds a first-order x.", "quantifier": "all sizes, matrices and numbers", "why_tests_cant": "Round trip over all sizes.", "anchors": ["include/hyperjet/hyperjet.h: DDScalar::set_hm, from_arrays, from_gradient, ag"]}
{"id": "C05", "title": "create / pickle round trip", "statement": "For every well-formed number x (first or second order, static or dynamic, any size that fits in memory), unpickling its pickled state, and create(x.data()), yield a number with the same size and identical data. In particular the floating-point computation sqrt(1+8n) used to recover the size never mis-rounds.", "quantifier": "all sizes up to the std::vector limit (2^60-1 entries), all contents", "why_tests_cant": "The size is recovered through a double square root; correctness for all lengths up to 2^60 cannot be tested.", "anchors": ["include/hyperjet/hyperjet.h: DDScalar::size_from_data_length, create", "python/src/common.h: py::pickle"]}
{"id": "C06", "title": "create accepts exactly the storage lengths of some size", "statement": "create(data) on a dynamic type throws 'Invalid length' unless the length of data is 1+n (first order) or (n+1)(n+2)/2 (second order) for some n>=0, in which case it succeeds with size n.", "quantifier": "all data lengths", "why_tests_cant": "Every length must be classified, including 0.", "anchors": ["include/hyperjet/hyperjet.h: DDScalar::create, size_from_data_length", "python/src/common.h: py::init(create)"]}
{"id": "C07", "title": "zero, constant, variable and empty build the number they name", "statement": "For every valid size n: zero(n) has value 0 and all derivatives 0; constant(f,n) has value f and all derivatives 0; variable(i,f,n) with 0<=i<n has value f, gradient the i-th unit vector and Hessian 0; empty(n) has size n and storage of the matching length. The size-less overloads give size 0 (dynamic) or the static size.", "quantifier": "all sizes, indices, values, orders, static and dynamic", "why_tests_cant": "All sizes and index positions.", "anchors": ["include/hyperjet/hyperjet.h: DDScalar::zero, constant, variable, empty"]}
{"id": "C08", "title": "Negative sizes are rejected", "statement": "For a dynamic type, empty/zero/constant/variable/resize called with a negative size raise an exception and never produce a number.", "quantifier": "all negative sizes, both orders", "why_tests_cant": "All negative integers; the arithmetic (n+1)(n+2)/2 is positive again for n<=-3.", "anchors": ["include/hyperjet/hyperjet.h: DDScalar::check_valid_size, empty(index), zero(index), constant(Scalar,index), variable(index,Scalar,index), resize"]}
{"id": "C09", "title": "variables() seeds the identity Jacobian", "statement": "variables([v0..v_{n-1}]) returns n numbers of size n, the i-th having value v_i, gradient e_i and Hessian 0, for dynamic types and for the matching static type.", "quantifier": "all lists of values of any length", "why_tests_cant": "All lengths.", "anchors": ["include/hyperjet/hyperjet.h: DDScalar::variables", "python/src/common.h: variables"]}
{"id": "C10", "title": "Static types reject a wrong size argument", "statement": "For a type with static size N, empty/zero/constant/variable given a size argument different from N throw 'Invalid size', and given N behave as the size-less overload.", "quantifier": "all N>=0, all size arguments", "why_tests_cant": "All pairs (N,size).", "anchors": ["include/hyperjet/hyperjet.h: DDScalar::check_valid_size, empty, zero, constant, variable"]}
{"id": "C11", "title": "Mixing sizes raises instead of corrupting", "statement": "For dynamic numbers a, b of different sizes every two-operand operation (+,-,*,/,+=,-=,*=,/=,atan2,hypot) and hypot(a,b,c) with any mismatch throws 'Incompatible size', never reads out of bounds and leaves the operands unchanged.", "quantifier": "all pairs/triples of sizes that are not all equal, both orders, all contents", "why_tests_cant": "All size combinations; the bad ones are undefined behaviour, which a test may not notice.", "anchors": ["include/hyperjet/hyperjet.h: DDScalar::check_equal_size, operator+,-,*,/, atan2, hypot"]}
{"id": "C12", "title": "Operations are memory safe and size preserving", "statement": "For well-formed operands of one common size every arithmetic operator, in-place operator (distinct operands), unary minus, abs, mathematical function, atan2, hypot (2 and 3 arguments) terminates without exception, assertion failure, out-of-bounds access or read of an uninitialised cell, and yields a well-formed, fully initialised number of the same size; the operands of out-of-place operations are unchanged. This holds for any scalar type and any contents (including NaN/inf).", "quantifier": "all sizes, contents, orders, static/dynamic, build modes, scalar types", "why_tests_cant": "Memory safety for all sizes and absence of uninitialised reads.", "anchors": ["include/hyperjet/hyperjet.h: DDScalar::unary, binary, ternary and all operators and functions"]}
{"id": "C13", "title": "pad_right embeds into leading variables", "statement": "For m>=n, pad_right(m) of a number of size n is a well-formed number of size m with the same value, g(i) and h(i,j) for i,j<n, and zeros for every index >=n. A smaller m is rejected with an exception.", "quantifier": "all n, m, both orders, all contents", "why_tests_cant": "All pairs (n,m); m<n writes out of bounds.", "anchors": ["include/hyperjet/hyperjet.h: DDScalar::pad_right"]}
{"id": "C14", "title": "pad_left embeds into trailing variables", "statement": "For m>=n, pad_left(m) of a number of size n is a well-formed number of size m with the same value, g(m-n+i)=g(i), h(m-n+i,m-n+j)=h(i,j), and zeros for every index <m-n. A smaller m is rejected with an exception.", "quantifier": "all n, m, both orders, all contents", "why_tests_cant": "All pairs (n,m); m<n writes out of bounds.", "anchors": ["include/hyperjet/hyperjet.h: DDScalar::pad_left"]}
{"id": "C15", "title": "Padding commutes with computation", "statement": "Padding the inputs (left or right) and then computing gives the padding of the computed result, for every expression in exact arithmetic: adding unused variables changes nothing.", "quantifier": "all expressions, sizes and contents", "why_tests_cant": "All expressions.", "anchors": ["include/hyperjet/hyperjet.h: DDScalar::pad_left, pad_right, operators"]}
{"id": "C16", "title": "First-order derivatives are exact for every expression", "statement": "For every expression built from variables and constants by the library's operators and functions and every point p in its (open) domain, evaluating it on variables(p) yields f equal to the real value and g(i) equal to the partial derivative with respect to the i-th variable (and g.u equal to the derivative in direction u), in exact real arithmetic. Holds for first- and second-order numbers, static and dynamic.", "quantifier": "all expressions, dimensions, points of the domain, directions", "why_tests_cant": "All compositions of all functions at all points.", "anchors": ["include/hyperjet/hyperjet.h: DDScalar (all operators and functions)", "README.md: Quickstart"]}
{"id": "C17", "title": "Second-order derivatives are exact for every expression", "statement": "Under the same conditions as the first-order property, h(i,j) of a second-order number equals the mixed second partial derivative d/dx_i (d/dx_j) of the real function at p (and u^T H v the mixed directional derivative), in exact real arithmetic.", "quantifier": "all expressions, dimensions, points of the domain, index pairs", "why_tests_cant": "All compositions of all functions at all points.", "anchors": ["include/hyperjet/hyperjet.h: DDScalar<2> (all operators and functions)", "README.md: hm"]}
{"id": "C18", "title": "eval is the Taylor polynomial", "statement": "x.eval(d) returns f + sum d_i g(i) for first-order and f + sum d_i g(i) + 1/2 sum_ij d_i d_j h(i,j) for second-order numbers in exact arithmetic, reading only d[0..n-1] and valid storage.", "quantifier": "all sizes, contents and increments d of length n", "why_tests_cant": "The strided index walk must be right for all n.", "anchors": ["include/hyperjet/hyperjet.h: DDScalar::eval"]}
{"id": "C19", "title": "eval approximates the function to second order", "statement": "If x is the result of an expression at p, then F(p+t*v)-x.eval(t*v) = o(t^2) for second-order and o(t) for first-order numbers, for every direction v.", "quantifier": "all expressions, points, directions", "why_tests_cant": "A limit statement.", "anchors": ["include/hyperjet/hyperjet.h: DDScalar::eval"]}
{"id": "C20", "title": "In-place operators agree with their binary counterparts", "statement": "For distinct objects a and b, after a op= b (op in +,-,*,/) a holds a op b computed out of place and b is unchanged; likewise for scalar right-hand sides. For +,-,* the agreement is bit-for-bit whenever scalar + and * are commutative; for / it holds in exact arithmetic.", "quantifier": "all sizes, contents, orders, static/dynamic", "why_tests_cant": "All contents, bit-for-bit.", "anchors": ["include/hyperjet/hyperjet.h: operator+=, -=, *=, /="]}
{"id": "C21", "title": "In-place operators work when both operands are the same object", "statement": "x op= x gives the same result as x = x op x for op in +,-,*,/ (exact arithmetic).", "quantifier": "all sizes and contents", "why_tests_cant": "Aliasing for all contents.", "anchors": ["include/hyperjet/hyperjet.h: DDScalar::operator+=, -=, *=, /= (const Type&)", "python/src/common.h: py::self *= py::self"]}
{"id": "C22", "title": "Comparisons compare values only and are mutually consistent", "statement": "==,!=,<,>,<=,>= between numbers and between a number and a scalar (either side) depend only on the values and return what the comparison of the values returns; over totally ordered scalars trichotomy, a<b iff b>a, a<=b iff not b<a, and a!=b iff not a==b hold, and with NaN values != is true and all others false.", "quantifier": "all pairs of numbers and scalars", "why_tests_cant": "All pairs including NaN.", "anchors": ["include/hyperjet/hyperjet.h: operator==, !=, <, >, <=, >="]}
{"id": "C23", "title": "abs is the absolute value with its derivatives", "statement": "abs(x) has value |f|; for f>0 it equals x, for f<0 it equals -x in every component; applying it twice is the same as once; its derivatives are those of |F| wherever F!=0.", "quantifier": "all sizes and contents", "why_tests_cant": "All contents.", "anchors": ["include/hyperjet/hyperjet.h: DDScalar::abs"]}
{"id": "C24", "title": "First-order numbers are the truncation of second-order numbers", "statement": "Running any sequence of operations on first-order numbers gives bit-for-bit the value and gradient obtained from second-order numbers with the same value and gradient, for every scalar type.", "quantifier": "all programs, sizes, contents, scalar types", "why_tests_cant": "Bitwise equality across all programs.", "anchors": ["include/hyperjet/hyperjet.h: DDScalar<1>, DDScalar<2>, unary, binary, ternary"]}
{"id": "C25", "title": "Static and dynamic numbers compute the same data", "statement": "For every operation, the static type with size N and the dynamic type with size N produce identical data from identical data, for every scalar type.", "quantifier": "all programs, N, contents, scalar types", "why_tests_cant": "Bitwise equality across all programs.", "anchors": ["include/hyperjet/hyperjet.h: DDScalar<O,S,N>, DDScalar<O,S,Dynamic>"]}
{"id": "C26", "title": "Mixed scalar operations equal operations with a constant", "statement": "x+c, c+x, x-c, c-x, x*c, c*x, x/c, c/x (c!=0 where divided by; f!=0 for c/x) equal the same operation with constant(c,n) in exact arithmetic; x+c=c+x and x*c=c*x bit-for-bit.", "quantifier": "all sizes, contents, scalars", "why_tests_cant": "All contents.", "anchors": ["include/hyperjet/hyperjet.h: operator+(Scalar), operator-(Scalar), operator*(Scalar), operator/(Scalar) and friends"]}
{"id": "C27", "title": "Commutativity is bit-exact; ring laws hold exactly", "statement": "a+b=b+a and a*b=b*a bit-for-bit whenever scalar + and * commute (binary64 with a single NaN included); in exact arithmetic + and * form a commutative ring with unit constant(1,n) and zero zero(n), -a is the additive inverse and a-b = a+(-b).", "quantifier": "all sizes and contents", "why_tests_cant": "Algebraic laws over all contents.", "anchors": ["include/hyperjet/hyperjet.h: operator+, -, *, unary -"]}
{"id": "C28", "title": "Division inverts multiplication", "statement": "For b with nonzero value, in exact arithmetic: (a/b)*b = a, a/b = a*reciprocal(b), 1/b = reciprocal(b), reciprocal(reciprocal(b)) = b, b/b = constant(1): in every component including the Hessian.", "quantifier": "all sizes, contents with nonzero value", "why_tests_cant": "Algebraic laws over all contents.", "anchors": ["include/hyperjet/hyperjet.h: operator/, reciprocal"]}
{"id": "C29", "title": "Functional identities hold in every component", "statement": "On the domain: exp(log x)=x, log(exp x)=x, sqrt(x)*sqrt(x)=x, cbrt(x)^3=x, sin^2+cos^2=1, cosh^2-sinh^2=1, tan=sin/cos, tanh=sinh/cosh, sin(asin x)=x, cos(acos x)=x, tan(atan x)=x, pow(x,2)=x*x, hypot(a,b)=sqrt(a*a+b*b), atan2(y,x)=atan(y/x) up to a constant, log2/log10/log(base) = log/log(base), including all gradient and Hessian entries.", "quantifier": "all sizes and contents in the domain", "why_tests_cant": "Identities over all contents; a wrong second-derivative coefficient shows up only in the Hessian.", "anchors": ["include/hyperjet/hyperjet.h: DDScalar mathematical functions"]}
{"id": "C30", "title": "hypot with three arguments is consistent with two", "statement": "hypot(a,b,c) = hypot(hypot(a,b),c) = sqrt(a*a+b*b+c*c) in every component in exact arithmetic wherever a and b are not both zero-valued.", "quantifier": "all sizes and contents", "why_tests_cant": "Identity over all contents.", "anchors": ["include/hyperjet/hyperjet.h: DDScalar::hypot"]}
{"id": "C31", "title": "SScalar lookup semantics", "statement": "variable(name,v) has value v, d(name)=1 and d(other)=0; constant(v) has all d()=0; d() of an absent name is 0; size() counts the stored names; results of binary operations store exactly the union of the operands' names.", "quantifier": "all names, values and sparse numbers", "why_tests_cant": "All names and maps.", "anchors": ["include/hyperjet/hyperjet.h: SScalar::variable, constant, d, size, unary, binary, ternary"]}
{"id": "C32", "title": "SScalar derivatives are exact for every expression", "statement": "For every expression over named variables and every point of its domain, the SScalar result has the real value and d(name) equal to the partial derivative with respect to that name, in exact arithmetic.", "quantifier": "all expressions, name sets, points", "why_tests_cant": "All compositions at all points.", "anchors": ["include/hyperjet/hyperjet.h: SScalar operators and functions"]}
{"id": "C33", "title": "SScalar results do not depend on hash-table order", "statement": "If the operands' tables are iterated in any other order, every derivative d(name) of every operation is the same bit-for-bit, and eval is the same in exact arithmetic.", "quantifier": "all iteration orders, all maps", "why_tests_cant": "unordered_map order is unspecified; tests see one order.", "anchors": ["include/hyperjet/hyperjet.h: SScalar::binary, ternary, eval, operators"]}
{"id": "C34", "title": "SScalar agrees with DDScalar", "statement": "Evaluating an expression on SScalar variables named x_0..x_{n-1} and on DDScalar variables gives the same value and d(x_i)=g(i), in exact arithmetic.", "quantifier": "all expressions, dimensions, points", "why_tests_cant": "All expressions.", "anchors": ["include/hyperjet/hyperjet.h: SScalar, DDScalar"]}
{"id": "C35", "title": "SScalar in-place operators", "statement": "a op= b for distinct objects, and for a scalar b, equals a op b and leaves b unchanged; x op= x equals x op x, for op in +,-,*,/ (exact arithmetic).", "quantifier": "all maps and values, aliased and not", "why_tests_cant": "Aliasing over all contents.", "anchors": ["include/hyperjet/hyperjet.h: SScalar::operator+=, -=, *=, /=", "python/src/bind_sscalar.cpp"]}
{"id": "C36", "title": "SScalar eval", "statement": "SScalar::eval(d) is the sum over the stored names of coefficient times increment (absent increments count 0), and it plays the same role as DDScalar::eval: both return the first-order Taylor value.", "quantifier": "all maps and increments", "why_tests_cant": "All maps.", "anchors": ["include/hyperjet/hyperjet.h: SScalar::eval, DDScalar::eval"]}
{"id": "C37", "title": "Division is as accurate as the scalar type's division", "statement": "In binary64 the value of a/b is the correctly rounded quotient of the values, in particular x/x has value exactly 1 for every finite nonzero x, and a/b agrees with a/=b and with a/scalar.", "quantifier": "all finite binary64 values", "why_tests_cant": "All doubles.", "anchors": ["include/hyperjet/hyperjet.h: operator/(const Type&), operator/(Scalar), operator/="]}
{"id": "C38", "title": "pow is differentiable where the power function is", "statement": "For b a non-negative integer, x.pow(b) has finite derivatives at every finite value including 0 (pow(x,0)=1, pow(x,1)=x, pow(x,2)=x*x in every component).", "quantifier": "all exponents and values, including zero", "why_tests_cant": "The exceptional point 0 for all exponents.", "anchors": ["include/hyperjet/hyperjet.h: DDScalar::pow, SScalar::pow"]}
{"id": "C39", "title": "Every constructor yields a usable number", "statement": "The default constructor, the converting constructor DDScalar(f), and the initializer-list constructor produce well-formed numbers: the converting constructor builds the constant f, usable in every operation, and the initializer-list constructor builds the number with that data or throws.", "quantifier": "all types, values and lists", "why_tests_cant": "All lengths and both storage kinds.", "anchors": ["include/hyperjet/hyperjet.h: DDScalar(), DDScalar(TScalar), DDScalar(initializer_list)"]}
{"id": "C40", "title": "Accessors reject out-of-range indices", "statement": "g(i), set_g, h(i,j), set_h, h(k), eval with indices (or increment lengths) outside the number's size, and every Hessian accessor on a first-order number, fail an assertion or throw; they never read or modify another component silently.", "quantifier": "all indices, sizes, orders, build modes", "why_tests_cant": "All integers as indices.", "anchors": ["include/hyperjet/hyperjet.h: g, h, set_g, set_h, hm, eval", "python/src/common.h: h, set_h, hm bound for order 1"]}
{"id": "C41", "title": "Python variables() picks a type with the right semantics", "statement": "hj.variables(values, order) returns, for order 0 the values, for order 1 and 2 the list of seeded variables with identity gradient for every length, and raises 'Invalid order' for any other order.", "quantifier": "all lists of values, all integer orders", "why_tests_cant": "All lengths and orders.", "anchors": ["python/src/main.cpp: variables"]}
{"id": "C42", "title": "Length validation without exceptions", "statement": "With HYPERJET_NO_EXCEPTIONS and assertions enabled, create(data) aborts on an invalid length and succeeds on a valid one.", "quantifier": "all lengths", "why_tests_cant": "All lengths, alternative build.", "anchors": ["include/hyperjet/hyperjet.h: size_from_data_length (assert branch)"]}
{"id": "C43", "title": "Programs with state, branches and loops are differentiated correctly", "statement": "For every imperative program over mutable hyper-dual registers using assignments, in-place operators (distinct operands), conditionals and loops on comparisons, run from variables(p): if it terminates and no comparison executed compares equal values, then every register's value, gradient and Hessian are the real value, gradient and Hessian of the function the program computes near p.", "quantifier": "all programs, histories, points", "why_tests_cant": "Arbitrary histories of operations.", "anchors": ["include/hyperjet/hyperjet.h: DDScalar operators, comparisons, assignments"]}
{"id": "C44", "title": "resize", "statement": "resize(m), m>=0, on a dynamic number makes its size m with storage of matching length; for first-order numbers it keeps value and the first min(n,m) gradient entries and zero-fills; for second-order numbers it keeps value, gradient and Hessian of the remaining variables.", "quantifier": "all n, m, orders, contents", "why_tests_cant": "All pairs (n,m).", "anchors": ["include/hyperjet/hyperjet.h: resize"]}
{"id": "C45", "title": "Serialisation and copies are independent", "statement": "Copies (copy construction, __copy__, __deepcopy__) have equal data and later in-place operations on one never change the other.", "quantifier": "all programs over registers", "why_tests_cant": "All later histories.", "anchors": ["include/hyperjet/hyperjet.h: DDScalar (implicit copy)", "python/src/common.h: __copy__, __deepcopy__"]}
{"id": "C46", "title": "Results do not depend on how the variables are numbered", "statement": "If the inputs of an expression are relabelled (variables permuted, merged, dropped into a larger set of variables, or moved between static and dynamic types of the same order), the result is the relabelled result, in exact arithmetic: value unchanged, gradient and Hessian entries moved to the new labels, entries of unused variables zero.", "quantifier": "all expressions, sizes, relabellings, contents, static/dynamic", "why_tests_cant": "All relabellings of all sizes.", "anchors": ["include/hyperjet/hyperjet.h: DDScalar operators and functions"]}
{"id": "C47", "title": "Chain rule for arbitrary operands", "statement": "Evaluating an expression F on arbitrary numbers (not only on variables), with values in the open domain of F, gives value F(values), gradient sum_k dF/dk * g_k and Hessian sum_k dF/dk * H_k + sum_kl d2F/dkdl * g_k g_l^T, in exact arithmetic, where dF and d2F are the real partial derivatives of F at the values.", "quantifier": "all expressions, numbers of operands, sizes, contents, static/dynamic", "why_tests_cant": "All operand gradients and Hessians, e.g. results of earlier computations.", "anchors": ["include/hyperjet/hyperjet.h: DDScalar operators and functions"]}
{"id": "C48", "title": "The data computed depend only on the function", "statement": "Two expressions that denote the same real function on a neighbourhood of the operands' values (both in their open domains there) give identical value, gradient and Hessian on all operands, in exact arithmetic.", "quantifier": "all pairs of expressions, operands, sizes, static/dynamic", "why_tests_cant": "All pairs of expressions.", "anchors": ["include/hyperjet/hyperjet.h: DDScalar operators and functions"]}
{"id": "C49", "title": "Derivatives of programs over SScalar", "statement": "For every program with registers, in-place operators, branches and loops over SScalar numbers (none of the statements being r *= r or r /= r), started from named variables and constants at a point where the run on reals stays in the open domains and compares no equal values, the program terminates normally and each register holds the real value and, under each name, the partial derivative of the function the program computes, in exact arithmetic.", "quantifier": "all programs, names, points", "why_tests_cant": "All programs including unbounded loops.", "anchors": ["include/hyperjet/hyperjet.h: SScalar operators, comparisons, in-place operators"]}
{"id": "C50", "title": "SScalar comparisons and abs", "statement": "Comparisons of SScalar numbers (with each other, with a scalar on either side) return what the comparison of the values returns; abs(x) is x for x.f()>=0 and -x (value and all derivatives) for x.f()<0.", "quantifier": "all sparse numbers and scalars", "why_tests_cant": "All maps and values.", "anchors": ["include/hyperjet/hyperjet.h: SScalar comparison operators, abs"]}
{"id": "C51", "title": "Binary64 linear operations round once", "statement": "With double scalars (binary64, round to nearest even), +, -, unary -, number*scalar, number+scalar and number-scalar return in every component (value, gradient, Hessian) the correctly rounded exact result when it does not overflow, unary minus being exact; and -(-x), x*1, 1*x, x/1 and x-0 return x bit for bit, including signed zeros, infinities and NaN.", "quantifier": "all sizes, contents and scalars", "why_tests_cant": "All doubles in all components.", "anchors": ["include/hyperjet/hyperjet.h: operator+, operator-, operator*(Scalar), operator/(Scalar)"]}
{"id": "C52", "title": "hypot and atan2 are finite away from their singular points", "statement": "With double scalars, hypot and atan2 of finite numbers whose values are not at the singular point have finite gradient and Hessian when the operands' data are finite and the exact derivatives are representable.", "quantifier": "all finite doubles", "why_tests_cant": "Under- and overflow ranges of intermediate results.", "anchors": ["include/hyperjet/hyperjet.h: DDScalar::hypot, DDScalar::atan2"]}
{"id": "C53", "title": "Unpickling validates; the array utilities return value, gradient and Hessian", "statement": "Unpickling any state yields a well-formed number of the class or raises an exception; hj.f, hj.d and hj.dd return, elementwise, the value, the gradient and the full symmetric Hessian of every number of a bound class.", "quantifier": "all states (tuples of arbitrary length holding lists of floats or other objects), all numbers of both orders and all sizes", "why_tests_cant": "All lengths of states, all classes.", "anchors": ["python/src/common.h: py::pickle", "python/src/main.cpp: hj.f, hj.d, hj.dd"]}
{"id": "C54", "title": "Rounding error of polynomial expressions in double", "statement": "For every polynomial expression (+, -, * of numbers and constants, division by constants), run on variables(p) with double scalars without overflow, underflow or division by zero: value, every gradient entry and every Hessian entry differ from the real value and the real partial derivatives by at most ((1+u)^k - 1) times the value the same computation gives on absolute values without cancellation, k being the number of roundings accumulated (1 per sum or scalar product, 2 per scalar division, 3 per product) and u = 2^-53.", "quantifier": "all expressions, points, sizes, static/dynamic", "why_tests_cant": "All doubles at all points; the bound is for every expression.", "anchors": ["include/hyperjet/hyperjet.h: DDScalar operators"]}
{"id": "C55", "title": "Integer polynomials are differentiated exactly in double", "statement": "For every expression built from +, -, * over integer constants and integer-valued variables: if no intermediate integer exceeds 2^53 in absolute value, value, gradient and Hessian computed in double are exactly the real value and partial derivatives.", "quantifier": "all expressions, integer points, sizes, static/dynamic", "why_tests_cant": "All integer inputs.", "anchors": ["include/hyperjet/hyperjet.h: DDScalar operators"]}
{"id": "C56", "title": "Shapes of matrix arguments", "statement": "set_hm(m) with an r x k matrix on a second-order number of size n stores the upper triangle of the leading n x n block, leaves value and gradient alone and does not look at anything else if r>=n and k>=n; otherwise it reads out of bounds. from_arrays rejects every mis-shaped matrix in builds with assertions and behaves like set_hm in builds without.", "quantifier": "all n, r, k, contents, static/dynamic", "why_tests_cant": "All shapes; out-of-bounds reads are not observable.", "anchors": ["include/hyperjet/hyperjet.h: set_hm, from_arrays"]}
{"id": "C57", "title": "set_zero, adata, set_adata", "statement": "set_zero turns a number with any contents, also indeterminate ones, into the constant 0 of the same size; adata returns all stored scalars in storage order and set_adata of them on a number of the same size reproduces the number; set_adata with another length is undefined.", "quantifier": "all sizes, contents, orders, static/dynamic", "why_tests_cant": "All sizes and contents.", "anchors": ["include/hyperjet/hyperjet.h: set_zero, adata, set_adata"]}
{"id": "C58", "title": "Arrays obtained from a number alias its storage", "statement": "x.g and x.data return arrays that read and write the entries of x itself (x.g the gradient, x.data all stored scalars), at any later time of the session, whatever happens to other objects, and reading them is always defined.", "quantifier": "all sessions (sequences of Python statements incl. caught exceptions) before and after, all classes, sizes, contents, capacities of std::vector", "why_tests_cant": "Dangling arrays usually still read plausible values.", "anchors": ["python/src/common.h: g, data properties, resize", "include/hyperjet/hyperjet.h: ag, adata, resize"]}
{"id": "C59", "title": "Augmented assignment in Python works on the shared object", "statement": "r op= a and r op= float change the object r is bound to, so that all names of the object see the result, keep all bindings and change no other object.", "quantifier": "all sessions, operators +=, -=, *=, /=, operands incl. r itself, all classes", "why_tests_cant": "All sharing patterns of names and objects.", "anchors": ["python/src/common.h: py::self op= bindings"]}
{"id": "C60", "title": "A statement that raises an exception changes nothing", "statement": "If a Python statement on numbers raises (size mismatch, invalid length, unbound name, array index), all objects, names and arrays are as before.", "quantifier": "all reachable and unreachable states, all statements, all classes", "why_tests_cant": "All states and failing calls; the damage is only visible later.", "anchors": ["include/hyperjet/hyperjet.h: check_equal_size, resize, in-place operators, setters"]}
{"id": "C61", "title": "Sessions that respect the preconditions are safe", "statement": "Every sequence of Python statements (construction, arithmetic, functions, copies, aliases, in-place operators, setters, resize, pad, array views; exceptions caught) in which sizes are non-negative and fit into memory, indices given to variable and set_h are in range, atan2 and hypot(x,y,z) get operands of one size, pad does not shrink, set_hm gets a large enough matrix on a second-order number, and resize is not called on an object with a live array, ends without undefined behaviour or failed assertion, with every bound name holding a well-formed number and every array readable.", "quantifier": "all sessions of any length, all classes, contents, capacities, builds with exceptions", "why_tests_cant": "All statement sequences.", "anchors": ["include/hyperjet/hyperjet.h: DDScalar", "python/src/common.h"]}
{"id": "C62", "title": "Sessions behave as if numbers were plain values", "statement": "Every Python session that respects the preconditions raises the same exceptions, binds the same names and leaves the same numbers and arrays as if every object were a plain value without storage; nothing observable depends on the capacities of the vectors, i.e. on when resize moves the storage.", "quantifier": "all sessions of any length, all classes, contents, capacities, any scalar type", "why_tests_cant": "All statement sequences and all growth policies of std::vector.", "anchors": ["include/hyperjet/hyperjet.h: DDScalar", "python/src/common.h"]}
{"id": "C63", "title": "eval reproduces polynomials exactly", "statement": "If an expression denotes near p a polynomial of degree at most the order of the type (however it is written, e.g. x*x*x/x), evaluating it on variables(p) and calling eval(d) returns the value of the polynomial at p+d, for every d however large.", "quantifier": "all expressions, points, polynomials, displacements, sizes, orders, static/dynamic; exact real arithmetic", "why_tests_cant": "All expressions, points and displacements.", "anchors": ["include/hyperjet/hyperjet.h: eval, variables, operators and functions"]}
{"id": "C64", "title": "eval approximates uniformly in all directions", "statement": "For every expression twice differentiable at p and every eps > 0 there is a delta such that for all displacements d with |d|_1 < delta, eval(d) of the result on variables(p) differs from the function at p+d by at most eps*|d|_1^order.", "quantifier": "all expressions, points, displacements in all directions, sizes, orders, static/dynamic; exact real arithmetic", "why_tests_cant": "Infinitely many directions at once.", "anchors": ["include/hyperjet/hyperjet.h: eval, variables, operators and functions"]}
{"id": "C65", "title": "Results depend on the scalar type only through its operations", "statement": "If a relation between two scalar types is respected by their operations (and, where abs or comparisons are used, by their comparisons), then every method, expression, program and Python session run on related inputs ends the same way on both types (same exceptions, failed assertions, undefined behaviour) with related contents cell by cell.", "quantifier": "all scalar types and relations, all states including malformed ones, all expressions, programs and sessions, all classes", "why_tests_cant": "All scalar types.", "anchors": ["include/hyperjet/hyperjet.h: DDScalar template", "python/src/common.h"]}
{"id": "C66", "title": "Interval arithmetic encloses all derivatives", "statement": "With any scalar type whose operations enclose the real ones (e.g. intervals), evaluating an abs-free expression on variables over a box succeeds, and the value, gradient and Hessian of the result contain the value and all partial derivatives of the function at every point of the box where it is differentiable.", "quantifier": "all expressions without abs, boxes, sizes, orders, static/dynamic, all enclosing scalar types", "why_tests_cant": "All points of the box.", "anchors": ["include/hyperjet/hyperjet.h: DDScalar template, variables, operators and functions"]}
{"id": "C67", "title": "Rounding errors of all derivatives are bounded by a running bound", "statement": "For every abs-free expression of any functions, evaluated on doubles with any libm: if every double carries a bound (sum of the rounding errors of the operations, propagated by derivative bounds of each function), the bounds of the final value, gradient and Hessian, where they exist, bound their distance from the exact derivatives of the real function. More generally any scalar type that follows the doubles and encloses the reals certifies the result.", "quantifier": "all abs-free expressions, doubles, libm implementations, sizes, orders, static/dynamic", "why_tests_cant": "All inputs; the exact derivatives are not computable.", "anchors": ["include/hyperjet/hyperjet.h: variables, operators and functions"]}
{"id": "C68", "title": "Python source expressions compute exact derivatives", "statement": "Every Python expression built from names bound to hj.variables(p, order) (or SScalar variables), float literals, unary minus, abs, + - * / with floats and numbers mixed freely, ** with float exponents, and method calls under all bound names (including numpy's aliases arcsin, arctan2, ...) evaluates, where the function written down is smooth, to a number with its value, gradient and (order 2) Hessian, or to the float if no name occurs.", "quantifier": "all expressions, points, sizes, orders 1 and 2, dense and sparse; exact real arithmetic", "why_tests_cant": "All expressions and points.", "anchors": ["python/src/common.h:88-185", "python/src/bind_sscalar.cpp:25-112", "python/src/main.cpp:63-189"]}
{"id": "C69", "title": "Operators reject operands of other classes", "statement": "In Python, + - * / and < > <= >= between numbers of different classes (order, static size, dense/sparse) or with foreign objects raise TypeError, == is False and != True; ** needs a float exponent; a float on the left of a comparison compares as written; hj.hypot agrees with the method hypot.", "quantifier": "all operands", "why_tests_cant": "All pairs of operands and classes.", "anchors": ["python/src/common.h:91,150-185,219-220", "python/src/bind_sscalar.cpp:77-112"]}
{"id": "C70", "title": "Truth values", "statement": "bool(x) in Python is true exactly if the value is non-zero, as for floats, and len(x) does not raise.", "quantifier": "all numbers, dense and sparse", "why_tests_cant": "All numbers.", "anchors": ["python/src/common.h:90", "python/src/bind_sscalar.cpp:28", "include/hyperjet/hyperjet.h:2066-2069"]}
{"id": "C71", "title": "repr shows the number", "statement": "The text written by operator<< / repr is the value followed by hj for dense numbers and the value followed by the signed derivatives with their names for sparse ones; equal numbers have equal texts.", "quantifier": "all numbers, all number formats", "why_tests_cant": "All numbers and iteration orders.", "anchors": ["include/hyperjet/hyperjet.h:955-968", "include/hyperjet/hyperjet.h:2103-2125"]}
{"id": "C72", "title": "Sessions with names, aliases and in-place operators compute exact derivatives", "statement": "After any Python session of one class that creates variables and constants of one size and applies functions, operators, aliasing, copies and in-place operators (statements with unbound names raise NameError; arrays may be taken and read): every bound name holds value, gradient and (order 2) Hessian of the function that the same session computes on plain shared floats, provided operands stay in the open domains and no second-order object is multiplied in place by itself.", "quantifier": "all sessions, points, sizes, orders, static/dynamic; exact real arithmetic", "why_tests_cant": "All sessions, including all aliasing patterns.", "anchors": ["python/src/common.h:48-185", "include/hyperjet/hyperjet.h: operators"]}
{"id": "C73", "title": "Sparse sessions compute exact derivatives", "statement": "After any Python session with SScalar objects built by variable, constant, functions, operators, aliasing and in-place operators: d(k) of every bound name is the derivative with respect to the variable called k (zero if none) of the function that the same session computes on plain shared floats, provided operands stay in the open domains and no object is multiplied or divided in place by itself; a statement changes no other object.", "quantifier": "all sessions, points and names; exact real arithmetic", "why_tests_cant": "All sessions, including all aliasing patterns.", "anchors": ["python/src/bind_sscalar.cpp:10-112", "include/hyperjet/hyperjet.h:1990-2335"]}
{"id": "C74", "title": "Error bounds hold whatever is contracted into fused multiply-adds", "statement": "If the compiler may fuse any product with any addition or subtraction of it (GCC's default -ffp-contract=fast), the computed value, gradient and Hessian of every expression are still within a bound of the exact derivatives that is computed in advance from the exact values, the unit roundoff and the accuracy of libm, and nothing overflows where the bound exists; integer polynomials within 53 bits are exact for every choice of contractions.", "quantifier": "all expressions without abs, points, sizes, orders, and all choices of contractions, one per occurrence; libm accurate to any relative error k", "why_tests_cant": "All expressions and exponentially many ways to contract each of them.", "anchors": ["include/hyperjet/hyperjet.h: all arithmetic", "include/hyperjet/hyperjet.h:943"]}
{"id": "C75", "title": "Derivatives over any commutative ring", "statement": "If the scalar type is a commutative ring (unsigned integers of any width, rationals, ...), evaluating a polynomial expression gives f, g, H such that the expression at p + u e1 + v e2, with infinitesimals e1, e2 of square zero, equals f + (g.u) e1 + (g.v) e2 + (u.Hv) e1 e2 for all u, v; the same with quotients, reciprocals and natural powers where the divisors are invertible.", "quantifier": "all commutative rings, expressions, points, directions, sizes, orders, static/dynamic", "why_tests_cant": "All rings and expressions; no limits, no rounding.", "anchors": ["include/hyperjet/hyperjet.h:40-60", "include/hyperjet/hyperjet.h:136-310", "include/hyperjet/hyperjet.h:986-1310"]}
{"id": "C76", "title": "Numbers of numbers hold higher derivatives", "statement": "If the scalar type of a number is itself a number of static size (nested to any depth, orders 1 and 2 mixed), evaluating an expression on nested variables succeeds and every component, followed through all levels, is the corresponding iterated partial derivative; with one variable, k levels hold the k-th derivative. Inner numbers of dynamic size do not work: literals become numbers of size 1 and combining them throws.", "quantifier": "all expressions without abs, points, numbers of variables, depths, orders; exact real arithmetic", "why_tests_cant": "All depths and expressions; derivatives are limits.", "anchors": ["include/hyperjet/hyperjet.h:40-60", "include/hyperjet/hyperjet.h:330-345", "include/hyperjet/hyperjet.h:972-1655"]}
{"id": "C77", "title": "Constructors initialise all members; nothing depends on uninitialised ones", "statement": "Every constructor and factory function initialises both members, so that no copy of a number copies an indeterminate value; and in static types, where m_size is redundant, no operation, accessor or Python session depends on its content. References to elements are only formed to existing elements.", "quantifier": "all constructors, factory functions, sizes, orders, scalar types, sessions", "why_tests_cant": "Reading an indeterminate member rarely shows in a test; sanitizers see only the executed path.", "anchors": ["include/hyperjet/hyperjet.h:57-58", "include/hyperjet/hyperjet.h:315-366", "include/hyperjet/hyperjet.h:398-408", "include/hyperjet/hyperjet.h:532-705", "include/hyperjet/hyperjet.h:1138-1168"]}
{"id": "C78", "title": "Builds with fewer checks agree with checking builds", "statement": "Whatever an operation, expression, program or Python session returns in one build of the library, it returns in every build with fewer checks (assertions off, exceptions off); with assertions off only, exceptions stay the same as well.", "quantifier": "all methods, expressions, programs, sessions, scalar types, sizes, orders and combinations of HYPERJET_NO_EXCEPTIONS and NDEBUG", "why_tests_cant": "A test suite is run in one build; the claim relates pairs of builds for all inputs.", "anchors": ["include/hyperjet/hyperjet.h:28-130"]}
{"id": "C79", "title": "Operands of different sizes when nothing is checked", "statement": "In builds without exceptions and assertions a binary operator or in-place operator on dynamic numbers of different sizes is undefined behaviour exactly if the right operand is the smaller one; otherwise the right operand acts as a number of the size of the left one that has its value and the beginning of its gradient, and whose Hessian starts with the rest of that gradient.", "quantifier": "all operators, sizes, orders, scalar types", "why_tests_cant": "Wrong results and out-of-bounds reads for all pairs of sizes; tests run with checks on.", "anchors": ["include/hyperjet/hyperjet.h:85-130", "include/hyperjet/hyperjet.h:136-310", "include/hyperjet/hyperjet.h:1060-1242"]}
{"id": "C80", "title": "Python constructors build what is written", "statement": "T(), T(f), T(f, size), T(size=n), T(data), T(f, g) and T(f, g, hm), with or without keywords, in any order of keywords, reach the constructor function of that meaning for every way of writing the numbers (ints, floats, lists, arrays); a static class rejects data of the wrong length; unknown keywords are rejected; the same for SScalar and the overloaded static functions.", "quantifier": "all classes, arguments, ways of writing the call", "why_tests_cant": "Overload resolution with implicit conversions: all combinations of argument types, shapes and keywords.", "anchors": ["python/src/common.h:25-41", "python/src/common.h:62-86", "python/src/bind_sscalar.cpp:10-18"]}
{"id": "C81", "title": "Derivatives with respect to an unused variable are zero", "statement": "If a variable does not occur in an expression, or only in values a program does not use for a result, then every derivative with respect to it (gradient entry and Hessian row and column) is zero.", "quantifier": "all expressions, programs with branches and loops, points, sizes, orders, scalar types", "why_tests_cant": "All expressions and all special values; at singular points the general rule multiplies zeros by infinities.", "anchors": ["include/hyperjet/hyperjet.h:136-310", "include/hyperjet/hyperjet.h:943-1655"]}
{"id": "C82", "title": "Derivatives do not depend on the other variables carried along or on their numbering", "statement": "Evaluating with some of the variables, or with the variables renumbered, gives bit for bit the value, gradient and Hessian entries that evaluating with all variables gives for them.", "quantifier": "all expressions, programs with branches and loops, selections and renumberings of variables, sizes, orders, static/dynamic, scalar types", "why_tests_cant": "Relates pairs of runs of different size for all inputs; differences are in the last bit.", "anchors": ["include/hyperjet/hyperjet.h:136-310", "include/hyperjet/hyperjet.h:943-1655"]}
{"id": "C83", "title": "Derivatives are accurate to a fixed number of roundings", "statement": "The first and second derivatives of every function differ from the exact ones by a number of roundings (relative errors of 2^-53) that depends on the function and on the accuracy of the C library only, not on the argument; for expressions the number is known as long as no cancelling subtraction of inexact numbers occurs.", "quantifier": "all functions, expressions, doubles, C libraries of given accuracy", "why_tests_cant": "Relative accuracy over the whole range of doubles; cancellation shows up only near particular arguments.", "anchors": ["include/hyperjet/hyperjet.h:1182-1655"]}
{"id": "C84", "title": "Outside its domain a function gives NaN in every part of the result", "statement": "Where a function has no value (sqrt and logarithms of negative numbers, acos, asin and atanh beyond 1, acosh below 1, powers of negative numbers with an exponent that is not an integer) the value and every gradient and Hessian entry of the result are NaN, whatever the derivatives of the operand.", "quantifier": "all functions, finite doubles outside the domain, derivatives, sizes, orders, C libraries that report domain errors by NaN", "why_tests_cant": "All doubles outside the domains; a finite derivative next to a NaN value passes tests that look at the value.", "anchors": ["include/hyperjet/hyperjet.h:1253-1395", "include/hyperjet/hyperjet.h:1530-1655"]}
{"id": "C85", "title": "Quotients have finite derivatives wherever the exact ones are in the range of doubles", "statement": "x / y, x /= y and a / y with a plain number have finite first and second derivatives if the operands and the exact derivatives are in the range of doubles, and the derivatives are zero only where the exact ones are too small for a double.", "quantifier": "all finite doubles, derivatives, sizes, orders, C libraries with powers of known range", "why_tests_cant": "The whole range of exponents of numerator and denominator; intermediate overflow appears only far from usual arguments.", "anchors": ["include/hyperjet/hyperjet.h:1182-1242"]}
{"id": "C86", "title": "The chain-rule kernels add or write the derivatives of a composite", "statement": "unary, binary and ternary, in the writing and in the adding form (TIncrement), set the value and put into every gradient and Hessian entry of the result the chain-rule combination of the operands, plus, in the adding form, what was there before; for all coefficients, including the tags Zero, One, MinusOne.", "quantifier": "all operands, results, coefficients and tags, both forms, sizes, orders, static/dynamic", "why_tests_cant": "The adding form and most combinations of tags are instantiated by no function of the library.", "anchors": ["include/hyperjet/hyperjet.h:136-312"]}
{"id": "C87", "title": "Names of sparse variables do not matter", "statement": "Renaming the variables of SScalar numbers by a map that keeps different names different changes nothing but the names: same values, same derivatives by the new names, same sizes, same branches, exceptions and termination, same results of eval.", "quantifier": "all expressions, programs with branches and loops, Python sessions, renamings, iteration orders of the hash tables, scalar types", "why_tests_cant": "All names and all pairs of runs; a hash or order dependence shows up for particular names only.", "anchors": ["include/hyperjet/hyperjet.h:2002-2896", "python/src/bind_sscalar.cpp:1-112"]}
{"id": "C88", "title": "Sparse variables with the same name act as one variable", "statement": "If several variables of SScalar numbers are given the same name, the value of a result is unchanged and its derivative by that name is the sum of its derivatives by the variables that were identified.", "quantifier": "all expressions, programs with branches, loops and aliased in-place operators, Python sessions, identifications of names, real arguments", "why_tests_cant": "Relates runs with different tables; the merge of tables has to be right for overlapping and for disjoint sets of names.", "anchors": ["include/hyperjet/hyperjet.h:2002-2896"]}
{"id": "C89", "title": "SScalar and DDScalar give the same doubles", "statement": "Run on doubles, the same formula or program gives a sparse and a dense number with bit for bit the same value and the same first derivatives.", "quantifier": "all expressions and programs with branches and loops, doubles including infinities and NaN, operands, names, sizes, iteration orders, C libraries", "why_tests_cant": "All doubles and all programs; two separately written sets of formulas have to round alike.", "anchors": ["include/hyperjet/hyperjet.h:136-312", "include/hyperjet/hyperjet.h:1182-1655", "include/hyperjet/hyperjet.h:2002-2896"]}
{"id": "C90", "title": "The derivative of a sparse number by one name depends on that name only", "statement": "Removing some of the names from all SScalar operands (creating their variables as constants) changes neither the value of a result, nor its derivatives by the remaining names, nor which of these are stored, nor branches, exceptions and termination.", "quantifier": "all expressions, programs with branches, loops and aliased in-place operators, Python sessions, sets of names, iteration orders of the hash tables, scalar types", "why_tests_cant": "Relates runs with different tables for all sets of names; an interference between entries of a table shows up for particular sets only.", "anchors": ["include/hyperjet/hyperjet.h:2002-2896", "python/src/bind_sscalar.cpp:1-112"]}
{"id": "C91", "title": "SScalar depends on the scalar type only through its operations", "statement": "A relation between two scalar types that their operations respect is respected by every expression, program and session of SScalar numbers and by d, eval and the comparisons, with the same names stored in the same order and the same outcome.", "quantifier": "all pairs of scalar types, relations, expressions, programs, sessions, iteration orders", "why_tests_cant": "Quantifies over scalar types.", "anchors": ["include/hyperjet/hyperjet.h:1989-2896"]}
{"id": "C92", "title": "Derivatives of SScalar computed in doubles have known error bounds", "statement": "Value and derivatives of a formula computed with SScalar<double> lie within a bound of the exact ones that is computed alongside (running error), within the number of roundings counted in advance (relative error), within a bound for every choice of fused multiply-adds, and are exact for integers of at most 53 bits; with interval-like scalars they enclose the exact ones at every point of a box.", "quantifier": "all formulas, doubles, names, iteration orders, C libraries, choices of contractions", "why_tests_cant": "All doubles and all formulas; the exact derivatives are real numbers.", "anchors": ["include/hyperjet/hyperjet.h:2002-2896"]}
{"id": "C93", "title": "The text of a number denotes its value", "statement": "repr of a DDScalar and of the parts of an SScalar is a decimal numeral that denotes the double: equal texts mean equal numbers, numbers in order have texts in order, numbers given by short decimals are shown as written, infinities and NaN are not shown as numbers.", "quantifier": "all doubles", "why_tests_cant": "2^64 doubles; carries, ties and the switch between the two notations happen at isolated values.", "anchors": ["include/hyperjet/hyperjet.h:955-968", "include/hyperjet/hyperjet.h:2103-2125"]}
{"id": "C94", "title": "The text of a sparse number determines its names", "statement": "From repr of an SScalar its value, its names and its derivatives (to the digits shown) can be read back.", "quantifier": "all SScalar numbers, all names", "why_tests_cant": "Names are arbitrary strings.", "anchors": ["include/hyperjet/hyperjet.h:2103-2125", "python/src/bind_sscalar.cpp:30"]}
{"id": "C95", "title": "Threads that share numbers only for reading do not influence each other", "statement": "If statements of several Python threads are executed in any interleaving, every thread changes only objects it alone has names or arrays of, and every thread alone respects the preconditions, then the interleaving does so too, and every thread meets the same exceptions and sees the same numbers, arrays and identities as if it ran alone; this holds for dense and sparse numbers.", "quantifier": "all interleavings of all sessions of all numbers of threads, all capacities", "why_tests_cant": "The number of interleavings is exponential, and a test runs one of them.", "anchors": ["include/hyperjet/hyperjet.h:58-1980", "include/hyperjet/hyperjet.h:1990-2330", "python/src/common.h", "python/src/bind_sscalar.cpp:1-112"]}
{"id": "C96", "title": "Vector and matrix operations on arrays of numbers", "statement": "With exact scalars, sums and products of several numbers do not depend on the order and grouping in which numpy, Eigen or Python's sum forms them, matrix products are associative, and scalar products and norms have the exact derivatives of the functions they denote. With doubles, exchanging operands changes no bit, and a sum in any grouping has every component within (1+u)^depth - 1 times the sum of absolute values of the exact one.", "quantifier": "all arrays of numbers, all groupings and orders, all points", "why_tests_cant": "All orders of reduction of arrays of all lengths; a test fixes one.", "anchors": ["include/hyperjet/hyperjet.h:1020-1119", "include/hyperjet/hyperjet.h:2898-2937", "README.md"]}
{"id": "C97", "title": "Moves and swaps of numbers in C++", "statement": "A C++ program that does not use a moved-from number before assigning to it ends like the program in which every move is a copy, whatever the moved-from containers hold; numbers of static types may be moved freely. Swapping and moving algorithms lose and change no number, and sorting by < orders the numbers by value with their derivatives attached. A moved-from dynamic number keeps its size, so that reading it is undefined behaviour or returns zeros, never an exception.", "quantifier": "all programs of copies, moves, swaps and calls, all contents of moved-from containers, all lengths", "why_tests_cant": "The contents of a moved-from container are unspecified and differ between standard libraries.", "anchors": ["include/hyperjet/hyperjet.h:57-58", "include/hyperjet/hyperjet.h:313-366", "include/hyperjet/hyperjet.h:1666-1694", "include/hyperjet/hyperjet.h:1997-2062"]}
{"id": "C98", "title": "Rescaled variables rescale the derivatives", "statement": "Multiplying the seeds of variable i by s_i multiplies the first derivatives of every result of formulas and programs by s_i and the second ones by s_i*s_j: exactly with exact arithmetic; bit for bit (up to the sign of zero) for signs with doubles and any mathematical library; bit for bit for powers of two with doubles wherever no intermediate result comes near the limits of the format.", "quantifier": "all formulas and programs, all points, all factors, signs and powers of two", "why_tests_cant": "A test fixes the factors; rounding, underflow and the order of operations decide whether a factor is exact.", "anchors": ["include/hyperjet/hyperjet.h:178-312", "include/hyperjet/hyperjet.h:1020-1119", "include/hyperjet/hyperjet.h:1253-1500"]}
{"id": "C99", "title": "Memory exhaustion: what a refused allocation leaves", "statement": "Whatever allocations fail with std::bad_alloc, a program either ends as with unlimited memory or stops at a statement the unlimited run comes to. Static numbers never allocate. Dense numbers of one size are left exactly as they were before that statement; a refused resize leaves an unusable number. Sparse numbers are left as they were by all statements except r = a (new value, some table) and r op= a with new names in a, which leaves the new value and, for each name, either the new derivative or the one for a constant right operand; tables stay valid and other registers keep their numbers.", "quantifier": "all programs, all sequences of answers of the allocator, all contents a failed copy assignment may leave", "why_tests_cant": "Any of the allocations may be the failing one; tests run with enough memory.", "anchors": ["include/hyperjet/hyperjet.h:57-58", "include/hyperjet/hyperjet.h:422-428", "include/hyperjet/hyperjet.h:549-660", "include/hyperjet/hyperjet.h:1138-1171", "include/hyperjet/hyperjet.h:1224-1243", "include/hyperjet/hyperjet.h:1995-2330"]}
{"id": "C100", "title": "Interval numbers: mean value forms, tests and Newton steps", "statement": "With an interval-like scalar type, the numbers computed from a box are usable in rigorous numerics: between any two points of the box the function changes by a gradient inside the computed one (and, second order, a symmetric Hessian inside the computed one) applied to the difference; eval of a number with the box's highest derivatives and the centre's lower ones encloses the function; a derivative enclosure of one sign proves monotonicity, a positive semidefinite Hessian enclosure convexity, a Jacobian enclosure without kernels injectivity; an interval Newton step contains all roots, and proves existence and uniqueness if it stays inside.", "quantifier": "all formulas without abs, all boxes inside the domain, all enclosing scalar types with convex sets, all pairs of points", "why_tests_cant": "A statement about all pairs of real points of all boxes.", "anchors": ["include/hyperjet/hyperjet.h:178-312", "include/hyperjet/hyperjet.h:907-951", "include/hyperjet/hyperjet.h:1020-1119"]}
{"id": "C101", "title": "Iterative solvers deliver the derivatives of the solution", "statement": "Let x = xi(p) solve x = e(x, p). Iterating X = e(X, P) with numbers, P the variables with values p, from a number with the value xi(p) and any derivatives, multiplies the error of the gradient by q = de/dx in every step; if q = 0 (Newton steps X - f(X, P)/d with the slope d at the root) the gradient is that of xi after one step and the Hessian after two; if |q| < 1 the Hessian converges. From every number with a value close enough to xi(p), values, gradients and Hessians converge to those of xi.", "quantifier": "all formulas, points and parameters, all starting numbers, all numbers of steps", "why_tests_cant": "A statement about limits, and about all starting derivatives.", "anchors": ["include/hyperjet/hyperjet.h:178-312", "include/hyperjet/hyperjet.h:1020-1119", "include/hyperjet/hyperjet.h:1253-1500", "README.md"]}
{"id": "C102", "title": "Solvers of systems of equations deliver the derivatives of the solution", "statement": "Let x = xi(p) solve the system x = e(x, p) of m equations. Sweeps X = e(X, P) with numbers from the values xi(p) and any derivatives multiply the errors of the gradients by the matrix Q = de/dx; Newton steps X - B f(X, P) with the inverse Jacobian matrix B at the root give the gradients of xi after one sweep and the Hessians after two; if the row sums of |Q| are below 1, values, gradients and Hessians converge to those of xi from all numbers with values close enough.", "quantifier": "all systems of formulas of any size, all points and parameters, all starting numbers, all numbers of sweeps", "why_tests_cant": "A statement about limits, and about all starting derivatives.", "anchors": ["include/hyperjet/hyperjet.h:178-312", "include/hyperjet/hyperjet.h:1020-1119", "include/hyperjet/hyperjet.h:1253-1500", "README.md"]}
{"id": "C103", "title": "Rescaled variables of sparse numbers rescale the derivatives", "statement": "SScalar: multiplying the seed of the variable named k by s_k multiplies the derivatives by k of every result of formulas, programs and Python sessions by s_k and changes neither values, names nor iteration orders; eval with the increments divided by s_k gives the same. Exactly with exact arithmetic; bit for bit (up to the sign of zero) for signs with doubles and any mathematical library; bit for bit for powers of two with doubles wherever no intermediate result comes near the limits of the format.", "quantifier": "all formulas, programs and sessions, all points, names, factors, signs and powers of two, all iteration orders of the tables", "why_tests_cant": "A test fixes the factors; rounding, underflow and the order of operations decide whether a factor is exact.", "anchors": ["include/hyperjet/hyperjet.h:1995-2332", "include/hyperjet/hyperjet.h:2336-2613", "python/src/bind_sscalar.cpp:13-112"]}
{"id": "C104", "title": "Sparse interval numbers: mean value forms, tests and Newton steps", "statement": "SScalar over a type of convex sets with enclosing operations: between two points of a box the function grows by derivatives inside the computed ones (0 for variables that do not occur) times the difference of the points; eval with enclosed increments encloses the growth, and with the value from around the centre the values over the box; a positive derivative means strictly increasing, a Jacobian without singular members one-to-one; Newton's step keeps all roots, a derivative without 0 allows at most one, and a step into the box proves one. Whatever the iteration orders of the tables.", "quantifier": "all scalar types of convex sets, all formulas without abs, all names, boxes and points, all iteration orders", "why_tests_cant": "A test evaluates at points; the statements are about all pairs of points of a box and existence of roots.", "anchors": ["include/hyperjet/hyperjet.h:1995-2100", "include/hyperjet/hyperjet.h:2106-2332", "include/hyperjet/hyperjet.h:2336-2613"]}
{"id": "C105", "title": "Sparse numbers in iterative solvers of systems", "statement": "SScalar: iterating X = es(X, P) from the values of a solution multiplies the errors of the derivatives by the parameters, and the derivatives by all other names, by the Jacobian of the right-hand sides; Newton steps with the inverse Jacobian give the derivatives of the root after one step and 0 for all other names; if the iteration contracts, from all nearby values the values and derivatives converge to those of the solution. Whatever the iteration orders of the tables.", "quantifier": "all systems, parameters, names, starting numbers with any derivatives, numbers of steps, iteration orders", "why_tests_cant": "Convergence and all step counts cannot be tested; leftover names of starting values are a silent error.", "anchors": ["include/hyperjet/hyperjet.h:1995-2332", "include/hyperjet/hyperjet.h:2336-2613"]}
{"id": "C106", "title": "Sparse numbers over any commutative ring", "statement": "SScalar over a scalar type whose operations form a commutative ring (words of any width included): the value of a polynomial at p + u e, e an infinitesimal with square zero, is the computed value plus the derivatives by the names of the variables times u, for every direction u; the same with quotients and natural powers where the divisors are invertible. Sums, products (Python's sum and math.prod included), scalar products and matrix products have the same value and the same entries in whatever order they are formed; matrix products are associative.", "quantifier": "all commutative rings, formulas, names, points and directions, all orders of reduction, all iteration orders of the tables", "why_tests_cant": "A test fixes the scalar type, the order of the operands and the iteration order of the tables.", "anchors": ["include/hyperjet/hyperjet.h:1995-2100", "include/hyperjet/hyperjet.h:2106-2332", "include/hyperjet/hyperjet.h:2336-2372"]}
{"id": "C107", "title": "Memory exhaustion in Python sessions with sparse numbers", "statement": "A Python statement on SScalar objects that gets all memory it asks for does what it does with unlimited memory; one that ends in MemoryError binds no name, creates no object, and leaves all numbers as they were, except that r op= a on two objects may have been done with the first entries of a only, seen through all names of r's object. The session goes on with valid objects; the reachable states are exactly these. Every other statement can simply be tried again; r op= a cannot.", "quantifier": "all sessions, heaps and aliasings, all patterns of refused requests, all scalar types", "why_tests_cant": "Allocation failures at every single request cannot be provoked by tests, let alone their combinations over a session.", "anchors": ["include/hyperjet/hyperjet.h:1995-2042", "include/hyperjet/hyperjet.h:2051-2063", "include/hyperjet/hyperjet.h:2106-2332", "python/src/bind_sscalar.cpp:13-112"]}
{"id": "C108", "title": "Python sessions on dense numbers survive memory exhaustion; resize does not give the strong guarantee", "statement": "Whatever allocation is refused during a Python session with dense numbers, the refused statement leaves all names, views, buffers and objects as they were, except that a resize that needs a new buffer leaves the new size with the old data. Sessions without resize end as the same session with the refused statements left out, and every such choice occurs. Every refused statement, resize included, gives on a second try what it would have given on the first. A half-done resize to another size leaves an object that is not a number of any size, whose entries may be read out of bounds.", "quantifier": "all configurations, sessions, states, patterns of refused allocations, scalar types", "why_tests_cant": "allocation failures cannot be provoked at each point of each session, and the half-resized object is a latent out-of-bounds read", "anchors": ["include/hyperjet/hyperjet.h:422-428", "include/hyperjet/hyperjet.h:1138-1243", "python/src/common.h:48-181"]}
{"id": "C109", "title": "Outside its domain a function of a sparse number gives NaN in every part of the result", "statement": "Where a function has no value (roots, logarithms and non-integer powers of negative numbers, acos, asin, atanh beyond 1, acosh below 1), the SScalar result is NaN in the value and in the derivative by every name.", "quantifier": "all sparse numbers with finite value, all functions, all C libraries that report domain errors by NaN", "why_tests_cant": "the arguments form a continuum; whether a stored derivative is NaN depends on rounding of exponents; names that are not stored are easily overlooked", "anchors": ["include/hyperjet/hyperjet.h:2336-2354", "include/hyperjet/hyperjet.h:2408-2432", "include/hyperjet/hyperjet.h:2521-2552", "include/hyperjet/hyperjet.h:2566-2606"]}
{"id": "C110", "title": "Quotients of sparse numbers have finite derivatives wherever the exact ones are in the range of doubles", "statement": "x / y, x /= y and a / y of sparse numbers have finite values and derivatives whenever value and exact derivatives are in the range of doubles; derivatives by names that the denominator does not hold are those of a quotient by a plain number.", "quantifier": "all sparse numbers over binary64, all C libraries whose pow is right within a factor of two", "why_tests_cant": "overflow and underflow of intermediate squares shows for extreme denominators only", "anchors": ["include/hyperjet/hyperjet.h:2281-2332"]}
{"id": "C111", "title": "hypot and atan2 of sparse numbers have finite derivatives wherever the exact ones are in the range of doubles", "statement": "hypot (two and three operands) and atan2 of sparse numbers have finite values and derivatives whenever value and exact derivatives are in the range of doubles, up to a margin at the ends.", "quantifier": "all sparse numbers over binary64, all C libraries whose hypot is not below half the larger operand", "why_tests_cant": "overflow and underflow of intermediate squares shows for extreme operands only", "anchors": ["include/hyperjet/hyperjet.h:2444-2455", "include/hyperjet/hyperjet.h:2457-2485"]}
{"id": "C112", "title": "Chain rule and identities of sparse numbers", "statement": "SScalar, exact arithmetic: on operands with any derivatives by any names, shared or not, the derivative of a formula by every name is the sum of its partial derivatives times the operands' derivatives. Formulas that denote the same function near the point give the same value and the same derivative by every name: division inverts multiplication, log(exp(x)) = x, sin^2 + cos^2 = 1, pow(x, n) is the product, hypot(x, y, z) = hypot(hypot(x, y), z) and so on. They store the same names.", "quantifier": "all formulas, operands, names, iteration orders of the tables", "why_tests_cant": "identities between all formulas at all points; a test fixes names and their sharing", "anchors": ["include/hyperjet/hyperjet.h:2106-2332", "include/hyperjet/hyperjet.h:2336-2613"]}
{"id": "C113", "title": "Derivatives of sparse numbers are accurate to a fixed number of roundings; quotients are correctly rounded", "statement": "Functions of sparse numbers over binary64: the derivative by every name is the exact derivative times the operand's up to a known number of roundings, whatever the argument. The value of a quotient is the correctly rounded one, x / x is 1, and x / y agrees with x /= y.", "quantifier": "all functions, arguments, names, operands; all C libraries accurate to a number of roundings", "why_tests_cant": "the arguments form a continuum; cancellation shows in small regions only", "anchors": ["include/hyperjet/hyperjet.h:2281-2332", "include/hyperjet/hyperjet.h:2336-2606"]}
{"id": "C114", "title": "Powers of sparse numbers at zero", "statement": "pow(x, n) of a sparse number with a natural exponent n has finite derivatives at every finite number, 0 included: those of x for n = 1, zero for larger n and for n = 0.", "quantifier": "all sparse numbers with the value 0 of either sign, all integer exponents that are doubles, all C libraries with the standard's special cases of pow", "why_tests_cant": "special values of the C library at 0 are easily left out of tests, and there are many exponents", "anchors": ["include/hyperjet/hyperjet.h:2336-2344"]}
{"id": "C115", "title": "Sparse numbers with dense numbers as scalars", "statement": "SScalar<DDScalar<order, double, size>>: the arithmetic is that of sparse numbers, whatever names the operands have, and the value and every entry carry the derivatives of the dense numbers along, so that the entries hold derivatives of one order more.", "quantifier": "all operands with scalars of one size, all sets of names, all functions of one variable built from +, -, *, sin, cos, exp", "why_tests_cant": "reading an indeterminate array usually gives zeros in a test, and no test instantiates the sparse class with a class type", "anchors": ["include/hyperjet/hyperjet.h:2002-2025", "include/hyperjet/hyperjet.h:315-328", "include/hyperjet/hyperjet.h:2143-2267"]}
{"id": "C116", "title": "Dense numbers with sparse numbers as scalars", "statement": "DDScalar<order, SScalar<double>, size>: the evaluation of an expression on variables whose values are sparse variables succeeds, and the value and every gradient and Hessian entry is a sparse number holding its own value and, under each name, its own partial derivative.", "quantifier": "all expressions without abs in which every function is evaluated where it is smooth, all points, all sets of distinct names, both orders, static and dynamic sizes", "why_tests_cant": "no test instantiates the dense class with the sparse one, and the derivatives of all orders of all expressions cannot be enumerated", "anchors": ["include/hyperjet/hyperjet.h:43-60", "include/hyperjet/hyperjet.h:1181-1265", "include/hyperjet/hyperjet.h:2002-2067", "include/hyperjet/hyperjet.h:2711-2893"]}
{"id": "C117", "title": "Sparse numbers with sparse numbers as scalars", "statement": "SScalar<SScalar<double>>: an expression on variables whose values are sparse variables of the same names gives a number whose value holds the value and the first derivatives, and whose entry under each name holds that first derivative and, under each name, the second derivatives.", "quantifier": "all expressions without abs, pow and logarithms to a base in which every function is evaluated where it is smooth, all points, all sets of distinct names", "why_tests_cant": "no test nests the sparse class, and the second derivatives of all expressions cannot be enumerated", "anchors": ["include/hyperjet/hyperjet.h:2002-2067", "include/hyperjet/hyperjet.h:2129-2606", "include/hyperjet/hyperjet.h:2711-2893"]}
{"id": "C118", "title": "Sensitivities of gradients and Hessians by named parameters", "statement": "DDScalar<order, SScalar<double>, n>: an expression of n dense variables and any number of dense constants, each with a sparse variable of its own name as its value, gives a number of size n whose value, gradient and Hessian entries hold their own derivatives by the names of all variables and constants.", "quantifier": "all n, all numbers of parameters, all expressions without abs in which every function is evaluated where it is smooth, all points, both orders, static and dynamic sizes", "why_tests_cant": "no test mixes the two classes; derivatives of derivatives by parameters cannot be checked for all expressions", "anchors": ["include/hyperjet/hyperjet.h:43-60", "include/hyperjet/hyperjet.h:1181-1265", "include/hyperjet/hyperjet.h:2002-2067", "include/hyperjet/hyperjet.h:2711-2893"]}
{"id": "C119", "title": "Sparse scalars do not change the values a dense number computes", "statement": "DDScalar<order, SScalar<double>, size>: a program computes the same values, gradients, Hessians, branches, exceptions and failures as with plain scalars, once the derivatives of the sparse scalars are forgotten.", "quantifier": "all programs and sessions, all scalar types, all states, malformed ones included", "why_tests_cant": "equality of all programs under two instantiations of a template is a statement about every operation at once", "anchors": ["include/hyperjet/hyperjet.h:43-60", "include/hyperjet/hyperjet.h:1181-1265", "include/hyperjet/hyperjet.h:2281-2292", "include/hyperjet/hyperjet.h:2617-2705"]}
{"id": "C120", "title": "Nesting does not change the values a number computes", "statement": "DDScalar<.., DDScalar<.., double, n>, ..> and SScalar<SScalar<double>>: the values (and names, branches, exceptions) computed are those computed with plain scalars, whatever derivatives the inner numbers carry.", "quantifier": "all programs on nested dense numbers with inner numbers of any static size and order, all expressions on nested sparse numbers, all scalar types", "why_tests_cant": "equality of all programs under two instantiations of a template is a statement about every operation at once", "anchors": ["include/hyperjet/hyperjet.h:1181-1206", "include/hyperjet/hyperjet.h:2281-2292", "include/hyperjet/hyperjet.h:43-60"]}
