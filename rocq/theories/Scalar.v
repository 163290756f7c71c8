(** The scalar type [TScalar] of the templates: operations only, no laws.
    hyperjet.h uses on scalars: + - * / unary -, comparisons, conversion of integer and double
    literals, and the functions of <cmath> listed at hyperjet.h:5. *)
From Coq Require Import ZArith.

Record Ops (S : Type) := {
  o_Z : Z -> S;                 (* integer literal / Scalar(k) converted to the scalar type *)
  o_half : S;                   (* the literal 0.5 (hyperjet.h:943) *)
  o_add : S -> S -> S;
  o_sub : S -> S -> S;
  o_mul : S -> S -> S;
  o_div : S -> S -> S;
  o_neg : S -> S;
  o_lt : S -> S -> bool;
  o_le : S -> S -> bool;
  o_eq : S -> S -> bool;
  o_pow : S -> S -> S;
  o_sqrt : S -> S; o_cbrt : S -> S;
  o_cos : S -> S; o_sin : S -> S; o_tan : S -> S;
  o_acos : S -> S; o_asin : S -> S; o_atan : S -> S;
  o_atan2 : S -> S -> S;
  o_hypot : S -> S -> S; o_hypot3 : S -> S -> S -> S;
  o_cosh : S -> S; o_sinh : S -> S; o_tanh : S -> S;
  o_acosh : S -> S; o_asinh : S -> S; o_atanh : S -> S;
  o_exp : S -> S; o_log : S -> S; o_log2 : S -> S; o_log10 : S -> S
}.
Arguments o_Z {S} o. Arguments o_half {S} o.
Arguments o_add {S} o. Arguments o_sub {S} o. Arguments o_mul {S} o. Arguments o_div {S} o.
Arguments o_neg {S} o. Arguments o_lt {S} o. Arguments o_le {S} o. Arguments o_eq {S} o.
Arguments o_pow {S} o. Arguments o_sqrt {S} o. Arguments o_cbrt {S} o.
Arguments o_cos {S} o. Arguments o_sin {S} o. Arguments o_tan {S} o.
Arguments o_acos {S} o. Arguments o_asin {S} o. Arguments o_atan {S} o.
Arguments o_atan2 {S} o. Arguments o_hypot {S} o. Arguments o_hypot3 {S} o.
Arguments o_cosh {S} o. Arguments o_sinh {S} o. Arguments o_tanh {S} o.
Arguments o_acosh {S} o. Arguments o_asinh {S} o. Arguments o_atanh {S} o.
Arguments o_exp {S} o. Arguments o_log {S} o. Arguments o_log2 {S} o. Arguments o_log10 {S} o.
