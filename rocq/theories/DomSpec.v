(** Arguments outside the domain of a function (C84). *)
From Coq Require Import ZArith Reals.
From Flocq Require Import Core BinarySingleNaN.
From Verif Require Import Outcome Scalar Float64 Model RealOps Ops64 RelSpec.
Open Scope R_scope.

(** No value: neither in the domain nor on its boundary. *)
Definition outside (u : ufun R) (x : R) : Prop :=
  match u with
  | Usqrt | Ulog | Ulog2 | Ulog10 => x < 0
  | Ulogb b => x < 0 /\ 0 < b
  | Uacos | Uasin | Uatanh => 1 < Rabs x
  | Uacosh => x < 1
  | Upow b => x < 0 /\ is_int b = false
  | _ => False
  end.
(** The C library returns NaN there (C11 annex F, "domain error"), and passes NaN on. *)
Record domain_errors (M : libm) : Prop := {
  de_pow : forall x y, finite64 x -> finite64 y -> val64 x < 0 -> is_int (val64 y) = false -> nan64 (m_pow M x y);
  de_acos : forall x, finite64 x -> 1 < Rabs (val64 x) -> nan64 (m_acos M x);
  de_asin : forall x, finite64 x -> 1 < Rabs (val64 x) -> nan64 (m_asin M x);
  de_acosh : forall x, finite64 x -> val64 x < 1 -> nan64 (m_acosh M x);
  de_atanh : forall x, finite64 x -> 1 < Rabs (val64 x) -> nan64 (m_atanh M x);
  de_log : forall x, finite64 x -> val64 x < 0 -> nan64 (m_log M x);
  de_log2 : forall x, finite64 x -> val64 x < 0 -> nan64 (m_log2 M x);
  de_log10 : forall x, finite64 x -> val64 x < 0 -> nan64 (m_log10 M x)
}.
(** Functions that extend the logarithms and [atanh] beyond their domains. *)
Definition continued (u : ufun R) (x : R) : R :=
  match u with
  | Ulog => ln (Rabs x)
  | Ulogb b => ln (Rabs x) / ln b
  | Ulog2 => ln (Rabs x) / ln 2
  | Ulog10 => ln (Rabs x) / ln 10
  | Uatanh => / 2 * ln (Rabs ((1 + x) / (1 - x)))
  | _ => 0
  end.
(** Functions whose derivatives are computed from roots (or powers) of negative numbers outside their domain.  The exponents
    [b - 1] and [b - 2] are rounded. *)
Definition rooted (u : ufun R) : Prop :=
  match u with
  | Usqrt | Uacos | Uasin | Uacosh => True
  | Upow b => is_int (near64 (b - 1)) = false /\ is_int (near64 (b - 2)) = false
  | _ => False
  end.
(** Outside the domain, far from overflow, underflow and (for [atanh]) cancellation. *)
Definition beyond (u : ufun R) (x : R) : Prop :=
  match u with
  | Ulog | Ulog2 | Ulog10 => x < 0 /\ moderate x
  | Ulogb b => x < 0 /\ moderate x /\ 0 < b /\ moderate (ln b)
  | Uatanh => moderate x /\ 2 <= x * x
  | _ => False
  end.
