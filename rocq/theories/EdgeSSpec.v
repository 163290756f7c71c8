(** Sparse numbers over doubles outside the domains of functions and near the ends of the range (C109-C111). *)
From Coq Require Import ZArith Reals String.
From Flocq Require Import Core BinarySingleNaN.
From Verif Require Import Scalar Float64 Ops64 Model RealOps RangeSpec DivSpec ModelS.
Open Scope R_scope.

(** Functions whose derivative is computed from roots (or powers) of negative numbers outside their domain.  The exponent
    [b - 1] is rounded. *)
Definition rooted1 (u : ufun R) : Prop :=
  match u with
  | Usqrt | Uacos | Uasin | Uacosh => True
  | Upow b => is_int (near64 (b - 1)) = false
  | _ => False
  end.
(** All derivatives are finite and at most [2^q] in magnitude. *)
Definition derivatives_upto (M : libm) (q : Z) (x : ss b64) : Prop := forall k : string, upto q (s_get_d (b64ops M) x k).
Definition all_finite (M : libm) (x : ss b64) : Prop := finite64 (s_get_f x) /\ forall k : string, finite64 (s_get_d (b64ops M) x k).
(** What is asked of the C library's [hypot] (C111): as [hypot_close], over nearly the whole range. *)
Definition hypot_wide (M : libm) : Prop := forall a b, finite64 a -> finite64 b ->
  bpow radix2 (-1020) <= largest a b <= bpow radix2 1020 ->
  finite64 (m_hypot M a b) /\ largest a b <= 2 * val64 (m_hypot M a b).
Definition hypot3_wide (M : libm) : Prop := forall a b e, finite64 a -> finite64 b -> finite64 e ->
  bpow radix2 (-1020) <= Rmax (largest a b) (Rabs (val64 e)) <= bpow radix2 1020 ->
  finite64 (m_hypot3 M a b e) /\ Rmax (largest a b) (Rabs (val64 e)) <= 2 * val64 (m_hypot3 M a b e).
