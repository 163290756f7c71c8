(** Ranges of quotients (C85). *)
From Coq Require Import ZArith Reals.
From Flocq Require Import Core BinarySingleNaN.
From Verif Require Import Scalar Float64 Ops64 RangeSpec.
Open Scope R_scope.

(** What is asked of the C library's [pow(b, 2)] and [pow(b, 3)]: correct within a factor of 2, infinite where the exact power
    overflows, zero where it is below a quarter of the smallest subnormal double. *)
Definition power_in_range (M : libm) (k : nat) : Prop := forall b, finite64 b ->
  let v := m_pow M b (b64_of_Z (Z.of_nat k)) in let e := Rabs (val64 b) ^ k in
  (bpow radix2 (-1020) <= e <= bpow radix2 1020 -> finite64 v /\ e <= 2 * Rabs (val64 v) /\ Rabs (val64 v) <= 2 * e) /\
  (bpow radix2 1024 <= e -> inf64 v) /\ (e <= bpow radix2 (-1076) -> zero64 v).
Definition powers_in_range (M : libm) : Prop := power_in_range M 2 /\ power_in_range M 3.
(** Not finite: an infinity or NaN. *)
Definition lost64 (v : b64) : Prop := is_finite v = false.
