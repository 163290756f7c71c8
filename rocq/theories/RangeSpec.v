(** Magnitudes of doubles: vocabulary for the ranges in which [hypot] and [atan2] are safe (C52). *)
From Coq Require Import ZArith Reals.
From Flocq Require Import Core BinarySingleNaN.
From Verif Require Import Scalar Float64 Ops64.
Open Scope R_scope.

(** [v] is finite and at most [2^e] in magnitude. *)
Definition upto (e : Z) (v : b64) : Prop := finite64 v /\ Rabs (val64 v) <= bpow radix2 e.
(** The derivatives of a number of order [ord] in [n] variables are at most [2^e] in magnitude. *)
Definition data_upto (ord : Z) (n : nat) (e : Z) (g : nat -> b64) (h : nat -> nat -> b64) : Prop :=
  (forall i, (i < n)%nat -> upto e (g i)) /\
  (ord = 2%Z -> forall i j, (i < n)%nat -> (j < n)%nat -> upto e (h i j)).
(** The derivatives of a number of order [ord] in [n] variables are finite. *)
Definition data_finite (ord : Z) (n : nat) (g : nat -> b64) (h : nat -> nat -> b64) : Prop :=
  (forall i, (i < n)%nat -> finite64 (g i)) /\
  (ord = 2%Z -> forall i j, (i < n)%nat -> (j < n)%nat -> finite64 (h i j)).
Definition largest (a b : b64) : R := Rmax (Rabs (val64 a)) (Rabs (val64 b)).
(** What is asked of the C library's [hypot]: within a factor of two below and four above the larger
    operand.  (The exact value lies between the larger operand and [sqrt 2] times it.) *)
Definition hypot_close (M : libm) : Prop := forall a b, finite64 a -> finite64 b ->
  bpow radix2 (-350) <= largest a b <= bpow radix2 339 ->
  finite64 (m_hypot M a b) /\ largest a b <= 2 * val64 (m_hypot M a b) /\ val64 (m_hypot M a b) <= 4 * largest a b.
Definition hypot3_close (M : libm) : Prop := forall a b e, finite64 a -> finite64 b -> finite64 e ->
  bpow radix2 (-350) <= Rmax (largest a b) (Rabs (val64 e)) <= bpow radix2 339 ->
  finite64 (m_hypot3 M a b e) /\ Rmax (largest a b) (Rabs (val64 e)) <= 2 * val64 (m_hypot3 M a b e) /\
  val64 (m_hypot3 M a b e) <= 4 * Rmax (largest a b) (Rabs (val64 e)).
(** [+0] or [-0]. *)
Definition zero64 (v : b64) : Prop := exists s, v = B754_zero s.
