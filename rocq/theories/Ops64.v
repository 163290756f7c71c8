(** The scalar type [double]: IEEE-754 binary64, round to nearest even, one NaN, no contraction of
    [a*b+c] into a fused multiply-add.  [+ - * / sqrt] are correctly rounded; the other functions of
    <cmath> are parameters about which nothing is assumed unless a theorem says so. *)
From Coq Require Import ZArith Bool Reals.
From Flocq Require Import Core BinarySingleNaN.
From Verif Require Import Outcome Scalar Float64.

Record libm := {
  m_pow : b64 -> b64 -> b64; m_cbrt : b64 -> b64;
  m_cos : b64 -> b64; m_sin : b64 -> b64; m_tan : b64 -> b64;
  m_acos : b64 -> b64; m_asin : b64 -> b64; m_atan : b64 -> b64; m_atan2 : b64 -> b64 -> b64;
  m_hypot : b64 -> b64 -> b64; m_hypot3 : b64 -> b64 -> b64 -> b64;
  m_cosh : b64 -> b64; m_sinh : b64 -> b64; m_tanh : b64 -> b64;
  m_acosh : b64 -> b64; m_asinh : b64 -> b64; m_atanh : b64 -> b64;
  m_exp : b64 -> b64; m_log : b64 -> b64; m_log2 : b64 -> b64; m_log10 : b64 -> b64
}.

Definition b64ops (M : libm) : Ops b64 := {|
  o_Z := b64_of_Z;
  o_half := binary_normalize prec64 emax64 prec64_gt_0 prec64_lt_emax mode_NE 1 (-1) false;
  o_add := b64_add; o_sub := b64_sub; o_mul := b64_mul; o_div := b64_div; o_neg := b64_neg;
  o_lt := Bltb; o_le := Bleb; o_eq := Beqb;
  o_pow := m_pow M; o_sqrt := b64_sqrt; o_cbrt := m_cbrt M;
  o_cos := m_cos M; o_sin := m_sin M; o_tan := m_tan M;
  o_acos := m_acos M; o_asin := m_asin M; o_atan := m_atan M; o_atan2 := m_atan2 M;
  o_hypot := m_hypot M; o_hypot3 := m_hypot3 M;
  o_cosh := m_cosh M; o_sinh := m_sinh M; o_tanh := m_tanh M;
  o_acosh := m_acosh M; o_asinh := m_asinh M; o_atanh := m_atanh M;
  o_exp := m_exp M; o_log := m_log M; o_log2 := m_log2 M; o_log10 := m_log10 M
|}.

(** The real value of a finite double; 0 for infinities and NaN. *)
Definition val64 (x : b64) : R := B2R x.
Definition finite64 (x : b64) : Prop := is_finite x = true.
Definition nan64 (x : b64) : Prop := is_nan x = true.
Definition inf64 (x : b64) : Prop := exists s, x = B754_infinity s.
(** Rounding of a real to the nearest double, ties to even, without overflow. *)
Definition near64 (x : R) : R := round radix2 (FLT_exp (-1074) 53) ZnearestE x.

(** The cases of [pow] with a zero base or exponent that ISO C (Annex F.10.4.4) prescribes. *)
Record pow_zero_cases (M : libm) : Prop := {
  pow_exp0 : forall x y, finite64 y -> val64 y = 0%R -> m_pow M x y = b64_of_Z 1;
  pow_neg_odd : forall s y k, finite64 y -> val64 y = IZR k -> (k < 0)%Z -> Z.odd k = true ->
    m_pow M (B754_zero s) y = B754_infinity s;
  pow_neg_even : forall s y k, finite64 y -> val64 y = IZR k -> (k < 0)%Z -> Z.odd k = false ->
    m_pow M (B754_zero s) y = B754_infinity false;
  pow_pos_odd : forall s y k, finite64 y -> val64 y = IZR k -> (0 < k)%Z -> Z.odd k = true ->
    m_pow M (B754_zero s) y = B754_zero s;
  pow_pos_even : forall s y k, finite64 y -> val64 y = IZR k -> (0 < k)%Z -> Z.odd k = false ->
    m_pow M (B754_zero s) y = B754_zero false
}.

(** [v] is the correctly rounded [r], unless it overflows. *)
Definition rounds (r : R) (v : b64) : Prop := (Rabs (near64 r) < bpow radix2 1024)%R -> finite64 v /\ val64 v = near64 r.
Definition finite_parts (f : b64) (g : nat -> b64) (h : nat -> nat -> b64) : Prop :=
  finite64 f /\ (forall i, finite64 (g i)) /\ (forall i j, finite64 (h i j)).
(** Unit roundoff. *)
Definition u64 : R := bpow radix2 (-53).

(** ISO C, Annex F.10.4.3: [hypot(x, +-0)] is [fabs(x)]. *)
Definition hypot_zero_case (M : libm) : Prop := forall x s, m_hypot M x (B754_zero s) = Babs x.
