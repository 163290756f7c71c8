(** IEEE-754 binary64 (Flocq, single NaN), round to nearest even. *)
From Coq Require Import ZArith Bool.
From Flocq Require Import Core BinarySingleNaN.
From Verif Require Import Outcome.
Open Scope Z_scope.

Definition prec64 : Z := 53.
Definition emax64 : Z := 1024.
#[global] Instance prec64_gt_0 : Prec_gt_0 prec64. Proof. reflexivity. Qed.
#[global] Instance prec64_lt_emax : Prec_lt_emax prec64 emax64. Proof. reflexivity. Qed.

Definition b64 := binary_float prec64 emax64.
Definition b64_of_Z (z : Z) : b64 :=
  binary_normalize prec64 emax64 prec64_gt_0 prec64_lt_emax mode_NE z 0 false.
Definition b64_add : b64 -> b64 -> b64 := Bplus mode_NE.
Definition b64_sub : b64 -> b64 -> b64 := Bminus mode_NE.
Definition b64_mul : b64 -> b64 -> b64 := Bmult mode_NE.
Definition b64_div : b64 -> b64 -> b64 := Bdiv mode_NE.
Definition b64_sqrt : b64 -> b64 := Bsqrt mode_NE.
Definition b64_neg : b64 -> b64 := Bopp.

(** [static_cast<index>(x)] of a double: truncation; UB for NaN, infinities and values that do
    not fit. *)
Definition b64_to_index (x : b64) : res Z :=
  if is_finite x then ck (Btrunc x) else UB.

(** hyperjet.h:68, the subexpression
    [static_cast<index>(std::sqrt(1 + 8 * n) - 3)]: [1 + 8*n] is computed in [ptrdiff_t],
    converted to double for [std::sqrt], and [- 3] is a double subtraction. *)
Definition sqrt_minus_3 (n : Z) : res Z :=
  e <- ck (8 * n) ;;
  m <- ck (1 + e) ;;
  b64_to_index (b64_sub (b64_sqrt (b64_of_Z m)) (b64_of_Z 3)).
