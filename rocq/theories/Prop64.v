(** Binary64 scalars: C20-C22, C27 (instances), C37, C38, C51, C52. *)
From Coq Require Import ZArith List Bool Reals Lra Lia.
From Flocq Require Import Core BinarySingleNaN.
From Verif Require Import Outcome Scalar Float64 Model Spec Samples RealOps ExprSpec FactsOps Ops64 B64 Facts64.
Import ListNotations.
Open Scope R_scope.

(** C20, C21, C27: what the theorems for any scalar type assume of the scalars holds for doubles. *)
Theorem C20_C21_C27_binary64 : forall (M : libm) (c : cfg) (n : nat) (x y : dd b64) (s : b64),
  cfg_ok c -> wf c n x -> wf c n y ->
  agree c (sub_assign (b64ops M) c x (Some y)) (sub (b64ops M) c x y) /\
  agree c (mul_assign (b64ops M) c x (Some y)) (mul (b64ops M) c x y) /\
  agree c (subs_assign (b64ops M) x (SVal s)) (subs (b64ops M) x s) /\
  agree c (sub_assign (b64ops M) c x None) (sub (b64ops M) c x x) /\
  agree c (add (b64ops M) c x y) (add (b64ops M) c y x) /\ agree c (mul (b64ops M) c x y) (mul (b64ops M) c y x).
Proof. exact laws64. Qed.
Print Assumptions C20_C21_C27_binary64.
Example C20_binary64_case : cfg_ok dyn1 /\ wf dyn1 1 num49.
Proof. split; [exact cfg_dyn1|exact wf_49]. Qed.

(** C22 with NaN: [!=] is true, the other five are false, number/number, number/scalar, scalar/number. *)
Theorem C22_nan : forall (M : libm) (x y : dd b64) (a b s : b64) (o : cmp), get_f x = Ok a -> get_f y = Ok b ->
  let expected := match o with Cne => true | _ => false end in
  (nan64 a \/ nan64 b -> compare (b64ops M) o x y = Ok expected) /\
  (nan64 a \/ nan64 s -> compare_s (b64ops M) o x s = Ok expected /\ s_compare (b64ops M) o s x = Ok expected).
Proof. exact nan_compare. Qed.
Print Assumptions C22_nan.
(** and on finite doubles the scalar comparisons are those of the real values. *)
Theorem C22_finite : forall (M : libm) (a b : b64), finite64 a -> finite64 b ->
  (o_lt (b64ops M) a b = true <-> val64 a < val64 b) /\ (o_le (b64ops M) a b = true <-> val64 a <= val64 b) /\
  (o_eq (b64ops M) a b = true <-> val64 a = val64 b).
Proof. exact finite_compare. Qed.
Print Assumptions C22_finite.
Example C22_nan_case : get_f (mk 1 (full [B754_nan; z64 1])) = Ok (B754_nan : b64) /\ nan64 B754_nan /\
  get_f num49 = Ok (z64 49) /\ finite64 (z64 49).
Proof. repeat split. Qed.

(** C37.  Full statement: the value of [a / b] is the correctly rounded quotient, in particular
    [x / x] has value 1, and [a / b] agrees with [a /= b].  False: [a / b] and [a / scalar] are
    [a * (1 / b)], rounded twice.  What is computed, for any scalar type: *)
Theorem C37_values : forall (S : Type) (O : Ops S) (c : cfg) (n : nat) (x y : dd S) (a b : S),
  cfg_ok c -> wf c n x -> wf c n y -> get_f x = Ok a -> get_f y = Ok b ->
  (exists r, div O c x y = Ok r /\ get_f r = Ok (o_mul O a (o_div O (o_Z O 1) b))) /\
  (exists r, div_assign O c x (Some y) = Ok r /\ get_f r = Ok (o_div O a b)) /\
  (exists r, divs O c x b = Ok r /\ get_f r = Ok (o_mul O a (o_div O (o_Z O 1) b))) /\
  (exists r, sdiv O c a y = Ok r /\ get_f r = Ok (o_div O a b)).
Proof. exact @div_values. Qed.
Print Assumptions C37_values.
Theorem C37_self_division_refuted : forall M : libm,
  ~ (forall (c : cfg) (n : nat) (x : dd b64) (a : b64), cfg_ok c -> wf c n x -> get_f x = Ok a ->
       finite64 a -> val64 a <> 0 -> exists r, div (b64ops M) c x x = Ok r /\ get_f r = Ok (b64_of_Z 1)).
Proof. exact self_div_49. Qed.
Print Assumptions C37_self_division_refuted.
Theorem C37_agrees_with_assignment_refuted : forall M : libm,
  ~ (forall (c : cfg) (n : nat) (x y r r' : dd b64), cfg_ok c -> wf c n x -> wf c n y ->
       div (b64ops M) c x y = Ok r -> div_assign (b64ops M) c x (Some y) = Ok r' -> get_f r = get_f r').
Proof. exact div_assign_49. Qed.
Print Assumptions C37_agrees_with_assignment_refuted.
(** The value of [a /= b] and of [scalar / b] is correctly rounded. *)
Theorem C37_assignment_correctly_rounded : forall a b : b64, finite64 a -> finite64 b -> val64 b <> 0 ->
  Rabs (near64 (val64 a / val64 b)) < bpow radix2 1024 ->
  finite64 (b64_div a b) /\ val64 (b64_div a b) = near64 (val64 a / val64 b).
Proof. exact div_assign_accuracy. Qed.
Print Assumptions C37_assignment_correctly_rounded.
(** The value of [a / b]: within 2u + u^2 (u = 2^-53) of the quotient, for divisors whose reciprocal and
    quotients which stay in the normal range. *)
Theorem C37_accuracy_partial : forall a b : b64, finite64 a -> finite64 b ->
  bpow radix2 (-1021) <= Rabs (val64 b) <= bpow radix2 1022 ->
  bpow radix2 (-1021) <= Rabs (val64 a / val64 b) <= bpow radix2 1023 ->
  let q := b64_mul a (b64_div (b64_of_Z 1) b) in
  finite64 q /\ Rabs (val64 q - val64 a / val64 b) <= (2 * u64 + u64 * u64) * Rabs (val64 a / val64 b).
Proof. exact div_accuracy. Qed.
Print Assumptions C37_accuracy_partial.
(** ... exactly the correctly rounded quotient when the reciprocal is exact (powers of two) ... *)
Theorem C37_exact_reciprocal_partial : forall a b : b64, finite64 a -> finite64 b -> finite64 (b64_div (b64_of_Z 1) b) ->
  val64 (b64_div (b64_of_Z 1) b) * val64 b = 1 -> b64_mul a (b64_div (b64_of_Z 1) b) = b64_div a b.
Proof. exact div_exact_recip. Qed.
Print Assumptions C37_exact_reciprocal_partial.
(** ... and infinite for tiny divisors: [x / x = inf] while [x /= x] gives 1. *)
Theorem C37_tiny_self_division : forall b : b64, finite64 b -> val64 b <> 0 -> Rabs (val64 b) <= bpow radix2 (-1024) ->
  b64_mul b (b64_div (b64_of_Z 1) b) = B754_infinity false /\ b64_div b b = b64_of_Z 1.
Proof. exact tiny_self_div. Qed.
Print Assumptions C37_tiny_self_division.
Example C37_case : finite64 (z64 49) /\ bpow radix2 (-1021) <= Rabs (val64 (z64 49)) <= bpow radix2 1022 /\
  bpow radix2 (-1021) <= Rabs (val64 (z64 49) / val64 (z64 49)) <= bpow radix2 1023 /\
  Beqb (b64_mul (z64 49) (b64_div (z64 1) (z64 49))) (z64 1) = false.
Proof.
  assert (V : val64 (z64 49) = 49) by (apply val_z; lia). rewrite V. split; [apply finite_z; lia|].
  rewrite (Rabs_pos_eq 49) by lra. replace (49 / 49) with 1 by lra. rewrite Rabs_R1.
  assert (L : bpow radix2 (-1021) <= 1) by (apply (bpow_le radix2 (-1021) 0); lia).
  assert (U : 1024 <= bpow radix2 1022) by (apply (bpow_le radix2 10 1022); lia).
  assert (U' : 1024 <= bpow radix2 1023) by (apply (bpow_le radix2 10 1023); lia).
  split; [split; lra|]. split; [split; lra|]. exact (proj1 q49).
Qed.
Example C37_tiny_case : let b := B754_finite false 1 (-1074) (eq_refl : SpecFloat.bounded prec64 emax64 1 (-1074) = true) : b64 in
  finite64 b /\ b64_mul b (b64_div (b64_of_Z 1) b) = B754_infinity false.
Proof. split; reflexivity. Qed.
Example C37_exact_case : finite64 (b64_div (b64_of_Z 1) (z64 4)) /\ Beqb (b64_mul (b64_div (b64_of_Z 1) (z64 4)) (z64 4)) (z64 1) = true.
Proof. split; vm_compute; reflexivity. Qed.

(** C38.  Full statement: finite derivatives for every non-negative integer exponent at every value
    including 0.  False at 0 for exponent 0 (gradient) and for exponents 0 and 1 (Hessian): [0 * inf]. *)
Theorem C38_finite_at_zero_refuted : forall M : libm, pow_zero_cases M ->
  ~ (forall c n x f g h k, cfg_ok c -> shows c n x f g h ->
       finite64 f -> (forall i, finite64 (g i)) -> (forall i j, finite64 (h i j)) -> (0 <= k)%Z ->
       exists r f' g' h', apply_u (b64ops M) c (Upow (b64_of_Z k)) x = Ok r /\ shows c n r f' g' h' /\
         (forall i, (i < n)%nat -> finite64 (g' i)) /\
         (c_ord c = 2%Z -> forall i j, (i < n)%nat -> (j < n)%nat -> finite64 (h' i j))).
Proof. exact pow_zero_refuted. Qed.
Print Assumptions C38_finite_at_zero_refuted.
Theorem C38_exponent_one_refuted : forall M : libm, pow_zero_cases M ->
  ~ (forall c n x f g h, cfg_ok c -> shows c n x f g h ->
       finite64 f -> (forall i, finite64 (g i)) -> (forall i j, finite64 (h i j)) ->
       exists r f' g' h', apply_u (b64ops M) c (Upow (b64_of_Z 1)) x = Ok r /\ shows c n r f' g' h' /\
         (c_ord c = 2%Z -> forall i j, (i < n)%nat -> (j < n)%nat -> finite64 (h' i j))).
Proof. exact pow_one_refuted. Qed.
Print Assumptions C38_exponent_one_refuted.
Theorem C38_exponent_zero_at_zero : forall M : libm, pow_zero_cases M -> forall c n x s g h,
  cfg_ok c -> shows c n x (B754_zero s) g h ->
  exists r g' h', apply_u (b64ops M) c (Upow (b64_of_Z 0)) x = Ok r /\ shows c n r (b64_of_Z 1) g' h' /\
    (forall i, nan64 (g' i)) /\ (forall i j, nan64 (h' i j)).
Proof. exact pow0_at_zero. Qed.
Print Assumptions C38_exponent_zero_at_zero.
Theorem C38_exponent_one_at_zero : forall M : libm, pow_zero_cases M -> forall c n x s g h,
  cfg_ok c -> shows c n x (B754_zero s) g h ->
  exists r h', apply_u (b64ops M) c (Upow (b64_of_Z 1)) x = Ok r /\ shows c n r (B754_zero s) g h' /\
    (forall i j, nan64 (h' i j)).
Proof. exact pow1_at_zero. Qed.
Print Assumptions C38_exponent_one_at_zero.
(** True for exponents from 2 on (up to 2^53; far beyond, [(b-1)*b] overflows). *)
Theorem C38_exponent_two_at_zero_partial : forall M : libm, pow_zero_cases M -> forall c n x s g h,
  cfg_ok c -> shows c n x (B754_zero s) g h ->
  exists r f' g' h', apply_u (b64ops M) c (Upow (b64_of_Z 2)) x = Ok r /\ shows c n r f' g' h' /\
    finite64 f' /\ val64 f' = 0 /\
    (forall i, finite64 (g i) -> finite64 (g' i) /\ val64 (g' i) = 0) /\
    (forall i j, (i <= j)%nat -> finite64 (h i j) ->
       let p := b64_mul (b64_mul (b64_of_Z 2) (g i)) (g j) in finite64 p -> finite64 (h' i j) /\ val64 (h' i j) = val64 p).
Proof. exact pow2_at_zero. Qed.
Print Assumptions C38_exponent_two_at_zero_partial.
Theorem C38_larger_exponents_at_zero_partial : forall M : libm, pow_zero_cases M -> forall c n x s g h k,
  cfg_ok c -> shows c n x (B754_zero s) g h -> (3 <= k <= 2 ^ 53)%Z ->
  exists r f' g' h', apply_u (b64ops M) c (Upow (b64_of_Z k)) x = Ok r /\ shows c n r f' g' h' /\
    finite64 f' /\ val64 f' = 0 /\
    (forall i, finite64 (g i) -> finite64 (g' i) /\ val64 (g' i) = 0) /\
    (forall i j, (forall l, finite64 (g l)) -> (forall l m, finite64 (h l m)) -> finite64 (h' i j) /\ val64 (h' i j) = 0).
Proof. exact pow_at_zero. Qed.
Print Assumptions C38_larger_exponents_at_zero_partial.
(** In exact arithmetic [pow] with a natural exponent is the product, in every component. *)
Theorem C38_natural_power_is_product_partial : forall (c : cfg) (n : nat) (x : dd R) (a : R) (k : nat),
  cfg_ok c -> wf c n x -> get_f x = Ok a -> a <> 0 \/ (2 <= k)%nat -> same c n [x] (EU (Upow (INR k)) X) (epow k).
Proof. exact pow_is_product. Qed.
Print Assumptions C38_natural_power_is_product_partial.
Example C38_case : pow_zero_cases some_libm /\ shows dyn2 1 var0 (B754_zero false) (fun _ => z64 1) (fun _ _ => z64 0).
Proof. split; [exact some_libm_ok|exact shows_var0]. Qed.

(** C51: sums, differences, negation and products with a scalar are exact up to one rounding in every
    component. *)
Theorem C51_correctly_rounded : forall M c n x y f f' g g' h h' s,
  cfg_ok c -> shows c n x f g h -> shows c n y f' g' h' -> finite_parts f g h -> finite_parts f' g' h' -> finite64 s ->
  (exists r F G H, add (b64ops M) c x y = Ok r /\ shows c n r F G H /\ rounds (val64 f + val64 f') F /\
     (forall i, rounds (val64 (g i) + val64 (g' i)) (G i)) /\ (forall i j, rounds (val64 (h i j) + val64 (h' i j)) (H i j))) /\
  (exists r F G H, sub (b64ops M) c x y = Ok r /\ shows c n r F G H /\ rounds (val64 f - val64 f') F /\
     (forall i, rounds (val64 (g i) - val64 (g' i)) (G i)) /\ (forall i j, rounds (val64 (h i j) - val64 (h' i j)) (H i j))) /\
  (exists r F G H, neg (b64ops M) c x = Ok r /\ shows c n r F G H /\ val64 F = - val64 f /\
     (forall i, val64 (G i) = - val64 (g i)) /\ (forall i j, val64 (H i j) = - val64 (h i j))) /\
  (exists r F G H, muls (b64ops M) c x s = Ok r /\ shows c n r F G H /\ rounds (val64 f * val64 s) F /\
     (forall i, rounds (val64 (g i) * val64 s) (G i)) /\ (forall i j, rounds (val64 (h i j) * val64 s) (H i j))) /\
  (exists r F, adds (b64ops M) x s = Ok r /\ shows c n r F g h /\ rounds (val64 f + val64 s) F) /\
  (exists r F, subs (b64ops M) x s = Ok r /\ shows c n r F g h /\ rounds (val64 f - val64 s) F).
Proof. exact linear_rounded. Qed.
Print Assumptions C51_correctly_rounded.
(** Bit for bit, signed zeros, infinities and NaN included: -(-x) = x, x*1 = 1*x = x/1 = x, x-0 = x. *)
Theorem C51_bit_identities : forall (M : libm) (c : cfg) (n : nat) (x : dd b64), cfg_ok c -> wf c n x ->
  agree c (r <- neg (b64ops M) c x ;; neg (b64ops M) c r) (Ok x) /\
  agree c (muls (b64ops M) c x (b64_of_Z 1)) (Ok x) /\ agree c (apply_u (b64ops M) c (Usmul (b64_of_Z 1)) x) (Ok x) /\
  agree c (divs (b64ops M) c x (b64_of_Z 1)) (Ok x) /\ agree c (subs (b64ops M) x (b64_of_Z 0)) (Ok x).
Proof. exact bits_identities. Qed.
Print Assumptions C51_bit_identities.
Example C51_case : shows dyn2 1 tx t600 (fun _ => z64 1) (fun _ _ => z64 0) /\
  finite_parts t600 (fun _ => z64 1) (fun _ _ => z64 0) /\ wf dyn2 1 tx.
Proof. split; [exact shows_tx|]. split; [repeat split|exact (proj1 shows_tx)]. Qed.

(** C52.  Full statement: at finite operands off the singular points the derivatives are finite.  False
    for [hypot] (f*f*f underflows) and [atan2] (a*a+b*b underflows). *)
Theorem C52_hypot_refuted : forall M : libm, hypot_zero_case M ->
  ~ (forall c n x y f g h f' g' h', cfg_ok c -> shows c n x f g h -> shows c n y f' g' h' ->
       finite_parts f g h -> finite_parts f' g' h' -> val64 f <> 0 ->
       exists r F G H, hypot (b64ops M) c x y = Ok r /\ shows c n r F G H /\
         (c_ord c = 2%Z -> forall i j, (i < n)%nat -> (j < n)%nat -> finite64 (H i j))).
Proof. exact hypot_refuted. Qed.
Print Assumptions C52_hypot_refuted.
Theorem C52_atan2_refuted : forall M : libm,
  ~ (forall c n x y f g h f' g' h', cfg_ok c -> shows c n x f g h -> shows c n y f' g' h' ->
       finite_parts f g h -> finite_parts f' g' h' -> val64 f <> 0 -> val64 f' <> 0 ->
       exists r F G H, atan2 (b64ops M) c x y = Ok r /\ shows c n r F G H /\ (forall i, (i < n)%nat -> finite64 (G i))).
Proof. exact atan2_refuted. Qed.
Print Assumptions C52_atan2_refuted.
Theorem C52_hypot_tiny : forall M c n x y a s g g' h h', hypot_zero_case M -> cfg_ok c ->
  shows c n x a g h -> shows c n y (B754_zero s) g' h' -> finite64 a -> Rabs (val64 a) <= bpow radix2 (-360) ->
  exists r G H, hypot (b64ops M) c x y = Ok r /\ shows c n r (Babs a) G H /\ forall i j, nan64 (H i j).
Proof. exact hypot_tiny. Qed.
Print Assumptions C52_hypot_tiny.
Theorem C52_atan2_tiny : forall M c n x y a b g g' h h', cfg_ok c ->
  shows c n x a g h -> shows c n y b g' h' -> finite64 a -> finite64 b ->
  Rabs (val64 a) <= bpow radix2 (-540) -> Rabs (val64 b) <= bpow radix2 (-540) ->
  exists r G H, atan2 (b64ops M) c x y = Ok r /\ shows c n r (m_atan2 M a b) G H /\ forall i, ~ finite64 (G i).
Proof. exact atan2_tiny. Qed.
Print Assumptions C52_atan2_tiny.
Example C52_case : shows dyn2 1 tx t600 (fun _ => z64 1) (fun _ _ => z64 0) /\ Rabs (val64 t600) <= bpow radix2 (-540) /\
  exists M, hypot_zero_case M.
Proof.
  split; [exact shows_tx|]. split; [apply t600_le; lia|].
  exists (Build_libm (m_pow no_libm) (m_cbrt no_libm) (m_cos no_libm) (m_sin no_libm) (m_tan no_libm) (m_acos no_libm)
    (m_asin no_libm) (m_atan no_libm) (m_atan2 no_libm) (fun x _ => Babs x) (m_hypot3 no_libm) (m_cosh no_libm) (m_sinh no_libm)
    (m_tanh no_libm) (m_acosh no_libm) (m_asinh no_libm) (m_atanh no_libm) (m_exp no_libm) (m_log no_libm) (m_log2 no_libm) (m_log10 no_libm)).
  intros x s. reflexivity.
Qed.
