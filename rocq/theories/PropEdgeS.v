(** C109, C110: sparse numbers over doubles outside domains and near the ends of the range. *)
From Coq Require Import ZArith List Bool String Reals Lra Lia.
From Coquelicot Require Import Coquelicot.
From Flocq Require Import Core BinarySingleNaN.
From Verif Require Import Outcome Scalar Float64 Model Spec RealOps Ops64 B64 Facts64 NumSpec RelSpec DomSpec FactsDom RangeSpec FactsRange FactsFma DivSpec FactsDiv
  ModelS SpecS EdgeSSpec FactsEdgeS.
Import ListNotations.
Open Scope R_scope.

(** C109.  Full statement: where a function has no value, its result is NaN in the value and in every derivative.  True of
    [sqrt], [acos], [asin], [acosh] and most powers (2336-2354, 2408-2432, 2521-2530) for every name the operand holds.
    Missing: names the operand does not hold (zero), logarithms and [atanh], powers with an exponent that is lost: see below. *)
Theorem C109_roots_partial : forall (M : libm) (x : ss b64) (u : ufun b64),
  domain_errors M -> finite64 (s_get_f x) -> (forall b, u = Upow b -> finite64 b) ->
  outside (umap val64 u) (val64 (s_get_f x)) -> rooted1 (umap val64 u) ->
  let r := s_apply_u (b64ops M) u x in
  nan64 (s_get_f r) /\ SpecS.names r = SpecS.names x /\ (forall k, In k (SpecS.names x) -> nan64 (s_get_d (b64ops M) r k)) /\
  (forall k, ~ In k (SpecS.names x) -> s_get_d (b64ops M) r k = b64_of_Z 0).
Proof. exact rooted_s. Qed.
Print Assumptions C109_roots_partial.
(** The square root of the constant -4: NaN, but every derivative is zero. *)
Theorem C109_names_refuted : forall M : libm,
  ~ (forall (x : ss b64) (k : string), finite64 (s_get_f x) -> outside Usqrt (val64 (s_get_f x)) ->
       nan64 (s_get_d (b64ops M) (s_apply_u (b64ops M) Usqrt x) k)).
Proof. exact hidden. Qed.
Print Assumptions C109_names_refuted.
(** Logarithms and [atanh] (2543-2606): NaN with the finite derivative of [ln |x|] (for [atanh]: of [1/2 ln |(1+x)/(1-x)|]). *)
Theorem C109_logarithms_refuted : forall (M : libm) (p : nat) (k : string) (v : b64) (u : ufun b64),
  libm_good M p -> (p <= 100)%nat -> domain_errors M -> finite64 v -> beyond (umap val64 u) (val64 v) ->
  let r := s_apply_u (b64ops M) u (s_variable (b64ops M) k v) in
  nan64 (s_get_f r) /\ exists l, is_derive (continued (umap val64 u)) (val64 v) l /\ accurate_to (fst (roundings p u)) (s_get_d (b64ops M) r k) l.
Proof. exact beyond_s. Qed.
Print Assumptions C109_logarithms_refuted.
(** [pow(-2, 2^-106)]: the exponent of the derivative is rounded to -1. *)
Theorem C109_pow_refuted : forall (M : libm) (p : nat) (k : string), libm_good M p -> (p <= 100)%nat -> domain_errors M ->
  finite64 lost_exponent /\ outside (Upow (val64 lost_exponent)) (val64 (z64 (-2))) /\
  let r := s_apply_u (b64ops M) (Upow lost_exponent) (s_variable (b64ops M) k (z64 (-2))) in
  nan64 (s_get_f r) /\ finite64 (s_get_d (b64ops M) r k).
Proof. exact lost_pow_s. Qed.
Print Assumptions C109_pow_refuted.
(** There is such a library; the square root of -4 with derivatives 0 by u and 1 by v. *)
Example C109_case : domain_errors strict_libm /\
  let r := s_apply_u (b64ops strict_libm) Usqrt (mks (z64 (-4)) [("u", z64 0); ("v", z64 1)]%string) in
  map (fun k => is_nan (s_get_d (b64ops strict_libm) r k)) ["u"; "v"; "w"]%string = [true; true; false] /\
  is_finite (s_get_d (b64ops strict_libm) (s_apply_u (b64ops strict_libm) Ulog (s_variable (b64ops strict_libm) "u" (z64 (-4)))) "u") = true.
Proof.
  split; [apply strict_good|]. split.
  - cbv zeta. cbn [map]. unfold s_get_d. cbn [s_d s_apply_u s_unary_op sk_sqrt s_unary t_map map t_find String.eqb Ascii.eqb Bool.eqb s_f].
    cbn [b64ops o_sqrt o_mul o_div o_Z]. vm_compute. reflexivity.
  - unfold s_get_d. cbn [s_d s_variable s_ctor s_apply_u s_unary_op sk_log s_unary t_map map t_find String.eqb Ascii.eqb Bool.eqb s_f].
    cbn [b64ops o_log o_mul o_div o_Z]. vm_compute. reflexivity.
Qed.

(** C110.  Quotients of sparse numbers: [x / y], [x /= y] and [a / y].  Full statement: finite derivatives wherever the exact ones are
    in the range of doubles.  Proved for denominators between [2^-510] and [2^510]; false below [2^-538] and above [2^512]. *)
Theorem C110_in_range_partial : forall (M : libm) (x y : ss b64) (l m q : Z),
  power_in_range M 2 -> keys_ok y -> upto m (s_get_f x) -> finite64 (s_get_f y) ->
  bpow radix2 l <= Rabs (val64 (s_get_f y)) <= bpow radix2 510 -> (-510 <= l)%Z -> (0 <= m <= 1000)%Z -> (0 <= q)%Z ->
  let w := Z.max 0 (m - l) in (w <= 1000)%Z -> (w - l + q <= 1000)%Z ->
  derivatives_upto M q x -> derivatives_upto M q y ->
  all_finite M (s_div (b64ops M) x y) /\ all_finite M (s_div_assign (b64ops M) x (Some y)) /\
  all_finite M (s_apply_u (b64ops M) (Usdiv (s_get_f x)) y).
Proof. exact quotient_range. Qed.
Print Assumptions C110_in_range_partial.
(** Tiny denominators: no derivative by a name of the denominator is finite. *)
Theorem C110_tiny_refuted : forall (M : libm) (x y : ss b64),
  power_in_range M 2 -> keys_ok y -> finite64 (s_get_f y) -> Rabs (val64 (s_get_f y)) <= bpow radix2 (-538) ->
  forall k, In k (SpecS.names y) ->
  lost64 (s_get_d (b64ops M) (s_div (b64ops M) x y) k) /\ lost64 (s_get_d (b64ops M) (s_div_assign (b64ops M) x (Some y)) k) /\
  lost64 (s_get_d (b64ops M) (s_apply_u (b64ops M) (Usdiv (s_get_f x)) y) k).
Proof. exact quotient_tiny. Qed.
Print Assumptions C110_tiny_refuted.
(** Huge denominators: every derivative through the denominator is zero. *)
Theorem C110_huge_refuted : forall (M : libm) (x y : ss b64),
  power_in_range M 2 -> keys_ok y -> finite64 (s_get_f x) -> finite64 (s_get_f y) ->
  bpow radix2 512 <= Rabs (val64 (s_get_f y)) -> forall k, zero64 (s_get_d (b64ops M) x k) -> finite64 (s_get_d (b64ops M) y k) ->
  zero64 (s_get_d (b64ops M) (s_div (b64ops M) x y) k) /\ zero64 (s_get_d (b64ops M) (s_div_assign (b64ops M) x (Some y)) k) /\
  zero64 (s_get_d (b64ops M) (s_apply_u (b64ops M) (Usdiv (s_get_f x)) y) k).
Proof. exact quotient_huge. Qed.
Print Assumptions C110_huge_refuted.
(** Names that the denominator does not hold are not touched by this: their derivatives are those of a quotient by a plain number;
    a denominator without names is a plain number.  (Dense numbers are ruined by constants, C85.) *)
Theorem C110_other_names : forall (M : libm) (x y : ss b64) (k : string), keys_ok y -> ~ In k (SpecS.names y) ->
  s_get_d (b64ops M) (s_div (b64ops M) x y) k = s_get_d (b64ops M) (s_divs (b64ops M) x (s_get_f y)) k.
Proof. exact quotient_foreign. Qed.
Print Assumptions C110_other_names.
Theorem C110_constant : forall (S : Type) (O : Ops S) (x : ss S) (b : S), s_div O x (s_constant b) = s_divs O x b.
Proof. exact @quotient_constant. Qed.
Print Assumptions C110_constant.
(** Correctly rounded powers meet the hypothesis.  [7 / 7] is in the range; [2^-600 / y] at [y = 2^-600] has the exact derivative
    [-2^600], [2^1000 / y] at [y = 2^600] has [-2^-200]. *)
Example C110_case : power_in_range exact_libm 2 /\
  (let x := mks (z64 7) [("u"%string, z64 1)] in
   upto 3 (s_get_f x) /\ bpow radix2 2 <= Rabs (val64 (s_get_f x)) <= bpow radix2 510 /\ derivatives_upto exact_libm 0 x) /\
  (let y := s_variable (b64ops exact_libm) "u" s600 in finite64 (s_get_f y) /\ Rabs (val64 (s_get_f y)) <= bpow radix2 (-538) /\
   In "u"%string (SpecS.names y) /\ - val64 s600 / (val64 s600 * val64 s600) = - bpow radix2 600) /\
  (let y := s_variable (b64ops exact_libm) "u" t600 in finite64 (s_get_f y) /\ bpow radix2 512 <= Rabs (val64 (s_get_f y)) /\
   - val64 t1000 / (val64 t600 * val64 t600) = - bpow radix2 (-200)).
Proof.
  split; [apply exact_powers|]. split; [|split].
  - cbv zeta. cbn [s_get_f s_f]. assert (V : Rabs (val64 (z64 7)) = 7) by (unfold z64; rewrite (proj2 (of_Z_exact 7 ltac:(lia))); apply Rabs_pos_eq; lra).
    split; [split; [reflexivity|rewrite V; cbn; lra]|]. split.
    + rewrite V. split; [cbn; lra|]. apply Rle_trans with (bpow radix2 3); [cbn; lra|apply bpow_le; lia].
    + intros k. unfold s_get_d. cbn [t_find s_d]. destruct (String.eqb "u" k); [apply one_upto|apply zero_upto].
  - cbv zeta. cbn [s_get_f s_variable s_ctor s_f]. split; [reflexivity|]. split; [rewrite (bp_inj_abs (-600) s600 s600_val); apply bpow_le; lia|].
    split; [left; reflexivity|exact s600_exact].
  - cbv zeta. cbn [s_get_f s_variable s_ctor s_f]. split; [reflexivity|]. split; [rewrite (bp_inj_abs 600 t600 t600_val); apply bpow_le; lia|exact huge_exact].
Qed.
