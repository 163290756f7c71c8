(** C113, C114: accuracy of sparse numbers over doubles; powers at zero. *)
From Coq Require Import ZArith List Bool String Reals Lra Lia.
From Coquelicot Require Import Coquelicot.
From Flocq Require Import Core BinarySingleNaN.
From Verif Require Import Outcome Scalar Float64 Model Spec RealOps Ops64 B64 Facts64 NumSpec ParamSpec RelSpec RangeSpec FactsFma FactsRel FactsRelR
  ModelS SpecS EdgeSSpec FactsAccS.
Import ListNotations.
Open Scope R_scope.

(** C113.  Full statement: the derivatives of functions of sparse numbers differ from the exact ones by a known number of roundings, and
    quotients are correctly rounded.  Missing: the arguments excluded by [calm] and [calm2], where it is false, see below.

    A function of any sparse number: for every name, its derivative times the operand's, one rounding more. *)
Theorem C113_functions_partial : forall (M : libm) (p : nat) (x : ss b64) (u : ufun b64),
  libm_good M p -> (p <= 100)%nat -> finite64 (s_get_f x) -> calm (umap val64 u) (val64 (s_get_f x)) ->
  exists l, is_derive (ureal (umap val64 u)) (val64 (s_get_f x)) l /\
    forall k, let d := s_get_d (b64ops M) x k in
      finite64 d -> d = b64_of_Z 0 \/ bpow radix2 (-1020) <= Rabs (val64 d * l) <= bpow radix2 1022 ->
      accurate_to (S (fst (roundings p u))) (s_get_d (b64ops M) (s_apply_u (b64ops M) u x) k) (val64 d * l).
Proof. exact any_function. Qed.
Print Assumptions C113_functions_partial.
(** A function of a variable, of two variables. *)
Theorem C113_variable_partial : forall (M : libm) (p : nat) (k : string) (v : b64) (u : ufun b64),
  libm_good M p -> (p <= 100)%nat -> finite64 v -> calm (umap val64 u) (val64 v) ->
  exists l, is_derive (ureal (umap val64 u)) (val64 v) l /\
    accurate_to (fst (roundings p u)) (s_get_d (b64ops M) (s_apply_u (b64ops M) u (s_variable (b64ops M) k v)) k) l.
Proof. exact variable_function. Qed.
Print Assumptions C113_variable_partial.
Theorem C113_two_variables_partial : forall (M : libm) (p : nat) (j k : string) (v w : b64) (b : bfun),
  libm_good M p -> (p <= 100)%nat -> j <> k -> calm2 b (val64 v) (val64 w) ->
  let r := s_apply_b (b64ops M) b (s_variable (b64ops M) j v) (s_variable (b64ops M) k w) in
  exists l l', is_derive (fun t => breal b t (val64 w)) (val64 v) l /\ is_derive (fun t => breal b (val64 v) t) (val64 w) l' /\
    accurate_to (fst (roundings2 p b)) (s_get_d (b64ops M) r j) l /\ accurate_to (fst (roundings2 p b)) (s_get_d (b64ops M) r k) l'.
Proof. exact variables2. Qed.
Print Assumptions C113_two_variables_partial.
(** [tanh] from 20 on (2511-2519), [acos], [asin], [atanh] near 1 (2408-2432, 2543-2552), [asinh] from [2^512] on (2532-2541). *)
Theorem C113_tanh_refuted : forall (M : libm) (k : string) (v : b64) (l : R) (n : nat),
  finite64 v -> 20 <= Rabs (val64 v) -> is_derive tanh (val64 v) l -> INR n * u64 <= / 16 ->
  ~ accurate_to n (s_get_d (b64ops M) (s_apply_u (b64ops M) Utanh (s_variable (b64ops M) k v)) k) l.
Proof. exact tanh_s. Qed.
Print Assumptions C113_tanh_refuted.
Theorem C113_near_one_refuted : forall (M : libm) (k : string) (v : b64) (l : R) (n : nat) (u : ufun b64),
  u = Uacos \/ u = Uasin \/ u = Uatanh -> val64 v = 1 - bpow radix2 (-27) -> is_derive (ureal (umap val64 u)) (val64 v) l ->
  INR n * u64 <= bpow radix2 (-30) ->
  ~ accurate_to n (s_get_d (b64ops M) (s_apply_u (b64ops M) u (s_variable (b64ops M) k v)) k) l.
Proof. exact near1_s. Qed.
Print Assumptions C113_near_one_refuted.
Theorem C113_asinh_refuted : forall (M : libm) (k : string) (v : b64) (l : R) (n : nat),
  finite64 v -> bpow radix2 512 <= Rabs (val64 v) -> is_derive arcsinh (val64 v) l ->
  let d := s_get_d (b64ops M) (s_apply_u (b64ops M) Uasinh (s_variable (b64ops M) k v)) k in zero64 d /\ ~ accurate_to n d l.
Proof. exact asinh_s. Qed.
Print Assumptions C113_asinh_refuted.
(** Values of quotients, for any scalar type: [x / y], [x / b] and [x /= b] are multiplied by a reciprocal (accuracy: C37), [x /= y] and
    [a / y] are divided. *)
Theorem C113_quotient_values : forall (S : Type) (O : Ops S) (x y : ss S) (a b : S),
  s_get_f (s_div O x y) = o_mul O (s_get_f x) (o_div O (o_Z O 1) (s_get_f y)) /\
  s_get_f (s_div_assign O x (Some y)) = o_div O (s_get_f x) (s_get_f y) /\
  s_get_f (s_div_assign O x None) = o_div O (s_get_f x) (s_get_f x) /\
  s_get_f (s_divs O x b) = o_mul O (s_get_f x) (o_div O (o_Z O 1) b) /\
  s_get_f (s_divs_assign O x b) = o_mul O (s_get_f x) (o_div O (o_Z O 1) b) /\
  s_get_f (s_sdiv O a y) = o_div O a (s_get_f y).
Proof. exact @quotient_values. Qed.
Print Assumptions C113_quotient_values.
Theorem C113_self_division_refuted : forall M : libm,
  ~ (forall x : ss b64, finite64 (s_get_f x) -> val64 (s_get_f x) <> 0 -> s_get_f (s_div (b64ops M) x x) = b64_of_Z 1).
Proof. exact self_49. Qed.
Print Assumptions C113_self_division_refuted.
Theorem C113_agrees_with_assignment_refuted : forall M : libm,
  ~ (forall x y : ss b64, s_get_f (s_div (b64ops M) x y) = s_get_f (s_div_assign (b64ops M) x (Some y))).
Proof. exact assign_49. Qed.
Print Assumptions C113_agrees_with_assignment_refuted.
(** A correctly rounded library; [sqrt] at 2 with the derivatives 3 by "u" and 0 by "v"; [atan2(1, 2)]. *)
Example C113_case : libm_good exact_libm 1 /\
  (let x := mks (z64 2) [("u", z64 3); ("v", z64 0)]%string in
   finite64 (s_get_f x) /\ calm (umap val64 (Usqrt : ufun b64)) (val64 (s_get_f x)) /\ finite64 (s_get_d (b64ops exact_libm) x "u")) /\
  calm2 Batan2 (val64 (z64 1)) (val64 (z64 2)) /\ 20 <= Rabs (val64 (z64 20)) /\ val64 almost1 = 1 - bpow radix2 (-27).
Proof.
  assert (V1 : val64 (z64 1) = 1) by (apply of_Z_exact; lia). assert (V2 : val64 (z64 2) = 2) by (apply of_Z_exact; lia).
  assert (V20 : val64 (z64 20) = 20) by (apply of_Z_exact; lia).
  assert (Mo : forall y, 1 <= y <= 2 -> moderate y).
  { intros y Y. unfold moderate. rewrite Rabs_pos_eq by lra. split; [apply Rle_trans with (bpow radix2 0); [apply bpow_le; lia|cbn; lra]|].
    apply Rle_trans with (bpow radix2 1); [cbn; lra|apply bpow_le; lia]. }
  split; [exact exact_good|]. split; [|split; [|split; [rewrite V20, Rabs_pos_eq; lra|exact val_almost1]]].
  - cbv zeta. cbn [s_get_f s_f umap calm]. rewrite V2. split; [reflexivity|]. split; [split; [lra|apply Mo; lra]|reflexivity].
  - unfold calm2. rewrite V1, V2. split; [apply Mo; lra|]. split; [apply Mo; lra|]. left. lra.
Qed.

(** C114.  Full statement: [pow(x, n)] with a natural number [n] has finite derivatives at every finite number, 0 included
    (2336-2344).  False for [n = 0] only: [0 * pow(0, -1)] is [0 * inf]. *)
Theorem C114_finite_refuted : forall M : libm, pow_zero_cases M ->
  ~ (forall (x : ss b64) (n : Z) (k : string), all_finite M x -> (0 <= n)%Z ->
       finite64 (s_get_d (b64ops M) (s_apply_u (b64ops M) (Upow (b64_of_Z n)) x) k)).
Proof. exact pow_zero_s. Qed.
Print Assumptions C114_finite_refuted.
Theorem C114_exponent_zero : forall M : libm, pow_zero_cases M -> forall (x : ss b64) (s : bool), s_get_f x = B754_zero s ->
  let r := s_apply_u (b64ops M) (Upow (b64_of_Z 0)) x in
  s_get_f r = b64_of_Z 1 /\ (forall k, In k (SpecS.names x) -> nan64 (s_get_d (b64ops M) r k)) /\
  (forall k, ~ In k (SpecS.names x) -> s_get_d (b64ops M) r k = b64_of_Z 0).
Proof. exact pow0_s. Qed.
Print Assumptions C114_exponent_zero.
(** The exponent 1 changes nothing (for dense numbers of second order it spoils the Hessian, C38); from 2 on value and derivatives
    are zero. *)
Theorem C114_exponent_one : forall M : libm, pow_zero_cases M -> forall (x : ss b64) (s : bool), s_get_f x = B754_zero s ->
  s_apply_u (b64ops M) (Upow (b64_of_Z 1)) x = x.
Proof. exact pow1_s. Qed.
Print Assumptions C114_exponent_one.
Theorem C114_larger_exponents : forall M : libm, pow_zero_cases M -> forall (x : ss b64) (s : bool) (b : b64) (n : Z),
  s_get_f x = B754_zero s -> finite64 b -> val64 b = IZR n -> (2 <= n)%Z -> let r := s_apply_u (b64ops M) (Upow b) x in
  zero64 (s_get_f r) /\ forall k, finite64 (s_get_d (b64ops M) x k) -> zero64 (s_get_d (b64ops M) r k).
Proof. exact pow_more_s. Qed.
Print Assumptions C114_larger_exponents.
(** A library with these cases; the variable "u" at 0. *)
Example C114_case : pow_zero_cases some_libm /\
  let x := s_variable (b64ops some_libm) "u" (B754_zero false) in s_get_f x = B754_zero false /\ In "u"%string (SpecS.names x) /\ finite64 (s_get_d (b64ops some_libm) x "u").
Proof. split; [exact some_libm_ok|]. cbv zeta. split; [reflexivity|]. split; [left; reflexivity|reflexivity]. Qed.
