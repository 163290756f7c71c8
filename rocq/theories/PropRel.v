(** C83: relative accuracy of derivatives. *)
From Coq Require Import ZArith List Bool Reals Lra Lia.
From Coquelicot Require Import Coquelicot.
From Flocq Require Import Core BinarySingleNaN.
From Verif Require Import Outcome Scalar Float64 Ops64 B64 Model Spec RealOps ExprSpec NumSpec ParamSpec FmaSpec RangeSpec RelSpec Samples Facts64 FactsFma FactsRel FactsRelU FactsRelB FactsRelR.
Import ListNotations.
Open Scope R_scope.

(** Full statement: the computed derivatives differ from the exact ones by a known number of roundings (of 2^-53 each),
    whatever the argument.  False: see the theorems below whose names end in [_refuted].

    For every expression.  Evaluate it once more with [Nops p], where a scalar is its exact value with a count of roundings;
    each part of the result that this gives a count for has at most that many.  Nothing is said where [Nops p] gives up.
    [p] roundings in each result of the C library. *)
Theorem C83_expressions : forall (M : libm) (p : nat) (c : cfg) (vs : list b64) (e : expr b64), let n := length vs in
  cfg_ok c -> size_ok c n -> vars_below n e -> no_abs e -> dom (emap val64 e) (at64 vs) -> libm_good M p ->
  exists r f g h rN fN gN hN G H,
    evaluate (b64ops M) c vs e = Ok r /\ shows c n r f g h /\
    evaluate (Nops p) c (map exactly64 vs) (emap exactly64 e) = Ok rN /\ shows c n rN fN gN hN /\
    let F := rev (emap val64 e) in let q := at64 vs in
    confirmed (F q) f fN /\
    (forall i, (i < n)%nat -> partial F i q (G i) /\ confirmed (G i) (g i) (gN i)) /\
    (c_ord c = 2%Z -> forall i j, (i < n)%nat -> (j < n)%nat -> partial2 F i j q (H i j) /\ confirmed (H i j) (h i j) (hN i j)).
Proof. exact relative_accuracy. Qed.
Print Assumptions C83_expressions.
(** What a number of roundings means. *)
Theorem C83_meaning : forall (k : nat) (v : b64) (y : R), INR k * u64 <= / 16 -> accurate_to k v y ->
  Rabs (val64 v - y) <= INR k * u64 / (1 - INR k * u64) * Rabs y.
Proof. exact relative_error. Qed.
Print Assumptions C83_meaning.
(** The number of roundings in the derivatives of each function, where nothing cancels, overflows or underflows ([calm]).
    Missing: the arguments excluded by [calm]. *)
Theorem C83_functions_partial : forall (M : libm) (p : nat) (c : cfg) (v : b64) (u : ufun b64),
  libm_good M p -> (p <= 100)%nat -> cfg_ok c -> c_ord c = 2%Z -> size_ok c 1 -> finite64 v -> calm (umap val64 u) (val64 v) ->
  exists r f g h l l', evaluate (b64ops M) c [v] (EU u (EVar 0)) = Ok r /\ shows c 1 r f g h /\
    is_derive (ureal (umap val64 u)) (val64 v) l /\ second_derivative (ureal (umap val64 u)) (val64 v) l' /\
    accurate_to (fst (roundings p u)) (g 0%nat) l /\ accurate_to (snd (roundings p u)) (h 0%nat 0%nat) l'.
Proof. exact function_accuracy. Qed.
Print Assumptions C83_functions_partial.
Theorem C83_two_operands_partial : forall (M : libm) (p : nat) (c : cfg) (v w : b64) (b : bfun),
  libm_good M p -> (p <= 100)%nat -> cfg_ok c -> c_ord c = 2%Z -> size_ok c 2 -> calm2 b (val64 v) (val64 w) ->
  exists r f g h G H, evaluate (b64ops M) c [v; w] (EB b (EVar 0) (EVar 1)) = Ok r /\ shows c 2 r f g h /\
    let F := fun q => breal b (q 0%nat) (q 1%nat) in
    (forall i, (i < 2)%nat -> partial F i (at64 [v; w]) (G i) /\ accurate_to (fst (roundings2 p b)) (g i) (G i)) /\
    (forall i j, (i < 2)%nat -> (j < 2)%nat -> partial2 F i j (at64 [v; w]) (H i j) /\ accurate_to (snd (roundings2 p b)) (h i j) (H i j)).
Proof. exact function2_accuracy. Qed.
Print Assumptions C83_two_operands_partial.
(** [tanh]: [1 - f*f] (1515-1528) has no correct digit from 20 on, however good the C library. *)
Theorem C83_tanh_refuted : forall (M : libm) (c : cfg) (v : b64) (r : dd b64) f g h (l : R) (k : nat),
  cfg_ok c -> size_ok c 1 -> finite64 v -> 20 <= Rabs (val64 v) ->
  evaluate (b64ops M) c [v] (EU Utanh (EVar 0)) = Ok r -> shows c 1 r f g h -> is_derive tanh (val64 v) l ->
  INR k * u64 <= / 16 -> ~ accurate_to k (g 0%nat) l.
Proof. exact tanh_inaccurate. Qed.
Print Assumptions C83_tanh_refuted.
(** [acos], [asin], [atanh]: [1 - x*x] (1361-1395, 1562-1576) loses half of the digits near 1: at [1 - 2^-27] the error is
    more than eight million roundings. *)
Theorem C83_near_one_refuted : forall (M : libm) (c : cfg) (v : b64) (r : dd b64) f g h (l : R) (k : nat) (u : ufun b64),
  u = Uacos \/ u = Uasin \/ u = Uatanh -> cfg_ok c -> size_ok c 1 -> val64 v = 1 - bpow radix2 (-27) ->
  evaluate (b64ops M) c [v] (EU u (EVar 0)) = Ok r -> shows c 1 r f g h -> is_derive (ureal (umap val64 u)) (val64 v) l ->
  INR k * u64 <= bpow radix2 (-30) -> ~ accurate_to k (g 0%nat) l.
Proof. exact near1_inaccurate. Qed.
Print Assumptions C83_near_one_refuted.
(** [asinh]: [1 + x*x] (1546-1560) overflows from 2^512 on, and the derivative becomes 0. *)
Theorem C83_asinh_refuted : forall (M : libm) (c : cfg) (v : b64) (r : dd b64) f g h (l : R) (k : nat),
  cfg_ok c -> size_ok c 1 -> finite64 v -> bpow radix2 512 <= Rabs (val64 v) ->
  evaluate (b64ops M) c [v] (EU Uasinh (EVar 0)) = Ok r -> shows c 1 r f g h -> is_derive arcsinh (val64 v) l ->
  zero64 (g 0%nat) /\ ~ accurate_to k (g 0%nat) l.
Proof. exact asinh_inaccurate. Qed.
Print Assumptions C83_asinh_refuted.
(** [atan2]: [db*db - da*da] (1412-1430) cancels for nearly equal arguments: 0 instead of a negative number. *)
Theorem C83_atan2_refuted : forall (M : libm) (c : cfg) (v w : b64) (r : dd b64) f g h,
  cfg_ok c -> c_ord c = 2%Z -> size_ok c 2 -> val64 v = 7 / 4 -> val64 w = 7 / 4 + bpow radix2 (-52) ->
  evaluate (b64ops M) c [v; w] (EB Batan2 (EVar 0) (EVar 1)) = Ok r -> shows c 2 r f g h ->
  val64 (h 0%nat 1%nat) = 0 /\
  exists l, partial2 (fun q => Ratan2 (q 0%nat) (q 1%nat)) 0 1 (at64 [v; w]) l /\ l <> 0 /\ forall k, ~ accurate_to k (h 0%nat 1%nat) l.
Proof. exact atan2_inaccurate. Qed.
Print Assumptions C83_atan2_refuted.

(** A correctly rounded library exists; with it the derivatives of [sqrt] at 2 have 2 and 3 roundings. *)
Example C83_libm : libm_good exact_libm 1. Proof. exact exact_good. Qed.
Example C83_case : exists r f g h l l', evaluate (b64ops exact_libm) dyn2 [z64 2] (EU Usqrt (EVar 0)) = Ok r /\ shows dyn2 1 r f g h /\
  is_derive sqrt 2 l /\ second_derivative sqrt 2 l' /\ accurate_to 2 (g 0%nat) l /\ accurate_to 3 (h 0%nat 0%nat) l'.
Proof.
  assert (V : val64 (z64 2) = 2) by (apply of_Z_exact; lia).
  destruct (function_accuracy exact_libm 1 dyn2 (z64 2) Usqrt exact_good ltac:(lia) cfg_dyn2 eq_refl) as (r & f & g & h & l & l' & H).
  - split; [discriminate|vm_compute; discriminate].
  - reflexivity.
  - cbn [umap calm]. rewrite V. split; [lra|]. unfold moderate. rewrite Rabs_pos_eq by lra.
    split; [apply Rle_trans with (bpow radix2 0); [apply bpow_le; lia|cbn; lra]|].
    apply Rle_trans with (bpow radix2 1); [cbn; lra|apply bpow_le; lia].
  - exists r, f, g, h, l, l'. cbn [umap] in H. rewrite V in H. exact H.
Qed.
(** The doubles of the counterexamples exist. *)
Example C83_points : 20 <= Rabs (val64 (z64 20)) /\ val64 almost1 = 1 - bpow radix2 (-27) /\ val64 b7 = 7 / 4 /\ val64 b7' = 7 / 4 + bpow radix2 (-52).
Proof.
  split; [|split; [exact val_almost1|split; [exact val_b7|exact val_b7']]].
  assert (V : val64 (z64 20) = 20) by (apply of_Z_exact; lia). rewrite V, Rabs_pos_eq by lra. lra.
Qed.
