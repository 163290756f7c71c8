(** C84: arguments outside the domain of a function. *)
From Coq Require Import ZArith List Bool Reals Lra Lia.
From Coquelicot Require Import Coquelicot.
From Flocq Require Import Core BinarySingleNaN.
From Verif Require Import Outcome Scalar Float64 Ops64 B64 Model Spec RealOps ExprSpec NumSpec RelSpec DomSpec Samples Facts64 FactsDom.
Import ListNotations.
Open Scope R_scope.

(** Full statement: where a function has no value, its result is NaN in the value and in every derivative (so that the mistake
    shows whatever part of the result is used).  False for the logarithms, for [atanh] and for some powers: see below.

    True of [sqrt], [acos], [asin] and [acosh] (1268-1282, 1361-1395, 1530-1544) for every operand, also one with zero derivatives,
    and of [pow] (1253-1266) with an exponent that is not an integer, if it is not one after subtraction of 1 and of 2 either.
    The C library reports domain errors by NaN (ISO C, annex F). *)
Theorem C84_roots_partial : forall (M : libm) (c : cfg) (n : nat) (x : dd b64) f g h (u : ufun b64),
  cfg_ok c -> domain_errors M -> shows c n x f g h -> finite64 f -> (forall b, u = Upow b -> finite64 b) ->
  outside (umap val64 u) (val64 f) -> rooted (umap val64 u) ->
  exists r f' g' h', apply_u (b64ops M) c u x = Ok r /\ shows c n r f' g' h' /\
    nan64 f' /\ (forall i, nan64 (g' i)) /\ (forall i j, nan64 (h' i j)).
Proof. exact rooted_nan. Qed.
Print Assumptions C84_roots_partial.
(** The logarithms and [atanh] (1562-1655): the value is NaN, the derivatives are finite.  They are those of [ln |x|] (for
    [atanh]: of [1/2 ln |(1+x)/(1-x)|]), as accurate as inside the domain. *)
Theorem C84_logarithms_refuted : forall (M : libm) (p : nat) (c : cfg) (v : b64) (u : ufun b64),
  libm_good M p -> (p <= 100)%nat -> domain_errors M -> cfg_ok c -> c_ord c = 2%Z -> size_ok c 1 -> finite64 v ->
  beyond (umap val64 u) (val64 v) ->
  exists r f g h l l', evaluate (b64ops M) c [v] (EU u (EVar 0)) = Ok r /\ shows c 1 r f g h /\ nan64 f /\
    is_derive (continued (umap val64 u)) (val64 v) l /\ second_derivative (continued (umap val64 u)) (val64 v) l' /\
    accurate_to (fst (roundings p u)) (g 0%nat) l /\ accurate_to (snd (roundings p u)) (h 0%nat 0%nat) l'.
Proof. exact beyond_accuracy. Qed.
Print Assumptions C84_logarithms_refuted.
(** [pow(-2, 2^-106)]: the exponent of the first derivative is rounded to -1. *)
Theorem C84_pow_refuted : forall (M : libm) (p : nat) (c : cfg),
  libm_good M p -> (p <= 100)%nat -> domain_errors M -> cfg_ok c -> c_ord c = 2%Z -> size_ok c 1 ->
  finite64 lost_exponent /\ val64 lost_exponent = bpow radix2 (-106) /\ outside (Upow (val64 lost_exponent)) (val64 (z64 (-2))) /\
  exists r f g h, evaluate (b64ops M) c [z64 (-2)] (EU (Upow lost_exponent) (EVar 0)) = Ok r /\ shows c 1 r f g h /\ nan64 f /\
    finite64 (g 0%nat) /\ finite64 (h 0%nat 0%nat).
Proof. exact lost_pow. Qed.
Print Assumptions C84_pow_refuted.

(** There is such a library. *)
Example C84_libm : libm_good strict_libm 1 /\ domain_errors strict_libm. Proof. exact strict_good. Qed.
(** The square root of -4 with a zero gradient: everything is NaN. *)
Example C84_case : exists r, apply_u (b64ops strict_libm) dyn1 Usqrt (mk 2 (full [z64 (-4); z64 0; z64 0])) = Ok r /\
  map (option_map is_nan) (m_data r) = [Some true; Some true; Some true].
Proof. eexists. split; [reflexivity|]. vm_compute. reflexivity. Qed.
(** The logarithm of -4: NaN with derivatives -1/4 and -1/16. *)
Example C84_log_case : exists r f g h l l', evaluate (b64ops strict_libm) dyn2 [z64 (-4)] (EU Ulog (EVar 0)) = Ok r /\ shows dyn2 1 r f g h /\ nan64 f /\
  is_derive (fun x => ln (Rabs x)) (-4) l /\ second_derivative (fun x => ln (Rabs x)) (-4) l' /\ accurate_to 1 (g 0%nat) l /\ accurate_to 3 (h 0%nat 0%nat) l'.
Proof.
  assert (V : val64 (z64 (-4)) = -4) by (apply of_Z_exact; lia). destruct strict_good as (LG & DE).
  destruct (beyond_accuracy strict_libm 1 dyn2 (z64 (-4)) Ulog LG ltac:(lia) DE cfg_dyn2 eq_refl) as (r & f & g & h & l & l' & H).
  - split; [discriminate|vm_compute; discriminate].
  - reflexivity.
  - cbn [umap beyond]. rewrite V. split; [lra|]. unfold moderate. rewrite Rabs_left by lra.
    split; [apply Rle_trans with (bpow radix2 0); [apply bpow_le; lia|cbn; lra]|].
    apply Rle_trans with (bpow radix2 2); [cbn; lra|apply bpow_le; lia].
  - exists r, f, g, h, l, l'. cbn [umap] in H. rewrite V in H. exact H.
Qed.
