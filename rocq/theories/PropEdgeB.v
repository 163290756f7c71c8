(** C111: [hypot] and [atan2] of sparse numbers over doubles near the ends of the range. *)
From Coq Require Import ZArith List Bool String Reals Lra Lia.
From Flocq Require Import Core BinarySingleNaN.
From Verif Require Import Outcome Scalar Float64 Model Spec RealOps Ops64 B64 Facts64 NumSpec RangeSpec FactsRange FactsFma DivSpec FactsDiv
  ModelS SpecS EdgeSSpec FactsEdgeS FactsEdgeB.
Import ListNotations.
Open Scope R_scope.

(** C111.  Full statement: finite derivatives wherever the exact ones are in the range of doubles.  [hypot] with two and three
    operands (2457-2485) has them over the whole range; no derivatives of second order, so none of the trouble of C52. *)
Theorem C111_hypot : forall (M : libm) (x y : ss b64) (q : Z),
  hypot_wide M -> keys_ok y -> finite64 (s_get_f x) -> finite64 (s_get_f y) ->
  bpow radix2 (-1020) <= largest (s_get_f x) (s_get_f y) <= bpow radix2 1020 -> (0 <= q <= 1000)%Z ->
  derivatives_upto M q x -> derivatives_upto M q y -> all_finite M (s_hypot (b64ops M) x y).
Proof. exact hypot_s. Qed.
Print Assumptions C111_hypot.
Theorem C111_hypot3 : forall (M : libm) (x y z : ss b64) (q : Z),
  hypot3_wide M -> keys_ok y -> keys_ok z -> finite64 (s_get_f x) -> finite64 (s_get_f y) -> finite64 (s_get_f z) ->
  bpow radix2 (-1020) <= Rmax (largest (s_get_f x) (s_get_f y)) (Rabs (val64 (s_get_f z))) <= bpow radix2 1020 -> (0 <= q <= 1000)%Z ->
  derivatives_upto M q x -> derivatives_upto M q y -> derivatives_upto M q z -> all_finite M (s_hypot3 (b64ops M) x y z).
Proof. exact hypot3_s. Qed.
Print Assumptions C111_hypot3.
(** [atan2] (2444-2455) divides by a sum of squares: in order between [2^-500] and [2^509].  Missing: smaller and larger operands,
    where it is false, see below. *)
Theorem C111_atan2_in_range_partial : forall (M : libm) (x y : ss b64) (l q : Z),
  keys_ok y -> finite64 (s_get_f x) -> finite64 (s_get_f y) -> finite64 (m_atan2 M (s_get_f x) (s_get_f y)) ->
  (-500 <= l)%Z -> (0 <= q)%Z -> (q - l <= 1000)%Z -> bpow radix2 l <= largest (s_get_f x) (s_get_f y) <= bpow radix2 509 ->
  derivatives_upto M q x -> derivatives_upto M q y -> all_finite M (s_atan2 (b64ops M) x y).
Proof. exact atan2_s. Qed.
Print Assumptions C111_atan2_in_range_partial.
(** Tiny operands: the squares are zero, no derivative by a name that occurs is finite. *)
Theorem C111_atan2_tiny_refuted : forall (M : libm) (x y : ss b64),
  keys_ok y -> finite64 (s_get_f x) -> finite64 (s_get_f y) -> largest (s_get_f x) (s_get_f y) <= bpow radix2 (-540) ->
  forall k, In k (SpecS.names x) \/ In k (SpecS.names y) -> lost64 (s_get_d (b64ops M) (s_atan2 (b64ops M) x y) k).
Proof. exact atan2_tiny_s. Qed.
Print Assumptions C111_atan2_tiny_refuted.
(** Huge operands: the sum of squares is infinite, all derivatives are zero. *)
Theorem C111_atan2_huge_refuted : forall (M : libm) (x y : ss b64),
  keys_ok y -> finite64 (s_get_f x) -> finite64 (s_get_f y) -> bpow radix2 512 <= largest (s_get_f x) (s_get_f y) ->
  forall k, finite64 (s_get_d (b64ops M) x k) -> finite64 (s_get_d (b64ops M) y k) ->
  zero64 (s_get_d (b64ops M) (s_atan2 (b64ops M) x y) k).
Proof. exact atan2_huge_s. Qed.
Print Assumptions C111_atan2_huge_refuted.
(** Correctly rounded functions meet the hypotheses.  At [(2^-600, 2^-600)] the exact derivatives of [atan2] are [2^599] and [-2^599],
    at [(2^600, 2^600)] they are [2^-601] and [-2^-601]; [hypot] at the same places is in its range. *)
Example C111_case : hypot_wide exact_libm /\ hypot3_wide exact_libm /\
  (let x := s_variable (b64ops exact_libm) "u" s600 in let y := s_variable (b64ops exact_libm) "v" s600 in
   keys_ok y /\ finite64 (s_get_f x) /\ largest (s_get_f x) (s_get_f y) = bpow radix2 (-600) /\ derivatives_upto exact_libm 0 x /\
   In "u"%string (SpecS.names x) /\ val64 s600 / (val64 s600 * val64 s600 + val64 s600 * val64 s600) = bpow radix2 599) /\
  (let x := s_variable (b64ops exact_libm) "u" t600 in let y := s_variable (b64ops exact_libm) "v" t600 in
   keys_ok y /\ finite64 (s_get_f x) /\ largest (s_get_f x) (s_get_f y) = bpow radix2 600 /\ derivatives_upto exact_libm 0 x /\
   val64 t600 / (val64 t600 * val64 t600 + val64 t600 * val64 t600) = bpow radix2 (-601)).
Proof. exact edge_b_case. Qed.
