(** C52: the ranges in which [hypot] and [atan2] of doubles have finite derivatives, and what happens above. *)
From Coq Require Import ZArith List Bool Reals Lra Lia.
From Coquelicot Require Import Coquelicot.
From Flocq Require Import Core BinarySingleNaN.
From Verif Require Import Outcome Scalar Float64 Model Spec Samples Ops64 Facts64 RangeSpec FactsRange.
Import ListNotations.
Open Scope R_scope.

(** Full statement: finite at all finite operands off the singular point.  Missing: larger values below
    [2^l] or above [2^338], where [C52_hypot_tiny], [C52_hypot_large] and [C52_hypot_huge] show it false. *)
Theorem C52_hypot_in_range_partial : forall (M : libm) (c : cfg) (n : nat) (x y : dd b64) (a b : b64) g g' h h' (l q : Z),
  hypot_close M -> cfg_ok c -> shows c n x a g h -> shows c n y b g' h' -> finite64 a -> finite64 b ->
  (-350 <= l)%Z -> (0 <= q)%Z -> (2 * q - l <= 1010)%Z ->
  bpow radix2 l <= largest a b <= bpow radix2 338 ->
  data_upto (c_ord c) n q g h -> data_upto (c_ord c) n q g' h' ->
  exists r G H, hypot (b64ops M) c x y = Ok r /\ shows c n r (m_hypot M a b) G H /\ data_finite (c_ord c) n G H.
Proof. exact hypot_range. Qed.
Print Assumptions C52_hypot_in_range_partial.
Theorem C52_hypot3_in_range_partial : forall (M : libm) (c : cfg) (n : nat) (x y z : dd b64) (a b e : b64) g g' g'' h h' h'' (l q : Z),
  hypot3_close M -> cfg_ok c -> shows c n x a g h -> shows c n y b g' h' -> shows c n z e g'' h'' ->
  finite64 a -> finite64 b -> finite64 e ->
  (-350 <= l)%Z -> (0 <= q)%Z -> (2 * q - l <= 1010)%Z ->
  bpow radix2 l <= Rmax (largest a b) (Rabs (val64 e)) <= bpow radix2 338 ->
  data_upto (c_ord c) n q g h -> data_upto (c_ord c) n q g' h' -> data_upto (c_ord c) n q g'' h'' ->
  exists r G H, hypot3 (b64ops M) c x y z = Ok r /\ shows c n r (m_hypot3 M a b e) G H /\ data_finite (c_ord c) n G H.
Proof. exact hypot3_range. Qed.
Print Assumptions C52_hypot3_in_range_partial.
(** [atan2] needs nothing of the C library: its value does not enter the derivatives. *)
Theorem C52_atan2_in_range_partial : forall (M : libm) (c : cfg) (n : nat) (x y : dd b64) (a b : b64) g g' h h' (l q : Z),
  cfg_ok c -> shows c n x a g h -> shows c n y b g' h' -> finite64 a -> finite64 b ->
  (-500 <= l)%Z -> (0 <= q)%Z -> (q - l <= 500)%Z ->
  bpow radix2 l <= largest a b <= bpow radix2 300 ->
  data_upto (c_ord c) n q g h -> data_upto (c_ord c) n q g' h' ->
  exists r G H, atan2 (b64ops M) c x y = Ok r /\ shows c n r (m_atan2 M a b) G H /\ data_finite (c_ord c) n G H.
Proof. exact atan2_range. Qed.
Print Assumptions C52_atan2_in_range_partial.
(** A [hypot] with correctly rounded operations meets the hypotheses; the number 7 with derivative 1 is in the ranges. *)
Example C52_in_range_case : hypot_close root_libm /\ hypot3_close root_libm /\
  shows dyn2 1 (mk 1 (full [z64 7; z64 1; z64 0])) (z64 7) (fun _ => z64 1) (fun _ _ => z64 0) /\
  bpow radix2 2 <= largest (z64 7) (z64 7) <= bpow radix2 338 /\ data_upto 2 1 0 (fun _ => z64 1) (fun _ _ => z64 0).
Proof.
  split; [exact (proj1 root_libm_close)|]. split; [exact (proj2 root_libm_close)|]. split; [|split].
  - split; [apply wf_list; [reflexivity|reflexivity|vm_compute; discriminate]|]. split; [reflexivity|].
    split; [intros [|i] Hi; [reflexivity|lia]|]. intros _ [|i] [|j] Hi Hj; try lia. reflexivity.
  - unfold largest. rewrite val_z by lia. rewrite Rmax_left, Rabs_pos_eq by lra. split; [cbn; lra|].
    apply Rle_trans with (bpow radix2 3); [cbn; lra|apply bpow_le; lia].
  - split; intros; (split; [apply finite_z; lia|rewrite val_z by lia; rewrite Rabs_pos_eq by lra; cbn; lra]).
Qed.

(** Above: with [2^342 <= |a| <= 2^511] the curvature of [hypot(a, y)] at [y = 0] is lost silently. *)
Theorem C52_hypot_large : forall (M : libm) (c : cfg) (n : nat) (x y : dd b64) (a : b64) (s : bool) g g' h h',
  hypot_zero_case M -> cfg_ok c -> shows c n x a g h -> shows c n y (B754_zero s) g' h' ->
  finite64 a -> bpow radix2 342 <= Rabs (val64 a) <= bpow radix2 511 ->
  (forall i, (i < n)%nat -> finite64 (g i) /\ finite64 (g' i)) ->
  (c_ord c = 2%Z -> forall i j, (i < n)%nat -> (j < n)%nat -> zero64 (h i j) /\ zero64 (h' i j)) ->
  exists r G H, hypot (b64ops M) c x y = Ok r /\ shows c n r (Babs a) G H /\
    (c_ord c = 2%Z -> forall i j, (i < n)%nat -> (j < n)%nat -> zero64 (H i j)).
Proof. exact hypot_large. Qed.
Print Assumptions C52_hypot_large.
(** The exact value is [1/|a|], a normal double in that range. *)
Theorem C52_hypot_curvature : forall a : R, a <> 0 -> is_derive_n (fun y => sqrt (a * a + y * y)) 2 0 (/ Rabs a).
Proof. exact hypot_curvature. Qed.
Print Assumptions C52_hypot_curvature.
(** From [2^512] on the Hessian is NaN. *)
Theorem C52_hypot_huge : forall (M : libm) (c : cfg) (n : nat) (x y : dd b64) (a : b64) (s : bool) g g' h h',
  hypot_zero_case M -> cfg_ok c -> shows c n x a g h -> shows c n y (B754_zero s) g' h' ->
  finite64 a -> bpow radix2 512 <= Rabs (val64 a) ->
  exists r G H, hypot (b64ops M) c x y = Ok r /\ shows c n r (Babs a) G H /\ forall i j, nan64 (H i j).
Proof. exact hypot_huge. Qed.
Print Assumptions C52_hypot_huge.
Example C52_large_case : shows dyn2 1 c400 t400 (fun _ => z64 0) (fun _ _ => z64 0) /\ shows dyn2 1 var0 (B754_zero false) (fun _ => z64 1) (fun _ _ => z64 0) /\
  bpow radix2 342 <= Rabs (val64 t400) <= bpow radix2 511 /\ zero64 (z64 0).
Proof.
  split; [exact shows_c400|]. split; [exact shows_var0|]. split; [|exists false; reflexivity].
  rewrite (bp_inj_abs 400 t400 (proj2 t400_ok)). split; apply bpow_le; lia.
Qed.
