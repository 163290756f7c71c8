(** C85: the ranges in which quotients of doubles have finite derivatives, and what happens outside. *)
From Coq Require Import ZArith List Bool Reals Lra Lia.
From Coquelicot Require Import Coquelicot.
From Flocq Require Import Core BinarySingleNaN.
From Verif Require Import Outcome Scalar Float64 Model Spec Samples Ops64 B64 Facts64 RangeSpec FactsRange FactsFma DivSpec FactsDiv.
Import ListNotations.
Open Scope R_scope.

(** Full statement: finite derivatives wherever the exact ones are in the range of doubles.  Missing: denominators below
    [2^-335] or above [2^335], where [C85_tiny_refuted], [C85_flat_refuted] and [C85_huge_refuted] show it false.  The three forms are [x / y], [x /= y]
    and [a / y] with a plain number [a]. *)
Theorem C85_in_range_partial : forall (M : libm) (c : cfg) (n : nat) (x y : dd b64) (a b : b64) g g' h h' (l m q : Z),
  powers_in_range M -> cfg_ok c -> shows c n x a g h -> shows c n y b g' h' ->
  upto m a -> finite64 b -> bpow radix2 l <= Rabs (val64 b) <= bpow radix2 335 ->
  (-335 <= l)%Z -> (-300 <= m <= 1000)%Z -> (0 <= q)%Z ->
  let w := Z.max 0 (m - l) in (w <= 1000)%Z -> (w - l + q <= 1000)%Z -> (w - 2 * l + 2 * q <= 1000)%Z ->
  data_upto (c_ord c) n q g h -> data_upto (c_ord c) n q g' h' ->
  (exists r f G H, div (b64ops M) c x y = Ok r /\ shows c n r f G H /\ finite64 f /\ data_finite (c_ord c) n G H) /\
  (exists r f G H, div_assign (b64ops M) c x (Some y) = Ok r /\ shows c n r f G H /\ finite64 f /\ data_finite (c_ord c) n G H) /\
  (exists r f G H, apply_u (b64ops M) c (Usdiv a) y = Ok r /\ shows c n r f G H /\ finite64 f /\ data_finite (c_ord c) n G H).
Proof. exact div_range. Qed.
Print Assumptions C85_in_range_partial.
(** Correctly rounded powers meet the hypothesis; 7 divided by 7 is in the range. *)
Example C85_in_range_case : powers_in_range exact_libm /\
  shows dyn2 1 (mk 1 (full [z64 7; z64 1; z64 0])) (z64 7) (fun _ => z64 1) (fun _ _ => z64 0) /\
  upto 3 (z64 7) /\ bpow radix2 2 <= Rabs (val64 (z64 7)) <= bpow radix2 335 /\ data_upto 2 1 0 (fun _ => z64 1) (fun _ _ => z64 0).
Proof.
  split; [exact exact_powers|]. split; [apply shows_three|].
  assert (V : Rabs (val64 (z64 7)) = 7) by (rewrite val_z by lia; apply Rabs_pos_eq; lra).
  split; [split; [apply finite_z; lia|rewrite V; cbn; lra]|]. split.
  - rewrite V. split; [cbn; lra|]. apply Rle_trans with (bpow radix2 3); [cbn; lra|apply bpow_le; lia].
  - split; intros; (split; [apply finite_z; lia|rewrite val_z by lia; rewrite Rabs_pos_eq by lra; cbn; lra]).
Qed.

(** Denominators of at most [2^-359]: no entry of the Hessian is finite, whatever the numerator and whatever the derivatives -
    division by a constant included.  From [2^-538] down no entry of the gradient is finite either. *)
Theorem C85_tiny_refuted : forall (M : libm) (c : cfg) (n : nat) (x y : dd b64) (a b : b64) g g' h h',
  powers_in_range M -> cfg_ok c -> shows c n x a g h -> shows c n y b g' h' ->
  finite64 b -> Rabs (val64 b) <= bpow radix2 (-359) ->
  let ruined G H := (forall i j : nat, lost64 (H i j)) /\ (Rabs (val64 b) <= bpow radix2 (-538) -> forall i : nat, lost64 (G i)) in
  (exists r f G H, div (b64ops M) c x y = Ok r /\ shows c n r f G H /\ ruined G H) /\
  (exists r f G H, div_assign (b64ops M) c x (Some y) = Ok r /\ shows c n r f G H /\ ruined G H) /\
  (exists r f G H, apply_u (b64ops M) c (Usdiv a) y = Ok r /\ shows c n r f G H /\ ruined G H).
Proof. exact div_tiny. Qed.
Print Assumptions C85_tiny_refuted.
(** The exact derivatives, by the denominator. *)
Theorem C85_exact : forall a b : R, b <> 0 ->
  is_derive (fun y => a / y) b (- a / (b * b)) /\ is_derive_n (fun y => a / y) 2 b (2 * a / (b * b * b)).
Proof. exact quotient_derivatives. Qed.
Print Assumptions C85_exact.
(** [2^-400 / y] at [y = 2^-400]: the exact second derivative is the double [2^801]. *)
Example C85_tiny_case : powers_in_range exact_libm /\ shows dyn2 1 (mk 1 (full [s400; z64 1; z64 0])) s400 (fun _ => z64 1) (fun _ _ => z64 0) /\
  finite64 s400 /\ Rabs (val64 s400) <= bpow radix2 (-359) /\ 2 * val64 s400 / (val64 s400 * val64 s400 * val64 s400) = bpow radix2 801.
Proof.
  split; [exact exact_powers|]. split; [apply shows_three|]. split; [reflexivity|]. split; [|exact tiny_exact].
  rewrite (bp_inj_abs (-400) s400 s400_val). apply bpow_le. lia.
Qed.

(** Denominators of at least [2^512]: every derivative through the denominator is zero. *)
Theorem C85_huge_refuted : forall (M : libm) (c : cfg) (n : nat) (x y : dd b64) (a b : b64) g g' h h',
  powers_in_range M -> cfg_ok c -> shows c n x a g h -> shows c n y b g' h' ->
  finite64 a -> finite64 b -> bpow radix2 512 <= Rabs (val64 b) ->
  (forall i, (i < n)%nat -> zero64 (g i) /\ finite64 (g' i)) ->
  (exists r f G H, div (b64ops M) c x y = Ok r /\ shows c n r f G H /\ forall i, (i < n)%nat -> zero64 (G i)) /\
  (exists r f G H, div_assign (b64ops M) c x (Some y) = Ok r /\ shows c n r f G H /\ forall i, (i < n)%nat -> zero64 (G i)) /\
  (exists r f G H, apply_u (b64ops M) c (Usdiv a) y = Ok r /\ shows c n r f G H /\ forall i, (i < n)%nat -> zero64 (G i)).
Proof. exact div_huge. Qed.
Print Assumptions C85_huge_refuted.
(** [2^1000 / y] at [y = 2^600]: the exact derivative is the double [-2^-200]. *)
Example C85_huge_case : shows dyn2 1 (mk 1 (full [t1000; z64 0; z64 0])) t1000 (fun _ => z64 0) (fun _ _ => z64 0) /\
  shows dyn2 1 (mk 1 (full [t600; z64 1; z64 0])) t600 (fun _ => z64 1) (fun _ _ => z64 0) /\
  finite64 t1000 /\ finite64 t600 /\ bpow radix2 512 <= Rabs (val64 t600) /\ zero64 (z64 0) /\ finite64 (z64 1) /\
  - val64 t1000 / (val64 t600 * val64 t600) = - bpow radix2 (-200).
Proof.
  split; [apply shows_three|]. split; [apply shows_three|]. split; [reflexivity|]. split; [reflexivity|].
  split; [rewrite (bp_inj_abs 600 t600 t600_val); apply bpow_le; lia|]. split; [exists false; reflexivity|]. split; [reflexivity|exact huge_exact].
Qed.

(** Denominators from [2^342] on: every second derivative through the denominator is zero. *)
Theorem C85_flat_refuted : forall (M : libm) (c : cfg) (n : nat) (x y : dd b64) (a b : b64) g g' h h',
  powers_in_range M -> cfg_ok c -> c_ord c = 2%Z -> shows c n x a g h -> shows c n y b g' h' ->
  upto 1000 a -> finite64 b -> bpow radix2 342 <= Rabs (val64 b) <= bpow radix2 510 ->
  (forall i, (i < n)%nat -> zero64 (g i) /\ finite64 (g' i)) -> (forall i j, (i < n)%nat -> (j < n)%nat -> zero64 (h i j) /\ zero64 (h' i j)) ->
  (exists r f G H, div (b64ops M) c x y = Ok r /\ shows c n r f G H /\ forall i j, (i < n)%nat -> (j < n)%nat -> zero64 (H i j)) /\
  (exists r f G H, div_assign (b64ops M) c x (Some y) = Ok r /\ shows c n r f G H /\ forall i j, (i < n)%nat -> (j < n)%nat -> zero64 (H i j)) /\
  (exists r f G H, apply_u (b64ops M) c (Usdiv a) y = Ok r /\ shows c n r f G H /\ forall i j, (i < n)%nat -> (j < n)%nat -> zero64 (H i j)).
Proof. exact div_flat. Qed.
Print Assumptions C85_flat_refuted.
(** [2^1000 / y] at [y = 2^350]: the exact second derivative is the double [2^-49]. *)
Example C85_flat_case : shows dyn2 1 (mk 1 (full [t1000; z64 0; z64 0])) t1000 (fun _ => z64 0) (fun _ _ => z64 0) /\
  shows dyn2 1 (mk 1 (full [t350; z64 1; z64 0])) t350 (fun _ => z64 1) (fun _ _ => z64 0) /\
  upto 1000 t1000 /\ finite64 t350 /\ bpow radix2 342 <= Rabs (val64 t350) <= bpow radix2 510 /\ zero64 (z64 0) /\ finite64 (z64 1) /\
  2 * val64 t1000 / (val64 t350 * val64 t350 * val64 t350) = bpow radix2 (-49).
Proof.
  split; [apply shows_three|]. split; [apply shows_three|]. split; [split; [reflexivity|rewrite (bp_inj_abs 1000 t1000 t1000_val); lra]|]. split; [reflexivity|].
  split; [rewrite (bp_inj_abs 350 t350 t350_val); split; apply bpow_le; lia|]. split; [exists false; reflexivity|]. split; [reflexivity|exact flat_exact].
Qed.
