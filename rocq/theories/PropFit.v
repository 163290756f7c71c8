(** C63, C64: eval as a polynomial approximation, exact real arithmetic. *)
From Coq Require Import ZArith List Bool Reals Lra Lia.
From Verif Require Import Outcome Scalar Model Spec RealOps ExprSpec FitSpec FactsFit Samples.
Import ListNotations.
Open Scope R_scope.

(** C63.  If the expression denotes a polynomial of degree at most the order near [p], however it is
    written, [eval] reproduces the polynomial for every displacement. *)
Theorem C63_eval_exact_for_polynomials : forall (c : cfg) (n : nat) (e : expr R) (p : nat -> R) (a : R) (b : nat -> R) (m : nat -> nat -> R),
  cfg_ok c -> size_ok c n -> vars_below n e -> dom e p ->
  (c_ord c = 1%Z -> forall i j, m i j = 0) -> near n p (fun q => rev e q = poly n a b m q) ->
  exists xs r, variables Rops c (coords n p) = Ok xs /\ run Rops c n xs e = Ok r /\
    forall d, eval Rops c r (coords n d) = Ok (poly n a b m (shift p d)).
Proof. exact eval_exact. Qed.
Print Assumptions C63_eval_exact_for_polynomials.
(** [x*x*x/x + 3*y - 1] at (2, 5) is the polynomial [x^2 + 3 y - 1]. *)
Example C63_case :
  let e := (X * X * X / X + (EConst 3) * Y - EConst 1)%E in
  let p i := match i with O => 2 | _ => 5 end in
  let b i := match i with 1%nat => 3 | _ => 0 end in
  let m i j := match i, j with O, O => 1 | _, _ => 0 end in
  size_ok dyn2 2 /\ vars_below 2 e /\ dom e p /\ near 2 p (fun q => rev e q = poly 2 (-1) b m q) /\
  poly 2 (-1) b m (shift p (fun i => match i with O => 1 | _ => 10 end)) = 53.
Proof.
  cbv zeta. split; [split; [discriminate|vm_compute; discriminate]|]. split; [cbn; repeat split; lia|].
  split; [cbn; repeat split; lra|]. split; [|unfold poly, shift; cbn; lra].
  exists 1. split; [lra|]. intros q Hq. specialize (Hq 0%nat ltac:(lia)). cbn in Hq.
  assert (H : 0 < q 0%nat) by (apply Rabs_def2 in Hq; lra).
  unfold poly. cbn. field. lra.
Qed.

(** C64.  [eval] approximates the function to the order of the type in every direction at once. *)
Theorem C64_eval_approximates_uniformly : forall (c : cfg) (n : nat) (e : expr R) (p : nat -> R) (eps : R),
  cfg_ok c -> size_ok c n -> vars_below n e -> dom e p -> 0 < eps ->
  exists xs r, variables Rops c (coords n p) = Ok xs /\ run Rops c n xs e = Ok r /\
    exists delta, 0 < delta /\ forall d, norm1 n d < delta ->
      exists y, eval Rops c r (coords n d) = Ok y /\
        Rabs (rev e (shift p d) - y) <= eps * norm1 n d ^ (Z.to_nat (c_ord c)).
Proof. exact eval_uniform. Qed.
Print Assumptions C64_eval_approximates_uniformly.
(** atan2(x0, x1) / hypot(x0, x1, x0*x1) at (3, -4). *)
Example C64_case :
  let e := (EB Batan2 X Y / EH X Y (X * Y))%E in
  let p i := match i with O => 3 | _ => -4 end in
  size_ok dyn2 2 /\ size_ok (sta1 2) 2 /\ vars_below 2 e /\ dom e p /\ norm1 2 p = 7.
Proof.
  cbv zeta. split; [split; [discriminate|vm_compute; discriminate]|]. split; [split; [reflexivity|vm_compute; discriminate]|].
  split; [cbn; repeat split; lia|].
  assert (H : 0 < sqrt (3 * 3 + -4 * -4 + 3 * -4 * (3 * -4))) by (apply sqrt_lt_R0; lra).
  split; [cbn; unfold hdom, hreal; repeat split; lra|].
  unfold norm1. cbn. rewrite (Rabs_pos_eq 3), (Rabs_left (-4)) by lra. lra.
Qed.
