(** C105: sweeps of [X = es(X, P)] with sparse numbers deliver the derivatives of the solution and forget all other names. *)
From Coq Require Import ZArith List Bool String Reals Lra Lia.
From Coquelicot Require Import Coquelicot.
From Verif Require Import Outcome Scalar Model Spec RealOps ExprSpec NumSpec ParamSpec NestSpec SysSpec ModelS SpecS SysSSpec FactsSysS.
Import ListNotations.
Open Scope R_scope.

(** C105.  As C102: [xi] solves the [m] equations [x = es(x, p)] near [p], [Q] is the matrix of the derivatives of the right-hand
    sides by the unknowns, and [X 0] has the values of the solution and any derivatives by any names.  In every step the errors of
    the derivatives by the parameters, and the derivatives by all other names, are multiplied by [Q]. *)
Theorem C105_at_the_solution : forall (n m : nat) (nm : nat -> string) (es : list (expr R)) (p : nat -> R) (X : nat -> nat -> ss R)
    (xi : (nat -> R) -> nat -> R) (Q : nat -> nat -> R),
  distinct n nm -> List.length es = m ->
  List.Forall (vars_below (m + n)) es -> List.Forall (fun e => dom e (with_xs m (xi p) p)) es ->
  is_solution es m (xi p) p -> system_near n (is_solution es m) p xi ->
  (forall i j, (i < m)%nat -> (j < m)%nat -> partial (eq_at es i) j (with_xs m (xi p) p) (Q i j)) ->
  (forall i, (i < m)%nat -> keys_ok (X 0%nat i) /\ s_get_f (X 0%nat i) = xi p i) -> s_solver es m nm p X ->
  (forall k i, (i < m)%nat -> s_get_f (X k i) = xi p i) /\
  (forall s a, (s < n)%nat -> (forall i, (i < m)%nat -> partial (fun q => xi q i) s p (a i)) ->
     forall k i, (i < m)%nat ->
       s_get_d Rops (X (S k) i) (nm s) - a i = rsum m (fun j => Q i j * (s_get_d Rops (X k j) (nm s) - a j))) /\
  (forall w, (forall s, (s < n)%nat -> w <> nm s) -> forall k i, (i < m)%nat ->
     s_get_d Rops (X (S k) i) w = rsum m (fun j => Q i j * s_get_d Rops (X k j) w)) /\
  forall r, r < 1 -> (forall i, (i < m)%nat -> rsum m (fun j => Rabs (Q i j)) <= r) ->
    (forall s a, (s < n)%nat -> (forall i, (i < m)%nat -> partial (fun q => xi q i) s p (a i)) ->
       forall i, (i < m)%nat -> is_lim_seq (fun k => s_get_d Rops (X k i) (nm s)) (a i)) /\
    (forall w, (forall s, (s < n)%nat -> w <> nm s) -> forall i, (i < m)%nat -> is_lim_seq (fun k => s_get_d Rops (X k i) w) 0).
Proof. exact s_system_at. Qed.
Print Assumptions C105_at_the_solution.

(** Newton's method with the inverse [B] of the Jacobian matrix [D] at the root: after one step the derivatives by the parameters are
    those of the root and the derivatives by all other names are 0. *)
Theorem C105_newton : forall (n m : nat) (nm : nat -> string) (fs : list (expr R)) (p : nat -> R) (X : nat -> nat -> ss R)
    (xi : (nat -> R) -> nat -> R) (D B : nat -> nat -> R),
  distinct n nm -> List.length fs = m ->
  List.Forall (vars_below (m + n)) fs -> List.Forall (fun f => dom f (with_xs m (xi p) p)) fs ->
  (forall i, (i < m)%nat -> eq_at fs i (with_xs m (xi p) p) = 0) ->
  system_near n (fun x q => forall i, (i < m)%nat -> eq_at fs i (with_xs m x q) = 0) p xi ->
  (forall i j, (i < m)%nat -> (j < m)%nat -> partial (eq_at fs i) j (with_xs m (xi p) p) (D i j)) ->
  (forall i j, (i < m)%nat -> (j < m)%nat -> rsum m (fun k => B i k * D k j) = if Nat.eqb i j then 1 else 0) ->
  (forall i, (i < m)%nat -> keys_ok (X 0%nat i) /\ s_get_f (X 0%nat i) = xi p i) -> s_solver (newtons B fs) m nm p X ->
  forall k i, (i < m)%nat -> s_get_f (X (S k) i) = xi p i /\
    (forall s a, (s < n)%nat -> (forall i, (i < m)%nat -> partial (fun q => xi q i) s p (a i)) -> s_get_d Rops (X (S k) i) (nm s) = a i) /\
    (forall w, (forall s, (s < n)%nat -> w <> nm s) -> s_get_d Rops (X (S k) i) w = 0).
Proof. exact s_system_newton. Qed.
Print Assumptions C105_newton.

(** From all values close enough to the solution, values and derivatives converge together. *)
Theorem C105_near_the_solution : forall (n m : nat) (nm : nat -> string) (es : list (expr R)) (p : nat -> R) (xi : (nat -> R) -> nat -> R)
    (Q : nat -> nat -> R) (r : R),
  distinct n nm -> List.length es = m ->
  List.Forall (vars_below (m + n)) es -> List.Forall no_abs es -> List.Forall (fun e => smooth 2 e (with_xs m (xi p) p)) es ->
  is_solution es m (xi p) p -> system_near n (is_solution es m) p xi ->
  (forall i j, (i < m)%nat -> (j < m)%nat -> partial (eq_at es i) j (with_xs m (xi p) p) (Q i j)) ->
  r < 1 -> (forall i, (i < m)%nat -> rsum m (fun j => Rabs (Q i j)) <= r) ->
  exists d, 0 < d /\ forall X, (forall i, (i < m)%nat -> keys_ok (X 0%nat i) /\ Rabs (s_get_f (X 0%nat i) - xi p i) < d) -> s_solver es m nm p X ->
    (forall i, (i < m)%nat -> is_lim_seq (fun k => s_get_f (X k i)) (xi p i)) /\
    (forall s a, (s < n)%nat -> (forall i, (i < m)%nat -> partial (fun q => xi q i) s p (a i)) ->
       forall i, (i < m)%nat -> is_lim_seq (fun k => s_get_d Rops (X k i) (nm s)) (a i)) /\
    (forall w, (forall s, (s < n)%nat -> w <> nm s) -> forall i, (i < m)%nat -> is_lim_seq (fun k => s_get_d Rops (X k i) w) 0).
Proof. exact s_system_near. Qed.
Print Assumptions C105_near_the_solution.

(** Whatever the start, the model's own sweeps are such steps. *)
Theorem C105_steps_exist : forall (es : list (expr R)) (m : nat) (nm : nat -> string) (p : nat -> R) (X0 : nat -> ss R),
  s_solver es m nm p (s_sweep es m nm p X0).
Proof. exact sweep_solver. Qed.
Print Assumptions C105_steps_exist.

(** The roots of [z z - p z + q] at (3, 2) (vieta_assumptions: C102's assumptions hold), from the variable named x of value 2 and the
    literal 1: one step, and the derivative by x is gone. *)
Example C105_vieta_steps : let nm := (fun i : nat => match i with 0%nat => "p" | _ => "q" end)%string in
  let X0 := fun i : nat => match i with 0%nat => s_variable Rops "x" 2 | _ => s_constant 1 end in
  let X := s_sweep (newtons vieta_inv vieta) 2 nm vieta_point X0 in
  s_f (X 1%nat 0%nat) = 2 /\ s_f (X 1%nat 1%nat) = 1 /\
  s_get_d Rops (X 1%nat 0%nat) "p" = 2 /\ s_get_d Rops (X 1%nat 0%nat) "q" = - 1 /\ s_get_d Rops (X 0%nat 0%nat) "x" = 1 /\
  s_get_d Rops (X 1%nat 0%nat) "x" = 0 /\
  s_get_d Rops (X 1%nat 1%nat) "p" = - 1 /\ s_get_d Rops (X 1%nat 1%nat) "q" = 1 /\ s_get_d Rops (X 1%nat 1%nat) "x" = 0.
Proof. exact vieta_sparse. Qed.
