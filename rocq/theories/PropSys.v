(** C102: systems of equations: sweeps of [X = es(X, P)] with numbers deliver the derivatives of the solution. *)
From Coq Require Import ZArith List Bool Reals Lra Lia.
From Coquelicot Require Import Coquelicot.
From Verif Require Import Outcome Scalar Model Spec RealOps ExprSpec NumSpec ParamSpec NestSpec SysSpec FactsSys Samples.
Import ListNotations.
Open Scope R_scope.

(** C102.  [xi] solves the [m] equations [x = es(x, p)] near [p]; [Q] is the matrix of the derivatives of the right-hand sides by
    the unknowns.  Start from [m] numbers with the values of the solution and whatever derivatives.  The errors of the
    gradients are multiplied by [Q] in every step; the Hessians are exact from the second step on if [Q] is zero; gradients and
    Hessians converge if the row sums of [Q] are below 1. *)
Theorem C102_at_the_solution : forall (c : cfg) (n m : nat) (es : list (expr R)) (p : nat -> R) (ps : list (dd R)) (Xs : list (dd R))
    (xi : (nat -> R) -> nat -> R) (g0 : nat -> nat -> R) (h0 : nat -> nat -> nat -> R) (Q : nat -> nat -> R),
  cfg_ok c -> size_ok c n -> length es = m ->
  List.Forall (vars_below (m + n)) es -> List.Forall (fun e => dom e (with_xs m (xi p) p)) es ->
  is_solution es m (xi p) p -> system_near n (is_solution es m) p xi ->
  (forall i j, (i < m)%nat -> (j < m)%nat -> partial (eq_at es i) j (with_xs m (xi p) p) (Q i j)) ->
  variables Rops c (coords n p) = Ok ps -> shows_all c n m Xs (xi p) g0 h0 ->
  exists g h, (forall k, exists Ys, sweep c n ps es k Xs = Ok Ys /\ shows_all c n m Ys (xi p) (g k) (h k)) /\
    (forall i, (i < m)%nat -> g 0%nat i = g0 i) /\
    (forall s a, (s < n)%nat -> (forall i, (i < m)%nat -> partial (fun q => xi q i) s p (a i)) ->
       forall k i, (i < m)%nat -> g (S k) i s - a i = rsum m (fun j => Q i j * (g k j s - a j))) /\
    (forall s t a b l, (s < n)%nat -> (t < n)%nat -> (forall i, (i < m)%nat -> partial (fun q => xi q i) s p (a i)) ->
       (forall i, (i < m)%nat -> partial (fun q => xi q i) t p (b i)) -> (forall i, (i < m)%nat -> partial2 (fun q => xi q i) s t p (l i)) ->
       ((forall i j, (i < m)%nat -> (j < m)%nat -> Q i j = 0) -> forall k i, (2 <= k)%nat -> (i < m)%nat -> h k i s t = l i) /\
       forall r, r < 1 -> (forall i, (i < m)%nat -> rsum m (fun j => Rabs (Q i j)) <= r) ->
         forall i, (i < m)%nat -> is_lim_seq (fun k => g k i s) (a i) /\ is_lim_seq (fun k => h k i s t) (l i)).
Proof. exact system_at_solution. Qed.
Print Assumptions C102_at_the_solution.

(** Newton's method for [fs(x, p) = 0] from the root with the inverse [B] of the Jacobian matrix [D] there: gradients are those of
    the root after one step, Hessians after two. *)
Theorem C102_newton : forall (c : cfg) (n m : nat) (fs : list (expr R)) (p : nat -> R) (ps : list (dd R)) (Xs : list (dd R))
    (xi : (nat -> R) -> nat -> R) (g0 : nat -> nat -> R) (h0 : nat -> nat -> nat -> R) (D B : nat -> nat -> R),
  cfg_ok c -> size_ok c n -> length fs = m ->
  List.Forall (vars_below (m + n)) fs -> List.Forall (fun f => dom f (with_xs m (xi p) p)) fs ->
  (forall i, (i < m)%nat -> eq_at fs i (with_xs m (xi p) p) = 0) ->
  system_near n (fun x q => forall i, (i < m)%nat -> eq_at fs i (with_xs m x q) = 0) p xi ->
  (forall i j, (i < m)%nat -> (j < m)%nat -> partial (eq_at fs i) j (with_xs m (xi p) p) (D i j)) ->
  (forall i j, (i < m)%nat -> (j < m)%nat -> rsum m (fun k => B i k * D k j) = if Nat.eqb i j then 1 else 0) ->
  variables Rops c (coords n p) = Ok ps -> shows_all c n m Xs (xi p) g0 h0 ->
  exists Y1 Y2 g1 h1 g2 h2, sweep c n ps (newtons B fs) 1 Xs = Ok Y1 /\ sweep c n ps (newtons B fs) 2 Xs = Ok Y2 /\
    shows_all c n m Y1 (xi p) g1 h1 /\ shows_all c n m Y2 (xi p) g2 h2 /\
    (forall s a, (s < n)%nat -> (forall i, (i < m)%nat -> partial (fun q => xi q i) s p (a i)) -> forall i, (i < m)%nat -> g1 i s = a i /\ g2 i s = a i) /\
    (forall s t a b l, (s < n)%nat -> (t < n)%nat -> (forall i, (i < m)%nat -> partial (fun q => xi q i) s p (a i)) ->
       (forall i, (i < m)%nat -> partial (fun q => xi q i) t p (b i)) -> (forall i, (i < m)%nat -> partial2 (fun q => xi q i) s t p (l i)) ->
       forall i, (i < m)%nat -> h2 i s t = l i).
Proof. exact system_newton. Qed.
Print Assumptions C102_newton.

(** From all values close enough to the solution, values, gradients and Hessians converge together. *)
Theorem C102_near_the_solution : forall (c : cfg) (n m : nat) (es : list (expr R)) (p : nat -> R) (ps : list (dd R)) (xi : (nat -> R) -> nat -> R)
    (Q : nat -> nat -> R) (r : R),
  cfg_ok c -> size_ok c n -> length es = m ->
  List.Forall (vars_below (m + n)) es -> List.Forall no_abs es -> List.Forall (fun e => smooth 2 e (with_xs m (xi p) p)) es ->
  is_solution es m (xi p) p -> system_near n (is_solution es m) p xi ->
  (forall i j, (i < m)%nat -> (j < m)%nat -> partial (eq_at es i) j (with_xs m (xi p) p) (Q i j)) ->
  r < 1 -> (forall i, (i < m)%nat -> rsum m (fun j => Rabs (Q i j)) <= r) ->
  variables Rops c (coords n p) = Ok ps ->
  exists d, 0 < d /\ forall Xs x g0 h0, shows_all c n m Xs x g0 h0 -> (forall i, (i < m)%nat -> Rabs (x i - xi p i) < d) ->
  exists v g h, (forall k, exists Ys, sweep c n ps es k Xs = Ok Ys /\ shows_all c n m Ys (v k) (g k) (h k)) /\
    (forall i, (i < m)%nat -> is_lim_seq (fun k => v k i) (xi p i)) /\
    (forall s a, (s < n)%nat -> (forall i, (i < m)%nat -> partial (fun q => xi q i) s p (a i)) ->
       forall i, (i < m)%nat -> is_lim_seq (fun k => g k i s) (a i)) /\
    (forall s t a b l, (s < n)%nat -> (t < n)%nat -> (forall i, (i < m)%nat -> partial (fun q => xi q i) s p (a i)) ->
       (forall i, (i < m)%nat -> partial (fun q => xi q i) t p (b i)) -> (forall i, (i < m)%nat -> partial2 (fun q => xi q i) s t p (l i)) ->
       forall i, (i < m)%nat -> is_lim_seq (fun k => h k i s t) (l i)).
Proof. exact system_near_solution. Qed.
Print Assumptions C102_near_the_solution.

(** The roots [x > y] of [z z - p z + q] as functions of [p] and [q], from [x + y = p] and [x y = q], at (3, 2): the assumptions hold, ... *)
Example vieta_assumptions : let p := vieta_point in let xi := vieta_roots in let P := with_xs 2 (xi p) p in
  (xi p 0%nat = 2 /\ xi p 1%nat = 1) /\
  (forall i, (i < 2)%nat -> eq_at vieta i P = 0) /\
  system_near 2 (fun x q => forall i, (i < 2)%nat -> eq_at vieta i (with_xs 2 x q) = 0) p xi /\
  (forall i j, (i < 2)%nat -> (j < 2)%nat -> partial (eq_at vieta i) j P (vieta_jac i j)) /\
  (forall i j, (i < 2)%nat -> (j < 2)%nat -> rsum 2 (fun k => vieta_inv i k * vieta_jac k j) = if Nat.eqb i j then 1 else 0) /\
  partial (fun q => xi q 0%nat) 0 p 2 /\ partial (fun q => xi q 0%nat) 1 p (- 1) /\ partial2 (fun q => xi q 0%nat) 0 1 p 3.
Proof. exact vieta_case. Qed.
(** ... and from the literals 2 and 1 the gradients are right after one step, the Hessians after the second. *)
Example vieta_steps : exists ps X Y, variables Rops (sta2 2) [3; 2] = Ok ps /\ constant_n Rops (sta2 2) 2 2 = Ok X /\ constant_n Rops (sta2 2) 1 2 = Ok Y /\
  sweep (sta2 2) 2 ps (newtons vieta_inv vieta) 1 [X; Y] =
    Ok [mk 2 [Some 2; Some 2; Some (- 1); Some 0; Some 0; Some 0]; mk 2 [Some 1; Some (- 1); Some 1; Some 0; Some 0; Some 0]] /\
  sweep (sta2 2) 2 ps (newtons vieta_inv vieta) 2 [X; Y] =
    Ok [mk 2 [Some 2; Some 2; Some (- 1); Some (- 4); Some 3; Some (- 2)]; mk 2 [Some 1; Some (- 1); Some 1; Some 4; Some (- 3); Some 2]].
Proof. exact vieta_run. Qed.
