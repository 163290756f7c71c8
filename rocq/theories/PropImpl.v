(** C101: iterating [X = e(X, P)] with numbers delivers the derivatives of the function the equation defines. *)
From Coq Require Import ZArith List Bool Reals Lra Lia.
From Coquelicot Require Import Coquelicot.
From Verif Require Import Outcome Scalar Model Spec RealOps ExprSpec NumSpec ParamSpec NestSpec ImplSpec FactsImpl Samples.
Import ListNotations.
Open Scope R_scope.

(** C101.  [xi] solves [x = e(x, p)] near [p]; [q] is the slope of [e] in the unknown.  Start from a number with the value of the
    solution and whatever derivatives.  The values stay, the error of the gradient is multiplied by [q] in every step, the
    Hessian is exact from the second step on if [q = 0] and converges if [|q| < 1]. *)
Theorem C101_at_the_solution : forall (c : cfg) (n : nat) (e : expr R) (p : nat -> R) (ps : list (dd R)) (X : dd R)
    (xi : (nat -> R) -> R) (g0 : nat -> R) (h0 : nat -> nat -> R) (q : R),
  cfg_ok c -> size_ok c n -> vars_below (S n) e -> dom e (with_x (xi p) p) -> xi p = rev e (with_x (xi p) p) ->
  solves_near n (fun x q => x = rev e (with_x x q)) p xi -> partial (rev e) 0 (with_x (xi p) p) q ->
  variables Rops c (coords n p) = Ok ps -> shows c n X (xi p) g0 h0 ->
  exists g h, (forall k, exists Y, iterate c n ps e k X = Ok Y /\ shows c n Y (xi p) (g k) (h k)) /\
    (forall i a, (i < n)%nat -> partial xi i p a -> forall k, g k i - a = q ^ k * (g0 i - a)) /\
    (forall i j a l, (i < n)%nat -> (j < n)%nat -> partial xi i p a -> partial2 xi i j p l ->
       (q = 0 -> forall k, (2 <= k)%nat -> h k i j = l) /\ (Rabs q < 1 -> is_lim_seq (fun k => h k i j) l)).
Proof. exact at_solution. Qed.
Print Assumptions C101_at_the_solution.

(** Newton's method for [f(x, p) = 0] from the root, with the slope there: the gradient is that of the root as a function
    of the parameters after one step, the Hessian after two. *)
Theorem C101_newton : forall (c : cfg) (n : nat) (f : expr R) (p : nat -> R) (ps : list (dd R)) (X : dd R)
    (xi : (nat -> R) -> R) (g0 : nat -> R) (h0 : nat -> nat -> R) (d : R),
  cfg_ok c -> size_ok c n -> vars_below (S n) f -> dom f (with_x (xi p) p) -> rev f (with_x (xi p) p) = 0 ->
  solves_near n (fun x q => rev f (with_x x q) = 0) p xi -> partial (rev f) 0 (with_x (xi p) p) d -> d <> 0 ->
  variables Rops c (coords n p) = Ok ps -> shows c n X (xi p) g0 h0 ->
  exists Y1 Y2 g1 h1 g2 h2, iterate c n ps (newton d f) 1 X = Ok Y1 /\ iterate c n ps (newton d f) 2 X = Ok Y2 /\
    shows c n Y1 (xi p) g1 h1 /\ shows c n Y2 (xi p) g2 h2 /\
    (forall i a, (i < n)%nat -> partial xi i p a -> g1 i = a /\ g2 i = a) /\
    (forall i j a l, (i < n)%nat -> (j < n)%nat -> partial xi i p a -> partial2 xi i j p l -> h2 i j = l).
Proof. exact newton_exact. Qed.
Print Assumptions C101_newton.

(** From every value close enough to the solution: values, gradients and Hessians converge together. *)
Theorem C101_near_the_solution : forall (c : cfg) (n : nat) (e : expr R) (p : nat -> R) (ps : list (dd R)) (xi : (nat -> R) -> R) (q : R),
  cfg_ok c -> size_ok c n -> vars_below (S n) e -> no_abs e -> smooth 2 e (with_x (xi p) p) -> xi p = rev e (with_x (xi p) p) ->
  solves_near n (fun x q => x = rev e (with_x x q)) p xi -> partial (rev e) 0 (with_x (xi p) p) q -> Rabs q < 1 ->
  variables Rops c (coords n p) = Ok ps ->
  exists d, 0 < d /\ forall X x g0 h0, shows c n X x g0 h0 -> Rabs (x - xi p) < d ->
  exists v g h, (forall k, exists Y, iterate c n ps e k X = Ok Y /\ shows c n Y (v k) (g k) (h k)) /\
    is_lim_seq v (xi p) /\
    (forall i a, (i < n)%nat -> partial xi i p a -> is_lim_seq (fun k => g k i) a) /\
    (forall i j a l, (i < n)%nat -> (j < n)%nat -> partial xi i p a -> partial2 xi i j p l -> is_lim_seq (fun k => h k i j) l).
Proof. exact near_solution. Qed.
Print Assumptions C101_near_the_solution.

(** The square root of the parameter as the root of [x x - p], at [p = 4]: the assumptions of the theorems hold, ... *)
Example sqrt_assumptions : let xi := fun q : nat -> R => sqrt (q 0%nat) in let p := fun _ : nat => 4 in
  xi p = 2 /\ rev root2 (with_x (xi p) p) = 0 /\ solves_near 1 (fun x q => rev root2 (with_x x q) = 0) p xi /\
  partial (rev root2) 0 (with_x (xi p) p) 4 /\ partial xi 0 p (/ 4) /\ partial2 xi 0 0 p (- / 32) /\ smooth 2 (newton 4 root2) (with_x (xi p) p).
Proof. exact sqrt_case. Qed.
(** ... and starting from the literal 2, the gradient is right after one step, the Hessian only after the second. *)
Example sqrt_steps : exists ps X, variables Rops (sta2 1) [4] = Ok ps /\ constant_n Rops (sta2 1) 2 1 = Ok X /\
  iterate (sta2 1) 1 ps (newton 4 root2) 1 X = Ok (mk 1 [Some 2; Some (/ 4); Some 0]) /\
  iterate (sta2 1) 1 ps (newton 4 root2) 2 X = Ok (mk 1 [Some 2; Some (/ 4); Some (- / 32)]).
Proof. exact sqrt_run. Qed.
