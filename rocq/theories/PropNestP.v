(** C118: dense variables and named parameters. *)
From Coq Require Import ZArith List Bool Reals String.
From Coquelicot Require Import Coquelicot.
From Verif Require Import Outcome Scalar Model Spec ModelS RealOps ExprSpec NumSpec ParamSpec Samples NestSpec NestTSpec FactsNestT NestPSpec FactsNestP.
From Verif Require SpecS.
Import ListNotations.
Open Scope R_scope.

(** C118.  [n] dense variables and [k] dense constants, each with a sparse variable of its own name as its value: the result has size [n];
    its value, gradient and Hessian entries hold their own derivatives by all [n + k] names, the parameters included. *)
Theorem C118_sensitivities : forall (n k : nat) (nm : nat -> string) (p : nat -> R), SpecS.distinct (n + k) nm ->
  forall (c : cfg) (e : expr R), cfg_ok c -> size_ok c n -> vars_below (n + k) e -> no_abs e -> smooth 2 e p ->
  exists r, evaluate_params n k nm c p e = Ok r /\ sensitive n k nm c p (rev e) r.
Proof. exact sensitivities. Qed.
Print Assumptions C118_sensitivities.
(** a x x at x = 3, a = 5: 45, 30 and 10, with the derivatives 9, 6 and 2 by a. *)
Example C118_parabola : SpecS.distinct (1 + 1) xa /\ evaluate_params 1 1 xa (sta2 1) at35 (EB Bmul (EVar 1) (EB Bmul (EVar 0) (EVar 0))) =
  Ok (mk 1 [Some (mks 45 [("a"%string, 9); ("x"%string, 30)]); Some (mks 30 [("x"%string, 10); ("a"%string, 6)]);
            Some (mks 10 [("x"%string, 0); ("a"%string, 2)])]).
Proof. exact parabola. Qed.
