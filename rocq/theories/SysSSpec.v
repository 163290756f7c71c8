(** Iterations that solve systems of equations, with sparse numbers. *)
From Coq Require Import ZArith List Bool String Reals.
From Verif Require Import Outcome Scalar Model RealOps ExprSpec ModelS SpecS.
Import ListNotations.
Open Scope R_scope.

(** The unknowns [X] as the variables 0 .. m-1, the parameters, named [nm 0], [nm 1], ..., as the variables m, m+1, ... *)
Definition s_env (m : nat) (nm : nat -> string) (p : nat -> R) (X : nat -> ss R) : nat -> ss R :=
  fun i => if Nat.ltb i m then X i else s_variable Rops (nm (i - m)%nat) (p (i - m)%nat).
(** [X 0], [X 1], ...: steps of [X = es(X, P)], all [m] unknowns at once, the tables iterated in any orders. *)
Definition s_solver (es : list (expr R)) (m : nat) (nm : nat -> string) (p : nat -> R) (X : nat -> nat -> ss R) : Prop :=
  forall k i, (i < m)%nat -> s_runs Rops (s_env m nm p (X k)) (nth i es (EConst 0)) (X (S k) i).
(** The steps in the model's own orders. *)
Fixpoint s_sweep (es : list (expr R)) (m : nat) (nm : nat -> string) (p : nat -> R) (X0 : nat -> ss R) (k : nat) : nat -> ss R :=
  match k with
  | Datatypes.O => X0
  | Datatypes.S k => fun i => s_run Rops (s_env m nm p (s_sweep es m nm p X0 k)) (nth i es (EConst 0))
  end.
