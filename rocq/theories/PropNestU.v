(** C117: sparse numbers whose scalars are sparse numbers. *)
From Coq Require Import ZArith List Bool Reals String.
From Coquelicot Require Import Coquelicot.
From Verif Require Import Outcome Scalar Model Spec ModelS RealOps ExprSpec NumSpec NestSpec NestTSpec FactsNestT NestUSpec FactsNestU.
From Verif Require SpecS.
Import ListNotations.
Open Scope R_scope.

(** C117.  An expression on variables [SScalar<SScalar<double>>::variable(name, SScalar<double>::variable(name, value))]: the value holds
    the value and the first derivatives, the entry under each name that derivative and its derivatives: all second derivatives. *)
Theorem C117_second_derivatives : forall (n : nat) (nm : nat -> string) (p : nat -> R) (e : expr R),
  SpecS.distinct n nm -> vars_below n e -> bare e -> smooth 2 e p -> twice n nm p (rev e) (evaluate_twice nm p e).
Proof. exact second_derivatives. Qed.
Print Assumptions C117_second_derivatives.
(** x y y at (3, 5); the entry (x, x), which is 0, is not stored. *)
Example C117_product : SpecS.distinct 2 xy /\ evaluate_twice xy at35 (EB Bmul (EB Bmul (EVar 0) (EVar 1)) (EVar 1)) =
  mks (mks 75 [("x"%string, 25); ("y"%string, 30)])
    [("x"%string, mks 25 [("y"%string, 10)]); ("y"%string, mks 30 [("x"%string, 10); ("y"%string, 6)])].
Proof. exact product_twice. Qed.
