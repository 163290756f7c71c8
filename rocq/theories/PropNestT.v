(** C116: dense numbers whose scalars are sparse numbers. *)
From Coq Require Import ZArith List Bool Reals String.
From Coquelicot Require Import Coquelicot.
From Verif Require Import Outcome Scalar Model Spec ModelS RealOps ExprSpec NumSpec ParamSpec Samples NestSpec FactsNest NestTSpec FactsNestT.
From Verif Require SpecS.
Import ListNotations.
Open Scope R_scope.

(** C116.  The evaluation of an expression on variables [DDScalar<order, SScalar<double>, size>::variable] succeeds for static
    and dynamic sizes; the value, every gradient entry and every Hessian entry is a sparse number, which holds its own value and,
    under each name, its own partial derivative: with order 2, all third derivatives. *)
Theorem C116_derivatives : forall (n : nat) (nm : nat -> string) (p : nat -> R), SpecS.distinct n nm ->
  forall (c : cfg) (e : expr R), cfg_ok c -> size_ok c n -> vars_below n e -> no_abs e -> smooth 2 e p ->
  exists r, evaluate_sparse n nm c p e = Ok r /\ mixed n nm c p (rev e) r.
Proof. exact mixed_derivatives. Qed.
Print Assumptions C116_derivatives.
(** x x x at 2, second order: 8, 12 and 12 with the derivatives 12, 12 and 6. *)
Example C116_cube : SpecS.distinct 1 (fun _ => "x"%string) /\ smooth 2 (X * X * X)%E (fun _ => 2) /\
  evaluate_sparse 1 (fun _ => "x"%string) (sta2 1) (fun _ => 2) (X * X * X)%E =
  Ok (mk 1 [Some (mks 8 [("x"%string, 12)]); Some (mks 12 [("x"%string, 12)]); Some (mks 12 [("x"%string, 6)])]).
Proof. exact cube_sparse. Qed.
(** y x at (3, 5), dynamic size. *)
Example C116_product : SpecS.distinct 2 xy /\ evaluate_sparse 2 xy dyn1 at35 (EB Bmul (EVar 1) (EVar 0)) =
  Ok (mk 2 [Some (mks 15 [("y"%string, 3); ("x"%string, 5)]); Some (mks 5 [("x"%string, 0); ("y"%string, 1)]); Some (mks 3 [("x"%string, 1); ("y"%string, 0)])]).
Proof. exact product_sparse. Qed.
