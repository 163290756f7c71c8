(** C76: numbers whose scalars are numbers hold higher derivatives. *)
From Coq Require Import ZArith List Bool Reals Lia.
From Coquelicot Require Import Coquelicot.
From Verif Require Import Outcome Scalar Model Spec RealOps ExprSpec NumSpec ParamSpec Samples NestSpec FactsNest.
Import ListNotations.
Open Scope R_scope.

(** C76.  A number with inner numbers of static size as its scalars, nested to any depth and with orders 1 or 2 mixed freely:
    the evaluation of an expression succeeds, and every component, followed through all levels, is the corresponding iterated
    partial derivative. *)
Theorem C76_nested_derivatives : forall (n : nat) (c : cfg) (cs : list cfg) (p : nat -> R) (e : expr R),
  cfg_ok c -> size_ok c n -> List.Forall (inner n) cs -> vars_below n e -> no_abs e -> smooth (1 + length cs) e p ->
  exists r, evaluate_nested n c cs p e = Ok r /\ derivs n p (c :: cs) (rev e) r.
Proof. exact nested. Qed.
Print Assumptions C76_nested_derivatives.
(** One variable: k levels give the k-th derivative. *)
Theorem C76_nth_derivative : forall (c : cfg) (cs : list cfg) (x : R) (e : expr R),
  cfg_ok c -> size_ok c 1 -> List.Forall (inner 1) cs -> vars_below 1 e -> no_abs e -> smooth (1 + length cs) e (fun _ => x) ->
  exists r v, evaluate_nested 1 c cs (fun _ => x) e = Ok r /\ deepest (c :: cs) v r /\
    is_derive_n (fun t => rev e (fun _ => t)) (1 + length cs) x v.
Proof. exact nested_nth. Qed.
Print Assumptions C76_nth_derivative.
(** x x x at 2 with a first-order number inside a second-order one: 8, 12 and 12, with the derivatives 12, 12 and 6. *)
Example C76_cube : inner 1 (sta1 1) /\ smooth 2 (X * X * X)%E (fun _ => 2) /\
  evaluate_nested 1 (sta2 1) [sta1 1] (fun _ => 2) (X * X * X)%E =
  Ok (mk 1 [Some (mk 1 [Some 8; Some 12]); Some (mk 1 [Some 12; Some 12]); Some (mk 1 [Some 12; Some 6])]).
Proof. exact cube_nested. Qed.
(** The inner size must be static: the literals in the formulas become numbers of size 1, which do not combine with numbers of
    any other size. *)
Theorem C76_dynamic_inner_throws : forall (S : Type) (O : Ops S) (c : cfg) (n : nat) (x : dd S),
  is_dynamic c = true -> c_exc c = true -> wf c n x -> n <> 1%nat -> forall s, exists z, ctor_scalar O c s = Ok z /\
    add O c z x = Throw IncompatibleSize /\ sub O c z x = Throw IncompatibleSize /\ mul O c z x = Throw IncompatibleSize.
Proof. exact @dynamic_literals. Qed.
Print Assumptions C76_dynamic_inner_throws.
