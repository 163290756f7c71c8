(** Identities of sparse numbers (C112). *)
From Coq Require Import ZArith List Bool String Reals.
From Verif Require Import Outcome Scalar Model Spec RealOps ExprSpec ModelS SpecS.
Import ListNotations.

(** [EVar i] is the [i]-th of the operands [ys]. *)
Definition operands (ys : list (ss R)) (i : nat) : ss R := nth i ys (s_constant 0%R).
(** Both expressions, evaluated on [ys] with tables iterated in any order, give the same value and the same derivative by every name. *)
Definition same_s (ys : list (ss R)) (e1 e2 : expr R) : Prop :=
  forall x y, s_runs Rops (operands ys) e1 x -> s_runs Rops (operands ys) e2 y ->
  s_get_f x = s_get_f y /\ forall k : string, s_get_d Rops x k = s_get_d Rops y k.
Arguments same_s ys (e1 e2)%E.
