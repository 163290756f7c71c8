(** The chain-rule kernels (C86). *)
From Coq Require Import ZArith Reals.
From Verif Require Import Scalar Model Spec.
Open Scope R_scope.

(** The number a coefficient stands for: the tags [Zero], [One], [MinusOne] (136-175) or a scalar. *)
Definition number (k : coef R) : R := match k with CZero => 0 | COne => 1 | CMinusOne => -1 | CVal s => s end.
Definition tagged_zero (k : coef R) : Prop := k = CZero.
(** What is already in the result counts in the adding form ([TIncrement]) only. *)
Definition kept (inc : bool) (v : R) : R := if inc then v else 0.
