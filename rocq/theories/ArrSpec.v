(** Specification of array arguments. *)
From Coq Require Import ZArith List.
From Verif Require Import Outcome Scalar Model.
Open Scope Z_scope.

(** A matrix with [r] rows and [k] columns, all cells initialised. *)
Definition table {S} (r k : nat) (m : mat S) : Prop :=
  rows m = Z.of_nat r /\ cols m = Z.of_nat k /\ length (cells m) = (r * k)%nat /\
  (forall i, (i < r * k)%nat -> exists v, nth_error (cells m) i = Some (Some v)).
