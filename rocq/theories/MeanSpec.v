(** Sets of reals represented by the elements of a scalar type, as convex sets. *)
From Coq Require Import ZArith List Reals.
From Verif Require Import Scalar ExprSpec ParamSpec.
Open Scope R_scope.

(** Between two members of a set there are only members. *)
Definition convex_sets {T} (mem : R -> T -> Prop) : Prop :=
  forall x y z t, mem x t -> mem y t -> x <= z <= y -> mem z t.
(** Component by component, the vector [q - p]. *)
Definition step (p q : nat -> R) : nat -> R := fun i => q i - p i.
(** [g . v] and [v . h . v]. *)
Definition gdot (n : nat) (g v : nat -> R) : R := rsum n (fun i => g i * v i).
Definition hdot (n : nat) (h : nat -> nat -> R) (v : nat -> R) : R :=
  rsum n (fun i => rsum n (fun j => h i j * v i * v j)).

(** Integer intervals with a division: rounded outwards when the divisor is positive, the whole line otherwise. *)
Definition idiv (i j : interval) : interval :=
  match i, j with
  | Some (a, b), Some (a', b') =>
      if Z.ltb 0 a' then Some (Z.min (a / a') (a / b'), Z.max (- ((- b) / a')) (- ((- b) / b')))%Z else None
  | _, _ => None
  end.
Definition Dops : Ops interval := {|
  o_Z := o_Z Iops; o_half := o_half Iops; o_add := o_add Iops; o_sub := o_sub Iops; o_mul := o_mul Iops; o_div := idiv;
  o_neg := o_neg Iops; o_lt := o_lt Iops; o_le := o_le Iops; o_eq := o_eq Iops; o_pow := o_pow Iops; o_sqrt := o_sqrt Iops;
  o_cbrt := o_cbrt Iops; o_cos := o_cos Iops; o_sin := o_sin Iops; o_tan := o_tan Iops; o_acos := o_acos Iops;
  o_asin := o_asin Iops; o_atan := o_atan Iops; o_atan2 := o_atan2 Iops; o_hypot := o_hypot Iops; o_hypot3 := o_hypot3 Iops;
  o_cosh := o_cosh Iops; o_sinh := o_sinh Iops; o_tanh := o_tanh Iops; o_acosh := o_acosh Iops; o_asinh := o_asinh Iops;
  o_atanh := o_atanh Iops; o_exp := o_exp Iops; o_log := o_log Iops; o_log2 := o_log2 Iops; o_log10 := o_log10 Iops
|}.
