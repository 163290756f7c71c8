(** Forgetting the derivatives of the scalars of dense numbers of sparse numbers. *)
From Coq Require Import ZArith List Bool Reals.
From Verif Require Import Outcome Scalar Model Spec ModelS RealOps NestSpec NestTSpec.
Import ListNotations.

(** A sparse number and its value. *)
Definition sees {S} (x : ss S) (v : S) : Prop := s_f x = v.
(** The scalar operations with division by a reciprocal: what the value of a quotient of sparse numbers is (2281-2292). *)
Definition by_reciprocal {S} (O : Ops S) : Ops S := {|
  o_Z := o_Z O; o_half := o_half O; o_add := o_add O; o_sub := o_sub O; o_mul := o_mul O;
  o_div := fun a b => o_mul O a (o_div O (o_Z O 1) b);
  o_neg := o_neg O; o_lt := o_lt O; o_le := o_le O; o_eq := o_eq O;
  o_pow := o_pow O; o_sqrt := o_sqrt O; o_cbrt := o_cbrt O; o_cos := o_cos O; o_sin := o_sin O; o_tan := o_tan O;
  o_acos := o_acos O; o_asin := o_asin O; o_atan := o_atan O; o_atan2 := o_atan2 O; o_hypot := o_hypot O; o_hypot3 := o_hypot3 O;
  o_cosh := o_cosh O; o_sinh := o_sinh O; o_tanh := o_tanh O; o_acosh := o_acosh O; o_asinh := o_asinh O; o_atanh := o_atanh O;
  o_exp := o_exp O; o_log := o_log O; o_log2 := o_log2 O; o_log10 := o_log10 O
|}.
(** A dense number of size [n] and its value. *)
Definition carries {S} (c : cfg) (n : nat) (x : dd S) (v : S) : Prop := wf c n x /\ get_f x = Ok v.
(** The static size. *)
Definition nsize (c : cfg) : nat := Z.to_nat (c_tsize c).
(** A number nested along a list of configurations and the real number at its bottom. *)
Fixpoint bottom (cs : list cfg) {struct cs} : nest cs -> R -> Prop :=
  match cs return nest cs -> R -> Prop with
  | [] => fun x v => x = v
  | c :: cs => fun x v => exists w : nest cs, carries c (nsize c) x w /\ bottom cs w v
  end.
