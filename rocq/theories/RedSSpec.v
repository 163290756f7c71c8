(** Arrays of sparse numbers: sums and products formed in any order, the tables enumerated in any order. *)
From Coq Require Import String ZArith List Bool.
From Verif Require Import Outcome Scalar Model Spec ExprSpec ModelS SpecS RedSpec.
Import ListNotations.

Section SArrays.
  Context {S : Type} (O : Ops S).
  (** [x] is the number at the root when the leaves are combined by [b]; every result may enumerate its table anew. *)
  Inductive s_reduces (b : bfun) : tree (ss S) -> ss S -> Prop :=
  | SLeaf x : s_reduces b (Leaf x) x
  | SNode l r x y z : s_reduces b l x -> s_reduces b r y -> reorders (s_apply_b O b x y) z -> s_reduces b (Node l r) z.
  (** Python's [sum(xs)] and [math.prod(xs)]: start with the int 0 or 1, then from left to right. *)
  Definition s_py_fold (b : bfun) (x : ss S) (xs : list (ss S)) : ss S := fold_left (s_apply_b O b) xs x.
  Definition s_py_sum (x : ss S) (xs : list (ss S)) : ss S := s_py_fold Badd (s_apply_u O (Usadd (o_Z O 0)) x) xs.
  Definition s_py_prod (x : ss S) (xs : list (ss S)) : ss S := s_py_fold Bmul (s_apply_u O (Usmul (o_Z O 1)) x) xs.
  (** [z] is a scalar product of [x 0 ... x (m-1)] and [y 0 ... y (m-1)], the products summed in some order. *)
  Definition s_dot (m : nat) (x y : nat -> ss S) (z : ss S) : Prop :=
    exists (t : tree nat) (p : nat -> ss S), Permutation.Permutation (leaves t) (seq 0 m) /\
      (forall k, (k < m)%nat -> reorders (s_apply_b O Bmul (x k) (y k)) (p k)) /\ s_reduces Badd (tmap p t) z.
  (** [C] is a matrix product of [A] ([l] x [m]) and [B] ([m] x [k]), every entry in an order of its own. *)
  Definition s_matmul (l m k : nat) (A B C : nat -> nat -> ss S) : Prop :=
    forall i j, (i < l)%nat -> (j < k)%nat -> s_dot m (A i) (fun q => B q j) (C i j).
  Definition keys_mat (l m : nat) (A : nat -> nat -> ss S) : Prop := forall i j, (i < l)%nat -> (j < m)%nat -> keys_ok (A i j).
End SArrays.
