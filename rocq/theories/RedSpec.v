(** Arrays of numbers.  numpy (dtype object) and Eigen apply the operators of the numbers to the entries; sums and
    products of several entries are formed in an order that they choose: a tree of binary operations. *)
From Coq Require Import ZArith List Bool Reals Permutation.
From Verif Require Import Outcome Scalar Model Spec ExprSpec.
Import ListNotations.

Inductive tree (A : Type) := Leaf (a : A) | Node (l r : tree A).
Arguments Leaf {A}. Arguments Node {A}.
Fixpoint leaves {A} (t : tree A) : list A := match t with Leaf a => [a] | Node l r => leaves l ++ leaves r end.
Fixpoint tmap {A B} (f : A -> B) (t : tree A) : tree B := match t with Leaf a => Leaf (f a) | Node l r => Node (tmap f l) (tmap f r) end.
Fixpoint tfold {A} (op : A -> A -> A) (t : tree A) : A := match t with Leaf a => a | Node l r => op (tfold op l) (tfold op r) end.
(** Longest chain of operations. *)
Fixpoint depth {A} (t : tree A) : nat := match t with Leaf _ => 0 | Node l r => S (Nat.max (depth l) (depth r)) end.
(** Equal up to the order of the two operands of operations. *)
Inductive mirrored {A} : tree A -> tree A -> Prop :=
| m_leaf a : mirrored (Leaf a) (Leaf a)
| m_keep l r l' r' : mirrored l l' -> mirrored r r' -> mirrored (Node l r) (Node l' r')
| m_swap l r l' r' : mirrored l l' -> mirrored r r' -> mirrored (Node l r) (Node r' l').

Section Arrays.
  Context {S : Type} (O : Ops S) (c : cfg).
  (** The numbers at the leaves, combined by [b]. *)
  Fixpoint reduce (b : bfun) (t : tree (dd S)) : res (dd S) :=
    match t with Leaf x => Ok x | Node l r => x <- reduce b l ;; y <- reduce b r ;; apply_b O c b x y end.
  (** Python's [sum(xs)] and [math.prod(xs)]: start with the int 0 or 1, then from left to right. *)
  Fixpoint py_fold (b : bfun) (x : dd S) (xs : list (dd S)) : res (dd S) :=
    match xs with [] => Ok x | y :: ys => r <- apply_b O c b x y ;; py_fold b r ys end.
  Definition py_sum (x : dd S) (xs : list (dd S)) : res (dd S) := r <- apply_u O c (Usadd (o_Z O 0)) x ;; py_fold Badd r xs.
  Definition py_prod (x : dd S) (xs : list (dd S)) : res (dd S) := r <- apply_u O c (Usmul (o_Z O 1)) x ;; py_fold Bmul r xs.

  (** [z] is a scalar product of [x 0 ... x (m-1)] and [y 0 ... y (m-1)], the products summed in some order. *)
  Definition dot (m : nat) (x y : nat -> dd S) (z : dd S) : Prop :=
    exists (t : tree nat) (p : nat -> dd S), Permutation (leaves t) (seq 0 m) /\
      (forall k, (k < m)%nat -> apply_b O c Bmul (x k) (y k) = Ok (p k)) /\ reduce Badd (tmap p t) = Ok z.
  (** [C] is a matrix product of [A] ([l] x [m]) and [B] ([m] x [k]), every entry in an order of its own. *)
  Definition matmul (l m k : nat) (A B C : nat -> nat -> dd S) : Prop :=
    forall i j, (i < l)%nat -> (j < k)%nat -> dot m (A i) (fun q => B q j) (C i j).
  Definition wf_mat (n l m : nat) (A : nat -> nat -> dd S) : Prop := forall i j, (i < l)%nat -> (j < m)%nat -> wf c n (A i j).
  (** Same numbers. *)
  Definition same_mat (l m : nat) (A B : nat -> nat -> dd S) : Prop :=
    forall i j, (i < l)%nat -> (j < m)%nat -> size c (A i j) = size c (B i j) /\ m_data (A i j) = m_data (B i j).
End Arrays.

(** Scalar product and Euclidean norm of vectors of expressions. *)
Definition edot {S} (e f : nat -> expr S) (t : tree nat) : expr S := tfold (EB Badd) (tmap (fun k => EB Bmul (e k) (f k)) t).
Definition enorm {S} (e : nat -> expr S) (t : tree nat) : expr S := EU Usqrt (edot e e t).
