(** Polynomials of degree two and the size of a displacement. *)
From Coq Require Import Reals.
From Verif Require Import ExprSpec.
Open Scope R_scope.

(** [a + sum_i b_i x_i + sum_ij m_ij x_i x_j] *)
Definition poly (n : nat) (a : R) (b : nat -> R) (m : nat -> nat -> R) (x : nat -> R) : R :=
  a + rsum n (fun i => b i * x i) + rsum n (fun i => rsum n (fun j => m i j * x i * x j)).
(** [p] displaced by [d]. *)
Definition shift (p d : nat -> R) : nat -> R := fun i => p i + d i.
(** [|d_0| + ... + |d_(n-1)|] *)
Definition norm1 (n : nat) (d : nat -> R) : R := rsum n (fun i => Rabs (d i)).
