(** Functions given implicitly by an equation, and iterations that solve it. *)
From Coq Require Import ZArith List Reals.
From Coquelicot Require Import Coquelicot.
From Verif Require Import Outcome Scalar Model RealOps ExprSpec.
Import ListNotations.
Open Scope R_scope.

(** The unknown [x] as variable 0, the parameters [p] as the variables 1, 2, ... *)
Definition with_x (x : R) (p : nat -> R) : nat -> R := fun k => match k with Datatypes.O => x | Datatypes.S k => p k end.
(** Near [p], in every coordinate plane through [p], [xi] satisfies the equation [E (xi q) q]. *)
Definition solves_near (n : nat) (E : R -> (nat -> R) -> Prop) (p : nat -> R) (xi : (nat -> R) -> R) : Prop :=
  forall i j, (i < n)%nat -> (j < n)%nat ->
    locally (p i) (fun s => locally (set_at p i s j) (fun t =>
      let q := set_at (set_at p i s) j t in E (xi q) q)).
(** [k] steps of [X = e(X, P)]. *)
Fixpoint iterate (c : cfg) (n : nat) (ps : list (dd R)) (e : expr R) (k : nat) (X : dd R) : res (dd R) :=
  match k with
  | Datatypes.O => Ok X
  | Datatypes.S k => (Y <- iterate c n ps e k X ;; run Rops c n (Y :: ps) e)%res
  end.
(** A Newton step for [f = 0] with the slope [d]: [X - f(X, P) / d]. *)
Definition newton (d : R) (f : expr R) : expr R := EB Bsub (EVar 0) (EU (Udivs d) f).
(** [x x - p] *)
Definition root2 : expr R := EB Bsub (EB Bmul (EVar 0) (EVar 0)) (EVar 1).
