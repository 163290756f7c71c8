(** Systems of equations for several unknowns, and iterations that solve them. *)
From Coq Require Import ZArith List Reals.
From Coquelicot Require Import Coquelicot.
From Verif Require Import Outcome Scalar Model Spec RealOps ExprSpec.
Import ListNotations.
Open Scope R_scope.

(** The [m] unknowns [x] as the variables 0 .. m-1, the parameters [p] as the variables m, m+1, ... *)
Definition with_xs (m : nat) (x p : nat -> R) : nat -> R := fun k => if Nat.ltb k m then x k else p (k - m)%nat.
(** Near [p], in every coordinate plane through [p], the functions [xi] satisfy the equations [E (xi q) q]. *)
Definition system_near (n : nat) (E : (nat -> R) -> (nat -> R) -> Prop) (p : nat -> R) (xi : (nat -> R) -> nat -> R) : Prop :=
  forall i j, (i < n)%nat -> (j < n)%nat ->
    locally (p i) (fun s => locally (set_at p i s j) (fun t =>
      let q := set_at (set_at p i s) j t in E (xi q) q)).
(** The right-hand side number [i]. *)
Definition eq_at (es : list (expr R)) (i : nat) : (nat -> R) -> R := rev (nth i es (EConst 0)).
(** [x] solves [x = es(x, p)]. *)
Definition is_solution (es : list (expr R)) (m : nat) (x p : nat -> R) : Prop := forall i, (i < m)%nat -> x i = eq_at es i (with_xs m x p).
(** All right-hand sides, evaluated on one list of numbers. *)
Fixpoint run_all (c : cfg) (n : nat) (env : list (dd R)) (es : list (expr R)) : res (list (dd R)) :=
  match es with
  | [] => Ok []
  | e :: es => (Y <- run Rops c n env e ;; Ys <- run_all c n env es ;; Ok (Y :: Ys))%res
  end.
(** [k] steps of [X = es(X, P)], all unknowns at once. *)
Fixpoint sweep (c : cfg) (n : nat) (ps : list (dd R)) (es : list (expr R)) (k : nat) (Xs : list (dd R)) : res (list (dd R)) :=
  match k with
  | Datatypes.O => Ok Xs
  | Datatypes.S k => (Ys <- sweep c n ps es k Xs ;; run_all c n (Ys ++ ps) es)%res
  end.
(** [m] numbers with the values [f], gradients [g] and Hessians [h]. *)
Definition shows_all (c : cfg) (n m : nat) (Xs : list (dd R)) (f : nat -> R) (g : nat -> nat -> R) (h : nat -> nat -> nat -> R) : Prop :=
  length Xs = m /\ forall i, (i < m)%nat -> exists X, nth_error Xs i = Some X /\ shows c n X (f i) (g i) (h i).
(** Newton steps for [fs = 0] with the matrix [B]: [X_i - (B_i0 f_0(X, P) + B_i1 f_1(X, P) + ...)]. *)
Fixpoint lin (b : nat -> R) (fs : list (expr R)) : expr R :=
  match fs with [] => EConst 0 | f :: fs => EB Badd (EU (Usmul (b 0%nat)) f) (lin (fun j => b (Datatypes.S j)) fs) end.
Definition newtons (B : nat -> nat -> R) (fs : list (expr R)) : list (expr R) :=
  map (fun i => EB Bsub (EVar i) (lin (B i) fs)) (seq 0 (length fs)).
(** [x + y - p] and [x y - q] for the unknowns [x], [y] and the parameters [p], [q]; the Jacobian matrix at (2, 1) and its inverse. *)
Definition vieta : list (expr R) :=
  [EB Bsub (EB Badd (EVar 0) (EVar 1)) (EVar 2); EB Bsub (EB Bmul (EVar 0) (EVar 1)) (EVar 3)].
Definition vieta_jac (i j : nat) : R := match i, j with 1%nat, 1%nat => 2 | _, _ => 1 end.
Definition vieta_inv (i j : nat) : R := match i, j with 0%nat, 0%nat => 2 | 1%nat, 1%nat => 1 | _, _ => - 1 end.
Definition vieta_roots (q : nat -> R) (i : nat) : R :=
  let s := sqrt (q 0%nat * q 0%nat - 4 * q 1%nat) in match i with 0%nat => (q 0%nat + s) / 2 | _ => (q 0%nat - s) / 2 end.
Definition vieta_point (k : nat) : R := match k with 0%nat => 3 | _ => 2 end.
