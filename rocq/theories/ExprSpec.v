(** Expressions over the public API, their execution in the model, and the real functions they
    denote, with partial derivatives in the textbook sense. *)
From Coq Require Import ZArith List Bool Reals.
From Coquelicot Require Import Coquelicot.
From Verif Require Import Outcome Scalar Model Spec RealOps.
Import ListNotations.

(** Every operator and function of the library; [u] includes the operators with a scalar on
    either side. *)
Inductive expr (S : Type) :=
| EVar (i : nat)
| EConst (s : S)
| EU (u : ufun S) (e : expr S)
| EB (b : bfun) (e1 e2 : expr S)
| EH (e1 e2 e3 : expr S).        (* hypot(a, b, c) *)
Arguments EVar {S}. Arguments EConst {S}. Arguments EU {S}. Arguments EB {S}. Arguments EH {S}.

(** Evaluate on numbers of size [n]; [EVar i] is the [i]-th element of [env], literals become
    [constant(s, n)]. *)
Fixpoint run {S} (O : Ops S) (c : cfg) (n : nat) (env : list (dd S)) (e : expr S) : res (dd S) :=
  match e with
  | EVar i => match nth_error env i with Some x => Ok x | None => UB end
  | EConst s => constant_n O c s (Z.of_nat n)
  | EU u e => x <- run O c n env e ;; apply_u O c u x
  | EB b e1 e2 => x <- run O c n env e1 ;; y <- run O c n env e2 ;; apply_b O c b x y
  | EH e1 e2 e3 => x <- run O c n env e1 ;; y <- run O c n env e2 ;; z <- run O c n env e3 ;;
                   hypot3 O c x y z
  end.

Fixpoint vars_below {S} (n : nat) (e : expr S) : Prop :=
  match e with
  | EVar i => (i < n)%nat
  | EConst _ => True
  | EU _ e => vars_below n e
  | EB _ e1 e2 => vars_below n e1 /\ vars_below n e2
  | EH e1 e2 e3 => vars_below n e1 /\ vars_below n e2 /\ vars_below n e3
  end.

(** The real function denoted by an expression, and its (open) domain. *)
Fixpoint rev (e : expr R) (p : nat -> R) : R :=
  match e with
  | EVar i => p i
  | EConst s => s
  | EU u e => ureal u (rev e p)
  | EB b e1 e2 => breal b (rev e1 p) (rev e2 p)
  | EH e1 e2 e3 => hreal (rev e1 p) (rev e2 p) (rev e3 p)
  end.
Fixpoint dom (e : expr R) (p : nat -> R) : Prop :=
  match e with
  | EVar _ | EConst _ => True
  | EU u e => dom e p /\ udom u (rev e p)
  | EB b e1 e2 => dom e1 p /\ dom e2 p /\ bdom b (rev e1 p) (rev e2 p)
  | EH e1 e2 e3 => dom e1 p /\ dom e2 p /\ dom e3 p /\ hdom (rev e1 p) (rev e2 p) (rev e3 p)
  end.

Open Scope R_scope.
(** The point [p] with its [i]-th coordinate replaced. *)
Definition set_at (p : nat -> R) (i : nat) (t : R) : nat -> R := fun k => if Nat.eqb k i then t else p k.
(** [d F / d x_i (p) = l]. *)
Definition partial (F : (nat -> R) -> R) (i : nat) (p : nat -> R) (l : R) : Prop :=
  is_derive (fun t => F (set_at p i t)) (p i) l.
(** [d/dx_i (d F / d x_j) (p) = l]: near [p] along [x_i] the partial derivative in [x_j] exists and
    is the function [D], whose derivative is [l]. *)
Definition partial2 (F : (nat -> R) -> R) (i j : nat) (p : nat -> R) (l : R) : Prop :=
  exists D : R -> R,
    locally (p i) (fun s => partial F j (set_at p i s) (D s)) /\ is_derive D (p i) l.

(** [f 0 + ... + f (n-1)] *)
Fixpoint rsum (n : nat) (f : nat -> R) : R :=
  match n with O => 0 | S k => rsum k f + f k end.
(** The line through [p] with direction [u]. *)
Definition along (p u : nat -> R) (t : R) : nat -> R := fun k => p k + t * u k.
(** The values of the first [n] coordinates. *)
Definition coords (n : nat) (p : nat -> R) : list R := map p (seq 0 n).

(** Derivative of [F] at [p] in direction [u], and the mixed second derivative: the derivative in
    direction [u] of the derivative in direction [v]. *)
Definition dirder (F : (nat -> R) -> R) (u p : nat -> R) (l : R) : Prop :=
  is_derive (fun t => F (along p u t)) 0 l.
Definition dirder2 (F : (nat -> R) -> R) (u v p : nat -> R) (l : R) : Prop :=
  exists D : R -> R, locally 0 (fun s => dirder F v (along p u s) (D s)) /\ is_derive D 0 l.

(** Relabelling of the variables: variable [i] of [y] is variable [rho i] of [x], or does not occur
    in [x]. *)
Definition pick (g : nat -> R) (o : option nat) : R := match o with Some k => g k | None => 0 end.
Definition pick2 (h : nat -> nat -> R) (o o' : option nat) : R :=
  match o, o' with Some k, Some l => h k l | _, _ => 0 end.
Definition relabels (c c' : cfg) (n m : nat) (rho : nat -> option nat) (x y : dd R) : Prop :=
  exists f g h, shows c n x f g h /\
    shows c' m y f (fun i => pick g (rho i)) (fun i j => pick2 h (rho i) (rho j)).

(** [P] holds for all points close to [p] in the first [N] coordinates. *)
Definition near (N : nat) (p : nat -> R) (P : (nat -> R) -> Prop) : Prop :=
  exists d, 0 < d /\ forall q, (forall k, (k < N)%nat -> Rabs (q k - p k) < d) -> P q.

(** Both expressions, evaluated on the numbers [xs], succeed and give identical data. *)
Definition same (c : cfg) (n : nat) (xs : list (dd R)) (e1 e2 : expr R) : Prop :=
  agree c (run Rops c n xs e1) (run Rops c n xs e2).
(** Infix notation for the library's operators and functions in expressions. *)
Declare Scope expr_scope.
Delimit Scope expr_scope with E.
Arguments EU {S} u e%E. Arguments EB {S} b (e1 e2)%E. Arguments EH {S} (e1 e2 e3)%E.
Definition X : expr R := EVar 0.
Definition Y : expr R := EVar 1.
Definition Z3 : expr R := EVar 2.
Notation "a + b" := (EB Badd a b) : expr_scope.
Notation "a - b" := (EB Bsub a b) : expr_scope.
Notation "a * b" := (EB Bmul a b) : expr_scope.
Notation "a / b" := (EB Bdiv a b) : expr_scope.
Notation "- a" := (EU Uneg a) : expr_scope.
Arguments same c n xs (e1 e2)%E.

(** The product X * ... * X * 1 with [k] factors X. *)
Fixpoint epow (k : nat) : expr R := match k with O => EConst 1 | S k => (X * epow k)%E end.
