(** Dense variables and named parameters: a dense number of sparse numbers for the sensitivities of derivatives. *)
From Coq Require Import ZArith List Bool Reals String.
From Coquelicot Require Import Coquelicot.
From Verif Require Import Outcome Scalar Model Spec ModelS RealOps ExprSpec NumSpec NestSpec NestTSpec.
Import ListNotations.
Open Scope R_scope.

(** The constants of the parameters [n .. n + k - 1]. *)
Fixpoint constants (nm : nat -> string) (c : cfg) (p : nat -> R) (n : nat) (is : list nat) : res (list (dd (ss R))) :=
  match is with
  | [] => Ok []
  | i :: is => x <- constant_n (sops Rops) c (s_variable Rops (nm i) (p i)) (Z.of_nat n) ;; xs <- constants nm c p n is ;; Ok (x :: xs)
  end.
(** The expression evaluated on [n] dense variables and [k] dense constants, all with sparse variables as values. *)
Definition evaluate_params (n k : nat) (nm : nat -> string) (c : cfg) (p : nat -> R) (e : expr R) : res (dd (ss R)) :=
  xs <- variables (sops Rops) c (map (fun i => s_variable Rops (nm i) (p i)) (seq 0 n)) ;;
  ks <- constants nm c p n (seq n k) ;;
  run (sops Rops) c n (xs ++ ks) (emap s_ctor_f e).
(** The dense number has size [n]; its value, its gradient entries and its Hessian entries are sparse numbers with all [n + k] names. *)
Definition sensitive (n k : nat) (nm : nat -> string) (c : cfg) (p : nat -> R) (F : (nat -> R) -> R) (r : dd (ss R)) : Prop :=
  exists (f : ss R) g h (D : nat -> (nat -> R) -> R) (D2 : nat -> nat -> (nat -> R) -> R),
  shows c n r f g h /\ sparse_of (n + k) nm p F f /\
  (forall i, (i < n)%nat -> near (n + k) p (fun q => partial F i q (D i q)) /\ sparse_of (n + k) nm p (D i) (g i)) /\
  (c_ord c = 2%Z -> forall i j, (i < n)%nat -> (j < n)%nat ->
     near (n + k) p (fun q => partial (D j) i q (D2 i j q)) /\ sparse_of (n + k) nm p (D2 i j) (h i j)).
