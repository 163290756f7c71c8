(** Sparse numbers whose scalars are sparse numbers ([SScalar<SScalar<double>>]). *)
From Coq Require Import ZArith List Bool Reals String.
From Coquelicot Require Import Coquelicot.
From Verif Require Import Outcome Scalar Model Spec ModelS RealOps ExprSpec NumSpec NestSpec NestTSpec.
From Verif Require SpecS.
Import ListNotations.
Open Scope R_scope.

(** Functions of one number without a literal, without abs and without powers: [pow] of the outer class (2336-2344) takes an
    exponent of its scalar type and passes it to [pow] of the inner one, which takes numbers only (2717-2728). *)
Definition bare_u {S} (u : ufun S) : Prop :=
  match u with
  | Uabs | Upow _ | Ulogb _ | Uadds _ | Usadd _ | Usubs _ | Ussub _ | Umuls _ | Usmul _ | Udivs _ | Usdiv _ => False
  | _ => True
  end.
Fixpoint bare {S} (e : expr S) : Prop :=
  match e with
  | EVar _ | EConst _ => True
  | EU u a => bare_u u /\ bare a
  | EB _ a b => bare a /\ bare b
  | EH a b c => bare a /\ bare b /\ bare c
  end.
(** The expression evaluated on sparse variables whose values are sparse variables of the same names. *)
Definition evaluate_twice (nm : nat -> string) (p : nat -> R) (e : expr R) : ss (ss R) :=
  SpecS.s_run (sops Rops) (fun i => s_variable (sops Rops) (nm i) (s_variable Rops (nm i) (p i))) (emap s_ctor_f e).
(** The value is the sparse number of [F], the entry under each name the sparse number of that partial derivative: all second
    derivatives. *)
Definition twice (n : nat) (nm : nat -> string) (p : nat -> R) (F : (nat -> R) -> R) (r : ss (ss R)) : Prop :=
  sparse_of n nm p F (s_f r) /\
  exists D : nat -> (nat -> R) -> R, forall i, (i < n)%nat ->
    near n p (fun q => partial F i q (D i q)) /\ sparse_of n nm p (D i) (s_get_d (sops Rops) r (nm i)).
