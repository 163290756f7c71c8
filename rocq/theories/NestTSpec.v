(** Dense numbers whose scalars are sparse numbers ([DDScalar<order, SScalar<double>, size>]): the scalar
    operations of the outer level are the operators of the sparse class, and what the components of such
    a number should be. *)
From Coq Require Import ZArith List Bool Reals String.
From Coquelicot Require Import Coquelicot.
From Verif Require Import Outcome Scalar Model Spec ModelS RealOps ExprSpec NumSpec NestSpec.
Import ListNotations.
Open Scope R_scope.

(** hyperjet.h 2141-2690 as the scalar operations of the dense template.  A literal is converted by the
    constructor at 2047; an exponent is the value of the second operand; comparisons compare values.  An
    operator whose one operand is a literal is the operator on two numbers here, as in [dops]. *)
Definition sops {S} (O : Ops S) : Ops (ss S) := {|
  o_Z := fun z => s_ctor_f (o_Z O z); o_half := s_ctor_f (o_half O);
  o_add := s_apply_b O Badd; o_sub := s_apply_b O Bsub; o_mul := s_apply_b O Bmul; o_div := s_apply_b O Bdiv;
  o_neg := s_apply_u O Uneg;
  o_lt := ss_compare O Clt; o_le := ss_compare O Cle; o_eq := ss_compare O Ceq;
  o_pow := fun x y => s_apply_u O (Upow (s_f y)) x; o_sqrt := s_apply_u O Usqrt; o_cbrt := s_apply_u O Ucbrt;
  o_cos := s_apply_u O Ucos; o_sin := s_apply_u O Usin; o_tan := s_apply_u O Utan;
  o_acos := s_apply_u O Uacos; o_asin := s_apply_u O Uasin; o_atan := s_apply_u O Uatan;
  o_atan2 := s_apply_b O Batan2; o_hypot := s_apply_b O Bhypot; o_hypot3 := s_hypot3 O;
  o_cosh := s_apply_u O Ucosh; o_sinh := s_apply_u O Usinh; o_tanh := s_apply_u O Utanh;
  o_acosh := s_apply_u O Uacosh; o_asinh := s_apply_u O Uasinh; o_atanh := s_apply_u O Uatanh;
  o_exp := s_apply_u O Uexp; o_log := s_apply_u O Ulog; o_log2 := s_apply_u O Ulog2; o_log10 := s_apply_u O Ulog10
|}.
(** The expression evaluated on dense variables whose values are sparse variables with the names [nm 0 .. nm (n-1)]
    and the values [p 0 .. p (n-1)]. *)
Definition evaluate_sparse (n : nat) (nm : nat -> string) (c : cfg) (p : nat -> R) (e : expr R) : res (dd (ss R)) :=
  evaluate (sops Rops) c (map (fun i => s_variable Rops (nm i) (p i)) (seq 0 n)) (emap s_ctor_f e).
(** The sparse number of [F]: its value, and under each name its partial derivative. *)
Definition sparse_of (n : nat) (nm : nat -> string) (p : nat -> R) (F : (nat -> R) -> R) (x : ss R) : Prop :=
  s_f x = F p /\ forall i, (i < n)%nat -> partial F i p (s_get_d Rops x (nm i)).
(** The dense number holds the sparse numbers of [F] and its derivatives. *)
Definition mixed (n : nat) (nm : nat -> string) (c : cfg) (p : nat -> R) (F : (nat -> R) -> R) (r : dd (ss R)) : Prop :=
  exists (f : ss R) g h (D : nat -> (nat -> R) -> R) (D2 : nat -> nat -> (nat -> R) -> R),
  shows c n r f g h /\ sparse_of n nm p F f /\
  (forall i, (i < n)%nat -> near n p (fun q => partial F i q (D i q)) /\ sparse_of n nm p (D i) (g i)) /\
  (c_ord c = 2%Z -> forall i j, (i < n)%nat -> (j < n)%nat ->
     near n p (fun q => partial (D j) i q (D2 i j q)) /\ sparse_of n nm p (D2 i j) (h i j)).
