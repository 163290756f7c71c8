(** Numbers whose scalars are numbers ([DDScalar<.., DDScalar<.., double, n>, n>]): the scalar
    operations of the outer level are the operators of the inner one, and what the components of
    such a number should be. *)
From Coq Require Import ZArith List Bool Reals.
From Coquelicot Require Import Coquelicot.
From Verif Require Import Outcome Scalar Model Spec RealOps ExprSpec NumSpec.
Import ListNotations.
Open Scope R_scope.

(** The result of an operation that returned normally. *)
Definition take {S} (m : res (dd S)) : dd S := match m with Ok x => x | _ => mk (-1)%Z [] end.

(** hyperjet.h 972-1724 as the scalar operations of another instance of the template.  A literal is
    converted by the constructor at 330-345; an exponent (a [double] in the code, 1253) is the value
    of the second operand; comparisons compare values.  An operator whose one operand is a literal
    is the operator on two numbers here. *)
Section Numbers.
  Context {S : Type} (O : Ops S) (c : cfg).
  Definition lit1 (s : S) : dd S := take (ctor_scalar O c s).
  Definition ap1 (u : ufun S) (x : dd S) : dd S := take (apply_u O c u x).
  Definition ap2 (b : bfun) (x y : dd S) : dd S := take (apply_b O c b x y).
  Definition value (x : dd S) : S := match get_f x with Ok v => v | _ => o_Z O 0 end.
  Definition holds (m : res bool) : bool := match m with Ok b => b | _ => false end.
  Definition dops : Ops (dd S) := {|
    o_Z := fun z => lit1 (o_Z O z); o_half := lit1 (o_half O);
    o_add := ap2 Badd; o_sub := ap2 Bsub; o_mul := ap2 Bmul; o_div := ap2 Bdiv; o_neg := ap1 Uneg;
    o_lt := fun x y => holds (compare O Clt x y);
    o_le := fun x y => holds (compare O Cle x y);
    o_eq := fun x y => holds (compare O Ceq x y);
    o_pow := fun x y => ap1 (Upow (value y)) x; o_sqrt := ap1 Usqrt; o_cbrt := ap1 Ucbrt;
    o_cos := ap1 Ucos; o_sin := ap1 Usin; o_tan := ap1 Utan;
    o_acos := ap1 Uacos; o_asin := ap1 Uasin; o_atan := ap1 Uatan;
    o_atan2 := ap2 Batan2; o_hypot := ap2 Bhypot; o_hypot3 := fun x y z => take (hypot3 O c x y z);
    o_cosh := ap1 Ucosh; o_sinh := ap1 Usinh; o_tanh := ap1 Utanh;
    o_acosh := ap1 Uacosh; o_asinh := ap1 Uasinh; o_atanh := ap1 Uatanh;
    o_exp := ap1 Uexp; o_log := ap1 Ulog; o_log2 := ap1 Ulog2; o_log10 := ap1 Ulog10
  |}.
End Numbers.

(** Numbers nested along a list of configurations, outermost first; real numbers at the bottom. *)
Fixpoint nest (cs : list cfg) : Type := match cs with [] => R | _ :: cs => dd (nest cs) end.
Fixpoint nops (cs : list cfg) : Ops (nest cs) :=
  match cs with [] => Rops | c :: cs => dops (nops cs) c end.
(** A real literal, and the variable number [i] with value [s] out of [n], at every level. *)
Fixpoint nlit (cs : list cfg) (s : R) : nest cs :=
  match cs with [] => s | c :: cs => lit1 (nops cs) c (nlit cs s) end.
Fixpoint nvar (n : nat) (cs : list cfg) (i : nat) (s : R) : nest cs :=
  match cs with
  | [] => s
  | c :: cs => take (variable_n (nops cs) c (Z.of_nat i) (nvar n cs i s) (Z.of_nat n))
  end.
(** The expression evaluated on nested variables with the values [p 0 .. p (n-1)]. *)
Definition evaluate_nested (n : nat) (c : cfg) (cs : list cfg) (p : nat -> R) (e : expr R) : res (nest (c :: cs)) :=
  evaluate (nops cs) c (map (fun i => nvar n cs i (p i)) (seq 0 n)) (emap (nlit cs) e).

(** An inner level: static size [n]. *)
Definition inner (n : nat) (c : cfg) : Prop := cfg_ok c /\ is_dynamic c = false /\ size_ok c n.

(** What the number should hold: its value is the nested number of [F], its gradient the nested
    numbers of the partial derivatives of [F], its Hessian those of the second ones - where
    the derivatives are functions defined around [p]. *)
Fixpoint derivs (n : nat) (p : nat -> R) (cs : list cfg) (F : (nat -> R) -> R) {struct cs} : nest cs -> Prop :=
  match cs return nest cs -> Prop with
  | [] => fun x => x = F p
  | c :: cs => fun x => exists (f : nest cs) g h (D : nat -> (nat -> R) -> R) (D2 : nat -> nat -> (nat -> R) -> R),
      shows c n x f g h /\ derivs n p cs F f /\
      (forall i, (i < n)%nat -> near n p (fun q => partial F i q (D i q)) /\ derivs n p cs (D i) (g i)) /\
      (c_ord c = 2%Z -> forall i j, (i < n)%nat -> (j < n)%nat ->
         near n p (fun q => partial (D j) i q (D2 i j q)) /\ derivs n p cs (D2 i j) (h i j))
  end.

(** The domain of an expression, with enough room for [k] levels: a power of a number that may be
    zero needs a natural exponent of at least [2 k]. *)
Definition usmooth (k : nat) (u : ufun R) (x : R) : Prop :=
  match u with
  | Upow b => 0 < x \/ (x <> 0 /\ exists z : Z, b = IZR z) \/ (exists m : nat, (2 * k <= m)%nat /\ b = INR m)
  | _ => udom u x
  end.
Fixpoint smooth (k : nat) (e : expr R) (p : nat -> R) : Prop :=
  match e with
  | EVar _ | EConst _ => True
  | EU u e => smooth k e p /\ usmooth k u (rev e p)
  | EB b e1 e2 => smooth k e1 p /\ smooth k e2 p /\ bdom b (rev e1 p) (rev e2 p)
  | EH e1 e2 e3 => smooth k e1 p /\ smooth k e2 p /\ smooth k e3 p /\ hdom (rev e1 p) (rev e2 p) (rev e3 p)
  end.

(** One variable: the component reached by taking the first gradient entry at every level. *)
Fixpoint deepest (cs : list cfg) (v : R) {struct cs} : nest cs -> Prop :=
  match cs return nest cs -> Prop with
  | [] => fun x => x = v
  | c :: cs => fun x => exists g, get_g c x 0 = Ok g /\ deepest cs v g
  end.
