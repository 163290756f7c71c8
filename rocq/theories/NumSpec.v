(** Accuracy of the derivatives when the scalar type is [double]: polynomial expressions, checked
    arithmetic, and the quantities the error is measured with. *)
From Coq Require Import ZArith List Bool Reals.
From Flocq Require Import Core BinarySingleNaN.
From Verif Require Import Outcome Scalar Float64 Model Spec RealOps ExprSpec Ops64.
Import ListNotations.

(** Expressions made of variables, literals, [+], [-], [*], negation and the operators with a scalar
    on one side; division by a scalar is included if [d]. *)
Fixpoint arith {S} (d : bool) (e : expr S) : Prop :=
  match e with
  | EVar _ | EConst _ => True
  | EU u e => arith d e /\
      match u with
      | Uneg | Uadds _ | Usadd _ | Usubs _ | Ussub _ | Umuls _ | Usmul _ => True
      | Udivs _ => d = true
      | _ => False
      end
  | EB b e1 e2 => arith d e1 /\ arith d e2 /\ match b with Badd | Bsub | Bmul => True | _ => False end
  | EH _ _ _ => False
  end.

(** The same expression with its literals converted. *)
Definition umap {S T} (phi : S -> T) (u : ufun S) : ufun T :=
  match u with
  | Uneg => Uneg | Uabs => Uabs | Upow b => Upow (phi b) | Usqrt => Usqrt | Ucbrt => Ucbrt
  | Ureciprocal => Ureciprocal | Ucos => Ucos | Usin => Usin | Utan => Utan
  | Uacos => Uacos | Uasin => Uasin | Uatan => Uatan
  | Ucosh => Ucosh | Usinh => Usinh | Utanh => Utanh
  | Uacosh => Uacosh | Uasinh => Uasinh | Uatanh => Uatanh
  | Uexp => Uexp | Ulog => Ulog | Ulogb b => Ulogb (phi b) | Ulog2 => Ulog2 | Ulog10 => Ulog10
  | Uadds b => Uadds (phi b) | Usadd a => Usadd (phi a) | Usubs b => Usubs (phi b)
  | Ussub a => Ussub (phi a) | Umuls b => Umuls (phi b) | Usmul a => Usmul (phi a)
  | Udivs b => Udivs (phi b) | Usdiv a => Usdiv (phi a)
  end.
Fixpoint emap {S T} (phi : S -> T) (e : expr S) : expr T :=
  match e with
  | EVar i => EVar i
  | EConst s => EConst (phi s)
  | EU u e => EU (umap phi u) (emap phi e)
  | EB b e1 e2 => EB b (emap phi e1) (emap phi e2)
  | EH e1 e2 e3 => EH (emap phi e1) (emap phi e2) (emap phi e3)
  end.

(** Number of roundings on the longest path: three for a product, one for a sum. *)
Fixpoint roundings {S} (e : expr S) : nat :=
  match e with
  | EVar _ | EConst _ | EH _ _ _ => 0
  | EU u e => match u with Uneg => 0 | Udivs _ => 2 | _ => 1 end + roundings e
  | EB Bmul e1 e2 => 3 + (roundings e1 + roundings e2)
  | EB _ e1 e2 => 1 + Nat.max (roundings e1) (roundings e2)
  end.

(** Real arithmetic without cancellation: every difference becomes a sum. *)
Definition Mops : Ops R := {|
  o_Z := IZR; o_half := o_half Rops;
  o_add := Rplus; o_sub := Rplus; o_mul := Rmult; o_div := Rdiv; o_neg := fun x => x;
  o_lt := o_lt Rops; o_le := o_le Rops; o_eq := o_eq Rops;
  o_pow := o_pow Rops; o_sqrt := o_sqrt Rops; o_cbrt := o_cbrt Rops;
  o_cos := o_cos Rops; o_sin := o_sin Rops; o_tan := o_tan Rops;
  o_acos := o_acos Rops; o_asin := o_asin Rops; o_atan := o_atan Rops; o_atan2 := o_atan2 Rops;
  o_hypot := o_hypot Rops; o_hypot3 := o_hypot3 Rops;
  o_cosh := o_cosh Rops; o_sinh := o_sinh Rops; o_tanh := o_tanh Rops;
  o_acosh := o_acosh Rops; o_asinh := o_asinh Rops; o_atanh := o_atanh Rops;
  o_exp := o_exp Rops; o_log := o_log Rops; o_log2 := o_log2 Rops; o_log10 := o_log10 Rops
|}.
Definition abs64 (v : b64) : R := Rabs (val64 v).

(** [double] arithmetic that notices exceptional results: [None] once an operand or a result is
    infinite or NaN, or a product or quotient of non-zero numbers is not above the smallest normal
    number. *)
Definition seen (v : b64) : option b64 := if is_finite v then Some v else None.
Definition is0 (v : b64) : bool := match v with B754_zero _ => true | _ => false end.
Definition min_normal : b64 := binary_normalize prec64 emax64 prec64_gt_0 prec64_lt_emax mode_NE 1 (-1022) false.
Definition sized (v : b64) : option b64 := if is_finite v && Bltb min_normal (Babs v) then Some v else None.
Definition opt1 {A B} (f : A -> B) (a : option A) : option B := match a with Some x => Some (f x) | None => None end.
Definition opt2 {A B C} (f : A -> B -> option C) (a : option A) (b : option B) : option C :=
  match a, b with Some x, Some y => f x y | _, _ => None end.
Definition chk_add (a b : b64) : option b64 := seen (b64_add a b).
Definition chk_sub (a b : b64) : option b64 := seen (b64_sub a b).
Definition chk_mul (a b : b64) : option b64 := if is0 a || is0 b then seen (b64_mul a b) else sized (b64_mul a b).
Definition chk_div (a b : b64) : option b64 :=
  if is0 b then None else if is0 a then seen (b64_div a b) else sized (b64_div a b).
(** All other functions are reported as exceptional: they do not occur in [arith] expressions. *)
Definition chk64 : Ops (option b64) := {|
  o_Z := fun z => seen (b64_of_Z z); o_half := None;
  o_add := opt2 chk_add; o_sub := opt2 chk_sub; o_mul := opt2 chk_mul; o_div := opt2 chk_div;
  o_neg := opt1 b64_neg;
  o_lt := fun _ _ => false; o_le := fun _ _ => false; o_eq := fun _ _ => false;
  o_pow := fun _ _ => None; o_sqrt := fun _ => None; o_cbrt := fun _ => None;
  o_cos := fun _ => None; o_sin := fun _ => None; o_tan := fun _ => None;
  o_acos := fun _ => None; o_asin := fun _ => None; o_atan := fun _ => None; o_atan2 := fun _ _ => None;
  o_hypot := fun _ _ => None; o_hypot3 := fun _ _ _ => None;
  o_cosh := fun _ => None; o_sinh := fun _ => None; o_tanh := fun _ => None;
  o_acosh := fun _ => None; o_asinh := fun _ => None; o_atanh := fun _ => None;
  o_exp := fun _ => None; o_log := fun _ => None; o_log2 := fun _ => None; o_log10 := fun _ => None
|}.

(** Integer arithmetic that notices results beyond 2^53. *)
Definition small (z : Z) : option Z := if (Z.abs z <=? 2 ^ 53)%Z then Some z else None.
Definition int53 : Ops (option Z) := {|
  o_Z := small; o_half := None;
  o_add := opt2 (fun a b => small (a + b)); o_sub := opt2 (fun a b => small (a - b));
  o_mul := opt2 (fun a b => small (a * b)); o_div := fun _ _ => None; o_neg := opt1 Z.opp;
  o_lt := fun _ _ => false; o_le := fun _ _ => false; o_eq := fun _ _ => false;
  o_pow := fun _ _ => None; o_sqrt := fun _ => None; o_cbrt := fun _ => None;
  o_cos := fun _ => None; o_sin := fun _ => None; o_tan := fun _ => None;
  o_acos := fun _ => None; o_asin := fun _ => None; o_atan := fun _ => None; o_atan2 := fun _ _ => None;
  o_hypot := fun _ _ => None; o_hypot3 := fun _ _ _ => None;
  o_cosh := fun _ => None; o_sinh := fun _ => None; o_tanh := fun _ => None;
  o_acosh := fun _ => None; o_asinh := fun _ => None; o_atanh := fun _ => None;
  o_exp := fun _ => None; o_log := fun _ => None; o_log2 := fun _ => None; o_log10 := fun _ => None
|}.

(** The point whose coordinates are the listed numbers. *)
Definition at64 (vs : list b64) : nat -> R := fun i => nth i (map val64 vs) 0%R.
Definition atZ (vs : list Z) : nat -> R := fun i => nth i (map IZR vs) 0%R.

(** [variables(vs)] followed by the expression. *)
Definition evaluate {S} (O : Ops S) (c : cfg) (vs : list S) (e : expr S) : res (dd S) :=
  xs <- variables O c vs ;; run O c (length vs) xs e.
(** The number is complete: every component is [Some]. *)
Definition clean {S} (x : dd (option S)) : Prop := forall k, nth_error (m_data x) k <> Some (Some None).
