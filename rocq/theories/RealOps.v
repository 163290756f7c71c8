(** Exact real arithmetic as a scalar type, and the real functions the library is meant to
    compute. *)
From Coq Require Import ZArith List Bool Reals Lra Lia.
From Verif Require Import Outcome Scalar Model.
Open Scope R_scope.

(** ** [std::] functions on the reals *)

(** [std::pow] on real arguments where it is defined: positive base; zero base with non-negative
    exponent; negative base with integer exponent.  Elsewhere the value is irrelevant (the C++
    result is NaN or infinite) and no theorem uses it. *)
Definition is_int (b : R) : bool := if Req_EM_T b (IZR (Int_part b)) then true else false.
Definition Rpow_std (x b : R) : R :=
  if Rlt_dec 0 x then Rpower x b
  else if Req_EM_T x 0 then (if Req_EM_T b 0 then 1 else if Rlt_dec 0 b then 0 else 0)
  else if is_int b then powerRZ x (Int_part b) else 0.

(** Real cube root. *)
Definition Rcbrt (x : R) : R :=
  if Rlt_dec 0 x then Rpower x (/ 3) else if Rlt_dec x 0 then - Rpower (- x) (/ 3) else 0.

(** [std::atan2(y, x)]: the angle of the point [(x, y)] in (-pi, pi]. *)
Definition Ratan2 (y x : R) : R :=
  if Rlt_dec 0 x then atan (y / x)
  else if Rlt_dec x 0 then (if Rle_dec 0 y then atan (y / x) + PI else atan (y / x) - PI)
  else if Rlt_dec 0 y then PI / 2 else if Rlt_dec y 0 then - (PI / 2) else 0.

Definition Racosh (x : R) : R := ln (x + sqrt (x * x - 1)).
Definition Ratanh (x : R) : R := / 2 * ln ((1 + x) / (1 - x)).

Definition Rltb (x y : R) : bool := if Rlt_dec x y then true else false.
Definition Rleb (x y : R) : bool := if Rle_dec x y then true else false.
Definition Reqb (x y : R) : bool := if Req_EM_T x y then true else false.

Definition Rops : Ops R := {|
  o_Z := IZR; o_half := / 2;
  o_add := Rplus; o_sub := Rminus; o_mul := Rmult; o_div := Rdiv; o_neg := Ropp;
  o_lt := Rltb; o_le := Rleb; o_eq := Reqb;
  o_pow := Rpow_std; o_sqrt := sqrt; o_cbrt := Rcbrt;
  o_cos := cos; o_sin := sin; o_tan := tan;
  o_acos := acos; o_asin := asin; o_atan := atan; o_atan2 := Ratan2;
  o_hypot := fun a b => sqrt (a * a + b * b);
  o_hypot3 := fun a b c => sqrt (a * a + b * b + c * c);
  o_cosh := cosh; o_sinh := sinh; o_tanh := tanh;
  o_acosh := Racosh; o_asinh := arcsinh; o_atanh := Ratanh;
  o_exp := exp; o_log := ln; o_log2 := fun x => ln x / ln 2; o_log10 := fun x => ln x / ln 10
|}.

Lemma Rltb_true x y : Rltb x y = true <-> x < y.
Proof. unfold Rltb. destruct (Rlt_dec x y); split; intros; try lra; try discriminate; auto. Qed.
Lemma Rltb_false x y : Rltb x y = false <-> ~ x < y.
Proof. unfold Rltb. destruct (Rlt_dec x y); split; intros; try lra; try discriminate; auto. Qed.

(** ** What the function symbols mean mathematically (no derivative information). *)
Definition ureal (u : ufun R) (x : R) : R :=
  match u with
  | Uneg => - x | Uabs => Rabs x | Upow b => Rpow_std x b
  | Usqrt => sqrt x | Ucbrt => Rcbrt x | Ureciprocal => / x
  | Ucos => cos x | Usin => sin x | Utan => tan x
  | Uacos => acos x | Uasin => asin x | Uatan => atan x
  | Ucosh => cosh x | Usinh => sinh x | Utanh => tanh x
  | Uacosh => Racosh x | Uasinh => arcsinh x | Uatanh => Ratanh x
  | Uexp => exp x | Ulog => ln x | Ulogb b => ln x / ln b
  | Ulog2 => ln x / ln 2 | Ulog10 => ln x / ln 10
  | Uadds b => x + b | Usadd a => a + x | Usubs b => x - b | Ussub a => a - x
  | Umuls b => x * b | Usmul a => a * x | Udivs b => x / b | Usdiv a => a / x
  end.
Definition breal (b : bfun) (x y : R) : R :=
  match b with
  | Badd => x + y | Bsub => x - y | Bmul => x * y | Bdiv => x / y
  | Batan2 => Ratan2 x y | Bhypot => sqrt (x * x + y * y)
  end.
Definition hreal (x y z : R) : R := sqrt (x * x + y * y + z * z).

(** The open domain on which each function is twice differentiable.  [pow] at 0 is included for
    natural exponents >= 2 (see the property on [pow] for exponents 0 and 1). *)
Definition udom (u : ufun R) (x : R) : Prop :=
  match u with
  | Upow b => 0 < x \/ (x <> 0 /\ exists z : Z, b = IZR z) \/ (exists k : nat, (2 <= k)%nat /\ b = INR k)
  | Usqrt => 0 < x
  | Uabs | Ucbrt | Ureciprocal | Usdiv _ => x <> 0
  | Utan => cos x <> 0
  | Uacos | Uasin | Uatanh => -1 < x < 1
  | Uacosh => 1 < x
  | Ulog | Ulog2 | Ulog10 => 0 < x
  | Ulogb b => 0 < x /\ 0 < b /\ b <> 1
  | Udivs b => b <> 0
  | _ => True
  end.
Definition bdom (b : bfun) (x y : R) : Prop :=
  match b with
  | Bdiv => y <> 0
  | Batan2 => ~ (x = 0 /\ y <= 0)
  | Bhypot => ~ (x = 0 /\ y = 0)
  | _ => True
  end.
Definition hdom (x y z : R) : Prop := ~ (x = 0 /\ y = 0 /\ z = 0).
