(** What [std::ostream] writes for a [double] in [operator<<] (include/hyperjet/hyperjet.h 955-959, 2103-2116), called
    by [to_string] (961-968, 2118-2125) on a fresh [std::stringstream].

    A fresh stream has no [fixed]/[scientific]/[showpos]/[showpoint] flag, precision 6, width 0; by the C++ standard
    ([facet.num.put.virtuals]) the number is then converted as by [printf] with "%.6g" (ISO C 7.21.6.1).  Assumed: the
    global locale is the classic one, the conversion is correctly rounded, ties to even (glibc, Annex F).  The model
    of [double] has one NaN; whether it is written "nan" or "-nan" is the parameter [neg_nan]. *)
From Coq Require Import ZArith Bool String Ascii.
From Flocq Require Import Core BinarySingleNaN.
From Verif Require Import Outcome Float64.
Open Scope string_scope.
Open Scope Z_scope.

(** The decimal digit [d], and the last [k] decimal digits of [n]. *)
Definition digit (d : Z) : ascii := ascii_of_nat (48 + Z.to_nat d).
Fixpoint digits (k : nat) (n : Z) : string :=
  match k with
  | O => ""
  | S k => digits k (n / 10) ++ String (digit (n mod 10)) ""
  end.
(** Number of digits of [n >= 0] without leading zeros (at least one). *)
Fixpoint width (fuel : nat) (n : Z) : nat :=
  match fuel with
  | O => 1
  | S k => if n <? 10 then 1 else S (width k (n / 10))
  end.
Definition int_text (n : Z) : string := digits (width (Z.to_nat (Z.log2 n)) n) n.

(** Integer nearest to [a / b], ties to even. *)
Definition rne (a b : Z) : Z :=
  let q := a / b in
  match 2 * (a mod b) ?= b with
  | Lt => q
  | Gt => q + 1
  | Eq => if Z.even q then q else q + 1
  end.
(** [num/den * 10^p], rounded. *)
Definition scaled (p num den : Z) : Z := if 0 <=? p then rne (num * 10 ^ p) den else rne num (den * 10 ^ (- p)).
(** [10^X <= num/den]. *)
Definition pow10_le (X num den : Z) : bool := if 0 <=? X then 10 ^ X * den <=? num else den <=? num * 10 ^ (- X).
(** The largest such [X], searched downwards from [X]; doubles lie between 10^-324 and 10^309. *)
Fixpoint exp10 (fuel : nat) (X num den : Z) : Z :=
  match fuel with
  | O => X
  | S k => if pow10_le X num den then X else exp10 k (X - 1) num den
  end.

(** Style e with [P] digits: digits (as a number) and exponent. *)
Definition sci (P num den : Z) : Z * Z :=
  let X := exp10 632 308 num den in
  let D := scaled (P - 1 - X) num den in
  if D =? 10 ^ P then (10 ^ (P - 1), X + 1) else (D, X).
(** The fractional digits without trailing zeros, with the point unless nothing remains. *)
Fixpoint strip0 (s : string) : string :=
  match s with
  | "" => ""
  | String a r => match strip0 r with
                  | "" => if Ascii.eqb a "0" then "" else String a ""
                  | r' => String a r'
                  end
  end.
Definition frac (s : string) : string := match strip0 s with "" => "" | t => "." ++ t end.
(** The exponent has a sign and at least two digits. *)
Definition exp_text (X : Z) : string :=
  "e" ++ (if X <? 0 then "-" else "+") ++ (if Z.abs X <? 10 then "0" else "") ++ int_text (Z.abs X).
Definition style_e (P num den : Z) : string :=
  let (D, X) := sci P num den in
  int_text (D / 10 ^ (P - 1)) ++ frac (digits (Z.to_nat (P - 1)) (D mod 10 ^ (P - 1))) ++ exp_text X.
(** Style f with [p] fractional digits. *)
Definition style_f (p num den : Z) : string :=
  let N := scaled p num den in int_text (N / 10 ^ p) ++ frac (digits (Z.to_nat p) (N mod 10 ^ p)).
(** Style g: style f if the exponent of style e lies in [-4, P), with [P - 1 - X] digits, else style e. *)
Definition style_g (P num den : Z) : string :=
  let X := snd (sci P num den) in
  if (-4 <=? X) && (X <? P) then style_f (P - 1 - X) num den else style_e P num den.

Definition sign_text (s : bool) : string := if s then "-" else "".
Definition text64 (neg_nan : bool) (x : b64) : string :=
  match x with
  | B754_zero s => sign_text s ++ "0"
  | B754_infinity s => sign_text s ++ "inf"
  | B754_nan => if neg_nan then "-nan" else "nan"
  | B754_finite s m e _ => sign_text s ++ style_g 6 (Zpos m * 2 ^ Z.max e 0) (2 ^ Z.max (- e) 0)
  end.
