(** Doubles that carry a bound on their distance from the exact value. *)
From Coq Require Import ZArith List Bool Reals.
From Flocq Require Import Core BinarySingleNaN.
From Verif Require Import Outcome Scalar Float64 Model Spec RealOps ExprSpec Ops64 NumSpec.
Import ListNotations.
Open Scope R_scope.

(** A double and a bound; [None]: nothing is known. *)
Definition tracked := option (b64 * R).
(** The exact value [x] is within the bound; the double is [v]. *)
Definition within (x : R) (t : tracked) : Prop :=
  match t with Some (v, d) => finite64 v /\ Rabs (val64 v - x) <= d | None => True end.
Definition carries (v : b64) (t : tracked) : Prop :=
  match t with Some (w, _) => v = w | None => True end.
Definition exactly (v : b64) : tracked := if is_finite v then Some (v, 0) else None.

(** The result [r] of an operation whose exact result on the same doubles is [y]: the rounding error of this
    operation plus [moved], a bound on how much the exact result changes when the operands move within their
    bounds. *)
Definition rounded (ok : bool) (r : b64) (y moved : R) : tracked :=
  if ok && is_finite r then Some (r, Rabs (val64 r - y) + moved) else None.
(** One operand: [L x d] bounds the derivative of [F] on [[x - d, x + d]]. *)
Definition tr1 (m : b64 -> b64) (F : R -> R) (ok : R -> R -> bool) (L : R -> R -> R) (t : tracked) : tracked :=
  match t with
  | Some (v, d) => rounded (ok (val64 v) d) (m v) (F (val64 v)) (L (val64 v) d * d)
  | None => None
  end.
Definition tr2 (m : b64 -> b64 -> b64) (F : R -> R -> R) (ok : R -> R -> R -> R -> bool) (mv : R -> R -> R -> R -> R)
  (t t' : tracked) : tracked :=
  match t, t' with
  | Some (v, d), Some (w, e) =>
      rounded (ok (val64 v) d (val64 w) e) (m v w) (F (val64 v) (val64 w)) (mv (val64 v) d (val64 w) e)
  | _, _ => None
  end.
Definition tr3 (m : b64 -> b64 -> b64 -> b64) (F : R -> R -> R -> R) (t t' t'' : tracked) : tracked :=
  match t, t', t'' with
  | Some (v, d), Some (w, e), Some (z, k) => rounded true (m v w z) (F (val64 v) (val64 w) (val64 z)) (d + e + k)
  | _, _, _ => None
  end.
Definition anywhere (x d : R) : bool := true.
Definition anywhere2 (x d y e : R) : bool := true.
Definition quot_moved (x d y e : R) : R := (Rabs x * e + Rabs y * d) / (Rabs y * (Rabs y - e)).

Definition Eops (M : libm) : Ops tracked := {|
  o_Z := fun z => rounded true (b64_of_Z z) (IZR z) 0;
  o_half := rounded true (o_half (b64ops M)) (/ 2) 0;
  o_add := tr2 b64_add Rplus anywhere2 (fun x d y e => d + e);
  o_sub := tr2 b64_sub Rminus anywhere2 (fun x d y e => d + e);
  o_mul := tr2 b64_mul Rmult anywhere2 (fun x d y e => Rabs x * e + Rabs y * d + d * e);
  o_div := tr2 b64_div Rdiv (fun x d y e => Rltb e (Rabs y)) quot_moved;
  o_neg := tr1 b64_neg Ropp anywhere (fun x d => 1);
  o_lt := fun _ _ => false; o_le := fun _ _ => false; o_eq := fun _ _ => false;
  (** positive base, exact exponent *)
  o_pow := tr2 (m_pow M) Rpow_std (fun x d y e => Rltb d x && Reqb e 0)
    (fun x d y e => Rabs y * (Rpower (x - d) (y - 1) + Rpower (x + d) (y - 1)) * d);
  o_sqrt := tr1 b64_sqrt sqrt (fun x d => Rltb d x) (fun x d => / (2 * sqrt (x - d)));
  o_cbrt := tr1 (m_cbrt M) Rcbrt (fun x d => Rltb d (Rabs x)) (fun x d => Rcbrt (Rabs x + d) / (3 * (Rabs x - d)));
  o_cos := tr1 (m_cos M) cos anywhere (fun x d => 1);
  o_sin := tr1 (m_sin M) sin anywhere (fun x d => 1);
  o_tan := tr1 (m_tan M) tan (fun x d => Rltb (Rabs x + d) (PI / 2)) (fun x d => tan (Rabs x + d) * tan (Rabs x + d) + 1);
  o_acos := tr1 (m_acos M) acos (fun x d => Rltb (Rabs x + d) 1) (fun x d => / sqrt (1 - (Rabs x + d) * (Rabs x + d)));
  o_asin := tr1 (m_asin M) asin (fun x d => Rltb (Rabs x + d) 1) (fun x d => / sqrt (1 - (Rabs x + d) * (Rabs x + d)));
  o_atan := tr1 (m_atan M) atan anywhere (fun x d => 1);
  (** right half-plane *)
  o_atan2 := tr2 (m_atan2 M) Ratan2 (fun y e x d => Rltb d x) quot_moved;
  o_hypot := tr2 (m_hypot M) (fun a b => sqrt (a * a + b * b)) anywhere2 (fun x d y e => d + e);
  o_hypot3 := tr3 (m_hypot3 M) (fun a b c => sqrt (a * a + b * b + c * c));
  o_cosh := tr1 (m_cosh M) cosh anywhere (fun x d => exp (Rabs x + d));
  o_sinh := tr1 (m_sinh M) sinh anywhere (fun x d => exp (Rabs x + d));
  o_tanh := tr1 (m_tanh M) tanh anywhere (fun x d => 1);
  o_acosh := tr1 (m_acosh M) Racosh (fun x d => Rltb 1 (x - d)) (fun x d => / sqrt ((x - d) * (x - d) - 1));
  o_asinh := tr1 (m_asinh M) arcsinh anywhere (fun x d => 1);
  o_atanh := tr1 (m_atanh M) Ratanh (fun x d => Rltb (Rabs x + d) 1) (fun x d => / (1 - (Rabs x + d) * (Rabs x + d)));
  o_exp := tr1 (m_exp M) exp anywhere (fun x d => exp (x + d));
  o_log := tr1 (m_log M) ln (fun x d => Rltb d x) (fun x d => / (x - d));
  o_log2 := tr1 (m_log2 M) (fun x => ln x / ln 2) (fun x d => Rltb d x) (fun x d => / ((x - d) * ln 2));
  o_log10 := tr1 (m_log10 M) (fun x => ln x / ln 10) (fun x d => Rltb d x) (fun x d => / ((x - d) * ln 10))
|}.

(** The double [v] is within the bound of the exact value [x], if there is a bound. *)
Definition bounded (x : R) (v : b64) (t : tracked) : Prop :=
  match t with Some (w, d) => v = w /\ finite64 v /\ Rabs (val64 v - x) <= d | None => True end.
(** Half the smallest positive double. *)
Definition eta64 : R := bpow radix2 (-1075).
