(** [double] arithmetic when the compiler may contract [a * b + c] into one fused multiply-add (the default
    of GCC, [-ffp-contract=fast], on processors that have the instruction). *)
From Coq Require Import ZArith List Bool Reals.
From Flocq Require Import Core BinarySingleNaN.
From Verif Require Import Outcome Scalar Float64 Model Spec RealOps ExprSpec Ops64 NumSpec ErrSpec.
Import ListNotations.
Open Scope R_scope.

(** One rounding: [x * y + z]. *)
Definition b64_fma : b64 -> b64 -> b64 -> b64 := Bfma mode_NE.

(** The operations that lead to a scalar. *)
Inductive tree :=
| TLit (v : b64) | TZ (z : Z) | THalf
| TAdd (a b : tree) | TSub (a b : tree) | TMul (a b : tree) | TDiv (a b : tree) | TNeg (a : tree) | TSqrt (a : tree)
| TCall1 (f : libm -> b64 -> b64) (a : tree)
| TCall2 (f : libm -> b64 -> b64 -> b64) (a b : tree)
| TCall3 (f : libm -> b64 -> b64 -> b64 -> b64) (a b d : tree).
(** A scalar type that records the operations.  Scalars are compared only by [abs]; excluded below. *)
Definition Tops : Ops tree := {|
  o_Z := TZ; o_half := THalf; o_add := TAdd; o_sub := TSub; o_mul := TMul; o_div := TDiv; o_neg := TNeg;
  o_lt := fun _ _ => false; o_le := fun _ _ => false; o_eq := fun _ _ => false;
  o_pow := TCall2 m_pow; o_sqrt := TSqrt; o_cbrt := TCall1 m_cbrt;
  o_cos := TCall1 m_cos; o_sin := TCall1 m_sin; o_tan := TCall1 m_tan;
  o_acos := TCall1 m_acos; o_asin := TCall1 m_asin; o_atan := TCall1 m_atan; o_atan2 := TCall2 m_atan2;
  o_hypot := TCall2 m_hypot; o_hypot3 := TCall3 m_hypot3;
  o_cosh := TCall1 m_cosh; o_sinh := TCall1 m_sinh; o_tanh := TCall1 m_tanh;
  o_acosh := TCall1 m_acosh; o_asinh := TCall1 m_asinh; o_atanh := TCall1 m_atanh;
  o_exp := TCall1 m_exp; o_log := TCall1 m_log; o_log2 := TCall1 m_log2; o_log10 := TCall1 m_log10
|}.

(** [evals T v]: some choice of contractions computes [v].  Every sum or difference one of whose operands is a
    product, or a negated product, may be fused; every occurrence is decided on its own. *)
Inductive evals (M : libm) : tree -> b64 -> Prop :=
| ev_lit v : evals M (TLit v) v
| ev_Z z : evals M (TZ z) (b64_of_Z z)
| ev_half : evals M THalf (o_half (b64ops M))
| ev_add a b x y : evals M a x -> evals M b y -> evals M (TAdd a b) (b64_add x y)
| ev_sub a b x y : evals M a x -> evals M b y -> evals M (TSub a b) (b64_sub x y)
| ev_mul a b x y : evals M a x -> evals M b y -> evals M (TMul a b) (b64_mul x y)
| ev_div a b x y : evals M a x -> evals M b y -> evals M (TDiv a b) (b64_div x y)
| ev_neg a x : evals M a x -> evals M (TNeg a) (b64_neg x)
| ev_sqrt a x : evals M a x -> evals M (TSqrt a) (b64_sqrt x)
| ev_call1 f a x : evals M a x -> evals M (TCall1 f a) (f M x)
| ev_call2 f a b x y : evals M a x -> evals M b y -> evals M (TCall2 f a b) (f M x y)
| ev_call3 f a b d x y z : evals M a x -> evals M b y -> evals M d z -> evals M (TCall3 f a b d) (f M x y z)
| ev_fma_l a b x y z : factors M a x y -> evals M b z -> evals M (TAdd a b) (b64_fma x y z)
| ev_fma_r a b x y z : evals M a z -> factors M b x y -> evals M (TAdd a b) (b64_fma x y z)
| ev_fms a b x y z : factors M a x y -> evals M b z -> evals M (TSub a b) (b64_fma x y (b64_neg z))
| ev_fnma a b x y z : evals M a z -> factors M b x y -> evals M (TSub a b) (b64_fma (b64_neg x) y z)
with factors (M : libm) : tree -> b64 -> b64 -> Prop :=
| fa_mul a b x y : evals M a x -> evals M b y -> factors M (TMul a b) x y
| fa_neg a x y : factors M a x y -> factors M (TNeg a) (b64_neg x) y.

(** Exact value and radius, both computed in advance; [None]: no claim. *)
Definition ball := option (R * R).
Definition huge : R := bpow radix2 1024.
Definition tiny : R := bpow radix2 (-1022).
(** The radius after an operation with relative error [k]: the exact result is [y], the operands move it by at
    most [m]. *)
Definition grow (k y m : R) : R := m + k * (Rabs y + m + tiny).
Definition known (y r : R) : ball := if Rltb (Rabs y + r) huge then Some (y, r) else None.
(** A function of libm, and a correctly rounded operation: no error if the exact result is a double. *)
Definition called (k : R) (ok : bool) (y m : R) : ball := if ok then known y (grow k y m) else None.
Definition basic (ok : bool) (y m : R) : ball :=
  if ok then known y (if Reqb m 0 && Reqb (near64 y) y then 0 else grow u64 y m) else None.
Definition ball1 (step : bool -> R -> R -> ball) (F : R -> R) (ok : R -> R -> bool) (L : R -> R -> R) (t : ball) : ball :=
  match t with Some (x, d) => step (ok x d) (F x) (L x d * d) | None => None end.
Definition ball2 (step : bool -> R -> R -> ball) (F : R -> R -> R) (ok : R -> R -> R -> R -> bool) (mv : R -> R -> R -> R -> R)
  (t t' : ball) : ball :=
  match t, t' with Some (x, d), Some (y, e) => step (ok x d y e) (F x y) (mv x d y e) | _, _ => None end.
Definition ball3 (step : bool -> R -> R -> ball) (F : R -> R -> R -> R) (t t' t'' : ball) : ball :=
  match t, t', t'' with Some (x, d), Some (y, e), Some (z, q) => step true (F x y z) (d + e + q) | _, _, _ => None end.

Definition Bops (k : R) : Ops ball := {|
  o_Z := fun z => basic true (IZR z) 0;
  o_half := basic true (/ 2) 0;
  o_add := ball2 basic Rplus anywhere2 (fun x d y e => d + e);
  o_sub := ball2 basic Rminus anywhere2 (fun x d y e => d + e);
  o_mul := ball2 basic Rmult anywhere2 (fun x d y e => Rabs x * e + Rabs y * d + d * e);
  o_div := ball2 basic Rdiv (fun x d y e => Rltb e (Rabs y)) quot_moved;
  o_neg := fun t => match t with Some (x, d) => Some (- x, d) | None => None end;
  o_lt := fun _ _ => false; o_le := fun _ _ => false; o_eq := fun _ _ => false;
  (** positive base, exact exponent *)
  o_pow := ball2 (called k) Rpow_std (fun x d y e => Rltb d x && Reqb e 0)
    (fun x d y e => Rabs y * (Rpower (x - d) (y - 1) + Rpower (x + d) (y - 1)) * d);
  o_sqrt := ball1 basic sqrt (fun x d => Rltb d x) (fun x d => / (2 * sqrt (x - d)));
  o_cbrt := ball1 (called k) Rcbrt (fun x d => Rltb d (Rabs x)) (fun x d => Rcbrt (Rabs x + d) / (3 * (Rabs x - d)));
  o_cos := ball1 (called k) cos anywhere (fun x d => 1);
  o_sin := ball1 (called k) sin anywhere (fun x d => 1);
  o_tan := ball1 (called k) tan (fun x d => Rltb (Rabs x + d) (PI / 2)) (fun x d => tan (Rabs x + d) * tan (Rabs x + d) + 1);
  o_acos := ball1 (called k) acos (fun x d => Rltb (Rabs x + d) 1) (fun x d => / sqrt (1 - (Rabs x + d) * (Rabs x + d)));
  o_asin := ball1 (called k) asin (fun x d => Rltb (Rabs x + d) 1) (fun x d => / sqrt (1 - (Rabs x + d) * (Rabs x + d)));
  o_atan := ball1 (called k) atan anywhere (fun x d => 1);
  (** right half-plane *)
  o_atan2 := ball2 (called k) Ratan2 (fun y e x d => Rltb d x) quot_moved;
  o_hypot := ball2 (called k) (fun a b => sqrt (a * a + b * b)) anywhere2 (fun x d y e => d + e);
  o_hypot3 := ball3 (called k) (fun a b c => sqrt (a * a + b * b + c * c));
  o_cosh := ball1 (called k) cosh anywhere (fun x d => exp (Rabs x + d));
  o_sinh := ball1 (called k) sinh anywhere (fun x d => exp (Rabs x + d));
  o_tanh := ball1 (called k) tanh anywhere (fun x d => 1);
  o_acosh := ball1 (called k) Racosh (fun x d => Rltb 1 (x - d)) (fun x d => / sqrt ((x - d) * (x - d) - 1));
  o_asinh := ball1 (called k) arcsinh anywhere (fun x d => 1);
  o_atanh := ball1 (called k) Ratanh (fun x d => Rltb (Rabs x + d) 1) (fun x d => / (1 - (Rabs x + d) * (Rabs x + d)));
  o_exp := ball1 (called k) exp anywhere (fun x d => exp (x + d));
  o_log := ball1 (called k) ln (fun x d => Rltb d x) (fun x d => / (x - d));
  o_log2 := ball1 (called k) (fun x => ln x / ln 2) (fun x d => Rltb d x) (fun x d => / ((x - d) * ln 2));
  o_log10 := ball1 (called k) (fun x => ln x / ln 10) (fun x d => Rltb d x) (fun x d => / ((x - d) * ln 10))
|}.

(** libm is accurate to the relative error [k] (down to the smallest normal number) wherever the function is
    differentiable and the result does not overflow. *)
Definition approximates (k : R) (v : b64) (y : R) : Prop :=
  Rabs y + k * (Rabs y + tiny) < huge -> finite64 v /\ Rabs (val64 v - y) <= k * (Rabs y + tiny).
Definition close1 (k : R) (m : b64 -> b64) (F : R -> R) (D : R -> Prop) : Prop :=
  forall v, finite64 v -> D (val64 v) -> approximates k (m v) (F (val64 v)).
Definition close2 (k : R) (m : b64 -> b64 -> b64) (F : R -> R -> R) (D : R -> R -> Prop) : Prop :=
  forall v w, finite64 v -> finite64 w -> D (val64 v) (val64 w) -> approximates k (m v w) (F (val64 v) (val64 w)).
Record accurate (M : libm) (k : R) : Prop := {
  acc_k : 0 <= k;
  acc_pow : close2 k (m_pow M) Rpow_std (fun x y => 0 < x);
  acc_cbrt : close1 k (m_cbrt M) Rcbrt (fun _ => True);
  acc_cos : close1 k (m_cos M) cos (fun _ => True);
  acc_sin : close1 k (m_sin M) sin (fun _ => True);
  acc_tan : close1 k (m_tan M) tan (fun x => Rabs x < PI / 2);
  acc_acos : close1 k (m_acos M) acos (fun x => Rabs x < 1);
  acc_asin : close1 k (m_asin M) asin (fun x => Rabs x < 1);
  acc_atan : close1 k (m_atan M) atan (fun _ => True);
  acc_atan2 : close2 k (m_atan2 M) Ratan2 (fun y x => 0 < x);
  acc_hypot : close2 k (m_hypot M) (fun a b => sqrt (a * a + b * b)) (fun _ _ => True);
  acc_hypot3 : forall v w z, finite64 v -> finite64 w -> finite64 z ->
    approximates k (m_hypot3 M v w z) (sqrt (val64 v * val64 v + val64 w * val64 w + val64 z * val64 z));
  acc_cosh : close1 k (m_cosh M) cosh (fun _ => True);
  acc_sinh : close1 k (m_sinh M) sinh (fun _ => True);
  acc_tanh : close1 k (m_tanh M) tanh (fun _ => True);
  acc_acosh : close1 k (m_acosh M) Racosh (fun x => 1 < x);
  acc_asinh : close1 k (m_asinh M) arcsinh (fun _ => True);
  acc_atanh : close1 k (m_atanh M) Ratanh (fun x => Rabs x < 1);
  acc_exp : close1 k (m_exp M) exp (fun _ => True);
  acc_log : close1 k (m_log M) ln (fun x => 0 < x);
  acc_log2 : close1 k (m_log2 M) (fun x => ln x / ln 2) (fun x => 0 < x);
  acc_log10 : close1 k (m_log10 M) (fun x => ln x / ln 10) (fun x => 0 < x)
}.

Definition point (v : b64) : ball := if is_finite v then Some (val64 v, 0) else None.
(** Whatever is contracted, the result is finite and within the radius of the exact value [x]. *)
Definition sure (M : libm) (x : R) (T : tree) (b : ball) : Prop :=
  match b with
  | Some (y, d) => y = x /\ forall v, evals M T v -> finite64 v /\ Rabs (val64 v - x) <= d
  | None => True
  end.
