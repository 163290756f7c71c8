(** Relative accuracy (C83): exact value and number of roundings, both known in advance. *)
From Coq Require Import ZArith List Bool Reals.
From Coquelicot Require Import Coquelicot.
From Flocq Require Import Core BinarySingleNaN.
From Verif Require Import Outcome Scalar Float64 Model Spec RealOps ExprSpec Ops64.
Open Scope R_scope.

(** What [k] roundings can do to a number: each multiplies it by a factor between [1 - u] and [1 / (1 - u)]. *)
Definition factor (k : nat) (t : R) : Prop := (1 - u64) ^ k <= t <= / (1 - u64) ^ k.
(** The double [v] is finite and is [y] up to [k] roundings.  In particular it has the sign of [y], and is zero if [y] is. *)
Definition accurate_to (k : nat) (v : b64) (y : R) : Prop := finite64 v /\ exists t, factor k t /\ val64 v = y * t.

(** [None]: no claim. *)
Definition counted := option (R * nat).
Definition exactly64 (v : b64) : counted := if is_finite v then Some (val64 v, 0%nat) else None.
Definition counts (v : b64) (t : counted) : Prop := match t with Some (y, k) => accurate_to k v y | None => True end.
Definition is_value (x : R) (t : counted) : Prop := match t with Some (y, _) => y = x | None => True end.
(** The exact value is [x] and the double [v] is as accurate as announced. *)
Definition confirmed (x : R) (v : b64) (t : counted) : Prop := match t with Some (y, k) => y = x /\ accurate_to k v x | None => True end.

(** Far from overflow and underflow, and not too many roundings. *)
Definition fits (y : R) (k : nat) : bool :=
  Rleb (bpow radix2 (-1020)) (Rabs y) && Rleb (Rabs y) (bpow radix2 1022) && Rleb (INR k * u64) (/ 16).
(** The result [y] of an operation on operands that are [k] roundings away: [m] more. *)
Definition after (m : nat) (y : R) (k : nat) : counted :=
  if Reqb y 0 then Some (y, 0%nat) else if fits y k then Some (y, m + k)%nat else None.
(** Multiplication by these is exact. *)
Definition simple (x : R) (k : nat) : bool := Nat.eqb k 0 && (Reqb (Rabs x) 1 || Reqb (Rabs x) 2).
Definition count1 (p : nat) (F : R -> R) (ok : R -> bool) (t : counted) : counted :=
  match t with Some (x, j) => if ok x && Nat.eqb j 0 then after p (F x) 0 else None | None => None end.
Definition add_counted (t t' : counted) : counted :=
  match t, t' with
  | Some (x, j), Some (y, k) =>
    if Reqb x 0 then Some (y, k) else if Reqb y 0 then Some (x, j)
    else if Nat.eqb j 0 && Nat.eqb k 0 then after (if Reqb (near64 (x + y)) (x + y) then 0 else 1) (x + y) 0
    else if Rltb 0 (x * y) then after 1 (x + y) (Nat.max j k)
    else if Rleb (2 * Rabs y) (Rabs x) || Rleb (2 * Rabs x) (Rabs y) then after 1 (x + y) (4 * Nat.max j k)
    else None
  | _, _ => None
  end.
Definition neg_counted (t : counted) : counted := match t with Some (x, k) => Some (- x, k) | None => None end.
Definition ceiling (x : R) : nat := Z.to_nat (- Int_part (- x)).
Definition everywhere (x : R) : bool := true.
Definition positive (x : R) : bool := Rltb 0 x.
Definition open_unit (x : R) : bool := Rltb (Rabs x) 1.

(** Sums of numbers of one sign, products, quotients, roots, [hypot] and powers are well conditioned.  Differences are,
    if they are of exact numbers, or if one operand is at most half of the other.  Other functions are called for exact
    arguments only.  [p]: the roundings in a result of libm. *)
Definition Nops (p : nat) : Ops counted := {|
  o_Z := fun z => if Z.leb (Z.abs z) (2 ^ 53) then Some (IZR z, 0%nat) else None;
  o_half := Some (/ 2, 0%nat);
  o_add := add_counted;
  o_sub := fun t t' => add_counted t (neg_counted t');
  o_mul := fun t t' => match t, t' with
    | Some (x, j), Some (y, k) => after (if simple x j || simple y k then 0 else 1) (x * y) (j + k)
    | _, _ => None end;
  o_div := fun t t' => match t, t' with
    | Some (x, j), Some (y, k) => if Reqb y 0 then None else after 1 (x / y) (j + k)
    | _, _ => None end;
  o_neg := neg_counted;
  o_lt := fun _ _ => false; o_le := fun _ _ => false; o_eq := fun _ _ => false;
  o_pow := fun t t' => match t, t' with
    | Some (x, j), Some (y, k) =>
      if (Rltb 0 x || Rltb x 0 && is_int y) && Nat.eqb k 0 then after p (Rpow_std x y) (j * ceiling (Rabs y)) else None
    | _, _ => None end;
  o_sqrt := fun t => match t with Some (x, j) => if Rleb 0 x then after 1 (sqrt x) (Nat.div2 (S j)) else None | None => None end;
  o_cbrt := fun t => match t with Some (x, j) => after p (Rcbrt x) j | None => None end;
  o_cos := count1 p cos everywhere; o_sin := count1 p sin everywhere;
  o_tan := count1 p tan (fun x => negb (Reqb (cos x) 0));
  o_acos := count1 p acos open_unit; o_asin := count1 p asin open_unit; o_atan := count1 p atan everywhere;
  o_atan2 := fun t t' => match t, t' with
    | Some (y, j), Some (x, k) =>
      if negb (Reqb y 0 && Rleb x 0) && Nat.eqb j 0 && Nat.eqb k 0 then after p (Ratan2 y x) 0 else None
    | _, _ => None end;
  o_hypot := fun t t' => match t, t' with
    | Some (x, j), Some (y, k) => after p (sqrt (x * x + y * y)) (Nat.max j k)
    | _, _ => None end;
  o_hypot3 := fun t t' t'' => match t, t', t'' with
    | Some (x, j), Some (y, k), Some (z, l) => after p (sqrt (x * x + y * y + z * z)) (Nat.max (Nat.max j k) l)
    | _, _, _ => None end;
  o_cosh := count1 p cosh everywhere; o_sinh := count1 p sinh everywhere; o_tanh := count1 p tanh everywhere;
  o_acosh := count1 p Racosh (fun x => Rltb 1 x); o_asinh := count1 p arcsinh everywhere; o_atanh := count1 p Ratanh open_unit;
  o_exp := count1 p exp everywhere; o_log := count1 p ln positive;
  o_log2 := count1 p (fun x => ln x / ln 2) positive; o_log10 := count1 p (fun x => ln x / ln 10) positive
|}.

(** A result of libm is accurate to [p] roundings if it is neither subnormal nor close to overflow, and zero if the
    function is.  [p = 1] for correctly rounded functions; less than one unit in the last place is [p = 2]. *)
Definition answers (p : nat) (v : b64) (y : R) : Prop :=
  (y = 0 -> finite64 v /\ val64 v = 0) /\
  (bpow radix2 (-1021) <= Rabs y <= bpow radix2 1023 -> accurate_to p v y).
Definition answers1 (p : nat) (m : b64 -> b64) (F : R -> R) (D : R -> Prop) : Prop :=
  forall v, finite64 v -> D (val64 v) -> answers p (m v) (F (val64 v)).
Definition answers2 (p : nat) (m : b64 -> b64 -> b64) (F : R -> R -> R) (D : R -> R -> Prop) : Prop :=
  forall v w, finite64 v -> finite64 w -> D (val64 v) (val64 w) -> answers p (m v w) (F (val64 v) (val64 w)).
Record libm_good (M : libm) (p : nat) : Prop := {
  lg_pow : answers2 p (m_pow M) Rpow_std (fun x y => 0 < x \/ x < 0 /\ is_int y = true);
  lg_cbrt : answers1 p (m_cbrt M) Rcbrt (fun _ => True);
  lg_cos : answers1 p (m_cos M) cos (fun _ => True);
  lg_sin : answers1 p (m_sin M) sin (fun _ => True);
  lg_tan : answers1 p (m_tan M) tan (fun x => cos x <> 0);
  lg_acos : answers1 p (m_acos M) acos (fun x => Rabs x < 1);
  lg_asin : answers1 p (m_asin M) asin (fun x => Rabs x < 1);
  lg_atan : answers1 p (m_atan M) atan (fun _ => True);
  lg_atan2 : answers2 p (m_atan2 M) Ratan2 (fun y x => ~ (y = 0 /\ x <= 0));
  lg_hypot : answers2 p (m_hypot M) (fun a b => sqrt (a * a + b * b)) (fun _ _ => True);
  lg_hypot3 : forall v w z, finite64 v -> finite64 w -> finite64 z ->
    answers p (m_hypot3 M v w z) (sqrt (val64 v * val64 v + val64 w * val64 w + val64 z * val64 z));
  lg_cosh : answers1 p (m_cosh M) cosh (fun _ => True);
  lg_sinh : answers1 p (m_sinh M) sinh (fun _ => True);
  lg_tanh : answers1 p (m_tanh M) tanh (fun _ => True);
  lg_acosh : answers1 p (m_acosh M) Racosh (fun x => 1 < x);
  lg_asinh : answers1 p (m_asinh M) arcsinh (fun _ => True);
  lg_atanh : answers1 p (m_atanh M) Ratanh (fun x => Rabs x < 1);
  lg_exp : answers1 p (m_exp M) exp (fun _ => True);
  lg_log : answers1 p (m_log M) ln (fun x => 0 < x);
  lg_log2 : answers1 p (m_log2 M) (fun x => ln x / ln 2) (fun x => 0 < x);
  lg_log10 : answers1 p (m_log10 M) (fun x => ln x / ln 10) (fun x => 0 < x)
}.

(** ** Functions of one variable *)
Definition second_derivative (F : R -> R) (x l : R) : Prop :=
  exists D, locally x (fun s => is_derive F s (D s)) /\ is_derive D x l.
Definition moderate (y : R) : Prop := bpow radix2 (-100) <= Rabs y <= bpow radix2 100.
(** Where the derivatives of [u] are computed without cancellation, overflow or underflow: [acos], [asin] and [atanh] up to
    [sqrt (1/2)], [tanh] up to the point where its value is that, everything else far and wide. *)
Definition calm (u : ufun R) (x : R) : Prop :=
  match u with
  | Upow b => x <> 0 /\ (exists z : Z, b = IZR z /\ (Z.abs z <= 2 ^ 50)%Z /\ z <> 0%Z /\ z <> 1%Z /\ z <> 2%Z) /\
      moderate (Rpow_std x (b - 1)) /\ moderate (Rpow_std x (b - 2))
  | Usqrt | Ulog | Ulog2 | Ulog10 => 0 < x /\ moderate x
  | Ucbrt | Ureciprocal | Uatan | Uasinh => moderate x
  | Usin | Ucos | Utan => moderate (sin x) /\ moderate (cos x)
  | Uacos | Uasin | Uatanh => moderate x /\ 2 * (x * x) <= 1
  | Ucosh | Usinh => moderate (sinh x)
  | Utanh => moderate (tanh x) /\ 2 * (tanh x * tanh x) <= 1
  | Uacosh => 1 < x /\ moderate (x - 1)
  | Uexp => moderate (exp x)
  | Ulogb b => 0 < x /\ moderate x /\ 0 < b /\ moderate (ln b)
  | Usdiv a => moderate x /\ moderate a
  | _ => False
  end.
(** Roundings in the first and in the second derivative; [p] in each result of libm. *)
Definition roundings {S} (p : nat) (u : ufun S) : nat * nat :=
  (match u with
   | Upow _ => (p + 1, p + 2) | Usqrt => (2, 3) | Ucbrt => (2 * p + 3, 2 * p + 5) | Ureciprocal => (3, 5)
   | Usin | Ucos | Ucosh | Usinh | Uexp => (p, p) | Utan => (2 * p + 2, 3 * p + 3)
   | Uacos | Uasin => (5, 12) | Uatan => (3, 8) | Utanh => (8 * p + 5, 9 * p + 6)
   | Uacosh => (6, 11) | Uasinh => (3, 7) | Uatanh => (6, p + 11)
   | Ulog => (1, 3) | Ulogb _ | Ulog2 | Ulog10 => (p + 2, p + 3) | Usdiv _ => (p + 1, p + 1)
   | _ => (0, 0)
   end)%nat.

(** ** Functions of two variables *)
Definition calm2 (b : bfun) (x y : R) : Prop :=
  moderate x /\ moderate y /\ match b with Bdiv | Bhypot => True | Batan2 => 2 * (x * x) <= y * y \/ 2 * (y * y) <= x * x | _ => False end.
(** Roundings in first and in second derivatives. *)
Definition roundings2 (p : nat) (b : bfun) : nat * nat :=
  (match b with Bdiv => (p + 1, p + 1) | Bhypot => (p + 1, 3 * p + 4) | Batan2 => (3, 29) | _ => (0, 0) end)%nat.
