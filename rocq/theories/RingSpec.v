(** Derivatives without limits: scalar types whose operations form a commutative ring, and the values of expressions at a
    point moved by two infinitesimals whose squares are zero. *)
From Coq Require Import ZArith List Bool Setoid Ring_theory Eqdep_dec.
From Coq Require Import QArith_base Qcanon.
From Verif Require Import Outcome Scalar Model Spec ExprSpec.
Import ListNotations.
Open Scope Z_scope.

Section Rings.
  Context {S : Type} (O : Ops S).
  Local Notation "x +! y" := (o_add O x y) (at level 50, left associativity).
  Local Notation "x *! y" := (o_mul O x y) (at level 40, left associativity).
  Local Notation "# z" := (o_Z O z) (at level 1, z at level 0).

  (** The operations form a commutative ring, literals are its integers. *)
  Definition ring_laws : Prop :=
    ring_theory #0 #1 (o_add O) (o_mul O) (o_sub O) (o_neg O) eq /\ (forall k : Z, #(k + 1) = #k +! #1).
  Definition invertible (b : S) : Prop := exists y, y *! b = #1.
  (** Division by invertible elements is exact; the squares and cubes used by the quotient rule are products. *)
  Definition division_laws : Prop :=
    (forall a b, invertible b -> o_div O a b *! b = a) /\
    (forall b, invertible b -> o_pow O b #2 = b *! b) /\ (forall b, invertible b -> o_pow O b #3 = b *! b *! b).
  (** [x ^ k] for a natural number [k], and [pow] with the exponent [k] and the two below it. *)
  Fixpoint spow (x : S) (k : nat) : S := match k with 0%nat => #1 | Datatypes.S k => x *! spow x k end.
  Definition powers_exact (k : nat) : Prop :=
    forall x j, (j <= k <= j + 2)%nat -> o_pow O x #(Z.of_nat j) = spow x j.

  (** [f 0 + ... + f (n - 1)] *)
  Fixpoint sum (n : nat) (f : nat -> S) : S := match n with 0%nat => #0 | Datatypes.S n => sum n f +! f n end.

  (** x0 + x1 e1 + x2 e2 + x12 e1 e2 with e1 e1 = e2 e2 = 0. *)
  Record hyper := mkh { h0 : S; h1 : S; h2 : S; h12 : S }.
  Definition hconst (s : S) : hyper := mkh s #0 #0 #0.
  Definition hadd (x y : hyper) : hyper := mkh (h0 x +! h0 y) (h1 x +! h1 y) (h2 x +! h2 y) (h12 x +! h12 y).
  Definition hneg (x : hyper) : hyper := mkh (o_neg O (h0 x)) (o_neg O (h1 x)) (o_neg O (h2 x)) (o_neg O (h12 x)).
  Definition hmul (x y : hyper) : hyper :=
    mkh (h0 x *! h0 y) (h0 x *! h1 y +! h1 x *! h0 y) (h0 x *! h2 y +! h2 x *! h0 y)
        (h0 x *! h12 y +! h1 x *! h2 y +! h2 x *! h1 y +! h12 x *! h0 y).
  Fixpoint hpow (x : hyper) (k : nat) : hyper := match k with 0%nat => hconst #1 | Datatypes.S k => hmul x (hpow x k) end.
  (** [z] is the quotient x / y. *)
  Definition hquot (x y z : hyper) : Prop := invertible (h0 y) /\ hmul z y = x.

  Definition hfun (f : ufun S) (x z : hyper) : Prop :=
    match f with
    | Uneg => z = hneg x
    | Uadds b => z = hadd x (hconst b)
    | Usadd a => z = hadd (hconst a) x
    | Usubs b => z = hadd x (hneg (hconst b))
    | Ussub a => z = hadd (hconst a) (hneg x)
    | Umuls b => z = hmul x (hconst b)
    | Usmul a => z = hmul (hconst a) x
    | Udivs b => hquot x (hconst b) z
    | Usdiv a => hquot (hconst a) x z
    | Ureciprocal => hquot (hconst #1) x z
    | Upow s => exists k, s = #(Z.of_nat k) /\ powers_exact k /\ z = hpow x k
    | _ => False
    end.
  Definition hbin (b : bfun) (x y z : hyper) : Prop :=
    match b with
    | Badd => z = hadd x y
    | Bsub => z = hadd x (hneg y)
    | Bmul => z = hmul x y
    | Bdiv => hquot x y z
    | _ => False
    end.
  (** [X] is the value of [e] at p + u e1 + v e2. *)
  Fixpoint hev (p u v : nat -> S) (e : expr S) (X : hyper) : Prop :=
    match e with
    | EVar i => X = mkh (p i) (u i) (v i) #0
    | EConst s => X = hconst s
    | EU f e => exists A, hev p u v e A /\ hfun f A X
    | EB b e1 e2 => exists A B, hev p u v e1 A /\ hev p u v e2 B /\ hbin b A B X
    | EH _ _ _ => False
    end.
  (** Sums, differences and products only. *)
  Fixpoint polynomial (e : expr S) : Prop :=
    match e with
    | EVar _ | EConst _ => True
    | EU f e => polynomial e /\
        match f with Uneg | Uadds _ | Usadd _ | Usubs _ | Ussub _ | Umuls _ | Usmul _ => True | _ => False end
    | EB b e1 e2 => polynomial e1 /\ polynomial e2 /\ match b with Badd | Bsub | Bmul => True | _ => False end
    | EH _ _ _ => False
    end.
  (** The value at the point itself exists: all divisors are invertible. *)
  Definition defined_at (p : nat -> S) (e : expr S) : Prop := exists X, hev p (fun _ => #0) (fun _ => #0) e X.
  Definition at_point (vs : list S) (i : nat) : S := nth i vs #0.
  (** The unit vector in direction [i]. *)
  Definition dir (i k : nat) : S := if Nat.eqb k i then #1 else #0.
End Rings.
Arguments mkh {S}. Arguments h0 {S}. Arguments h1 {S}. Arguments h2 {S}. Arguments h12 {S}.

(** Unsigned integers of [w] bits: arithmetic modulo 2^w.  Division, comparison and the functions are irrelevant for
    polynomials; truncating division and the first argument stand in for them. *)
Record word (w : positive) := mkw { wval : Z; wrange : Z.eqb (wval mod 2 ^ Zpos w) wval = true }.
Arguments mkw {w}. Arguments wval {w}.
Lemma wrap_range (w : positive) (z : Z) : Z.eqb ((z mod 2 ^ Zpos w) mod 2 ^ Zpos w) (z mod 2 ^ Zpos w) = true.
Proof. apply Z.eqb_eq, Zmod_mod. Qed.
Definition wrap (w : positive) (z : Z) : word w := mkw (z mod 2 ^ Zpos w) (wrap_range w z).
Definition word_ops (w : positive) : Ops (word w) :=
  let f1 (x : word w) := x in let f2 (x y : word w) := x in
  {| o_Z := wrap w; o_half := wrap w 0;
     o_add x y := wrap w (wval x + wval y); o_sub x y := wrap w (wval x - wval y); o_mul x y := wrap w (wval x * wval y);
     o_div x y := wrap w (Z.div (wval x) (wval y)); o_neg x := wrap w (- wval x);
     o_lt x y := Z.ltb (wval x) (wval y); o_le x y := Z.leb (wval x) (wval y); o_eq x y := Z.eqb (wval x) (wval y);
     o_pow := f2; o_sqrt := f1; o_cbrt := f1; o_cos := f1; o_sin := f1; o_tan := f1; o_acos := f1; o_asin := f1; o_atan := f1;
     o_atan2 := f2; o_hypot := f2; o_hypot3 x y z := x; o_cosh := f1; o_sinh := f1; o_tanh := f1; o_acosh := f1; o_asinh := f1;
     o_atanh := f1; o_exp := f1; o_log := f1; o_log2 := f1; o_log10 := f1 |}.

(** Rational numbers; [pow] for natural exponents. *)
Definition Qc_ops : Ops Qc :=
  let f1 (x : Qc) := x in let f2 (x y : Qc) := x in
  {| o_Z z := Q2Qc (inject_Z z); o_half := Q2Qc (Qmake 1 2);
     o_add := Qcplus; o_sub := Qcminus; o_mul := Qcmult; o_div := Qcdiv; o_neg := Qcopp;
     o_lt x y := negb (Qle_bool y x); o_le x y := Qle_bool x y; o_eq x y := Qeq_bool x y;
     o_pow x y := Qcpower x (Z.to_nat (Qnum y));
     o_sqrt := f1; o_cbrt := f1; o_cos := f1; o_sin := f1; o_tan := f1; o_acos := f1; o_asin := f1; o_atan := f1;
     o_atan2 := f2; o_hypot := f2; o_hypot3 x y z := x; o_cosh := f1; o_sinh := f1; o_tanh := f1; o_acosh := f1; o_asinh := f1;
     o_atanh := f1; o_exp := f1; o_log := f1; o_log2 := f1; o_log10 := f1 |}.
