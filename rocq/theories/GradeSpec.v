(** Specification for C98: relations between two runs that differ in the seeds of the variables. *)
From Coq Require Import ZArith List Bool Reals.
From Flocq Require Import Core BinarySingleNaN.
From Verif Require Import Outcome Scalar Float64 Ops64 Model Spec ParamSpec.
Import ListNotations.

Section Graded.
  (** [P0] relates values, [P1 i] derivatives by variable [i], [P2 i j] second derivatives by [i] and [j]. *)
  Context {S T : Type} (P0 : S -> T -> Prop) (P1 : nat -> S -> T -> Prop) (P2 : nat -> nat -> S -> T -> Prop).

  (** Sums of like quantities, and products in which the variables add up. *)
  Record graded (O : Ops S) (O' : Ops T) : Prop := {
    gr_arith : arith_rel P0 O O';
    gr_order : order_rel P0 O O';
    gr_zero1 : forall i, P1 i (o_Z O 0) (o_Z O' 0);
    gr_zero2 : forall i j, P2 i j (o_Z O 0) (o_Z O' 0);
    gr_add1 : forall i a a' b b', P1 i a a' -> P1 i b b' -> P1 i (o_add O a b) (o_add O' a' b');
    gr_add2 : forall i j a a' b b', P2 i j a a' -> P2 i j b b' -> P2 i j (o_add O a b) (o_add O' a' b');
    gr_sub1 : forall i a a' b b', P1 i a a' -> P1 i b b' -> P1 i (o_sub O a b) (o_sub O' a' b');
    gr_sub2 : forall i j a a' b b', P2 i j a a' -> P2 i j b b' -> P2 i j (o_sub O a b) (o_sub O' a' b');
    gr_neg1 : forall i a a', P1 i a a' -> P1 i (o_neg O a) (o_neg O' a');
    gr_neg2 : forall i j a a', P2 i j a a' -> P2 i j (o_neg O a) (o_neg O' a');
    gr_mul01 : forall i a a' b b', P0 a a' -> P1 i b b' -> P1 i (o_mul O a b) (o_mul O' a' b');
    gr_mul10 : forall i a a' b b', P1 i a a' -> P0 b b' -> P1 i (o_mul O a b) (o_mul O' a' b');
    gr_mul02 : forall i j a a' b b', P0 a a' -> P2 i j b b' -> P2 i j (o_mul O a b) (o_mul O' a' b');
    gr_mul20 : forall i j a a' b b', P2 i j a a' -> P0 b b' -> P2 i j (o_mul O a b) (o_mul O' a' b');
    gr_mul11 : forall i j a a' b b', P1 i a a' -> P1 j b b' ->
      P2 i j (o_mul O a b) (o_mul O' a' b') /\ P2 j i (o_mul O a b) (o_mul O' a' b')
  }.

  (** Two numbers of [n] variables related part by part. *)
  Definition num_graded (c : cfg) (n : nat) (x : dd S) (y : dd T) : Prop :=
    exists f g h f' g' h', shows c n x f g h /\ shows c n y f' g' h' /\ P0 f f' /\
      (forall i, (i < n)%nat -> P1 i (g i) (g' i)) /\
      (c_ord c = 2%Z -> forall i j, (i <= j)%nat -> (j < n)%nat -> P2 i j (h i j) (h' i j)).
End Graded.

(** [b] is [a], or [-a] if [s], up to the sign of zero. *)
Definition flipped (s : bool) (a b : b64) : Prop :=
  (exists p q, a = B754_zero p /\ b = B754_zero q) \/ b = (if s then b64_neg a else a).
(** [b] is exactly [a * 2^k]. *)
Definition shifted (k : Z) (a b : b64) : Prop :=
  is_finite a = true /\ is_finite b = true /\ B2R b = (B2R a * bpow radix2 k)%R /\ Bsign b = Bsign a.

(** Doubles with a mark that remains while every result is zero or keeps [K] binary orders of magnitude away from the
    limits of the format, and no product underflows to zero. *)
Definition roomy (K : Z) (r : b64) : bool :=
  match r with
  | B754_zero _ => true
  | B754_finite _ m e _ => ((- 1021 + K <=? Z.log2 (Zpos m) + e) && (Z.log2 (Zpos m) + e <=? 1022 - K))%Z
  | _ => false
  end.
Definition zero_b (r : b64) : bool := match r with B754_zero _ => true | _ => false end.
Definition marked := (b64 * bool)%type.
Section Marked.
  Context (K : Z) (M : libm).
  Definition mk1 (f : b64 -> b64) (x : marked) : marked := (f (fst x), true).
  Definition mk2 (f : b64 -> b64 -> b64) (x y : marked) : marked := (f (fst x) (fst y), true).
  Definition mk_sum (f : b64 -> b64 -> b64) (x y : marked) : marked :=
    let r := f (fst x) (fst y) in (r, snd x && snd y && roomy K r).
  Definition mk_mul (x y : marked) : marked :=
    let r := b64_mul (fst x) (fst y) in
    (r, snd x && snd y && roomy K r && (negb (zero_b r) || zero_b (fst x) || zero_b (fst y))).
  Definition marked_ops : Ops marked := let O := b64ops M in {|
    o_Z := fun z => (o_Z O z, true); o_half := (o_half O, true);
    o_add := mk_sum (o_add O); o_sub := mk_sum (o_sub O); o_mul := mk_mul; o_div := mk2 (o_div O);
    o_neg := fun x => (o_neg O (fst x), snd x);
    o_lt := fun x y => o_lt O (fst x) (fst y); o_le := fun x y => o_le O (fst x) (fst y); o_eq := fun x y => o_eq O (fst x) (fst y);
    o_pow := mk2 (o_pow O); o_sqrt := mk1 (o_sqrt O); o_cbrt := mk1 (o_cbrt O);
    o_cos := mk1 (o_cos O); o_sin := mk1 (o_sin O); o_tan := mk1 (o_tan O);
    o_acos := mk1 (o_acos O); o_asin := mk1 (o_asin O); o_atan := mk1 (o_atan O); o_atan2 := mk2 (o_atan2 O);
    o_hypot := mk2 (o_hypot O); o_hypot3 := fun x y z => (o_hypot3 O (fst x) (fst y) (fst z), true);
    o_cosh := mk1 (o_cosh O); o_sinh := mk1 (o_sinh O); o_tanh := mk1 (o_tanh O);
    o_acosh := mk1 (o_acosh O); o_asinh := mk1 (o_asinh O); o_atanh := mk1 (o_atanh O);
    o_exp := mk1 (o_exp O); o_log := mk1 (o_log O); o_log2 := mk1 (o_log2 O); o_log10 := mk1 (o_log10 O)
  |}.
End Marked.

(** [xm] is [x] with a mark beside each derivative. *)
Definition marks (c : cfg) (n : nat) (xm : dd marked) (x : dd b64) (p : nat -> bool) (q : nat -> nat -> bool) : Prop :=
  exists fm gm hm f g h, shows c n xm fm gm hm /\ shows c n x f g h /\ fst fm = f /\
    (forall i, (i < n)%nat -> gm i = (g i, p i)) /\
    (c_ord c = 2%Z -> forall i j, (i <= j)%nat -> (j < n)%nat -> hm i j = (h i j, q i j)).
(** Equal values, and derivatives multiplied by powers of two where there is a mark. *)
Definition shifted_num (c : cfg) (n : nat) (k : nat -> Z) (x y : dd b64) (p : nat -> bool) (q : nat -> nat -> bool) : Prop :=
  exists f g h g' h', shows c n x f g h /\ shows c n y f g' h' /\
    (forall i, (i < n)%nat -> p i = true -> shifted (k i) (g i) (g' i)) /\
    (c_ord c = 2%Z -> forall i j, (i <= j)%nat -> (j < n)%nat -> q i j = true -> shifted (k i + k j) (h i j) (h' i j)).
Definition certified (c : cfg) (n : nat) (k : nat -> Z) (xm : dd marked) (x y : dd b64) : Prop :=
  exists p q, marks c n xm x p q /\ shifted_num c n k x y p q.
Inductive Forall3 {A B C} (R : A -> B -> C -> Prop) : list A -> list B -> list C -> Prop :=
| Forall3_nil : Forall3 R [] [] []
| Forall3_cons a b d la lb ld : R a b d -> Forall3 R la lb ld -> Forall3 R (a :: la) (b :: lb) (d :: ld).
(** All derivatives of [x] with a mark, and [y] with derivatives multiplied by powers of two. *)
Definition seeded (c : cfg) (n : nat) (k : nat -> Z) (xm : dd marked) (x y : dd b64) : Prop :=
  marks c n xm x (fun _ => true) (fun _ _ => true) /\ shifted_num c n k x y (fun _ => true) (fun _ _ => true).
