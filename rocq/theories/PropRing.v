(** C75: derivatives over any commutative ring, in the algebraic sense. *)
From Coq Require Import ZArith List Bool Lia QArith_base Qcanon.
From Verif Require Import Outcome Scalar Model Spec ExprSpec NumSpec Samples RingSpec FactsRing.
Import ListNotations.
Open Scope Z_scope.

(** C75.  Let the scalar type be a commutative ring.  The value of a polynomial expression at p + u e1 + v e2, where e1 and e2
    are infinitesimals with square zero, is f + (g . u) e1 + (g . v) e2 + (u . H v) e1 e2 with the computed value, gradient
    and Hessian, for all directions u and v. *)
Theorem C75_polynomials_over_rings : forall (S : Type) (O : Ops S) (c : cfg) (vs : list S) (e : expr S),
  let n := length vs in let p := at_point O vs in
  ring_laws O -> polynomial e -> cfg_ok c -> size_ok c n -> vars_below n e ->
  exists r f g h, evaluate O c vs e = Ok r /\ shows c n r f g h /\
    forall u v, exists X, hev O p u v e X /\ (forall X', hev O p u v e X' -> X' = X) /\
      h0 X = f /\ h1 X = sum O n (fun i => o_mul O (g i) (u i)) /\ h2 X = sum O n (fun i => o_mul O (g i) (v i)) /\
      h12 X = sum O n (fun i => sum O n (fun j => o_mul O (o_mul O (h i j) (u i)) (v j))).
Proof. exact @ring_polynomials. Qed.
Print Assumptions C75_polynomials_over_rings.
(** The same with quotients, reciprocals and natural powers, wherever the divisors are invertible. *)
Theorem C75_quotients_over_rings : forall (S : Type) (O : Ops S) (c : cfg) (vs : list S) (e : expr S),
  let n := length vs in let p := at_point O vs in
  ring_laws O -> division_laws O -> defined_at O p e -> cfg_ok c -> size_ok c n -> vars_below n e ->
  exists r f g h, evaluate O c vs e = Ok r /\ shows c n r f g h /\
    forall u v, exists X, hev O p u v e X /\ (forall X', hev O p u v e X' -> X' = X) /\
      h0 X = f /\ h1 X = sum O n (fun i => o_mul O (g i) (u i)) /\ h2 X = sum O n (fun i => o_mul O (g i) (v i)) /\
      h12 X = sum O n (fun i => sum O n (fun j => o_mul O (o_mul O (h i j) (u i)) (v j))).
Proof. exact @ring_quotients. Qed.
Print Assumptions C75_quotients_over_rings.
(** Along the coordinate axes the coefficients are the components themselves. *)
Theorem C75_components : forall (S : Type) (O : Ops S) (c : cfg) (vs : list S) (e : expr S),
  let n := length vs in let p := at_point O vs in
  ring_laws O -> polynomial e \/ division_laws O /\ defined_at O p e -> cfg_ok c -> size_ok c n -> vars_below n e ->
  exists r f g h, evaluate O c vs e = Ok r /\ shows c n r f g h /\
    forall i j X, (i < n)%nat -> (j < n)%nat -> hev O p (dir O i) (dir O j) e X ->
      h0 X = f /\ h1 X = g i /\ h2 X = g j /\ h12 X = h i j.
Proof. exact @ring_components. Qed.
Print Assumptions C75_components.
(** Unsigned integers of w bits are such a ring; in 64 bits x x y at x = 2^33 + 1, y = 3 wraps around, and so do its
    derivatives: 2 x y, x x, 2 y, 2 x. *)
Example C75_words : (forall w, ring_laws (word_ops w)) /\
  let O := word_ops 64 in let e := EB Bmul (EB Bmul (EVar 0) (EVar 0)) (EVar 1) in
  polynomial (S := word 64) e /\
  exists r f g h, evaluate O (sta2 2) [wrap 64 (2 ^ 33 + 1); wrap 64 3] e = Ok r /\ shows (sta2 2) 2 r f g h /\
    wval f = ((2 ^ 33 + 1) * (2 ^ 33 + 1) * 3) mod 2 ^ 64 /\
    wval (g 0%nat) = 2 * (2 ^ 33 + 1) * 3 /\ wval (g 1%nat) = ((2 ^ 33 + 1) * (2 ^ 33 + 1)) mod 2 ^ 64 /\
    wval (h 0%nat 0%nat) = 6 /\ wval (h 0%nat 1%nat) = 2 * (2 ^ 33 + 1) /\ wval (h 1%nat 1%nat) = 0.
Proof. exact words_case. Qed.
(** Rational numbers: x / y at (1/2, 3). *)
Example C75_rationals : ring_laws Qc_ops /\ division_laws Qc_ops /\
  let e := EB Bdiv (EVar 0) (EVar 1) in let vs := [Q2Qc (Qmake 1 2); Q2Qc (Qmake 3 1)] in
  defined_at Qc_ops (at_point Qc_ops vs) e /\
  exists r f g h, evaluate Qc_ops (sta2 2) vs e = Ok r /\ shows (sta2 2) 2 r f g h /\
    f = Q2Qc (Qmake 1 6) /\ g 0%nat = Q2Qc (Qmake 1 3) /\ g 1%nat = Q2Qc (Qmake (-1) 18) /\
    h 0%nat 0%nat = Q2Qc 0 /\ h 0%nat 1%nat = Q2Qc (Qmake (-1) 9) /\ h 1%nat 1%nat = Q2Qc (Qmake 1 27).
Proof. exact rationals_case. Qed.
