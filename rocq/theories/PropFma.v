(** C74: error bounds that hold whatever the compiler contracts into fused multiply-adds. *)
From Coq Require Import ZArith List Bool Reals Lia.
From Flocq Require Import Core BinarySingleNaN.
From Verif Require Import Outcome Scalar Float64 Model Spec RealOps ExprSpec Samples Ops64 NumSpec ParamSpec ErrSpec FmaSpec FactsFma.
Import ListNotations.
Open Scope R_scope.

(** C74.  Radii computed in advance from the exact values bound the error of the computed value, gradient and Hessian for
    every choice of contractions, and exclude overflow; libm is accurate to the relative error [k]. *)
Theorem C74_error_bounds_under_contraction : forall (M : libm) (k : R) (c : cfg) (vs : list b64) (e : expr b64), let n := length vs in
  cfg_ok c -> size_ok c n -> vars_below n e -> no_abs e -> dom (emap val64 e) (at64 vs) -> accurate M k ->
  exists rT fT gT hT rB fB gB hB G H,
    evaluate Tops c (map TLit vs) (emap TLit e) = Ok rT /\ shows c n rT fT gT hT /\
    evaluate (Bops k) c (map point vs) (emap point e) = Ok rB /\ shows c n rB fB gB hB /\
    let F := rev (emap val64 e) in let p := at64 vs in
    sure M (F p) fT fB /\
    (forall i, (i < n)%nat -> partial F i p (G i) /\ sure M (G i) (gT i) (gB i)) /\
    (c_ord c = 2%Z -> forall i j, (i < n)%nat -> (j < n)%nat -> partial2 F i j p (H i j) /\ sure M (H i j) (hT i j) (hB i j)).
Proof. exact contracted. Qed.
Print Assumptions C74_error_bounds_under_contraction.
(** The arithmetic of the other theorems, without contraction, is one of the choices. *)
Theorem C74_uncontracted : forall (M : libm) (c : cfg) (vs : list b64) (e : expr b64), let n := length vs in
  cfg_ok c -> size_ok c n -> vars_below n e -> no_abs e ->
  exists rT fT gT hT r f g h,
    evaluate Tops c (map TLit vs) (emap TLit e) = Ok rT /\ shows c n rT fT gT hT /\
    evaluate (b64ops M) c vs e = Ok r /\ shows c n r f g h /\
    evals M fT f /\ (forall i, (i < n)%nat -> evals M (gT i) (g i)) /\
    (c_ord c = 2%Z -> forall i j, (i < n)%nat -> (j < n)%nat -> evals M (hT i j) (h i j)).
Proof. exact unfused. Qed.
Print Assumptions C74_uncontracted.
(** Integers of at most 53 bits (C55): every choice computes the exact derivatives. *)
Theorem C74_integers_exact : forall (M : libm) (c : cfg) (vs : list Z) (e : expr Z) (r0 : dd (option Z)),
  let n := length vs in let lit := fun z => TLit (b64_of_Z z) in
  cfg_ok c -> size_ok c n -> vars_below n e -> arith false e ->
  evaluate int53 c (map small vs) (emap small e) = Ok r0 -> clean r0 ->
  exists rT fT gT hT, evaluate Tops c (map lit vs) (emap lit e) = Ok rT /\ shows c n rT fT gT hT /\
    let F := rev (emap IZR e) in let p := atZ vs in
    (forall v, evals M fT v -> finite64 v /\ val64 v = F p) /\
    (forall i v, (i < n)%nat -> evals M (gT i) v -> finite64 v /\ partial F i p (val64 v)) /\
    (c_ord c = 2%Z -> forall i j v, (i < n)%nat -> (j < n)%nat -> evals M (hT i j) v -> finite64 v /\ partial2 F i j p (val64 v)).
Proof. exact contracted_integers. Qed.
Print Assumptions C74_integers_exact.
(** Contractions do change results: x * x - x * x at x = 2^27 + 1 may be 0 or 1. *)
Theorem C74_contraction_matters : forall M : libm, let v := b64_of_Z (2 ^ 27 + 1) in let sq := EB Bmul (EVar 0) (EVar 0) in
  exists rT fT a b, evaluate Tops dyn1 (map TLit [v]) (emap TLit (EB Bsub sq sq)) = Ok rT /\ get_f rT = Ok fT /\
    evals M fT a /\ evals M fT b /\ val64 a = 0 /\ val64 b = 1.
Proof. exact contraction_matters. Qed.
Print Assumptions C74_contraction_matters.
(** Correctly rounded functions satisfy the hypothesis on libm; the radius for x / 3 at x = 1 is at most one unit of
    roundoff. *)
Example C74_case : (exists M, accurate M u64) /\
  forall k, exists r f d, evaluate (Bops k) dyn1 (map point [b64_of_Z 1]) (emap point (EU (Udivs (b64_of_Z 3)) (EVar 0))) = Ok r /\
    get_f r = Ok f /\ f = Some (1 / 3, d) /\ d <= u64.
Proof. split; [exists exact_libm; exact exact_accurate|exact third_ball]. Qed.
