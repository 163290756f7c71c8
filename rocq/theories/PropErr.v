(** C67: error bounds for all expressions in [double] arithmetic. *)
From Coq Require Import ZArith List Bool Reals Lia.
From Flocq Require Import Core BinarySingleNaN.
From Verif Require Import Outcome Scalar Float64 Model Spec RealOps ExprSpec Samples Ops64 NumSpec ParamSpec ErrSpec FactsErr.
Import ListNotations.
Open Scope R_scope.

(** C67.  Every scalar type whose operations follow the doubles and enclose the reals certifies the computed value,
    gradient and Hessian: component by component, the same element of the type belongs to the double and encloses
    the exact derivative. *)
Theorem C67_certificates : forall (T : Type) (O' : Ops T) (within : R -> T -> Prop) (carries : b64 -> T -> Prop) (lift : b64 -> T)
  (M : libm) (c : cfg) (e : expr b64) (vs : list b64),
  let n := length vs in
  cfg_ok c -> size_ok c n -> vars_below n e -> no_abs e ->
  arith_rel within Rops O' -> arith_rel carries (b64ops M) O' ->
  (forall v, carries v (lift v)) -> (forall v, within (val64 v) (lift v)) ->
  exists r f g h rT fT gT hT G H,
    evaluate (b64ops M) c vs e = Ok r /\ shows c n r f g h /\
    evaluate O' c (map lift vs) (emap lift e) = Ok rT /\ shows c n rT fT gT hT /\
    carries f fT /\ (forall i, (i < n)%nat -> carries (g i) (gT i)) /\
    (c_ord c = 2%Z -> forall i j, (i < n)%nat -> (j < n)%nat -> carries (h i j) (hT i j)) /\
    let F := rev (emap val64 e) in let p := at64 vs in
    (dom (emap val64 e) p ->
      within (F p) fT /\
      (forall i, (i < n)%nat -> partial F i p (G i) /\ within (G i) (gT i)) /\
      (c_ord c = 2%Z -> forall i j, (i < n)%nat -> (j < n)%nat -> partial2 F i j p (H i j) /\ within (H i j) (hT i j))).
Proof. exact @certified. Qed.
Print Assumptions C67_certificates.
(** Doubles with a running error bound are such a type, whatever libm does: where the bound exists, it bounds the
    distance of the computed derivative from the exact one. *)
Theorem C67_running_error : forall (M : libm) (c : cfg) (vs : list b64) (e : expr b64), let n := length vs in
  cfg_ok c -> size_ok c n -> vars_below n e -> no_abs e -> dom (emap val64 e) (at64 vs) ->
  exists r f g h rT fT gT hT G H,
    evaluate (b64ops M) c vs e = Ok r /\ shows c n r f g h /\
    evaluate (Eops M) c (map exactly vs) (emap exactly e) = Ok rT /\ shows c n rT fT gT hT /\
    let F := rev (emap val64 e) in let p := at64 vs in
    bounded (F p) f fT /\
    (forall i, (i < n)%nat -> partial F i p (G i) /\ bounded (G i) (g i) (gT i)) /\
    (c_ord c = 2%Z -> forall i j, (i < n)%nat -> (j < n)%nat -> partial2 F i j p (H i j) /\ bounded (H i j) (h i j) (hT i j)).
Proof. exact running_error. Qed.
Print Assumptions C67_running_error.
(** The rounding errors summed up in the bound. *)
Theorem C67_local_errors : forall v w : b64,
  (finite64 (b64_add v w) -> Rabs (val64 (b64_add v w) - (val64 v + val64 w)) <= u64 * Rabs (val64 v + val64 w)) /\
  (finite64 (b64_sub v w) -> Rabs (val64 (b64_sub v w) - (val64 v - val64 w)) <= u64 * Rabs (val64 v - val64 w)) /\
  (finite64 (b64_mul v w) -> Rabs (val64 (b64_mul v w) - val64 v * val64 w) <= u64 * Rabs (val64 v * val64 w) + eta64) /\
  (finite64 (b64_div v w) -> val64 w <> 0 -> Rabs (val64 (b64_div v w) - val64 v / val64 w) <= u64 * Rabs (val64 v / val64 w) + eta64) /\
  (finite64 (b64_sqrt v) -> Rabs (val64 (b64_sqrt v) - sqrt (val64 v)) <= u64 * sqrt (val64 v) + eta64) /\
  val64 (b64_neg v) = - val64 v.
Proof. exact local_errors. Qed.
Print Assumptions C67_local_errors.
(** x * x / 3 at x = 7: the bound exists and is at most 40 units of roundoff. *)
Example C67_case : forall M : libm, exists r f v d,
  evaluate (Eops M) dyn1 (map exactly [b64_of_Z 7]) (emap exactly (EU (Udivs (b64_of_Z 3)) (EB Bmul (EVar 0) (EVar 0)))) = Ok r /\
  get_f r = Ok f /\ f = Some (v, d) /\ d <= 40 * u64.
Proof. exact tracked_square_third. Qed.
