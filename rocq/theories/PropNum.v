(** Accuracy of value, gradient and Hessian in [double] arithmetic. *)
From Coq Require Import ZArith List Bool Reals Lia.
From Flocq Require Import Core BinarySingleNaN.
From Verif Require Import Outcome Scalar Float64 Model Spec RealOps ExprSpec Samples Ops64 NumSpec FactsNum.
Import ListNotations.
Open Scope R_scope.

(** C54.  [vs] are the doubles passed to [variables]; [F] is the real function denoted by the
    expression.  The third evaluation repeats the computation on absolute values without
    cancellation and gives the scale of the error.  The first evaluation only detects overflow,
    underflow and division by zero. *)
Theorem C54_rounding_error : forall (M : libm) (c : cfg) (vs : list b64) (e : expr b64) (r0 : dd (option b64)),
  cfg_ok c -> size_ok c (length vs) -> vars_below (length vs) e -> arith true e ->
  evaluate chk64 c (map seen vs) (emap seen e) = Ok r0 -> clean r0 ->
  exists r f g h G H rm Fm Gm Hm,
    evaluate (b64ops M) c vs e = Ok r /\ shows c (length vs) r f g h /\
    evaluate Mops c (map abs64 vs) (emap abs64 e) = Ok rm /\ shows c (length vs) rm Fm Gm Hm /\
    let F := rev (emap val64 e) in let p := at64 vs in let eps := (1 + u64) ^ roundings e - 1 in
    Rabs (val64 f - F p) <= eps * Fm /\
    (forall i, (i < length vs)%nat -> partial F i p (G i) /\ Rabs (val64 (g i) - G i) <= eps * Gm i) /\
    (c_ord c = 2%Z -> forall i j, (i < length vs)%nat -> (j < length vs)%nat ->
       partial2 F i j p (H i j) /\ Rabs (val64 (h i j) - H i j) <= eps * Hm i j).
Proof. exact error_bound. Qed.
Print Assumptions C54_rounding_error.
(** ((x * y - x / 10) * x) * 7 at x = 1/10, y = 2/3, both rounded. *)
Example C54_case :
  let q a b := b64_div (b64_of_Z a) (b64_of_Z b) in
  let e : expr b64 := EU (Umuls (b64_of_Z 7))
    (EB Bmul (EB Bsub (EB Bmul (EVar 0) (EVar 1)) (EU (Udivs (b64_of_Z 10)) (EVar 0))) (EVar 0)) in
  arith true e /\ vars_below 2 e /\ size_ok dyn2 2 /\ roundings e = 8%nat /\
  exists r0, evaluate chk64 dyn2 (map seen [q 1 10; q 2 3]%Z) (emap seen e) = Ok r0 /\ clean r0.
Proof.
  split; [cbn; tauto|]. split; [cbn; lia|]. split; [split; [discriminate|vm_compute; discriminate]|]. split; [reflexivity|].
  apply cleanb_ok. vm_compute. reflexivity.
Qed.

(** C55: integers of at most 53 bits, no intermediate result above 2^53: the derivatives are exact. *)
Theorem C55_integer_polynomials_exact : forall (M : libm) (c : cfg) (vs : list Z) (e : expr Z) (r0 : dd (option Z)),
  cfg_ok c -> size_ok c (length vs) -> vars_below (length vs) e -> arith false e ->
  evaluate int53 c (map small vs) (emap small e) = Ok r0 -> clean r0 ->
  exists r f g h,
    evaluate (b64ops M) c (map b64_of_Z vs) (emap b64_of_Z e) = Ok r /\ shows c (length vs) r f g h /\
    let F := rev (emap IZR e) in let p := atZ vs in
    val64 f = F p /\
    (forall i, (i < length vs)%nat -> partial F i p (val64 (g i))) /\
    (c_ord c = 2%Z -> forall i j, (i < length vs)%nat -> (j < length vs)%nat -> partial2 F i j p (val64 (h i j))).
Proof. exact integers_exact. Qed.
Print Assumptions C55_integer_polynomials_exact.
(** (x * y - 3) * (x * x) at x = 1234, y = -77 *)
Example C55_case :
  let e : expr Z := EB Bmul (EU (Usubs 3%Z) (EB Bmul (EVar 0) (EVar 1))) (EB Bmul (EVar 0) (EVar 0)) in
  arith false e /\ vars_below 2 e /\ size_ok (sta2 2) 2 /\
  exists r0, evaluate int53 (sta2 2) (map small [1234; -77]%Z) (emap small e) = Ok r0 /\ clean r0.
Proof.
  split; [cbn; tauto|]. split; [cbn; lia|]. split; [split; [reflexivity|vm_compute; discriminate]|].
  apply cleanb_ok. vm_compute. reflexivity.
Qed.
(** Without the bound the claim is false: 2^53 + 1. *)
Theorem C55_beyond_2_53 : forall M : libm, exists r f,
  evaluate (b64ops M) dyn1 [b64_of_Z (2 ^ 53)] (EU (Uadds (b64_of_Z 1)) (EVar 0)) = Ok r /\
  get_f r = Ok f /\ val64 f <> IZR (2 ^ 53) + 1.
Proof. exact beyond_2_53. Qed.
Print Assumptions C55_beyond_2_53.
