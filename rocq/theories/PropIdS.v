(** C112: chain rule and identities of sparse numbers. *)
From Coq Require Import ZArith List Bool String Reals Lra Lia.
From Coquelicot Require Import Coquelicot.
From Verif Require Import Outcome Scalar Model Spec RealOps ExprSpec ModelS SpecS FactsS IdSSpec FactsIdS.
Import ListNotations.
Open Scope R_scope.

(** C112.  Chain rule: on operands with any derivatives by any names (shared or not), the derivative by every name [k] is the
    sum of the partial derivatives times the operands' derivatives by [k]. *)
Theorem C112_chain_rule : forall (e : expr R) (ys : list (ss R)) (p : nat -> R), let n := List.length ys in
  List.Forall keys_ok ys -> vars_below n e -> (forall i, (i < n)%nat -> p i = s_get_f (operands ys i)) -> dom e p ->
  exists a : nat -> R, (forall i, (i < n)%nat -> partial (rev e) i p (a i)) /\
    forall x, s_runs Rops (operands ys) e x ->
      s_get_f x = rev e p /\ forall k, s_get_d Rops x k = rsum n (fun i => a i * s_get_d Rops (operands ys i) k).
Proof. exact chain_s. Qed.
Print Assumptions C112_chain_rule.
(** What is computed depends only on the function, not on how it is written. *)
Theorem C112_same_function : forall (ys : list (ss R)) (e1 e2 : expr R) (p : nat -> R), let n := List.length ys in
  List.Forall keys_ok ys -> (forall i, (i < n)%nat -> p i = s_get_f (operands ys i)) ->
  vars_below n e1 -> vars_below n e2 -> dom e1 p -> dom e2 p -> near n p (fun q => rev e1 q = rev e2 q) -> same_s ys e1 e2.
Proof. exact same_function_s. Qed.
Print Assumptions C112_same_function.
(** Division inverts multiplication. *)
Theorem C112_division : forall x y : ss R, keys_ok x -> keys_ok y -> s_get_f y <> 0 ->
  same_s [x; y] (X / Y * Y) X /\ same_s [x; y] (X * Y / Y) X /\
  same_s [x; y] (X / Y) (X * EU Ureciprocal Y) /\ same_s [x; y] (EU (Usdiv 1) Y) (EU Ureciprocal Y) /\
  same_s [x; y] (EU Ureciprocal (EU Ureciprocal Y)) Y /\ same_s [x; y] (Y / Y) (EConst 1) /\
  same_s [x; y] (Y * EU Ureciprocal Y) (EConst 1).
Proof. exact division_s. Qed.
Print Assumptions C112_division.
(** Identities of the functions: everywhere, for positive, nonzero and other values, for two and three operands. *)
Theorem C112_everywhere : forall x : ss R, keys_ok x ->
  same_s [x] (EU Ulog (EU Uexp X)) X /\
  same_s [x] (EU Usin X * EU Usin X + EU Ucos X * EU Ucos X) (EConst 1) /\
  same_s [x] (EU Ucosh X * EU Ucosh X - EU Usinh X * EU Usinh X) (EConst 1) /\
  same_s [x] (EU Utanh X) (EU Usinh X / EU Ucosh X) /\
  same_s [x] (EU Usinh X) (EU (Udivs 2) (EU Uexp X - EU Uexp (- X))) /\
  same_s [x] (EU Ucosh X) (EU (Udivs 2) (EU Uexp X + EU Uexp (- X))) /\
  same_s [x] (EU Utan (EU Uatan X)) X /\
  same_s [x] (EU Usinh (EU Uasinh X)) X /\ same_s [x] (EU Uasinh (EU Usinh X)) X /\
  same_s [x] (EU (Upow 2) X) (X * X) /\ same_s [x] (EU (Upow 3) X) (X * X * X) /\
  same_s [x] (EU Uexp (- X)) (EU Ureciprocal (EU Uexp X)) /\
  same_s [x] (EU Usin (- X)) (- EU Usin X) /\ same_s [x] (EU Ucos (- X)) (EU Ucos X).
Proof. exact everywhere_s. Qed.
Print Assumptions C112_everywhere.
Theorem C112_positive : forall (x : ss R) (s : R), keys_ok x -> 0 < s_get_f x ->
  same_s [x] (EU Uexp (EU Ulog X)) X /\
  same_s [x] (EU Usqrt X * EU Usqrt X) X /\ same_s [x] (EU Usqrt (X * X)) X /\
  same_s [x] (EU Ulog2 X) (EU (Udivs (ln 2)) (EU Ulog X)) /\
  same_s [x] (EU Ulog10 X) (EU (Udivs (ln 10)) (EU Ulog X)) /\
  (0 < s -> s <> 1 -> same_s [x] (EU (Ulogb s) X) (EU (Udivs (ln s)) (EU Ulog X))) /\
  same_s [x] (EU (Upow s) X) (EU Uexp (EU (Umuls s) (EU Ulog X))) /\
  same_s [x] (EU (Upow (/ 2)) X) (EU Usqrt X) /\
  same_s [x] (EU (Upow (/ 3)) X) (EU Ucbrt X) /\
  same_s [x] (EU Uabs X) X.
Proof. exact positive_s. Qed.
Print Assumptions C112_positive.
Theorem C112_nonzero : forall x : ss R, keys_ok x -> s_get_f x <> 0 ->
  same_s [x] (EU Ucbrt X * EU Ucbrt X * EU Ucbrt X) X /\
  same_s [x] (EU (Upow 3) (EU Ucbrt X)) X /\
  same_s [x] (EU Uabs X) (EU Usqrt (X * X)) /\
  same_s [x] (EU (Upow (-1)) X) (EU Ureciprocal X) /\
  same_s [x] (EU (Upow 1) X) X /\ same_s [x] (EU (Upow 0) X) (EConst 1).
Proof. exact nonzero_s. Qed.
Print Assumptions C112_nonzero.
Theorem C112_unit_interval : forall x : ss R, keys_ok x -> -1 < s_get_f x < 1 ->
  same_s [x] (EU Usin (EU Uasin X)) X /\ same_s [x] (EU Ucos (EU Uacos X)) X /\
  same_s [x] (EU Utanh (EU Uatanh X)) X /\
  same_s [x] (EU Uasin X + EU Uacos X) (EConst (PI / 2)) /\
  same_s [x] (EU Ucos (EU Uasin X)) (EU Usqrt (EU (Ussub 1) (X * X))).
Proof. exact unit_s. Qed.
Print Assumptions C112_unit_interval.
Theorem C112_acosh : forall x : ss R, keys_ok x -> 1 < s_get_f x ->
  same_s [x] (EU Ucosh (EU Uacosh X)) X.
Proof. exact acosh_s. Qed.
Print Assumptions C112_acosh.
Theorem C112_tan : forall x : ss R, keys_ok x -> cos (s_get_f x) <> 0 ->
  same_s [x] (EU Utan X) (EU Usin X / EU Ucos X).
Proof. exact tan_s. Qed.
Print Assumptions C112_tan.
Theorem C112_two_operands : forall x y : ss R, keys_ok x -> keys_ok y -> let a := s_get_f x in let b := s_get_f y in
  same_s [x; y] (EU Uexp (X + Y)) (EU Uexp X * EU Uexp Y) /\
  same_s [x; y] (EU Usin (X + Y)) (EU Usin X * EU Ucos Y + EU Ucos X * EU Usin Y) /\
  same_s [x; y] (EU Ucos (X + Y)) (EU Ucos X * EU Ucos Y - EU Usin X * EU Usin Y) /\
  (0 < a -> 0 < b -> same_s [x; y] (EU Ulog (X * Y)) (EU Ulog X + EU Ulog Y)) /\
  (0 < a -> 0 < b -> same_s [x; y] (EU Usqrt (X * Y)) (EU Usqrt X * EU Usqrt Y)) /\
  (~ (a = 0 /\ b = 0) -> same_s [x; y] (EB Bhypot X Y) (EU Usqrt (X * X + Y * Y))) /\
  (0 < b -> same_s [x; y] (EB Batan2 X Y) (EU Uatan (X / Y))).
Proof. exact two_s. Qed.
Print Assumptions C112_two_operands.
Theorem C112_atan2_is_atan_of_quotient : forall x y : ss R, keys_ok x -> keys_ok y -> let a := s_get_f x in let b := s_get_f y in b <> 0 ->
  same_s [x; y] (EB Batan2 X Y) (EU (Uadds (Ratan2 a b - atan (a / b))) (EU Uatan (X / Y))).
Proof. exact quotient_s. Qed.
Print Assumptions C112_atan2_is_atan_of_quotient.
Theorem C112_hypot3 : forall x y z : ss R, keys_ok x -> keys_ok y -> keys_ok z -> let a := s_get_f x in let b := s_get_f y in let d := s_get_f z in
  (~ (a = 0 /\ b = 0 /\ d = 0) -> same_s [x; y; z] (EH X Y Z3) (EU Usqrt (X * X + Y * Y + Z3 * Z3))) /\
  (~ (a = 0 /\ b = 0) -> same_s [x; y; z] (EH X Y Z3) (EB Bhypot (EB Bhypot X Y) Z3)).
Proof. exact hypot3_same. Qed.
Print Assumptions C112_hypot3.
(** [pow] with a natural exponent is the product. *)
Theorem C112_natural_powers : forall (x : ss R) (k : nat), keys_ok x -> s_get_f x <> 0 \/ (2 <= k)%nat -> same_s [x] (EU (Upow (INR k)) X) (epow k).
Proof. exact powers_s. Qed.
Print Assumptions C112_natural_powers.
(** The names stored, and so [size()], do depend on how it is written. *)
Theorem C112_names_refuted :
  ~ (forall (ys : list (ss R)) (e1 e2 : expr R) (x y : ss R), List.Forall keys_ok ys -> same_s ys e1 e2 ->
       s_runs Rops (operands ys) e1 x -> s_runs Rops (operands ys) e2 y -> s_size x = s_size y).
Proof. exact names_depend. Qed.
Print Assumptions C112_names_refuted.
(** Two operands that share the name "u": (x + y)^2 and x*x + 2*x*y + y*y; both can be evaluated, and 0.5 is in every domain. *)
Example C112_case : let x := mks (/ 2) [("u", 3); ("v", 4)]%string in let y := mks 5 [("w", 6); ("u", 7)]%string in
  let e1 := EU (Upow 2) (X + Y)%E in let e2 := (X * X + EU (Usmul 2) (X * Y) + Y * Y)%E in
  List.Forall keys_ok [x; y] /\ dom e1 (fun i => s_get_f (operands [x; y] i)) /\ same_s [x; y] e1 e2 /\
  s_get_d Rops (s_run Rops (operands [x; y]) e1) "u" = 110 /\ s_runs Rops (operands [x; y]) e1 (s_run Rops (operands [x; y]) e1) /\
  0 < / 2 /\ -1 < / 2 < 1.
Proof. exact id_case. Qed.
