(** C20-C23, C26-C30, C47, C48: in-place operators, comparisons, [abs], algebraic laws and functional
    identities in exact real arithmetic.  [same c n xs e1 e2]: both expressions, run by the library on
    the numbers [xs], succeed and give the same size and identical data (value, gradient, Hessian).
    [X], [Y], [Z3] are the first, second and third number of [xs]; they need not be variables. *)
From Coq Require Import ZArith List Bool Reals Lra Lia.
From Coquelicot Require Import Coquelicot.
From Verif Require Import Outcome Scalar Model Spec RealOps UDeriv ExprSpec Chain FactsReal Samples.
Import ListNotations.
Open Scope R_scope.
Open Scope res_scope.

(** C20, division (exact arithmetic; the other operators are in PropOps.v). *)
Theorem C20_div_assign : forall (c : cfg) (n : nat) (x y : dd R),
  cfg_ok c -> wf c n x -> wf c n y -> agree c (div_assign Rops c x (Some y)) (div Rops c x y).
Proof. exact div_assign_agrees. Qed.
Print Assumptions C20_div_assign.
Example C20_div_case : forall a b d e f g : R, cfg_ok dyn2 /\ wf dyn2 2 (mk 2 (full [a; b; d; e; f; g])).
Proof. intros. split; [exact cfg_dyn2|]. apply wf_list; [reflexivity|reflexivity|vm_compute; discriminate]. Qed.

(** C21.  Full statement: [x op= x] gives the same result as [x op x] for the four operators; false for
    [*=] on second-order numbers (refuted below, with what it computes instead). *)
Theorem C21_add_self : forall (S : Type) (O : Ops S) (c : cfg) (n : nat) (x : dd S),
  cfg_ok c -> wf c n x -> agree c (add_assign O c x None) (add O c x x).
Proof. exact @add_self. Qed.
Print Assumptions C21_add_self.
Theorem C21_sub_self : forall (S : Type) (O : Ops S) (c : cfg) (n : nat) (x : dd S),
  (forall a b, o_sub O a b = o_add O a (o_neg O b)) ->
  cfg_ok c -> wf c n x -> agree c (sub_assign O c x None) (sub O c x x).
Proof. exact @sub_self. Qed.
Print Assumptions C21_sub_self.
Theorem C21_div_self : forall (c : cfg) (n : nat) (x : dd R) (a : R),
  cfg_ok c -> wf c n x -> get_f x = Ok a -> a <> 0 -> agree c (div_assign Rops c x None) (div Rops c x x).
Proof. exact div_self. Qed.
Print Assumptions C21_div_self.
Theorem C21_mul_self_partial : forall (c : cfg) (n : nat) (x : dd R),
  cfg_ok c -> c_ord c = 1%Z -> wf c n x -> agree c (mul_assign Rops c x None) (mul Rops c x x).
Proof. exact mul_self_first. Qed.
Print Assumptions C21_mul_self_partial.
Theorem C21_mul_self_refuted : ~ (forall (c : cfg) (n : nat) (x : dd R), cfg_ok c -> wf c n x ->
  agree c (mul_assign Rops c x None) (mul Rops c x x)).
Proof. exact mul_self_witness. Qed.
Print Assumptions C21_mul_self_refuted.
Theorem C21_mul_self_computes : forall (c : cfg) (n : nat) (x : dd R) (f : R) (g : nat -> R) (h : nat -> nat -> R),
  cfg_ok c -> shows c n x f g h ->
  (exists r, mul Rops c x x = Ok r /\
     shows c n r (f * f) (fun i => 2 * f * g i) (fun i j => 2 * f * h i j + 2 * g i * g j)) /\
  (exists r, mul_assign Rops c x None = Ok r /\
     shows c n r (f * f) (fun i => 2 * f * g i) (fun i j => 2 * f * h i j + 4 * f * g i * g j)).
Proof. exact mul_self_actual. Qed.
Print Assumptions C21_mul_self_computes.
(** [x *= x.f()]: [f()] returns a reference to the element that is overwritten first. *)
Theorem C21_mul_by_own_value_computes : forall (c : cfg) (n : nat) (x : dd R) (f : R) (g : nat -> R)
  (h : nat -> nat -> R), cfg_ok c -> shows c n x f g h ->
  exists r, muls_assign Rops x (SElem 0) = Ok r /\
    shows c n r (f * f) (fun i => f * f * g i) (fun i j => f * f * h i j).
Proof. exact mul_by_own_value. Qed.
Print Assumptions C21_mul_by_own_value_computes.
Example C21_case : wf dyn2 2 exa /\ wf dyn1 3 ex1 /\ get_f exa = Ok 7%Z /\
  add_assign Zops dyn2 exa None = add Zops dyn2 exa exa /\
  mul Zops dyn2 exa exa = Ok (mk 2 (full [49; 14; 28; 44; 60; 78]%Z)) /\
  mul_assign Zops dyn2 exa None = Ok (mk 2 (full [49; 14; 28; 70; 112; 182]%Z)) /\
  muls_assign Zops exa (SElem 0) = Ok (mk 2 (full [49; 49; 98; 147; 196; 245]%Z)).
Proof. split; [exact wf_exa|]. split; [exact wf_ex1|]. run_case. Qed.

(** C22, totally ordered scalars (the reals). *)
Theorem C22_real_comparisons_consistent : forall (x y : dd R) (a b : R), get_f x = Ok a -> get_f y = Ok b ->
  exists lt eq gt le ge ne, compare Rops Clt x y = Ok lt /\ compare Rops Ceq x y = Ok eq /\
    compare Rops Cgt x y = Ok gt /\ compare Rops Cle x y = Ok le /\ compare Rops Cge x y = Ok ge /\
    compare Rops Cne x y = Ok ne /\
    (lt = true <-> a < b) /\ (eq = true <-> a = b) /\ (gt = true <-> a > b) /\
    (le = true <-> a <= b) /\ (ge = true <-> a >= b) /\ (ne = true <-> a <> b) /\
    compare Rops Cgt y x = Ok lt /\ compare Rops Cge y x = Ok le /\ compare Rops Clt y x = Ok (negb le) /\
    ne = negb eq /\
    ((lt = true /\ eq = false /\ gt = false) \/ (lt = false /\ eq = true /\ gt = false) \/
     (lt = false /\ eq = false /\ gt = true)).
Proof. exact real_comparisons. Qed.
Print Assumptions C22_real_comparisons_consistent.
Example C22_real_case : forall a b d : R, get_f (mk 2 (full [a; b; d])) = Ok a.
Proof. intros. vm_compute. reflexivity. Qed.

(** C23; that the derivatives are those of |F| is C16/C17 with [Uabs]. *)
Theorem C23_abs_any_scalar : forall (S : Type) (O : Ops S) (c : cfg) (n : nat) (x : dd S) (a : S),
  cfg_ok c -> wf c n x -> get_f x = Ok a ->
  agree c (abs O c x) (if o_lt O a (o_Z O 0%Z) then neg O c x else Ok x).
Proof. exact @abs_spec. Qed.
Print Assumptions C23_abs_any_scalar.
Theorem C23_abs_real : forall (c : cfg) (n : nat) (x : dd R) (a : R), cfg_ok c -> wf c n x -> get_f x = Ok a ->
  (exists r, abs Rops c x = Ok r /\ wf c n r /\ get_f r = Ok (Rabs a)) /\
  (0 <= a -> agree c (abs Rops c x) (Ok x)) /\ (a < 0 -> agree c (abs Rops c x) (neg Rops c x)) /\
  agree c (r <- abs Rops c x ;; abs Rops c r) (abs Rops c x).
Proof. exact abs_real. Qed.
Print Assumptions C23_abs_real.
Example C23_case : abs Zops dyn2 (mk 2 (full [-7; 1; 2; 3; 4; -5]%Z)) = Ok (mk 2 (full [7; -1; -2; -3; -4; 5]%Z)) /\
  abs Zops dyn2 exa = Ok exa.
Proof. run_case. Qed.

(** C26 *)
Theorem C26_scalar_is_constant : forall (c : cfg) (n : nat) (x : dd R) (s : R), cfg_ok c -> wf c n x ->
  same c n [x] (EU (Uadds s) X) (X + EConst s) /\ same c n [x] (EU (Usadd s) X) (EConst s + X) /\
  same c n [x] (EU (Usubs s) X) (X - EConst s) /\ same c n [x] (EU (Ussub s) X) (EConst s - X) /\
  same c n [x] (EU (Umuls s) X) (X * EConst s) /\ same c n [x] (EU (Usmul s) X) (EConst s * X) /\
  (s <> 0 -> same c n [x] (EU (Udivs s) X) (X / EConst s)) /\
  (forall a, get_f x = Ok a -> a <> 0 -> same c n [x] (EU (Usdiv s) X) (EConst s / X)).
Proof. exact scalar_ops. Qed.
Print Assumptions C26_scalar_is_constant.
Theorem C26_scalar_side_bit_for_bit : forall (S : Type) (O : Ops S) (c : cfg) (n : nat) (x : dd S) (s : S),
  cfg_ok c -> wf c n x ->
  agree c (apply_u O c (Uadds s) x) (apply_u O c (Usadd s) x) /\
  agree c (apply_u O c (Umuls s) x) (apply_u O c (Usmul s) x).
Proof. exact @scalar_comm. Qed.
Print Assumptions C26_scalar_side_bit_for_bit.
Example C26_case : apply_u Zops dyn2 (Usadd 5%Z) exa = Ok (mk 2 (full [12; 1; 2; 3; 4; 5]%Z)) /\
  apply_u Zops dyn2 (Ussub 5%Z) exa = Ok (mk 2 (full [-2; -1; -2; -3; -4; -5]%Z)).
Proof. run_case. Qed.

(** C27 *)
Theorem C27_commutative_bit_for_bit : forall (S : Type) (O : Ops S) (c : cfg) (n : nat) (x y : dd S),
  (forall a b, o_add O a b = o_add O b a) -> (forall a b, o_mul O a b = o_mul O b a) ->
  cfg_ok c -> wf c n x -> wf c n y ->
  agree c (add O c x y) (add O c y x) /\ agree c (mul O c x y) (mul O c y x).
Proof. exact @comm_exact. Qed.
Print Assumptions C27_commutative_bit_for_bit.
Theorem C27_ring_laws : forall (c : cfg) (n : nat) (x y z : dd R),
  cfg_ok c -> wf c n x -> wf c n y -> wf c n z ->
  same c n [x; y; z] (X + Y) (Y + X) /\ same c n [x; y; z] (X + (Y + Z3)) (X + Y + Z3) /\
  same c n [x; y; z] (X * Y) (Y * X) /\ same c n [x; y; z] (X * (Y * Z3)) (X * Y * Z3) /\
  same c n [x; y; z] (X * (Y + Z3)) (X * Y + X * Z3) /\ same c n [x; y; z] ((X + Y) * Z3) (X * Z3 + Y * Z3) /\
  same c n [x; y; z] (X + EConst 0) X /\ same c n [x; y; z] (X * EConst 1) X /\
  same c n [x; y; z] (X * EConst 0) (EConst 0) /\
  same c n [x; y; z] (X + - X) (EConst 0) /\ same c n [x; y; z] (X - Y) (X + - Y) /\
  same c n [x; y; z] (- - X) X.
Proof. exact ring_laws. Qed.
Print Assumptions C27_ring_laws.
Example C27_case : mul Zops dyn2 exa exb = Ok (mk 2 (full [21; 45; 41; 28; 29; 21]%Z)) /\
  mul Zops dyn2 exa exb = mul Zops dyn2 exb exa.
Proof. run_case. Qed.

(** C28 *)
Theorem C28_division_inverts_multiplication : forall (c : cfg) (n : nat) (x y : dd R) (b : R),
  cfg_ok c -> wf c n x -> wf c n y -> get_f y = Ok b -> b <> 0 ->
  same c n [x; y] (X / Y * Y) X /\ same c n [x; y] (X * Y / Y) X /\
  same c n [x; y] (X / Y) (X * EU Ureciprocal Y) /\ same c n [x; y] (EU (Usdiv 1) Y) (EU Ureciprocal Y) /\
  same c n [x; y] (EU Ureciprocal (EU Ureciprocal Y)) Y /\ same c n [x; y] (Y / Y) (EConst 1) /\
  same c n [x; y] (Y * EU Ureciprocal Y) (EConst 1).
Proof. exact division_laws. Qed.
Print Assumptions C28_division_inverts_multiplication.
Example C28_case : forall b d e f g : R, let y := mk 2 (full [4; b; d; e; f; g]) in
  wf dyn2 2 y /\ get_f y = Ok 4 /\ 4 <> 0.
Proof.
  intros. split; [apply wf_list; [reflexivity|reflexivity|vm_compute; discriminate]|].
  split; [vm_compute; reflexivity|lra].
Qed.

(** C29 *)
Theorem C29_identities_everywhere : forall (c : cfg) (n : nat) (x : dd R), cfg_ok c -> wf c n x ->
  same c n [x] (EU Ulog (EU Uexp X)) X /\
  same c n [x] (EU Usin X * EU Usin X + EU Ucos X * EU Ucos X) (EConst 1) /\
  same c n [x] (EU Ucosh X * EU Ucosh X - EU Usinh X * EU Usinh X) (EConst 1) /\
  same c n [x] (EU Utanh X) (EU Usinh X / EU Ucosh X) /\
  same c n [x] (EU Usinh X) (EU (Udivs 2) (EU Uexp X - EU Uexp (- X))) /\
  same c n [x] (EU Ucosh X) (EU (Udivs 2) (EU Uexp X + EU Uexp (- X))) /\
  same c n [x] (EU Utan (EU Uatan X)) X /\
  same c n [x] (EU Usinh (EU Uasinh X)) X /\ same c n [x] (EU Uasinh (EU Usinh X)) X /\
  same c n [x] (EU (Upow 2) X) (X * X) /\ same c n [x] (EU (Upow 3) X) (X * X * X) /\
  same c n [x] (EU Uexp (- X)) (EU Ureciprocal (EU Uexp X)) /\
  same c n [x] (EU Usin (- X)) (- EU Usin X) /\ same c n [x] (EU Ucos (- X)) (EU Ucos X).
Proof. exact identities_everywhere. Qed.
Print Assumptions C29_identities_everywhere.
Theorem C29_identities_positive : forall (c : cfg) (n : nat) (x : dd R) (a s : R),
  cfg_ok c -> wf c n x -> get_f x = Ok a -> 0 < a ->
  same c n [x] (EU Uexp (EU Ulog X)) X /\
  same c n [x] (EU Usqrt X * EU Usqrt X) X /\ same c n [x] (EU Usqrt (X * X)) X /\
  same c n [x] (EU Ulog2 X) (EU (Udivs (ln 2)) (EU Ulog X)) /\
  same c n [x] (EU Ulog10 X) (EU (Udivs (ln 10)) (EU Ulog X)) /\
  (0 < s -> s <> 1 -> same c n [x] (EU (Ulogb s) X) (EU (Udivs (ln s)) (EU Ulog X))) /\
  same c n [x] (EU (Upow s) X) (EU Uexp (EU (Umuls s) (EU Ulog X))) /\
  same c n [x] (EU (Upow (/ 2)) X) (EU Usqrt X) /\
  same c n [x] (EU (Upow (/ 3)) X) (EU Ucbrt X) /\
  same c n [x] (EU Uabs X) X.
Proof. exact identities_positive. Qed.
Print Assumptions C29_identities_positive.
Theorem C29_identities_nonzero : forall (c : cfg) (n : nat) (x : dd R) (a : R),
  cfg_ok c -> wf c n x -> get_f x = Ok a -> a <> 0 ->
  same c n [x] (EU Ucbrt X * EU Ucbrt X * EU Ucbrt X) X /\
  same c n [x] (EU (Upow 3) (EU Ucbrt X)) X /\
  same c n [x] (EU Uabs X) (EU Usqrt (X * X)) /\
  same c n [x] (EU (Upow (-1)) X) (EU Ureciprocal X) /\
  same c n [x] (EU (Upow 1) X) X /\ same c n [x] (EU (Upow 0) X) (EConst 1).
Proof. exact identities_nonzero. Qed.
Print Assumptions C29_identities_nonzero.
Theorem C29_identities_unit_interval : forall (c : cfg) (n : nat) (x : dd R) (a : R),
  cfg_ok c -> wf c n x -> get_f x = Ok a -> -1 < a < 1 ->
  same c n [x] (EU Usin (EU Uasin X)) X /\ same c n [x] (EU Ucos (EU Uacos X)) X /\
  same c n [x] (EU Utanh (EU Uatanh X)) X /\
  same c n [x] (EU Uasin X + EU Uacos X) (EConst (PI / 2)) /\
  same c n [x] (EU Ucos (EU Uasin X)) (EU Usqrt (EU (Ussub 1) (X * X))).
Proof. exact identities_unit. Qed.
Print Assumptions C29_identities_unit_interval.
Theorem C29_acosh : forall (c : cfg) (n : nat) (x : dd R) (a : R),
  cfg_ok c -> wf c n x -> get_f x = Ok a -> 1 < a -> same c n [x] (EU Ucosh (EU Uacosh X)) X.
Proof. exact identities_acosh. Qed.
Print Assumptions C29_acosh.
Theorem C29_tan : forall (c : cfg) (n : nat) (x : dd R) (a : R),
  cfg_ok c -> wf c n x -> get_f x = Ok a -> cos a <> 0 -> same c n [x] (EU Utan X) (EU Usin X / EU Ucos X).
Proof. exact identities_tan. Qed.
Print Assumptions C29_tan.
Theorem C29_identities_two_operands : forall (c : cfg) (n : nat) (x y : dd R) (a b : R),
  cfg_ok c -> wf c n x -> wf c n y -> get_f x = Ok a -> get_f y = Ok b ->
  same c n [x; y] (EU Uexp (X + Y)) (EU Uexp X * EU Uexp Y) /\
  same c n [x; y] (EU Usin (X + Y)) (EU Usin X * EU Ucos Y + EU Ucos X * EU Usin Y) /\
  same c n [x; y] (EU Ucos (X + Y)) (EU Ucos X * EU Ucos Y - EU Usin X * EU Usin Y) /\
  (0 < a -> 0 < b -> same c n [x; y] (EU Ulog (X * Y)) (EU Ulog X + EU Ulog Y)) /\
  (0 < a -> 0 < b -> same c n [x; y] (EU Usqrt (X * Y)) (EU Usqrt X * EU Usqrt Y)) /\
  (~ (a = 0 /\ b = 0) -> same c n [x; y] (EB Bhypot X Y) (EU Usqrt (X * X + Y * Y))) /\
  (0 < b -> same c n [x; y] (EB Batan2 X Y) (EU Uatan (X / Y))) /\
  (b < 0 -> a <> 0 -> exists k, (k = PI \/ k = - PI) /\
     same c n [x; y] (EB Batan2 X Y) (EU (Uadds k) (EU Uatan (X / Y)))).
Proof. exact identities_two. Qed.
Print Assumptions C29_identities_two_operands.
(** Also on the branch cut of [atan2] (second operand negative, first zero). *)
Theorem C29_atan2_is_atan_of_quotient : forall (c : cfg) (n : nat) (x y : dd R) (a b : R),
  cfg_ok c -> wf c n x -> wf c n y -> get_f x = Ok a -> get_f y = Ok b -> b <> 0 ->
  same c n [x; y] (EB Batan2 X Y) (EU (Uadds (Ratan2 a b - atan (a / b))) (EU Uatan (X / Y))).
Proof. exact atan2_quotient. Qed.
Print Assumptions C29_atan2_is_atan_of_quotient.
Example C29_case : forall b d e f g : R, let x := mk 2 (full [/ 2; b; d; e; f; g]) in
  wf dyn2 2 x /\ get_f x = Ok (/ 2) /\ 0 < / 2 /\ -1 < / 2 < 1 /\ cos 0 <> 0.
Proof.
  intros. split; [apply wf_list; [reflexivity|reflexivity|vm_compute; discriminate]|].
  split; [vm_compute; reflexivity|]. split; [lra|]. split; [lra|]. rewrite cos_0. lra.
Qed.

(** C30 *)
Theorem C30_hypot3_consistent : forall (c : cfg) (n : nat) (x y z : dd R) (a b d : R),
  cfg_ok c -> wf c n x -> wf c n y -> wf c n z -> get_f x = Ok a -> get_f y = Ok b -> get_f z = Ok d ->
  (~ (a = 0 /\ b = 0 /\ d = 0) -> same c n [x; y; z] (EH X Y Z3) (EU Usqrt (X * X + Y * Y + Z3 * Z3))) /\
  (~ (a = 0 /\ b = 0) -> same c n [x; y; z] (EH X Y Z3) (EB Bhypot (EB Bhypot X Y) Z3)).
Proof. exact hypot3_consistent. Qed.
Print Assumptions C30_hypot3_consistent.
Example C30_case : forall b d e f g : R, let y := mk 2 (full [4; b; d; e; f; g]) in
  wf dyn2 2 y /\ get_f y = Ok 4 /\ ~ (4 = 0 /\ 4 = 0).
Proof.
  intros. split; [apply wf_list; [reflexivity|reflexivity|vm_compute; discriminate]|].
  split; [vm_compute; reflexivity|lra].
Qed.

(** C47: the chain rule.  The operands are arbitrary numbers, not necessarily variables. *)
Theorem C47_chain_rule : forall (c : cfg) (n : nat) (e : expr R) (xs : list (dd R)) (p : nat -> R)
  (g : nat -> nat -> R) (h : nat -> nat -> nat -> R),
  cfg_ok c -> size_ok c n -> vars_below (length xs) e -> dom e p ->
  (forall k x, nth_error xs k = Some x -> shows c n x (p k) (g k) (h k)) ->
  let N := length xs in
  exists (a : nat -> R) (b : nat -> nat -> R) r,
    (forall k, (k < N)%nat -> partial (rev e) k p (a k)) /\
    (forall k l, (k < N)%nat -> (l < N)%nat -> partial2 (rev e) k l p (b k l)) /\
    run Rops c n xs e = Ok r /\
    shows c n r (rev e p) (fun i => rsum N (fun k => a k * g k i))
      (fun i j => rsum N (fun k => a k * h k i j) + rsum N (fun k => rsum N (fun l => b k l * g k i * g l j))).
Proof. exact chain_rule. Qed.
Print Assumptions C47_chain_rule.
(** The operand 4 with gradient (b, d) and Hessian [[e, f], [f, g]]. *)
Example C47_case : forall b d e f g : R,
  shows dyn2 2 (mk 2 (full [4; b; d; e; f; g])) 4 (fun i => match i with O => b | _ => d end)
    (fun i j => match i, j with O, O => e | S _, S _ => g | _, _ => f end) /\
  vars_below 1 (EU Usqrt X * X)%E /\ dom (EU Usqrt X * X)%E (fun _ => 4).
Proof.
  intros. split; [|split; [unfold X; cbn; repeat split; lia|unfold X; cbn; repeat split; lra]].
  split; [apply wf_list; [reflexivity|reflexivity|vm_compute; discriminate]|].
  split; [vm_compute; reflexivity|]. split.
  - intros [|[|i]] Hi; [vm_compute; reflexivity|vm_compute; reflexivity|lia].
  - intros _ [|[|i]] [|[|j]] Hi Hj; try lia; vm_compute; reflexivity.
Qed.

(** C48: what is computed depends only on the function, not on how it is written. *)
Theorem C48_same_function_same_data : forall (c : cfg) (n : nat) (e1 e2 : expr R) (xs : list (dd R)) (p : nat -> R),
  cfg_ok c -> size_ok c n -> List.Forall (wf c n) xs ->
  (forall k x, nth_error xs k = Some x -> get_f x = Ok (p k)) ->
  vars_below (length xs) e1 -> vars_below (length xs) e2 -> dom e1 p -> dom e2 p ->
  near (length xs) p (fun q => rev e1 q = rev e2 q) ->
  agree c (run Rops c n xs e1) (run Rops c n xs e2).
Proof. exact same_function. Qed.
Print Assumptions C48_same_function_same_data.
(** (x+y)^2 and x*x + 2*x*y + y*y at a point of two dependent operands with full Hessians. *)
Definition sq1 : expr R := (EU (Upow 2) (X + Y))%E.
Definition sq2 : expr R := (X * X + EU (Usmul 2) (X * Y) + Y * Y)%E.
Example C48_case : forall b d e f g : R, let x := mk 2 (full [4; b; d; e; f; g]) in
  List.Forall (wf dyn2 2) [x; x] /\ vars_below 2 sq1 /\ vars_below 2 sq2 /\ dom sq1 (fun _ => 4) /\ dom sq2 (fun _ => 4) /\
  near 2 (fun _ => 4) (fun q => rev sq1 q = rev sq2 q).
Proof.
  intros. assert (W : wf dyn2 2 x) by (apply wf_list; [reflexivity|reflexivity|vm_compute; discriminate]).
  split; [apply Forall_cons; [exact W|]; apply Forall_cons; [exact W|apply Forall_nil]|].
  split; [cbn; repeat split; lia|]. split; [cbn; repeat split; lia|].
  split; [unfold sq1, X, Y; cbn; repeat split; left; lra|]. split; [unfold sq2, X, Y; cbn; repeat split|].
  exists 1. split; [lra|]. intros q _. unfold sq1, sq2, X, Y. cbn [rev ureal breal].
  rewrite Rpow_std_2. ring.
Qed.
