(** C100: numbers over intervals give mean value forms, monotonicity, convexity and injectivity tests and Newton steps. *)
From Coq Require Import ZArith List Bool Reals Lra Lia.
From Verif Require Import Outcome Scalar Model Spec RealOps ExprSpec ProgSpec NumSpec ParamSpec MeanSpec FactsEncl FactsMean Samples.
Import ListNotations.
Open Scope R_scope.

(** C100.  [mem] says which reals belong to an element of the scalar type; the operations enclose those of the reals, the
    sets are convex, and the function is defined on the whole box.  Between any two points of the box the function grows
    by a gradient inside the computed one times the difference of the points. *)
Theorem C100_mean_value_form : forall (T : Type) (O' : Ops T) (mem : R -> T -> Prop) (c : cfg) (n : nat) (e : expr R) (e' : expr T) (box : list T),
  cfg_ok c -> size_ok c n -> length box = n -> vars_below n e -> no_abs e -> arith_rel mem Rops O' -> expr_rel mem e e' ->
  convex_sets mem -> (forall q, Forall2 mem (coords n q) box -> dom e q) ->
  exists r, evaluate O' c box e' = Ok r /\ wf c n r /\
    forall p q, Forall2 mem (coords n p) box -> Forall2 mem (coords n q) box ->
      exists g, (forall i, (i < n)%nat -> exists G, get_g c r (Z.of_nat i) = Ok G /\ mem (g i) G) /\
        rev e q = rev e p + gdot n g (step p q).
Proof. exact @mean_value_form. Qed.
Print Assumptions C100_mean_value_form.

(** Second order: gradient from an evaluation around the centre [p], a symmetric Hessian inside the one computed from the box. *)
Theorem C100_taylor_form : forall (T : Type) (O' : Ops T) (mem : R -> T -> Prop) (c : cfg) (n : nat) (e : expr R) (e' : expr T) (mid box : list T),
  cfg_ok c -> c_ord c = 2%Z -> size_ok c n -> length mid = n -> length box = n -> vars_below n e -> no_abs e ->
  arith_rel mem Rops O' -> expr_rel mem e e' -> convex_sets mem -> (forall q, Forall2 mem (coords n q) box -> dom e q) ->
  exists r0 r, evaluate O' c mid e' = Ok r0 /\ evaluate O' c box e' = Ok r /\
    forall p q, Forall2 mem (coords n p) mid -> Forall2 mem (coords n p) box -> Forall2 mem (coords n q) box ->
      exists g h, (forall i, (i < n)%nat -> exists G, get_g c r0 (Z.of_nat i) = Ok G /\ mem (g i) G) /\
        (forall i j, (i < n)%nat -> (j < n)%nat -> exists H, get_h c r (Z.of_nat i) (Z.of_nat j) = Ok H /\ mem (h i j) H) /\
        (forall i j, h i j = h j i) /\
        rev e q = rev e p + gdot n g (step p q) + 1 / 2 * hdot n h (step p q).
Proof. exact @taylor_form. Qed.
Print Assumptions C100_taylor_form.

(** Centred forms with the library's own [eval]: a number that takes its highest derivatives from the box and everything
    else from the centre, evaluated at an enclosure of [q - p], encloses the value at [q]. *)
Theorem C100_centred_form : forall (T : Type) (O' : Ops T) (mem : R -> T -> Prop) (c : cfg) (n : nat) (e : expr R) (e' : expr T) (mid box : list T),
  cfg_ok c -> size_ok c n -> length mid = n -> length box = n -> vars_below n e -> no_abs e ->
  arith_rel mem Rops O' -> expr_rel mem e e' -> convex_sets mem -> (forall q, Forall2 mem (coords n q) box -> dom e q) ->
  exists r0 r, evaluate O' c mid e' = Ok r0 /\ evaluate O' c box e' = Ok r /\
    forall F0 G0 H0 F G H z, shows c n r0 F0 G0 H0 -> shows c n r F G H ->
      shows c n z F0 (if Z.eqb (c_ord c) 1 then G else G0) H ->
      forall p q D, Forall2 mem (coords n p) mid -> Forall2 mem (coords n p) box -> Forall2 mem (coords n q) box ->
        Forall2 mem (coords n (step p q)) D ->
        exists y, eval O' c z D = Ok y /\ mem (rev e q) y.
Proof. exact @centred_form. Qed.
Print Assumptions C100_centred_form.

(** A computed partial derivative all of whose members are positive: the function increases strictly in that variable. *)
Theorem C100_monotonicity_test : forall (T : Type) (O' : Ops T) (mem : R -> T -> Prop) (c : cfg) (n : nat) (e : expr R) (e' : expr T) (box : list T) (i : nat),
  cfg_ok c -> size_ok c n -> length box = n -> vars_below n e -> no_abs e -> arith_rel mem Rops O' -> expr_rel mem e e' ->
  convex_sets mem -> (forall q, Forall2 mem (coords n q) box -> dom e q) -> (i < n)%nat ->
  exists r G, evaluate O' c box e' = Ok r /\ get_g c r (Z.of_nat i) = Ok G /\
    ((forall g, mem g G -> 0 < g) ->
     forall p q, Forall2 mem (coords n p) box -> Forall2 mem (coords n q) box ->
       (forall k, (k < n)%nat -> k <> i -> p k = q k) -> p i < q i -> rev e p < rev e q).
Proof. exact @monotone_test. Qed.
Print Assumptions C100_monotonicity_test.

(** A computed Hessian all of whose symmetric members are positive semidefinite: the function is convex on the box. *)
Theorem C100_convexity_test : forall (T : Type) (O' : Ops T) (mem : R -> T -> Prop) (c : cfg) (n : nat) (e : expr R) (e' : expr T) (box : list T),
  cfg_ok c -> c_ord c = 2%Z -> size_ok c n -> length box = n -> vars_below n e -> no_abs e ->
  arith_rel mem Rops O' -> expr_rel mem e e' -> convex_sets mem -> (forall q, Forall2 mem (coords n q) box -> dom e q) ->
  exists r, evaluate O' c box e' = Ok r /\
    ((forall h, (forall i j, h i j = h j i) ->
        (forall i j, (i < n)%nat -> (j < n)%nat -> exists H, get_h c r (Z.of_nat i) (Z.of_nat j) = Ok H /\ mem (h i j) H) ->
        forall v, 0 <= hdot n h v) ->
     forall p q t, Forall2 mem (coords n p) box -> Forall2 mem (coords n q) box -> 0 <= t <= 1 ->
       rev e (along p (step p q) t) <= (1 - t) * rev e p + t * rev e q).
Proof. exact @convexity_test. Qed.
Print Assumptions C100_convexity_test.

(** Systems: if no matrix inside the computed Jacobian has a kernel, the map is one-to-one on the box. *)
Theorem C100_injectivity_test : forall (T : Type) (O' : Ops T) (mem : R -> T -> Prop) (c : cfg) (n : nat) (es : list (expr R)) (es' : list (expr T)) (box : list T),
  cfg_ok c -> size_ok c n -> length box = n -> arith_rel mem Rops O' -> convex_sets mem -> Forall2 (expr_rel mem) es es' ->
  (forall e, In e es -> vars_below n e /\ no_abs e /\ forall q, Forall2 mem (coords n q) box -> dom e q) ->
  exists rs, Forall2 (fun e' r => evaluate O' c box e' = Ok r) es' rs /\
    ((forall M : nat -> nat -> R,
        (forall k r i, nth_error rs k = Some r -> (i < n)%nat -> exists G, get_g c r (Z.of_nat i) = Ok G /\ mem (M k i) G) ->
        forall v, (forall k, (k < length es)%nat -> gdot n (M k) v = 0) -> forall i, (i < n)%nat -> v i = 0) ->
     forall p q, Forall2 mem (coords n p) box -> Forall2 mem (coords n q) box ->
       (forall e, In e es -> rev e p = rev e q) -> forall i, (i < n)%nat -> p i = q i).
Proof. exact @injectivity_test. Qed.
Print Assumptions C100_injectivity_test.

(** One variable: if the derivative computed from [X] excludes 0, the Newton set [N = M - F / G] (computed with the scalar
    type's own operations) contains every root in [X], there is at most one, and if [N] lies within an interval of [X] there
    is one in it. *)
Theorem C100_newton_step : forall (T : Type) (O' : Ops T) (mem : R -> T -> Prop) (c : cfg) (e : expr R) (e' : expr T) (X M : T),
  cfg_ok c -> size_ok c 1 -> vars_below 1 e -> no_abs e -> arith_rel mem Rops O' -> expr_rel mem e e' -> convex_sets mem ->
  (forall x, mem x X -> dom e (fun _ => x)) ->
  exists r0 r F G, evaluate O' c [M] e' = Ok r0 /\ evaluate O' c [X] e' = Ok r /\ get_f r0 = Ok F /\ get_g c r 0 = Ok G /\
    (~ mem 0 G -> forall m, mem m M -> mem m X ->
      let N := o_sub O' M (o_div O' F G) in
      (forall x, mem x X -> rev e (fun _ => x) = 0 -> mem x N) /\
      (forall x y, mem x X -> mem y X -> rev e (fun _ => x) = 0 -> rev e (fun _ => y) = 0 -> x = y) /\
      (forall a b, (forall x, a <= x <= b -> mem x X) -> a <= m <= b -> (forall x, mem x N -> a <= x <= b) ->
        exists x, a <= x <= b /\ rev e (fun _ => x) = 0)).
Proof. exact @newton_step. Qed.
Print Assumptions C100_newton_step.

(** The hypotheses hold for integer intervals with outward rounding. *)
Example C100_sample : arith_rel inside Rops Dops /\ convex_sets inside.
Proof. split; [exact Dops_enclose|exact inside_convex]. Qed.

(** x y around (1, 2) on [0, 2] x [1, 3]: gradient [1, 3], [0, 2]; the centred form gives [-3, 7] as its enclosure. *)
Example C100_case_centred :
  let box := [Some (0, 2); Some (1, 3)]%Z in
  evaluate Dops dyn1 [Some (1, 1); Some (2, 2)]%Z (EB Bmul (EVar 0) (EVar 1)) =
    Ok (mk 2 (full [Some (2, 2); Some (2, 2); Some (1, 1)]%Z)) /\
  evaluate Dops dyn1 box (EB Bmul (EVar 0) (EVar 1)) = Ok (mk 2 (full [Some (0, 6); Some (1, 3); Some (0, 2)]%Z)) /\
  eval Dops dyn1 (mk 2 (full [Some (2, 2); Some (1, 3); Some (0, 2)]%Z)) [Some (-1, 1); Some (-1, 1)]%Z = Ok (Some (-3, 7))%Z /\
  (* second order: gradient from the centre, Hessian 0, 1, 0 *)
  eval Dops dyn2 (mk 2 (full [Some (2, 2); Some (2, 2); Some (1, 1); Some (0, 0); Some (1, 1); Some (0, 0)]%Z))
    [Some (-1, 1); Some (-1, 1)]%Z = Ok (Some (-3, 7))%Z.
Proof. vm_compute. repeat split; reflexivity. Qed.

(** x^2 + 4 x - 3 on [0, 2], Newton step from 1: F = 2, G = [4, 8], N = [0, 1]: there is exactly one root, and it is in [0, 1]. *)
Example C100_case_newton :
  (exists x, 0 <= x <= 2 /\ x * x + 4 * x - 3 = 0) /\
  (forall x y, 0 <= x <= 2 -> 0 <= y <= 2 -> x * x + 4 * x - 3 = 0 -> y * y + 4 * y - 3 = 0 -> x = y) /\
  (forall x, 0 <= x <= 2 -> x * x + 4 * x - 3 = 0 -> 0 <= x <= 1).
Proof.
  pose (e := EU (Usubs 3) (EB Badd (EB Bmul (EVar 0) (EVar 0)) (EU (Usmul 4) (EVar 0)))).
  pose (e' := EU (Usubs (Some (3, 3)%Z)) (EB Badd (EB Bmul (EVar 0) (EVar 0)) (EU (Usmul (Some (4, 4)%Z)) (EVar 0)))).
  destruct (C100_newton_step interval Dops inside dyn1 e e' (Some (0, 2)%Z) (Some (1, 1)%Z)) as (r0 & r & F & G & E0 & E & EF & EG & K).
  - split; [left; reflexivity|cbn; lia].
  - vm_compute. repeat split; intros; discriminate.
  - cbn. lia.
  - cbn. tauto.
  - exact Dops_enclose.
  - cbn. repeat split; lra.
  - exact inside_convex.
  - cbn. tauto.
  - vm_compute in E0. injection E0 as <-. vm_compute in E. injection E as <-. vm_compute in EF. injection EF as <-.
    vm_compute in EG. injection EG as <-.
    destruct (K ltac:(cbn; lra) 1 ltac:(cbn; lra) ltac:(cbn; lra)) as (K1 & K2 & K3). split; [|split].
    + destruct (K3 0 2) as (x & Hx & H0); [intros; cbn; lra|lra|intros x Hx; cbn in Hx; lra|]. exists x. split; [exact Hx|]. cbn in H0. lra.
    + intros x y Hx Hy Ex Ey. apply K2; cbn; lra.
    + intros x Hx Ex. specialize (K1 x). cbn in K1. apply K1; lra.
Qed.

(** x^2 + y^2 + x y on [-3, 3] x [-3, 3] is convex: the computed Hessian is ((2, 1), (1, 2)). *)
Example C100_case_convex : forall p q t, (forall i, (i < 2)%nat -> -3 <= p i <= 3 /\ -3 <= q i <= 3) -> 0 <= t <= 1 ->
  let f := fun x : nat -> R => x 0%nat * x 0%nat + x 1%nat * x 1%nat + x 0%nat * x 1%nat in
  f (along p (step p q) t) <= (1 - t) * f p + t * f q.
Proof.
  intros p q t Hpq Ht f.
  pose (e := fun S : Type => @EB S Badd (EB Badd (EB Bmul (EVar 0) (EVar 0)) (EB Bmul (EVar 1) (EVar 1))) (EB Bmul (EVar 0) (EVar 1))).
  destruct (C100_convexity_test interval Dops inside dyn2 2 (e R) (e interval) [Some (-3, 3); Some (-3, 3)]%Z) as (r & E & K).
  - split; [right; reflexivity|cbn; lia].
  - reflexivity.
  - vm_compute. repeat split; intros; discriminate.
  - reflexivity.
  - cbn. repeat split; lia.
  - cbn. tauto.
  - exact Dops_enclose.
  - cbn. tauto.
  - exact inside_convex.
  - cbn. tauto.
  - vm_compute in E. injection E as <-. apply (K).
    + intros h Sy Hh v.
      destruct (Hh 0%nat 0%nat ltac:(lia) ltac:(lia)) as (H0 & E0 & M0). vm_compute in E0. injection E0 as <-.
      destruct (Hh 0%nat 1%nat ltac:(lia) ltac:(lia)) as (H1 & E1 & M1). vm_compute in E1. injection E1 as <-.
      destruct (Hh 1%nat 1%nat ltac:(lia) ltac:(lia)) as (H2 & E2 & M2). vm_compute in E2. injection E2 as <-.
      cbn in M0, M1, M2. unfold hdot. cbn [rsum]. rewrite (Sy 1%nat 0%nat).
      assert (h 0%nat 0%nat = 2) as -> by lra. assert (h 0%nat 1%nat = 1) as -> by lra. assert (h 1%nat 1%nat = 2) as -> by lra.
      assert (0 <= (v 0%nat + v 1%nat) * (v 0%nat + v 1%nat)) by apply Rle_0_sqr.
      assert (0 <= v 0%nat * v 0%nat) by apply Rle_0_sqr. assert (0 <= v 1%nat * v 1%nat) by apply Rle_0_sqr. lra.
    + destruct (Hpq 0%nat ltac:(lia)), (Hpq 1%nat ltac:(lia)). unfold coords; cbn; constructor; [cbn; lra|constructor; [cbn; lra|constructor]].
    + destruct (Hpq 0%nat ltac:(lia)), (Hpq 1%nat ltac:(lia)). unfold coords; cbn; constructor; [cbn; lra|constructor; [cbn; lra|constructor]].
    + exact Ht.
Qed.

(** (4 x + y^2, y) on [0, 1] x [0, 1] is one-to-one: the Jacobian is ((4, [0, 2]), (0, 1)). *)
Example C100_case_injective : forall p q : nat -> R, (forall i, (i < 2)%nat -> 0 <= p i <= 1 /\ 0 <= q i <= 1) ->
  4 * p 0%nat + p 1%nat * p 1%nat = 4 * q 0%nat + q 1%nat * q 1%nat -> p 1%nat = q 1%nat ->
  p 0%nat = q 0%nat.
Proof.
  intros p q Hpq Ha Hb.
  destruct (C100_injectivity_test interval Dops inside dyn1 2
    [EB Badd (EU (Usmul 4) (EVar 0)) (EB Bmul (EVar 1) (EVar 1)); EVar 1]
    [EB Badd (EU (Usmul (Some (4, 4)%Z)) (EVar 0)) (EB Bmul (EVar 1) (EVar 1)); EVar 1] [Some (0, 1); Some (0, 1)]%Z) as (rs & E & K).
  - split; [left; reflexivity|cbn; lia].
  - vm_compute. repeat split; intros; discriminate.
  - reflexivity.
  - exact Dops_enclose.
  - exact inside_convex.
  - constructor; [cbn; repeat split; lra|]. constructor; [cbn; reflexivity|constructor].
  - intros e [<-|[<-|[]]]; cbn; repeat split; auto; lia.
  - inversion E as [|? r1 ? rs1 E1 E']; subst. inversion E' as [|? r2 ? rs2 E2 E'']; subst. inversion E''; subst.
    vm_compute in E1. injection E1 as <-. vm_compute in E2. injection E2 as <-. apply K; [| | |intros e [<-|[<-|[]]]; cbn; lra|lia].
    + intros M HM v Hv i Hi.
      destruct (HM 0%nat _ 0%nat eq_refl ltac:(lia)) as (G & EG & MG). vm_compute in EG. injection EG as <-.
      destruct (HM 1%nat _ 0%nat eq_refl ltac:(lia)) as (G & EG & MG'). vm_compute in EG. injection EG as <-.
      destruct (HM 1%nat _ 1%nat eq_refl ltac:(lia)) as (G & EG & MG''). vm_compute in EG. injection EG as <-.
      cbn in MG, MG', MG''. pose proof (Hv 0%nat ltac:(cbn; lia)) as V0. pose proof (Hv 1%nat ltac:(cbn; lia)) as V1.
      unfold gdot in V0, V1. cbn [rsum] in V0, V1.
      assert (M00 : M 0%nat 0%nat = 4) by lra. assert (M10 : M 1%nat 0%nat = 0) by lra. assert (M11 : M 1%nat 1%nat = 1) by lra.
      rewrite M10, M11 in V1. rewrite M00 in V0. assert (v1 : v 1%nat = 0) by lra. rewrite v1 in V0.
      destruct i as [|[|i]]; [lra|exact v1|lia].
    + destruct (Hpq 0%nat ltac:(lia)), (Hpq 1%nat ltac:(lia)). unfold coords; cbn; constructor; [cbn; lra|constructor; [cbn; lra|constructor]].
    + destruct (Hpq 0%nat ltac:(lia)), (Hpq 1%nat ltac:(lia)). unfold coords; cbn; constructor; [cbn; lra|constructor; [cbn; lra|constructor]].
Qed.

(** x^2 + 4 x increases strictly on [0, 2]: the computed derivative is [4, 8]. *)
Example C100_case_monotone : forall x y, 0 <= x -> x < y -> y <= 2 -> x * x + 4 * x < y * y + 4 * y.
Proof.
  intros x y H0 H1 H2.
  destruct (C100_monotonicity_test interval Dops inside dyn1 1 (EB Badd (EB Bmul (EVar 0) (EVar 0)) (EU (Usmul 4) (EVar 0)))
    (EB Badd (EB Bmul (EVar 0) (EVar 0)) (EU (Usmul (Some (4, 4)%Z)) (EVar 0))) [Some (0, 2)%Z] 0) as (r & G & E & EG & K).
  - split; [left; reflexivity|cbn; lia].
  - vm_compute. repeat split; intros; discriminate.
  - reflexivity.
  - cbn. repeat split; lia.
  - cbn. tauto.
  - exact Dops_enclose.
  - cbn. repeat split; lra.
  - exact inside_convex.
  - cbn. tauto.
  - lia.
  - vm_compute in E. injection E as <-. vm_compute in EG. injection EG as <-.
    refine (K _ (fun _ => x) (fun _ => y) _ _ _ H1); [cbn; intros; lra| | |intros; lia];
      unfold coords; cbn; constructor; [cbn; lra|constructor|cbn; lra|constructor].
Qed.
