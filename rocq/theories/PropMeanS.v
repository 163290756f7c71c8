(** C104: sparse numbers over intervals give mean value forms, monotonicity and injectivity tests and Newton steps. *)
From Coq Require Import ZArith List Bool String Reals Lra Lia.
From Verif Require Import Outcome Scalar Model Spec RealOps ExprSpec ProgSpec ParamSpec MeanSpec ModelS SpecS ParSSpec FactsEncl FactsMean FactsMeanS FactsS Samples.
Import ListNotations.
Open Scope R_scope.

(** C104.  [mem], [arith_rel], [convex_sets] as in C100.  [r] is the result of the formula with the variable named [nm i] in
    [box i], the tables iterated in any orders.  Between any two points of the box the function grows by derivatives inside
    those of [r] times the difference of the points; those by variables that do not occur are 0. *)
Theorem C104_mean_value_form : forall (T : Type) (O' : Ops T) (mem : R -> T -> Prop) (n : nat) (nm : nat -> string) (e : expr R) (e' : expr T)
  (box : nat -> T) (r : ss T),
  distinct n nm -> vars_below n e -> no_abs e -> arith_rel mem Rops O' -> expr_rel mem e e' -> convex_sets mem ->
  s_runs O' (fun i => s_variable O' (nm i) (box i)) e' r ->
  (forall q, (forall i, (i < n)%nat -> mem (q i) (box i)) -> dom e q) ->
  forall p q, (forall i, (i < n)%nat -> mem (p i) (box i)) -> (forall i, (i < n)%nat -> mem (q i) (box i)) ->
    exists g, (forall i, (i < n)%nat -> mem (g i) (s_get_d O' r (nm i))) /\ (forall i, (i < n)%nat -> ~ occurs i e -> g i = 0) /\
      rev e q = rev e p + gdot n g (step p q).
Proof. exact @s_mean_value. Qed.
Print Assumptions C104_mean_value_form.

(** Centred forms with [eval]: [r] evaluated with increments that enclose [q - p] encloses the growth of the function (the
    sparse [eval] does not add the value); together with the value from around the centre it encloses the value at [q]. *)
Theorem C104_centred_form : forall (T : Type) (O' : Ops T) (mem : R -> T -> Prop) (n : nat) (nm : nat -> string) (e : expr R) (e' : expr T)
  (mid box : nat -> T) (r0 r : ss T) (p q : nat -> R) (d : table T),
  distinct n nm -> vars_below n e -> no_abs e -> arith_rel mem Rops O' -> expr_rel mem e e' -> convex_sets mem ->
  (forall q, (forall i, (i < n)%nat -> mem (q i) (box i)) -> dom e q) ->
  s_runs O' (fun i => s_variable O' (nm i) (mid i)) e' r0 -> s_runs O' (fun i => s_variable O' (nm i) (box i)) e' r ->
  (forall i, (i < n)%nat -> mem (p i) (mid i)) -> (forall i, (i < n)%nat -> mem (p i) (box i)) -> (forall i, (i < n)%nat -> mem (q i) (box i)) ->
  (forall i, occurs i e -> exists v, t_find d (nm i) = Some v /\ mem (step p q i) v) ->
  exists y, s_eval O' true r d = Ok y /\ mem (rev e q - rev e p) y /\ mem (rev e q) (o_add O' (s_get_f r0) y).
Proof. exact @s_centred. Qed.
Print Assumptions C104_centred_form.

(** A computed derivative all of whose members are positive: the function increases strictly in that variable. *)
Theorem C104_monotonicity_test : forall (T : Type) (O' : Ops T) (mem : R -> T -> Prop) (n : nat) (nm : nat -> string) (e : expr R) (e' : expr T)
  (box : nat -> T) (r : ss T),
  distinct n nm -> vars_below n e -> no_abs e -> arith_rel mem Rops O' -> expr_rel mem e e' -> convex_sets mem ->
  s_runs O' (fun i => s_variable O' (nm i) (box i)) e' r ->
  (forall q, (forall i, (i < n)%nat -> mem (q i) (box i)) -> dom e q) ->
  forall i, (i < n)%nat -> (forall g, mem g (s_get_d O' r (nm i)) -> 0 < g) ->
    forall p q, (forall k, (k < n)%nat -> mem (p k) (box k)) -> (forall k, (k < n)%nat -> mem (q k) (box k)) ->
      (forall k, (k < n)%nat -> k <> i -> p k = q k) -> p i < q i -> rev e p < rev e q.
Proof. exact @s_monotone. Qed.
Print Assumptions C104_monotonicity_test.

(** Systems: if no matrix inside the computed Jacobian, with zeros for variables that do not occur, has a kernel, the map is
    one-to-one on the box. *)
Theorem C104_injectivity_test : forall (T : Type) (O' : Ops T) (mem : R -> T -> Prop) (n : nat) (nm : nat -> string) (box : nat -> T)
  (es : list (expr R)) (es' : list (expr T)) (rs : list (ss T)),
  distinct n nm -> arith_rel mem Rops O' -> convex_sets mem -> Forall2 (expr_rel mem) es es' ->
  (forall e, In e es -> vars_below n e /\ no_abs e /\ forall q, (forall i, (i < n)%nat -> mem (q i) (box i)) -> dom e q) ->
  Forall2 (s_runs O' (fun i => s_variable O' (nm i) (box i))) es' rs ->
  (forall M : nat -> nat -> R,
     (forall k e r i, nth_error es k = Some e -> nth_error rs k = Some r -> (i < n)%nat ->
        mem (M k i) (s_get_d O' r (nm i)) /\ (~ occurs i e -> M k i = 0)) ->
     forall v, (forall k, (k < List.length es)%nat -> gdot n (M k) v = 0) -> forall i, (i < n)%nat -> v i = 0) ->
  forall p q, (forall i, (i < n)%nat -> mem (p i) (box i)) -> (forall i, (i < n)%nat -> mem (q i) (box i)) ->
    (forall e, In e es -> rev e p = rev e q) -> forall i, (i < n)%nat -> p i = q i.
Proof. exact @s_injectivity. Qed.
Print Assumptions C104_injectivity_test.

(** One variable: as C100_newton_step. *)
Theorem C104_newton_step : forall (T : Type) (O' : Ops T) (mem : R -> T -> Prop) (k : string) (e : expr R) (e' : expr T) (X M : T) (r0 r : ss T),
  vars_below 1 e -> no_abs e -> arith_rel mem Rops O' -> expr_rel mem e e' -> convex_sets mem ->
  (forall x, mem x X -> dom e (fun _ => x)) ->
  s_runs O' (fun _ => s_variable O' k M) e' r0 -> s_runs O' (fun _ => s_variable O' k X) e' r ->
  ~ mem 0 (s_get_d O' r k) -> forall m, mem m M -> mem m X ->
    let N := o_sub O' M (o_div O' (s_get_f r0) (s_get_d O' r k)) in
    (forall x, mem x X -> rev e (fun _ => x) = 0 -> mem x N) /\
    (forall x y, mem x X -> mem y X -> rev e (fun _ => x) = 0 -> rev e (fun _ => y) = 0 -> x = y) /\
    (forall a b, (forall x, a <= x <= b -> mem x X) -> a <= m <= b -> (forall x, mem x N -> a <= x <= b) ->
      exists x, a <= x <= b /\ rev e (fun _ => x) = 0).
Proof. exact @s_newton. Qed.
Print Assumptions C104_newton_step.

(** u v around (1, 2) on [0, 2] x [1, 3]: derivatives [1, 3] and [0, 2]; [eval] gives [-5, 5], with the value [-3, 7]. *)
Definition nm2 (i : nat) : string := match i with 0%nat => "u" | _ => "v" end%string.
Definition box2 (i : nat) : interval := match i with 0%nat => Some (0, 2) | _ => Some (1, 3) end%Z.
Definition mid2 (i : nat) : interval := match i with 0%nat => Some (1, 1) | _ => Some (2, 2) end%Z.
Example C104_case_centred :
  let r0 := s_run Dops (fun i => s_variable Dops (nm2 i) (mid2 i)) (EB Bmul (EVar 0) (EVar 1)) in
  let r := s_run Dops (fun i => s_variable Dops (nm2 i) (box2 i)) (EB Bmul (EVar 0) (EVar 1)) in
  let d := [("w", None); ("v", Some (-1, 1)%Z); ("u", Some (-1, 1)%Z)]%string in
  s_f r0 = Some (2, 2)%Z /\ s_get_d Dops r "u" = Some (1, 3)%Z /\ s_get_d Dops r "v" = Some (0, 2)%Z /\
  s_eval Dops true r d = Ok (Some (-5, 5)%Z) /\ o_add Dops (s_f r0) (Some (-5, 5)%Z) = Some (-3, 7)%Z /\
  forall x y, 0 <= x <= 2 -> 1 <= y <= 3 -> -3 <= x * y <= 7.
Proof.
  cbv zeta. do 5 (split; [vm_compute; reflexivity|]). intros x y Hx Hy.
  pose (p := fun i : nat => match i with 0%nat => 1 | _ => 2 end). pose (q := fun i : nat => match i with 0%nat => x | _ => y end).
  destruct (C104_centred_form interval Dops inside 2 nm2 (EB Bmul (EVar 0) (EVar 1)) (EB Bmul (EVar 0) (EVar 1)) mid2 box2
    (s_run Dops (fun i => s_variable Dops (nm2 i) (mid2 i)) (EB Bmul (EVar 0) (EVar 1)))
    (s_run Dops (fun i => s_variable Dops (nm2 i) (box2 i)) (EB Bmul (EVar 0) (EVar 1))) p q
    [("w", None); ("v", Some (-1, 1)%Z); ("u", Some (-1, 1)%Z)]%string) as (w & Ew & _ & Hw);
    [| | | | | | |apply run_runs|apply run_runs| | | | |].
  - intros [|[|i]] [|[|j]] Hi Hj; cbn; intros H; try lia; discriminate H.
  - cbn. lia.
  - cbn. tauto.
  - exact Dops_enclose.
  - cbn. auto.
  - exact inside_convex.
  - cbn. tauto.
  - intros [|[|i]] Hi; cbn; lra.
  - intros [|[|i]] Hi; cbn; lra.
  - intros [|[|i]] Hi; cbn; lra.
  - intros i [H|H]; cbn in H; subst i; cbn; eexists; (split; [reflexivity|]); unfold step, p, q; cbn; lra.
  - vm_compute in Ew. injection Ew as <-. cbn in Hw. lra.
Qed.

(** x^2 + 4 x - 3 on [0, 2], Newton step from 1: there is exactly one root, and it is in [0, 1]. *)
Example C104_case_newton :
  (exists x, 0 <= x <= 2 /\ x * x + 4 * x - 3 = 0) /\
  (forall x y, 0 <= x <= 2 -> 0 <= y <= 2 -> x * x + 4 * x - 3 = 0 -> y * y + 4 * y - 3 = 0 -> x = y) /\
  (forall x, 0 <= x <= 2 -> x * x + 4 * x - 3 = 0 -> 0 <= x <= 1).
Proof.
  pose (e := EU (Usubs 3) (EB Badd (EB Bmul (EVar 0) (EVar 0)) (EU (Usmul 4) (EVar 0)))).
  pose (e' := EU (Usubs (Some (3, 3)%Z)) (EB Badd (EB Bmul (EVar 0) (EVar 0)) (EU (Usmul (Some (4, 4)%Z)) (EVar 0)))).
  destruct (C104_newton_step interval Dops inside "u" e e' (Some (0, 2)%Z) (Some (1, 1)%Z) _ _
    ltac:(cbn; lia) ltac:(cbn; tauto) Dops_enclose ltac:(cbn; repeat split; lra) inside_convex ltac:(cbn; tauto)
    (run_runs _ _ _) (run_runs _ _ _) ltac:(cbn; lra) 1 ltac:(cbn; lra) ltac:(cbn; lra)) as (K1 & K2 & K3).
  split; [|split].
  - destruct (K3 0 2) as (x & Hx & H0); [intros; cbn; lra|lra|intros x Hx; cbn in Hx; lra|]. exists x. split; [exact Hx|]. cbn in H0. lra.
  - intros x y Hx Hy Ex Ey. apply K2; cbn; lra.
  - intros x Hx Ex. specialize (K1 x). cbn in K1. apply K1; lra.
Qed.

(** x^2 + 4 x increases strictly on [0, 2]: the computed derivative is [4, 8]. *)
Example C104_case_monotone : forall x y, 0 <= x -> x < y -> y <= 2 -> x * x + 4 * x < y * y + 4 * y.
Proof.
  intros x y H0 H1 H2.
  apply (C104_monotonicity_test interval Dops inside 1 nm2 (EB Badd (EB Bmul (EVar 0) (EVar 0)) (EU (Usmul 4) (EVar 0)))
    (EB Badd (EB Bmul (EVar 0) (EVar 0)) (EU (Usmul (Some (4, 4)%Z)) (EVar 0))) (fun _ => Some (0, 2)%Z) _
    ltac:(intros i j Hi Hj _; lia) ltac:(cbn; repeat split; lia) ltac:(cbn; tauto) Dops_enclose ltac:(cbn; repeat split; lra) inside_convex
    (run_runs _ _ _) ltac:(cbn; tauto) 0%nat ltac:(lia) ltac:(cbn; intros; lra) (fun _ => x) (fun _ => y)); cbn; intros; try lra; lia.
Qed.

(** (4 u + v^2, v) on [0, 1] x [0, 1] is one-to-one; v does not depend on u, so that entry of the Jacobian is 0 exactly. *)
Example C104_case_injective : forall p q : nat -> R, (forall i, (i < 2)%nat -> 0 <= p i <= 1 /\ 0 <= q i <= 1) ->
  4 * p 0%nat + p 1%nat * p 1%nat = 4 * q 0%nat + q 1%nat * q 1%nat -> p 1%nat = q 1%nat -> p 0%nat = q 0%nat.
Proof.
  intros p q Hpq Ha Hb.
  refine (C104_injectivity_test interval Dops inside 2 nm2 (fun _ => Some (0, 1)%Z)
    [EB Badd (EU (Usmul 4) (EVar 0)) (EB Bmul (EVar 1) (EVar 1)); EVar 1]
    [EB Badd (EU (Usmul (Some (4, 4)%Z)) (EVar 0)) (EB Bmul (EVar 1) (EVar 1)); EVar 1] _ _ Dops_enclose inside_convex _ _
    (Forall2_cons _ _ (run_runs _ _ _) (Forall2_cons _ _ (run_runs _ _ _) (Forall2_nil _))) _ p q _ _ _ 0%nat _).
  - intros [|[|i]] [|[|j]] Hi Hj; cbn; intros H; try lia; discriminate H.
  - constructor; [cbn; repeat split; lra|]. constructor; [cbn; reflexivity|constructor].
  - intros e [<-|[<-|[]]]; cbn; repeat split; auto; lia.
  - intros M HM v Hv.
    destruct (HM 0%nat _ _ 0%nat eq_refl eq_refl ltac:(lia)) as (G0 & _).
    destruct (HM 1%nat _ _ 0%nat eq_refl eq_refl ltac:(lia)) as (_ & Z). specialize (Z ltac:(cbn; lia)).
    destruct (HM 1%nat _ _ 1%nat eq_refl eq_refl ltac:(lia)) as (G2 & _).
    cbn in G0, G2. pose proof (Hv 0%nat ltac:(cbn; lia)) as V0. pose proof (Hv 1%nat ltac:(cbn; lia)) as V1.
    unfold gdot in V0, V1. cbn [rsum] in V0, V1.
    assert (M00 : M 0%nat 0%nat = 4) by lra. assert (M11 : M 1%nat 1%nat = 1) by lra.
    rewrite Z, M11 in V1. rewrite M00 in V0. assert (v1 : v 1%nat = 0) by lra. rewrite v1 in V0.
    intros [|[|i]] Hi; [lra|exact v1|lia].
  - intros i Hi. destruct (Hpq i Hi). cbn. lra.
  - intros i Hi. destruct (Hpq i Hi). cbn. lra.
  - intros e [<-|[<-|[]]]; cbn; lra.
  - lia.
Qed.
