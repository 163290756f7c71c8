(** C20 (division), C21, C23, C26-C30: identities in exact real arithmetic. *)
From Coq Require Import ZArith List Bool Reals Lra Lia.
From Coquelicot Require Import Coquelicot.
From Verif Require Import Outcome Scalar Model Spec Core Kernels OpsRep AccRep RealOps Deriv UDeriv BDeriv
  FactsLayout FactsOps ExprSpec Expr Struct FactsExpr Chain.
Import ListNotations.
Open Scope R_scope.
Open Scope res_scope.

(** ** near *)
Lemma near_true N p (P : (nat -> R) -> Prop) : (forall q, P q) -> near N p P.
Proof. intros H. exists 1. split; [lra|]. intros q _. apply H. Qed.
Lemma near_imp N p (P Q : (nat -> R) -> Prop) : (forall q, P q -> Q q) -> near N p P -> near N p Q.
Proof. intros H (d & Hd & HP). exists d. split; [exact Hd|]. intros q Hq. apply H, HP, Hq. Qed.
Lemma near_and N p (P Q : (nat -> R) -> Prop) : near N p P -> near N p Q -> near N p (fun q => P q /\ Q q).
Proof.
  intros (d & Hd & HP) (d' & Hd' & HQ). exists (Rmin d d'). split; [apply Rmin_glb_lt; assumption|]. intros q Hq. split.
  - apply HP. intros k Hk. eapply Rlt_le_trans; [apply Hq, Hk|apply Rmin_l].
  - apply HQ. intros k Hk. eapply Rlt_le_trans; [apply Hq, Hk|apply Rmin_r].
Qed.
Lemma near_at N p k (P : R -> Prop) : (k < N)%nat -> locally (p k) P -> near N p (fun q => P (q k)).
Proof.
  intros Hk [d H]. exists d. split; [apply cond_pos|]. intros q Hq. apply H. apply abs_ball. apply Hq, Hk.
Qed.
Lemma near_open N p k (P : R -> Prop) : open P -> (k < N)%nat -> P (p k) -> near N p (fun q => P (q k)).
Proof. intros HO Hk HP. apply near_at; [exact Hk|]. apply HO, HP. Qed.
Lemma open_gt1 : open (fun y : R => 1 < y).
Proof. apply (open_gt 1). Qed.
Lemma open_cos : open (fun y : R => cos y <> 0).
Proof.
  apply (open_comp cos (fun y => y <> 0)); [|apply open_nz]. intros x _. apply continuous_cos.
Qed.

(** ** Identities with one, two or three operands *)
Definition pt1 (a : R) : nat -> R := fun _ => a.
Definition pt2 (a b : R) : nat -> R := fun k => match k with O => a | _ => b end.
Definition pt3 (a b d : R) : nat -> R := fun k => match k with O => a | 1%nat => b | _ => d end.

Lemma wf_size_ok {S} c n (x : dd S) : wf c n x -> size_ok c n.
Proof. intros W. destruct (wf_rep _ _ _ W) as (J & R). eapply rep_size_ok, R. Qed.

Lemma ident1 c n x a e1 e2 : cfg_ok c -> wf c n x -> get_f x = Ok a -> vars_below 1 e1 -> vars_below 1 e2 ->
  dom e1 (pt1 a) -> dom e2 (pt1 a) -> near 1 (pt1 a) (fun q => rev e1 q = rev e2 q) -> same c n [x] e1 e2.
Proof.
  intros Hc W F V1 V2 D1 D2 HN. apply (same_function c n e1 e2 [x] (pt1 a)); try assumption.
  - eapply wf_size_ok, W.
  - apply Forall_cons; [exact W|constructor].
  - intros [|[|k]] y E; cbn in E; try discriminate. injection E as <-. exact F.
Qed.
Lemma ident2 c n x y a b e1 e2 : cfg_ok c -> wf c n x -> wf c n y -> get_f x = Ok a -> get_f y = Ok b ->
  vars_below 2 e1 -> vars_below 2 e2 ->
  dom e1 (pt2 a b) -> dom e2 (pt2 a b) -> near 2 (pt2 a b) (fun q => rev e1 q = rev e2 q) -> same c n [x; y] e1 e2.
Proof.
  intros Hc W W' F F' V1 V2 D1 D2 HN. apply (same_function c n e1 e2 [x; y] (pt2 a b)); try assumption.
  - eapply wf_size_ok, W.
  - repeat (apply Forall_cons; [assumption|]); constructor.
  - intros [|[|[|k]]] z E; cbn in E; try discriminate; injection E as <-; assumption.
Qed.
Lemma ident3 c n x y z a b d e1 e2 : cfg_ok c -> wf c n x -> wf c n y -> wf c n z ->
  get_f x = Ok a -> get_f y = Ok b -> get_f z = Ok d ->
  vars_below 3 e1 -> vars_below 3 e2 ->
  dom e1 (pt3 a b d) -> dom e2 (pt3 a b d) -> near 3 (pt3 a b d) (fun q => rev e1 q = rev e2 q) ->
  same c n [x; y; z] e1 e2.
Proof.
  intros Hc W W' W'' F F' F'' V1 V2 D1 D2 HN. apply (same_function c n e1 e2 [x; y; z] (pt3 a b d)); try assumption.
  - eapply wf_size_ok, W.
  - repeat (apply Forall_cons; [assumption|]); constructor.
  - intros [|[|[|[|k]]]] u E; cbn in E; try discriminate; injection E as <-; assumption.
Qed.

(** Values exist for well-formed numbers. *)
Lemma wf_f {S} c n (x : dd S) : wf c n x -> exists a, get_f x = Ok a.
Proof. intros W. destruct (wf_rep _ _ _ W) as (J & R). exists (jf J). eapply get_f_rep, R. Qed.

Ltac vb := unfold X, Y, Z3; cbn [vars_below]; repeat split; lia.
Ltac rv_ := unfold X, Y, Z3; cbn [rev ureal breal dom udom bdom]; unfold hreal, pt1, pt2, pt3; cbv beta iota.
Ltac everywhere := apply near_true; intros q; rv_.
Ltac dom_ok := rv_; unfold hdom; repeat split; auto; try lra; try (apply Rgt_not_eq; lra).

(** *** ring laws (C27) *)
Section Ring.
  Variables (c : cfg) (n : nat) (x y z : dd R).
  Hypotheses (Hc : cfg_ok c) (W1 : wf c n x) (W2 : wf c n y) (W3 : wf c n z).
  Lemma ring_laws :
    same c n [x; y; z] (X + Y) (Y + X) /\ same c n [x; y; z] (X + (Y + Z3)) (X + Y + Z3) /\
    same c n [x; y; z] (X * Y) (Y * X) /\ same c n [x; y; z] (X * (Y * Z3)) (X * Y * Z3) /\
    same c n [x; y; z] (X * (Y + Z3)) (X * Y + X * Z3) /\ same c n [x; y; z] ((X + Y) * Z3) (X * Z3 + Y * Z3) /\
    same c n [x; y; z] (X + EConst 0) X /\ same c n [x; y; z] (X * EConst 1) X /\
    same c n [x; y; z] (X * EConst 0) (EConst 0) /\
    same c n [x; y; z] (X + - X) (EConst 0) /\ same c n [x; y; z] (X - Y) (X + - Y) /\
    same c n [x; y; z] (- - X) X.
  Proof.
    destruct (wf_f _ _ _ W1) as (a & F1), (wf_f _ _ _ W2) as (b & F2), (wf_f _ _ _ W3) as (d & F3).
    repeat split; (apply (ident3 c n x y z a b d); try assumption;
      [vb|vb|dom_ok|dom_ok|everywhere; ring]).
  Qed.
End Ring.

(** *** division (C28) *)
Lemma division_laws c n x y b : cfg_ok c -> wf c n x -> wf c n y -> get_f y = Ok b -> b <> 0 ->
  same c n [x; y] (X / Y * Y) X /\ same c n [x; y] (X * Y / Y) X /\
  same c n [x; y] (X / Y) (X * EU Ureciprocal Y) /\ same c n [x; y] (EU (Usdiv 1) Y) (EU Ureciprocal Y) /\
  same c n [x; y] (EU Ureciprocal (EU Ureciprocal Y)) Y /\ same c n [x; y] (Y / Y) (EConst 1) /\
  same c n [x; y] (Y * EU Ureciprocal Y) (EConst 1).
Proof.
  intros Hc W1 W2 F2 Hb. destruct (wf_f _ _ _ W1) as (a & F1).
  assert (HN : near 2 (pt2 a b) (fun q => q 1%nat <> 0)).
  { apply (near_open 2 (pt2 a b) 1 (fun t => t <> 0) open_nz); [lia|exact Hb]. }
  assert (/ b <> 0) by (apply Rinv_neq_0_compat; exact Hb).
  repeat split; (apply (ident2 c n x y a b); try assumption; [vb|vb|dom_ok|dom_ok|]);
    (revert HN; apply near_imp; intros q Hq; rv_; field; auto).
Qed.

(** *** operations with a scalar (C26) *)
Lemma scalar_ops c n x s : cfg_ok c -> wf c n x ->
  same c n [x] (EU (Uadds s) X) (X + EConst s) /\ same c n [x] (EU (Usadd s) X) (EConst s + X) /\
  same c n [x] (EU (Usubs s) X) (X - EConst s) /\ same c n [x] (EU (Ussub s) X) (EConst s - X) /\
  same c n [x] (EU (Umuls s) X) (X * EConst s) /\ same c n [x] (EU (Usmul s) X) (EConst s * X) /\
  (s <> 0 -> same c n [x] (EU (Udivs s) X) (X / EConst s)) /\
  (forall a, get_f x = Ok a -> a <> 0 -> same c n [x] (EU (Usdiv s) X) (EConst s / X)).
Proof.
  intros Hc W. destruct (wf_f _ _ _ W) as (a & F). repeat split.
  7:{ intros Hs. apply (ident1 c n x a); try assumption; [vb|vb|dom_ok|dom_ok|everywhere; reflexivity]. }
  7:{ intros a' F' Ha. apply (ident1 c n x a'); try assumption; [vb|vb|dom_ok|dom_ok|everywhere; reflexivity]. }
  all: apply (ident1 c n x a); try assumption; [vb|vb|dom_ok|dom_ok|everywhere; ring].
Qed.
Lemma scalar_comm {S} (O : Ops S) c n (x : dd S) s : cfg_ok c -> wf c n x ->
  agree c (apply_u O c (Uadds s) x) (apply_u O c (Usadd s) x) /\
  agree c (apply_u O c (Umuls s) x) (apply_u O c (Usmul s) x).
Proof.
  intros Hc W. destruct (wf_rep _ _ _ W) as (J & R).
  split; (eapply agree_rep; [eapply apply_u_rep; eassumption|eapply apply_u_rep; eassumption|]); apply jeq_refl.
Qed.

(** *** commutativity for every commutative scalar (C27) *)
Lemma comm_exact {S} (O : Ops S) c n (x y : dd S) : (forall a b, o_add O a b = o_add O b a) ->
  (forall a b, o_mul O a b = o_mul O b a) -> cfg_ok c -> wf c n x -> wf c n y ->
  agree c (add O c x y) (add O c y x) /\ agree c (mul O c x y) (mul O c y x).
Proof.
  intros Ca Cm Hc W W'. destruct (wf_rep _ _ _ W) as (J & R). destruct (wf_rep _ _ _ W') as (K & R').
  split; (eapply agree_rep; [apply (apply_b_rep O c Hc n J K x y) with (b := ltac:(first [exact Badd])); eassumption
    |apply (apply_b_rep O c Hc n K J y x) with (b := Badd); eassumption|]) ||
   (eapply agree_rep; [apply (apply_b_rep O c Hc n J K x y) with (b := Bmul); eassumption
    |apply (apply_b_rep O c Hc n K J y x) with (b := Bmul); eassumption|]).
  - split; [cbn; apply Ca|]. split; intros; cbn; apply Ca.
  - split; [cbn; apply Cm|]. split; intros; cbn; [apply Ca|]. f_equal; apply Ca.
Qed.

(** *** functions (C29) *)
Lemma tanh_quot x : tanh x = sinh x / cosh x. Proof. reflexivity. Qed.
Lemma sinh_arcsinh x : sinh (arcsinh x) = x.
Proof. apply sinh_arcsinh. Qed.
Lemma exp_neg_inv x : exp (- x) = / exp x. Proof. apply exp_Ropp. Qed.

Lemma identities_everywhere c n x : cfg_ok c -> wf c n x ->
  same c n [x] (EU Ulog (EU Uexp X)) X /\
  same c n [x] (EU Usin X * EU Usin X + EU Ucos X * EU Ucos X) (EConst 1) /\
  same c n [x] (EU Ucosh X * EU Ucosh X - EU Usinh X * EU Usinh X) (EConst 1) /\
  same c n [x] (EU Utanh X) (EU Usinh X / EU Ucosh X) /\
  same c n [x] (EU Usinh X) (EU (Udivs 2) (EU Uexp X - EU Uexp (- X))) /\
  same c n [x] (EU Ucosh X) (EU (Udivs 2) (EU Uexp X + EU Uexp (- X))) /\
  same c n [x] (EU Utan (EU Uatan X)) X /\
  same c n [x] (EU Usinh (EU Uasinh X)) X /\ same c n [x] (EU Uasinh (EU Usinh X)) X /\
  same c n [x] (EU (Upow 2) X) (X * X) /\ same c n [x] (EU (Upow 3) X) (X * X * X) /\
  same c n [x] (EU Uexp (- X)) (EU Ureciprocal (EU Uexp X)) /\
  same c n [x] (EU Usin (- X)) (- EU Usin X) /\ same c n [x] (EU Ucos (- X)) (EU Ucos X).
Proof.
  intros Hc W. destruct (wf_f _ _ _ W) as (a & F). pose proof (exp_pos a). pose proof (cosh_pos a).
  repeat split; (apply (ident1 c n x a); try assumption; [vb|vb|dom_ok|dom_ok|everywhere]).
  - apply ln_exp.
  - pose proof (sin2_cos2 (q 0%nat)) as E. unfold Rsqr in E. exact E.
  - apply cosh_sinh_sq.
  - reflexivity.
  - unfold sinh. field.
  - unfold cosh. field.
  - rewrite cos_atan. apply Rgt_not_eq. apply Rdiv_lt_0_compat; [lra|]. apply sqrt_lt_R0. pose proof (Rle_0_sqr a). unfold Rsqr in *. lra.
  - apply atan_right_inv.
  - apply sinh_arcsinh.
  - apply arcsinh_sinh.
  - right. right. exists 2%nat. split; [lia|]. reflexivity.
  - apply Rpow_std_2.
  - right. right. exists 3%nat. split; [lia|]. cbn. lra.
  - apply Rpow_std_3.
  - apply exp_Ropp.
  - apply sin_neg.
  - apply cos_neg.
Qed.

Lemma identities_positive c n x a s : cfg_ok c -> wf c n x -> get_f x = Ok a -> 0 < a ->
  same c n [x] (EU Uexp (EU Ulog X)) X /\
  same c n [x] (EU Usqrt X * EU Usqrt X) X /\ same c n [x] (EU Usqrt (X * X)) X /\
  same c n [x] (EU Ulog2 X) (EU (Udivs (ln 2)) (EU Ulog X)) /\
  same c n [x] (EU Ulog10 X) (EU (Udivs (ln 10)) (EU Ulog X)) /\
  (0 < s -> s <> 1 -> same c n [x] (EU (Ulogb s) X) (EU (Udivs (ln s)) (EU Ulog X))) /\
  same c n [x] (EU (Upow s) X) (EU Uexp (EU (Umuls s) (EU Ulog X))) /\
  same c n [x] (EU (Upow (/ 2)) X) (EU Usqrt X) /\
  same c n [x] (EU (Upow (/ 3)) X) (EU Ucbrt X) /\
  same c n [x] (EU Uabs X) X.
Proof.
  intros Hc W F Ha.
  assert (HN : near 1 (pt1 a) (fun q => 0 < q 0%nat)) by (apply (near_open 1 (pt1 a) 0 (fun t => 0 < t) open_pos); [lia|exact Ha]).
  assert (L2 : ln 2 <> 0) by (apply Rgt_not_eq; rewrite <- ln_1; apply ln_increasing; lra).
  assert (L10 : ln 10 <> 0) by (apply Rgt_not_eq; rewrite <- ln_1; apply ln_increasing; lra).
  assert (a <> 0) by lra. assert (0 < a * a) by nra.
  repeat split; try (intros Hs Hs1); (apply (ident1 c n x a); try assumption; [vb|vb|dom_ok|dom_ok|]);
    try (revert HN; apply near_imp; intros q Hq; rv_; auto).
  - apply exp_ln, Hq.
  - apply sqrt_sqrt. lra.
  - apply sqrt_square. lra.
  - apply ln_neq_0; lra.
  - rewrite Rpow_std_pos by exact Hq. unfold Rpower. f_equal. ring.
  - rewrite Rpow_std_pos by exact Hq. apply Rpower_sqrt, Hq.
  - rewrite Rpow_std_pos by exact Hq. rewrite Rcbrt_pos by exact Hq. reflexivity.
  - apply Rabs_pos_eq. lra.
Qed.

Lemma identities_nonzero c n x a : cfg_ok c -> wf c n x -> get_f x = Ok a -> a <> 0 ->
  same c n [x] (EU Ucbrt X * EU Ucbrt X * EU Ucbrt X) X /\
  same c n [x] (EU (Upow 3) (EU Ucbrt X)) X /\
  same c n [x] (EU Uabs X) (EU Usqrt (X * X)) /\
  same c n [x] (EU (Upow (-1)) X) (EU Ureciprocal X) /\
  same c n [x] (EU (Upow 1) X) X /\ same c n [x] (EU (Upow 0) X) (EConst 1).
Proof.
  intros Hc W F Ha.
  assert (HN : near 1 (pt1 a) (fun q => q 0%nat <> 0)) by (apply (near_open 1 (pt1 a) 0 (fun t => t <> 0) open_nz); [lia|exact Ha]).
  assert (0 < a * a) by nra. pose proof (Rcbrt_nz a Ha).
  repeat split; (apply (ident1 c n x a); try assumption; [vb|vb|dom_ok|dom_ok|]);
    try (revert HN; apply near_imp; intros q Hq; rv_; auto).
  - apply Rcbrt_cube.
  - right. left. split; [assumption|]. exists 3%Z. reflexivity.
  - rewrite Rpow_std_3. apply Rcbrt_cube.
  - symmetry. apply sqrt_Rsqr_abs.
  - right. left. split; [assumption|]. exists (-1)%Z. reflexivity.
  - change (-1) with (IZR (-1)). rewrite Rpow_std_Z by exact Hq. unfold powerRZ. change (Pos.to_nat 1) with 1%nat. rewrite pow_1. reflexivity.
  - right. left. split; [assumption|]. exists 1%Z. reflexivity.
  - change 1 with (IZR 1). rewrite Rpow_std_Z by exact Hq. unfold powerRZ. change (Pos.to_nat 1) with 1%nat. apply pow_1.
  - right. left. split; [assumption|]. exists 0%Z. reflexivity.
  - change 0 with (IZR 0). rewrite Rpow_std_Z by exact Hq. reflexivity.
Qed.

Lemma tanh_Ratanh x : -1 < x < 1 -> tanh (Ratanh x) = x.
Proof.
  intros H. unfold Ratanh, tanh, sinh, cosh. set (u := (1 + x) / (1 - x)).
  assert (Hu : 0 < u) by (apply Rdiv_lt_0_compat; lra).
  assert (E : exp (/ 2 * ln u) * exp (/ 2 * ln u) = u).
  { rewrite <- exp_plus. replace (/ 2 * ln u + / 2 * ln u) with (ln u) by field. apply exp_ln, Hu. }
  rewrite exp_Ropp. set (v := exp (/ 2 * ln u)) in *. assert (Hv : 0 < v) by apply exp_pos.
  assert (E2 : v * v * (1 - x) = 1 + x) by (rewrite E; unfold u; field; lra).
  assert (v * v + 1 <> 0) by nra.
  replace ((v - / v) / 2 / ((v + / v) / 2)) with ((v * v - 1) / (v * v + 1)).
  - apply (Rmult_eq_reg_r (v * v + 1)); [|assumption]. unfold Rdiv. rewrite Rmult_assoc, Rinv_l by assumption. lra.
  - field. repeat split; apply Rgt_not_eq; nra.
Qed.
Lemma cosh_Racosh x : 1 < x -> cosh (Racosh x) = x.
Proof.
  intros H. unfold Racosh, cosh. assert (Hs : 0 <= x * x - 1) by nra. pose proof (sqrt_pos (x * x - 1)).
  set (s := sqrt (x * x - 1)) in *. assert (E : s * s = x * x - 1) by (apply sqrt_sqrt, Hs).
  rewrite exp_Ropp, exp_ln by lra. replace (/ (x + s)) with (x - s); [field|].
  apply (Rmult_eq_reg_r (x + s)); [|lra]. rewrite Rinv_l by lra. nra.
Qed.
Lemma identities_unit c n x a : cfg_ok c -> wf c n x -> get_f x = Ok a -> -1 < a < 1 ->
  same c n [x] (EU Usin (EU Uasin X)) X /\ same c n [x] (EU Ucos (EU Uacos X)) X /\
  same c n [x] (EU Utanh (EU Uatanh X)) X /\
  same c n [x] (EU Uasin X + EU Uacos X) (EConst (PI / 2)) /\
  same c n [x] (EU Ucos (EU Uasin X)) (EU Usqrt (EU (Ussub 1) (X * X))).
Proof.
  intros Hc W F Ha.
  assert (HN : near 1 (pt1 a) (fun q => -1 < q 0%nat < 1)) by (apply (near_open 1 (pt1 a) 0 (fun t => -1 < t < 1) (open_Ioo (-1) 1)); [lia|exact Ha]).
  assert (0 < 1 - a * a) by nra.
  repeat split; (apply (ident1 c n x a); try assumption; [vb|vb|dom_ok|dom_ok|]);
    try (revert HN; apply near_imp; intros q Hq; rv_; auto).
  - apply sin_asin. lra.
  - apply cos_acos. lra.
  - apply tanh_Ratanh, Hq.
  - rewrite acos_asin by lra. ring.
  - rewrite cos_asin by lra. reflexivity.
Qed.
Lemma identities_acosh c n x a : cfg_ok c -> wf c n x -> get_f x = Ok a -> 1 < a ->
  same c n [x] (EU Ucosh (EU Uacosh X)) X.
Proof.
  intros Hc W F Ha.
  assert (HN : near 1 (pt1 a) (fun q => 1 < q 0%nat)) by (apply (near_open 1 (pt1 a) 0 (fun t => 1 < t) open_gt1); [lia|exact Ha]).
  apply (ident1 c n x a); try assumption; [vb|vb|dom_ok|dom_ok|].
  revert HN; apply near_imp; intros q Hq; rv_. apply cosh_Racosh, Hq.
Qed.
Lemma identities_tan c n x a : cfg_ok c -> wf c n x -> get_f x = Ok a -> cos a <> 0 ->
  same c n [x] (EU Utan X) (EU Usin X / EU Ucos X).
Proof.
  intros Hc W F Ha. apply (ident1 c n x a); try assumption; [vb|vb|dom_ok|dom_ok|everywhere; reflexivity].
Qed.

Lemma near_sumsq p : ~ (p 0%nat = 0 /\ p 1%nat = 0) -> near 2 p (fun q => ~ (q 0%nat = 0 /\ q 1%nat = 0)).
Proof.
  intros H. destruct (Req_EM_T (p 0%nat) 0) as [E|E].
  - assert (E1 : p 1%nat <> 0) by (intros E1; apply H; auto).
    generalize (near_open 2 p 1 (fun t => t <> 0) open_nz ltac:(lia) E1). apply near_imp. intros q Hq [_ ?]. auto.
  - generalize (near_open 2 p 0 (fun t => t <> 0) open_nz ltac:(lia) E). apply near_imp. intros q Hq [? _]. auto.
Qed.
Lemma identities_two c n x y a b : cfg_ok c -> wf c n x -> wf c n y -> get_f x = Ok a -> get_f y = Ok b ->
  same c n [x; y] (EU Uexp (X + Y)) (EU Uexp X * EU Uexp Y) /\
  same c n [x; y] (EU Usin (X + Y)) (EU Usin X * EU Ucos Y + EU Ucos X * EU Usin Y) /\
  same c n [x; y] (EU Ucos (X + Y)) (EU Ucos X * EU Ucos Y - EU Usin X * EU Usin Y) /\
  (0 < a -> 0 < b -> same c n [x; y] (EU Ulog (X * Y)) (EU Ulog X + EU Ulog Y)) /\
  (0 < a -> 0 < b -> same c n [x; y] (EU Usqrt (X * Y)) (EU Usqrt X * EU Usqrt Y)) /\
  (~ (a = 0 /\ b = 0) -> same c n [x; y] (EB Bhypot X Y) (EU Usqrt (X * X + Y * Y))) /\
  (0 < b -> same c n [x; y] (EB Batan2 X Y) (EU Uatan (X / Y))) /\
  (b < 0 -> a <> 0 -> exists k, (k = PI \/ k = - PI) /\ same c n [x; y] (EB Batan2 X Y) (EU (Uadds k) (EU Uatan (X / Y)))).
Proof.
  intros Hc W1 W2 F1 F2.
  assert (HP : forall k, (k < 2)%nat -> 0 < pt2 a b k -> near 2 (pt2 a b) (fun q => 0 < q k)).
  { intros k Hk H. exact (near_open 2 (pt2 a b) k (fun t => 0 < t) open_pos Hk H). }
  assert (HM : forall k, (k < 2)%nat -> pt2 a b k < 0 -> near 2 (pt2 a b) (fun q => q k < 0)).
  { intros k Hk H. exact (near_open 2 (pt2 a b) k (fun t => t < 0) open_neg Hk H). }
  split; [|split; [|split; [|split; [|split; [|split; [|split]]]]]].
  - apply (ident2 c n x y a b); try assumption; [vb|vb|dom_ok|dom_ok|everywhere; apply exp_plus].
  - apply (ident2 c n x y a b); try assumption; [vb|vb|dom_ok|dom_ok|everywhere; apply sin_plus].
  - apply (ident2 c n x y a b); try assumption; [vb|vb|dom_ok|dom_ok|everywhere; apply cos_plus].
  - intros Ha Hb. assert (0 < a * b) by nra. apply (ident2 c n x y a b); try assumption; [vb|vb|dom_ok|dom_ok|].
    generalize (near_and _ _ _ _ (HP 0%nat ltac:(lia) Ha) (HP 1%nat ltac:(lia) Hb)). apply near_imp. intros q [Q1 Q2]. rv_.
    apply ln_mult; assumption.
  - intros Ha Hb. assert (0 < a * b) by nra. apply (ident2 c n x y a b); try assumption; [vb|vb|dom_ok|dom_ok|].
    generalize (near_and _ _ _ _ (HP 0%nat ltac:(lia) Ha) (HP 1%nat ltac:(lia) Hb)). apply near_imp. intros q [Q1 Q2]. rv_.
    apply sqrt_mult; lra.
  - intros H. pose proof (sumsq2_pos a b H). apply (ident2 c n x y a b); try assumption; [vb|vb|dom_ok|dom_ok|everywhere; reflexivity].
  - intros Hb. apply (ident2 c n x y a b); try assumption; [vb|vb|dom_ok|dom_ok|].
    generalize (HP 1%nat ltac:(lia) Hb). apply near_imp. intros q Q. rv_. apply Ratan2_pos, Q.
  - intros Hb Ha. destruct (Rlt_dec 0 a) as [Hp|Hp].
    + exists PI. split; [auto|]. apply (ident2 c n x y a b); try assumption; [vb|vb|dom_ok|dom_ok|].
      generalize (near_and _ _ _ _ (HP 0%nat ltac:(lia) Hp) (HM 1%nat ltac:(lia) Hb)). apply near_imp. intros q [Q1 Q2]. rv_.
      unfold Ratan2. destruct (Rlt_dec 0 (q 1%nat)); [lra|]. destruct (Rlt_dec (q 1%nat) 0); [|lra].
      destruct (Rle_dec 0 (q 0%nat)); [reflexivity|lra].
    + assert (Hn : a < 0) by lra. exists (- PI). split; [auto|].
      apply (ident2 c n x y a b); try assumption; [vb|vb|dom_ok|dom_ok|].
      generalize (near_and _ _ _ _ (HM 0%nat ltac:(lia) Hn) (HM 1%nat ltac:(lia) Hb)). apply near_imp. intros q [Q1 Q2]. rv_.
      unfold Ratan2. destruct (Rlt_dec 0 (q 1%nat)); [lra|]. destruct (Rlt_dec (q 1%nat) 0); [|lra].
      destruct (Rle_dec 0 (q 0%nat)); [lra|reflexivity].
Qed.

(** *** hypot with three operands (C30) *)
Lemma hypot3_consistent c n x y z a b d : cfg_ok c -> wf c n x -> wf c n y -> wf c n z ->
  get_f x = Ok a -> get_f y = Ok b -> get_f z = Ok d ->
  (~ (a = 0 /\ b = 0 /\ d = 0) -> same c n [x; y; z] (EH X Y Z3) (EU Usqrt (X * X + Y * Y + Z3 * Z3))) /\
  (~ (a = 0 /\ b = 0) -> same c n [x; y; z] (EH X Y Z3) (EB Bhypot (EB Bhypot X Y) Z3)).
Proof.
  intros Hc W1 W2 W3 F1 F2 F3. split.
  - intros H. pose proof (sumsq3_pos a b d H). apply (ident3 c n x y z a b d); try assumption; [vb|vb| |dom_ok|everywhere; reflexivity].
    rv_. repeat split. exact H.
  - intros H. pose proof (sumsq2_pos a b H). apply (ident3 c n x y z a b d); try assumption; [vb|vb| | |everywhere].
    + rv_. repeat split. intros (A & B & _). auto.
    + rv_. repeat split; [exact H|]. intros [A _]. pose proof (sqrt_lt_R0 _ H0). lra.
    + rewrite sqrt_sqrt by nra. reflexivity.
Qed.

(** *** in-place division (C20) and aliased operands (C21) *)
Lemma div_assign_agrees c n x y : cfg_ok c -> wf c n x -> wf c n y ->
  agree c (div_assign Rops c x (Some y)) (div Rops c x y).
Proof.
  intros Hc W W'. destruct (wf_rep _ _ _ W) as (J & R). destruct (wf_rep _ _ _ W') as (K & R').
  eapply agree_rep; [apply (div_assign_rep Rops c Hc n J K x y); assumption
    |apply (apply_b_rep Rops c Hc n J K x y Bdiv); assumption|].
  split; [unfold jap_b, k_b, k_div, k_div_assign, jb6; rcbn; unfold Rdiv; ring|]. split; reflexivity.
Qed.

Lemma add_self {S} (O : Ops S) c n x : cfg_ok c -> wf c n x -> agree c (add_assign O c x None) (add O c x x).
Proof.
  intros Hc W. destruct (wf_rep _ _ _ W) as (J & R).
  eapply agree_rep; [apply (add_assign_self O c n J x R)|apply (apply_b_rep O c Hc n J J x x Badd R R)|].
  split; [reflexivity|]. split; reflexivity.
Qed.
Lemma sub_self {S} (O : Ops S) c n x : (forall a b, o_sub O a b = o_add O a (o_neg O b)) -> cfg_ok c -> wf c n x ->
  agree c (sub_assign O c x None) (sub O c x x).
Proof.
  intros HS Hc W. destruct (wf_rep _ _ _ W) as (J & R).
  eapply agree_rep; [apply (sub_assign_self O c n J x R)|apply (apply_b_rep O c Hc n J J x x Bsub R R)|].
  split; [reflexivity|]. split; intros; cbn; apply HS.
Qed.
Lemma div_self c n x a : cfg_ok c -> wf c n x -> get_f x = Ok a -> a <> 0 ->
  agree c (div_assign Rops c x None) (div Rops c x x).
Proof.
  intros Hc W F Ha. destruct (wf_rep _ _ _ W) as (J & R).
  assert (E : jf J = a) by (rewrite (get_f_rep _ _ _ _ R) in F; congruence).
  eapply agree_rep; [apply (div_assign_self Rops c Hc n J x R)|apply (apply_b_rep Rops c Hc n J J x x Bdiv R R)|].
  unfold k_div_assign, jb_self, jap_b, k_b, k_div, jb6. rewrite E.
  split; [rcbn; unfold Rdiv; ring|]. split; intros; rcbn; rewrite !Rpow_std_2, ?Rpow_std_3; field; exact Ha.
Qed.
Lemma mul_self_first c n x : cfg_ok c -> c_ord c = 1%Z -> wf c n x ->
  agree c (mul_assign Rops c x None) (mul Rops c x x).
Proof.
  intros Hc Ho W. destruct (wf_rep _ _ _ W) as (J & R).
  eapply agree_rep; [apply (mul_assign_self Rops c n J x R)|apply (apply_b_rep Rops c Hc n J J x x Bmul R R)|].
  split; [reflexivity|]. split; [reflexivity|]. intros H. contradiction.
Qed.
Lemma mul_self_actual c n x f g h : cfg_ok c -> shows c n x f g h ->
  (exists r, mul Rops c x x = Ok r /\
     shows c n r (f * f) (fun i => 2 * f * g i) (fun i j => 2 * f * h i j + 2 * g i * g j)) /\
  (exists r, mul_assign Rops c x None = Ok r /\
     shows c n r (f * f) (fun i => 2 * f * g i) (fun i j => 2 * f * h i j + 4 * f * g i * g j)).
Proof.
  intros Hc SH. pose proof (shows_rep _ _ _ _ _ _ Hc SH) as R.
  assert (HH : c_ord c = 2%Z -> forall i j, (i < n)%nat -> (j < n)%nat -> hess (mkjet f g h) i j = h i j).
  { intros Ho i j Hi Hj. destruct SH as (_ & _ & _ & H). specialize (H Ho i j Hi Hj).
    rewrite (get_h_rep _ _ _ _ _ _ R ltac:(lia) Hi Hj) in H. congruence. }
  split.
  - destruct (apply_b_rep Rops c Hc n _ _ x x Bmul R R) as (r & E & R'). exists r. split; [exact E|].
    eapply shows_ext; [apply rep_shows, R'|reflexivity| |].
    + intros i Hi. unfold jap_b, k_b, k_mul, jb6. rcbn. ring.
    + intros Ho i j Hi Hj. rewrite <- (HH Ho i j Hi Hj).
      pose proof (min_max_sq g i j) as M. unfold jap_b, k_b, k_mul, jb6, hess. rcbn.
      replace (g i) with (g i) by reflexivity. lra.
  - destruct (mul_assign_self Rops c n _ x R) as (r & E & R'). exists r. split; [exact E|].
    eapply shows_ext; [apply rep_shows, R'|reflexivity| |].
    + intros i Hi. unfold jmul_self. rcbn. ring.
    + intros Ho i j Hi Hj. rewrite <- (HH Ho i j Hi Hj).
      pose proof (min_max_sq g i j) as M. unfold jmul_self, hess. rcbn.
      transitivity (2 * f * h (Nat.min i j) (Nat.max i j) + 4 * f * (g (Nat.min i j) * g (Nat.max i j))); [ring|].
      rewrite M. ring.
Qed.
Lemma mul_by_own_value c n x f g h : cfg_ok c -> shows c n x f g h ->
  exists r, muls_assign Rops x (SElem 0) = Ok r /\
     shows c n r (f * f) (fun i => f * f * g i) (fun i j => f * f * h i j).
Proof.
  intros Hc SH. pose proof (shows_rep _ _ _ _ _ _ Hc SH) as R.
  destruct (muls_assign_elem0 Rops c n _ x R) as (r & E & R'). exists r. split; [exact E|].
  eapply shows_ext; [apply rep_shows, R'|reflexivity| |].
  - intros i Hi. rcbn. ring.
  - intros Ho i j Hi Hj. destruct SH as (_ & _ & _ & H). specialize (H Ho i j Hi Hj).
    rewrite (get_h_rep _ _ _ _ _ _ R ltac:(lia) Hi Hj) in H. injection H as H. rewrite <- H. unfold hess. rcbn. ring.
Qed.
Lemma mul_self_witness : ~ (forall c n x, cfg_ok c -> wf c n x ->
  agree c (mul_assign Rops c x None) (mul Rops c x x)).
Proof.
  intros H. set (c := {| c_ord := 2; c_tsize := -1; c_exc := true; c_dbg := true |}).
  assert (Hc : cfg_ok c) by (split; cbn; lia).
  set (J := mkjet 3 (fun _ => 1) (fun _ _ => 0) : jet R).
  assert (SO : size_ok c 1) by (split; [discriminate|vm_compute; discriminate]).
  assert (R : rep c 1 J (mk 1 (full (enc 2 1 J)))) by (split; [reflexivity|]; split; [reflexivity|vm_compute; discriminate]).
  destruct (H c 1%nat _ Hc (rep_wf _ _ _ _ R)) as (r & r' & E & E' & _ & ED).
  destruct (mul_self_actual c 1 _ _ _ _ Hc (rep_shows _ _ _ _ R)) as ((q' & Eq' & S') & (q & Eq & S1)).
  rewrite E in Eq. rewrite E' in Eq'. injection Eq as <-. injection Eq' as <-.
  destruct S1 as (W1 & _ & _ & H1), S' as (W2 & _ & _ & H2).
  specialize (H1 eq_refl 0%nat 0%nat ltac:(lia) ltac:(lia)). specialize (H2 eq_refl 0%nat 0%nat ltac:(lia) ltac:(lia)).
  assert (EH : get_h c r 0 0 = get_h c r' 0 0).
  { unfold get_h, idx_h. destruct W1 as (SZ1 & _), W2 as (SZ2 & _). rewrite SZ1, SZ2, ED. reflexivity. }
  change (Z.of_nat 0) with 0%Z in H1, H2. rewrite EH, H2 in H1. injection H1 as H1. unfold J, hess in H1. cbn in H1. lra.
Qed.

(** *** comparisons (C22) *)
Lemma real_comparisons (x y : dd R) a b : get_f x = Ok a -> get_f y = Ok b ->
  exists lt eq gt le ge ne, compare Rops Clt x y = Ok lt /\ compare Rops Ceq x y = Ok eq /\
    compare Rops Cgt x y = Ok gt /\ compare Rops Cle x y = Ok le /\ compare Rops Cge x y = Ok ge /\
    compare Rops Cne x y = Ok ne /\
    (lt = true <-> a < b) /\ (eq = true <-> a = b) /\ (gt = true <-> a > b) /\
    (le = true <-> a <= b) /\ (ge = true <-> a >= b) /\ (ne = true <-> a <> b) /\
    compare Rops Cgt y x = Ok lt /\ compare Rops Cge y x = Ok le /\ compare Rops Clt y x = Ok (negb le) /\
    ne = negb eq /\
    ((lt = true /\ eq = false /\ gt = false) \/ (lt = false /\ eq = true /\ gt = false) \/
     (lt = false /\ eq = false /\ gt = true)).
Proof.
  intros F1 F2. unfold compare. rewrite F1, F2. cbn [bind scmp o_lt o_le o_eq Rops]. unfold Rltb, Rleb, Reqb.
  do 6 eexists. repeat (split; [reflexivity|]).
  destruct (Rlt_dec a b), (Req_EM_T a b), (Rlt_dec b a), (Rle_dec a b), (Rle_dec b a); cbn [negb];
    repeat split; intros; try lra; try discriminate; try reflexivity; auto.
Qed.

(** *** abs (C23) *)
Lemma abs_spec {S} (O : Ops S) c n (x : dd S) a : cfg_ok c -> wf c n x -> get_f x = Ok a ->
  agree c (abs O c x) (if o_lt O a (o_Z O 0%Z) then neg O c x else Ok x).
Proof.
  intros Hc W F. destruct (wf_rep _ _ _ W) as (J & R).
  assert (E : jf J = a) by (rewrite (get_f_rep _ _ _ _ R) in F; congruence).
  assert (AB : exists r, abs O c x = Ok r /\ rep c n (jap_u O Uabs J) r) by (apply (apply_u_rep O c Hc n J x Uabs R)).
  destruct (o_lt O a (o_Z O 0%Z)) eqn:L.
  - eapply agree_rep; [exact AB|apply (apply_u_rep O c Hc n J x Uneg R)|]. cbn [jap_u]. rewrite E, L. apply jeq_refl.
  - eapply agree_rep; [exact AB|exists x; split; [reflexivity|exact R]|]. cbn [jap_u]. rewrite E, L. apply jeq_refl.
Qed.
Lemma abs_real c n x a : cfg_ok c -> wf c n x -> get_f x = Ok a ->
  (exists r, abs Rops c x = Ok r /\ wf c n r /\ get_f r = Ok (Rabs a)) /\
  (0 <= a -> agree c (abs Rops c x) (Ok x)) /\ (a < 0 -> agree c (abs Rops c x) (neg Rops c x)) /\
  agree c (r <- abs Rops c x ;; abs Rops c r) (abs Rops c x).
Proof.
  intros Hc W F. pose proof (abs_spec Rops c n x a Hc W F) as AS. cbn [o_lt o_Z Rops] in AS.
  destruct (wf_rep _ _ _ W) as (J & R).
  assert (E : jf J = a) by (rewrite (get_f_rep _ _ _ _ R) in F; congruence).
  destruct (apply_u_rep Rops c Hc n J x Uabs R) as (r & Er & Rr). change (apply_u Rops c Uabs x) with (abs Rops c x) in Er.
  assert (VF : jf (jap_u Rops Uabs J) = Rabs a).
  { cbn [jap_u]. rcbn. unfold Rltb. rewrite E. destruct (Rlt_dec a 0).
    - rcbn. rewrite E, Rabs_left by assumption. reflexivity.
    - rewrite E, Rabs_pos_eq by lra. reflexivity. }
  split; [|split; [|split]].
  - exists r. split; [exact Er|]. split; [eapply rep_wf, Rr|]. rewrite (get_f_rep _ _ _ _ Rr), VF. reflexivity.
  - intros Ha. unfold Rltb in AS. destruct (Rlt_dec a 0); [lra|exact AS].
  - intros Ha. unfold Rltb in AS. destruct (Rlt_dec a 0); [exact AS|lra].
  - rewrite Er. cbn [bind]. eapply agree_rep; [apply (apply_u_rep Rops c Hc n _ r Uabs Rr)|exists r; split; [reflexivity|exact Rr]|].
    set (K := jap_u Rops Uabs J) in *. cbn [jap_u]. rcbn. unfold Rltb. rewrite VF.
    destruct (Rlt_dec (Rabs a) 0); [pose proof (Rabs_pos a); lra|apply jeq_refl].
Qed.

(** *** [atan2] against [atan] of the quotient, also on the branch cut *)
Lemma atan2_quotient c n x y a b : cfg_ok c -> wf c n x -> wf c n y -> get_f x = Ok a -> get_f y = Ok b -> b <> 0 ->
  same c n [x; y] (EB Batan2 X Y) (EU (Uadds (Ratan2 a b - atan (a / b))) (EU Uatan (X / Y))).
Proof.
  intros Hc W1 W2 F1 F2 Hb. destruct (wf_rep _ _ _ W1) as (J & R1). destruct (wf_rep _ _ _ W2) as (K & R2).
  assert (EA : jf J = a) by (rewrite (get_f_rep _ _ _ _ R1) in F1; congruence).
  assert (EB' : jf K = b) by (rewrite (get_f_rep _ _ _ _ R2) in F2; congruence).
  set (env := fun k : nat => match k with O => J | _ => K end).
  assert (HE : forall i z, nth_error [x; y] i = Some z -> rep c n (env i) z).
  { intros [|[|i]] z E; cbn in E; try congruence; [injection E as <-; exact R1|injection E as <-; exact R2|destruct i; discriminate]. }
  assert (0 < a * a + b * b) by nra.
  assert (0 < 1 + (a / b) * (a / b)) by (pose proof (Rle_0_sqr (a / b)); unfold Rsqr in *; lra).
  assert (1 + (a * / b) * (a * / b) <> 0) by (apply Rgt_not_eq; exact H0).
  eapply agree_rep; [apply (run_rep Rops c n [x; y] env); [exact Hc|eapply wf_size_ok, W1|unfold X, Y; cbn; repeat split; lia|exact HE]
    |apply (run_rep Rops c n [x; y] env); [exact Hc|eapply wf_size_ok, W1|unfold X, Y; cbn; repeat split; lia|exact HE]|].
  unfold X, Y. cbn [jev env jap_b jap_u]. 
  split; [|split].
  - unfold jap_b, jap_u, k_b, k_div, k_atan2, k_atan, jb6, ju, ju3, jb; rcbn. rewrite EA, EB'. replace (a * (1 / b)) with (a / b) by (field; exact Hb); ring.
  - intros i Hi. unfold jap_b, jap_u, k_b, k_div, k_atan2, k_atan, jb6, ju, ju3, jb; rcbn. rewrite EA, EB', ?Rpow_std_2, ?Rpow_std_3. field. repeat split; auto; apply Rgt_not_eq; nra.
  - intros.  unfold jap_b, jap_u, k_b, k_div, k_atan2, k_atan, jb6, ju, ju3, jb; rcbn. rewrite EA, EB', ?Rpow_std_2, ?Rpow_std_3. field. repeat split; auto; apply Rgt_not_eq; nra.
Qed.
