(** C67: running error bounds. *)
From Coq Require Import ZArith List Bool Reals Lra Lia Psatz.
From Coquelicot Require Import Coquelicot.
From Flocq Require Import Core BinarySingleNaN Relative.
From Verif Require Import Outcome Scalar Float64 Model Spec RealOps UDeriv ExprSpec ProgSpec Ops64 B64 Facts64 NumSpec FactsNum
  ParamSpec FactsParam FactsEncl FactsExpr CreateRep OpsRep Kernels AccRep FactsLayout Expr Samples ErrSpec.
Import ListNotations.
Open Scope R_scope.

(** Two relations at once: a certified comparison of doubles and reals. *)
Lemma emap_rel {B S T} (Q : S -> T -> Prop) (phi : B -> S) (psi : B -> T) e : (forall v, Q (phi v) (psi v)) ->
  expr_rel Q (emap phi e) (emap psi e).
Proof.
  intros H. induction e as [| |u e IH| |]; cbn; auto. destruct u; cbn; auto.
Qed.
Lemma emap_abs {S T} (phi : S -> T) e : no_abs e -> no_abs (emap phi e).
Proof. induction e as [| |u e IH| |]; cbn; try tauto. destruct u; cbn; auto. Qed.
Lemma emap_below {S T} (phi : S -> T) n e : vars_below n e -> vars_below n (emap phi e).
Proof. induction e; cbn; tauto. Qed.
Lemma forall2_map {B S T} (Q : S -> T -> Prop) (phi : B -> S) (psi : B -> T) vs : (forall v, Q (phi v) (psi v)) ->
  Forall2 Q (map phi vs) (map psi vs).
Proof. intros H. induction vs; cbn; constructor; auto. Qed.
Lemma coords_at64 vs : coords (length vs) (at64 vs) = map val64 vs.
Proof.
  unfold coords, at64. apply nth_ext with 0 0; [now rewrite !map_length, seq_length|].
  intros i Hi. rewrite map_length, seq_length in Hi.
  rewrite nth_indep with (d' := nth (length vs) (map val64 vs) 0) by (rewrite map_length, seq_length; exact Hi).
  rewrite (map_nth (fun i => nth i (map val64 vs) 0)), seq_nth by exact Hi. reflexivity.
Qed.

Lemma certified {T} (O' : Ops T) (within : R -> T -> Prop) (carries : b64 -> T -> Prop) (lift : b64 -> T) (M : libm) c e (vs : list b64) :
  let n := length vs in
  cfg_ok c -> size_ok c n -> vars_below n e -> no_abs e ->
  arith_rel within Rops O' -> arith_rel carries (b64ops M) O' ->
  (forall v, carries v (lift v)) -> (forall v, within (val64 v) (lift v)) ->
  exists r f g h rT fT gT hT G H,
    evaluate (b64ops M) c vs e = Ok r /\ shows c n r f g h /\
    evaluate O' c (map lift vs) (emap lift e) = Ok rT /\ shows c n rT fT gT hT /\
    carries f fT /\ (forall i, (i < n)%nat -> carries (g i) (gT i)) /\
    (c_ord c = 2%Z -> forall i j, (i < n)%nat -> (j < n)%nat -> carries (h i j) (hT i j)) /\
    let F := rev (emap val64 e) in let p := at64 vs in
    (dom (emap val64 e) p ->
      within (F p) fT /\
      (forall i, (i < n)%nat -> partial F i p (G i) /\ within (G i) (gT i)) /\
      (c_ord c = 2%Z -> forall i j, (i < n)%nat -> (j < n)%nat -> partial2 F i j p (H i j) /\ within (H i j) (hT i j))).
Proof.
  intros n Hc SO HV NA AR AF LC LW.
  assert (LB : length (map lift vs) = n) by apply map_length.
  set (d := o_Z (b64ops M) 0).
  destruct (evaluate_rep O' c (map lift vs) (lift d) (emap lift e) Hc ltac:(rewrite LB; exact SO) ltac:(rewrite LB; apply emap_below, HV))
    as (rT & ET & RT). rewrite LB in RT.
  destruct (evaluate_rep (b64ops M) c vs d e Hc SO HV) as (r & E & Rr). fold n in Rr.
  pose proof (rep_shows _ _ _ _ RT) as ST. pose proof (rep_shows _ _ _ _ Rr) as SR.
  assert (NR : num_rel carries r rT).
  { assert (HR : res_rel (num_rel carries) (evaluate (b64ops M) c vs e) (evaluate O' c (map lift vs) (emap lift e))).
    { unfold evaluate. rewrite map_length. apply (bind_par (Forall2 (num_rel carries))).
      - apply variables_par; [exact AF|]. rewrite <- (map_id vs) at 1. apply forall2_map, LC.
      - intros xs xs' HX. apply expr_par; [exact AF|right; exact NA| |exact HX].
        rewrite <- (emap_id e) at 1. apply emap_rel, LC. }
    rewrite E, ET in HR. exact HR. }
  set (p := at64 vs). set (JR := jev Rops (fun i => jvar Rops i (p i)) (emap val64 e)).
  exists r. do 3 eexists. exists rT. do 3 eexists. exists (jg JR), (hess JR).
  split; [exact E|]. split; [exact SR|]. split; [exact ET|]. split; [exact ST|].
  destruct SR as (_ & SF & SG & SH). destruct ST as (_ & TF & TG & TH).
  split; [|split; [|split]].
  - pose proof (get_f_par carries r rT NR) as H. rewrite SF, TF in H. exact H.
  - intros i Hi. pose proof (get_g_par carries c r rT (Z.of_nat i) NR) as H. rewrite SG, TG in H by exact Hi. exact H.
  - intros O2 i j Hi Hj. pose proof (get_h_par carries c r rT (Z.of_nat i) (Z.of_nat j) NR) as H.
    rewrite SH, TH in H by assumption. exact H.
  - intros F p' D. change p' with p in *. clear p'.
    destruct (jev_partials n (emap val64 e) p (emap_below _ _ _ HV) D) as (PF & PG & PH).
    assert (HW : vars_below n (emap val64 e)) by (apply emap_below, HV).
    destruct (evaluate_rep Rops c (map val64 vs) 0 (emap val64 e) Hc ltac:(rewrite map_length; exact SO) ltac:(rewrite map_length; exact HW))
      as (rR & ER & RR). rewrite map_length in RR. fold n in RR.
    change (jev Rops _ _) with JR in RR. pose proof (rep_shows _ _ _ _ RR) as SR. destruct SR as (_ & RF & RG & RH).
    assert (NW : num_rel within rR rT).
    { assert (HR : res_rel (num_rel within) (evaluate Rops c (map val64 vs) (emap val64 e)) (evaluate O' c (map lift vs) (emap lift e))).
      { unfold evaluate. rewrite !map_length. apply (bind_par (Forall2 (num_rel within))).
        - apply variables_par; [exact AR|]. apply forall2_map, LW.
        - intros xs xs' HX. apply expr_par; [exact AR|right; apply emap_abs, NA| |exact HX].
          apply emap_rel, LW. }
      rewrite ER, ET in HR. exact HR. }
    split; [|split].
    + pose proof (get_f_par within rR rT NW) as H. rewrite RF, TF in H. cbn in H. unfold F. rewrite <- PF. exact H.
    + intros i Hi. split; [apply PG, Hi|]. pose proof (get_g_par within c rR rT (Z.of_nat i) NW) as H.
      rewrite RG, TG in H by exact Hi. exact H.
    + intros O2 i j Hi Hj. split; [apply PH; assumption|]. pose proof (get_h_par within c rR rT (Z.of_nat i) (Z.of_nat j) NW) as H.
      rewrite RH, TH in H by assumption. exact H.
Qed.

(** ** The operations of [Eops] *)
Lemma rounded_within ok r y m x : (ok = true -> Rabs (y - x) <= m) -> within x (rounded ok r y m).
Proof.
  intros H. unfold rounded. destruct ok; [|exact I]. destruct (is_finite r) eqn:F; [|exact I]. cbn. split; [exact F|].
  replace (val64 r - x) with ((val64 r - y) + (y - x)) by ring. eapply Rle_trans; [apply Rabs_triang|]. specialize (H eq_refl). lra.
Qed.
Lemma rounded_carries ok r y m : carries r (rounded ok r y m).
Proof. unfold rounded. destruct (ok && is_finite r); exact I || reflexivity. Qed.
Lemma tr1_carries m F ok L v t : carries v t -> carries (m v) (tr1 m F ok L t).
Proof. destruct t as [[w d]|]; [|intros; exact I]. cbn. intros ->. apply rounded_carries. Qed.
Lemma tr2_carries m F ok L v t w u : carries v t -> carries w u -> carries (m v w) (tr2 m F ok L t u).
Proof. destruct t as [[a d]|], u as [[b e]|]; try (intros; exact I). cbn. intros -> ->. apply rounded_carries. Qed.
Lemma tr3_carries m F v t w u z s : carries v t -> carries w u -> carries z s -> carries (m v w z) (tr3 m F t u s).
Proof. destruct t as [[a d]|], u as [[b e]|], s as [[k q]|]; try (intros; exact I). cbn. intros -> -> ->. apply rounded_carries. Qed.
Lemma Eops_carries M : arith_rel carries (b64ops M) (Eops M).
Proof.
  constructor; intros; cbn [b64ops Eops o_Z o_half o_add o_sub o_mul o_div o_neg o_pow o_sqrt o_cbrt o_cos o_sin o_tan
    o_acos o_asin o_atan o_atan2 o_hypot o_hypot3 o_cosh o_sinh o_tanh o_acosh o_asinh o_atanh o_exp o_log o_log2 o_log10];
  auto using rounded_carries, tr1_carries, tr2_carries, tr3_carries.
Qed.

(** [F] moves by at most [L a d * d] when its operand moves from [a] by at most [d]. *)
Definition steady (F : R -> R) (ok : R -> R -> bool) (L : R -> R -> R) : Prop := forall a d x,
  ok a d = true -> 0 <= d -> Rabs (a - x) <= d -> Rabs (F a - F x) <= L a d * d.
Definition steady2 (F : R -> R -> R) (ok : R -> R -> R -> R -> bool) (mv : R -> R -> R -> R -> R) : Prop := forall x y a d b e,
  ok a d b e = true -> 0 <= d -> 0 <= e -> Rabs (a - x) <= d -> Rabs (b - y) <= e -> Rabs (F a b - F x y) <= mv a d b e.
Lemma tr1_within m F ok L x t : steady F ok L -> within x t -> within (F x) (tr1 m F ok L t).
Proof.
  intros H. destruct t as [[v d]|]; [|intros; exact I]. cbn. intros [Fv D]. apply rounded_within. intros OK.
  apply H; [exact OK| |exact D]. eapply Rle_trans; [apply Rabs_pos|exact D].
Qed.
Lemma tr2_within m F ok mv x y t u : steady2 F ok mv -> within x t -> within y u -> within (F x y) (tr2 m F ok mv t u).
Proof.
  intros H. destruct t as [[v d]|], u as [[w e]|]; try (intros; exact I). cbn. intros [Fv D] [Fw E]. apply rounded_within. intros OK.
  apply H; try assumption; (eapply Rle_trans; [apply Rabs_pos|eassumption]).
Qed.
Lemma steady_der F F' ok L :
  (forall a d z, ok a d = true -> 0 <= d -> Rabs (z - a) <= d -> is_derive F z (F' z) /\ Rabs (F' z) <= L a d) -> steady F ok L.
Proof.
  intros H a d x OK Hd D. rewrite Rabs_minus_sym in D. rewrite Rabs_minus_sym.
  eapply Rle_trans; [apply (bounded_variation F F' (L a d) a x)|].
  - intros z Hz. apply H; [exact OK|exact Hd|lra].
  - apply Rmult_le_compat_l; [|exact D].
    eapply Rle_trans; [apply (Rabs_pos (F' a))|]. apply (H a d a OK Hd). replace (a - a) with 0 by ring. rewrite Rabs_R0. exact Hd.
Qed.

Lemma ball_abs a d z : Rabs (z - a) <= d -> Rabs z <= Rabs a + d.
Proof. intros H. replace z with ((z - a) + a) by ring. eapply Rle_trans; [apply Rabs_triang|]. lra. Qed.
Lemma ball_low a d z : Rabs (z - a) <= d -> a - d <= z <= a + d.
Proof. intros H. apply Rabs_le_between in H. lra. Qed.
Lemma Rltb_iff x y : Rltb x y = true -> x < y.
Proof. apply Rltb_true. Qed.

Lemma s_neg : steady Ropp anywhere (fun _ _ => 1).
Proof.
  apply (steady_der Ropp (fun _ => -1)). intros. split; [auto_derive; [exact I|ring]|]. rewrite Rabs_left; lra.
Qed.
Lemma s_cos : steady cos anywhere (fun _ _ => 1).
Proof.
  apply (steady_der cos (fun z => - sin z)). intros. split; [apply is_derive_cos|].
  rewrite Rabs_Ropp. apply Rabs_le, SIN_bound.
Qed.
Lemma s_sin : steady sin anywhere (fun _ _ => 1).
Proof.
  apply (steady_der sin cos). intros. split; [apply is_derive_sin|]. apply Rabs_le, COS_bound.
Qed.
Lemma inv_le_1 y : 1 <= y -> 0 <= / y <= 1.
Proof.
  intros H. split; [left; apply Rinv_0_lt_compat; lra|]. rewrite <- Rinv_1 at 1. apply Rinv_le_contravar; lra.
Qed.
Lemma s_atan : steady atan anywhere (fun _ _ => 1).
Proof.
  apply (steady_der atan (fun z => / (1 + z ^ 2))). intros. split; [apply is_derive_lim, derivable_pt_lim_atan|].
  pose proof (pow2_ge_0 z). pose proof (inv_le_1 (1 + z ^ 2) ltac:(lra)). rewrite Rabs_pos_eq; lra.
Qed.
Lemma s_asinh : steady arcsinh anywhere (fun _ _ => 1).
Proof.
  apply (steady_der arcsinh (fun z => / sqrt (z ^ 2 + 1))). intros. split; [apply is_derive_lim, derivable_pt_lim_arcsinh|].
  assert (1 <= sqrt (z ^ 2 + 1)) by (rewrite <- sqrt_1 at 1; apply sqrt_le_1_alt; nra).
  pose proof (inv_le_1 _ H2). rewrite Rabs_pos_eq; lra.
Qed.
Lemma tanh_sq z : 0 <= tanh z * tanh z <= 1.
Proof.
  pose proof (cosh_pos z) as C. pose proof (cosh_sinh_sq z) as Q. split; [apply Rle_0_sqr|].
  unfold tanh. replace (sinh z / cosh z * (sinh z / cosh z)) with (1 - / (cosh z * cosh z)).
  - assert (0 < / (cosh z * cosh z)) by (apply Rinv_0_lt_compat; nra). lra.
  - replace (sinh z / cosh z * (sinh z / cosh z)) with ((sinh z * sinh z) / (cosh z * cosh z)) by (field; lra).
    replace (sinh z * sinh z) with (cosh z * cosh z - 1) by lra. field. lra.
Qed.
Lemma s_tanh : steady tanh anywhere (fun _ _ => 1).
Proof.
  apply (steady_der tanh (fun z => 1 - tanh z * tanh z)). intros. split; [apply is_derive_tanh|].
  pose proof (tanh_sq z). rewrite Rabs_pos_eq; lra.
Qed.
Lemma exp_le x y : x <= y -> exp x <= exp y.
Proof. intros [H| ->]; [left; apply exp_increasing, H|right; reflexivity]. Qed.
Lemma s_exp : steady exp anywhere (fun x d => exp (x + d)).
Proof.
  apply (steady_der exp exp). intros a d z _ Hd Hz. split; [apply is_derive_exp|].
  rewrite Rabs_pos_eq by (left; apply exp_pos). apply exp_le. apply ball_low in Hz. lra.
Qed.
Lemma cosh_exp z : cosh z <= exp (Rabs z).
Proof.
  unfold cosh. assert (exp z <= exp (Rabs z)) by apply exp_le, Rle_abs.
  assert (exp (- z) <= exp (Rabs z)) by (apply exp_le; rewrite <- Rabs_Ropp; apply Rle_abs). lra.
Qed.
Lemma sinh_cosh z : Rabs (sinh z) <= cosh z.
Proof. apply Rabs_le. unfold sinh, cosh. pose proof (exp_pos z). pose proof (exp_pos (- z)). lra. Qed.
Lemma s_cosh : steady cosh anywhere (fun x d => exp (Rabs x + d)).
Proof.
  apply (steady_der cosh sinh). intros a d z _ Hd Hz. split; [apply is_derive_cosh|].
  eapply Rle_trans; [apply sinh_cosh|]. eapply Rle_trans; [apply cosh_exp|]. apply exp_le, ball_abs, Hz.
Qed.
Lemma s_sinh : steady sinh anywhere (fun x d => exp (Rabs x + d)).
Proof.
  apply (steady_der sinh cosh). intros a d z _ Hd Hz. split; [apply is_derive_sinh|].
  rewrite Rabs_pos_eq by (left; apply cosh_pos). eapply Rle_trans; [apply cosh_exp|]. apply exp_le, ball_abs, Hz.
Qed.
Lemma s_log : steady ln (fun x d => Rltb d x) (fun x d => / (x - d)).
Proof.
  apply (steady_der ln (fun z => / z)). intros a d z OK Hd Hz. apply Rltb_iff in OK. apply ball_low in Hz.
  split; [apply is_derive_ln; lra|]. rewrite Rabs_pos_eq by (left; apply Rinv_0_lt_compat; lra). apply Rinv_le_contravar; lra.
Qed.
Lemma s_logb k : 1 < k -> steady (fun x => ln x / ln k) (fun x d => Rltb d x) (fun x d => / ((x - d) * ln k)).
Proof.
  intros K. assert (0 < ln k) by (rewrite <- ln_1; apply ln_increasing; lra).
  apply (steady_der (fun x => ln x / ln k) (fun z => / (z * ln k))). intros a d z OK Hd Hz. apply Rltb_iff in OK. apply ball_low in Hz.
  assert (0 < (a - d) * ln k) by (apply Rmult_lt_0_compat; lra).
  assert ((a - d) * ln k <= z * ln k) by (apply Rmult_le_compat_r; lra).
  split.
  - auto_derive; [lra|]. field. lra.
  - rewrite Rabs_pos_eq by (left; apply Rinv_0_lt_compat; lra). apply Rinv_le_contravar; lra.
Qed.
Lemma s_sqrt : steady sqrt (fun x d => Rltb d x) (fun x d => / (2 * sqrt (x - d))).
Proof.
  apply (steady_der sqrt (fun z => / (2 * sqrt z))). intros a d z OK Hd Hz. apply Rltb_iff in OK. apply ball_low in Hz.
  assert (0 < sqrt (a - d)) by (apply sqrt_lt_R0; lra). assert (sqrt (a - d) <= sqrt z) by (apply sqrt_le_1_alt; lra).
  split; [auto_derive; [lra|field; lra]|]. rewrite Rabs_pos_eq by (left; apply Rinv_0_lt_compat; lra). apply Rinv_le_contravar; lra.
Qed.
Lemma ball_one a d z : Rabs a + d < 1 -> Rabs (z - a) <= d -> -1 < z < 1 /\ z * z <= (Rabs a + d) * (Rabs a + d) < 1.
Proof.
  intros H Hz. apply ball_abs in Hz. pose proof (Rabs_pos z). pose proof (Rabs_def2 z 1 ltac:(lra)).
  assert (z * z = Rabs z * Rabs z) by (rewrite <- Rabs_mult; symmetry; apply Rabs_pos_eq, Rle_0_sqr).
  split; [lra|]. rewrite H2. nra.
Qed.
Lemma s_asin : steady asin (fun x d => Rltb (Rabs x + d) 1) (fun x d => / sqrt (1 - (Rabs x + d) * (Rabs x + d))).
Proof.
  apply (steady_der asin (fun z => / sqrt (1 - z * z))). intros a d z OK Hd Hz. apply Rltb_iff in OK.
  destruct (ball_one _ _ _ OK Hz) as (H1 & H2). split; [apply is_derive_asin, H1|].
  assert (0 < sqrt (1 - (Rabs a + d) * (Rabs a + d))) by (apply sqrt_lt_R0; lra).
  assert (sqrt (1 - (Rabs a + d) * (Rabs a + d)) <= sqrt (1 - z * z)) by (apply sqrt_le_1_alt; lra).
  rewrite Rabs_pos_eq by (left; apply Rinv_0_lt_compat; lra). apply Rinv_le_contravar; lra.
Qed.
Lemma s_acos : steady acos (fun x d => Rltb (Rabs x + d) 1) (fun x d => / sqrt (1 - (Rabs x + d) * (Rabs x + d))).
Proof.
  apply (steady_der acos (fun z => - / sqrt (1 - z * z))). intros a d z OK Hd Hz. apply Rltb_iff in OK.
  destruct (ball_one _ _ _ OK Hz) as (H1 & H2). split; [apply is_derive_acos, H1|].
  assert (0 < sqrt (1 - (Rabs a + d) * (Rabs a + d))) by (apply sqrt_lt_R0; lra).
  assert (sqrt (1 - (Rabs a + d) * (Rabs a + d)) <= sqrt (1 - z * z)) by (apply sqrt_le_1_alt; lra).
  rewrite Rabs_Ropp, Rabs_pos_eq by (left; apply Rinv_0_lt_compat; lra). apply Rinv_le_contravar; lra.
Qed.
Lemma is_derive_Ratanh y : -1 < y < 1 -> is_derive Ratanh y (/ (1 - y * y)).
Proof.
  intros Hy. unfold Ratanh. auto_derive.
  - split; [lra|]. split; [|exact I]. apply Rdiv_lt_0_compat; lra.
  - field. repeat split; nra.
Qed.
Lemma s_atanh : steady Ratanh (fun x d => Rltb (Rabs x + d) 1) (fun x d => / (1 - (Rabs x + d) * (Rabs x + d))).
Proof.
  apply (steady_der Ratanh (fun z => / (1 - z * z))). intros a d z OK Hd Hz. apply Rltb_iff in OK.
  destruct (ball_one _ _ _ OK Hz) as (H1 & H2). split; [apply is_derive_Ratanh, H1|].
  rewrite Rabs_pos_eq by (left; apply Rinv_0_lt_compat; lra). apply Rinv_le_contravar; lra.
Qed.
Lemma is_derive_Racosh y : 1 < y -> is_derive Racosh y (/ sqrt (y * y - 1)).
Proof.
  intros Hy. unfold Racosh. assert (Hp : 0 < y * y - 1) by nra. pose proof (sqrt_lt_R0 _ Hp) as Hs.
  auto_derive; replace (y * y + - (1)) with (y * y - 1) by ring.
  + repeat split; lra.
  + field. split; lra.
Qed.
Lemma s_acosh : steady Racosh (fun x d => Rltb 1 (x - d)) (fun x d => / sqrt ((x - d) * (x - d) - 1)).
Proof.
  apply (steady_der Racosh (fun z => / sqrt (z * z - 1))). intros a d z OK Hd Hz. apply Rltb_iff in OK. apply ball_low in Hz.
  split; [apply is_derive_Racosh; lra|].
  assert (0 < sqrt ((a - d) * (a - d) - 1)) by (apply sqrt_lt_R0; nra).
  assert (sqrt ((a - d) * (a - d) - 1) <= sqrt (z * z - 1)) by (apply sqrt_le_1_alt; nra).
  rewrite Rabs_pos_eq by (left; apply Rinv_0_lt_compat; lra). apply Rinv_le_contravar; lra.
Qed.
Lemma s_tan : steady tan (fun x d => Rltb (Rabs x + d) (PI / 2)) (fun x d => tan (Rabs x + d) * tan (Rabs x + d) + 1).
Proof.
  apply (steady_der tan (fun z => tan z * tan z + 1)). intros a d z OK Hd Hz. apply Rltb_iff in OK.
  apply ball_abs in Hz. pose proof (Rabs_pos z) as Pz.
  assert (B : - (PI / 2) < z < PI / 2) by (pose proof (Rabs_def2 _ _ (Rle_lt_trans _ _ _ Hz OK)); lra).
  split.
  - eapply der_eq; [apply is_derive_tan|ring]. assert (0 < cos z) by (apply cos_gt_0; lra). lra.
  - assert (T : tan z * tan z = tan (Rabs z) * tan (Rabs z)).
    { unfold Rabs. destruct (Rcase_abs z); [rewrite tan_neg|]; ring. }
    assert (0 <= tan (Rabs z)).
    { destruct Pz as [Pz|Pz]; [left; apply tan_gt_0; lra|rewrite <- Pz, tan_0; lra]. }
    assert (tan (Rabs z) <= tan (Rabs a + d)).
    { destruct Hz as [Hz|Hz]; [left; apply tan_increasing; lra|rewrite Hz; lra]. }
    rewrite Rabs_pos_eq by nra. rewrite T. nra.
Qed.
Lemma Rcbrt_pos_mono x y : 0 < x -> x <= y -> 0 < Rcbrt x <= Rcbrt y.
Proof.
  intros Hx [H| <-]; unfold Rcbrt; destruct (Rlt_dec 0 x); try lra.
  - destruct (Rlt_dec 0 y); [|lra]. split; [apply exp_pos|]. left. unfold Rpower. apply exp_increasing.
    apply Rmult_lt_compat_l; [lra|]. apply ln_increasing; lra.
  - split; [apply exp_pos|lra].
Qed.
Lemma Rcbrt_abs x : Rabs (Rcbrt x) = Rcbrt (Rabs x).
Proof.
  destruct (Rtotal_order x 0) as [H|[->|H]].
  - rewrite (Rabs_left x H). unfold Rcbrt. destruct (Rlt_dec 0 x); [lra|]. destruct (Rlt_dec x 0); [|lra].
    destruct (Rlt_dec 0 (- x)); [|lra]. rewrite Rabs_Ropp, Rabs_pos_eq; [reflexivity|left; apply exp_pos].
  - rewrite Rabs_R0. unfold Rcbrt. destruct (Rlt_dec 0 0); [lra|]. apply Rabs_R0.
  - rewrite (Rabs_pos_eq x) by lra. apply Rabs_pos_eq. pose proof (Rcbrt_pos_mono x x H (Rle_refl x)). lra.
Qed.
Lemma s_cbrt : steady Rcbrt (fun x d => Rltb d (Rabs x)) (fun x d => Rcbrt (Rabs x + d) / (3 * (Rabs x - d))).
Proof.
  apply (steady_der Rcbrt (fun z => Rcbrt z / (3 * z))). intros a d z OK Hd Hz. apply Rltb_iff in OK.
  assert (Hz2 : Rabs a - d <= Rabs z).
  { rewrite Rabs_minus_sym in Hz. pose proof (Rabs_triang_inv a z). lra. }
  apply ball_abs in Hz. assert (N : z <> 0) by (intros ->; rewrite Rabs_R0 in Hz2; lra).
  split; [apply is_derive_Rcbrt, N|].
  rewrite Rabs_div by lra. rewrite Rcbrt_abs, Rabs_mult, (Rabs_pos_eq 3) by lra.
  destruct (Rcbrt_pos_mono (Rabs z) (Rabs a + d) ltac:(lra) Hz).
  unfold Rdiv. apply Rmult_le_compat; [lra| |lra|].
  - left. apply Rinv_0_lt_compat. lra.
  - apply Rinv_le_contravar; lra.
Qed.

(** Two operands *)
Lemma s_add : steady2 Rplus anywhere2 (fun x d y e => d + e).
Proof.
  intros x y a d b e _ Hd He D E. replace (a + b - (x + y)) with ((a - x) + (b - y)) by ring.
  eapply Rle_trans; [apply Rabs_triang|]. lra.
Qed.
Lemma s_sub : steady2 Rminus anywhere2 (fun x d y e => d + e).
Proof.
  intros x y a d b e _ Hd He D E. replace (a - b - (x - y)) with ((a - x) + - (b - y)) by ring.
  eapply Rle_trans; [apply Rabs_triang|]. rewrite Rabs_Ropp. lra.
Qed.
Lemma s_mul : steady2 Rmult anywhere2 (fun x d y e => Rabs x * e + Rabs y * d + d * e).
Proof.
  intros x y a d b e _ Hd He D E. replace (a * b - x * y) with (a * (b - y) + b * (a - x) + - ((a - x) * (b - y))) by ring.
  eapply Rle_trans; [apply Rabs_triang|]. pose proof (Rabs_triang (a * (b - y)) (b * (a - x))) as T.
  rewrite Rabs_Ropp, !Rabs_mult in *.
  assert (Rabs a * Rabs (b - y) <= Rabs a * e) by (apply Rmult_le_compat_l; [apply Rabs_pos|lra]).
  assert (Rabs b * Rabs (a - x) <= Rabs b * d) by (apply Rmult_le_compat_l; [apply Rabs_pos|lra]).
  assert (Rabs (a - x) * Rabs (b - y) <= d * e) by (apply Rmult_le_compat; auto using Rabs_pos). lra.
Qed.
Lemma quot_bound x y a d b e : e < Rabs b -> 0 <= d -> 0 <= e -> Rabs (a - x) <= d -> Rabs (b - y) <= e ->
  Rabs (a / b - x / y) <= quot_moved a d b e.
Proof.
  intros OK Hd He D E.
  assert (HY : Rabs b - e <= Rabs y) by (pose proof (Rabs_triang_inv b y); lra).
  assert (b <> 0) by (intros ->; rewrite Rabs_R0 in OK; lra). assert (y <> 0) by (intros ->; rewrite Rabs_R0 in HY; lra).
  replace (a / b - x / y) with ((b * (a - x) + - (a * (b - y))) / (b * y)) by (field; auto).
  rewrite Rabs_div by (apply Rmult_integral_contrapositive_currified; assumption).
  unfold quot_moved, Rdiv. apply Rmult_le_compat; [apply Rabs_pos| | |].
  - left. apply Rinv_0_lt_compat, Rabs_pos_lt, Rmult_integral_contrapositive_currified; assumption.
  - eapply Rle_trans; [apply Rabs_triang|]. rewrite Rabs_Ropp, !Rabs_mult.
    assert (Rabs a * Rabs (b - y) <= Rabs a * e) by (apply Rmult_le_compat_l; [apply Rabs_pos|lra]).
    assert (Rabs b * Rabs (a - x) <= Rabs b * d) by (apply Rmult_le_compat_l; [apply Rabs_pos|lra]). lra.
  - apply Rinv_le_contravar; [apply Rmult_lt_0_compat; lra|]. rewrite Rabs_mult. apply Rmult_le_compat_l; lra.
Qed.
Lemma s_div : steady2 Rdiv (fun x d y e => Rltb e (Rabs y)) quot_moved.
Proof. intros x y a d b e OK Hd He D E. apply Rltb_iff in OK. apply quot_bound; assumption. Qed.
Lemma atan_lip a b : Rabs (atan a - atan b) <= Rabs (a - b).
Proof.
  replace (Rabs (a - b)) with (1 * Rabs (a - b)) by ring.
  apply (bounded_variation atan (fun z => / (1 + z ^ 2)) 1). intros z _. split; [apply is_derive_lim, derivable_pt_lim_atan|].
  pose proof (pow2_ge_0 z). pose proof (inv_le_1 (1 + z ^ 2) ltac:(lra)). rewrite Rabs_pos_eq; lra.
Qed.
Lemma s_atan2 : steady2 Ratan2 (fun y e x d => Rltb d x) quot_moved.
Proof.
  intros y x a d b e OK Hd He D E. apply Rltb_iff in OK. pose proof (ball_low b e x ltac:(rewrite Rabs_minus_sym; exact E)) as B.
  unfold Ratan2. destruct (Rlt_dec 0 b); [|lra]. destruct (Rlt_dec 0 x); [|lra].
  eapply Rle_trans; [apply atan_lip|]. apply quot_bound; try assumption. rewrite Rabs_pos_eq; lra.
Qed.
Lemma norm_triangle a b x y : sqrt (a * a + b * b) <= sqrt (x * x + y * y) + (Rabs (a - x) + Rabs (b - y)).
Proof.
  set (d := Rabs (a - x)). set (e := Rabs (b - y)).
  assert (0 <= d) by apply Rabs_pos. assert (0 <= e) by apply Rabs_pos. pose proof (sqrt_pos (x * x + y * y)) as N.
  rewrite <- (sqrt_square (sqrt (x * x + y * y) + (d + e))) by lra. apply sqrt_le_1_alt.
  set (s := sqrt (x * x + y * y)) in *. assert (S : s * s = x * x + y * y) by (apply sqrt_sqrt; nra).
  assert (X : Rabs x <= s) by (rewrite <- (sqrt_Rsqr_abs x); apply sqrt_le_1_alt; unfold Rsqr; nra).
  assert (Y : Rabs y <= s) by (rewrite <- (sqrt_Rsqr_abs y); apply sqrt_le_1_alt; unfold Rsqr; nra).
  assert (A : a * a <= (Rabs x + d) * (Rabs x + d)).
  { assert (AA : Rabs a <= Rabs x + d) by (replace a with ((a - x) + x) by ring; eapply Rle_trans; [apply Rabs_triang|unfold d; lra]).
    replace (a * a) with (Rabs a * Rabs a) by (rewrite <- Rabs_mult; apply Rabs_pos_eq, Rle_0_sqr).
    pose proof (Rabs_pos a). nra. }
  assert (B : b * b <= (Rabs y + e) * (Rabs y + e)).
  { assert (BB : Rabs b <= Rabs y + e) by (replace b with ((b - y) + y) by ring; eapply Rle_trans; [apply Rabs_triang|unfold e; lra]).
    replace (b * b) with (Rabs b * Rabs b) by (rewrite <- Rabs_mult; apply Rabs_pos_eq, Rle_0_sqr).
    pose proof (Rabs_pos b). nra. }
  assert (Rabs x * Rabs x = x * x) by (rewrite <- Rabs_mult; apply Rabs_pos_eq, Rle_0_sqr).
  assert (Rabs y * Rabs y = y * y) by (rewrite <- Rabs_mult; apply Rabs_pos_eq, Rle_0_sqr).
  pose proof (Rabs_pos x). pose proof (Rabs_pos y). nra.
Qed.
Lemma norm_lip a b x y : Rabs (sqrt (a * a + b * b) - sqrt (x * x + y * y)) <= Rabs (a - x) + Rabs (b - y).
Proof.
  apply Rabs_le. pose proof (norm_triangle a b x y). pose proof (norm_triangle x y a b) as H2.
  rewrite (Rabs_minus_sym x a), (Rabs_minus_sym y b) in H2. lra.
Qed.
Lemma s_hypot : steady2 (fun a b => sqrt (a * a + b * b)) anywhere2 (fun x d y e => d + e).
Proof.
  intros x y a d b e _ Hd He D E. eapply Rle_trans; [apply norm_lip|]. lra.
Qed.
Lemma norm3 a b c : sqrt (a * a + b * b + c * c) = sqrt (sqrt (a * a + b * b) * sqrt (a * a + b * b) + c * c).
Proof. rewrite sqrt_sqrt by nra. reflexivity. Qed.
Lemma w_hypot3 m x y z t u s : within x t -> within y u -> within z s ->
  within (sqrt (x * x + y * y + z * z)) (tr3 m (fun a b c => sqrt (a * a + b * b + c * c)) t u s).
Proof.
  destruct t as [[v d]|], u as [[w e]|], s as [[q k]|]; try (intros; exact I). cbn -[rounded]. intros [_ D] [_ E] [_ K].
  apply rounded_within. intros _. rewrite (norm3 (val64 v)), (norm3 x). eapply Rle_trans; [apply norm_lip|].
  pose proof (norm_lip (val64 v) (val64 w) x y). lra.
Qed.
Lemma Rpower_bound p q z b : 0 < p -> p <= z <= q -> Rpower z b <= Rpower p b + Rpower q b.
Proof.
  intros Hp Hz. pose proof (exp_pos (b * ln p)). pose proof (exp_pos (b * ln q)). unfold Rpower.
  assert (ln p <= ln z) by (destruct (proj1 Hz) as [H1| <-]; [left; apply ln_increasing; lra|lra]).
  assert (ln z <= ln q) by (destruct (proj2 Hz) as [H2| ->]; [left; apply ln_increasing; lra|lra]).
  destruct (Rle_dec 0 b).
  - assert (exp (b * ln z) <= exp (b * ln q)) by (apply exp_le; nra). lra.
  - assert (exp (b * ln z) <= exp (b * ln p)) by (apply exp_le; nra). lra.
Qed.
Lemma s_pow : steady2 Rpow_std (fun x d y e => Rltb d x && Reqb e 0)
    (fun x d y e => Rabs y * (Rpower (x - d) (y - 1) + Rpower (x + d) (y - 1)) * d).
Proof.
  intros x y a d b e OK Hd He D E. apply andb_true_iff in OK. destruct OK as [OK Z0]. apply Rltb_iff in OK.
  unfold Reqb in Z0. destruct (Req_EM_T e 0) as [->|]; [|discriminate].
  assert (b = y) by (destruct (Req_dec (b - y) 0); [lra|]; pose proof (Rabs_pos_lt (b - y) H); lra). subst y.
  rewrite Rabs_minus_sym in D. pose proof (ball_low a d x D) as B.
  unfold Rpow_std. destruct (Rlt_dec 0 a); [|lra]. destruct (Rlt_dec 0 x); [|lra].
  rewrite Rabs_minus_sym. eapply Rle_trans.
  - apply (bounded_variation (fun z => Rpower z b) (fun z => b * Rpower z (b - 1)) (Rabs b * (Rpower (a - d) (b - 1) + Rpower (a + d) (b - 1))) a x).
    intros z Hz. pose proof (ball_low a d z ltac:(lra)) as Bz. split; [apply is_derive_Rpower; lra|].
    rewrite Rabs_mult. apply Rmult_le_compat_l; [apply Rabs_pos|]. rewrite Rabs_pos_eq by (left; apply exp_pos).
    apply Rpower_bound; lra.
  - apply Rmult_le_compat_l; [|exact D]. apply Rmult_le_pos; [apply Rabs_pos|].
    pose proof (exp_pos ((b - 1) * ln (a - d))). pose proof (exp_pos ((b - 1) * ln (a + d))). unfold Rpower. lra.
Qed.
Lemma Eops_within M : arith_rel within Rops (Eops M).
Proof.
  constructor; intros; cbn [Rops Eops o_Z o_half o_add o_sub o_mul o_div o_neg o_pow o_sqrt o_cbrt o_cos o_sin o_tan
    o_acos o_asin o_atan o_atan2 o_hypot o_hypot3 o_cosh o_sinh o_tanh o_acosh o_asinh o_atanh o_exp o_log o_log2 o_log10].
  - apply rounded_within. intros _. unfold Rminus. rewrite Rplus_opp_r, Rabs_R0. lra.
  - apply rounded_within. intros _. unfold Rminus. rewrite Rplus_opp_r, Rabs_R0. lra.
  - apply tr2_within; try assumption; apply s_add.
  - apply tr2_within; try assumption; apply s_sub.
  - apply tr2_within; try assumption; apply s_mul.
  - apply tr2_within; try assumption; apply s_div.
  - apply tr1_within; [apply s_neg|assumption].
  - apply tr2_within; try assumption; apply s_pow.
  - apply tr1_within; [apply s_sqrt|assumption].
  - apply tr1_within; [apply s_cbrt|assumption].
  - apply tr1_within; [apply s_cos|assumption].
  - apply tr1_within; [apply s_sin|assumption].
  - apply tr1_within; [apply s_tan|assumption].
  - apply tr1_within; [apply s_acos|assumption].
  - apply tr1_within; [apply s_asin|assumption].
  - apply tr1_within; [apply s_atan|assumption].
  - apply tr2_within; try assumption; apply s_atan2.
  - apply (tr2_within _ (fun a b => sqrt (a * a + b * b))); try assumption; apply s_hypot.
  - apply w_hypot3; assumption.
  - apply tr1_within; [apply s_cosh|assumption].
  - apply tr1_within; [apply s_sinh|assumption].
  - apply tr1_within; [apply s_tanh|assumption].
  - apply tr1_within; [apply s_acosh|assumption].
  - apply tr1_within; [apply s_asinh|assumption].
  - apply tr1_within; [apply s_atanh|assumption].
  - apply tr1_within; [apply s_exp|assumption].
  - apply tr1_within; [apply s_log|assumption].
  - apply (tr1_within _ (fun x => ln x / ln _)); [apply s_logb; lra|assumption].
  - apply (tr1_within _ (fun x => ln x / ln _)); [apply s_logb; lra|assumption].
Qed.

(** ** C67 *)
Lemma exactly_carries v : carries v (exactly v).
Proof. unfold exactly. destruct (is_finite v); reflexivity || exact I. Qed.
Lemma exactly_within v : within (val64 v) (exactly v).
Proof.
  unfold exactly. destruct (is_finite v) eqn:F; [|exact I]. split; [exact F|]. unfold Rminus. rewrite Rplus_opp_r, Rabs_R0. lra.
Qed.
Lemma both_bounded x v t : carries v t -> within x t -> bounded x v t.
Proof. destruct t as [[w d]|]; [|intros; exact I]. cbn. intros -> [F D]. auto. Qed.
Lemma running_error M c vs e : let n := length vs in
  cfg_ok c -> size_ok c n -> vars_below n e -> no_abs e -> dom (emap val64 e) (at64 vs) ->
  exists r f g h rT fT gT hT G H,
    evaluate (b64ops M) c vs e = Ok r /\ shows c n r f g h /\
    evaluate (Eops M) c (map exactly vs) (emap exactly e) = Ok rT /\ shows c n rT fT gT hT /\
    let F := rev (emap val64 e) in let p := at64 vs in
    bounded (F p) f fT /\
    (forall i, (i < n)%nat -> partial F i p (G i) /\ bounded (G i) (g i) (gT i)) /\
    (c_ord c = 2%Z -> forall i j, (i < n)%nat -> (j < n)%nat -> partial2 F i j p (H i j) /\ bounded (H i j) (h i j) (hT i j)).
Proof.
  intros n Hc SO HV NA D.
  destruct (certified (Eops M) within carries exactly M c e vs Hc SO HV NA (Eops_within M) (Eops_carries M) exactly_carries exactly_within)
    as (r & f & g & h & rT & fT & gT & hT & G & H & E & S1 & ET & ST & CF & CG & CH & HW).
  specialize (HW D). destruct HW as (WF & WG & WH).
  exists r, f, g, h, rT, fT, gT, hT, G, H. repeat (split; [assumption|]). split; [apply both_bounded; assumption|]. split.
  - intros i Hi. destruct (WG i Hi). split; [assumption|]. apply both_bounded; auto.
  - intros O2 i j Hi Hj. destruct (WH O2 i j Hi Hj). split; [assumption|]. apply both_bounded; auto.
Qed.

(** The rounding error of one operation. *)
Lemma near_abs r : Rabs (near64 r - r) <= u64 * Rabs r + eta64.
Proof.
  destruct (error_N_FLT radix2 (-1074) 53 ltac:(lia) (fun z => negb (Z.even z)) r) as (ep & et & He & Ht & _ & E).
  change (near64 r = r * (1 + ep) + et) in E. rewrite E. replace (r * (1 + ep) + et - r) with (ep * r + et) by ring.
  eapply Rle_trans; [apply Rabs_triang|]. rewrite Rabs_mult.
  assert (E1 : / 2 * bpow radix2 (-53 + 1) = u64) by (unfold u64; rewrite bpow_plus; cbn; lra).
  assert (E2 : / 2 * bpow radix2 (-1074) = eta64).
  { unfold eta64. replace (-1075)%Z with (-1074 + -1)%Z by reflexivity. rewrite bpow_plus. change (bpow radix2 (-1)) with (/ 2). lra. }
  change (Rabs ep <= / 2 * bpow radix2 (-53 + 1)) in He. rewrite E1 in He. rewrite E2 in Ht. apply Rplus_le_compat; [|exact Ht]. apply Rmult_le_compat_r; [apply Rabs_pos|exact He].
Qed.
Lemma local_errors (v w : b64) :
  (finite64 (b64_add v w) -> Rabs (val64 (b64_add v w) - (val64 v + val64 w)) <= u64 * Rabs (val64 v + val64 w)) /\
  (finite64 (b64_sub v w) -> Rabs (val64 (b64_sub v w) - (val64 v - val64 w)) <= u64 * Rabs (val64 v - val64 w)) /\
  (finite64 (b64_mul v w) -> Rabs (val64 (b64_mul v w) - val64 v * val64 w) <= u64 * Rabs (val64 v * val64 w) + eta64) /\
  (finite64 (b64_div v w) -> val64 w <> 0 -> Rabs (val64 (b64_div v w) - val64 v / val64 w) <= u64 * Rabs (val64 v / val64 w) + eta64) /\
  (finite64 (b64_sqrt v) -> Rabs (val64 (b64_sqrt v) - sqrt (val64 v)) <= u64 * sqrt (val64 v) + eta64) /\
  val64 (b64_neg v) = - val64 v.
Proof.
  repeat split.
  - intros F. rewrite finite_add_val by exact F. apply near_sum.
  - intros F. rewrite b64_sub_neg in *. rewrite finite_add_val by exact F. unfold Rminus at 2 3. rewrite <- val_neg. apply near_sum.
  - intros F. rewrite finite_mul_val by exact F. apply near_abs.
  - intros F N. rewrite finite_div_val by assumption. apply near_abs.
  - intros F. pose proof (Bsqrt_correct prec64 emax64 prec64_gt_0 prec64_lt_emax mode_NE v) as (V & _ & _).
    change (val64 (b64_sqrt v) = near64 (sqrt (val64 v))) in V. rewrite V.
    rewrite <- (Rabs_pos_eq (sqrt (val64 v))) at 3 by apply sqrt_pos. apply near_abs.
  - apply val_neg.
Qed.

(** x * x / 3 at x = 7. *)
Lemma exactly_Z z : (Z.abs z <= 2 ^ 53)%Z -> exactly (b64_of_Z z) = Some (b64_of_Z z, 0).
Proof. intros H. unfold exactly. destruct (of_Z_exact z H) as (F & _). rewrite F. reflexivity. Qed.
Lemma tracked_square_third M : exists r f v d,
  evaluate (Eops M) dyn1 (map exactly [b64_of_Z 7]) (emap exactly (EU (Udivs (b64_of_Z 3)) (EB Bmul (EVar 0) (EVar 0)))) = Ok r /\
  get_f r = Ok f /\ f = Some (v, d) /\ d <= 40 * u64.
Proof.
  destruct (evaluate_rep (Eops M) dyn1 (map exactly [b64_of_Z 7]) (exactly (b64_of_Z 0))
    (emap exactly (EU (Udivs (b64_of_Z 3)) (EB Bmul (EVar 0) (EVar 0))))) as (r & E & Rr).
  { exact cfg_dyn1. }
  { split; [discriminate|vm_compute; discriminate]. }
  { cbn. lia. }
  apply rep_shows in Rr. destruct Rr as (_ & RF & _).
  destruct (of_Z_exact 7 ltac:(lia)) as (F7 & V7). destruct (of_Z_exact 3 ltac:(lia)) as (F3 & V3).
  destruct (of_Z_exact 1 ltac:(lia)) as (F1 & V1).
  cbn [emap umap jev map nth jvar jap_u jap_b k_b k_mul jb6 jb jmap jf o_mul o_div o_Z Eops] in RF.
  rewrite !exactly_Z in RF by lia.
  set (p := b64_mul (b64_of_Z 7) (b64_of_Z 7)) in *.
  set (q := b64_div (b64_of_Z 1) (b64_of_Z 3)) in *.
  set (s := b64_mul p q) in *.
  assert (Fp : is_finite p = true) by (vm_compute; reflexivity).
  assert (Fq : is_finite q = true) by (vm_compute; reflexivity).
  assert (Fs : is_finite s = true) by (vm_compute; reflexivity).
  assert (Vp : val64 p = 49).
  { destruct (near_int 49 ltac:(lia)) as (N & _). unfold p. rewrite finite_mul_val by exact Fp. rewrite V7, <- mult_IZR. exact N. }
  assert (U : u64 <= / 1000).
  { unfold u64. apply Rle_trans with (bpow radix2 (-10)); [apply bpow_le; lia|]. cbn. lra. }
  assert (U0 : 0 < u64) by apply u64_pos.
  assert (ET : eta64 <= u64 * / 10).
  { unfold eta64, u64. replace (-1075)%Z with (-53 + -1022)%Z by reflexivity. rewrite bpow_plus.
    apply Rmult_le_compat_l; [apply bpow_ge_0|]. apply Rle_trans with (bpow radix2 (-4)); [apply bpow_le; lia|]. cbn. lra. }
  assert (LQ : Rabs (val64 q - 1 / 3) <= u64 * (1 / 3) + eta64).
  { pose proof (proj1 (proj2 (proj2 (proj2 (local_errors (b64_of_Z 1) (b64_of_Z 3)))))) as L. fold q in L. rewrite V1, V3 in L.
    specialize (L Fq ltac:(lra)). rewrite (Rabs_pos_eq (1 / 3)) in L by lra. exact L. }
  assert (BQ : Rabs (val64 q) <= 1 / 2).
  { replace (val64 q) with ((val64 q - 1 / 3) + 1 / 3) by ring. eapply Rle_trans; [apply Rabs_triang|].
    rewrite (Rabs_pos_eq (1 / 3)) by lra. lra. }
  assert (LS : Rabs (val64 s - 49 * val64 q) <= u64 * (49 * Rabs (val64 q)) + eta64).
  { pose proof (proj1 (proj2 (proj2 (local_errors p q)))) as L. fold s in L. specialize (L Fs).
    rewrite Vp, Rabs_mult, (Rabs_pos_eq 49) in L by lra. exact L. }
  assert (E1 : rounded true (b64_of_Z 1) 1 0 = Some (b64_of_Z 1, 0)).
  { unfold rounded. rewrite F1. cbn [andb]. rewrite V1. unfold Rminus. rewrite Rplus_opp_r, Rabs_R0, Rplus_0_r. reflexivity. }
  assert (E2 : forall m, m = 0 -> rounded true p (7 * 7) m = Some (p, 0)).
  { intros m ->. unfold rounded. rewrite Fp. cbn [andb]. rewrite Vp. replace (49 - 7 * 7) with 0 by ring. rewrite Rabs_R0, Rplus_0_r. reflexivity. }
  assert (E3 : tr2 b64_div Rdiv (fun _ _ y e : R => Rltb e (Rabs y)) quot_moved (Some (b64_of_Z 1, 0)) (Some (b64_of_Z 3, 0))
               = Some (q, Rabs (val64 q - 1 / 3))).
  { unfold tr2. fold q. rewrite V1, V3, (Rabs_pos_eq 3) by lra. rewrite (proj2 (Rltb_true 0 3)) by lra. unfold rounded. rewrite Fq. cbn [andb].
    unfold quot_moved. rewrite !Rmult_0_r, Rplus_0_l. unfold Rdiv at 2. rewrite Rmult_0_l, Rplus_0_r. reflexivity. }
  unfold tr2 at 2 in RF. fold p in RF. rewrite V7 in RF. unfold anywhere2 at 2 in RF. rewrite E2 in RF by ring. rewrite E1, E3 in RF.
  unfold tr2, anywhere2 in RF. fold s in RF. unfold rounded in RF. rewrite Fs in RF. cbn [andb] in RF. rewrite Vp in RF.
  eexists r, _, _, _. split; [exact E|]. split; [exact RF|]. split; [reflexivity|].
  rewrite (Rabs_pos_eq 49) by lra. pose proof (Rabs_pos (val64 q)).
  assert (u64 * (49 * Rabs (val64 q)) <= u64 * (49 * (1 / 3) + 49 * (1 / 1000))).
  { apply Rmult_le_compat_l; [lra|].
    assert (Rabs (val64 q) <= 1 / 3 + 1 / 1000).
    { replace (val64 q) with ((val64 q - 1 / 3) + 1 / 3) by ring. eapply Rle_trans; [apply Rabs_triang|].
      rewrite (Rabs_pos_eq (1 / 3)) by lra. lra. }
    lra. }
  lra.
Qed.
