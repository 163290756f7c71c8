(** C74: error bounds when products and sums may be fused. *)
From Coq Require Import ZArith List Bool Reals Lra Lia Psatz.
From Coquelicot Require Import Coquelicot.
From Flocq Require Import Core BinarySingleNaN Relative.
From Verif Require Import Outcome Scalar Float64 Model Spec RealOps UDeriv ExprSpec ProgSpec Ops64 B64 Facts64 NumSpec FactsNum
  ParamSpec FactsParam FactsEncl FactsExpr CreateRep OpsRep Kernels AccRep FactsLayout Expr Samples ErrSpec FactsErr FmaSpec.
Import ListNotations.
Open Scope R_scope.

Lemma fma_ok (x y z : b64) : finite64 x -> finite64 y -> finite64 z -> Rabs (near64 (val64 x * val64 y + val64 z)) < huge ->
  finite64 (b64_fma x y z) /\ val64 (b64_fma x y z) = near64 (val64 x * val64 y + val64 z).
Proof.
  intros Fx Fy Fz B. unfold finite64, val64, b64_fma in *.
  pose proof (Bfma_correct prec64 emax64 prec64_gt_0 prec64_lt_emax mode_NE x y z Fx Fy Fz) as HC. cbv zeta in HC. cbn [round_mode] in HC.
  rewrite Rlt_bool_true in HC by exact B. destruct HC as (V & F & _). split; [exact F|exact V].
Qed.
Lemma sqrt_ok (x : b64) : finite64 x -> 0 < val64 x -> finite64 (b64_sqrt x) /\ val64 (b64_sqrt x) = near64 (sqrt (val64 x)).
Proof.
  intros F P. pose proof (Bsqrt_correct prec64 emax64 prec64_gt_0 prec64_lt_emax mode_NE x) as (V & G & _). split; [|exact V].
  change (is_finite (b64_sqrt x) = true). unfold b64_sqrt. rewrite G. destruct x as [| | |[] m e H]; cbn in *; try reflexivity; try discriminate.
  exfalso. pose proof (F2R_lt_0 radix2 (Float radix2 (Z.neg m) e) ltac:(reflexivity)). unfold val64, B2R in P. cbn [cond_Zopp] in P. lra.
Qed.

Lemma tiny_pos : 0 < tiny. Proof. apply bpow_gt_0. Qed.
Lemma u64_pos' : 0 < u64. Proof. apply bpow_gt_0. Qed.
Lemma near_tiny r : Rabs (near64 r - r) <= u64 * (Rabs r + tiny).
Proof.
  replace (u64 * (Rabs r + tiny)) with (u64 * Rabs r + eta64); [apply near_abs|].
  rewrite Rmult_plus_distr_l. f_equal. unfold eta64, u64, tiny. rewrite <- bpow_plus. reflexivity.
Qed.
Lemma grow_ge k y m : 0 <= k -> 0 <= m -> m <= grow k y m /\ 0 <= grow k y m.
Proof.
  intros Hk Hm. unfold grow. assert (0 <= k * (Rabs y + m + tiny)); [|lra].
  apply Rmult_le_pos; [exact Hk|]. pose proof (Rabs_pos y). pose proof tiny_pos. lra.
Qed.
Lemma moved_abs q y m : Rabs (q - y) <= m -> Rabs q <= Rabs y + m.
Proof. apply ball_abs. Qed.
Lemma known_inv y r b : known y r = Some b -> b = (y, r) /\ Rabs y + r < huge.
Proof. unfold known. destruct (Rltb _ _) eqn:E; [|discriminate]. intros [= <-]. split; [reflexivity|]. apply Rltb_true, E. Qed.
Lemma Reqb_iff x y : Reqb x y = true -> x = y.
Proof. unfold Reqb. destruct (Req_EM_T x y); [auto|discriminate]. Qed.

Lemma basic_inv ok y m y' r : (ok = true -> 0 <= m) -> basic ok y m = Some (y', r) ->
  ok = true /\ y' = y /\ 0 <= r /\ m <= r /\ forall q, Rabs (q - y) <= m -> Rabs (near64 q) < huge /\ Rabs (near64 q - y) <= r.
Proof.
  intros Hm. unfold basic. destruct ok; [|discriminate]. specialize (Hm eq_refl). intros E. apply known_inv in E. destruct E as (E & B). split; [reflexivity|].
  destruct (Reqb m 0 && Reqb (near64 y) y) eqn:X; injection E as -> ->.
  - apply andb_true_iff in X. destruct X as (X1 & X2). apply Reqb_iff in X1, X2. subst m.
    split; [reflexivity|]. split; [lra|]. split; [lra|]. intros q Hq.
    assert (q = y) as ->. { destruct (Req_dec (q - y) 0) as [Z|Z]; [lra|]. pose proof (Rabs_pos_lt _ Z). lra. }
    rewrite X2. split; [lra|]. unfold Rminus. rewrite Rplus_opp_r, Rabs_R0. lra.
  - destruct (grow_ge u64 y m (Rlt_le _ _ u64_pos') Hm) as (G1 & G2).
    split; [reflexivity|]. split; [exact G2|]. split; [exact G1|]. intros q Hq.
    assert (N : Rabs (near64 q - y) <= grow u64 y m).
    { replace (near64 q - y) with ((near64 q - q) + (q - y)) by ring. eapply Rle_trans; [apply Rabs_triang|].
      pose proof (near_tiny q). pose proof (moved_abs _ _ _ Hq).
      assert (u64 * (Rabs q + tiny) <= u64 * (Rabs y + m + tiny)) by (apply Rmult_le_compat_l; [apply Rlt_le, u64_pos'|lra]).
      unfold grow. lra. }
    split; [|exact N]. apply moved_abs in N. lra.
Qed.
Lemma called_inv k ok y m y' r : 0 <= k -> (ok = true -> 0 <= m) -> called k ok y m = Some (y', r) ->
  ok = true /\ y' = y /\ 0 <= r /\ m <= r /\
  forall q v, Rabs (q - y) <= m -> approximates k v q -> finite64 v /\ Rabs (val64 v - y) <= r.
Proof.
  intros Hk Hm. unfold called. destruct ok; [|discriminate]. specialize (Hm eq_refl). intros E. apply known_inv in E. destruct E as (E & B). split; [reflexivity|].
  injection E as -> ->. destruct (grow_ge k y m Hk Hm) as (G1 & G2).
  split; [reflexivity|]. split; [exact G2|]. split; [exact G1|]. intros q v Hq A. pose proof (moved_abs _ _ _ Hq) as Q.
  assert (K : k * (Rabs q + tiny) <= k * (Rabs y + m + tiny)) by (apply Rmult_le_compat_l; [exact Hk|lra]).
  destruct A as (F & A); [unfold grow in B; lra|]. split; [exact F|].
  replace (val64 v - y) with ((val64 v - q) + (q - y)) by ring. eapply Rle_trans; [apply Rabs_triang|]. unfold grow. lra.
Qed.

Section Sound.
  Context (M : libm).
  Definition trusts (T : tree) (b : ball) : Prop :=
    match b with
    | Some (y, d) => 0 <= d /\ (forall v, evals M T v -> finite64 v /\ Rabs (val64 v - y) <= d) /\
        (forall a b, factors M T a b -> finite64 a /\ finite64 b /\ Rabs (val64 a * val64 b - y) <= d)
    | None => True
    end.
  Lemma trusts_basic T ok y m : (ok = true -> 0 <= m) ->
    (forall v, ok = true -> evals M T v -> exists q, Rabs (q - y) <= m /\ (Rabs (near64 q) < huge -> finite64 v /\ val64 v = near64 q)) ->
    (forall a b, ok = true -> factors M T a b -> finite64 a /\ finite64 b /\ Rabs (val64 a * val64 b - y) <= m) ->
    trusts T (basic ok y m).
  Proof.
    intros Hm HE HF. destruct (basic ok y m) as [[y' r]|] eqn:E; [|exact I].
    destruct (basic_inv _ _ _ _ _ Hm E) as (-> & -> & R0 & MR & H). split; [exact R0|]. split.
    - intros v Ev. destruct (HE v eq_refl Ev) as (q & Hq & Hv). destruct (H q Hq) as (B & N). destruct (Hv B) as (F & ->). auto.
    - intros a b Fa. destruct (HF a b eq_refl Fa) as (A & B & C). repeat split; auto. lra.
  Qed.
  Lemma trusts_called k T ok y m : 0 <= k -> (ok = true -> 0 <= m) ->
    (forall v, ok = true -> evals M T v -> exists q, Rabs (q - y) <= m /\ approximates k v q) ->
    (forall a b, ~ factors M T a b) -> trusts T (called k ok y m).
  Proof.
    intros Hk Hm HE HF. destruct (called k ok y m) as [[y' r]|] eqn:E; [|exact I].
    destruct (called_inv _ _ _ _ _ _ Hk Hm E) as (-> & -> & R0 & MR & H). split; [exact R0|]. split.
    - intros v Ev. destruct (HE v eq_refl Ev) as (q & Hq & Hv). exact (H q v Hq Hv).
    - intros a b Fa. destruct (HF _ _ Fa).
  Qed.

  Lemma self_0 x : Rabs (x - x) = 0.
  Proof. unfold Rminus. rewrite Rplus_opp_r. apply Rabs_R0. Qed.
  Lemma steady_pos F ok L a d : steady F ok L -> ok a d = true -> 0 <= d -> 0 <= L a d * d.
  Proof. intros H OK Hd. specialize (H a d a OK Hd). rewrite !self_0 in H. auto. Qed.
  Lemma steady2_pos F ok mv a d b e : steady2 F ok mv -> ok a d b e = true -> 0 <= d -> 0 <= e -> 0 <= mv a d b e.
  Proof. intros H OK Hd He. specialize (H a b a d b e OK Hd He). rewrite !self_0 in H. auto. Qed.

  Lemma called1_ok k (f : libm -> b64 -> b64) F ok L D T t : 0 <= k -> steady F ok L -> close1 k (f M) F D ->
    (forall a d x, ok a d = true -> Rabs (x - a) <= d -> D x) ->
    trusts T t -> trusts (TCall1 f T) (ball1 (called k) F ok L t).
  Proof.
    intros Hk HS HC HD. destruct t as [[x d]|]; [|intros; exact I]. intros (Hd & HE & HF). cbn. apply trusts_called; [exact Hk| | |].
    - intros OK. apply steady_pos with F ok; assumption.
    - intros v OK Ev. inversion Ev; subst. destruct (HE _ ltac:(eassumption)) as (Fx & B). exists (F (val64 x0)). split.
      + rewrite Rabs_minus_sym. apply HS; [exact OK|exact Hd|]. rewrite Rabs_minus_sym. exact B.
      + apply HC; [exact Fx|]. eapply HD; eassumption.
    - intros a b Fa. inversion Fa.
  Qed.
  Lemma called2_ok k (f : libm -> b64 -> b64 -> b64) F ok mv D T t T' t' : 0 <= k -> steady2 F ok mv -> close2 k (f M) F D ->
    (forall a d b e x y, ok a d b e = true -> Rabs (x - a) <= d -> Rabs (y - b) <= e -> D x y) ->
    trusts T t -> trusts T' t' -> trusts (TCall2 f T T') (ball2 (called k) F ok mv t t').
  Proof.
    intros Hk HS HC HD. destruct t as [[x d]|], t' as [[y e]|]; try (intros; exact I). intros (Hd & HE & _) (He & HE' & _). cbn.
    apply trusts_called; [exact Hk| | |].
    - intros OK. apply steady2_pos with F ok; assumption.
    - intros v OK Ev. inversion Ev; subst. destruct (HE _ ltac:(eassumption)) as (Fx & B). destruct (HE' _ ltac:(eassumption)) as (Fy & B').
      exists (F (val64 x0) (val64 y0)). split.
      + rewrite Rabs_minus_sym. apply HS; try assumption; rewrite Rabs_minus_sym; assumption.
      + apply HC; [exact Fx|exact Fy|]. eapply HD; eassumption.
    - intros a b Fa. inversion Fa.
  Qed.
  Lemma val_neg' v : val64 (b64_neg v) = - val64 v. Proof. apply val_neg. Qed.
  Lemma finite_neg v : finite64 v -> finite64 (b64_neg v).
  Proof. unfold finite64, b64_neg. rewrite is_finite_Bopp. auto. Qed.
  Lemma trusts_neg T t : trusts T t -> trusts (TNeg T) (o_neg (Bops 0) t).
  Proof.
    destruct t as [[x d]|]; [|intros; exact I]. intros (Hd & HE & HF). cbn. split; [exact Hd|]. split.
    - intros v Ev. inversion Ev; subst. destruct (HE _ ltac:(eassumption)) as (F & B). split; [apply finite_neg, F|].
      rewrite val_neg'. replace (- val64 x0 - - x) with (- (val64 x0 - x)) by ring. rewrite Rabs_Ropp. exact B.
    - intros a b Fa. inversion Fa; subst. destruct (HF _ _ ltac:(eassumption)) as (A & B & C). split; [apply finite_neg, A|]. split; [exact B|].
      rewrite val_neg'. replace (- val64 x0 * val64 b - - x) with (- (val64 x0 * val64 b - x)) by ring. rewrite Rabs_Ropp. exact C.
  Qed.
  Lemma trusts_add T t T' t' : trusts T t -> trusts T' t' -> trusts (TAdd T T') (o_add (Bops 0) t t').
  Proof.
    destruct t as [[x d]|], t' as [[y e]|]; try (intros; exact I). intros (Hd & HE & HF) (He & HE' & HF'). cbn [Bops o_add ball1 ball2].
    apply trusts_basic; [intros _; lra| |intros a b _ Fa; inversion Fa].
    intros v _ Ev. inversion Ev; subst.
    - destruct (HE _ ltac:(eassumption)) as (F & B), (HE' _ ltac:(eassumption)) as (F' & B').
      exists (val64 x0 + val64 y0). split; [|apply add_ok; assumption].
      replace (val64 x0 + val64 y0 - (x + y)) with ((val64 x0 - x) + (val64 y0 - y)) by ring. eapply Rle_trans; [apply Rabs_triang|lra].
    - destruct (HF _ _ ltac:(eassumption)) as (F1 & F2 & B), (HE' _ ltac:(eassumption)) as (F' & B').
      exists (val64 x0 * val64 y0 + val64 z). split; [|apply fma_ok; assumption].
      replace (val64 x0 * val64 y0 + val64 z - (x + y)) with ((val64 x0 * val64 y0 - x) + (val64 z - y)) by ring. eapply Rle_trans; [apply Rabs_triang|lra].
    - destruct (HE _ ltac:(eassumption)) as (F & B), (HF' _ _ ltac:(eassumption)) as (F1 & F2 & B').
      exists (val64 x0 * val64 y0 + val64 z). split; [|apply fma_ok; assumption].
      replace (val64 x0 * val64 y0 + val64 z - (x + y)) with ((val64 z - x) + (val64 x0 * val64 y0 - y)) by ring. eapply Rle_trans; [apply Rabs_triang|lra].
  Qed.
  Lemma trusts_sub T t T' t' : trusts T t -> trusts T' t' -> trusts (TSub T T') (o_sub (Bops 0) t t').
  Proof.
    destruct t as [[x d]|], t' as [[y e]|]; try (intros; exact I). intros (Hd & HE & HF) (He & HE' & HF'). cbn [Bops o_sub ball1 ball2].
    apply trusts_basic; [intros _; lra| |intros a b _ Fa; inversion Fa].
    intros v _ Ev. inversion Ev; subst.
    - destruct (HE _ ltac:(eassumption)) as (F & B), (HE' _ ltac:(eassumption)) as (F' & B').
      exists (val64 x0 - val64 y0). split; [|apply sub_ok; assumption].
      replace (val64 x0 - val64 y0 - (x - y)) with ((val64 x0 - x) + - (val64 y0 - y)) by ring.
      eapply Rle_trans; [apply Rabs_triang|]. rewrite Rabs_Ropp. lra.
    - destruct (HF _ _ ltac:(eassumption)) as (F1 & F2 & B), (HE' _ ltac:(eassumption)) as (F' & B').
      exists (val64 x0 * val64 y0 + val64 (b64_neg z)). split; [|apply fma_ok; try assumption; apply finite_neg; assumption]. rewrite val_neg'.
      replace (val64 x0 * val64 y0 + - val64 z - (x - y)) with ((val64 x0 * val64 y0 - x) + - (val64 z - y)) by ring.
      eapply Rle_trans; [apply Rabs_triang|]. rewrite Rabs_Ropp. lra.
    - destruct (HE _ ltac:(eassumption)) as (F & B), (HF' _ _ ltac:(eassumption)) as (F1 & F2 & B').
      exists (val64 (b64_neg x0) * val64 y0 + val64 z). split; [|apply fma_ok; try assumption; apply finite_neg; assumption]. rewrite val_neg'.
      replace (- val64 x0 * val64 y0 + val64 z - (x - y)) with ((val64 z - x) + - (val64 x0 * val64 y0 - y)) by ring.
      eapply Rle_trans; [apply Rabs_triang|]. rewrite Rabs_Ropp. lra.
  Qed.
  Lemma trusts_mul T t T' t' : trusts T t -> trusts T' t' -> trusts (TMul T T') (o_mul (Bops 0) t t').
  Proof.
    destruct t as [[x d]|], t' as [[y e]|]; try (intros; exact I). intros (Hd & HE & HF) (He & HE' & HF'). cbn [Bops o_mul ball1 ball2].
    assert (K : forall v w, Rabs (v - x) <= d -> Rabs (w - y) <= e -> Rabs (v * w - x * y) <= Rabs x * e + Rabs y * d + d * e).
    { intros v w Hv Hw. rewrite Rabs_minus_sym. apply (s_mul v w x d y e eq_refl Hd He); rewrite Rabs_minus_sym; assumption. }
    apply trusts_basic.
    - intros _. apply (steady2_pos _ _ _ x d y e s_mul eq_refl Hd He).
    - intros v _ Ev. inversion Ev; subst. destruct (HE _ ltac:(eassumption)) as (F & B), (HE' _ ltac:(eassumption)) as (F' & B').
      exists (val64 x0 * val64 y0). split; [apply K; assumption|apply mul_ok; assumption].
    - intros a b _ Fa. inversion Fa; subst. destruct (HE _ ltac:(eassumption)) as (F & B), (HE' _ ltac:(eassumption)) as (F' & B'). auto.
  Qed.
  Lemma trusts_div T t T' t' : trusts T t -> trusts T' t' -> trusts (TDiv T T') (o_div (Bops 0) t t').
  Proof.
    destruct t as [[x d]|], t' as [[y e]|]; try (intros; exact I). intros (Hd & HE & HF) (He & HE' & HF'). cbn [Bops o_div ball1 ball2].
    apply trusts_basic; [| |intros a b _ Fa; inversion Fa].
    - intros OK. apply (steady2_pos _ _ _ x d y e s_div OK Hd He).
    - intros v OK Ev. inversion Ev; subst. destruct (HE _ ltac:(eassumption)) as (F & B), (HE' _ ltac:(eassumption)) as (F' & B').
      exists (val64 x0 / val64 y0). split.
      + rewrite Rabs_minus_sym. apply (s_div _ _ x d y e OK Hd He); rewrite Rabs_minus_sym; assumption.
      + apply Rltb_true in OK. apply div_ok; try assumption. intros Z. rewrite Z in B'.
        unfold Rminus in B'. rewrite Rplus_0_l, Rabs_Ropp in B'. lra.
  Qed.
  Lemma trusts_sqrt T t : trusts T t -> trusts (TSqrt T) (o_sqrt (Bops 0) t).
  Proof.
    destruct t as [[x d]|]; [|intros; exact I]. intros (Hd & HE & HF). cbn [Bops o_sqrt ball1 ball2]. apply trusts_basic; [| |intros a b _ Fa; inversion Fa].
    - intros OK. apply (steady_pos sqrt _ _ x d s_sqrt OK Hd).
    - intros v OK Ev. inversion Ev; subst. destruct (HE _ ltac:(eassumption)) as (F & B). exists (sqrt (val64 x0)). split.
      + rewrite Rabs_minus_sym. apply (s_sqrt x d); [exact OK|exact Hd|]. rewrite Rabs_minus_sym. exact B.
      + intros _. apply Rltb_true in OK. apply ball_low in B. apply sqrt_ok; [exact F|lra].
  Qed.
  Lemma trusts_hypot3 k T t T' t' T'' t'' : accurate M k -> trusts T t -> trusts T' t' -> trusts T'' t'' ->
    trusts (TCall3 m_hypot3 T T' T'') (ball3 (called k) (fun a b c => sqrt (a * a + b * b + c * c)) t t' t'').
  Proof.
    intros A. destruct t as [[x d]|], t' as [[y e]|], t'' as [[z q]|]; try (intros; exact I). intros (Hd & HE & _) (He & HE' & _) (Hq & HE'' & _). cbn [ball3].
    apply trusts_called; [apply A|intros _; lra| |intros a b Fa; inversion Fa].
    intros v _ Ev. inversion Ev; subst.
    destruct (HE _ ltac:(eassumption)) as (F & B), (HE' _ ltac:(eassumption)) as (F' & B'), (HE'' _ ltac:(eassumption)) as (F'' & B'').
    exists (sqrt (val64 x0 * val64 x0 + val64 y0 * val64 y0 + val64 z0 * val64 z0)). split; [|apply A; assumption].
    rewrite (norm3 (val64 x0)), (norm3 x). eapply Rle_trans; [apply norm_lip|].
    pose proof (norm_lip (val64 x0) (val64 y0) x y). lra.
  Qed.
  Lemma trusts_Z z : trusts (TZ z) (basic true (IZR z) 0).
  Proof.
    apply trusts_basic; [intros; lra| |intros a b _ Fa; inversion Fa]. intros v _ Ev. inversion Ev; subst.
    exists (IZR z). split; [rewrite self_0; lra|]. intros B. unfold finite64, val64, b64_of_Z.
    pose proof (binary_normalize_correct prec64 emax64 prec64_gt_0 prec64_lt_emax mode_NE z 0 false) as HC.
    replace (F2R (Float radix2 z 0)) with (IZR z) in HC by (unfold F2R; cbn; ring). cbv zeta in HC. cbn [round_mode] in HC.
    rewrite Rlt_bool_true in HC by exact B. destruct HC as (V & F & _). split; [exact F|exact V].
  Qed.
  Lemma trusts_half : trusts THalf (basic true (/ 2) 0).
  Proof.
    apply trusts_basic; [intros; lra| |intros a b _ Fa; inversion Fa]. intros v _ Ev. inversion Ev; subst.
    exists (/ 2). split; [rewrite self_0; lra|]. intros B. unfold finite64, val64. cbn [o_half b64ops].
    pose proof (binary_normalize_correct prec64 emax64 prec64_gt_0 prec64_lt_emax mode_NE 1 (-1) false) as HC.
    replace (F2R (Float radix2 1 (-1))) with (/ 2) in HC by (unfold F2R; cbn; lra). cbv zeta in HC. cbn [round_mode] in HC.
    rewrite Rlt_bool_true in HC by exact B. destruct HC as (V & F & _). split; [exact F|exact V].
  Qed.

  Lemma in_log a d x : Rltb d a = true -> Rabs (x - a) <= d -> 0 < x.
  Proof. intros OK H. apply Rltb_true in OK. apply ball_low in H. lra. Qed.
  Lemma in_one b a d x : Rltb (Rabs a + d) b = true -> Rabs (x - a) <= d -> Rabs x < b.
  Proof. intros OK H. apply Rltb_true in OK. apply ball_abs in H. lra. Qed.
  Lemma trusts_all k : accurate M k -> arith_rel trusts Tops (Bops k).
  Proof.
    intros A. pose proof (acc_k _ _ A) as Hk.
    constructor; intros; cbn [Tops Bops o_Z o_half o_add o_sub o_mul o_div o_neg o_pow o_sqrt o_cbrt o_cos o_sin o_tan
      o_acos o_asin o_atan o_atan2 o_hypot o_hypot3 o_cosh o_sinh o_tanh o_acosh o_asinh o_atanh o_exp o_log o_log2 o_log10].
    - apply trusts_Z.
    - apply trusts_half.
    - apply trusts_add; assumption.
    - apply trusts_sub; assumption.
    - apply trusts_mul; assumption.
    - apply trusts_div; assumption.
    - apply trusts_neg; assumption.
    - eapply called2_ok; try eassumption; [apply s_pow|apply A|]. intros x d y e p q OK Hp _. cbv beta in *. apply andb_true_iff in OK.
      apply (in_log x d); tauto.
    - apply trusts_sqrt; assumption.
    - eapply called1_ok; try eassumption; [apply s_cbrt|apply A|cbv beta; auto].
    - eapply called1_ok; try eassumption; [apply s_cos|apply A|cbv beta; auto].
    - eapply called1_ok; try eassumption; [apply s_sin|apply A|cbv beta; auto].
    - eapply called1_ok; try eassumption; [apply s_tan|apply A|intros x d p; apply in_one].
    - eapply called1_ok; try eassumption; [apply s_acos|apply A|intros x d p; apply in_one].
    - eapply called1_ok; try eassumption; [apply s_asin|apply A|intros x d p; apply in_one].
    - eapply called1_ok; try eassumption; [apply s_atan|apply A|cbv beta; auto].
    - eapply called2_ok; try eassumption; [apply s_atan2|apply A|]. intros x d y e p q OK _ Hp. cbv beta in *.
      apply (in_log y e); assumption.
    - eapply (called2_ok k m_hypot (fun a b => sqrt (a * a + b * b))); try eassumption; [apply s_hypot|apply A|cbv beta; auto].
    - apply trusts_hypot3; assumption.
    - eapply called1_ok; try eassumption; [apply s_cosh|apply A|cbv beta; auto].
    - eapply called1_ok; try eassumption; [apply s_sinh|apply A|cbv beta; auto].
    - eapply called1_ok; try eassumption; [apply s_tanh|apply A|cbv beta; auto].
    - eapply called1_ok; try eassumption; [apply s_acosh|apply A|]. intros x d p OK Hp. cbv beta in *. apply Rltb_true in OK. apply ball_low in Hp. lra.
    - eapply called1_ok; try eassumption; [apply s_asinh|apply A|cbv beta; auto].
    - eapply called1_ok; try eassumption; [apply s_atanh|apply A|intros x d p; apply in_one].
    - eapply called1_ok; try eassumption; [apply s_exp|apply A|cbv beta; auto].
    - eapply called1_ok; try eassumption; [apply s_log|apply A|intros x d p; apply in_log].
    - eapply (called1_ok k m_log2 (fun x => ln x / ln 2)); try eassumption; [apply s_logb; lra|apply A|intros x d p; apply in_log].
    - eapply (called1_ok k m_log10 (fun x => ln x / ln 10)); try eassumption; [apply s_logb; lra|apply A|intros x d p; apply in_log].
  Qed.
End Sound.

(** The centre of a ball is the exact value. *)
Definition centred (x : R) (b : ball) : Prop := match b with Some (y, _) => y = x | None => True end.
Lemma basic_centred ok y m : centred y (basic ok y m).
Proof. unfold basic, known. destruct ok; [|exact I]. destruct (Rltb _ _); cbn; auto. Qed.
Lemma called_centred k ok y m : centred y (called k ok y m).
Proof. unfold called, known. destruct ok; [|exact I]. destruct (Rltb _ _); cbn; auto. Qed.
Lemma centred_all k : arith_rel centred Rops (Bops k).
Proof.
  constructor; intros; cbn [Rops Bops o_Z o_half o_add o_sub o_mul o_div o_neg o_pow o_sqrt o_cbrt o_cos o_sin o_tan
    o_acos o_asin o_atan o_atan2 o_hypot o_hypot3 o_cosh o_sinh o_tanh o_acosh o_asinh o_atanh o_exp o_log o_log2 o_log10];
  repeat match goal with H : centred ?x ?t |- _ => destruct t as [[]|]; cbn [centred] in H; [subst|clear H] end;
  cbn [ball1 ball2 ball3]; try exact I; try apply basic_centred; try apply called_centred; try reflexivity.
Qed.
(** The arithmetic without contraction is one of the possibilities. *)
Lemma unfused_all M : arith_rel (fun v T => evals M T v) (b64ops M) Tops.
Proof. constructor; intros; cbn; constructor; assumption. Qed.

(** Two runs over related scalar types. *)
Lemma runs_related {B S T} (P : S -> T -> Prop) (O : Ops S) (O' : Ops T) (phi : B -> S) (psi : B -> T) c vs e n r f g h r' f' g' h' :
  arith_rel P O O' -> (forall v, P (phi v) (psi v)) -> no_abs e ->
  evaluate O c (map phi vs) (emap phi e) = Ok r -> shows c n r f g h ->
  evaluate O' c (map psi vs) (emap psi e) = Ok r' -> shows c n r' f' g' h' ->
  P f f' /\ (forall i, (i < n)%nat -> P (g i) (g' i)) /\
  (c_ord c = 2%Z -> forall i j, (i < n)%nat -> (j < n)%nat -> P (h i j) (h' i j)).
Proof.
  intros AR LP NA E (_ & SF & SG & SH) E' (_ & TF & TG & TH).
  assert (NR : num_rel P r r').
  { assert (HR : res_rel (num_rel P) (evaluate O c (map phi vs) (emap phi e)) (evaluate O' c (map psi vs) (emap psi e))).
    { unfold evaluate. rewrite !map_length. apply (bind_par (Forall2 (num_rel P))).
      - apply variables_par; [exact AR|]. apply forall2_map, LP.
      - intros xs xs' HX. apply expr_par; [exact AR|right; apply emap_abs, NA|apply emap_rel, LP|exact HX]. }
    rewrite E, E' in HR. exact HR. }
  split; [|split].
  - pose proof (get_f_par P r r' NR) as H. rewrite SF, TF in H. exact H.
  - intros i Hi. pose proof (get_g_par P c r r' (Z.of_nat i) NR) as H. rewrite SG, TG in H by exact Hi. exact H.
  - intros O2 i j Hi Hj. pose proof (get_h_par P c r r' (Z.of_nat i) (Z.of_nat j) NR) as H. rewrite SH, TH in H by assumption. exact H.
Qed.
Lemma run_ok {B S} (O : Ops S) (phi : B -> S) (d : B) c vs e : cfg_ok c -> size_ok c (length vs) -> vars_below (length vs) e ->
  exists r f g h, evaluate O c (map phi vs) (emap phi e) = Ok r /\ shows c (length vs) r f g h.
Proof.
  intros Hc SO HV.
  destruct (evaluate_rep O c (map phi vs) (phi d) (emap phi e) Hc ltac:(rewrite map_length; exact SO) ltac:(rewrite map_length; apply emap_below, HV))
    as (r & E & Rr). rewrite map_length in Rr. exists r. do 3 eexists. split; [exact E|]. apply rep_shows, Rr.
Qed.
Lemma real_run {B} (phi : B -> R) (vs : list B) (e : expr B) c : let n := length vs in let p := fun i => nth i (map phi vs) 0 in
  cfg_ok c -> size_ok c n -> vars_below n e -> dom (emap phi e) p ->
  exists r g h, evaluate Rops c (map phi vs) (emap phi e) = Ok r /\ shows c n r (rev (emap phi e) p) g h /\
    (forall i, (i < n)%nat -> partial (rev (emap phi e)) i p (g i)) /\
    (c_ord c = 2%Z -> forall i j, (i < n)%nat -> (j < n)%nat -> partial2 (rev (emap phi e)) i j p (h i j)).
Proof.
  intros n p Hc SO HV D.
  assert (HW : vars_below n (emap phi e)) by (apply emap_below, HV).
  destruct (evaluate_rep Rops c (map phi vs) 0 (emap phi e) Hc ltac:(rewrite map_length; exact SO) ltac:(rewrite map_length; exact HW))
    as (r & E & Rr). rewrite map_length in Rr. fold n in Rr.
  destruct (jev_partials n (emap phi e) p HW D) as (PF & PG & PH).
  exists r. do 2 eexists. split; [exact E|]. split; [rewrite <- PF; apply rep_shows, Rr|]. split; [exact PG|]. intros _. exact PH.
Qed.

Lemma point_trusts M v : trusts M (TLit v) (point v).
Proof.
  unfold point. destruct (is_finite v) eqn:F; [|exact I]. split; [lra|]. split.
  - intros w Ev. inversion Ev; subst. split; [exact F|]. rewrite self_0. lra.
  - intros a b Fa. inversion Fa.
Qed.
Lemma point_centred v : centred (val64 v) (point v).
Proof. unfold point. destruct (is_finite v); cbn; auto. Qed.
Lemma trusts_sure M x T b : trusts M T b -> centred x b -> sure M x T b.
Proof. destruct b as [[y d]|]; [|intros; exact I]. cbn. intros (_ & H & _) ->. auto. Qed.

Lemma contracted M k c vs e : let n := length vs in
  cfg_ok c -> size_ok c n -> vars_below n e -> no_abs e -> dom (emap val64 e) (at64 vs) -> accurate M k ->
  exists rT fT gT hT rB fB gB hB G H,
    evaluate Tops c (map TLit vs) (emap TLit e) = Ok rT /\ shows c n rT fT gT hT /\
    evaluate (Bops k) c (map point vs) (emap point e) = Ok rB /\ shows c n rB fB gB hB /\
    let F := rev (emap val64 e) in let p := at64 vs in
    sure M (F p) fT fB /\
    (forall i, (i < n)%nat -> partial F i p (G i) /\ sure M (G i) (gT i) (gB i)) /\
    (c_ord c = 2%Z -> forall i j, (i < n)%nat -> (j < n)%nat -> partial2 F i j p (H i j) /\ sure M (H i j) (hT i j) (hB i j)).
Proof.
  intros n Hc SO HV NA D A. set (d := b64_of_Z 0).
  destruct (run_ok Tops TLit d c vs e Hc SO HV) as (rT & fT & gT & hT & ET & ST).
  destruct (run_ok (Bops k) point d c vs e Hc SO HV) as (rB & fB & gB & hB & EB & SB).
  destruct (real_run val64 vs e c Hc SO HV D) as (rR & G & H & ER & SR & PG & PH).
  destruct (runs_related _ _ _ _ _ c vs e n _ _ _ _ _ _ _ _ (trusts_all M k A) (point_trusts M) NA ET ST EB SB) as (T1 & T2 & T3).
  destruct (runs_related _ _ _ _ _ c vs e n _ _ _ _ _ _ _ _ (centred_all k) point_centred NA ER SR EB SB) as (C1 & C2 & C3).
  exists rT, fT, gT, hT, rB, fB, gB, hB, G, H. do 4 (split; [assumption|]). cbv zeta. split; [|split].
  - apply trusts_sure; assumption.
  - intros i Hi. split; [apply PG, Hi|apply trusts_sure; auto].
  - intros O2 i j Hi Hj. split; [apply PH; assumption|apply trusts_sure; auto].
Qed.
Lemma unfused M c vs e : let n := length vs in
  cfg_ok c -> size_ok c n -> vars_below n e -> no_abs e ->
  exists rT fT gT hT r f g h,
    evaluate Tops c (map TLit vs) (emap TLit e) = Ok rT /\ shows c n rT fT gT hT /\
    evaluate (b64ops M) c vs e = Ok r /\ shows c n r f g h /\
    evals M fT f /\ (forall i, (i < n)%nat -> evals M (gT i) (g i)) /\
    (c_ord c = 2%Z -> forall i j, (i < n)%nat -> (j < n)%nat -> evals M (hT i j) (h i j)).
Proof.
  intros n Hc SO HV NA. set (d := b64_of_Z 0).
  destruct (run_ok Tops TLit d c vs e Hc SO HV) as (rT & fT & gT & hT & ET & ST).
  destruct (run_ok (b64ops M) (fun v => v) d c vs e Hc SO HV) as (r & f & g & h & E & S).
  destruct (runs_related _ _ _ _ _ c vs e n _ _ _ _ _ _ _ _ (unfused_all M) (fun v => ev_lit M v) NA E S ET ST) as (T1 & T2 & T3).
  rewrite map_id, emap_id in E. exists rT, fT, gT, hT, r, f, g, h. auto 10.
Qed.

(** Integers: nothing is rounded, so nothing depends on contractions. *)
Definition whole M (T : tree) (z : option Z) : Prop :=
  match z with
  | Some k => (Z.abs k <= 2 ^ 53)%Z /\ (forall v, evals M T v -> finite64 v /\ val64 v = IZR k) /\
      (forall a b, factors M T a b -> finite64 a /\ finite64 b /\ val64 a * val64 b = IZR k)
  | None => True
  end.
Lemma near_Z z : (Z.abs z <= 2 ^ 53)%Z -> near64 (IZR z) = IZR z /\ Rabs (near64 (IZR z)) < huge.
Proof.
  intros H. destruct (near_int z H) as (N & B). split; [exact N|]. exact B.
Qed.
Lemma fma_Z (x y z : b64) k : finite64 x -> finite64 y -> finite64 z -> val64 x * val64 y + val64 z = IZR k -> (Z.abs k <= 2 ^ 53)%Z ->
  finite64 (b64_fma x y z) /\ val64 (b64_fma x y z) = IZR k.
Proof.
  intros Fx Fy Fz E B. destruct (near_Z k B) as (N & L). destruct (fma_ok x y z Fx Fy Fz) as (F & V); [rewrite E; exact L|].
  split; [exact F|]. rewrite V, E. exact N.
Qed.
Lemma whole_Z M z : whole M (TZ z) (small z).
Proof.
  destruct (small z) eqn:E; [|exact I]. apply small_inv in E. destruct E as (-> & B). split; [exact B|]. split.
  - intros v Ev. inversion Ev; subst. apply of_Z_exact, B.
  - intros a b Fa. inversion Fa.
Qed.
Lemma whole_lit M z : whole M (TLit (b64_of_Z z)) (small z).
Proof.
  destruct (small z) eqn:E; [|exact I]. apply small_inv in E. destruct E as (-> & B). split; [exact B|]. split.
  - intros v Ev. inversion Ev; subst. apply of_Z_exact, B.
  - intros a b Fa. inversion Fa.
Qed.
Lemma whole_all M : arith_rel (whole M) Tops int53.
Proof.
  constructor; intros; cbn [Tops int53 o_Z o_half o_add o_sub o_mul o_div o_neg o_pow o_sqrt o_cbrt o_cos o_sin o_tan
    o_acos o_asin o_atan o_atan2 o_hypot o_hypot3 o_cosh o_sinh o_tanh o_acosh o_asinh o_atanh o_exp o_log o_log2 o_log10]; try exact I.
  - apply whole_Z.
  - destruct a' as [p|], b' as [q|]; try exact I. destruct H as (Bp & HE & HF), H0 as (Bq & HE' & HF'). cbn [opt2].
    destruct (small (p + q)) eqn:E; [|exact I]. apply small_inv in E. destruct E as (-> & B). split; [exact B|].
    split; [|intros ? ? Fa; inversion Fa].
    destruct (near_Z _ B) as (N & L). intros v Ev. inversion Ev; subst.
    + destruct (HE _ ltac:(eassumption)) as (F1 & V1), (HE' _ ltac:(eassumption)) as (F2 & V2).
      destruct (add_ok x y F1 F2) as (F & V); rewrite V1, V2, <- plus_IZR in *; [exact L|]. rewrite N in V. auto.
    + destruct (HF _ _ ltac:(eassumption)) as (F1 & F2 & V1), (HE' _ ltac:(eassumption)) as (F3 & V3).
      apply fma_Z; try assumption. rewrite V1, V3, <- plus_IZR. reflexivity.
    + destruct (HE _ ltac:(eassumption)) as (F3 & V3), (HF' _ _ ltac:(eassumption)) as (F1 & F2 & V1).
      apply fma_Z; try assumption. rewrite V1, V3, <- plus_IZR. f_equal. ring.
  - destruct a' as [p|], b' as [q|]; try exact I. destruct H as (Bp & HE & HF), H0 as (Bq & HE' & HF'). cbn [opt2].
    destruct (small (p - q)) eqn:E; [|exact I]. apply small_inv in E. destruct E as (-> & B). split; [exact B|].
    split; [|intros ? ? Fa; inversion Fa].
    destruct (near_Z _ B) as (N & L). intros v Ev. inversion Ev; subst.
    + destruct (HE _ ltac:(eassumption)) as (F1 & V1), (HE' _ ltac:(eassumption)) as (F2 & V2).
      destruct (sub_ok x y F1 F2) as (F & V); rewrite V1, V2, <- minus_IZR in *; [exact L|]. rewrite N in V. auto.
    + destruct (HF _ _ ltac:(eassumption)) as (F1 & F2 & V1), (HE' _ ltac:(eassumption)) as (F3 & V3).
      apply fma_Z; try assumption; [apply finite_neg, F3|]. rewrite val_neg', V1, V3, minus_IZR. ring.
    + destruct (HE _ ltac:(eassumption)) as (F3 & V3), (HF' _ _ ltac:(eassumption)) as (F1 & F2 & V1).
      apply fma_Z; try assumption; [apply finite_neg, F1|]. rewrite val_neg', V3, minus_IZR, <- V1. ring.
  - destruct a' as [p|], b' as [q|]; try exact I. destruct H as (Bp & HE & HF), H0 as (Bq & HE' & HF'). cbn [opt2].
    destruct (small (p * q)) eqn:E; [|exact I]. apply small_inv in E. destruct E as (-> & B). split; [exact B|].
    destruct (near_Z _ B) as (N & L). split.
    + intros v Ev. inversion Ev; subst.
      destruct (HE _ ltac:(eassumption)) as (F1 & V1), (HE' _ ltac:(eassumption)) as (F2 & V2).
      destruct (mul_ok x y F1 F2) as (F & V); rewrite V1, V2, <- mult_IZR in *; [exact L|]. rewrite N in V. auto.
    + intros x y Fa. inversion Fa; subst. destruct (HE _ ltac:(eassumption)) as (F1 & V1), (HE' _ ltac:(eassumption)) as (F2 & V2).
      rewrite V1, V2, <- mult_IZR. auto.
  - destruct a' as [p|]; try exact I. destruct H as (Bp & HE & HF). cbn [opt1]. split; [rewrite Z.abs_opp; exact Bp|]. rewrite opp_IZR. split.
    + intros v Ev. inversion Ev; subst. destruct (HE _ ltac:(eassumption)) as (F1 & V1). rewrite val_neg', V1. split; [apply finite_neg, F1|reflexivity].
    + intros x y Fa. inversion Fa; subst. destruct (HF _ _ ltac:(eassumption)) as (F1 & F2 & V1). rewrite val_neg', <- V1.
      split; [apply finite_neg, F1|]. split; [exact F2|]. ring.
Qed.
Definition same_Z (x : R) (z : option Z) : Prop := match z with Some k => x = IZR k | None => True end.
Lemma small_same z : same_Z (IZR z) (small z).
Proof. unfold small. destruct (_ <=? _)%Z; reflexivity || exact I. Qed.
Lemma same_Z_all : arith_rel same_Z Rops int53.
Proof.
  assert (K : forall x y z, x = IZR z -> y = x -> same_Z y (small z)) by (intros x y z -> ->; apply small_same).
  constructor; intros; cbn [Rops int53 o_Z o_half o_add o_sub o_mul o_div o_neg o_pow o_sqrt o_cbrt o_cos o_sin o_tan
    o_acos o_asin o_atan o_atan2 o_hypot o_hypot3 o_cosh o_sinh o_tanh o_acosh o_asinh o_atanh o_exp o_log o_log2 o_log10]; try exact I;
  try apply small_same; destruct a' as [p|]; try exact I; try (destruct b' as [q|]; try exact I); cbn [same_Z opt1 opt2] in *; subst.
  - eapply K; [reflexivity|]. rewrite plus_IZR. reflexivity.
  - eapply K; [reflexivity|]. rewrite minus_IZR. reflexivity.
  - eapply K; [reflexivity|]. rewrite mult_IZR. reflexivity.
  - rewrite opp_IZR. reflexivity.
Qed.
Lemma arith_no_abs {S} d (e : expr S) : arith d e -> no_abs e.
Proof.
  induction e as [| |u e IH|b e1 IH1 e2 IH2|]; cbn; try tauto. destruct u; tauto.
Qed.
Lemma shows_clean {S} c n (r : dd (option S)) (J : jet (option S)) : rep c n J r -> clean r -> exists f g h,
  shows c n r f g h /\ (exists w, f = Some w) /\ (forall i, (i < n)%nat -> exists w, g i = Some w) /\
  (c_ord c = 2%Z -> forall i j, (i < n)%nat -> (j < n)%nat -> exists w, h i j = Some w).
Proof.
  intros Rr C. exists (jf J), (jg J), (hess J). split; [apply rep_shows, Rr|]. split; [eapply clean_f; eassumption|].
  split; intros; [eapply clean_g|eapply clean_h]; eassumption.
Qed.
Lemma contracted_integers M c vs e r0 : let n := length vs in let lit := fun z => TLit (b64_of_Z z) in
  cfg_ok c -> size_ok c n -> vars_below n e -> arith false e ->
  evaluate int53 c (map small vs) (emap small e) = Ok r0 -> clean r0 ->
  exists rT fT gT hT, evaluate Tops c (map lit vs) (emap lit e) = Ok rT /\ shows c n rT fT gT hT /\
    let F := rev (emap IZR e) in let p := atZ vs in
    (forall v, evals M fT v -> finite64 v /\ val64 v = F p) /\
    (forall i v, (i < n)%nat -> evals M (gT i) v -> finite64 v /\ partial F i p (val64 v)) /\
    (c_ord c = 2%Z -> forall i j v, (i < n)%nat -> (j < n)%nat -> evals M (hT i j) v -> finite64 v /\ partial2 F i j p (val64 v)).
Proof.
  intros n lit Hc SO HV HA E0 C. pose proof (arith_no_abs _ _ HA) as NA.
  destruct (run_ok Tops lit 0%Z c vs e Hc SO HV) as (rT & fT & gT & hT & ET & ST).
  destruct (evaluate_rep int53 c (map small vs) (small 0) (emap small e) Hc ltac:(rewrite map_length; exact SO) ltac:(rewrite map_length; apply emap_below, HV))
    as (r1 & E1 & R1). rewrite E0 in E1. injection E1 as <-. rewrite map_length in R1.
  destruct (shows_clean _ _ _ _ R1 C) as (f0 & g0 & h0 & S0 & CF & CG & CH).
  destruct (real_run IZR vs e c Hc SO HV (int_dom _ _ HA)) as (rR & G & H & ER & SR & PG & PH).
  destruct (runs_related _ _ _ _ _ c vs e n _ _ _ _ _ _ _ _ (whole_all M) (whole_lit M) NA ET ST E0 S0) as (T1 & T2 & T3).
  destruct (runs_related _ _ _ _ _ c vs e n _ _ _ _ _ _ _ _ same_Z_all small_same NA ER SR E0 S0) as (C1 & C2 & C3).
  exists rT, fT, gT, hT. split; [exact ET|]. split; [exact ST|]. cbv zeta. split; [|split].
  - intros v Ev. destruct CF as (w & ->). cbn in C1, T1. destruct T1 as (_ & T1 & _). destruct (T1 v Ev) as (F & V). split; [exact F|].
    rewrite V, <- C1. reflexivity.
  - intros i v Hi Ev. specialize (T2 i Hi). specialize (C2 i Hi). destruct (CG i Hi) as (w & Ew). rewrite Ew in *. cbn in C2, T2.
    destruct T2 as (_ & T2 & _). destruct (T2 v Ev) as (F & V). split; [exact F|]. rewrite V, <- C2. apply PG, Hi.
  - intros O2 i j v Hi Hj Ev. specialize (T3 O2 i j Hi Hj). specialize (C3 O2 i j Hi Hj). destruct (CH O2 i j Hi Hj) as (w & Ew). rewrite Ew in *.
    cbn in C3, T3. destruct T3 as (_ & T3 & _). destruct (T3 v Ev) as (F & V). split; [exact F|]. rewrite V, <- C3. apply PH; assumption.
Qed.

(** Correctly rounded functions satisfy the hypothesis. *)
Definition of_real (r : R) : b64 :=
  let q := near64 r in
  binary_normalize prec64 emax64 prec64_gt_0 prec64_lt_emax mode_NE
    (Ztrunc (scaled_mantissa radix2 (FLT_exp (-1074) 53) q)) (cexp radix2 (FLT_exp (-1074) 53) q) false.
Lemma of_real_ok r : Rabs (near64 r) < huge -> finite64 (of_real r) /\ val64 (of_real r) = near64 r.
Proof.
  intros B. unfold finite64, val64, of_real. set (q := near64 r).
  assert (Q : generic_format radix2 (FLT_exp (-1074) 53) q) by (apply generic_format_round; exact _).
  pose proof (binary_normalize_correct prec64 emax64 prec64_gt_0 prec64_lt_emax mode_NE
    (Ztrunc (scaled_mantissa radix2 (FLT_exp (-1074) 53) q)) (cexp radix2 (FLT_exp (-1074) 53) q) false) as HC.
  cbv zeta in HC. cbn [round_mode] in HC. unfold generic_format in Q. rewrite <- Q in HC.
  change (round radix2 (SpecFloat.fexp prec64 emax64) ZnearestE q) with (near64 q) in HC.
  assert (N : near64 q = q) by (apply near64_exact; apply generic_format_round; exact _).
  rewrite N in HC. rewrite Rlt_bool_true in HC by exact B. destruct HC as (V & F & _). auto.
Qed.
Lemma of_real_close r : approximates u64 (of_real r) r.
Proof.
  intros B. pose proof (near_tiny r) as N. destruct (of_real_ok r) as (F & ->); [|auto].
  apply moved_abs in N. lra.
Qed.
Definition exact_libm : libm := {|
  m_pow := fun x y => of_real (Rpow_std (val64 x) (val64 y)); m_cbrt := fun x => of_real (Rcbrt (val64 x));
  m_cos := fun x => of_real (cos (val64 x)); m_sin := fun x => of_real (sin (val64 x)); m_tan := fun x => of_real (tan (val64 x));
  m_acos := fun x => of_real (acos (val64 x)); m_asin := fun x => of_real (asin (val64 x)); m_atan := fun x => of_real (atan (val64 x));
  m_atan2 := fun y x => of_real (Ratan2 (val64 y) (val64 x));
  m_hypot := fun a b => of_real (sqrt (val64 a * val64 a + val64 b * val64 b));
  m_hypot3 := fun a b c => of_real (sqrt (val64 a * val64 a + val64 b * val64 b + val64 c * val64 c));
  m_cosh := fun x => of_real (cosh (val64 x)); m_sinh := fun x => of_real (sinh (val64 x)); m_tanh := fun x => of_real (tanh (val64 x));
  m_acosh := fun x => of_real (Racosh (val64 x)); m_asinh := fun x => of_real (arcsinh (val64 x)); m_atanh := fun x => of_real (Ratanh (val64 x));
  m_exp := fun x => of_real (exp (val64 x)); m_log := fun x => of_real (ln (val64 x)); m_log2 := fun x => of_real (ln (val64 x) / ln 2);
  m_log10 := fun x => of_real (ln (val64 x) / ln 10)
|}.
Lemma exact_accurate : accurate exact_libm u64.
Proof. constructor; [apply Rlt_le, u64_pos'|..]; intros v; intros; apply of_real_close. Qed.

(** x * x - x * x at x = 2^27 + 1. *)
Lemma contraction_matters M : let v := b64_of_Z (2 ^ 27 + 1) in let sq := EB Bmul (EVar 0) (EVar 0) in
  exists rT fT a b, evaluate Tops dyn1 (map TLit [v]) (emap TLit (EB Bsub sq sq)) = Ok rT /\ get_f rT = Ok fT /\
    evals M fT a /\ evals M fT b /\ val64 a = 0 /\ val64 b = 1.
Proof.
  intros v sq.
  destruct (run_ok Tops TLit v dyn1 [v] (EB Bsub sq sq) cfg_dyn1) as (rT & fT & gT & hT & ET & ST).
  { split; [discriminate|vm_compute; discriminate]. } { cbn. lia. }
  exists rT, (TSub (TMul (TLit v) (TLit v)) (TMul (TLit v) (TLit v))).
  exists (b64_sub (b64_mul v v) (b64_mul v v)), (b64_fma v v (b64_neg (b64_mul v v))).
  split; [exact ET|]. split.
  { destruct (evaluate_rep Tops dyn1 (map TLit [v]) (TLit v) (emap TLit (EB Bsub sq sq)) cfg_dyn1) as (r & E & Rr).
    { split; [discriminate|vm_compute; discriminate]. } { cbn. lia. }
    rewrite ET in E. injection E as <-. apply rep_shows in Rr. destruct Rr as (_ & RF & _). exact RF. }
  split; [repeat constructor|]. split; [repeat constructor|].
  assert (V : val64 v = IZR (2 ^ 27 + 1)) by (apply of_Z_exact; lia).
  assert (Fv : finite64 v) by (apply of_Z_exact; lia).
  set (w := b64_mul v v).
  assert (Fw : finite64 w) by (vm_compute; reflexivity).
  assert (Vw : val64 w = IZR (2 ^ 54 + 2 ^ 28)) by (unfold val64, w, v; cbv - [IZR Rmult Rplus Rinv Ropp]; lra).
  split.
  - destruct (sub_ok w w Fw Fw) as (_ & ->).
    + unfold Rminus. rewrite Rplus_opp_r, near64_0, Rabs_R0. apply bpow_gt_0.
    + unfold Rminus. rewrite Rplus_opp_r. apply near64_0.
  - assert (S : val64 v * val64 v + val64 (b64_neg w) = IZR 1).
    { rewrite val_neg', V, Vw, <- mult_IZR, <- opp_IZR, <- plus_IZR. f_equal. }
    apply fma_Z; [exact Fv|exact Fv|apply finite_neg, Fw|exact S|lia].
Qed.

Lemma basic_le y m : 0 <= m -> Rabs y + grow u64 y m < huge -> exists r, basic true y m = Some (y, r) /\ 0 <= r <= grow u64 y m.
Proof.
  intros Hm B. destruct (grow_ge u64 y m (Rlt_le _ _ u64_pos') Hm) as (G1 & G2). unfold basic, known.
  destruct (Reqb m 0 && Reqb (near64 y) y).
  - rewrite (proj2 (Rltb_true _ _)) by lra. exists 0. split; [reflexivity|lra].
  - rewrite (proj2 (Rltb_true _ _)) by lra. eexists. split; [reflexivity|lra].
Qed.
(** x / 3 at x = 1. *)
Lemma third_ball k : exists r f d, evaluate (Bops k) dyn1 (map point [b64_of_Z 1]) (emap point (EU (Udivs (b64_of_Z 3)) (EVar 0))) = Ok r /\
  get_f r = Ok f /\ f = Some (1 / 3, d) /\ d <= u64.
Proof.
  destruct (evaluate_rep (Bops k) dyn1 (map point [b64_of_Z 1]) None (emap point (EU (Udivs (b64_of_Z 3)) (EVar 0))) cfg_dyn1) as (r & E & Rr).
  { split; [discriminate|vm_compute; discriminate]. } { cbn. lia. }
  apply rep_shows in Rr. destruct Rr as (_ & RF & _).
  cbn [emap umap jev map nth jvar jap_u jap_b k_b k_mul jb6 jb jmap jf o_mul o_div o_Z Bops] in RF.
  assert (HP : forall z, (Z.abs z <= 2 ^ 53)%Z -> point (b64_of_Z z) = Some (IZR z, 0)).
  { intros z Hz. unfold point. destruct (of_Z_exact z Hz) as (F & V). rewrite F, V. reflexivity. }
  rewrite !HP in RF by lia.
  assert (U : u64 <= / 1000). { unfold u64. apply Rle_trans with (bpow radix2 (-10)); [apply bpow_le; lia|]. cbn. lra. }
  assert (U0 : 0 < u64) by apply u64_pos'.
  assert (T : tiny <= / 1000). { unfold tiny. apply Rle_trans with (bpow radix2 (-10)); [apply bpow_le; lia|]. cbn. lra. }
  assert (T0 : 0 < tiny) by apply tiny_pos.
  assert (HU : 2 <= huge). { unfold huge. apply Rle_trans with (bpow radix2 1); [cbn; lra|apply bpow_le; lia]. }
  assert (E1 : basic true 1 0 = Some (1, 0)).
  { unfold basic, known. destruct (near_Z 1 ltac:(lia)) as (N & _).
    unfold Reqb. destruct (Req_EM_T 0 0); [|lra]. destruct (Req_EM_T (near64 1) 1); [|contradiction]. cbn [andb].
    rewrite (proj2 (Rltb_true _ _)); [reflexivity|]. rewrite Rabs_R1. lra. }
  rewrite E1 in RF.
  assert (A3 : Rabs (1 / 3) = 1 / 3) by (apply Rabs_pos_eq; lra).
  destruct (basic_le (1 / 3) 0) as (r1 & E2 & B1); [lra|unfold grow; rewrite A3; nra|].
  assert (B1' : r1 <= u64 * (1 / 3 + / 1000)). { eapply Rle_trans; [apply B1|]. unfold grow. rewrite A3. nra. }
  assert (E3 : ball2 basic Rdiv (fun _ _ y e : R => Rltb e (Rabs y)) quot_moved (Some (1, 0)) (Some (3, 0)) = Some (1 / 3, r1)).
  { unfold ball2. rewrite (Rabs_pos_eq 3) by lra. rewrite (proj2 (Rltb_true 0 3)) by lra.
    replace (quot_moved 1 0 3 0) with 0; [exact E2|]. unfold quot_moved. unfold Rdiv. ring. }
  rewrite E3 in RF. unfold ball2, anywhere2 in RF. rewrite Rmult_1_l, Rabs_R1 in RF.
  replace (1 * r1 + Rabs (1 / 3) * 0 + 0 * r1) with r1 in RF by ring.
  destruct (basic_le (1 / 3) r1) as (r2 & E4 & B2); [lra|unfold grow; rewrite A3; nra|]. rewrite E4 in RF.
  exists r. do 2 eexists. split; [exact E|]. split; [exact RF|]. split; [reflexivity|].
  eapply Rle_trans; [apply B2|]. unfold grow. rewrite A3. nra.
Qed.
