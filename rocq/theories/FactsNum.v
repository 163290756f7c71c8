(** C54, C55: rounding errors of polynomial expressions. *)
From Coq Require Import ZArith List Bool Lia Reals Lra Psatz.
From Coquelicot Require Import Coquelicot.
From Flocq Require Import Core BinarySingleNaN Relative Plus_error.
From Verif Require Import Outcome Scalar Float64 Model Spec Core Kernels OpsRep AccRep RealOps ExprSpec Expr
  FactsLayout FactsExpr CreateRep Samples Ops64 B64 Facts64 NumSpec.
Import ListNotations.
Open Scope R_scope.

(** ** Four runs of one expression, related component by component *)
Section Four.
  Context {B S1 S2 S3 S4 : Type} (O1 : Ops S1) (O2 : Ops S2) (O3 : Ops S3) (O4 : Ops S4).
  Context (p1 : B -> S1) (p2 : B -> S2) (p3 : B -> S3) (p4 : B -> S4) (dv : bool).
  Context (Q : nat -> S1 -> S2 -> S3 -> S4 -> Prop).
  Hypothesis Qmono : forall k l a b c d, (k <= l)%nat -> Q k a b c d -> Q l a b c d.
  Hypothesis Q0 : Q 0 (o_Z O1 0) (o_Z O2 0) (o_Z O3 0) (o_Z O4 0).
  Hypothesis Qp : forall s, Q 0 (p1 s) (p2 s) (p3 s) (p4 s).
  Hypothesis Qneg : forall k a b c d, Q k a b c d -> Q k (o_neg O1 a) (o_neg O2 b) (o_neg O3 c) (o_neg O4 d).
  Hypothesis Qadd : forall k a b c d a' b' c' d', Q k a b c d -> Q k a' b' c' d' ->
    Q (S k) (o_add O1 a a') (o_add O2 b b') (o_add O3 c c') (o_add O4 d d').
  Hypothesis Qsub : forall k a b c d a' b' c' d', Q k a b c d -> Q k a' b' c' d' ->
    Q (S k) (o_sub O1 a a') (o_sub O2 b b') (o_sub O3 c c') (o_sub O4 d d').
  Hypothesis Qmul : forall k l a b c d a' b' c' d', Q k a b c d -> Q l a' b' c' d' ->
    Q (S (k + l)) (o_mul O1 a a') (o_mul O2 b b') (o_mul O3 c c') (o_mul O4 d d').
  Hypothesis Qinv : dv = true -> forall s, Q 1 (o_div O1 (o_Z O1 1) (p1 s)) (o_div O2 (o_Z O2 1) (p2 s))
    (o_div O3 (o_Z O3 1) (p3 s)) (o_div O4 (o_Z O4 1) (p4 s)).

  Definition QJ (k : nat) (J1 : jet S1) (J2 : jet S2) (J3 : jet S3) (J4 : jet S4) : Prop :=
    Q k (jf J1) (jf J2) (jf J3) (jf J4) /\ (forall i, Q k (jg J1 i) (jg J2 i) (jg J3 i) (jg J4 i)) /\
    (forall i j, Q k (jh J1 i j) (jh J2 i j) (jh J3 i j) (jh J4 i j)).

  Lemma four v1 v2 v3 v4 e : arith dv e -> (forall i, QJ 0 (v1 i) (v2 i) (v3 i) (v4 i)) ->
    QJ (roundings e) (jev O1 v1 (emap p1 e)) (jev O2 v2 (emap p2 e)) (jev O3 v3 (emap p3 e)) (jev O4 v4 (emap p4 e)).
  Proof.
    intros HA HV. induction e as [i|s|u e IH|b e1 IH1 e2 IH2|]; cbn [arith] in HA; cbn [emap jev roundings].
    - apply HV.
    - split; [apply Qp|]. split; intros; apply Q0.
    - destruct HA as (HA & HU). destruct (IH HA) as (F & G & H). destruct u; try contradiction HU; cbn [umap jap_u Nat.add].
      + split; [apply Qneg, F|]. split; intros; apply Qneg; auto.
      + split; [|split; intros; cbn; (eapply Qmono; [|eauto]; lia)].
        cbn. apply Qadd; [exact F|]. eapply Qmono; [|apply Qp]. lia.
      + split; [|split; intros; cbn; (eapply Qmono; [|eauto]; lia)].
        cbn. apply Qadd; [exact F|]. eapply Qmono; [|apply Qp]. lia.
      + split; [|split; intros; cbn; (eapply Qmono; [|eauto]; lia)].
        cbn. apply Qadd; [exact F|]. apply Qneg. eapply Qmono; [|apply Qp]. lia.
      + split; [|split; intros; cbn; apply Qneg; (eapply Qmono; [|eauto]; lia)].
        cbn. apply Qadd; [apply Qneg, F|]. eapply Qmono; [|apply Qp]. lia.
      + rewrite <- (Nat.add_0_r (roundings e)).
        split; [|split; intros]; cbn; apply Qmul; auto.
      + rewrite <- (Nat.add_0_r (roundings e)).
        split; [|split; intros]; cbn; apply Qmul; auto.
      + replace (S (S (roundings e))) with (S (roundings e + 1)) by lia.
        split; [|split; intros]; cbn; apply Qmul; auto.
    - destruct HA as (HA1 & HA2 & HB). destruct (IH1 HA1) as (F1 & G1 & H1). destruct (IH2 HA2) as (F2 & G2 & H2).
      set (k1 := roundings e1) in *. set (k2 := roundings e2) in *.
      destruct b; try contradiction HB; unfold jap_b, k_b, k_add, k_sub, k_mul, jb6, jb; cbn -[Nat.max Nat.add].
      + split; [|split; intros]; cbn -[Nat.max Nat.add]; apply Qadd; (eapply Qmono; [|eauto]; lia).
      + split; [|split; intros]; cbn -[Nat.max Nat.add]; [apply Qsub|apply Qadd; try apply Qneg..]; (eapply Qmono; [|eauto]; lia).
      + split; [|split; intros]; cbn -[Nat.max Nat.add].
        * eapply Qmono; [|apply Qmul; eassumption]. lia.
        * apply (Qmono (S (S (k1 + k2)))); [lia|]. apply Qadd.
          -- rewrite (Nat.add_comm k1 k2). apply Qmul; auto.
          -- apply Qmul; auto.
        * apply (Qmono (S (S (S (k1 + k2))))); [lia|]. apply Qadd; apply Qadd.
          -- rewrite (Nat.add_comm k1 k2). apply Qmul; auto.
          -- apply Qmul; auto.
          -- rewrite (Nat.add_comm k1 k2). apply Qmul; auto.
          -- apply Qmul; auto.
    - contradiction HA.
  Qed.
End Four.

(** ** The error relation *)
Definition err (k : nat) : R := (1 + u64) ^ k - 1.
Lemma u64_pos : 0 < u64.
Proof. apply bpow_gt_0. Qed.
Lemma pow_ge_1 k : 1 <= (1 + u64) ^ k.
Proof. apply pow_R1_Rle. pose proof u64_pos. lra. Qed.
Lemma err_nonneg k : 0 <= err k.
Proof. unfold err. pose proof (pow_ge_1 k). lra. Qed.
Lemma err_mono k l : (k <= l)%nat -> err k <= err l.
Proof. intros H. unfold err. apply Rplus_le_compat_r, Rle_pow; [pose proof u64_pos; lra|exact H]. Qed.

Definition Qerr (k : nat) (o : option b64) (v : b64) (x m : R) : Prop :=
  forall w, o = Some w -> w = v /\ finite64 v /\ Rabs x <= m /\ Rabs (val64 v - x) <= err k * m.

Lemma seen_inv v w : seen v = Some w -> w = v /\ finite64 v.
Proof. unfold seen. destruct (is_finite v) eqn:E; intros H; inversion H; subst. split; [reflexivity|exact E]. Qed.

Lemma finite_add (x y : b64) : finite64 (b64_add x y) -> finite64 x /\ finite64 y.
Proof. unfold finite64. destruct x, y; cbn; try discriminate; auto. destruct (Bool.eqb s s0); discriminate. Qed.
Lemma finite_add_val (x y : b64) : finite64 (b64_add x y) -> val64 (b64_add x y) = near64 (val64 x + val64 y).
Proof.
  intros F. destruct (finite_add _ _ F) as (Fx & Fy). unfold finite64, val64, b64_add in *.
  pose proof (Bplus_correct prec64 emax64 prec64_gt_0 prec64_lt_emax mode_NE x y Fx Fy) as HC. cbn [round_mode] in HC.
  destruct (Rlt_bool _ _) eqn:B in HC; [apply HC|].
  exfalso. destruct HC as (HC & _). apply of_SF_inf in HC. rewrite HC in F. discriminate F.
Qed.
Lemma finite_mul (x y : b64) : finite64 (b64_mul x y) -> finite64 x /\ finite64 y.
Proof. unfold finite64. destruct x, y; cbn; try discriminate; auto. Qed.
Lemma finite_mul_val (x y : b64) : finite64 (b64_mul x y) -> val64 (b64_mul x y) = near64 (val64 x * val64 y).
Proof.
  intros F. unfold finite64, val64, b64_mul in *.
  pose proof (Bmult_correct prec64 emax64 prec64_gt_0 prec64_lt_emax mode_NE x y) as HC. cbn [round_mode] in HC.
  destruct (Rlt_bool _ _) eqn:B in HC; [apply HC|].
  exfalso. apply of_SF_inf in HC. rewrite HC in F. discriminate F.
Qed.
Lemma finite_div_val (x y : b64) : val64 y <> 0 -> finite64 (b64_div x y) -> val64 (b64_div x y) = near64 (val64 x / val64 y).
Proof.
  intros N F. unfold finite64, val64, b64_div in *.
  pose proof (Bdiv_correct prec64 emax64 prec64_gt_0 prec64_lt_emax mode_NE x y N) as HC. cbn [round_mode] in HC.
  destruct (Rlt_bool _ _) eqn:B in HC; [apply HC|].
  exfalso. apply of_SF_inf in HC. rewrite HC in F. discriminate F.
Qed.
Lemma val_neg (x : b64) : val64 (b64_neg x) = - val64 x.
Proof. apply B2R_Bopp. Qed.
Lemma finite_neg (x : b64) : finite64 (b64_neg x) <-> finite64 x.
Proof. unfold finite64, b64_neg. rewrite is_finite_Bopp. tauto. Qed.

Lemma near_sum (x y : b64) : Rabs (near64 (val64 x + val64 y) - (val64 x + val64 y)) <= u64 * Rabs (val64 x + val64 y).
Proof.
  destruct (FLT_plus_error_N_ex radix2 (-1074) 53 (fun z => negb (Z.even z)) (val64 x) (val64 y) (fmt_val x) (fmt_val y))
    as (d & Bd & E).
  change (near64 (val64 x + val64 y) = (val64 x + val64 y) * (1 + d)) in E. rewrite E.
  replace ((val64 x + val64 y) * (1 + d) - (val64 x + val64 y)) with (d * (val64 x + val64 y)) by ring.
  rewrite Rabs_mult. apply Rmult_le_compat_r; [apply Rabs_pos|]. eapply Rle_trans; [exact Bd|].
  change (u_ro radix2 53) with (/ 2 * bpow radix2 (-53 + 1)).
  assert (E2 : / 2 * bpow radix2 (-53 + 1) = u64) by (unfold u64; rewrite bpow_plus; cbn; lra).
  rewrite E2. pose proof u64_pos. apply Rmult_le_reg_r with (1 + u64); [lra|].
  unfold Rdiv. rewrite Rmult_assoc, Rinv_l by lra. nra.
Qed.

Lemma sum_bound k m m' a a' x x' r :
  Rabs x <= m -> Rabs x' <= m' -> Rabs (a - x) <= err k * m -> Rabs (a' - x') <= err k * m' ->
  Rabs (r - (a + a')) <= u64 * Rabs (a + a') -> Rabs (r - (x + x')) <= err (S k) * (m + m').
Proof.
  intros X X' A A' HR. pose proof (err_nonneg k). pose proof u64_pos.
  assert (E : err (S k) = u64 * (1 + err k) + err k) by (unfold err; cbn [pow]; ring).
  assert (HS : Rabs (a + a') <= (1 + err k) * (m + m')).
  { replace (a + a') with ((a - x) + (a' - x') + (x + x')) by ring.
    eapply Rle_trans; [apply Rabs_triang|].
    pose proof (Rabs_triang (a - x) (a' - x')). pose proof (Rabs_triang x x'). lra. }
  replace (r - (x + x')) with ((r - (a + a')) + ((a - x) + (a' - x'))) by ring.
  eapply Rle_trans; [apply Rabs_triang|]. pose proof (Rabs_triang (a - x) (a' - x')).
  assert (u64 * Rabs (a + a') <= u64 * ((1 + err k) * (m + m'))) by (apply Rmult_le_compat_l; lra).
  rewrite E. lra.
Qed.
Lemma prod_bound k l m m' a a' x x' r :
  Rabs x <= m -> Rabs x' <= m' -> Rabs (a - x) <= err k * m -> Rabs (a' - x') <= err l * m' ->
  Rabs (r - a * a') <= u64 * Rabs (a * a') -> Rabs (r - x * x') <= err (S (k + l)) * (m * m').
Proof.
  intros X X' A A' HR. pose proof (err_nonneg k) as P. pose proof (err_nonneg l) as P'. pose proof u64_pos as U.
  pose proof (Rabs_pos x) as N. pose proof (Rabs_pos x') as N'.
  pose proof (Rabs_pos (a - x)) as NA. pose proof (Rabs_pos (a' - x')) as NA'.
  assert (E : err (S (k + l)) = (1 + u64) * ((1 + err k) * (1 + err l)) - 1).
  { unfold err. cbn [pow]. rewrite pow_add. ring. }
  assert (D : Rabs (a * a' - x * x') <= ((1 + err k) * (1 + err l) - 1) * (m * m')).
  { replace (a * a' - x * x') with ((a - x) * (a' - x') + x * (a' - x') + (a - x) * x') by ring.
    eapply Rle_trans; [apply Rabs_triang|]. pose proof (Rabs_triang ((a - x) * (a' - x')) (x * (a' - x'))) as T.
    rewrite !Rabs_mult in *.
    assert (Rabs (a - x) * Rabs (a' - x') <= (err k * m) * (err l * m')) by (apply Rmult_le_compat; assumption).
    assert (Rabs x * Rabs (a' - x') <= m * (err l * m')) by (apply Rmult_le_compat; assumption).
    assert (Rabs (a - x) * Rabs x' <= (err k * m) * m') by (apply Rmult_le_compat; assumption).
    lra. }
  assert (HS : Rabs (a * a') <= (1 + err k) * (1 + err l) * (m * m')).
  { replace (a * a') with ((a * a' - x * x') + x * x') by ring. eapply Rle_trans; [apply Rabs_triang|].
    rewrite (Rabs_mult x x'). assert (Rabs x * Rabs x' <= m * m') by (apply Rmult_le_compat; assumption). lra. }
  replace (r - x * x') with ((r - a * a') + (a * a' - x * x')) by ring.
  eapply Rle_trans; [apply Rabs_triang|].
  assert (u64 * Rabs (a * a') <= u64 * ((1 + err k) * (1 + err l) * (m * m'))) by (apply Rmult_le_compat_l; lra).
  rewrite E. lra.
Qed.

Lemma min_normal_ok : finite64 min_normal /\ val64 min_normal = bpow radix2 (-1022).
Proof.
  unfold finite64, val64, min_normal.
  pose proof (binary_normalize_correct prec64 emax64 prec64_gt_0 prec64_lt_emax mode_NE 1 (-1022) false) as HC.
  replace (F2R (Float radix2 1 (-1022))) with (bpow radix2 (-1022)) in HC by (unfold F2R; cbn [Fnum Fexp]; ring).
  cbn [round_mode] in HC. rewrite (rnd_generic _ (fmt_bpow (-1022) ltac:(lia))) in HC.
  rewrite Rlt_bool_true in HC.
  - destruct HC as (HB & HF & _). split; assumption.
  - rewrite Rabs_pos_eq by apply bpow_ge_0. apply bpow_lt. reflexivity.
Qed.
Lemma sized_inv v w : sized v = Some w -> w = v /\ finite64 v /\ bpow radix2 (-1022) < Rabs (val64 v).
Proof.
  unfold sized. destruct (is_finite v) eqn:F; [|discriminate]. cbn [andb].
  destruct (Bltb min_normal (Babs v)) eqn:L; [|discriminate]. intros [= <-]. split; [reflexivity|].
  split; [exact F|]. destruct min_normal_ok as (FM & VM).
  rewrite Bltb_correct in L by (try exact FM; rewrite is_finite_Babs; exact F).
  destruct (Rlt_bool_spec (B2R min_normal) (B2R (Babs v))) as [L'|]; [|discriminate L].
  rewrite B2R_Babs in L'. fold (val64 v) in L'. rewrite <- VM. exact L'.
Qed.
Lemma near_big r : bpow radix2 (-1022) < Rabs (near64 r) -> Rabs (near64 r - r) <= u64 * Rabs r.
Proof.
  intros H. destruct (Rle_lt_dec (bpow radix2 (-1022)) (Rabs r)) as [L|L].
  - destruct (near64_rel r L) as (d & Bd & E). rewrite E. replace (r * (1 + d) - r) with (d * r) by ring.
    rewrite Rabs_mult. apply Rmult_le_compat_r; [apply Rabs_pos|exact Bd].
  - exfalso. pose proof (near64_le_bpow r (-1022) ltac:(lia) ltac:(lra)). lra.
Qed.
Lemma is0_val (v : b64) : is0 v = true -> val64 v = 0.
Proof. destruct v; try discriminate. reflexivity. Qed.
Lemma is0_false (v : b64) : finite64 v -> is0 v = false -> val64 v <> 0.
Proof.
  unfold finite64, val64. destruct v; try discriminate. intros _ _. cbn. destruct s; cbn;
    intros H; apply eq_0_F2R in H; discriminate.
Qed.

Lemma chk_mul_inv a b w : chk_mul a b = Some w -> w = b64_mul a b /\ finite64 (b64_mul a b) /\
  Rabs (val64 (b64_mul a b) - val64 a * val64 b) <= u64 * Rabs (val64 a * val64 b).
Proof.
  unfold chk_mul. destruct (is0 a || is0 b) eqn:Z0.
  - intros H. apply seen_inv in H. destruct H as (-> & F). split; [reflexivity|]. split; [exact F|].
    rewrite finite_mul_val by exact F.
    assert (E : val64 a * val64 b = 0).
    { apply orb_true_iff in Z0. destruct Z0 as [Z0|Z0]; rewrite (is0_val _ Z0); ring. }
    rewrite E, near64_0, Rminus_0_r, Rabs_R0. lra.
  - intros H. apply sized_inv in H. destruct H as (-> & F & L). split; [reflexivity|]. split; [exact F|].
    rewrite finite_mul_val in * by exact F. apply near_big, L.
Qed.
Lemma chk_div_inv a b w : finite64 b -> chk_div a b = Some w -> val64 b <> 0 /\ w = b64_div a b /\ finite64 (b64_div a b) /\
  Rabs (val64 (b64_div a b) - val64 a / val64 b) <= u64 * Rabs (val64 a / val64 b).
Proof.
  intros Fb. unfold chk_div. destruct (is0 b) eqn:Zb; [discriminate|]. pose proof (is0_false b Fb Zb) as N.
  destruct (is0 a) eqn:Z0.
  - intros H. apply seen_inv in H. destruct H as (-> & F). split; [exact N|]. split; [reflexivity|]. split; [exact F|].
    rewrite finite_div_val by assumption.
    assert (E : val64 a / val64 b = 0) by (rewrite (is0_val _ Z0); unfold Rdiv; ring).
    rewrite E, near64_0, Rminus_0_r, Rabs_R0. lra.
  - intros H. apply sized_inv in H. destruct H as (-> & F & L). split; [exact N|]. split; [reflexivity|]. split; [exact F|].
    rewrite finite_div_val in * by assumption. apply near_big, L.
Qed.

Lemma one_val : finite64 (b64_of_Z 1) /\ val64 (b64_of_Z 1) = 1.
Proof. apply (of_Z_exact 1). lia. Qed.
Lemma zero_val : finite64 (b64_of_Z 0) /\ val64 (b64_of_Z 0) = 0.
Proof. apply (of_Z_exact 0). lia. Qed.

Lemma Qerr_four M v1 v2 v3 v4 e : arith true e ->
  (forall i, QJ Qerr 0 (v1 i) (v2 i) (v3 i) (v4 i)) ->
  QJ Qerr (roundings e) (jev chk64 v1 (emap seen e)) (jev (b64ops M) v2 (emap (fun v => v) e))
    (jev Rops v3 (emap val64 e)) (jev Mops v4 (emap abs64 e)).
Proof.
  apply four with (dv := true).
  - intros k l a b c d L H w E. destruct (H w E) as (E1 & F & X & A). repeat split; try assumption.
    eapply Rle_trans; [exact A|]. apply Rmult_le_compat_r; [|apply err_mono, L]. pose proof (Rabs_pos c). lra.
  - intros w E. apply seen_inv in E. destruct E as (-> & F). split; [reflexivity|]. split; [exact F|].
    cbn [o_Z b64ops Rops Mops]. rewrite (proj2 zero_val). rewrite Rminus_0_r, Rabs_R0. unfold err. cbn. lra.
  - intros s w E. apply seen_inv in E. destruct E as (-> & F). split; [reflexivity|]. split; [exact F|]. split; [apply Rle_refl|].
    unfold Rminus. rewrite Rplus_opp_r, Rabs_R0. unfold err. cbn. lra.
  - intros k a b c d H w E. cbn in E. destruct a as [a|]; [|discriminate]. cbn in E. inversion E; subst.
    destruct (H a eq_refl) as (-> & F & X & A). cbn [o_neg b64ops Rops Mops]. split; [reflexivity|].
    split; [apply finite_neg, F|]. split; [rewrite Rabs_Ropp; exact X|].
    rewrite val_neg. replace (- val64 b - - c) with (- (val64 b - c)) by ring. rewrite Rabs_Ropp. exact A.
  - intros k a b c d a' b' c' d' H H' w E. cbn in E. destruct a as [a|], a' as [a'|]; try discriminate. cbn in E.
    apply seen_inv in E. destruct E as (-> & F).
    destruct (H a eq_refl) as (-> & Fa & X & A). destruct (H' a' eq_refl) as (-> & Fa' & X' & A').
    cbn [o_add b64ops Rops Mops]. split; [reflexivity|]. split; [exact F|].
    split; [eapply Rle_trans; [apply Rabs_triang|]; lra|].
    apply (sum_bound k d d' (val64 b) (val64 b')); try assumption. rewrite finite_add_val by exact F. apply near_sum.
  - intros k a b c d a' b' c' d' H H' w E. cbn in E. destruct a as [a|], a' as [a'|]; try discriminate. cbn in E.
    apply seen_inv in E. destruct E as (-> & F).
    destruct (H a eq_refl) as (-> & Fa & X & A). destruct (H' a' eq_refl) as (-> & Fa' & X' & A').
    cbn [o_sub b64ops Rops Mops]. split; [reflexivity|]. split; [exact F|].
    rewrite b64_sub_neg in *. unfold Rminus.
    split; [eapply Rle_trans; [apply Rabs_triang|]; rewrite Rabs_Ropp; lra|].
    apply (sum_bound k d d' (val64 b) (val64 (b64_neg b'))); try assumption.
    + rewrite Rabs_Ropp; exact X'.
    + rewrite val_neg. replace (- val64 b' - - c') with (- (val64 b' - c')) by ring. rewrite Rabs_Ropp. exact A'.
    + rewrite finite_add_val by exact F. apply near_sum.
  - intros k l a b c d a' b' c' d' H H' w E. cbn in E. destruct a as [a|], a' as [a'|]; try discriminate. cbn in E.
    destruct (H a eq_refl) as (-> & Fa & X & A). destruct (H' a' eq_refl) as (-> & Fa' & X' & A').
    apply chk_mul_inv in E. destruct E as (-> & F & HR).
    cbn [o_mul b64ops Rops Mops]. split; [reflexivity|]. split; [exact F|].
    split; [rewrite Rabs_mult; apply Rmult_le_compat; auto using Rabs_pos|].
    apply (prod_bound k l d d' (val64 b) (val64 b')); assumption.
  - intros _ s w E. cbn [o_div o_Z chk64] in E. unfold seen in E at 1. rewrite (proj1 one_val) in E. cbn [opt2] in E.
    unfold seen in E. destruct (is_finite s) eqn:Fs; [|discriminate]. apply chk_div_inv in E; [|exact Fs].
    destruct E as (N & -> & F & HR). cbn [o_div o_Z b64ops Rops Mops].
    rewrite (proj2 one_val) in HR. split; [reflexivity|]. split; [exact F|].
    unfold abs64. unfold Rdiv in *. rewrite !Rmult_1_l in *.
    split; [rewrite Rabs_inv; apply Rle_refl|]. rewrite Rabs_inv in HR.
    eapply Rle_trans; [exact HR|]. unfold err. rewrite pow_1. lra.
Qed.

(** ** Integers up to 2^53 *)
Definition Qint (k : nat) (o : option Z) (v : b64) (x : R) (_ : R) : Prop :=
  forall z, o = Some z -> (Z.abs z <= 2 ^ 53)%Z /\ finite64 v /\ val64 v = IZR z /\ x = IZR z.
Lemma small_inv a z : small a = Some z -> z = a /\ (Z.abs z <= 2 ^ 53)%Z.
Proof. unfold small. destruct (Z.leb_spec (Z.abs a) (2 ^ 53)); intros [= <-]. split; [reflexivity|assumption]. Qed.
Lemma near_int z : (Z.abs z <= 2 ^ 53)%Z -> near64 (IZR z) = IZR z /\ Rabs (near64 (IZR z)) < bpow radix2 1024.
Proof.
  intros H. rewrite (near64_exact _ (fmt_small z H)). split; [reflexivity|].
  rewrite <- abs_IZR. eapply Rle_lt_trans with (IZR (2 ^ 53)); [apply IZR_le, H|].
  rewrite <- bpow_Z by lia. apply bpow_lt. reflexivity.
Qed.

Lemma Qint_four M v1 v2 v3 v4 e : arith false e ->
  (forall i, QJ Qint 0 (v1 i) (v2 i) (v3 i) (v4 i)) ->
  QJ Qint (roundings e) (jev int53 v1 (emap small e)) (jev (b64ops M) v2 (emap b64_of_Z e))
    (jev Rops v3 (emap IZR e)) (jev Rops v4 (emap IZR e)).
Proof.
  apply four with (dv := false).
  - intros k l a b c d _ H. exact H.
  - intros z E. apply small_inv in E. destruct E as (-> & B). split; [exact B|]. destruct zero_val as (F & V).
    repeat split; assumption.
  - intros s z E. apply small_inv in E. destruct E as (-> & B). split; [exact B|]. destruct (of_Z_exact s B) as (F & V).
    repeat split; assumption.
  - intros k a b c d H z E. cbn in E. destruct a as [a|]; [|discriminate]. cbn in E. injection E as <-.
    destruct (H a eq_refl) as (B & F & V & ->). cbn [o_neg b64ops Rops]. split; [lia|]. split; [apply finite_neg, F|].
    rewrite val_neg, V, opp_IZR. split; reflexivity.
  - intros k a b c d a' b' c' d' H H' z E. cbn in E. destruct a as [a|], a' as [a'|]; try discriminate. cbn in E.
    apply small_inv in E. destruct E as (-> & B).
    destruct (H a eq_refl) as (Ba & F & V & ->). destruct (H' a' eq_refl) as (Ba' & F' & V' & ->).
    cbn [o_add b64ops Rops]. destruct (near_int _ B) as (N & L). split; [exact B|].
    rewrite plus_IZR in N, L |- *. rewrite <- V, <- V' in *. destruct (add_ok b b' F F' L) as (FF & ->). auto.
  - intros k a b c d a' b' c' d' H H' z E. cbn in E. destruct a as [a|], a' as [a'|]; try discriminate. cbn in E.
    apply small_inv in E. destruct E as (-> & B).
    destruct (H a eq_refl) as (Ba & F & V & ->). destruct (H' a' eq_refl) as (Ba' & F' & V' & ->).
    cbn [o_sub b64ops Rops]. destruct (near_int _ B) as (N & L). split; [exact B|].
    rewrite minus_IZR in N, L |- *. rewrite <- V, <- V' in *. destruct (sub_ok b b' F F' L) as (FF & ->). auto.
  - intros k l a b c d a' b' c' d' H H' z E. cbn in E. destruct a as [a|], a' as [a'|]; try discriminate. cbn in E.
    apply small_inv in E. destruct E as (-> & B).
    destruct (H a eq_refl) as (Ba & F & V & ->). destruct (H' a' eq_refl) as (Ba' & F' & V' & ->).
    cbn [o_mul b64ops Rops]. destruct (near_int _ B) as (N & L). split; [exact B|].
    rewrite mult_IZR in N, L |- *. rewrite <- V, <- V' in *. destruct (mul_ok b b' F F' L) as (FF & ->). auto.
  - discriminate.
Qed.

(** ** [evaluate] *)
Lemma emap_id {S} (e : expr S) : emap (fun v => v) e = e.
Proof. induction e as [| |u e IH|b e1 IH1 e2 IH2|e1 IH1 e2 IH2 e3 IH3]; cbn; try congruence. destruct u; cbn; congruence. Qed.
Lemma vars_below_emap {S T} (phi : S -> T) n e : vars_below n e -> vars_below n (emap phi e).
Proof. induction e; cbn; intuition. Qed.
Lemma evaluate_rep {S} (O : Ops S) c vs d e : cfg_ok c -> size_ok c (length vs) -> vars_below (length vs) e ->
  exists r, evaluate O c vs e = Ok r /\ rep c (length vs) (jev O (fun i => jvar O i (nth i vs d)) e) r.
Proof.
  intros Hc SO HV. unfold evaluate. destruct (variables_rep O c vs SO) as (xs & E & L & HX). rewrite E. cbn [bind].
  apply run_rep; [exact Hc|exact SO|rewrite L; exact HV|].
  intros i x Hx. assert (Hi : (i < length vs)%nat) by (rewrite <- L; apply nth_error_Some; congruence).
  destruct (HX i (nth i vs d) (nth_error_nth' vs d Hi)) as (x' & E' & R'). congruence.
Qed.
Lemma clean_f {S} c n (J : jet (option S)) r : rep c n J r -> clean r -> exists w, jf J = Some w.
Proof.
  intros R C. specialize (C 0%nat). destruct R as (_ & D & _). rewrite D in C.
  rewrite (nth_error_full _ 0 (jf J)) in C by (apply enc_nth_f). destruct (jf J) as [w|]; [eauto|congruence].
Qed.
Lemma clean_g {S} c n (J : jet (option S)) r i : rep c n J r -> clean r -> (i < n)%nat -> exists w, jg J i = Some w.
Proof.
  intros R C Hi. specialize (C (1 + i)%nat). destruct R as (_ & D & _). rewrite D in C.
  rewrite (nth_error_full _ _ (jg J i)) in C by (apply enc_nth_g, Hi). destruct (jg J i) as [w|]; [eauto|congruence].
Qed.
Lemma clean_h {S} c n (J : jet (option S)) r i j : rep c n J r -> clean r -> c_ord c = 2%Z -> (i < n)%nat -> (j < n)%nat ->
  exists w, hess J i j = Some w.
Proof.
  intros R C Ho Hi Hj. unfold hess. set (a := Nat.min i j). set (b := Nat.max i j).
  assert (HB : (a <= b < n)%nat) by (unfold a, b; lia).
  specialize (C (pos n a b)). destruct R as (_ & D & _). rewrite D in C.
  rewrite (nth_error_full _ _ (jh J a b)) in C by (apply enc_nth_h; [lia|exact HB]).
  destruct (jh J a b) as [w|]; [eauto|congruence].
Qed.

(** A checked evaluation that succeeds stays in the domain. *)
Lemma chk_dom v p e w : arith true e -> jf (jev chk64 v (emap seen e)) = Some w -> dom (emap val64 e) p.
Proof.
  revert w. induction e as [i|s|u e IH|b e1 IH1 e2 IH2|]; intros w HA HW; cbn [arith] in HA; cbn [emap dom]; try exact I.
  - destruct HA as (HA & HU). cbn [emap jev] in HW. destruct (jf (jev chk64 v (emap seen e))) as [a|] eqn:E.
    + split; [eapply IH; [exact HA|reflexivity]|]. destruct u; try contradiction HU; cbn [umap udom]; try exact I.
      cbn [umap jap_u jmap jf] in HW. rewrite E in HW. cbn [o_div o_Z o_mul chk64] in HW.
      unfold seen in HW at 1. rewrite (proj1 one_val) in HW. unfold seen in HW. destruct (is_finite b) eqn:Fb; [|discriminate].
      cbn [opt2] in HW. destruct (chk_div (b64_of_Z 1) b) as [q|] eqn:D; [|discriminate].
      apply (chk_div_inv _ _ _ Fb D).
    + exfalso. destruct u; try contradiction HU; cbn [umap jap_u jmap jf jsetf] in HW; rewrite E in HW; discriminate HW.
  - destruct HA as (HA1 & HA2 & HB). cbn [emap jev] in HW. unfold jap_b in HW.
    destruct (jf (jev chk64 v (emap seen e1))) as [a|] eqn:E1, (jf (jev chk64 v (emap seen e2))) as [a'|] eqn:E2.
    + split; [eapply IH1; [exact HA1|reflexivity]|]. split; [eapply IH2; [exact HA2|reflexivity]|].
      destruct b; try contradiction HB; exact I.
    + exfalso. destruct b; try contradiction HB; discriminate HW.
    + exfalso. destruct b; try contradiction HB; discriminate HW.
    + exfalso. destruct b; try contradiction HB; discriminate HW.
  - contradiction HA.
Qed.
Lemma int_dom p (e : expr Z) : arith false e -> dom (emap IZR e) p.
Proof.
  induction e as [i|s|u e IH|b e1 IH1 e2 IH2|]; intros HA; cbn [arith] in HA; cbn [emap dom]; try exact I.
  - destruct HA as (HA & HU). split; [auto|]. destruct u; try contradiction HU; try exact I. discriminate HU.
  - destruct HA as (HA1 & HA2 & HB). split; [auto|]. split; [auto|]. destruct b; try contradiction HB; exact I.
  - contradiction HA.
Qed.

(** Exact derivatives of an expression at a point, from its jet. *)
Lemma jev_partials n e p : vars_below n e -> dom e p ->
  let J := jev Rops (fun i => jvar Rops i (p i)) e in
  jf J = rev e p /\ (forall i, (i < n)%nat -> partial (rev e) i p (jg J i)) /\
  (forall i j, (i < n)%nat -> (j < n)%nat -> partial2 (rev e) i j p (hess J i j)).
Proof.
  intros HV D J. split; [apply jev_f; auto|]. split.
  - intros i Hi. pose proof (jev_point n e p (unit_at i) (unit_at i) HV D) as T. unfold track in T. fold J in T.
    rewrite gsum_unit in T by exact Hi. apply (J2_partial _ (rev_ext e)) in T. apply T.
  - intros i j Hi Hj. pose proof (jev_point n e p (unit_at i) (unit_at j) HV D) as T. unfold track in T. fold J in T.
    rewrite hsum_unit in T by assumption. apply (J2_partial _ (rev_ext e)) in T. apply T.
Qed.

Lemma nth_map' {A B} (f : A -> B) l i d d' : f d = d' -> nth i (map f l) d' = f (nth i l d).
Proof. intros <-. apply map_nth. Qed.

Lemma error_bound M c vs e r0 : cfg_ok c -> size_ok c (length vs) -> vars_below (length vs) e -> arith true e ->
  evaluate chk64 c (map seen vs) (emap seen e) = Ok r0 -> clean r0 ->
  exists r f g h G H rm Fm Gm Hm,
    evaluate (b64ops M) c vs e = Ok r /\ shows c (length vs) r f g h /\
    evaluate Mops c (map abs64 vs) (emap abs64 e) = Ok rm /\ shows c (length vs) rm Fm Gm Hm /\
    let F := rev (emap val64 e) in let p := at64 vs in let eps := (1 + u64) ^ roundings e - 1 in
    Rabs (val64 f - F p) <= eps * Fm /\
    (forall i, (i < length vs)%nat -> partial F i p (G i) /\ Rabs (val64 (g i) - G i) <= eps * Gm i) /\
    (c_ord c = 2%Z -> forall i j, (i < length vs)%nat -> (j < length vs)%nat ->
       partial2 F i j p (H i j) /\ Rabs (val64 (h i j) - H i j) <= eps * Hm i j).
Proof.
  intros Hc SO HV HA E0 C. set (n := length vs) in *.
  set (z := b64_of_Z 0).
  assert (L1 : length (map seen vs) = n) by apply map_length.
  assert (L4 : length (map abs64 vs) = n) by apply map_length.
  destruct (evaluate_rep chk64 c (map seen vs) (seen z) (emap seen e) Hc) as (r1 & E1 & R1);
    [rewrite L1; exact SO|rewrite L1; apply vars_below_emap, HV|].
  rewrite E0 in E1. injection E1 as <-. rewrite L1 in R1.
  destruct (evaluate_rep (b64ops M) c vs z e Hc SO HV) as (r & E & R). fold n in R.
  destruct (evaluate_rep Mops c (map abs64 vs) (abs64 z) (emap abs64 e) Hc) as (rm & E4 & R4);
    [rewrite L4; exact SO|rewrite L4; apply vars_below_emap, HV|]. rewrite L4 in R4.
  set (v1 := fun i => jvar chk64 i (nth i (map seen vs) (seen z))) in *.
  set (v2 := fun i => jvar (b64ops M) i (nth i vs z)) in *.
  set (v3 := fun i => jvar Rops i (at64 vs i)).
  set (v4 := fun i => jvar Mops i (nth i (map abs64 vs) (abs64 z))) in *.
  assert (HQ : forall i, QJ Qerr 0 (v1 i) (v2 i) (v3 i) (v4 i)).
  { assert (B : forall s, Qerr 0 (seen s) s (val64 s) (abs64 s)).
    { intros s w Ew. apply seen_inv in Ew. destruct Ew as (-> & F). split; [reflexivity|]. split; [exact F|]. split; [apply Rle_refl|].
      unfold Rminus. rewrite Rplus_opp_r, Rabs_R0. unfold err. cbn. lra. }
    assert (B' : forall k, (Z.abs k <= 2 ^ 53)%Z -> (0 <= k)%Z -> Qerr 0 (seen (b64_of_Z k)) (b64_of_Z k) (IZR k) (IZR k)).
    { intros k Hk Hk0. specialize (B (b64_of_Z k)). unfold abs64 in B. rewrite (proj2 (of_Z_exact k Hk)) in B.
      rewrite Rabs_pos_eq in B by (apply IZR_le, Hk0). exact B. }
    intros i. split; [|split].
    - cbn [jf jvar v1 v2 v3 v4]. unfold v1, v2, v3, v4, at64. cbn [jf jvar].
      rewrite (map_nth seen), (map_nth abs64), (nth_map' val64 vs i z 0) by apply zero_val. apply B.
    - intros k. cbn [jg jvar v1 v2 v3 v4]. unfold v1, v2, v3, v4. cbn [jg jvar]. destruct (Nat.eqb k i); apply B'; lia.
    - intros k l. apply (B' 0%Z); lia. }
  destruct (Qerr_four M v1 v2 v3 v4 e HA HQ) as (QF & QG & QH). rewrite emap_id in QF, QG, QH.
  destruct (clean_f _ _ _ _ R1 C) as (wf & Ewf).
  pose proof (chk_dom v1 (at64 vs) e wf HA Ewf) as HD.
  destruct (jev_partials n (emap val64 e) (at64 vs) (vars_below_emap _ _ _ HV) HD) as (PF & PG & PH). fold v3 in PF, PG, PH.
  set (J1 := jev chk64 v1 (emap seen e)) in *. set (J2 := jev (b64ops M) v2 e) in *.
  set (J3 := jev Rops v3 (emap val64 e)) in *. set (J4 := jev Mops v4 (emap abs64 e)) in *.
  exists r, (jf J2), (jg J2), (hess J2), (jg J3), (hess J3), rm, (jf J4), (jg J4), (hess J4).
  split; [exact E|]. split; [apply rep_shows; assumption|]. split; [exact E4|]. split; [apply rep_shows; assumption|].
  cbv zeta. split; [|split].
  - rewrite <- PF. apply (QF wf Ewf).
  - intros i Hi. split; [apply PG, Hi|]. destruct (clean_g _ _ _ _ i R1 C Hi) as (w & Ew). apply (QG i w Ew).
  - intros Ho i j Hi Hj. split; [apply PH; assumption|]. destruct (clean_h _ _ _ _ i j R1 C Ho Hi Hj) as (w & Ew).
    apply (QH _ _ w Ew).
Qed.

Lemma integers_exact M c vs e r0 : cfg_ok c -> size_ok c (length vs) -> vars_below (length vs) e -> arith false e ->
  evaluate int53 c (map small vs) (emap small e) = Ok r0 -> clean r0 ->
  exists r f g h,
    evaluate (b64ops M) c (map b64_of_Z vs) (emap b64_of_Z e) = Ok r /\ shows c (length vs) r f g h /\
    let F := rev (emap IZR e) in let p := atZ vs in
    val64 f = F p /\
    (forall i, (i < length vs)%nat -> partial F i p (val64 (g i))) /\
    (c_ord c = 2%Z -> forall i j, (i < length vs)%nat -> (j < length vs)%nat -> partial2 F i j p (val64 (h i j))).
Proof.
  intros Hc SO HV HA E0 C. set (n := length vs) in *.
  assert (L1 : length (map small vs) = n) by apply map_length.
  assert (L2 : length (map b64_of_Z vs) = n) by apply map_length.
  destruct (evaluate_rep int53 c (map small vs) (small 0) (emap small e) Hc) as (r1 & E1 & R1);
    [rewrite L1; exact SO|rewrite L1; apply vars_below_emap, HV|].
  rewrite E0 in E1. injection E1 as <-. rewrite L1 in R1.
  destruct (evaluate_rep (b64ops M) c (map b64_of_Z vs) (b64_of_Z 0) (emap b64_of_Z e) Hc) as (r & E & R);
    [rewrite L2; exact SO|rewrite L2; apply vars_below_emap, HV|]. rewrite L2 in R.
  set (v1 := fun i => jvar int53 i (nth i (map small vs) (small 0))) in *.
  set (v2 := fun i => jvar (b64ops M) i (nth i (map b64_of_Z vs) (b64_of_Z 0))) in *.
  set (v3 := fun i => jvar Rops i (atZ vs i)).
  assert (HQ : forall i, QJ Qint 0 (v1 i) (v2 i) (v3 i) (v3 i)).
  { assert (B : forall s, Qint 0 (small s) (b64_of_Z s) (IZR s) (IZR s)).
    { intros s z Ez. apply small_inv in Ez. destruct Ez as (-> & B). split; [exact B|]. destruct (of_Z_exact s B) as (F & V).
      repeat split; assumption. }
    intros i. split; [|split].
    - unfold v1, v2, v3, atZ. cbn [jf jvar]. rewrite (map_nth small), (map_nth b64_of_Z), (nth_map' IZR vs i 0%Z 0) by reflexivity. apply B.
    - intros k. unfold v1, v2, v3. cbn [jg jvar]. destruct (Nat.eqb k i); apply B.
    - intros k l. apply (B 0%Z). }
  destruct (Qint_four M v1 v2 v3 v3 e HA HQ) as (QF & QG & QH).
  destruct (jev_partials n (emap IZR e) (atZ vs) (vars_below_emap _ _ _ HV) (int_dom _ _ HA)) as (PF & PG & PH). fold v3 in PF, PG, PH.
  set (J1 := jev int53 v1 (emap small e)) in *. set (J2 := jev (b64ops M) v2 (emap b64_of_Z e)) in *.
  set (J3 := jev Rops v3 (emap IZR e)) in *.
  exists r, (jf J2), (jg J2), (hess J2).
  split; [exact E|]. split; [apply rep_shows; assumption|].
  cbv zeta. split; [|split].
  - rewrite <- PF. destruct (clean_f _ _ _ _ R1 C) as (w & Ew). destruct (QF w Ew) as (_ & _ & -> & ->). reflexivity.
  - intros i Hi. destruct (clean_g _ _ _ _ i R1 C Hi) as (w & Ew). destruct (QG i w Ew) as (_ & _ & -> & <-). apply PG, Hi.
  - intros Ho i j Hi Hj. destruct (clean_h _ _ _ _ i j R1 C Ho Hi Hj) as (w & Ew).
    destruct (QH _ _ w Ew) as (_ & _ & V & X). unfold hess in *. rewrite V, <- X. apply PH; assumption.
Qed.

(** ** Concrete cases *)
Definition cleanb {S} (m : res (dd (option S))) : bool :=
  match m with
  | Ok x => forallb (fun o => match o with Some None => false | _ => true end) (m_data x)
  | _ => false
  end.
Lemma cleanb_ok {S} (m : res (dd (option S))) : cleanb m = true -> exists r, m = Ok r /\ clean r.
Proof.
  destruct m as [x| | |]; try discriminate. cbn. intros H. exists x. split; [reflexivity|]. intros k E.
  rewrite forallb_forall in H. specialize (H _ (nth_error_In _ _ E)). discriminate H.
Qed.

Lemma beyond_2_53 (M : libm) : exists r f, evaluate (b64ops M) dyn1 [b64_of_Z (2 ^ 53)] (EU (Uadds (b64_of_Z 1)) (EVar 0)) = Ok r /\
  get_f r = Ok f /\ val64 f <> IZR (2 ^ 53) + 1.
Proof.
  destruct (evaluate_rep (b64ops M) dyn1 [b64_of_Z (2 ^ 53)] (b64_of_Z 0) (EU (Uadds (b64_of_Z 1)) (EVar 0)) cfg_dyn1)
    as (r & E & R).
  - split; [discriminate|vm_compute; discriminate].
  - cbn. lia.
  - eexists _, _. split; [exact E|]. split; [eapply get_f_rep, R|]. cbn [jev jap_u jsetf jf jvar nth o_add b64ops].
    assert (EQ : b64_add (b64_of_Z (2 ^ 53)) (b64_of_Z 1) = b64_of_Z (2 ^ 53)) by (apply B2SF_inj; vm_compute; reflexivity).
    rewrite EQ, (proj2 (of_Z_exact (2 ^ 53) ltac:(lia))). lra.
Qed.
