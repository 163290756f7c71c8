(** C83: relative accuracy. *)
From Coq Require Import ZArith List Bool Reals Lra Lia Psatz.
From Coquelicot Require Import Coquelicot.
From Flocq Require Import Core BinarySingleNaN Relative.
From Verif Require Import Outcome Scalar Float64 Model Spec RealOps UDeriv ExprSpec ProgSpec Ops64 B64 Facts64 NumSpec FactsNum
  ParamSpec FactsParam FactsEncl FactsExpr CreateRep OpsRep Kernels AccRep FactsLayout Expr Samples RangeSpec FactsRange ErrSpec FactsErr
  FmaSpec FactsFma RelSpec.
Import ListNotations.
Open Scope R_scope.

Definition w64 : R := 1 - u64.
Definition L64 : R := - ln w64.
Lemma w64_range : 7 / 8 <= w64 < 1.
Proof. pose proof u64_small. unfold w64. lra. Qed.
Lemma L64_pos : 0 < L64.
Proof. unfold L64. pose proof w64_range. assert (ln w64 < ln 1) by (apply ln_increasing; lra). rewrite ln_1 in H0. lra. Qed.
Lemma wpow k : w64 ^ k = exp (- (INR k * L64)).
Proof.
  rewrite <- Rpower_pow by (pose proof w64_range; lra). unfold Rpower, L64. f_equal. ring.
Qed.
Lemma factor_ln k t : factor k t <-> 0 < t /\ Rabs (ln t) <= INR k * L64.
Proof.
  unfold factor. fold w64. rewrite wpow, <- exp_Ropp, Ropp_involutive. split.
  - intros (A & B). assert (P : 0 < t) by (eapply Rlt_le_trans; [apply exp_pos|exact A]). split; [exact P|].
    rewrite <- (exp_ln t P) in A, B. apply Rabs_le. split.
    + destruct (Rle_or_lt (- (INR k * L64)) (ln t)); [assumption|]. exfalso. apply exp_increasing in H. lra.
    + destruct (Rle_or_lt (ln t) (INR k * L64)); [assumption|]. exfalso. apply exp_increasing in H. lra.
  - intros (P & A). apply Rabs_le_inv in A. rewrite <- (exp_ln t P). split; apply exp_le; lra.
Qed.
Lemma factor_pos k t : factor k t -> 0 < t. Proof. intros H. apply factor_ln in H. apply H. Qed.
Lemma factor_1 k : factor k 1.
Proof. apply factor_ln. split; [lra|]. rewrite ln_1, Rabs_R0. pose proof (pos_INR k). pose proof L64_pos. nra. Qed.
Lemma factor_0 t : factor 0 t -> t = 1.
Proof. unfold factor. cbn [pow]. lra. Qed.
Lemma factor_mono j k t : (j <= k)%nat -> factor j t -> factor k t.
Proof.
  intros H F. apply factor_ln in F as (P & A). apply factor_ln. split; [exact P|]. apply le_INR in H. pose proof L64_pos. nra.
Qed.
Lemma factor_mul j k t s : factor j t -> factor k s -> factor (j + k) (t * s).
Proof.
  intros F G. apply factor_ln in F as (P & A), G as (Q & B). apply factor_ln. split; [nra|].
  rewrite ln_mult by assumption. rewrite plus_INR. eapply Rle_trans; [apply Rabs_triang|]. lra.
Qed.
Lemma factor_inv k t : factor k t -> factor k (/ t).
Proof.
  intros F. apply factor_ln in F as (P & A). apply factor_ln. split; [apply Rinv_0_lt_compat, P|].
  rewrite ln_Rinv, Rabs_Ropp by exact P. exact A.
Qed.
Lemma factor_power k t y m : factor k t -> Rabs y <= INR m -> factor (k * m) (Rpower t y).
Proof.
  intros F Y. apply factor_ln in F as (P & A). apply factor_ln. split; [apply exp_pos|].
  unfold Rpower. rewrite ln_exp, Rabs_mult, mult_INR. pose proof (Rabs_pos y). pose proof (Rabs_pos (ln t)). nra.
Qed.
Lemma bernoulli k x : 0 <= x <= 1 -> 1 - INR k * x <= (1 - x) ^ k.
Proof.
  intros H. induction k as [|k IH]; [cbn; lra|]. rewrite S_INR. cbn [pow].
  assert (0 <= (1 - x) ^ k) by (apply pow_le; lra). pose proof (pos_INR k). destruct (Rle_or_lt (INR k * x) 1); nra.
Qed.
Lemma factor_small k t : INR k * u64 <= / 16 -> factor k t -> 1 - INR k * u64 <= t <= / (1 - INR k * u64).
Proof.
  intros H (A & B). pose proof u64_small. pose proof (bernoulli k u64 ltac:(lra)) as Bk. split; [lra|].
  eapply Rle_trans; [exact B|]. apply Rinv_le_contravar; lra.
Qed.
Lemma factor_near k t : INR k * u64 <= / 16 -> factor k t -> 15 / 16 <= t <= 16 / 15.
Proof.
  intros H F. destruct (factor_small k t H F) as (A & B). split; [lra|]. eapply Rle_trans; [exact B|].
  replace (16 / 15) with (/ (15 / 16)) by field. apply Rinv_le_contravar; lra.
Qed.
Lemma near_factor x : bpow radix2 (-1022) <= Rabs x -> exists s, factor 1 s /\ near64 x = x * s.
Proof.
  intros H. destruct (near64_rel x H) as (d & B & E). exists (1 + d). split; [|exact E]. apply Rabs_le_inv in B.
  pose proof u64_small. unfold factor. cbn [pow]. rewrite Rmult_1_r. split; [lra|].
  apply Rle_trans with (1 + u64); [lra|]. apply Rmult_le_reg_r with (1 - u64); [lra|]. rewrite Rinv_l by lra. nra.
Qed.

Lemma fits_inv y k : fits y k = true -> bpow radix2 (-1020) <= Rabs y <= bpow radix2 1022 /\ INR k * u64 <= / 16.
Proof.
  unfold fits, Rleb. destruct (Rle_dec _ _); [|discriminate]. destruct (Rle_dec _ _); [|discriminate].
  destruct (Rle_dec _ _); [|discriminate]. auto.
Qed.
Lemma fits_scaled y k t : fits y k = true -> factor k t -> bpow radix2 (-1021) <= Rabs (y * t) <= bpow radix2 1023.
Proof.
  intros H F. apply fits_inv in H as ((A & B) & C). destruct (factor_near k t C F) as (D & E).
  rewrite Rabs_mult, (Rabs_pos_eq t) by lra. pose proof (Rabs_pos y).
  change (bpow radix2 (-1020)) with (bpow radix2 (1 + -1021)) in A. rewrite bpow_plus in A. change (bpow radix2 1) with 2 in A.
  pose proof (bpow_gt_0 radix2 (-1021)). pose proof (bpow_gt_0 radix2 1022).
  change (bpow radix2 1023) with (bpow radix2 (1 + 1022)). rewrite bpow_plus. change (bpow radix2 1) with 2.
  set (P := bpow radix2 (-1021)) in *. set (Q := bpow radix2 1022) in *. set (z := Rabs y) in *. clearbody P Q z. split.
  - apply Rle_trans with (z * (15 / 16)); [lra|apply Rmult_le_compat_l; lra].
  - apply Rle_trans with (z * (16 / 15)); [apply Rmult_le_compat_l; lra|lra].
Qed.
Lemma Reqb_yes x y : Reqb x y = true -> x = y. Proof. unfold Reqb. destruct (Req_EM_T x y); [auto|discriminate]. Qed.
Lemma Reqb_no x y : Reqb x y = false -> x <> y. Proof. unfold Reqb. destruct (Req_EM_T x y); [discriminate|auto]. Qed.
Lemma counts_zero r : finite64 r -> val64 r = 0 -> counts r (Some (0, 0%nat)).
Proof. intros F V. split; [exact F|]. exists 1. split; [apply factor_1|]. rewrite V. ring. Qed.
(** A correctly rounded operation. *)
Lemma after_rounding r y k t : factor k t ->
  (Rabs (near64 (y * t)) < bpow radix2 1024 -> finite64 r /\ val64 r = near64 (y * t)) -> counts r (after 1 y k).
Proof.
  intros F R. unfold after. destruct (Reqb y 0) eqn:Z.
  - apply Reqb_yes in Z. subst y. rewrite Rmult_0_l, near64_0, Rabs_R0 in R.
    destruct (R (bpow_gt_0 _ _)). now apply counts_zero.
  - destruct (fits y k) eqn:E; [|exact I]. destruct (fits_scaled y k t E F) as (A & B).
    destruct (near_factor (y * t)) as (s & Fs & N); [eapply Rle_trans; [apply (bpow_le radix2 (-1022) (-1021)); lia|exact A]|].
    destruct R as (Fr & V). { eapply Rle_lt_trans; [apply near64_le_bpow with (e := 1023%Z); [lia|exact B]|apply bpow_lt; reflexivity]. }
    split; [exact Fr|]. exists (s * t). split; [apply factor_mul; assumption|]. rewrite V, N. ring.
Qed.
(** An operation whose result happens to be exact. *)
Lemma after_exact r y k t : factor k t -> near64 (y * t) = y * t ->
  (Rabs (near64 (y * t)) < bpow radix2 1024 -> finite64 r /\ val64 r = near64 (y * t)) -> counts r (after 0 y k).
Proof.
  intros F N R. unfold after. destruct (Reqb y 0) eqn:Z.
  - apply Reqb_yes in Z. subst y. rewrite Rmult_0_l, near64_0, Rabs_R0 in R.
    destruct (R (bpow_gt_0 _ _)). now apply counts_zero.
  - destruct (fits y k) eqn:E; [|exact I]. destruct (fits_scaled y k t E F) as (A & B).
    destruct R as (Fr & V). { rewrite N. eapply Rle_lt_trans; [exact B|apply bpow_lt; reflexivity]. }
    split; [exact Fr|]. exists t. split; [exact F|]. rewrite V. exact N.
Qed.
(** A result of libm. *)
Lemma after_answer p r y k t : factor k t -> answers p r (y * t) -> counts r (after p y k).
Proof.
  intros F (A0 & A). unfold after. destruct (Reqb y 0) eqn:Z.
  - apply Reqb_yes in Z. subst y. destruct A0 as (Fr & V); [ring|]. now apply counts_zero.
  - destruct (fits y k) eqn:E; [|exact I]. destruct (A (fits_scaled y k t E F)) as (Fr & s & Fs & V).
    split; [exact Fr|]. exists (s * t). split; [apply factor_mul; assumption|]. rewrite V. ring.
Qed.

Lemma mean_factor k t s x y : 0 < x * y -> factor k t -> factor k s -> factor k ((x * t + y * s) / (x + y)).
Proof.
  intros P (A & B) (C & D). unfold factor. set (a := (1 - u64) ^ k) in *. set (b := / a) in *.
  assert (G : forall x y, 0 < x -> 0 < y -> a <= (x * t + y * s) / (x + y) <= b).
  { clear x y P. intros x y Px Py. split; [apply Rmult_le_reg_r with (x + y)|apply Rmult_le_reg_r with (x + y)]; try lra;
    unfold Rdiv; rewrite Rmult_assoc, Rinv_l by lra; nra. }
  destruct (Rlt_or_le 0 x) as [Px|Px].
  - apply G; [exact Px|]. apply Rmult_lt_reg_l with x; [exact Px|]. lra.
  - assert (x < 0) by (destruct Px as [Px| ->]; [exact Px|lra]). assert (y < 0) by (apply Rmult_lt_reg_l with (- x); lra).
    replace ((x * t + y * s) / (x + y)) with ((- x * t + - y * s) / (- x + - y)) by (field; lra). apply G; lra.
Qed.
Lemma difference_factor k t s x y : x * y < 0 -> 2 * Rabs y <= Rabs x -> INR (4 * k) * u64 <= / 16 ->
  factor k t -> factor k s -> factor (4 * k) ((x * t + y * s) / (x + y)).
Proof.
  intros N H K Ft Fs.
  assert (K' : INR k * u64 <= / 16).
  { rewrite mult_INR in K. pose proof (pos_INR k). pose proof u64_small. cbn [INR] in K. nra. }
  destruct Ft as (A & B), Fs as (C & D). unfold factor.
  rewrite Nat.mul_comm, pow_mult. set (a := (1 - u64) ^ k) in *.
  assert (A1 : 15 / 16 <= a <= 1).
  { pose proof u64_small. pose proof (bernoulli k u64 ltac:(lra)). fold a in H1. split; [lra|].
    unfold a. apply Rle_trans with (1 ^ k); [apply pow_incr; lra|rewrite pow1; lra]. }
  set (b := / a) in *. assert (AB : a * b = 1) by (unfold b; apply Rinv_r; lra).
  assert (B1 : 1 <= b <= 16 / 15). { split; [nra|]. apply Rmult_le_reg_l with a; [lra|]. rewrite AB. lra. }
  replace (/ a ^ 4) with (b ^ 4) by (unfold b; rewrite pow_inv; reflexivity).
  assert (G : forall x y, 0 < x -> y < 0 -> 2 * - y <= x -> a ^ 4 <= (x * t + y * s) / (x + y) <= b ^ 4).
  { clear x y N H. intros x y Px Py H.
    assert (U : x * t + y * s <= x * b + y * a) by nra.
    assert (V : x * a + y * b <= x * t + y * s) by nra.
    assert (B4 : 1 <= b ^ 4) by (apply pow_R1_Rle; lra).
    assert (E1 : 2 * b - a <= b ^ 4).
    { assert (2 * b - a <= b ^ 3).
      { apply Rmult_le_reg_l with b; [lra|]. replace (b * (2 * b - a)) with (2 * (b * b) - a * b) by ring. rewrite AB.
        replace (b * b ^ 3) with ((b * b) * (b * b)) by ring. pose proof (Rle_0_sqr (b * b - 1)) as Q. unfold Rsqr in Q. lra. }
      replace (b ^ 4) with (b ^ 3 * b) by ring. assert (1 <= b ^ 3) by (apply pow_R1_Rle; lra). nra. }
    assert (E2 : a ^ 4 <= 2 * a - b).
    { apply Rmult_le_reg_l with (b ^ 5); [apply pow_lt; lra|].
      replace (b ^ 5 * a ^ 4) with ((a * b) ^ 4 * b) by ring. rewrite AB.
      replace (b ^ 5 * (2 * a - b)) with (2 * (a * b) * b ^ 4 - b ^ 6) by ring. rewrite AB.
      set (q := b) in *. clearbody q. replace (1 ^ 4 * q) with q by ring.
      assert (q * (2 * q ^ 3 - q ^ 5 - 1) >= 0); [|replace (2 * 1 * q ^ 4 - q ^ 6) with (q * (2 * q ^ 3 - q ^ 5)) by ring; lra].
      apply Rle_ge, Rmult_le_pos; [lra|].
      replace (2 * q ^ 3 - q ^ 5 - 1) with ((q - 1) * (1 + q + q * q - q ^ 3 - q ^ 4)) by ring.
      apply Rmult_le_pos; [lra|].
      assert (q * q <= 16 / 15 * (16 / 15)) by nra. assert (q ^ 3 <= 16 / 15 * (16 / 15) * (16 / 15)) by (cbn [pow]; nra).
      assert (q ^ 4 <= (16 / 15 * (16 / 15)) * (16 / 15 * (16 / 15))) by (replace (q ^ 4) with ((q * q) * (q * q)) by ring; nra).
      nra. }
    assert (E3 : a ^ 4 <= a). { replace (a ^ 4) with (a * a ^ 3) by ring. assert (a ^ 3 <= 1) by (apply Rle_trans with (1 ^ 3); [apply pow_incr; lra|rewrite pow1; lra]). nra. }
    assert (E4 : b <= b ^ 4). { replace (b ^ 4) with (b * b ^ 3) by ring. assert (1 <= b ^ 3) by (apply pow_R1_Rle; lra). nra. }
    split; [apply Rmult_le_reg_r with (x + y)|apply Rmult_le_reg_r with (x + y)]; try lra;
      unfold Rdiv; rewrite Rmult_assoc, Rinv_l, Rmult_1_r by lra.
    - eapply Rle_trans; [|exact V]. set (z := a ^ 4) in *. nra.
    - eapply Rle_trans; [exact U|]. set (z := b ^ 4) in *. nra. }
  destruct (Rlt_or_le 0 x) as [Px|Px].
  - assert (y < 0) by (apply Rmult_lt_reg_l with x; lra). rewrite (Rabs_left y), (Rabs_pos_eq x) in H by lra. apply G; lra.
  - assert (x < 0) by (destruct Px as [Px| ->]; [exact Px|lra]). assert (0 < y) by (apply Rmult_lt_reg_l with (- x); lra). rewrite (Rabs_left x), (Rabs_pos_eq y) in H by lra.
    replace ((x * t + y * s) / (x + y)) with ((- x * t + - y * s) / (- x + - y)) by (field; lra). apply G; lra.
Qed.

Lemma times2_format (v : b64) : near64 (2 * val64 v) = 2 * val64 v.
Proof.
  apply near64_exact. pose proof (fmt_val v) as F. unfold fmt64 in *.
  apply FLT_format_generic in F; [|exact _]. destruct F as [[m e] E M X].
  apply generic_format_FLT. exists (Float radix2 m (e + 1)).
  - rewrite E. unfold F2R. cbn [Fnum Fexp]. rewrite bpow_plus. change (bpow radix2 1) with 2. ring.
  - exact M.
  - cbn [Fexp] in *. lia.
Qed.
Lemma simple_mul_exact x k t (v w : b64) : simple x k = true -> factor k t -> val64 v = x * t -> near64 (val64 v * val64 w) = val64 v * val64 w.
Proof.
  intros H F V. unfold simple in H. apply andb_prop in H as (K & H). apply Nat.eqb_eq in K. subst k. apply factor_0 in F. subst t.
  rewrite Rmult_1_r in V. rewrite V. clear V.
  assert (A : near64 (val64 w) = val64 w) by (apply near64_exact, fmt_val).
  assert (N : near64 (- val64 w) = - val64 w) by (apply near64_exact; apply generic_format_opp, fmt_val).
  pose proof (times2_format w) as A2. pose proof (times2_format (b64_neg w)) as N2. rewrite val_neg in N2.
  apply orb_prop in H as [H|H]; apply Reqb_yes in H; destruct (Rcase_abs x) as [X|X];
    [rewrite Rabs_left in H by lra|rewrite Rabs_right in H by lra|rewrite Rabs_left in H by lra|rewrite Rabs_right in H by lra].
  - replace x with (-1) by lra. replace (-1 * val64 w) with (- val64 w) by ring. exact N.
  - subst x. rewrite Rmult_1_l. exact A.
  - replace x with (-2) by lra. replace (-2 * val64 w) with (2 * - val64 w) by ring. exact N2.
  - subst x. exact A2.
Qed.
Lemma counts_mul v w t t' : counts v t -> counts w t' -> counts (b64_mul v w) (o_mul (Nops 0) t t').
Proof.
  destruct t as [(x & j)|], t' as [(y & k)|]; try (intros; exact I). intros (Fv & a & Fa & Va) (Fw & b & Fb & Vb).
  cbn [Nops o_mul]. pose proof (factor_mul j k a b Fa Fb) as Fab.
  assert (E : val64 v * val64 w = x * y * (a * b)) by (rewrite Va, Vb; ring).
  assert (R : Rabs (near64 (x * y * (a * b))) < bpow radix2 1024 ->
    finite64 (b64_mul v w) /\ val64 (b64_mul v w) = near64 (x * y * (a * b))).
  { rewrite <- E. apply mul_ok; assumption. }
  destruct (simple x j) eqn:S1; [|destruct (simple y k) eqn:S2]; cbn [orb].
  - apply (after_exact _ _ _ _ Fab); [|exact R]. rewrite <- E. apply (simple_mul_exact x j a); assumption.
  - apply (after_exact _ _ _ _ Fab); [|exact R]. rewrite <- E, Rmult_comm. apply (simple_mul_exact y k b); assumption.
  - apply (after_rounding _ _ _ _ Fab). exact R.
Qed.
Lemma counts_div v w t t' : counts v t -> counts w t' -> counts (b64_div v w) (o_div (Nops 0) t t').
Proof.
  destruct t as [(x & j)|], t' as [(y & k)|]; try (intros; exact I). intros (Fv & a & Fa & Va) (Fw & b & Fb & Vb).
  cbn [Nops o_div]. destruct (Reqb y 0) eqn:Z; [exact I|]. apply Reqb_no in Z.
  pose proof (factor_pos _ _ Fb) as Pb.
  assert (E : val64 v / val64 w = x / y * (a * / b)) by (rewrite Va, Vb; field; split; lra).
  apply (after_rounding _ _ _ _ (factor_mul _ _ _ _ Fa (factor_inv _ _ Fb))). rewrite <- E.
  apply div_ok; [assumption|assumption|]. rewrite Vb. apply Rmult_integral_contrapositive_currified; lra.
Qed.
Lemma counts_neg v t : counts v t -> counts (b64_neg v) (neg_counted t).
Proof.
  destruct t as [(x & j)|]; [|intros; exact I]. intros (F & a & Fa & V). split; [apply finite_neg, F|].
  exists a. split; [exact Fa|]. rewrite val_neg, V. ring.
Qed.
Lemma counts_add v w t t' : counts v t -> counts w t' -> counts (b64_add v w) (add_counted t t').
Proof.
  destruct t as [(x & j)|], t' as [(y & k)|]; try (intros; exact I). intros (Fv & a & Fa & Va) (Fw & b & Fb & Vb).
  unfold add_counted.
  assert (R : forall q, q = val64 v + val64 w -> Rabs (near64 q) < bpow radix2 1024 ->
    finite64 (b64_add v w) /\ val64 (b64_add v w) = near64 q) by (intros q ->; apply add_ok; assumption).
  destruct (Reqb x 0) eqn:Zx; [|destruct (Reqb y 0) eqn:Zy].
  - apply Reqb_yes in Zx. subst x. destruct (R (val64 w)) as (F & V); [rewrite Va; ring| |].
    + rewrite near64_exact by apply fmt_val. apply finite_val_lt.
    + split; [exact F|]. exists b. split; [exact Fb|]. rewrite V, near64_exact by apply fmt_val. exact Vb.
  - apply Reqb_yes in Zy. subst y. destruct (R (val64 v)) as (F & V); [rewrite Vb; ring| |].
    + rewrite near64_exact by apply fmt_val. apply finite_val_lt.
    + split; [exact F|]. exists a. split; [exact Fa|]. rewrite V, near64_exact by apply fmt_val. exact Va.
  - apply Reqb_no in Zx, Zy. pose proof (factor_mono j (Nat.max j k) a ltac:(lia) Fa) as Fa'.
    pose proof (factor_mono k (Nat.max j k) b ltac:(lia) Fb) as Fb'.
    destruct (Nat.eqb j 0 && Nat.eqb k 0) eqn:J.
    + apply andb_prop in J as (J & K). apply Nat.eqb_eq in J, K. subst j k. apply factor_0 in Fa, Fb. subst a b.
      assert (E : val64 v + val64 w = (x + y) * 1) by (rewrite Va, Vb; ring).
      destruct (Reqb (near64 (x + y)) (x + y)) eqn:N.
      * apply (after_exact _ _ _ 1 (factor_1 0)); [rewrite Rmult_1_r; apply Reqb_yes, N|]. apply R. symmetry. exact E.
      * apply (after_rounding _ _ _ 1 (factor_1 0)). apply R. symmetry. exact E.
    + destruct (Rltb 0 (x * y)) eqn:S.
      * apply Rltb_true in S.
        assert (D : x + y <> 0) by (intros E; replace y with (- x) in S by lra; nra).
        apply (after_rounding _ _ _ _ (mean_factor _ _ _ _ _ S Fa' Fb')). apply R. rewrite Va, Vb. field. exact D.
      * apply Rltb_false in S. assert (S' : x * y < 0) by (assert (x * y <> 0) by (apply Rmult_integral_contrapositive_currified; assumption); lra).
        assert (G : forall x y a b, x * y < 0 -> 2 * Rabs y <= Rabs x -> factor (Nat.max j k) a -> factor (Nat.max j k) b ->
          (forall q, q = x * a + y * b -> Rabs (near64 q) < bpow radix2 1024 -> finite64 (b64_add v w) /\ val64 (b64_add v w) = near64 q) ->
          counts (b64_add v w) (after 1 (x + y) (4 * Nat.max j k))).
        { clear. intros x y a b S H Fa Fb R.
          assert (D : x + y <> 0).
          { intros E. replace y with (- x) in H by lra. rewrite Rabs_Ropp in H. pose proof (Rabs_pos x). assert (Rabs x = 0) by lra.
            assert (x = 0) by (destruct (Req_dec x 0); [assumption|apply Rabs_no_R0 in H2; lra]). subst x. lra. }
          unfold after. destruct (Reqb (x + y) 0) eqn:Z; [apply Reqb_yes in Z; contradiction|].
          destruct (fits (x + y) (4 * Nat.max j k)) eqn:Ft; [|exact I].
          pose proof (fits_inv _ _ Ft) as (_ & K).
          pose proof (difference_factor _ _ _ _ _ S H K Fa Fb) as FF.
          pose proof (after_rounding (b64_add v w) (x + y) _ _ FF) as AR. unfold after in AR. rewrite Z, Ft in AR. apply AR.
          apply R. field. exact D. }
        unfold Rleb. destruct (Rle_dec (2 * Rabs y) (Rabs x)) as [H|H]; [|destruct (Rle_dec (2 * Rabs x) (Rabs y)) as [H'|H']]; cbn [orb].
        -- apply (G x y a b); try assumption. intros q ->. apply R. rewrite Va, Vb. reflexivity.
        -- rewrite Rplus_comm. apply (G y x b a); try assumption; [lra|]. intros q ->. apply R. rewrite Va, Vb. ring.
        -- exact I.
Qed.
Lemma counts_sub v w t t' : counts v t -> counts w t' -> counts (b64_sub v w) (add_counted t (neg_counted t')).
Proof. intros H H'. rewrite b64_sub_neg. apply counts_add; [exact H|apply counts_neg, H']. Qed.
Lemma counts_sqrt v t : counts v t -> counts (b64_sqrt v) (o_sqrt (Nops 0) t).
Proof.
  destruct t as [(x & j)|]; [|intros; exact I]. intros (F & a & Fa & V). cbn [Nops o_sqrt]. unfold Rleb.
  destruct (Rle_dec 0 x) as [P|]; [|exact I]. pose proof (factor_pos _ _ Fa) as Pa.
  assert (Fs : factor (Nat.div2 (S j)) (sqrt a)).
  { apply factor_ln in Fa as (_ & A). apply factor_ln. split; [apply sqrt_lt_R0, Pa|].
    replace (sqrt a) with (Rpower a (/ 2)) by (apply Rpower_sqrt, Pa). unfold Rpower. rewrite ln_exp, Rabs_mult, (Rabs_pos_eq (/ 2)) by lra.
    assert (D : INR j <= 2 * INR (Nat.div2 (S j))).
    { replace 2 with (INR 2) by reflexivity. rewrite <- mult_INR. apply le_INR.
      pose proof (Nat.div2_odd (S j)) as E. destruct (Nat.odd (S j)); cbn [Nat.b2n] in E; lia. }
    pose proof L64_pos. nra. }
  apply (after_rounding _ _ _ _ Fs). intros _.
  destruct (sqrt_near v) as (G & W); [rewrite V; apply Rmult_le_pos; lra|exact F|]. split; [exact G|].
  rewrite W, V, sqrt_mult by lra. reflexivity.
Qed.

Section Libm.
  Context (M : libm) (p : nat) (G : libm_good M p).
  Lemma ceiling_ok y : Rabs y <= INR (ceiling (Rabs y)).
  Proof.
    unfold ceiling. pose proof (base_Int_part (- Rabs y)) as (A & B). pose proof (Rabs_pos y).
    rewrite INR_IZR_INZ, Z2Nat.id; [rewrite opp_IZR; lra|].
    apply le_IZR. rewrite opp_IZR. lra.
  Qed.
  Lemma Rpow_std_scaled x t y : 0 < t -> 0 < x \/ x < 0 /\ is_int y = true -> Rpow_std (x * t) y = Rpow_std x y * Rpower t y.
  Proof.
    intros T [X|(X & I)]; unfold Rpow_std.
    - destruct (Rlt_dec 0 (x * t)); [|exfalso; apply n; nra]. destruct (Rlt_dec 0 x); [|lra].
      symmetry. apply Rpower_mult_distr; assumption.
    - assert (x * t < 0) by nra. destruct (Rlt_dec 0 (x * t)); [lra|]. destruct (Req_EM_T (x * t) 0); [lra|].
      destruct (Rlt_dec 0 x); [lra|]. destruct (Req_EM_T x 0); [lra|]. rewrite I.
      rewrite powerRZ_mult. f_equal.
      unfold is_int in I. destruct (Req_EM_T y (IZR (Int_part y))) as [E|]; [|discriminate].
      rewrite E at 2. apply powerRZ_Rpower, T.
  Qed.
  Lemma counts_pow v w t t' : counts v t -> counts w t' -> counts (m_pow M v w) (o_pow (Nops p) t t').
  Proof.
    destruct t as [(x & j)|], t' as [(y & k)|]; try (intros; exact I). intros (Fv & a & Fa & Va) (Fw & b & Fb & Vb).
    cbn [Nops o_pow]. destruct (Nat.eqb k 0) eqn:K; [|rewrite andb_false_r; exact I]. apply Nat.eqb_eq in K. subst k. apply factor_0 in Fb. subst b.
    rewrite Rmult_1_r in Vb. rewrite andb_true_r. pose proof (factor_pos _ _ Fa) as Pa.
    destruct (Rltb 0 x || Rltb x 0 && is_int y) eqn:D; [|exact I].
    assert (D' : 0 < x \/ x < 0 /\ is_int y = true).
    { apply orb_prop in D as [D|D]; [left; apply Rltb_true, D|right]. apply andb_prop in D as (D & E). split; [apply Rltb_true, D|exact E]. }
    apply (after_answer _ _ _ _ _ (factor_power j a y _ Fa (ceiling_ok y))).
    rewrite <- Rpow_std_scaled by assumption. rewrite <- Va, <- Vb. apply (lg_pow _ _ G); [assumption|assumption|].
    rewrite Va, Vb. destruct D' as [D'|(D' & E)]; [left; nra|right; split; [nra|exact E]].
  Qed.
  Lemma Rcbrt_scaled x t : 0 < t -> Rcbrt (x * t) = Rcbrt x * Rpower t (/ 3).
  Proof.
    intros T. unfold Rcbrt. destruct (Rlt_dec 0 x); [|destruct (Rlt_dec x 0)].
    - destruct (Rlt_dec 0 (x * t)); [|exfalso; apply n; nra]. symmetry. apply Rpower_mult_distr; assumption.
    - assert (x * t < 0) by nra. destruct (Rlt_dec 0 (x * t)); [lra|]. destruct (Rlt_dec (x * t) 0); [|lra].
      replace (- (x * t)) with (- x * t) by ring. rewrite <- Rpower_mult_distr by lra. ring.
    - replace x with 0 by lra. rewrite Rmult_0_l. destruct (Rlt_dec 0 0); [lra|]. destruct (Rlt_dec 0 0); [lra|]. ring.
  Qed.
  Lemma counts_cbrt v t : counts v t -> counts (m_cbrt M v) (o_cbrt (Nops p) t).
  Proof.
    destruct t as [(x & j)|]; [|intros; exact I]. intros (F & a & Fa & V). cbn [Nops o_cbrt]. pose proof (factor_pos _ _ Fa) as Pa.
    assert (Fc : factor j (Rpower a (/ 3))).
    { rewrite <- (Nat.mul_1_r j). apply factor_power; [exact Fa|]. rewrite Rabs_pos_eq by lra. cbn; lra. }
    apply (after_answer _ _ _ _ _ Fc). rewrite <- Rcbrt_scaled by exact Pa. rewrite <- V. apply (lg_cbrt _ _ G); [exact F|exact I].
  Qed.
  Lemma counts_1 (m : b64 -> b64) F (ok : R -> bool) (D : R -> Prop) v t : answers1 p m F D -> (forall x, ok x = true -> D x) ->
    counts v t -> counts (m v) (count1 p F ok t).
  Proof.
    intros A OD. destruct t as [(x & j)|]; [|intros; exact I]. intros (Fv & a & Fa & V). unfold count1.
    destruct (ok x) eqn:K; [|exact I]. destruct (Nat.eqb j 0) eqn:J; [|exact I]. apply Nat.eqb_eq in J. subst j. apply factor_0 in Fa. subst a.
    rewrite Rmult_1_r in V. cbn [andb]. apply (after_answer _ _ _ 0 1 (factor_1 0)). rewrite Rmult_1_r, <- V. apply A; [exact Fv|].
    rewrite V. apply OD, K.
  Qed.
  Lemma root_factor k q r : 0 < q -> (w64 ^ k) * (w64 ^ k) * q <= r -> r <= / w64 ^ k * / w64 ^ k * q -> factor k (sqrt r / sqrt q) /\ sqrt q * (sqrt r / sqrt q) = sqrt r.
  Proof.
    intros Q A B. pose proof (sqrt_lt_R0 q Q) as SQ. unfold factor. fold w64.
    assert (W : 0 < w64 ^ k) by (apply pow_lt; pose proof w64_range; lra). pose proof (Rinv_0_lt_compat _ W) as W'.
    set (a := w64 ^ k) in *. set (b := / a) in *.
    split; [|field; lra]. split; (apply Rmult_le_reg_r with (sqrt q); [exact SQ|]); unfold Rdiv; rewrite Rmult_assoc, Rinv_l, Rmult_1_r by lra.
    - rewrite <- (sqrt_square a) by lra. rewrite <- sqrt_mult by nra. apply sqrt_le_1_alt. exact A.
    - rewrite <- (sqrt_square b) by lra. rewrite <- sqrt_mult by nra. apply sqrt_le_1_alt. exact B.
  Qed.
  Lemma square_factor k t x : factor k t -> w64 ^ k * w64 ^ k * (x * x) <= x * t * (x * t) <= / w64 ^ k * / w64 ^ k * (x * x).
  Proof.
    intros (A & B). fold w64 in *.
    assert (W : 0 < w64 ^ k) by (apply pow_lt; pose proof w64_range; lra). set (a := w64 ^ k) in *. set (b := / a) in *.
    pose proof (Rle_0_sqr x) as X. unfold Rsqr in X. replace (x * t * (x * t)) with (t * t * (x * x)) by ring.
    split; apply Rmult_le_compat_r; try exact X; nra.
  Qed.
  Lemma counts_hypot v w t t' : counts v t -> counts w t' -> counts (m_hypot M v w) (o_hypot (Nops p) t t').
  Proof.
    destruct t as [(x & j)|], t' as [(y & k)|]; try (intros; exact I). intros (Fv & a & Fa & Va) (Fw & b & Fb & Vb).
    cbn [Nops o_hypot]. pose proof (factor_mono j (Nat.max j k) a ltac:(lia) Fa) as Fa'.
    pose proof (factor_mono k (Nat.max j k) b ltac:(lia) Fb) as Fb'.
    pose proof (lg_hypot _ _ G v w Fv Fw I) as A. rewrite Va, Vb in A.
    pose proof (square_factor _ _ x Fa') as (A1 & A2). pose proof (square_factor _ _ y Fb') as (B1 & B2).
    pose proof (Rle_0_sqr x) as X. pose proof (Rle_0_sqr y) as Y. unfold Rsqr in *.
    destruct (Req_dec (x * x + y * y) 0) as [Z|Z].
    - rewrite Z, sqrt_0. apply (after_answer _ _ _ _ 1 (factor_1 _)). rewrite Rmult_0_l. assert (x * x = 0) by lra. assert (y * y = 0) by lra.
      replace (x * a * (x * a) + y * b * (y * b)) with (x * x * (a * a) + y * y * (b * b)) in A by ring.
      rewrite H, H0, !Rmult_0_l, Rplus_0_l, sqrt_0 in A. exact A.
    - destruct (root_factor (Nat.max j k) (x * x + y * y) (x * a * (x * a) + y * b * (y * b))) as (FF & E); [lra|lra|lra|].
      apply (after_answer _ _ _ _ _ FF). rewrite E. exact A.
  Qed.
  Lemma counts_hypot3 v w u t t' t'' : counts v t -> counts w t' -> counts u t'' -> counts (m_hypot3 M v w u) (o_hypot3 (Nops p) t t' t'').
  Proof.
    destruct t as [(x & j)|], t' as [(y & k)|], t'' as [(z & l)|]; try (intros; exact I).
    intros (Fv & a & Fa & Va) (Fw & b & Fb & Vb) (Fu & d & Fd & Vd).
    cbn [Nops o_hypot3]. set (m := Nat.max (Nat.max j k) l). pose proof (factor_mono j m a ltac:(lia) Fa) as Fa'.
    pose proof (factor_mono k m b ltac:(lia) Fb) as Fb'. pose proof (factor_mono l m d ltac:(lia) Fd) as Fd'.
    pose proof (lg_hypot3 _ _ G v w u Fv Fw Fu) as A. rewrite Va, Vb, Vd in A.
    pose proof (square_factor _ _ x Fa') as (A1 & A2). pose proof (square_factor _ _ y Fb') as (B1 & B2). pose proof (square_factor _ _ z Fd') as (D1 & D2).
    pose proof (Rle_0_sqr x) as X. pose proof (Rle_0_sqr y) as Y. pose proof (Rle_0_sqr z) as Z'. unfold Rsqr in *.
    destruct (Req_dec (x * x + y * y + z * z) 0) as [Z|Z].
    - rewrite Z, sqrt_0. apply (after_answer _ _ _ _ 1 (factor_1 _)). rewrite Rmult_0_l.
      assert (H : x * x = 0) by lra. assert (H0 : y * y = 0) by lra. assert (H1 : z * z = 0) by lra.
      replace (x * a * (x * a) + y * b * (y * b) + z * d * (z * d)) with (x * x * (a * a) + y * y * (b * b) + z * z * (d * d)) in A by ring.
      rewrite H, H0, H1, !Rmult_0_l, !Rplus_0_l, sqrt_0 in A. exact A.
    - destruct (root_factor m (x * x + y * y + z * z) (x * a * (x * a) + y * b * (y * b) + z * d * (z * d))) as (FF & E); [lra|lra|lra|].
      apply (after_answer _ _ _ _ _ FF). rewrite E. exact A.
  Qed.
  Lemma counts_atan2 v w t t' : counts v t -> counts w t' -> counts (m_atan2 M v w) (o_atan2 (Nops p) t t').
  Proof.
    destruct t as [(x & j)|], t' as [(y & k)|]; try (intros; exact I). intros (Fv & a & Fa & Va) (Fw & b & Fb & Vb).
    cbn [Nops o_atan2]. destruct (negb _) eqn:D; [|exact I].
    destruct (Nat.eqb j 0) eqn:J; [|exact I]. apply Nat.eqb_eq in J. subst j. apply factor_0 in Fa. subst a.
    destruct (Nat.eqb k 0) eqn:K; [|exact I]. apply Nat.eqb_eq in K. subst k. apply factor_0 in Fb. subst b.
    rewrite Rmult_1_r in Va, Vb. cbn [andb]. apply (after_answer _ _ _ 0 1 (factor_1 0)). rewrite Rmult_1_r, <- Va, <- Vb.
    apply (lg_atan2 _ _ G); [assumption|assumption|]. rewrite Va, Vb. intros (E & L).
    unfold Reqb, Rleb in D. destruct (Req_EM_T x 0); [|contradiction]. destruct (Rle_dec y 0); [discriminate|contradiction].
  Qed.
  Lemma half_val : finite64 (o_half (b64ops M)) /\ val64 (o_half (b64ops M)) = / 2.
  Proof.
    split; [reflexivity|]. cbn [o_half b64ops].
    pose proof (binary_normalize_correct prec64 emax64 prec64_gt_0 prec64_lt_emax mode_NE 1 (-1) false) as H.
    cbv zeta in H. change (F2R _) with (1 * bpow radix2 (-1)) in H. change (bpow radix2 (-1)) with (/ 2) in H. rewrite Rmult_1_l in H.
    change (round _ _ _ (/ 2)) with (near64 (/ 2)) in H.
    assert (E : near64 (/ 2) = / 2). { apply near64_exact. apply (generic_format_bpow radix2 (FLT_exp (-1074) 53) (-1)). cbn. lia. }
    rewrite E in H. rewrite Rlt_bool_true in H; [apply H|]. rewrite Rabs_pos_eq by lra.
    apply Rlt_trans with (bpow radix2 0); [cbn; lra|apply bpow_lt; reflexivity].
  Qed.
  Lemma counts_all : arith_rel counts (b64ops M) (Nops p).
  Proof.
    constructor; intros; cbn [b64ops o_Z o_half o_add o_sub o_mul o_div o_neg o_pow o_sqrt o_cbrt o_cos o_sin o_tan
      o_acos o_asin o_atan o_atan2 o_hypot o_hypot3 o_cosh o_sinh o_tanh o_acosh o_asinh o_atanh o_exp o_log o_log2 o_log10].
    - cbn [Nops o_Z]. destruct (Z.leb_spec (Z.abs z) (2 ^ 53)); [|exact I]. destruct (of_Z_exact z H) as (F & V).
      split; [exact F|]. exists 1. split; [apply factor_1|]. rewrite V. ring.
    - split; [apply half_val|]. exists 1. split; [apply factor_1|]. etransitivity; [exact (proj2 half_val)|cbn; ring].
    - apply counts_add; assumption.
    - apply counts_sub; assumption.
    - apply (counts_mul a b); assumption.
    - apply (counts_div a b); assumption.
    - apply counts_neg; assumption.
    - apply counts_pow; assumption.
    - apply (counts_sqrt a); assumption.
    - apply counts_cbrt; assumption.
    - apply (counts_1 (m_cos M) cos everywhere (fun _ => True)); [apply G|auto|assumption].
    - apply (counts_1 (m_sin M) sin everywhere (fun _ => True)); [apply G|auto|assumption].
    - apply (counts_1 (m_tan M) tan _ (fun x => cos x <> 0)); [apply G| |assumption].
      intros x Hx. cbv beta in Hx. apply Bool.negb_true_iff in Hx. apply Reqb_no, Hx.
    - apply (counts_1 (m_acos M) acos open_unit (fun x => Rabs x < 1)); [apply G| |assumption]. intros x Hx. apply Rltb_true, Hx.
    - apply (counts_1 (m_asin M) asin open_unit (fun x => Rabs x < 1)); [apply G| |assumption]. intros x Hx. apply Rltb_true, Hx.
    - apply (counts_1 (m_atan M) atan everywhere (fun _ => True)); [apply G|auto|assumption].
    - apply counts_atan2; assumption.
    - apply counts_hypot; assumption.
    - apply counts_hypot3; assumption.
    - apply (counts_1 (m_cosh M) cosh everywhere (fun _ => True)); [apply G|auto|assumption].
    - apply (counts_1 (m_sinh M) sinh everywhere (fun _ => True)); [apply G|auto|assumption].
    - apply (counts_1 (m_tanh M) tanh everywhere (fun _ => True)); [apply G|auto|assumption].
    - apply (counts_1 (m_acosh M) Racosh _ (fun x => 1 < x)); [apply G| |assumption]. intros x Hx. apply Rltb_true, Hx.
    - apply (counts_1 (m_asinh M) arcsinh everywhere (fun _ => True)); [apply G|auto|assumption].
    - apply (counts_1 (m_atanh M) Ratanh open_unit (fun x => Rabs x < 1)); [apply G| |assumption]. intros x Hx. apply Rltb_true, Hx.
    - apply (counts_1 (m_exp M) exp everywhere (fun _ => True)); [apply G|auto|assumption].
    - apply (counts_1 (m_log M) ln positive (fun x => 0 < x)); [apply G| |assumption]. intros x Hx. apply Rltb_true, Hx.
    - apply (counts_1 (m_log2 M) (fun x => ln x / ln 2) positive (fun x => 0 < x)); [apply G| |assumption]. intros x Hx. apply Rltb_true, Hx.
    - apply (counts_1 (m_log10 M) (fun x => ln x / ln 10) positive (fun x => 0 < x)); [apply G| |assumption]. intros x Hx. apply Rltb_true, Hx.
  Qed.
End Libm.

Lemma after_value m y k : is_value y (after m y k).
Proof. unfold after. destruct (Reqb y 0); [reflexivity|]. destruct (fits y k); [reflexivity|exact I]. Qed.
Lemma value_all p : arith_rel is_value Rops (Nops p).
Proof.
  assert (V1 : forall F ok x t, is_value x t -> is_value (F x) (count1 p F ok t)).
  { intros F ok x [(y & k)|] H; [|exact I]. cbn in H. subst y. cbn. destruct (_ && _); [apply after_value|exact I]. }
  assert (VA : forall x t y t', is_value x t -> is_value y t' -> is_value (x + y) (add_counted t t')).
  { intros x [(x' & j)|] y [(y' & k)|] H H'; try exact I. cbn in H, H'. subst x' y'. cbn.
    destruct (Reqb x 0) eqn:Zx; [apply Reqb_yes in Zx; subst; cbn; ring|]. destruct (Reqb y 0) eqn:Zy; [apply Reqb_yes in Zy; subst; cbn; ring|].
    destruct (_ && _); [apply after_value|]. destruct (Rltb _ _); [apply after_value|]. destruct (_ || _); [apply after_value|exact I]. }
  constructor; intros; cbn [Rops Nops o_Z o_half o_add o_sub o_mul o_div o_neg o_pow o_sqrt o_cbrt o_cos o_sin o_tan
    o_acos o_asin o_atan o_atan2 o_hypot o_hypot3 o_cosh o_sinh o_tanh o_acosh o_asinh o_atanh o_exp o_log o_log2 o_log10];
  try (apply V1; assumption).
  - destruct (_ <=? _)%Z; [reflexivity|exact I].
  - reflexivity.
  - apply VA; assumption.
  - apply VA; [assumption|]. destruct b' as [(y & k)|]; [|exact I]. cbn in *. subst. reflexivity.
  - destruct a' as [(x & j)|], b' as [(y & k)|]; try exact I. cbn in H, H0. subst. apply after_value.
  - destruct a' as [(x & j)|], b' as [(y & k)|]; try exact I. cbn in H, H0. subst. destruct (Reqb _ _); [exact I|apply after_value].
  - destruct a' as [(x & j)|]; [|exact I]. cbn in *. subst. reflexivity.
  - destruct a' as [(x & j)|], b' as [(y & k)|]; try exact I. cbn in H, H0. subst. destruct (_ && _); [apply after_value|exact I].
  - destruct a' as [(x & j)|]; [|exact I]. cbn in H. subst. destruct (Rleb _ _); [apply after_value|exact I].
  - destruct a' as [(x & j)|]; [|exact I]. cbn in H. subst. apply after_value.
  - destruct a' as [(x & j)|], b' as [(y & k)|]; try exact I. cbn in H, H0. subst. destruct (_ && _); [apply after_value|exact I].
  - destruct a' as [(x & j)|], b' as [(y & k)|]; try exact I. cbn in H, H0. subst. apply after_value.
  - destruct a' as [(x & j)|], b' as [(y & k)|], d' as [(z & l)|]; try exact I. cbn in H, H0, H1. subst. apply after_value.
  - apply (V1 (fun x => ln x / ln 2)); assumption.
  - apply (V1 (fun x => ln x / ln 10)); assumption.
Qed.

Lemma exactly64_counts v : counts v (exactly64 v).
Proof.
  unfold exactly64. destruct (is_finite v) eqn:F; [|exact I]. split; [exact F|]. exists 1. split; [apply factor_1|]. ring.
Qed.
Lemma exactly64_value v : is_value (val64 v) (exactly64 v).
Proof. unfold exactly64. destruct (is_finite v); [reflexivity|exact I]. Qed.
Lemma confirm x v t : is_value x t -> counts v t -> confirmed x v t.
Proof. destruct t as [(y & k)|]; [|intros; exact I]. cbn. intros -> H. auto. Qed.

Lemma relative_accuracy M p c vs e : let n := length vs in
  cfg_ok c -> size_ok c n -> vars_below n e -> no_abs e -> dom (emap val64 e) (at64 vs) -> libm_good M p ->
  exists r f g h rN fN gN hN G H,
    evaluate (b64ops M) c vs e = Ok r /\ shows c n r f g h /\
    evaluate (Nops p) c (map exactly64 vs) (emap exactly64 e) = Ok rN /\ shows c n rN fN gN hN /\
    let F := rev (emap val64 e) in let q := at64 vs in
    confirmed (F q) f fN /\
    (forall i, (i < n)%nat -> partial F i q (G i) /\ confirmed (G i) (g i) (gN i)) /\
    (c_ord c = 2%Z -> forall i j, (i < n)%nat -> (j < n)%nat -> partial2 F i j q (H i j) /\ confirmed (H i j) (h i j) (hN i j)).
Proof.
  intros n Hc SO HV NA D LG.
  destruct (certified (Nops p) is_value counts exactly64 M c e vs Hc SO HV NA (value_all p) (counts_all M p LG) exactly64_counts exactly64_value)
    as (r & f & g & h & rT & fT & gT & hT & G & H & E & S & ET & ST & C1 & C2 & C3 & W).
  destruct (W D) as (W1 & W2 & W3).
  exists r, f, g, h, rT, fT, gT, hT, G, H. do 4 (split; [assumption|]). cbv zeta. split; [|split].
  - apply confirm; assumption.
  - intros i Hi. destruct (W2 i Hi). split; [assumption|]. apply confirm; auto.
  - intros O2 i j Hi Hj. destruct (W3 O2 i j Hi Hj). split; [assumption|]. apply confirm; auto.
Qed.

(** [k] roundings change a number by a relative error of at most [k u / (1 - k u)]. *)
Lemma relative_error k v y : INR k * u64 <= / 16 -> accurate_to k v y ->
  Rabs (val64 v - y) <= INR k * u64 / (1 - INR k * u64) * Rabs y.
Proof.
  intros K (_ & t & F & ->). destruct (factor_small k t K F) as (A & B).
  replace (y * t - y) with ((t - 1) * y) by ring. rewrite Rabs_mult. apply Rmult_le_compat_r; [apply Rabs_pos|].
  set (d := INR k * u64) in *. assert (0 <= d) by (unfold d; pose proof (pos_INR k); pose proof u64_small; nra).
  assert (E : / (1 - d) = 1 + d / (1 - d)) by (field; lra).
  assert (d <= d / (1 - d)).
  { apply Rmult_le_reg_r with (1 - d); [lra|]. unfold Rdiv. rewrite Rmult_assoc, Rinv_l by lra. nra. }
  apply Rabs_le. lra.
Qed.
Lemma of_real_answers r : answers 1 (of_real r) r.
Proof.
  split.
  - intros ->. destruct (of_real_ok 0) as (F & V); [rewrite near64_0, Rabs_R0; apply bpow_gt_0|]. rewrite near64_0 in V. auto.
  - intros (A & B). destruct (near_factor r) as (s & Fs & N); [eapply Rle_trans; [apply (bpow_le radix2 (-1022) (-1021)); lia|exact A]|].
    destruct (of_real_ok r) as (F & V). { eapply Rle_lt_trans; [apply near64_le_bpow with (e := 1023%Z); [lia|exact B]|apply bpow_lt; reflexivity]. }
    split; [exact F|]. exists s. split; [exact Fs|]. rewrite V. exact N.
Qed.
Lemma exact_good : libm_good exact_libm 1.
Proof. constructor; intros v; intros; apply of_real_answers. Qed.
