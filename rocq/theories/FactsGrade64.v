(** Proofs for C98: seeds multiplied by reals, signs and powers of two. *)
From Coq Require Import ZArith List Bool Lia Reals Lra Psatz.
From Flocq Require Import Core BinarySingleNaN Plus_error.
From Verif Require Import Outcome Scalar Float64 Model Spec RealOps CreateRep Ops64 B64 ParamSpec ExprSpec ProgSpec Samples Facts64 GradeSpec FactsGrade.
Import ListNotations.
Open Scope R_scope.

#[local] Instance valid64g : Valid_exp fexp64 := fexp_correct prec64 emax64 prec64_gt_0.

(** ** reals *)
Lemma arith_eq {S} (O : Ops S) : arith_rel eq O O.
Proof. constructor; intros; subst; reflexivity. Qed.
Lemma order_eq {S} (O : Ops S) : order_rel eq O O.
Proof. constructor; intros; subst; reflexivity. Qed.
Lemma graded_R (s : nat -> R) : graded eq (fun i a b => b = s i * a) (fun i j a b => b = s i * s j * a) Rops Rops.
Proof.
  constructor; [apply arith_eq|apply order_eq|..]; cbn; intros; subst; try ring. split; ring.
Qed.

(** ** signs *)
Definition zeq (a b : b64) : Prop := (exists p q, a = B754_zero p /\ b = B754_zero q) \/ a = b.
Lemma zeq_refl a : zeq a a. Proof. right. reflexivity. Qed.
Lemma zeq_trans a b d : zeq a b -> zeq b d -> zeq a d.
Proof.
  intros [(p & q & -> & ->)| ->] [(p' & q' & E & ->)|<-]; [left; eauto|left; eauto|left; eauto|right; reflexivity].
Qed.
Lemma zeq_neg a b : zeq a b -> zeq (b64_neg a) (b64_neg b).
Proof. intros [(p & q & -> & ->)| ->]; [left; exists (negb p), (negb q); auto|right; reflexivity]. Qed.
Lemma zeq_add a a' b b' : zeq a a' -> zeq b b' -> zeq (b64_add a b) (b64_add a' b').
Proof.
  intros A B. apply zeq_trans with (b64_add a' b).
  - destruct A as [(p & q & -> & ->)| ->]; [|apply zeq_refl].
    destruct b as [s|s| |s m e H]; try apply zeq_refl. left. cbn. destruct p, q, s; cbn; eauto.
  - destruct B as [(p & q & -> & ->)| ->]; [|apply zeq_refl].
    destruct a' as [s|s| |s m e H]; try apply zeq_refl. left. cbn. destruct p, q, s; cbn; eauto.
Qed.
Lemma zeq_mul a a' b b' : zeq a a' -> zeq b b' -> zeq (b64_mul a b) (b64_mul a' b').
Proof.
  intros A B. apply zeq_trans with (b64_mul a' b).
  - destruct A as [(p & q & -> & ->)| ->]; [|apply zeq_refl].
    destruct b as [s|s| |s m e H]; try apply zeq_refl; left; cbn; eauto.
  - destruct B as [(p & q & -> & ->)| ->]; [|apply zeq_refl].
    destruct a' as [s|s| |s m e H]; try apply zeq_refl; left; cbn; eauto.
Qed.
Lemma zero_of (a : b64) : is_finite a = true -> B2R a = 0 -> exists s, a = B754_zero s.
Proof.
  destruct a as [s|s| |s m e H]; try discriminate; [eauto|]. intros _ E. exfalso.
  cbn [B2R] in E. apply eq_0_F2R in E. destruct s; discriminate.
Qed.
Lemma zeq_real (a b : b64) : is_finite a = true -> is_finite b = true -> B2R a = B2R b -> zeq a b.
Proof.
  intros Fa Fb E. destruct (Req_dec (B2R a) 0) as [Z|N].
  - destruct (zero_of a Fa Z) as (p & ->). destruct (zero_of b Fb (eq_trans (eq_sym E) Z)) as (q & ->). left. eauto.
  - right. apply B2R_inj; [apply is_finite_strict_B2R; congruence..|exact E].
Qed.
Lemma add_over (x y : b64) : finite64 x -> finite64 y -> bpow radix2 1024 <= Rabs (near64 (val64 x + val64 y)) ->
  b64_add x y = B754_infinity (Bsign x) /\ Bsign x = Bsign y.
Proof.
  intros Fx Fy B. unfold val64, finite64, b64_add in *.
  pose proof (Bplus_correct prec64 emax64 prec64_gt_0 prec64_lt_emax mode_NE x y Fx Fy) as HC. cbn [round_mode] in HC.
  change (round radix2 _ _ (B2R x + B2R y)) with (near64 (B2R x + B2R y)) in HC.
  rewrite Rlt_bool_false in HC by exact B. destruct HC as (H1 & H2). split; [apply of_SF_inf, H1|exact H2].
Qed.
Lemma near64_opp x : near64 (- x) = - near64 x.
Proof. apply round_NE_opp. Qed.
Lemma zeq_add_neg a b : zeq (b64_add (b64_neg a) (b64_neg b)) (b64_neg (b64_add a b)).
Proof.
  destruct (is_finite a) eqn:Fa; [destruct (is_finite b) eqn:Fb|].
  - assert (Fa' : is_finite (b64_neg a) = true) by (unfold b64_neg; rewrite is_finite_Bopp; exact Fa).
    assert (Fb' : is_finite (b64_neg b) = true) by (unfold b64_neg; rewrite is_finite_Bopp; exact Fb).
    assert (V : near64 (val64 (b64_neg a) + val64 (b64_neg b)) = - near64 (val64 a + val64 b)).
    { unfold val64, b64_neg. rewrite !B2R_Bopp, <- near64_opp. f_equal. ring. }
    destruct (Rlt_or_le (Rabs (near64 (val64 a + val64 b))) (bpow radix2 1024)) as [L|L].
    + destruct (add_ok a b Fa Fb L) as (F1 & E1).
      destruct (add_ok (b64_neg a) (b64_neg b) Fa' Fb') as (F2 & E2); [rewrite V, Rabs_Ropp; exact L|].
      unfold finite64, val64 in *. apply zeq_real; [exact F2|unfold b64_neg at 1; rewrite is_finite_Bopp; exact F1|].
      unfold b64_neg at 3. rewrite B2R_Bopp, E1, E2. exact V.
    + destruct (add_over a b Fa Fb L) as (-> & E). destruct (add_over (b64_neg a) (b64_neg b) Fa' Fb') as (-> & _); [rewrite V, Rabs_Ropp; exact L|].
      right. unfold b64_neg. rewrite Bsign_Bopp by (destruct a; try discriminate; reflexivity). reflexivity.
  - right. destruct a as [s|s| |s m e H], b as [s'|s'| |s' m' e' H']; try discriminate; try reflexivity; destruct s, s'; reflexivity.
  - right. destruct a as [s|s| |s m e H], b as [s'|s'| |s' m' e' H']; try discriminate; try reflexivity; destruct s, s'; reflexivity.
Qed.
Lemma zeq_mul_neg a b : zeq (b64_mul (b64_neg a) b) (b64_neg (b64_mul a b)).
Proof.
  destruct (is_finite a) eqn:Fa; [destruct (is_finite b) eqn:Fb|].
  - assert (Fa' : is_finite (b64_neg a) = true) by (unfold b64_neg; rewrite is_finite_Bopp; exact Fa).
    assert (V : near64 (val64 (b64_neg a) * val64 b) = - near64 (val64 a * val64 b)).
    { unfold val64, b64_neg. rewrite !B2R_Bopp, <- near64_opp. f_equal. ring. }
    destruct (Rlt_or_le (Rabs (near64 (val64 a * val64 b))) (bpow radix2 1024)) as [L|L].
    + destruct (mul_ok a b Fa Fb L) as (F1 & E1).
      destruct (mul_ok (b64_neg a) b Fa' Fb) as (F2 & E2); [rewrite V, Rabs_Ropp; exact L|].
      unfold finite64, val64 in *. apply zeq_real; [exact F2|unfold b64_neg at 1; rewrite is_finite_Bopp; exact F1|].
      unfold b64_neg at 2. rewrite B2R_Bopp, E1, E2. exact V.
    + rewrite (mul_over a b L). rewrite (mul_over (b64_neg a) b) by (rewrite V, Rabs_Ropp; exact L).
      right. unfold b64_neg. rewrite Bsign_Bopp by (destruct a; try discriminate; reflexivity). cbn. f_equal.
      destruct (Bsign a), (Bsign b); reflexivity.
  - right. destruct a as [s|s| |s m e H], b as [s'|s'| |s' m' e' H']; try discriminate; try reflexivity; destruct s, s'; reflexivity.
  - right. destruct a as [s|s| |s m e H], b as [s'|s'| |s' m' e' H']; try discriminate; try reflexivity; destruct s, s'; reflexivity.
Qed.
Definition sg (s : bool) (a : b64) : b64 := if s then b64_neg a else a.
Lemma flipped_zeq s a b : flipped s a b <-> zeq b (sg s a).
Proof.
  unfold flipped, zeq, sg. split.
  - intros [(p & q & -> & ->)|E]; [left; destruct s; cbn; eauto|right; exact E].
  - intros [(p & q & -> & E)|E]; [|right; exact E]. left. destruct s; [|subst; eauto].
    destruct a; try discriminate; eauto.
Qed.
Lemma zeq_sym a b : zeq a b -> zeq b a.
Proof. intros [(p & q & -> & ->)| ->]; [left; eauto|right; reflexivity]. Qed.
Lemma zeq_sg s a b : zeq a b -> zeq (sg s a) (sg s b).
Proof. destruct s; [apply zeq_neg|auto]. Qed.
Lemma sg_add s a b : zeq (b64_add (sg s a) (sg s b)) (sg s (b64_add a b)).
Proof. destruct s; [apply zeq_add_neg|apply zeq_refl]. Qed.
Lemma sg_mul s a b : zeq (b64_mul (sg s a) b) (sg s (b64_mul a b)).
Proof. destruct s; [apply zeq_mul_neg|apply zeq_refl]. Qed.
Lemma sg_sg s t a : sg s (sg t a) = sg (xorb s t) a.
Proof. destruct s, t; cbn; rewrite ?b64_neg_neg; reflexivity. Qed.
Lemma flip_add s a a' b b' : flipped s a a' -> flipped s b b' -> flipped s (b64_add a b) (b64_add a' b').
Proof.
  rewrite !flipped_zeq. intros A B. eapply zeq_trans; [apply zeq_add; eassumption|apply sg_add].
Qed.
Lemma flip_neg s a a' : flipped s a a' -> flipped s (b64_neg a) (b64_neg a').
Proof.
  rewrite !flipped_zeq. intros A. apply zeq_neg in A. destruct s; cbn [sg] in *; [rewrite b64_neg_neg in *|]; exact A.
Qed.
Lemma flip_sub s a a' b b' : flipped s a a' -> flipped s b b' -> flipped s (b64_sub a b) (b64_sub a' b').
Proof. intros A B. rewrite !b64_sub_neg. apply flip_add; [exact A|now apply flip_neg]. Qed.
Lemma flip_mul s t a a' b b' : flipped s a a' -> flipped t b b' -> flipped (xorb s t) (b64_mul a b) (b64_mul a' b').
Proof.
  rewrite !flipped_zeq. intros A B. eapply zeq_trans; [apply zeq_mul; eassumption|].
  eapply zeq_trans; [apply sg_mul|]. rewrite <- sg_sg. apply zeq_sg.
  rewrite b64_mul_comm. eapply zeq_trans; [apply sg_mul|]. apply zeq_sg. rewrite b64_mul_comm. apply zeq_refl.
Qed.
Lemma graded_signs (M : libm) (s : nat -> bool) :
  graded eq (fun i => flipped (s i)) (fun i j => flipped (xorb (s i) (s j))) (b64ops M) (b64ops M).
Proof.
  assert (Z : forall t, flipped t (b64_of_Z 0) (b64_of_Z 0)) by (intros t; left; exists false, false; split; reflexivity).
  assert (E : forall a, flipped false a a) by (intros a; right; reflexivity).
  constructor; [apply arith_eq|apply order_eq|..]; cbn [b64ops o_Z o_add o_sub o_neg o_mul]; intros; subst;
    eauto using flip_add, flip_sub, flip_neg.
  - rewrite <- (xorb_false_l (s i)). now apply flip_mul.
  - rewrite <- (xorb_false_r (s i)). now apply flip_mul.
  - rewrite <- (xorb_false_l (xorb (s i) (s j))). now apply flip_mul.
  - rewrite <- (xorb_false_r (xorb (s i) (s j))). now apply flip_mul.
  - split; [now apply flip_mul|]. rewrite xorb_comm. now apply flip_mul.
Qed.

(** ** powers of two *)
Lemma near64_scale x k : (-1021 <= mag radix2 x)%Z -> (-1021 <= mag radix2 x + k)%Z -> near64 (x * bpow radix2 k) = near64 x * bpow radix2 k.
Proof.
  intros H1 H2. destruct (Req_dec x 0) as [->|N]. { now rewrite Rmult_0_l, near64_0, Rmult_0_l. }
  unfold near64, round, scaled_mantissa, cexp. rewrite mag_mult_bpow by exact N.
  assert (E : forall e, (-1021 <= e)%Z -> FLT_exp (-1074) 53 e = (e - 53)%Z).
  { intros e He. unfold FLT_exp. lia. }
  rewrite !E by assumption.
  unfold F2R; cbn [Fnum Fexp]. rewrite Rmult_assoc, <- bpow_plus.
  replace (k + - (mag radix2 x + k - 53))%Z with (- (mag radix2 x - 53))%Z by lia.
  rewrite Rmult_assoc, <- bpow_plus. f_equal. f_equal. lia.
Qed.
Lemma finite_bounds s m e H : let r := B754_finite s m e H : b64 in
  bpow radix2 (Z.log2 (Zpos m) + e) <= Rabs (val64 r) < bpow radix2 (Z.log2 (Zpos m) + e + 1).
Proof.
  cbv zeta. unfold val64. rewrite abs_B2R_finite || cbn [B2R]. rewrite <- F2R_Zabs. rewrite abs_cond_Zopp. cbn [Z.abs].
  pose proof (Z.log2_spec (Zpos m) (Pos2Z.is_pos m)) as (L1 & L2). pose proof (Z.log2_nonneg (Zpos m)).
  unfold F2R; cbn [Fnum Fexp].
  replace (Z.log2 (Zpos m) + e + 1)%Z with (Z.succ (Z.log2 (Zpos m)) + e)%Z by lia. rewrite !bpow_plus.
  rewrite (bpow_Z (Z.log2 (Zpos m))), (bpow_Z (Z.succ (Z.log2 (Zpos m)))) by lia.
  pose proof (bpow_gt_0 radix2 e). apply IZR_le in L1. apply IZR_lt in L2.
  split; [apply Rmult_le_compat_r; [lra|exact L1]|apply Rmult_lt_compat_r; [lra|exact L2]].
Qed.

Section Shift.
  Context (K : Z) (HK : (0 <= K)%Z).
  (** Rounding commutes with the shift as long as the result is roomy and not zero. *)
  Lemma roomy_scale x k (r : b64) : roomy K r = true -> zero_b r = false -> val64 r = near64 x -> (Z.abs k <= K)%Z ->
    near64 (x * bpow radix2 k) = near64 x * bpow radix2 k /\ Rabs (near64 x * bpow radix2 k) < bpow radix2 1024.
  Proof.
    intros R Z0 E Hk. destruct r as [s|s| |s m e H]; try discriminate. cbn [roomy] in R.
    apply andb_prop in R. destruct R as (R1 & R2). apply Z.leb_le in R1, R2.
    destruct (finite_bounds s m e H) as (B1 & B2). rewrite E in B1, B2.
    assert (X : bpow radix2 (-1022 + K) < Rabs x).
    { destruct (Rlt_or_le (bpow radix2 (-1022 + K)) (Rabs x)) as [L|L]; [exact L|exfalso].
      apply near64_le_bpow in L; [|lia]. assert (bpow radix2 (-1022 + K) < bpow radix2 (Z.log2 (Zpos m) + e)) by (apply bpow_lt; lia). lra. }
    assert (MX : (-1021 + K <= mag radix2 x)%Z).
    { replace (-1021 + K)%Z with (-1022 + K + 1)%Z by lia. apply mag_ge_bpow. replace (-1022 + K + 1 - 1)%Z with (-1022 + K)%Z by lia. lra. }
    split; [apply near64_scale; lia|].
    rewrite Rabs_mult, (Rabs_pos_eq (bpow radix2 k)) by apply bpow_ge_0.
    apply Rlt_le_trans with (bpow radix2 (Z.log2 (Zpos m) + e + 1) * bpow radix2 k).
    - apply Rmult_lt_compat_r; [apply bpow_gt_0|exact B2].
    - rewrite <- bpow_plus. apply bpow_le. lia.
  Qed.
  Lemma add_sign (x y : b64) : finite64 x -> finite64 y -> Rabs (near64 (val64 x + val64 y)) < bpow radix2 1024 ->
    Bsign (b64_add x y) = match Rcompare (val64 x + val64 y) 0 with Eq => andb (Bsign x) (Bsign y) | Lt => true | Gt => false end.
  Proof.
    intros Fx Fy B. unfold finite64, val64, b64_add in *.
    pose proof (Bplus_correct prec64 emax64 prec64_gt_0 prec64_lt_emax mode_NE x y Fx Fy) as HC. cbn [round_mode] in HC.
    change (round radix2 _ _ (B2R x + B2R y)) with (near64 (B2R x + B2R y)) in HC.
    rewrite Rlt_bool_true in HC by exact B. apply HC.
  Qed.
  Lemma finite_add (x y : b64) : finite64 x -> finite64 y -> finite64 (b64_add x y) -> Rabs (near64 (val64 x + val64 y)) < bpow radix2 1024.
  Proof.
    intros Fx Fy F. destruct (Rlt_or_le (Rabs (near64 (val64 x + val64 y))) (bpow radix2 1024)) as [L|L]; [exact L|].
    destruct (add_over x y Fx Fy L) as (E & _). rewrite E in F. discriminate.
  Qed.
  Lemma roomy_finite r : roomy K r = true -> finite64 r.
  Proof. destruct r; try discriminate; reflexivity. Qed.
  Lemma zero_b_val r : zero_b r = true -> val64 r = 0.
  Proof. destruct r; try discriminate; reflexivity. Qed.
  Lemma shift_add k a a' b b' : (Z.abs k <= K)%Z -> shifted k a a' -> shifted k b b' -> roomy K (b64_add a b) = true ->
    shifted k (b64_add a b) (b64_add a' b').
  Proof.
    intros Hk (Fa & Fa' & Ea & Sa) (Fb & Fb' & Eb & Sb) R. pose proof (roomy_finite _ R) as Fr.
    pose proof (finite_add a b Fa Fb Fr) as L. destruct (add_ok a b Fa Fb L) as (_ & E).
    fold (val64 a) (val64 a') (val64 b) (val64 b') in *.
    assert (SUM : val64 a' + val64 b' = (val64 a + val64 b) * bpow radix2 k) by (rewrite Ea, Eb; ring).
    assert (C : near64 ((val64 a + val64 b) * bpow radix2 k) = near64 (val64 a + val64 b) * bpow radix2 k /\
                Rabs (near64 (val64 a + val64 b) * bpow radix2 k) < bpow radix2 1024).
    { destruct (zero_b (b64_add a b)) eqn:Z0; [|eapply roomy_scale; eauto].
      apply zero_b_val in Z0. rewrite E in Z0.
      assert (val64 a + val64 b = 0) as ->.
      { unfold val64, near64 in *. apply (round_plus_eq_0 radix2 (FLT_exp (-1074) 53) ZnearestE); [apply generic_format_B2R|apply generic_format_B2R|exact Z0]. }
      rewrite Rmult_0_l, near64_0, Rmult_0_l, Rabs_R0. split; [reflexivity|apply bpow_gt_0]. }
    destruct C as (C1 & C2).
    assert (L' : Rabs (near64 (val64 a' + val64 b')) < bpow radix2 1024) by (rewrite SUM, C1; exact C2).
    destruct (add_ok a' b' Fa' Fb' L') as (F' & E').
    split; [exact Fr|]. split; [exact F'|]. split.
    - fold (val64 (b64_add a' b')) (val64 (b64_add a b)). rewrite E', E, SUM. exact C1.
    - rewrite (add_sign a b), (add_sign a' b') by assumption. rewrite SUM, Sa, Sb.
      replace 0 with (0 * bpow radix2 k) at 1 by ring. rewrite Rcompare_mult_r by apply bpow_gt_0. reflexivity.
  Qed.
  Lemma shift_neg k a a' : shifted k a a' -> shifted k (b64_neg a) (b64_neg a').
  Proof.
    intros (Fa & Fa' & Ea & Sa). unfold shifted, b64_neg. rewrite !is_finite_Bopp, !B2R_Bopp, Ea, !Bsign_Bopp, Sa by (destruct a, a'; try discriminate; reflexivity).
    repeat split; try assumption. ring.
  Qed.
  Lemma shift_sub k a a' b b' : (Z.abs k <= K)%Z -> shifted k a a' -> shifted k b b' -> roomy K (b64_sub a b) = true ->
    shifted k (b64_sub a b) (b64_sub a' b').
  Proof. rewrite !b64_sub_neg. intros Hk A B. apply shift_add; [exact Hk|exact A|now apply shift_neg]. Qed.
  Lemma finite_mul (x y : b64) : finite64 (b64_mul x y) -> Rabs (near64 (val64 x * val64 y)) < bpow radix2 1024.
  Proof.
    intros F. destruct (Rlt_or_le (Rabs (near64 (val64 x * val64 y))) (bpow radix2 1024)) as [L|L]; [exact L|].
    rewrite (mul_over x y L) in F. discriminate.
  Qed.
  Lemma mul_sign (x y : b64) : finite64 x -> finite64 y -> Bsign (b64_mul x y) = xorb (Bsign x) (Bsign y).
  Proof.
    intros Fx Fy. destruct (Rlt_or_le (Rabs (near64 (val64 x * val64 y))) (bpow radix2 1024)) as [L|L]; [|now rewrite (mul_over x y L)].
    destruct (mul_ok x y Fx Fy L) as (F & _). unfold finite64, val64, b64_mul in *.
    pose proof (Bmult_correct prec64 emax64 prec64_gt_0 prec64_lt_emax mode_NE x y) as HC. cbn [round_mode] in HC.
    change (round radix2 _ _ (B2R x * B2R y)) with (near64 (B2R x * B2R y)) in HC.
    rewrite Rlt_bool_true in HC by exact L. apply HC. destruct (Bmult mode_NE x y); try discriminate; reflexivity.
  Qed.
  Lemma finite_mul_args (x y : b64) : finite64 (b64_mul x y) -> finite64 x /\ finite64 y.
  Proof.
    unfold finite64. intros F. destruct x as [s|s| |s m e H], y as [s'|s'| |s' m' e' H']; try discriminate; split; reflexivity.
  Qed.
  Lemma shift_mul k l a a' b b' : (Z.abs (k + l) <= K)%Z -> shifted k a a' -> shifted l b b' -> roomy K (b64_mul a b) = true ->
    negb (zero_b (b64_mul a b)) || zero_b a || zero_b b = true -> shifted (k + l) (b64_mul a b) (b64_mul a' b').
  Proof.
    intros Hk (Fa & Fa' & Ea & Sa) (Fb & Fb' & Eb & Sb) R NZ. pose proof (roomy_finite _ R) as Fr.
    pose proof (finite_mul a b Fr) as L. destruct (mul_ok a b Fa Fb L) as (_ & E).
    fold (val64 a) (val64 a') (val64 b) (val64 b') in *.
    assert (PRD : val64 a' * val64 b' = (val64 a * val64 b) * bpow radix2 (k + l)) by (rewrite Ea, Eb, bpow_plus; ring).
    assert (C : near64 ((val64 a * val64 b) * bpow radix2 (k + l)) = near64 (val64 a * val64 b) * bpow radix2 (k + l) /\
                Rabs (near64 (val64 a * val64 b) * bpow radix2 (k + l)) < bpow radix2 1024).
    { destruct (zero_b (b64_mul a b)) eqn:Z0; [|eapply roomy_scale; eauto].
      assert (val64 a * val64 b = 0) as ->.
      { cbn in NZ. apply orb_prop in NZ. destruct NZ as [N|N]; apply zero_b_val in N; rewrite N; ring. }
      rewrite Rmult_0_l, near64_0, Rmult_0_l, Rabs_R0. split; [reflexivity|apply bpow_gt_0]. }
    destruct C as (C1 & C2).
    assert (L' : Rabs (near64 (val64 a' * val64 b')) < bpow radix2 1024) by (rewrite PRD, C1; exact C2).
    destruct (mul_ok a' b' Fa' Fb' L') as (F' & E').
    split; [exact Fr|]. split; [exact F'|]. split.
    - fold (val64 (b64_mul a' b')) (val64 (b64_mul a b)). rewrite E', E, PRD. exact C1.
    - rewrite (mul_sign a b), (mul_sign a' b') by assumption. rewrite Sa, Sb. reflexivity.
  Qed.
  Lemma shift_0 a : is_finite a = true -> shifted 0 a a.
  Proof. intros F. repeat split; try assumption. cbn. ring. Qed.

  Context (M : libm) (k : nat -> Z) (Hk : forall i, (2 * Z.abs (k i) <= K)%Z).
  Definition same_as (x : marked) (b : b64) : Prop := fst x = b.
  Definition shift_if (l : Z) (x : marked) (b : b64) : Prop := snd x = true -> shifted l (fst x) b.
  Lemma sum_if l f : (forall a a' b b', shifted l a a' -> shifted l b b' -> roomy K (f a b) = true -> shifted l (f a b) (f a' b')) ->
    forall a a' b b', shift_if l a a' -> shift_if l b b' -> shift_if l (mk_sum K f a b) (f a' b').
  Proof.
    intros H [a p] a' [b q] b' A B E. cbn in *. apply andb_prop in E. destruct E as (E & R). apply andb_prop in E. destruct E as (-> & ->). auto.
  Qed.
  Lemma mul_if l l' a a' b b' : (Z.abs (l + l') <= K)%Z -> shift_if l a a' -> shift_if l' b b' -> shift_if (l + l') (mk_mul K a b) (b64_mul a' b').
  Proof.
    destruct a as [a p], b as [b q]. intros Hl A B E. cbn in *. apply andb_prop in E. destruct E as (E & N). apply andb_prop in E. destruct E as (E & R).
    apply andb_prop in E. destruct E as (-> & ->). apply shift_mul; auto.
  Qed.
  Lemma mul_if0 l a a' b b' : (Z.abs l <= K)%Z -> same_as a a' -> shift_if l b b' -> shift_if l (mk_mul K a b) (b64_mul a' b').
  Proof.
    destruct a as [a p], b as [b q]. unfold same_as. cbn [fst]. intros Hl <- B E. cbn in *. apply andb_prop in E. destruct E as (E & N). apply andb_prop in E. destruct E as (E & R).
    apply andb_prop in E. destruct E as (-> & ->). change l with (0 + l)%Z. apply shift_mul; auto.
    apply shift_0. apply roomy_finite, finite_mul_args in R. apply R.
  Qed.
  Lemma mul_if0r l a a' b b' : (Z.abs l <= K)%Z -> shift_if l a a' -> same_as b b' -> shift_if l (mk_mul K a b) (b64_mul a' b').
  Proof.
    destruct a as [a p], b as [b q]. unfold same_as. cbn [fst]. intros Hl A <- E. cbn in *. apply andb_prop in E. destruct E as (E & N). apply andb_prop in E. destruct E as (E & R).
    apply andb_prop in E. destruct E as (-> & ->). replace l with (l + 0)%Z by lia. apply shift_mul; auto; [lia|].
    apply shift_0. apply roomy_finite, finite_mul_args in R. apply R.
  Qed.
  Lemma arith_marked : arith_rel same_as (marked_ops K M) (b64ops M).
  Proof.
    constructor; unfold same_as; intros; cbn; subst; reflexivity.
  Qed.
  Lemma order_marked : order_rel same_as (marked_ops K M) (b64ops M).
  Proof. constructor; unfold same_as; intros; cbn; subst; reflexivity. Qed.
  Lemma graded_marked : graded same_as (fun _ => same_as) (fun _ _ => same_as) (marked_ops K M) (b64ops M).
  Proof. constructor; [apply arith_marked|apply order_marked|..]; unfold same_as; intros; cbn; subst; auto. Qed.
  Lemma graded_shift : graded same_as (fun i => shift_if (k i)) (fun i j => shift_if (k i + k j)) (marked_ops K M) (b64ops M).
  Proof.
    assert (Z : forall t, shift_if t (b64_of_Z 0, true) (b64_of_Z 0)).
    { intros t _. split; [reflexivity|]. split; [reflexivity|]. split; [|reflexivity]. cbn. ring. }
    assert (K1 : forall i, (Z.abs (k i) <= K)%Z) by (intros i; specialize (Hk i); lia).
    assert (K2 : forall i j, (Z.abs (k i + k j) <= K)%Z) by (intros i j; pose proof (Hk i); pose proof (Hk j); lia).
    constructor; [apply arith_marked|apply order_marked|..]; cbn [marked_ops b64ops o_Z o_add o_sub o_neg o_mul]; intros.
    - apply Z. - apply Z.
    - apply sum_if; auto. intros. now apply shift_add.
    - apply sum_if; auto. intros. now apply shift_add.
    - apply sum_if; auto. intros. now apply shift_sub.
    - apply sum_if; auto. intros. now apply shift_sub.
    - intros E. apply shift_neg. auto.
    - intros E. apply shift_neg. auto.
    - now apply mul_if0. - now apply mul_if0r. - now apply mul_if0. - now apply mul_if0r.
    - split; [|rewrite (Z.add_comm (k j))]; now apply mul_if.
  Qed.
End Shift.

(** ** statements *)
Lemma expr_refl {S} (e : expr S) : expr_rel eq e e.
Proof.
  induction e as [i|s|u e IH|b e1 IH1 e2 IH2|e1 IH1 e2 IH2 e3 IH3]; cbn; auto. split; [|exact IH]. destruct u; cbn; auto.
Qed.
Lemma stmt_refl {S} (s : stmt S) : stmt_rel eq s s.
Proof.
  induction s; cbn; repeat split; auto.
  - destruct u; cbn; auto.
  - destruct k; cbn; auto.
  - destruct k; cbn; auto.
Qed.
Lemma real_seeds (c : cfg) (n : nat) (s : nat -> R) : cfg_ok c -> size_ok c n ->
  let scaled := num_graded eq (fun i a b => b = s i * a) (fun i j a b => b = s i * s j * a) c n in
  (forall e xs ys, vars_below (length xs) e -> Forall2 scaled xs ys ->
     exists r r', run Rops c n xs e = Ok r /\ run Rops c n ys e = Ok r' /\ scaled r r') /\
  (forall fuel p xs ys, regs_below (length xs) p -> Forall2 scaled xs ys ->
     match exec Rops c n fuel p xs, exec Rops c n fuel p ys with
     | Some m, Some m' => exists st st', m = Ok st /\ m' = Ok st' /\ Forall2 scaled st st'
     | None, None => True
     | _, _ => False
     end).
Proof.
  intros Hc SO scaled. split; intros.
  - eapply (graded_run _ _ _ _ _ (graded_R s)); eauto using expr_refl.
  - eapply (graded_exec _ _ _ _ _ (graded_R s)); eauto using stmt_refl.
Qed.
Lemma sign_seeds (M : libm) (c : cfg) (n : nat) (s : nat -> bool) : cfg_ok c -> size_ok c n ->
  let flips := num_graded eq (fun i => flipped (s i)) (fun i j => flipped (xorb (s i) (s j))) c n in
  (forall e xs ys, vars_below (length xs) e -> Forall2 flips xs ys ->
     exists r r', run (b64ops M) c n xs e = Ok r /\ run (b64ops M) c n ys e = Ok r' /\ flips r r') /\
  (forall fuel p xs ys, regs_below (length xs) p -> Forall2 flips xs ys ->
     match exec (b64ops M) c n fuel p xs, exec (b64ops M) c n fuel p ys with
     | Some m, Some m' => exists st st', m = Ok st /\ m' = Ok st' /\ Forall2 flips st st'
     | None, None => True
     | _, _ => False
     end).
Proof.
  intros Hc SO flips. split; intros.
  - eapply (graded_run _ _ _ _ _ (graded_signs M s)); eauto using expr_refl.
  - eapply (graded_exec _ _ _ _ _ (graded_signs M s)); eauto using stmt_refl.
Qed.

Section Certified.
  Context (K : Z) (M : libm) (c : cfg) (n : nat) (k : nat -> Z) (HK : (0 <= K)%Z) (Hk : forall i, (2 * Z.abs (k i) <= K)%Z)
          (Hc : cfg_ok c) (SO : size_ok c n).
  Local Notation same := (num_graded same_as (fun _ => same_as) (fun _ _ => same_as) c n).
  Local Notation shft := (num_graded same_as (fun i => shift_if (k i)) (fun i j => shift_if (k i + k j)) c n).
  Lemma shows_fun {S} (x : dd S) f g h f' g' h' : shows c n x f g h -> shows c n x f' g' h' ->
    f = f' /\ (forall i, (i < n)%nat -> g i = g' i) /\ (c_ord c = 2%Z -> forall i j, (i < n)%nat -> (j < n)%nat -> h i j = h' i j).
  Proof.
    intros (_ & A & B & C) (_ & A' & B' & C'). split; [congruence|]. split; intros.
    - specialize (B i H). specialize (B' i H). congruence.
    - specialize (C H i j H0 H1). specialize (C' H i j H0 H1). congruence.
  Qed.
  Lemma seeded_in xm x y : seeded c n k xm x y -> same xm x /\ shft xm y.
  Proof.
    intros ((fm & gm & hm & f & g & h & Sm & Sx & E & Eg & Eh) & (f1 & g1 & h1 & g' & h' & Sx' & Sy & Yg & Yh)).
    destruct (shows_fun x _ _ _ _ _ _ Sx Sx') as (<- & Ug & Uh). split.
    - exists fm, gm, hm, f, g, h. split; [exact Sm|]. split; [exact Sx|]. split; [exact E|]. unfold same_as. split.
      + intros i Hi. rewrite Eg by exact Hi. reflexivity.
      + intros Ho i j Hij Hj. rewrite Eh by assumption. reflexivity.
    - exists fm, gm, hm, f, g', h'. split; [exact Sm|]. split; [exact Sy|]. split; [exact E|]. unfold shift_if. split.
      + intros i Hi _. rewrite Eg, Ug by exact Hi. cbn. auto.
      + intros Ho i j Hij Hj _. rewrite Eh by assumption. cbn [fst]. rewrite Uh by (auto; lia). auto.
  Qed.
  Lemma certified_out xm x y : same xm x -> shft xm y -> certified c n k xm x y.
  Proof.
    intros (fm & gm & hm & f & g & h & Sm & Sx & E & Eg & Eh) (fm1 & gm1 & hm1 & f' & g' & h' & Sm1 & Sy & E' & Yg & Yh).
    destruct (shows_fun xm _ _ _ _ _ _ Sm Sm1) as (<- & Ug & Uh). unfold same_as in *.
    exists (fun i => snd (gm i)), (fun i j => snd (hm i j)). split.
    - exists fm, gm, hm, f, g, h. split; [exact Sm|]. split; [exact Sx|]. split; [exact E|]. split.
      + intros i Hi. rewrite <- Eg by exact Hi. apply surjective_pairing.
      + intros Ho i j Hij Hj. rewrite <- Eh by assumption. apply surjective_pairing.
    - rewrite E in E'. subst f'. exists f, g, h, g', h'. split; [exact Sx|]. split; [exact Sy|]. split.
      + intros i Hi T. specialize (Yg i Hi). rewrite <- Ug in Yg by exact Hi. specialize (Yg T). rewrite Eg in Yg by exact Hi. exact Yg.
      + intros Ho i j Hij Hj T. specialize (Yh Ho i j Hij Hj). rewrite <- Uh in Yh by (auto; lia). specialize (Yh T). rewrite Eh in Yh by assumption. exact Yh.
  Qed.
  Lemma seeded_all xm xs ys : Forall3 (seeded c n k) xm xs ys -> Forall2 same xm xs /\ Forall2 shft xm ys.
  Proof.
    induction 1 as [|a b d la lb ld R _ (IH1 & IH2)]; [split; constructor|]. destruct (seeded_in _ _ _ R). split; constructor; assumption.
  Qed.
  Lemma power_run em e xm xs ys : expr_rel (fun a b => fst a = b) em e -> vars_below (length xm) em -> Forall3 (seeded c n k) xm xs ys ->
    exists rm r r', run (marked_ops K M) c n xm em = Ok rm /\ run (b64ops M) c n xs e = Ok r /\ run (b64ops M) c n ys e = Ok r' /\
      certified c n k rm r r'.
  Proof.
    intros E V H. destruct (seeded_all _ _ _ H) as (H1 & H2).
    destruct (graded_run _ _ _ _ _ (graded_marked K M) c n Hc SO em e xm xs V E H1) as (rm & r & E1 & E2 & R1).
    destruct (graded_run _ _ _ _ _ (graded_shift K HK M k Hk) c n Hc SO em e xm ys V E H2) as (rm' & r' & E1' & E2' & R2).
    assert (rm' = rm) by congruence. subst rm'. exists rm, r, r'. repeat split; try assumption. now apply certified_out.
  Qed.
  Lemma power_exec fuel pm p xm xs ys : stmt_rel (fun a b => fst a = b) pm p -> regs_below (length xm) pm -> Forall3 (seeded c n k) xm xs ys ->
    match exec (marked_ops K M) c n fuel pm xm, exec (b64ops M) c n fuel p xs, exec (b64ops M) c n fuel p ys with
    | Some mm, Some m, Some m' => exists sm st st', mm = Ok sm /\ m = Ok st /\ m' = Ok st' /\ Forall3 (certified c n k) sm st st'
    | None, None, None => True
    | _, _, _ => False
    end.
  Proof.
    intros E V H. destruct (seeded_all _ _ _ H) as (H1 & H2).
    pose proof (graded_exec _ _ _ _ _ (graded_marked K M) c n Hc SO fuel pm p xm xs V E H1) as A.
    pose proof (graded_exec _ _ _ _ _ (graded_shift K HK M k Hk) c n Hc SO fuel pm p xm ys V E H2) as B.
    destruct (exec (marked_ops K M) c n fuel pm xm) as [mm|], (exec (b64ops M) c n fuel p xs) as [m|], (exec (b64ops M) c n fuel p ys) as [m'|]; try contradiction; [|exact I].
    destruct A as (sm & st & -> & -> & A), B as (sm' & st' & E' & -> & B). injection E' as <-.
    exists sm, st, st'. repeat split. clear H H1 H2. revert st' B. induction A as [|a b la lb R _ IH]; intros st' B; inversion B; subst; constructor; auto.
    now apply certified_out.
  Qed.
End Certified.

(** *** the range matters *)
Definition one64 : b64 := b64_of_Z 1.
Definition two_to (e : Z) : b64 := binary_normalize prec64 emax64 prec64_gt_0 prec64_lt_emax mode_NE 1 e false.
Definition one_var {S} (f g h : S) : dd S := mk 1%Z [Some f; Some g; Some h].
Lemma one_var_shows {S} (f g h : S) : shows dyn2 1 (one_var f g h) f (fun _ => g) (fun _ _ => h).
Proof.
  split.
  { split; [reflexivity|]. split; [reflexivity|]. split; [|vm_compute; discriminate].
    intros [|[|[|i]]] Hi; try (eexists; reflexivity). cbn in Hi. lia. }
  split; [reflexivity|]. split.
  - intros i Hi. assert (i = 0%nat) by lia. subst. reflexivity.
  - intros _ i j Hi Hj. assert (i = 0%nat) by lia. assert (j = 0%nat) by lia. subst. reflexivity.
Qed.
Lemma shifted_SF k (a b : b64) s m e e' : B2SF a = SpecFloat.S754_finite s m e -> B2SF b = SpecFloat.S754_finite s m e' -> (e' = e + k)%Z -> shifted k a b.
Proof.
  intros A B ->. destruct a; try discriminate. destruct b; try discriminate. cbn in A, B. injection A as -> -> ->. injection B as -> -> ->.
  split; [reflexivity|]. split; [reflexivity|]. split; [|reflexivity]. cbn [B2R]. unfold F2R; cbn [Fnum Fexp]. rewrite bpow_plus. ring.
Qed.
Lemma shifted_SF_inv k (a b : b64) s m e z : B2SF a = SpecFloat.S754_finite s m e -> B2SF b = SpecFloat.S754_zero z -> ~ shifted k a b.
Proof.
  intros A B (_ & _ & E & _). destruct b; try discriminate. cbn [B2R] in E. destruct a as [| | |s' m' e' H]; try discriminate.
  symmetry in E. apply Rmult_integral in E. destruct E as [E|E]; [|pose proof (bpow_gt_0 radix2 k); lra].
  cbn [B2R] in E. apply eq_0_F2R in E. destruct s'; discriminate.
Qed.
Definition square {S} : expr S := EB Bmul (EVar 0) (EVar 0).
Lemma seed_ok k g : shifted k one64 g ->
  shifted_num dyn2 1 (fun _ => k) (one_var one64 one64 (b64_of_Z 0)) (one_var one64 g (b64_of_Z 0)) (fun _ => true) (fun _ _ => true).
Proof.
  intros H. exists one64, (fun _ => one64), (fun _ _ => b64_of_Z 0), (fun _ => g), (fun _ _ => b64_of_Z 0).
  split; [apply one_var_shows|]. split; [apply one_var_shows|]. split; [auto|]. intros _ i j _ _ _.
  split; [reflexivity|]. split; [reflexivity|]. split; [|reflexivity]. cbn. ring.
Qed.
Definition second (m : res (dd b64)) : option SpecFloat.spec_float :=
  match (r <- m ;; get_h dyn2 r 0 0) with Ok v => Some (B2SF v) | _ => None end.
Lemma range_needed : ~ (forall (M : libm) (c : cfg) (n : nat) (k : nat -> Z) (e : expr b64) (xs ys : list (dd b64)) (r r' : dd b64),
  let all := fun x y => shifted_num c n k x y (fun _ => true) (fun _ _ => true) in
  cfg_ok c -> size_ok c n -> vars_below (length xs) e -> Forall2 all xs ys ->
  run (b64ops M) c n xs e = Ok r -> run (b64ops M) c n ys e = Ok r' -> all r r').
Proof.
  intros H.
  specialize (H no_libm dyn2 1%nat (fun _ => (-600)%Z) square [one_var one64 one64 (b64_of_Z 0)] [one_var one64 (two_to (-600)) (b64_of_Z 0)]).
  cbv zeta in H.
  assert (Y1 : second (run (b64ops no_libm) dyn2 1 [one_var one64 one64 (b64_of_Z 0)] square) = Some (SpecFloat.S754_finite false 4503599627370496 (-51)))
    by (vm_compute; reflexivity).
  assert (Y2 : second (run (b64ops no_libm) dyn2 1 [one_var one64 (two_to (-600)) (b64_of_Z 0)] square) = Some (SpecFloat.S754_zero false))
    by (vm_compute; reflexivity).
  destruct (run (b64ops no_libm) dyn2 1 [one_var one64 one64 (b64_of_Z 0)] square) as [r| | |]; try discriminate Y1.
  destruct (run (b64ops no_libm) dyn2 1 [one_var one64 (two_to (-600)) (b64_of_Z 0)] square) as [r'| | |]; try discriminate Y2.
  destruct (H r r') as (f & g & h & g' & h' & S1 & S2 & _ & B).
  - split; [right; reflexivity|cbn; lia].
  - split; [vm_compute; discriminate|vm_compute; discriminate].
  - cbn. split; lia.
  - apply Forall2_cons; [|apply Forall2_nil]. apply seed_ok. eapply shifted_SF; [vm_compute; reflexivity|vm_compute; reflexivity|reflexivity].
  - reflexivity.
  - reflexivity.
  - specialize (B eq_refl 0%nat 0%nat (le_n _) (le_n _) eq_refl). revert B.
    assert (X1 : get_h dyn2 r 0 0 = Ok (h 0%nat 0%nat)) by (apply (proj2 (proj2 (proj2 S1)) eq_refl 0%nat 0%nat); lia).
    assert (X2 : get_h dyn2 r' 0 0 = Ok (h' 0%nat 0%nat)) by (apply (proj2 (proj2 (proj2 S2)) eq_refl 0%nat 0%nat); lia).
    unfold second in Y1, Y2. cbn [bind] in Y1, Y2. rewrite X1 in Y1. rewrite X2 in Y2. injection Y1 as Y1. injection Y2 as Y2.
    eapply shifted_SF_inv; eassumption.
Qed.
Lemma seeded_ok k g : shifted k one64 g ->
  seeded dyn2 1 (fun _ => k) (one_var (one64, true) (one64, true) (b64_of_Z 0, true)) (one_var one64 one64 (b64_of_Z 0)) (one_var one64 g (b64_of_Z 0)).
Proof.
  intros H. split; [|apply seed_ok, H].
  exists (one64, true), (fun _ => (one64, true)), (fun _ _ => (b64_of_Z 0, true)), one64, (fun _ => one64), (fun _ _ => b64_of_Z 0).
  split; [apply one_var_shows|]. split; [apply one_var_shows|]. auto.
Qed.
Lemma shift_two e : B2SF (two_to e) = SpecFloat.S754_finite false 4503599627370496 (e - 52) -> shifted e one64 (two_to e).
Proof. intros H. eapply shifted_SF; [vm_compute; reflexivity|exact H|lia]. Qed.
(** Numbers in comparable form. *)
Definition bits (m : res (dd b64)) : list (option SpecFloat.spec_float) := match m with Ok x => map (option_map B2SF) (m_data x) | _ => [] end.
Definition marked_bits (m : res (dd marked)) : list (option (SpecFloat.spec_float * bool)) :=
  match m with Ok x => map (option_map (fun v => (B2SF (fst v), snd v))) (m_data x) | _ => [] end.
