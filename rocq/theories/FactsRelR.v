(** C83: where derivatives are inaccurate. *)
From Coq Require Import ZArith List Bool Reals Lra Lia Psatz.
From Coquelicot Require Import Coquelicot.
From Flocq Require Import Core BinarySingleNaN.
From Verif Require Import Outcome Scalar Float64 Model Spec RealOps UDeriv ExprSpec ProgSpec Ops64 B64 Facts64 NumSpec FactsNum
  ParamSpec FactsParam FactsEncl FactsExpr CreateRep OpsRep Kernels AccRep FactsLayout Expr Samples RangeSpec FactsRange ErrSpec FactsErr
  FmaSpec FactsFma RelSpec FactsRel FactsRelU.
Import ListNotations.
Open Scope R_scope.

Lemma Ok_inj {A} (a b : A) : Ok a = Ok b -> a = b. Proof. intros E. injection E as E. exact E. Qed.
Lemma gradient_is M c v u r f g h : cfg_ok c -> size_ok c 1 -> evaluate (b64ops M) c [v] (EU u (EVar 0)) = Ok r -> shows c 1 r f g h ->
  g 0%nat = jg (jap_u (b64ops M) u (jvar (b64ops M) 0 v)) 0%nat.
Proof.
  intros Hc SO E Sh. destruct (evaluate_rep (b64ops M) c [v] v (EU u (EVar 0)) Hc SO) as (r' & E' & R); [cbn; lia|].
  rewrite E in E'. injection E' as <-. pose proof (rep_shows _ _ _ _ R) as Sh'. destruct Sh as (_ & _ & G & _), Sh' as (_ & _ & G' & _).
  specialize (G 0%nat ltac:(lia)). specialize (G' 0%nat ltac:(cbn; lia)). rewrite G in G'. injection G' as ->. reflexivity.
Qed.
Lemma derivative_is u x l : udom u x -> is_derive (ureal u) x l -> l = jg (jap_u Rops u (jvar Rops 0 x)) 0%nat.
Proof.
  intros D H. destruct (jev_partials 1 (EU u (EVar 0)) (fun _ => x)) as (_ & G & _); [cbn; lia|split; [exact I|exact D]|].
  specialize (G 0%nat ltac:(lia)). cbn [jev] in G. unfold partial in G. cbn [rev set_at] in G.
  assert (G' : is_derive (ureal u) x (jg (jap_u Rops u (jvar Rops 0 x)) 0%nat)) by exact G.
  apply is_derive_unique in H, G'. congruence.
Qed.
Lemma mul_1_r (a : b64) : finite64 (b64_mul a (z64 1)) -> finite64 a /\ val64 (b64_mul a (z64 1)) = val64 a.
Proof.
  intros F. assert (Fa : finite64 a) by (destruct a; try reflexivity; discriminate F). split; [exact Fa|].
  destruct (of_Z_exact 1 ltac:(lia)) as (F1 & V1). change (b64_of_Z 1) with (z64 1) in F1, V1.
  destruct (mul_ok a (z64 1) Fa F1) as (_ & V); [rewrite V1, Rmult_1_r, near64_exact by apply fmt_val; apply finite_val_lt|].
  rewrite V, V1, Rmult_1_r. apply near64_exact, fmt_val.
Qed.

(** ** [tanh]: [1 - f*f] *)
Lemma gap (q : b64) : val64 q = 1 \/ bpow radix2 (-53) <= Rabs (1 - val64 q).
Proof.
  assert (F1 : generic_format radix2 (FLT_exp (-1074) 53) 1) by (apply (fmt_bpow 0); lia).
  pose proof (fmt_val q) as Fq. destruct (Rtotal_order (val64 q) 1) as [L|[E|G]].
  - right. pose proof (pred_ge_gt radix2 (FLT_exp (-1074) 53) _ _ Fq F1 L) as B. change 1 with (bpow radix2 0) in B. rewrite pred_bpow in B.
    change (FLT_exp (-1074) 53 0) with (-53)%Z in B. change (bpow radix2 0) with 1 in B. rewrite Rabs_pos_eq by lra. lra.
  - left. exact E.
  - right. pose proof (succ_le_lt radix2 (FLT_exp (-1074) 53) _ _ F1 Fq G) as B. rewrite succ_eq_pos in B by lra.
    change (ulp radix2 (FLT_exp (-1074) 53) 1) with (ulp radix2 (FLT_exp (-1074) 53) (bpow radix2 0)) in B. rewrite ulp_bpow in B. change (FLT_exp (-1074) 53 (0 + 1)) with (-52)%Z in B.
    assert (bpow radix2 (-53) <= bpow radix2 (-52)) by (apply bpow_le; lia). rewrite Rabs_left by lra. lra.
Qed.
Lemma exp_times n x : exp (INR n * x) = exp x ^ n.
Proof.
  induction n as [|n IH]; [rewrite Rmult_0_l; apply exp_0|]. rewrite S_INR, Rmult_plus_distr_r, exp_plus, IH, Rmult_1_l. cbn. ring.
Qed.
Lemma exp_40 : bpow radix2 57 <= exp 40.
Proof.
  assert (E : exp 40 = exp (/ 64) ^ 2560).
  { rewrite <- exp_times. f_equal. rewrite INR_IZR_INZ. replace (Z.of_nat 2560) with 2560%Z by (vm_compute; reflexivity). lra. }
  rewrite E. apply Rle_trans with ((65 / 64) ^ 2560).
  - unfold Rdiv. rewrite Rpow_mult_distr, pow_inv. rewrite !pow_IZR. replace (Z.of_nat 2560) with 2560%Z by (vm_compute; reflexivity).
    assert (P : 0 < IZR (64 ^ 2560)) by (apply IZR_lt; vm_compute; reflexivity).
    apply Rmult_le_reg_r with (IZR (64 ^ 2560)); [exact P|]. rewrite Rmult_assoc, Rinv_l, Rmult_1_r by lra.
    change 57%Z with (Z.of_nat 57). rewrite <- (IZR_Zpower radix2) by lia. rewrite <- mult_IZR. apply IZR_le. vm_compute. discriminate.
  - apply pow_incr. split; [lra|]. pose proof (exp_ineq1_le (/ 64)). lra.
Qed.
Lemma tanh_steep x : 20 <= Rabs x -> 0 < 1 - tanh x * tanh x <= bpow radix2 (-55).
Proof.
  intros H. assert (C : cosh x * cosh x - sinh x * sinh x = 1).
  { unfold cosh, sinh. assert (E : exp x * exp (- x) = 1) by (rewrite <- exp_plus, Rplus_opp_r; apply exp_0).
    replace ((exp x + exp (- x)) / 2 * ((exp x + exp (- x)) / 2) - (exp x - exp (- x)) / 2 * ((exp x - exp (- x)) / 2)) with (exp x * exp (- x)) by field.
    exact E. }
  assert (P : 0 < cosh x) by (unfold cosh; pose proof (exp_pos x); pose proof (exp_pos (- x)); lra).
  assert (T : 1 - tanh x * tanh x = / (cosh x * cosh x)).
  { unfold tanh. transitivity ((cosh x * cosh x - sinh x * sinh x) / (cosh x * cosh x)); [field; lra|rewrite C; field; lra]. }
  rewrite T. assert (Q : 0 < cosh x * cosh x) by (apply Rmult_lt_0_compat; exact P). split; [apply Rinv_0_lt_compat, Q|].
  assert (B : exp 20 / 2 <= cosh x).
  { unfold cosh. pose proof (exp_pos x). pose proof (exp_pos (- x)). unfold Rabs in H. destruct (Rcase_abs x).
    - assert (exp 20 <= exp (- x)) by (apply exp_le; lra). lra.
    - assert (exp 20 <= exp x) by (apply exp_le; lra). lra. }
  assert (B2 : bpow radix2 55 <= cosh x * cosh x).
  { apply Rle_trans with (exp 20 / 2 * (exp 20 / 2)).
    - replace (exp 20 / 2 * (exp 20 / 2)) with (exp 20 * exp 20 * / 4) by field. rewrite <- exp_plus. replace (20 + 20) with 40 by lra.
      pose proof exp_40 as E. change 57%Z with (55 + 2)%Z in E. rewrite bpow_plus in E. change (bpow radix2 2) with 4 in E. lra.
    - pose proof (exp_pos 20). apply Rmult_le_compat; lra. }
  change (-55)%Z with (- (55))%Z. rewrite bpow_opp. apply Rinv_le_contravar; [apply bpow_gt_0|exact B2].
Qed.
Lemma tanh_inaccurate M c v r f g h l k : cfg_ok c -> size_ok c 1 -> finite64 v -> 20 <= Rabs (val64 v) ->
  evaluate (b64ops M) c [v] (EU Utanh (EVar 0)) = Ok r -> shows c 1 r f g h -> is_derive tanh (val64 v) l ->
  INR k * u64 <= / 16 -> ~ accurate_to k (g 0%nat) l.
Proof.
  intros Hc SO Fv H E Sh D K A. rewrite (gradient_is M c v _ r f g h Hc SO E Sh) in A.
  apply (derivative_is Utanh) in D; [|exact I]. cbn in D. rewrite Rmult_1_r in D.
  destruct (tanh_steep _ H) as (L0 & L1). rewrite <- D in L0, L1. clear D.
  cbn [jap_u ju3 k_tanh ju jf jg jvar cmul vset Nat.eqb b64ops o_tanh o_mul o_sub o_Z] in A. set (m := m_tanh M v) in *.
  destruct A as (F & t & T & V). destruct (mul_1_r _ F) as (Fd & Vd). change (b64_of_Z 1) with (z64 1) in *. rewrite Vd in V.
  assert (Fq : finite64 (b64_mul m m)) by (destruct (b64_mul m m); try reflexivity; discriminate Fd).
  destruct (of_Z_exact 1 ltac:(lia)) as (F1 & V1). change (b64_of_Z 1) with (z64 1) in F1, V1.
  pose proof (factor_near _ _ K T) as (T1 & T2).
  assert (W : 0 < val64 (b64_sub (z64 1) (b64_mul m m)) < bpow radix2 (-53)).
  { rewrite V. assert (0 < l * t) by (apply Rmult_lt_0_compat; lra). split; [assumption|].
    apply Rle_lt_trans with (bpow radix2 (-55) * 2); [apply Rmult_le_compat; lra|].
    change 2 with (bpow radix2 1). rewrite <- bpow_plus. apply bpow_lt. lia. }
  pose proof (gap (b64_mul m m)) as G. set (q := b64_mul m m) in *. clearbody q.
  assert (VS : val64 (b64_sub (z64 1) q) = near64 (1 - val64 q)).
  { rewrite <- V1. apply sub_ok; [exact F1|exact Fq|].
    destruct (Rlt_or_le (Rabs (near64 (val64 (z64 1) - val64 q))) (bpow radix2 1024)); [assumption|]. exfalso.
    revert Fd. unfold b64_sub, finite64.
    pose proof (Bminus_correct prec64 emax64 prec64_gt_0 prec64_lt_emax mode_NE (z64 1) q F1 Fq) as HC. cbn [round_mode] in HC.
    change (round radix2 _ _ (B2R (z64 1) - B2R q)) with (near64 (val64 (z64 1) - val64 q)) in HC.
    rewrite Rlt_bool_false in HC by exact H0. destruct HC as (HC & _). apply of_SF_inf in HC. rewrite HC. discriminate. }
  rewrite VS in W. destruct G as [G|G].
  - rewrite G, Rminus_diag_eq, near64_0 in W by reflexivity. lra.
  - apply (near64_ge_bpow _ (-53)) in G; [|lia]. rewrite Rabs_pos_eq in G by lra. lra.
Qed.

(** ** [acos], [asin], [atanh] near 1: [1 - x*x] *)
Definition almost1 : b64 := b64_div (z64 (2 ^ 27 - 1)) (z64 (2 ^ 27)).
Lemma val_SF (v w : b64) : B2SF v = B2SF w -> val64 v = val64 w.
Proof. intros E. apply B2SF_inj in E. subst. reflexivity. Qed.
Lemma val_of_SF (v : b64) s m e : B2SF v = SpecFloat.S754_finite s m e -> val64 v = F2R (Float radix2 (cond_Zopp s (Zpos m)) e).
Proof. unfold val64. rewrite <- SF2R_B2SF. intros ->. reflexivity. Qed.
Lemma val_almost1 : val64 almost1 = 1 - bpow radix2 (-27).
Proof.
  assert (E : exists m e, B2SF almost1 = SpecFloat.S754_finite false m e /\ m = (134217727 * 2 ^ 26)%positive /\ e = (-53)%Z).
  { eexists _, _. split; [vm_compute; reflexivity|]. split; reflexivity. }
  destruct E as (m & e & E & -> & ->). rewrite (val_of_SF _ _ _ _ E). unfold F2R. cbn [Fnum Fexp cond_Zopp].
  cbn. lra.
Qed.
Lemma same_double (v w : b64) : val64 v = val64 w -> val64 w <> 0 -> v = w.
Proof.
  intros E H. apply B2R_inj; [| |exact E].
  - rewrite <- E in H. destruct v; try reflexivity; exfalso; apply H; reflexivity.
  - destruct w; try reflexivity; exfalso; apply H; reflexivity.
Qed.
Lemma z64_val z : (Z.abs z <= 2 ^ 53)%Z -> val64 (z64 z) = IZR z. Proof. intros H. apply of_Z_exact, H. Qed.
Lemma near1_inaccurate M c v r f g h l k u : u = Uacos \/ u = Uasin \/ u = Uatanh -> cfg_ok c -> size_ok c 1 -> val64 v = 1 - bpow radix2 (-27) ->
  evaluate (b64ops M) c [v] (EU u (EVar 0)) = Ok r -> shows c 1 r f g h -> is_derive (ureal (umap val64 u)) (val64 v) l ->
  INR k * u64 <= bpow radix2 (-30) -> ~ accurate_to k (g 0%nat) l.
Proof.
  intros U Hc SO Vv E Sh D K A. rewrite (gradient_is M c v _ r f g h Hc SO E Sh) in A. clear E Sh.
  assert (Ev : v = almost1). { apply same_double; [rewrite val_almost1; exact Vv|rewrite val_almost1; cbn; lra]. }
  subst v. destruct A as (_ & t & T & V).
  assert (K' : INR k * u64 <= / 16) by (eapply Rle_trans; [exact K|]; cbn; lra).
  pose proof (factor_small _ _ K' T) as (T1 & _). clear T K'.
  assert (T2 : 1 - bpow radix2 (-30) <= t) by lra. clear T1 K.
  set (x := val64 almost1) in *. assert (Dx : -1 < x < 1) by (rewrite Vv; cbn; lra).
  assert (X2 : 1 - x * x = bpow radix2 (-26) * (1 - bpow radix2 (-28))) by (rewrite Vv; cbn; lra).
  apply derivative_is in D; [|destruct U as [-> |[-> | ->]]; exact Dx].
  assert (S : 0 < sqrt (1 - x * x)) by (apply sqrt_lt_R0; rewrite X2; cbn; lra).
  assert (SS : sqrt (1 - x * x) * sqrt (1 - x * x) = bpow radix2 (-26) * (1 - bpow radix2 (-28))) by (rewrite <- X2; apply sqrt_sqrt; rewrite X2; cbn; lra).
  assert (Fin : forall s, 0 < s -> s * s = bpow radix2 (-26) * (1 - bpow radix2 (-28)) -> 8192 = / s * t -> False).
  { clear - T2. intros s S0 S2 E. assert (t = 8192 * s) by (rewrite E; field; lra). subst t.
    assert (B : (1 - bpow radix2 (-30)) * (1 - bpow radix2 (-30)) <= 8192 * s * (8192 * s)) by (apply Rmult_le_compat; cbn in *; lra).
    replace (8192 * s * (8192 * s)) with (8192 * 8192 * (s * s)) in B by ring. rewrite S2 in B. cbn in B. lra. }
  clearbody x. destruct U as [-> |[-> | ->]].
  - assert (G : val64 (jg (jap_u (b64ops M) Uacos (jvar (b64ops M) 0 almost1)) 0) = val64 (z64 (- 2 ^ 13))) by (apply val_SF; vm_compute; reflexivity).
    rewrite G, z64_val in V by (cbn; lia). cbn in D. subst l. apply (Fin (sqrt (1 - x * x)) S SS). 
    change (IZR (- 2 ^ 13)) with (-8192) in V. transitivity (- (-8192)); [lra|]. rewrite V. field. lra.
  - assert (G : val64 (jg (jap_u (b64ops M) Uasin (jvar (b64ops M) 0 almost1)) 0) = val64 (z64 (2 ^ 13))) by (apply val_SF; vm_compute; reflexivity).
    rewrite G, z64_val in V by (cbn; lia). cbn in D. subst l. apply (Fin (sqrt (1 - x * x)) S SS).
    change (IZR (2 ^ 13)) with 8192 in V. rewrite V. field. lra.
  - assert (G : val64 (jg (jap_u (b64ops M) Uatanh (jvar (b64ops M) 0 almost1)) 0) = val64 (z64 (2 ^ 26))) by (apply val_SF; vm_compute; reflexivity).
    rewrite G, z64_val in V by (cbn; lia). cbn in D. rewrite X2 in D. subst l. change (IZR (2 ^ 26)) with 67108864 in V.
    assert (t = 1 - bpow radix2 (-28)) by (cbn in V |- *; lra). subst t. cbn in T2. lra.
Qed.

(** ** [asinh]: [1 + x*x] overflows *)
Lemma asinh_inaccurate M c v r f g h l k : cfg_ok c -> size_ok c 1 -> finite64 v -> bpow radix2 512 <= Rabs (val64 v) ->
  evaluate (b64ops M) c [v] (EU Uasinh (EVar 0)) = Ok r -> shows c 1 r f g h -> is_derive arcsinh (val64 v) l ->
  zero64 (g 0%nat) /\ ~ accurate_to k (g 0%nat) l.
Proof.
  intros Hc SO Fv B E Sh D. rewrite (gradient_is M c v _ r f g h Hc SO E Sh).
  apply (derivative_is Uasinh) in D; [|exact I]. cbn in D. rewrite Rmult_1_r in D.
  assert (L : l <> 0).
  { subst l. unfold Rdiv. rewrite Rmult_1_l. apply Rinv_neq_0_compat, Rgt_not_eq, sqrt_lt_R0. nra. }
  cbn [jap_u ju3 k_asinh ju jf jg jvar cmul vset Nat.eqb b64ops o_sqrt o_mul o_div o_add o_Z].
  destruct (finite_nonzero v _ B Fv) as (s & m & e & H & Ev).
  assert (Q : b64_mul v v = B754_infinity false).
  { rewrite (mul_over v v); [rewrite Ev; cbn; rewrite xorb_nilpotent; reflexivity|]. apply near64_ge_bpow; [lia|].
    change 1024%Z with (512 + 512)%Z. rewrite bpow_plus, Rabs_mult. apply Rmult_le_compat; try apply bpow_ge_0; assumption. }
  rewrite Q. change (b64_sqrt (b64_add (b64_of_Z 1) (B754_infinity false))) with (B754_infinity false : b64).
  pose proof (over_inf (b64_of_Z 1) false ltac:(reflexivity)) as Z1.
  pose proof (zero_mul_l _ (b64_of_Z 1) Z1 ltac:(reflexivity)) as Z2. split; [exact Z2|].
  intros (_ & t & T & V). apply factor_pos in T. destruct Z2 as (s2 & Z2). rewrite Z2 in V. cbn in V. symmetry in V.
  apply Rmult_integral in V. destruct V; [contradiction|lra].
Qed.

(** ** [atan2]: [db*db - da*da] *)
Definition b7 : b64 := b64_div (z64 7) (z64 4).
Definition b7' : b64 := b64_div (z64 (7 * 2 ^ 50 + 1)) (z64 (2 ^ 52)).
Lemma val_b7 : val64 b7 = 7 / 4.
Proof.
  assert (E : exists m e, B2SF b7 = SpecFloat.S754_finite false m e /\ m = (7 * 2 ^ 50)%positive /\ e = (-52)%Z).
  { eexists _, _. split; [vm_compute; reflexivity|]. split; reflexivity. }
  destruct E as (m & e & E & -> & ->). rewrite (val_of_SF _ _ _ _ E). unfold F2R. cbn [Fnum Fexp cond_Zopp]. cbn. lra.
Qed.
Lemma val_b7' : val64 b7' = 7 / 4 + bpow radix2 (-52).
Proof.
  assert (E : exists m e, B2SF b7' = SpecFloat.S754_finite false m e /\ m = (7 * 2 ^ 50 + 1)%positive /\ e = (-52)%Z).
  { eexists _, _. split; [vm_compute; reflexivity|]. split; reflexivity. }
  destruct E as (m & e & E & -> & ->). rewrite (val_of_SF _ _ _ _ E). unfold F2R. cbn [Fnum Fexp cond_Zopp]. cbn. lra.
Qed.
Lemma atan2_inaccurate M c v w r f g h : cfg_ok c -> c_ord c = 2%Z -> size_ok c 2 -> val64 v = 7 / 4 -> val64 w = 7 / 4 + bpow radix2 (-52) ->
  evaluate (b64ops M) c [v; w] (EB Batan2 (EVar 0) (EVar 1)) = Ok r -> shows c 2 r f g h ->
  val64 (h 0%nat 1%nat) = 0 /\
  exists l, partial2 (fun q => Ratan2 (q 0%nat) (q 1%nat)) 0 1 (at64 [v; w]) l /\ l <> 0 /\ forall k, ~ accurate_to k (h 0%nat 1%nat) l.
Proof.
  intros Hc O2 SO Vv Vw E Sh.
  assert (Ev : v = b7) by (apply same_double; rewrite val_b7; [exact Vv|lra]).
  assert (Ew : w = b7') by (apply same_double; rewrite val_b7'; [exact Vw|cbn; lra]). subst v w.
  destruct (evaluate_rep (b64ops M) c [b7; b7'] b7 (EB Batan2 (EVar 0) (EVar 1)) Hc SO) as (r' & E' & R); [cbn; lia|].
  rewrite E in E'. injection E' as <-. pose proof (rep_shows _ _ _ _ R) as Sh'. destruct Sh as (_ & _ & _ & H), Sh' as (_ & _ & _ & H').
  specialize (H O2 0%nat 1%nat ltac:(lia) ltac:(lia)). specialize (H' O2 0%nat 1%nat ltac:(cbn; lia) ltac:(cbn; lia)).
  rewrite H in H'. apply Ok_inj in H'. cbn [jev nth] in H'.
  assert (Z : val64 (h 0%nat 1%nat) = 0).
  { rewrite H'. assert (Z : match B2SF (hess (jap_b (b64ops M) Batan2 (jvar (b64ops M) 0 b7) (jvar (b64ops M) 1 b7')) 0 1) with SpecFloat.S754_zero _ => true | _ => false end = true)
      by (vm_compute; reflexivity).
    destruct (hess _ 0 1); try discriminate Z. reflexivity. }
  split; [exact Z|].
  destruct (jev_partials 2 (EB Batan2 (EVar 0) (EVar 1)) (at64 [b7; b7'])) as (_ & _ & PH).
  { cbn. lia. }
  { cbn [dom rev]. split; [exact I|]. split; [exact I|]. cbn [bdom].
    change (at64 [b7; b7'] 0) with (val64 b7). rewrite val_b7. lra. }
  eexists. split; [apply (PH 0%nat 1%nat); lia|]. cbn [jev].
  assert (L : hess (jap_b Rops Batan2 (jvar Rops 0 (at64 [b7; b7'] 0)) (jvar Rops 1 (at64 [b7; b7'] 1))) 0 1 <> 0).
  { change (at64 [b7; b7'] 0) with (val64 b7). change (at64 [b7; b7'] 1) with (val64 b7'). rewrite val_b7, val_b7'. unfold hess. cbn -[bpow].
    set (a := 7 / 4). set (d := bpow radix2 (-52)). assert (Pd : 0 < d) by apply bpow_gt_0. assert (Pa : 0 < a) by (unfold a; lra).
    assert (T : 0 < a * a + (a + d) * (a + d)) by nra. set (t := a * a + (a + d) * (a + d)) in *.
    assert (X : - a / t * (- a / t) - (a + d) / t * ((a + d) / t) < 0).
    { replace (- a / t * (- a / t) - (a + d) / t * ((a + d) / t)) with (- (d * (2 * a + d)) * / (t * t)) by (field; lra).
      assert (0 < / (t * t)) by (apply Rinv_0_lt_compat, Rmult_lt_0_compat; assumption).
      assert (0 < d * (2 * a + d)) by (apply Rmult_lt_0_compat; lra). nra. }
    match goal with |- ?e <> 0 => replace e with (- a / t * (- a / t) - (a + d) / t * ((a + d) / t)) by ring end. lra. }
  split; [exact L|]. intros k (_ & t & T & V). apply factor_pos in T. rewrite Z in V. symmetry in V. apply Rmult_integral in V. destruct V; [contradiction|lra].
Qed.
