(** Proofs for arguments outside the domain of a function (C84). *)
From Coq Require Import ZArith List Bool Reals Lra Lia.
From Coquelicot Require Import Coquelicot.
From Flocq Require Import Core BinarySingleNaN Plus_error.
From Verif Require Import Outcome Scalar Float64 Model Spec RealOps Deriv UDeriv ExprSpec ProgSpec Ops64 B64 Facts64 NumSpec FactsNum
  ParamSpec FactsParam FactsEncl FactsExpr CreateRep OpsRep Kernels AccRep FactsLayout Expr Samples RangeSpec FactsRange ErrSpec FactsErr
  FmaSpec FactsFma RelSpec FactsRel FactsRelU FactsRelB FactsRelR DomSpec.
Import ListNotations.
Open Scope R_scope.

Lemma nan_div_l (a b : b64) : nan64 a -> nan64 (b64_div a b).
Proof. unfold nan64. destruct a; try discriminate. reflexivity. Qed.
Lemma nan_div_r (a b : b64) : nan64 b -> nan64 (b64_div a b).
Proof. unfold nan64. destruct b; try discriminate. destruct a; reflexivity. Qed.
Lemma nan_neg (a : b64) : nan64 a -> nan64 (b64_neg a).
Proof. unfold nan64. destruct a; try discriminate. reflexivity. Qed.
Lemma sqrt_neg (a : b64) : finite64 a -> val64 a < 0 -> nan64 (b64_sqrt a).
Proof.
  unfold finite64, val64. destruct a as [s|s| |s m e B]; try discriminate; intros _ H; [cbn in H; lra|].
  destruct s; [reflexivity|]. exfalso. pose proof (F2R_gt_0 radix2 (Float radix2 (Zpos m) e)). cbn in H0. cbn in H. specialize (H0 ltac:(lia)). lra.
Qed.
Lemma near64_neg (x y : b64) : val64 x < val64 y -> near64 (val64 x - val64 y) < 0.
Proof.
  intros H. assert (L : near64 (val64 x - val64 y) <= 0).
  { rewrite <- near64_0. apply round_le; [apply FLT_exp_valid; reflexivity|apply valid_rnd_N|]. lra. }
  assert (N : near64 (val64 x - val64 y) <> 0).
  { unfold Rminus. apply round_plus_neq_0; [apply FLT_exp_valid; reflexivity|apply @monotone_exp_not_FTZ; [apply FLT_exp_valid; reflexivity|apply FLT_exp_monotone]|apply valid_rnd_N|apply fmt_val| |lra].
    apply generic_format_opp, fmt_val. }
  lra.
Qed.
(** The root of a difference that is negative. *)
Lemma sqrt_sub (x y : b64) : finite64 x -> finite64 y -> val64 x < val64 y -> nan64 (b64_sqrt (b64_sub x y)).
Proof.
  intros Fx Fy H. pose proof (near64_neg x y H) as N.
  pose proof (Bminus_correct prec64 emax64 prec64_gt_0 prec64_lt_emax mode_NE x y Fx Fy) as C.
  destruct (Rlt_dec (Rabs (near64 (val64 x - val64 y))) (bpow radix2 1024)) as [L|L].
  - destruct (sub_ok x y Fx Fy L) as (F & V). apply sqrt_neg; [exact F|]. rewrite V. exact N.
  - rewrite Rlt_bool_false in C by (apply Rnot_lt_le, L). destruct C as (C & S).
    assert (T : Bsign x = true).
    { destruct (Bsign x) eqn:SX; [reflexivity|]. exfalso.
      assert (SY : Bsign y = true) by (destruct (Bsign y); [reflexivity|discriminate]).
      assert (P : forall (z : b64), Bsign z = false -> 0 <= val64 z).
      { clear. intros [s|s| |s m e B]; unfold val64; cbn; try lra. intros ->. apply F2R_ge_0. cbn. lia. }
      assert (Q : forall (z : b64), Bsign z = true -> val64 z <= 0).
      { clear. intros [s|s| |s m e B]; unfold val64; cbn; try lra. intros ->. apply F2R_le_0. cbn. lia. }
      specialize (P _ SX). specialize (Q _ SY). lra. }
    rewrite T in C. change (b64_sub x y) with (Bminus mode_NE x y). cbn in C. rewrite (of_SF_inf _ _ C). reflexivity.
Qed.
(** The square of a number beyond 1. *)
Lemma sqrt_one_minus (x : b64) : finite64 x -> 1 < Rabs (val64 x) -> nan64 (b64_sqrt (b64_sub (b64_of_Z 1) (b64_mul x x))).
Proof.
  intros Fx H. destruct (of_Z_exact 1 ltac:(lia)) as (F1 & V1).
  assert (SQ : Rabs (val64 x) <= val64 x * val64 x).
  { rewrite <- (Rabs_pos_eq (val64 x * val64 x)) by apply Rle_0_sqr. rewrite Rabs_mult.
    rewrite <- (Rmult_1_r (Rabs (val64 x))) at 1. apply Rmult_le_compat_l; [apply Rabs_pos|lra]. }
  assert (G : 1 < near64 (val64 x * val64 x)).
  { apply Rlt_le_trans with (1 := H). apply round_ge_generic; [apply FLT_exp_valid; reflexivity|apply valid_rnd_N|apply generic_format_abs, fmt_val|exact SQ]. }
  destruct (Rlt_dec (Rabs (near64 (val64 x * val64 x))) (bpow radix2 1024)) as [L|L].
  - destruct (mul_ok x x Fx Fx L) as (F & V). apply sqrt_sub; [exact F1|exact F|]. rewrite V1, V. exact G.
  - rewrite (mul_over x x) by (apply Rnot_lt_le, L). rewrite xorb_nilpotent. 
    unfold finite64 in F1. destruct (b64_of_Z 1); try discriminate F1; reflexivity.
Qed.
Lemma is_int_false_small (b : b64) : is_int (val64 b) = false -> Rabs (val64 b) < bpow radix2 53.
Proof.
  intros I. destruct b as [s|s| |s m e B]; unfold val64 in *; cbn [B2R] in *; try (rewrite Rabs_R0; apply bpow_gt_0).
  destruct (Z.le_gt_cases 0 e) as [E|E].
  - exfalso. unfold F2R in I. cbn [Fnum Fexp] in I. rewrite <- IZR_Zpower, <- mult_IZR, is_int_IZR in I by exact E. discriminate.
  - rewrite <- F2R_Zabs, abs_cond_Zopp. unfold bounded in B. apply andb_prop in B. destruct B as (B & _).
    apply Zeq_bool_eq in B. unfold SpecFloat.fexp, SpecFloat.emin in B.
    assert (D : (Zpos (SpecFloat.digits2_pos m) <= 53)%Z) by (unfold prec64, emax64 in B; lia).
    apply Rlt_le_trans with (bpow radix2 (Zpos (SpecFloat.digits2_pos m) + e)); [|apply bpow_le; lia].
    rewrite Digits.Zpos_digits2_pos, <- mag_F2R_Zdigits by discriminate.
    eapply Rle_lt_trans; [apply Rle_abs|apply bpow_mag_gt].
Qed.

(** *** All parts NaN *)
Lemma nan_parts M (t : b64 * coef b64 * coef b64) J : match t with (f, CVal da, CVal daa) => nan64 f /\ nan64 da /\ nan64 daa | _ => False end ->
  let K := ju3 (b64ops M) t J in nan64 (jf K) /\ (forall i, nan64 (jg K i)) /\ (forall i j, nan64 (hess K i j)).
Proof.
  destruct t as ((f & [| | |da]) & [| | |daa]); try contradiction. intros (A & B & C). cbv zeta. split; [exact A|]. split.
  - intros i. apply nan_mul_l, B.
  - intros i j. unfold hess. cbn [ju3 ju jh]. cbn. apply nan_add_l, nan_mul_l, B.
Qed.
Lemma rooted_nan M c n x f g h u : cfg_ok c -> domain_errors M -> shows c n x f g h -> finite64 f ->
  (forall b, u = Upow b -> finite64 b) -> outside (umap val64 u) (val64 f) -> rooted (umap val64 u) ->
  exists r f' g' h', apply_u (b64ops M) c u x = Ok r /\ shows c n r f' g' h' /\ nan64 f' /\ (forall i, nan64 (g' i)) /\ (forall i j, nan64 (h' i j)).
Proof.
  intros Hc DE Sh Ff Fb Out Ro. pose proof (shows_rep _ _ _ _ _ _ Hc Sh) as HJ.
  destruct (apply_u_rep (b64ops M) c Hc n _ x u HJ) as (r & E & R). exists r, (jf (jap_u (b64ops M) u (mkjet f g h))), (jg (jap_u (b64ops M) u (mkjet f g h))), (hess (jap_u (b64ops M) u (mkjet f g h))).
  split; [exact E|]. split; [apply rep_shows, R|].
  destruct (of_Z_exact 1 ltac:(lia)) as (F1 & V1). destruct (of_Z_exact 2 ltac:(lia)) as (F2 & V2).
  destruct u; cbn [umap rooted] in Ro; try contradiction Ro; cbn [umap outside] in Out; cbn [jap_u jf]; apply nan_parts.
  - destruct Ro as (R1 & R2), Out as (N & I). specialize (Fb _ eq_refl). pose proof (is_int_false_small _ I) as Sm.
    assert (OK : forall k : Z, (1 <= k <= 2)%Z -> Rabs (near64 (val64 b - IZR k)) < bpow radix2 1024).
    { intros k Hk. apply Rle_lt_trans with (bpow radix2 54); [|apply bpow_lt; lia]. apply near64_le_bpow; [lia|].
      apply Rle_trans with (Rabs (val64 b) + Rabs (IZR k)); [rewrite <- (Rabs_Ropp (IZR k)); apply Rabs_triang|].
      rewrite <- abs_IZR. assert (IZR (Z.abs k) <= 2) by (apply IZR_le; lia). change (bpow radix2 54) with (IZR (2 ^ 54)).
      change (bpow radix2 53) with (IZR (2 ^ 53)) in Sm. cbn in Sm |- *. lra. }
    destruct (sub_ok b (b64_of_Z 1) Fb F1) as (FS & VS); [rewrite V1; apply (OK 1%Z); lia|].
    destruct (sub_ok b (b64_of_Z 2) Fb F2) as (FS2 & VS2); [rewrite V2; apply (OK 2%Z); lia|].
    split; [apply (de_pow _ DE); assumption|]. split; apply nan_mul_r; apply (de_pow _ DE); try assumption; cbn [b64ops o_sub o_Z].
    + rewrite VS, V1. exact R1.
    + rewrite VS2, V2. exact R2.
  - assert (Q : nan64 (b64_sqrt f)) by (apply sqrt_neg; assumption). split; [exact Q|].
    assert (D : nan64 (b64_div (b64_of_Z 1) (b64_mul (b64_of_Z 2) (b64_sqrt f)))) by (apply nan_div_r, nan_mul_r, Q).
    split; [exact D|]. apply nan_div_l, nan_neg, D.
  - pose proof (sqrt_one_minus f Ff Out) as Q. split; [apply (de_acos _ DE); assumption|]. split; [apply nan_div_r, Q|].
    apply nan_div_l, nan_mul_l, nan_div_r, Q.
  - pose proof (sqrt_one_minus f Ff Out) as Q. split; [apply (de_asin _ DE); assumption|]. split; [apply nan_div_r, Q|].
    apply nan_div_l, nan_mul_l, nan_div_r, Q.
  - assert (Q : nan64 (b64_sqrt (b64_sub f (b64_of_Z 1)))) by (apply sqrt_sub; [exact Ff|exact F1|rewrite V1; exact Out]).
    split; [apply (de_acosh _ DE); assumption|]. split; [apply nan_div_r, nan_mul_l, Q|].
    apply nan_div_l, nan_mul_l, nan_neg, nan_div_r, nan_mul_l, Q.
Qed.

(** *** Logarithms and [atanh] *)
Lemma open_outer : open (fun y : R => 1 < y * y).
Proof.
  apply (open_comp (fun y : R => y * y) (fun z => 1 < z)); [|apply open_gt].
  intros y _. apply (ex_derive_continuous (fun y : R => y * y)). auto_derive. exact I.
Qed.
Lemma ln_abs_der x : x < 0 -> is_derive (fun y => ln (Rabs y)) x (/ x).
Proof.
  intros H. apply (is_derive_ext_loc (fun y => ln (- y))).
  - generalize (open_lt 0 x H). apply filter_imp. intros y Hy. rewrite Rabs_left by exact Hy. reflexivity.
  - auto_derive; [lra|]. field. lra.
Qed.
Lemma D2_second f p1 p2 x : D2 f p1 p2 x -> is_derive f x (p1 x) /\ second_derivative f x p2.
Proof. intros (A & B). split; [exact (locally_singleton _ _ A)|]. exists p1. split; assumption. Qed.
Lemma D2_ln_abs k x : x < 0 -> k <> 0 -> D2 (fun y => ln (Rabs y) / k) (fun y => 1 / (y * k)) (- (1 / (x * k)) / x) x.
Proof.
  intros H K. apply (D2_open _ _ _ _ (fun y => y < 0) open_neg H).
  - intros y Hy. apply (der_eq _ _ (/ k * / y)); [|field; split; lra].
    apply (is_derive_ext (fun y => / k * ln (Rabs y))); [intros t; apply Rmult_comm|]. apply (is_derive_scal (fun y => ln (Rabs y))), ln_abs_der, Hy.
  - auto_derive; [apply Rmult_integral_contrapositive_currified; lra|]. field. split; lra.
Qed.
Lemma D2_continued_atanh x : 1 < x * x ->
  D2 (fun x => / 2 * ln (Rabs ((1 + x) / (1 - x)))) (fun x => 1 / (1 - x * x)) (2 * x / ((x * x - 1) * (x * x - 1))) x.
Proof.
  intros H. apply (D2_open _ _ _ _ (fun y => 1 < y * y) open_outer H).
  - intros y Hy. assert (N1 : 1 - y <> 0) by nra. assert (N2 : 1 + y <> 0) by nra.
    assert (NEG : forall z, 1 < z * z -> (1 + z) / (1 - z) < 0).
    { intros z Hz. assert (Z1 : 1 - z <> 0) by nra. replace ((1 + z) / (1 - z)) with ((1 - z * z) / Rsqr (1 - z)) by (unfold Rsqr; field; exact Z1).
      pose proof (Rinv_0_lt_compat _ (Rsqr_pos_lt _ Z1)). unfold Rdiv. nra. }
    apply (is_derive_ext_loc (fun y => / 2 * ln (- ((1 + y) / (1 - y))))).
    + generalize (open_outer y Hy). apply filter_imp. intros z Hz. rewrite Rabs_left by apply NEG, Hz. reflexivity.
    + pose proof (NEG y Hy). auto_derive; [change (1 - y <> 0 /\ 0 < - ((1 + y) / (1 - y)) /\ True); split; [exact N1|split; [lra|exact I]]|]. field. repeat split; nra.
  - assert (1 - x * x <> 0) by lra. auto_derive; [assumption|]. field. split; nra.
Qed.

Section Beyond.
  Context (p : nat) (Hp : (p <= 100)%nat) (v : b64) (Fv : finite64 v).
  Notation N := (Nops p).
  Notation X := (exactly64 v).
  Notation x := (val64 v).
  Lemma g_atanh_out : sz 100 x -> 2 <= x * x -> good 6 (p + 11) (k_atanh N X) (k_atanh Rops x).
  Proof.
    intros Sx H. pose proof (cb_X v Fv _ Sx) as A. pose proof (cb_mul p _ _ _ _ _ _ _ _ A A ltac:(lia) ltac:(lia)) as AA.
    destruct (cb_sub_dom p _ _ _ _ _ _ _ _ AA (cb_Z1 p Hp) ltac:(lra) ltac:(lra) ltac:(lia) ltac:(lia)) as (T & T').
    cbn [Nat.max Nat.add Nat.mul] in T, T'. pose proof (cb_div p _ _ _ _ _ _ _ _ (cb_Z1 p Hp) T' ltac:(lia) ltac:(lia)) as D.
    pose proof (cb_mul_l p 2%Z _ _ _ _ ltac:(auto) A ltac:(lia) ltac:(lia)) as A2.
    pose proof (cb_pow p _ _ 402 _ _ _ _ _ T (cb_Z2 p Hp) (is_int_IZR 2)) as PW.
    assert (CE : ceiling (Rabs 2) = 2%nat) by (apply (ceiling_Z 2)). rewrite CE in PW.
    specialize (PW ltac:(rewrite Rpow_std_2; apply (sz_mul 201 201); exact (cb_sz _ _ _ _ T)) ltac:(lia) ltac:(lia)).
    pose proof (cb_div p _ _ _ _ _ _ _ _ A2 PW ltac:(lia) ltac:(lia)) as DD.
    unfold good; eexists _, _; split; [refine (cb_le _ _ _ _ _ _ D _ (Z.le_refl _)); lia|];
    split; [refine (cb_le _ _ _ _ _ _ DD _ (Z.le_refl _)); lia|split; lia].
  Qed.
End Beyond.
Lemma beyond_counts p u v : (p <= 100)%nat -> finite64 v -> beyond (umap val64 u) (val64 v) ->
  exists k k', let J := jap_u (Nops p) (umap exactly64 u) (jvar (Nops p) 0 (exactly64 v)) in let JR := jap_u Rops (umap val64 u) (jvar Rops 0 (val64 v)) in
    jg J 0 = Some (jg JR 0%nat, k) /\ (k <= fst (roundings p u))%nat /\ hess J 0 0 = Some (hess JR 0 0, k') /\ (k' <= snd (roundings p u))%nat.
Proof.
  intros P Fv C. cbv zeta.
  destruct u; cbn [umap beyond] in C; try contradiction C; cbn [umap jap_u roundings fst snd jf jvar]; apply good_jet; try lia.
  - apply g_atanh_out; tauto.
  - apply g_log; tauto.
  - destruct C as (X0 & M & B & L). assert (B0 : val64 base <> 0) by lra. rewrite (exactly64_some _ _ eq_refl B0).
    apply g_logb; assumption.
  - apply g_log2; tauto.
  - apply g_log10; tauto.
Qed.
Lemma beyond_derivatives u x : beyond u x -> let J := jap_u Rops u (jvar Rops 0 x) in
  is_derive (continued u) x (jg J 0%nat) /\ second_derivative (continued u) x (hess J 0 0).
Proof.
  intros B. cbv zeta. assert (L2 : ln 2 <> 0) by (apply (sz_nz 1), ln2_size). assert (L10 : ln 10 <> 0) by (apply (sz_nz 4), ln10_size).
  assert (FIN : forall p1 p2 g hh, D2 (continued u) p1 p2 x -> p1 x = g -> p2 = hh -> is_derive (continued u) x g /\ second_derivative (continued u) x hh).
  { intros p1 p2 g hh D <- <-. apply D2_second, D. }
  destruct u; cbn [beyond] in B; try contradiction B; cbn [continued] in FIN |- *.
  - destruct B as (_ & B). assert (x * x - 1 <> 0) by lra. assert (1 - x * x <> 0) by lra. eapply FIN; [apply D2_continued_atanh; lra| |].
    + cbn. field. assumption.
    + unfold hess. cbn. rewrite Rpow_std_2. field. split; assumption.
  - destruct B as (B & _). eapply FIN; [apply (D2_ext (fun y => ln (Rabs y) / 1)); [intros y; unfold Rdiv; rewrite Rinv_1, Rmult_1_r; reflexivity|apply D2_ln_abs; lra]| |].
    + cbn. field. lra.
    + unfold hess. cbn. field. lra.
  - destruct B as (B & _ & _ & L). assert (LB : ln base <> 0) by (apply (sz_nz 100), L). eapply FIN; [apply D2_ln_abs; assumption| |].
    + cbn. field. split; lra.
    + unfold hess. cbn. field. split; lra.
  - destruct B as (B & _). eapply FIN; [apply D2_ln_abs; assumption| |].
    + cbn. field. split; lra.
    + unfold hess. cbn. field. split; lra.
  - destruct B as (B & _). eapply FIN; [apply D2_ln_abs; assumption| |].
    + cbn. field. split; lra.
    + unfold hess. cbn. field. split; lra.
Qed.

Lemma beyond_accuracy M p c v u : libm_good M p -> (p <= 100)%nat -> domain_errors M -> cfg_ok c -> c_ord c = 2%Z -> size_ok c 1 -> finite64 v ->
  beyond (umap val64 u) (val64 v) ->
  exists r f g h l l', evaluate (b64ops M) c [v] (EU u (EVar 0)) = Ok r /\ shows c 1 r f g h /\ nan64 f /\
    is_derive (continued (umap val64 u)) (val64 v) l /\ second_derivative (continued (umap val64 u)) (val64 v) l' /\
    accurate_to (fst (roundings p u)) (g 0%nat) l /\ accurate_to (snd (roundings p u)) (h 0%nat 0%nat) l'.
Proof.
  intros LG P DE Hc O2 SO Fv C.
  assert (NA : no_abs (EU u (EVar 0))) by (cbn [no_abs]; destruct u; cbn [umap beyond] in C; try contradiction C; cbn; tauto).
  assert (HV : vars_below 1 (EU u (EVar 0))) by (cbn; lia).
  destruct (certified (Nops p) is_value counts exactly64 M c (EU u (EVar 0)) [v] Hc SO HV NA (value_all p) (counts_all M p LG) exactly64_counts exactly64_value)
    as (r & f & g & h & rN & fN & gN & hN & _ & _ & E & Sh & EN & SN & _ & C2 & C3 & _).
  destruct (beyond_counts p u v P Fv C) as (k & k' & J1 & L1 & J2 & L2). destruct (beyond_derivatives _ _ C) as (D1 & D2').
  destruct (evaluate_rep (Nops p) c (map exactly64 [v]) None (emap exactly64 (EU u (EVar 0))) Hc SO) as (rN' & EN' & RN); [cbn; lia|].
  rewrite EN in EN'. injection EN' as <-. pose proof (rep_shows _ _ _ _ RN) as SN'.
  cbn [emap jev map nth length] in SN', RN, SN, Sh. cbn [length] in C2, C3.
  destruct SN as (_ & _ & SG & SH), SN' as (_ & _ & SG' & SH').
  specialize (SG 0%nat ltac:(lia)). specialize (SG' 0%nat ltac:(lia)). rewrite SG in SG'. injection SG' as SG'.
  specialize (SH O2 0%nat 0%nat ltac:(lia) ltac:(lia)). specialize (SH' O2 0%nat 0%nat ltac:(lia) ltac:(lia)).
  rewrite SH in SH'. injection SH' as SH'.
  specialize (C2 0%nat ltac:(lia)). specialize (C3 O2 0%nat 0%nat ltac:(lia) ltac:(lia)). rewrite SG', J1 in C2. rewrite SH', J2 in C3.
  exists r, f, g, h. eexists _, _. split; [exact E|]. split; [exact Sh|]. split.
  - destruct (evaluate_rep (b64ops M) c [v] (b64_of_Z 0) (EU u (EVar 0)) Hc SO HV) as (r' & E' & R').
    rewrite E in E'. apply Ok_inj in E'. subst r'. destruct (rep_shows _ _ _ _ R') as (_ & F1 & _), Sh as (_ & F2 & _).
    rewrite F1 in F2. apply Ok_inj in F2. subst f. cbn [jev nth].
    destruct u; cbn [umap beyond] in C; try contradiction C; cbn [jap_u jf jvar ju3 ju].
    + apply (de_atanh _ DE); [exact Fv|]. destruct C as (_ & C). apply Rnot_le_lt. intros H.
      assert (val64 v * val64 v <= 1 * 1); [|lra]. rewrite <- (Rabs_pos_eq (_ * _)) by apply Rle_0_sqr. rewrite Rabs_mult.
      apply Rmult_le_compat; try apply Rabs_pos; exact H.
    + apply (de_log _ DE); tauto.
    + apply nan_div_l, (de_log _ DE); tauto.
    + apply (de_log2 _ DE); tauto.
    + apply (de_log10 _ DE); tauto.
  - split; [exact D1|]. split; [exact D2'|]. split; [exact (accurate_mono _ _ _ _ L1 C2)|exact (accurate_mono _ _ _ _ L2 C3)].
Qed.

(** *** Powers whose exponent is lost in [b - 1] *)
Definition eps53 : b64 := b64_div (z64 1) (z64 (2 ^ 53)).
Definition lost_exponent : b64 := b64_mul eps53 eps53.
Lemma lost_facts : upto 0 lost_exponent /\ val64 lost_exponent = bpow radix2 (-106) /\ b64_sub lost_exponent (z64 1) = z64 (-1) /\ b64_sub lost_exponent (z64 2) = z64 (-2).
Proof.
  assert (V : val64 lost_exponent = bpow radix2 (-106)).
  { assert (E : exists m e, B2SF lost_exponent = SpecFloat.S754_finite false m e /\ m = (2 ^ 52)%positive /\ e = (-158)%Z) by (eexists _, _; split; [vm_compute; reflexivity|split; reflexivity]).
    destruct E as (m & e & E & -> & ->). rewrite (val_of_SF _ _ _ _ E). change (cond_Zopp false (Zpos (2 ^ 52))) with (radix2 ^ 52)%Z.
    unfold F2R. cbn [Fnum Fexp]. rewrite IZR_Zpower, <- bpow_plus by lia. reflexivity. }
  split; [|split; [exact V|split; apply B2SF_inj; vm_compute; reflexivity]].
  split; [vm_compute; reflexivity|]. rewrite V, Rabs_pos_eq by apply bpow_ge_0. apply bpow_le. lia.
Qed.

Lemma answered p v y : (p <= 100)%nat -> answers p v y -> bpow radix2 (-2) <= Rabs y <= 1 -> upto 1 v.
Proof.
  intros P (_ & A) (L & H). destruct A as (F & t & T & E).
  { split; [apply Rle_trans with (2 := L); apply bpow_le; lia|apply Rle_trans with (1 := H); apply (bpow_le radix2 0); lia]. }
  split; [exact F|]. destruct (factor_small p t (few p ltac:(lia)) T) as (T1 & T2). pose proof (few p ltac:(lia)) as K.
  assert (T3 : / (1 - INR p * u64) <= / (1 - / 16)) by (apply Rinv_le_contravar; lra).
  assert (T4 : Rabs t <= 2) by (rewrite Rabs_pos_eq by lra; lra).
  rewrite E, Rabs_mult. replace (bpow radix2 1) with (1 * 2) by (cbn; lra). apply Rmult_le_compat; try apply Rabs_pos; assumption.
Qed.
Lemma lost_pow M p c : libm_good M p -> (p <= 100)%nat -> domain_errors M -> cfg_ok c -> c_ord c = 2%Z -> size_ok c 1 ->
  finite64 lost_exponent /\ val64 lost_exponent = bpow radix2 (-106) /\ outside (Upow (val64 lost_exponent)) (val64 (z64 (-2))) /\
  exists r f g h, evaluate (b64ops M) c [z64 (-2)] (EU (Upow lost_exponent) (EVar 0)) = Ok r /\ shows c 1 r f g h /\ nan64 f /\
    finite64 (g 0%nat) /\ finite64 (h 0%nat 0%nat).
Proof.
  intros LG P DE Hc O2 SO. destruct lost_facts as (U & V & S1 & S2). destruct (of_Z_exact (-2) ltac:(lia)) as (F & VF). destruct (of_Z_exact (-1) ltac:(lia)) as (Fm & Vm).
  assert (I : is_int (val64 lost_exponent) = false).
  { rewrite V. unfold is_int. destruct (Req_EM_T _ _) as [E|]; [|reflexivity]. exfalso.
    pose proof (bpow_gt_0 radix2 (-106)) as L. assert (H : bpow radix2 (-106) < bpow radix2 0) by (apply bpow_lt; lia).
    rewrite E in L, H. change (bpow radix2 0) with (IZR 1) in H. apply lt_IZR in L, H. lia. }
  split; [apply U|]. split; [exact V|]. split. { split; [unfold z64; rewrite VF; lra|exact I]. }
  destruct (evaluate_rep (b64ops M) c [z64 (-2)] (b64_of_Z 0) (EU (Upow lost_exponent) (EVar 0)) Hc SO) as (r & E & R); [cbn; lia|].
  pose proof (rep_shows _ _ _ _ R) as Sh. eexists r, _, _, _. split; [exact E|]. split; [exact Sh|].
  cbn [jev nth jap_u jf jvar]. split; [|].
  { apply (de_pow _ DE); [exact F|apply U|unfold z64; rewrite VF; lra|exact I]. }
  assert (PW : forall k : Z, (1 <= k <= 2)%Z -> upto 1 (m_pow M (z64 (-2)) (z64 (- k)))).
  { intros k Hk. destruct (of_Z_exact (- k) ltac:(lia)) as (Fk & Vk). pose proof (lg_pow _ _ LG (z64 (-2)) (z64 (- k)) F Fk) as A.
    unfold z64 in A. rewrite VF, Vk in A. specialize (A ltac:(right; split; [lra|apply is_int_IZR])). eapply answered; [exact P|exact A|].
    assert (HK : k = 1%Z \/ k = 2%Z) by lia. destruct HK as [-> | ->]; cbn [Z.opp].
    - rewrite Rpow_std_Z by lra. replace (powerRZ (-2) (-1)) with (- / 2) by (change (- / 2 = / (-2 * 1)); rewrite Rmult_1_r; change (-2) with (- (2)); symmetry; apply Rinv_opp). rewrite Rabs_Ropp, Rabs_pos_eq by lra. cbn. lra.
    - rewrite Rpow_std_Z by lra. replace (powerRZ (-2) (-2)) with (/ 4) by (change (/ 4 = / (-2 * (-2 * 1))); f_equal; lra). rewrite Rabs_pos_eq by lra. cbn. lra. }
  pose proof (PW 1%Z ltac:(lia)) as P1. pose proof (PW 2%Z ltac:(lia)) as P2. cbn [Z.opp] in P1, P2.
  assert (Z1 : forall z : Z, (Z.abs z <= 1)%Z -> upto 0 (z64 z)).
  { intros z Hz. destruct (of_Z_exact z ltac:(lia)) as (Fz & Vz). split; [exact Fz|]. unfold z64. rewrite Vz, <- abs_IZR. apply IZR_le. exact Hz. }
  unfold hess. cbn [ju3 ju jg jh Nat.min Nat.max Nat.eqb k_pow cmul vmul vset vacc is_zero b64ops o_mul o_add o_Z o_pow o_sub jvar].
  change b64_of_Z with z64. rewrite S1, S2.
  assert (D : upto 1 (b64_mul lost_exponent (m_pow M (z64 (-2)) (z64 (-1))))) by (eapply um; [exact U|exact P1|lia|lia]).
  assert (DD : upto 1 (b64_mul (b64_mul (z64 (-1)) lost_exponent) (m_pow M (z64 (-2)) (z64 (-2))))).
  { eapply um; [eapply (um _ _ _ _ 0); [apply (Z1 (-1)%Z); lia|exact U|lia|lia]|exact P2|lia|lia]. }
  split.
  - eapply (um _ _ _ _ 10); [exact D|apply Z1; lia|lia|lia].
  - eapply (ua _ _ _ _ 20); [eapply (um _ _ _ _ 10); [exact D|apply Z1; lia|lia|lia]| |lia|instantiate (1 := 15%Z); lia|lia].
    eapply um; [eapply (um _ _ _ _ 10); [exact DD|apply Z1; lia|lia|lia]|apply Z1; lia|lia|lia].
Qed.

(** *** A correctly rounded library with domain errors *)
Definition else_nan (bad : bool) (v : b64) : b64 := if bad then B754_nan else v.
Definition strict_libm : libm := {|
  m_pow := fun x y => else_nan (Rltb (val64 x) 0 && negb (is_int (val64 y))) (m_pow exact_libm x y); m_cbrt := m_cbrt exact_libm;
  m_cos := m_cos exact_libm; m_sin := m_sin exact_libm; m_tan := m_tan exact_libm;
  m_acos := fun x => else_nan (Rltb 1 (Rabs (val64 x))) (m_acos exact_libm x); m_asin := fun x => else_nan (Rltb 1 (Rabs (val64 x))) (m_asin exact_libm x);
  m_atan := m_atan exact_libm; m_atan2 := m_atan2 exact_libm; m_hypot := m_hypot exact_libm; m_hypot3 := m_hypot3 exact_libm;
  m_cosh := m_cosh exact_libm; m_sinh := m_sinh exact_libm; m_tanh := m_tanh exact_libm;
  m_acosh := fun x => else_nan (Rltb (val64 x) 1) (m_acosh exact_libm x); m_asinh := m_asinh exact_libm;
  m_atanh := fun x => else_nan (Rltb 1 (Rabs (val64 x))) (m_atanh exact_libm x);
  m_exp := m_exp exact_libm; m_log := fun x => else_nan (Rltb (val64 x) 0) (m_log exact_libm x);
  m_log2 := fun x => else_nan (Rltb (val64 x) 0) (m_log2 exact_libm x); m_log10 := fun x => else_nan (Rltb (val64 x) 0) (m_log10 exact_libm x)
|}.
Lemma Rltb_no x y : y <= x -> Rltb x y = false.
Proof. intros H. unfold Rltb. destruct (Rlt_dec x y); [exfalso; lra|reflexivity]. Qed.
Lemma strict_good : libm_good strict_libm 1 /\ domain_errors strict_libm.
Proof.
  split.
  - constructor; intros v; intros; cbn [strict_libm m_pow m_cbrt m_cos m_sin m_tan m_acos m_asin m_atan m_atan2 m_hypot m_hypot3 m_cosh m_sinh m_tanh
      m_acosh m_asinh m_atanh m_exp m_log m_log2 m_log10]; try apply of_real_answers; rewrite ?Rltb_no by lra; try apply of_real_answers.
    destruct H1 as [P|(P & I)]; [rewrite Rltb_no by lra|rewrite I, andb_false_r]; apply of_real_answers.
  - constructor; intros x; intros; cbn [strict_libm m_pow m_acos m_asin m_acosh m_atanh m_log m_log2 m_log10];
      try (rewrite (proj2 (Rltb_true _ _)) by assumption; reflexivity).
    rewrite H2, (proj2 (Rltb_true _ _)) by assumption. reflexivity.
Qed.
