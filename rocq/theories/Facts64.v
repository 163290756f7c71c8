(** The library with [double] scalars: division, [pow] at zero, comparisons with NaN, rounding. *)
From Coq Require Import ZArith List Bool Lia Reals Lra Psatz.
From Flocq Require Import Core BinarySingleNaN Relative.
From Verif Require Import Outcome Scalar Float64 Model Spec Core Kernels OpsRep AccRep CreateRep FactsLayout FactsCtor FactsOps
  RealOps ExprSpec UDeriv FactsReal
  Samples Ops64 B64.
Import ListNotations.
Open Scope Z_scope.

(** ** division *)
Section Div.
  Context {S : Type} (O : Ops S) (c : cfg) (n : nat) (x y : dd S) (a b : S).
  Lemma div_values : cfg_ok c -> wf c n x -> wf c n y -> get_f x = Ok a -> get_f y = Ok b ->
    (exists r, div O c x y = Ok r /\ get_f r = Ok (o_mul O a (o_div O (o_Z O 1) b))) /\
    (exists r, div_assign O c x (Some y) = Ok r /\ get_f r = Ok (o_div O a b)) /\
    (exists r, divs O c x b = Ok r /\ get_f r = Ok (o_mul O a (o_div O (o_Z O 1) b))) /\
    (exists r, sdiv O c a y = Ok r /\ get_f r = Ok (o_div O a b)).
  Proof.
    intros Hc Wx Wy Ex Ey. destruct (wf_rep _ _ _ Wx) as (J & HJ). destruct (wf_rep _ _ _ Wy) as (K & HK).
    pose proof (get_f_rep _ _ _ _ HJ) as Fx. pose proof (get_f_rep _ _ _ _ HK) as Fy.
    assert (Ea : jf J = a) by congruence. assert (Eb : jf K = b) by congruence.
    split; [|split; [|split]].
    - destruct (apply_b_rep O c Hc n J K x y Bdiv HJ HK) as (r & E & R). exists r. split; [exact E|].
      rewrite (get_f_rep _ _ _ _ R), <- Ea, <- Eb. reflexivity.
    - destruct (div_assign_rep O c Hc n J K x y HJ HK) as (r & E & R). exists r. split; [exact E|].
      rewrite (get_f_rep _ _ _ _ R), <- Ea, <- Eb. reflexivity.
    - destruct (apply_u_rep O c Hc n J x (Udivs b) HJ) as (r & E & R). exists r. split; [exact E|].
      rewrite (get_f_rep _ _ _ _ R), <- Ea. reflexivity.
    - destruct (apply_u_rep O c Hc n K y (Usdiv a) HK) as (r & E & R). exists r. split; [exact E|].
      rewrite (get_f_rep _ _ _ _ R), <- Eb. reflexivity.
  Qed.
End Div.

Definition z64 := b64_of_Z.
Definition num49 : dd b64 := mk 1 (full [z64 49; z64 1]).
Lemma wf_49 : wf dyn1 1 num49. Proof. apply wf_list; [reflexivity|reflexivity|vm_compute; discriminate]. Qed.
Lemma q49 : Beqb (b64_mul (z64 49) (b64_div (z64 1) (z64 49))) (z64 1) = false /\ Beqb (b64_div (z64 49) (z64 49)) (z64 1) = true.
Proof. split; vm_compute; reflexivity. Qed.
Lemma finite_z z : (Z.abs z <= 2 ^ 53)%Z -> finite64 (z64 z). Proof. intros H. apply of_Z_exact, H. Qed.
Lemma val_z z : (Z.abs z <= 2 ^ 53)%Z -> val64 (z64 z) = IZR z. Proof. intros H. apply of_Z_exact, H. Qed.

Definition no_libm : libm := {|
  m_pow := fun x _ => x; m_cbrt := fun x => x; m_cos := fun x => x; m_sin := fun x => x; m_tan := fun x => x;
  m_acos := fun x => x; m_asin := fun x => x; m_atan := fun x => x; m_atan2 := fun x _ => x;
  m_hypot := fun x _ => x; m_hypot3 := fun x _ _ => x; m_cosh := fun x => x; m_sinh := fun x => x; m_tanh := fun x => x;
  m_acosh := fun x => x; m_asinh := fun x => x; m_atanh := fun x => x; m_exp := fun x => x; m_log := fun x => x;
  m_log2 := fun x => x; m_log10 := fun x => x |}.

Open Scope R_scope.
Lemma Ok_inj {A} (x y : A) : Ok x = Ok y -> x = y. Proof. intros E. inversion E. reflexivity. Qed.
Lemma self_div_49 (M : libm) : ~ (forall (c : cfg) (n : nat) (x : dd b64) (a : b64), cfg_ok c -> wf c n x ->
  get_f x = Ok a -> finite64 a -> val64 a <> 0 -> exists r, div (b64ops M) c x x = Ok r /\ get_f r = Ok (b64_of_Z 1)).
Proof.
  intros H. destruct (H dyn1 1%nat num49 (z64 49) cfg_dyn1 wf_49 ltac:(reflexivity) (finite_z 49 ltac:(lia))
    ltac:(rewrite val_z by lia; apply not_0_IZR; lia)) as (r & E & F).
  destruct (div_values (b64ops M) dyn1 1%nat num49 num49 (z64 49) (z64 49) cfg_dyn1 wf_49 wf_49 ltac:(reflexivity) ltac:(reflexivity))
    as ((r' & E' & F') & _).
  assert (r = r') by congruence. subst r'. rewrite F in F'. apply Ok_inj in F'. pose proof (proj1 q49) as Q.
  cbn [o_mul o_div o_Z b64ops] in F'. unfold z64 in Q, F'. rewrite <- F' in Q. vm_compute in Q. discriminate.
Qed.
Lemma div_assign_49 (M : libm) : ~ (forall (c : cfg) (n : nat) (x y : dd b64) (r r' : dd b64), cfg_ok c -> wf c n x -> wf c n y ->
  div (b64ops M) c x y = Ok r -> div_assign (b64ops M) c x (Some y) = Ok r' -> get_f r = get_f r').
Proof.
  intros H.
  destruct (div_values (b64ops M) dyn1 1%nat num49 num49 (z64 49) (z64 49) cfg_dyn1 wf_49 wf_49 ltac:(reflexivity) ltac:(reflexivity))
    as ((r & E & F) & (r' & E' & F') & _).
  pose proof (H dyn1 1%nat num49 num49 r r' cfg_dyn1 wf_49 wf_49 E E') as X. rewrite F, F' in X. apply Ok_inj in X.
  cbn [o_mul o_div o_Z b64ops] in X. destruct q49 as (Q1 & Q2). unfold z64 in *. rewrite X, Q2 in Q1. discriminate.
Qed.

Lemma one64 : finite64 (b64_of_Z 1) /\ val64 (b64_of_Z 1) = 1.
Proof. apply (of_Z_exact 1). lia. Qed.

(** [1 / b] for [2^-1021 <= |b| <= 2^1022] *)
Lemma recip_ok b : finite64 b -> bpow radix2 (-1021) <= Rabs (val64 b) <= bpow radix2 1022 ->
  exists d, Rabs d <= u64 /\ finite64 (b64_div (b64_of_Z 1) b) /\ val64 (b64_div (b64_of_Z 1) b) = / val64 b * (1 + d).
Proof.
  intros F (L & U). pose proof (bpow_gt_0 radix2 (-1021)) as P. pose proof (bpow_gt_0 radix2 1022) as P'.
  assert (N : val64 b <> 0) by (intros E; rewrite E, Rabs_R0 in L; lra).
  assert (A : Rabs (/ val64 b) = / Rabs (val64 b)) by (apply Rabs_inv).
  assert (LO : bpow radix2 (-1022) <= Rabs (/ val64 b)).
  { rewrite A. replace (bpow radix2 (-1022)) with (/ bpow radix2 1022) by (rewrite <- bpow_opp; reflexivity).
    apply Rinv_le_contravar; [|exact U]. lra. }
  assert (UP : Rabs (/ val64 b) <= bpow radix2 1021).
  { rewrite A. replace (bpow radix2 1021) with (/ bpow radix2 (-1021)) by (rewrite <- bpow_opp; reflexivity).
    apply Rinv_le_contravar; [exact P|exact L]. }
  destruct (near64_rel _ LO) as (d & Bd & E). exists d. split; [exact Bd|].
  destruct one64 as (F1 & V1).
  destruct (div_ok (b64_of_Z 1) b F1 F N) as (G1 & G2).
  - rewrite V1. replace (1 / val64 b) with (/ val64 b) by (unfold Rdiv; ring).
    eapply Rle_lt_trans; [apply near64_le_bpow with (e := 1021%Z); [lia|exact UP]|apply bpow_lt; reflexivity].
  - split; [exact G1|]. rewrite G2, V1. replace (1 / val64 b) with (/ val64 b) by (unfold Rdiv; ring). exact E.
Qed.
Lemma u64_small : 0 < u64 <= / 8.
Proof.
  unfold u64. split; [apply bpow_gt_0|]. replace (/ 8) with (bpow radix2 (-3)) by (cbn; lra). apply bpow_le. lia.
Qed.
Lemma div_accuracy (a b : b64) : finite64 a -> finite64 b ->
  bpow radix2 (-1021) <= Rabs (val64 b) <= bpow radix2 1022 ->
  bpow radix2 (-1021) <= Rabs (val64 a / val64 b) <= bpow radix2 1023 ->
  let q := b64_mul a (b64_div (b64_of_Z 1) b) in
  finite64 q /\ Rabs (val64 q - val64 a / val64 b) <= (2 * u64 + u64 * u64) * Rabs (val64 a / val64 b).
Proof.
  intros Fa Fb HB (L & U). cbv zeta.
  destruct (recip_ok b Fb HB) as (d & Bd & F1 & V1). set (t := b64_div (b64_of_Z 1) b) in *.
  pose proof u64_small as US. apply Rabs_le_inv in Bd as Bd'.
  assert (EQ : val64 a * val64 t = val64 a / val64 b * (1 + d)) by (rewrite V1; unfold Rdiv; ring).
  set (q := val64 a / val64 b) in *.
  assert (HA : Rabs (q * (1 + d)) = Rabs q * (1 + d)) by (rewrite Rabs_mult, (Rabs_pos_eq (1 + d)) by lra; reflexivity).
  assert (Lo : bpow radix2 (-1022) <= Rabs (val64 a * val64 t)).
  { rewrite EQ, HA. change (bpow radix2 (-1021)) with (bpow radix2 (1 + -1022)) in L. rewrite bpow_plus in L.
    change (bpow radix2 1) with 2 in L. pose proof (bpow_gt_0 radix2 (-1022)). nra. }
  destruct (near64_rel _ Lo) as (e & Be & E). apply Rabs_le_inv in Be as Be'.
  assert (UP : Rabs (near64 (val64 a * val64 t)) < bpow radix2 1024).
  { rewrite E, EQ, Rabs_mult, HA, (Rabs_pos_eq (1 + e)) by lra.
    change (bpow radix2 1024) with (bpow radix2 (1 + 1023)). rewrite bpow_plus. change (bpow radix2 1) with 2.
    pose proof (bpow_gt_0 radix2 1023). pose proof (Rabs_pos q).
    apply Rle_lt_trans with (Rabs q * (1 + / 8) * (1 + / 8)); [|lra].
    apply Rmult_le_compat; [nra|lra|apply Rmult_le_compat_l; lra|lra]. }
  destruct (mul_ok a t Fa F1 UP) as (G1 & G2). split; [exact G1|].
  rewrite G2, E, EQ. replace (q * (1 + d) * (1 + e) - q) with (q * (d + e + d * e)) by ring.
  rewrite Rabs_mult, Rmult_comm. apply Rmult_le_compat_r; [apply Rabs_pos|].
  eapply Rle_trans; [apply Rabs_triang|]. eapply Rle_trans; [apply Rplus_le_compat_r, Rabs_triang|].
  rewrite Rabs_mult. pose proof (Rabs_pos d). pose proof (Rabs_pos e). nra.
Qed.
(** correct rounding of [/=] *)
Lemma div_assign_accuracy (a b : b64) : finite64 a -> finite64 b -> val64 b <> 0 ->
  Rabs (near64 (val64 a / val64 b)) < bpow radix2 1024 ->
  finite64 (b64_div a b) /\ val64 (b64_div a b) = near64 (val64 a / val64 b).
Proof. apply div_ok. Qed.

Lemma sign_not_nan (x : b64) : finite64 x -> is_nan x = false.
Proof. unfold finite64. destruct x; cbn; congruence. Qed.
(** where the reciprocal is exact *)
Lemma div_exact_recip (a b : b64) : finite64 a -> finite64 b -> finite64 (b64_div (b64_of_Z 1) b) ->
  val64 (b64_div (b64_of_Z 1) b) * val64 b = 1 -> b64_mul a (b64_div (b64_of_Z 1) b) = b64_div a b.
Proof.
  intros Fa Fb Ft H. set (t := b64_div (b64_of_Z 1) b) in *.
  assert (N : val64 b <> 0) by (intros E; rewrite E in H; lra).
  assert (Vt : val64 t = / val64 b) by (field_simplify_eq; [exact H|exact N]).
  assert (St : Bsign t = Bsign b).
  { pose proof (Bdiv_correct prec64 emax64 prec64_gt_0 prec64_lt_emax mode_NE (b64_of_Z 1) b N) as HC. cbn [round_mode] in HC.
    change (BinarySingleNaN.Bdiv mode_NE (b64_of_Z 1) b) with t in HC. change (Bsign (b64_of_Z 1)) with false in HC. destruct (Rlt_bool _ _).
    - destruct HC as (_ & _ & HS). rewrite (HS (sign_not_nan _ Ft)). apply xorb_false_l.
    - apply of_SF_inf in HC. rewrite HC in Ft. discriminate. }
  assert (EQ : val64 a * val64 t = val64 a / val64 b) by (rewrite Vt; reflexivity).
  destruct (Rlt_or_le (Rabs (near64 (val64 a / val64 b))) (bpow radix2 1024)) as [B|B].
  - destruct (mul_ok a t Fa Ft ltac:(rewrite EQ; exact B)) as (G1 & G2). destruct (div_ok a b Fa Fb N B) as (D1 & D2).
    apply B2R_Bsign_inj; [exact G1|exact D1|unfold val64 in *; rewrite G2, D2, <- EQ; reflexivity|].
    pose proof (Bmult_correct prec64 emax64 prec64_gt_0 prec64_lt_emax mode_NE a t) as HC. cbn [round_mode] in HC.
    change (round radix2 _ _ (B2R a * B2R t)) with (near64 (val64 a * val64 t)) in HC. rewrite EQ, Rlt_bool_true in HC by exact B.
    destruct HC as (_ & _ & HS). pose proof (HS (sign_not_nan _ G1)) as HM. clear HS.
    pose proof (Bdiv_correct prec64 emax64 prec64_gt_0 prec64_lt_emax mode_NE a b N) as HC. cbn [round_mode] in HC.
    change (round radix2 _ _ (B2R a / B2R b)) with (near64 (val64 a / val64 b)) in HC. rewrite Rlt_bool_true in HC by exact B.
    destruct HC as (_ & _ & HS). pose proof (HS (sign_not_nan _ D1)) as HD.
    unfold b64_mul, b64_div. rewrite HM, HD, St. reflexivity.
  - rewrite (mul_over a t) by (rewrite EQ; exact B). rewrite (div_over a b N B), St. reflexivity.
Qed.
(** tiny divisors *)
Lemma tiny_self_div b : finite64 b -> val64 b <> 0 -> Rabs (val64 b) <= bpow radix2 (-1024) ->
  b64_mul b (b64_div (b64_of_Z 1) b) = B754_infinity false /\ b64_div b b = b64_of_Z 1.
Proof.
  intros F N B. pose proof (bpow_gt_0 radix2 (-1024)) as P.
  assert (A : 0 < Rabs (val64 b)) by (apply Rabs_pos_lt, N).
  rewrite (div_over (b64_of_Z 1) b N).
  - split.
    + change (Bsign (b64_of_Z 1)) with false. rewrite xorb_false_l. unfold finite64, val64 in *.
      destruct b as [s|s| |s m e H]; try discriminate; [cbn in N; lra|]. cbn. rewrite xorb_nilpotent. reflexivity.
    + assert (E1 : near64 (val64 b / val64 b) = 1).
      { replace (val64 b / val64 b) with 1 by (field; exact N). apply near64_exact. apply (fmt_small 1). lia. }
      assert (B1 : Rabs (near64 (val64 b / val64 b)) < bpow radix2 1024).
      { rewrite E1, Rabs_R1. apply (bpow_lt radix2 0 1024). lia. }
      destruct (div_ok b b F F N B1) as (D1 & D2). rewrite E1 in D2. destruct one64 as (F1 & V1).
      apply B2R_Bsign_inj; [exact D1|exact F1|unfold val64 in *; rewrite D2, V1; reflexivity|].
      pose proof (Bdiv_correct prec64 emax64 prec64_gt_0 prec64_lt_emax mode_NE b b N) as HC. cbn [round_mode] in HC.
      change (round radix2 _ _ (B2R b / B2R b)) with (near64 (val64 b / val64 b)) in HC. rewrite Rlt_bool_true in HC by exact B1.
      destruct HC as (_ & _ & HS). unfold b64_div. rewrite (HS (sign_not_nan _ D1)), xorb_nilpotent. reflexivity.
  - apply near64_ge_bpow; [lia|]. rewrite (proj2 one64). unfold Rdiv. rewrite Rmult_1_l, Rabs_inv.
    replace (bpow radix2 1024) with (/ bpow radix2 (-1024)) by (rewrite <- bpow_opp; reflexivity).
    apply Rinv_le_contravar; [exact A|exact B].
Qed.

(** ** [pow] at zero *)
Section Pow.
  Context {S : Type} (O : Ops S) (c : cfg) (n : nat).
  Lemma pow_shows (x : dd S) f g h b : cfg_ok c -> shows c n x f g h ->
    let da := o_mul O b (o_pow O f (o_sub O b (o_Z O 1))) in
    let daa := o_mul O (o_mul O (o_sub O b (o_Z O 1)) b) (o_pow O f (o_sub O b (o_Z O 2))) in
    exists r h', apply_u O c (Upow b) x = Ok r /\ shows c n r (o_pow O f b) (fun i => o_mul O da (g i)) h' /\
      forall i j, h' i j = o_add O (o_mul O da (h (Nat.min i j) (Nat.max i j)))
                      (o_mul O (o_mul O daa (g (Nat.min i j))) (g (Nat.max i j))).
  Proof.
    intros Hc Hx da daa. pose proof (shows_rep _ _ _ _ _ _ Hc Hx) as HJ.
    destruct (apply_u_rep O c Hc n _ x (Upow b) HJ) as (r & E & R). exists r. eexists. split; [exact E|].
    apply rep_shows in R. split; [exact R|]. intros i j. reflexivity.
  Qed.
End Pow.

Lemma zero_mul s (x : b64) : finite64 x -> finite64 (b64_mul (B754_zero s) x) /\ val64 (b64_mul (B754_zero s) x) = 0.
Proof. unfold finite64. destruct x; try discriminate; intros _; split; reflexivity. Qed.
Lemma zero_val (z : b64) : finite64 z -> val64 z = 0 -> exists s, z = B754_zero s.
Proof.
  unfold finite64, val64. destruct z as [s|s| |s m e H]; try discriminate; intros _ E; [exists s; reflexivity|].
  cbn in E. unfold F2R in E. cbn in E. apply Rmult_integral in E. destruct E as [E|E].
  - apply eq_IZR in E. destruct s; discriminate.
  - pose proof (bpow_gt_0 radix2 e). lra.
Qed.
Lemma zero_mul_val (z x : b64) : finite64 z -> val64 z = 0 -> finite64 x -> finite64 (b64_mul z x) /\ val64 (b64_mul z x) = 0.
Proof. intros F E. destruct (zero_val z F E) as (s & ->). apply zero_mul. Qed.
Lemma zero_add_val (z x : b64) : finite64 z -> val64 z = 0 -> finite64 x ->
  finite64 (b64_add z x) /\ val64 (b64_add z x) = val64 x.
Proof.
  intros F E Fx. destruct (add_ok z x F Fx) as (G1 & G2).
  - rewrite E, Rplus_0_l, (near64_exact _ (fmt_val x)). apply finite_val_lt.
  - split; [exact G1|]. rewrite G2, E, Rplus_0_l. apply near64_exact, fmt_val.
Qed.
Lemma mul_1_l x : b64_mul (b64_of_Z 1) x = x.
Proof.
  destruct (is_finite x) eqn:F.
  - destruct one64 as (F1 & V1). assert (B : Rabs (near64 (val64 (b64_of_Z 1) * val64 x)) < bpow radix2 1024).
    { rewrite V1, Rmult_1_l, (near64_exact _ (fmt_val x)). apply finite_val_lt. }
    destruct (mul_ok _ x F1 F B) as (G1 & G2). rewrite V1, Rmult_1_l, (near64_exact _ (fmt_val x)) in G2.
    apply B2R_Bsign_inj; [exact G1|exact F|exact G2|].
    pose proof (Bmult_correct prec64 emax64 prec64_gt_0 prec64_lt_emax mode_NE (b64_of_Z 1) x) as HC. cbn [round_mode] in HC.
    change (round radix2 _ _ (B2R (b64_of_Z 1) * B2R x)) with (near64 (val64 (b64_of_Z 1) * val64 x)) in HC.
    rewrite Rlt_bool_true in HC by exact B. destruct HC as (_ & _ & HS).
    unfold b64_mul. rewrite (HS (sign_not_nan _ G1)). apply xorb_false_l.
  - destruct x as [s|s| |s m e H]; try discriminate; [destruct s; reflexivity|reflexivity].
Qed.
(** differences and products of small integers are exact *)
Lemma sub_z a b : (Z.abs a <= 2 ^ 53)%Z -> (Z.abs b <= 2 ^ 53)%Z -> (Z.abs (a - b) <= 2 ^ 53)%Z ->
  finite64 (b64_sub (z64 a) (z64 b)) /\ val64 (b64_sub (z64 a) (z64 b)) = IZR (a - b).
Proof.
  intros Ha Hb Hd.
  assert (E : near64 (val64 (z64 a) - val64 (z64 b)) = IZR (a - b)).
  { rewrite !val_z by assumption. rewrite <- minus_IZR. apply near64_exact, fmt_small. exact Hd. }
  destruct (sub_ok (z64 a) (z64 b) (finite_z a Ha) (finite_z b Hb)) as (G1 & G2).
  - rewrite E, <- abs_IZR. apply Rle_lt_trans with (IZR (2 ^ 53)); [apply IZR_le, Hd|].
    rewrite <- bpow_Z by lia. apply bpow_lt. lia.
  - split; [exact G1|]. rewrite G2. exact E.
Qed.

Section PowZero.
  Context (M : libm) (HM : pow_zero_cases M).
  Lemma pow_zero_value s y k : finite64 y -> val64 y = IZR k -> (0 < k)%Z ->
    finite64 (m_pow M (B754_zero s) y) /\ val64 (m_pow M (B754_zero s) y) = 0.
  Proof.
    intros F V K. destruct (Z.odd k) eqn:E.
    - rewrite (pow_pos_odd _ HM s y k F V K E). split; reflexivity.
    - rewrite (pow_pos_even _ HM s y k F V K E). split; reflexivity.
  Qed.
  (** [0 * inf] *)
  Lemma zero_inf_nan (z : b64) s : finite64 z -> val64 z = 0 -> nan64 (b64_mul z (B754_infinity s)).
  Proof. intros F E. destruct (zero_val z F E) as (t & ->). reflexivity. Qed.
  Lemma pow_m1 s y : finite64 y -> val64 y = -1 -> m_pow M (B754_zero s) y = B754_infinity s.
  Proof. intros F V. apply (pow_neg_odd _ HM s y (-1) F V); [lia|reflexivity]. Qed.
  Lemma pow_m2 s y : finite64 y -> val64 y = -2 -> m_pow M (B754_zero s) y = B754_infinity false.
  Proof. intros F V. apply (pow_neg_even _ HM s y (-2) F V); [lia|reflexivity]. Qed.

  Lemma pow0_at_zero c n x s g h : cfg_ok c -> shows c n x (B754_zero s) g h ->
    exists r g' h', apply_u (b64ops M) c (Upow (b64_of_Z 0)) x = Ok r /\ shows c n r (b64_of_Z 1) g' h' /\
      (forall i, nan64 (g' i)) /\ (forall i j, nan64 (h' i j)).
  Proof.
    intros Hc Hx. destruct (pow_shows (b64ops M) c n x _ g h (z64 0) Hc Hx) as (r & h' & E & R & HH).
    cbn [o_mul o_pow o_sub o_Z o_add b64ops] in *. change (b64_of_Z 1) with (z64 1) in *. change (b64_of_Z 2) with (z64 2) in *.
    destruct (sub_z 0 1 ltac:(lia) ltac:(lia) ltac:(lia)) as (F1 & V1). change (0 - 1)%Z with (-1)%Z in V1.
    rewrite (pow_m1 s _ F1 V1) in *.
    assert (ND : nan64 (b64_mul (z64 0) (B754_infinity s))) by (apply zero_inf_nan; [apply finite_z; lia|apply val_z; lia]).
    exists r, (fun i => b64_mul (b64_mul (z64 0) (B754_infinity s)) (g i)), h'.
    split; [exact E|]. split; [|split].
    - rewrite (pow_exp0 _ HM) in R; [exact R|apply finite_z; lia|apply val_z; lia].
    - intros i. apply nan_mul_l, ND.
    - intros i j. rewrite HH. apply nan_add_l, nan_mul_l, ND.
  Qed.
  Lemma pow1_at_zero c n x s g h : cfg_ok c -> shows c n x (B754_zero s) g h ->
    exists r h', apply_u (b64ops M) c (Upow (b64_of_Z 1)) x = Ok r /\ shows c n r (B754_zero s) g h' /\
      (forall i j, nan64 (h' i j)).
  Proof.
    intros Hc Hx. destruct (pow_shows (b64ops M) c n x _ g h (z64 1) Hc Hx) as (r & h' & E & R & HH).
    cbn [o_mul o_pow o_sub o_Z o_add b64ops] in *. change (b64_of_Z 1) with (z64 1) in *. change (b64_of_Z 2) with (z64 2) in *.
    destruct (sub_z 1 1 ltac:(lia) ltac:(lia) ltac:(lia)) as (F0 & V0). change (1 - 1)%Z with 0%Z in V0.
    destruct (sub_z 1 2 ltac:(lia) ltac:(lia) ltac:(lia)) as (F1 & V1). change (1 - 2)%Z with (-1)%Z in V1.
    rewrite (pow_m1 s _ F1 V1) in *. rewrite (pow_exp0 _ HM _ _ F0 V0) in *.
    rewrite (pow_pos_odd _ HM s (z64 1) 1) in R; [|apply finite_z; lia|apply val_z; lia|lia|reflexivity].
    exists r, h'. split; [exact E|]. split.
    - destruct R as (R1 & R2 & R3 & R4). repeat split; try assumption; try apply R1. intros i Hi. rewrite (R3 i Hi).
      change (b64_of_Z 1) with (z64 1). unfold z64 in *. rewrite !mul_1_l. reflexivity.
    - intros i j. rewrite HH. apply nan_add_r, nan_mul_l, nan_mul_l. apply zero_inf_nan.
      + apply (zero_mul_val _ _ F0 V0). apply finite_z. lia.
      + apply (zero_mul_val _ _ F0 V0). apply finite_z. lia.
  Qed.
  Lemma prod_ok k : (2 <= k <= 2 ^ 53)%Z -> finite64 (b64_mul (b64_sub (z64 k) (z64 1)) (z64 k)).
  Proof.
    intros K. destruct (sub_z k 1 ltac:(lia) ltac:(lia) ltac:(lia)) as (F & V).
    apply mul_ok; [exact F|apply finite_z; lia|]. rewrite V, val_z by lia.
    apply Rle_lt_trans with (bpow radix2 106); [|apply bpow_lt; lia]. apply near64_le_bpow; [lia|].
    rewrite <- mult_IZR, <- abs_IZR, bpow_Z by lia. apply IZR_le. change (2 ^ 106)%Z with (2 ^ 53 * 2 ^ 53)%Z. rewrite Z.abs_eq by nia. nia.
  Qed.
  Lemma pow_at_zero c n x s g h k : cfg_ok c -> shows c n x (B754_zero s) g h -> (3 <= k <= 2 ^ 53)%Z ->
    exists r f' g' h', apply_u (b64ops M) c (Upow (b64_of_Z k)) x = Ok r /\ shows c n r f' g' h' /\
      finite64 f' /\ val64 f' = 0 /\
      (forall i, finite64 (g i) -> finite64 (g' i) /\ val64 (g' i) = 0) /\
      (forall i j, (forall l, finite64 (g l)) -> (forall l m, finite64 (h l m)) -> finite64 (h' i j) /\ val64 (h' i j) = 0).
  Proof.
    intros Hc Hx K. destruct (pow_shows (b64ops M) c n x _ g h (z64 k) Hc Hx) as (r & h' & E & R & HH).
    cbn [o_mul o_pow o_sub o_Z o_add b64ops] in *. change (b64_of_Z 1) with (z64 1) in *. change (b64_of_Z 2) with (z64 2) in *.
    destruct (sub_z k 1 ltac:(lia) ltac:(lia) ltac:(lia)) as (F1 & V1).
    destruct (sub_z k 2 ltac:(lia) ltac:(lia) ltac:(lia)) as (F2 & V2).
    destruct (pow_zero_value s _ _ F1 V1 ltac:(lia)) as (P1 & Q1). destruct (pow_zero_value s _ _ F2 V2 ltac:(lia)) as (P2 & Q2).
    destruct (pow_zero_value s (z64 k) k (finite_z k ltac:(lia)) (val_z k ltac:(lia)) ltac:(lia)) as (P0 & Q0).
    set (p1 := m_pow M (B754_zero s) (b64_sub (z64 k) (z64 1))) in *. set (p2 := m_pow M (B754_zero s) (b64_sub (z64 k) (z64 2))) in *.
    assert (DA : finite64 (b64_mul (z64 k) p1) /\ val64 (b64_mul (z64 k) p1) = 0)
      by (rewrite b64_mul_comm; apply zero_mul_val; [exact P1|exact Q1|apply finite_z; lia]).
    destruct DA as (DA & DA').
    assert (DD : finite64 (b64_mul (b64_mul (b64_sub (z64 k) (z64 1)) (z64 k)) p2) /\ val64 (b64_mul (b64_mul (b64_sub (z64 k) (z64 1)) (z64 k)) p2) = 0)
      by (rewrite (b64_mul_comm _ p2); apply zero_mul_val; [exact P2|exact Q2|apply prod_ok; lia]).
    destruct DD as (DD & DD').
    exists r. do 2 eexists. exists h'. split; [exact E|]. split; [exact R|]. split; [exact P0|]. split; [exact Q0|]. split.
    - intros i Fi. apply zero_mul_val; assumption.
    - intros i j Fg Fh. rewrite HH.
      destruct (zero_mul_val _ (h (Nat.min i j) (Nat.max i j)) DA DA' (Fh _ _)) as (A1 & A2).
      destruct (zero_mul_val _ (g (Nat.min i j)) DD DD' (Fg _)) as (B1 & B2).
      destruct (zero_mul_val _ (g (Nat.max i j)) B1 B2 (Fg _)) as (C1 & C2).
      destruct (zero_add_val _ _ A1 A2 C1) as (D1 & D2). split; [exact D1|]. rewrite D2. exact C2.
  Qed.
  Lemma pow2_at_zero c n x s g h : cfg_ok c -> shows c n x (B754_zero s) g h ->
    exists r f' g' h', apply_u (b64ops M) c (Upow (b64_of_Z 2)) x = Ok r /\ shows c n r f' g' h' /\
      finite64 f' /\ val64 f' = 0 /\
      (forall i, finite64 (g i) -> finite64 (g' i) /\ val64 (g' i) = 0) /\
      (forall i j, (i <= j)%nat -> finite64 (h i j) ->
         let p := b64_mul (b64_mul (b64_of_Z 2) (g i)) (g j) in finite64 p -> finite64 (h' i j) /\ val64 (h' i j) = val64 p).
  Proof.
    intros Hc Hx. destruct (pow_shows (b64ops M) c n x _ g h (z64 2) Hc Hx) as (r & h' & E & R & HH).
    cbn [o_mul o_pow o_sub o_Z o_add b64ops] in *. change (b64_of_Z 1) with (z64 1) in *. change (b64_of_Z 2) with (z64 2) in *.
    destruct (sub_z 2 1 ltac:(lia) ltac:(lia) ltac:(lia)) as (F1 & V1).
    destruct (sub_z 2 2 ltac:(lia) ltac:(lia) ltac:(lia)) as (F2 & V2). change (2 - 2)%Z with 0%Z in V2.
    destruct (pow_zero_value s _ _ F1 V1 ltac:(lia)) as (P1 & Q1).
    destruct (pow_zero_value s (z64 2) 2 (finite_z 2 ltac:(lia)) (val_z 2 ltac:(lia)) ltac:(lia)) as (P0 & Q0).
    rewrite (pow_exp0 _ HM _ _ F2 V2) in *.
    set (p1 := m_pow M (B754_zero s) (b64_sub (z64 2) (z64 1))) in *.
    assert (DA : finite64 (b64_mul (z64 2) p1) /\ val64 (b64_mul (z64 2) p1) = 0)
      by (rewrite b64_mul_comm; apply zero_mul_val; [exact P1|exact Q1|apply finite_z; lia]).
    destruct DA as (DA & DA').
    assert (DD : b64_mul (b64_mul (b64_sub (z64 2) (z64 1)) (z64 2)) (b64_of_Z 1) = z64 2).
    { rewrite b64_mul_comm, mul_1_l. replace (b64_sub (z64 2) (z64 1)) with (b64_of_Z 1) by (apply B2SF_inj; vm_compute; reflexivity). apply mul_1_l. }
    rewrite DD in HH.
    exists r. do 2 eexists. exists h'. split; [exact E|]. split; [exact R|]. split; [exact P0|]. split; [exact Q0|]. split.
    - intros i Fi. apply zero_mul_val; assumption.
    - intros i j L Fh Fp. rewrite HH, Nat.min_l, Nat.max_r by exact L.
      destruct (zero_mul_val _ (h i j) DA DA' Fh) as (A1 & A2). apply zero_add_val; assumption.
  Qed.
End PowZero.

(** A <cmath> satisfying [pow_zero_cases]. *)
Definition pow0 (x y : b64) : b64 :=
  if Req_EM_T (val64 y) 0 then b64_of_Z 1
  else match x with
  | B754_zero s =>
      let k := Ztrunc (val64 y) in
      if Z.odd k then (if Z.ltb k 0 then B754_infinity s else B754_zero s)
      else (if Z.ltb k 0 then B754_infinity false else B754_zero false)
  | _ => x
  end.
Definition some_libm : libm := {|
  m_pow := pow0; m_cbrt := fun x => x; m_cos := fun x => x; m_sin := fun x => x; m_tan := fun x => x;
  m_acos := fun x => x; m_asin := fun x => x; m_atan := fun x => x; m_atan2 := fun x _ => x;
  m_hypot := fun x _ => x; m_hypot3 := fun x _ _ => x; m_cosh := fun x => x; m_sinh := fun x => x; m_tanh := fun x => x;
  m_acosh := fun x => x; m_asinh := fun x => x; m_atanh := fun x => x; m_exp := fun x => x; m_log := fun x => x;
  m_log2 := fun x => x; m_log10 := fun x => x |}.
Lemma some_libm_ok : pow_zero_cases some_libm.
Proof.
  split; cbn [m_pow some_libm]; unfold pow0.
  - intros x y _ E. destruct (Req_EM_T (val64 y) 0); [reflexivity|contradiction].
  - intros s y k _ E K P. rewrite E, Ztrunc_IZR, P. replace (Z.ltb k 0) with true by (symmetry; apply Z.ltb_lt; lia).
    destruct (Req_EM_T (IZR k) 0) as [E'|]; [apply eq_IZR in E'; lia|reflexivity].
  - intros s y k _ E K P. rewrite E, Ztrunc_IZR, P. replace (Z.ltb k 0) with true by (symmetry; apply Z.ltb_lt; lia).
    destruct (Req_EM_T (IZR k) 0) as [E'|]; [apply eq_IZR in E'; lia|reflexivity].
  - intros s y k _ E K P. rewrite E, Ztrunc_IZR, P. replace (Z.ltb k 0) with false by (symmetry; apply Z.ltb_ge; lia).
    destruct (Req_EM_T (IZR k) 0) as [E'|]; [apply eq_IZR in E'; lia|reflexivity].
  - intros s y k _ E K P. rewrite E, Ztrunc_IZR, P. replace (Z.ltb k 0) with false by (symmetry; apply Z.ltb_ge; lia).
    destruct (Req_EM_T (IZR k) 0) as [E'|]; [apply eq_IZR in E'; lia|reflexivity].
Qed.

Definition var0 : dd b64 := mk 1 (full [z64 0; z64 1; z64 0]).
Lemma shows_var0 : shows dyn2 1 var0 (B754_zero false) (fun _ => z64 1) (fun _ _ => z64 0).
Proof.
  split; [apply wf_list; [reflexivity|reflexivity|vm_compute; discriminate]|]. split; [reflexivity|].
  split; [intros [|i] Hi; [reflexivity|lia]|]. intros _ [|i] [|j] Hi Hj; try lia. reflexivity.
Qed.
Lemma pow_zero_refuted M : pow_zero_cases M -> ~ (forall c n x f g h k, cfg_ok c -> shows c n x f g h ->
  finite64 f -> (forall i, finite64 (g i)) -> (forall i j, finite64 (h i j)) -> (0 <= k)%Z ->
  exists r f' g' h', apply_u (b64ops M) c (Upow (b64_of_Z k)) x = Ok r /\ shows c n r f' g' h' /\
    (forall i, (i < n)%nat -> finite64 (g' i)) /\ (c_ord c = 2%Z -> forall i j, (i < n)%nat -> (j < n)%nat -> finite64 (h' i j))).
Proof.
  intros HM H.
  destruct (H dyn2 1%nat var0 _ _ _ 0%Z cfg_dyn2 shows_var0) as (r & f' & g' & h' & E & R & G & _);
    try reflexivity; try lia; try (intros; reflexivity).
  destruct (pow0_at_zero M HM dyn2 1%nat var0 false _ _ cfg_dyn2 shows_var0) as (r2 & g2 & h2 & E2 & R2 & G2 & _).
  assert (r2 = r) by congruence. subst r2. destruct R as (_ & _ & R & _), R2 as (_ & _ & R2 & _).
  pose proof (R 0%nat ltac:(lia)) as Q1. pose proof (R2 0%nat ltac:(lia)) as Q2. rewrite Q1 in Q2. apply Ok_inj in Q2.
  pose proof (G 0%nat ltac:(lia)) as K1. pose proof (G2 0%nat) as K2. rewrite Q2 in K1.
  apply sign_not_nan in K1. unfold nan64 in K2. congruence.
Qed.
Lemma pow_one_refuted M : pow_zero_cases M -> ~ (forall c n x f g h, cfg_ok c -> shows c n x f g h ->
  finite64 f -> (forall i, finite64 (g i)) -> (forall i j, finite64 (h i j)) ->
  exists r f' g' h', apply_u (b64ops M) c (Upow (b64_of_Z 1)) x = Ok r /\ shows c n r f' g' h' /\
    (c_ord c = 2%Z -> forall i j, (i < n)%nat -> (j < n)%nat -> finite64 (h' i j))).
Proof.
  intros HM H.
  destruct (H dyn2 1%nat var0 _ _ _ cfg_dyn2 shows_var0) as (r & f' & g' & h' & E & R & G);
    try reflexivity; try lia; try (intros; reflexivity).
  destruct (pow1_at_zero M HM dyn2 1%nat var0 false _ _ cfg_dyn2 shows_var0) as (r2 & h2 & E2 & R2 & G2).
  assert (r2 = r) by congruence. subst r2. destruct R as (_ & _ & _ & R), R2 as (_ & _ & _ & R2).
  pose proof (R eq_refl 0%nat 0%nat ltac:(lia) ltac:(lia)) as Q1. pose proof (R2 eq_refl 0%nat 0%nat ltac:(lia) ltac:(lia)) as Q2.
  rewrite Q1 in Q2. apply Ok_inj in Q2.
  pose proof (G eq_refl 0%nat 0%nat ltac:(lia) ltac:(lia)) as K1. pose proof (G2 0%nat 0%nat) as K2. rewrite Q2 in K1.
  apply sign_not_nan in K1. unfold nan64 in K2. congruence.
Qed.

(** ** comparisons with NaN *)
Lemma nan_compare M (x y : dd b64) (a b s : b64) (o : cmp) : get_f x = Ok a -> get_f y = Ok b ->
  let all_false := match o with Cne => true | _ => false end in
  (nan64 a \/ nan64 b -> compare (b64ops M) o x y = Ok all_false) /\
  (nan64 a \/ nan64 s -> compare_s (b64ops M) o x s = Ok all_false /\ s_compare (b64ops M) o s x = Ok all_false).
Proof.
  intros Ex Ey. cbv zeta.
  assert (K : forall u v, nan64 u \/ nan64 v -> scmp (b64ops M) o u v = match o with Cne => true | _ => false end).
  { intros u v HN. destruct (b64_nan_lt u v HN) as (E1 & E2 & E3). destruct (b64_nan_lt v u) as (E4 & E5 & E6); [tauto|].
    destruct o; cbn; rewrite ?E1, ?E2, ?E3, ?E4, ?E5; reflexivity. }
  split.
  - intros HN. unfold compare. rewrite Ex, Ey. cbn [bind]. rewrite K by exact HN. reflexivity.
  - intros HN. split.
    + unfold compare_s. rewrite Ex. cbn [bind]. rewrite K by exact HN. reflexivity.
    + destruct (compare_values (b64ops M) x x a a o Ex Ex) as (_ & _ & H3).
      assert (K2 : s_compare (b64ops M) o s x = Ok (scmp (b64ops M) o s a)).
      { apply (compare_values (b64ops M) (mk 0 (full [s])) x s a o); [reflexivity|exact Ex|exact b64_eq_sym]. }
      rewrite K2, K by tauto. reflexivity.
Qed.
(** and without NaN: the comparisons are those of the extended reals; on finite values those of the reals *)
Lemma finite_compare M (a b : b64) : finite64 a -> finite64 b ->
  (o_lt (b64ops M) a b = true <-> val64 a < val64 b) /\ (o_le (b64ops M) a b = true <-> val64 a <= val64 b) /\
  (o_eq (b64ops M) a b = true <-> val64 a = val64 b).
Proof.
  intros Fa Fb. cbn. rewrite (Bltb_correct _ _ a b Fa Fb), (Bleb_correct _ _ a b Fa Fb), (Beqb_correct _ _ a b Fa Fb).
  split; [|split].
  - destruct (Rlt_bool_spec (B2R a) (B2R b)); split; try easy. unfold val64. lra.
  - destruct (Rle_bool_spec (B2R a) (B2R b)); split; try easy. unfold val64. lra.
  - destruct (Req_bool_spec (B2R a) (B2R b)); split; try easy.
Qed.

(** ** the laws assumed by the theorems "for any scalar type" *)
Section Laws.
  Context (M : libm) (c : cfg) (n : nat).
  Lemma laws64 (x y : dd b64) (s : b64) : cfg_ok c -> wf c n x -> wf c n y ->
    agree c (sub_assign (b64ops M) c x (Some y)) (sub (b64ops M) c x y) /\
    agree c (mul_assign (b64ops M) c x (Some y)) (mul (b64ops M) c x y) /\
    agree c (subs_assign (b64ops M) x (SVal s)) (subs (b64ops M) x s) /\
    agree c (sub_assign (b64ops M) c x None) (sub (b64ops M) c x x) /\
    agree c (add (b64ops M) c x y) (add (b64ops M) c y x) /\ agree c (mul (b64ops M) c x y) (mul (b64ops M) c y x).
  Proof.
    intros Hc Wx Wy. split; [|split; [|split; [|split]]].
    - apply (sub_assign_agrees (b64ops M) c n x y b64_sub_neg Hc Wx Wy).
    - apply (mul_assign_agrees (b64ops M) c n x y b64_add_comm b64_mul_comm Hc Wx Wy).
    - apply (scalar_assign_agrees (b64ops M) c n x s Wx). exact b64_sub_neg.
    - apply (sub_self (b64ops M) c n x b64_sub_neg Hc Wx).
    - apply (comm_exact (b64ops M) c n x y b64_add_comm b64_mul_comm Hc Wx Wy).
  Qed.
  (** identities that hold bit for bit *)
  Lemma div_1_1 : b64_div (b64_of_Z 1) (b64_of_Z 1) = b64_of_Z 1.
  Proof. apply B2SF_inj. vm_compute. reflexivity. Qed.
  Lemma add_zero_neg a : b64_add a (b64_neg (b64_of_Z 0)) = a.
  Proof. destruct a as [[]|s| |s m e H]; reflexivity. Qed.
  Lemma bits_identities (x : dd b64) : cfg_ok c -> wf c n x ->
    agree c (r <- neg (b64ops M) c x ;; neg (b64ops M) c r) (Ok x) /\
    agree c (muls (b64ops M) c x (b64_of_Z 1)) (Ok x) /\ agree c (apply_u (b64ops M) c (Usmul (b64_of_Z 1)) x) (Ok x) /\
    agree c (divs (b64ops M) c x (b64_of_Z 1)) (Ok x) /\ agree c (subs (b64ops M) x (b64_of_Z 0)) (Ok x).
  Proof.
    intros Hc W. destruct (wf_rep _ _ _ W) as (J & HJ).
    assert (HX : exists r, Ok x = Ok r /\ rep c n J r) by (exists x; split; [reflexivity|exact HJ]).
    assert (M1 : forall v, b64_mul v (b64_of_Z 1) = v) by (intros v; rewrite b64_mul_comm; apply mul_1_l).
    split; [|split; [|split; [|split]]].
    - destruct (apply_u_rep (b64ops M) c Hc n J x Uneg HJ) as (r & E & R).
      destruct (apply_u_rep (b64ops M) c Hc n _ r Uneg R) as (r' & E' & R').
      cbn [apply_u] in E, E'. rewrite E. cbn [bind]. eapply agree_rep; [exists r'; split; [exact E'|exact R']|exact HX|].
      split; [apply b64_neg_neg|]. split; intros; apply b64_neg_neg.
    - eapply agree_rep; [apply (apply_u_rep (b64ops M) c Hc n J x (Umuls (b64_of_Z 1)) HJ)|exact HX|].
      split; [apply M1|]. split; intros; apply M1.
    - eapply agree_rep; [apply (apply_u_rep (b64ops M) c Hc n J x (Usmul (b64_of_Z 1)) HJ)|exact HX|].
      split; [apply M1|]. split; intros; apply M1.
    - eapply agree_rep; [apply (apply_u_rep (b64ops M) c Hc n J x (Udivs (b64_of_Z 1)) HJ)|exact HX|].
      cbn [jap_u b64ops o_Z o_div o_mul]. rewrite div_1_1. split; [apply M1|]. split; intros; apply M1.
    - eapply agree_rep; [apply (apply_u_rep (b64ops M) c Hc n J x (Usubs (b64_of_Z 0)) HJ)|exact HX|].
      split; [apply add_zero_neg|]. split; intros; reflexivity.
  Qed.
End Laws.

(** ** correct rounding of every component *)
Lemma neg_ok x : finite64 x -> finite64 (b64_neg x) /\ val64 (b64_neg x) = - val64 x.
Proof. intros F. split; [unfold finite64, b64_neg; rewrite is_finite_Bopp; exact F|apply B2R_Bopp]. Qed.

Lemma minmax_sym {S} c n (x : dd S) f g h : cfg_ok c -> shows c n x f g h -> c_ord c = 2%Z ->
  forall i j, (i < n)%nat -> (j < n)%nat -> h (Nat.min i j) (Nat.max i j) = h i j.
Proof.
  intros Hc Hx Ho i j Hi Hj. pose proof (shows_rep _ _ _ _ _ _ Hc Hx) as HJ. apply rep_shows in HJ.
  destruct HJ as (_ & _ & _ & H1), Hx as (_ & _ & _ & H2).
  pose proof (H1 Ho i j Hi Hj) as A. pose proof (H2 Ho i j Hi Hj) as B. rewrite B in A. apply Ok_inj in A. symmetry. exact A.
Qed.
Lemma shows_ext {S} c n (x : dd S) f f' g g' h h' : shows c n x f g h -> f = f' -> (forall i, (i < n)%nat -> g i = g' i) ->
  (c_ord c = 2%Z -> forall i j, (i < n)%nat -> (j < n)%nat -> h i j = h' i j) -> shows c n x f' g' h'.
Proof.
  intros (W & A & B & C) E1 E2 E3. split; [exact W|]. split; [rewrite <- E1; exact A|]. split.
  - intros i Hi. rewrite <- E2 by exact Hi. apply B, Hi.
  - intros Ho i j Hi Hj. rewrite <- E3 by assumption. apply C; assumption.
Qed.

Section Components.
  Context {S : Type} (O : Ops S) (c : cfg) (n : nat) (x y : dd S) (f f' : S) (g g' : nat -> S) (h h' : nat -> nat -> S).
  Context (Hc : cfg_ok c) (Hx : shows c n x f g h) (Hy : shows c n y f' g' h').
  Lemma linear_components s :
    (exists r, add O c x y = Ok r /\
       shows c n r (o_add O f f') (fun i => o_add O (g i) (g' i)) (fun i j => o_add O (h i j) (h' i j))) /\
    (exists r, sub O c x y = Ok r /\
       shows c n r (o_sub O f f') (fun i => o_add O (g i) (o_neg O (g' i))) (fun i j => o_add O (h i j) (o_neg O (h' i j)))) /\
    (exists r, neg O c x = Ok r /\
       shows c n r (o_neg O f) (fun i => o_neg O (g i)) (fun i j => o_neg O (h i j))) /\
    (exists r, muls O c x s = Ok r /\
       shows c n r (o_mul O f s) (fun i => o_mul O (g i) s) (fun i j => o_mul O (h i j) s)) /\
    (exists r, adds O x s = Ok r /\ shows c n r (o_add O f s) g h) /\
    (exists r, subs O x s = Ok r /\ shows c n r (o_add O f (o_neg O s)) g h).
  Proof.
    pose proof (shows_rep _ _ _ _ _ _ Hc Hx) as HJ. pose proof (shows_rep _ _ _ _ _ _ Hc Hy) as HK.
    pose proof (minmax_sym _ _ _ _ _ _ Hc Hx) as SX. pose proof (minmax_sym _ _ _ _ _ _ Hc Hy) as SY.
    split; [|split; [|split; [|split; [|split]]]].
    - destruct (apply_b_rep O c Hc n _ _ x y Badd HJ HK) as (r & E & R). exists r. split; [exact E|]. apply rep_shows in R.
      eapply shows_ext; [exact R|reflexivity|reflexivity|]. intros Ho i j Hi Hj. unfold hess. cbn. rewrite SX, SY by assumption. reflexivity.
    - destruct (apply_b_rep O c Hc n _ _ x y Bsub HJ HK) as (r & E & R). exists r. split; [exact E|]. apply rep_shows in R.
      eapply shows_ext; [exact R|reflexivity|reflexivity|]. intros Ho i j Hi Hj. unfold hess. cbn. rewrite SX, SY by assumption. reflexivity.
    - destruct (apply_u_rep O c Hc n _ x Uneg HJ) as (r & E & R). exists r. split; [exact E|]. apply rep_shows in R.
      eapply shows_ext; [exact R|reflexivity|reflexivity|]. intros Ho i j Hi Hj. unfold hess. cbn. rewrite SX by assumption. reflexivity.
    - destruct (apply_u_rep O c Hc n _ x (Umuls s) HJ) as (r & E & R). exists r. split; [exact E|]. apply rep_shows in R.
      eapply shows_ext; [exact R|reflexivity|reflexivity|]. intros Ho i j Hi Hj. unfold hess. cbn. rewrite SX by assumption. reflexivity.
    - destruct (apply_u_rep O c Hc n _ x (Uadds s) HJ) as (r & E & R). exists r. split; [exact E|]. apply rep_shows in R.
      eapply shows_ext; [exact R|reflexivity|reflexivity|]. intros Ho i j Hi Hj. unfold hess. cbn. apply SX; assumption.
    - destruct (apply_u_rep O c Hc n _ x (Usubs s) HJ) as (r & E & R). exists r. split; [exact E|]. apply rep_shows in R.
      eapply shows_ext; [exact R|reflexivity|reflexivity|]. intros Ho i j Hi Hj. unfold hess. cbn. apply SX; assumption.
  Qed.
End Components.

Lemma rounds_add a b : finite64 a -> finite64 b -> rounds (val64 a + val64 b) (b64_add a b).
Proof. intros Fa Fb B. apply add_ok; assumption. Qed.
Lemma rounds_sub a b : finite64 a -> finite64 b -> rounds (val64 a - val64 b) (b64_sub a b).
Proof. intros Fa Fb B. apply sub_ok; assumption. Qed.
Lemma rounds_mul a b : finite64 a -> finite64 b -> rounds (val64 a * val64 b) (b64_mul a b).
Proof. intros Fa Fb B. apply mul_ok; assumption. Qed.
Lemma linear_rounded M c n x y f f' g g' h h' s : cfg_ok c -> shows c n x f g h -> shows c n y f' g' h' ->
  finite_parts f g h -> finite_parts f' g' h' -> finite64 s ->
  (exists r F G H, add (b64ops M) c x y = Ok r /\ shows c n r F G H /\ rounds (val64 f + val64 f') F /\
     (forall i, rounds (val64 (g i) + val64 (g' i)) (G i)) /\ (forall i j, rounds (val64 (h i j) + val64 (h' i j)) (H i j))) /\
  (exists r F G H, sub (b64ops M) c x y = Ok r /\ shows c n r F G H /\ rounds (val64 f - val64 f') F /\
     (forall i, rounds (val64 (g i) - val64 (g' i)) (G i)) /\ (forall i j, rounds (val64 (h i j) - val64 (h' i j)) (H i j))) /\
  (exists r F G H, neg (b64ops M) c x = Ok r /\ shows c n r F G H /\ val64 F = - val64 f /\
     (forall i, val64 (G i) = - val64 (g i)) /\ (forall i j, val64 (H i j) = - val64 (h i j))) /\
  (exists r F G H, muls (b64ops M) c x s = Ok r /\ shows c n r F G H /\ rounds (val64 f * val64 s) F /\
     (forall i, rounds (val64 (g i) * val64 s) (G i)) /\ (forall i j, rounds (val64 (h i j) * val64 s) (H i j))) /\
  (exists r F, adds (b64ops M) x s = Ok r /\ shows c n r F g h /\ rounds (val64 f + val64 s) F) /\
  (exists r F, subs (b64ops M) x s = Ok r /\ shows c n r F g h /\ rounds (val64 f - val64 s) F).
Proof.
  intros Hc Hx Hy (Ff & Fg & Fh) (Ff' & Fg' & Fh') Fs.
  destruct (linear_components (b64ops M) c n x y f f' g g' h h' Hc Hx Hy s)
    as ((r1 & E1 & R1) & (r2 & E2 & R2) & (r3 & E3 & R3) & (r4 & E4 & R4) & (r5 & E5 & R5) & (r6 & E6 & R6)).
  cbn [b64ops o_add o_sub o_neg o_mul] in *.
  split; [|split; [|split; [|split; [|split]]]].
  - exists r1. do 3 eexists. split; [exact E1|]. split; [exact R1|].
    split; [apply rounds_add; assumption|]. split; intros; apply rounds_add; auto.
  - exists r2. do 3 eexists. split; [exact E2|]. split; [exact R2|].
    split; [apply rounds_sub; assumption|]. split; intros; cbv beta; rewrite <- b64_sub_neg; apply rounds_sub; auto.
  - exists r3. do 3 eexists. split; [exact E3|]. split; [exact R3|].
    split; [apply neg_ok; assumption|]. split; intros; cbv beta; apply neg_ok; auto.
  - exists r4. do 3 eexists. split; [exact E4|]. split; [exact R4|].
    split; [apply rounds_mul; assumption|]. split; intros; apply rounds_mul; auto.
  - exists r5. eexists. split; [exact E5|]. split; [exact R5|]. apply rounds_add; assumption.
  - exists r6. eexists. split; [exact E6|]. split; [exact R6|]. rewrite <- b64_sub_neg. apply rounds_sub; assumption.
Qed.

(** ** natural powers over the reals *)
Lemma epow_vb k : vars_below 1 (epow k).
Proof. induction k as [|k IH]; cbn; [exact I|]. split; [lia|exact IH]. Qed.
Lemma epow_dom k p : dom (epow k) p.
Proof. induction k as [|k IH]; cbn; [exact I|]. repeat split. exact IH. Qed.
Lemma epow_rev k p : rev (epow k) p = p 0%nat ^ k.
Proof. induction k as [|k IH]; cbn; [reflexivity|]. rewrite IH. reflexivity. Qed.
Lemma pow_is_product c n (x : dd R) a k : cfg_ok c -> wf c n x -> get_f x = Ok a -> a <> 0 \/ (2 <= k)%nat ->
  same c n [x] (EU (Upow (INR k)) X) (epow k).
Proof.
  intros Hc W F H. apply (ident1 c n x a); try assumption; [vb|apply epow_vb| |apply epow_dom|].
  - cbn. split; [exact I|]. destruct H as [H|H].
    + right. left. split; [exact H|]. exists (Z.of_nat k). apply INR_IZR_INZ.
    + right. right. exists k. split; [exact H|reflexivity].
  - apply near_true. intros q. rewrite epow_rev. cbn. apply Rpow_std_nat.
Qed.

(** ** extreme magnitudes *)
Lemma near64_tiny x : Rabs x < bpow radix2 (-1075) -> near64 x = 0.
Proof.
  intros H. destruct (Req_dec x 0) as [->|N]; [apply near64_0|].
  unfold near64. destruct (mag radix2 x) as (ex & Hex). specialize (Hex N).
  apply (round_N_small radix2 (FLT_exp (-1074) 53) _ x ex Hex).
  assert (ex <= -1075)%Z.
  { assert (bpow radix2 (ex - 1) < bpow radix2 (-1075)) as L by (destruct Hex; lra). apply lt_bpow in L. lia. }
  unfold FLT_exp. lia.
Qed.
Lemma abs_val (x : b64) : finite64 x -> finite64 (Babs x) /\ val64 (Babs x) = Rabs (val64 x).
Proof. intros F. split; [unfold finite64; rewrite is_finite_Babs; exact F|apply B2R_Babs]. Qed.
Lemma tiny_cube f : finite64 f -> Rabs (val64 f) <= bpow radix2 (-360) ->
  exists s, b64_mul (b64_mul f f) f = B754_zero s.
Proof.
  intros F B.
  assert (B2 : Rabs (near64 (val64 f * val64 f)) <= bpow radix2 (-720)).
  { apply near64_le_bpow; [lia|]. change (-720)%Z with (-360 + -360)%Z. rewrite bpow_plus, Rabs_mult.
    apply Rmult_le_compat; try apply Rabs_pos; assumption. }
  destruct (mul_ok f f F F) as (F2 & V2); [eapply Rle_lt_trans; [exact B2|]; apply bpow_lt; lia|].
  assert (T : near64 (val64 (b64_mul f f) * val64 f) = 0).
  { apply near64_tiny. rewrite V2, Rabs_mult. apply Rle_lt_trans with (bpow radix2 (-720 + -360)); [|apply bpow_lt; lia].
    rewrite bpow_plus. apply Rmult_le_compat; try apply Rabs_pos; assumption. }
  destruct (mul_ok _ f F2 F) as (F3 & V3); [rewrite T, Rabs_R0; apply bpow_gt_0|].
  apply zero_val; [exact F3|]. rewrite V3. exact T.
Qed.
Lemma hypot_tiny M c n x y a s g g' h h' : hypot_zero_case M -> cfg_ok c ->
  shows c n x a g h -> shows c n y (B754_zero s) g' h' -> finite64 a -> Rabs (val64 a) <= bpow radix2 (-360) ->
  exists r G H, hypot (b64ops M) c x y = Ok r /\ shows c n r (Babs a) G H /\ forall i j, nan64 (H i j).
Proof.
  intros HM Hc Hx Hy Fa Ba. pose proof (shows_rep _ _ _ _ _ _ Hc Hx) as HJ. pose proof (shows_rep _ _ _ _ _ _ Hc Hy) as HK.
  destruct (apply_b_rep (b64ops M) c Hc n _ _ x y Bhypot HJ HK) as (r & E & R). apply rep_shows in R.
  assert (EF : jf (jap_b (b64ops M) Bhypot (mkjet a g h) (mkjet (B754_zero s) g' h')) = Babs a) by (cbn; apply HM).
  rewrite EF in R. exists r. do 2 eexists. split; [exact E|]. split; [exact R|].
  intros i j. unfold hess. cbn. rewrite HM.
  destruct (abs_val a Fa) as (Ff & Vf).
  destruct (tiny_cube (Babs a) Ff) as (t & ->); [rewrite Vf, Rabs_Rabsolu; exact Ba|].
  apply nan_add_r. apply nan_add_l, nan_mul_l, nan_add_l, nan_mul_l. destruct s, t; reflexivity.
Qed.
Lemma tiny_sum a b : finite64 a -> finite64 b -> Rabs (val64 a) <= bpow radix2 (-540) -> Rabs (val64 b) <= bpow radix2 (-540) ->
  exists s, b64_add (b64_mul a a) (b64_mul b b) = B754_zero s.
Proof.
  assert (Sq : forall v, finite64 v -> Rabs (val64 v) <= bpow radix2 (-540) -> exists s, b64_mul v v = B754_zero s).
  { intros v F B. assert (T : near64 (val64 v * val64 v) = 0).
    { apply near64_tiny. rewrite Rabs_mult. apply Rle_lt_trans with (bpow radix2 (-540 + -540)); [|apply bpow_lt; lia].
      rewrite bpow_plus. apply Rmult_le_compat; try apply Rabs_pos; assumption. }
    destruct (mul_ok v v F F) as (F3 & V3); [rewrite T, Rabs_R0; apply bpow_gt_0|].
    apply zero_val; [exact F3|]. rewrite V3. exact T. }
  intros Fa Fb Ba Bb. destruct (Sq a Fa Ba) as (s & ->). destruct (Sq b Fb Bb) as (t & ->).
  destruct s, t; eexists; reflexivity.
Qed.
Lemma div_zero_not_finite a s : is_finite (b64_div a (B754_zero s)) = false.
Proof. destruct a as [?|?| |? ? ? ?]; reflexivity. Qed.
Lemma mul_not_finite a b : is_finite a = false -> is_finite (b64_mul a b) = false.
Proof. destruct a as [?|?| |? ? ? ?], b as [?|?| |? ? ? ?]; try discriminate; reflexivity. Qed.
Lemma add_not_finite a b : is_finite a = false -> is_finite (b64_add a b) = false.
Proof. destruct a as [?|[]| |? ? ? ?], b as [?|[]| |? ? ? ?]; try discriminate; reflexivity. Qed.
Lemma atan2_tiny M c n x y a b g g' h h' : cfg_ok c ->
  shows c n x a g h -> shows c n y b g' h' -> finite64 a -> finite64 b ->
  Rabs (val64 a) <= bpow radix2 (-540) -> Rabs (val64 b) <= bpow radix2 (-540) ->
  exists r G H, atan2 (b64ops M) c x y = Ok r /\ shows c n r (m_atan2 M a b) G H /\ forall i, ~ finite64 (G i).
Proof.
  intros Hc Hx Hy Fa Fb Ba Bb. pose proof (shows_rep _ _ _ _ _ _ Hc Hx) as HJ. pose proof (shows_rep _ _ _ _ _ _ Hc Hy) as HK.
  destruct (apply_b_rep (b64ops M) c Hc n _ _ x y Batan2 HJ HK) as (r & E & R). apply rep_shows in R.
  exists r. do 2 eexists. split; [exact E|]. split; [exact R|].
  intros i. cbn. destruct (tiny_sum a b Fa Fb Ba Bb) as (t & ->). unfold finite64.
  rewrite add_not_finite; [discriminate|]. apply mul_not_finite, div_zero_not_finite.
Qed.
(** The double 2^-600. *)
Definition t600 : b64 := B754_finite false 4503599627370496 (-652) (eq_refl : SpecFloat.bounded prec64 emax64 4503599627370496 (-652) = true).
Lemma t600_ok : finite64 t600 /\ val64 t600 = bpow radix2 (-600).
Proof.
  split; [reflexivity|]. unfold val64, t600, B2R, F2R. cbn [Fnum Fexp cond_Zopp].
  change (-600)%Z with (52 + -652)%Z. rewrite bpow_plus, (bpow_Z 52) by lia. reflexivity.
Qed.
Lemma t600_le e : (-600 <= e)%Z -> Rabs (val64 t600) <= bpow radix2 e.
Proof. intros H. rewrite (proj2 t600_ok), Rabs_pos_eq by apply bpow_ge_0. apply bpow_le, H. Qed.
Definition tx : dd b64 := mk 1 (full [t600; z64 1; z64 0]).
Lemma shows_tx : shows dyn2 1 tx t600 (fun _ => z64 1) (fun _ _ => z64 0).
Proof.
  split; [apply wf_list; [reflexivity|reflexivity|vm_compute; discriminate]|]. split; [reflexivity|].
  split; [intros [|i] Hi; [reflexivity|lia]|]. intros _ [|i] [|j] Hi Hj; try lia. reflexivity.
Qed.
Lemma nonzero_t600 : val64 t600 <> 0. Proof. rewrite (proj2 t600_ok). apply Rgt_not_eq, bpow_gt_0. Qed.
Lemma hypot_refuted M : hypot_zero_case M -> ~ (forall c n x y f g h f' g' h', cfg_ok c -> shows c n x f g h -> shows c n y f' g' h' ->
  finite_parts f g h -> finite_parts f' g' h' -> val64 f <> 0 ->
  exists r F G H, hypot (b64ops M) c x y = Ok r /\ shows c n r F G H /\
    (c_ord c = 2%Z -> forall i j, (i < n)%nat -> (j < n)%nat -> finite64 (H i j))).
Proof.
  intros HM HH.
  destruct (HH dyn2 1%nat tx var0 _ _ _ _ _ _ cfg_dyn2 shows_tx shows_var0) as (r & F & G & H & E & R & K);
    try exact nonzero_t600; try (repeat split; intros; reflexivity).
  destruct (hypot_tiny M dyn2 1%nat tx var0 _ _ _ _ _ _ HM cfg_dyn2 shows_tx shows_var0 (proj1 t600_ok) (t600_le (-360) ltac:(lia)))
    as (r2 & G2 & H2 & E2 & R2 & K2).
  assert (r2 = r) by congruence. subst r2. destruct R as (_ & _ & _ & R), R2 as (_ & _ & _ & R2).
  pose proof (R eq_refl 0%nat 0%nat ltac:(lia) ltac:(lia)) as Q1. pose proof (R2 eq_refl 0%nat 0%nat ltac:(lia) ltac:(lia)) as Q2.
  rewrite Q1 in Q2. apply Ok_inj in Q2.
  pose proof (K eq_refl 0%nat 0%nat ltac:(lia) ltac:(lia)) as K1. pose proof (K2 0%nat 0%nat) as K3. rewrite Q2 in K1.
  apply sign_not_nan in K1. unfold nan64 in K3. congruence.
Qed.
Lemma atan2_refuted M : ~ (forall c n x y f g h f' g' h', cfg_ok c -> shows c n x f g h -> shows c n y f' g' h' ->
  finite_parts f g h -> finite_parts f' g' h' -> val64 f <> 0 -> val64 f' <> 0 ->
  exists r F G H, atan2 (b64ops M) c x y = Ok r /\ shows c n r F G H /\ (forall i, (i < n)%nat -> finite64 (G i))).
Proof.
  intros HH.
  destruct (HH dyn2 1%nat tx tx _ _ _ _ _ _ cfg_dyn2 shows_tx shows_tx) as (r & F & G & H & E & R & K);
    try exact nonzero_t600; try (repeat split; intros; reflexivity).
  destruct (atan2_tiny M dyn2 1%nat tx tx _ _ _ _ _ _ cfg_dyn2 shows_tx shows_tx (proj1 t600_ok) (proj1 t600_ok)
    (t600_le (-540) ltac:(lia)) (t600_le (-540) ltac:(lia))) as (r2 & G2 & H2 & E2 & R2 & K2).
  assert (r2 = r) by congruence. subst r2. destruct R as (_ & _ & R & _), R2 as (_ & _ & R2 & _).
  pose proof (R 0%nat ltac:(lia)) as Q1. pose proof (R2 0%nat ltac:(lia)) as Q2.
  rewrite Q1 in Q2. apply Ok_inj in Q2. apply (K2 0%nat). rewrite <- Q2. apply K. lia.
Qed.
