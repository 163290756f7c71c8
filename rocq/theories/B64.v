(** Facts about binary64 arithmetic used for the [double] instance. *)
From Coq Require Import ZArith List Bool Lia Reals Lra Psatz.
From Flocq Require Import Core BinarySingleNaN Relative.
From Verif Require Import Outcome Scalar Float64 Model Spec Core Kernels OpsRep AccRep CreateRep Ops64.
Import ListNotations.
Open Scope Z_scope.

#[local] Instance valid64' : Valid_exp fexp64 := fexp_correct prec64 emax64 prec64_gt_0.

(** ** laws that hold bit for bit *)
Lemma b64_sub_neg (a b : b64) : b64_sub a b = b64_add a (b64_neg b).
Proof. destruct a as [s|s| |s m e H], b as [s'|s'| |s' m' e' H']; reflexivity. Qed.
Lemma b64_add_comm (a b : b64) : b64_add a b = b64_add b a.
Proof.
  destruct a as [s|s| |s m e H], b as [s'|s'| |s' m' e' H']; cbn; try reflexivity.
  - destruct s, s'; reflexivity.
  - destruct s, s'; reflexivity.
  - rewrite (Z.min_comm e' e). f_equal. unfold Fplus_naive. apply Z.add_comm.
Qed.
Lemma b64_mul_comm (a b : b64) : b64_mul a b = b64_mul b a.
Proof.
  unfold b64_mul. destruct a as [s|s| |s m e H], b as [s'|s'| |s' m' e' H']; cbn; try reflexivity; try (rewrite xorb_comm; reflexivity).
  apply B2SF_inj. rewrite !B2SF_SF2B. rewrite (xorb_comm s' s), (Pos.mul_comm m' m), (Z.add_comm e' e). reflexivity.
Qed.
Lemma b64_neg_neg (a : b64) : b64_neg (b64_neg a) = a.
Proof. apply Bopp_involutive. Qed.
Lemma b64_eq_sym (a b : b64) : Beqb a b = Beqb b a.
Proof.
  unfold Beqb, SpecFloat.SFeqb. pose proof (Bcompare_swap prec64 emax64 a b) as E. unfold Bcompare in E.
  rewrite E. destruct (SpecFloat.SFcompare (B2SF a) (B2SF b)) as [[]|]; reflexivity.
Qed.
Lemma b64_nan_lt (a b : b64) : nan64 a \/ nan64 b -> Bltb a b = false /\ Bleb a b = false /\ Beqb a b = false.
Proof.
  unfold nan64. intros [H|H].
  - destruct a; try discriminate. repeat split; reflexivity.
  - destruct b; try discriminate. destruct a as [s|[]| |[] m e B]; repeat split; reflexivity.
Qed.
Lemma nan_mul_l (a b : b64) : nan64 a -> nan64 (b64_mul a b).
Proof. unfold nan64. destruct a; try discriminate. reflexivity. Qed.
Lemma nan_mul_r (a b : b64) : nan64 b -> nan64 (b64_mul a b).
Proof. rewrite b64_mul_comm. apply nan_mul_l. Qed.
Lemma nan_add_l (a b : b64) : nan64 a -> nan64 (b64_add a b).
Proof. unfold nan64. destruct a; try discriminate. reflexivity. Qed.
Lemma nan_add_r (a b : b64) : nan64 b -> nan64 (b64_add a b).
Proof. rewrite b64_add_comm. apply nan_add_l. Qed.

(** ** rounding *)
Open Scope R_scope.
Lemma near64_rnd x : near64 x = rnd64 x.
Proof. reflexivity. Qed.
Lemma of_Z_exact z : (Z.abs z <= 2 ^ 53)%Z -> finite64 (b64_of_Z z) /\ val64 (b64_of_Z z) = IZR z.
Proof.
  intros Hz. unfold finite64, val64, b64_of_Z.
  pose proof (binary_normalize_correct prec64 emax64 prec64_gt_0 prec64_lt_emax mode_NE z 0 false) as HC.
  replace (F2R (Float radix2 z 0)) with (IZR z) in HC by (unfold F2R; cbn; ring).
  cbn [round_mode] in HC. rewrite (rnd_generic _ (fmt_small z Hz)) in HC.
  rewrite Rlt_bool_true in HC.
  - destruct HC as (HB & HF & _). split; assumption.
  - rewrite <- abs_IZR. eapply Rle_lt_trans with (IZR (2 ^ 53)); [apply IZR_le, Hz|].
    rewrite <- bpow_Z by lia. apply bpow_lt. reflexivity.
Qed.
Lemma finite_val_lt (x : b64) : Rabs (val64 x) < bpow radix2 1024.
Proof. apply abs_B2R_lt_emax. Qed.
Lemma fmt_val (x : b64) : fmt64 (val64 x).
Proof. apply generic_format_B2R. Qed.

Lemma mul_ok (x y : b64) : finite64 x -> finite64 y -> Rabs (near64 (val64 x * val64 y)) < bpow radix2 1024 ->
  finite64 (b64_mul x y) /\ val64 (b64_mul x y) = near64 (val64 x * val64 y).
Proof.
  intros Fx Fy B. unfold finite64, val64, b64_mul in *.
  pose proof (Bmult_correct prec64 emax64 prec64_gt_0 prec64_lt_emax mode_NE x y) as HC. cbn [round_mode] in HC.
  change (round radix2 _ _ (B2R x * B2R y)) with (near64 (B2R x * B2R y)) in HC.
  rewrite Rlt_bool_true in HC by exact B. destruct HC as (H1 & H2 & _). split; [rewrite H2, Fx, Fy; reflexivity|exact H1].
Qed.
Lemma add_ok (x y : b64) : finite64 x -> finite64 y -> Rabs (near64 (val64 x + val64 y)) < bpow radix2 1024 ->
  finite64 (b64_add x y) /\ val64 (b64_add x y) = near64 (val64 x + val64 y).
Proof.
  intros Fx Fy B. unfold finite64, val64, b64_add in *.
  pose proof (Bplus_correct prec64 emax64 prec64_gt_0 prec64_lt_emax mode_NE x y Fx Fy) as HC. cbn [round_mode] in HC.
  change (round radix2 _ _ (B2R x + B2R y)) with (near64 (B2R x + B2R y)) in HC.
  rewrite Rlt_bool_true in HC by exact B. destruct HC as (H1 & H2 & _). split; assumption.
Qed.
Lemma sub_ok (x y : b64) : finite64 x -> finite64 y -> Rabs (near64 (val64 x - val64 y)) < bpow radix2 1024 ->
  finite64 (b64_sub x y) /\ val64 (b64_sub x y) = near64 (val64 x - val64 y).
Proof.
  intros Fx Fy B. unfold finite64, val64, b64_sub in *.
  pose proof (Bminus_correct prec64 emax64 prec64_gt_0 prec64_lt_emax mode_NE x y Fx Fy) as HC. cbn [round_mode] in HC.
  change (round radix2 _ _ (B2R x - B2R y)) with (near64 (B2R x - B2R y)) in HC.
  rewrite Rlt_bool_true in HC by exact B. destruct HC as (H1 & H2 & _). split; assumption.
Qed.
Lemma div_ok (x y : b64) : finite64 x -> finite64 y -> val64 y <> 0 -> Rabs (near64 (val64 x / val64 y)) < bpow radix2 1024 ->
  finite64 (b64_div x y) /\ val64 (b64_div x y) = near64 (val64 x / val64 y).
Proof.
  intros Fx Fy N B. unfold finite64, val64, b64_div in *.
  pose proof (Bdiv_correct prec64 emax64 prec64_gt_0 prec64_lt_emax mode_NE x y N) as HC. cbn [round_mode] in HC.
  change (round radix2 _ _ (B2R x / B2R y)) with (near64 (B2R x / B2R y)) in HC.
  rewrite Rlt_bool_true in HC by exact B. destruct HC as (H1 & H2 & _). split; [rewrite H2; exact Fx|exact H1].
Qed.
(** Overflow gives an infinity with the right sign. *)
Lemma of_SF_inf (z : b64) s : B2SF z = SpecFloat.S754_infinity s -> z = B754_infinity s.
Proof. destruct z; cbn; intros E; inversion E; reflexivity. Qed.
Lemma div_over (x y : b64) : val64 y <> 0 -> bpow radix2 1024 <= Rabs (near64 (val64 x / val64 y)) ->
  b64_div x y = B754_infinity (xorb (Bsign x) (Bsign y)).
Proof.
  intros N B. unfold val64, b64_div in *.
  pose proof (Bdiv_correct prec64 emax64 prec64_gt_0 prec64_lt_emax mode_NE x y N) as HC. cbn [round_mode] in HC.
  change (round radix2 _ _ (B2R x / B2R y)) with (near64 (B2R x / B2R y)) in HC.
  rewrite Rlt_bool_false in HC by exact B. apply of_SF_inf, HC.
Qed.
Lemma mul_over (x y : b64) : bpow radix2 1024 <= Rabs (near64 (val64 x * val64 y)) ->
  b64_mul x y = B754_infinity (xorb (Bsign x) (Bsign y)).
Proof.
  intros B. unfold val64, b64_mul in *.
  pose proof (Bmult_correct prec64 emax64 prec64_gt_0 prec64_lt_emax mode_NE x y) as HC. cbn [round_mode] in HC.
  change (round radix2 _ _ (B2R x * B2R y)) with (near64 (B2R x * B2R y)) in HC.
  rewrite Rlt_bool_false in HC by exact B. apply of_SF_inf, HC.
Qed.

Lemma near64_le_bpow x e : (-1074 <= e)%Z -> Rabs x <= bpow radix2 e -> Rabs (near64 x) <= bpow radix2 e.
Proof.
  intros He H. rewrite near64_rnd. apply abs_round_le_generic; [exact _|exact _|apply fmt_bpow, He|exact H].
Qed.
Lemma near64_ge_bpow x e : (-1074 <= e)%Z -> bpow radix2 e <= Rabs x -> bpow radix2 e <= Rabs (near64 x).
Proof.
  intros He H. rewrite near64_rnd. apply abs_round_ge_generic; [exact _|exact _|apply fmt_bpow, He|exact H].
Qed.
Lemma near64_exact x : fmt64 x -> near64 x = x.
Proof. apply rnd_generic. Qed.
Lemma near64_0 : near64 0 = 0.
Proof. apply near64_exact, generic_format_0. Qed.

Lemma near64_rel x : bpow radix2 (-1022) <= Rabs x -> exists d, Rabs d <= u64 /\ near64 x = x * (1 + d).
Proof.
  intros H. destruct (relative_error_N_FLT_ex radix2 (-1074) 53 ltac:(reflexivity) (fun z => negb (Z.even z)) x H) as (d & B & E).
  exists d. split; [|exact E]. eapply Rle_trans; [exact B|]. unfold u64. cbn. lra.
Qed.

