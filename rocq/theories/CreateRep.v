(** [size_from_data_length]: the floating-point square root recovers the size exactly. *)
From Coq Require Import ZArith List Bool Lia Reals Lra Psatz.
From Flocq Require Import Core BinarySingleNaN Relative.
From Verif Require Import Outcome Scalar Float64 Model Spec Core Kernels OpsRep AccRep.
Import ListNotations.
Open Scope Z_scope.
Open Scope res_scope.

Notation fexp64 := (SpecFloat.fexp prec64 emax64).
Notation rnd64 := (round radix2 fexp64 ZnearestE).
Notation fmt64 := (generic_format radix2 fexp64).

#[local] Instance valid64 : Valid_exp fexp64 := fexp_correct prec64 emax64 prec64_gt_0.

Lemma fexp64_eq e : fexp64 e = Z.max (e - 53) (-1074).
Proof. reflexivity. Qed.

(** Integers below 2^53 and powers of two are representable. *)
Lemma fmt_small z : Z.abs z <= 2 ^ 53 -> fmt64 (IZR z).
Proof.
  intros H. change (fmt64 (IZR z)) with (generic_format radix2 (FLT_exp (3 - emax64 - prec64) prec64) (IZR z)).
  destruct (Z.eq_dec (Z.abs z) (2 ^ 53)) as [E|NE].
  - assert (Hz : z = 2 ^ 53 \/ z = - 2 ^ 53) by lia. destruct Hz as [-> | ->].
    + apply generic_format_FLT. exists (Float radix2 1 53); cbn; [unfold F2R; cbn; lra|reflexivity|discriminate].
    + apply generic_format_FLT. exists (Float radix2 (-1) 53); cbn; [unfold F2R; cbn; lra|reflexivity|discriminate].
  - apply generic_format_FLT. exists (Float radix2 z 0); cbn [Fnum Fexp].
    + unfold F2R. cbn. lra.
    + change (radix2 ^ prec64) with (2 ^ 53). lia.
    + discriminate.
Qed.

Lemma fmt_bpow e : -1074 <= e -> fmt64 (bpow radix2 e).
Proof. intros H. apply generic_format_bpow. rewrite fexp64_eq. lia. Qed.

(** A representable number at least [2^(e-1)] is a multiple of [2^(e-53)]. *)
Lemma fmt_multiple s e : -1021 <= e -> fmt64 s -> (bpow radix2 (e - 1) <= s)%R ->
  exists z, (s = IZR z * bpow radix2 (e - 53))%R.
Proof.
  intros He Hs Hge. unfold generic_format in Hs.
  assert (Hc : e - 53 <= cexp radix2 fexp64 s).
  { unfold cexp. rewrite fexp64_eq.
    assert (e <= mag radix2 s).
    { apply mag_ge_bpow. rewrite Rabs_pos_eq; [exact Hge|]. pose proof (bpow_ge_0 radix2 (e - 1)). lra. }
    lia. }
  exists (Ztrunc (scaled_mantissa radix2 fexp64 s) * 2 ^ (cexp radix2 fexp64 s - (e - 53))).
  rewrite Hs at 1. unfold F2R. cbn [Fnum Fexp].
  rewrite mult_IZR, (IZR_Zpower radix2) by lia.
  rewrite Rmult_assoc, <- bpow_plus. do 2 f_equal. lia.
Qed.

Lemma bpow_Z e : 0 <= e -> bpow radix2 e = IZR (2 ^ e).
Proof. intros H. rewrite <- (IZR_Zpower radix2) by exact H. reflexivity. Qed.

Section Exact.
  Open Scope R_scope.
  (** Rounding the square root of the rounded square of an integer gives the integer back. *)
  Lemma sqrt_square_exact K : (3 <= K)%Z -> (K <= 2 ^ 32)%Z -> Z.odd K = true ->
    rnd64 (sqrt (rnd64 (IZR (K * K)))) = IZR K.
  Proof.
    intros HK HK32 Hodd.
    set (m := IZR (K * K)). set (y := rnd64 m).
    assert (HKr : 3 <= IZR K) by (apply IZR_le; exact HK).
    assert (HKu : IZR K <= 4294967296) by (apply (IZR_le K 4294967296); lia).
    assert (Hm : m = IZR K * IZR K) by (unfold m; apply mult_IZR).
    assert (Hmpos : 0 < m) by nra.
    (* relative error of the conversion *)
    assert (Hy : Rabs (y - m) <= bpow radix2 (-53) * m).
    { unfold y.
      assert (HE := relative_error_N_FLT_ex radix2 (3 - emax64 - prec64) prec64 prec64_gt_0
                 (fun x => negb (Z.even x)) m).
      destruct HE as (eps & Heps & HE).
      - change (bpow radix2 (3 - emax64 - prec64 + prec64 - 1)) with (bpow radix2 (-1022)).
        rewrite Rabs_pos_eq by lra. apply Rle_trans with 1; [|nra].
        change 1 with (bpow radix2 0). apply bpow_le. lia.
      - change (round radix2 (FLT_exp (3 - emax64 - prec64) prec64) (Znearest (fun x => negb (Z.even x))) m)
          with (rnd64 m) in HE. rewrite HE.
        replace (m * (1 + eps) - m) with (eps * m) by ring.
        rewrite Rabs_mult, (Rabs_pos_eq m) by lra. apply Rmult_le_compat_r; [lra|].
        change (/ 2 * bpow radix2 (- prec64 + 1)) with (/ 2 * bpow radix2 (-52)) in Heps.
        replace (bpow radix2 (-53)) with (/ 2 * bpow radix2 (-52)); [exact Heps|].
        replace (-52)%Z with (-53 + 1)%Z by lia. rewrite bpow_plus. cbn. lra. }
    set (eps := bpow radix2 (-53)) in *.
    assert (Heps : eps = / 9007199254740992) by (unfold eps; cbn; reflexivity).
    assert (Hypos : m / 2 < y).
    { apply Rabs_def2 in Hy || idtac. assert (- (eps * m) <= y - m) by (apply Rabs_le_inv in Hy; lra).
      rewrite Heps in *. lra. }
    set (q := sqrt y).
    assert (Hq2 : q * q = y) by (apply sqrt_sqrt; lra).
    assert (Hqpos : 0 <= q) by apply sqrt_pos.
    (* |q - K| *)
    assert (HqK : Rabs (q - IZR K) * (q + IZR K) = Rabs (y - m)).
    { rewrite <- (Rabs_pos_eq (q + IZR K)) by lra. rewrite <- Rabs_mult. f_equal. rewrite <- Hq2, Hm. ring. }
    set (d := Rabs (q - IZR K)) in *.
    assert (Hd0 : 0 <= d) by apply Rabs_pos.
    (* crude bound: q >= K/2 *)
    assert (Hq1 : IZR K / 2 <= q).
    { destruct (Rle_or_lt (IZR K / 2) q) as [|Hlt]; [assumption|exfalso].
      assert (q * q < m / 2) by (rewrite Hm; nra). lra. }
    assert (Hd1 : d <= eps * IZR K).
    { assert (d * IZR K <= eps * m) by (apply Rle_trans with (d * (q + IZR K)); [nra|rewrite HqK; exact Hy]).
      rewrite Hm in *. apply (Rmult_le_reg_r (IZR K)); [lra|]. lra. }
    assert (Hq3 : IZR K * (1 - eps) <= q).
    { unfold d in Hd1. apply Rabs_le_inv in Hd1. lra. }
    assert (Hd2 : d * (2 - eps) <= eps * IZR K).
    { assert (d * (IZR K * (2 - eps)) <= eps * m).
      { apply Rle_trans with (d * (q + IZR K)); [|rewrite HqK; exact Hy].
        apply Rmult_le_compat_l; [exact Hd0|lra]. }
      rewrite Hm in *. apply (Rmult_le_reg_r (IZR K)); [lra|]. lra. }
    (* binade of K *)
    destruct (mag radix2 (IZR K)) as (e, He). specialize (He ltac:(lra)).
    rewrite Rabs_pos_eq in He by lra. destruct He as (He1 & He2).
    assert (Hepos : (2 <= e)%Z).
    { destruct (Z.le_gt_cases 2 e) as [|Hlt]; [assumption|exfalso].
      assert (bpow radix2 e <= bpow radix2 1) by (apply bpow_le; lia). change (bpow radix2 1) with 2 in H. lra. }
    assert (He33 : (e <= 33)%Z).
    { destruct (Z.le_gt_cases e 33) as [|Hlt]; [assumption|exfalso].
      assert (bpow radix2 33 <= bpow radix2 (e - 1)) by (apply bpow_le; lia).
      change (bpow radix2 33) with 8589934592 in H. lra. }
    rewrite bpow_Z in He1, He2 by lia.
    apply le_IZR in He1. apply lt_IZR in He2.
    assert (Hne : (K <> 2 ^ (e - 1))%Z).
    { intros E. rewrite E in Hodd. rewrite Z.odd_pow in Hodd by lia. discriminate. }
    assert (HKe : IZR K <= bpow radix2 e - 1).
    { rewrite bpow_Z by lia. rewrite <- minus_IZR. apply IZR_le. lia. }
    assert (HKe1 : bpow radix2 (e - 1) + 1 <= IZR K).
    { rewrite bpow_Z by lia. rewrite <- plus_IZR. apply IZR_le. lia. }
    (* 2 d < 2^(e-53) *)
    set (U := bpow radix2 e) in *.
    assert (HU : U <= 8589934592).
    { unfold U. change 8589934592 with (bpow radix2 33). apply bpow_le. lia. }
    assert (HU4 : 4 <= U).
    { unfold U. change 4 with (bpow radix2 2). apply bpow_le. lia. }
    assert (Hu : bpow radix2 (e - 53) = U * eps).
    { unfold U, eps. rewrite <- bpow_plus. f_equal. }
    assert (Hd3 : 2 * d < bpow radix2 (e - 53)).
    { rewrite Hu.
      assert (d * (2 - eps) <= eps * (U - 1)) by (apply Rle_trans with (eps * IZR K); [exact Hd2|apply Rmult_le_compat_l; [rewrite Heps; lra|exact HKe]]).
      apply (Rmult_lt_reg_r (2 - eps)); [rewrite Heps; lra|].
      apply Rle_lt_trans with (2 * (eps * (U - 1))); [lra|].
      assert (0 < eps * (2 - eps * U)); [|lra].
      apply Rmult_lt_0_compat; [rewrite Heps; lra|]. rewrite Heps. lra. }
    (* the rounded root *)
    set (s := rnd64 q).
    assert (HKfmt : fmt64 (IZR K)) by (apply fmt_small; lia).
    assert (Hqlow : bpow radix2 (e - 1) <= q).
    { assert (d <= 1).
      { apply Rle_trans with (eps * IZR K); [exact Hd1|]. rewrite Heps. lra. }
      unfold d in H. apply Rabs_le_inv in H. lra. }
    assert (Hslow : bpow radix2 (e - 1) <= s).
    { apply round_ge_generic; [exact _|exact _|apply fmt_bpow; lia|exact Hqlow]. }
    assert (Hsfmt : fmt64 s) by (apply generic_format_round; exact _).
    assert (HsK : Rabs (s - IZR K) < bpow radix2 (e - 53)).
    { assert (HN := round_N_pt radix2 fexp64 (fun x => negb (Z.even x)) q).
      destruct HN as (_ & HN). specialize (HN (IZR K) HKfmt).
      change (round radix2 fexp64 (Znearest (fun x => negb (Z.even x))) q) with s in HN.
      replace (s - IZR K) with ((s - q) + (q - IZR K)) by ring.
      eapply Rle_lt_trans; [apply Rabs_triang|].
      rewrite (Rabs_minus_sym (IZR K) q) in HN. fold d in HN. fold d. lra. }
    destruct (fmt_multiple s e ltac:(lia) Hsfmt Hslow) as (zs & Hzs).
    destruct (fmt_multiple (IZR K) e ltac:(lia) HKfmt) as (zk & Hzk).
    { rewrite bpow_Z by lia. apply IZR_le. lia. }
    rewrite Hzs, Hzk in HsK |- *. rewrite <- Rmult_minus_distr_r, Rabs_mult in HsK.
    rewrite (Rabs_pos_eq (bpow radix2 (e - 53))) in HsK by apply bpow_ge_0.
    rewrite <- minus_IZR, <- abs_IZR in HsK.
    assert (Hlt1 : IZR (Z.abs (zs - zk)) < 1).
    { apply (Rmult_lt_reg_r (bpow radix2 (e - 53))); [apply bpow_gt_0|]. lra. }
    apply lt_IZR in Hlt1. assert (zs = zk) by lia. subst zs. reflexivity.
  Qed.
End Exact.

Section Conv.
  Open Scope R_scope.

  Lemma rnd_le_bpow x e : (-1074 <= e)%Z -> x <= bpow radix2 e -> rnd64 x <= bpow radix2 e.
  Proof. intros He Hx. apply round_le_generic; [exact _|exact _|apply fmt_bpow, He|exact Hx]. Qed.

  Lemma of_Z_correct z : (0 <= z <= 2 ^ 63)%Z ->
    B2R (b64_of_Z z) = rnd64 (IZR z) /\ is_finite (b64_of_Z z) = true /\
    Bsign (b64_of_Z z) = false.
  Proof.
    intros Hz. unfold b64_of_Z.
    pose proof (binary_normalize_correct prec64 emax64 prec64_gt_0 prec64_lt_emax mode_NE z 0 false) as HC.
    replace (F2R (Float radix2 z 0)) with (IZR z) in HC by (unfold F2R; cbn; ring).
    cbn [round_mode] in HC.
    assert (H0 : 0 <= IZR z) by (apply (IZR_le 0); lia).
    assert (H1 : 0 <= rnd64 (IZR z)).
    { apply round_ge_generic; [exact _|exact _|apply generic_format_0|exact H0]. }
    assert (H2 : rnd64 (IZR z) <= bpow radix2 63).
    { apply rnd_le_bpow; [lia|]. rewrite bpow_Z by lia. apply IZR_le. lia. }
    rewrite Rlt_bool_true in HC.
    2:{ rewrite Rabs_pos_eq by exact H1. eapply Rle_lt_trans; [exact H2|]. apply bpow_lt. reflexivity. }
    destruct HC as (HB & HF & HS). split; [exact HB|]. split; [exact HF|].
    rewrite HS. destruct (Rcompare_spec (IZR z) 0); try reflexivity. lra.
  Qed.

  Lemma rnd_generic x : fmt64 x -> rnd64 x = x.
  Proof. intros H. apply round_generic; [exact _|exact H]. Qed.

  (** All lengths a vector can have. *)
  Lemma sqrt_minus_3_ok N : (1 <= N <= max_len)%Z ->
    exists q, sqrt_minus_3 N = Ok q /\ (0 <= q <= 2 ^ 32)%Z /\
      (forall K, (3 <= K)%Z -> Z.odd K = true -> (1 + 8 * N = K * K)%Z -> q = (K - 3)%Z).
  Proof.
    intros HN. unfold max_len in HN. unfold sqrt_minus_3.
    rewrite (ck_ok (8 * N)) by lia. cbn [bind]. rewrite ck_ok by lia. cbn [bind].
    set (m := (1 + 8 * N)%Z).
    destruct (of_Z_correct m ltac:(unfold m; lia)) as (HB & HF & HS).
    set (bm := b64_of_Z m) in *.
    destruct (of_Z_correct 3 ltac:(lia)) as (HB3 & HF3 & _).
    rewrite (rnd_generic (IZR 3)) in HB3 by (apply fmt_small; cbn; lia).
    assert (Hy9 : 9 <= rnd64 (IZR m)).
    { apply round_ge_generic; [exact _|exact _|apply (fmt_small 9); cbn; lia|].
      apply (IZR_le 9). unfold m. lia. }
    assert (Hy63 : rnd64 (IZR m) <= bpow radix2 63).
    { apply rnd_le_bpow; [lia|]. rewrite bpow_Z by lia. apply IZR_le. unfold m. lia. }
    pose proof (Bsqrt_correct prec64 emax64 prec64_gt_0 prec64_lt_emax mode_NE bm) as (HQ & HQF & _).
    cbn [round_mode] in HQ. rewrite HB in HQ.
    assert (HQfin : is_finite (b64_sqrt bm) = true).
    { unfold b64_sqrt. rewrite HQF. destruct bm as [s|s| |s mm ee HH]; cbn in HF, HS |- *; try discriminate; try reflexivity.
      rewrite HS. reflexivity. }
    set (s := rnd64 (sqrt (rnd64 (IZR m)))) in *.
    assert (Hs3 : 3 <= s).
    { apply round_ge_generic; [exact _|exact _|apply (fmt_small 3); cbn; lia|].
      rewrite <- (sqrt_Rsqr 3) by lra. apply sqrt_le_1_alt. unfold Rsqr. lra. }
    assert (Hs32 : s <= bpow radix2 32).
    { apply rnd_le_bpow; [lia|]. rewrite <- (sqrt_Rsqr (bpow radix2 32)) by apply bpow_ge_0.
      apply sqrt_le_1_alt. eapply Rle_trans; [exact Hy63|]. unfold Rsqr. rewrite <- bpow_plus.
      apply bpow_le. lia. }
    pose proof (Bminus_correct prec64 emax64 prec64_gt_0 prec64_lt_emax mode_NE (b64_sqrt bm) (b64_of_Z 3)
                  HQfin HF3) as HM.
    cbn [round_mode] in HM. change (B2R (b64_sqrt bm)) with (B2R (Bsqrt mode_NE bm)) in HM.
    rewrite HQ, HB3 in HM.
    set (t := rnd64 (s - IZR 3)) in *.
    assert (Ht0 : 0 <= t).
    { apply round_ge_generic; [exact _|exact _|apply generic_format_0|]. lra. }
    assert (Ht32 : t <= bpow radix2 32).
    { apply rnd_le_bpow; [lia|]. lra. }
    rewrite Rlt_bool_true in HM.
    2:{ rewrite Rabs_pos_eq by exact Ht0. eapply Rle_lt_trans; [exact Ht32|]. apply bpow_lt. reflexivity. }
    destruct HM as (HMR & HMF & _).
    unfold b64_to_index. change (b64_sub (b64_sqrt bm) (b64_of_Z 3)) with (Bminus mode_NE (b64_sqrt bm) (b64_of_Z 3)).
    rewrite HMF. cbn [andb].
    assert (HT : Btrunc (Bminus mode_NE (b64_sqrt bm) (b64_of_Z 3)) = Ztrunc t).
    { apply eq_IZR. rewrite (Btrunc_correct prec64 emax64 prec64_lt_emax), HMR.
      unfold round, F2R, scaled_mantissa, cexp, FIX_exp. cbn. rewrite !Rmult_1_r. reflexivity. }
    rewrite HT.
    assert (Hq : (0 <= Ztrunc t <= 2 ^ 32)%Z).
    { split.
      - rewrite <- (Ztrunc_IZR 0). apply Ztrunc_le. exact Ht0.
      - rewrite <- (Ztrunc_IZR (2 ^ 32)). apply Ztrunc_le. rewrite <- bpow_Z by lia. exact Ht32. }
    exists (Ztrunc t). split; [apply ck_ok; lia|]. split; [exact Hq|].
    intros K HK Hodd HKK.
    assert (HK32 : (K <= 2 ^ 32)%Z) by nia.
    assert (Hs : s = IZR K).
    { unfold s. fold m in HKK. rewrite HKK. apply sqrt_square_exact; assumption. }
    unfold t. rewrite Hs, <- minus_IZR, rnd_generic by (apply fmt_small; lia). apply Ztrunc_IZR.
  Qed.
End Conv.

Section Create.
  Context {S : Type} (c : cfg).
  Hypothesis Hcfg : cfg_ok c.
  Implicit Types (x : dd S).

  Lemma not_ord1 : c_ord c <> 1 -> c_ord c = 2.
  Proof. destruct Hcfg as [[|] _]; lia. Qed.

  (** On a storage length of size [n], the size computed before the check is [n]. *)
  Lemma raw_size n : Z.of_nat (storage_len (c_ord c) n) <= max_len ->
    (if c_ord c =? 1 then ck (Z.of_nat (storage_len (c_ord c) n) - 1)
     else q <- sqrt_minus_3 (Z.of_nat (storage_len (c_ord c) n)) ;; Ok (Z.quot q 2)) = Ok (Z.of_nat n).
  Proof.
    intros HM. pose proof (storage_len_ge (c_ord c) n) as GE. unfold max_len in HM.
    rewrite storage_len_rs in *. destruct (Z.eqb_spec (c_ord c) 1) as [Ho|Ho].
    - rewrite ck_ok by lia. f_equal. lia.
    - pose proof (rs_closed n n (le_n n)) as RC.
      destruct (sqrt_minus_3_ok (Z.of_nat (1 + n + rs n n))) as (q & E & Hq & HK).
      { unfold max_len. lia. }
      rewrite E. cbn [bind]. f_equal.
      rewrite (HK (2 * Z.of_nat n + 3)); try lia.
      + replace (2 * Z.of_nat n + 3 - 3) with (Z.of_nat n * 2) by lia. apply Z.quot_mul. lia.
      + replace (2 * Z.of_nat n + 3) with (2 * (Z.of_nat n + 1) + 1) by lia.
        rewrite Z.odd_add, Z.odd_mul. reflexivity.
  Qed.

  Lemma size_from_length_ok n : c_exc c = true -> Z.of_nat (storage_len (c_ord c) n) <= max_len ->
    is_dynamic c = true \/ True ->
    size_from_data_length c (Z.of_nat (storage_len (c_ord c) n)) = Ok (Z.of_nat n).
  Proof.
    intros HE HM _. unfold size_from_data_length. rewrite raw_size by exact HM. cbn [bind].
    rewrite HE.
    assert (DL : data_length_from_size c (Z.of_nat n) = Ok (Z.of_nat (storage_len (c_ord c) n))).
    { pose (c' := {| c_ord := c_ord c; c_tsize := -1; c_exc := c_exc c; c_dbg := c_dbg c |}).
      apply (data_length_from_size_ok c'). split; [discriminate|exact HM]. }
    rewrite DL. cbn [bind]. rewrite Z.eqb_refl. reflexivity.
  Qed.

  (** Complete characterisation with exceptions enabled, for non-empty lengths. *)
  Lemma size_from_length_iff N : c_exc c = true -> 1 <= N <= max_len ->
    (exists n, N = Z.of_nat (storage_len (c_ord c) n) /\ size_from_data_length c N = Ok (Z.of_nat n)) \/
    ((forall n, N <> Z.of_nat (storage_len (c_ord c) n)) /\
     size_from_data_length c N = Throw InvalidLength).
  Proof.
    intros HE HN. unfold size_from_data_length.
    assert (HS : exists s, 0 <= s <= 2 ^ 60 /\ (c_ord c = 1 \/ s <= 2 ^ 31) /\
       (if c_ord c =? 1 then ck (N - 1) else q <- sqrt_minus_3 N ;; Ok (Z.quot q 2)) = Ok s).
    { unfold max_len in *. destruct (Z.eqb_spec (c_ord c) 1) as [Ho|Ho].
      - exists (N - 1). split; [lia|]. split; [left; exact Ho|]. apply ck_ok. lia.
      - destruct (sqrt_minus_3_ok N HN) as (q & E & Hq & _). rewrite E. cbn [bind].
        exists (Z.quot q 2). rewrite Z.quot_div_nonneg by lia.
        assert (0 <= q / 2 <= 2 ^ 31).
        { split; [apply Z.div_pos; lia|]. apply Z.div_le_upper_bound; lia. }
        split; [lia|]. split; [right; lia|reflexivity]. }
    destruct HS as (s & Hs & Hs2 & ES). rewrite ES. cbn [bind]. rewrite HE.
    assert (DL : data_length_from_size c s = Ok (Z.of_nat (storage_len (c_ord c) (Z.to_nat s)))).
    { unfold data_length_from_size, storage_len.
      destruct (Z.eqb_spec (c_ord c) 1) as [Ho|Ho].
      - rewrite ck_ok by lia. f_equal. lia.
      - destruct Hs2 as [|Hs2]; [contradiction|].
        rewrite !ck_ok by lia. cbn [bind]. rewrite ck_ok by nia. cbn [bind]. f_equal.
        rewrite <- quot_tri. rewrite Z2Nat.id by lia. reflexivity. }
    rewrite DL. cbn [bind].
    destruct (Z.eqb_spec (Z.of_nat (storage_len (c_ord c) (Z.to_nat s))) N) as [E|NE]; cbn [negb bind].
    - left. exists (Z.to_nat s). split; [auto|]. rewrite Z2Nat.id by lia. reflexivity.
    - right. split; [|reflexivity]. intros n ->.
      rewrite raw_size in ES by lia. inversion ES; subst s. rewrite Nat2Z.id in NE. congruence.
  Qed.

  (** [create(x.data())] gives back the size and the data. *)
  Lemma create_rep n (J : jet S) x : c_exc c = true -> rep c n J x ->
    exists r, create c (m_data x) = Ok r /\ m_data r = m_data x /\ rep c n J r.
  Proof.
    intros HE H. pose proof (rep_size_ok _ _ _ _ H) as SO.
    unfold create. rewrite (len_rep c _ _ _ H).
    rewrite (size_from_length_ok n HE) by (try apply SO; auto). cbn [bind].
    destruct (is_dynamic c) eqn:D.
    - eexists. split; [reflexivity|]. split; [reflexivity|].
      destruct H as (_ & HD & HM). split; [unfold size; rewrite D; reflexivity|]. split; assumption.
    - rewrite check_valid_size_ok by exact SO. cbn [bind].
      eexists. split; [reflexivity|]. split; [reflexivity|].
      destruct H as (HS & HD & HM). split; [|split; assumption].
      unfold size in *. rewrite D in *. exact HS.
  Qed.

  Lemma create_wf (vs : list S) : c_exc c = true -> is_dynamic c = true ->
    (1 <= List.length vs)%nat -> Z.of_nat (List.length vs) <= max_len ->
    (exists n r, List.length vs = storage_len (c_ord c) n /\ create c (full vs) = Ok r /\ wf c n r /\
                 m_data r = full vs) \/
    ((forall n, List.length vs <> storage_len (c_ord c) n) /\ create c (full vs) = Throw InvalidLength).
  Proof.
    intros HE D H1 HM. unfold create, len. rewrite D, full_length.
    destruct (size_from_length_iff (Z.of_nat (List.length vs)) HE ltac:(lia)) as [(n & EN & E)|(NE & E)].
    - left. rewrite E. cbn [bind]. eexists n, _. split; [lia|]. split; [reflexivity|].
      split; [|reflexivity]. split; [unfold size; rewrite D; reflexivity|]. cbn [m_data].
      rewrite full_length. split; [lia|]. split.
      + intros k Hk. destruct (nth_error vs k) as [v|] eqn:EV.
        * exists v. apply nth_error_full. exact EV.
        * apply nth_error_None in EV. lia.
      + unfold len. rewrite full_length. exact HM.
    - right. rewrite E. split; [|reflexivity]. intros n Hn. apply (NE n). lia.
  Qed.
End Create.
