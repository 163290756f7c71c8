(** C83: how many roundings there are in the derivatives of each function. *)
From Coq Require Import ZArith List Bool Reals Lra Lia Psatz.
From Coquelicot Require Import Coquelicot.
From Flocq Require Import Core BinarySingleNaN.
From Verif Require Import Outcome Scalar Float64 Model Spec RealOps UDeriv ExprSpec ProgSpec Ops64 B64 Facts64 NumSpec FactsNum
  ParamSpec FactsParam FactsEncl FactsExpr CreateRep OpsRep Kernels AccRep FactsLayout Expr Samples RangeSpec FactsRange ErrSpec FactsErr
  FmaSpec FactsFma RelSpec FactsRel.
Import ListNotations.
Open Scope R_scope.

(** Known value [y] of size between [2^-a] and [2^a], at most [K] roundings. *)
Definition sz (a : Z) (y : R) : Prop := bpow radix2 (- a) <= Rabs y <= bpow radix2 a.
Definition cb (K : nat) (a : Z) (t : counted) (y : R) : Prop := exists k, t = Some (y, k) /\ (k <= K)%nat /\ sz a y.

Lemma sz_nonneg a y : sz a y -> (0 <= a)%Z.
Proof.
  intros (A & B). destruct (Z_le_gt_dec 0 a); [assumption|]. exfalso.
  assert (bpow radix2 a < bpow radix2 (- a)) by (apply bpow_lt; lia). lra.
Qed.
Lemma sz_le a b y : sz a y -> (a <= b)%Z -> sz b y.
Proof. intros (A & B) H. split; [eapply Rle_trans; [apply bpow_le|exact A]; lia|eapply Rle_trans; [exact B|apply bpow_le; lia]]. Qed.
Lemma sz_nz a y : sz a y -> y <> 0.
Proof. intros (A & _) ->. rewrite Rabs_R0 in A. pose proof (bpow_gt_0 radix2 (- a)). lra. Qed.
Lemma sz_mul a b x y : sz a x -> sz b y -> sz (a + b) (x * y).
Proof.
  intros (A & B) (C & D). unfold sz. rewrite Rabs_mult. replace (- (a + b))%Z with (- a + - b)%Z by ring. rewrite !bpow_plus.
  pose proof (bpow_gt_0 radix2 (- a)). pose proof (bpow_gt_0 radix2 (- b)).
  split; apply Rmult_le_compat; try lra; apply Rabs_pos.
Qed.
Lemma sz_inv a x : sz a x -> sz a (/ x).
Proof.
  intros H. pose proof (sz_nz _ _ H) as N. destruct H as (A & B). unfold sz. rewrite Rabs_inv. pose proof (bpow_gt_0 radix2 (- a)). split.
  - rewrite bpow_opp. apply Rinv_le_contravar; lra.
  - assert (E : bpow radix2 a = / bpow radix2 (- a)) by (rewrite bpow_opp; field; apply Rgt_not_eq, bpow_gt_0).
    rewrite E. apply Rinv_le_contravar; lra.
Qed.
Lemma sz_div a b x y : sz a x -> sz b y -> sz (a + b) (x / y).
Proof. intros H H'. apply sz_mul; [exact H|apply sz_inv, H']. Qed.
Lemma sz_neg a x : sz a x -> sz a (- x).
Proof. unfold sz. rewrite Rabs_Ropp. auto. Qed.
Lemma sz_add a x y : sz a x -> sz a y -> 0 < x * y -> sz (a + 1) (x + y).
Proof.
  intros (A & B) (C & D) P.
  assert (E : Rabs (x + y) = Rabs x + Rabs y).
  { destruct (Rlt_or_le 0 x).
    - assert (0 < y) by (apply Rmult_lt_reg_l with x; lra). rewrite !Rabs_pos_eq by lra. reflexivity.
    - assert (x < 0) by (destruct H as [H| ->]; [exact H|lra]). assert (y < 0) by (apply Rmult_lt_reg_l with (- x); lra).
      rewrite !Rabs_left by lra. ring. }
  unfold sz. rewrite E. replace (- (a + 1))%Z with (- a + -1)%Z by ring. rewrite !bpow_plus. change (bpow radix2 1) with 2.
  change (bpow radix2 (-1)) with (/ 2). pose proof (bpow_gt_0 radix2 (- a)). lra.
Qed.
Lemma sz_half a x y : sz a x -> x / 2 <= y <= x -> 0 < x -> sz (a + 1) y.
Proof.
  intros (A & B) H P. unfold sz. rewrite Rabs_pos_eq in A, B |- * by lra.
  replace (- (a + 1))%Z with (- a + -1)%Z by ring. rewrite !bpow_plus. change (bpow radix2 1) with 2.
  change (bpow radix2 (-1)) with (/ 2). pose proof (bpow_gt_0 radix2 (- a)). pose proof (bpow_gt_0 radix2 a). lra.
Qed.
Lemma sz_sqrt a x : 0 < x -> sz a x -> sz a (sqrt x).
Proof.
  intros P H. pose proof (sz_nonneg _ _ H) as N. destruct H as (A & B). unfold sz in *.
  pose proof (sqrt_lt_R0 x P). rewrite Rabs_pos_eq in A, B |- * by lra.
  pose proof (sqrt_sqrt x (Rlt_le _ _ P)) as SS.
  assert (bpow radix2 (- a) <= 1) by (apply (bpow_le radix2 (- a) 0); lia). assert (1 <= bpow radix2 a) by (apply (bpow_le radix2 0 a); lia).
  pose proof (bpow_gt_0 radix2 (- a)). set (l := bpow radix2 (- a)) in *. set (b := bpow radix2 a) in *. split.
  - destruct (Rle_or_lt l (sqrt x)); [assumption|]. exfalso. assert (sqrt x * sqrt x < l * 1) by (apply Rmult_le_0_lt_compat; lra). lra.
  - destruct (Rle_or_lt (sqrt x) b); [assumption|]. exfalso. assert (b * 1 < sqrt x * sqrt x) by (apply Rmult_le_0_lt_compat; lra). lra.
Qed.
Lemma sz_cbrt a x : sz a x -> sz a (Rcbrt x).
Proof.
  intros H. pose proof (sz_nonneg _ _ H) as N. destruct H as (A & B). unfold sz in *. rewrite Rcbrt_abs.
  set (z := Rabs x) in *. assert (P : 0 < z) by (eapply Rlt_le_trans; [apply bpow_gt_0|exact A]).
  unfold Rcbrt. destruct (Rlt_dec 0 z); [|contradiction].
  assert (Q : forall t, 0 < t -> (t <= 1 -> t <= Rpower t (/ 3)) /\ (1 <= t -> Rpower t (/ 3) <= t)).
  { intros t Pt. split; intros L.
    - rewrite <- (Rpower_1 t) at 1 by exact Pt. unfold Rpower. apply exp_le. assert (ln t <= 0) by (rewrite <- ln_1; apply ln_le; lra). lra.
    - rewrite <- (Rpower_1 t) at 2 by exact Pt. unfold Rpower. apply exp_le. assert (0 <= ln t) by (rewrite <- ln_1; apply ln_le; lra). lra. }
  assert (bpow radix2 (- a) <= 1) by (apply (bpow_le radix2 (- a) 0); lia). assert (1 <= bpow radix2 a) by (apply (bpow_le radix2 0 a); lia).
  pose proof (bpow_gt_0 radix2 (- a)). split.
  - eapply Rle_trans; [apply (Q (bpow radix2 (- a))); lra|]. apply Rle_Rpower_l; lra.
  - eapply Rle_trans; [|apply (Q (bpow radix2 a)); lra]. apply Rle_Rpower_l; lra.
Qed.
Lemma sz_Z z a : (bpow radix2 (- a) <= IZR (Z.abs z) <= bpow radix2 a) -> sz a (IZR z).
Proof. unfold sz. rewrite <- abs_IZR. auto. Qed.

Lemma cb_le K a K' a' t y : cb K a t y -> (K <= K')%nat -> (a <= a')%Z -> cb K' a' t y.
Proof. intros (k & E & H & S) L L'. exists k. split; [exact E|]. split; [lia|]. apply sz_le with a; assumption. Qed.
Lemma cb_sz K a t y : cb K a t y -> sz a y. Proof. intros (k & _ & _ & S). exact S. Qed.
Lemma few k : (k <= 4000)%nat -> INR k * u64 <= / 16.
Proof.
  intros H. apply le_INR in H. replace (INR 4000) with 4000 in H by (rewrite INR_IZR_INZ; reflexivity).
  assert (U : u64 <= / 65536). { unfold u64. replace (/ 65536) with (bpow radix2 (-16)) by (cbn; lra). apply bpow_le. lia. }
  pose proof u64_small. apply Rle_trans with (4000 * / 65536); [|lra]. apply Rmult_le_compat; try lra. apply pos_INR.
Qed.
Lemma cb_after m y k K a : sz a y -> (a <= 1020)%Z -> (k <= 4000)%nat -> (m + k <= K)%nat -> cb K a (after m y k) y.
Proof.
  intros S A H L. unfold after. destruct (Reqb y 0) eqn:Z. { apply Reqb_yes in Z. exfalso. exact (sz_nz _ _ S Z). }
  assert (F : fits y k = true).
  { unfold fits, Rleb. pose proof (sz_le a 1020 y S A) as (B & C). change (- (1020))%Z with (-1020)%Z in B.
    destruct (Rle_dec (bpow radix2 (-1020)) (Rabs y)); [|contradiction].
    destruct (Rle_dec (Rabs y) (bpow radix2 1022)); [|exfalso; apply n; eapply Rle_trans; [exact C|apply bpow_le; lia]].
    destruct (Rle_dec (INR k * u64) (/ 16)); [reflexivity|]. exfalso. apply n, few, H. }
  rewrite F. exists (m + k)%nat. auto.
Qed.

Section Counting.
  Context (p : nat).
  Let N := Nops p.
  Lemma cb_Z z a : (Z.abs z <= 2 ^ 53)%Z -> bpow radix2 (- a) <= IZR (Z.abs z) <= bpow radix2 a -> cb 0 a (o_Z N z) (IZR z).
  Proof.
    intros H B. exists 0%nat. cbn [N Nops o_Z]. apply Z.leb_le in H. rewrite H. split; [reflexivity|]. split; [lia|apply sz_Z, B].
  Qed.
  Lemma cb_mul K K' a b t t' x y : cb K a t x -> cb K' b t' y -> (a + b <= 1020)%Z -> (K + K' <= 4000)%nat ->
    cb (K + K' + 1) (a + b) (o_mul N t t') (x * y).
  Proof.
    intros (j & -> & J & S) (k & -> & J' & S') H H'. cbn [N Nops o_mul].
    apply cb_after; [apply sz_mul; assumption|exact H|lia|]. destruct (_ || _); lia.
  Qed.
  Lemma simple_Z z : z = 1%Z \/ z = (-1)%Z \/ z = 2%Z \/ z = (-2)%Z -> simple (IZR z) 0 = true.
  Proof.
    intros H. unfold simple. cbn [Nat.eqb andb]. rewrite <- abs_IZR. unfold Reqb.
    destruct (Req_EM_T (IZR (Z.abs z)) 1); [reflexivity|]. destruct (Req_EM_T (IZR (Z.abs z)) 2); [reflexivity|].
    exfalso. destruct H as [-> |[-> |[-> | ->]]]; cbn [Z.abs] in *; lra.
  Qed.
  Lemma small_Z z : z = 1%Z \/ z = (-1)%Z \/ z = 2%Z \/ z = (-2)%Z -> o_Z N z = Some (IZR z, 0%nat) /\ sz 1 (IZR z).
  Proof.
    intros H. split; [destruct H as [-> |[-> |[-> | ->]]]; reflexivity|]. apply sz_Z.
    replace (bpow radix2 1) with 2 by reflexivity. replace (bpow radix2 (- (1))) with (/ 2) by reflexivity.
    destruct H as [-> |[-> |[-> | ->]]]; cbn [Z.abs]; lra.
  Qed.
  Lemma cb_mul_l z K a t y : z = 1%Z \/ z = (-1)%Z \/ z = 2%Z \/ z = (-2)%Z -> cb K a t y -> (a + 1 <= 1020)%Z -> (K <= 4000)%nat ->
    cb K (a + 1) (o_mul N (o_Z N z) t) (IZR z * y).
  Proof.
    intros Hz (k & -> & J & S) H H'. destruct (small_Z z Hz) as (-> & S1). cbn [N Nops o_mul]. rewrite simple_Z by exact Hz. cbn [orb].
    apply cb_after; [rewrite Z.add_comm; apply sz_mul; assumption|exact H|lia|lia].
  Qed.
  Lemma cb_mul_r z K a t y : z = 1%Z \/ z = (-1)%Z \/ z = 2%Z \/ z = (-2)%Z -> cb K a t y -> (a + 1 <= 1020)%Z -> (K <= 4000)%nat ->
    cb K (a + 1) (o_mul N t (o_Z N z)) (y * IZR z).
  Proof.
    intros Hz (k & -> & J & S) H H'. destruct (small_Z z Hz) as (-> & S1). cbn [N Nops o_mul]. rewrite (simple_Z z) by exact Hz.
    rewrite orb_true_r. apply cb_after; [apply sz_mul; assumption|exact H|lia|lia].
  Qed.
  Lemma cb_div K K' a b t t' x y : cb K a t x -> cb K' b t' y -> (a + b <= 1020)%Z -> (K + K' <= 4000)%nat ->
    cb (K + K' + 1) (a + b) (o_div N t t') (x / y).
  Proof.
    intros (j & -> & J & S) (k & -> & J' & S') H H'. cbn [N Nops o_div].
    destruct (Reqb y 0) eqn:Z. { apply Reqb_yes in Z. exfalso. exact (sz_nz _ _ S' Z). }
    apply cb_after; [apply sz_div; assumption|exact H|lia|lia].
  Qed.
  Lemma cb_neg K a t y : cb K a t y -> cb K a (o_neg N t) (- y).
  Proof. intros (k & -> & J & S). exists k. split; [reflexivity|]. split; [exact J|apply sz_neg, S]. Qed.
  Lemma cb_add K K' a b t t' x y : cb K a t x -> cb K' b t' y -> 0 < x * y -> (Z.max a b + 1 <= 1020)%Z -> (Nat.max K K' <= 4000)%nat ->
    cb (Nat.max K K' + 1) (Z.max a b + 1) (o_add N t t') (x + y).
  Proof.
    intros (j & -> & J & S) (k & -> & J' & S') P H H'. cbn [N Nops o_add add_counted].
    destruct (Reqb x 0) eqn:Z. { apply Reqb_yes in Z. exfalso. exact (sz_nz _ _ S Z). }
    destruct (Reqb y 0) eqn:Z'. { apply Reqb_yes in Z'. exfalso. exact (sz_nz _ _ S' Z'). }
    assert (SZ : sz (Z.max a b + 1) (x + y))
      by (apply sz_add; [apply sz_le with a; [exact S|lia]|apply sz_le with b; [exact S'|lia]|exact P]).
    destruct (_ && _); [apply cb_after; [exact SZ|exact H|lia|]; destruct (Reqb (near64 _) _); lia|].
    apply Rltb_true in P as P'. rewrite P'. apply cb_after; [exact SZ|exact H|lia|lia].
  Qed.
  (** [x - y] with [0 < 2 y <= x], and the other way round. *)
  Lemma cb_sub_dom K K' a b t t' x y : cb K a t x -> cb K' b t' y -> 0 < y -> 2 * y <= x -> (a + 1 <= 1020)%Z -> (4 * Nat.max K K' <= 4000)%nat ->
    cb (4 * Nat.max K K' + 1) (a + 1) (o_sub N t t') (x - y) /\ cb (4 * Nat.max K K' + 1) (a + 1) (o_sub N t' t) (y - x).
  Proof.
    intros (j & -> & J & S) (k & -> & J' & S') P Q H H'. cbn [N Nops o_sub neg_counted add_counted].
    assert (SZ : sz (a + 1) (x - y)) by (apply (sz_half a x); [exact S|lra|lra]).
    assert (SZ' : sz (a + 1) (y - x)) by (replace (y - x) with (- (x - y)) by ring; apply sz_neg, SZ).
    assert (G : forall u v i l, u * v < 0 -> u <> 0 -> v <> 0 -> sz (a + 1) (u + v) -> 2 * Rabs v <= Rabs u \/ 2 * Rabs u <= Rabs v -> (Nat.max i l <= Nat.max K K')%nat ->
      cb (4 * Nat.max K K' + 1) (a + 1) (add_counted (Some (u, i)) (Some (v, l))) (u + v)).
    { clear - H H'. intros u v i l UV U V SZ D L. unfold add_counted.
      destruct (Reqb u 0) eqn:Z. { apply Reqb_yes in Z. contradiction. }
      destruct (Reqb v 0) eqn:Z'. { apply Reqb_yes in Z'. contradiction. }
      destruct (_ && _).
      - apply cb_after; [exact SZ|exact H|lia|]. destruct (Reqb (near64 _) _); lia.
      - destruct (Rltb 0 (u * v)) eqn:Z3. { apply Rltb_true in Z3. exfalso. lra. }
        unfold Rleb. destruct (Rle_dec (2 * Rabs v) (Rabs u)) as [D1|D1]; [|destruct (Rle_dec (2 * Rabs u) (Rabs v)) as [D2|D2]]; cbn [orb];
        try (apply cb_after; [exact SZ|exact H|lia|lia]). exfalso. destruct D; contradiction. }
    split.
    - apply (G x (- y) j k); [nra|lra|lra|exact SZ|left; rewrite Rabs_Ropp, !Rabs_pos_eq by lra; exact Q|lia].
    - apply (G y (- x) k j); [nra|lra|lra|exact SZ'|right; rewrite Rabs_Ropp, !Rabs_pos_eq by lra; exact Q|lia].
  Qed.
  (** A difference of exact numbers. *)
  Lemma cb_sub_exact a b d t t' x y : cb 0 a t x -> cb 0 b t' y -> sz d (x - y) -> (d <= 1020)%Z ->
    cb 1 d (o_sub N t t') (x - y) /\ (near64 (x - y) = x - y -> cb 0 d (o_sub N t t') (x - y)).
  Proof.
    intros (j & -> & J & S) (k & -> & J' & S') SZ H. cbn [N Nops o_sub neg_counted add_counted].
    replace j with 0%nat by lia. replace k with 0%nat by lia.
    destruct (Reqb x 0) eqn:Z. { apply Reqb_yes in Z. exfalso. exact (sz_nz _ _ S Z). }
    destruct (Reqb (- y) 0) eqn:Z'. { apply Reqb_yes in Z'. exfalso. apply (sz_nz _ _ S'). lra. }
    cbn [Nat.eqb andb]. change (x + - y) with (x - y). split.
    - apply cb_after; [exact SZ|exact H|lia|]. destruct (Reqb (near64 _) _); lia.
    - intros E. destruct (Reqb (near64 (x - y)) (x - y)) eqn:Z4; [|apply Reqb_no in Z4; contradiction].
      apply cb_after; [exact SZ|exact H|lia|lia].
  Qed.
  Lemma cb_sqrt K a t y : cb K a t y -> 0 < y -> (a <= 1020)%Z -> (K <= 4000)%nat -> cb (Nat.div2 (S K) + 1) a (o_sqrt N t) (sqrt y).
  Proof.
    intros (k & -> & J & S) P H H'. cbn [N Nops o_sqrt]. unfold Rleb. destruct (Rle_dec 0 y); [|lra].
    assert (D : (Nat.div2 (Datatypes.S k) <= Nat.div2 (Datatypes.S K))%nat).
    { rewrite !Nat.div2_div. apply Nat.div_le_mono; lia. }
    assert (D' : (Nat.div2 (Datatypes.S K) <= Datatypes.S K)%nat) by (rewrite Nat.div2_div; apply Nat.div_le_upper_bound; lia).
    apply cb_after; [apply sz_sqrt; assumption|exact H| |lia].
    assert (Nat.div2 (Datatypes.S k) <= k)%nat; [|lia]. pose proof (Nat.div2_odd (Datatypes.S k)) as E. destruct k; [cbn in *; lia|].
    destruct (Nat.odd _); cbn [Nat.b2n] in E; lia.
  Qed.
  Lemma cb_cbrt K a t y : cb K a t y -> (a <= 1020)%Z -> (K <= 4000)%nat -> cb (p + K) a (o_cbrt N t) (Rcbrt y).
  Proof. intros (k & -> & J & S) H H'. cbn [N Nops o_cbrt]. apply cb_after; [apply sz_cbrt, S|exact H|lia|lia]. Qed.
  Lemma cb_call F ok a d t x : cb 0 a t x -> ok x = true -> sz d (F x) -> (d <= 1020)%Z -> cb p d (count1 p F ok t) (F x).
  Proof.
    intros (k & -> & J & S) K SF H. replace k with 0%nat by lia. unfold count1. rewrite K. cbn [andb Nat.eqb].
    apply cb_after; [exact SF|exact H|lia|lia].
  Qed.
  Lemma cb_pow K a d b t t' x y : cb K a t x -> cb 0 b t' y -> is_int y = true -> sz d (Rpow_std x y) -> (d <= 1020)%Z -> (K * ceiling (Rabs y) <= 4000)%nat ->
    cb (p + K * ceiling (Rabs y)) d (o_pow N t t') (Rpow_std x y).
  Proof.
    intros (j & -> & J & S) (k & -> & J' & S') I SP H H'. replace k with 0%nat by lia. cbn [N Nops o_pow].
    assert (X : (Rltb 0 x || Rltb x 0 && is_int y)%bool = true).
    { rewrite I, andb_true_r. pose proof (sz_nz _ _ S). unfold Rltb. destruct (Rlt_dec 0 x); [reflexivity|]. destruct (Rlt_dec x 0); [reflexivity|]. exfalso. lra. }
    rewrite X. cbn [andb Nat.eqb]. assert ((j * ceiling (Rabs y) <= K * ceiling (Rabs y))%nat) by (apply Nat.mul_le_mono_r, J).
    apply cb_after; [exact SP|exact H|lia|lia].
  Qed.
  (** Seeds: gradient 1, Hessian 0. *)
  Lemma cb_grad K a t y : cb K a t y -> (a + 1 <= 1020)%Z -> (K <= 4000)%nat -> cb K (a + 1) (o_mul N t (o_Z N 1)) (y * 1).
  Proof. intros H A B. apply (cb_mul_r 1); auto. Qed.
  Lemma cb_hess K a K' a' t y t' y' : cb K a t y -> cb K' a' t' y' -> (a' + 2 <= 1020)%Z -> (K' <= 4000)%nat ->
    cb K' (a' + 2) (o_add N (o_mul N t (o_Z N 0)) (o_mul N (o_mul N t' (o_Z N 1)) (o_Z N 1))) (y' * 1 * 1).
  Proof.
    intros (k & -> & J & S) H A B.
    pose proof (cb_mul_r 1 K' a' t' y' (or_introl eq_refl) H ltac:(lia) B) as H1.
    pose proof (cb_mul_r 1 _ _ _ _ (or_introl eq_refl) H1 ltac:(lia) B) as (k' & E & J' & S').
    change (IZR 1) with 1 in E, S'. rewrite E.
    assert (Z : o_mul N (Some (y, k)) (o_Z N 0) = Some (y * 0, 0%nat)).
    { cbn [N Nops o_mul o_Z]. cbn. unfold after, Reqb. destruct (Req_EM_T (y * 0) 0); [reflexivity|]. exfalso. apply n. ring. }
    rewrite Z. cbn [N Nops o_add add_counted]. destruct (Reqb (y * 0) 0) eqn:E0; [|apply Reqb_no in E0; exfalso; apply E0; ring].
    exists k'. split; [reflexivity|]. split; [exact J'|]. apply sz_le with (1 := S'). lia.
  Qed.
End Counting.

Lemma sz_moderate y : moderate y <-> sz 100 y. Proof. reflexivity. Qed.
Lemma sz_1 : sz 0 1. Proof. unfold sz. rewrite Rabs_R1. cbn. lra. Qed.
Lemma ln2_size : sz 1 (ln 2).
Proof.
  assert (A : / 2 <= ln 2).
  { rewrite <- (ln_exp (/ 2)). apply ln_le; [apply exp_pos|]. pose proof exp_le_3 as E3.
    assert (E : exp (/ 2) * exp (/ 2) = exp 1) by (rewrite <- exp_plus; f_equal; lra).
    destruct (Rle_or_lt (exp (/ 2)) 2) as [|Q]; [assumption|exfalso].
    assert (2 * 2 < exp (/ 2) * exp (/ 2)) by (apply Rmult_le_0_lt_compat; lra). lra. }
  assert (B : ln 2 <= 1). { apply Rle_trans with (ln (exp 1)); [|rewrite ln_exp; lra]. apply ln_le; [lra|]. pose proof (exp_ineq1_le 1). lra. }
  unfold sz. rewrite Rabs_pos_eq by lra. change (bpow radix2 1) with 2. change (bpow radix2 (- (1))) with (/ 2). lra.
Qed.
Lemma ln10_size : sz 4 (ln 10).
Proof.
  destruct ln2_size as (A & _). change (bpow radix2 (- (1))) with (/ 2) in A.
  assert (0 < ln 2) by (rewrite <- ln_1; apply ln_increasing; lra). rewrite Rabs_pos_eq in A by lra.
  assert (B : ln 2 <= ln 10) by (apply ln_le; lra).
  assert (C : ln 10 <= 10). { apply Rle_trans with (ln (exp 10)); [|rewrite ln_exp; lra]. apply ln_le; [lra|]. pose proof (exp_ineq1_le 10). lra. }
  unfold sz. rewrite Rabs_pos_eq by lra. change (bpow radix2 4) with 16. change (bpow radix2 (- (4))) with (/ 16). lra.
Qed.
Lemma cosh_size x : sz 100 (sinh x) -> sz 101 (cosh x).
Proof.
  intros (_ & B). assert (C : cosh x * cosh x = 1 + sinh x * sinh x).
  { unfold cosh, sinh. assert (E : exp x * exp (- x) = 1) by (rewrite <- exp_plus, Rplus_opp_r; apply exp_0). field_simplify. 
    replace (exp x ^ 2 + 2 * exp x * exp (- x) + exp (- x) ^ 2) with (exp x ^ 2 + 2 * (exp x * exp (- x)) + exp (- x) ^ 2) by ring.
    replace (exp x ^ 2 - 2 * exp x * exp (- x) + exp (- x) ^ 2 + 4) with (exp x ^ 2 - 2 * (exp x * exp (- x)) + exp (- x) ^ 2 + 4) by ring.
    rewrite E. lra. }
  assert (P : 0 < cosh x) by (unfold cosh; pose proof (exp_pos x); pose proof (exp_pos (- x)); lra).
  assert (L : 1 <= cosh x) by (destruct (Rle_or_lt 1 (cosh x)); [assumption|exfalso; nra]).
  assert (U : cosh x <= 1 + Rabs (sinh x)).
  { destruct (Rle_or_lt (cosh x) (1 + Rabs (sinh x))) as [|Q]; [assumption|exfalso].
    pose proof (Rabs_pos (sinh x)). assert (SQ : Rabs (sinh x) * Rabs (sinh x) = sinh x * sinh x) by (rewrite <- Rabs_mult; apply Rabs_pos_eq; nra).
    assert ((1 + Rabs (sinh x)) * (1 + Rabs (sinh x)) < cosh x * cosh x) by (apply Rmult_le_0_lt_compat; lra). lra. }
  unfold sz. rewrite Rabs_pos_eq by lra.
  assert (1 <= bpow radix2 100) by (apply (bpow_le radix2 0 100); lia).
  assert (bpow radix2 (- (101)) <= 1) by (apply (bpow_le radix2 (- (101)) 0); lia).
  change (bpow radix2 101) with (bpow radix2 (1 + 100)). rewrite bpow_plus. change (bpow radix2 1) with 2. lra.
Qed.

Section Functions.
  Context (p : nat) (P : (p <= 100)%nat) (v : b64) (Fv : finite64 v).
  Let N := Nops p.
  Let x := val64 v.
  Let X := exactly64 v.
  Lemma X_is : X = Some (x, 0%nat). Proof. unfold X, exactly64. rewrite Fv. reflexivity. Qed.
  Lemma cb_X a : sz a x -> cb 0 a X x. Proof. intros S. exists 0%nat. rewrite X_is. auto. Qed.
  Lemma cb_Z1 : cb 0 1 (o_Z N 1) 1. Proof. apply (cb_Z p 1); [lia|]. cbn. lra. Qed.
  Lemma cb_Zm1 : cb 0 1 (o_Z N (-1)) (-1). Proof. apply (cb_Z p (-1)); [lia|]. cbn. lra. Qed.
  Lemma cb_Z2 : cb 0 1 (o_Z N 2) 2. Proof. apply (cb_Z p 2); [lia|]. cbn. lra. Qed.
  Lemma cb_Z3 : cb 0 2 (o_Z N 3) 3. Proof. apply (cb_Z p 3); [lia|]. cbn. lra. Qed.
  Lemma cb_Z10 : cb 0 4 (o_Z N 10) 10. Proof. apply (cb_Z p 10); [lia|]. cbn. lra. Qed.

  (** What remains to be shown for a function with these derivatives at [x]; [tR]: computed in exact reals. *)
  Definition good (K K' : nat) (t : counted * coef counted * coef counted) (tR : R * coef R * coef R) : Prop :=
    match t, tR with
    | (_, CVal da, CVal daa), (_, CVal y, CVal y') => exists a a', cb K a da y /\ cb K' a' daa y' /\ (a <= 1010)%Z /\ (a' <= 1010)%Z
    | _, _ => False
    end.
  Lemma good_jet K K' t tR : good K K' t tR -> (K <= 4000)%nat -> (K' <= 4000)%nat ->
    exists k k', jg (ju3 N t (jvar N 0 X)) 0 = Some (jg (ju3 Rops tR (jvar Rops 0 x)) 0%nat, k) /\ (k <= K)%nat /\
      hess (ju3 N t (jvar N 0 X)) 0 0 = Some (hess (ju3 Rops tR (jvar Rops 0 x)) 0 0, k') /\ (k' <= K')%nat.
  Proof.
    destruct t as ((f & [| | |da]) & [| | |daa]); try contradiction. destruct tR as ((fR & [| | |y]) & [| | |y']); try contradiction.
    intros (a & a' & A & B & Ha & Ha') HK HK'.
    destruct (cb_grad p _ _ _ _ A ltac:(lia) HK) as (k & E & L & _).
    destruct (cb_hess p _ _ _ _ _ _ _ _ A B ltac:(lia) HK') as (k' & E' & L' & _).
    exists k, k'. split; [exact E|]. split; [exact L|]. split; [|exact L'].
    unfold hess. cbn [ju3 ju jh jg jvar Nat.min Nat.max Nat.eqb cmul vmul vset vacc is_zero Rops o_mul o_add o_Z].
    replace (y * 0 + y' * 1 * 1) with (y' * 1 * 1) by ring. exact E'.
  Qed.
  Lemma ceiling_Z z : ceiling (Rabs (IZR z)) = Z.abs_nat z.
  Proof. unfold ceiling. rewrite <- abs_IZR, <- opp_IZR, Int_part_IZR, Z.opp_involutive. destruct z; reflexivity. Qed.
  Tactic Notation "mul" constr(A) constr(B) ident(C) := pose proof (cb_mul p _ _ _ _ _ _ _ _ A B ltac:(lia) ltac:(lia)) as C.
  Tactic Notation "mull" constr(z) constr(A) ident(C) := pose proof (cb_mul_l p z _ _ _ _ ltac:(auto) A ltac:(lia) ltac:(lia)) as C.
  Tactic Notation "mulr" constr(z) constr(A) ident(C) := pose proof (cb_mul_r p z _ _ _ _ ltac:(auto) A ltac:(lia) ltac:(lia)) as C.
  Tactic Notation "div" constr(A) constr(B) ident(C) := pose proof (cb_div p _ _ _ _ _ _ _ _ A B ltac:(lia) ltac:(lia)) as C.
  Tactic Notation "neg" constr(A) ident(C) := pose proof (cb_neg p _ _ _ _ A) as C.
  Ltac done A B := unfold good; eexists _, _; split; [refine (cb_le _ _ _ _ _ _ A _ (Z.le_refl _)); lia|];
    split; [refine (cb_le _ _ _ _ _ _ B _ (Z.le_refl _)); lia|split; lia].

  Lemma g_sqrt : 0 < x -> sz 100 x -> good 2 3 (k_sqrt N X) (k_sqrt Rops x).
  Proof.
    intros Px Sx. pose proof (cb_X _ Sx) as A. pose proof (cb_sqrt p _ _ _ _ A Px ltac:(lia) ltac:(lia)) as F. cbn in F.
    mull 2%Z F F2. div cb_Z1 F2 D. neg D D'. mull 2%Z A A2. div D' A2 DD. done D DD.
  Qed.
  Lemma g_cbrt : sz 100 x -> good (2 * p + 3) (2 * p + 5) (k_cbrt N X) (k_cbrt Rops x).
  Proof.
    intros Sx. pose proof (cb_X _ Sx) as A. pose proof (cb_cbrt p _ _ _ _ A ltac:(lia) ltac:(lia)) as F.
    mul cb_Z3 F F3. mul F3 F FF. div cb_Z1 FF D. neg D D'. mulr 2%Z D' D2. mul cb_Z3 A A3. div D2 A3 DD. done D DD.
  Qed.
  Lemma g_reciprocal : sz 100 x -> good 3 5 (k_reciprocal N X) (k_reciprocal Rops x).
  Proof.
    intros Sx. pose proof (cb_X _ Sx) as A. div cb_Z1 A F. neg F F'. mul F' F D. mull (-2)%Z F F2. mul F2 D DD. done D DD.
  Qed.
  Lemma g_cos : sz 100 (sin x) -> sz 100 (cos x) -> good p p (k_cos N X) (k_cos Rops x).
  Proof.
    intros S C. assert (CS : cb p 100 (o_sin N X) (sin x)) by (rewrite X_is; apply cb_after; [exact S|lia|lia|lia]).
    assert (CC : cb p 100 (o_cos N X) (cos x)) by (rewrite X_is; apply cb_after; [exact C|lia|lia|lia]).
    neg CS D. neg CC DD. done D DD.
  Qed.
  Lemma g_sin : sz 100 (sin x) -> sz 100 (cos x) -> good p p (k_sin N X) (k_sin Rops x).
  Proof.
    intros S C. assert (CS : cb p 100 (o_sin N X) (sin x)) by (rewrite X_is; apply cb_after; [exact S|lia|lia|lia]).
    assert (CC : cb p 100 (o_cos N X) (cos x)) by (rewrite X_is; apply cb_after; [exact C|lia|lia|lia]).
    neg CS DD. done CC DD.
  Qed.
  Lemma g_tan : sz 100 (sin x) -> sz 100 (cos x) -> good (2 * p + 2) (3 * p + 3) (k_tan N X) (k_tan Rops x).
  Proof.
    intros S C. assert (T : sz 200 (tan x)) by (apply (sz_div 100 100); assumption). pose proof (sz_nz _ _ C) as NC.
    assert (F : cb p 200 (o_tan N X) (tan x)).
    { rewrite X_is. cbn [N Nops o_tan]. unfold count1. unfold Reqb. destruct (Req_EM_T (cos x) 0); [contradiction|]. cbn [negb andb Nat.eqb].
      apply cb_after; [exact T|lia|lia|lia]. }
    mul F F FF. pose proof (sz_nz _ _ T) as NT.
    pose proof (cb_add p _ _ _ _ _ _ _ _ FF cb_Z1 ltac:(rewrite Rmult_1_r; apply Rsqr_pos_lt, NT) ltac:(lia) ltac:(lia)) as D.
    mulr 2%Z D D2. mul D2 F DD. done D DD.
  Qed.
  Lemma square_size : sz 100 x -> 0 < x * x. Proof. intros S. apply Rsqr_pos_lt, (sz_nz _ _ S). Qed.
  Lemma g_acos : sz 100 x -> 2 * (x * x) <= 1 -> good 5 12 (k_acos N X) (k_acos Rops x).
  Proof.
    intros Sx H. pose proof (cb_X _ Sx) as A. mul A A AA.
    destruct (cb_sub_dom p _ _ _ _ _ _ _ _ cb_Z1 AA (square_size Sx) H ltac:(lia) ltac:(lia)) as (T & _).
    pose proof (cb_sqrt p _ _ _ _ T ltac:(lra) ltac:(lia) ltac:(cbn; lia)) as Q. cbn [Nat.max Nat.add Nat.mul Nat.div2] in Q, T.
    div cb_Zm1 Q D. mul D A DA. div DA T DD. done D DD.
  Qed.
  Lemma g_asin : sz 100 x -> 2 * (x * x) <= 1 -> good 5 12 (k_asin N X) (k_asin Rops x).
  Proof.
    intros Sx H. pose proof (cb_X _ Sx) as A. mul A A AA.
    destruct (cb_sub_dom p _ _ _ _ _ _ _ _ cb_Z1 AA (square_size Sx) H ltac:(lia) ltac:(lia)) as (T & _).
    pose proof (cb_sqrt p _ _ _ _ T ltac:(lra) ltac:(lia) ltac:(cbn; lia)) as Q. cbn [Nat.max Nat.add Nat.mul Nat.div2] in Q, T.
    div cb_Z1 Q D. mul D A DA. div DA T DD. done D DD.
  Qed.
  Lemma g_atan : sz 100 x -> good 3 8 (k_atan N X) (k_atan Rops x).
  Proof.
    intros Sx. pose proof (cb_X _ Sx) as A. mul A A AA. pose proof (square_size Sx) as Q.
    pose proof (cb_add p _ _ _ _ _ _ _ _ AA cb_Z1 ltac:(lra) ltac:(lia) ltac:(lia)) as T.
    div cb_Z1 T D. neg D D'. mul D' D D2. mulr 2%Z D2 D3. mul D3 A DD. done D DD.
  Qed.
  Lemma hyperbolic : sz 100 (sinh x) -> cb p 100 (o_sinh N X) (sinh x) /\ cb p 101 (o_cosh N X) (cosh x).
  Proof.
    intros S. rewrite X_is. split; (apply cb_after; [|lia|lia|lia]); [exact S|apply cosh_size, S].
  Qed.
  Lemma g_cosh : sz 100 (sinh x) -> good p p (k_cosh N X) (k_cosh Rops x).
  Proof. intros S. destruct (hyperbolic S) as (D & DD). done D DD. Qed.
  Lemma g_sinh : sz 100 (sinh x) -> good p p (k_sinh N X) (k_sinh Rops x).
  Proof. intros S. destruct (hyperbolic S) as (DD & D). done D DD. Qed.
  Lemma g_tanh : sz 100 (tanh x) -> 2 * (tanh x * tanh x) <= 1 -> good (8 * p + 5) (9 * p + 6) (k_tanh N X) (k_tanh Rops x).
  Proof.
    intros S H. assert (F : cb p 100 (o_tanh N X) (tanh x)) by (rewrite X_is; apply cb_after; [exact S|lia|lia|lia]).
    mul F F FF. destruct (cb_sub_dom p _ _ _ _ _ _ _ _ cb_Z1 FF (Rsqr_pos_lt _ (sz_nz _ _ S)) H ltac:(lia) ltac:(lia)) as (D & _).
    mull (-2)%Z F F2. mul F2 D DD. done D DD.
  Qed.
  Lemma g_acosh : 1 < x -> sz 100 (x - 1) -> good 6 11 (k_acosh N X) (k_acosh Rops x).
  Proof.
    intros H S. assert (Sx : sz 101 x).
    { replace x with (x - 1 + 1) by ring. apply (sz_add 100); [exact S|apply sz_le with 0%Z; [apply sz_1|lia]|lra]. }
    pose proof (cb_X _ Sx) as A. destruct (cb_sub_exact p _ _ 100 _ _ _ _ A cb_Z1 S ltac:(lia)) as (M & _).
    pose proof (cb_add p _ _ _ _ _ _ _ _ A cb_Z1 ltac:(lra) ltac:(lia) ltac:(lia)) as Pl. cbn [Nat.max Nat.add] in Pl.
    pose proof (cb_sqrt p _ _ _ _ M ltac:(lra) ltac:(lia) ltac:(lia)) as QM.
    pose proof (cb_sqrt p _ _ _ _ Pl ltac:(lra) ltac:(lia) ltac:(lia)) as QP. cbn [Nat.div2] in QM, QP.
    mul QM QP QQ. div cb_Z1 QQ D. neg D D'. mul D' A DA. mul M Pl MP. div DA MP DD. done D DD.
  Qed.
  Lemma g_asinh : sz 100 x -> good 3 7 (k_asinh N X) (k_asinh Rops x).
  Proof.
    intros Sx. pose proof (cb_X _ Sx) as A. mul A A AA. pose proof (square_size Sx) as Q.
    pose proof (cb_add p _ _ _ _ _ _ _ _ cb_Z1 AA ltac:(lra) ltac:(lia) ltac:(lia)) as T. cbn [Nat.max Nat.add] in T.
    pose proof (cb_sqrt p _ _ _ _ T ltac:(lra) ltac:(lia) ltac:(lia)) as R. cbn [Nat.div2] in R.
    div cb_Z1 R D. neg D D'. mul D' A DA. div DA T DD. done D DD.
  Qed.
  Lemma g_atanh : sz 100 x -> 2 * (x * x) <= 1 -> good 6 (p + 11) (k_atanh N X) (k_atanh Rops x).
  Proof.
    intros Sx H. pose proof (cb_X _ Sx) as A. mul A A AA.
    destruct (cb_sub_dom p _ _ _ _ _ _ _ _ cb_Z1 AA (square_size Sx) H ltac:(lia) ltac:(lia)) as (T & T').
    cbn [Nat.max Nat.add Nat.mul] in T, T'. div cb_Z1 T D. mull 2%Z A A2.
    pose proof (cb_pow p _ _ 4 _ _ _ _ _ T' cb_Z2 (is_int_IZR 2)) as PW.
    assert (CE : ceiling (Rabs 2) = 2%nat) by (apply (ceiling_Z 2)). rewrite CE in PW.
    specialize (PW ltac:(rewrite Rpow_std_2; apply (sz_mul 2 2); exact (cb_sz _ _ _ _ T')) ltac:(lia) ltac:(lia)).
    div A2 PW DD. done D DD.
  Qed.
  Lemma g_exp : sz 100 (exp x) -> good p p (k_exp N X) (k_exp Rops x).
  Proof.
    intros S. assert (F : cb p 100 (o_exp N X) (exp x)) by (rewrite X_is; apply cb_after; [exact S|lia|lia|lia]). done F F.
  Qed.
  Lemma g_log : sz 100 x -> good 1 3 (k_log N X) (k_log Rops x).
  Proof. intros Sx. pose proof (cb_X _ Sx) as A. div cb_Z1 A D. neg D D'. mul D' D DD. done D DD. Qed.
  Lemma log_of b d : 0 < b -> sz d (ln b) -> (d <= 1020)%Z -> cb p d (o_log N (Some (b, 0%nat))) (ln b).
  Proof.
    intros Pb S L. cbn [N Nops o_log count1]. unfold positive. apply Rltb_true in Pb. rewrite Pb. cbn [andb Nat.eqb].
    apply cb_after; [exact S|exact L|lia|lia].
  Qed.
  Lemma g_logb b : 0 < b -> sz 100 (ln b) -> sz 100 x -> good (p + 2) (p + 3) (k_logb N (Some (b, 0%nat)) X) (k_logb Rops b x).
  Proof.
    intros Pb S Sx. pose proof (cb_X _ Sx) as A. pose proof (log_of _ _ Pb S ltac:(lia)) as L.
    mul A L T. div cb_Z1 T D. neg D D'. div D' A DD. done D DD.
  Qed.
  Lemma g_log2 : sz 100 x -> good (p + 2) (p + 3) (k_log2 N X) (k_log2 Rops x).
  Proof.
    intros Sx. pose proof (cb_X _ Sx) as A. pose proof (log_of 2 _ ltac:(lra) ln2_size ltac:(lia)) as L.
    mul A L T. div cb_Z1 T D. neg D D'. div D' A DD. done D DD.
  Qed.
  Lemma g_log10 : sz 100 x -> good (p + 2) (p + 3) (k_log10 N X) (k_log10 Rops x).
  Proof.
    intros Sx. pose proof (cb_X _ Sx) as A. pose proof (log_of 10 _ ltac:(lra) ln10_size ltac:(lia)) as L.
    mul A L T. div cb_Z1 T D. neg D D'. div D' A DD. done D DD.
  Qed.
  Lemma g_sdiv t b : cb 0 100 t b -> sz 100 x -> good (p + 1) (p + 1) (k_sdiv N t X) (k_sdiv Rops b x).
  Proof.
    intros B Sx. pose proof (cb_X _ Sx) as A. pose proof (sz_mul _ _ _ _ Sx Sx) as S2. pose proof (sz_mul _ _ _ _ S2 Sx) as S3.
    pose proof (cb_pow p _ _ 200 _ _ _ _ _ A cb_Z2 (is_int_IZR 2)) as P2. specialize (P2 ltac:(rewrite Rpow_std_2; exact S2) ltac:(lia) ltac:(lia)).
    pose proof (cb_pow p _ _ 300 _ _ _ _ _ A cb_Z3 (is_int_IZR 3)) as P3. specialize (P3 ltac:(rewrite Rpow_std_3; exact S3) ltac:(lia) ltac:(lia)).
    neg B B'. div B' P2 D. mull 2%Z B B2. div B2 P3 DD. done D DD.
  Qed.
  Lemma near_IZR z : (Z.abs z <= 2 ^ 53)%Z -> near64 (IZR z) = IZR z.
  Proof. intros H. apply near_Z, H. Qed.
  Lemma sz_int z : (Z.abs z <= 2 ^ 51)%Z -> z <> 0%Z -> sz 60 (IZR z).
  Proof.
    intros H H0. apply sz_Z. split.
    - apply Rle_trans with 1; [apply (bpow_le radix2 (- (60)) 0); lia|]. apply IZR_le. lia.
    - apply Rle_trans with (IZR (2 ^ 51)); [apply IZR_le, H|]. change 2%Z with (radix_val radix2). rewrite IZR_Zpower by lia. apply bpow_le. lia.
  Qed.
  Lemma g_pow z : x <> 0 -> (Z.abs z <= 2 ^ 50)%Z -> z <> 0%Z -> z <> 1%Z -> z <> 2%Z ->
    sz 100 (Rpow_std x (IZR z - 1)) -> sz 100 (Rpow_std x (IZR z - 2)) -> good (p + 1) (p + 2) (k_pow N (Some (IZR z, 0%nat)) X) (k_pow Rops (IZR z) x).
  Proof.
    intros X0 H H0 H1 H2 S1 S2.
    assert (B : cb 0 60 (Some (IZR z, 0%nat)) (IZR z)) by (exists 0%nat; split; [reflexivity|split; [lia|apply sz_int; lia]]).
    assert (E1 : IZR z - 1 = IZR (z - 1)) by (rewrite minus_IZR; reflexivity). assert (E2 : IZR z - 2 = IZR (z - 2)) by (rewrite minus_IZR; reflexivity).
    destruct (cb_sub_exact p _ _ 60 _ _ _ _ B cb_Z1 ltac:(rewrite E1; apply sz_int; lia) ltac:(lia)) as (_ & B1).
    destruct (cb_sub_exact p _ _ 60 _ _ _ _ B cb_Z2 ltac:(rewrite E2; apply sz_int; lia) ltac:(lia)) as (_ & B2).
    specialize (B1 ltac:(rewrite E1; apply near_IZR; lia)). specialize (B2 ltac:(rewrite E2; apply near_IZR; lia)).
    assert (PW : forall t y, cb 0 60 t y -> is_int y = true -> sz 100 (Rpow_std x y) -> cb p 100 (o_pow N X t) (Rpow_std x y)).
    { intros t y (k & -> & L & _) I S. replace k with 0%nat by lia. rewrite X_is. cbn [N Nops o_pow].
      assert (T : (Rltb 0 x || Rltb x 0 && is_int y)%bool = true).
      { rewrite I, andb_true_r. unfold Rltb. destruct (Rlt_dec 0 x); [reflexivity|]. destruct (Rlt_dec x 0); [reflexivity|]. exfalso. lra. }
      rewrite T. cbn [andb Nat.eqb]. apply cb_after; [exact S|lia|lia|lia]. }
    pose proof (PW _ _ B1 ltac:(rewrite E1; apply is_int_IZR) S1) as P1. pose proof (PW _ _ B2 ltac:(rewrite E2; apply is_int_IZR) S2) as P2.
    mul B P1 D. mul B1 B BB. mul BB P2 DD. done D DD.
  Qed.
End Functions.

Lemma exactly64_some w y : val64 w = y -> y <> 0 -> exactly64 w = Some (y, 0%nat).
Proof. intros <- H. unfold exactly64. destruct w; cbn [is_finite]; try reflexivity; exfalso; apply H; reflexivity. Qed.
Lemma calm_counts p u v : (p <= 100)%nat -> finite64 v -> calm (umap val64 u) (val64 v) ->
  exists k k', let J := jap_u (Nops p) (umap exactly64 u) (jvar (Nops p) 0 (exactly64 v)) in let JR := jap_u Rops (umap val64 u) (jvar Rops 0 (val64 v)) in
    jg J 0 = Some (jg JR 0%nat, k) /\ (k <= fst (roundings p u))%nat /\ hess J 0 0 = Some (hess JR 0 0, k') /\ (k' <= snd (roundings p u))%nat.
Proof.
  intros P Fv C. cbv zeta.
  destruct u; cbn [umap calm] in C; try contradiction C; cbn [umap jap_u roundings fst snd jf jvar]; apply good_jet; try lia.
  - destruct C as (X0 & (z & E & B & Z0 & Z1 & Z2) & M1 & M2). rewrite E in *.
    rewrite (exactly64_some _ _ E) by (apply IZR_neq; exact Z0). apply g_pow; assumption.
  - apply g_sqrt; tauto.
  - apply g_cbrt; tauto.
  - apply g_reciprocal; tauto.
  - apply g_cos; tauto.
  - apply g_sin; tauto.
  - apply g_tan; tauto.
  - apply g_acos; tauto.
  - apply g_asin; tauto.
  - apply g_atan; tauto.
  - apply g_cosh; tauto.
  - apply g_sinh; tauto.
  - apply g_tanh; tauto.
  - apply g_acosh; tauto.
  - apply g_asinh; tauto.
  - apply g_atanh; tauto.
  - apply g_exp; tauto.
  - apply g_log; tauto.
  - destruct C as (X0 & M & B & L). assert (B0 : val64 base <> 0) by lra. rewrite (exactly64_some _ _ eq_refl B0).
    apply g_logb; assumption.
  - apply g_log2; tauto.
  - apply g_log10; tauto.
  - destruct C as (M & A). rewrite (exactly64_some _ _ eq_refl (sz_nz 100 _ A)). apply (g_sdiv p P v Fv _ (val64 a)); [|exact M].
    exists 0%nat. split; [reflexivity|]. split; [lia|exact A].
Qed.
Lemma calm_domain u x : calm u x -> udom u x.
Proof.
  assert (NZ : forall y, moderate y -> y <> 0) by (intros y H; apply (sz_nz 100), H).
  assert (SQ : 2 * (x * x) <= 1 -> -1 < x < 1) by (intros H; nra).
  destruct u; cbn [calm udom]; try tauto; intros H; try (apply NZ; tauto); try (apply SQ; tauto).
  - destruct H as (H & (z & E & _) & _). right. left. split; [exact H|]. exists z. exact E.
  - destruct H as (H & _ & B & L). split; [exact H|]. split; [exact B|]. intros ->. apply (NZ _ L), ln_1.
Qed.

Lemma accurate_mono j k v y : (j <= k)%nat -> accurate_to j v y -> accurate_to k v y.
Proof. intros H (F & t & T & V). split; [exact F|]. exists t. split; [apply (factor_mono j); assumption|exact V]. Qed.

Lemma function_accuracy M p c v u : libm_good M p -> (p <= 100)%nat -> cfg_ok c -> c_ord c = 2%Z -> size_ok c 1 -> finite64 v ->
  calm (umap val64 u) (val64 v) ->
  exists r f g h l l', evaluate (b64ops M) c [v] (EU u (EVar 0)) = Ok r /\ shows c 1 r f g h /\
    is_derive (ureal (umap val64 u)) (val64 v) l /\ second_derivative (ureal (umap val64 u)) (val64 v) l' /\
    accurate_to (fst (roundings p u)) (g 0%nat) l /\ accurate_to (snd (roundings p u)) (h 0%nat 0%nat) l'.
Proof.
  intros LG P Hc O2 SO Fv C.
  destruct (relative_accuracy M p c [v] (EU u (EVar 0)) Hc SO) as
    (r & f & g & h & rN & fN & gN & hN & G & H & E & Sh & EN & SN & _ & A1 & A2).
  { cbn. lia. }
  { cbn [no_abs]. destruct u; cbn [umap calm] in C; try contradiction C; cbn; tauto. }
  { cbn [emap dom rev]. split; [exact I|]. apply calm_domain. exact C. }
  { exact LG. }
  destruct (calm_counts p u v P Fv C) as (k & k' & J1 & L1 & J2 & L2).
  destruct (evaluate_rep (Nops p) c (map exactly64 [v]) None (emap exactly64 (EU u (EVar 0))) Hc SO) as (rN' & EN' & RN); [cbn; lia|].
  rewrite EN in EN'. injection EN' as <-. pose proof (rep_shows _ _ _ _ RN) as SN'.
  cbn [emap jev map nth length] in SN', RN, SN, Sh. cbn [length] in A1, A2.
  destruct SN as (_ & _ & SG & SH), SN' as (_ & _ & SG' & SH').
  specialize (SG 0%nat ltac:(lia)). specialize (SG' 0%nat ltac:(lia)). rewrite SG in SG'. injection SG' as SG'.
  specialize (SH O2 0%nat 0%nat ltac:(lia) ltac:(lia)). specialize (SH' O2 0%nat 0%nat ltac:(lia) ltac:(lia)).
  rewrite SH in SH'. injection SH' as SH'.
  destruct (A1 0%nat ltac:(lia)) as (D1 & C1). destruct (A2 O2 0%nat 0%nat ltac:(lia) ltac:(lia)) as (D2 & C2).
  rewrite SG', J1 in C1. rewrite SH', J2 in C2. destruct C1 as (_ & C1), C2 as (_ & C2).
  exists r, f, g, h, (G 0%nat), (H 0%nat 0%nat). split; [exact E|]. split; [exact Sh|].
  split; [exact D1|]. split; [exact D2|]. split; [exact (accurate_mono _ _ _ _ L1 C1)|exact (accurate_mono _ _ _ _ L2 C2)].
Qed.
