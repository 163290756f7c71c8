(** Proofs about the ranges of quotients (C85). *)
From Coq Require Import ZArith List Bool Reals Lra Lia Psatz.
From Coquelicot Require Import Coquelicot.
From Flocq Require Import Core BinarySingleNaN.
From Verif Require Import Outcome Scalar Float64 Model Spec RealOps Deriv UDeriv ExprSpec ProgSpec Ops64 B64 Facts64 NumSpec FactsNum
  CreateRep OpsRep Kernels AccRep FactsLayout Expr Samples RangeSpec FactsRange FactsFma FactsRel FactsRelU FactsRelB FactsRelR DivSpec.
Import ListNotations.
Open Scope R_scope.

(** ** In range *)
Section Coefficients.
  Context (M : libm) (HM : powers_in_range M) (a b : b64) (l m : Z) (Fb : finite64 b) (Ua : upto m a).
  Context (Hl : (-335 <= l)%Z) (Hm : (-300 <= m <= 1000)%Z) (Hb : bpow radix2 l <= Rabs (val64 b) <= bpow radix2 335).
  Lemma l_top : (l <= 335)%Z.
  Proof. apply (le_bpow radix2). lra. Qed.
  Lemma pow_low k : (k = 2 \/ k = 3)%nat -> finite64 (m_pow M b (b64_of_Z (Z.of_nat k))) /\
    bpow radix2 (Z.of_nat k * l - 1) <= Rabs (val64 (m_pow M b (b64_of_Z (Z.of_nat k)))).
  Proof.
    intros K. pose proof l_top as LT. assert (P : power_in_range M k) by (destruct HM, K; subst; assumption).
    destruct (P b Fb) as (C & _). set (e := Rabs (val64 b) ^ k) in C.
    assert (B : bpow radix2 (Z.of_nat k * l) <= e <= bpow radix2 (Z.of_nat k * 335)).
    { assert (Q : forall z, bpow radix2 (Z.of_nat k * z) = bpow radix2 z ^ k).
      { intros z. destruct K as [-> | ->]; cbn [pow Z.of_nat Pos.of_succ_nat]; rewrite Rmult_1_r, <- !bpow_plus; f_equal; lia. }
      rewrite !Q. split; apply pow_incr; (split; [|apply Hb]); [apply bpow_ge_0|apply Rabs_pos]. }
    destruct C as (F & L & _).
    { split; [eapply Rle_trans; [apply (bpow_le radix2 (-1020) (Z.of_nat k * l)); lia|apply B]|].
      eapply Rle_trans; [apply B|apply bpow_le; lia]. }
    split; [exact F|]. pose proof (two_bp (Z.of_nat k * l - 1)) as T. replace (Z.of_nat k * l - 1 + 1)%Z with (Z.of_nat k * l)%Z in T by lia. lra.
  Qed.
  Lemma one_upto : upto 0 (b64_of_Z 1).
  Proof. destruct (of_Z_exact 1 ltac:(lia)) as (F & V). split; [exact F|]. rewrite V, Rabs_R1. cbn. lra. Qed.
  Lemma m1_upto : upto 0 (b64_of_Z (-1)).
  Proof. destruct (of_Z_exact (-1) ltac:(lia)) as (F & V). split; [exact F|]. rewrite V, Rabs_left by lra. cbn. lra. Qed.
  (** [w]: bound for 1 and [a / b]. *)
  Context (w : Z) (Hw : (0 <= w <= 1000)%Z) (Hw' : (m - l <= w)%Z) (Hw2 : (w - l <= 1000)%Z) (Hw3 : (w - 2 * l <= 1000)%Z).
  Lemma c_da : upto (w - l + 1) (b64_div (b64_of_Z 1) b).
  Proof. pose proof l_top. eapply (ud _ _ 0 l); [apply one_upto|exact Fb|apply Hb|lia|lia]. Qed.
  Lemma c_db : upto (w - l + 1) (b64_div (b64_neg a) (m_pow M b (b64_of_Z 2))).
  Proof.
    pose proof l_top. destruct (pow_low 2 ltac:(auto)) as (F & L). cbn [Z.of_nat Pos.of_succ_nat Pos.succ] in F, L.
    apply (upto_le (m - (2 * l - 1))); [|lia]. eapply (ud _ _ m (2 * l - 1)); [apply upto_neg, Ua|exact F|exact L|lia|lia].
  Qed.
  Lemma c_dab : upto (w - 2 * l + 2) (b64_div (b64_of_Z (-1)) (m_pow M b (b64_of_Z 2))).
  Proof.
    pose proof l_top. destruct (pow_low 2 ltac:(auto)) as (F & L). cbn [Z.of_nat Pos.of_succ_nat Pos.succ] in F, L.
    apply (upto_le (0 - (2 * l - 1))); [|lia]. eapply (ud _ _ 0 (2 * l - 1)); [apply m1_upto|exact F|exact L|lia|lia].
  Qed.
  Lemma c_dbb : upto (w - 2 * l + 2) (b64_div (b64_mul (b64_of_Z 2) a) (m_pow M b (b64_of_Z 3))).
  Proof.
    pose proof l_top. destruct (pow_low 3 ltac:(auto)) as (F & L). cbn [Z.of_nat Pos.of_succ_nat Pos.succ] in F, L.
    set (m' := Z.max m (3 * l - 1000)). assert (Ua' : upto m' a) by (apply (upto_le m); [exact Ua|lia]).
    assert (U : upto (1 + m') (b64_mul (b64_of_Z 2) a)) by (apply upto_mul; [exact two_upto|exact Ua'|lia]).
    apply (upto_le (1 + m' - (3 * l - 1))); [|lia]. eapply (ud _ _ (1 + m') (3 * l - 1)); [exact U|exact F|exact L|lia|lia].
  Qed.
  Lemma c_f : upto w (b64_div a b).
  Proof. pose proof l_top. eapply (ud _ _ m l); [exact Ua|exact Fb|apply Hb|lia|lia]. Qed.
  Lemma c_f' : upto w (b64_mul a (b64_div (b64_of_Z 1) b)).
  Proof. pose proof l_top. eapply (um _ _ m (0 - l)); [exact Ua|eapply (ud _ _ 0 l); [apply one_upto|exact Fb|apply Hb|lia|lia]|lia|lia]. Qed.
End Coefficients.

Section CombineDiv.
  Context (M : libm) (ord : Z) (n : nat) (q p d : Z) (J K : jet b64) (f da db dab dbb : b64).
  Hypothesis (Hq : (0 <= q)%Z) (Hp : (-500 <= p)%Z) (Hd : (-700 <= d)%Z) (Hpq : (p + q <= 1010)%Z) (Hdq : (d + 2 * q <= 1010)%Z).
  Hypothesis (Ha : upto p da) (Hb : upto p db) (Hab : upto d dab) (Hbb : upto d dbb).
  Hypothesis (DJ : data_upto ord n q (jg J) (hess J)) (DK : data_upto ord n q (jg K) (hess K)).
  Lemma combine_div : let r := jb (b64ops M) f (CVal da) (CVal db) CZero (CVal dab) (CVal dbb) J K in data_finite ord n (jg r) (hess r).
  Proof.
    destruct DJ as (GJ & HJ), DK as (GK & HK). split.
    - intros i Hi. cbn. specialize (GJ i Hi). specialize (GK i Hi).
      eapply (ua _ _ (p + q) (p + q) (p + q + 1)); [eapply um; [exact Ha|exact GJ|lia|lia]|eapply um; [exact Hb|exact GK|lia|lia]|lia|lia|lia].
    - intros Ho i j Hi Hj. unfold hess. cbn.
      set (i' := Nat.min i j). set (j' := Nat.max i j).
      assert (Hi' : (i' < n)%nat) by (subst i' j'; lia). assert (Hj' : (j' < n)%nat) by (subst i' j'; lia).
      specialize (HJ Ho i j Hi Hj). specialize (HK Ho i j Hi Hj). unfold hess in HJ, HK. fold i' j' in HJ, HK.
      pose proof (GJ i' Hi') as A. pose proof (GK i' Hi') as A'. pose proof (GJ j' Hj') as B. pose proof (GK j' Hj') as B'.
      assert (BASE : upto 1022 (b64_add (b64_mul da (jh J i' j')) (b64_mul db (jh K i' j')))).
      { apply (ua _ _ (p + q) (p + q) 1022); [eapply um; [exact Ha|exact HJ|lia|lia]|eapply um; [exact Hb|exact HK|lia|lia]|lia|lia|lia]. }
      apply (ua _ _ 1022 (d + 2 * q + 2) 1023); [exact BASE| |lia|lia|lia].
      apply (ua _ _ (d + 2 * q) (d + 2 * q + 1)); [| |lia|lia|lia].
      + eapply um; [eapply (um _ _ _ _ (d + q)); [exact Hab|exact A'|lia|lia]|exact B|lia|lia].
      + eapply um; [|exact B'| |lia].
        * apply (ua _ _ (d + q) (d + q) (d + q + 1)); [eapply um; [exact Hab|exact A|lia|lia]|eapply um; [exact Hbb|exact A'|lia|lia]|lia|lia|lia].
        * lia.
  Qed.
End CombineDiv.
Lemma combine_unary M ord n q p d J f da daa : (0 <= q)%Z -> (-500 <= p)%Z -> (-700 <= d)%Z -> (p + q <= 1010)%Z -> (d + 2 * q <= 1010)%Z ->
  upto p da -> upto d daa -> data_upto ord n q (jg J) (hess J) ->
  let r := ju (b64ops M) f (CVal da) (CVal daa) J in data_finite ord n (jg r) (hess r).
Proof.
  intros Hq Hp Hd Hpq Hdq Ha Haa (GJ & HJ). split.
  - intros i Hi. cbn. eapply (um _ _ _ _ 1020); [exact Ha|apply GJ, Hi|lia|lia].
  - intros Ho i j Hi Hj. unfold hess. cbn. specialize (HJ Ho i j Hi Hj). unfold hess in HJ.
    apply (ua _ _ 1022 (d + 2 * q) 1023); [eapply um; [exact Ha|exact HJ|lia|lia]| |lia|lia|lia].
    eapply um; [eapply (um _ _ _ _ (d + q)); [exact Haa|apply GJ; lia|lia|lia]|apply GJ; lia|lia|lia].
Qed.

Lemma div_range M c n x y a b g g' h h' l m q : powers_in_range M -> cfg_ok c ->
  shows c n x a g h -> shows c n y b g' h' -> upto m a -> finite64 b -> bpow radix2 l <= Rabs (val64 b) <= bpow radix2 335 ->
  (-335 <= l)%Z -> (-300 <= m <= 1000)%Z -> (0 <= q)%Z ->
  let w := Z.max 0 (m - l) in (w <= 1000)%Z -> (w - l + q <= 1000)%Z -> (w - 2 * l + 2 * q <= 1000)%Z ->
  data_upto (c_ord c) n q g h -> data_upto (c_ord c) n q g' h' ->
  (exists r f G H, div (b64ops M) c x y = Ok r /\ shows c n r f G H /\ finite64 f /\ data_finite (c_ord c) n G H) /\
  (exists r f G H, div_assign (b64ops M) c x (Some y) = Ok r /\ shows c n r f G H /\ finite64 f /\ data_finite (c_ord c) n G H) /\
  (exists r f G H, apply_u (b64ops M) c (Usdiv a) y = Ok r /\ shows c n r f G H /\ finite64 f /\ data_finite (c_ord c) n G H).
Proof.
  intros HM Hc Hx Hy Ua Fb Hb Hl Hm Hq w W1 W2 W3 Dx Dy. pose proof (l_top b l Hb) as LT.
  pose proof (shows_rep _ _ _ _ _ _ Hc Hx) as HJ. pose proof (shows_rep _ _ _ _ _ _ Hc Hy) as HK.
  assert (DX : data_upto (c_ord c) n q (jg (mkjet a g h)) (hess (mkjet a g h))) by (eapply data_hess; eauto).
  assert (DY : data_upto (c_ord c) n q (jg (mkjet b g' h')) (hess (mkjet b g' h'))) by (eapply data_hess; eauto).
  assert (Hw : (0 <= w <= 1000)%Z) by lia. assert (Hw' : (m - l <= w)%Z) by lia. assert (Hw2 : (w - l <= 1000)%Z) by lia. assert (Hw3 : (w - 2 * l <= 1000)%Z) by lia.
  assert (C1 : upto (w - l + 1) (b64_div (b64_of_Z 1) b)) by (apply (c_da b l Fb); assumption || lia).
  assert (C2 : upto (w - l + 1) (b64_div (b64_neg a) (m_pow M b (b64_of_Z 2)))) by (apply (c_db M HM a b l m); assumption || lia).
  assert (C3 : upto (w - 2 * l + 2) (b64_div (b64_of_Z (-1)) (m_pow M b (b64_of_Z 2)))) by (eapply c_dab; try eassumption; lia).
  assert (C4 : upto (w - 2 * l + 2) (b64_div (b64_mul (b64_of_Z 2) a) (m_pow M b (b64_of_Z 3)))) by (apply (c_dbb M HM a b l m); assumption || lia).
  assert (C5 : upto w (b64_div a b)) by (apply (c_f a b l m); assumption || lia).
  assert (C6 : upto w (b64_mul a (b64_div (b64_of_Z 1) b))) by (apply (c_f' a b l m); assumption || lia).
  split; [|split].
  - destruct (apply_b_rep (b64ops M) c Hc n _ _ x y Bdiv HJ HK) as (r & E & R). apply rep_shows in R.
    exists r. do 3 eexists. split; [exact E|]. split; [exact R|]. split; [exact (proj1 C6)|].
    apply (combine_div M (c_ord c) n q (w - l + 1) (w - 2 * l + 2)); try assumption; lia.
  - destruct (div_assign_rep (b64ops M) c Hc n _ _ x y HJ HK) as (r & E & R). apply rep_shows in R.
    exists r. do 3 eexists. split; [exact E|]. split; [exact R|]. split; [exact (proj1 C5)|].
    apply (combine_div M (c_ord c) n q (w - l + 1) (w - 2 * l + 2)); try assumption; lia.
  - destruct (apply_u_rep (b64ops M) c Hc n _ y (Usdiv a) HK) as (r & E & R). apply rep_shows in R.
    exists r. do 3 eexists. split; [exact E|]. split; [exact R|]. split; [exact (proj1 C5)|].
    apply (combine_unary M (c_ord c) n q (w - l + 1) (w - 2 * l + 2)); try assumption; lia.
Qed.

(** ** Tiny denominators *)
Lemma lost_mul_l (a b : b64) : lost64 a -> lost64 (b64_mul a b).
Proof. unfold lost64. destruct a as [s|s| |s m e B], b as [t|t| |t m' e' B']; try discriminate; intros _; reflexivity. Qed.
Lemma lost_add_l (a b : b64) : lost64 a -> lost64 (b64_add a b).
Proof. unfold lost64. destruct a as [s|s| |s m e B], b as [t|t| |t m' e' B']; try discriminate; intros _; try reflexivity. destruct s, t; reflexivity. Qed.
Lemma lost_add_r (a b : b64) : lost64 b -> lost64 (b64_add a b).
Proof. rewrite b64_add_comm. apply lost_add_l. Qed.
Lemma over_zero (a b : b64) : zero64 b -> lost64 (b64_div a b).
Proof. intros (s & ->). destruct a as [t|t| |t m e B]; reflexivity. Qed.
Lemma tiny_power M b k e : power_in_range M k -> finite64 b -> Rabs (val64 b) <= bpow radix2 e -> (Z.of_nat k * e <= -1076)%Z ->
  zero64 (m_pow M b (b64_of_Z (Z.of_nat k))).
Proof.
  intros P Fb Hb He. apply (P b Fb). apply Rle_trans with (bpow radix2 (Z.of_nat k * e)); [|apply bpow_le; lia].
  clear - Hb. induction k as [|k IH]; [apply Rle_refl|]. rewrite Nat2Z.inj_succ. replace (Z.succ (Z.of_nat k) * e)%Z with (e + Z.of_nat k * e)%Z by lia.
  rewrite bpow_plus. cbn [pow]. apply Rmult_le_compat; [apply Rabs_pos|apply pow_le, Rabs_pos|exact Hb|exact IH].
Qed.
Lemma huge_power M b k e : power_in_range M k -> finite64 b -> bpow radix2 e <= Rabs (val64 b) -> (1024 <= Z.of_nat k * e)%Z ->
  inf64 (m_pow M b (b64_of_Z (Z.of_nat k))).
Proof.
  intros P Fb Hb He. apply (P b Fb). apply Rle_trans with (bpow radix2 (Z.of_nat k * e)); [apply bpow_le; lia|].
  clear - Hb. induction k as [|k IH]; [apply Rle_refl|]. rewrite Nat2Z.inj_succ. replace (Z.succ (Z.of_nat k) * e)%Z with (e + Z.of_nat k * e)%Z by lia.
  rewrite bpow_plus. cbn [pow]. apply Rmult_le_compat; [apply bpow_ge_0|apply bpow_ge_0|exact Hb|exact IH].
Qed.
Lemma div_tiny M c n x y a b g g' h h' : powers_in_range M -> cfg_ok c ->
  shows c n x a g h -> shows c n y b g' h' -> finite64 b -> Rabs (val64 b) <= bpow radix2 (-359) ->
  let ruined G H := (forall i j : nat, lost64 (H i j)) /\ (Rabs (val64 b) <= bpow radix2 (-538) -> forall i : nat, lost64 (G i)) in
  (exists r f G H, div (b64ops M) c x y = Ok r /\ shows c n r f G H /\ ruined G H) /\
  (exists r f G H, div_assign (b64ops M) c x (Some y) = Ok r /\ shows c n r f G H /\ ruined G H) /\
  (exists r f G H, apply_u (b64ops M) c (Usdiv a) y = Ok r /\ shows c n r f G H /\ ruined G H).
Proof.
  intros (P2 & P3) Hc Hx Hy Fb Hb ruined.
  pose proof (shows_rep _ _ _ _ _ _ Hc Hx) as HJ. pose proof (shows_rep _ _ _ _ _ _ Hc Hy) as HK.
  pose proof (tiny_power M b 3 (-359) P3 Fb Hb ltac:(lia)) as Z3. pose proof (fun B => tiny_power M b 2 (-538) P2 Fb B ltac:(lia)) as Z2.
  cbn [Z.of_nat Pos.of_succ_nat Pos.succ] in Z3, Z2.
  assert (L3 : forall v, lost64 (b64_div v (m_pow M b (b64_of_Z 3)))) by (intros v; apply over_zero, Z3).
  assert (L2 : forall v, Rabs (val64 b) <= bpow radix2 (-538) -> lost64 (b64_div v (m_pow M b (b64_of_Z 2)))) by (intros v B; apply over_zero, Z2, B).
  split; [|split].
  - destruct (apply_b_rep (b64ops M) c Hc n _ _ x y Bdiv HJ HK) as (r & E & R). apply rep_shows in R.
    exists r. do 3 eexists. split; [exact E|]. split; [exact R|]. split.
    + intros i j. unfold hess. cbn. apply lost_add_r, lost_add_r, lost_mul_l, lost_add_r, lost_mul_l, L3.
    + intros B i. cbn. apply lost_add_r, lost_mul_l, L2, B.
  - destruct (div_assign_rep (b64ops M) c Hc n _ _ x y HJ HK) as (r & E & R). apply rep_shows in R.
    exists r. do 3 eexists. split; [exact E|]. split; [exact R|]. split.
    + intros i j. unfold hess. cbn. apply lost_add_r, lost_add_r, lost_mul_l, lost_add_r, lost_mul_l, L3.
    + intros B i. cbn. apply lost_add_r, lost_mul_l, L2, B.
  - destruct (apply_u_rep (b64ops M) c Hc n _ y (Usdiv a) HK) as (r & E & R). apply rep_shows in R.
    exists r. do 3 eexists. split; [exact E|]. split; [exact R|]. split.
    + intros i j. unfold hess. cbn. apply lost_add_r, lost_mul_l, lost_mul_l, L3.
    + intros B i. cbn. apply lost_mul_l, L2, B.
Qed.
(** ** Huge denominators *)
Lemma div_huge M c n x y a b g g' h h' : powers_in_range M -> cfg_ok c ->
  shows c n x a g h -> shows c n y b g' h' -> finite64 a -> finite64 b -> bpow radix2 512 <= Rabs (val64 b) ->
  (forall i, (i < n)%nat -> zero64 (g i) /\ finite64 (g' i)) ->
  (exists r f G H, div (b64ops M) c x y = Ok r /\ shows c n r f G H /\ forall i, (i < n)%nat -> zero64 (G i)) /\
  (exists r f G H, div_assign (b64ops M) c x (Some y) = Ok r /\ shows c n r f G H /\ forall i, (i < n)%nat -> zero64 (G i)) /\
  (exists r f G H, apply_u (b64ops M) c (Usdiv a) y = Ok r /\ shows c n r f G H /\ forall i, (i < n)%nat -> zero64 (G i)).
Proof.
  intros (P2 & P3) Hc Hx Hy Fa Fb Hb Hg.
  pose proof (shows_rep _ _ _ _ _ _ Hc Hx) as HJ. pose proof (shows_rep _ _ _ _ _ _ Hc Hy) as HK.
  destruct (huge_power M b 2 512 P2 Fb Hb ltac:(lia)) as (t & I2). cbn [Z.of_nat Pos.of_succ_nat Pos.succ] in I2.
  destruct (neg_ok a Fa) as (Fn & _). pose proof (over_inf (b64_neg a) t Fn) as ZD. rewrite <- I2 in ZD.
  assert (FD : finite64 (b64_div (b64_of_Z 1) b)).
  { assert (U : upto 0 (b64_div (b64_of_Z 1) b)) by (eapply (ud _ _ 0 512); [apply one_upto|exact Fb|exact Hb|lia|lia]). apply U. }
  assert (G2 : forall i, (i < n)%nat -> zero64 (b64_add (b64_mul (b64_div (b64_of_Z 1) b) (g i)) (b64_mul (b64_div (b64_neg a) (m_pow M b (b64_of_Z 2))) (g' i)))).
  { intros i Hi. destruct (Hg i Hi) as (Z & F). apply zero_add; [apply zero_mul_r; assumption|apply zero_mul_l; assumption]. }
  split; [|split].
  - destruct (apply_b_rep (b64ops M) c Hc n _ _ x y Bdiv HJ HK) as (r & E & R). apply rep_shows in R.
    exists r. do 3 eexists. split; [exact E|]. split; [exact R|]. exact G2.
  - destruct (div_assign_rep (b64ops M) c Hc n _ _ x y HJ HK) as (r & E & R). apply rep_shows in R.
    exists r. do 3 eexists. split; [exact E|]. split; [exact R|]. exact G2.
  - destruct (apply_u_rep (b64ops M) c Hc n _ y (Usdiv a) HK) as (r & E & R). apply rep_shows in R.
    exists r. do 3 eexists. split; [exact E|]. split; [exact R|]. intros i Hi. destruct (Hg i Hi) as (_ & F). apply zero_mul_l; [exact ZD|exact F].
Qed.
(** From [2^342] on [pow(b, 3)] overflows: no second derivative through the denominator is left. *)
Lemma div_flat M c n x y a b g g' h h' : powers_in_range M -> cfg_ok c -> c_ord c = 2%Z ->
  shows c n x a g h -> shows c n y b g' h' -> upto 1000 a -> finite64 b -> bpow radix2 342 <= Rabs (val64 b) <= bpow radix2 510 ->
  (forall i, (i < n)%nat -> zero64 (g i) /\ finite64 (g' i)) -> (forall i j, (i < n)%nat -> (j < n)%nat -> zero64 (h i j) /\ zero64 (h' i j)) ->
  (exists r f G H, div (b64ops M) c x y = Ok r /\ shows c n r f G H /\ forall i j, (i < n)%nat -> (j < n)%nat -> zero64 (H i j)) /\
  (exists r f G H, div_assign (b64ops M) c x (Some y) = Ok r /\ shows c n r f G H /\ forall i j, (i < n)%nat -> (j < n)%nat -> zero64 (H i j)) /\
  (exists r f G H, apply_u (b64ops M) c (Usdiv a) y = Ok r /\ shows c n r f G H /\ forall i j, (i < n)%nat -> (j < n)%nat -> zero64 (H i j)).
Proof.
  intros (P2 & P3) Hc Ho Hx Hy Ua Fb (Hb & Hb') Hg Hh.
  pose proof (shows_rep _ _ _ _ _ _ Hc Hx) as HJ. pose proof (shows_rep _ _ _ _ _ _ Hc Hy) as HK.
  destruct (huge_power M b 3 342 P3 Fb Hb ltac:(lia)) as (t & I3). cbn [Z.of_nat Pos.of_succ_nat Pos.succ] in I3.
  assert (F2a : finite64 (b64_mul (b64_of_Z 2) a)) by (apply (um _ _ 1 1000 1001 two_upto Ua); lia).
  pose proof (over_inf _ t F2a) as ZD. rewrite <- I3 in ZD.
  assert (Q2 : finite64 (m_pow M b (b64_of_Z 2)) /\ bpow radix2 683 <= Rabs (val64 (m_pow M b (b64_of_Z 2)))).
  { destruct (P2 b Fb) as (C & _). cbn [Z.of_nat Pos.of_succ_nat Pos.succ] in C. cbv zeta in C. set (e := Rabs (val64 b) ^ 2) in C.
    assert (B : bpow radix2 684 <= e <= bpow radix2 1020).
    { change 684%Z with (342 + 342)%Z. change 1020%Z with (510 + 510)%Z. rewrite !bpow_plus. unfold e. cbn [pow]. rewrite Rmult_1_r.
      split; apply Rmult_le_compat; try apply bpow_ge_0; try apply Rabs_pos; assumption. }
    destruct C as (F & L & _). { split; [|apply B]. eapply Rle_trans; [|apply B]. apply bpow_le. lia. }
    split; [exact F|]. pose proof (two_bp 683) as T. change (683 + 1)%Z with 684%Z in T. lra. }
  destruct Q2 as (F2 & L2).
  assert (FDA : finite64 (b64_div (b64_of_Z 1) b)).
  { assert (U : upto 0 (b64_div (b64_of_Z 1) b)) by (eapply (ud _ _ 0 342); [apply one_upto|exact Fb|exact Hb|lia|lia]). apply U. }
  assert (FDB : finite64 (b64_div (b64_neg a) (m_pow M b (b64_of_Z 2)))).
  { assert (U : upto 1000 (b64_div (b64_neg a) (m_pow M b (b64_of_Z 2)))) by (eapply (ud _ _ 1000 683); [apply upto_neg, Ua|exact F2|exact L2|lia|lia]). apply U. }
  assert (FDAB : upto 0 (b64_div (b64_of_Z (-1)) (m_pow M b (b64_of_Z 2)))) by (eapply (ud _ _ 0 683); [apply m1_upto|exact F2|exact L2|lia|lia]).
  assert (UP : forall v : b64, finite64 v -> finite64 (b64_mul (b64_div (b64_of_Z (-1)) (m_pow M b (b64_of_Z 2))) v)).
  { intros v Fv. assert (U : upto (-683) (b64_div (b64_of_Z (-1)) (m_pow M b (b64_of_Z 2)))) by (eapply (ud _ _ 0 683); [apply m1_upto|exact F2|exact L2|lia|lia]).
    assert (V : upto 1024 v).
    { split; [exact Fv|]. left. apply (abs_B2R_lt_emax prec64 emax64 v). }
    eapply (um _ _ (-683) 1024 400); [exact U|exact V|lia|lia]. }
  assert (HF : forall f i j, (i < n)%nat -> (j < n)%nat ->
    zero64 (hess (jb (b64ops M) f (CVal (b64_div (b64_of_Z 1) b)) (CVal (b64_div (b64_neg a) (m_pow M b (b64_of_Z 2)))) CZero
      (CVal (b64_div (b64_of_Z (-1)) (m_pow M b (b64_of_Z 2)))) (CVal (b64_div (b64_mul (b64_of_Z 2) a) (m_pow M b (b64_of_Z 3)))) (mkjet a g h) (mkjet b g' h')) i j)).
  { intros f i j Hi Hj. unfold hess. cbn. set (i' := Nat.min i j). set (j' := Nat.max i j).
    assert (Hi' : (i' < n)%nat) by (subst i' j'; lia). assert (Hj' : (j' < n)%nat) by (subst i' j'; lia).
    destruct (Hg i' Hi') as (Zi & Fi), (Hg j' Hj') as (Zj & Fj), (Hh i' j' Hi' Hj') as (Z1 & Z2).
    apply zero_add; [apply zero_add; apply zero_mul_r; assumption|].
    apply zero_add; [apply zero_mul_r; [apply UP, Fi|exact Zj]|].
    apply zero_mul_l; [|exact Fj]. apply zero_add; [apply zero_mul_r; [apply FDAB|exact Zi]|apply zero_mul_l; assumption]. }
  split; [|split].
  - destruct (apply_b_rep (b64ops M) c Hc n _ _ x y Bdiv HJ HK) as (r & E & R). apply rep_shows in R.
    exists r. do 3 eexists. split; [exact E|]. split; [exact R|]. apply HF.
  - destruct (div_assign_rep (b64ops M) c Hc n _ _ x y HJ HK) as (r & E & R). apply rep_shows in R.
    exists r. do 3 eexists. split; [exact E|]. split; [exact R|]. apply HF.
  - destruct (apply_u_rep (b64ops M) c Hc n _ y (Usdiv a) HK) as (r & E & R). apply rep_shows in R.
    exists r. do 3 eexists. split; [exact E|]. split; [exact R|]. intros i j Hi Hj. unfold hess. cbn. set (i' := Nat.min i j). set (j' := Nat.max i j).
    assert (Hi' : (i' < n)%nat) by (subst i' j'; lia). assert (Hj' : (j' < n)%nat) by (subst i' j'; lia).
    destruct (Hg i' Hi') as (Zi & Fi), (Hg j' Hj') as (Zj & Fj), (Hh i' j' Hi' Hj') as (Z1 & Z2).
    apply zero_add; [apply zero_mul_r; assumption|apply zero_mul_l; [apply zero_mul_l; assumption|exact Fj]].
Qed.
(** The exact derivatives. *)
Lemma quotient_derivatives a b : b <> 0 -> is_derive (fun y => a / y) b (- a / (b * b)) /\ is_derive_n (fun y => a / y) 2 b (2 * a / (b * b * b)).
Proof.
  intros N. split; [auto_derive; [exact N|field; exact N]|].
  apply (is_derive_ext_loc (fun y => - a / (y * y))).
  - generalize (open_nz b N). apply filter_imp. intros y Hy. symmetry. apply is_derive_unique. auto_derive; [exact Hy|field; exact Hy].
  - auto_derive; [apply Rmult_integral_contrapositive_currified; exact N|]. field. exact N.
Qed.
(** ** A library that meets the hypothesis *)
Lemma Rpow_std_abs x k : x <> 0 -> Rabs (Rpow_std x (IZR (Z.of_nat k))) = Rabs x ^ k.
Proof. intros N. rewrite Rpow_std_Z by exact N. rewrite <- pow_powerRZ. symmetry. apply RPow_abs. Qed.
Lemma of_real_over r : bpow radix2 1024 <= Rabs r -> inf64 (of_real r).
Proof.
  intros B. unfold of_real. set (q := near64 r).
  assert (Q : generic_format radix2 (FLT_exp (-1074) 53) q) by (apply generic_format_round; exact _).
  pose proof (binary_normalize_correct prec64 emax64 prec64_gt_0 prec64_lt_emax mode_NE
    (Ztrunc (scaled_mantissa radix2 (FLT_exp (-1074) 53) q)) (cexp radix2 (FLT_exp (-1074) 53) q) false) as HC.
  cbv zeta in HC. cbn [round_mode] in HC. unfold generic_format in Q. rewrite <- Q in HC.
  change (round radix2 (SpecFloat.fexp prec64 emax64) ZnearestE q) with (near64 q) in HC.
  assert (N : near64 q = q) by (apply near64_exact; apply generic_format_round; exact _). rewrite N in HC.
  rewrite Rlt_bool_false in HC by exact (near64_ge_bpow r 1024 ltac:(lia) B).
  eexists. apply of_SF_inf. exact HC.
Qed.
Lemma near_under r : Rabs r <= bpow radix2 (-1076) -> near64 r = 0.
Proof.
  intros B. rewrite near64_rnd. pose proof (bpow_gt_0 radix2 (-1074)). destruct (Req_dec r 0) as [->|N]; [apply round_0; exact _|].
  apply (round_N_small radix2 (FLT_exp (-1074) 53) (fun z => negb (Z.even z)) r (mag radix2 r)); [destruct (mag radix2 r) as (e & He); apply He, N|].
  unfold FLT_exp. assert (M : (mag radix2 r <= -1075)%Z).
  { apply mag_le_bpow; [exact N|]. eapply Rle_lt_trans; [exact B|]. apply bpow_lt. lia. }
  lia.
Qed.
Lemma Rpow_std_zero k : (0 < k)%nat -> Rpow_std 0 (IZR (Z.of_nat k)) = 0.
Proof.
  intros K. unfold Rpow_std. destruct (Rlt_dec 0 0); [lra|]. destruct (Req_EM_T 0 0); [|lra].
  assert (0 < IZR (Z.of_nat k)) by (apply IZR_lt; lia). destruct (Req_EM_T _ _); [lra|]. destruct (Rlt_dec _ _); reflexivity.
Qed.
Lemma zero_of_val (v : b64) : finite64 v -> val64 v = 0 -> zero64 v.
Proof.
  destruct v as [s| | |s m e B]; intros F V; try discriminate; [exists s; reflexivity|]. exfalso. unfold val64, B2R in V. apply eq_0_F2R in V. destruct s; discriminate V.
Qed.
Lemma exact_power k : (0 < k < 1000)%nat -> power_in_range exact_libm k.
Proof.
  intros K b Fb v e. assert (V : val64 (b64_of_Z (Z.of_nat k)) = IZR (Z.of_nat k)) by (apply of_Z_exact; rewrite Z.abs_eq by lia; change (2 ^ 53)%Z with 9007199254740992%Z; lia).
  assert (E : Rabs (Rpow_std (val64 b) (IZR (Z.of_nat k))) = e).
  { destruct (Req_dec (val64 b) 0) as [Z|N]; [|apply Rpow_std_abs, N]. unfold e. rewrite Z, Rpow_std_zero, Rabs_R0 by lia. rewrite pow_i by lia. reflexivity. }
  unfold v. cbn [exact_libm m_pow]. rewrite V. set (r := Rpow_std (val64 b) (IZR (Z.of_nat k))) in *. clearbody r. rewrite <- E. clear E.
  split; [|split].
  - intros (A & B).
    destruct (of_real_ok r) as (F & W). { eapply Rle_lt_trans; [apply near64_le_bpow with (e := 1020%Z); [lia|exact B]|]. apply bpow_lt; reflexivity. }
    split; [exact F|]. rewrite W. destruct (near64_rel r) as (d & D & N); [eapply Rle_trans; [|exact A]; apply bpow_le; lia|].
    rewrite N, Rabs_mult. pose proof u64_small. apply Rabs_le_inv in D. rewrite (Rabs_pos_eq (1 + d)) by lra. pose proof (Rabs_pos r). split; nra.
  - intros B. apply of_real_over, B.
  - intros B. pose proof (near_under r B) as N. destruct (of_real_ok r) as (F & W); [rewrite N, Rabs_R0; apply bpow_gt_0|].
    apply zero_of_val; [exact F|]. rewrite W. exact N.
Qed.
Lemma exact_powers : powers_in_range exact_libm.
Proof. split; apply exact_power; lia. Qed.
(** Numbers [2^e], for the cases beside the theorems. *)
Definition s400 : b64 := B754_finite false 4503599627370496 (-452) (eq_refl : SpecFloat.bounded prec64 emax64 4503599627370496 (-452) = true).
Definition t600 : b64 := B754_finite false 4503599627370496 548 (eq_refl : SpecFloat.bounded prec64 emax64 4503599627370496 548 = true).
Definition t1000 : b64 := B754_finite false 4503599627370496 948 (eq_refl : SpecFloat.bounded prec64 emax64 4503599627370496 948 = true).
Lemma two_52 e : F2R (Float radix2 4503599627370496 e) = bpow radix2 (52 + e).
Proof. unfold F2R. cbn [Fnum Fexp]. rewrite bpow_plus, (bpow_Z 52) by lia. reflexivity. Qed.
Lemma s400_val : val64 s400 = bpow radix2 (-400). Proof. exact (two_52 (-452)). Qed.
Lemma t600_val : val64 t600 = bpow radix2 600. Proof. exact (two_52 548). Qed.
Lemma t1000_val : val64 t1000 = bpow radix2 1000. Proof. exact (two_52 948). Qed.
Lemma shows_three v d : shows dyn2 1 (mk 1 (full [v; d; z64 0])) v (fun _ => d) (fun _ _ => z64 0).
Proof.
  split; [apply wf_list; [reflexivity|reflexivity|vm_compute; discriminate]|]. split; [reflexivity|].
  split; [intros [|i] Hi; [reflexivity|lia]|]. intros _ [|i] [|j] Hi Hj; try lia. reflexivity.
Qed.
Lemma tiny_exact : 2 * val64 s400 / (val64 s400 * val64 s400 * val64 s400) = bpow radix2 801.
Proof.
  rewrite s400_val. pose proof (bpow_gt_0 radix2 (-400)). replace 801%Z with (1 + (400 + 400))%Z by reflexivity. rewrite 2!bpow_plus.
  change (bpow radix2 400) with (bpow radix2 (- -400)). rewrite bpow_opp. replace (bpow radix2 1) with 2 by (cbn; lra). field. lra.
Qed.
Lemma huge_exact : - val64 t1000 / (val64 t600 * val64 t600) = - bpow radix2 (-200).
Proof.
  rewrite t1000_val, t600_val, <- bpow_plus. unfold Rdiv. rewrite <- bpow_opp, Ropp_mult_distr_l_reverse, <- bpow_plus. reflexivity.
Qed.
Definition t350 : b64 := B754_finite false 4503599627370496 298 (eq_refl : SpecFloat.bounded prec64 emax64 4503599627370496 298 = true).
Lemma t350_val : val64 t350 = bpow radix2 350. Proof. exact (two_52 298). Qed.
Lemma flat_exact : 2 * val64 t1000 / (val64 t350 * val64 t350 * val64 t350) = bpow radix2 (-49).
Proof.
  rewrite t1000_val, t350_val, <- !bpow_plus. change 2 with (bpow radix2 1). unfold Rdiv. rewrite <- bpow_opp, <- !bpow_plus. reflexivity.
Qed.
