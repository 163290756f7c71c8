(** C63: eval is exact for polynomials; C19: uniform approximation. *)
From Coq Require Import ZArith List Bool Reals Lra Lia.
From Coquelicot Require Import Coquelicot.
From Verif Require Import Outcome Scalar Model Spec Core Kernels OpsRep AccRep PadRep RealOps Deriv UDeriv BDeriv
  FactsLayout FactsOps ExprSpec Expr Struct FactsExpr FitSpec.
Import ListNotations.
Open Scope R_scope.
Open Scope res_scope.

Lemma poly_line n a b m p d t : poly n a b m (along p d t) =
  poly n a b m p + t * (rsum n (fun i => b i * d i) + rsum n (fun i => rsum n (fun j => m i j * p i * d j + m i j * d i * p j)))
  + t * t * rsum n (fun i => rsum n (fun j => m i j * d i * d j)).
Proof.
  unfold poly, along.
  rewrite (rsum_ext n (fun i => b i * (p i + t * d i)) (fun i => b i * p i + t * (b i * d i))) by (intros; ring).
  rewrite (rsum_ext n (fun i => rsum n (fun j => m i j * (p i + t * d i) * (p j + t * d j)))
    (fun i => rsum n (fun j => m i j * p i * p j) + t * rsum n (fun j => m i j * p i * d j + m i j * d i * p j) + t * t * rsum n (fun j => m i j * d i * d j))).
  2: { intros i _. rewrite <- !rsum_scal, <- !rsum_plus. apply rsum_ext. intros; ring. }
  rewrite !rsum_plus, !rsum_scal. ring.
Qed.


(** ** Second-order expansions along a line are unique *)
Definition peano2 (phi : R -> R) (a b c : R) : Prop := forall eps, 0 < eps ->
  exists d, 0 < d /\ forall t, Rabs t < d -> Rabs (phi t - (a + b * t + c * (t * t))) <= eps * (t * t).
Lemma all_small x : (forall eps, 0 < eps -> Rabs x <= eps) -> x = 0.
Proof.
  intros H. destruct (Req_dec x 0) as [E|N]; [exact E|]. exfalso.
  pose proof (Rabs_pos_lt x N) as P. specialize (H (Rabs x / 2) ltac:(lra)). lra.
Qed.
Lemma linear_small b c d : 0 < d -> (forall t, Rabs t < d -> Rabs (b * t + c * (t * t)) <= (1 + Rabs c) * (t * t)) -> b = 0.
Proof.
  intros Hd H. apply all_small. intros eps He. set (k := 1 + 2 * Rabs c). pose proof (Rabs_pos c) as Pc.
  assert (K : 0 < k) by (unfold k; lra).
  set (t := Rmin (d / 2) (eps / k)). assert (T0 : 0 < t) by (apply Rmin_glb_lt; [lra|apply Rdiv_lt_0_compat; assumption]).
  assert (Td : t < d) by (pose proof (Rmin_l (d / 2) (eps / k)); unfold t; lra).
  assert (Te : k * t <= eps).
  { pose proof (Rmin_r (d / 2) (eps / k)) as X. fold t in X. apply (Rmult_le_compat_l k) in X; [|lra].
    replace (k * (eps / k)) with eps in X by (field; lra). exact X. }
  specialize (H t ltac:(rewrite Rabs_pos_eq; lra)).
  assert (E : Rabs (b * t) <= (1 + Rabs c) * (t * t) + Rabs c * (t * t)).
  { replace (b * t) with ((b * t + c * (t * t)) - c * (t * t)) by ring. eapply Rle_trans; [apply Rabs_triang|].
    rewrite Rabs_Ropp, (Rabs_mult c), (Rabs_pos_eq (t * t)) by nra. lra. }
  rewrite Rabs_mult, (Rabs_pos_eq t) in E by lra.
  assert (E2 : Rabs b * t <= (k * t) * t) by (unfold k; nra). apply Rmult_le_reg_r in E2; lra.
Qed.
Lemma peano2_unique phi a b c a' b' c' : peano2 phi a b c -> peano2 phi a' b' c' -> a = a' /\ b = b' /\ c = c'.
Proof.
  intros H H'.
  assert (D : forall eps, 0 < eps -> exists d, 0 < d /\ forall t, Rabs t < d ->
    Rabs ((a - a') + (b - b') * t + (c - c') * (t * t)) <= eps * (t * t)).
  { intros eps He. destruct (H (eps / 2) ltac:(lra)) as (d1 & P1 & H1), (H' (eps / 2) ltac:(lra)) as (d2 & P2 & H2).
    exists (Rmin d1 d2). split; [apply Rmin_glb_lt; assumption|]. intros t Ht.
    assert (T1 : Rabs t < d1) by (eapply Rlt_le_trans; [exact Ht|apply Rmin_l]).
    assert (T2 : Rabs t < d2) by (eapply Rlt_le_trans; [exact Ht|apply Rmin_r]).
    specialize (H1 t T1). specialize (H2 t T2).
    replace (a - a' + (b - b') * t + (c - c') * (t * t)) with
      ((phi t - (a' + b' * t + c' * (t * t))) - (phi t - (a + b * t + c * (t * t)))) by ring.
    eapply Rle_trans; [apply Rabs_triang|]. rewrite Rabs_Ropp. lra. }
  assert (A : a - a' = 0).
  { destruct (D 1 Rlt_0_1) as (d & P & K). specialize (K 0 ltac:(rewrite Rabs_R0; exact P)).
    apply all_small. intros eps He. replace (a - a') with (a - a' + (b - b') * 0 + (c - c') * (0 * 0)) by ring. lra. }
  assert (B : b - b' = 0).
  { pose proof (Rabs_pos (c - c')). destruct (D (1 + Rabs (c - c')) ltac:(lra)) as (d & P & K).
    apply (linear_small _ (c - c') d P). intros t Ht. specialize (K t Ht). rewrite A, Rplus_0_l in K. exact K. }
  assert (C : c - c' = 0).
  { apply all_small. intros eps He. destruct (D eps He) as (d & P & K).
    specialize (K (d / 2) ltac:(rewrite Rabs_pos_eq; lra)). rewrite A, B in K.
    replace (0 + 0 * (d / 2) + (c - c') * (d / 2 * (d / 2))) with ((c - c') * (d / 2 * (d / 2))) in K by ring.
    rewrite Rabs_mult, (Rabs_pos_eq (d / 2 * (d / 2))) in K by nra. apply Rmult_le_reg_r in K; [exact K|nra]. }
  repeat split; lra.
Qed.
Lemma expr_peano n e p v : vars_below n e -> dom e p ->
  let J := jev Rops (fun i => jvar Rops i (p i)) e in
  peano2 (fun t => rev e (along p v t)) (jf J) (gsum n J v) (/ 2 * hsum n J v v).
Proof.
  intros HV D J. pose proof (jev_point n e p v v HV D) as T. unfold track in T. fold J in T.
  apply J2_line in T as (EF & DD & HL & HD0 & HD).
  assert (Z0 : rev e (along p v 0) = jf J) by (rewrite <- EF; apply rev_ext; intros k; unfold along; ring).
  intros eps He. destruct (taylor_peano _ _ _ eps HL HD He) as (d & Hd & HS). exists d. split; [exact Hd|]. intros t Ht.
  specialize (HS t Ht). cbn beta in HS. rewrite Z0, HD0 in HS.
  replace (jf J + gsum n J v * t + / 2 * hsum n J v v * (t * t)) with (jf J + t * gsum n J v + 1 / 2 * (t * t * hsum n J v v)) by field.
  exact HS.
Qed.
Lemma taylor_coords c n J d : taylor c n (jf J) (jg J) (hess J) (fun i => nth i (coords n d) 0) =
  jf J + gsum n J d + (if Z.eqb (c_ord c) 1 then 0 else / 2 * hsum n J d d).
Proof.
  pose proof (taylor_line c n J d 1) as T.
  transitivity (taylor c n (jf J) (jg J) (hess J) (fun i => nth i (coords n (fun i => 1 * d i)) 0)).
  - replace (coords n d) with (coords n (fun i => 1 * d i)); [reflexivity|]. unfold coords. apply map_ext. intros; ring.
  - rewrite T. destruct (Z.eqb (c_ord c) 1); field.
Qed.

Lemma eval_exact c n e p a b m : cfg_ok c -> size_ok c n -> vars_below n e -> dom e p ->
  (c_ord c = 1%Z -> forall i j, m i j = 0) -> near n p (fun q => rev e q = poly n a b m q) ->
  exists xs r, variables Rops c (coords n p) = Ok xs /\ run Rops c n xs e = Ok r /\
    forall d, eval Rops c r (coords n d) = Ok (poly n a b m (shift p d)).
Proof.
  intros Hc SO HV D H1 (del & Hdel & HN). destruct (run_variables c n e p Hc SO HV) as (xs & r & E & Er & R).
  exists xs, r. split; [exact E|]. split; [exact Er|]. intros d.
  rewrite (eval_taylor _ _ _ _ _ R) by (rewrite coords_length; lia). f_equal. rewrite taylor_coords.
  pose proof (expr_peano n e p d HV D) as PE. cbv zeta in PE.
  set (J := jev Rops (fun i => jvar Rops i (p i)) e) in *.
  set (A := poly n a b m p).
  set (B := rsum n (fun i => b i * d i) + rsum n (fun i => rsum n (fun j => m i j * p i * d j + m i j * d i * p j))).
  set (C := rsum n (fun i => rsum n (fun j => m i j * d i * d j))).
  assert (PP : peano2 (fun t => rev e (along p d t)) A B C).
  { intros eps He. set (K := 1 + norm1 n d).
    assert (NN : 0 <= norm1 n d).
    { unfold norm1. clear. induction n as [|n IH]; cbn [rsum]; [lra|]. pose proof (Rabs_pos (d n)). lra. }
    assert (NB : forall k, (k < n)%nat -> Rabs (d k) <= norm1 n d).
    { unfold norm1. clear. induction n as [|n IH]; intros k Hk; [lia|]. cbn [rsum].
      assert (0 <= rsum n (fun i => Rabs (d i))).
      { clear. induction n as [|n IH]; cbn [rsum]; [lra|]. pose proof (Rabs_pos (d n)). lra. }
      pose proof (Rabs_pos (d n)). destruct (Nat.eq_dec k n) as [->|N]; [lra|]. specialize (IH k ltac:(lia)). lra. }
    exists (del / K). split; [apply Rdiv_lt_0_compat; unfold K; lra|]. intros t Ht. rewrite HN.
    - rewrite poly_line. fold A B C. replace (A + t * B + t * t * C - (A + B * t + C * (t * t))) with 0 by ring.
      rewrite Rabs_R0. nra.
    - intros k Hk. unfold along. replace (p k + t * d k - p k) with (t * d k) by ring. rewrite Rabs_mult.
      apply (Rmult_lt_compat_r K) in Ht; [|unfold K; lra]. replace (del / K * K) with del in Ht by (unfold K; field; lra).
      pose proof (Rabs_pos t). pose proof (NB k Hk). apply Rle_lt_trans with (Rabs t * K); [|exact Ht].
      apply Rmult_le_compat_l; [assumption|unfold K; lra]. }
  destruct (peano2_unique _ _ _ _ _ _ _ PE PP) as (EA & EB & EC).
  assert (LP : poly n a b m (shift p d) = A + B + C).
  { transitivity (poly n a b m (along p d 1)).
    - unfold poly, shift, along. f_equal; [f_equal|]; apply rsum_ext; intros; [ring|]. apply rsum_ext; intros; ring.
    - rewrite poly_line. fold A B C. ring. }
  rewrite LP. destruct (Z.eqb_spec (c_ord c) 1) as [Ho|Ho].
  - assert (C0 : C = 0).
    { unfold C. rewrite (rsum_ext n _ (fun _ => 0)); [apply rsum_zero|]. intros i _.
      rewrite (rsum_ext n _ (fun _ => 0)); [apply rsum_zero|]. intros j _. rewrite (H1 Ho). ring. }
    lra.
  - lra.
Qed.

(** ** Uniform second-order expansions *)
Lemma locally_shift0 (P : R -> Prop) a : locally a P -> locally 0 (fun z => P (a + z)).
Proof.
  intros (e & H). exists e. intros y Hy. apply H. revert Hy. unfold ball; cbn. unfold AbsRing_ball, abs, minus, plus, opp; cbn.
  replace (a + y + - a) with (y + - 0) by ring. auto.
Qed.
Lemma derive_shift0 (f : R -> R) a l : is_derive f a l -> is_derive (fun z => f (a + z)) 0 l.
Proof.
  intros H. rewrite <- (Rplus_0_r a) in H. replace l with (scal 1 l) by (unfold scal; cbn; unfold mult; cbn; ring).
  apply (is_derive_comp f (fun z => a + z)); [exact H|]. auto_derive; [exact I|ring].
Qed.
Section Uniform.
  Variable n : nat.
  Notation N := (norm1 n).
  Implicit Types (F G : (nat -> R) -> R) (d : nat -> R).
  Lemma norm1_pos d : 0 <= N d.
  Proof. unfold norm1. induction n as [|k IH]; cbn [rsum]; [lra|]. pose proof (Rabs_pos (d k)). lra. Qed.
  Lemma norm1_ge d k : (k < n)%nat -> Rabs (d k) <= N d.
  Proof.
    unfold norm1. revert k. induction n as [|m IH]; intros k Hk; [lia|]. cbn [rsum].
    assert (0 <= rsum m (fun i => Rabs (d i))).
    { clear. induction m as [|m IH]; cbn [rsum]; [lra|]. pose proof (Rabs_pos (d m)). lra. }
    pose proof (Rabs_pos (d m)). destruct (Nat.eq_dec k m) as [->|X]; [lra|]. specialize (IH k ltac:(lia)). lra.
  Qed.
  Lemma norm1_scal t d : N (fun i => t * d i) = Rabs t * N d.
  Proof. unfold norm1. rewrite <- rsum_scal. apply rsum_ext. intros. apply Rabs_mult. Qed.

  (** [F = O(|d|^k)] and [F = o(|d|^2)]. *)
  Definition bnd (k : nat) F : Prop := exists K r, 0 <= K /\ 0 < r /\ forall d, N d < r -> Rabs (F d) <= K * N d ^ k.
  Definition small F : Prop := forall eps, 0 < eps -> exists r, 0 < r /\ forall d, N d < r -> Rabs (F d) <= eps * N d ^ 2.
  Definition close (P : (nat -> R) -> Prop) : Prop := exists r, 0 < r /\ forall d, N d < r -> P d.
  Lemma close_and P Q : close P -> close Q -> close (fun d => P d /\ Q d).
  Proof.
    intros (r & Hr & H) (q & Hq & K). exists (Rmin r q). split; [apply Rmin_glb_lt; assumption|]. intros d Hd.
    split; [apply H|apply K]; (eapply Rlt_le_trans; [exact Hd|]); [apply Rmin_l|apply Rmin_r].
  Qed.
  Lemma close_imp (P Q : (nat -> R) -> Prop) : (forall d, P d -> Q d) -> close P -> close Q.
  Proof. intros H (r & Hr & K). exists r. split; [exact Hr|]. intros d Hd. apply H, K, Hd. Qed.
  Lemma small_ext F G : close (fun d => F d = G d) -> small F -> small G.
  Proof.
    intros E H eps He. destruct (close_and _ _ E (H eps He)) as (r & Hr & K). exists r. split; [exact Hr|].
    intros d Hd. destruct (K d Hd) as (<- & X). exact X.
  Qed.
  Lemma close_all (P : (nat -> R) -> Prop) : (forall d, P d) -> close P.
  Proof. intros H. exists 1. split; [lra|]. intros d _. apply H. Qed.
  Lemma small_add F G : small F -> small G -> small (fun d => F d + G d).
  Proof.
    intros H K eps He. destruct (close_and _ _ (H (eps / 2) ltac:(lra)) (K (eps / 2) ltac:(lra))) as (r & Hr & X).
    exists r. split; [exact Hr|]. intros d Hd. destruct (X d Hd) as (A & B). eapply Rle_trans; [apply Rabs_triang|]. lra.
  Qed.
  Lemma bnd_const k : bnd 0 (fun _ => k).
  Proof. exists (Rabs k), 1. split; [apply Rabs_pos|]. split; [lra|]. intros d _. cbn. lra. Qed.
  Lemma bnd_mult j k F G : bnd j F -> bnd k G -> bnd (j + k) (fun d => F d * G d).
  Proof.
    intros (A & r & HA & Hr & H) (B & q & HB & Hq & K). exists (A * B), (Rmin r q). split; [nra|].
    split; [apply Rmin_glb_lt; assumption|]. intros d Hd.
    assert (X : Rabs (F d) <= A * N d ^ j) by (apply H; eapply Rlt_le_trans; [exact Hd|apply Rmin_l]).
    assert (Y : Rabs (G d) <= B * N d ^ k) by (apply K; eapply Rlt_le_trans; [exact Hd|apply Rmin_r]).
    rewrite Rabs_mult, pow_add. pose proof (Rabs_pos (F d)). pose proof (Rabs_pos (G d)).
    replace (A * B * (N d ^ j * N d ^ k)) with ((A * N d ^ j) * (B * N d ^ k)) by ring. apply Rmult_le_compat; assumption.
  Qed.
  Lemma bnd_add k F G : bnd k F -> bnd k G -> bnd k (fun d => F d + G d).
  Proof.
    intros (A & r & HA & Hr & H) (B & q & HB & Hq & K). exists (A + B), (Rmin r q). split; [lra|].
    split; [apply Rmin_glb_lt; assumption|]. intros d Hd.
    assert (X : Rabs (F d) <= A * N d ^ k) by (apply H; eapply Rlt_le_trans; [exact Hd|apply Rmin_l]).
    assert (Y : Rabs (G d) <= B * N d ^ k) by (apply K; eapply Rlt_le_trans; [exact Hd|apply Rmin_r]).
    eapply Rle_trans; [apply Rabs_triang|]. lra.
  Qed.
  Lemma bnd_less j k F : (j <= k)%nat -> bnd k F -> bnd j F.
  Proof.
    intros L (A & r & HA & Hr & H). exists A, (Rmin r 1). split; [exact HA|]. split; [apply Rmin_glb_lt; lra|]. intros d Hd.
    assert (X : Rabs (F d) <= A * N d ^ k) by (apply H; eapply Rlt_le_trans; [exact Hd|apply Rmin_l]).
    assert (Y : N d < 1) by (eapply Rlt_le_trans; [exact Hd|apply Rmin_r]). eapply Rle_trans; [exact X|].
    apply Rmult_le_compat_l; [exact HA|]. replace k with (j + (k - j))%nat by lia. rewrite pow_add.
    pose proof (norm1_pos d). assert (0 <= N d ^ j) by (apply pow_le; assumption).
    assert (N d ^ (k - j) <= 1) by (rewrite <- (pow1 (k - j)); apply pow_incr; lra). nra.
  Qed.
  Lemma small_bnd F : small F -> bnd 2 F.
  Proof. intros H. destruct (H 1 Rlt_0_1) as (r & Hr & K). exists 1, r. split; [lra|]. split; [exact Hr|exact K]. Qed.
  Lemma bnd_small F : bnd 3 F -> small F.
  Proof.
    intros (A & r & HA & Hr & H) eps He. exists (Rmin r (eps / (A + 1))).
    split; [apply Rmin_glb_lt; [exact Hr|apply Rdiv_lt_0_compat; lra]|]. intros d Hd.
    assert (X : Rabs (F d) <= A * N d ^ 3) by (apply H; eapply Rlt_le_trans; [exact Hd|apply Rmin_l]).
    assert (Y : N d < eps / (A + 1)) by (eapply Rlt_le_trans; [exact Hd|apply Rmin_r]).
    apply (Rmult_lt_compat_r (A + 1)) in Y; [|lra]. replace (eps / (A + 1) * (A + 1)) with eps in Y by (field; lra).
    eapply Rle_trans; [exact X|]. pose proof (norm1_pos d). replace (A * N d ^ 3) with ((A * N d) * N d ^ 2) by ring.
    apply Rmult_le_compat_r; [apply pow2_ge_0|]. nra.
  Qed.
  Lemma small_mult B F : bnd 0 B -> small F -> small (fun d => B d * F d).
  Proof.
    intros (A & r & HA & Hr & H) K eps He. destruct (K (eps / (A + 1)) ltac:(apply Rdiv_lt_0_compat; lra)) as (q & Hq & X).
    exists (Rmin r q). split; [apply Rmin_glb_lt; assumption|]. intros d Hd.
    assert (Y : Rabs (B d) <= A) by (specialize (H d ltac:(eapply Rlt_le_trans; [exact Hd|apply Rmin_l])); cbn in H; lra).
    specialize (X d ltac:(eapply Rlt_le_trans; [exact Hd|apply Rmin_r])). rewrite Rabs_mult.
    pose proof (Rabs_pos (B d)). pose proof (Rabs_pos (F d)).
    apply Rle_trans with ((A + 1) * (eps / (A + 1) * N d ^ 2)); [apply Rmult_le_compat; lra|].
    right. field. lra.
  Qed.
  (** The remainder of a function of one variable, at a displacement [G]. *)
  Lemma small_comp (rho : R -> R) G :
    (forall eps, 0 < eps -> exists r, 0 < r /\ forall z, Rabs z < r -> Rabs (rho z) <= eps * (z * z)) ->
    bnd 1 G -> small (fun d => rho (G d)).
  Proof.
    intros H (A & r & HA & Hr & K) eps He. set (B := A + 1).
    destruct (H (eps / (B * B)) ltac:(apply Rdiv_lt_0_compat; unfold B; nra)) as (q & Hq & X).
    exists (Rmin r (q / B)). split; [apply Rmin_glb_lt; [exact Hr|apply Rdiv_lt_0_compat; unfold B; lra]|]. intros d Hd.
    assert (Y : Rabs (G d) <= A * N d) by (specialize (K d ltac:(eapply Rlt_le_trans; [exact Hd|apply Rmin_l])); cbn in K; lra).
    assert (Z : N d < q / B) by (eapply Rlt_le_trans; [exact Hd|apply Rmin_r]).
    apply (Rmult_lt_compat_r B) in Z; [|unfold B; lra]. replace (q / B * B) with q in Z by (unfold B; field; lra).
    pose proof (norm1_pos d) as ND. pose proof (Rabs_pos (G d)) as PG.
    assert (W : Rabs (G d) <= B * N d) by (unfold B; nra).
    eapply Rle_trans; [apply X; nra|].
    replace (G d * G d) with (Rabs (G d) * Rabs (G d)) by (rewrite <- Rabs_mult; apply Rabs_pos_eq; nra).
    apply Rle_trans with (eps / (B * B) * ((B * N d) * (B * N d))).
    - apply Rmult_le_compat_l; [apply Rlt_le, Rdiv_lt_0_compat; unfold B; nra|]. apply Rmult_le_compat; lra.
    - right. field. unfold B; lra.
  Qed.

  (** [F] has an expansion of second order at 0: constant, linear form, quadratic form. *)
  Definition E2 F : Prop := exists f (L Q : (nat -> R) -> R),
    (forall t d, L (fun i => t * d i) = t * L d) /\ (forall t d, Q (fun i => t * d i) = t * t * Q d) /\
    bnd 1 L /\ bnd 2 Q /\ small (fun d => F d - (f + L d + Q d)) /\ F (fun _ => 0) = f.
  Lemma E2_value F f (L Q : (nat -> R) -> R) : (forall t d, L (fun i => t * d i) = t * L d) -> (forall t d, Q (fun i => t * d i) = t * t * Q d) ->
    small (fun d => F d - (f + L d + Q d)) -> (forall d d', (forall i, d i = d' i) -> F d = F d') -> F (fun _ => 0) = f.
  Proof.
    intros HL HQ H X. assert (E : F (fun i => 0 * 0) - (f + L (fun i => 0 * 0) + Q (fun i => 0 * 0)) = 0).
    { apply all_small. intros eps He. destruct (H 1 Rlt_0_1) as (r & Hr & K).
      assert (N0 : N (fun i => 0 * 0) = 0) by (rewrite (norm1_scal 0 (fun _ => 0)), Rabs_R0; ring).
      specialize (K (fun i => 0 * 0)). cbn beta in K. rewrite N0 in K. specialize (K Hr). cbn in K. lra. }
    rewrite (HL 0 (fun _ => 0)), (HQ 0 (fun _ => 0)) in E. rewrite (X (fun _ => 0) (fun i => 0 * 0)) by (intros; ring). lra.
  Qed.
  Lemma E2_const k : E2 (fun _ => k).
  Proof.
    exists k, (fun _ => 0), (fun _ => 0). split; [intros; ring|]. split; [intros; ring|].
    split; [exists 0, 1; repeat split; try lra; intros; rewrite Rabs_R0; lra|].
    split; [exists 0, 1; repeat split; try lra; intros; rewrite Rabs_R0; lra|]. split; [|reflexivity].
    intros eps He. exists 1. split; [lra|]. intros d _. replace (k - (k + 0 + 0)) with 0 by ring. rewrite Rabs_R0.
    pose proof (pow2_ge_0 (N d)). nra.
  Qed.
  Lemma E2_var p i : (i < n)%nat -> E2 (fun d => p + d i).
  Proof.
    intros Hi. exists p, (fun d => d i), (fun _ => 0). split; [reflexivity|]. split; [intros; ring|].
    split; [exists 1, 1; repeat split; try lra; intros d _; pose proof (norm1_ge d i Hi); lra|].
    split; [exists 0, 1; repeat split; try lra; intros; rewrite Rabs_R0; lra|]. split; [|ring].
    intros eps He. exists 1. split; [lra|]. intros d _. replace (p + d i - (p + d i + 0)) with 0 by ring. rewrite Rabs_R0.
    pose proof (pow2_ge_0 (N d)). nra.
  Qed.
  Lemma E2_bnd1 F f (L Q : (nat -> R) -> R) : bnd 1 L -> bnd 2 Q -> small (fun d => F d - (f + L d + Q d)) -> bnd 1 (fun d => F d - f).
  Proof.
    intros BL BQ H. assert (X : bnd 1 (fun d => L d + (Q d + (F d - (f + L d + Q d))))).
    { apply bnd_add; [exact BL|]. apply (bnd_less 1 2); [lia|]. apply bnd_add; [exact BQ|apply small_bnd, H]. }
    destruct X as (A & r & HA & Hr & K). exists A, r. split; [exact HA|]. split; [exact Hr|]. intros d Hd. specialize (K d Hd).
    replace (L d + (Q d + (F d - (f + L d + Q d)))) with (F d - f) in K by ring. exact K.
  Qed.
  Lemma E2_ext F G : close (fun d => F d = G d) -> E2 F -> E2 G.
  Proof.
    intros E (f & L & Q & HL & HQ & BL & BQ & H & H0). exists f, L, Q. repeat (split; [assumption|]). split.
    - eapply small_ext; [|exact H]. eapply close_imp; [|exact E]. cbn beta. intros d ->. reflexivity.
    - destruct E as (r & Hr & K). rewrite <- H0. symmetry. apply K.
      assert (N0 : N (fun _ => 0) = 0) by (unfold norm1; rewrite (rsum_ext n _ (fun _ => 0)) by (intros; apply Rabs_R0); apply rsum_zero).
      rewrite N0. exact Hr.
  Qed.
  Lemma E2_add F G : E2 F -> E2 G -> E2 (fun d => F d + G d).
  Proof.
    intros (f & L & Q & HL & HQ & BL & BQ & H & H0) (g & M & P & HM & HP & BM & BP & K & K0).
    exists (f + g), (fun d => L d + M d), (fun d => Q d + P d). split; [intros; rewrite HL, HM; ring|]. split; [intros; rewrite HQ, HP; ring|].
    split; [apply bnd_add; assumption|]. split; [apply bnd_add; assumption|]. split; [|rewrite H0, K0; reflexivity].
    eapply small_ext; [|apply (small_add _ _ H K)]. apply close_all. intros d. cbn beta. ring.
  Qed.
  Lemma E2_mul F G : E2 F -> E2 G -> E2 (fun d => F d * G d).
  Proof.
    intros (f & L & Q & HL & HQ & BL & BQ & H & H0) (g & M & P & HM & HP & BM & BP & K & K0).
    exists (f * g), (fun d => f * M d + g * L d), (fun d => f * P d + g * Q d + L d * M d).
    split; [intros; rewrite HL, HM; ring|]. split; [intros; rewrite HQ, HP, HL, HM; ring|].
    pose proof (E2_bnd1 _ _ _ _ BM BP K) as BG.
    split; [apply bnd_add; apply (bnd_mult 0 1); auto using bnd_const|].
    split; [apply bnd_add; [apply bnd_add; apply (bnd_mult 0 2); auto using bnd_const|apply (bnd_mult 1 1); assumption]|].
    split; [|rewrite H0, K0; reflexivity].
    assert (G0 : bnd 0 (fun d => g + (G d - g))) by (apply bnd_add; [apply bnd_const|apply (bnd_less 0 1); [lia|exact BG]]).
    assert (F0 : bnd 0 (fun d => f + (L d + Q d))).
    { apply bnd_add; [apply bnd_const|]. apply (bnd_less 0 1); [lia|]. apply bnd_add; [exact BL|apply (bnd_less 1 2); [lia|exact BQ]]. }
    assert (S3 : small (fun d => L d * P d + (Q d * M d + Q d * P d))).
    { apply bnd_small. apply bnd_add; [apply (bnd_mult 1 2); assumption|]. apply bnd_add; [apply (bnd_mult 2 1); assumption|].
      apply (bnd_less 3 4); [lia|]. apply (bnd_mult 2 2); assumption. }
    eapply small_ext; [|apply (small_add _ _ (small_mult _ _ G0 H) (small_add _ _ (small_mult _ _ F0 K) S3))].
    apply close_all. intros d. cbn beta. ring.
  Qed.
  (** Composition with a function of one variable that is twice differentiable at the value. *)
  Lemma E2_comp (u p1 : R -> R) p2 F : D2 u p1 p2 (F (fun _ => 0)) -> E2 F -> E2 (fun d => u (F d)).
  Proof.
    intros (D1 & D2') (f & L & Q & HL & HQ & BL & BQ & H & H0). rewrite H0 in D1, D2'.
    exists (u f), (fun d => p1 f * L d), (fun d => p1 f * Q d + / 2 * p2 * (L d * L d)).
    split; [intros; rewrite HL; ring|]. split; [intros; rewrite HQ, HL; ring|].
    split; [apply (bnd_mult 0 1); auto using bnd_const|].
    split; [apply bnd_add; apply (bnd_mult 0 2); auto using bnd_const; apply (bnd_mult 1 1); assumption|].
    split; [|rewrite H0; reflexivity].
    pose proof (E2_bnd1 _ _ _ _ BL BQ H) as BF.
    set (rho := fun z => u (f + z) - (u f + z * p1 f + / 2 * p2 * (z * z))).
    assert (RH : forall eps, 0 < eps -> exists r, 0 < r /\ forall z, Rabs z < r -> Rabs (rho z) <= eps * (z * z)).
    { intros eps He. destruct (taylor_peano (fun z => u (f + z)) (fun z => p1 (f + z)) p2 eps) as (r & Hr & X).
      - eapply filter_imp; [|apply (locally_shift0 _ f D1)]. cbn beta. intros z Hz.
        replace (p1 (f + z)) with (scal 1 (p1 (f + z))) by (unfold scal; cbn; unfold mult; cbn; ring).
        apply (is_derive_comp u (fun z => f + z)); [exact Hz|]. auto_derive; [exact I|ring].
      - apply derive_shift0. exact D2'.
      - exact He.
      - exists r. split; [exact Hr|]. intros z Hz. specialize (X z Hz). cbn beta in X. rewrite Rplus_0_r in X.
        unfold rho. replace (u f + z * p1 f + / 2 * p2 * (z * z)) with (u f + z * p1 f + 1 / 2 * (z * z * p2)) by field. exact X. }
    pose proof (small_comp rho _ RH BF) as S1.
    pose proof (small_mult (fun _ => p1 f) _ (bnd_const _) H) as S2.
    assert (S3 : small (fun d => / 2 * p2 * ((Q d + (F d - (f + L d + Q d))) * ((F d - f) + L d)))).
    { apply bnd_small. apply (bnd_mult 0 3); [apply bnd_const|]. apply (bnd_mult 2 1); [apply bnd_add; [exact BQ|apply small_bnd, H]|].
      apply bnd_add; assumption. }
    eapply small_ext; [|apply (small_add _ _ S1 (small_add _ _ S2 S3))]. apply close_all. intros d. cbn beta. unfold rho.
    replace (f + (F d - f)) with (F d) by ring. ring.
  Qed.
  Lemma E2_near F (P : R -> Prop) : E2 F -> locally (F (fun _ => 0)) P -> close (fun d => P (F d)).
  Proof.
    intros (f & L & Q & HL & HQ & BL & BQ & H & H0) (e & HP). destruct (E2_bnd1 _ _ _ _ BL BQ H) as (A & r & HA & Hr & K).
    exists (Rmin r (e / (A + 1))). pose proof (cond_pos e) as He. split; [apply Rmin_glb_lt; [exact Hr|apply Rdiv_lt_0_compat; lra]|].
    intros d Hd. apply HP. specialize (K d ltac:(eapply Rlt_le_trans; [exact Hd|apply Rmin_l])).
    assert (Y : N d < e / (A + 1)) by (eapply Rlt_le_trans; [exact Hd|apply Rmin_r]).
    apply (Rmult_lt_compat_r (A + 1)) in Y; [|lra]. replace (e / (A + 1) * (A + 1)) with (e : R) in Y by (field; lra).
    unfold ball; cbn. unfold AbsRing_ball, abs, minus, plus, opp; cbn. rewrite H0. change (Rabs (F d - f) < e).
    pose proof (norm1_pos d). cbn in K. nra.
  Qed.
End Uniform.

Lemma D2_recip x : x <> 0 -> exists p1 p2, D2 Rinv p1 p2 x.
Proof. intros H. destruct (uder Ureciprocal x H) as (p1 & p2 & D & _). eauto. Qed.
Lemma D2_of u x : udom u x -> exists p1 p2, D2 (ureal u) p1 p2 x.
Proof. intros H. destruct (uder u x H) as (p1 & p2 & D & _). eauto. Qed.
Lemma locally_pos x : 0 < x -> locally x (fun y => 0 < y).
Proof. intros H. apply (locally_open (fun y => 0 < y)); [apply open_gt|auto|exact H]. Qed.
Lemma locally_neg x : x < 0 -> locally x (fun y => y < 0).
Proof. intros H. apply (locally_open (fun y => y < 0)); [apply open_lt|auto|exact H]. Qed.

Lemma E2_u n u F : udom u (F (fun _ => 0)) -> E2 n F -> E2 n (fun d => ureal u (F d)).
Proof. intros H E. destruct (D2_of u _ H) as (p1 & p2 & D). eapply E2_comp; eassumption. Qed.
Lemma E2_sub n F G : E2 n F -> E2 n G -> E2 n (fun d => F d - G d).
Proof. intros A B. apply (E2_add n F (fun d => - G d)); [exact A|]. exact (E2_u n Uneg G I B). Qed.
Lemma E2_div n F G : G (fun _ => 0) <> 0 -> E2 n F -> E2 n G -> E2 n (fun d => F d / G d).
Proof. intros H A B. apply (E2_mul n F (fun d => / G d)); [exact A|]. exact (E2_u n Ureciprocal G H B). Qed.
Lemma E2_b n b F G : bdom b (F (fun _ => 0)) (G (fun _ => 0)) -> E2 n F -> E2 n G -> E2 n (fun d => breal b (F d) (G d)).
Proof.
  intros H A B. destruct b; cbn [breal bdom] in *.
  - apply E2_add; assumption.
  - apply E2_sub; assumption.
  - apply E2_mul; assumption.
  - apply E2_div; assumption.
  - (* atan2 *) set (f := F (fun _ => 0)) in *. set (g := G (fun _ => 0)) in *.
    destruct (Rlt_dec 0 g) as [Hg|Hg]; [|destruct (Rlt_dec 0 f) as [Hf|Hf]].
    + eapply E2_ext; [|apply (E2_u n Uatan (fun d => F d / G d) I); apply E2_div; [fold g; lra|exact A|exact B]].
      eapply close_imp; [|apply (E2_near n G _ B (locally_pos _ Hg))]. cbn beta. intros d Hd. symmetry. apply Ratan2_pos, Hd.
    + eapply E2_ext; [|apply (E2_u n (Ussub (PI / 2)) (fun d => atan (G d / F d)) I);
        apply (E2_u n Uatan (fun d => G d / F d) I); apply E2_div; [fold f; lra|exact B|exact A]].
      eapply close_imp; [|apply (E2_near n F _ A (locally_pos _ Hf))]. cbn beta. intros d Hd. symmetry. apply Ratan2_up, Hd.
    + assert (Hf' : f < 0) by lra.
      eapply E2_ext; [|apply (E2_u n (Ussub (- (PI / 2))) (fun d => atan (G d / F d)) I);
        apply (E2_u n Uatan (fun d => G d / F d) I); apply E2_div; [fold f; lra|exact B|exact A]].
      eapply close_imp; [|apply (E2_near n F _ A (locally_neg _ Hf'))]. cbn beta. intros d Hd. symmetry. apply Ratan2_down, Hd.
  - apply (E2_u n Usqrt (fun d => F d * F d + G d * G d)); [cbn [udom]; nra|].
    apply E2_add; apply E2_mul; assumption.
Qed.
Lemma E2_expr n e p : vars_below n e -> dom e p -> E2 n (fun d => rev e (shift p d)).
Proof.
  assert (V : forall e, rev e (shift p (fun _ => 0)) = rev e p) by (intros; apply rev_ext; intros; unfold shift; ring).
  induction e as [i|s|u e IH|b e1 IH1 e2 IH2|e1 IH1 e2 IH2 e3 IH3]; cbn [rev dom vars_below]; intros HV D.
  - apply E2_var, HV.
  - apply E2_const.
  - destruct D as (D & DU). apply E2_u; [rewrite V; exact DU|apply IH; assumption].
  - destruct D as (D1 & D2 & DB), HV as (V1 & V2). apply E2_b; [rewrite !V; exact DB|apply IH1; assumption|apply IH2; assumption].
  - destruct D as (D1 & D2 & D3 & DB), HV as (V1 & V2 & V3). unfold hreal.
    apply (E2_u n Usqrt (fun d => rev e1 (shift p d) * rev e1 (shift p d) + rev e2 (shift p d) * rev e2 (shift p d) + rev e3 (shift p d) * rev e3 (shift p d))).
    + cbn [udom]. rewrite !V. apply sumsq3_pos, DB.
    + apply E2_add; [apply E2_add|]; apply E2_mul; auto.
Qed.

Lemma expr_uniform n e p eps : vars_below n e -> dom e p -> 0 < eps ->
  let J := jev Rops (fun i => jvar Rops i (p i)) e in
  exists r, 0 < r /\ forall d, norm1 n d < r ->
    Rabs (rev e (shift p d) - (jf J + gsum n J d + / 2 * hsum n J d d)) <= eps * norm1 n d ^ 2.
Proof.
  intros HV D He J. destruct (E2_expr n e p HV D) as (f & L & Q & HL & HQ & BL & BQ & H & H0).
  assert (U : forall d, f = jf J /\ L d = gsum n J d /\ Q d = / 2 * hsum n J d d).
  { intros d. apply (peano2_unique (fun t => rev e (along p d t))); [|apply expr_peano; assumption].
    intros ep Hep. pose proof (norm1_pos n d) as ND. set (K := 1 + norm1 n d).
    destruct (H (ep / (K * K)) ltac:(apply Rdiv_lt_0_compat; unfold K; nra)) as (r & Hr & X).
    exists (r / K). split; [apply Rdiv_lt_0_compat; unfold K; lra|]. intros t Ht.
    apply (Rmult_lt_compat_r K) in Ht; [|unfold K; lra]. replace (r / K * K) with r in Ht by (unfold K; field; lra).
    pose proof (Rabs_pos t) as PT. specialize (X (fun i => t * d i)). cbn beta in X. rewrite norm1_scal in X. specialize (X ltac:(unfold K in Ht; nra)).
    rewrite HL, HQ in X.
    replace (f + L d * t + Q d * (t * t)) with (f + t * L d + t * t * Q d) by ring.
    replace (rev e (along p d t)) with (rev e (shift p (fun i => t * d i))) by reflexivity.
    eapply Rle_trans; [exact X|].
    replace ((Rabs t * norm1 n d) ^ 2) with ((t * t) * norm1 n d ^ 2).
    2: { replace (t * t) with (Rabs t * Rabs t) by (rewrite <- Rabs_mult; apply Rabs_pos_eq; nra). ring. }
    apply Rle_trans with (ep / (K * K) * ((t * t) * (K * K))).
    - apply Rmult_le_compat_l; [apply Rlt_le, Rdiv_lt_0_compat; unfold K; nra|]. apply Rmult_le_compat_l; [nra|]. unfold K. nra.
    - right. field. unfold K; lra. }
  destruct (H eps He) as (r & Hr & X). exists r. split; [exact Hr|]. intros d Hd. specialize (X d Hd). cbn beta in X.
  destruct (U d) as (<- & <- & <-). exact X.
Qed.

Lemma gsum_bnd n J : exists K, 0 <= K /\ forall d, Rabs (hsum n J d d) <= K * norm1 n d ^ 2.
Proof.
  exists (rsum n (fun i => rsum n (fun j => Rabs (hess J i j)))). split.
  - assert (P : forall m f, (forall i, 0 <= f i) -> 0 <= rsum m f) by (intros m f Hf; induction m as [|m IH]; cbn [rsum]; [lra|]; specialize (Hf m); lra).
    apply P. intros i. apply P. intros j. apply Rabs_pos.
  - intros d. assert (T : forall m f g, (forall i, (i < m)%nat -> Rabs (f i) <= g i) -> Rabs (rsum m f) <= rsum m g).
    { intros m f g. induction m as [|m IH]; intros Hf; cbn [rsum]; [rewrite Rabs_R0; lra|].
      eapply Rle_trans; [apply Rabs_triang|]. specialize (IH ltac:(intros; apply Hf; lia)). specialize (Hf m ltac:(lia)). lra. }
    unfold hsum. rewrite Rmult_comm, <- rsum_scal. apply T. intros i Hi. rewrite <- rsum_scal. apply T. intros j Hj.
    rewrite !Rabs_mult. pose proof (norm1_ge n d i Hi). pose proof (norm1_ge n d j Hj).
    pose proof (Rabs_pos (d i)). pose proof (Rabs_pos (d j)). pose proof (Rabs_pos (hess J i j)).
    rewrite Rmult_assoc, Rmult_comm. apply Rmult_le_compat_r; [assumption|]. cbn. rewrite Rmult_1_r. apply Rmult_le_compat; assumption.
Qed.

Lemma eval_uniform c n e p eps : cfg_ok c -> size_ok c n -> vars_below n e -> dom e p -> 0 < eps ->
  exists xs r, variables Rops c (coords n p) = Ok xs /\ run Rops c n xs e = Ok r /\
    exists delta, 0 < delta /\ forall d, norm1 n d < delta ->
      exists y, eval Rops c r (coords n d) = Ok y /\
        Rabs (rev e (shift p d) - y) <= eps * norm1 n d ^ (Z.to_nat (c_ord c)).
Proof.
  intros Hc SO HV D He. destruct (run_variables c n e p Hc SO HV) as (xs & r & E & Er & R).
  exists xs, r. split; [exact E|]. split; [exact Er|].
  set (J := jev Rops (fun i => jvar Rops i (p i)) e) in *.
  assert (EV : forall d, eval Rops c r (coords n d) = Ok (jf J + gsum n J d + (if Z.eqb (c_ord c) 1 then 0 else / 2 * hsum n J d d))).
  { intros d. rewrite (eval_taylor _ _ _ _ _ R) by (rewrite coords_length; lia). f_equal. apply taylor_coords. }
  destruct (Z.eqb_spec (c_ord c) 1) as [Ho|Ho].
  - rewrite Ho. change (Z.to_nat 1) with 1%nat. destruct (expr_uniform n e p 1 HV D Rlt_0_1) as (q & Hq & X). fold J in X.
    destruct (gsum_bnd n J) as (K & HK & B).
    exists (Rmin q (eps / (1 + K))). split; [apply Rmin_glb_lt; [exact Hq|apply Rdiv_lt_0_compat; lra]|]. intros d Hd.
    rewrite EV. eexists. split; [reflexivity|]. specialize (X d ltac:(eapply Rlt_le_trans; [exact Hd|apply Rmin_l])). specialize (B d).
    assert (Y : norm1 n d < eps / (1 + K)) by (eapply Rlt_le_trans; [exact Hd|apply Rmin_r]).
    apply (Rmult_lt_compat_r (1 + K)) in Y; [|lra]. replace (eps / (1 + K) * (1 + K)) with eps in Y by (field; lra).
    pose proof (norm1_pos n d) as ND.
    replace (rev e (shift p d) - (jf J + gsum n J d + 0)) with
      ((rev e (shift p d) - (jf J + gsum n J d + / 2 * hsum n J d d)) + / 2 * hsum n J d d) by ring.
    eapply Rle_trans; [apply Rabs_triang|]. rewrite Rabs_mult, (Rabs_pos_eq (/ 2)) by lra.
    apply Rle_trans with ((1 + K) * norm1 n d ^ 2); [pose proof (Rabs_pos (hsum n J d d)); lra|]. cbn. nra.
  - assert (Ho2 : c_ord c = 2%Z) by (destruct Hc as [[?|?] _]; congruence). rewrite Ho2. change (Z.to_nat 2) with 2%nat.
    destruct (expr_uniform n e p eps HV D He) as (q & Hq & X). fold J in X.
    exists q. split; [exact Hq|]. intros d Hd. rewrite EV. eexists. split; [reflexivity|]. apply X, Hd.
Qed.
