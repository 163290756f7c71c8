(** Proofs about [hypot] and [atan2] of sparse numbers (C111). *)
From Coq Require Import ZArith List Bool String Reals Lra Lia Psatz.
From Flocq Require Import Core BinarySingleNaN.
From Verif Require Import Outcome Scalar Float64 Model Spec RealOps Ops64 B64 Facts64 NumSpec RangeSpec FactsRange FactsFma
  DivSpec FactsDiv ModelS SpecS FactsS EdgeSSpec FactsEdgeS.
Import ListNotations.
Open Scope R_scope.

Notation D M t k := (dflt (b64ops M) (t_find t k)).
Lemma map_upto M (t : table b64) da q p : (forall k, upto q (D M t k)) -> upto p da -> (-1074 <= q + p <= 1023)%Z ->
  forall k, upto (q + p) (D M (t_map (fun v => b64_mul v da) t) k).
Proof.
  intros Ht Hd H k. specialize (Ht k). rewrite find_map. destruct (t_find t k); cbn [option_map dflt] in *; [|apply zero_upto].
  eapply um; [exact Ht|exact Hd|lia|lia].
Qed.
Lemma merge_upto M (t b : table b64) db q p e r : NoDup (keys b) -> (forall k, upto e (D M t k)) -> (forall k, upto q (D M b k)) -> upto p db ->
  (-1074 <= q + p)%Z -> (q + p <= r - 1)%Z -> (e <= r - 1)%Z -> (r <= 1023)%Z ->
  forall k, upto r (D M (t_merge (b64ops M) (fun o v => b64_add o (b64_mul db v)) t b) k).
Proof.
  intros K Ht Hb Hd H1 H2 H3 H4 k. specialize (Ht k). specialize (Hb k). rewrite find_merge by exact K.
  destruct (t_find b k) as [v|]; cbn [dflt] in *; [|apply (upto_le e); [exact Ht|lia]].
  eapply (ua _ _ e (p + q)); [exact Ht|eapply um; [exact Hd|exact Hb|lia|lia]|lia|lia|lia].
Qed.
Lemma binary_finite M x y f da db q p : keys_ok y -> finite64 f -> derivatives_upto M q x -> derivatives_upto M q y -> upto p da -> upto p db ->
  (0 <= q)%Z -> (-1000 <= p)%Z -> (p + q <= 1020)%Z -> all_finite M (mks f (s_binary (b64ops M) (s_d x) (s_d y) da db)).
Proof.
  intros K Ff Dx Dy Ha Hb Q P PQ. split; [exact Ff|]. intros k.
  apply (merge_upto M _ _ db q p (q + p) (q + p + 1) K (map_upto M _ da q p Dx Ha ltac:(lia)) Dy Hb); lia.
Qed.
Lemma ternary_finite M x y z f da db dc q p : keys_ok y -> keys_ok z -> finite64 f -> derivatives_upto M q x -> derivatives_upto M q y -> derivatives_upto M q z ->
  upto p da -> upto p db -> upto p dc -> (0 <= q)%Z -> (-1000 <= p)%Z -> (p + q <= 1020)%Z ->
  all_finite M (mks f (s_ternary (b64ops M) (s_d x) (s_d y) (s_d z) da db dc)).
Proof.
  intros K K' Ff Dx Dy Dz Ha Hb Hc Q P PQ. split; [exact Ff|]. intros k.
  apply (merge_upto M _ _ dc q p (q + p + 1) (q + p + 2) K'
    (merge_upto M _ _ db q p (q + p) (q + p + 1) K (map_upto M _ da q p Dx Ha ltac:(lia)) Dy Hb ltac:(lia) ltac:(lia) ltac:(lia) ltac:(lia)) Dz Hc); lia.
Qed.
(** A quotient of at most 2 in magnitude. *)
Lemma ratio_upto (a f : b64) m : finite64 a -> finite64 f -> 0 < m -> Rabs (val64 a) <= m -> m <= 2 * val64 f -> upto 3 (b64_div a f).
Proof.
  intros Fa Ff Pm La Lf. assert (P : 0 < val64 f) by lra.
  assert (B : Rabs (val64 a / val64 f) <= 2).
  { unfold Rdiv. rewrite Rabs_mult, (Rabs_pos_eq (/ val64 f)) by (apply Rlt_le, Rinv_0_lt_compat, P).
    apply (Rmult_le_reg_r (val64 f)); [exact P|]. rewrite Rmult_assoc, Rinv_l by lra. lra. }
  assert (N : Rabs (near64 (val64 a / val64 f)) <= bpow radix2 1) by (apply near64_le_bpow; [lia|exact B]).
  destruct (div_ok a f Fa Ff) as (F & V); [lra|eapply Rle_lt_trans; [exact N|apply bpow_lt; lia]|].
  split; [exact F|]. rewrite V. eapply Rle_trans; [exact N|apply bpow_le; lia].
Qed.
Lemma hypot_s M x y q : hypot_wide M -> keys_ok y -> finite64 (s_get_f x) -> finite64 (s_get_f y) ->
  bpow radix2 (-1020) <= largest (s_get_f x) (s_get_f y) <= bpow radix2 1020 -> (0 <= q <= 1000)%Z ->
  derivatives_upto M q x -> derivatives_upto M q y -> all_finite M (s_hypot (b64ops M) x y).
Proof.
  intros HM K Fa Fb R Q Dx Dy. unfold s_get_f in *. destruct (HM _ _ Fa Fb R) as (Ff & L). pose proof (bpow_gt_0 radix2 (-1020)).
  apply (binary_finite M x y _ _ _ q 3); try assumption; try lia; (apply (ratio_upto _ _ (largest (s_f x) (s_f y))); try assumption; try lra);
    [apply Rmax_l|apply Rmax_r].
Qed.
Lemma hypot3_s M x y z q : hypot3_wide M -> keys_ok y -> keys_ok z -> finite64 (s_get_f x) -> finite64 (s_get_f y) -> finite64 (s_get_f z) ->
  bpow radix2 (-1020) <= Rmax (largest (s_get_f x) (s_get_f y)) (Rabs (val64 (s_get_f z))) <= bpow radix2 1020 -> (0 <= q <= 1000)%Z ->
  derivatives_upto M q x -> derivatives_upto M q y -> derivatives_upto M q z -> all_finite M (s_hypot3 (b64ops M) x y z).
Proof.
  intros HM K K' Fa Fb Fc R Q Dx Dy Dz. unfold s_get_f in *. destruct (HM _ _ _ Fa Fb Fc R) as (Ff & L). pose proof (bpow_gt_0 radix2 (-1020)).
  apply (ternary_finite M x y z _ _ _ _ q 3); try assumption; try lia;
    (apply (ratio_upto _ _ (Rmax (largest (s_f x) (s_f y)) (Rabs (val64 (s_f z))))); try assumption; try lra).
  - eapply Rle_trans; [apply Rmax_l|apply Rmax_l].
  - eapply Rle_trans; [apply Rmax_r|apply Rmax_l].
  - apply Rmax_r.
Qed.
Lemma atan2_s M x y l q : keys_ok y -> finite64 (s_get_f x) -> finite64 (s_get_f y) -> finite64 (m_atan2 M (s_get_f x) (s_get_f y)) ->
  (-500 <= l)%Z -> (0 <= q)%Z -> (q - l <= 1000)%Z -> bpow radix2 l <= largest (s_get_f x) (s_get_f y) <= bpow radix2 509 ->
  derivatives_upto M q x -> derivatives_upto M q y -> all_finite M (s_atan2 (b64ops M) x y).
Proof.
  intros K Fa Fb Fv Hl Q QL R Dx Dy. unfold s_get_f in *.
  assert (LU : (l <= 509)%Z) by (apply (le_bpow radix2); lra).
  destruct (scale_of (s_f x) (s_f y) l 509 Fa Fb R) as (k & SC & Hk & Sk). pose proof SC as (Ua & Ub & _).
  destruct (sumsq_scale _ _ k SC ltac:(lia)) as ((Ft & _) & Pt & Lt). rewrite <- (Rabs_pos_eq _ Pt) in Lt.
  apply (binary_finite M x y _ _ _ q (2 - l)); try assumption; try lia.
  - eapply ud; [exact Ub|exact Ft|exact Lt|lia|lia].
  - eapply ud; [apply upto_neg, Ua|exact Ft|exact Lt|lia|lia].
Qed.
Lemma atan2_tiny_s M x y : keys_ok y -> finite64 (s_get_f x) -> finite64 (s_get_f y) ->
  largest (s_get_f x) (s_get_f y) <= bpow radix2 (-540) -> forall k, In k (SpecS.names x) \/ In k (SpecS.names y) ->
  lost64 (s_get_d (b64ops M) (s_atan2 (b64ops M) x y) k).
Proof.
  intros K Fa Fb R k Hk. unfold s_get_f in *.
  destruct (tiny_sum (s_f x) (s_f y) Fa Fb) as (t & E); [eapply Rle_trans; [apply Rmax_l|exact R]|eapply Rle_trans; [apply Rmax_r|exact R]|].
  unfold s_atan2. cbv zeta. rewrite get_quotient by exact K. cbn [b64ops o_add o_mul o_div o_neg]. rewrite E.
  assert (L : forall a, lost64 (b64_div a (B754_zero t))) by (intros a; apply div_zero_not_finite).
  destruct (t_find (s_d x) k) as [v|] eqn:Ev, (t_find (s_d y) k) as [z|] eqn:Ez.
  - apply lost_add_r, lost_mul_l, L.
  - apply lost_mul_r, L.
  - apply lost_add_r, lost_mul_l, L.
  - exfalso. apply find_none in Ev, Ez. tauto.
Qed.
Lemma square_nonneg (b : b64) : finite64 b -> exists v, b64_mul b b = v /\ b64_add v (B754_infinity false) = B754_infinity false.
Proof.
  intros Fb. exists (b64_mul b b). split; [reflexivity|].
  destruct (Rlt_dec (Rabs (near64 (val64 b * val64 b))) (bpow radix2 1024)) as [L|L].
  - destruct (mul_ok b b Fb Fb L) as (F & _). unfold finite64 in F. destruct (b64_mul b b); try discriminate F; reflexivity.
  - rewrite (mul_over b b) by (apply Rnot_lt_le, L). rewrite xorb_nilpotent. reflexivity.
Qed.
Lemma square_huge (b : b64) : bpow radix2 512 <= Rabs (val64 b) -> b64_mul b b = B754_infinity false.
Proof.
  intros H. rewrite mul_over, xorb_nilpotent; [reflexivity|]. apply near64_ge_bpow; [lia|]. rewrite Rabs_mult. change 1024%Z with (512 + 512)%Z.
  rewrite bpow_plus. apply Rmult_le_compat; try apply bpow_ge_0; exact H.
Qed.
Lemma huge_sum (a b : b64) : finite64 a -> finite64 b -> bpow radix2 512 <= largest a b -> b64_add (b64_mul a a) (b64_mul b b) = B754_infinity false.
Proof.
  intros Fa Fb H. unfold largest, Rmax in H. destruct (Rle_dec _ _) as [L|L].
  - rewrite (square_huge b H). destruct (square_nonneg a Fa) as (v & -> & E). exact E.
  - rewrite (square_huge a H), b64_add_comm. destruct (square_nonneg b Fb) as (v & -> & E). exact E.
Qed.
Lemma atan2_huge_s M x y : keys_ok y -> finite64 (s_get_f x) -> finite64 (s_get_f y) -> bpow radix2 512 <= largest (s_get_f x) (s_get_f y) ->
  forall k, finite64 (s_get_d (b64ops M) x k) -> finite64 (s_get_d (b64ops M) y k) -> zero64 (s_get_d (b64ops M) (s_atan2 (b64ops M) x y) k).
Proof.
  intros K Fa Fb R k Gx Gy. unfold s_get_f in *. unfold s_atan2. cbv zeta. rewrite get_quotient by exact K. cbn [b64ops o_add o_mul o_div o_neg].
  rewrite (huge_sum _ _ Fa Fb R). destruct (neg_ok (s_f x) Fa) as (Fn & _).
  pose proof (over_inf (s_f y) false Fb) as Z1. pose proof (over_inf (b64_neg (s_f x)) false Fn) as Z2.
  assert (Z0 : zero64 (b64_of_Z 0)) by (exists false; reflexivity).
  destruct (t_find (s_d x) k) as [v|] eqn:Ev, (t_find (s_d y) k) as [z|] eqn:Ez;
    rewrite ?(got _ _ _ _ Ev) in Gx; rewrite ?(got _ _ _ _ Ez) in Gy; repeat apply zero_add; try assumption.
  - apply zero_mul_r; assumption.
  - apply zero_mul_l; assumption.
  - apply zero_mul_r; assumption.
  - apply zero_mul_l; assumption.
Qed.

(** A correctly rounded [hypot] meets the hypotheses. *)
Lemma rounded_wide m r : bpow radix2 (-1020) <= m <= bpow radix2 1020 -> m <= r <= 2 * m -> finite64 (of_real r) /\ m <= 2 * val64 (of_real r).
Proof.
  intros (A & B) (C & E). pose proof (bpow_gt_0 radix2 (-1020)).
  assert (T : Rabs r <= bpow radix2 1021) by (rewrite Rabs_pos_eq by lra; pose proof (two_bp 1020) as T; change (1020 + 1)%Z with 1021%Z in T; lra).
  destruct (of_real_ok r) as (F & W). { eapply Rle_lt_trans; [apply near64_le_bpow with (e := 1021%Z); [lia|exact T]|]. apply bpow_lt; reflexivity. }
  split; [exact F|]. rewrite W. destruct (near64_rel r) as (d & Dd & N).
  { rewrite Rabs_pos_eq by lra. eapply Rle_trans; [|eapply Rle_trans; [exact A|exact C]]. apply bpow_le. lia. }
  rewrite N. pose proof u64_small. apply Rabs_le_inv in Dd. nra.
Qed.
Lemma sq_abs (v : R) : v * v = Rabs v * Rabs v.
Proof. rewrite <- Rabs_mult. symmetry. apply Rabs_pos_eq, Rle_0_sqr. Qed.
Lemma exact_hypot_wide : hypot_wide exact_libm.
Proof.
  intros a b Fa Fb R. cbn [exact_libm m_hypot]. apply rounded_wide; [exact R|]. unfold largest. rewrite (sq_abs (val64 a)), (sq_abs (val64 b)).
  set (p := Rabs (val64 a)). set (q := Rabs (val64 b)). pose proof (Rabs_pos (val64 a)) as P. pose proof (Rabs_pos (val64 b)) as Q. fold p in P. fold q in Q. clearbody p q. clear R.
  assert (M0 : 0 <= Rmax p q) by (eapply Rle_trans; [exact P|apply Rmax_l]). pose proof (Rmax_l p q) as ML. pose proof (Rmax_r p q) as MR. split.
  - apply Rsqr_incr_0_var; [|apply sqrt_pos]. rewrite Rsqr_sqrt by nra. unfold Rsqr. unfold Rmax. destruct (Rle_dec p q); nra.
  - apply Rsqr_incr_0_var; [|lra]. rewrite Rsqr_sqrt by nra. unfold Rsqr. nra.
Qed.
Lemma exact_hypot3_wide : hypot3_wide exact_libm.
Proof.
  intros a b e Fa Fb Fe R. cbn [exact_libm m_hypot3]. apply rounded_wide; [exact R|]. unfold largest. rewrite (sq_abs (val64 a)), (sq_abs (val64 b)), (sq_abs (val64 e)).
  set (p := Rabs (val64 a)). set (q := Rabs (val64 b)). set (s := Rabs (val64 e)).
  pose proof (Rabs_pos (val64 a)) as P. pose proof (Rabs_pos (val64 b)) as Q. pose proof (Rabs_pos (val64 e)) as T. fold p in P. fold q in Q. fold s in T. clearbody p q s. clear R.
  pose proof (Rmax_l p q) as ML. pose proof (Rmax_r p q) as MR. set (m := Rmax (Rmax p q) s). pose proof (Rmax_l (Rmax p q) s) as NL. pose proof (Rmax_r (Rmax p q) s) as NR. fold m in NL, NR.
  assert (X : p * p <= m * m) by nra. assert (Y : q * q <= m * m) by nra. assert (Z : s * s <= m * m) by nra. assert (M0 : 0 <= m) by lra. split.
  - apply Rsqr_incr_0_var; [|apply sqrt_pos]. rewrite Rsqr_sqrt by nra. unfold Rsqr.
    assert (E : m = p \/ m = q \/ m = s).
    { unfold m, Rmax. destruct (Rle_dec p q); destruct (Rle_dec _ s); auto. }
    destruct E as [-> | [-> | ->]]; nra.
  - apply Rsqr_incr_0_var; [|lra]. rewrite Rsqr_sqrt by nra. unfold Rsqr. nra.
Qed.
Lemma s600_atan2 : val64 s600 / (val64 s600 * val64 s600 + val64 s600 * val64 s600) = bpow radix2 599.
Proof.
  rewrite s600_val, <- bpow_plus. replace (bpow radix2 (-600 + -600) + bpow radix2 (-600 + -600)) with (bpow radix2 (-1199)).
  - unfold Rdiv. rewrite <- bpow_opp, <- bpow_plus. reflexivity.
  - change (-1199)%Z with (-600 + -600 + 1)%Z. rewrite <- two_bp. ring.
Qed.
Lemma t600_atan2 : val64 t600 / (val64 t600 * val64 t600 + val64 t600 * val64 t600) = bpow radix2 (-601).
Proof.
  rewrite t600_val, <- bpow_plus. replace (bpow radix2 (600 + 600) + bpow radix2 (600 + 600)) with (bpow radix2 1201).
  - unfold Rdiv. rewrite <- bpow_opp, <- bpow_plus. reflexivity.
  - change 1201%Z with (600 + 600 + 1)%Z. rewrite <- two_bp. ring.
Qed.
Lemma var_upto M k v : derivatives_upto M 0 (s_variable (b64ops M) k v).
Proof. intros j. unfold s_get_d. cbn [t_find s_d s_variable s_ctor]. destruct (String.eqb k j); [apply one_upto|apply zero_upto]. Qed.
Lemma var_keys M k v : keys_ok (s_variable (b64ops M) k v).
Proof. repeat constructor. intros []. Qed.
Lemma largest_same v e : val64 v = bpow radix2 e -> largest v v = bpow radix2 e.
Proof. intros H. unfold largest. rewrite Rmax_left, H by lra. apply Rabs_pos_eq, bpow_ge_0. Qed.
Lemma edge_b_case : hypot_wide exact_libm /\ hypot3_wide exact_libm /\
  (let x := s_variable (b64ops exact_libm) "u" s600 in let y := s_variable (b64ops exact_libm) "v" s600 in
   keys_ok y /\ finite64 (s_get_f x) /\ largest (s_get_f x) (s_get_f y) = bpow radix2 (-600) /\ derivatives_upto exact_libm 0 x /\
   In "u"%string (SpecS.names x) /\ val64 s600 / (val64 s600 * val64 s600 + val64 s600 * val64 s600) = bpow radix2 599) /\
  (let x := s_variable (b64ops exact_libm) "u" t600 in let y := s_variable (b64ops exact_libm) "v" t600 in
   keys_ok y /\ finite64 (s_get_f x) /\ largest (s_get_f x) (s_get_f y) = bpow radix2 600 /\ derivatives_upto exact_libm 0 x /\
   val64 t600 / (val64 t600 * val64 t600 + val64 t600 * val64 t600) = bpow radix2 (-601)).
Proof.
  split; [exact exact_hypot_wide|]. split; [exact exact_hypot3_wide|]. cbv zeta. split.
  - split; [apply var_keys|]. split; [reflexivity|]. split; [apply (largest_same _ _ s600_val)|]. split; [apply var_upto|]. split; [left; reflexivity|exact s600_atan2].
  - split; [apply var_keys|]. split; [reflexivity|]. split; [apply (largest_same _ _ t600_val)|]. split; [apply var_upto|exact t600_atan2].
Qed.
