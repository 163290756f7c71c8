(** [hypot] and [atan2] of doubles in the range where no intermediate result under- or overflows (C52). *)
From Coq Require Import ZArith List Bool Lia Reals Lra Psatz.
From Coquelicot Require Import Coquelicot.
From Flocq Require Import Core BinarySingleNaN Relative.
From Verif Require Import Outcome Scalar Float64 Model Spec Core Kernels OpsRep AccRep CreateRep FactsLayout Samples Ops64 B64 Facts64 RangeSpec.
Import ListNotations.
Open Scope R_scope.

(** ** magnitudes of the results of the operations *)
Lemma bp_lt_max e : (e <= 1023)%Z -> bpow radix2 e < bpow radix2 1024.
Proof. intros H. apply bpow_lt. lia. Qed.
Lemma upto_le e e' v : upto e v -> (e <= e')%Z -> upto e' v.
Proof. intros (F & B) H. split; [exact F|]. eapply Rle_trans; [exact B|apply bpow_le, H]. Qed.
Lemma upto_near v x e : (-1074 <= e <= 1023)%Z -> Rabs x <= bpow radix2 e ->
  (Rabs (near64 x) < bpow radix2 1024 -> finite64 v /\ val64 v = near64 x) -> upto e v.
Proof.
  intros He B K. assert (N : Rabs (near64 x) <= bpow radix2 e) by (apply near64_le_bpow; [lia|exact B]).
  destruct K as (F & V); [eapply Rle_lt_trans; [exact N|apply bp_lt_max; lia]|].
  split; [exact F|]. rewrite V. exact N.
Qed.
Lemma upto_mul x y e e' : upto e x -> upto e' y -> (-1074 <= e + e' <= 1023)%Z -> upto (e + e') (b64_mul x y).
Proof.
  intros (Fx & Bx) (Fy & By) He. eapply upto_near; [exact He| |apply mul_ok; assumption].
  rewrite Rabs_mult, bpow_plus. apply Rmult_le_compat; try apply Rabs_pos; assumption.
Qed.
Lemma bp_double e : bpow radix2 e + bpow radix2 e = bpow radix2 (e + 1).
Proof. rewrite bpow_plus. change (bpow radix2 1) with 2. ring. Qed.
Lemma upto_add x y e : upto e x -> upto e y -> (-1074 <= e + 1 <= 1023)%Z -> upto (e + 1) (b64_add x y).
Proof.
  intros (Fx & Bx) (Fy & By) He. eapply upto_near; [exact He| |apply add_ok; assumption].
  rewrite <- bp_double. eapply Rle_trans; [apply Rabs_triang|]. lra.
Qed.
Lemma upto_sub x y e : upto e x -> upto e y -> (-1074 <= e + 1 <= 1023)%Z -> upto (e + 1) (b64_sub x y).
Proof.
  intros (Fx & Bx) (Fy & By) He. eapply upto_near; [exact He| |apply sub_ok; assumption].
  rewrite <- bp_double. eapply Rle_trans; [apply Rabs_triang|]. rewrite Rabs_Ropp. lra.
Qed.
Lemma upto_neg x e : upto e x -> upto e (b64_neg x).
Proof. intros (F & B). destruct (neg_ok x F) as (F' & V). split; [exact F'|]. rewrite V, Rabs_Ropp. exact B. Qed.
Lemma upto_div x y e k : upto e x -> finite64 y -> bpow radix2 k <= Rabs (val64 y) -> (-1074 <= e - k <= 1023)%Z ->
  upto (e - k) (b64_div x y).
Proof.
  intros (Fx & Bx) Fy By He.
  assert (P : 0 < bpow radix2 k) by apply bpow_gt_0.
  assert (N : val64 y <> 0) by (intros Z; rewrite Z, Rabs_R0 in By; lra).
  eapply upto_near; [exact He| |apply div_ok; assumption].
  unfold Rdiv, Z.sub. rewrite Rabs_mult, Rabs_inv, bpow_plus, bpow_opp.
  apply Rmult_le_compat; try apply Rabs_pos; try assumption.
  - left. apply Rinv_0_lt_compat. lra.
  - apply Rinv_le; assumption.
Qed.
(** The same with the exponent of the result left to be checked. *)
Lemma um x y e e' r : upto e x -> upto e' y -> (-1074 <= e + e' <= r)%Z -> (r <= 1023)%Z -> upto r (b64_mul x y).
Proof. intros A B H K. eapply upto_le; [apply (upto_mul _ _ _ _ A B); lia|lia]. Qed.
Lemma ua x y e e' r : upto e x -> upto e' y -> (e <= r - 1)%Z -> (e' <= r - 1)%Z -> (-1074 <= r <= 1023)%Z -> upto r (b64_add x y).
Proof. intros A B H K L. replace r with (r - 1 + 1)%Z by lia. apply upto_add; [eapply upto_le; [exact A|lia]|eapply upto_le; [exact B|lia]|lia]. Qed.
Lemma ud x y e k r : upto e x -> finite64 y -> bpow radix2 k <= Rabs (val64 y) -> (-1074 <= e - k <= r)%Z -> (r <= 1023)%Z -> upto r (b64_div x y).
Proof. intros A F B H K. eapply upto_le; [apply (upto_div _ _ _ _ A F B); lia|lia]. Qed.

Lemma low_mul x y e e' k k' : upto e x -> upto e' y -> (-1074 <= e + e' <= 1023)%Z -> (-1074 <= k + k')%Z ->
  bpow radix2 k <= Rabs (val64 x) -> bpow radix2 k' <= Rabs (val64 y) -> bpow radix2 (k + k') <= Rabs (val64 (b64_mul x y)).
Proof.
  intros (Fx & Bx) (Fy & By) He Hk Kx Ky.
  destruct (mul_ok x y Fx Fy) as (_ & V).
  { eapply Rle_lt_trans; [apply (near64_le_bpow _ (e + e')); [lia|]|apply bp_lt_max; lia].
    rewrite Rabs_mult, bpow_plus. apply Rmult_le_compat; try apply Rabs_pos; assumption. }
  rewrite V. apply near64_ge_bpow; [exact Hk|]. rewrite Rabs_mult, bpow_plus.
  apply Rmult_le_compat; try apply bpow_ge_0; assumption.
Qed.

(** The power of two just above a positive real. *)
Lemma pow_above m : 0 < m -> exists k, bpow radix2 (k - 1) <= m <= bpow radix2 k.
Proof.
  intros H. destruct (mag radix2 m) as (k & Hk). exists k.
  specialize (Hk (Rgt_not_eq _ _ H)). rewrite (Rabs_pos_eq m) in Hk by lra. lra.
Qed.
Lemma pow_range m l u k : bpow radix2 l <= m <= bpow radix2 u -> bpow radix2 (k - 1) <= m <= bpow radix2 k -> (l <= k <= u + 1)%Z.
Proof.
  intros (A & B) (C & D). split.
  - apply (le_bpow radix2). lra.
  - assert (K : bpow radix2 (k - 1) <= bpow radix2 u) by lra. apply le_bpow in K. lia.
Qed.
Lemma two_bp k : 2 * bpow radix2 k = bpow radix2 (k + 1).
Proof. rewrite bpow_plus. change (bpow radix2 1) with 2. ring. Qed.

(** The larger operand is between [2^(k-1)] and [2^k]. *)
Definition at_scale (k : Z) (a b : b64) : Prop := upto k a /\ upto k b /\
  (bpow radix2 (k - 1) <= Rabs (val64 a) \/ bpow radix2 (k - 1) <= Rabs (val64 b)).
Lemma scale_of a b l u : finite64 a -> finite64 b -> bpow radix2 l <= largest a b <= bpow radix2 u ->
  exists k, at_scale k a b /\ (l <= k <= u + 1)%Z /\ bpow radix2 (k - 1) <= largest a b <= bpow radix2 k.
Proof.
  intros Fa Fb H. destruct (pow_above (largest a b)) as (k & Hk); [pose proof (bpow_gt_0 radix2 l); lra|].
  exists k. split; [|split; [eapply pow_range; eassumption|exact Hk]].
  unfold largest, Rmax in Hk. destruct (Rle_dec (Rabs (val64 a)) (Rabs (val64 b))) as [L|L].
  - split; [split; [exact Fa|lra]|]. split; [split; [exact Fb|lra]|]. right. lra.
  - split; [split; [exact Fa|lra]|]. split; [split; [exact Fb|lra]|]. left. lra.
Qed.

Lemma f_scale f m k : bpow radix2 (k - 1) <= m <= bpow radix2 k -> finite64 f -> m <= 2 * val64 f -> val64 f <= 4 * m ->
  upto (k + 2) f /\ bpow radix2 (k - 2) <= Rabs (val64 f).
Proof.
  intros (A & B) F C D. pose proof (bpow_gt_0 radix2 (k - 1)) as P.
  rewrite Rabs_pos_eq by lra. split.
  - split; [exact F|]. rewrite Rabs_pos_eq by lra. rewrite bpow_plus. change (bpow radix2 2) with 4. lra.
  - assert (E : 2 * bpow radix2 (k - 2) = bpow radix2 (k - 1)) by (rewrite two_bp; f_equal; lia). lra.
Qed.
Lemma cube_scale f k : (-350 <= k <= 339)%Z -> upto (k + 2) f -> bpow radix2 (k - 2) <= Rabs (val64 f) ->
  finite64 (b64_mul (b64_mul f f) f) /\ bpow radix2 (3 * k - 6) <= Rabs (val64 (b64_mul (b64_mul f f) f)).
Proof.
  intros Hk U L.
  assert (U2 : upto (2 * k + 4) (b64_mul f f)) by (eapply um; [exact U|exact U|lia|lia]).
  assert (L2 : bpow radix2 (2 * k - 4) <= Rabs (val64 (b64_mul f f))).
  { replace (2 * k - 4)%Z with ((k - 2) + (k - 2))%Z by lia. eapply low_mul; [exact U|exact U| | | |]; try assumption; lia. }
  split.
  - assert (U3 : upto 1023 (b64_mul (b64_mul f f) f)) by (eapply um; [exact U2|exact U|lia|lia]). apply U3.
  - replace (3 * k - 6)%Z with ((2 * k - 4) + (k - 2))%Z by lia. eapply low_mul; [exact U2|exact U| | | |]; try assumption; lia.
Qed.

(** ** gradient and Hessian from bounded coefficients *)
Section Combine.
  Context (M : libm) (ord : Z) (n : nat) (q p d : Z) (J K : jet b64) (f da db daa dab dbb : b64).
  Hypothesis (Hq : (0 <= q)%Z) (Hp : (-500 <= p)%Z) (Hd : (-600 <= d)%Z) (Hpq : (p + q <= 1021)%Z) (Hdq : (d + 2 * q <= 1020)%Z).
  Hypothesis (Ha : upto p da) (Hb : upto p db) (Haa : upto d daa) (Hab : upto d dab) (Hbb : upto d dbb).
  Hypothesis (DJ : data_upto ord n q (jg J) (hess J)) (DK : data_upto ord n q (jg K) (hess K)).
  Lemma combine : let r := jb (b64ops M) f (CVal da) (CVal db) (CVal daa) (CVal dab) (CVal dbb) J K in
    data_finite ord n (jg r) (hess r).
  Proof.
    destruct DJ as (GJ & HJ), DK as (GK & HK). split.
    - intros i Hi. cbn. specialize (GJ i Hi). specialize (GK i Hi).
      eapply (ua _ _ (p + q) (p + q) (p + q + 1)); [eapply um; [exact Ha|exact GJ|lia|lia]|eapply um; [exact Hb|exact GK|lia|lia]|lia|lia|lia].
    - intros Ho i j Hi Hj. unfold hess. cbn.
      set (i' := Nat.min i j). set (j' := Nat.max i j).
      assert (Hi' : (i' < n)%nat) by (subst i' j'; lia). assert (Hj' : (j' < n)%nat) by (subst i' j'; lia).
      specialize (HJ Ho i j Hi Hj). specialize (HK Ho i j Hi Hj). unfold hess in HJ, HK. fold i' j' in HJ, HK.
      pose proof (GJ i' Hi') as A. pose proof (GK i' Hi') as A'. pose proof (GJ j' Hj') as B. pose proof (GK j' Hj') as B'.
      assert (BASE : upto 1022 (b64_add (b64_mul da (jh J i' j')) (b64_mul db (jh K i' j')))).
      { apply (ua _ _ (p + q) (p + q) 1022); [eapply um; [exact Ha|exact HJ|lia|lia]|eapply um; [exact Hb|exact HK|lia|lia]|lia|lia|lia]. }
      assert (T : forall u v w, upto d u -> upto d v -> upto q w ->
        upto (d + 2 * q + 1) (b64_mul (b64_add (b64_mul u (jg J i')) (b64_mul v (jg K i'))) w)).
      { intros u v w Hu Hv Hw. eapply um; [|exact Hw| |lia].
        - apply (ua _ _ (d + q) (d + q) (d + q + 1)); [eapply um; [exact Hu|exact A|lia|lia]|eapply um; [exact Hv|exact A'|lia|lia]|lia|lia|lia].
        - lia. }
      apply (ua _ _ 1022 (d + 2 * q + 2) 1023); [exact BASE| |lia|lia|lia].
      apply (ua _ _ (d + 2 * q + 1) (d + 2 * q + 1)); [apply T; assumption|apply T; assumption|lia|lia|lia].
  Qed.
End Combine.

Lemma data_hess ord n q c (x : dd b64) f g h : cfg_ok c -> shows c n x f g h -> ord = c_ord c ->
  data_upto ord n q g h -> data_upto ord n q g (hess (mkjet f g h)).
Proof.
  intros Hc Hx -> (A & B). split; [exact A|]. intros Ho i j Hi Hj. unfold hess. cbn. apply B; [exact Ho|lia|lia].
Qed.

Lemma hypot_range M c n x y a b g g' h h' l q : hypot_close M -> cfg_ok c ->
  shows c n x a g h -> shows c n y b g' h' -> finite64 a -> finite64 b ->
  (-350 <= l)%Z -> (0 <= q)%Z -> (2 * q - l <= 1010)%Z ->
  bpow radix2 l <= largest a b <= bpow radix2 338 ->
  data_upto (c_ord c) n q g h -> data_upto (c_ord c) n q g' h' ->
  exists r G H, hypot (b64ops M) c x y = Ok r /\ shows c n r (m_hypot M a b) G H /\ data_finite (c_ord c) n G H.
Proof.
  intros HM Hc Hx Hy Fa Fb Hl Hq Hlq Hr Dx Dy.
  pose proof (shows_rep _ _ _ _ _ _ Hc Hx) as HJ. pose proof (shows_rep _ _ _ _ _ _ Hc Hy) as HK.
  destruct (apply_b_rep (b64ops M) c Hc n _ _ x y Bhypot HJ HK) as (r & E & R). apply rep_shows in R.
  exists r. do 2 eexists. split; [exact E|]. split; [exact R|].
  destruct (HM a b Fa Fb) as (Ff & L1 & L2).
  { split; [eapply Rle_trans; [apply (bpow_le radix2 (-350) l); lia|apply Hr]|eapply Rle_trans; [apply Hr|apply bpow_le; lia]]. }
  destruct (scale_of a b l 338 Fa Fb Hr) as (k & (Ua & Ub & _) & Hk & Sk).
  destruct (f_scale _ _ k Sk Ff L1 L2) as (Uf & Lf). destruct (cube_scale _ k ltac:(lia) Uf Lf) as (F3 & L3).
  assert (LU : (l <= 338)%Z) by (apply (le_bpow radix2); lra).
  unfold jap_b. cbn [k_b]. unfold k_hypot, jb6. cbv zeta. cbn [jf].
  assert (DX : data_upto (c_ord c) n q (jg (mkjet a g h)) (hess (mkjet a g h))) by (eapply data_hess; eauto).
  assert (DY : data_upto (c_ord c) n q (jg (mkjet b g' h')) (hess (mkjet b g' h'))) by (eapply data_hess; eauto).
  apply (combine M (c_ord c) n q 2 (6 - l)); try assumption; try lia; cbn [o_div o_mul o_neg o_hypot b64ops].
  - eapply ud; [exact Ua|exact Ff|exact Lf|lia|lia].
  - eapply ud; [exact Ub|exact Ff|exact Lf|lia|lia].
  - eapply ud; [eapply (um _ _ k k (2 * k)); [exact Ub|exact Ub|lia|lia]|exact F3|exact L3|lia|lia].
  - eapply ud; [eapply (um _ _ k k (2 * k)); [apply upto_neg; exact Ua|exact Ub|lia|lia]|exact F3|exact L3|lia|lia].
  - eapply ud; [eapply (um _ _ k k (2 * k)); [exact Ua|exact Ua|lia|lia]|exact F3|exact L3|lia|lia].
Qed.

(** ** atan2 *)
Lemma near64_mono x y : x <= y -> near64 x <= near64 y.
Proof. intros H. rewrite !near64_rnd. apply round_le; [exact _|exact _|exact H]. Qed.
Lemma near64_nonneg x : 0 <= x -> 0 <= near64 x.
Proof. intros H. rewrite <- near64_0. apply near64_mono, H. Qed.
Lemma sq_val x e : upto e x -> (-1074 <= 2 * e <= 1023)%Z ->
  upto (2 * e) (b64_mul x x) /\ 0 <= val64 (b64_mul x x) /\ val64 (b64_mul x x) = near64 (val64 x * val64 x).
Proof.
  intros U He. assert (V : upto (2 * e) (b64_mul x x)) by (eapply um; [exact U|exact U|lia|lia]).
  split; [exact V|]. destruct U as (F & B). destruct (mul_ok x x F F) as (_ & E).
  { eapply Rle_lt_trans; [apply (near64_le_bpow _ (e + e)); [lia|]|apply bp_lt_max; lia].
    rewrite Rabs_mult, bpow_plus. apply Rmult_le_compat; try apply Rabs_pos; assumption. }
  rewrite E. split; [apply near64_nonneg; nra|reflexivity].
Qed.
Lemma sq_low x e k : upto e x -> (-1074 <= 2 * e <= 1023)%Z -> (-1074 <= 2 * k)%Z -> bpow radix2 k <= Rabs (val64 x) ->
  bpow radix2 (2 * k) <= val64 (b64_mul x x).
Proof.
  intros U He Hk B. destruct (sq_val x e U He) as (_ & P & _). rewrite <- (Rabs_pos_eq _ P).
  replace (2 * k)%Z with (k + k)%Z by lia. eapply low_mul; [exact U|exact U| | | |]; try assumption; lia.
Qed.
Lemma sum_low s t e k : upto e s -> upto e t -> (-1074 <= e <= 1022)%Z -> (-1074 <= k)%Z -> 0 <= val64 s -> 0 <= val64 t ->
  bpow radix2 k <= val64 s \/ bpow radix2 k <= val64 t ->
  upto (e + 1) (b64_add s t) /\ 0 <= val64 (b64_add s t) /\ bpow radix2 k <= val64 (b64_add s t).
Proof.
  intros Us Ut He Hk Ps Pt L. assert (U : upto (e + 1) (b64_add s t)) by (apply upto_add; [exact Us|exact Ut|lia]).
  assert (V : val64 (b64_add s t) = near64 (val64 s + val64 t)).
  { destruct Us as (Fs & Bs), Ut as (Ft & Bt). apply add_ok; [exact Fs|exact Ft|].
    eapply Rle_lt_trans; [apply (near64_le_bpow _ (e + 1)); [lia|]|apply bp_lt_max; lia].
    rewrite <- bp_double. eapply Rle_trans; [apply Rabs_triang|]. lra. }
  pose proof (bpow_gt_0 radix2 k) as P.
  assert (G : bpow radix2 k <= val64 (b64_add s t)).
  { rewrite V. assert (Q : 0 <= near64 (val64 s + val64 t)) by (apply near64_nonneg; lra). rewrite <- (Rabs_pos_eq _ Q).
    apply near64_ge_bpow; [exact Hk|]. rewrite Rabs_pos_eq by lra. lra. }
  split; [exact U|]. split; [lra|exact G].
Qed.
Lemma sumsq_scale a b k : at_scale k a b -> (-500 <= k <= 510)%Z ->
  let t := b64_add (b64_mul a a) (b64_mul b b) in upto (2 * k + 1) t /\ 0 <= val64 t /\ bpow radix2 (2 * k - 2) <= val64 t.
Proof.
  intros (Ua & Ub & L) Hk. destruct (sq_val a k Ua ltac:(lia)) as (Ua2 & Pa & _). destruct (sq_val b k Ub ltac:(lia)) as (Ub2 & Pb & _).
  apply sum_low; try assumption; try lia.
  replace (2 * k - 2)%Z with (2 * (k - 1))%Z by lia.
  destruct L as [L|L]; [left|right]; eapply sq_low; try eassumption; lia.
Qed.
Lemma two_upto : upto 1 (b64_of_Z 2).
Proof. destruct (of_Z_exact 2 ltac:(lia)) as (F & V). split; [exact F|]. rewrite V. cbn. rewrite Rabs_pos_eq; lra. Qed.

Lemma atan2_range M c n x y a b g g' h h' l q : cfg_ok c ->
  shows c n x a g h -> shows c n y b g' h' -> finite64 a -> finite64 b ->
  (-500 <= l)%Z -> (0 <= q)%Z -> (q - l <= 500)%Z ->
  bpow radix2 l <= largest a b <= bpow radix2 300 ->
  data_upto (c_ord c) n q g h -> data_upto (c_ord c) n q g' h' ->
  exists r G H, atan2 (b64ops M) c x y = Ok r /\ shows c n r (m_atan2 M a b) G H /\ data_finite (c_ord c) n G H.
Proof.
  intros Hc Hx Hy Fa Fb Hl Hq Hlq Hr Dx Dy.
  pose proof (shows_rep _ _ _ _ _ _ Hc Hx) as HJ. pose proof (shows_rep _ _ _ _ _ _ Hc Hy) as HK.
  destruct (apply_b_rep (b64ops M) c Hc n _ _ x y Batan2 HJ HK) as (r & E & R). apply rep_shows in R.
  exists r. do 2 eexists. split; [exact E|]. split; [exact R|].
  assert (LU : (l <= 300)%Z) by (apply (le_bpow radix2); lra).
  destruct (scale_of a b l 300 Fa Fb Hr) as (k & SC & Hk & Sk). pose proof SC as (Ua & Ub & _).
  destruct (sumsq_scale a b k SC ltac:(lia)) as ((Ft & _) & Pt & Lt). rewrite <- (Rabs_pos_eq _ Pt) in Lt.
  unfold jap_b. cbn [k_b]. unfold k_atan2, jb6. cbv zeta. cbn [jf].
  assert (DX : data_upto (c_ord c) n q (jg (mkjet a g h)) (hess (mkjet a g h))) by (eapply data_hess; eauto).
  assert (DY : data_upto (c_ord c) n q (jg (mkjet b g' h')) (hess (mkjet b g' h'))) by (eapply data_hess; eauto).
  cbn [o_div o_mul o_neg o_add o_sub o_atan2 o_Z b64ops].
  set (t := b64_add (b64_mul a a) (b64_mul b b)) in *.
  assert (A : upto (2 - l) (b64_div b t)) by (eapply ud; [exact Ub|exact Ft|exact Lt|lia|lia]).
  assert (B : upto (2 - l) (b64_div (b64_neg a) t)) by (eapply ud; [apply upto_neg, Ua|exact Ft|exact Lt|lia|lia]).
  assert (C : upto (5 - 2 * l) (b64_mul (b64_mul (b64_div (b64_neg a) t) (b64_div b t)) (b64_of_Z 2))).
  { eapply (um _ _ (4 - 2 * l) 1); [eapply um; [exact B|exact A|lia|lia]|exact two_upto|lia|lia]. }
  apply (combine M (c_ord c) n q (2 - l) (5 - 2 * l)); try assumption; try lia.
  - replace (5 - 2 * l)%Z with (4 - 2 * l + 1)%Z by lia. apply upto_sub; [eapply um; [exact B|exact B|lia|lia]|eapply um; [exact A|exact A|lia|lia]|lia].
  - apply upto_neg, C.
Qed.

(** ** hypot of three numbers *)
Section Combine3.
  Context (M : libm) (ord : Z) (n : nat) (q p d : Z) (J K L : jet b64) (f da db dc daa dab dac dbb dbc dcc : b64).
  Hypothesis (Hq : (0 <= q)%Z) (Hp : (-500 <= p)%Z) (Hd : (-600 <= d)%Z) (Hpq : (p + q <= 1020)%Z) (Hdq : (d + 2 * q <= 1018)%Z).
  Hypothesis (Ha : upto p da) (Hb : upto p db) (Hc : upto p dc) (Haa : upto d daa) (Hab : upto d dab) (Hac : upto d dac)
    (Hbb : upto d dbb) (Hbc : upto d dbc) (Hcc : upto d dcc).
  Hypothesis (DJ : data_upto ord n q (jg J) (hess J)) (DK : data_upto ord n q (jg K) (hess K)) (DL : data_upto ord n q (jg L) (hess L)).
  Lemma sum3 u v w u' v' w' m e s : upto m u -> upto m v -> upto m w -> upto e u' -> upto e v' -> upto e w' ->
    (-1074 <= m + e)%Z -> (s = m + e + 2)%Z -> (s <= 1023)%Z -> upto s (b64_add (b64_add (b64_mul u u') (b64_mul v v')) (b64_mul w w')).
  Proof.
    intros A B C A' B' C' H -> H'. apply (ua _ _ (m + e + 1) (m + e)); try lia.
    - apply (ua _ _ (m + e) (m + e)); try lia; [eapply um; [exact A|exact A'|lia|lia]|eapply um; [exact B|exact B'|lia|lia]].
    - eapply um; [exact C|exact C'|lia|lia].
  Qed.
  Lemma combine3 : let r := jt (b64ops M) f (CVal da) (CVal db) (CVal dc) (CVal daa) (CVal dab) (CVal dac) (CVal dbb) (CVal dbc) (CVal dcc) J K L in
    data_finite ord n (jg r) (hess r).
  Proof.
    destruct DJ as (GJ & HJ), DK as (GK & HK), DL as (GL & HL). split.
    - intros i Hi. cbn. specialize (GJ i Hi). specialize (GK i Hi). specialize (GL i Hi).
      eapply (sum3 _ _ _ _ _ _ p q); try eassumption; try reflexivity; lia.
    - intros Ho i j Hi Hj. unfold hess. cbn.
      set (i' := Nat.min i j). set (j' := Nat.max i j).
      assert (Hi' : (i' < n)%nat) by (subst i' j'; lia). assert (Hj' : (j' < n)%nat) by (subst i' j'; lia).
      specialize (HJ Ho i j Hi Hj). specialize (HK Ho i j Hi Hj). specialize (HL Ho i j Hi Hj). unfold hess in HJ, HK, HL. fold i' j' in HJ, HK, HL.
      pose proof (GJ i' Hi') as A. pose proof (GK i' Hi') as A'. pose proof (GL i' Hi') as A''.
      pose proof (GJ j' Hj') as B. pose proof (GK j' Hj') as B'. pose proof (GL j' Hj') as B''.
      apply (ua _ _ (p + q + 2) (d + 2 * q + 4) 1023); [|
       |lia|lia|lia].
      { eapply sum3; try eassumption; try reflexivity; lia. }
      replace (d + 2 * q + 4)%Z with ((d + q + 2) + q + 2)%Z by lia.
      eapply (sum3 _ _ _ _ _ _ (d + q + 2) q); try eassumption; try reflexivity; try lia;
        eapply (sum3 _ _ _ _ _ _ d q); try eassumption; try reflexivity; lia.
  Qed.
End Combine3.

Lemma hypot3_range M c n x y z a b e g g' g'' h h' h'' l q : hypot3_close M -> cfg_ok c ->
  shows c n x a g h -> shows c n y b g' h' -> shows c n z e g'' h'' -> finite64 a -> finite64 b -> finite64 e ->
  (-350 <= l)%Z -> (0 <= q)%Z -> (2 * q - l <= 1010)%Z ->
  bpow radix2 l <= Rmax (largest a b) (Rabs (val64 e)) <= bpow radix2 338 ->
  data_upto (c_ord c) n q g h -> data_upto (c_ord c) n q g' h' -> data_upto (c_ord c) n q g'' h'' ->
  exists r G H, hypot3 (b64ops M) c x y z = Ok r /\ shows c n r (m_hypot3 M a b e) G H /\ data_finite (c_ord c) n G H.
Proof.
  intros HM Hc Hx Hy Hz Fa Fb Fe Hl Hq Hlq Hr Dx Dy Dz.
  pose proof (shows_rep _ _ _ _ _ _ Hc Hx) as HJ. pose proof (shows_rep _ _ _ _ _ _ Hc Hy) as HK. pose proof (shows_rep _ _ _ _ _ _ Hc Hz) as HL.
  destruct (hypot3_rep (b64ops M) c Hc n _ _ _ x y z HJ HK HL) as (r & E & R). apply rep_shows in R.
  exists r. do 2 eexists. split; [exact E|]. split; [exact R|].
  destruct (HM a b e Fa Fb Fe) as (Ff & L1 & L2).
  { split; [eapply Rle_trans; [apply (bpow_le radix2 (-350) l); lia|apply Hr]|eapply Rle_trans; [apply Hr|apply bpow_le; lia]]. }
  destruct (pow_above _ (Rlt_le_trans _ _ _ (bpow_gt_0 radix2 l) (proj1 Hr))) as (k & Sk).
  pose proof (pow_range _ _ _ _ Hr Sk) as Hk.
  assert (Ua : upto k a) by (split; [exact Fa|]; eapply Rle_trans; [|apply Sk]; eapply Rle_trans; [|apply Rmax_l]; apply Rmax_l).
  assert (Ub : upto k b) by (split; [exact Fb|]; eapply Rle_trans; [|apply Sk]; eapply Rle_trans; [|apply Rmax_l]; apply Rmax_r).
  assert (Ue : upto k e) by (split; [exact Fe|]; eapply Rle_trans; [|apply Sk]; apply Rmax_r).
  destruct (f_scale _ _ k Sk Ff L1 L2) as (Uf & Lf). destruct (cube_scale _ k ltac:(lia) Uf Lf) as (F3 & L3).
  assert (LU : (l <= 338)%Z) by (apply (le_bpow radix2); lra).
  assert (PR : forall u v, upto k u -> upto k v -> upto (2 * k) (b64_mul u v)).
  { intros u v U V. eapply um; [exact U|exact V|lia|lia]. }
  assert (SM : forall u v, upto (2 * k) u -> upto (2 * k) v -> upto (2 * k + 1) (b64_add u v)).
  { intros u v U V. apply upto_add; [exact U|exact V|lia]. }
  unfold jap_hypot3. cbv zeta. cbn [jf].
  assert (DX : data_upto (c_ord c) n q (jg (mkjet a g h)) (hess (mkjet a g h))) by (eapply data_hess; eauto).
  assert (DY : data_upto (c_ord c) n q (jg (mkjet b g' h')) (hess (mkjet b g' h'))) by (eapply data_hess; eauto).
  assert (DZ : data_upto (c_ord c) n q (jg (mkjet e g'' h'')) (hess (mkjet e g'' h''))) by (eapply data_hess; eauto).
  apply (combine3 M (c_ord c) n q 2 (7 - l)); try assumption; try lia; cbn [o_div o_mul o_add o_neg o_hypot3 b64ops];
    try (eapply ud; [eassumption|exact Ff|exact Lf|lia|lia]);
    try (eapply ud; [apply SM; apply PR; assumption|exact F3|exact L3|lia|lia]);
    (eapply ud; [apply upto_neg, PR; assumption|exact F3|exact L3|lia|lia]).
Qed.

(** ** a [hypot] that meets the hypothesis: the square root of the rounded sum of the rounded squares *)
Lemma sqrt_near x : 0 <= val64 x -> finite64 x -> finite64 (b64_sqrt x) /\ val64 (b64_sqrt x) = near64 (sqrt (val64 x)).
Proof.
  intros P F. unfold finite64, val64, b64_sqrt in *.
  destruct (Bsqrt_correct prec64 emax64 prec64_gt_0 prec64_lt_emax mode_NE x) as (V & G & _).
  split; [|exact V]. rewrite G. destruct x as [s|s| |s m e Hb]; try reflexivity; try discriminate.
  destruct s; [|reflexivity]. exfalso. unfold B2R in P. cbn in P.
  apply Rle_not_lt in P. apply P. apply (F2R_lt_0 radix2). reflexivity.
Qed.
Lemma sqrt_bp k : sqrt (bpow radix2 (2 * k)) = bpow radix2 k.
Proof. replace (2 * k)%Z with (k + k)%Z by lia. rewrite bpow_plus. apply sqrt_square, bpow_ge_0. Qed.
Definition hyp64 (a b : b64) : b64 := b64_sqrt (b64_add (b64_mul a a) (b64_mul b b)).
Lemma hyp64_close a b : finite64 a -> finite64 b -> bpow radix2 (-350) <= largest a b <= bpow radix2 339 ->
  finite64 (hyp64 a b) /\ largest a b <= 2 * val64 (hyp64 a b) /\ val64 (hyp64 a b) <= 4 * largest a b.
Proof.
  intros Fa Fb Hr. destruct (scale_of a b _ _ Fa Fb Hr) as (k & SC & Hk & Sk).
  destruct (sumsq_scale a b k SC ltac:(lia)) as ((Ft & Ut) & Pt & Lt). rewrite (Rabs_pos_eq _ Pt) in Ut.
  destruct (sqrt_near _ Pt Ft) as (F & V). split; [exact F|]. unfold hyp64. rewrite V.
  assert (A : bpow radix2 (k - 1) <= sqrt (val64 (b64_add (b64_mul a a) (b64_mul b b))) <= bpow radix2 (k + 1)).
  { split.
    - rewrite <- sqrt_bp. apply sqrt_le_1_alt. replace (2 * (k - 1))%Z with (2 * k - 2)%Z by lia. exact Lt.
    - rewrite <- sqrt_bp. apply sqrt_le_1_alt. eapply Rle_trans; [exact Ut|]. apply bpow_le. lia. }
  set (s := sqrt _) in *. assert (Ps : 0 <= s) by apply sqrt_pos.
  assert (N : 0 <= near64 s) by (apply near64_nonneg, Ps).
  assert (L : bpow radix2 (k - 1) <= near64 s).
  { rewrite <- (Rabs_pos_eq _ N). apply near64_ge_bpow; [lia|]. rewrite Rabs_pos_eq by exact Ps. apply A. }
  assert (U : near64 s <= bpow radix2 (k + 1)).
  { rewrite <- (Rabs_pos_eq (near64 s) N). apply near64_le_bpow; [lia|]. rewrite Rabs_pos_eq by exact Ps. apply A. }
  pose proof (two_bp (k - 1)) as E1. pose proof (two_bp k) as E2. replace (k - 1 + 1)%Z with k in E1 by lia. lra.
Qed.
Definition with_hypot (f : b64 -> b64 -> b64) (f3 : b64 -> b64 -> b64 -> b64) : libm :=
  Build_libm (m_pow no_libm) (m_cbrt no_libm) (m_cos no_libm) (m_sin no_libm) (m_tan no_libm) (m_acos no_libm)
    (m_asin no_libm) (m_atan no_libm) (m_atan2 no_libm) f f3 (m_cosh no_libm) (m_sinh no_libm)
    (m_tanh no_libm) (m_acosh no_libm) (m_asinh no_libm) (m_atanh no_libm) (m_exp no_libm) (m_log no_libm) (m_log2 no_libm) (m_log10 no_libm).
Definition hyp64_3 (a b e : b64) : b64 := b64_sqrt (b64_add (b64_add (b64_mul a a) (b64_mul b b)) (b64_mul e e)).
Lemma hyp64_3_close a b e : finite64 a -> finite64 b -> finite64 e ->
  bpow radix2 (-350) <= Rmax (largest a b) (Rabs (val64 e)) <= bpow radix2 339 ->
  finite64 (hyp64_3 a b e) /\ Rmax (largest a b) (Rabs (val64 e)) <= 2 * val64 (hyp64_3 a b e) /\
  val64 (hyp64_3 a b e) <= 4 * Rmax (largest a b) (Rabs (val64 e)).
Proof.
  intros Fa Fb Fe Hr.
  destruct (pow_above _ (Rlt_le_trans _ _ _ (bpow_gt_0 radix2 _) (proj1 Hr))) as (k & Sk).
  pose proof (pow_range _ _ _ _ Hr Sk) as Hk.
  assert (Ua : upto k a) by (split; [exact Fa|]; eapply Rle_trans; [|apply Sk]; eapply Rle_trans; [|apply Rmax_l]; apply Rmax_l).
  assert (Ub : upto k b) by (split; [exact Fb|]; eapply Rle_trans; [|apply Sk]; eapply Rle_trans; [|apply Rmax_l]; apply Rmax_r).
  assert (Ue : upto k e) by (split; [exact Fe|]; eapply Rle_trans; [|apply Sk]; apply Rmax_r).
  assert (SOME : bpow radix2 (k - 1) <= Rabs (val64 a) \/ bpow radix2 (k - 1) <= Rabs (val64 b) \/ bpow radix2 (k - 1) <= Rabs (val64 e)).
  { destruct Sk as (Sk & _). unfold largest, Rmax in Sk.
    destruct (Rle_dec (Rabs (val64 a)) (Rabs (val64 b))), (Rle_dec _ (Rabs (val64 e))); tauto. }
  destruct (sq_val a k Ua ltac:(lia)) as (Ua2 & Pa & _). destruct (sq_val b k Ub ltac:(lia)) as (Ub2 & Pb & _).
  destruct (sq_val e k Ue ltac:(lia)) as (Ue2 & Pe & _).
  assert (SQ : forall v, upto k v -> bpow radix2 (k - 1) <= Rabs (val64 v) -> bpow radix2 (2 * k - 2) <= val64 (b64_mul v v)).
  { intros v Uv B. replace (2 * k - 2)%Z with (2 * (k - 1))%Z by lia. eapply sq_low; try eassumption; lia. }
  set (s2 := b64_add (b64_mul a a) (b64_mul b b)).
  assert (X : upto (2 * k + 1) s2 /\ 0 <= val64 s2 /\
    (bpow radix2 (k - 1) <= Rabs (val64 a) \/ bpow radix2 (k - 1) <= Rabs (val64 b) -> bpow radix2 (2 * k - 2) <= val64 s2)).
  { split; [apply upto_add; [exact Ua2|exact Ub2|lia]|]. split.
    - destruct (add_ok (b64_mul a a) (b64_mul b b) (proj1 Ua2) (proj1 Ub2)) as (_ & V).
      { eapply Rle_lt_trans; [apply (near64_le_bpow _ (2 * k + 1)); [lia|]|apply bp_lt_max; lia].
        rewrite <- bp_double. eapply Rle_trans; [apply Rabs_triang|]. destruct Ua2, Ub2. lra. }
      unfold s2. rewrite V. apply near64_nonneg. lra.
    - intros D. refine (proj2 (proj2 (sum_low _ _ (2 * k) (2 * k - 2) Ua2 Ub2 ltac:(lia) ltac:(lia) Pa Pb _))).
      destruct D as [D|D]; [left|right]; apply SQ; assumption. }
  destruct X as (U2 & P2 & L2).
  destruct (sum_low s2 (b64_mul e e) (2 * k + 1) (2 * k - 2)) as ((Ft & Ut) & Pt & Lt); try assumption; try lia.
  { eapply upto_le; [exact Ue2|lia]. }
  { destruct SOME as [D|[D|D]]; [left; apply L2; left; exact D|left; apply L2; right; exact D|right; apply SQ; assumption]. }
  rewrite (Rabs_pos_eq _ Pt) in Ut.
  destruct (sqrt_near _ Pt Ft) as (F & V). split; [exact F|]. unfold hyp64_3. fold s2. rewrite V.
  set (m := Rmax _ _) in *.
  assert (A : bpow radix2 (k - 1) <= sqrt (val64 (b64_add s2 (b64_mul e e))) <= bpow radix2 (k + 1)).
  { split.
    - rewrite <- sqrt_bp. apply sqrt_le_1_alt. replace (2 * (k - 1))%Z with (2 * k - 2)%Z by lia. exact Lt.
    - rewrite <- sqrt_bp. apply sqrt_le_1_alt. eapply Rle_trans; [exact Ut|]. apply bpow_le. lia. }
  set (s := sqrt _) in *. assert (Ps : 0 <= s) by apply sqrt_pos.
  assert (N : 0 <= near64 s) by (apply near64_nonneg, Ps).
  assert (L : bpow radix2 (k - 1) <= near64 s).
  { rewrite <- (Rabs_pos_eq _ N). apply near64_ge_bpow; [lia|]. rewrite Rabs_pos_eq by exact Ps. apply A. }
  assert (U : near64 s <= bpow radix2 (k + 1)).
  { rewrite <- (Rabs_pos_eq (near64 s) N). apply near64_le_bpow; [lia|]. rewrite Rabs_pos_eq by exact Ps. apply A. }
  pose proof (two_bp (k - 1)) as E1. pose proof (two_bp k) as E2. replace (k - 1 + 1)%Z with k in E1 by lia. lra.
Qed.
Definition root_libm : libm := with_hypot hyp64 hyp64_3.
Lemma root_libm_close : hypot_close root_libm /\ hypot3_close root_libm.
Proof. split; intros a b; [exact (hyp64_close a b)|exact (hyp64_3_close a b)]. Qed.

(** ** large values: [f*f*f] overflows *)
Lemma finite_nonzero (x : b64) k : bpow radix2 k <= Rabs (val64 x) -> finite64 x -> exists s m e H, x = B754_finite s m e H.
Proof.
  intros B F. destruct x as [s|s| |s m e H]; try discriminate.
  - exfalso. pose proof (bpow_gt_0 radix2 k). unfold val64, B2R in B. rewrite Rabs_R0 in B. lra.
  - eauto.
Qed.
Lemma big_cube f k : (342 <= k <= 1023)%Z -> upto k f -> bpow radix2 342 <= Rabs (val64 f) -> exists s, b64_mul (b64_mul f f) f = B754_infinity s.
Proof.
  intros Hk Uf B. destruct (finite_nonzero f _ B (proj1 Uf)) as (s & m & e & H & E).
  destruct (Rle_lt_dec (bpow radix2 1024) (Rabs (near64 (val64 f * val64 f)))) as [V|V].
  - rewrite (mul_over f f V), E. eexists. reflexivity.
  - destruct (mul_ok f f (proj1 Uf) (proj1 Uf) V) as (F2 & V2). eexists. apply mul_over. rewrite V2.
    assert (B2 : bpow radix2 684 <= Rabs (near64 (val64 f * val64 f))).
    { apply near64_ge_bpow; [lia|]. change 684%Z with (342 + 342)%Z. rewrite bpow_plus, Rabs_mult.
      apply Rmult_le_compat; try apply bpow_ge_0; assumption. }
    apply near64_ge_bpow; [lia|]. rewrite Rabs_mult. eapply Rle_trans; [apply (bpow_le radix2 1024 (684 + 342)); lia|].
    rewrite bpow_plus. apply Rmult_le_compat; try apply bpow_ge_0; assumption.
Qed.
Lemma zero_mul_l (a b : b64) : zero64 a -> finite64 b -> zero64 (b64_mul a b).
Proof. intros (s & ->) F. destruct b as [t|t| |t m e H]; try discriminate; eexists; reflexivity. Qed.
Lemma zero_mul_r (a b : b64) : finite64 a -> zero64 b -> zero64 (b64_mul a b).
Proof. intros F (s & ->). destruct a as [t|t| |t m e H]; try discriminate; eexists; reflexivity. Qed.
Lemma zero_add (a b : b64) : zero64 a -> zero64 b -> zero64 (b64_add a b).
Proof. intros (s & ->) (t & ->). destruct s, t; eexists; reflexivity. Qed.
Lemma over_inf (a : b64) s : finite64 a -> zero64 (b64_div a (B754_infinity s)).
Proof. intros F. destruct a as [t|t| |t m e H]; try discriminate; eexists; reflexivity. Qed.
Lemma zero_finite (a : b64) : zero64 a -> finite64 a.
Proof. intros (s & ->). reflexivity. Qed.
Lemma zero_div (s : bool) (b : b64) k : finite64 b -> bpow radix2 k <= Rabs (val64 b) -> zero64 (b64_div (B754_zero s) b).
Proof. intros F B. destruct (finite_nonzero b k B F) as (t & m & e & H & ->). eexists. reflexivity. Qed.

Lemma upto_max (a : b64) : finite64 a -> Rabs (val64 a) <= bpow radix2 1024.
Proof. intros F. left. apply (abs_B2R_lt_emax prec64 emax64 a). Qed.

Lemma hypot_large M c n x y a s g g' h h' : hypot_zero_case M -> cfg_ok c ->
  shows c n x a g h -> shows c n y (B754_zero s) g' h' -> finite64 a -> bpow radix2 342 <= Rabs (val64 a) <= bpow radix2 511 ->
  (forall i, (i < n)%nat -> finite64 (g i) /\ finite64 (g' i)) ->
  (c_ord c = 2%Z -> forall i j, (i < n)%nat -> (j < n)%nat -> zero64 (h i j) /\ zero64 (h' i j)) ->
  exists r G H, hypot (b64ops M) c x y = Ok r /\ shows c n r (Babs a) G H /\
    (c_ord c = 2%Z -> forall i j, (i < n)%nat -> (j < n)%nat -> zero64 (H i j)).
Proof.
  intros HM Hc Hx Hy Fa (Ba & Ba') Hg Hh. pose proof (shows_rep _ _ _ _ _ _ Hc Hx) as HJ. pose proof (shows_rep _ _ _ _ _ _ Hc Hy) as HK.
  destruct (apply_b_rep (b64ops M) c Hc n _ _ x y Bhypot HJ HK) as (r & E & R). apply rep_shows in R.
  assert (EF : jf (jap_b (b64ops M) Bhypot (mkjet a g h) (mkjet (B754_zero s) g' h')) = Babs a) by (cbn; apply HM).
  rewrite EF in R. exists r. do 2 eexists. split; [exact E|]. split; [exact R|].
  intros Ho i j Hi Hj. unfold hess. cbn. rewrite HM.
  destruct (abs_val a Fa) as (Ff & Vf). rewrite <- (Rabs_Rabsolu (val64 a)), <- Vf in Ba.
  assert (Uf : upto 511 (Babs a)) by (split; [exact Ff|]; rewrite Vf, Rabs_Rabsolu; exact Ba').
  destruct (big_cube (Babs a) 511 ltac:(lia) Uf Ba) as (t & ->).
  assert (Fd : finite64 (b64_div a (Babs a))).
  { assert (U : upto 169 (b64_div a (Babs a))) by (eapply ud; [split; [exact Fa|exact Ba']|exact Ff|exact Ba|lia|lia]). apply U. }
  assert (Zd : zero64 (b64_div (B754_zero s) (Babs a))) by (eapply zero_div; eassumption).
  assert (Faa : finite64 (b64_mul a a)).
  { assert (U : upto 1022 (b64_mul a a)) by (eapply um; [split; [exact Fa|exact Ba']|split; [exact Fa|exact Ba']|lia|lia]). apply U. }
  destruct (neg_ok a Fa) as (Fn & _).
  set (i' := Nat.min i j). set (j' := Nat.max i j).
  assert (Hi' : (i' < n)%nat) by (subst i' j'; lia). assert (Hj' : (j' < n)%nat) by (subst i' j'; lia).
  destruct (Hg i' Hi') as (A1 & A2). destruct (Hg j' Hj') as (B1 & B2). destruct (Hh Ho i' j' Hi' Hj') as (C1 & C2).
  assert (Za : zero64 (b64_div (b64_mul (B754_zero s) (B754_zero s)) (B754_infinity t))) by (apply over_inf, zero_finite, zero_mul_l; [eexists; reflexivity|reflexivity]).
  assert (Zb : zero64 (b64_div (b64_mul (b64_neg a) (B754_zero s)) (B754_infinity t))) by (apply over_inf, zero_finite, zero_mul_r; [exact Fn|eexists; reflexivity]).
  assert (Zc : zero64 (b64_div (b64_mul a a) (B754_infinity t))) by (apply over_inf, Faa).
  apply zero_add.
  - apply zero_add; [apply zero_mul_r; assumption|apply zero_mul_l; [exact Zd|apply zero_finite; exact C2]].
  - apply zero_add; apply zero_mul_l; try assumption; apply zero_add; apply zero_mul_l; assumption.
Qed.
Lemma hypot_huge M c n x y a s g g' h h' : hypot_zero_case M -> cfg_ok c ->
  shows c n x a g h -> shows c n y (B754_zero s) g' h' -> finite64 a -> bpow radix2 512 <= Rabs (val64 a) ->
  exists r G H, hypot (b64ops M) c x y = Ok r /\ shows c n r (Babs a) G H /\ forall i j, nan64 (H i j).
Proof.
  intros HM Hc Hx Hy Fa Ba. pose proof (shows_rep _ _ _ _ _ _ Hc Hx) as HJ. pose proof (shows_rep _ _ _ _ _ _ Hc Hy) as HK.
  destruct (apply_b_rep (b64ops M) c Hc n _ _ x y Bhypot HJ HK) as (r & E & R). apply rep_shows in R.
  assert (EF : jf (jap_b (b64ops M) Bhypot (mkjet a g h) (mkjet (B754_zero s) g' h')) = Babs a) by (cbn; apply HM).
  rewrite EF in R. exists r. do 2 eexists. split; [exact E|]. split; [exact R|].
  intros i j. unfold hess. cbn. rewrite HM.
  assert (OV : forall v, Rabs (val64 v) = Rabs (val64 a) -> bpow radix2 1024 <= Rabs (near64 (val64 v * val64 v))).
  { intros v Ev. apply near64_ge_bpow; [lia|]. change 1024%Z with (512 + 512)%Z. rewrite bpow_plus, Rabs_mult, Ev.
    apply Rmult_le_compat; try apply bpow_ge_0; assumption. }
  destruct (abs_val a Fa) as (Ff & Vf).
  rewrite (mul_over a a) by (apply OV; reflexivity).
  rewrite (mul_over (Babs a) (Babs a)) by (apply OV; rewrite Vf; apply Rabs_Rabsolu).
  destruct (finite_nonzero a _ Ba Fa) as (t & m & e & H & ->).
  apply nan_add_r. apply nan_add_r, nan_mul_l, nan_add_r, nan_mul_l. destruct t; reflexivity.
Qed.
(** The double 2^400. *)
Definition t400 : b64 := B754_finite false 4503599627370496 348 (eq_refl : SpecFloat.bounded prec64 emax64 4503599627370496 348 = true).
Lemma t400_ok : finite64 t400 /\ val64 t400 = bpow radix2 400.
Proof.
  split; [reflexivity|]. unfold val64, t400, B2R, F2R. cbn [Fnum Fexp cond_Zopp].
  change 400%Z with (52 + 348)%Z. rewrite bpow_plus, (bpow_Z 52) by lia. reflexivity.
Qed.
Definition c400 : dd b64 := mk 1 (full [t400; z64 0; z64 0]).
Lemma shows_c400 : shows dyn2 1 c400 t400 (fun _ => z64 0) (fun _ _ => z64 0).
Proof.
  split; [apply wf_list; [reflexivity|reflexivity|vm_compute; discriminate]|]. split; [reflexivity|].
  split; [intros [|i] Hi; [reflexivity|lia]|]. intros _ [|i] [|j] Hi Hj; try lia. reflexivity.
Qed.
Lemma hypot_curvature a : a <> 0 -> is_derive_n (fun y => sqrt (a * a + y * y)) 2 0 (/ Rabs a).
Proof.
  intros N. assert (P : forall y, 0 < a * a + y * y) by (intros y; nra).
  apply (is_derive_ext (fun y => y / sqrt (a * a + y * y))).
  - intros y. symmetry. apply is_derive_unique. auto_derive; [apply P|]. field. apply Rgt_not_eq, sqrt_lt_R0, P.
  - auto_derive.
    + pose proof (P 0). repeat split; try exact I; try assumption. apply Rgt_not_eq, sqrt_lt_R0; assumption.
    + replace (a * a + 0 * 0) with (Rsqr a) by (unfold Rsqr; ring). rewrite sqrt_Rsqr_abs. field. apply Rabs_no_R0, N.
Qed.
Lemma bp_inj_abs e (v : b64) : val64 v = bpow radix2 e -> Rabs (val64 v) = bpow radix2 e.
Proof. intros ->. apply Rabs_pos_eq, bpow_ge_0. Qed.
