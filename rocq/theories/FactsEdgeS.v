(** Proofs about sparse numbers outside domains and near the ends of the range of doubles (C109, C110). *)
From Coq Require Import ZArith List Bool String Reals Lra Lia.
From Coquelicot Require Import Coquelicot.
From Flocq Require Import Core BinarySingleNaN.
From Verif Require Import Outcome Scalar Float64 Model Spec RealOps ExprSpec Ops64 B64 Facts64 NumSpec RelSpec DomSpec FactsDom RangeSpec FactsRange
  DivSpec FactsDiv ModelS SpecS FactsS SameSpec FactsSame FactsSReal Samples EdgeSSpec.
Import ListNotations.
Open Scope R_scope.

(** ** Outside the domain *)
Lemma unary_nan M F x : nan64 (fst (F (s_f x))) -> nan64 (snd (F (s_f x))) ->
  let r := s_unary_op (b64ops M) F x in
  nan64 (s_get_f r) /\ SpecS.names r = SpecS.names x /\ (forall k, In k (SpecS.names x) -> nan64 (s_get_d (b64ops M) r k)) /\
  (forall k, ~ In k (SpecS.names x) -> s_get_d (b64ops M) r k = b64_of_Z 0).
Proof.
  unfold s_unary_op. destruct (F (s_f x)) as (f & da). cbn [fst snd]. intros A B. split; [exact A|]. split; [apply (keys_map (fun v => b64_mul v da))|].
  split; intros k H; rewrite get_d_dflt; cbn [s_d]; unfold s_unary; rewrite find_map.
  - apply in_keys in H. destruct H as (v & ->). apply nan_mul_r, B.
  - apply find_none in H. rewrite H. reflexivity.
Qed.
Lemma rooted_s M x u : domain_errors M -> finite64 (s_get_f x) -> (forall b, u = Upow b -> finite64 b) ->
  outside (umap val64 u) (val64 (s_get_f x)) -> rooted1 (umap val64 u) ->
  let r := s_apply_u (b64ops M) u x in
  nan64 (s_get_f r) /\ SpecS.names r = SpecS.names x /\ (forall k, In k (SpecS.names x) -> nan64 (s_get_d (b64ops M) r k)) /\
  (forall k, ~ In k (SpecS.names x) -> s_get_d (b64ops M) r k = b64_of_Z 0).
Proof.
  intros DE Ff Fb Out Ro. unfold s_get_f in Ff, Out. destruct (of_Z_exact 1 ltac:(lia)) as (F1 & V1).
  destruct u; cbn [umap rooted1] in Ro; try contradiction Ro; cbn [umap outside] in Out; cbn [s_apply_u]; apply unary_nan;
    cbn [sk_pow sk_sqrt sk_acos sk_asin sk_acosh fst snd]; cbn [b64ops o_pow o_sqrt o_acos o_asin o_acosh o_mul o_div o_sub o_add o_Z o_neg].
  - destruct Out as (N & I). apply (de_pow _ DE); auto.
  - destruct Out as (N & I). specialize (Fb _ eq_refl). pose proof (is_int_false_small _ I) as Sm.
    destruct (sub_ok b (b64_of_Z 1) Fb F1) as (FS & VS).
    { rewrite V1. apply Rle_lt_trans with (bpow radix2 54); [|apply bpow_lt; lia]. apply near64_le_bpow; [lia|].
      apply Rle_trans with (Rabs (val64 b) + Rabs 1); [rewrite <- (Rabs_Ropp 1); apply Rabs_triang|]. rewrite Rabs_R1.
      change (bpow radix2 54) with (IZR (2 ^ 54)). change (bpow radix2 53) with (IZR (2 ^ 53)) in Sm. cbn in Sm |- *. lra. }
    apply nan_mul_r, (de_pow _ DE); try assumption. rewrite VS, V1. exact Ro.
  - apply sqrt_neg; assumption.
  - apply nan_div_r, nan_mul_r, sqrt_neg; assumption.
  - apply (de_acos _ DE); assumption.
  - apply nan_div_r, sqrt_one_minus; assumption.
  - apply (de_asin _ DE); assumption.
  - apply nan_div_r, sqrt_one_minus; assumption.
  - apply (de_acosh _ DE); assumption.
  - apply nan_div_r, nan_mul_l, sqrt_sub; [exact Ff|exact F1|rewrite V1; exact Out].
Qed.
(** A variable of the dense and of the sparse type. *)
Lemma one_variable M u k v r f g h : evaluate (b64ops M) dyn2 [v] (EU u (EVar 0)) = Ok r -> shows dyn2 1 r f g h ->
  let y := s_apply_u (b64ops M) u (s_variable (b64ops M) k v) in s_get_f y = f /\ alike (s_get_d (b64ops M) y k) (g 0%nat).
Proof.
  intros E Sh y. destruct (variables_loose M dyn2 (fun _ => k) [v] v (EU u (EVar 0)) cfg_dyn2) as (r' & E' & H).
  - split; [discriminate|vm_compute; discriminate].
  - intros i j. cbn. lia.
  - cbn. lia.
  - rewrite E in E'. apply Ok_inj in E'. subst r'. specialize (H y). destruct H as (_ & g' & h' & Sh' & A).
    { econstructor; [constructor|]; apply reorders_refl. }
    destruct Sh as (_ & F & G & _), Sh' as (_ & F' & G' & _). rewrite F in F'. apply Ok_inj in F'. split; [symmetry; exact F'|].
    specialize (A 0%nat ltac:(cbn; lia)). specialize (G 0%nat ltac:(lia)). specialize (G' 0%nat ltac:(cbn; lia)). rewrite G in G'. apply Ok_inj in G'.
    rewrite G'. exact A.
Qed.
Lemma alike_accurate n v w y : alike v w -> accurate_to n w y -> accurate_to n v y.
Proof.
  intros [N|[->|((s & ->) & (t & ->))]] (F & t' & T & E); [|split; eauto|split; [reflexivity|]; exists t'; split; [exact T|rewrite <- E; reflexivity]].
  unfold nan64, finite64 in *. destruct w; discriminate.
Qed.
Lemma alike_finite v w : alike v w -> finite64 w -> finite64 v.
Proof. intros [N|[->|((s & ->) & (t & ->))]] F; [|exact F|reflexivity]. unfold nan64, finite64 in *. destruct w; discriminate. Qed.
Lemma size1 : size_ok dyn2 1. Proof. split; [discriminate|vm_compute; discriminate]. Qed.
Lemma beyond_s M p k v u : libm_good M p -> (p <= 100)%nat -> domain_errors M -> finite64 v -> beyond (umap val64 u) (val64 v) ->
  let r := s_apply_u (b64ops M) u (s_variable (b64ops M) k v) in
  nan64 (s_get_f r) /\ exists l, is_derive (continued (umap val64 u)) (val64 v) l /\ accurate_to (fst (roundings p u)) (s_get_d (b64ops M) r k) l.
Proof.
  intros LG P DE Fv B r. destruct (beyond_accuracy M p dyn2 v u LG P DE cfg_dyn2 eq_refl size1 Fv B) as (d & f & g & h & l & l' & E & Sh & N & D & _ & A & _).
  destruct (one_variable M u k v d f g h E Sh) as (EF & AL). fold r in EF, AL. split; [rewrite EF; exact N|].
  exists l. split; [exact D|]. eapply alike_accurate; eassumption.
Qed.
Lemma lost_pow_s M p k : libm_good M p -> (p <= 100)%nat -> domain_errors M ->
  finite64 lost_exponent /\ outside (Upow (val64 lost_exponent)) (val64 (z64 (-2))) /\
  let r := s_apply_u (b64ops M) (Upow lost_exponent) (s_variable (b64ops M) k (z64 (-2))) in
  nan64 (s_get_f r) /\ finite64 (s_get_d (b64ops M) r k).
Proof.
  intros LG P DE. destruct (lost_pow M p dyn2 LG P DE cfg_dyn2 eq_refl size1) as (F & _ & O & d & f & g & h & E & Sh & N & G & _).
  split; [exact F|]. split; [exact O|]. destruct (one_variable M _ k _ d f g h E Sh) as (EF & AL). cbv zeta. split; [rewrite EF; exact N|].
  eapply alike_finite; eassumption.
Qed.
Lemma hidden M : ~ (forall (x : ss b64) (k : string), finite64 (s_get_f x) -> outside Usqrt (val64 (s_get_f x)) ->
  nan64 (s_get_d (b64ops M) (s_apply_u (b64ops M) Usqrt x) k)).
Proof.
  intros H. specialize (H (s_constant (z64 (-4))) "x"%string). destruct (of_Z_exact (-4) ltac:(lia)) as (F & V). specialize (H F).
  cbn [outside s_get_f s_constant s_ctor s_f] in H. unfold z64 in H. rewrite V in H. specialize (H ltac:(lra)). vm_compute in H. discriminate.
Qed.

(** ** Quotients *)
Lemma get_quotient M x y da db f k : keys_ok y ->
  let r := mks f (s_binary (b64ops M) (s_d x) (s_d y) da db) in
  s_get_d (b64ops M) r k = match t_find (s_d x) k, t_find (s_d y) k with
    | Some v, Some w => b64_add (b64_mul v da) (b64_mul db w)
    | Some v, None => b64_mul v da
    | None, Some w => b64_add (b64_of_Z 0) (b64_mul db w)
    | None, None => b64_of_Z 0
    end.
Proof.
  intros K r. rewrite get_d_dflt. subst r. cbn [s_d]. unfold s_binary. rewrite find_merge by exact K. rewrite find_map.
  destruct (t_find (s_d x) k), (t_find (s_d y) k); reflexivity.
Qed.
Lemma get_multiple M x da f k : s_get_d (b64ops M) (mks f (s_unary (b64ops M) (s_d x) da)) k =
  match t_find (s_d x) k with Some v => b64_mul v da | None => b64_of_Z 0 end.
Proof. rewrite get_d_dflt. cbn [s_d]. unfold s_unary. rewrite find_map. destruct (t_find (s_d x) k); reflexivity. Qed.
Lemma got M x k v : t_find (s_d x) k = Some v -> s_get_d (b64ops M) x k = v.
Proof. intros H. rewrite get_d_dflt, H. reflexivity. Qed.
Lemma zero_fin : finite64 (b64_of_Z 0). Proof. reflexivity. Qed.
Lemma zero_upto e : upto e (b64_of_Z 0).
Proof. split; [reflexivity|]. change (val64 (b64_of_Z 0)) with 0. rewrite Rabs_R0. apply bpow_ge_0. Qed.

Lemma quotient_range M x y l m q : power_in_range M 2 -> keys_ok y -> upto m (s_get_f x) -> finite64 (s_get_f y) ->
  bpow radix2 l <= Rabs (val64 (s_get_f y)) <= bpow radix2 510 -> (-510 <= l)%Z -> (0 <= m <= 1000)%Z -> (0 <= q)%Z ->
  let w := Z.max 0 (m - l) in (w <= 1000)%Z -> (w - l + q <= 1000)%Z ->
  derivatives_upto M q x -> derivatives_upto M q y ->
  all_finite M (s_div (b64ops M) x y) /\ all_finite M (s_div_assign (b64ops M) x (Some y)) /\
  all_finite M (s_apply_u (b64ops M) (Usdiv (s_get_f x)) y).
Proof.
  intros P K Ua Fb Hb Hl Hm Hq w W1 W2 Dx Dy. unfold s_get_f in Ua, Fb, Hb.
  assert (LT : (l <= 510)%Z) by (apply (le_bpow radix2); lra).
  set (a := s_f x) in *. set (b := s_f y) in *.
  assert (PL : finite64 (m_pow M b (b64_of_Z 2)) /\ bpow radix2 (2 * l - 1) <= Rabs (val64 (m_pow M b (b64_of_Z 2)))).
  { destruct (P b Fb) as (C & _). cbn [Z.of_nat Pos.of_succ_nat Pos.succ] in C. cbv zeta in C. set (e := Rabs (val64 b) ^ 2) in C.
    assert (B : bpow radix2 (2 * l) <= e <= bpow radix2 1020).
    { replace (2 * l)%Z with (l + l)%Z by lia. change 1020%Z with (510 + 510)%Z. rewrite !bpow_plus. unfold e. cbn [pow]. rewrite Rmult_1_r.
      split; apply Rmult_le_compat; try apply bpow_ge_0; try apply Rabs_pos; apply Hb. }
    destruct C as (F & L & _). { split; [|apply B]. eapply Rle_trans; [|apply B]. apply bpow_le. lia. }
    split; [exact F|]. pose proof (two_bp (2 * l - 1)) as T. replace (2 * l - 1 + 1)%Z with (2 * l)%Z in T by lia. lra. }
  destruct PL as (F2 & L2).
  assert (C1 : upto (w - l + 1) (b64_div (b64_of_Z 1) b)) by (eapply (ud _ _ 0 l); [apply one_upto|exact Fb|apply Hb|lia|lia]).
  assert (C2 : upto (w - l + 1) (b64_div (b64_neg a) (m_pow M b (b64_of_Z 2)))).
  { apply (upto_le (m - (2 * l - 1))); [|lia]. eapply (ud _ _ m (2 * l - 1)); [apply upto_neg, Ua|exact F2|exact L2|lia|lia]. }
  assert (C5 : upto w (b64_div a b)) by (eapply (ud _ _ m l); [exact Ua|exact Fb|apply Hb|lia|lia]).
  assert (C6 : upto w (b64_mul a (b64_div (b64_of_Z 1) b))).
  { eapply (um _ _ m (0 - l)); [exact Ua|eapply (ud _ _ 0 l); [apply one_upto|exact Fb|apply Hb|lia|lia]|lia|lia]. }
  assert (MUL : forall v c, upto q v -> upto (w - l + 1) c -> upto (w - l + 1 + q) (b64_mul v c) /\ upto (w - l + 1 + q) (b64_mul c v)).
  { intros v c Hv Hc. split; [eapply um; [exact Hv|exact Hc|lia|lia]|eapply um; [exact Hc|exact Hv|lia|lia]]. }
  assert (ADD : forall v c, upto (w - l + 1 + q) v -> upto (w - l + 1 + q) c -> finite64 (b64_add v c)).
  { intros v c Hv Hc. assert (U : upto (w - l + 2 + q) (b64_add v c)) by (eapply ua; [exact Hv|exact Hc|lia|lia|lia]). apply U. }
  assert (B : forall f, upto w f -> all_finite M (mks f (s_binary (b64ops M) (s_d x) (s_d y) (b64_div (b64_of_Z 1) b) (b64_div (b64_neg a) (m_pow M b (b64_of_Z 2)))))).
  { intros f Uf. split; [apply Uf|]. intros k. rewrite get_quotient by exact K. specialize (Dx k). specialize (Dy k).
    destruct (t_find (s_d x) k) as [v|] eqn:Ev, (t_find (s_d y) k) as [z|] eqn:Ez.
    - rewrite (got _ _ _ _ Ev) in Dx. rewrite (got _ _ _ _ Ez) in Dy. apply ADD; [apply (proj1 (MUL _ _ Dx C1))|apply (proj2 (MUL _ _ Dy C2))].
    - rewrite (got _ _ _ _ Ev) in Dx. apply (proj1 (MUL _ _ Dx C1)).
    - rewrite (got _ _ _ _ Ez) in Dy. apply ADD; [apply zero_upto|apply (proj2 (MUL _ _ Dy C2))].
    - reflexivity. }
  split; [exact (B _ C6)|]. split; [exact (B _ C5)|].
  split; [exact (proj1 C5)|]. intros k. cbn [s_apply_u]. unfold s_sdiv. rewrite get_multiple. specialize (Dy k).
  destruct (t_find (s_d y) k) as [z|] eqn:Ez; [|reflexivity]. rewrite (got _ _ _ _ Ez) in Dy. apply (proj1 (MUL _ _ Dy C2)).
Qed.
Lemma lost_mul_r (a b : b64) : lost64 b -> lost64 (b64_mul a b).
Proof. unfold lost64. destruct a as [s|s| |s m e B], b as [t|t| |t m' e' B']; try discriminate; intros _; reflexivity. Qed.
Lemma quotient_tiny M x y : power_in_range M 2 -> keys_ok y -> finite64 (s_get_f y) -> Rabs (val64 (s_get_f y)) <= bpow radix2 (-538) ->
  forall k, In k (SpecS.names y) ->
  lost64 (s_get_d (b64ops M) (s_div (b64ops M) x y) k) /\ lost64 (s_get_d (b64ops M) (s_div_assign (b64ops M) x (Some y)) k) /\
  lost64 (s_get_d (b64ops M) (s_apply_u (b64ops M) (Usdiv (s_get_f x)) y) k).
Proof.
  intros P K Fb Hb k Hk. unfold s_get_f in *. pose proof (tiny_power M (s_f y) 2 (-538) P Fb Hb ltac:(lia)) as Z2. cbn [Z.of_nat Pos.of_succ_nat Pos.succ] in Z2.
  apply in_keys in Hk. destruct Hk as (v & Ev).
  assert (L : forall a, lost64 (b64_div a (m_pow M (s_f y) (b64_of_Z 2)))) by (intros a; apply over_zero, Z2).
  assert (B : forall f da, lost64 (s_get_d (b64ops M) (mks f (s_binary (b64ops M) (s_d x) (s_d y) da (b64_div (b64_neg (s_f x)) (m_pow M (s_f y) (b64_of_Z 2))))) k)).
  { intros f da. rewrite get_quotient by exact K. rewrite Ev. destruct (t_find (s_d x) k); apply lost_add_r, lost_mul_l, L. }
  split; [apply B|]. split; [apply B|]. cbn [s_apply_u]. unfold s_sdiv. rewrite get_multiple, Ev. apply lost_mul_r, L.
Qed.
Lemma quotient_huge M x y : power_in_range M 2 -> keys_ok y -> finite64 (s_get_f x) -> finite64 (s_get_f y) ->
  bpow radix2 512 <= Rabs (val64 (s_get_f y)) -> forall k, zero64 (s_get_d (b64ops M) x k) -> finite64 (s_get_d (b64ops M) y k) ->
  zero64 (s_get_d (b64ops M) (s_div (b64ops M) x y) k) /\ zero64 (s_get_d (b64ops M) (s_div_assign (b64ops M) x (Some y)) k) /\
  zero64 (s_get_d (b64ops M) (s_apply_u (b64ops M) (Usdiv (s_get_f x)) y) k).
Proof.
  intros P K Fa Fb Hb k Zx Fy. unfold s_get_f in *.
  destruct (huge_power M (s_f y) 2 512 P Fb Hb ltac:(lia)) as (t & I2). cbn [Z.of_nat Pos.of_succ_nat Pos.succ] in I2.
  destruct (neg_ok (s_f x) Fa) as (Fn & _). pose proof (over_inf (b64_neg (s_f x)) t Fn) as ZD. rewrite <- I2 in ZD.
  assert (FD : finite64 (b64_div (b64_of_Z 1) (s_f y))).
  { assert (U : upto 0 (b64_div (b64_of_Z 1) (s_f y))) by (eapply (ud _ _ 0 512); [apply one_upto|exact Fb|exact Hb|lia|lia]). apply U. }
  assert (Z0 : zero64 (b64_of_Z 0)) by (exists false; reflexivity).
  assert (B : forall f, zero64 (s_get_d (b64ops M) (mks f (s_binary (b64ops M) (s_d x) (s_d y) (b64_div (b64_of_Z 1) (s_f y)) (b64_div (b64_neg (s_f x)) (m_pow M (s_f y) (b64_of_Z 2))))) k)).
  { intros f. rewrite get_quotient by exact K. destruct (t_find (s_d x) k) as [v|] eqn:Ev, (t_find (s_d y) k) as [z|] eqn:Ez;
      rewrite ?(got _ _ _ _ Ev) in Zx; rewrite ?(got _ _ _ _ Ez) in Fy; repeat apply zero_add; try assumption;
      try (apply zero_mul_l; assumption). }
  split; [apply B|]. split; [apply B|]. cbn [s_apply_u]. unfold s_sdiv. rewrite get_multiple.
  destruct (t_find (s_d y) k) as [z|] eqn:Ez; [|exact Z0]. rewrite (got _ _ _ _ Ez) in Fy. apply zero_mul_r; [exact Fy|exact ZD].
Qed.
(** A denominator without names is a plain number. *)
Lemma quotient_constant {S} (O : Ops S) (x : ss S) (b : S) : s_div O x (s_constant b) = s_divs O x b.
Proof. reflexivity. Qed.
Lemma quotient_foreign M x y k : keys_ok y -> ~ In k (SpecS.names y) ->
  s_get_d (b64ops M) (s_div (b64ops M) x y) k = s_get_d (b64ops M) (s_divs (b64ops M) x (s_get_f y)) k.
Proof.
  intros K N. apply find_none in N. unfold s_div. rewrite get_quotient by exact K. rewrite N. unfold s_divs, s_smul, s_muls. rewrite get_d_dflt. cbn [s_d].
  rewrite find_map. destruct (t_find (s_d x) k); reflexivity.
Qed.
(** Numbers [2^e], for the cases. *)
Definition s600 : b64 := B754_finite false 4503599627370496 (-652) (eq_refl : SpecFloat.bounded prec64 emax64 4503599627370496 (-652) = true).
Lemma s600_val : val64 s600 = bpow radix2 (-600). Proof. exact (two_52 (-652)). Qed.
Lemma s600_exact : - val64 s600 / (val64 s600 * val64 s600) = - bpow radix2 600.
Proof. rewrite s600_val, <- bpow_plus. unfold Rdiv. rewrite <- bpow_opp, Ropp_mult_distr_l_reverse, <- bpow_plus. reflexivity. Qed.
