(** Proofs about the accuracy of sparse numbers over doubles (C113) and about powers at zero (C114). *)
From Coq Require Import ZArith List Bool String Reals Lra Lia.
From Coquelicot Require Import Coquelicot.
From Flocq Require Import Core BinarySingleNaN.
From Verif Require Import Outcome Scalar Float64 Model Spec RealOps ExprSpec Ops64 B64 Facts64 NumSpec ParamSpec RelSpec RangeSpec FactsRange FactsRel FactsRelU FactsRelB FactsRelR
  FactsFma DomSpec FactsDom UDeriv CreateRep Kernels Expr Samples ModelS SpecS FactsS SameSpec FactsSame EdgeSSpec FactsEdgeS.
Import ListNotations.
Open Scope R_scope.

Lemma by_factor M u v (y : R) : calm (umap val64 u) y ->
  exists f da, forall x, s_f x = v -> s_apply_u (b64ops M) u x = mks f (s_unary (b64ops M) (s_d x) da).
Proof.
  intros C. destruct u; cbn [umap calm] in C; try contradiction C; do 2 eexists; intros x E; cbn [s_apply_u]; unfold s_unary_op, s_sdiv; rewrite E; reflexivity.
Qed.
Lemma accurate_mono j k v y : (j <= k)%nat -> accurate_to j v y -> accurate_to k v y.
Proof. intros L (F & t & T & E). split; [exact F|]. exists t. split; [exact (factor_mono j k t L T)|exact E]. Qed.
Lemma get_unary M f t da k : s_get_d (b64ops M) (mks f (s_unary (b64ops M) t da)) k =
  match t_find t k with Some w => b64_mul w da | None => b64_of_Z 0 end.
Proof. unfold s_get_d. cbn [s_d]. unfold s_unary. rewrite find_map. destruct (t_find t k); reflexivity. Qed.
Lemma variable_function M p k v u : libm_good M p -> (p <= 100)%nat -> finite64 v -> calm (umap val64 u) (val64 v) ->
  exists l, is_derive (ureal (umap val64 u)) (val64 v) l /\
    accurate_to (fst (roundings p u)) (s_get_d (b64ops M) (s_apply_u (b64ops M) u (s_variable (b64ops M) k v)) k) l.
Proof.
  intros LG P F C. destruct (function_accuracy M p dyn2 v u LG P cfg_dyn2 eq_refl size1 F C) as (r & f & g & h & l & l' & E & Sh & D & _ & A & _).
  exists l. split; [exact D|]. destruct (one_variable M u k v r f g h E Sh) as (_ & AL). eapply alike_accurate; eassumption.
Qed.
Lemma roundings_few {S} p (u : ufun S) : (p <= 100)%nat -> (fst (roundings p u) <= 1000)%nat.
Proof. intros P. destruct u; cbn; lia. Qed.
Lemma any_function M p x u : libm_good M p -> (p <= 100)%nat -> finite64 (s_get_f x) -> calm (umap val64 u) (val64 (s_get_f x)) ->
  exists l, is_derive (ureal (umap val64 u)) (val64 (s_get_f x)) l /\
    forall k, let d := s_get_d (b64ops M) x k in finite64 d -> d = b64_of_Z 0 \/ bpow radix2 (-1020) <= Rabs (val64 d * l) <= bpow radix2 1022 ->
    accurate_to (S (fst (roundings p u))) (s_get_d (b64ops M) (s_apply_u (b64ops M) u x) k) (val64 d * l).
Proof.
  intros LG P F C. destruct (variable_function M p EmptyString _ u LG P F C) as (l & D & A). exists l. split; [exact D|].
  destruct (by_factor M u (s_get_f x) _ C) as (f & da & H). rewrite (H (s_variable (b64ops M) EmptyString (s_get_f x)) eq_refl) in A.
  rewrite get_unary in A. cbn [t_find s_d s_variable s_ctor String.eqb] in A. change (o_Z (b64ops M) 1) with (b64_of_Z 1) in A. rewrite mul_1_l in A.
  intros k d Fd R. rewrite (H x eq_refl), get_unary.
  assert (Z0 : accurate_to (S (fst (roundings p u))) (b64_of_Z 0) (val64 (b64_of_Z 0) * l)).
  { destruct (of_Z_exact 0 ltac:(lia)) as (F0 & V0). split; [exact F0|]. exists 1. split; [apply (factor_mono 0); [lia|apply factor_1]|]. rewrite V0. ring. }
  unfold d, s_get_d in *. destruct (t_find (s_d x) k) as [w|]; [|exact Z0].
  pose proof (counts_mul w da (exactly64 w) (Some (l, fst (roundings p u)))) as Q. unfold exactly64 in Q. rewrite Fd in Q. cbn [Nops o_mul counts] in Q.
  assert (W : accurate_to 0 w (val64 w)) by (split; [exact Fd|]; exists 1; split; [apply factor_1|ring]). specialize (Q W A). unfold after in Q.
  destruct (Reqb (val64 w * l) 0) eqn:EZ.
  - apply accurate_mono with 0%nat; [lia|exact Q].
  - assert (B : bpow radix2 (-1020) <= Rabs (val64 w * l) <= bpow radix2 1022).
    { destruct R as [-> |R]; [|exact R]. destruct (of_Z_exact 0 ltac:(lia)) as (_ & V0). rewrite V0, Rmult_0_l in EZ. unfold Reqb in EZ. destruct (Req_EM_T 0 0); [discriminate|lra]. }
    assert (FT : fits (val64 w * l) (0 + fst (roundings p u)) = true).
    { unfold fits, Rleb. destruct (Rle_dec _ _) as [_|N]; [|exfalso; lra]. destruct (Rle_dec _ (bpow radix2 1022)) as [_|N]; [|exfalso; lra].
      destruct (Rle_dec _ (/ 16)) as [_|N]; [reflexivity|]. exfalso. apply N. pose proof (roundings_few p u P) as L. apply le_INR in L.
      pose proof u64_small. assert (0 < u64) by (unfold u64; apply bpow_gt_0). cbn [Nat.add]. replace (INR 1000) with 1000 in L by (rewrite INR_IZR_INZ; reflexivity).
      apply Rle_trans with (1000 * u64); [apply Rmult_le_compat_r; lra|]. unfold u64. cbn. lra. }
    rewrite FT in Q. apply accurate_mono with (2 := Q). destruct (_ || _); lia.
Qed.
Lemma size2 : size_ok dyn2 2. Proof. split; [discriminate|vm_compute; discriminate]. Qed.
Lemma variables2 M p j k v w b : libm_good M p -> (p <= 100)%nat -> j <> k -> calm2 b (val64 v) (val64 w) ->
  let r := s_apply_b (b64ops M) b (s_variable (b64ops M) j v) (s_variable (b64ops M) k w) in
  exists l l', is_derive (fun t => breal b t (val64 w)) (val64 v) l /\ is_derive (fun t => breal b (val64 v) t) (val64 w) l' /\
    accurate_to (fst (roundings2 p b)) (s_get_d (b64ops M) r j) l /\ accurate_to (fst (roundings2 p b)) (s_get_d (b64ops M) r k) l'.
Proof.
  intros LG P N C r. destruct (function2_accuracy M p dyn2 v w b LG P cfg_dyn2 eq_refl size2 C) as (d & f & g & h & G & H & E & Sh & A & _).
  set (nm := fun i : nat => match i with O => j | _ => k end).
  destruct (variables_loose M dyn2 nm [v; w] v (EB b (EVar 0) (EVar 1)) cfg_dyn2 size2) as (d' & E' & Q).
  - intros [|[|i]] [|[|i']] Hi Hi' Eq; cbn in *; try lia; congruence.
  - cbn. lia.
  - rewrite E in E'. apply Ok_inj in E'. subst d'. specialize (Q r). destruct Q as (_ & g' & h' & Sh' & AL).
    { econstructor; [constructor; apply reorders_refl|constructor; apply reorders_refl|apply reorders_refl]. }
    destruct Sh as (_ & _ & G1 & _), Sh' as (_ & _ & G2 & _). destruct (A 0%nat ltac:(lia)) as (D0 & A0). destruct (A 1%nat ltac:(lia)) as (D1 & A1).
    pose proof (AL 0%nat ltac:(cbn; lia)) as L0. pose proof (AL 1%nat ltac:(cbn; lia)) as L1.
    pose proof (G1 0%nat ltac:(lia)) as X0. pose proof (G1 1%nat ltac:(lia)) as X1. pose proof (G2 0%nat ltac:(cbn; lia)) as Y0. pose proof (G2 1%nat ltac:(cbn; lia)) as Y1.
    rewrite X0 in Y0. rewrite X1 in Y1. apply Ok_inj in Y0, Y1. rewrite <- Y0 in L0. rewrite <- Y1 in L1.
    exists (G 0%nat), (G 1%nat). split; [exact D0|]. split; [exact D1|]. split; eapply alike_accurate; eassumption.
Qed.
(** A function of a variable, and the dense one. *)
Lemma twin M u k v : u = Utanh \/ u = Uacos \/ u = Uasin \/ u = Uatanh \/ u = Uasinh ->
  exists r f g h, evaluate (b64ops M) dyn1 [v] (EU u (EVar 0)) = Ok r /\ shows dyn1 1 r f g h /\
    s_get_d (b64ops M) (s_apply_u (b64ops M) u (s_variable (b64ops M) k v)) k = g 0%nat.
Proof.
  intros U. assert (SO : size_ok dyn1 1) by (split; [discriminate|vm_compute; discriminate]).
  destruct (variables_loose M dyn1 (fun _ => k) [v] v (EU u (EVar 0)) cfg_dyn1 SO) as (r & E & Q).
  - intros i j. cbn. lia.
  - cbn. lia.
  - destruct (Q (s_apply_u (b64ops M) u (s_variable (b64ops M) k v))) as (_ & g & h & Sh & _).
    { econstructor; [constructor; apply reorders_refl|apply reorders_refl]. }
    exists r, (s_get_f (s_apply_u (b64ops M) u (s_variable (b64ops M) k v))), g, h. split; [exact E|]. split; [exact Sh|].
    rewrite (gradient_is M dyn1 v u r _ g h cfg_dyn1 SO E Sh).
    destruct U as [-> |[-> |[-> |[-> | ->]]]]; cbn [s_apply_u s_unary_op sk_tanh sk_acos sk_asin sk_atanh sk_asinh]; rewrite get_unary; cbn [t_find s_d s_variable s_ctor];
      rewrite String.eqb_refl; apply b64_mul_comm.
Qed.
Lemma tanh_s M k v l n : finite64 v -> 20 <= Rabs (val64 v) -> is_derive tanh (val64 v) l -> INR n * u64 <= / 16 ->
  ~ accurate_to n (s_get_d (b64ops M) (s_apply_u (b64ops M) Utanh (s_variable (b64ops M) k v)) k) l.
Proof.
  intros F B D N. destruct (twin M Utanh k v ltac:(auto)) as (r & f & g & h & E & Sh & ->).
  apply (tanh_inaccurate M dyn1 v r f g h l n cfg_dyn1); try assumption. split; [discriminate|vm_compute; discriminate].
Qed.
Lemma near1_s M k v l n u : u = Uacos \/ u = Uasin \/ u = Uatanh -> val64 v = 1 - bpow radix2 (-27) -> is_derive (ureal (umap val64 u)) (val64 v) l ->
  INR n * u64 <= bpow radix2 (-30) -> ~ accurate_to n (s_get_d (b64ops M) (s_apply_u (b64ops M) u (s_variable (b64ops M) k v)) k) l.
Proof.
  intros U B D N. destruct (twin M u k v ltac:(tauto)) as (r & f & g & h & E & Sh & ->).
  apply (near1_inaccurate M dyn1 v r f g h l n u U cfg_dyn1); try assumption. split; [discriminate|vm_compute; discriminate].
Qed.
Lemma asinh_s M k v l n : finite64 v -> bpow radix2 512 <= Rabs (val64 v) -> is_derive arcsinh (val64 v) l ->
  let d := s_get_d (b64ops M) (s_apply_u (b64ops M) Uasinh (s_variable (b64ops M) k v)) k in zero64 d /\ ~ accurate_to n d l.
Proof.
  intros F B D. destruct (twin M Uasinh k v ltac:(tauto)) as (r & f & g & h & E & Sh & ->).
  apply (asinh_inaccurate M dyn1 v r f g h l n cfg_dyn1); try assumption. split; [discriminate|vm_compute; discriminate].
Qed.

(** ** Values of quotients *)
Lemma quotient_values {S} (O : Ops S) (x y : ss S) (a b : S) :
  s_get_f (s_div O x y) = o_mul O (s_get_f x) (o_div O (o_Z O 1) (s_get_f y)) /\
  s_get_f (s_div_assign O x (Some y)) = o_div O (s_get_f x) (s_get_f y) /\
  s_get_f (s_div_assign O x None) = o_div O (s_get_f x) (s_get_f x) /\
  s_get_f (s_divs O x b) = o_mul O (s_get_f x) (o_div O (o_Z O 1) b) /\
  s_get_f (s_divs_assign O x b) = o_mul O (s_get_f x) (o_div O (o_Z O 1) b) /\
  s_get_f (s_sdiv O a y) = o_div O a (s_get_f y).
Proof. repeat split. Qed.
Definition s49 : ss b64 := s_constant (z64 49).
Lemma self_49 M : ~ (forall x : ss b64, finite64 (s_get_f x) -> val64 (s_get_f x) <> 0 -> s_get_f (s_div (b64ops M) x x) = b64_of_Z 1).
Proof.
  intros H. specialize (H s49 (finite_z 49 ltac:(lia))). cbn [s49 s_constant s_ctor s_get_f s_f] in H.
  specialize (H ltac:(rewrite val_z by lia; apply not_0_IZR; lia)). pose proof (proj1 q49) as Q. unfold s_div in H. cbn [s_f s_get_f b64ops o_mul o_div o_Z] in H.
  unfold z64 in Q, H. change (s_f s49) with (b64_of_Z 49) in H. rewrite H in Q. vm_compute in Q. discriminate.
Qed.
Lemma assign_49 M : ~ (forall x y : ss b64, s_get_f (s_div (b64ops M) x y) = s_get_f (s_div_assign (b64ops M) x (Some y))).
Proof.
  intros H. specialize (H s49 s49). unfold s_div, s_div_assign in H. cbn [s49 s_constant s_ctor s_f s_get_f b64ops o_mul o_div o_Z] in H.
  destruct q49 as (Q1 & Q2). unfold z64 in *. change (s_f s49) with (b64_of_Z 49) in H. rewrite H, Q2 in Q1. discriminate.
Qed.

(** ** Powers at zero *)
Section PowZero.
  Variables (M : libm) (HM : pow_zero_cases M).
  Lemma pow_s (x : ss b64) s b : s_get_f x = B754_zero s -> s_apply_u (b64ops M) (Upow b) x =
    mks (m_pow M (B754_zero s) b) (s_unary (b64ops M) (s_d x) (b64_mul b (m_pow M (B754_zero s) (b64_sub b (b64_of_Z 1))))).
  Proof. intros E. cbn [s_apply_u]. unfold s_unary_op. change (s_f x) with (s_get_f x). rewrite E. reflexivity. Qed.
  Lemma pow0_s (x : ss b64) s : s_get_f x = B754_zero s -> let r := s_apply_u (b64ops M) (Upow (b64_of_Z 0)) x in
    s_get_f r = b64_of_Z 1 /\ (forall k, In k (SpecS.names x) -> nan64 (s_get_d (b64ops M) r k)) /\ (forall k, ~ In k (SpecS.names x) -> s_get_d (b64ops M) r k = b64_of_Z 0).
  Proof.
    intros E. cbv zeta. rewrite (pow_s x s _ E). change (b64_of_Z 0) with (z64 0). change (b64_of_Z 1) with (z64 1).
    destruct (sub_z 0 1 ltac:(lia) ltac:(lia) ltac:(lia)) as (F1 & V1). change (0 - 1)%Z with (-1)%Z in V1.
    rewrite (pow_m1 M HM s _ F1 V1). split; [apply (pow_exp0 _ HM); [apply finite_z; lia|apply val_z; lia]|].
    assert (ND : nan64 (b64_mul (z64 0) (B754_infinity s))) by (apply zero_inf_nan; [apply finite_z; lia|apply val_z; lia]).
    split; intros k Hk; rewrite get_unary; destruct (t_find (s_d x) k) eqn:T.
    - apply nan_mul_r, ND.
    - apply find_none in T. exfalso. apply T, Hk.
    - exfalso. apply Hk. apply in_keys. eauto.
    - reflexivity.
  Qed.
  Lemma pow1_s (x : ss b64) s : s_get_f x = B754_zero s -> s_apply_u (b64ops M) (Upow (b64_of_Z 1)) x = x.
  Proof.
    intros E. rewrite (pow_s x s _ E). change (b64_of_Z 1) with (z64 1).
    destruct (sub_z 1 1 ltac:(lia) ltac:(lia) ltac:(lia)) as (F0 & V0). change (1 - 1)%Z with 0%Z in V0.
    rewrite (pow_exp0 _ HM _ _ F0 V0). rewrite (pow_pos_odd _ HM s (z64 1) 1); [|apply finite_z; lia|apply val_z; lia|lia|reflexivity].
    unfold z64. rewrite mul_1_l. destruct x as [f t]. cbn in E. subst f. cbn [s_d]. f_equal. unfold s_unary, t_map. cbn [b64ops o_mul].
    induction t as [|(k & v) t IH]; [reflexivity|]. cbn [map fst snd]. rewrite IH, b64_mul_comm, mul_1_l. reflexivity.
  Qed.
  Lemma minus_one (b : b64) n : finite64 b -> val64 b = IZR n -> (2 <= n)%Z ->
    finite64 (b64_sub b (b64_of_Z 1)) /\ exists m, (0 < m)%Z /\ val64 (b64_sub b (b64_of_Z 1)) = IZR m.
  Proof.
    intros F V N. destruct (of_Z_exact 1 ltac:(lia)) as (F1 & V1). apply IZR_le in N.
    assert (E1 : near64 1 = 1) by (apply near64_exact, (fmt_small 1); lia).
    assert (EN : near64 (IZR n) = IZR n) by (apply near64_exact; rewrite <- V; apply fmt_val).
    assert (L : 1 <= near64 (IZR n - 1) <= IZR n) by (split; [rewrite <- E1 at 1|apply Rle_trans with (near64 (IZR n)); [|lra]]; apply near64_mono; lra).
    destruct (sub_ok b (b64_of_Z 1) F F1) as (FS & VS).
    { rewrite V, V1, Rabs_pos_eq by lra. apply Rle_lt_trans with (IZR n); [lra|]. rewrite <- V. apply Rle_lt_trans with (Rabs (val64 b)); [apply RRle_abs|]. apply abs_B2R_lt_emax. }
    split; [exact FS|]. rewrite V, V1 in VS. destruct (is_int (val64 (b64_sub b (b64_of_Z 1)))) eqn:I.
    - unfold is_int in I. destruct (Req_EM_T _ _) as [Q|] in I; [|discriminate]. exists (Int_part (val64 (b64_sub b (b64_of_Z 1)))). split; [|exact Q].
      apply lt_IZR. rewrite <- Q, VS. lra.
    - pose proof (is_int_false_small _ I) as B. rewrite VS, Rabs_pos_eq in B by lra. change (bpow radix2 53) with (IZR (2 ^ 53)) in B.
      assert (SM : (n - 1 <= 2 ^ 53)%Z).
      { apply Znot_gt_le. intros G. assert (G' : IZR (2 ^ 53) <= IZR n - 1) by (rewrite <- minus_IZR; apply IZR_le; lia).
        apply near64_mono in G'. rewrite (near64_exact (IZR (2 ^ 53))) in G' by (apply fmt_small; lia). lra. }
      assert (Q : val64 (b64_sub b (b64_of_Z 1)) = IZR (n - 1)). { rewrite VS, <- minus_IZR. apply near64_exact, fmt_small. apply le_IZR in N. lia. }
      exists (n - 1)%Z. split; [apply le_IZR in N; lia|exact Q].
  Qed.
  Lemma pow_more_s (x : ss b64) s (b : b64) n : s_get_f x = B754_zero s -> finite64 b -> val64 b = IZR n -> (2 <= n)%Z ->
    let r := s_apply_u (b64ops M) (Upow b) x in
    zero64 (s_get_f r) /\ forall k, finite64 (s_get_d (b64ops M) x k) -> zero64 (s_get_d (b64ops M) r k).
  Proof.
    intros E F V N. cbv zeta. rewrite (pow_s x s _ E). destruct (minus_one b n F V N) as (F1 & m & Pm & V1).
    destruct (pow_zero_value M HM s _ _ F1 V1 Pm) as (P1 & Q1).
    destruct (pow_zero_value M HM s b n F V ltac:(lia)) as (P0 & Q0).
    split; [exact (zero_val _ P0 Q0)|]. intros k Fk. rewrite get_unary. unfold s_get_d in Fk. destruct (t_find (s_d x) k) as [w|]; [|exists false; reflexivity].
    destruct (zero_mul_val _ b P1 Q1 F) as (A & B).
    destruct (zero_mul_val _ w A B Fk) as (A' & B'). rewrite b64_mul_comm, (b64_mul_comm b). exact (zero_val _ A' B').
  Qed.
  Lemma pow_zero_s : ~ (forall (x : ss b64) (n : Z) (k : string), all_finite M x -> (0 <= n)%Z -> finite64 (s_get_d (b64ops M) (s_apply_u (b64ops M) (Upow (b64_of_Z n)) x) k)).
  Proof.
    intros H. set (x := s_variable (b64ops M) "u" (B754_zero false)). specialize (H x 0%Z "u"%string).
    assert (AF : all_finite M x). { split; [reflexivity|]. intros k. unfold s_get_d. cbn [t_find s_d x s_variable s_ctor]. destruct (String.eqb "u" k); reflexivity. }
    specialize (H AF ltac:(lia)). destruct (pow0_s x false eq_refl) as (_ & Q & _). specialize (Q "u"%string ltac:(left; reflexivity)).
    unfold nan64, finite64 in *. destruct (s_get_d _ _ _); discriminate.
  Qed.
End PowZero.
