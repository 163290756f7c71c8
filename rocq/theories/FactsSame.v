(** Facts about sparse and dense numbers in double arithmetic. *)
From Coq Require Import ZArith List Bool String Permutation Reals Lra Lia.
From Flocq Require Import Core BinarySingleNaN.
From Verif Require Import Outcome Scalar Model Spec Core Kernels OpsRep AccRep PadRep FactsLayout FactsOps ExprSpec Expr ProgSpec Prog
  Float64 Ops64 B64 Facts64 RangeSpec ModelS SpecS FactsS NumSpec FactsNum SameSpec Samples.
Import ListNotations.
Open Scope list_scope.


Lemma Forall2_len {A B} (P : A -> B -> Prop) xs ys : Forall2 P xs ys -> List.length xs = List.length ys.
Proof. intros H. induction H; cbn; [reflexivity|f_equal; assumption]. Qed.
Lemma Forall2_nth {A B} (P : A -> B -> Prop) xs ys d d' i : Forall2 P xs ys -> (i < List.length xs)%nat -> P (nth i xs d) (nth i ys d').
Proof. intros H. revert i. induction H; intros [|i] Hi; cbn in *; try lia; [assumption|]. apply IHForall2. lia. Qed.

Section Same.
  Context (M : libm) (tight : bool).
  Notation O := (b64ops M).
  Notation gd := (s_get_d O).
  Definition al (v w : b64) : Prop := if tight then v = w else alike v w.
  Definition has (t : table b64) (k : string) : Prop := tight = true -> In k (keys t).

  Lemma al_refl v : al v v.
  Proof. unfold al. destruct tight; [reflexivity|right; left; reflexivity]. Qed.
  Lemma al_eq v w : v = w -> al v w. Proof. intros ->. apply al_refl. Qed.
  Lemma nan_alike v w : nan64 v -> alike v w -> nan64 w.
  Proof. unfold nan64. intros N [H|[<-|((s & ->) & _)]]; auto; discriminate. Qed.
  Lemma al_trans u v w : al u v -> al v w -> al u w.
  Proof.
    unfold al. destruct tight; [congruence|]. intros H H'. destruct H as [H|[->|(H1 & H2)]].
    - left. exact (nan_alike _ _ H H'). - exact H'.
    - destruct H' as [H'|[<-|(_ & H3)]]; [left; exact H'|right; right; auto|right; right; auto].
  Qed.
  Ltac alk := unfold al; destruct tight; [congruence|]; intros; unfold alike, nan64, zero64 in *.
  Lemma al_neg v w : al v w -> al (b64_neg v) (b64_neg w).
  Proof.
    alk. destruct H as [H|[->|((s & ->) & (s' & ->))]];  [left; destruct w; try discriminate; reflexivity|right; left; reflexivity|]. right. right. cbn. eauto.
  Qed.
  Lemma al_mul v w k : al v w -> al (b64_mul v k) (b64_mul w k).
  Proof.
    alk. destruct H as [H|[->|((s & ->) & (s' & ->))]];  [left; destruct w; try discriminate; destruct k; reflexivity|right; left; reflexivity|].
    destruct k; cbn; [right; right; eauto|left; reflexivity|left; reflexivity|right; right; eauto].
  Qed.
  Lemma al_mul' v w k : al v w -> al (b64_mul v k) (b64_mul k w).
  Proof. rewrite (b64_mul_comm k w). apply al_mul. Qed.
  Lemma al_mul'' v w k : al v w -> al (b64_mul k v) (b64_mul k w).
  Proof. rewrite (b64_mul_comm k v), (b64_mul_comm k w). apply al_mul. Qed.
  Lemma al_add_l v w u : al v w -> al (b64_add v u) (b64_add w u).
  Proof.
    alk. destruct H as [H|[->|((s & ->) & (s' & ->))]];  [left; destruct w; try discriminate; destruct u; reflexivity|right; left; reflexivity|].
    destruct u as [s1|s1| |s1 m e Hb]; cbn; [|right; left; reflexivity|left; reflexivity|right; left; reflexivity].
    right. right. destruct (Bool.eqb s s1), (Bool.eqb s' s1); eauto.
  Qed.
  Lemma al_add v w v' w' : al v w -> al v' w' -> al (b64_add v v') (b64_add w w').
  Proof.
    intros H H'. apply al_trans with (b64_add w v'); [apply al_add_l, H|].
    rewrite (b64_add_comm w v'), (b64_add_comm w w'). apply al_add_l, H'.
  Qed.
  Lemma sub_as_add (a b : b64) : b64_sub a b = b64_add a (b64_neg b).
  Proof. destruct a, b; reflexivity. Qed.
  Lemma al_sub v w v' w' : al v w -> al v' w' -> al (b64_sub v v') (b64_sub w w').
  Proof. intros H H'. rewrite !sub_as_add. apply al_add; [exact H|apply al_neg, H']. Qed.
  Notation z0 := (B754_zero false : b64).
  Lemma of_Z0 : b64_of_Z 0 = z0. Proof. reflexivity. Qed.
  Lemma m1_l (x : b64) : b64_mul (b64_of_Z (-1)) x = b64_neg x.
  Proof.
    destruct (is_finite x) eqn:F.
    - destruct (of_Z_exact (-1) ltac:(lia)) as (F1 & V1).
      assert (N : near64 (val64 (b64_of_Z (-1)) * val64 x) = (- val64 x)%R).
      { rewrite V1. replace (-1 * val64 x)%R with (val64 (b64_neg x)) by (unfold val64, b64_neg; rewrite B2R_Bopp; ring).
        rewrite (near64_exact _ (fmt_val (b64_neg x))). unfold val64, b64_neg. apply B2R_Bopp. }
      assert (B : (Rabs (near64 (val64 (b64_of_Z (-1)) * val64 x)) < bpow radix2 1024)%R).
      { rewrite N, Rabs_Ropp. apply finite_val_lt. }
      destruct (mul_ok _ x F1 F B) as (G1 & G2). rewrite N in G2.
      apply B2R_Bsign_inj; [exact G1|unfold b64_neg; rewrite is_finite_Bopp; exact F|unfold b64_neg; rewrite B2R_Bopp; exact G2|].
      pose proof (Bmult_correct prec64 emax64 prec64_gt_0 prec64_lt_emax mode_NE (b64_of_Z (-1)) x) as HC. cbn [round_mode] in HC.
      change (round radix2 _ _ (B2R (b64_of_Z (-1)) * B2R x)) with (near64 (val64 (b64_of_Z (-1)) * val64 x)) in HC.
      rewrite Rlt_bool_true in HC by exact B. destruct HC as (_ & _ & HS).
      unfold b64_mul. rewrite (HS (sign_not_nan _ G1)). unfold b64_neg. rewrite Bsign_Bopp by (destruct x; try discriminate; reflexivity).
      apply xorb_true_l.
    - destruct x as [s|s| |s m e H]; try discriminate; [destruct s; reflexivity|reflexivity].
  Qed.
  Lemma neg_1 : b64_neg (b64_of_Z 1) = b64_of_Z (-1).
  Proof. rewrite <- m1_l, b64_mul_comm. apply mul_1_l. Qed.

  (** reading tables *)
  Lemma al_zero_mul k : tight = false -> al z0 (b64_mul z0 k).
  Proof.
    unfold al. intros ->. unfold alike, nan64, zero64. destruct k; cbn; [right; right; eauto|left; reflexivity|left; reflexivity|right; right; eauto].
  Qed.
  Lemma al_add_zero (o k : b64) : tight = false -> al o (b64_add o (b64_mul k z0)).
  Proof.
    intros T. pose proof (al_zero_mul k T) as H. unfold al in *. rewrite T in *. rewrite b64_mul_comm. unfold alike, nan64, zero64 in *.
    destruct H as [H|[H|(_ & (s & H))]]; [|rewrite <- H; clear H|rewrite H; clear H].
    - left. destruct (b64_mul z0 k); try discriminate. destruct o; reflexivity.
    - destruct o as [s|s| |s m e Hb]; cbn; [right; right|right; left; reflexivity|left; reflexivity|right; left; reflexivity].
      destruct s; split; eexists; reflexivity.
    - destruct o as [s1|s1| |s1 m e Hb]; cbn; [right; right|right; left; reflexivity|left; reflexivity|right; left; reflexivity].
      destruct s1, s; split; eexists; reflexivity.
  Qed.
  Lemma gd_map f F t k : has t k -> (tight = false -> al z0 (F z0)) -> al (gd (mks f (t_map F t)) k) (F (gd (mks f t) k)).
  Proof.
    intros H Z. unfold s_get_d. cbn [s_d]. rewrite find_map. destruct (t_find t k) eqn:E; cbn [option_map]; [apply al_refl|].
    apply find_none in E. change (o_Z O 0) with z0. destruct (Bool.bool_dec tight true) as [T|T]; [destruct E; apply H, T|apply Z; destruct tight; [congruence|reflexivity]].
  Qed.
  Lemma gd_merge f g t b k : NoDup (keys b) -> has b k -> (tight = false -> forall o, al o (g o z0)) ->
    al (gd (mks f (t_merge O g t b)) k) (g (gd (mks f t) k) (gd (mks f b) k)).
  Proof.
    intros H Hb G. unfold s_get_d. cbn [s_d]. rewrite (find_merge O g t b k H).
    destruct (t_find b k) as [v|] eqn:E; cbn [dflt]; [destruct (t_find t k); apply al_refl|].
    apply find_none in E. change (o_Z O 0) with z0. destruct (Bool.bool_dec tight true) as [T|T]; [destruct E; apply Hb, T|apply G; destruct tight; [congruence|reflexivity]].
  Qed.
  Lemma gd_f f f' t k : gd (mks f t) k = gd (mks f' t) k. Proof. reflexivity. Qed.
  Lemma gd_eta x k : gd (mks (s_f x) (s_d x)) k = gd x k. Proof. destruct x; reflexivity. Qed.
  Lemma has_map F t k : has t k -> has (t_map F t) k.
  Proof. intros H T. rewrite keys_map. exact (H T). Qed.
  Lemma has_merge g t b k : NoDup (keys b) -> has t k -> has (t_merge O g t b) k.
  Proof. intros N H T. apply in_keys_merge; [exact N|]. left. exact (H T). Qed.
  Lemma gd_binary f a b da db k v w : NoDup (keys b) -> has a k -> has b k -> al (gd (mks f a) k) v -> al (gd (mks f b) k) w ->
    al (gd (mks f (s_binary O a b da db)) k) (b64_add (b64_mul da v) (b64_mul db w)).
  Proof.
    intros N Ha Hb HV HW. unfold s_binary. eapply al_trans; [apply gd_merge; [exact N|exact Hb|]|].
    - intros T o. exact (al_add_zero o db T).
    - cbn. apply al_add; [|apply al_mul'', HW].
      eapply al_trans; [apply (gd_map f (fun v => b64_mul v da)); [exact Ha|exact (al_zero_mul da)]|]. apply al_mul', HV.
  Qed.
  Lemma gd_ternary f a b c da db dc k v w u : NoDup (keys b) -> NoDup (keys c) -> has a k -> has b k -> has c k ->
    al (gd (mks f a) k) v -> al (gd (mks f b) k) w -> al (gd (mks f c) k) u ->
    al (gd (mks f (s_ternary O a b c da db dc)) k) (b64_add (b64_add (b64_mul da v) (b64_mul db w)) (b64_mul dc u)).
  Proof.
    intros N N' Ha Hb Hc HV HW HU. unfold s_ternary. eapply al_trans; [apply gd_merge; [exact N'|exact Hc|]|].
    - intros T o. exact (al_add_zero o dc T).
    - cbn. apply al_add; [|apply al_mul'', HU]. exact (gd_binary f a b da db k v w N Ha Hb HV HW).
  Qed.

  Section Shadow.
    Context (n : nat) (nm : nat -> string).
    Definition shadow (J : jet b64) (y : ss b64) : Prop :=
      keys_ok y /\ s_f y = jf J /\ forall i, (i < n)%nat -> has (s_d y) (nm i) /\ al (gd y (nm i)) (jg J i).

    Lemma sh_u u J y : shadow J y -> shadow (jap_u O u J) (s_apply_u O u y).
    Proof.
      intros (K & E & G). split; [apply keys_ok_u, K|]. destruct y as [yf yd]. cbn [s_f] in E. subst yf.
      assert (GK : forall f i, (i < n)%nat -> has yd (nm i) /\ al (gd (mks f yd) (nm i)) (jg J i)) by (intros f i Hi; apply (G i Hi)).
      assert (GM : forall f k i, (i < n)%nat -> has (t_map (fun v => b64_mul v k) yd) (nm i) /\
        al (gd (mks f (t_map (fun v => b64_mul v k) yd)) (nm i)) (b64_mul k (jg J i))).
      { intros f k i Hi. destruct (G i Hi) as (H & A). split; [apply has_map, H|].
        eapply al_trans; [apply (gd_map f (fun v => b64_mul v k)); [exact H|exact (al_zero_mul k)]|]. apply al_mul'. exact A. }
      assert (GM' : forall f k i, (i < n)%nat -> has (t_map (fun v => b64_mul v k) yd) (nm i) /\
        al (gd (mks f (t_map (fun v => b64_mul v k) yd)) (nm i)) (b64_mul (jg J i) k)).
      { intros f k i Hi. rewrite (b64_mul_comm _ k). apply GM, Hi. }
      assert (GN : forall f i, (i < n)%nat -> has (t_map (fun v => b64_neg v) yd) (nm i) /\
        al (gd (mks f (t_map (fun v => b64_neg v) yd)) (nm i)) (b64_neg (jg J i))).
      { intros f i Hi. destruct (G i Hi) as (H & A). split; [apply has_map, H|].
        eapply al_trans; [apply (gd_map f (fun v => b64_neg v)); [exact H|]|].
        - intros T. unfold al. rewrite T. right. right. unfold zero64. cbn. eauto.
        - apply al_neg. exact A. }
      destruct u; cbn [s_apply_u jap_u];
        unfold s_unary_op, sk_pow, sk_sqrt, sk_cbrt, sk_reciprocal, sk_cos, sk_sin, sk_tan, sk_acos, sk_asin, sk_atan,
          sk_cosh, sk_sinh, sk_tanh, sk_acosh, sk_asinh, sk_atanh, sk_exp, sk_log, sk_logb, sk_log2, sk_log10,
          s_abs, s_divs, s_smul, s_muls, s_subs, s_sadd, s_adds, s_ssub, s_neg, s_sdiv, s_unary,
          ju3, k_pow, k_sqrt, k_cbrt, k_reciprocal, k_cos, k_sin, k_tan, k_acos, k_asin, k_atan,
          k_cosh, k_sinh, k_tanh, k_acosh, k_asinh, k_atanh, k_exp, k_log, k_logb, k_log2, k_log10, k_sdiv; cbn [s_f s_d];
        try destruct (o_lt O (jf J) (o_Z O 0)); unfold s_adds, s_muls; cbn [s_f s_d];
        (split; [reflexivity|]); intros i Hi;
        first [ exact (GK _ i Hi) | exact (GN _ i Hi) | exact (GM' _ _ i Hi) | exact (GM _ _ i Hi)
              | change (o_neg O (o_Z O 1)) with (b64_neg (b64_of_Z 1)); rewrite neg_1; exact (GM _ _ i Hi) ].
    Qed.
    Lemma sh_b b J K x y : shadow J x -> shadow K y -> shadow (jap_b O b J K) (s_apply_b O b x y).
    Proof.
      intros (Kx & E & G) (Ky & E' & G'). split; [apply keys_ok_b, Kx|]. rewrite binary_shape, E, E'. unfold jap_b.
      assert (GB : forall f da db i, (i < n)%nat -> has (s_binary O (s_d x) (s_d y) da db) (nm i) /\
        al (gd (mks f (s_binary O (s_d x) (s_d y) da db)) (nm i)) (b64_add (b64_mul da (jg J i)) (b64_mul db (jg K i)))).
      { intros f da db i Hi. destruct (G i Hi) as (H & A), (G' i Hi) as (H' & A').
        split; [unfold s_binary; apply has_merge; [exact Ky|apply has_map, H]|]. apply gd_binary; assumption. }
      destruct b; cbn [sk_b k_b]; unfold k_add, k_sub, k_mul, k_div, k_atan2, k_hypot, jb6; cbv zeta;
        (split; [reflexivity|]); intros i Hi; try exact (GB _ _ _ i Hi).
      - destruct (GB (b64_add (jf J) (jf K)) (b64_of_Z 1) (b64_of_Z 1) i Hi) as (H & A). split; [exact H|].
        rewrite !mul_1_l in A. exact A.
      - destruct (GB (b64_sub (jf J) (jf K)) (b64_of_Z 1) (b64_of_Z (-1)) i Hi) as (H & A). split; [exact H|].
        rewrite mul_1_l, m1_l in A. exact A.
    Qed.
    Lemma sh_h J K L x y z : shadow J x -> shadow K y -> shadow L z -> shadow (jap_hypot3 O J K L) (s_hypot3 O x y z).
    Proof.
      intros (Kx & E & G) (Ky & E' & G') (Kz & E'' & G''). split; [apply keys_ok_h, Kx|].
      unfold s_hypot3, jap_hypot3. rewrite E, E', E''. cbv zeta. split; [reflexivity|]. intros i Hi.
      destruct (G i Hi) as (H & A), (G' i Hi) as (H' & A'), (G'' i Hi) as (H'' & A''). split.
      - cbn [s_d]. unfold s_ternary. apply has_merge; [exact Kz|]. apply has_merge; [exact Ky|]. apply has_map, H.
      - apply gd_ternary; assumption.
    Qed.
    Lemma sh_const v : tight = false -> shadow (jconst O v) (s_constant v).
    Proof. intros T. split; [constructor|]. split; [reflexivity|]. intros i Hi. split; [intros T'; congruence|apply al_refl]. Qed.
    Lemma sh_ev env jenv e : (tight = true -> const_free e) -> (forall i, occurs i e -> shadow (jenv i) (env i)) ->
      shadow (jev O jenv e) (s_run O env e).
    Proof.
      induction e as [i|s|u e IH|b e1 IH1 e2 IH2|e1 IH1 e2 IH2 e3 IH3]; cbn [jev s_run occurs const_free]; intros C H.
      - apply H. reflexivity.
      - apply sh_const. destruct (Bool.bool_dec tight true) as [T|T]; [destruct (C T)|destruct tight; [congruence|reflexivity]].
      - apply sh_u, IH; [exact C|exact H].
      - apply sh_b; [apply IH1|apply IH2]; try (intros; apply H; auto); intros T; apply C; exact T.
      - apply sh_h; [apply IH1|apply IH2|apply IH3]; try (intros; apply H; auto); intros T; apply C; exact T.
    Qed.
    (** in-place operators *)
    Lemma sh_assign o J x K y : shadow J x -> shadow K y -> shadow (jassign O o J (Some K)) (s_assign O o x (Some y)).
    Proof.
      intros (Kx & E & G) (Ky & E' & G'). split; [apply keys_ok_assign, Kx|].
      destruct o; cbn [s_assign jassign]; unfold s_add_assign, s_sub_assign, s_mul_assign, s_div_assign, jmul_assign, k_div_assign, jb6; cbv zeta;
        rewrite ?E, ?E'; (split; [reflexivity|]); intros i Hi; destruct (G i Hi) as (H & A), (G' i Hi) as (H' & A').
      - split; [apply has_merge; assumption|]. eapply al_trans; [apply gd_merge; [exact Ky|exact H'|]|apply al_add; assumption].
        intros T o. pose proof (al_add_zero o (b64_of_Z 1) T) as Q. rewrite mul_1_l in Q. exact Q.
      - split; [apply has_merge; assumption|]. eapply al_trans; [apply gd_merge; [exact Ky|exact H'|]|apply al_sub; assumption].
        intros T o. pose proof (al_add_zero o (b64_of_Z (-1)) T) as Q. rewrite m1_l in Q. cbn [o_sub b64ops]. rewrite sub_as_add. exact Q.
      - split; [apply has_merge; [assumption|apply has_map; assumption]|].
        exact (gd_binary _ (s_d x) (s_d y) (jf K) (jf J) (nm i) (jg J i) (jg K i) Ky H H' A A').
      - split; [apply has_merge; [assumption|apply has_map; assumption]|].
        exact (gd_binary _ (s_d x) (s_d y) _ _ (nm i) (jg J i) (jg K i) Ky H H' A A').
    Qed.
    Lemma sh_assign_self o J x : o = Aadd \/ o = Asub -> shadow J x -> shadow (jassign O o J None) (s_assign O o x None).
    Proof.
      intros Ho (Kx & E & G). split; [apply keys_ok_assign, Kx|].
      destruct Ho as [-> | ->]; cbn [s_assign jassign]; unfold s_add_assign, s_sub_assign;
        rewrite ?E; (split; [reflexivity|]); intros i Hi; destruct (G i Hi) as (H & A); rewrite merge_self by exact Kx.
      - split; [apply has_map, H|]. eapply al_trans; [apply (gd_map _ (fun v => b64_add v v)); [exact H|intros _; apply al_refl]|]. apply al_add; exact A.
      - split; [apply has_map, H|]. eapply al_trans; [apply (gd_map _ (fun v => b64_sub v v)); [exact H|intros _; apply al_refl]|]. apply al_sub; exact A.
    Qed.
    Lemma sh_assign_s o J x s : shadow J x -> shadow (jassign_s O o J s) (s_assign_s O o x s).
    Proof.
      intros (Kx & E & G). split; [apply keys_ok_assign_s, Kx|].
      destruct o; cbn [s_assign_s jassign_s]; unfold s_adds_assign, s_subs_assign, s_divs_assign, s_muls_assign;
        rewrite ?E; (split; [reflexivity|]); intros i Hi; rewrite ?fold_self by exact Kx; destruct (G i Hi) as (H & A); try (split; [exact H|exact A]);
        (split; [apply has_map, H|]); (eapply al_trans; [apply (gd_map _ (fun v => b64_mul v _)); [exact H|intros T; apply al_zero_mul, T]|]); apply al_mul; exact A.
    Qed.

    (** programs *)
    Lemma sh_get js st r : Forall2 shadow js st -> (r < List.length js)%nat -> exists x, get st r = Ok x /\ shadow (jreg O js r) x.
    Proof.
      intros H Hr. destruct (Forall2_get _ _ _ (jconst O (o_Z O 0%Z)) r H Hr) as (x & E & R). exists x. unfold get. rewrite E. auto.
    Qed.
    Lemma sh_write js st r J m : Forall2 shadow js st -> (r < List.length js)%nat -> (exists x, m = Ok x /\ shadow J x) ->
      exists st', s_write st r m = Ok st' /\ Forall2 shadow (put js r J) st'.
    Proof.
      intros H Hr (x & -> & R). unfold s_write. destruct (sh_get js st r H Hr) as (y & -> & _). cbn [bind].
      eexists. split; [reflexivity|]. apply put_Forall2; assumption.
    Qed.
    Lemma sh_test k js st : Forall2 shadow js st -> cond_below (List.length js) k -> s_test O k st = Ok (jtest O k js).
    Proof.
      intros H B. assert (F : forall J x, shadow J x -> s_f x = jf J) by (intros J x R; apply R).
      destruct k as [o a b|o a s|o s a]; cbn [s_test jtest cond_below] in *.
      - destruct B as (Ba & Bb). destruct (sh_get _ _ _ H Ba) as (x & -> & R). destruct (sh_get _ _ _ H Bb) as (y & -> & R').
        cbn [bind]. unfold ss_compare. rewrite (F _ _ R), (F _ _ R'). reflexivity.
      - destruct (sh_get _ _ _ H B) as (x & -> & R). cbn [bind]. unfold ss_compare_s. rewrite (F _ _ R). reflexivity.
      - destruct (sh_get _ _ _ H B) as (x & -> & R). cbn [bind]. unfold s_compare_ss, ss_compare_s.
        rewrite (F _ _ R). destruct o; reflexivity.
    Qed.
    Lemma sh_step s js st : (tight = true -> sconst_free s) -> Forall2 shadow js st -> regs_below (List.length js) s -> no_self_muldiv s ->
      exists st', s_step O s st = Ok st' /\ Forall2 shadow (jstep O s js) st'.
    Proof.
      intros C H B N. destruct s; cbn [s_step jstep regs_below sconst_free] in *; try (exists st; split; [reflexivity|exact H]);
        (apply sh_write; [tauto..|]).
      - eexists. split; [reflexivity|]. apply sh_const. destruct (Bool.bool_dec tight true) as [T|T]; [destruct (C T)|destruct tight; [congruence|reflexivity]].
      - apply sh_get; tauto.
      - destruct (sh_get js st a H ltac:(tauto)) as (x & -> & R). eexists. split; [reflexivity|]. apply sh_u, R.
      - destruct (sh_get js st a1 H ltac:(tauto)) as (x & -> & R). destruct (sh_get js st a2 H ltac:(tauto)) as (y & -> & R').
        eexists. split; [reflexivity|]. apply sh_b; assumption.
      - destruct (sh_get js st a1 H ltac:(tauto)) as (x & -> & R). destruct (sh_get js st a2 H ltac:(tauto)) as (y & -> & R').
        destruct (sh_get js st a3 H ltac:(tauto)) as (z & -> & R''). eexists. split; [reflexivity|]. apply sh_h; assumption.
      - destruct (sh_get js st r H ltac:(tauto)) as (x & -> & R). destruct (sh_get js st a H ltac:(tauto)) as (y & -> & R').
        eexists. split; [reflexivity|]. destruct (Nat.eqb_spec a r) as [->|Ha]; [|apply sh_assign; assumption].
        apply sh_assign_self; [|exact R]. destruct o; cbn in N; auto; congruence.
      - destruct (sh_get js st r H ltac:(tauto)) as (x & -> & R). eexists. split; [reflexivity|]. apply sh_assign_s, R.
    Qed.
    Lemma sh_exec fuel : forall s js st, (tight = true -> sconst_free s) -> Forall2 shadow js st -> regs_below (List.length js) s -> no_self_muldiv s ->
      match jexec O fuel s js with
      | Some js' => exists st', s_exec O fuel s st = Some (Ok st') /\ Forall2 shadow js' st'
      | None => s_exec O fuel s st = None
      end.
    Proof.
      induction fuel as [|k IH]; intros s js st C H B N; [reflexivity|].
      assert (HS : forall s, (tight = true -> sconst_free s) -> regs_below (List.length js) s -> no_self_muldiv s ->
        exists st', Some (s_step O s st) = Some (Ok st') /\ Forall2 shadow (jstep O s js) st').
      { intros s' C' B' N'. destruct (sh_step s' js st C' H B' N') as (st' & -> & H'). eauto. }
      cbn [jexec s_exec]. destruct s; try (apply HS; [exact C|exact B|exact N]); cbn [sconst_free] in C.
      - destruct B as (B1 & B2), N as (N1 & N2). assert (C1 : tight = true -> sconst_free s1) by (intros T; apply C, T).
        assert (C2 : tight = true -> sconst_free s2) by (intros T; apply C, T).
        specialize (IH s1 js st C1 H B1 N1) as I1. destruct (jexec O k s1 js) as [j1|] eqn:E1.
        + destruct I1 as (st1 & -> & H1). apply (IH s2 j1 st1 C2 H1); [|exact N2]. rewrite (jexec_length _ _ _ _ _ E1). exact B2.
        + rewrite I1. reflexivity.
      - destruct B as (Bk & B1 & B2), N as (N1 & N2). assert (C1 : tight = true -> sconst_free s1) by (intros T; apply C, T).
        assert (C2 : tight = true -> sconst_free s2) by (intros T; apply C, T). rewrite (sh_test k0 js st H Bk).
        destruct (jtest O k0 js); [apply (IH s1 js st C1 H B1 N1)|apply (IH s2 js st C2 H B2 N2)].
      - destruct B as (Bk & B1). cbn in N. rewrite (sh_test k0 js st H Bk).
        destruct (jtest O k0 js); [|eauto].
        specialize (IH s js st C H B1 N) as I1. destruct (jexec O k s js) as [j1|] eqn:E1.
        + destruct I1 as (st1 & -> & H1). apply (IH (PWhile k0 s) j1 st1 C H1); [|exact N]. rewrite (jexec_length _ _ _ _ _ E1). split; assumption.
        + rewrite I1. reflexivity.
    Qed.

    Section Link.
      Context (c : cfg) (Hc : cfg_ok c) (mir : dd b64 -> ss b64 -> Prop).
      Hypothesis (mir_jet : forall x y, mir x y -> exists J, rep c n J x /\ shadow J y).
      Hypothesis (jet_mir : forall J x y, rep c n J x -> shadow J y -> mir x y).
      Lemma mirrors_jets xs ys : Forall2 mir xs ys -> exists js, Forall2 (rep c n) js xs /\ Forall2 shadow js ys.
      Proof.
        intros H. induction H as [|x y xs ys Q H (js & H1 & H2)]; [exists []; split; constructor|].
        destruct (mir_jet x y Q) as (J & R & SH). exists (J :: js). split; constructor; assumption.
      Qed.
      Lemma jets_mirrors js xs ys : Forall2 (rep c n) js xs -> Forall2 shadow js ys -> Forall2 mir xs ys.
      Proof. intros H. revert ys. induction H; intros ys H'; inversion H'; subst; constructor; eauto. Qed.
      Lemma run_mirrors e xs ys d : (tight = true -> const_free e) -> size_ok c n -> vars_below (List.length xs) e -> Forall2 mir xs ys ->
        exists r, run O c n xs e = Ok r /\ mir r (s_run O (fun i => nth i ys d) e).
      Proof.
        intros C SO HV H. destruct (mirrors_jets xs ys H) as (js & H1 & H2).
        pose proof (Forall2_len _ _ _ H1) as L1. pose proof (Forall2_len _ _ _ H2) as L2.
        set (jenv := fun i => nth i js (jconst O (o_Z O 0))).
        destruct (run_rep O c n xs jenv e Hc SO HV) as (r & E & R).
        - intros i x Hx. assert (Hi : (i < List.length js)%nat) by (rewrite L1; apply nth_error_Some; congruence).
          destruct (Forall2_get _ _ _ (jconst O (o_Z O 0)) i H1 Hi) as (x' & E' & R'). unfold jenv. congruence.
        - exists r. split; [exact E|]. eapply jet_mir; [exact R|]. apply sh_ev; [exact C|]. intros i Hi.
          assert (Hl : (i < List.length js)%nat).
          { rewrite L1. clear -HV Hi. induction e; cbn in *; try tauto; lia. }
          unfold jenv. apply Forall2_nth; assumption.
      Qed.
      Lemma exec_mirrors fuel s xs ys : (tight = true -> sconst_free s) -> size_ok c n -> regs_below (List.length xs) s -> no_self_muldiv s ->
        Forall2 mir xs ys ->
        match exec O c n fuel s xs, s_exec O fuel s ys with
        | Some (Ok xs'), Some (Ok ys') => Forall2 mir xs' ys'
        | None, None => True
        | _, _ => False
        end.
      Proof.
        intros C SO B N H. destruct (mirrors_jets xs ys H) as (js & H1 & H2). rewrite <- (Forall2_len _ _ _ H1) in B.
        pose proof (exec_ok O c n Hc SO fuel s js xs H1 B) as X. pose proof (sh_exec fuel s js ys C H2 B N) as Y.
        destruct (jexec O fuel s js) as [js'|].
        - destruct X as (xs' & -> & X), Y as (ys' & -> & Y). eapply jets_mirrors; eassumption.
        - rewrite X, Y. exact I.
      Qed.
    End Link.
  End Shadow.
End Same.

(** ** The two relations *)
Section Both.
  Context (M : libm) (c : cfg) (Hc : cfg_ok c) (n : nat) (nm : nat -> string).
  Definition full_mirror (x : dd b64) (y : ss b64) : Prop := mirrors (b64ops M) c n nm x y /\ covers n nm y.
  Lemma loose_jet x y : mirrors64 M c n nm x y -> exists J, rep c n J x /\ shadow M false n nm J y.
  Proof.
    intros (K & g & h & SH & A). pose proof (shows_rep _ _ _ _ _ _ Hc SH) as R.
    eexists. split; [exact R|]. split; [exact K|]. split; [reflexivity|]. intros i Hi. split; [discriminate|]. exact (A i Hi).
  Qed.
  Lemma jet_loose J x y : rep c n J x -> shadow M false n nm J y -> mirrors64 M c n nm x y.
  Proof.
    intros R (K & E & G). split; [exact K|]. exists (jg J), (hess J). split; [|intros i Hi; apply (G i Hi)].
    unfold s_get_f. rewrite E. exact (rep_shows _ _ _ _ R).
  Qed.
  Lemma full_jet x y : full_mirror x y -> exists J, rep c n J x /\ shadow M true n nm J y.
  Proof.
    intros ((K & h & SH) & C). pose proof (shows_rep _ _ _ _ _ _ Hc SH) as R.
    eexists. split; [exact R|]. split; [exact K|]. split; [reflexivity|]. intros i Hi. split; [intros _; apply (C i Hi)|reflexivity].
  Qed.
  Lemma jet_full J x y : rep c n J x -> shadow M true n nm J y -> full_mirror x y.
  Proof.
    intros R (K & E & G). split; [|intros i Hi; apply (G i Hi); reflexivity]. split; [exact K|]. exists (hess J).
    pose proof (rep_shows _ _ _ _ R) as (W & F & GG & HH). split; [exact W|]. split; [unfold s_get_f; rewrite E; exact F|]. split; [|exact HH].
    intros i Hi. destruct (G i Hi) as (_ & A). cbn in A. rewrite A. apply GG, Hi.
  Qed.
  Lemma run_loose e xs ys d : size_ok c n -> vars_below (List.length xs) e -> Forall2 (mirrors64 M c n nm) xs ys ->
    exists r, run (b64ops M) c n xs e = Ok r /\ mirrors64 M c n nm r (s_run (b64ops M) (fun i => nth i ys d) e).
  Proof. apply (run_mirrors M false n nm c Hc _ loose_jet jet_loose). discriminate. Qed.
  Lemma run_full e xs ys d : const_free e -> size_ok c n -> vars_below (List.length xs) e -> Forall2 full_mirror xs ys ->
    exists r, run (b64ops M) c n xs e = Ok r /\ full_mirror r (s_run (b64ops M) (fun i => nth i ys d) e).
  Proof. intros C. apply (run_mirrors M true n nm c Hc _ full_jet jet_full). intros _. exact C. Qed.
  Lemma exec_loose fuel s xs ys : size_ok c n -> regs_below (List.length xs) s -> no_self_muldiv s -> Forall2 (mirrors64 M c n nm) xs ys ->
    match exec (b64ops M) c n fuel s xs, s_exec (b64ops M) fuel s ys with
    | Some (Ok xs'), Some (Ok ys') => Forall2 (mirrors64 M c n nm) xs' ys'
    | None, None => True
    | _, _ => False
    end.
  Proof. apply (exec_mirrors M false n nm c Hc _ loose_jet jet_loose). discriminate. Qed.
  Lemma exec_full fuel s xs ys : sconst_free s -> size_ok c n -> regs_below (List.length xs) s -> no_self_muldiv s -> Forall2 full_mirror xs ys ->
    match exec (b64ops M) c n fuel s xs, s_exec (b64ops M) fuel s ys with
    | Some (Ok xs'), Some (Ok ys') => Forall2 full_mirror xs' ys'
    | None, None => True
    | _, _ => False
    end.
  Proof. intros C. apply (exec_mirrors M true n nm c Hc _ full_jet jet_full). intros _. exact C. Qed.
End Both.

(** Any iteration order *)
Section Orders.
  Context (M : libm) (c : cfg) (Hc : cfg_ok c) (n : nat) (nm : nat -> string).
  Notation O := (b64ops M).
  Lemma loose_reorders x y z : mirrors64 M c n nm x y -> reorders y z -> mirrors64 M c n nm x z.
  Proof.
    intros (K & g & h & SH & A) R. destruct (reorders_reads O y z K R) as (F & _ & D). split; [exact (reorders_keys y z K R)|].
    exists g, h. rewrite <- F. split; [exact SH|]. intros i Hi. rewrite <- D. exact (A i Hi).
  Qed.
  Lemma full_reorders x y z : full_mirror M c n nm x y -> reorders y z -> full_mirror M c n nm x z.
  Proof.
    intros ((K & h & SH) & C) R. destruct (reorders_reads O y z K R) as (F & _ & D). split.
    - split; [exact (reorders_keys y z K R)|]. exists h. destruct SH as (W & S1 & S2 & S3). rewrite <- F. split; [exact W|]. split; [exact S1|].
      split; [|exact S3]. intros i Hi. rewrite <- D. apply S2, Hi.
    - intros i Hi. specialize (C i Hi). destruct R as (_ & P). unfold names in *. eapply Permutation_in; [apply Permutation_map, P|exact C].
  Qed.
  Lemma nth_keys (mir : dd b64 -> ss b64 -> Prop) xs ys v : (forall x y, mir x y -> keys_ok y) -> Forall2 mir xs ys -> forall i, keys_ok (nth i ys (s_constant v)).
  Proof.
    intros Q H. induction H as [|x y xs ys R H IH]; intros [|i]; cbn; try constructor; [exact (Q _ _ R)|apply IH].
  Qed.
  Lemma all_keys (mir : dd b64 -> ss b64 -> Prop) xs ys : (forall x y, mir x y -> keys_ok y) -> Forall2 mir xs ys -> List.Forall keys_ok ys.
  Proof. intros Q H. induction H; constructor; eauto. Qed.
  Lemma refl_reorders (l : list (ss b64)) : Forall2 reorders l l.
  Proof. induction l; constructor; auto using reorders_refl. Qed.
  Lemma Forall2_reorders (mir : dd b64 -> ss b64 -> Prop) xs ys zs : (forall x y z, mir x y -> reorders y z -> mir x z) ->
    Forall2 mir xs ys -> Forall2 reorders ys zs -> Forall2 mir xs zs.
  Proof. intros Q H. revert zs. induction H; intros zs R; inversion R; subst; constructor; eauto. Qed.

  Lemma runs_loose e xs ys v : size_ok c n -> vars_below (List.length xs) e -> Forall2 (mirrors64 M c n nm) xs ys ->
    exists r, run O c n xs e = Ok r /\ forall y, s_runs O (fun i => nth i ys (s_constant v)) e y -> mirrors64 M c n nm r y.
  Proof.
    intros SO HV H. destruct (run_loose M c Hc n nm e xs ys (s_constant v) SO HV H) as (r & E & Q). exists r. split; [exact E|].
    intros y Y. eapply loose_reorders; [exact Q|]. eapply (runs_unique O _ _ e _); [|intros i; apply reorders_refl|apply run_runs|exact Y].
    apply (nth_keys (mirrors64 M c n nm) xs); [intros ? ? T; apply T|exact H].
  Qed.
  Lemma runs_full e xs ys v : const_free e -> size_ok c n -> vars_below (List.length xs) e -> Forall2 (full_mirror M c n nm) xs ys ->
    exists r, run O c n xs e = Ok r /\ forall y, s_runs O (fun i => nth i ys (s_constant v)) e y -> full_mirror M c n nm r y.
  Proof.
    intros C SO HV H. destruct (run_full M c Hc n nm e xs ys (s_constant v) C SO HV H) as (r & E & Q). exists r. split; [exact E|].
    intros y Y. eapply full_reorders; [exact Q|]. eapply (runs_unique O _ _ e _); [|intros i; apply reorders_refl|apply run_runs|exact Y].
    apply (nth_keys (full_mirror M c n nm) xs); [intros ? ? T; apply T|exact H].
  Qed.
  Lemma execs_loose fuel s xs xs' ys ys' : size_ok c n -> regs_below (List.length xs) s -> no_self_muldiv s -> Forall2 (mirrors64 M c n nm) xs ys ->
    exec O c n fuel s xs = Some (Ok xs') -> s_execs O s ys ys' -> Forall2 (mirrors64 M c n nm) xs' ys'.
  Proof.
    intros SO B N H E X. pose proof (exec_loose M c Hc n nm fuel s xs ys SO B N H) as Q. rewrite E in Q.
    destruct (s_exec O fuel s ys) as [[ys''| | |]|] eqn:E'; try contradiction.
    eapply Forall2_reorders; [exact loose_reorders|exact Q|].
    eapply (execs_unique O s ys ys''); [apply (exec_execs O fuel), E'| |apply refl_reorders|exact X].
    apply (all_keys (mirrors64 M c n nm) xs); [intros ? ? T; apply T|exact H].
  Qed.
  Lemma execs_full fuel s xs xs' ys ys' : sconst_free s -> size_ok c n -> regs_below (List.length xs) s -> no_self_muldiv s ->
    Forall2 (full_mirror M c n nm) xs ys -> exec O c n fuel s xs = Some (Ok xs') -> s_execs O s ys ys' -> Forall2 (full_mirror M c n nm) xs' ys'.
  Proof.
    intros C SO B N H E X. pose proof (exec_full M c Hc n nm fuel s xs ys C SO B N H) as Q. rewrite E in Q.
    destruct (s_exec O fuel s ys) as [[ys''| | |]|] eqn:E'; try contradiction.
    eapply Forall2_reorders; [exact full_reorders|exact Q|].
    eapply (execs_unique O s ys ys''); [apply (exec_execs O fuel), E'| |apply refl_reorders|exact X].
    apply (all_keys (full_mirror M c n nm) xs); [intros ? ? T; apply T|exact H].
  Qed.
End Orders.

Lemma variables_loose (M : libm) (c : cfg) (nm : nat -> string) (vs : list b64) (v : b64) (e : expr b64) : let n := List.length vs in
  cfg_ok c -> size_ok c n -> distinct n nm -> vars_below n e ->
  exists r, evaluate (b64ops M) c vs e = Ok r /\
    forall y, s_runs (b64ops M) (fun i => s_variable (b64ops M) (nm i) (nth i vs v)) e y -> mirrors64 M c n nm r y.
Proof.
  intros n Hc SO D HV. destruct (evaluate_rep (b64ops M) c vs v e Hc SO HV) as (r & E & R). exists r. split; [exact E|].
  intros y Y. eapply loose_reorders; [|eapply (runs_unique (b64ops M) _ _ e _); [|intros i; apply reorders_refl|apply run_runs|exact Y]].
  - eapply jet_loose; [exact R|]. apply sh_ev; [discriminate|]. intros i Hi.
    assert (Hl : (i < n)%nat) by (clear -HV Hi; induction e; cbn in *; try tauto; lia).
    split; [apply keys_ok_var|]. split; [reflexivity|]. intros j Hj. split; [discriminate|].
    unfold s_get_d. cbn -[o_Z]. destruct (String.eqb_spec (nm i) (nm j)) as [Q|Q].
    + apply D in Q; [|assumption..]. subst j. rewrite Nat.eqb_refl. right. left. reflexivity.
    + destruct (Nat.eqb_spec j i) as [->|_]; [congruence|right; left; reflexivity].
  - intros i. apply keys_ok_var.
Qed.

(** The difference is real: [sqrt(u) + v] at (0, 1). *)
Definition kink : expr b64 := EB Badd (EU Usqrt (EVar 0)) (EVar 1).
Definition uv (i : nat) : string := match i with 0%nat => "u" | _ => "v" end%string.
Lemma kink_differs (M : libm) :
  (exists r w, evaluate (b64ops M) dyn1 [b64_of_Z 0; b64_of_Z 1] kink = Ok r /\ get_g dyn1 r 1 = Ok w /\ nan64 w) /\
  s_get_d (b64ops M) (s_run (b64ops M) (fun i => s_variable (b64ops M) (uv i) (nth i [b64_of_Z 0; b64_of_Z 1] (b64_of_Z 0))) kink) (uv 1) = b64_of_Z 1.
Proof.
  split.
  - assert (Q : match evaluate (b64ops M) dyn1 [b64_of_Z 0; b64_of_Z 1] kink with
      | Ok r => match get_g dyn1 r 1 with Ok w => is_nan w | _ => false end | _ => false end = true) by (vm_compute; reflexivity).
    destruct (evaluate (b64ops M) dyn1 [b64_of_Z 0; b64_of_Z 1] kink) as [r| | |]; try discriminate Q.
    destruct (get_g dyn1 r 1) as [w| | |] eqn:E; try discriminate Q. exists r, w. auto.
  - apply B2SF_inj. vm_compute. reflexivity.
Qed.
