(** Proofs for C103: sparse numbers with other seeds. *)
From Coq Require Import ZArith List Bool String Permutation Reals Lra Lia.
From Flocq Require Import Core BinarySingleNaN.
From Verif Require Import Outcome Scalar Float64 Ops64 Model ModelObj Spec RealOps ExprSpec ProgSpec ParamSpec GradeSpec FactsGrade64 ModelS ModelObjS SpecS GradeSSpec FactsS.
From Verif Require FactsParam FactsParS.
Import ListNotations.
Open Scope list_scope.

Section Par.
  Context {S T : Type} (P0 : S -> T -> Prop) (P1 : string -> S -> T -> Prop) (O : Ops S) (O' : Ops T) (SD : seeding P0 P1 O O').
  Notation tr := (table_seeds P1).
  Notation sr := (sparse_seeds P0 P1).
  Notation rr := (res_rel sr).
  Let AR : arith_rel P0 O O' := sd_arith _ _ _ _ SD.
  Let OR : order_rel P0 O O' := sd_order _ _ _ _ SD.

  Ltac prim := first
    [ assumption | apply (ar_Z _ _ _ AR) | apply (ar_add _ _ _ AR) | apply (ar_sub _ _ _ AR) | apply (ar_mul _ _ _ AR)
    | apply (ar_div _ _ _ AR) | apply (ar_neg _ _ _ AR) | apply (ar_pow _ _ _ AR) | apply (ar_sqrt _ _ _ AR) | apply (ar_cbrt _ _ _ AR)
    | apply (ar_cos _ _ _ AR) | apply (ar_sin _ _ _ AR) | apply (ar_tan _ _ _ AR) | apply (ar_acos _ _ _ AR) | apply (ar_asin _ _ _ AR)
    | apply (ar_atan _ _ _ AR) | apply (ar_atan2 _ _ _ AR) | apply (ar_hypot _ _ _ AR) | apply (ar_hypot3 _ _ _ AR)
    | apply (ar_cosh _ _ _ AR) | apply (ar_sinh _ _ _ AR) | apply (ar_tanh _ _ _ AR) | apply (ar_acosh _ _ _ AR)
    | apply (ar_asinh _ _ _ AR) | apply (ar_atanh _ _ _ AR) | apply (ar_exp _ _ _ AR) | apply (ar_log _ _ _ AR)
    | apply (ar_log2 _ _ _ AR) | apply (ar_log10 _ _ _ AR) ].
  Ltac prims := repeat prim.
  (** Sums and products of derivatives. *)
  Ltac grade := repeat first [ assumption | apply (sd_zero _ _ _ _ SD) | apply (sd_add _ _ _ _ SD) | apply (sd_sub _ _ _ _ SD) | apply (sd_neg _ _ _ _ SD) ];
    first [ assumption | apply (sd_mul10 _ _ _ _ SD); [assumption|prims] | apply (sd_mul01 _ _ _ _ SD); [prims|assumption] | idtac ].
  Ltac grades := intros; repeat (progress grade).

  Lemma find_gr t t' k : tr t t' -> match t_find t k, t_find t' k with Some v, Some w => P1 k v w | None, None => True | _, _ => False end.
  Proof.
    induction 1 as [|(k1, v) (k2, w) t t' (E & H) _ IH]; cbn; [exact I|]. cbn in E, H. subst k2.
    destruct (String.eqb_spec k1 k) as [->|]; assumption.
  Qed.
  Lemma get_d_gr x y k : sr x y -> P1 k (s_get_d O x k) (s_get_d O' y k).
  Proof.
    intros (_ & H). unfold s_get_d. pose proof (find_gr _ _ k H) as Q.
    destruct (t_find (s_d x) k), (t_find (s_d y) k); try contradiction; [exact Q|apply (sd_zero _ _ _ _ SD)].
  Qed.
  Lemma update_gr t t' k f g : tr t t' -> (forall v w, P1 k v w -> P1 k (f v) (g w)) -> tr (t_update O t k f) (t_update O' t' k g).
  Proof.
    intros H Hf. induction H as [|(k1, v) (k2, w) t t' (E & H) Ht IH]; cbn.
    - constructor; [|constructor]. split; [reflexivity|]. cbn. apply Hf, (sd_zero _ _ _ _ SD).
    - cbn in E, H. subst k2. destruct (String.eqb_spec k1 k) as [->|]; constructor; cbn; auto.
  Qed.
  Lemma map_gr f g t t' : tr t t' -> (forall k v w, P1 k v w -> P1 k (f v) (g w)) -> tr (t_map f t) (t_map g t').
  Proof. intros H Hf. induction H as [|(k1, v) (k2, w) t t' (E & H) Ht IH]; cbn; constructor; auto. cbn in *. auto. Qed.
  Lemma merge_gr f g b b' : tr b b' -> (forall k v w v' w', P1 k v w -> P1 k v' w' -> P1 k (f v v') (g w w')) ->
    forall t t', tr t t' -> tr (t_merge O f t b) (t_merge O' g t' b').
  Proof.
    unfold t_merge. intros H Hf. induction H as [|(k1, v) (k2, w) b b' (E & H) Hb IH]; cbn; intros t t' Ht; [exact Ht|].
    cbn in E, H. subst k2. apply IH. apply update_gr; auto.
  Qed.
  Lemma keys_gr t t' : tr t t' -> map fst t' = map fst t.
  Proof. induction 1 as [|(k1, v) (k2, w) t t' (E & H) Ht IH]; cbn in *; congruence. Qed.
  Lemma self_gr f g l : (forall k v w, P1 k v w -> P1 k (f v) (g w)) -> forall t t', tr t t' ->
    tr (fold_left (fun t k => t_update O t k f) l t) (fold_left (fun t k => t_update O' t k g) l t').
  Proof. intros Hf. induction l as [|k l IH]; cbn; intros t t' Ht; [exact Ht|]. apply IH, update_gr; auto. Qed.
  Lemma merge_self_gr f g t t' : (forall k v w v' w', P1 k v w -> P1 k v' w' -> P1 k (f v v') (g w w')) -> tr t t' ->
    tr (t_merge_self O f t) (t_merge_self O' g t').
  Proof. intros Hf H. unfold t_merge_self. rewrite (keys_gr _ _ H). apply self_gr; auto. Qed.
  Lemma binary_gr a a' b b' da da' db db' : tr a a' -> tr b b' -> P0 da da' -> P0 db db' ->
    tr (s_binary O a b da db) (s_binary O' a' b' da' db').
  Proof. intros. unfold s_binary. apply merge_gr; [assumption|grades|]. apply map_gr; [assumption|grades]. Qed.
  Lemma ternary_gr a a' b b' d d' da da' db db' dc dc' : tr a a' -> tr b b' -> tr d d' -> P0 da da' -> P0 db db' -> P0 dc dc' ->
    tr (s_ternary O a b d da db dc) (s_ternary O' a' b' d' da' db' dc').
  Proof.
    intros. unfold s_ternary. apply merge_gr; [assumption|grades|]. apply merge_gr; [assumption|grades|].
    apply map_gr; [assumption|grades].
  Qed.
  Definition kern_gr (F : S -> S * S) (F' : T -> T * T) := forall v w, P0 v w -> P0 (fst (F v)) (fst (F' w)) /\ P0 (snd (F v)) (snd (F' w)).
  Lemma unary_op_gr F F' x y : kern_gr F F' -> sr x y -> sr (s_unary_op O F x) (s_unary_op O' F' y).
  Proof.
    intros HF (H & Ht). unfold s_unary_op. pose proof (HF _ _ H) as (A & B). destruct (F (s_f x)) as (f, d), (F' (s_f y)) as (f', d'). cbn in *.
    split; [exact A|]. apply map_gr; [exact Ht|]. grades.
  Qed.
  Lemma u_gr u u' x y : ufun_rel P0 u u' -> sr x y -> sr (s_apply_u O u x) (s_apply_u O' u' y).
  Proof.
    intros Hu Hx. pose proof Hx as (H & Ht). destruct u, u'; cbn [ufun_rel] in Hu; try contradiction; cbn [s_apply_u];
      try (apply unary_op_gr; [|assumption]; intros v w Hv; cbn; split; prims).
    2:{ unfold s_abs. rewrite (or_lt _ _ _ OR _ _ (o_Z O 0) (o_Z O' 0) H (ar_Z _ _ _ AR 0)).
        destruct (o_lt O' (s_f y) (o_Z O' 0)); [|assumption]. split; cbn; [prims|]. apply map_gr; [assumption|grades]. }
    all: unfold s_neg, s_divs, s_smul, s_muls, s_subs, s_sadd, s_adds, s_ssub, s_neg, s_sdiv, s_unary; split; cbn; prims;
      apply map_gr; try assumption; grades.
  Qed.
  Lemma b_gr b x x' y y' : sr x x' -> sr y y' -> sr (s_apply_b O b x y) (s_apply_b O' b x' y').
  Proof.
    intros (H & Ht) (H' & Ht'). destruct b; cbn [s_apply_b]; unfold s_add, s_sub, s_mul, s_div, s_atan2, s_hypot; split; cbn; prims;
      apply binary_gr; prims.
  Qed.
  Lemma h_gr x x' y y' z z' : sr x x' -> sr y y' -> sr z z' -> sr (s_hypot3 O x y z) (s_hypot3 O' x' y' z').
  Proof. intros (H & Ht) (H' & Ht') (H'' & Ht''). unfold s_hypot3. split; cbn; prims; apply ternary_gr; prims. Qed.
  Definition orel (y : option (ss S)) (y' : option (ss T)) : Prop := match y, y' with Some a, Some b => sr a b | None, None => True | _, _ => False end.
  Lemma assign_gr o x x' y y' : sr x x' -> orel y y' -> sr (s_assign O o x y) (s_assign O' o x' y').
  Proof.
    intros (H & Ht) Hy. destruct y as [y|], y' as [y'|]; cbn in Hy; try contradiction.
    - destruct Hy as (H' & Ht'). destruct o; cbn [s_assign]; unfold s_add_assign, s_sub_assign, s_mul_assign, s_div_assign; split; cbn; prims;
        apply merge_gr; try assumption; try (solve [grades]); apply map_gr; try assumption; grades.
    - destruct o; cbn [s_assign]; unfold s_add_assign, s_sub_assign, s_mul_assign, s_div_assign; split; cbn; prims;
        apply merge_self_gr; try assumption; try (solve [grades]); apply map_gr; try assumption; grades.
  Qed.
  Lemma assign_s_gr o x x' s s' : sr x x' -> P0 s s' -> sr (s_assign_s O o x s) (s_assign_s O' o x' s').
  Proof.
    intros (H & Ht) Hs. destruct o; cbn [s_assign_s]; unfold s_adds_assign, s_subs_assign, s_divs_assign, s_muls_assign; split; cbn; prims;
      rewrite (keys_gr _ _ Ht); apply self_gr; try assumption; grades.
  Qed.
  Lemma const_gr v v' : P0 v v' -> sr (s_constant v) (s_constant v'). Proof. split; [assumption|constructor]. Qed.

  Lemma run_gr env env' : (forall i, sr (env i) (env' i)) -> forall e e', expr_rel P0 e e' ->
    sr (s_run O env e) (s_run O' env' e').
  Proof.
    intros H. induction e as [i|s|u e IH|b e1 IH1 e2 IH2|e1 IH1 e2 IH2 e3 IH3]; intros e' He; destruct e'; cbn [expr_rel] in He; try contradiction; cbn [s_run].
    - subst. apply H.
    - apply const_gr, He.
    - destruct He. apply u_gr; auto.
    - destruct He as (<- & He1 & He2). apply b_gr; [apply IH1|apply IH2]; tauto.
    - destruct He as (He1 & He2 & He3). apply h_gr; [apply IH1|apply IH2|apply IH3]; tauto.
  Qed.
  (** Whatever order the tables on one side take, the other side can take. *)
  Lemma reorders_gr x y x' : sr x x' -> reorders x y -> exists y', reorders x' y' /\ sr y y'.
  Proof.
    intros (H & Ht) (E & Hp). destruct (Permutation_Forall2 Hp Ht) as (d & Hd & Hd').
    exists (mks (s_f x') d). split; split; cbn; [reflexivity|exact Hd|rewrite <- E; exact H|exact Hd'].
  Qed.
  Lemma runs_gr env env' : (forall i, sr (env i) (env' i)) -> forall e x, s_runs O env e x -> forall e', expr_rel P0 e e' ->
    exists x', s_runs O' env' e' x' /\ sr x x'.
  Proof.
    intros H e x R. induction R as [i x Rx|s x Rx|u e x y R IH Rx|b e1 e2 x1 x2 y R1 IH1 R2 IH2 Rx
                                   |e1 e2 e3 x1 x2 x3 y R1 IH1 R2 IH2 R3 IH3 Rx]; intros e' He; destruct e'; cbn [expr_rel] in He; try contradiction.
    - subst. destruct (reorders_gr _ _ _ (H _) Rx) as (y & Ry & Hy). exists y. split; [apply RVar, Ry|exact Hy].
    - destruct (reorders_gr _ _ _ (const_gr _ _ He) Rx) as (y & Ry & Hy). exists y. split; [apply RConst, Ry|exact Hy].
    - destruct He as (Hu & He). destruct (IH _ He) as (x' & Rx' & Hx').
      destruct (reorders_gr _ _ _ (u_gr _ _ _ _ Hu Hx') Rx) as (y' & Ry & Hy). exists y'. split; [eapply RU; eassumption|exact Hy].
    - destruct He as (<- & He1 & He2). destruct (IH1 e'1 He1) as (x1' & R1' & H1). destruct (IH2 e'2 He2) as (x2' & R2' & H2).
      destruct (reorders_gr _ _ _ (b_gr b _ _ _ _ H1 H2) Rx) as (y' & Ry & Hy). exists y'. split; [eapply RB; eassumption|exact Hy].
    - destruct He as (He1 & He2 & He3). destruct (IH1 e'1 He1) as (x1' & R1' & H1). destruct (IH2 e'2 He2) as (x2' & R2' & H2).
      destruct (IH3 e'3 He3) as (x3' & R3' & H3).
      destruct (reorders_gr _ _ _ (h_gr _ _ _ _ _ _ H1 H2 H3) Rx) as (y' & Ry & Hy). exists y'. split; [eapply RH; eassumption|exact Hy].
  Qed.
  Lemma eval_gr (Pd : string -> S -> T -> Prop) se x x' d d' :
    (forall k a a' b b', P1 k a a' -> Pd k b b' -> P0 (o_mul O a b) (o_mul O' a' b')) ->
    sr x x' -> table_seeds Pd d d' -> res_rel P0 (s_eval O se x d) (s_eval O' se x' d').
  Proof.
    intros HP (_ & Hx) Hd. unfold s_eval. assert (Z : res_rel P0 (Ok (o_Z O 0)) (Ok (o_Z O' 0))) by (cbn; prims). revert Z.
    assert (F : forall k, match t_find d k, t_find d' k with Some v, Some w => Pd k v w | None, None => True | _, _ => False end).
    { intros k. induction Hd as [|(k1, v) (k2, w) t t' (E & H) _ IH]; cbn; [exact I|]. cbn in E, H. subst k2.
      destruct (String.eqb_spec k1 k) as [->|]; assumption. }
    generalize (Ok (o_Z O 0)) (Ok (o_Z O' 0)). induction Hx as [|(k1, v) (k2, w) t t' (E & H) Ht IH]; cbn; intros r r' Hr; [exact Hr|].
    cbn in E, H. subst k2. apply IH. destruct r, r'; cbn in Hr |- *; try contradiction; auto.
    destruct se; [|exact I]. specialize (F k1). destruct (t_find d k1), (t_find d' k1); try contradiction; cbn; [|exact Hr].
    apply (ar_add _ _ _ AR); [exact Hr|]. eapply HP; eassumption.
  Qed.

  Section Order.
    Lemma scmp_gr o a a' b b' : P0 a a' -> P0 b b' -> scmp O o a b = scmp O' o a' b'.
    Proof.
      intros. destruct o; cbn; rewrite ?(or_lt _ _ _ OR a a' b b'), ?(or_le _ _ _ OR a a' b b'), ?(or_eq _ _ _ OR a a' b b'),
        ?(or_lt _ _ _ OR b b' a a'), ?(or_le _ _ _ OR b b' a a') by assumption; reflexivity.
    Qed.
    Lemma compare_gr o x x' y y' : sr x x' -> sr y y' -> ss_compare O o x y = ss_compare O' o x' y'.
    Proof. intros (H & _) (H' & _). apply scmp_gr; assumption. Qed.
    Lemma get_gr st st' r : Forall2 sr st st' -> rr (get st r) (get st' r).
    Proof. intros H. revert r. unfold get. induction H; intros [|r]; cbn; auto. Qed.
    Lemma put_gr st st' r x x' : Forall2 sr st st' -> sr x x' -> Forall2 sr (put st r x) (put st' r x').
    Proof. intros H Hx. revert r. induction H; intros [|r]; cbn; constructor; auto. Qed.
    Lemma write_gr st st' r m m' : Forall2 sr st st' -> rr m m' -> res_rel (Forall2 sr) (s_write st r m) (s_write st' r m').
    Proof.
      intros H Hm. unfold s_write. pose proof (get_gr _ _ r H) as G. destruct (get st r), (get st' r); cbn in G |- *; try contradiction; auto.
      destruct m, m'; cbn in Hm |- *; try contradiction; auto. apply put_gr; assumption.
    Qed.
    Ltac getp H r := let G := fresh "G" in pose proof (get_gr _ _ r H) as G; revert G;
      match type of H with Forall2 _ ?st ?st' => destruct (get st r), (get st' r) end; cbn; intros G; try contradiction; auto.
    Lemma step_gr s s' st st' : stmt_rel P0 s s' -> Forall2 sr st st' -> res_rel (Forall2 sr) (s_step O s st) (s_step O' s' st').
    Proof.
      intros Hs H. destruct s, s'; cbn [stmt_rel] in Hs; try contradiction; cbn [s_step]; try exact H; decompose [and] Hs; subst; apply write_gr; try exact H.
      - apply const_gr. assumption.
      - apply get_gr, H.
      - getp H a0. apply u_gr; auto.
      - getp H a0. getp H a3. apply b_gr; assumption.
      - getp H a0. getp H a4. getp H a5. apply h_gr; assumption.
      - getp H r0. getp H a0. apply assign_gr; [assumption|]. destruct (Nat.eqb a0 r0); cbn; auto.
      - getp H r0. apply assign_s_gr; assumption.
    Qed.
    Lemma test_gr k k' st st' : cond_rel P0 k k' -> Forall2 sr st st' -> s_test O k st = s_test O' k' st'.
    Proof.
      intros Hk H. destruct k, k'; cbn [cond_rel] in Hk; try contradiction; decompose [and] Hk; subst; cbn [s_test].
      - pose proof (get_gr _ _ a0 H) as G. destruct (get st a0), (get st' a0); cbn in G |- *; try contradiction; try congruence.
        pose proof (get_gr _ _ b0 H) as G'. destruct (get st b0), (get st' b0); cbn in G' |- *; try contradiction; try congruence.
        f_equal. apply compare_gr; assumption.
      - pose proof (get_gr _ _ a0 H) as G. destruct (get st a0), (get st' a0); cbn in G |- *; try contradiction; try congruence.
        f_equal. apply scmp_gr; [apply G|assumption].
      - pose proof (get_gr _ _ a0 H) as G. destruct (get st a0), (get st' a0); cbn in G |- *; try contradiction; try congruence.
        f_equal. unfold s_compare_ss, ss_compare_s. destruct o0; apply scmp_gr; try apply G; assumption.
    Qed.
    Lemma exec_gr : forall fuel s s' st st', stmt_rel P0 s s' -> Forall2 sr st st' ->
      ParamSpec.run_rel (Forall2 sr) (s_exec O fuel s st) (s_exec O' fuel s' st').
    Proof.
      induction fuel as [|k IH]; intros s s' st st' Hs H; [exact I|].
      pose proof (step_gr s s' st st' Hs H) as Hstep.
      destruct s, s'; cbn [stmt_rel] in Hs; try contradiction; cbn [s_exec]; try exact Hstep.
      - destruct Hs as (H1 & H2). pose proof (IH _ _ _ _ H1 H) as G.
        destruct (s_exec O k s1 st) as [[]|], (s_exec O' k s'1 st') as [[]|]; cbn in G |- *; try contradiction; auto.
      - destruct Hs as (H1 & H2 & H3). rewrite (test_gr _ _ _ _ H1 H). destruct (s_test O' k1 st') as [[]| | |]; cbn; auto.
      - destruct Hs as (H1 & H2). rewrite (test_gr _ _ _ _ H1 H). destruct (s_test O' k1 st') as [[]| | |]; cbn; auto.
        pose proof (IH _ _ _ _ H2 H) as G.
        destruct (s_exec O k s st) as [[]|], (s_exec O' k s' st') as [[]|]; cbn in G |- *; try contradiction; auto.
        apply IH; [cbn; auto|assumption].
    Qed.
    Lemma Forall2_reorders_gr st st1 : Forall2 reorders st st1 -> forall st', Forall2 sr st st' ->
      exists st1', Forall2 reorders st' st1' /\ Forall2 sr st1 st1'.
    Proof.
      induction 1 as [|x y st st1 R _ IH]; intros st' H; inversion H; subst; [exists []; split; constructor|].
      destruct (reorders_gr _ _ _ H2 R) as (y' & Ry & Hy). destruct (IH _ H4) as (st1' & A & B). exists (y' :: st1'). split; constructor; assumption.
    Qed.
    Lemma basic_gr s s' : stmt_rel P0 s s' -> basic s -> basic s'.
    Proof. destruct s, s'; cbn; tauto. Qed.
    Lemma execs_gr s st st1 : s_execs O s st st1 -> forall s' st', stmt_rel P0 s s' -> Forall2 sr st st' ->
      exists st1', s_execs O' s' st' st1' /\ Forall2 sr st1 st1'.
    Proof.
      induction 1 as [s st st1 st2 Hb Hs Hp|s1 s2 st st1 st2 _ IH1 _ IH2|b s1 s2 st st1 Ht _ IH|b s1 s2 st st1 Ht _ IH|b s1 st Ht
                     |b s1 st st1 st2 Ht _ IH1 _ IH2]; intros s' st' Hr H.
      - pose proof (step_gr _ _ _ _ Hr H) as G. rewrite Hs in G. destruct (s_step O' s' st') as [st1'| | |] eqn:E; cbn in G; try contradiction.
        destruct (Forall2_reorders_gr _ _ Hp _ G) as (st2' & A & B). exists st2'. split; [|exact B].
        eapply XStep; [eapply basic_gr; eassumption|exact E|exact A].
      - destruct s'; cbn in Hr; try contradiction. destruct Hr as (R1 & R2). destruct (IH1 _ _ R1 H) as (st1' & A & B).
        destruct (IH2 _ _ R2 B) as (st2' & A' & B'). exists st2'. split; [eapply XSeq; eassumption|exact B'].
      - destruct s'; cbn in Hr; try contradiction. destruct Hr as (R0 & R1 & R2). destruct (IH _ _ R1 H) as (st1' & A & B).
        exists st1'. split; [apply XThen; [rewrite <- (test_gr _ _ _ _ R0 H); exact Ht|exact A]|exact B].
      - destruct s'; cbn in Hr; try contradiction. destruct Hr as (R0 & R1 & R2). destruct (IH _ _ R2 H) as (st1' & A & B).
        exists st1'. split; [apply XElse; [rewrite <- (test_gr _ _ _ _ R0 H); exact Ht|exact A]|exact B].
      - destruct s'; cbn in Hr; try contradiction. destruct Hr as (R0 & R1). exists st'. split; [apply XDone; rewrite <- (test_gr _ _ _ _ R0 H); exact Ht|exact H].
      - destruct s'; cbn in Hr; try contradiction. destruct Hr as (R0 & R1). destruct (IH1 _ _ R1 H) as (st1' & A & B).
        destruct (IH2 (PWhile k s') st1' (conj R0 R1) B) as (st2' & A' & B'). exists st2'.
        split; [eapply XLoop; [rewrite <- (test_gr _ _ _ _ R0 H); exact Ht|exact A|exact A']|exact B'].
    Qed.

    (** *** sessions *)
    Notation hr := (zheap_seeds P0 P1).
    Lemma zget_gr st st' r : hr st st' -> match zget st r, zget st' r with
      | Some (o, x), Some (o', x') => o = o' /\ sr x x' | None, None => True | _, _ => False end.
    Proof.
      intros (H & E). unfold zget. rewrite <- E. destruct (znames st r) as [o|]; [|exact I].
      pose proof (get_gr _ _ o H) as G. unfold get in G.
      destruct (nth_error (zobjs st) o), (nth_error (zobjs st') o); cbn in G; try contradiction; auto.
    Qed.
    Lemma znew_gr st st' r x x' : hr st st' -> sr x x' -> hr (znew st r x) (znew st' r x').
    Proof.
      intros (H & E) Hx. split; cbn; [apply Forall2_app; auto|]. rewrite E. do 2 f_equal. eapply FactsParam.Forall2_length. exact H.
    Qed.
    Lemma zput_gr st st' o x x' : hr st st' -> sr x x' -> hr (zput st o x) (zput st' o x').
    Proof. intros (H & E) Hx. split; cbn; [apply put_gr; assumption|exact E]. Qed.
    Ltac zg H r := let G := fresh "G" in pose proof (zget_gr _ _ r H) as G; revert G;
      match type of H with zheap_seeds _ _ ?st ?st' => destruct (zget st r) as [(?, ?)|], (zget st' r) as [(?, ?)|] end; intros G; try contradiction;
      [destruct G as (<- & G)|cbn; split; [reflexivity|exact H]]; cbn [fst snd].
    Lemma zstep_gr s s' st st' : zseeds P0 P1 O s s' -> hr st st' ->
      fst (zstep O s st) = fst (zstep O' s' st') /\ hr (snd (zstep O s st)) (snd (zstep O' s' st')).
    Proof.
      intros Hs H. destruct s, s'; cbn [zseeds] in Hs; try contradiction; decompose [and] Hs; subst; cbn [zstep].
      - split; [reflexivity|]. cbn. apply znew_gr; [exact H|]. split; assumption.
      - split; [reflexivity|]. cbn. apply znew_gr; [exact H|]. apply const_gr; assumption.
      - split; [reflexivity|]. cbn. apply znew_gr; [exact H|]. split; assumption.
      - zg H a0. split; [reflexivity|]. destruct H as (H & E). split; cbn; [exact H|rewrite E; reflexivity].
      - zg H a0. split; [reflexivity|]. apply znew_gr; [exact H|]. apply u_gr; auto.
      - zg H a0. zg H a3. split; [reflexivity|]. apply znew_gr; [exact H|]. apply b_gr; auto.
      - zg H a0. zg H a4. zg H a5. split; [reflexivity|]. apply znew_gr; [exact H|]. apply h_gr; auto.
      - zg H a0. zg H r0. split; [reflexivity|]. apply zput_gr; [exact H|]. apply assign_gr; [assumption|]. destruct (Nat.eqb _ _); cbn; auto.
      - zg H r0. split; [reflexivity|]. destruct o0; first [apply zput_gr; [exact H|apply assign_s_gr; assumption]
          |apply znew_gr; [exact H|apply u_gr; auto]].
    Qed.
    Lemma zsession_gr w w' : Forall2 (zseeds P0 P1 O) w w' -> forall st st', hr st st' -> hr (zsession O w st) (zsession O' w' st').
    Proof. induction 1 as [|s s' w w' Hs _ IH]; cbn; intros st st' H; [exact H|]. apply IH, zstep_gr; assumption. Qed.
  End Order.
End Par.

(** ** Instances *)
Open Scope R_scope.
Lemma seeding_R (s : string -> R) : seeding eq (fun k a b => b = s k * a) Rops Rops.
Proof. constructor; [apply arith_eq|apply order_eq|..]; intros; subst; cbn [Rops o_Z o_add o_sub o_neg o_mul]; cbn; ring. Qed.
Lemma seeding_signs (M : libm) (s : string -> bool) : seeding eq (fun k => flipped (s k)) (b64ops M) (b64ops M).
Proof.
  pose proof (fun i => graded_signs M (fun _ => s i)) as G.
  constructor; [apply arith_eq|apply order_eq|..]; intros k.
  - exact (gr_zero1 _ _ _ _ _ (G k) 0%nat). - exact (gr_add1 _ _ _ _ _ (G k) 0%nat). - exact (gr_sub1 _ _ _ _ _ (G k) 0%nat).
  - exact (gr_neg1 _ _ _ _ _ (G k) 0%nat). - exact (gr_mul01 _ _ _ _ _ (G k) 0%nat). - exact (gr_mul10 _ _ _ _ _ (G k) 0%nat).
Qed.
Section Shift.
  Context (K : Z) (M : libm) (k : string -> Z) (HK : (0 <= K)%Z) (Hk : forall n, (Z.abs (k n) <= K)%Z).
  Lemma seeding_marked : seeding same_as (fun _ => same_as) (marked_ops K M) (b64ops M).
  Proof. constructor; [apply arith_marked|apply order_marked|..]; unfold same_as; intros; cbn; subst; auto. Qed.
  Lemma seeding_shift : seeding same_as (fun n => shift_if (k n)) (marked_ops K M) (b64ops M).
  Proof.
    constructor; [apply arith_marked|apply order_marked|..]; cbn [marked_ops b64ops o_Z o_add o_sub o_neg o_mul]; intros.
    - intros _. split; [reflexivity|]. split; [reflexivity|]. split; [|reflexivity]. cbn. ring.
    - apply sum_if; auto. intros. now apply (shift_add K HK).
    - apply sum_if; auto. intros. now apply (shift_sub K HK).
    - intros E. apply shift_neg. auto.
    - now apply mul_if0. - now apply mul_if0r.
  Qed.
  Local Notation same := (sparse_seeds same_as (fun _ => same_as)).
  Local Notation shft := (sparse_seeds same_as (fun n => shift_if (k n))).
  Lemma shifted_in m x y : sparse_shifted k m x y -> same m x /\ shft m y.
  Proof.
    intros (E & E' & H). split; (split; [unfold same_as; congruence|]); induction H as [|(a, (v, q)) (b, w) (d, z) la lb ld (H1 & H2 & H3 & H4) _ IH];
      constructor; cbn in *; subst; auto; split; auto; try reflexivity; unfold same_as, shift_if; auto.
  Qed.
  Lemma shifted_out m x y : same m x -> shft m y -> sparse_shifted k m x y.
  Proof.
    intros (E & H) (E' & H'). unfold same_as in E, E'. split; [exact E|]. split; [congruence|]. revert H'. generalize (s_d y). clear E E' y.
    induction H as [|(a, (v, q)) (b, w) la lb (H1 & H2) _ IH]; intros l H'; inversion H' as [|? (d, z) ? ld (H3 & H4) H5]; subst; constructor; auto.
    cbn in H1, H2, H3, H4. unfold same_as, shift_if in *. cbn in H2, H4. subst. refine (conj _ (conj _ (conj _ _))); cbn; auto.
  Qed.
  Lemma power_run_s envm env env' : (forall i, sparse_shifted k (envm i) (env i) (env' i)) -> forall em e, expr_rel (fun a b => fst a = b) em e ->
    sparse_shifted k (s_run (marked_ops K M) envm em) (s_run (b64ops M) env e) (s_run (b64ops M) env' e).
  Proof.
    intros H em e E. apply shifted_out.
    - apply (run_gr _ _ _ _ seeding_marked); [|exact E]. intros i. apply (shifted_in _ _ _ (H i)).
    - apply (run_gr _ _ _ _ seeding_shift); [|exact E]. intros i. apply (shifted_in _ _ _ (H i)).
  Qed.
  Lemma shifted_all sm st st' : Forall3 (sparse_shifted k) sm st st' -> Forall2 same sm st /\ Forall2 shft sm st'.
  Proof. induction 1 as [|a b d la lb ld R _ (IH1 & IH2)]; [split; constructor|]. destruct (shifted_in _ _ _ R). split; constructor; assumption. Qed.
  Lemma power_exec_s fuel pm p sm st st' : stmt_rel (fun a b => fst a = b) pm p -> Forall3 (sparse_shifted k) sm st st' ->
    match s_exec (marked_ops K M) fuel pm sm, s_exec (b64ops M) fuel p st, s_exec (b64ops M) fuel p st' with
    | Some (Ok rm), Some (Ok r), Some (Ok r') => Forall3 (sparse_shifted k) rm r r'
    | Some (Throw _), Some (Throw _), Some (Throw _) | Some Abort, Some Abort, Some Abort | Some UB, Some UB, Some UB | None, None, None => True
    | _, _, _ => False
    end.
  Proof.
    intros E H. destruct (shifted_all _ _ _ H) as (H1 & H2).
    pose proof (exec_gr _ _ _ _ seeding_marked fuel pm p sm st E H1) as A. pose proof (exec_gr _ _ _ _ seeding_shift fuel pm p sm st' E H2) as B.
    destruct (s_exec (marked_ops K M) fuel pm sm) as [[rm| | |]|], (s_exec (b64ops M) fuel p st) as [[r| | |]|], (s_exec (b64ops M) fuel p st') as [[r'| | |]|];
      cbn in A, B; try contradiction; auto.
    clear H H1 H2. revert r' B. induction A as [|a b la lb R _ IH]; intros r' B; inversion B; subst; constructor; auto. now apply shifted_out.
  Qed.
End Shift.
Lemma real_seeds_s (s : string -> R) : let scaled := sparse_seeds eq (fun k a b => b = s k * a) in
  (forall env env', (forall i, scaled (env i) (env' i)) -> forall e, scaled (s_run Rops env e) (s_run Rops env' e)) /\
  (forall fuel p st st', Forall2 scaled st st' -> run_rel (Forall2 scaled) (s_exec Rops fuel p st) (s_exec Rops fuel p st')) /\
  (forall x y, scaled x y -> forall k, s_get_d Rops y k = s k * s_get_d Rops x k) /\
  (forall x y d d', scaled x y -> table_seeds (fun k a b => a = s k * b) d d' -> forall b, s_eval Rops b x d = s_eval Rops b y d').
Proof.
  cbv zeta. split; [|split; [|split]].
  - intros. apply (run_gr _ _ _ _ (seeding_R s)); [assumption|apply expr_refl].
  - intros. apply (exec_gr _ _ _ _ (seeding_R s)); [apply stmt_refl|assumption].
  - intros x y H k. apply (get_d_gr _ _ _ _ (seeding_R s) x y k H).
  - intros x y d d' H Hd b. assert (E : res_rel eq (s_eval Rops b x d) (s_eval Rops b y d')).
    { apply (eval_gr _ _ _ _ (seeding_R s) (fun k a b => a = s k * b)); try assumption. intros k a a' c c' -> ->. cbn. ring. }
    destruct (s_eval Rops b x d), (s_eval Rops b y d'); cbn in E; try contradiction; try congruence.
Qed.
Lemma sign_seeds_s (M : libm) (s : string -> bool) : let flips := sparse_seeds eq (fun k => flipped (s k)) in
  (forall env env', (forall i, flips (env i) (env' i)) -> forall e, flips (s_run (b64ops M) env e) (s_run (b64ops M) env' e)) /\
  (forall fuel p st st', Forall2 flips st st' -> run_rel (Forall2 flips) (s_exec (b64ops M) fuel p st) (s_exec (b64ops M) fuel p st')).
Proof.
  cbv zeta. split; intros.
  - apply (run_gr _ _ _ _ (seeding_signs M s)); [assumption|apply expr_refl].
  - apply (exec_gr _ _ _ _ (seeding_signs M s)); [apply stmt_refl|assumption].
Qed.
Definition sbits (x : ss b64) := (B2SF (s_f x), map (fun e => (fst e, B2SF (snd e))) (s_d x)).
