(** Facts: sparse numbers depend on the scalar type only through its operations. *)
From Coq Require Import ZArith List Bool String Permutation Reals Lra Lia.
From Verif Require Import Outcome Scalar Model ModelObj Spec RealOps ExprSpec ProgSpec ParamSpec ModelS ModelObjS SpecS ParSSpec FactsS.
From Verif Require FactsParam.
Import ListNotations.
Open Scope list_scope.

Section Par.
  Context {S T : Type} (P : S -> T -> Prop) (O : Ops S) (O' : Ops T) (AR : arith_rel P O O').
  Notation tr := (table_rel P).
  Notation sr := (sparse_rel P).
  Notation rr := (res_rel sr).

  Ltac prim := first
    [ assumption | apply (ar_Z _ _ _ AR) | apply (ar_add _ _ _ AR) | apply (ar_sub _ _ _ AR) | apply (ar_mul _ _ _ AR)
    | apply (ar_div _ _ _ AR) | apply (ar_neg _ _ _ AR) | apply (ar_pow _ _ _ AR) | apply (ar_sqrt _ _ _ AR) | apply (ar_cbrt _ _ _ AR)
    | apply (ar_cos _ _ _ AR) | apply (ar_sin _ _ _ AR) | apply (ar_tan _ _ _ AR) | apply (ar_acos _ _ _ AR) | apply (ar_asin _ _ _ AR)
    | apply (ar_atan _ _ _ AR) | apply (ar_atan2 _ _ _ AR) | apply (ar_hypot _ _ _ AR) | apply (ar_hypot3 _ _ _ AR)
    | apply (ar_cosh _ _ _ AR) | apply (ar_sinh _ _ _ AR) | apply (ar_tanh _ _ _ AR) | apply (ar_acosh _ _ _ AR)
    | apply (ar_asinh _ _ _ AR) | apply (ar_atanh _ _ _ AR) | apply (ar_exp _ _ _ AR) | apply (ar_log _ _ _ AR)
    | apply (ar_log2 _ _ _ AR) | apply (ar_log10 _ _ _ AR) ].
  Ltac prims := repeat prim.

  Lemma find_par t t' k : tr t t' -> match t_find t k, t_find t' k with Some v, Some w => P v w | None, None => True | _, _ => False end.
  Proof.
    induction 1 as [|(k1, v) (k2, w) t t' (E & H) _ IH]; cbn; [exact I|]. cbn in E, H. subst k2.
    destruct (String.eqb k1 k); assumption.
  Qed.
  Lemma get_d_par x y k : sr x y -> P (s_get_d O x k) (s_get_d O' y k).
  Proof.
    intros (_ & H). unfold s_get_d. pose proof (find_par _ _ k H) as Q.
    destruct (t_find (s_d x) k), (t_find (s_d y) k); try contradiction; [exact Q|prims].
  Qed.
  Lemma update_par t t' k f g : tr t t' -> (forall v w, P v w -> P (f v) (g w)) -> tr (t_update O t k f) (t_update O' t' k g).
  Proof.
    intros H Hf. induction H as [|(k1, v) (k2, w) t t' (E & H) Ht IH]; cbn.
    - constructor; [|constructor]. split; [reflexivity|]. cbn. apply Hf. prims.
    - cbn in E, H. subst k2. destruct (String.eqb k1 k); constructor; cbn; auto.
  Qed.
  Lemma map_par f g t t' : tr t t' -> (forall v w, P v w -> P (f v) (g w)) -> tr (t_map f t) (t_map g t').
  Proof. intros H Hf. induction H as [|(k1, v) (k2, w) t t' (E & H) Ht IH]; cbn; constructor; auto. cbn in *. auto. Qed.
  Lemma merge_par f g b b' : tr b b' -> (forall v w v' w', P v w -> P v' w' -> P (f v v') (g w w')) ->
    forall t t', tr t t' -> tr (t_merge O f t b) (t_merge O' g t' b').
  Proof.
    unfold t_merge. intros H Hf. induction H as [|(k1, v) (k2, w) b b' (E & H) Hb IH]; cbn; intros t t' Ht; [exact Ht|].
    cbn in E, H. subst k2. apply IH. apply update_par; auto.
  Qed.
  Lemma keys_par t t' : tr t t' -> map fst t' = map fst t.
  Proof. induction 1 as [|(k1, v) (k2, w) t t' (E & H) Ht IH]; cbn in *; congruence. Qed.
  Lemma self_par f g l : (forall v w, P v w -> P (f v) (g w)) -> forall t t', tr t t' ->
    tr (fold_left (fun t k => t_update O t k f) l t) (fold_left (fun t k => t_update O' t k g) l t').
  Proof. intros Hf. induction l as [|k l IH]; cbn; intros t t' Ht; [exact Ht|]. apply IH, update_par; auto. Qed.
  Lemma merge_self_par f g t t' : (forall v w v' w', P v w -> P v' w' -> P (f v v') (g w w')) -> tr t t' ->
    tr (t_merge_self O f t) (t_merge_self O' g t').
  Proof. intros Hf H. unfold t_merge_self. rewrite (keys_par _ _ H). apply self_par; auto. Qed.
  Lemma binary_par a a' b b' da da' db db' : tr a a' -> tr b b' -> P da da' -> P db db' ->
    tr (s_binary O a b da db) (s_binary O' a' b' da' db').
  Proof. intros. unfold s_binary. apply merge_par; [assumption|intros; prims|]. apply map_par; [assumption|intros; prims]. Qed.
  Lemma ternary_par a a' b b' d d' da da' db db' dc dc' : tr a a' -> tr b b' -> tr d d' -> P da da' -> P db db' -> P dc dc' ->
    tr (s_ternary O a b d da db dc) (s_ternary O' a' b' d' da' db' dc').
  Proof.
    intros. unfold s_ternary. apply merge_par; [assumption|intros; prims|]. apply merge_par; [assumption|intros; prims|].
    apply map_par; [assumption|intros; prims].
  Qed.
  Definition kern_rel (F : S -> S * S) (F' : T -> T * T) := forall v w, P v w -> P (fst (F v)) (fst (F' w)) /\ P (snd (F v)) (snd (F' w)).
  Lemma unary_op_par F F' x y : kern_rel F F' -> sr x y -> sr (s_unary_op O F x) (s_unary_op O' F' y).
  Proof.
    intros HF (H & Ht). unfold s_unary_op. pose proof (HF _ _ H) as (A & B). destruct (F (s_f x)) as (f, d), (F' (s_f y)) as (f', d'). cbn in *.
    split; [exact A|]. apply map_par; [exact Ht|]. intros. prims.
  Qed.
  Definition no_order (u : ufun S) : Prop := match u with Uabs => False | _ => True end.
  Lemma u_par u u' x y : order_rel P O O' \/ no_order u -> ufun_rel P u u' -> sr x y -> sr (s_apply_u O u x) (s_apply_u O' u' y).
  Proof.
    intros B Hu Hx. pose proof Hx as (H & Ht). destruct u, u'; cbn [ufun_rel] in Hu; try contradiction; cbn [s_apply_u];
      try (apply unary_op_par; [|assumption]; intros v w Hv; cbn; split; prims).
    2:{ unfold s_abs. destruct B as [B|[]]. rewrite (or_lt _ _ _ B _ _ (o_Z O 0) (o_Z O' 0) H (ar_Z _ _ _ AR 0)).
        destruct (o_lt O' (s_f y) (o_Z O' 0)); [|assumption]. split; cbn; [prims|]. apply map_par; [assumption|intros; prims]. }
    all: unfold s_neg, s_divs, s_smul, s_muls, s_subs, s_sadd, s_adds, s_ssub, s_neg, s_sdiv, s_unary; split; cbn; prims;
      apply map_par; try assumption; intros; prims.
  Qed.
  Lemma b_par b x x' y y' : sr x x' -> sr y y' -> sr (s_apply_b O b x y) (s_apply_b O' b x' y').
  Proof.
    intros (H & Ht) (H' & Ht'). destruct b; cbn [s_apply_b]; unfold s_add, s_sub, s_mul, s_div, s_atan2, s_hypot; split; cbn; prims;
      apply binary_par; prims.
  Qed.
  Lemma h_par x x' y y' z z' : sr x x' -> sr y y' -> sr z z' -> sr (s_hypot3 O x y z) (s_hypot3 O' x' y' z').
  Proof. intros (H & Ht) (H' & Ht') (H'' & Ht''). unfold s_hypot3. split; cbn; prims; apply ternary_par; prims. Qed.
  Definition orel (y : option (ss S)) (y' : option (ss T)) : Prop := match y, y' with Some a, Some b => sr a b | None, None => True | _, _ => False end.
  Lemma assign_par o x x' y y' : sr x x' -> orel y y' -> sr (s_assign O o x y) (s_assign O' o x' y').
  Proof.
    intros (H & Ht) Hy. destruct y as [y|], y' as [y'|]; cbn in Hy; try contradiction.
    - destruct Hy as (H' & Ht'). destruct o; cbn [s_assign]; unfold s_add_assign, s_sub_assign, s_mul_assign, s_div_assign; split; cbn; prims;
        apply merge_par; try assumption; try (intros; prims); apply map_par; try assumption; intros; prims.
    - destruct o; cbn [s_assign]; unfold s_add_assign, s_sub_assign, s_mul_assign, s_div_assign; split; cbn; prims;
        apply merge_self_par; try assumption; try (intros; prims); apply map_par; try assumption; intros; prims.
  Qed.
  Lemma assign_s_par o x x' s s' : sr x x' -> P s s' -> sr (s_assign_s O o x s) (s_assign_s O' o x' s').
  Proof.
    intros (H & Ht) Hs. destruct o; cbn [s_assign_s]; unfold s_adds_assign, s_subs_assign, s_divs_assign, s_muls_assign; split; cbn; prims;
      rewrite (keys_par _ _ Ht); apply self_par; try assumption; intros; prims.
  Qed.
  Lemma const_par v v' : P v v' -> sr (s_constant v) (s_constant v'). Proof. split; [assumption|constructor]. Qed.
  Lemma var_par k v v' : P v v' -> sr (s_variable O k v) (s_variable O' k v').
  Proof. split; [assumption|]. constructor; [|constructor]. split; [reflexivity|]. cbn. prims. Qed.
  Lemma below (Q : Prop) (u : ufun S) e : Q \/ no_abs (EU u e) -> (Q \/ no_order u) /\ (Q \/ no_abs e).
  Proof. cbn. destruct u; cbn; tauto. Qed.

  Lemma run_par env env' : (forall i, sr (env i) (env' i)) -> forall e e', order_rel P O O' \/ no_abs e -> expr_rel P e e' ->
    sr (s_run O env e) (s_run O' env' e').
  Proof.
    intros H. induction e as [i|s|u e IH|b e1 IH1 e2 IH2|e1 IH1 e2 IH2 e3 IH3]; intros e' B He; destruct e'; cbn [expr_rel] in He; try contradiction; cbn [s_run].
    - subst. apply H.
    - apply const_par, He.
    - apply below in B. destruct He, B. apply u_par; auto.
    - cbn in B. destruct He as (<- & He1 & He2). apply b_par; [apply IH1|apply IH2]; tauto.
    - cbn in B. destruct He as (He1 & He2 & He3). apply h_par; [apply IH1|apply IH2|apply IH3]; tauto.
  Qed.
  (** Whatever order the tables on one side take, the other side can take. *)
  Lemma reorders_par x y x' : sr x x' -> reorders x y -> exists y', reorders x' y' /\ sr y y'.
  Proof.
    intros (H & Ht) (E & Hp). destruct (Permutation_Forall2 Hp Ht) as (d & Hd & Hd').
    exists (mks (s_f x') d). split; split; cbn; [reflexivity|exact Hd|rewrite <- E; exact H|exact Hd'].
  Qed.
  Lemma runs_par env env' : (forall i, sr (env i) (env' i)) -> forall e x, s_runs O env e x -> forall e', order_rel P O O' \/ no_abs e -> expr_rel P e e' ->
    exists x', s_runs O' env' e' x' /\ sr x x'.
  Proof.
    intros H e x R. induction R as [i x Rx|s x Rx|u e x y R IH Rx|b e1 e2 x1 x2 y R1 IH1 R2 IH2 Rx
                                   |e1 e2 e3 x1 x2 x3 y R1 IH1 R2 IH2 R3 IH3 Rx]; intros e' B He; destruct e'; cbn [expr_rel] in He; try contradiction.
    - subst. destruct (reorders_par _ _ _ (H _) Rx) as (y & Ry & Hy). exists y. split; [apply RVar, Ry|exact Hy].
    - destruct (reorders_par _ _ _ (const_par _ _ He) Rx) as (y & Ry & Hy). exists y. split; [apply RConst, Ry|exact Hy].
    - apply below in B. destruct He as (Hu & He), B as (B1 & B2). destruct (IH _ B2 He) as (x' & Rx' & Hx').
      destruct (reorders_par _ _ _ (u_par _ _ _ _ B1 Hu Hx') Rx) as (y' & Ry & Hy). exists y'. split; [eapply RU; eassumption|exact Hy].
    - cbn in B. destruct He as (<- & He1 & He2). destruct (IH1 e'1 ltac:(tauto) He1) as (x1' & R1' & H1). destruct (IH2 e'2 ltac:(tauto) He2) as (x2' & R2' & H2).
      destruct (reorders_par _ _ _ (b_par b _ _ _ _ H1 H2) Rx) as (y' & Ry & Hy). exists y'. split; [eapply RB; eassumption|exact Hy].
    - cbn in B. destruct He as (He1 & He2 & He3). destruct (IH1 e'1 ltac:(tauto) He1) as (x1' & R1' & H1). destruct (IH2 e'2 ltac:(tauto) He2) as (x2' & R2' & H2).
      destruct (IH3 e'3 ltac:(tauto) He3) as (x3' & R3' & H3).
      destruct (reorders_par _ _ _ (h_par _ _ _ _ _ _ H1 H2 H3) Rx) as (y' & Ry & Hy). exists y'. split; [eapply RH; eassumption|exact Hy].
  Qed.
  Lemma eval_par se x x' d d' : sr x x' -> tr d d' -> res_rel P (s_eval O se x d) (s_eval O' se x' d').
  Proof.
    intros (_ & Hx) Hd. unfold s_eval. assert (Z : res_rel P (Ok (o_Z O 0)) (Ok (o_Z O' 0))) by (cbn; prims). revert Z.
    generalize (Ok (o_Z O 0)) (Ok (o_Z O' 0)). induction Hx as [|(k1, v) (k2, w) t t' (E & H) Ht IH]; cbn; intros r r' Hr; [exact Hr|].
    cbn in E, H. subst k2. apply IH. destruct r, r'; cbn in Hr |- *; try contradiction; auto.
    destruct se; [|exact I]. pose proof (find_par _ _ k1 Hd) as Q. destruct (t_find d k1), (t_find d' k1); try contradiction; cbn; prims.
  Qed.

  Section Order.
    Context (OR : order_rel P O O').
    Lemma scmp_par o a a' b b' : P a a' -> P b b' -> scmp O o a b = scmp O' o a' b'.
    Proof.
      intros. destruct o; cbn; rewrite ?(or_lt _ _ _ OR a a' b b'), ?(or_le _ _ _ OR a a' b b'), ?(or_eq _ _ _ OR a a' b b'),
        ?(or_lt _ _ _ OR b b' a a'), ?(or_le _ _ _ OR b b' a a') by assumption; reflexivity.
    Qed.
    Lemma compare_par o x x' y y' : sr x x' -> sr y y' -> ss_compare O o x y = ss_compare O' o x' y'.
    Proof. intros (H & _) (H' & _). apply scmp_par; assumption. Qed.
    Lemma get_par st st' r : Forall2 sr st st' -> rr (get st r) (get st' r).
    Proof. intros H. revert r. unfold get. induction H; intros [|r]; cbn; auto. Qed.
    Lemma put_par st st' r x x' : Forall2 sr st st' -> sr x x' -> Forall2 sr (put st r x) (put st' r x').
    Proof. intros H Hx. revert r. induction H; intros [|r]; cbn; constructor; auto. Qed.
    Lemma write_par st st' r m m' : Forall2 sr st st' -> rr m m' -> res_rel (Forall2 sr) (s_write st r m) (s_write st' r m').
    Proof.
      intros H Hm. unfold s_write. pose proof (get_par _ _ r H) as G. destruct (get st r), (get st' r); cbn in G |- *; try contradiction; auto.
      destruct m, m'; cbn in Hm |- *; try contradiction; auto. apply put_par; assumption.
    Qed.
    Ltac getp H r := let G := fresh "G" in pose proof (get_par _ _ r H) as G; revert G;
      match type of H with Forall2 _ ?st ?st' => destruct (get st r), (get st' r) end; cbn; intros G; try contradiction; auto.
    Lemma step_par s s' st st' : stmt_rel P s s' -> Forall2 sr st st' -> res_rel (Forall2 sr) (s_step O s st) (s_step O' s' st').
    Proof.
      intros Hs H. destruct s, s'; cbn [stmt_rel] in Hs; try contradiction; cbn [s_step]; try exact H; decompose [and] Hs; subst; apply write_par; try exact H.
      - apply const_par. assumption.
      - apply get_par, H.
      - getp H a0. apply u_par; auto.
      - getp H a0. getp H a3. apply b_par; assumption.
      - getp H a0. getp H a4. getp H a5. apply h_par; assumption.
      - getp H r0. getp H a0. apply assign_par; [assumption|]. destruct (Nat.eqb a0 r0); cbn; auto.
      - getp H r0. apply assign_s_par; assumption.
    Qed.
    Lemma test_par k k' st st' : cond_rel P k k' -> Forall2 sr st st' -> s_test O k st = s_test O' k' st'.
    Proof.
      intros Hk H. destruct k, k'; cbn [cond_rel] in Hk; try contradiction; decompose [and] Hk; subst; cbn [s_test].
      - pose proof (get_par _ _ a0 H) as G. destruct (get st a0), (get st' a0); cbn in G |- *; try contradiction; try congruence.
        pose proof (get_par _ _ b0 H) as G'. destruct (get st b0), (get st' b0); cbn in G' |- *; try contradiction; try congruence.
        f_equal. apply compare_par; assumption.
      - pose proof (get_par _ _ a0 H) as G. destruct (get st a0), (get st' a0); cbn in G |- *; try contradiction; try congruence.
        f_equal. apply scmp_par; [apply G|assumption].
      - pose proof (get_par _ _ a0 H) as G. destruct (get st a0), (get st' a0); cbn in G |- *; try contradiction; try congruence.
        f_equal. unfold s_compare_ss, ss_compare_s. destruct o0; apply scmp_par; try apply G; assumption.
    Qed.
    Lemma exec_par : forall fuel s s' st st', stmt_rel P s s' -> Forall2 sr st st' ->
      ParamSpec.run_rel (Forall2 sr) (s_exec O fuel s st) (s_exec O' fuel s' st').
    Proof.
      induction fuel as [|k IH]; intros s s' st st' Hs H; [exact I|].
      pose proof (step_par s s' st st' Hs H) as Hstep.
      destruct s, s'; cbn [stmt_rel] in Hs; try contradiction; cbn [s_exec]; try exact Hstep.
      - destruct Hs as (H1 & H2). pose proof (IH _ _ _ _ H1 H) as G.
        destruct (s_exec O k s1 st) as [[]|], (s_exec O' k s'1 st') as [[]|]; cbn in G |- *; try contradiction; auto.
      - destruct Hs as (H1 & H2 & H3). rewrite (test_par _ _ _ _ H1 H). destruct (s_test O' k1 st') as [[]| | |]; cbn; auto.
      - destruct Hs as (H1 & H2). rewrite (test_par _ _ _ _ H1 H). destruct (s_test O' k1 st') as [[]| | |]; cbn; auto.
        pose proof (IH _ _ _ _ H2 H) as G.
        destruct (s_exec O k s st) as [[]|], (s_exec O' k s' st') as [[]|]; cbn in G |- *; try contradiction; auto.
        apply IH; [cbn; auto|assumption].
    Qed.
    Lemma Forall2_reorders_par st st1 : Forall2 reorders st st1 -> forall st', Forall2 sr st st' ->
      exists st1', Forall2 reorders st' st1' /\ Forall2 sr st1 st1'.
    Proof.
      induction 1 as [|x y st st1 R _ IH]; intros st' H; inversion H; subst; [exists []; split; constructor|].
      destruct (reorders_par _ _ _ H2 R) as (y' & Ry & Hy). destruct (IH _ H4) as (st1' & A & B). exists (y' :: st1'). split; constructor; assumption.
    Qed.
    Lemma basic_par s s' : stmt_rel P s s' -> basic s -> basic s'.
    Proof. destruct s, s'; cbn; tauto. Qed.
    Lemma execs_par s st st1 : s_execs O s st st1 -> forall s' st', stmt_rel P s s' -> Forall2 sr st st' ->
      exists st1', s_execs O' s' st' st1' /\ Forall2 sr st1 st1'.
    Proof.
      induction 1 as [s st st1 st2 Hb Hs Hp|s1 s2 st st1 st2 _ IH1 _ IH2|b s1 s2 st st1 Ht _ IH|b s1 s2 st st1 Ht _ IH|b s1 st Ht
                     |b s1 st st1 st2 Ht _ IH1 _ IH2]; intros s' st' Hr H.
      - pose proof (step_par _ _ _ _ Hr H) as G. rewrite Hs in G. destruct (s_step O' s' st') as [st1'| | |] eqn:E; cbn in G; try contradiction.
        destruct (Forall2_reorders_par _ _ Hp _ G) as (st2' & A & B). exists st2'. split; [|exact B].
        eapply XStep; [eapply basic_par; eassumption|exact E|exact A].
      - destruct s'; cbn in Hr; try contradiction. destruct Hr as (R1 & R2). destruct (IH1 _ _ R1 H) as (st1' & A & B).
        destruct (IH2 _ _ R2 B) as (st2' & A' & B'). exists st2'. split; [eapply XSeq; eassumption|exact B'].
      - destruct s'; cbn in Hr; try contradiction. destruct Hr as (R0 & R1 & R2). destruct (IH _ _ R1 H) as (st1' & A & B).
        exists st1'. split; [apply XThen; [rewrite <- (test_par _ _ _ _ R0 H); exact Ht|exact A]|exact B].
      - destruct s'; cbn in Hr; try contradiction. destruct Hr as (R0 & R1 & R2). destruct (IH _ _ R2 H) as (st1' & A & B).
        exists st1'. split; [apply XElse; [rewrite <- (test_par _ _ _ _ R0 H); exact Ht|exact A]|exact B].
      - destruct s'; cbn in Hr; try contradiction. destruct Hr as (R0 & R1). exists st'. split; [apply XDone; rewrite <- (test_par _ _ _ _ R0 H); exact Ht|exact H].
      - destruct s'; cbn in Hr; try contradiction. destruct Hr as (R0 & R1). destruct (IH1 _ _ R1 H) as (st1' & A & B).
        destruct (IH2 (PWhile k s') st1' (conj R0 R1) B) as (st2' & A' & B'). exists st2'.
        split; [eapply XLoop; [rewrite <- (test_par _ _ _ _ R0 H); exact Ht|exact A|exact A']|exact B'].
    Qed.

    (** *** sessions *)
    Notation hr := (zheap_rel P).
    Lemma zget_par st st' r : hr st st' -> match zget st r, zget st' r with
      | Some (o, x), Some (o', x') => o = o' /\ sr x x' | None, None => True | _, _ => False end.
    Proof.
      intros (H & E). unfold zget. rewrite <- E. destruct (znames st r) as [o|]; [|exact I].
      pose proof (get_par _ _ o H) as G. unfold get in G.
      destruct (nth_error (zobjs st) o), (nth_error (zobjs st') o); cbn in G; try contradiction; auto.
    Qed.
    Lemma znew_par st st' r x x' : hr st st' -> sr x x' -> hr (znew st r x) (znew st' r x').
    Proof.
      intros (H & E) Hx. split; cbn; [apply Forall2_app; auto|]. rewrite E. do 2 f_equal. eapply FactsParam.Forall2_length. exact H.
    Qed.
    Lemma zput_par st st' o x x' : hr st st' -> sr x x' -> hr (zput st o x) (zput st' o x').
    Proof. intros (H & E) Hx. split; cbn; [apply put_par; assumption|exact E]. Qed.
    Ltac zg H r := let G := fresh "G" in pose proof (zget_par _ _ r H) as G; revert G;
      match type of H with zheap_rel _ ?st ?st' => destruct (zget st r) as [(?, ?)|], (zget st' r) as [(?, ?)|] end; intros G; try contradiction;
      [destruct G as (<- & G)|cbn; split; [reflexivity|exact H]]; cbn [fst snd].
    Lemma zstep_par s s' st st' : zstmt_rel P s s' -> hr st st' ->
      fst (zstep O s st) = fst (zstep O' s' st') /\ hr (snd (zstep O s st)) (snd (zstep O' s' st')).
    Proof.
      intros Hs H. destruct s, s'; cbn [zstmt_rel] in Hs; try contradiction; decompose [and] Hs; subst; cbn [zstep].
      - split; [reflexivity|]. cbn. apply znew_par; [exact H|]. split; assumption.
      - split; [reflexivity|]. cbn. apply znew_par; [exact H|]. apply const_par; assumption.
      - split; [reflexivity|]. cbn. apply znew_par; [exact H|]. apply var_par; assumption.
      - zg H a0. split; [reflexivity|]. destruct H as (H & E). split; cbn; [exact H|rewrite E; reflexivity].
      - zg H a0. split; [reflexivity|]. apply znew_par; [exact H|]. apply u_par; auto.
      - zg H a0. zg H a3. split; [reflexivity|]. apply znew_par; [exact H|]. apply b_par; auto.
      - zg H a0. zg H a4. zg H a5. split; [reflexivity|]. apply znew_par; [exact H|]. apply h_par; auto.
      - zg H a0. zg H r0. split; [reflexivity|]. apply zput_par; [exact H|]. apply assign_par; [assumption|]. destruct (Nat.eqb _ _); cbn; auto.
      - zg H r0. split; [reflexivity|]. destruct o0; first [apply zput_par; [exact H|apply assign_s_par; assumption]
          |apply znew_par; [exact H|apply u_par; auto]].
    Qed.
    Lemma zsession_par w w' : Forall2 (zstmt_rel P) w w' -> forall st st', hr st st' -> hr (zsession O w st) (zsession O' w' st').
    Proof. induction 1 as [|s s' w w' Hs _ IH]; cbn; intros st st' H; [exact H|]. apply IH, zstep_par; assumption. Qed.
  End Order.
End Par.
