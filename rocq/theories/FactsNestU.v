(** C117: sparse numbers of sparse numbers. *)
From Coq Require Import ZArith List Bool Reals Lra Lia String.
From Coquelicot Require Import Coquelicot.
From Verif Require Import Outcome Scalar Model Spec Core Kernels OpsRep AccRep RealOps Deriv UDeriv BDeriv
  FactsLayout FactsOps FactsCtor ModelS FactsS FactsSReal ExprSpec Expr Struct FactsExpr Chain FactsReal Cont NumSpec FactsNum ParamSpec FactsErr FactsSessS Samples NestSpec FactsNest NestTSpec FactsNestT NestUSpec.
From Verif Require SpecS.
Import ListNotations.
Open Scope R_scope.

Section Two.
  Context (n : nat) (nm : nat -> string) (p : nat -> R) (HD : SpecS.distinct n nm).
  Context (O : Ops (ss R)) (M : simu (leaf n nm p) O).
  Notation P := (leaf n nm p).
  Notation jp := (jp p).
  Notation gD := (s_get_d O).
  (** What the relation says about an expression related to the number 0. *)
  Definition null (X : expr R) : Prop := jf (jp X) = 0 /\ forall i, (i < n)%nat -> jg (jp X) i = 0.
  Lemma zero_null X : P X (o_Z O 0) -> null X.
  Proof.
    intros (_ & A & B). destruct (m_Z _ _ M 0) as (_ & A' & B'). split; [rewrite <- A, A'; reflexivity|].
    intros i Hi. rewrite <- B, B' by exact Hi. reflexivity.
  Qed.
  Lemma near_ext X Y x : jf (jp X) = jf (jp Y) -> (forall i, (i < n)%nat -> jg (jp X) i = jg (jp Y) i) -> P X x -> P Y x.
  Proof. intros E G (K & A & B). split; [exact K|]. split; [congruence|]. intros i Hi. rewrite <- G by exact Hi. apply B, Hi. Qed.
  Lemma null_zero X : null X -> P X (o_Z O 0).
  Proof. intros (A & B). apply (near_ext (EConst (IZR 0))); [symmetry; exact A|intros i Hi; symmetry; exact (B i Hi)|apply (m_Z _ _ M)]. Qed.
  Lemma lg_map f t k X D d : P X (gD (mks f t) k) -> P D d -> P (EB Bmul X D) (gD (mks f (t_map (fun v => o_mul O v d) t)) k).
  Proof.
    unfold s_get_d. cbn [s_d]. rewrite find_map. destruct (t_find t k); cbn; intros H HD'.
    - apply (m_mul _ _ M); assumption.
    - destruct (zero_null _ H) as (A & B). apply null_zero. split; [|intros i Hi]; unfold FactsNestT.jp in *; rewrite ?jev_mul; cbn; rewrite ?A, ?B by exact Hi; ring.
  Qed.
  Lemma lg_neg f t k X : P X (gD (mks f t) k) -> P (EU Uneg X) (gD (mks f (t_map (o_neg O) t)) k).
  Proof.
    unfold s_get_d. cbn [s_d]. rewrite find_map. destruct (t_find t k); cbn; intros H.
    - apply (m_neg _ _ M); assumption.
    - destruct (zero_null _ H) as (A & B). apply null_zero. split; [|intros i Hi]; unfold FactsNestT.jp in *; cbn; rewrite ?A, ?B by exact Hi; ring.
  Qed.
  Lemma lg_merge f t b k A B D d : NoDup (keys b) -> P A (gD (mks f t) k) -> P B (gD (mks f b) k) -> P D d ->
    P (EB Badd A (EB Bmul D B)) (gD (mks f (t_merge O (fun o v => o_add O o (o_mul O d v)) t b)) k).
  Proof.
    intros ND HA HB HD'. unfold s_get_d in *. cbn [s_d] in *. rewrite (find_merge O _ t b k ND).
    destruct (t_find b k) as [v|].
    - apply (m_add _ _ M); [|apply (m_mul _ _ M); assumption]. destruct (t_find t k); exact HA.
    - destruct (zero_null _ HB) as (B0 & B1). refine (near_ext A _ _ _ _ HA); [|intros i Hi]; unfold FactsNestT.jp in *; cbn; rewrite ?B0, ?B1 by exact Hi; ring.
  Qed.
  Lemma lg_binary f a b k A B DA da DB db : NoDup (keys b) -> P A (gD (mks f a) k) -> P B (gD (mks f b) k) -> P DA da -> P DB db ->
    P (EB Badd (EB Bmul A DA) (EB Bmul DB B)) (gD (mks f (s_binary O a b da db)) k).
  Proof. intros ND HA HB H1 H2. apply lg_merge; auto. apply lg_map; auto. Qed.
  Lemma lg_ternary f a b c k A B C DA da DB db DC dc : NoDup (keys b) -> NoDup (keys c) -> P A (gD (mks f a) k) -> P B (gD (mks f b) k) -> P C (gD (mks f c) k) ->
    P DA da -> P DB db -> P DC dc ->
    P (EB Badd (EB Badd (EB Bmul A DA) (EB Bmul DB B)) (EB Bmul DC C)) (gD (mks f (s_ternary O a b c da db dc)) k).
  Proof. intros ND NC HA HB HC H1 H2 H3. apply lg_merge; auto. apply lg_binary; auto. Qed.

  Definition sx (J : jet (expr R)) (x : ss (ss R)) : Prop :=
    SpecS.keys_ok x /\ P (jf J) (s_f x) /\ forall i, (i < n)%nat -> P (jg J i) (gD x (nm i)).
  Ltac op :=
    first [ eassumption | apply (m_Z _ _ M) | apply (m_half _ _ M) | apply (m_neg _ _ M) | apply (m_add _ _ M) | apply (m_sub _ _ M) | apply (m_mul _ _ M)
      | apply (m_div _ _ M) | apply (m_pow _ _ M) | apply (m_sqrt _ _ M) | apply (m_cbrt _ _ M) | apply (m_cos _ _ M) | apply (m_sin _ _ M)
      | apply (m_tan _ _ M) | apply (m_acos _ _ M) | apply (m_asin _ _ M) | apply (m_atan _ _ M) | apply (m_atan2 _ _ M) | apply (m_hypot _ _ M)
      | apply (m_hypot3 _ _ M) | apply (m_cosh _ _ M) | apply (m_sinh _ _ M) | apply (m_tanh _ _ M) | apply (m_acosh _ _ M) | apply (m_asinh _ _ M)
      | apply (m_atanh _ _ M) | apply (m_exp _ _ M) | apply (m_log _ _ M) | apply (m_log2 _ _ M) | apply (m_log10 _ _ M) ].
  Lemma sx_u u J x : bare_u u -> sx J x -> sx (jap_u Xops (umap EConst u) J) (s_apply_u O (umap s_ctor_f u) x).
  Proof.
    intros Hu (K & E & G). split; [apply keys_ok_u, K|]. destruct x as [xf xd]. cbn [s_f] in E.
    assert (G' : forall f i, (i < n)%nat -> P (jg J i) (gD (mks f xd) (nm i))) by exact (fun f i Hi => G i Hi).
    destruct J as [jf0 jg0 jh0]. cbn [jf jg] in *.
    destruct u; try contradiction; cbn [s_apply_u jap_u umap];
      unfold s_unary_op, sk_sqrt, sk_cbrt, sk_reciprocal, sk_cos, sk_sin, sk_tan, sk_acos, sk_asin, sk_atan,
        sk_cosh, sk_sinh, sk_tanh, sk_acosh, sk_asinh, sk_atanh, sk_exp, sk_log, sk_log2, sk_log10, ModelS.s_neg, s_unary; cbn [s_f s_d];
      (split; [cbn; repeat op|]); intros i Hi; 
      (eapply near_ext; cycle 2; [first [eapply lg_neg; apply G', Hi|eapply lg_map; [apply G', Hi|repeat op]]| |intros k Hk]);
      unfold FactsNestT.jp; try (cbn; ring).
    cbn. replace (- (1)) with (-1) by lra. unfold Rdiv. ring.
  Qed.
  Lemma sx_b b J K x y : sx J x -> sx K y -> sx (jap_b Xops b J K) (s_apply_b O b x y).
  Proof.
    intros (Kx & E & G) (Ky & E' & G'). split; [apply keys_ok_b, Kx|]. rewrite binary_shape.
    destruct J as [jf0 jg0 jh0], K as [kf0 kg0 kh0], x as [xf xd], y as [yf yd]. cbn [jf jg s_f s_d] in *.
    destruct b; cbn [sk_b jap_b]; cbv zeta; (split; [cbn; repeat op|]); intros i Hi;
      (eapply near_ext; cycle 2; [eapply lg_binary; [exact Ky|exact (G i Hi)|exact (G' i Hi)|repeat op|repeat op]| |intros k Hk]);
      unfold FactsNestT.jp; cbn; ring.
  Qed.
  Lemma sx_h J K L x y z : sx J x -> sx K y -> sx L z -> sx (jap_hypot3 Xops J K L) (s_hypot3 O x y z).
  Proof.
    intros (Kx & E & G) (Ky & E' & G') (Kz & E'' & G''). split; [apply keys_ok_h, Kx|].
    destruct J as [jf0 jg0 jh0], K as [kf0 kg0 kh0], L as [lf0 lg0 lh0], x as [xf xd], y as [yf yd], z as [zf zd]. cbn [jf jg s_f s_d] in *.
    unfold s_hypot3. cbn [s_f s_d]. cbv zeta. (split; [cbn; repeat op|]); intros i Hi.
    (eapply near_ext; cycle 2; [eapply lg_ternary; [exact Ky|exact Kz|exact (G i Hi)|exact (G' i Hi)|exact (G'' i Hi)|repeat op|repeat op|repeat op]| |intros k Hk]);
      unfold FactsNestT.jp; cbn; ring.
  Qed.
  Lemma sx_const s v : P (EConst s) v -> sx (jconst Xops (EConst s)) (s_constant v).
  Proof. intros H. split; [constructor|]. split; [exact H|]. intros i Hi. apply (m_Z _ _ M). Qed.
  Lemma sx_var i v : (i < n)%nat -> P (EVar i) v -> sx (jvar Xops i (EVar i)) (s_variable O (nm i) v).
  Proof.
    intros Hi H. split; [apply keys_ok_var|]. split; [exact H|]. intros j Hj. unfold s_get_d. cbn -[o_Z].
    destruct (String.eqb_spec (nm i) (nm j)) as [E|E].
    - apply HD in E; [|assumption..]. subst j. rewrite Nat.eqb_refl. apply (m_Z _ _ M).
    - destruct (Nat.eqb_spec j i) as [->|_]; [congruence|apply (m_Z _ _ M)].
  Qed.
  Lemma sx_ev e env : vars_below n e -> bare e -> (forall i, (i < n)%nat -> P (EVar i) (env i)) ->
    sx (xjet e) (SpecS.s_run O (fun i => s_variable O (nm i) (env i)) (emap s_ctor_f e)).
  Proof.
    unfold xjet. intros HV B HE. induction e as [i|s|u e IH|b e1 IH1 e2 IH2|e1 IH1 e2 IH2 e3 IH3];
      cbn [vars_below bare emap jev SpecS.s_run] in *.
    - apply sx_var; [exact HV|apply HE, HV].
    - apply sx_const, leaf_lit.
    - apply sx_u; [apply B|apply IH; [exact HV|apply B]].
    - apply sx_b; [apply IH1|apply IH2]; tauto.
    - apply sx_h; [apply IH1|apply IH2|apply IH3]; tauto.
  Qed.
End Two.

Lemma bare_no_abs e : bare e -> no_abs (S := R) e.
Proof. induction e as [| |u e IH| |]; cbn; try tauto. destruct u; cbn; tauto. Qed.
Lemma second_derivatives n nm p e : SpecS.distinct n nm -> vars_below n e -> bare e -> smooth 2 e p ->
  twice n nm p (rev e) (evaluate_twice nm p e).
Proof.
  intros HD HV HB D. pose proof (bare_no_abs e HB) as NA.
  destruct (sx_ev n nm p HD (sops Rops) (simu_leaf n nm p) e (fun i => s_variable Rops (nm i) (p i)) HV HB (leaf_var n nm p HD)) as (_ & J0 & J1).
  fold (evaluate_twice nm p e) in J0, J1.
  destruct (xjet_plain n e (conj HV NA)) as (PL0 & PL1 & _).
  pose proof (xjet_smooth 1 p e NA D) as (S0 & S1 & _).
  pose proof (near_smooth n 1 e p HV D) as HN.
  split.
  - apply (sparse_ext n nm p (rev (jf (xjet e)))); [|exact (leaf_sparse n nm p _ _ _ PL0 S0 J0)].
    revert HN. apply near_imp. intros q Dq. rewrite (proj1 (xjet_rev e q NA)). apply jev_f; [reflexivity|]. eapply smooth_dom, Dq.
  - exists (fun i => rev (jg (xjet e) i)). intros i Hi. split; [|exact (leaf_sparse n nm p _ _ _ (PL1 i) (S1 i) (J1 i Hi))].
    revert HN. apply near_imp. intros q Dq. destruct (point_derivs n e q HV (smooth_dom _ _ _ Dq)) as (_ & P1 & _).
    rewrite (proj1 (proj2 (xjet_rev e q NA))). apply P1, Hi.
Qed.
(** x y y at (3, 5). *)
Lemma product_twice : SpecS.distinct 2 xy /\ evaluate_twice xy at35 (EB Bmul (EB Bmul (EVar 0) (EVar 1)) (EVar 1)) =
  mks (mks 75 [("x"%string, 25); ("y"%string, 30)])
    [("x"%string, mks 25 [("y"%string, 10)]); ("y"%string, mks 30 [("x"%string, 10); ("y"%string, 6)])].
Proof. split; [exact xy_distinct|]. lazy -[Rplus Rmult Rminus Ropp Rinv Rdiv IZR]. repeat f_equal; ring. Qed.
