(** [SScalar] in exact real arithmetic: agreement with [DDScalar], derivatives, aliasing, eval. *)
From Coq Require Import ZArith List Bool String Permutation Reals Lra Lia.
From Coquelicot Require Import Coquelicot.
From Verif Require Import Outcome Scalar Model Spec Core Kernels OpsRep AccRep PadRep RealOps Deriv UDeriv BDeriv
  FactsLayout FactsCtor FactsOps ExprSpec Expr Struct FactsExpr Chain FactsReal Cont ProgSpec Prog FactsProg ModelS SpecS FactsS.
Import ListNotations.
Open Scope R_scope.

Notation gd := (s_get_d Rops).

Lemma gd_map f F (t : table R) k : F 0 = 0 -> gd (mks f (t_map F t)) k = F (gd (mks f t) k).
Proof.
  intros H. unfold s_get_d. cbn [s_d]. rewrite find_map. destruct (t_find t k); cbn; [reflexivity|symmetry; exact H].
Qed.
Lemma gd_merge f g (t b : table R) k : NoDup (keys b) -> (forall o, g o 0 = o) ->
  gd (mks f (t_merge Rops g t b)) k = g (gd (mks f t) k) (gd (mks f b) k).
Proof.
  intros H G. unfold s_get_d. cbn [s_d]. rewrite (find_merge Rops g t b k H).
  destruct (t_find b k) as [v|]; cbn [dflt]; [destruct (t_find t k); reflexivity|].
  cbn. rewrite G. reflexivity.
Qed.
Lemma gd_f f f' (t : table R) k : gd (mks f t) k = gd (mks f' t) k. Proof. reflexivity. Qed.
Lemma gd_eta x k : gd (mks (s_f x) (s_d x)) k = gd x k. Proof. destruct x; reflexivity. Qed.
Lemma gd_binary f (a b : table R) da db k : NoDup (keys b) ->
  gd (mks f (s_binary Rops a b da db)) k = gd (mks f a) k * da + db * gd (mks f b) k.
Proof.
  intros H. unfold s_binary. rewrite gd_merge; [|exact H|intros; rcbn; ring]. rcbn. f_equal.
  rewrite (gd_map f (fun v => v * da)) by ring. reflexivity.
Qed.
Lemma gd_ternary f (a b c : table R) da db dc k : NoDup (keys b) -> NoDup (keys c) ->
  gd (mks f (s_ternary Rops a b c da db dc)) k = gd (mks f a) k * da + db * gd (mks f b) k + dc * gd (mks f c) k.
Proof.
  intros H H'. unfold s_ternary. rewrite gd_merge; [|exact H'|intros; rcbn; ring]. rcbn. f_equal.
  exact (gd_binary f a b da db k H).
Qed.

(** ** The value and the derivatives of a sparse number follow a jet *)
Section Shadow.
  Context (n : nat) (nm : nat -> string).
  Definition shadow (J : jet R) (y : ss R) : Prop :=
    keys_ok y /\ s_f y = jf J /\ forall i, (i < n)%nat -> gd y (nm i) = jg J i.

  Lemma sh_u u J y : shadow J y -> shadow (jap_u Rops u J) (s_apply_u Rops u y).
  Proof.
    intros (K & E & G). split; [apply keys_ok_u, K|]. destruct y as [yf yd]. cbn [s_f] in E. subst yf.
    assert (GM : forall f F i, F 0 = 0 -> (i < n)%nat -> gd (mks f (t_map F yd)) (nm i) = F (jg J i)).
    { intros f F i HF Hi. rewrite gd_map by exact HF. rewrite (gd_f f (jf J)). rewrite G by exact Hi. reflexivity. }
    destruct u; cbn [s_apply_u jap_u];
      unfold s_unary_op, sk_pow, sk_sqrt, sk_cbrt, sk_reciprocal, sk_cos, sk_sin, sk_tan, sk_acos, sk_asin, sk_atan,
        sk_cosh, sk_sinh, sk_tanh, sk_acosh, sk_asinh, sk_atanh, sk_exp, sk_log, sk_logb, sk_log2, sk_log10,
        s_abs, s_divs, s_smul, s_muls, s_subs, s_sadd, s_adds, s_ssub, s_neg, s_sdiv, s_unary,
        ju3, k_pow, k_sqrt, k_cbrt, k_reciprocal, k_cos, k_sin, k_tan, k_acos, k_asin, k_atan,
        k_cosh, k_sinh, k_tanh, k_acosh, k_asinh, k_atanh, k_exp, k_log, k_logb, k_log2, k_log10, k_sdiv; cbn [s_f s_d];
      try destruct (o_lt Rops (jf J) (o_Z Rops 0)); unfold s_adds, s_muls; cbn [s_f s_d];
      (split; [reflexivity|]); intros i Hi;
      first [ exact (G i Hi)
            | rewrite GM by (try exact Hi; rcbn; ring); rcbn; ring
            | rewrite GM by (try exact Hi; rcbn; ring); reflexivity
            | rewrite GM by (try exact Hi; rcbn; ring); rcbn; replace (- (1)) with (-1) by lra; ring
            | rewrite GM by (try exact Hi; rcbn; ring); rcbn; unfold Rdiv; ring
            | rewrite (gd_f _ (jf J)), G by exact Hi; reflexivity ].
  Qed.
  Lemma sh_b b J K x y : shadow J x -> shadow K y -> shadow (jap_b Rops b J K) (s_apply_b Rops b x y).
  Proof.
    intros (Kx & E & G) (Ky & E' & G'). split; [apply keys_ok_b, Kx|]. rewrite binary_shape, E, E'. unfold jap_b.
    assert (GB : forall f da db i, (i < n)%nat -> gd (mks f (s_binary Rops (s_d x) (s_d y) da db)) (nm i) = jg J i * da + db * jg K i).
    { intros f da db i Hi. rewrite gd_binary by exact Ky. rewrite (gd_f f (s_f x)), gd_eta, G by exact Hi.
      rewrite (gd_f f (s_f y)), gd_eta, G' by exact Hi. reflexivity. }
    destruct b; cbn [sk_b k_b]; unfold k_add, k_sub, k_mul, k_div, k_atan2, k_hypot, jb6; cbv zeta;
      (split; [reflexivity|]); intros i Hi; rewrite GB by exact Hi; rcbn; ring.
  Qed.
  Lemma sh_h J K L x y z : shadow J x -> shadow K y -> shadow L z -> shadow (jap_hypot3 Rops J K L) (s_hypot3 Rops x y z).
  Proof.
    intros (Kx & E & G) (Ky & E' & G') (Kz & E'' & G''). split; [apply keys_ok_h, Kx|].
    unfold s_hypot3, jap_hypot3. rewrite E, E', E''. cbv zeta. split; [reflexivity|]. intros i Hi.
    rewrite gd_ternary by assumption. rewrite (gd_f _ (s_f x)), gd_eta, G by exact Hi.
    rewrite (gd_f _ (s_f y)), gd_eta, G' by exact Hi. rewrite (gd_f _ (s_f z)), gd_eta, G'' by exact Hi.
    unfold jt. rcbn. ring.
  Qed.
  Lemma sh_const v : shadow (jconst Rops v) (s_constant v).
  Proof. split; [constructor|]. split; [reflexivity|]. intros i Hi. reflexivity. Qed.
  Lemma sh_var i v : distinct n nm -> (i < n)%nat -> shadow (jvar Rops i v) (s_variable Rops (nm i) v).
  Proof.
    intros D Hi. split; [apply keys_ok_var|]. split; [reflexivity|]. intros j Hj. unfold s_get_d. cbn -[o_Z].
    destruct (String.eqb_spec (nm i) (nm j)) as [E|E].
    - apply D in E; [|assumption..]. subst j. rewrite Nat.eqb_refl. reflexivity.
    - destruct (Nat.eqb_spec j i) as [->|_]; [congruence|reflexivity].
  Qed.
  Lemma sh_ev env jenv e : (forall i, occurs i e -> shadow (jenv i) (env i)) ->
    shadow (jev Rops jenv e) (s_run Rops env e).
  Proof.
    induction e as [i|s|u e IH|b e1 IH1 e2 IH2|e1 IH1 e2 IH2 e3 IH3]; cbn [jev s_run occurs]; intros H.
    - apply H. reflexivity.
    - apply sh_const.
    - apply sh_u, IH, H.
    - apply sh_b; [apply IH1|apply IH2]; intros; apply H; auto.
    - apply sh_h; [apply IH1|apply IH2|apply IH3]; intros; apply H; auto.
  Qed.

  (** in-place operators *)
  Lemma sh_assign o J x K y : shadow J x -> shadow K y -> shadow (jassign Rops o J (Some K)) (s_assign Rops o x (Some y)).
  Proof.
    intros (Kx & E & G) (Ky & E' & G'). split; [apply keys_ok_assign, Kx|].
    assert (GX : forall f i, (i < n)%nat -> gd (mks f (s_d x)) (nm i) = jg J i).
    { intros f i Hi. rewrite (gd_f f (s_f x)), gd_eta. apply G, Hi. }
    assert (GY : forall f i, (i < n)%nat -> gd (mks f (s_d y)) (nm i) = jg K i).
    { intros f i Hi. rewrite (gd_f f (s_f y)), gd_eta. apply G', Hi. }
    destruct o; cbn [s_assign jassign]; unfold s_add_assign, s_sub_assign, s_mul_assign, s_div_assign, jmul_assign, k_div_assign, jb6; cbv zeta;
      rewrite ?E, ?E'; (split; [reflexivity|]); intros i Hi.
    - rewrite gd_merge; [|exact Ky|intros; rcbn; ring]. rewrite GX, GY by exact Hi. rcbn. ring.
    - rewrite gd_merge; [|exact Ky|intros; rcbn; ring]. rewrite GX, GY by exact Hi. rcbn. ring.
    - rewrite gd_merge; [|exact Ky|intros; rcbn; ring]. rewrite gd_map by (rcbn; ring). rewrite GX, GY by exact Hi. rcbn. ring.
    - rewrite gd_merge; [|exact Ky|intros; rcbn; ring]. rewrite gd_map by (rcbn; ring). rewrite GX, GY by exact Hi. rcbn. ring.
  Qed.
  Lemma sh_assign_self o J x : o = Aadd \/ o = Asub -> shadow J x -> shadow (jassign Rops o J None) (s_assign Rops o x None).
  Proof.
    intros Ho (Kx & E & G). split; [apply keys_ok_assign, Kx|].
    assert (GX : forall f i, (i < n)%nat -> gd (mks f (s_d x)) (nm i) = jg J i).
    { intros f i Hi. rewrite (gd_f f (s_f x)), gd_eta. apply G, Hi. }
    destruct Ho as [-> | ->]; cbn [s_assign jassign]; unfold s_add_assign, s_sub_assign;
      rewrite ?E; (split; [reflexivity|]); intros i Hi; rewrite merge_self by exact Kx;
      rewrite gd_map by (rcbn; ring); rewrite GX by exact Hi; reflexivity.
  Qed.
  Lemma sh_assign_s o J x s : shadow J x -> shadow (jassign_s Rops o J s) (s_assign_s Rops o x s).
  Proof.
    intros (Kx & E & G). split; [apply keys_ok_assign_s, Kx|].
    assert (GX : forall f i, (i < n)%nat -> gd (mks f (s_d x)) (nm i) = jg J i).
    { intros f i Hi. rewrite (gd_f f (s_f x)), gd_eta. apply G, Hi. }
    destruct o; cbn [s_assign_s jassign_s]; unfold s_adds_assign, s_subs_assign, s_divs_assign, s_muls_assign;
      rewrite ?E; (split; [reflexivity|]); intros i Hi; rewrite ?fold_self by exact Kx;
      rewrite ?gd_map by (rcbn; ring); rewrite GX by exact Hi; reflexivity.
  Qed.

  (** programs *)
  Lemma sh_get js st r : Forall2 shadow js st -> (r < List.length js)%nat ->
    exists x, get st r = Ok x /\ shadow (jreg Rops js r) x.
  Proof.
    intros H Hr. destruct (Forall2_get _ _ _ (jconst Rops (o_Z Rops 0%Z)) r H Hr) as (x & E & R). exists x. unfold get. rewrite E. auto.
  Qed.
  Lemma sh_write js st r J m : Forall2 shadow js st -> (r < List.length js)%nat -> (exists x, m = Ok x /\ shadow J x) ->
    exists st', s_write st r m = Ok st' /\ Forall2 shadow (put js r J) st'.
  Proof.
    intros H Hr (x & -> & R). unfold s_write. destruct (sh_get js st r H Hr) as (y & -> & _). cbn [bind].
    eexists. split; [reflexivity|]. apply put_Forall2; assumption.
  Qed.
  Lemma sh_test k js st : Forall2 shadow js st -> cond_below (List.length js) k -> s_test Rops k st = Ok (jtest Rops k js).
  Proof.
    intros H B. assert (F : forall J x, shadow J x -> s_f x = jf J) by (intros J x R; apply R).
    destruct k as [o a b|o a s|o s a]; cbn [s_test jtest cond_below] in *.
    - destruct B as (Ba & Bb). destruct (sh_get _ _ _ H Ba) as (x & -> & R). destruct (sh_get _ _ _ H Bb) as (y & -> & R').
      cbn [bind]. unfold ss_compare. rewrite (F _ _ R), (F _ _ R'). reflexivity.
    - destruct (sh_get _ _ _ H B) as (x & -> & R). cbn [bind]. unfold ss_compare_s. rewrite (F _ _ R). reflexivity.
    - destruct (sh_get _ _ _ H B) as (x & -> & R). cbn [bind]. unfold s_compare_ss, ss_compare_s.
      rewrite (F _ _ R). destruct o; reflexivity.
  Qed.
  Lemma sh_step s js st : Forall2 shadow js st -> regs_below (List.length js) s -> no_self_muldiv s ->
    exists st', s_step Rops s st = Ok st' /\ Forall2 shadow (jstep Rops s js) st'.
  Proof.
    intros H B N. destruct s; cbn [s_step jstep regs_below] in *; try (exists st; split; [reflexivity|exact H]);
      (apply sh_write; [tauto..|]).
    - eexists. split; [reflexivity|]. apply sh_const.
    - apply sh_get; tauto.
    - destruct (sh_get js st a H ltac:(tauto)) as (x & -> & R). eexists. split; [reflexivity|]. apply sh_u, R.
    - destruct (sh_get js st a1 H ltac:(tauto)) as (x & -> & R). destruct (sh_get js st a2 H ltac:(tauto)) as (y & -> & R').
      eexists. split; [reflexivity|]. apply sh_b; assumption.
    - destruct (sh_get js st a1 H ltac:(tauto)) as (x & -> & R). destruct (sh_get js st a2 H ltac:(tauto)) as (y & -> & R').
      destruct (sh_get js st a3 H ltac:(tauto)) as (z & -> & R''). eexists. split; [reflexivity|]. apply sh_h; assumption.
    - destruct (sh_get js st r H ltac:(tauto)) as (x & -> & R). destruct (sh_get js st a H ltac:(tauto)) as (y & -> & R').
      eexists. split; [reflexivity|]. destruct (Nat.eqb_spec a r) as [->|Ha]; [|apply sh_assign; assumption].
      apply sh_assign_self; [|exact R]. destruct o; cbn in N; auto; congruence.
    - destruct (sh_get js st r H ltac:(tauto)) as (x & -> & R). eexists. split; [reflexivity|]. apply sh_assign_s, R.
  Qed.
  Lemma sh_exec fuel : forall s js st, Forall2 shadow js st -> regs_below (List.length js) s -> no_self_muldiv s ->
    match jexec Rops fuel s js with
    | Some js' => exists st', s_exec Rops fuel s st = Some (Ok st') /\ Forall2 shadow js' st'
    | None => s_exec Rops fuel s st = None
    end.
  Proof.
    induction fuel as [|k IH]; intros s js st H B N; [reflexivity|].
    assert (HS : forall s, regs_below (List.length js) s -> no_self_muldiv s ->
      exists st', Some (s_step Rops s st) = Some (Ok st') /\ Forall2 shadow (jstep Rops s js) st').
    { intros s' B' N'. destruct (sh_step s' js st H B' N') as (st' & -> & H'). eauto. }
    cbn [jexec s_exec]. destruct s; try (apply HS; [exact B|exact N]).
    - destruct B as (B1 & B2), N as (N1 & N2). specialize (IH s1 js st H B1 N1) as I1. destruct (jexec Rops k s1 js) as [j1|] eqn:E1.
      + destruct I1 as (st1 & -> & H1). apply (IH s2 j1 st1 H1); [|exact N2]. rewrite (jexec_length _ _ _ _ _ E1). exact B2.
      + rewrite I1. reflexivity.
    - destruct B as (Bk & B1 & B2), N as (N1 & N2). rewrite (sh_test k0 js st H Bk).
      destruct (jtest Rops k0 js); [apply (IH s1 js st H B1 N1)|apply (IH s2 js st H B2 N2)].
    - destruct B as (Bk & B1). cbn in N. rewrite (sh_test k0 js st H Bk).
      destruct (jtest Rops k0 js); [|eauto].
      specialize (IH s js st H B1 N) as I1. destruct (jexec Rops k s js) as [j1|] eqn:E1.
      + destruct I1 as (st1 & -> & H1). apply (IH (PWhile k0 s) j1 st1 H1); [|exact N]. rewrite (jexec_length _ _ _ _ _ E1). split; assumption.
      + rewrite I1. reflexivity.
  Qed.

  Section Link.
    Context (c : cfg) (Hc : cfg_ok c).
    Lemma mirrors_jet x y : mirrors Rops c n nm x y -> exists J, rep c n J x /\ shadow J y.
    Proof.
      intros (K & h & SH). pose proof (shows_rep _ _ _ _ _ _ Hc SH) as R.
      eexists. split; [exact R|]. split; [exact K|]. split; [reflexivity|]. intros i Hi. reflexivity.
    Qed.
    Lemma jet_mirrors J x y : rep c n J x -> shadow J y -> mirrors Rops c n nm x y.
    Proof.
      intros R (K & E & G). split; [exact K|]. exists (hess J).
      split; [eapply rep_wf, R|]. split; [rewrite (get_f_rep _ _ _ _ R); unfold s_get_f; rewrite E; reflexivity|]. split.
      - intros i Hi. rewrite G by exact Hi. eapply get_g_rep; eassumption.
      - intros Ho i j Hi Hj. eapply get_h_rep; try eassumption. lia.
    Qed.
    Lemma mirrors_jets xs ys : Forall2 (mirrors Rops c n nm) xs ys ->
      exists js, Forall2 (rep c n) js xs /\ Forall2 shadow js ys.
    Proof.
      intros H. induction H as [|x y xs ys M H (js & H1 & H2)]; [exists []; split; constructor|].
      destruct (mirrors_jet x y M) as (J & R & SH). exists (J :: js). split; constructor; assumption.
    Qed.
    Lemma jets_mirrors js xs ys : Forall2 (rep c n) js xs -> Forall2 shadow js ys -> Forall2 (mirrors Rops c n nm) xs ys.
    Proof.
      intros H. revert ys. induction H; intros ys H'; inversion H'; subst; constructor; eauto using jet_mirrors.
    Qed.

    Lemma run_mirrors e xs ys : size_ok c n -> vars_below (List.length xs) e -> Forall2 (mirrors Rops c n nm) xs ys ->
      exists r, run Rops c n xs e = Ok r /\
        mirrors Rops c n nm r (s_run Rops (fun i => nth i ys (s_constant 0)) e).
    Proof.
      intros SO HV H. destruct (mirrors_jets xs ys H) as (js & H1 & H2).
      pose proof (Forall2_len _ _ _ H1) as L1. pose proof (Forall2_len _ _ _ H2) as L2.
      set (jenv := fun i => nth i js (jconst Rops 0)).
      destruct (run_rep Rops c n xs jenv e Hc SO HV) as (r & E & R).
      - intros i x Hx. assert (Hi : (i < List.length js)%nat) by (rewrite L1; apply nth_error_Some; congruence).
        destruct (Forall2_get _ _ _ (jconst Rops 0) i H1 Hi) as (x' & E' & R'). unfold jenv. congruence.
      - exists r. split; [exact E|]. eapply jet_mirrors; [exact R|]. apply sh_ev. intros i Hi.
        unfold jenv. destruct (Nat.lt_ge_cases i (List.length js)) as [Hl|Hl].
        + apply Forall2_nth; assumption.
        + rewrite !nth_overflow by lia. apply sh_const.
    Qed.
    Lemma exec_mirrors fuel s xs ys : size_ok c n -> regs_below (List.length xs) s -> no_self_muldiv s ->
      Forall2 (mirrors Rops c n nm) xs ys ->
      match exec Rops c n fuel s xs, s_exec Rops fuel s ys with
      | Some (Ok xs'), Some (Ok ys') => Forall2 (mirrors Rops c n nm) xs' ys'
      | None, None => True
      | _, _ => False
      end.
    Proof.
      intros SO B N H. destruct (mirrors_jets xs ys H) as (js & H1 & H2). rewrite <- (Forall2_len _ _ _ H1) in B.
      pose proof (exec_ok Rops c n Hc SO fuel s js xs H1 B) as X. pose proof (sh_exec fuel s js ys H2 B N) as Y.
      destruct (jexec Rops fuel s js) as [js'|].
      - destruct X as (xs' & -> & X), Y as (ys' & -> & Y). eapply jets_mirrors; eassumption.
      - rewrite X, Y. exact I.
    Qed.
  End Link.
End Shadow.

(** ** C34, C32 *)
Lemma variables_agree c n nm e p : cfg_ok c -> size_ok c n -> distinct n nm -> vars_below n e ->
  exists xs r, variables Rops c (coords n p) = Ok xs /\ run Rops c n xs e = Ok r /\
    let r' := s_run Rops (fun i => s_variable Rops (nm i) (p i)) e in
    get_f r = Ok (s_get_f r') /\ forall i, (i < n)%nat -> get_g c r (Z.of_nat i) = Ok (gd r' (nm i)).
Proof.
  intros Hc SO D HV. destruct (run_variables c n e p Hc SO HV) as (xs & r & E & Er & R).
  exists xs, r. split; [exact E|]. split; [exact Er|]. cbv zeta.
  assert (SH : shadow n nm (jev Rops (fun i => jvar Rops i (p i)) e) (s_run Rops (fun i => s_variable Rops (nm i) (p i)) e)).
  { apply sh_ev. intros i Hi. apply sh_var; [exact D|]. clear -Hi HV. induction e; cbn in *; try tauto; try lia. }
  destruct SH as (_ & F & G). split.
  - rewrite (get_f_rep _ _ _ _ R). unfold s_get_f. rewrite F. reflexivity.
  - intros i Hi. rewrite G by exact Hi. eapply get_g_rep; eassumption.
Qed.

Lemma vars_occurs n (e : expr R) i : vars_below n e -> occurs i e -> (i < n)%nat.
Proof. intros HV Hi. induction e; cbn in *; try tauto; try lia. Qed.

Lemma sparse_exact n nm e p : distinct n nm -> vars_below n e -> dom e p ->
  let r := s_run Rops (fun i => s_variable Rops (nm i) (p i)) e in
  s_get_f r = rev e p /\
  (forall i, (i < n)%nat -> partial (rev e) i p (gd r (nm i))) /\
  (forall k, In k (names r) <-> exists i, occurs i e /\ k = nm i) /\ NoDup (names r) /\
  (forall k, (forall i, occurs i e -> k <> nm i) -> gd r k = 0) /\
  forall u, dirder (rev e) u p (rsum n (fun i => gd r (nm i) * u i)).
Proof.
  intros D HV HD r.
  assert (SH : shadow n nm (jev Rops (fun i => jvar Rops i (p i)) e) r).
  { apply sh_ev. intros i Hi. apply sh_var; [exact D|]. eapply vars_occurs; eassumption. }
  destruct SH as (K & F & G). split; [|split; [|split; [|split; [exact K|split]]]].
  - unfold s_get_f. rewrite F. apply jev_f; auto.
  - intros i Hi. rewrite G by exact Hi.
    pose proof (jev_point n e p (unit_at i) (unit_at i) HV HD) as T. unfold track in T.
    rewrite gsum_unit in T by exact Hi. apply (J2_partial _ (rev_ext e)) in T. apply T.
  - intros k. unfold r. destruct (names_run Rops (fun i => s_variable Rops (nm i) (p i)) e k) as (_ & ->).
    + intros i _. apply keys_ok_var.
    + split; intros (i & Hi & Hk); exists i; (split; [exact Hi|]); cbn in *; intuition.
  - intros k Hk. apply absent_zero. intros Hin.
    destruct (names_run Rops (fun i => s_variable Rops (nm i) (p i)) e k) as (_ & E).
    + intros i _. apply keys_ok_var.
    + apply E in Hin. destruct Hin as (i & Hi & Hn). apply (Hk i Hi). cbn in Hn. intuition.
  - intros u. rewrite (rsum_ext n _ (fun i => jg (jev Rops (fun i => jvar Rops i (p i)) e) i * u i)) by (intros i Hi; rewrite G by exact Hi; reflexivity).
    pose proof (jev_point n e p u u HV HD) as T. apply J2_dir in T. apply T.
Qed.

(** ** C35 *)
Definition aop_b (o : aop) : bfun := match o with Aadd => Badd | Asub => Bsub | Amul => Bmul | Adiv => Bdiv end.
Lemma inplace_distinct o x y : keys_ok x -> keys_ok y ->
  let r := s_assign Rops o x (Some y) in let r' := s_apply_b Rops (aop_b o) x y in
  s_get_f r = s_get_f r' /\ (forall k, gd r k = gd r' k) /\ (forall k, In k (names r) <-> In k (names r')).
Proof.
  intros Kx Ky r r'. split; [|split].
  - unfold r, r', s_get_f. destruct o; try reflexivity. cbn. unfold Rdiv. ring.
  - intros k. unfold r, r'. rewrite binary_shape.
    destruct o; cbn [s_assign aop_b sk_b]; unfold s_add_assign, s_sub_assign, s_mul_assign, s_div_assign; cbv zeta;
      rewrite gd_binary by exact Ky; (rewrite gd_merge; [|exact Ky|intros; rcbn; ring]).
    + rcbn; unfold s_get_d; cbn [s_d]; ring.
    + rcbn; unfold s_get_d; cbn [s_d]; ring.
    + rewrite gd_map by (rcbn; ring). rcbn. reflexivity.
    + rewrite gd_map by (rcbn; ring). rcbn. reflexivity.
  - intros k. unfold r, r'. rewrite names_b by exact Ky.
    change (names ?z) with (keys (s_d z)).
    destruct o; cbn [s_assign]; unfold s_add_assign, s_sub_assign, s_mul_assign, s_div_assign; cbn [s_d];
      rewrite in_keys_merge by exact Ky; rewrite ?keys_map; tauto.
Qed.
Lemma inplace_self x : keys_ok x ->
  (forall o, o = Aadd \/ o = Asub -> let r := s_assign Rops o x None in let r' := s_apply_b Rops (aop_b o) x x in
     s_get_f r = s_get_f r' /\ forall k, gd r k = gd r' k) /\
  (let r := s_assign Rops Amul x None in
     s_get_f r = s_get_f x * s_get_f x /\ forall k, gd r k = s_get_f x * gd x k * (1 + s_get_f x)) /\
  (s_get_f x <> 0 -> let r := s_assign Rops Adiv x None in
     s_get_f r = 1 /\ forall k, gd r k = gd x k / s_get_f x - gd x k / (s_get_f x * s_get_f x)).
Proof.
  intros K. split; [|split].
  - intros o Ho r r'. split; [destruct Ho as [-> | ->]; reflexivity|]. intros k. unfold r, r'. rewrite binary_shape.
    destruct Ho as [-> | ->]; cbn [s_assign aop_b sk_b]; unfold s_add_assign, s_sub_assign;
      rewrite gd_binary by exact K; rewrite merge_self by exact K; rewrite gd_map by (rcbn; ring); rcbn; unfold s_get_d; cbn [s_d]; ring.
  - cbv zeta. split; [reflexivity|]. intros k. cbn [s_assign]. unfold s_mul_assign. cbv zeta.
    rewrite merge_self by (apply nodup_map, K). rewrite !gd_map by (rcbn; ring). rcbn.
    rewrite (gd_f _ (s_f x)), gd_eta. unfold s_get_f. ring.
  - unfold s_get_f. intros Hf. cbv zeta. split; [cbn; field; exact Hf|]. intros k. cbn [s_assign]. unfold s_div_assign. cbv zeta.
    rewrite merge_self by (apply nodup_map, K). rewrite !gd_map by (rcbn; ring). rcbn.
    rewrite (gd_f _ (s_f x)), gd_eta. rewrite Rpow_std_2. field. exact Hf.
Qed.

(** ** C36, and C33 for eval *)
Lemma incr_find (d : table R) k : incr d k = match t_find d k with Some v => v | None => 0 end.
Proof.
  unfold incr. induction d as [|(k0, v) d IH]; cbn; [reflexivity|]. destruct (String.eqb k0 k); [reflexivity|exact IH].
Qed.
Lemma eval_fold d (t : table R) : forall r,
  fold_left (fun (r : res R) '(k, c) =>
      r <- r ;; match t_find d k with None => Ok r | Some v => Ok (r + c * v) end) t (Ok r) =
  Ok (r + lsum (map (fun '(k, c) => c * incr d k) t)).
Proof.
  induction t as [|(k, c) t IH]; intros r; cbn [fold_left map lsum fold_right]; [f_equal; ring|].
  cbn [bind]. rewrite incr_find. destruct (t_find d k) as [v|]; rewrite IH; f_equal; unfold lsum; ring.
Qed.
Lemma lsum_names x (F : string -> R) : keys_ok x ->
  lsum (map (fun '(k, c) => c * F k) (s_d x)) = lsum (map (fun k => gd x k * F k) (names x)).
Proof.
  intros K. unfold names. rewrite map_map. f_equal. apply map_ext_in. intros (k, v) H. cbn [fst].
  rewrite (stored_value Rops x k v K H). reflexivity.
Qed.
Lemma eval_linear x d : keys_ok x -> s_eval Rops true x d = Ok (lsum (map (fun k => gd x k * incr d k) (names x))).
Proof.
  intros K. rewrite <- (lsum_names x (incr d) K). unfold s_eval. cbv iota.
  etransitivity; [apply (eval_fold d (s_d x) 0)|]. f_equal. ring.
Qed.
Lemma eval_strict {S} (O : Ops S) x d : s_eval O false x d = match s_d x with [] => Ok (o_Z O 0%Z) | _ => UB end.
Proof.
  unfold s_eval. destruct (s_d x) as [|(k, c) t]; [reflexivity|]. cbn [fold_left bind].
  induction t as [|(k', c') t IH]; [reflexivity|exact IH].
Qed.
Lemma lsum_perm l l' : Permutation l l' -> lsum l = lsum l'.
Proof. intros H. induction H; cbn in *; unfold lsum in *; cbn; try lra. Qed.
Lemma incr_perm d d' k : NoDup (map fst d) -> Permutation d d' -> incr d k = incr d' k.
Proof. intros H P. rewrite !incr_find. apply (perm_find d d' H) in P. destruct P as (_ & ->). reflexivity. Qed.
Lemma eval_order x x' d d' : keys_ok x -> NoDup (map fst d) -> reorders x x' -> Permutation d d' ->
  s_eval Rops true x d = s_eval Rops true x' d'.
Proof.
  intros K Kd R P. pose proof (reorders_keys x x' K R) as K'. rewrite !eval_linear by assumption. f_equal.
  destruct (reorders_reads Rops x x' K R) as (_ & _ & G). rewrite (map_ext _ (fun k => gd x' k * incr d' k)).
  - apply lsum_perm, Permutation_map. unfold names. apply Permutation_map. apply R.
  - intros k. rewrite G, (incr_perm d d' k Kd P). reflexivity.
Qed.

Lemma lsum_app l l' : lsum (l ++ l') = lsum l + lsum l'.
Proof. unfold lsum. induction l as [|a l IH]; cbn; [ring|]. rewrite IH. ring. Qed.
Lemma incl_perm {A} (l l' : list A) : NoDup l -> incl l l' -> exists r, Permutation l' (l ++ r).
Proof.
  revert l'. induction l as [|a l IH]; intros l' H I; [exists l'; reflexivity|].
  inversion H as [|? ? Ha Hl]; subst. destruct (in_split a l') as (u & v & ->); [apply I; left; reflexivity|].
  destruct (IH (u ++ v) Hl) as (r & P).
  - intros b Hb. assert (Hi : In b (u ++ a :: v)) by (apply I; right; exact Hb). apply in_app_or in Hi. apply in_or_app.
    destruct Hi as [Hi|[->|Hi]]; auto. contradiction.
  - exists r. cbn. eapply Permutation_trans; [apply Permutation_sym, Permutation_middle|]. constructor. exact P.
Qed.
Lemma lsum_rsum n (F : nat -> R) : lsum (map F (seq 0 n)) = rsum n F.
Proof. induction n as [|n IH]; [reflexivity|]. rewrite seq_S, map_app, lsum_app, IH. cbn [rsum]. unfold lsum. cbn. ring. Qed.
Lemma names_sum n nm x (F : string -> R) : keys_ok x -> distinct n nm -> incl (names x) (map nm (seq 0 n)) ->
  lsum (map (fun k => gd x k * F k) (names x)) = rsum n (fun i => gd x (nm i) * F (nm i)).
Proof.
  intros K D I. rewrite <- (lsum_rsum n (fun i => gd x (nm i) * F (nm i))), <- (map_map nm (fun k => gd x k * F k)).
  destruct (incl_perm _ _ K I) as (r & P). rewrite (lsum_perm _ _ (Permutation_map _ P)), map_app, lsum_app.
  assert (N : NoDup (map nm (seq 0 n))).
  { assert (H : forall m k, (k + m <= n)%nat -> NoDup (map nm (seq k m))).
    { induction m as [|m IH]; intros k Hk; cbn; [constructor|]. constructor; [|apply IH; lia].
      intros Hi. apply in_map_iff in Hi. destruct Hi as (j & E & Hj). apply in_seq in Hj. apply D in E; lia. }
    apply H. lia. }
  assert (Z : forall k, In k r -> gd x k = 0).
  { intros k Hk. apply absent_zero. intros Hx. apply (Permutation_NoDup P) in N.
    revert N Hx. generalize (names x) as l. clear -Hk. induction l as [|a l IH]; intros N Hx; [contradiction Hx|].
    inversion N as [|? ? Ha Nl]; subst. destruct Hx as [->|Hx]; [|exact (IH Nl Hx)].
    apply Ha, in_or_app. right. exact Hk. }
  replace (lsum (map (fun k => gd x k * F k) r)) with 0; [ring|]. clear -Z.
  induction r as [|k r IH]; [reflexivity|]. cbn [map]. unfold lsum in *. cbn [fold_right]. rewrite <- IH by (intros; apply Z; right; assumption).
  rewrite Z by (left; reflexivity). ring.
Qed.
Lemma eval_vs_dense c n nm x y d t : cfg_ok c -> c_ord c = 1%Z -> distinct n nm -> mirrors Rops c n nm x y ->
  incl (names y) (map nm (seq 0 n)) -> (n <= List.length d)%nat -> (forall i, (i < n)%nat -> incr t (nm i) = nth i d 0) ->
  exists v, s_eval Rops true y t = Ok v /\ eval Rops c x d = Ok (s_get_f y + v).
Proof.
  intros Hc Ho D (K & h & SH) I HL HT. rewrite eval_linear by exact K. eexists. split; [reflexivity|].
  rewrite (eval_is_taylor c n x _ _ _ d Hc SH HL). f_equal. rewrite Ho. cbn [Z.eqb Pos.eqb].
  rewrite (names_sum n nm y (incr t) K D I). rewrite Rplus_0_r. f_equal. apply rsum_ext. intros i Hi. rewrite HT by exact Hi. ring.
Qed.

(** ** Comparisons and abs *)
Lemma sparse_compare {S} (O : Ops S) o (x y : ss S) (s : S) : (forall a b, o_eq O a b = o_eq O b a) ->
  ss_compare O o x y = scmp O o (s_get_f x) (s_get_f y) /\ ss_compare_s O o x s = scmp O o (s_get_f x) s /\
  s_compare_ss O o s y = scmp O o s (s_get_f y).
Proof. intros H. split; [reflexivity|]. split; [reflexivity|]. destruct o; try reflexivity; cbn; rewrite H; reflexivity. Qed.
Lemma sparse_abs x k :
  (0 <= s_get_f x -> s_abs Rops x = x) /\
  (s_get_f x < 0 -> s_get_f (s_abs Rops x) = - s_get_f x /\ gd (s_abs Rops x) k = - gd x k) /\
  s_get_f (s_abs Rops x) = Rabs (s_get_f x).
Proof.
  unfold s_abs, s_get_f. cbn [o_lt Rops o_Z]. unfold Rltb. destruct (Rlt_dec (s_f x) 0) as [H|H].
  - split; [lra|]. split; [|cbn; rewrite Rabs_left by exact H; reflexivity]. intros _. split; [reflexivity|].
    unfold s_neg. rewrite gd_map by (rcbn; ring). rcbn. rewrite (gd_f _ (s_f x)), gd_eta. reflexivity.
  - split; [reflexivity|]. split; [lra|]. rewrite Rabs_pos_eq by lra. reflexivity.
Qed.

(** ** Derivatives of programs on sparse numbers *)
Lemma sparse_program n nm s fuel ks p v : distinct n nm -> regs_below (n + List.length ks) s -> no_self_muldiv s ->
  rexec fuel s (coords n p ++ ks) = Some v -> safe fuel s (coords n p ++ ks) ->
  exists st, s_exec Rops fuel s (map (fun i => s_variable Rops (nm i) (p i)) (seq 0 n) ++ map s_constant ks) = Some (Ok st) /\
    List.length st = (n + List.length ks)%nat /\
    forall r x, nth_error st r = Some x ->
      let F := computes fuel s n ks r in
      NoDup (names x) /\ s_get_f x = F p /\ forall i, (i < n)%nat -> partial F i p (gd x (nm i)).
Proof.
  intros D B N E SF. unfold coords in *. rewrite <- (inits_vals n ks p) in E, SF.
  destruct (sym n p fuel s (inits n ks) v (inits_good n p ks) ltac:(rewrite inits_length; exact B) SF E)
    as (es' & -> & L & G & NE & HJ).
  set (env := fun i => jvar Rops i (p i)). set (js := map env (seq 0 n) ++ map (jconst Rops) ks).
  assert (H0 : holds n env (inits n ks) js).
  { unfold holds, inits, js. apply Forall2_app.
    - clear. generalize (seq 0 n). intros l. induction l as [|i l IH]; cbn; constructor; [apply jeq_refl|exact IH].
    - clear. induction ks as [|k l IH]; cbn; constructor; [apply jeq_refl|exact IH]. }
  destruct (HJ env js ltac:(reflexivity) H0) as (js' & EJ & HJ').
  assert (R0 : Forall2 (shadow n nm) js (map (fun i => s_variable Rops (nm i) (p i)) (seq 0 n) ++ map s_constant ks)).
  { apply Forall2_app.
    - clear -D.
      assert (H : forall m k, (k + m <= n)%nat -> Forall2 (shadow n nm) (map env (seq k m))
        (map (fun i => s_variable Rops (nm i) (p i)) (seq k m))).
      { induction m as [|m IH]; intros k Hk; cbn; [constructor|]. constructor; [|apply IH; lia]. apply sh_var; [exact D|lia]. }
      apply H. lia.
    - clear. induction ks as [|k l IH]; cbn; constructor; [apply sh_const|exact IH]. }
  pose proof (sh_exec n nm fuel s js _ R0 ltac:(unfold js; rewrite app_length, !map_length, seq_length; exact B) N) as X.
  rewrite EJ in X. destruct X as (st & EX & RS). exists st. split; [exact EX|].
  assert (LS : List.length st = List.length es') by (rewrite (Forall2_len _ _ _ HJ'), (Forall2_len _ _ _ RS); reflexivity).
  split; [rewrite LS, L; apply inits_length|].
  intros r x Hx. cbv zeta. set (F := computes fuel s n ks r).
  assert (Hr : (r < List.length es')%nat) by (rewrite <- LS; apply nth_error_Some; congruence).
  set (e := ereg es' r). destruct (good_reg n p es' r G Hr) as (V & DD). fold e in V, DD.
  assert (NF : near n p (fun q => rev e q = F q)).
  { revert NE. apply near_imp. intros q Q. unfold F, computes. rewrite inits_vals in Q. rewrite Q.
    unfold vals. rewrite reg_map by exact Hr. reflexivity. }
  assert (Hj : (r < List.length js')%nat) by (rewrite <- (Forall2_len _ _ _ HJ'); exact Hr).
  destruct (Forall2_get _ _ _ (jconst Rops 0) r RS Hj) as (x' & Ex' & K & F' & G'). assert (x' = x) by congruence. subst x'.
  pose proof (holds_reg n env es' js' r HJ' Hr) as (Q0 & Q1 & _). unfold jreg in Q0, Q1.
  change (o_Z Rops 0%Z) with 0 in Q0, Q1. fold e in Q0, Q1.
  destruct (point_derivs n e p V DD) as (P0 & P1 & _). fold env in P0, P1.
  split; [exact K|]. split.
  - unfold s_get_f. rewrite F', <- Q0, P0. apply (near_here _ _ _ NF).
  - intros i Hi. apply (partial_ext_near n (rev e)); auto. rewrite G', <- Q1 by exact Hi. apply P1, Hi.
Qed.

(** ** registers not assigned to *)
Lemma s_write_frame {S} (st st' : list (ss S)) r q m : s_write st q m = Ok st' -> q <> r -> nth_error st' r = nth_error st r.
Proof.
  intros H N. unfold s_write in H. apply bind_ok_inv in H as (x & _ & H). apply bind_ok_inv in H as (y & _ & H).
  injection H as <-. apply put_other. congruence.
Qed.
Lemma s_exec_frame {S} (O : Ops S) r fuel : forall s (st st' : list (ss S)), no_write r s ->
  s_exec O fuel s st = Some (Ok st') -> nth_error st' r = nth_error st r.
Proof.
  induction fuel as [|k IH]; intros s st st' N H; [discriminate|]. cbn [s_exec] in H.
  destruct s; cbn [no_write s_step] in *;
    try (injection H as H; apply (s_write_frame _ _ _ _ _ H); assumption); try (injection H as <-; reflexivity).
  - destruct N as (N1 & N2). destruct (s_exec O k s1 st) as [[st1| | |]|] eqn:E; try discriminate.
    rewrite (IH _ _ _ N2 H). apply (IH _ _ _ N1 E).
  - destruct N as (N1 & N2). destruct (s_test O k0 st) as [[|]| | |]; try discriminate; eapply IH; [|exact H| |exact H]; assumption.
  - destruct (s_test O k0 st) as [[|]| | |]; try discriminate; [|injection H as <-; reflexivity].
    destruct (s_exec O k s st) as [[st1| | |]|] eqn:E; try discriminate.
    rewrite (IH (PWhile k0 s) _ _ N H). apply (IH _ _ _ N E).
Qed.

(** ** witnesses *)
Definition two : ss R := s_variable Rops "x" 2.
Lemma two_ok : keys_ok two /\ s_get_f two = 2 /\ gd two "x" = 1.
Proof. split; [apply keys_ok_var|]. split; reflexivity. Qed.
Lemma self_mul_witness : ~ (forall x : ss R, keys_ok x -> same_reads Rops (s_assign Rops Amul x None) (s_apply_b Rops Bmul x x)).
Proof.
  intros H. destruct (H two (proj1 two_ok)) as (_ & _ & G). specialize (G "x"%string). revert G.
  unfold s_get_d, two, s_variable, s_ctor. cbn. lra.
Qed.
Lemma self_div_witness : ~ (forall x : ss R, keys_ok x -> s_get_f x <> 0 ->
  same_reads Rops (s_assign Rops Adiv x None) (s_apply_b Rops Bdiv x x)).
Proof.
  intros H. destruct (H two (proj1 two_ok)) as (_ & _ & G); [cbn; lra|]. specialize (G "x"%string). revert G.
  unfold s_get_d, two, s_variable, s_ctor. cbn. rewrite !Rpow_std_2. lra.
Qed.
Lemma eval_witness : ~ (forall (x : ss R) (d : table R), keys_ok x -> NoDup (map fst d) ->
  s_eval Rops true x d = Ok (s_get_f x + lsum (map (fun k => gd x k * incr d k) (names x)))).
Proof.
  intros H. specialize (H two [] (proj1 two_ok) ltac:(constructor)). revert H. cbn. intros H. injection H. lra.
Qed.
Lemma eval_iso_witness : ~ (forall (x : ss R) (d : table R), keys_ok x -> NoDup (map fst d) -> s_eval Rops false x d <> UB).
Proof. intros H. apply (H two [] (proj1 two_ok) ltac:(constructor)). reflexivity. Qed.
(** where [x *= x] is nevertheless right *)
Lemma self_mul_right x : keys_ok x ->
  (same_reads Rops (s_assign Rops Amul x None) (s_apply_b Rops Bmul x x) <->
   s_get_f x = 0 \/ s_get_f x = 1 \/ forall k, gd x k = 0).
Proof.
  intros K. pose proof (inplace_self x K) as (_ & (F & G) & _). cbv zeta in F, G.
  assert (G' : forall k, gd (s_apply_b Rops Bmul x x) k = 2 * s_get_f x * gd x k).
  { intros k. cbn [s_apply_b]. unfold s_mul. rewrite gd_binary by exact K. rewrite !(gd_f _ (s_f x) (s_d x)), gd_eta. unfold s_get_f. ring. }
  split.
  - intros (_ & _ & H). destruct (Req_dec (s_get_f x) 0) as [|N0]; [tauto|]. destruct (Req_dec (s_get_f x) 1) as [|N1]; [tauto|].
    right; right. intros k. specialize (H k). rewrite G, G' in H.
    assert (s_get_f x * (s_get_f x - 1) * gd x k = 0) by (rewrite <- (Rminus_diag_eq _ _ H); ring).
    apply Rmult_integral in H0 as [H0|H0]; [|exact H0]. apply Rmult_integral in H0 as [H0|H0]; lra.
  - intros H. split; [exact F|]. split.
    + rewrite !size_counts. f_equal. transitivity (List.length (names x)).
      * unfold names. cbn [s_assign]. unfold s_mul_assign. cbn [s_d].
        rewrite merge_self by (rewrite keys_map; exact K). change (@map (string * R) string fst) with (@keys R). rewrite !keys_map. reflexivity.
      * apply Permutation_length, NoDup_Permutation; [exact K|apply keys_ok_b, K|]. intros k. rewrite names_b by exact K. tauto.
    + intros k. rewrite G, G'. destruct H as [H|[H|H]]; rewrite H; ring.
Qed.
