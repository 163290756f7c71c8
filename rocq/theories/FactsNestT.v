(** C116: dense numbers of sparse numbers. *)
From Coq Require Import ZArith List Bool Reals Lra Lia String.
From Coquelicot Require Import Coquelicot.
From Verif Require Import Outcome Scalar Model Spec Core Kernels OpsRep AccRep RealOps Deriv UDeriv BDeriv
  FactsLayout FactsOps FactsCtor ModelS FactsS FactsSReal ExprSpec Expr Struct FactsExpr Chain FactsReal Cont NumSpec FactsNum ParamSpec FactsErr FactsSessS Samples NestSpec FactsNest NestTSpec.
From Verif Require SpecS.
Import ListNotations.
Open Scope R_scope.

Section Leaf.
  Context (n : nat) (nm : nat -> string) (p : nat -> R) (HD : SpecS.distinct n nm).
  Definition jp (X : expr R) : jet R := jev Rops (fun i => jvar Rops i (p i)) X.
  Definition leaf (X : expr R) (x : ss R) : Prop := shadow n nm (jp X) x.
  Lemma leaf_lit s : leaf (EConst s) (s_ctor_f s).
  Proof. split; [constructor|]. split; [reflexivity|]. intros i Hi. reflexivity. Qed.
  Lemma leaf_var i : (i < n)%nat -> leaf (EVar i) (s_variable Rops (nm i) (p i)).
  Proof. intros Hi. apply sh_var; assumption. Qed.
  Lemma leaf_u u X x : leaf X x -> leaf (EU u X) (s_apply_u Rops u x).
  Proof. apply sh_u. Qed.
  Lemma leaf_b b X x Y y : leaf X x -> leaf Y y -> leaf (EB b X Y) (s_apply_b Rops b x y).
  Proof. apply sh_b. Qed.
  Lemma leaf_value s y : leaf (EConst s) y -> s_f y = s.
  Proof. intros (_ & E & _). exact E. Qed.
  Lemma leaf_ext X Y x : jf (jp X) = jf (jp Y) -> (forall i, jg (jp X) i = jg (jp Y) i) -> leaf X x -> leaf Y x.
  Proof. intros E G (K & A & B). split; [exact K|]. split; [congruence|]. intros i Hi. rewrite <- G. apply B, Hi. Qed.
  Lemma simu_leaf : simu leaf (sops Rops).
  Proof.
    constructor; cbn [sops o_Z o_half o_add o_sub o_mul o_div o_neg o_pow o_sqrt o_cbrt o_cos o_sin o_tan o_acos o_asin
      o_atan o_atan2 o_hypot o_hypot3 o_cosh o_sinh o_tanh o_acosh o_asinh o_atanh o_exp o_log o_log2 o_log10]; intros;
      try (apply leaf_u; assumption); try (apply leaf_b; assumption).
    - apply leaf_lit.
    - apply leaf_lit.
    - rewrite (leaf_value _ _ H0). apply leaf_u, H.
    - apply sh_h; assumption.
    - eapply leaf_ext; [| |apply (leaf_b Badd); eassumption]; [reflexivity|]. intros i. cbn. ring.
    - eapply leaf_ext; [| |apply (leaf_b Bsub); eassumption]; [reflexivity|]. intros i. cbn. ring.
    - eapply leaf_ext; [| |apply (leaf_u Uneg); eassumption]; [reflexivity|]. intros i. cbn. ring.
  Qed.
  Lemma leaf_sparse k X x : plain n X -> smooth (S k) X p -> leaf X x -> sparse_of n nm p (rev X) x.
  Proof.
    intros (V & _) D (K & A & B). destruct (point_derivs n X p V (smooth_dom _ _ _ D)) as (P0 & P1 & _). fold (jp X) in P0, P1.
    split; [congruence|]. intros i Hi. change (s_get_d Rops x (nm i)) with (gd x (nm i)). rewrite (B i Hi). apply P1, Hi.
  Qed.
  Lemma sparse_ext F G x : near n p (fun q => F q = G q) -> sparse_of n nm p F x -> sparse_of n nm p G x.
  Proof.
    intros HN (A & B). split; [rewrite A; exact (near_here _ _ _ HN)|]. intros i Hi. exact (partial_ext n F G i p _ HN (B i Hi)).
  Qed.
  Lemma mixed_derivatives c e : cfg_ok c -> size_ok c n -> vars_below n e -> no_abs e -> smooth 2 e p ->
    exists r, evaluate_sparse n nm c p e = Ok r /\ mixed n nm c p (rev e) r.
  Proof.
    intros Hc SO HV NA D. unfold evaluate_sparse.
    set (vs := map (fun i => s_variable Rops (nm i) (p i)) (seq 0 n)).
    assert (L : List.length vs = n) by (unfold vs; rewrite map_length, seq_length; reflexivity).
    destruct (evaluate_rep (sops Rops) c vs (s_variable Rops (nm 0%nat) (p 0%nat)) (emap s_ctor_f e) Hc) as (r & E & HR); rewrite ?L; auto.
    { apply emap_below, HV. }
    exists r. split; [exact E|]. rewrite L in HR.
    assert (HJ : jrel leaf (c_ord c) n (xjet e) (jev (sops Rops) (fun i => jvar (sops Rops) i (nth i vs (s_variable Rops (nm 0%nat) (p 0%nat)))) (emap s_ctor_f e))).
    { apply (jrel_ev _ _ simu_leaf _ _ n); [exact HV|exact NA| |].
      - unfold erel. clear. induction e as [| |u e IH| |]; cbn; auto using leaf_lit. split; [|exact IH]. destruct u; cbn; auto using leaf_lit.
      - intros i Hi. unfold vs. rewrite (map_nth (fun i => s_variable Rops (nm i) (p i)) (seq 0 n) 0%nat i), seq_nth by exact Hi. apply leaf_var, Hi. }
    match type of HR with rep _ _ ?k _ => set (K := k) in * end.
    destruct (xjet_plain n e (conj HV NA)) as (PL0 & PL1 & PL2).
    pose proof (xjet_smooth 1 p e NA D) as (S0 & S1 & S2).
    pose proof (near_smooth n 1 e p HV D) as HN.
    assert (HP : near n p (fun q => (forall i, (i < n)%nat -> partial (rev e) i q (rev (jg (xjet e) i) q)))).
    { revert HN. apply near_imp. intros q Dq i Hi. destruct (point_derivs n e q HV (smooth_dom _ _ _ Dq)) as (_ & P1 & _).
      rewrite (proj1 (proj2 (xjet_rev e q NA))). apply P1, Hi. }
    exists (jf K), (jg K), (hess K), (fun i => rev (jg (xjet e) i)), (fun i j => rev (hess (xjet e) i j)).
    destruct HJ as (J0 & J1 & J2).
    split; [apply rep_shows; assumption|]. split; [|split].
    - apply (sparse_ext (rev (jf (xjet e)))); [|exact (leaf_sparse _ _ _ PL0 S0 J0)].
      revert HN. apply near_imp. intros q Dq. rewrite (proj1 (xjet_rev e q NA)). apply jev_f; [reflexivity|]. eapply smooth_dom, Dq.
    - intros i Hi. split; [revert HP; apply near_imp; auto|]. exact (leaf_sparse _ _ _ (PL1 i) (S1 i) (J1 i Hi)).
    - intros Ho i j Hi Hj. split.
      + generalize (near_and _ _ _ _ (near_near _ _ _ HP) HN). apply near_imp. intros q (HQ & Dq).
        destruct (point_derivs n e q HV (smooth_dom _ _ _ Dq)) as (_ & _ & P2).
        destruct (P2 i j Hi Hj) as (D' & HL & HD'). rewrite (proj2 (proj2 (xjet_rev e q NA))).
        unfold partial. eapply is_derive_ext_loc; [|exact HD'].
        generalize (filter_and _ _ HL (near_line n q i _ HQ)). apply filter_imp. intros s (A & B).
        specialize (B j Hj). unfold partial in A, B. apply is_derive_unique in A. apply is_derive_unique in B. congruence.
      + refine (leaf_sparse 0 _ _ (PL2 i j) (S2 _ _) _). unfold hess. apply J2; [rewrite Ho; discriminate|]. lia.
  Qed.
End Leaf.
Lemma cube_sparse_case : evaluate_sparse 1 (fun _ => "x"%string) (sta2 1) (fun _ => 2) (X * X * X)%E =
  Ok (mk 1 [Some (mks 8 [("x"%string, 12)]); Some (mks 12 [("x"%string, 12)]); Some (mks 12 [("x"%string, 6)])]).
Proof. lazy -[Rplus Rmult Rminus Ropp Rinv Rdiv IZR]. repeat f_equal; ring. Qed.
Lemma cube_sparse : SpecS.distinct 1 (fun _ => "x"%string) /\ smooth 2 (X * X * X)%E (fun _ => 2) /\
  evaluate_sparse 1 (fun _ => "x"%string) (sta2 1) (fun _ => 2) (X * X * X)%E =
  Ok (mk 1 [Some (mks 8 [("x"%string, 12)]); Some (mks 12 [("x"%string, 12)]); Some (mks 12 [("x"%string, 6)])]).
Proof. split; [intros i j; lia|]. split; [cbn; tauto|exact cube_sparse_case]. Qed.
(** Two names, a dynamic outer number: y * x at (3, 5). *)
Definition xy (i : nat) : string := match i with 0%nat => "x" | _ => "y" end.
Definition at35 (i : nat) : R := match i with 0%nat => 3 | _ => 5 end.
Lemma xy_distinct : SpecS.distinct 2 xy.
Proof. intros [|[|i]] [|[|j]] Hi Hj E; try lia; discriminate. Qed.
Lemma product_sparse : SpecS.distinct 2 xy /\ evaluate_sparse 2 xy dyn1 at35 (EB Bmul (EVar 1) (EVar 0)) =
  Ok (mk 2 [Some (mks 15 [("y"%string, 3); ("x"%string, 5)]); Some (mks 5 [("x"%string, 0); ("y"%string, 1)]); Some (mks 3 [("x"%string, 1); ("y"%string, 0)])]).
Proof. split; [exact xy_distinct|]. lazy -[Rplus Rmult Rminus Ropp Rinv Rdiv IZR]. repeat f_equal; ring. Qed.
