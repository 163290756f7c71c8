(** C118: dense variables and named parameters. *)
From Coq Require Import ZArith List Bool Reals Lra Lia String.
From Coquelicot Require Import Coquelicot.
From Verif Require Import Outcome Scalar Model Spec Core Kernels OpsRep AccRep RealOps Deriv UDeriv BDeriv
  FactsLayout FactsOps FactsCtor ModelS FactsS FactsSReal ProgSpec Prog ExprSpec Expr Struct FactsExpr Chain FactsReal Cont NumSpec FactsNum ParamSpec FactsErr FactsSessS Samples NestSpec FactsNest NestTSpec FactsNestT NestPSpec.
From Verif Require SpecS.
Import ListNotations.
Open Scope R_scope.

Lemma jev_cong {S} (O : Ops S) ord n env env' m (e : expr S) : vars_below m e ->
  (forall i, (i < m)%nat -> jeq ord n (env i) (env' i)) -> jeq ord n (jev O env e) (jev O env' e).
Proof.
  intros HV HE. induction e as [i|s|u e IH|b e1 IH1 e2 IH2|e1 IH1 e2 IH2 e3 IH3]; cbn [vars_below jev] in *.
  - apply HE, HV.
  - apply jeq_refl.
  - apply jap_u_cong, IH, HV.
  - apply jap_b_cong; [apply IH1|apply IH2]; tauto.
  - apply jap_h_cong; [apply IH1|apply IH2|apply IH3]; tauto.
Qed.
Lemma constants_rep nm c p n : size_ok c n -> forall is, exists xs, constants nm c p n is = Ok xs /\ List.length xs = List.length is /\
  forall k i, nth_error is k = Some i -> exists x, nth_error xs k = Some x /\ rep c n (jconst (sops Rops) (s_variable Rops (nm i) (p i))) x.
Proof.
  intros SO. induction is as [|i is IH]; cbn [constants].
  - exists []. split; [reflexivity|]. split; [reflexivity|]. intros [|k] i; discriminate.
  - destruct (constant_n_rep (sops Rops) c n (s_variable Rops (nm i) (p i)) SO) as (x & E & HR). rewrite E. cbn [bind].
    destruct IH as (xs & E' & L & H). rewrite E'. cbn [bind]. exists (x :: xs). split; [reflexivity|]. split; [cbn; congruence|].
    intros [|k] j Hj; cbn in Hj; [inversion Hj; subst; exists x; auto|exact (H k j Hj)].
Qed.
Lemma sensitivities n k nm p : SpecS.distinct (n + k) nm ->
  forall c e, cfg_ok c -> size_ok c n -> vars_below (n + k) e -> no_abs e -> smooth 2 e p ->
  exists r, evaluate_params n k nm c p e = Ok r /\ sensitive n k nm c p (rev e) r.
Proof.
  intros HD c e Hc SO HV NA D. unfold evaluate_params.
  set (sv := fun i => s_variable Rops (nm i) (p i)). set (vs := map sv (seq 0 n)).
  assert (L : List.length vs = n) by (unfold vs; rewrite map_length, seq_length; reflexivity).
  destruct (variables_rep (sops Rops) c vs) as (xs & E & LX & HX); [rewrite L; exact SO|]. rewrite L in *. rewrite E. cbn [bind].
  destruct (constants_rep nm c p n SO (seq n k)) as (ks & E' & LK & HK). rewrite E'. cbn [bind]. rewrite seq_length in LK.
  set (env := fun i => if (i <? n)%nat then jvar (sops Rops) i (sv i) else jconst (sops Rops) (sv i)).
  destruct (run_rep (sops Rops) c n (xs ++ ks) env (emap s_ctor_f e) Hc SO) as (r & ER & HR).
  { rewrite app_length, LX, LK. apply emap_below, HV. }
  { intros i x Hx. unfold env. destruct (Nat.ltb_spec i n) as [Hi|Hi].
    - rewrite nth_error_app1 in Hx by lia.
      assert (HS : nth_error vs i = Some (sv i)).
      { unfold vs. rewrite nth_error_map, (nth_error_nth' _ 0%nat), seq_nth by (rewrite ?seq_length; lia). reflexivity. }
      destruct (HX i _ HS) as (x' & Ex & Rx). rewrite Ex in Hx. injection Hx as <-. exact Rx.
    - rewrite nth_error_app2 in Hx by lia. rewrite LX in Hx.
      assert (Hk : (i - n < k)%nat) by (rewrite <- LK; apply nth_error_Some; congruence).
      destruct (HK (i - n)%nat i) as (x' & Ex & Rx); [|rewrite Ex in Hx; injection Hx as <-; exact Rx].
      rewrite (nth_error_nth' _ 0%nat), seq_nth by (rewrite ?seq_length; lia). f_equal. lia. }
  exists r. split; [exact ER|].
  set (K := jev (sops Rops) (fun i => jvar (sops Rops) i (sv i)) (emap s_ctor_f e)).
  assert (HR' : rep c n K r).
  { eapply rep_jeq; [|exact HR]. apply (jev_cong _ _ _ _ _ (n + k)); [apply emap_below, HV|].
    intros i _. unfold env. destruct (Nat.ltb_spec i n) as [Hi|Hi]; [apply jeq_refl|].
    split; [reflexivity|]. split; [|reflexivity]. intros j Hj. cbn. destruct (Nat.eqb_spec j i); [lia|reflexivity]. }
  assert (HJ : jrel (leaf (n + k) nm p) (c_ord c) (n + k) (xjet e) K).
  { apply (jrel_ev _ _ (simu_leaf (n + k) nm p) _ _ (n + k)); [exact HV|exact NA| |].
    - unfold erel. clear. induction e as [| |u e IH| |]; cbn; auto using leaf_lit. split; [|exact IH]. destruct u; cbn; auto using leaf_lit.
    - intros i Hi. apply leaf_var; assumption. }
  clearbody K.
  destruct (xjet_plain (n + k) e (conj HV NA)) as (PL0 & PL1 & PL2).
  pose proof (xjet_smooth 1 p e NA D) as (S0 & S1 & S2).
  pose proof (near_smooth (n + k) 1 e p HV D) as HN.
  assert (HP : near (n + k) p (fun q => (forall i, (i < n + k)%nat -> partial (rev e) i q (rev (jg (xjet e) i) q)))).
  { revert HN. apply near_imp. intros q Dq i Hi. destruct (point_derivs (n + k) e q HV (smooth_dom _ _ _ Dq)) as (_ & P1 & _).
    rewrite (proj1 (proj2 (xjet_rev e q NA))). apply P1, Hi. }
  exists (jf K), (jg K), (hess K), (fun i => rev (jg (xjet e) i)), (fun i j => rev (hess (xjet e) i j)).
  destruct HJ as (J0 & J1 & J2).
  split; [apply rep_shows; assumption|]. split; [|split].
  - apply (sparse_ext _ nm p (rev (jf (xjet e)))); [|exact (leaf_sparse _ nm p _ _ _ PL0 S0 J0)].
    revert HN. apply near_imp. intros q Dq. rewrite (proj1 (xjet_rev e q NA)). apply jev_f; [reflexivity|]. eapply smooth_dom, Dq.
  - intros i Hi. assert (Hi' : (i < n + k)%nat) by lia. split; [revert HP; apply near_imp; auto|]. exact (leaf_sparse _ nm p _ _ _ (PL1 i) (S1 i) (J1 i Hi')).
  - intros Ho i j Hi Hj. assert (Hi' : (i < n + k)%nat) by lia. assert (Hj' : (j < n + k)%nat) by lia. split.
    + generalize (near_and _ _ _ _ (near_near _ _ _ HP) HN). apply near_imp. intros q (HQ & Dq).
      destruct (point_derivs (n + k) e q HV (smooth_dom _ _ _ Dq)) as (_ & _ & P2).
      destruct (P2 i j Hi' Hj') as (D' & HL & HD'). rewrite (proj2 (proj2 (xjet_rev e q NA))).
      unfold partial. eapply is_derive_ext_loc; [|exact HD'].
      generalize (filter_and _ _ HL (near_line (n + k) q i _ HQ)). apply filter_imp. intros s (A & B).
      specialize (B j Hj'). unfold partial in A, B. apply is_derive_unique in A. apply is_derive_unique in B. congruence.
    + refine (leaf_sparse _ nm p 0 _ _ (PL2 i j) (S2 _ _) _). unfold hess. apply J2; [rewrite Ho; discriminate|]. lia.
Qed.
(** a x x with one dense variable x = 3 and the parameter a = 5. *)
Definition xa (i : nat) : string := match i with 0%nat => "x" | _ => "a" end.
Lemma xa_distinct : SpecS.distinct (1 + 1) xa.
Proof. intros [|[|i]] [|[|j]] Hi Hj E; try lia; discriminate. Qed.
Lemma parabola : SpecS.distinct (1 + 1) xa /\ evaluate_params 1 1 xa (sta2 1) at35 (EB Bmul (EVar 1) (EB Bmul (EVar 0) (EVar 0))) =
  Ok (mk 1 [Some (mks 45 [("a"%string, 9); ("x"%string, 30)]); Some (mks 30 [("x"%string, 10); ("a"%string, 6)]);
            Some (mks 10 [("x"%string, 0); ("a"%string, 2)])]).
Proof. split; [exact xa_distinct|]. lazy -[Rplus Rmult Rminus Ropp Rinv Rdiv IZR]. repeat f_equal; ring. Qed.
