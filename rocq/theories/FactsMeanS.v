(** Mean value forms of sparse numbers over sets: enclosures of derivatives over a box, used between two points of the box. *)
From Coq Require Import ZArith List Bool String Permutation Reals Lra Lia Psatz.
From Coquelicot Require Import Coquelicot.
From Verif Require Import Outcome Scalar Model Spec RealOps ExprSpec ProgSpec ParamSpec Expr FactsExpr FactsLayout FactsSessS MeanSpec FactsEncl FactsMean
  ModelS SpecS ParSSpec FactsS FactsSReal FactsParS.
Import ListNotations.
Open Scope R_scope.

Lemma run_ext {S} (O : Ops S) env env' e : (forall i, occurs i e -> env i = env' i) -> s_run O env e = s_run O env' e.
Proof.
  induction e as [i|s|u f IH|b f1 IH1 f2 IH2|f1 IH1 f2 IH2 f3 IH3]; cbn [s_run occurs]; intros H.
  - apply H. reflexivity.
  - reflexivity.
  - now rewrite IH.
  - rewrite IH1, IH2; auto.
  - rewrite IH1, IH2, IH3; auto.
Qed.
Lemma occurs_par {S T} (P : S -> T -> Prop) i : forall e e', expr_rel P e e' -> occurs i e' -> occurs i e.
Proof.
  induction e as [j|s|u f IH|b f1 IH1 f2 IH2|f1 IH1 f2 IH2 f3 IH3]; intros [j'|s'|u' f'|b' g1 g2|g1 g2 g3]; cbn; try tauto.
  - intros ->. auto.
  - intros (_ & H). apply IH, H.
  - intros (_ & H1 & H2) [H|H]; eauto.
  - intros (H1 & H2 & H3) [H|[H|H]]; eauto.
Qed.

(** The number computed over the reals at [p], related to the one computed over the box, whatever the orders of the tables. *)
Lemma sparse_in {T} (O' : Ops T) (mem : R -> T -> Prop) n nm e e' (box : nat -> T) r p :
  distinct n nm -> vars_below n e -> no_abs e -> arith_rel mem Rops O' -> expr_rel mem e e' ->
  s_runs O' (fun i => s_variable O' (nm i) (box i)) e' r -> (forall i, (i < n)%nat -> mem (p i) (box i)) -> dom e p ->
  exists x, sparse_rel mem x r /\ keys_ok x /\ s_f x = rev e p /\
    (forall k, In k (names x) <-> exists i, occurs i e /\ k = nm i) /\
    forall u, dirder (rev e) u p (gdot n (fun i => gd x (nm i)) u).
Proof.
  intros D HV NA A He E Hp HD.
  set (x0 := s_run Rops (fun i => s_variable Rops (nm i) (p i)) e). set (r0 := s_run O' (fun i => s_variable O' (nm i) (box i)) e').
  assert (R0 : sparse_rel mem x0 r0).
  { unfold x0, r0.
    rewrite (run_ext Rops _ (fun i => if Nat.ltb i n then s_variable Rops (nm i) (p i) else s_constant 0)).
    2:{ intros i Hi. apply (vars_occurs _ _ _ HV) in Hi. apply Nat.ltb_lt in Hi. now rewrite Hi. }
    rewrite (run_ext O' _ (fun i => if Nat.ltb i n then s_variable O' (nm i) (box i) else s_constant (o_Z O' 0%Z))).
    2:{ intros i Hi. apply (occurs_par _ _ _ _ He) in Hi. apply (vars_occurs _ _ _ HV) in Hi. apply Nat.ltb_lt in Hi. now rewrite Hi. }
    apply run_par; auto. intros i. destruct (Nat.ltb_spec i n) as [Hi|Hi].
    - apply var_par; auto.
    - apply const_par. exact (ar_Z _ _ _ A 0%Z). }
  destruct (sparse_exact n nm e p D HV HD) as (Ef & _ & EN & ND & _ & ED). fold x0 in Ef, EN, ND, ED.
  assert (K : forall i, keys_ok (s_variable O' (nm i) (box i))) by (intros i; apply keys_ok_var).
  pose proof (runs_unique O' _ _ _ _ K (fun i => reorders_refl _) (run_runs O' _ e') _ E) as RO. fold r0 in RO.
  assert (R0' : sparse_rel (fun t s => mem s t) r0 x0).
  { destruct R0 as (H & Ht). split; [exact H|]. clear -Ht. induction Ht as [|a b t t' (H1 & H2) _ IH]; constructor; [|exact IH]. split; [symmetry; exact H1|exact H2]. }
  destruct (reorders_par _ _ _ _ R0' RO) as (x & Rx & Sx). exists x.
  assert (Kx : keys_ok x0) by exact ND. destruct (reorders_reads Rops _ _ Kx Rx) as (Rf & _ & Rd).
  refine (conj _ (conj _ (conj _ (conj _ _)))).
  - destruct Sx as (H & Ht). split; [exact H|]. clear -Ht. induction Ht as [|a b t t' (H1 & H2) _ IH]; constructor; [|exact IH]. split; [symmetry; exact H1|exact H2].
  - eapply reorders_keys; eassumption.
  - unfold s_get_f in *. congruence.
  - intros k. rewrite <- EN. destruct Rx as (_ & Pm). unfold names. split; apply Permutation_in, Permutation_map; [symmetry|]; exact Pm.
  - intros u. unfold gdot. rewrite (rsum_ext n _ (fun i => gd x0 (nm i) * u i)); [apply ED|]. intros i _. cbn beta. now rewrite Rd.
Qed.

Section Box.
  Context {T : Type} (O' : Ops T) (mem : R -> T -> Prop) (n : nat) (nm : nat -> string) (e : expr R) (e' : expr T) (box : nat -> T) (r : ss T).
  Hypothesis D : distinct n nm.
  Hypothesis HV : vars_below n e.
  Hypothesis NA : no_abs e.
  Hypothesis A : arith_rel mem Rops O'.
  Hypothesis He : expr_rel mem e e'.
  Hypothesis CV : convex_sets mem.
  Hypothesis E : s_runs O' (fun i => s_variable O' (nm i) (box i)) e' r.
  Hypothesis DD : forall q, (forall i, (i < n)%nat -> mem (q i) (box i)) -> dom e q.

  Lemma s_mean p q : (forall i, (i < n)%nat -> mem (p i) (box i)) -> (forall i, (i < n)%nat -> mem (q i) (box i)) ->
    exists x, sparse_rel mem x r /\ keys_ok x /\ (forall k, In k (names x) <-> exists i, occurs i e /\ k = nm i) /\
      rev e q = rev e p + gdot n (fun i => gd x (nm i)) (step p q).
  Proof.
    intros Hp Hq. set (v := step p q). set (phi := fun t => rev e (along p v t)).
    assert (IN : forall t, 0 <= t <= 1 -> forall i, (i < n)%nat -> mem (along p v t i) (box i)).
    { intros t Ht i Hi. unfold along, v, step. destruct (Rle_dec (p i) (q i)).
      - apply (CV (p i) (q i)); auto. nra.
      - apply (CV (q i) (p i)); auto. nra. }
    assert (DE : forall t, 0 <= t <= 1 -> exists x, (sparse_rel mem x r /\ keys_ok x /\ (forall k, In k (names x) <-> exists i, occurs i e /\ k = nm i)) /\
      is_derive phi t (gdot n (fun i => gd x (nm i)) v)).
    { intros t Ht. destruct (sparse_in O' mem n nm e e' box r _ D HV NA A He E (IN t Ht) (DD _ (IN t Ht))) as (x & S & K & _ & N & H1).
      exists x. split; [auto|]. apply dirder_line, H1. }
    destruct (MVT_gen phi 0 1 (Derive phi)) as (t & Ht & Et).
    - rewrite Rmin_left, Rmax_right by lra. intros t Ht. destruct (DE t ltac:(lra)) as (x & _ & Hd).
      apply Derive_correct. eexists; exact Hd.
    - rewrite Rmin_left, Rmax_right by lra. intros t Ht. destruct (DE t ltac:(lra)) as (x & _ & Hd).
      apply continuity_pt_filterlim. apply @ex_derive_continuous. eexists; exact Hd.
    - rewrite Rmin_left, Rmax_right in Ht by lra. destruct (DE t Ht) as (x & (S & K & N) & Hd). exists x.
      refine (conj S (conj K (conj N _))).
      rewrite (is_derive_unique _ _ _ Hd) in Et. unfold phi in Et. unfold v in Et. rewrite along_0, along_1 in Et.
      fold v in Et. fold v. lra.
  Qed.

  Lemma s_mean_value p q : (forall i, (i < n)%nat -> mem (p i) (box i)) -> (forall i, (i < n)%nat -> mem (q i) (box i)) ->
    exists g, (forall i, (i < n)%nat -> mem (g i) (s_get_d O' r (nm i))) /\ (forall i, (i < n)%nat -> ~ occurs i e -> g i = 0) /\
      rev e q = rev e p + gdot n g (step p q).
  Proof.
    intros Hp Hq. destruct (s_mean p q Hp Hq) as (x & S & K & N & Eq). exists (fun i => gd x (nm i)). refine (conj _ (conj _ Eq)).
    - intros i _. exact (get_d_par mem Rops O' A _ _ _ S).
    - intros i Hi NO. apply (absent_zero Rops). intros Hk. apply N in Hk. destruct Hk as (j & Hj & Ek).
      apply NO. replace i with j; [exact Hj|]. symmetry. apply D; auto. eapply vars_occurs; eassumption.
  Qed.

  Lemma s_monotone i : (i < n)%nat -> (forall g, mem g (s_get_d O' r (nm i)) -> 0 < g) ->
    forall p q, (forall k, (k < n)%nat -> mem (p k) (box k)) -> (forall k, (k < n)%nat -> mem (q k) (box k)) ->
      (forall k, (k < n)%nat -> k <> i -> p k = q k) -> p i < q i -> rev e p < rev e q.
  Proof.
    intros Hi Pos p q Hp Hq Hk Hlt. destruct (s_mean_value p q Hp Hq) as (g & Hg & _ & Eq). rewrite (gdot_single n g _ i Hi) in Eq.
    - pose proof (Pos _ (Hg i Hi)). unfold step in Eq. assert (0 < g i * (q i - p i)) by (apply Rmult_lt_0_compat; lra). lra.
    - intros k Hkn Hki. unfold step. rewrite (Hk k Hkn Hki). ring.
  Qed.
End Box.

(** ** [eval] *)
Lemma s_eval_rel {T} (O' : Ops T) (mem : R -> T -> Prop) x r d d' : arith_rel mem Rops O' -> sparse_rel mem x r ->
  (forall k, In k (names x) -> exists v w, t_find d k = Some v /\ t_find d' k = Some w /\ mem v w) ->
  res_rel mem (s_eval Rops true x d) (s_eval O' true r d').
Proof.
  intros A (_ & Hx). unfold s_eval, names. assert (Z : res_rel mem (Ok (o_Z Rops 0)) (Ok (o_Z O' 0))) by (cbn; apply (ar_Z _ _ _ A 0%Z)). revert Z.
  generalize (Ok (o_Z Rops 0)) (Ok (o_Z O' 0)). induction Hx as [|(k1, v) (k2, w) t t' (E & H) Ht IH]; cbn [fold_left map]; intros y y' Hy Hk; [exact Hy|].
  cbn in E, H. subst k2. apply IH; [|intros; apply Hk; right; assumption]. destruct y, y'; cbn in Hy |- *; try contradiction; auto.
  destruct (Hk k1 (or_introl eq_refl)) as (va & vb & -> & -> & Hab). cbn.
  apply (ar_add _ _ _ A); [exact Hy|]. apply (ar_mul _ _ _ A); assumption.
Qed.
Lemma find_seq n nm (w : nat -> R) i : distinct n nm -> (i < n)%nat ->
  t_find (map (fun j => (nm j, w j)) (seq 0 n)) (nm i) = Some (w i).
Proof.
  intros D Hi. assert (H : forall m k, (k + m <= n)%nat -> (k <= i < k + m)%nat -> t_find (map (fun j => (nm j, w j)) (seq k m)) (nm i) = Some (w i)).
  { induction m as [|m IH]; intros k Hk Hik; [lia|]. cbn [seq map t_find]. destruct (String.eqb_spec (nm k) (nm i)) as [Ek|Ek].
    - apply D in Ek; [|lia|lia]. now subst k.
    - apply IH; [lia|]. destruct (Nat.eq_dec k i); [subst; congruence|lia]. }
  apply H; lia.
Qed.
Lemma s_centred {T} (O' : Ops T) (mem : R -> T -> Prop) n nm e e' mid box r0 r p q d :
  distinct n nm -> vars_below n e -> no_abs e -> arith_rel mem Rops O' -> expr_rel mem e e' -> convex_sets mem ->
  (forall q, (forall i, (i < n)%nat -> mem (q i) (box i)) -> dom e q) ->
  s_runs O' (fun i => s_variable O' (nm i) (mid i)) e' r0 -> s_runs O' (fun i => s_variable O' (nm i) (box i)) e' r ->
  (forall i, (i < n)%nat -> mem (p i) (mid i)) -> (forall i, (i < n)%nat -> mem (p i) (box i)) -> (forall i, (i < n)%nat -> mem (q i) (box i)) ->
  (forall i, occurs i e -> exists v, t_find d (nm i) = Some v /\ mem (step p q i) v) ->
  exists y, s_eval O' true r d = Ok y /\ mem (rev e q - rev e p) y /\ mem (rev e q) (o_add O' (s_get_f r0) y).
Proof.
  intros D HV NA A He CV DD E0 E Hm Hp Hq Hd.
  destruct (sparse_in O' mem n nm e e' mid r0 p D HV NA A He E0 Hm (DD p Hp)) as (x0 & (S0 & _) & _ & F0 & _).
  destruct (s_mean O' mem n nm e e' box r D HV NA A He CV E DD p q Hp Hq) as (x & S & K & N & Eq).
  set (dR := map (fun j => (nm j, step p q j)) (seq 0 n)).
  assert (RR : res_rel mem (s_eval Rops true x dR) (s_eval O' true r d)).
  { apply s_eval_rel; [exact A|exact S|]. intros k Hk. apply N in Hk. destruct Hk as (i & Hi & ->). destruct (Hd i Hi) as (v & Ev & Mv).
    exists (step p q i), v. split; [|auto]. apply find_seq; [exact D|]. eapply vars_occurs; eassumption. }
  rewrite eval_linear in RR by exact K. rewrite (names_sum n nm x (incr dR) K D) in RR.
  2:{ intros k Hk. apply N in Hk. destruct Hk as (i & Hi & ->). apply in_map, in_seq. apply (vars_occurs _ _ _ HV) in Hi. lia. }
  rewrite (rsum_ext n _ (fun i => gd x (nm i) * step p q i)) in RR.
  2:{ intros i Hi. rewrite incr_find. unfold dR. now rewrite (find_seq n nm (step p q) i D Hi). }
  fold (gdot n (fun i => gd x (nm i)) (step p q)) in RR.
  destruct (s_eval O' true r d) as [y| | |]; try contradiction RR. exists y. split; [reflexivity|]. cbn in RR. split.
  - rewrite Eq. match goal with |- mem ?z _ => replace z with (gdot n (fun i => gd x (nm i)) (step p q)) by ring end. exact RR.
  - rewrite Eq. apply (ar_add _ _ _ A); [|exact RR]. rewrite <- F0. exact S0.
Qed.

(** ** Systems *)
Lemma s_pick {T} (O' : Ops T) (mem : R -> T -> Prop) n nm box es es' rs p q :
  distinct n nm -> arith_rel mem Rops O' -> convex_sets mem -> Forall2 (expr_rel mem) es es' ->
  (forall e, In e es -> vars_below n e /\ no_abs e /\ forall q, (forall i, (i < n)%nat -> mem (q i) (box i)) -> dom e q) ->
  Forall2 (s_runs O' (fun i => s_variable O' (nm i) (box i))) es' rs ->
  (forall i, (i < n)%nat -> mem (p i) (box i)) -> (forall i, (i < n)%nat -> mem (q i) (box i)) ->
  exists M : nat -> nat -> R, forall k e r, nth_error es k = Some e -> nth_error rs k = Some r ->
    (forall i, (i < n)%nat -> mem (M k i) (s_get_d O' r (nm i))) /\ (forall i, (i < n)%nat -> ~ occurs i e -> M k i = 0) /\
    rev e q = rev e p + gdot n (M k) (step p q).
Proof.
  intros D A CV Hes. revert rs. induction Hes as [|e e' es es' Ee Hes IH]; intros rs Hin Hrs Hp Hq.
  - exists (fun _ _ => 0). intros [|k] e r H; discriminate H.
  - inversion Hrs as [|? r ? rs' Er Hrs']; subst.
    destruct (IH rs') as (M & HM); auto; [intros; apply Hin; right; assumption|].
    destruct (Hin e (or_introl eq_refl)) as (V & NA & DD).
    destruct (s_mean_value O' mem n nm e e' box r D V NA A Ee CV Er DD p q Hp Hq) as (g & Hg & Hz & Eq).
    exists (fun k => match k with O => g | Datatypes.S k => M k end). intros [|k] f s H1 H2; cbn in H1, H2.
    + injection H1 as <-. injection H2 as <-. auto.
    + exact (HM k f s H1 H2).
Qed.
Lemma s_injectivity {T} (O' : Ops T) (mem : R -> T -> Prop) n nm box es es' rs :
  distinct n nm -> arith_rel mem Rops O' -> convex_sets mem -> Forall2 (expr_rel mem) es es' ->
  (forall e, In e es -> vars_below n e /\ no_abs e /\ forall q, (forall i, (i < n)%nat -> mem (q i) (box i)) -> dom e q) ->
  Forall2 (s_runs O' (fun i => s_variable O' (nm i) (box i))) es' rs ->
  (forall M : nat -> nat -> R,
     (forall k e r i, nth_error es k = Some e -> nth_error rs k = Some r -> (i < n)%nat ->
        mem (M k i) (s_get_d O' r (nm i)) /\ (~ occurs i e -> M k i = 0)) ->
     forall v, (forall k, (k < List.length es)%nat -> gdot n (M k) v = 0) -> forall i, (i < n)%nat -> v i = 0) ->
  forall p q, (forall i, (i < n)%nat -> mem (p i) (box i)) -> (forall i, (i < n)%nat -> mem (q i) (box i)) ->
    (forall e, In e es -> rev e p = rev e q) -> forall i, (i < n)%nat -> p i = q i.
Proof.
  intros D A CV Hes Hin Hrs NK p q Hp Hq Heq.
  destruct (s_pick O' mem n nm box es es' rs p q D A CV Hes Hin Hrs Hp Hq) as (M & HM).
  assert (LL : List.length rs = List.length es).
  { clear -Hes Hrs. revert rs Hrs. induction Hes; intros rs Hrs; inversion Hrs; subst; cbn; [reflexivity|]. f_equal. auto. }
  intros i Hi. enough (step p q i = 0) by (unfold step in *; lra). apply (NK M); [| |exact Hi].
  - intros k e r j Ek Er Hj. destruct (HM k e r Ek Er) as (H & Hz & _). auto.
  - intros k Hl. destruct (nth_error es k) as [e|] eqn:Ek; [|apply nth_error_None in Ek; lia].
    destruct (nth_error rs k) as [r|] eqn:Er; [|apply nth_error_None in Er; lia].
    destruct (HM k e r Ek Er) as (_ & _ & H). pose proof (Heq e (nth_error_In _ _ Ek)). lra.
Qed.

(** ** Newton step for one variable *)
Lemma s_newton {T} (O' : Ops T) (mem : R -> T -> Prop) k e e' X M r0 r :
  vars_below 1 e -> no_abs e -> arith_rel mem Rops O' -> expr_rel mem e e' -> convex_sets mem ->
  (forall x, mem x X -> dom e (fun _ => x)) ->
  s_runs O' (fun _ => s_variable O' k M) e' r0 -> s_runs O' (fun _ => s_variable O' k X) e' r ->
  ~ mem 0 (s_get_d O' r k) -> forall m, mem m M -> mem m X ->
    let N := o_sub O' M (o_div O' (s_get_f r0) (s_get_d O' r k)) in
    (forall x, mem x X -> rev e (fun _ => x) = 0 -> mem x N) /\
    (forall x y, mem x X -> mem y X -> rev e (fun _ => x) = 0 -> rev e (fun _ => y) = 0 -> x = y) /\
    (forall a b, (forall x, a <= x <= b -> mem x X) -> a <= m <= b -> (forall x, mem x N -> a <= x <= b) ->
      exists x, a <= x <= b /\ rev e (fun _ => x) = 0).
Proof.
  intros HV NA A He CV DX E0 E NZ m HmM HmX N. set (G := s_get_d O' r k) in *.
  assert (D : distinct 1 (fun _ => k)) by (intros i j Hi Hj _; lia).
  assert (DD : forall q : nat -> R, (forall i, (i < 1)%nat -> mem (q i) X) -> dom e q).
  { intros q Hq. specialize (Hq 0%nat ltac:(lia)). apply DX in Hq. revert Hq. clear - HV.
    assert (XX : forall e', vars_below 1 e' -> rev e' (fun _ => q 0%nat) = rev e' q).
    { intros e' V. apply (rev_below 1); [exact V|]. intros i Hi. now replace i with 0%nat by lia. }
    induction e as [i|s|u f IH|b f1 IH1 f2 IH2|f1 IH1 f2 IH2 f3 IH3]; cbn [dom vars_below] in *; auto.
    - rewrite XX by exact HV. intuition.
    - destruct HV. rewrite !XX by assumption. intuition.
    - destruct HV as (? & ? & ?). rewrite !XX by assumption. intuition. }
  set (f := fun x => rev e (fun _ => x)).
  assert (MF : mem (f m) (s_get_f r0)).
  { destruct (sparse_in O' mem 1 (fun _ => k) e e' (fun _ => M) r0 (fun _ => m) D HV NA A He E0 ltac:(auto) (DX m HmX)) as (x0 & (S0 & _) & _ & F0 & _).
    unfold f, s_get_f. rewrite <- F0. exact S0. }
  assert (MV1 : forall x y, mem x X -> mem y X -> exists g, mem g G /\ f y = f x + g * (y - x)).
  { intros x y Hx Hy. destruct (s_mean_value O' mem 1 (fun _ => k) e e' (fun _ => X) r D HV NA A He CV E DD (fun _ => x) (fun _ => y)) as (g & Hg & _ & Eq); auto.
    exists (g 0%nat). split; [apply Hg; lia|]. unfold f. rewrite Eq. unfold gdot, step. cbn. ring. }
  assert (NG : forall g, mem g G -> g <> 0) by (intros g Hg ->; exact (NZ Hg)).
  assert (MN : forall g, mem g G -> mem (m - f m / g) N).
  { intros g Hg. apply (ar_sub _ _ _ A); [exact HmM|]. apply (ar_div _ _ _ A); assumption. }
  split; [|split].
  - intros x Hx H0. fold (f x) in H0. destruct (MV1 m x HmX Hx) as (g & Hg & Eq).
    replace x with (m - f m / g); [apply MN, Hg|]. pose proof (NG g Hg). rewrite H0 in Eq.
    apply (Rmult_eq_reg_r g); [|assumption]. field_simplify; [|assumption]. lra.
  - intros x y Hx Hy H0 H1. fold (f x) in H0. fold (f y) in H1. destruct (MV1 x y Hx Hy) as (g & Hg & Eq).
    rewrite H0, H1 in Eq. pose proof (NG g Hg) as Hne. assert (g * (y - x) = 0) as Z0 by lra.
    apply Rmult_integral in Z0. destruct Z0 as [Z0|Z0]; [contradiction|lra].
  - intros a b HX Hm HN. destruct (MV1 m a HmX (HX a ltac:(lra))) as (g1 & Hg1 & E1).
    destruct (MV1 m b HmX (HX b ltac:(lra))) as (g2 & Hg2 & E2).
    pose proof (NG g1 Hg1) as N1. pose proof (NG g2 Hg2) as N2.
    destruct (HN _ (MN g1 Hg1)) as [B1 _]. destruct (HN _ (MN g2 Hg2)) as [_ B2].
    assert (Q1 : f a / g1 <= 0). { rewrite E1. replace ((f m + g1 * (a - m)) / g1) with (f m / g1 + (a - m)) by (field; exact N1). lra. }
    assert (Q2 : 0 <= f b / g2). { rewrite E2. replace ((f m + g2 * (b - m)) / g2) with (f m / g2 + (b - m)) by (field; exact N2). lra. }
    assert (SG : 0 < g1 * g2).
    { destruct (Rtotal_order g1 0) as [S1|[S1|S1]]; [|contradiction|]; destruct (Rtotal_order g2 0) as [S2|[S2|S2]]; try contradiction.
      - nra. - exfalso. apply NZ. apply (CV g1 g2); auto. lra. - exfalso. apply NZ. apply (CV g2 g1); auto. lra. - nra. }
    assert (PR : f a * f b <= 0).
    { replace (f a * f b) with ((f a / g1) * (f b / g2) * (g1 * g2)) by (field; auto).
      assert (f a / g1 * (f b / g2) <= 0) by nra. nra. }
    assert (CT : forall x, a <= x <= b -> continuity_pt f x).
    { intros x Hx. assert (Hx' : forall i, (i < 1)%nat -> mem x X) by auto.
      destruct (sparse_in O' mem 1 (fun _ => k) e e' (fun _ => X) r (fun _ => x) D HV NA A He E Hx' (DX _ (HX x Hx))) as (x0 & _ & _ & _ & _ & H1).
      specialize (H1 (fun _ => 1)). apply continuity_pt_filterlim. apply @ex_derive_continuous. eexists.
      apply shift_derive. eapply is_derive_ext; [|exact H1]. intros s. cbn beta. unfold f. apply rev_ext. intros i. unfold along. ring. }
    destruct (Req_dec (f a) 0) as [Za|Za]; [exists a; split; [lra|exact Za]|].
    destruct (Req_dec (f b) 0) as [Zb|Zb]; [exists b; split; [lra|exact Zb]|].
    assert (AB : a < b).
    { destruct (Rle_lt_or_eq_dec a b ltac:(lra)) as [?|EE]; [assumption|]. subst b. exfalso. assert (0 < f a * f a) by nra. lra. }
    destruct (Rlt_le_dec (f a) 0) as [Sa|Sa].
    + assert (Sb : 0 < f b) by nra.
      destruct (Ranalysis5.IVT_interv f a b) as (x & Hx & H0); auto. exists x. auto.
    + assert (Sb : f b < 0) by nra.
      destruct (Ranalysis5.IVT_interv (fun x => - f x) a b) as (x & Hx & H0); [|lra|lra|lra|].
      * intros x Hx. apply continuity_pt_opp, CT, Hx.
      * exists x. split; [exact Hx|]. unfold f in *. lra.
Qed.
