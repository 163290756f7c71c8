(** Facts about sparse numbers in exact arithmetic when several variables become one. *)
From Coq Require Import ZArith List Bool String Permutation Reals Lra Lia.
From Coquelicot Require Import Coquelicot.
From Verif Require Import Outcome Scalar Model Spec RealOps Deriv UDeriv ExprSpec ProgSpec ModelS ModelObj ModelObjS SpecS FactsS FactsSReal RenSpec.
Import ListNotations.
Open Scope R_scope.

(** Values and coefficients of the functions in exact arithmetic. *)
Lemma lin_u (u : ufun R) f : exists f' a, forall d, s_f (s_apply_u Rops u (mks f d)) = f' /\
  forall k, gd (s_apply_u Rops u (mks f d)) k = gd (mks f d) k * a.
Proof.
  assert (GM : forall f' F a, (forall v, F v = v * a) -> exists f'' b, forall d, s_f (mks f' (t_map F d)) = f'' /\
    forall k, gd (mks f' (t_map F d)) k = gd (mks f d) k * b).
  { intros f' F a HF. exists f', a. intros d. split; [reflexivity|]. intros k. rewrite gd_map by (rewrite HF; ring). rewrite HF, (gd_f f' f). reflexivity. }
  assert (ID : forall f', exists f'' b, forall d, s_f (mks f' d) = f'' /\ forall k, gd (mks f' d) k = gd (mks f d) k * b).
  { intros f'. exists f', 1. intros d. split; [reflexivity|]. intros k. rewrite (gd_f f' f). ring. }
  destruct u; cbn [s_apply_u];
    unfold s_unary_op, sk_pow, sk_sqrt, sk_cbrt, sk_reciprocal, sk_cos, sk_sin, sk_tan, sk_acos, sk_asin, sk_atan,
      sk_cosh, sk_sinh, sk_tanh, sk_acosh, sk_asinh, sk_atanh, sk_exp, sk_log, sk_logb, sk_log2, sk_log10,
      s_abs, s_divs, s_smul, s_muls, s_subs, s_sadd, s_adds, s_ssub, s_neg, s_sdiv, s_unary; cbn [s_f s_d];
    try destruct (o_lt Rops f (o_Z Rops 0));
    first [ apply ID
          | refine (GM _ _ (-1) _); intros v; rcbn; ring
          | refine (GM _ _ _ _); intros v; rcbn; reflexivity ].
Qed.
Lemma lin_b b f f' : exists f'' a a', forall d d', NoDup (keys d') ->
  s_f (s_apply_b Rops b (mks f d) (mks f' d')) = f'' /\
  forall k, gd (s_apply_b Rops b (mks f d) (mks f' d')) k = gd (mks f d) k * a + gd (mks f' d') k * a'.
Proof.
  destruct (sk_b Rops b f f') as ((f'', da), db) eqn:E. exists f'', da, db. intros d d' H. rewrite binary_shape. cbn [s_f s_d]. rewrite E.
  split; [reflexivity|]. intros k. rewrite gd_binary by exact H. rewrite (gd_f f'' f d), (gd_f f'' f' d'). ring.
Qed.
Lemma lin_h f f' f'' : exists f3 a a' a'', forall d d' d'', NoDup (keys d') -> NoDup (keys d'') ->
  s_f (s_hypot3 Rops (mks f d) (mks f' d') (mks f'' d'')) = f3 /\
  forall k, gd (s_hypot3 Rops (mks f d) (mks f' d') (mks f'' d'')) k = gd (mks f d) k * a + gd (mks f' d') k * a' + gd (mks f'' d'') k * a''.
Proof.
  unfold s_hypot3. cbn [s_f s_d]. set (v := o_hypot3 Rops f f' f''). exists v, (o_div Rops f v), (o_div Rops f' v), (o_div Rops f'' v).
  intros d d' d'' H H'. split; [reflexivity|]. intros k. rewrite gd_ternary by assumption.
  rewrite (gd_f v f d), (gd_f v f' d'), (gd_f v f'' d''). ring.
Qed.
Lemma lin_assign o f f' : exists f'' a a', forall d d', NoDup (keys d') ->
  s_f (s_assign Rops o (mks f d) (Some (mks f' d'))) = f'' /\
  forall k, gd (s_assign Rops o (mks f d) (Some (mks f' d'))) k = gd (mks f d) k * a + gd (mks f' d') k * a'.
Proof.
  destruct o; cbn [s_assign]; unfold s_add_assign, s_sub_assign, s_mul_assign, s_div_assign; cbv zeta; cbn [s_f s_d].
  - eexists _, 1, 1. intros d d' H. split; [reflexivity|]. intros k. rewrite gd_merge; [|exact H|intros; rcbn; ring]. rcbn.
    rewrite (gd_f _ f d), (gd_f _ f' d'). ring.
  - eexists _, 1, (-1). intros d d' H. split; [reflexivity|]. intros k. rewrite gd_merge; [|exact H|intros; rcbn; ring]. rcbn.
    rewrite (gd_f _ f d), (gd_f _ f' d'). ring.
  - eexists _, f', f. intros d d' H. split; [reflexivity|]. intros k. rewrite gd_merge; [|exact H|intros; rcbn; ring].
    rewrite gd_map by (rcbn; ring). rewrite (gd_f _ f d), (gd_f _ f' d'). rcbn. ring.
  - eexists _, (o_div Rops (o_Z Rops 1) f'), (o_div Rops (o_neg Rops f) (o_pow Rops f' (o_Z Rops 2))). intros d d' H. split; [reflexivity|]. intros k.
    rewrite gd_merge; [|exact H|intros; rcbn; ring]. rewrite gd_map by (rcbn; ring). rewrite (gd_f _ f d), (gd_f _ f' d'). rcbn. ring.
Qed.
Lemma lin_self o f : exists f'' a, forall d, NoDup (keys d) -> s_f (s_assign Rops o (mks f d) None) = f'' /\
  forall k, gd (s_assign Rops o (mks f d) None) k = gd (mks f d) k * a.
Proof.
  destruct o; cbn [s_assign]; unfold s_add_assign, s_sub_assign, s_mul_assign, s_div_assign; cbv zeta; cbn [s_f s_d].
  - eexists _, 2. intros d H. split; [reflexivity|]. intros k. rewrite merge_self by exact H. rewrite gd_map by (rcbn; ring).
    rewrite (gd_f _ f d). rcbn. ring.
  - eexists _, 0. intros d H. split; [reflexivity|]. intros k. rewrite merge_self by exact H. rewrite gd_map by (rcbn; ring).
    rewrite (gd_f _ f d). rcbn. ring.
  - eexists _, (f + f * f). intros d H. split; [reflexivity|]. intros k. rewrite merge_self by (apply nodup_map, H).
    rewrite gd_map by (rcbn; ring). rewrite gd_map by (rcbn; ring). rewrite (gd_f _ f d). rcbn. ring.
  - eexists _, (o_div Rops (o_Z Rops 1) f + o_div Rops (o_Z Rops 1) f * o_div Rops (o_neg Rops f) (o_pow Rops f (o_Z Rops 2))). intros d H. split; [reflexivity|]. intros k. rewrite merge_self by (apply nodup_map, H).
    rewrite gd_map by (rcbn; ring). rewrite gd_map by (rcbn; ring). rewrite (gd_f _ f d). rcbn. ring.
Qed.
Lemma lin_assign_s o f s : exists f'' a, forall d, NoDup (keys d) -> s_f (s_assign_s Rops o (mks f d) s) = f'' /\
  forall k, gd (s_assign_s Rops o (mks f d) s) k = gd (mks f d) k * a.
Proof.
  assert (Q : o = Asub -> forall a b : R, o_sub Rops a b = o_add Rops a (o_neg Rops b)) by (intros _ a b; rcbn; ring).
  destruct (lin_u (match o with Aadd => Uadds s | Asub => Usubs s | Amul => Umuls s | Adiv => Udivs s end) f) as (f'' & a & L).
  exists f'', a. intros d H. rewrite (scalar_inplace Rops o (mks f d) s H Q). apply L.
Qed.

Section Merge.
  Context (rho : string -> string) (L : list string).
  Notation mg := (merges rho L).
  Definition total (x : ss R) (k : string) : R := lsum (map (gd x) (filter (fun k' => String.eqb (rho k') k) L)).
  Lemma total1 x z a k : (forall k, gd z k = gd x k * a) -> total z k = total x k * a.
  Proof. intros H. unfold total. induction (filter _ L) as [|k' l IH]; cbn; [ring|]. rewrite H. unfold lsum in IH. rewrite IH. ring. Qed.
  Lemma total2 x y z a b k : (forall k, gd z k = gd x k * a + gd y k * b) -> total z k = total x k * a + total y k * b.
  Proof. intros H. unfold total. induction (filter _ L) as [|k' l IH]; cbn; [ring|]. rewrite H. unfold lsum in IH. rewrite IH. ring. Qed.
  Lemma total3 x y w z a b c k : (forall k, gd z k = gd x k * a + gd y k * b + gd w k * c) -> total z k = total x k * a + total y k * b + total w k * c.
  Proof. intros H. unfold total. induction (filter _ L) as [|k' l IH]; cbn; [ring|]. rewrite H. unfold lsum in IH. rewrite IH. ring. Qed.

  Lemma mg_u u x y : mg x y -> mg (s_apply_u Rops u x) (s_apply_u Rops u y).
  Proof.
    intros (Kx & Ky & I & E & D). split; [apply keys_ok_u, Kx|]. split; [apply keys_ok_u, Ky|]. split; [rewrite names_u; exact I|].
    destruct x as [f d], y as [f' d']. unfold s_get_f in *. cbn in E. subst f'. destruct (lin_u u f) as (f'' & a & H).
    destruct (H d) as (E1 & D1), (H d') as (E2 & D2). rewrite E1, E2. split; [reflexivity|]. intros k. rewrite D2, D.
    symmetry. exact (total1 _ _ a k D1).
  Qed.
  Lemma mg_b b x y x' y' : mg x y -> mg x' y' -> mg (s_apply_b Rops b x x') (s_apply_b Rops b y y').
  Proof.
    intros (Kx & Ky & I & E & D) (Kx' & Ky' & I' & E' & D'). split; [apply keys_ok_b, Kx|]. split; [apply keys_ok_b, Ky|].
    split; [intros k Hk; apply names_b in Hk; [destruct Hk; auto|exact Kx']|].
    destruct x as [f d], y as [g e], x' as [f' d'], y' as [g' e']. unfold s_get_f in *. cbn in E, E'. subst g g'.
    destruct (lin_b b f f') as (f'' & a & a' & H).
    destruct (H d d' Kx') as (E1 & D1), (H e e' Ky') as (E2 & D2). rewrite E1, E2. split; [reflexivity|]. intros k. rewrite D2, D, D'.
    symmetry. exact (total2 _ _ _ a a' k D1).
  Qed.
  Lemma mg_h x y x' y' x'' y'' : mg x y -> mg x' y' -> mg x'' y'' -> mg (s_hypot3 Rops x x' x'') (s_hypot3 Rops y y' y'').
  Proof.
    intros (Kx & Ky & I & E & D) (Kx' & Ky' & I' & E' & D') (Kx'' & Ky'' & I'' & E'' & D''). split; [apply keys_ok_h, Kx|]. split; [apply keys_ok_h, Ky|].
    split; [intros k Hk; apply names_h in Hk; [destruct Hk as [|[|]]; auto|exact Kx'|exact Kx'']|].
    destruct x as [f d], y as [g e], x' as [f' d'], y' as [g' e'], x'' as [f'' d''], y'' as [g'' e'']. unfold s_get_f in *. cbn in E, E', E''. subst g g' g''.
    destruct (lin_h f f' f'') as (f3 & a & a' & a'' & H).
    destruct (H d d' d'' Kx' Kx'') as (E1 & D1), (H e e' e'' Ky' Ky'') as (E2 & D2). rewrite E1, E2. split; [reflexivity|]. intros k. rewrite D2, D, D', D''.
    symmetry. exact (total3 _ _ _ _ a a' a'' k D1).
  Qed.
  Lemma total_nil f k : total (mks f []) k = 0.
  Proof. unfold total. induction (filter _ L) as [|k' l IH]; cbn; [reflexivity|]. unfold lsum in IH. cbn in IH. rewrite IH. ring. Qed.
  Lemma mg_const v : mg (s_constant v) (s_constant v).
  Proof.
    split; [constructor|]. split; [constructor|]. split; [intros k []|]. split; [reflexivity|]. intros k. symmetry. apply total_nil.
  Qed.
  Lemma mg_var k v : NoDup L -> In k L -> mg (s_variable Rops k v) (s_variable Rops (rho k) v).
  Proof.
    intros ND H. split; [apply keys_ok_var|]. split; [apply keys_ok_var|]. split; [intros k' [<-|[]]; exact H|]. split; [reflexivity|].
    intros k'. assert (Z : forall l, ~ In k l -> lsum (map (gd (s_variable Rops k v)) (filter (fun k0 => String.eqb (rho k0) k') l)) = 0).
    { induction l as [|k1 l IH]; cbn; [reflexivity|]. intros N. destruct (String.eqb (rho k1) k'); cbn; [|apply IH; tauto].
      unfold lsum in IH. rewrite IH by tauto. unfold s_get_d. cbn. rewrite (proj2 (String.eqb_neq k k1)) by (intros ->; tauto). rcbn. ring. }
    unfold s_get_d at 1. cbn. clear -ND H Z. induction L as [|k1 l IH]; [destruct H|]. inversion ND; subst. cbn [filter map lsum fold_right].
    destruct (String.eqb_spec k1 k) as [->|N].
    - destruct (String.eqb_spec (rho k) k') as [<-|N']; cbn.
      + specialize (Z l). unfold lsum in Z. rewrite Z by assumption. unfold s_get_d. cbn. rewrite String.eqb_refl. rcbn. ring.
      + specialize (Z l). unfold lsum in Z. rewrite Z by assumption. reflexivity.
    - destruct H as [H|H]; [congruence|]. rewrite IH by assumption. destruct (String.eqb (rho k1) k'); cbn; [|reflexivity].
      unfold lsum. rewrite (absent_zero Rops (s_variable Rops k v) k1) by (intros [E|[]]; cbn in E; congruence). rcbn. ring.
  Qed.
  Lemma mg_assign o x y x' y' : mg x y -> mg x' y' -> mg (s_assign Rops o x (Some x')) (s_assign Rops o y (Some y')).
  Proof.
    intros (Kx & Ky & I & E & D) (Kx' & Ky' & I' & E' & D'). split; [apply keys_ok_assign, Kx|]. split; [apply keys_ok_assign, Ky|]. split.
    { intros k Hk. destruct x as [f d], x' as [f' d']. change (names ?z) with (keys (s_d z)) in *.
      destruct o; cbn [s_assign] in Hk; unfold s_add_assign, s_sub_assign, s_mul_assign, s_div_assign in Hk; cbv zeta in Hk; cbn [s_f s_d] in Hk;
        apply in_keys_merge in Hk; try exact Kx'; rewrite ?keys_map in Hk; destruct Hk; auto. }
    destruct x as [f d], y as [g e], x' as [f' d'], y' as [g' e']. unfold s_get_f in *. cbn in E, E'. subst g g'.
    destruct (lin_assign o f f') as (f'' & a & a' & H).
    destruct (H d d' Kx') as (E1 & D1), (H e e' Ky') as (E2 & D2). rewrite E1, E2. split; [reflexivity|]. intros k. rewrite D2, D, D'.
    symmetry. exact (total2 _ _ _ a a' k D1).
  Qed.
  Lemma mg_self o x y : mg x y -> mg (s_assign Rops o x None) (s_assign Rops o y None).
  Proof.
    intros (Kx & Ky & I & E & D). split; [apply keys_ok_assign, Kx|]. split; [apply keys_ok_assign, Ky|]. split.
    { intros k Hk. destruct x as [f d]. change (names ?z) with (keys (s_d z)) in *.
      destruct o; cbn [s_assign] in Hk; unfold s_add_assign, s_sub_assign, s_mul_assign, s_div_assign in Hk; cbv zeta in Hk; cbn [s_f s_d] in Hk;
        rewrite merge_self in Hk by (first [exact Kx|apply nodup_map, Kx]); rewrite ?keys_map in Hk; auto. }
    destruct x as [f d], y as [g e]. unfold s_get_f in *. cbn in E. subst g.
    destruct (lin_self o f) as (f'' & a & H).
    destruct (H d Kx) as (E1 & D1), (H e Ky) as (E2 & D2). rewrite E1, E2. split; [reflexivity|]. intros k. rewrite D2, D.
    symmetry. exact (total1 _ _ a k D1).
  Qed.
  Lemma mg_assign_s o x y s : mg x y -> mg (s_assign_s Rops o x s) (s_assign_s Rops o y s).
  Proof.
    intros (Kx & Ky & I & E & D). split; [apply keys_ok_assign_s, Kx|]. split; [apply keys_ok_assign_s, Ky|]. split.
    { assert (Q : o = Asub -> forall a b : R, o_sub Rops a b = o_add Rops a (o_neg Rops b)) by (intros _ a b; rcbn; ring).
      rewrite (scalar_inplace Rops o x s Kx Q), names_u. exact I. }
    destruct x as [f d], y as [g e]. unfold s_get_f in *. cbn in E. subst g.
    destruct (lin_assign_s o f s) as (f'' & a & H).
    destruct (H d Kx) as (E1 & D1), (H e Ky) as (E2 & D2). rewrite E1, E2. split; [reflexivity|]. intros k. rewrite D2, D.
    symmetry. exact (total1 _ _ a k D1).
  Qed.
  Lemma mg_run env env' e : (forall i, occurs i e -> mg (env i) (env' i)) -> mg (s_run Rops env e) (s_run Rops env' e).
  Proof.
    induction e; cbn [s_run occurs]; intros H.
    - auto. - apply mg_const. - apply mg_u, IHe, H.
    - apply mg_b; [apply IHe1|apply IHe2]; intros; apply H; auto.
    - apply mg_h; [apply IHe1|apply IHe2|apply IHe3]; intros; apply H; auto.
  Qed.

  (** *** programs *)
  Lemma mg_get st st' r x : Forall2 mg st st' -> get st r = Ok x -> exists y, get st' r = Ok y /\ mg x y.
  Proof.
    intros H. unfold get. revert r. induction H as [|a b st st' Hab H IH]; intros [|r]; cbn; try discriminate.
    - intros E. injection E as <-. eauto.
    - apply IH.
  Qed.
  Lemma mg_get_not st st' r : Forall2 mg st st' -> (forall x, get st r <> Ok x) -> get st r = UB /\ get st' r = UB.
  Proof.
    intros H. unfold get. revert r. induction H as [|a b st st' Hab H IH]; intros [|r]; cbn; auto. intros N. destruct (N a eq_refl).
  Qed.
  Lemma mg_put st st' r x y : Forall2 mg st st' -> mg x y -> Forall2 mg (put st r x) (put st' r y).
  Proof. intros H Hx. revert r. induction H; intros [|r]; cbn; constructor; auto. Qed.
  Definition same_outcome (m m' : res (list (ss R))) : Prop :=
    match m, m' with Ok st, Ok st' => Forall2 mg st st' | Ok _, _ | _, Ok _ => False | _, _ => m = m' end.
  Definition same1 (m m' : res (ss R)) : Prop := match m, m' with Ok x, Ok y => mg x y | UB, UB => True | _, _ => False end.
  Lemma same_get st st' r : Forall2 mg st st' -> same1 (get st r) (get st' r).
  Proof.
    intros H. destruct (get st r) as [x| | |] eqn:E.
    - destruct (mg_get _ _ _ _ H E) as (y & -> & M). exact M.
    - destruct (mg_get_not st st' r H) as (A & B); [rewrite E; discriminate|congruence].
    - destruct (mg_get_not st st' r H) as (A & B); [rewrite E; discriminate|congruence].
    - destruct (mg_get_not st st' r H) as (A & ->); [rewrite E; discriminate|exact Logic.I].
  Qed.
  Lemma same_bind (m m' : res (ss R)) (k k' : ss R -> res (ss R)) : same1 m m' -> (forall x y, mg x y -> same1 (k x) (k' y)) ->
    same1 (x <- m ;; k x) (x <- m' ;; k' x).
  Proof. destruct m, m'; cbn; try contradiction; auto. Qed.
  Lemma same_write st st' r m m' : Forall2 mg st st' -> same1 m m' -> same_outcome (s_write st r m) (s_write st' r m').
  Proof.
    intros H Hm. unfold s_write. pose proof (same_get st st' r H) as G.
    destruct (get st r), (get st' r); cbn in G; try contradiction; cbn; [|reflexivity].
    destruct m, m'; cbn in Hm; try contradiction; cbn; [|reflexivity]. apply mg_put; assumption.
  Qed.
  Lemma same_step s st st' : Forall2 mg st st' -> same_outcome (s_step Rops s st) (s_step Rops s st').
  Proof.
    intros H. destruct s; cbn [s_step]; try exact H; apply same_write; try exact H.
    - apply mg_const.
    - apply same_get, H.
    - apply same_bind; [apply same_get, H|]. intros x y M. apply mg_u, M.
    - apply same_bind; [apply same_get, H|]. intros x y M. apply same_bind; [apply same_get, H|]. intros x' y' M'. apply mg_b; assumption.
    - apply same_bind; [apply same_get, H|]. intros x y M. apply same_bind; [apply same_get, H|]. intros x' y' M'.
      apply same_bind; [apply same_get, H|]. intros x'' y'' M''. apply mg_h; assumption.
    - apply same_bind; [apply same_get, H|]. intros x y M. apply same_bind; [apply same_get, H|]. intros x' y' M'.
      destruct (Nat.eqb a r); [apply mg_self; assumption|apply mg_assign; assumption].
    - apply same_bind; [apply same_get, H|]. intros x y M. apply mg_assign_s, M.
  Qed.
  Lemma same_test k st st' : Forall2 mg st st' -> s_test Rops k st = s_test Rops k st'.
  Proof.
    intros H. destruct k; cbn [s_test]; pose proof (same_get st st' a H) as G; destruct (get st a), (get st' a); cbn in G; try contradiction; cbn; try reflexivity.
    - pose proof (same_get st st' b H) as G'. destruct (get st b), (get st' b); cbn in G'; try contradiction; cbn; [|reflexivity].
      unfold ss_compare. destruct G as (_ & _ & _ & E & _), G' as (_ & _ & _ & E' & _). unfold s_get_f in *. rewrite E, E'. reflexivity.
    - unfold ss_compare_s. destruct G as (_ & _ & _ & E & _). unfold s_get_f in *. rewrite E. reflexivity.
    - unfold s_compare_ss, ss_compare_s. destruct G as (_ & _ & _ & E & _). unfold s_get_f in *. rewrite E. reflexivity.
  Qed.
  Definition same_end (m m' : option (res (list (ss R)))) : Prop :=
    match m, m' with Some a, Some b => same_outcome a b | None, None => True | _, _ => False end.
  Lemma same_exec fuel : forall s st st', Forall2 mg st st' -> same_end (s_exec Rops fuel s st) (s_exec Rops fuel s st').
  Proof.
    induction fuel as [|fuel IH]; intros s st st' H; [exact Logic.I|].
    pose proof (same_step s st st' H) as B.
    destruct s; try exact B; cbn [s_exec].
    - specialize (IH s1 st st' H) as E. destruct (s_exec Rops fuel s1 st) as [[]|], (s_exec Rops fuel s1 st') as [[]|]; cbn in E; try contradiction; try discriminate;
        try (cbn; exact E). apply IH, E.
    - rewrite (same_test k st st' H). destruct (s_test Rops k st') as [[|]| | |]; cbn; auto; apply IH, H.
    - rewrite (same_test k st st' H). destruct (s_test Rops k st') as [[|]| | |]; cbn; auto.
      specialize (IH s st st' H) as E. destruct (s_exec Rops fuel s st) as [[]|], (s_exec Rops fuel s st') as [[]|]; cbn in E; try contradiction; try discriminate;
        try (cbn; exact E). apply IH, E.
  Qed.
  Lemma exec_merges fuel s st st' st1 : Forall2 mg st st' -> s_exec Rops fuel s st = Some (Ok st1) ->
    exists st1', s_exec Rops fuel s st' = Some (Ok st1') /\ Forall2 mg st1 st1'.
  Proof.
    intros H E. pose proof (same_exec fuel s st st' H) as Q. rewrite E in Q.
    destruct (s_exec Rops fuel s st') as [[st1'| | |]|]; cbn in Q; try contradiction. eauto.
  Qed.

  (** *** sessions *)
  Definition hmg (st st' : zheap R) : Prop := Forall2 mg (zobjs st) (zobjs st') /\ znames st' = znames st.
  Lemma hmg_get st st' r : hmg st st' ->
    match zget st r, zget st' r with Some (o, x), Some (o', y) => o' = o /\ mg x y | None, None => True | _, _ => False end.
  Proof.
    intros (H & E). unfold zget. rewrite E. destruct (znames st r) as [o|]; [|exact Logic.I].
    assert (Q : forall l l', Forall2 mg l l' -> forall n,
      match nth_error l n, nth_error l' n with Some x, Some y => mg x y | None, None => True | _, _ => False end).
    { intros l l' F. induction F as [|a b l l' Hab F IH]; intros [|n]; cbn; auto. apply IH. }
    specialize (Q _ _ H o). destruct (nth_error (zobjs st) o), (nth_error (zobjs st') o); try contradiction; auto.
  Qed.
  Lemma hmg_new st st' r x y : hmg st st' -> mg x y -> hmg (znew st r x) (znew st' r y).
  Proof.
    intros (H & E) M. split; cbn; [apply Forall2_app; auto|]. assert (N : List.length (zobjs st') = List.length (zobjs st)) by (clear - H; induction H; cbn; congruence). rewrite E, N. reflexivity.
  Qed.
  Lemma hmg_put st st' o x y : hmg st st' -> mg x y -> hmg (zput st o x) (zput st' o y).
  Proof. intros (H & E) M. split; cbn; [apply mg_put; assumption|exact E]. Qed.
  Lemma hmg_step s st st' : NoDup L -> hmg st st' -> zplain L s -> hmg (snd (zstep Rops s st)) (snd (zstep Rops (zrename rho s) st')).
  Proof.
    intros ND H I. destruct s; cbn [zstep zrename zplain] in *.
    - subst d. cbn. apply hmg_new; [exact H|]. exact (mg_const f).
    - cbn. apply hmg_new; [exact H|apply mg_const].
    - cbn. apply hmg_new; [exact H|apply mg_var; assumption].
    - pose proof (hmg_get st st' a H) as G. destruct (zget st a) as [(o, x)|], (zget st' a) as [(o', y)|]; try contradiction; cbn; [|exact H].
      destruct G as (-> & M), H as (H & E). split; cbn; [exact H|rewrite E; reflexivity].
    - pose proof (hmg_get st st' a H) as G. destruct (zget st a) as [(o, x)|], (zget st' a) as [(o', y)|]; try contradiction; cbn; [|exact H].
      apply hmg_new; [exact H|apply mg_u, G].
    - pose proof (hmg_get st st' a1 H) as G. pose proof (hmg_get st st' a2 H) as G'.
      destruct (zget st a1) as [(o, x)|], (zget st' a1) as [(o', y)|]; try contradiction; cbn; [|exact H].
      destruct (zget st a2) as [(p, x')|], (zget st' a2) as [(p', y')|]; try contradiction; cbn; [|exact H].
      apply hmg_new; [exact H|]. apply mg_b; [apply G|apply G'].
    - pose proof (hmg_get st st' a1 H) as G. pose proof (hmg_get st st' a2 H) as G'. pose proof (hmg_get st st' a3 H) as G''.
      destruct (zget st a1) as [(o, x)|], (zget st' a1) as [(o', y)|]; try contradiction; cbn; [|exact H].
      destruct (zget st a2) as [(p, x')|], (zget st' a2) as [(p', y')|]; try contradiction; cbn; [|exact H].
      destruct (zget st a3) as [(q, x'')|], (zget st' a3) as [(q', y'')|]; try contradiction; cbn; [|exact H].
      apply hmg_new; [exact H|]. apply mg_h; [apply G|apply G'|apply G''].
    - pose proof (hmg_get st st' a H) as G. pose proof (hmg_get st st' r H) as G'.
      destruct (zget st a) as [(oa, y)|], (zget st' a) as [(oa', y')|]; try contradiction; cbn; [|exact H].
      destruct (zget st r) as [(q, x)|], (zget st' r) as [(q', x')|]; try contradiction; cbn; [|exact H].
      destruct G as (-> & M), G' as (-> & M'). apply hmg_put; [exact H|].
      destruct (Nat.eqb oa q); [apply mg_self; assumption|apply mg_assign; assumption].
    - pose proof (hmg_get st st' r H) as G'. destruct (zget st r) as [(q, x)|], (zget st' r) as [(q', x')|]; try contradiction; cbn [snd]; [|exact H].
      destruct G' as (-> & M'). destruct o; [apply hmg_new|apply hmg_new|apply hmg_put|apply hmg_put]; try exact H; [apply mg_u|apply mg_u|apply mg_assign_s|apply mg_assign_s]; exact M'.
  Qed.
  Lemma hmg_session w : NoDup L -> List.Forall (zplain L) w -> forall st st', hmg st st' -> hmg (zsession Rops w st) (zsession Rops (map (zrename rho) w) st').
  Proof.
    intros ND I. induction I as [|s w Hs I IH]; cbn; intros st st' H; [exact H|]. apply IH, hmg_step; assumption.
  Qed.
End Merge.

Lemma variables_merged rho n nm e p : let L := map nm (seq 0 n) in
  distinct n nm -> vars_below n e ->
  merges rho L (s_run Rops (fun i => s_variable Rops (nm i) (p i)) e) (s_run Rops (fun i => s_variable Rops (rho (nm i)) (p i)) e).
Proof.
  intros L D V. apply mg_run. intros i Hi. pose proof (vars_occurs n e i V Hi) as Lt. apply mg_var.
  - unfold L. clear - D. assert (Q : forall m, (m <= n)%nat -> NoDup (map nm (seq 0 m))).
    { induction m as [|m IH]; intros H; [constructor|]. rewrite seq_S, map_app. cbn.
      apply (proj2 (NoDup_Add (Add_app (nm m) (map nm (seq 0 m)) []))). rewrite app_nil_r. split; [apply IH; lia|].
      rewrite in_map_iff. intros (j & E & Hj). apply in_seq in Hj. apply D in E; lia. }
    apply Q. lia.
  - apply in_map, in_seq. lia.
Qed.
Lemma session_merged rho L w r : NoDup L -> List.Forall (zplain L) w ->
  match zget (zsession Rops w zstart) r, zget (zsession Rops (map (zrename rho) w) zstart) r with
  | Some (_, x), Some (_, y) => merges rho L x y
  | None, None => True
  | _, _ => False
  end.
Proof.
  intros ND I. pose proof (hmg_get rho L _ _ r (hmg_session rho L w ND I zstart zstart (conj (Forall2_nil _) eq_refl))) as G.
  destruct (zget (zsession Rops w zstart) r) as [(o, x)|], (zget (zsession Rops (map (zrename rho) w) zstart) r) as [(o', y)|]; try exact G. apply G.
Qed.
